(** Words of the statements about the windows of image files in binary64 (C107). *)
From Coq Require Import ZArith Reals.
From Flocq Require Import Core BinarySingleNaN.
From Verif Require Import FloatModel FloatGeoModel FloatGeoSpec FloatImageModel.
Open Scope R_scope.

(** The physical coordinate [x] in pixels from the corner of the file, in real numbers. *)
Definition from_the_corner (size origin x : R) : R := (x - origin) / size.
(** The pixels [off] to [off + size] are the part of the interval from [lo] to [hi] which is in a file of [limit] pixels, up to whole pixels
    and to [d]: all this part is there, and less than a pixel more on each side. *)
Definition spans (off size limit : Z) (lo hi d : R) : Prop :=
  (forall v, lo <= v <= hi -> 0 <= v <= IZR limit -> IZR off - d <= v <= IZR (off + size) + d) /\
  lo - 1 - d < IZR off /\ IZR (off + size) < hi + 1 + d.
(** The window is in a file of [height] rows and [width] columns. *)
Definition in_the_file (height width : Z) (w : fwindow) : Prop :=
  (0 <= fi_row w /\ 0 <= fi_height w /\ fi_row w + fi_height w <= height /\ 0 <= fi_col w /\ 0 <= fi_width w /\ fi_col w + fi_width w <= width)%Z.
(** The corners of the region are at most [m] pixels away from the corner of the file. *)
Definition region_up_to (m : R) (t : faffine) (y0 x0 y1 x1 : b64) : Prop :=
  physical_up_to m (B2R (fa_e t)) (B2R (fa_f t)) y0 /\ physical_up_to m (B2R (fa_a t)) (B2R (fa_c t)) x0 /\
  physical_up_to m (B2R (fa_e t)) (B2R (fa_f t)) y1 /\ physical_up_to m (B2R (fa_a t)) (B2R (fa_c t)) x1.
(** A position of the pixels of a window, with the geotransform [t'] of the window, is the one of the same pixel in the file, whose
    geotransform is [t]. *)
Definition same_place (t t' : faffine) (w : fwindow) (e : R) : Prop :=
  forall row col,
    Rabs (physical_of (B2R (fa_e t')) (B2R (fa_f t')) row - physical_of (B2R (fa_e t)) (B2R (fa_f t)) (IZR (fi_row w) + row)) <= e * Rabs (B2R (fa_e t)) /\
    Rabs (physical_of (B2R (fa_a t')) (B2R (fa_c t')) col - physical_of (B2R (fa_a t)) (B2R (fa_c t)) (IZR (fi_col w) + col)) <= e * Rabs (B2R (fa_a t)).
