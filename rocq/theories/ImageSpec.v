(** What a user expects of the window of an image. *)
From Coq Require Import Reals ZArith List Bool.
From Verif Require Import Num InterpModel ProjModel ProjSpec ImageModel.
Open Scope R_scope.

(** A pixel of the file. *)
Definition in_file (f : dataset) (r c : Z) : Prop := (0 <= r < rs_rows (ds_band f))%Z /\ (0 <= c < rs_cols (ds_band f))%Z.
(** A pixel (of the file) that is in the window. *)
Definition in_window (w : window) (r c : Z) : Prop :=
  (wi_row w <= r < wi_row w + wi_height w)%Z /\ (wi_col w <= c < wi_col w + wi_width w)%Z.
(** A pixel that is in a region given by pixels, whose last row and column are excluded. *)
Definition in_pixels (r0 c0 r1 c1 r c : Z) : Prop := (r0 <= r < r1)%Z /\ (c0 <= c < c1)%Z.
(** The ground point (x, y) is strictly inside of the area of the pixel (r, c): the corner of the first pixel
    has the coordinates (0, 0). *)
Definition in_pixel_area (t : affine) (r c : Z) (x y : R) : Prop :=
  exists u v, IZR c < u < IZR c + 1 /\ IZR r < v < IZR r + 1 /\
    x = af_a t * u + af_b t * v + af_c t /\ y = af_d t * u + af_e t * v + af_f t.
(** The ground point is in the region. *)
Definition in_ground (y0 x0 y1 x1 x y : R) : Prop := y0 <= y <= y1 /\ x0 <= x <= x1.
(** Rows and columns along the axes. *)
Definition unrotated (t : affine) : Prop := af_b t = 0 /\ af_d t = 0.
