(** Specification of the georeferencing helpers. *)
From Coq Require Import Reals ZArith List.
From Verif Require Import Num ProjModel.
Open Scope R_scope.

(** The geotransform is invertible. *)
Definition invertible (t : affine) : Prop := af_a t * af_e t - af_b t * af_d t <> 0.
Definition invertible6 (t : gdal6) : Prop := g1 t * g5 t - g2 t * g4 t <> 0.

(** The ground position of the point (x, y) of the image plane, x pixels to the right and y
    pixels below the outer corner of the image (GDAL convention). *)
Definition ground_x (t : affine) (x y : R) : R := af_c t + af_a t * x + af_b t * y.
Definition ground_y (t : affine) (x y : R) : R := af_f t + af_d t * x + af_e t * y.

(** A row holds a valid geographic position. *)
Definition valid_lonlat (p : row3) : Prop :=
  exists lon lat alt, p = R3 (Some lon) (Some lat) (Some alt) /\
    -180 <= lon <= 180 /\ -90 <= lat <= 90.
