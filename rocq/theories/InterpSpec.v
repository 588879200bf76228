(** Specification of bilinear interpolation, independent of [InterpModel]'s index selection. *)
From Coq Require Import Reals ZArith.
From Verif Require Import InterpModel.
Open Scope R_scope.

(** A raster on which interpolation makes sense. *)
Definition big_enough (m : raster) : Prop := (2 <= rs_rows m)%Z /\ (2 <= rs_cols m)%Z.

(** (i,j) is the top-left node of a cell of the raster. *)
Definition is_cell (m : raster) (i j : Z) : Prop :=
  (0 <= i < rs_rows m - 1)%Z /\ (0 <= j < rs_cols m - 1)%Z.

(** (i,j) is a node of the raster. *)
Definition is_node (m : raster) (i j : Z) : Prop :=
  (0 <= i < rs_rows m)%Z /\ (0 <= j < rs_cols m)%Z.

(** The position (r,c) is in the closed cell (i,j). *)
Definition in_cell (i j : Z) (r c : R) : Prop :=
  IZR i <= r <= IZR i + 1 /\ IZR j <= c <= IZR j + 1.

(** The position is inside the hull of the nodes. *)
Definition in_hull (m : raster) (r c : R) : Prop :=
  0 <= r <= IZR (rs_rows m - 1) /\ 0 <= c <= IZR (rs_cols m - 1).

(** Linear interpolation, twice. *)
Definition lerp (a b t : R) : R := a + t * (b - a).
Definition bilinear_in_cell (m : raster) (i j : Z) (r c : R) : R :=
  lerp (lerp (rs_at m i j) (rs_at m i (j + 1)) (c - IZR j))
       (lerp (rs_at m (i + 1) j) (rs_at m (i + 1) (j + 1)) (c - IZR j))
       (r - IZR i).

(** Bounds on the four samples of a cell. *)
Definition cell_samples_within (m : raster) (i j : Z) (lo hi : R) : Prop :=
  forall a b, (a = i \/ a = i + 1)%Z -> (b = j \/ b = j + 1)%Z -> lo <= rs_at m a b <= hi.

(** All the samples follow one affine law. *)
Definition affine_raster (m : raster) (k a b : R) : Prop :=
  forall i j, is_node m i j -> rs_at m i j = k + a * IZR i + b * IZR j.
