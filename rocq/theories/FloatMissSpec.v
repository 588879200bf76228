(** Words of the statements about the cells that the DTM intersection does not skip in binary64 (C99). *)
From Coq Require Import ZArith Reals.
From Flocq Require Import Core BinarySingleNaN.
From Verif Require Import InterpModel InterpSpec FloatModel FloatInterpModel FloatWalkModel FloatWalkSpec FloatLineSpec PropertiesFloat2.
Open Scope R_scope.

(** The altitude is more than a millimetre above (below) the exact bilinear surface at this position. *)
Definition above_ground (m : fraster) (p : fvec3) : Prop :=
  forall i j, is_cell (real_raster m) i j -> in_cell i j (B2R (fv_row p)) (B2R (fv_col p)) ->
  bilinear_in_cell (real_raster m) i j (B2R (fv_row p)) (B2R (fv_col p)) + / 1000 < B2R (fv_alt p).
Definition below_ground (m : fraster) (p : fvec3) : Prop :=
  forall i j, is_cell (real_raster m) i j -> in_cell i j (B2R (fv_row p)) (B2R (fv_col p)) ->
  B2R (fv_alt p) < bilinear_in_cell (real_raster m) i j (B2R (fv_row p)) (B2R (fv_col p)) - / 1000.
(** The position is in the cell [(c, r)], up to 1e-9. *)
Definition close_to_cell (c r : Z) (p : fvec3) : Prop :=
  IZR c - nano <= B2R (fv_row p) <= IZR c + 1 + nano /\ IZR r - nano <= B2R (fv_col p) <= IZR r + 1 + nano.
(** The segment crosses the ground between the position [fw_p w] of the walk and the next one: the first one is above, the
    second one is below, both are in the current cell, at most one cell apart, and not lower than the end of the segment. *)
Definition crosses_ground (m : fraster) (s : fsegment) (w : fwalk) : Prop :=
  let p_1 := fw_p w in let p_2 := fw_p (fmesh_move s w) in
  in_raster m p_1 /\ in_raster m p_2 /\ close_to_cell (fw_c w) (fw_r w) p_1 /\ close_to_cell (fw_c w) (fw_r w) p_2 /\ one_cell p_1 p_2 /\
  above_ground m p_1 /\ below_ground m p_2 /\ B2R (f_z1 s) <= B2R (fv_alt p_2).
(** Along one axis, the walk keeps its index [k], or goes over the line [k] or the line [k + 1] of the raster, and then the
    position is exactly on this line. *)
Definition over_a_line (k k' : Z) (x : b64) : Prop :=
  k' = k \/ (k' = (k + 1)%Z /\ is_finite x = true /\ B2R x = IZR (k + 1)) \/ (k' = (k - 1)%Z /\ is_finite x = true /\ B2R x = IZR k).
(** The direction is longer along the axis of [x]. *)
Definition largest (x y : R) : Prop := Rabs y < Rabs x.
