(** Words of the statement about ground positions in physical coordinates. *)
From Coq Require Import ZArith Reals List.
From Flocq Require Import Core BinarySingleNaN.
From Verif Require Import FloatModel FloatInterpModel FloatWalkModel FloatGeoModel FloatTerModel FloatGeoSpec.
Open Scope R_scope.

(** The coordinates are finite numbers. *)
Definition finite_position (q : fter) : Prop := is_finite (ft_lon q) = true /\ is_finite (ft_lat q) = true /\ is_finite (ft_alt q) = true.
(** The exact row and column, in real numbers, of a physical position. *)
Definition exact_row (t : faffine) (q : fter) : R := index_of (B2R (fa_e t)) (B2R (fa_f t)) (B2R (ft_lat q)).
Definition exact_col (t : faffine) (q : fter) : R := index_of (B2R (fa_a t)) (B2R (fa_c t)) (B2R (ft_lon q)).
(** The raster has at most [m] rows and columns. *)
Definition cells_across (r : fraster) (m : R) : Prop := IZR (fr_rows r) <= m /\ IZR (fr_cols r) <= m.
(** The position is at most [m] cells away from the corner of the raster. *)
Definition near_the_raster (t : faffine) (m : R) (v : fter) : Prop :=
  physical_up_to m (B2R (fa_e t)) (B2R (fa_f t)) (ft_lat v) /\ physical_up_to m (B2R (fa_a t)) (B2R (fa_c t)) (ft_lon v).
(** [p] is the position [v] in indices, up to rounding errors; its altitude is the same. *)
Definition vertex_of (t : faffine) (m : R) (v : fter) (p : fvec3) : Prop :=
  within (fv_row p) (exact_row t v) (rounding 4 * m) /\ within (fv_col p) (exact_col t v) (rounding 4 * m) /\ fv_alt p = ft_alt v.
(** [q] is the position [p] in physical coordinates, up to rounding errors; its altitude is the same. *)
Definition ground_of (t : faffine) (m : R) (p : fvec3) (q : fter) : Prop :=
  ft_alt q = fv_alt p /\
  (index_up_to m (fv_row p) -> index_up_to m (fv_col p) ->
   within (ft_lat q) (physical_of (B2R (fa_e t)) (B2R (fa_f t)) (B2R (fv_row p))) (rounding 3 * m * Rabs (B2R (fa_e t))) /\
   within (ft_lon q) (physical_of (B2R (fa_a t)) (B2R (fa_c t)) (B2R (fv_col p))) (rounding 3 * m * Rabs (B2R (fa_a t)))).
(** [g] is the outcome of the intersection (C96 to C99) of the line of sight [los] with the DTM, in physical coordinates. *)
Definition intersection_of (r : fraster) (t : faffine) (m : R) (fuel cells steps : nat) (los : list fter) (g : fground) : Prop :=
  exists vs, Forall2 (vertex_of t m) los vs /\
    match flocate r fuel cells steps vs with
    | None => g = GNaN
    | Some (FFound p) => exists q, g = GPoint q /\ ground_of t m p q
    | Some FNotFound => g = GNotFound
    | Some _ => g = GNoAnswer
    end.
