(** What the conversions between indices and physical coordinates must give, written with real numbers. *)
From Coq Require Import Reals Bool.
From Flocq Require Import Core BinarySingleNaN.
From Verif Require Import FloatModel FloatGeoModel.
Open Scope R_scope.

(** [x] is a finite number within [e] of [v]. *)
Definition within (x : b64) (v e : R) : Prop := is_finite x = true /\ Rabs (B2R x - v) <= e.
(** The coefficients are finite, there is no rotation, and the sizes of the cells are between a billionth and a billion. *)
Definition north_up (t : faffine) : Prop :=
  (is_finite (fa_a t) = true /\ is_finite (fa_b t) = true /\ is_finite (fa_c t) = true /\
   is_finite (fa_d t) = true /\ is_finite (fa_e t) = true /\ is_finite (fa_f t) = true) /\
  B2R (fa_b t) = 0 /\ B2R (fa_d t) = 0 /\
  / 1000000000 <= Rabs (B2R (fa_a t)) <= 1000000000 /\ / 1000000000 <= Rabs (B2R (fa_e t)) <= 1000000000.
(** The raster and the origin of the physical coordinates are at most [m] cells apart. *)
Definition cells_away (t : faffine) (m : R) : Prop :=
  1 <= m <= 1000000000 /\ Rabs (B2R (fa_c t)) <= m * Rabs (B2R (fa_a t)) /\ Rabs (B2R (fa_f t)) <= m * Rabs (B2R (fa_e t)).
(** The index, counted from the corner of the raster, is at most [m]. *)
Definition index_up_to (m : R) (i : b64) : Prop := is_finite i = true /\ Rabs (B2R i + / 2) <= m.
(** The physical coordinate is at most [m] cells away from the corner of the raster. *)
Definition physical_up_to (m size origin : R) (x : b64) : Prop := is_finite x = true /\ Rabs (B2R x - origin) <= m * Rabs size.
(** The physical coordinate of an index (the centre of cell 0 has index 0) and the index of a physical coordinate. *)
Definition physical_of (size origin i : R) : R := origin + size * (i + / 2).
Definition index_of (size origin x : R) : R := (x - origin) / size - / 2.
(** Half a unit in the last place of the numbers between 1/2 and 1, times 2 ^ [k]. *)
Definition rounding (k : Z) : R := bpow radix2 (k - 53).
