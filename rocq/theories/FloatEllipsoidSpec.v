(** Words of the statements about the altitudes of a DTM read with a geoid, in binary64 (C109). *)
From Coq Require Import ZArith Reals List.
From Flocq Require Import Core BinarySingleNaN.
From Verif Require Import InterpModel InterpSpec FloatModel FloatInterpModel FloatGeoModel FloatGeoSpec FloatGeoidModel FloatGeoidSpec.
Open Scope R_scope.

(** The longitude and the latitude of the centre of a cell. *)
Definition cell_longitude (t : faffine) (col : nat) : R := physical_of (B2R (fa_a t)) (B2R (fa_c t)) (INR col).
Definition cell_latitude (t : faffine) (row : nat) : R := physical_of (B2R (fa_e t)) (B2R (fa_f t)) (INR row).
(** A DTM in degrees: its size and its place are at most [m] cells, and a thousand degrees. *)
Definition dtm_in_degrees (t : faffine) (rows cols : nat) (m : R) : Prop :=
  north_up t /\ cells_away t m /\ m * Rabs (B2R (fa_a t)) <= 1000 /\ m * Rabs (B2R (fa_e t)) <= 1000 /\ INR rows <= m /\ INR cols <= m.
(** Its cells are at least a billionth of a degree away from the poles, and at most a turn out of the range of the geoid. *)
Definition dtm_of_the_earth (g : fgeoid) (t : faffine) (rows cols : nat) (m : R) : Prop :=
  dtm_in_degrees t rows cols m /\
  (forall col, (col < cols)%nat -> first_meridian g - 359 <= cell_longitude t col <= first_meridian g + 719) /\
  (forall row, (row < rows)%nat -> Rabs (cell_latitude t row) <= 90 - / 1000000000).
(** The altitude above the ellipsoid of a cell, [alt], is the one of the file, [a], plus the height of the geoid at the centre of this cell; it is a NaN if
    one of them is. *)
Definition ellipsoid_altitude (g : fgeoid) (t : faffine) (mg m d : R) (row col : nat) (a alt : b64) : Prop :=
  exists lon lat h, within lon (cell_longitude t col) (rounding 3 * m * Rabs (B2R (fa_a t))) /\ within lat (cell_latitude t row) (rounding 3 * m * Rabs (B2R (fa_e t))) /\
    height_found g mg d lon lat h /\
    (is_finite a = true -> is_finite h = true -> Rabs (B2R a) <= bpow radix2 1000 -> Rabs (B2R h) <= bpow radix2 1000 ->
       within alt (B2R a + B2R h) (rounding 1 * (1 + Rabs (B2R a) + Rabs (B2R h)))) /\
    (is_nan a = true \/ is_nan h = true -> is_nan alt = true).
