(** Words of the statements about the end of the DTM intersection in binary64 (C96). *)
From Coq Require Import ZArith Reals.
From Flocq Require Import Core BinarySingleNaN.
From Verif Require Import FloatModel FloatInterpModel FloatWalkModel.
Open Scope R_scope.

(** A segment whose start and direction are finite numbers. *)
Definition finite_segment (s : fsegment) : Prop :=
  is_finite (f_col0 s) = true /\ is_finite (f_row0 s) = true /\ is_finite (f_d0 s) = true /\ is_finite (f_d1 s) = true.
(** Numbers whose differences do not overflow. *)
Definition moderate (x : b64) : Prop := is_finite x = true /\ Rabs (B2R x) <= bpow radix2 1000.
Definition moderate_point (p : fvec3) : Prop := moderate (fv_row p) /\ moderate (fv_col p) /\ moderate (fv_alt p).

(** The altitudes are numbers between -16384 m and 16384 m, on at most [2^18] rows and columns. *)
Definition top : R := 16384.
Definition usual_terrain (m : fraster) : Prop :=
  (2 <= fr_rows m <= 2 ^ 18)%Z /\ (2 <= fr_cols m <= 2 ^ 18)%Z /\
  forall r c, (0 <= r < fr_rows m)%Z -> (0 <= c < fr_cols m)%Z -> is_finite (fr_at m r c) = true /\ Rabs (B2R (fr_at m r c)) <= top.
(** A position in the raster. *)
Definition in_raster (m : fraster) (p : fvec3) : Prop :=
  is_finite (fv_row p) = true /\ is_finite (fv_col p) = true /\ is_finite (fv_alt p) = true /\
  0 <= B2R (fv_row p) <= IZR (fr_rows m - 1) /\ 0 <= B2R (fv_col p) <= IZR (fr_cols m - 1) /\ Rabs (B2R (fv_alt p)) <= 2 * top.
(** Two positions that are at most one cell apart along each axis. *)
Definition one_cell (p q : fvec3) : Prop :=
  Rabs (B2R (fv_row q) - B2R (fv_row p)) <= 1 /\ Rabs (B2R (fv_col q) - B2R (fv_col p)) <= 1.
(** The line of sight goes down through the surface: it enters above the altitude [a], it leaves below the altitude [h], and
    not both ends are on the surface up to a micrometre (2^-20 m). *)
Definition goes_down (p : fvec3) (a : b64) (q : fvec3) (h : b64) : Prop :=
  B2R a <= B2R (fv_alt p) /\ B2R (fv_alt q) <= B2R h /\ bpow radix2 (-20) <= (B2R (fv_alt p) - B2R a) + (B2R h - B2R (fv_alt q)).
