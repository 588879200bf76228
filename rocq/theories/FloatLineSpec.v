(** Words of the statements about the line of sight in binary64 (C98). *)
From Coq Require Import ZArith Reals List.
From Flocq Require Import Core BinarySingleNaN.
From Verif Require Import FloatModel FloatInterpModel.
Open Scope R_scope.

(** Numbers between -2^18 and 2^18, which are zero or not extremely small. *)
Definition reach : R := 262144.
Definition usual_number (x : b64) : Prop :=
  is_finite x = true /\ Rabs (B2R x) <= reach /\ (B2R x = 0 \/ bpow radix2 (-400) <= Rabs (B2R x)).
Definition usual_point (p : fvec3) : Prop := usual_number (fv_row p) /\ usual_number (fv_col p) /\ usual_number (fv_alt p).
(** A position whose coordinates are numbers between -2^18 and 2^18. *)
Definition in_reach (p : fvec3) : Prop :=
  (is_finite (fv_row p) = true /\ Rabs (B2R (fv_row p)) <= reach) /\ (is_finite (fv_col p) = true /\ Rabs (B2R (fv_col p)) <= reach) /\
  (is_finite (fv_alt p) = true /\ Rabs (B2R (fv_alt p)) <= reach).
(** [p] is within [e], along each axis, of the point of parameter [t] on the straight line through [a] (parameter 0) and [b]
    (parameter 1). *)
Definition line_at (a b : fvec3) (t e : R) (p : fvec3) : Prop :=
  Rabs (B2R (fv_row p) - (B2R (fv_row a) + t * (B2R (fv_row b) - B2R (fv_row a)))) <= e /\
  Rabs (B2R (fv_col p) - (B2R (fv_col a) + t * (B2R (fv_col b) - B2R (fv_col a)))) <= e /\
  Rabs (B2R (fv_alt p) - (B2R (fv_alt a) + t * (B2R (fv_alt b) - B2R (fv_alt a)))) <= e.
(** A thousandth of a micropixel, or of a micrometre. *)
Definition nano : R := / 1000000000.
(** [a] and [b] are vertices [i] and [i + 1]. *)
Definition segment_at (los : list fvec3) (i : nat) (a b : fvec3) : Prop := nth_error los i = Some a /\ nth_error los (S i) = Some b.
(** [a] and [b] are two vertices that follow each other, or the last one and the first one (a line of sight whose first vertex
    is exactly on a face of the box of the DTM is walked from its last vertex). *)
Definition follows (los : list fvec3) (a b : fvec3) : Prop :=
  (exists i, segment_at los i a b) \/ (nth_error los (length los - 1) = Some a /\ nth_error los 0 = Some b).
(** No segment is vertical. *)
Definition no_vertical (los : list fvec3) : Prop :=
  forall a b, follows los a b -> B2R (fv_row a) <> B2R (fv_row b) \/ B2R (fv_col a) <> B2R (fv_col b).
(** The altitudes of the raster are usual numbers. *)
Definition usual_altitudes (m : fraster) : Prop :=
  forall r c, (0 <= r < fr_rows m)%Z -> (0 <= c < fr_cols m)%Z -> usual_number (fr_at m r c).
(** The position is exactly in the box of the DTM: in the range of the rows and of the columns, and neither under all the
    altitudes nor above all of them. *)
Definition in_the_box (m : fraster) (p : fvec3) : Prop :=
  (is_finite (fv_row p) = true /\ 0 <= B2R (fv_row p) <= IZR (fr_rows m - 1)) /\
  (is_finite (fv_col p) = true /\ 0 <= B2R (fv_col p) <= IZR (fr_cols m - 1)) /\
  is_finite (fv_alt p) = true /\
  (exists r c, (0 <= r < fr_rows m)%Z /\ (0 <= c < fr_cols m)%Z /\ B2R (fr_at m r c) <= B2R (fv_alt p)) /\
  (exists r c, (0 <= r < fr_rows m)%Z /\ (0 <= c < fr_cols m)%Z /\ B2R (fv_alt p) <= B2R (fr_at m r c)).
