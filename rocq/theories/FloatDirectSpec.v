(** Words of the statements about the direct localization of an RPC model on a DTM in binary64 (C106). *)
From Coq Require Import ZArith Reals List.
From Flocq Require Import Core BinarySingleNaN.
From Verif Require Import RpcModel RpcSpec DtmModel DtmSpec FloatModel FloatInterpModel FloatWalkModel FloatWalkSpec FloatGeoModel FloatGeoSpec FloatTerModel FloatTerSpec FloatNewtonModel FloatLosModel FloatLosSpec.
Import ListNotations.
Open Scope R_scope.

(** [bottom] and [top] are the altitudes of the localizations: the bounds [lo] and [hi] when they are in the range of the model, the
    middle half of the range otherwise. *)
Definition localized_at (m : rpc) (M : fmodel) (lo hi bottom top : b64) : Prop :=
  used_altitudes m M (Some (lo, hi)) bottom top \/ (far_altitudes m M lo hi /\ bottom = middle_lowest M /\ top = middle_highest M).
(** A line of sight of the pixel (C105), from [t] at the altitude [hi] to [b] at the altitude [lo]: the exact model sees its two ends in
    the pixel, or two points of the same line. *)
Definition sight_line (m : rpc) (low : fplace -> Prop) (row col lo hi bottom top : b64) (t b : fplace) : Prop :=
  (top = hi /\ bottom = lo /\ seen_end m row col hi t /\ low b) \/
  (exists t0 b0, seen_end m row col top t0 /\ low b0 /\ on_the_line t0 b0 (B2R hi) t /\ on_the_line t0 b0 (B2R lo) b).
(** The altitudes [lo] and [hi] are one metre, up to 10^-9, below and above all the altitudes of the DTM. *)
Definition around_the_dtm (r : fraster) (lo hi : b64) : Prop :=
  is_finite lo = true /\ is_finite hi = true /\
  forall i j, (0 <= i < fr_rows r)%Z -> (0 <= j < fr_cols r)%Z ->
    B2R lo <= B2R (fr_at r i j) - (1 - 1 / 1000000000) /\ B2R (fr_at r i j) + (1 - 1 / 1000000000) <= B2R hi.
(** A valid longitude and latitude. *)
Definition valid_position (q : fter) : Prop :=
  is_finite (ft_lon q) = true /\ is_finite (ft_lat q) = true /\ is_nan (ft_alt q) = false /\ Rabs (B2R (ft_lon q)) <= 180 /\ Rabs (B2R (ft_lat q)) <= 90.
(** The line of sight, in the order of the code: the highest end first. *)
Definition end_to_end (a b : fplace) (los : list fter) : Prop :=
  los = [FTer (fg_lon a) (fg_lat a) (fg_alt a); FTer (fg_lon b) (fg_lat b) (fg_alt b)].
(** What is given for the outcome [g0] of the intersection: the position when it is valid, NaN when it is not. *)
Definition given (g0 g : fground) : Prop :=
  match g0 with
  | GPoint q => (valid_position q /\ g = GPoint q) \/ (~ valid_position q /\ g = GNaN)
  | _ => g = g0
  end.
