(** Words of the statements about the lines of sight of an RPC model in binary64 (C105). *)
From Coq Require Import Reals List Bool.
From Flocq Require Import Core BinarySingleNaN.
From Verif Require Import RpcModel RpcSpec FloatModel FloatRpcModel FloatNewtonModel FloatNewtonSpec FloatConvSpec FloatLosModel.
Open Scope R_scope.

(** The pixel has two ground points, at the altitudes [lo] and [hi], and the iterations start in the well conditioned squares around
    them; the change of altitude moves the image of the start by less than 0.4 of the squares. *)
Definition has_ground_points (m : rpc) (M : fmodel) (row col lo hi : b64) (r gsd bend steep lon0 lat0 lon1 lat1 : R) : Prop :=
  is_finite row = true /\ is_finite col = true /\
  starts_near m M (FPix row col hi) r gsd bend steep lon1 lat1 /\ starts_near m M (FPix row col lo) r gsd bend steep lon0 lat0 /\
  near_altitude m (FPix row col lo) hi r gsd.
(** The altitudes of the ends: the ones asked for, in the range of the model, or the middle half of the range. *)
Definition used_altitudes (m : rpc) (M : fmodel) (bounds : option (b64 * b64)) (lo hi : b64) : Prop :=
  match bounds with
  | None => lo = middle_lowest M /\ hi = middle_highest M
  | Some (a, b) => a = lo /\ b = hi /\ is_finite lo = true /\ is_finite hi = true /\ offset_alt m - scale_alt m <= B2R lo /\ B2R hi <= offset_alt m + scale_alt m
  end.
(** A valid position of the altitude [alt], seen in the pixel by the exact model. *)
Definition seen_end (m : rpc) (row col alt : b64) (q : fplace) : Prop :=
  fg_alt q = alt /\ is_finite (fg_lon q) = true /\ is_finite (fg_lat q) = true /\ Rabs (B2R (fg_lon q)) <= 180 /\ Rabs (B2R (fg_lat q)) <= 90 /\
  seen_at m row col (fg_lon q) (fg_lat q) alt.
(** The exception of the Python version (C103): the lowest end is the start of the iterations, seen in the pixel at the highest
    altitude. *)
Definition start_stays (m : rpc) (M : fmodel) (row col lo hi : b64) (q : fplace) : Prop :=
  q = FPlace (fa_offset (fm_x M)) (fa_offset (fm_y M)) lo /\ seen_at m row col (fg_lon q) (fg_lat q) hi.

(** The altitudes of usual models: in metres, between -30000 and 30000, with a scale of at least 2. *)
Definition usual_model_altitudes (m : rpc) (M : fmodel) : Prop :=
  is_finite (fa_offset (fm_alt M)) = true /\ is_finite (fa_scale (fm_alt M)) = true /\
  2 <= scale_alt m /\ Rabs (offset_alt m) + scale_alt m <= 30000.
(** Asked altitudes: one of them is out of the range of the model, and they are at most 900 times the scale away. *)
Definition far_altitudes (m : rpc) (M : fmodel) (a b : b64) : Prop :=
  is_finite a = true /\ is_finite b = true /\ (B2R a < B2R (model_lowest M) \/ B2R (model_highest M) < B2R b) /\
  Rabs (B2R a) <= 30000 /\ Rabs (B2R b) <= 30000 /\ Rabs (B2R a - offset_alt m) <= 900 * scale_alt m /\ Rabs (B2R b - offset_alt m) <= 900 * scale_alt m.
(** The line of the points [t] and [b] has at the altitude [z] the longitude and the latitude of [q], within 10^-9 degree; its altitude
    is [z] within 10^-9 metre. *)
Definition on_the_line (t b : fplace) (z : R) (q : fplace) : Prop :=
  let at_z f := B2R (f b) + (B2R (f t) - B2R (f b)) * ((z - B2R (fg_alt b)) / (B2R (fg_alt t) - B2R (fg_alt b))) in
  is_finite (fg_lon q) = true /\ is_finite (fg_lat q) = true /\ is_finite (fg_alt q) = true /\
  Rabs (B2R (fg_lon q) - at_z fg_lon) <= 1 / 1000000000 /\ Rabs (B2R (fg_lat q) - at_z fg_lat) <= 1 / 1000000000 /\
  Rabs (B2R (fg_alt q) - z) <= 1 / 1000000000.
(** A row of three NaN. *)
Definition nowhere (q : fplace) : Prop := is_nan (fg_lon q) = true /\ is_nan (fg_lat q) = true /\ is_nan (fg_alt q) = true.
