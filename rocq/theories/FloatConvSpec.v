(** Words of the statements about the convergence of the iterative direct localization of an RPC model in binary64 (C104). *)
From Coq Require Import Reals.
From Flocq Require Import Core BinarySingleNaN.
From Verif Require Import RpcModel RpcSpec RpcConvSpec FloatModel FloatNewtonModel FloatNewtonSpec.
Open Scope R_scope.

(** The positions of the square of half width [r] around (lon0, lat0) are in the domain of the model. *)
Definition square_in_domain (M : fmodel) (alt : b64) (r lon0 lat0 : R) : Prop :=
  forall lon lat : b64, is_finite lon = true -> is_finite lat = true -> within r lon0 lat0 (B2R lon) (B2R lat) -> in_domain M lon lat alt.
(** The conditions on the numbers of [well_conditioned]: the derivatives vary by at most 1 / (4 gsd) between the centre and the
    positions of the square; the condition number is at most 500; at most 10^7 pixels per degree, and 10^6 pixels in the square; the square is
    larger than 5 10^-4 pixel.  [steep] also bounds the ratios of the scales. *)
Definition gentle (m : rpc) (r gsd bend steep : R) : Prop :=
  0 <= gsd /\ 0 <= bend /\ 0 < r /\ 2 * gsd * bend * r <= 1 / 2 /\ gsd * steep <= 500 /\ steep <= 10000000 /\ steep * r <= 1000000 /\
  gsd * (5 / 10000000) <= r / 1000 /\
  Rabs (scale_col m / scale_x m) <= steep /\ Rabs (scale_col m / scale_y m) <= steep /\
  Rabs (scale_row m / scale_x m) <= steep /\ Rabs (scale_row m / scale_y m) <= steep.
(** The exact model sees the ground point (lon0, lat0) in the pixel, the iterations start in the square around it, and the square is
    well conditioned. *)
Definition starts_near (m : rpc) (M : fmodel) (p : fpixel) (r gsd bend steep lon0 lat0 : R) : Prop :=
  col_of m lon0 lat0 (B2R (fp_alt p)) = B2R (fp_col p) /\ row_of m lon0 lat0 (B2R (fp_alt p)) = B2R (fp_row p) /\
  within r lon0 lat0 (offset_x m) (offset_y m) /\ gentle m r gsd bend steep /\ well_conditioned m (B2R (fp_alt p)) r gsd bend steep lon0 lat0 /\
  square_in_domain M (fp_alt p) r lon0 lat0.
(** A batch with several altitudes: the first altitude moves the image of the start by less than 0.4 of the square. *)
Definition near_altitude (m : rpc) (p : fpixel) (alt0 : b64) (r gsd : R) : Prop :=
  let moved f := f m (offset_x m) (offset_y m) (B2R (fp_alt p)) - f m (offset_x m) (offset_y m) (B2R alt0) in
  gsd * size (moved col_of) (moved row_of) <= 4 / 10 * r.
