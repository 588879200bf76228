(** Specification of the conditions under which Newton's method converges on an RPC model. *)
From Coq Require Import Reals List.
From Verif Require Import Num ProjModel RpcModel RpcSpec.
Import ListNotations.
Open Scope R_scope.

(** The largest coordinate of a plane vector. *)
Definition size (u v : R) : R := Rmax (Rabs u) (Rabs v).
(** (lon, lat) is in the square of half width [r] around (lon0, lat0). *)
Definition within (r lon0 lat0 lon lat : R) : Prop := size (lon - lon0) (lat - lat0) <= r.

(** The true partial derivatives of the column (a, b) and of the row (c, d) where a ground point is seen. *)
Definition partial_derivatives (m : rpc) (alt lon lat a b c d : R) : Prop :=
  derivable_pt_lim (fun x => col_of m x lat alt) lon a /\
  derivable_pt_lim (fun y => col_of m lon y alt) lat b /\
  derivable_pt_lim (fun x => row_of m x lat alt) lon c /\
  derivable_pt_lim (fun y => row_of m lon y alt) lat d.

(** In the square of half width [r] around a ground point, the model is regular, its derivatives are at
    most [steep] and vary by at most [bend] times the distance, and a displacement on the ground is at most
    [gsd] times its image by the derivative. *)
Definition well_conditioned (m : rpc) (alt r gsd bend steep lon0 lat0 : R) : Prop :=
  exists a b c d : R -> R -> R, forall lon lat, within r lon0 lat0 lon lat ->
    regular_at m lon lat alt /\ lonlat_ok lon lat /\
    partial_derivatives m alt lon lat (a lon lat) (b lon lat) (c lon lat) (d lon lat) /\
    (forall u v, size u v <= gsd * size (a lon lat * u + b lon lat * v) (c lon lat * u + d lon lat * v)) /\
    (forall f, In f [a; b; c; d] -> Rabs (f lon lat) <= steep /\
       forall lon' lat', within r lon0 lat0 lon' lat' ->
         Rabs (f lon lat - f lon' lat') <= bend * size (lon - lon') (lat - lat')).
