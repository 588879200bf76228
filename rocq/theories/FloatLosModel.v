(** Model, in binary64, of the lines of sight of an RPC model ([shareloc/geomodels/rpc.py] and [shareloc/bindings/rpc.cpp]).

    The localization at given altitudes is the iterative one of FloatConvModel.v.  The positions are in the system of the model: the
    conversion of rpc.py 618-619 is not modelled here. *)
From Coq Require Import ZArith List Bool.
From Flocq Require Import Core BinarySingleNaN.
From Verif Require Import FloatModel FloatRpcModel FloatNewtonModel FloatConvModel.
Import ListNotations.

(** A longitude, a latitude and an altitude. *)
Record fplace := FPlace { fg_lon : b64; fg_lat : b64; fg_alt : b64 }.

(** geomodel_template.py 111-124 [check_lonlat], for one point. *)
Definition f_checked (q : fplace) : fplace :=
  if f_lonlat_ok (fg_lon q) (fg_lat q) (fg_alt q) then q else FPlace B754_nan B754_nan B754_nan.
(** rpc.py 198-268 [direct_loc_h] without direct coefficients, with as many altitudes as pixels.  The pixels with a NaN are set apart
    there and again in [direct_loc_inverse_iterative]; once is the same. *)
Definition f_direct_loc_h (M : fmodel) (ps : list fpixel) (fill_nan : bool) (e : fending) (out : list fplace) : Prop :=
  exists ll, n_direct M ps 10 fill_nan e ll /\
    out = map (fun q => f_checked (FPlace (fst (fst q)) (snd (fst q)) (fp_alt (snd q)))) (combine ll ps).
(** rpc.cpp 115-155 [direct_loc_h] of the vectors of two pixels of [los_extrema]: 427-516 does the iterations of each of them. *)
Definition c_direct_loc_h2 (M : fmodel) (p q : fpixel) (fill_nan : bool) (top bottom : fplace) : Prop :=
  exists e1 e2 lon1 lat1 lon2 lat2, cn_direct M p 10 fill_nan e1 (lon1, lat1) /\ cn_direct M q 10 fill_nan e2 (lon2, lat2) /\
    top = FPlace lon1 lat1 (fp_alt p) /\ bottom = FPlace lon2 lat2 (fp_alt q).

(** rpc.py 176, rpc.cpp 76 (the range of altitudes of the model) and rpc.py 556-563, rpc.cpp 515-517 [get_alt_min_max]. *)
Definition model_lowest (M : fmodel) : b64 := fsub (fa_offset (fm_alt M)) (fa_scale (fm_alt M)).
Definition model_highest (M : fmodel) : b64 := fadd (fa_offset (fm_alt M)) (fa_scale (fm_alt M)).
Definition middle_lowest (M : fmodel) : b64 := fsub (fa_offset (fm_alt M)) (fdiv (fa_scale (fm_alt M)) (fint 2)).
Definition middle_highest (M : fmodel) : b64 := fadd (fa_offset (fm_alt M)) (fdiv (fa_scale (fm_alt M)) (fint 2)).

(** rpc.py 582-590, rpc.cpp 528-547: the altitudes of the localizations, and the ones asked for when the line is prolonged. *)
Definition f_range (M : fmodel) (bounds : option (b64 * b64)) : (b64 * b64) * option (b64 * b64) :=
  match bounds with
  | None => ((middle_lowest M, middle_highest M), None)
  | Some (lo, hi) =>
      if Bleb (model_lowest M) lo && Bleb hi (model_highest M) then ((lo, hi), None)
      else ((middle_lowest M, middle_highest M), Some (lo, hi))
  end.
(** rpc.py 592-608: two pixels for each one, at the highest and at the lowest altitude. *)
Definition f_ends (px : list (b64 * b64)) (lo hi : b64) : list fpixel :=
  flat_map (fun p => [FPix (fst p) (snd p) hi; FPix (fst p) (snd p) lo]) px.

(** x + y * z; a compiler can fuse it. *)
Inductive plus_product (x y z : b64) : b64 -> Prop :=
| pp_source : plus_product x y z (fadd x (fmul y z))
| pp_fused : plus_product x y z (ffma y z x).
(** rpc.py 612-621, rpc.cpp 554-569: the point of the altitude [alt] of the line of two points. *)
Definition f_prolonged (alt : b64) (top bottom p : fplace) : Prop :=
  let c := fdiv (fsub alt (fg_alt bottom)) (fsub (fg_alt top) (fg_alt bottom)) in
  plus_product (fg_lon bottom) (fsub (fg_lon top) (fg_lon bottom)) c (fg_lon p) /\
  plus_product (fg_lat bottom) (fsub (fg_lat top) (fg_lat bottom)) c (fg_lat p) /\
  plus_product (fg_alt bottom) (fsub (fg_alt top) (fg_alt bottom)) c (fg_alt p).
(** rpc.py 610-621: the rows of the result, two by two. *)
Inductive f_prolonged_rows (lo hi : b64) : list fplace -> list fplace -> Prop :=
| fr_nil : f_prolonged_rows lo hi [] []
| fr_two : forall t b t' b' l l', f_prolonged hi t b t' -> f_prolonged lo t b b' -> f_prolonged_rows lo hi l l' ->
    f_prolonged_rows lo hi (t :: b :: l) (t' :: b' :: l').
(** rpc.py 565-623 [los_extrema] of the pixels [px] (row, column).  The results: how the iterations ended, and the rows. *)
Definition f_los_extrema (M : fmodel) (px : list (b64 * b64)) (bounds : option (b64 * b64)) (fill_nan : bool) (e : fending) (out : list fplace) : Prop :=
  let '((lo, hi), prolong) := f_range M bounds in
  exists edges, f_direct_loc_h M (f_ends px lo hi) fill_nan e edges /\
    match prolong with None => out = edges | Some (lo', hi') => f_prolonged_rows lo' hi' edges out end.
(** rpc.cpp 520-572 [los_extrema]; a NaN bound plays the role of None. *)
Definition c_los_extrema (M : fmodel) (row col lo hi : b64) (fill_nan : bool) (top bottom : fplace) : Prop :=
  let '((lo1, hi1), prolong) := f_range M (if is_nan lo || is_nan hi then None else Some (lo, hi)) in
  exists t b, c_direct_loc_h2 M (FPix row col hi1) (FPix row col lo1) fill_nan t b /\
    match prolong with None => top = t /\ bottom = b | Some (lo', hi') => f_prolonged hi' t b top /\ f_prolonged lo' t b bottom end.
