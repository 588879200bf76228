(** Model, in binary64, of the direct localization of an RPC model on a DTM ([shareloc/geomodels/rpc.py] and
    [shareloc/bindings/rpc.cpp]), in the system of the model (4326): lines of sight (FloatLosModel.v), then their intersections
    (FloatTerModel.v, FloatCppModel.v). *)
From Coq Require Import ZArith List Bool.
From Flocq Require Import Core BinarySingleNaN.
From Verif Require Import FloatModel FloatInterpModel FloatWalkModel FloatGeoModel FloatTerModel FloatCppModel FloatRpcModel FloatNewtonModel FloatLosModel.
Import ListNotations.

(** rpc.py 319-321 and geomodel_template.py 126-147 [get_dtm_alt_offset]: the altitudes of the ends.  In one system the corners are
    not converted and the offsets are the mean altitude minus itself. *)
Definition f_dtm_bounds (m : fraster) : b64 * b64 :=
  let alti_moy := fdiv (fadd (falt_min m) (falt_max m)) (fint 2) in
  let diff_alti := fsub alti_moy alti_moy in
  (fadd (fsub (falt_min m) fone) diff_alti, fadd (fadd (falt_max m) fone) diff_alti).
(** rpc.cpp 167-168 and 207-208. *)
Definition c_dtm_bounds (m : fraster) : b64 * b64 := (fsub (falt_min m) fone, fadd (falt_max m) fone).
(** The two rows of a pixel are its line of sight. *)
Definition f_line (t b : fplace) : list fter := [FTer (fg_lon t) (fg_lat t) (fg_alt t); FTer (fg_lon b) (fg_lat b) (fg_alt b)].
(** rpc.py 329-333: the rows, two by two. *)
Fixpoint f_lines (l : list fplace) : list (list fter) :=
  match l with
  | t :: b :: l => f_line t b :: f_lines l
  | _ => []
  end.
(** rpc.py 335-336, geomodel_template.py 111-124 [check_lonlat] of the result.  The zeros of a missed surface are kept. *)
Definition f_kept (g : fground) : fground :=
  match g with
  | GPoint q => if f_lonlat_ok (ft_lon q) (ft_lat q) (ft_alt q) then GPoint q else GNaN
  | _ => g
  end.
(** rpc.py 301-337 [direct_loc_dtm] of the pixels [px].  (With an exception, or an intersection that does not end, on one line there is no
    result for the others: [GNoAnswer] is the one of that line only.) *)
Definition f_direct_loc_dtm (M : fmodel) (m : fraster) (transform : faffine) (fuel cells steps : nat) (px : list (b64 * b64)) (out : list fground) : Prop :=
  exists e los, f_los_extrema M px (Some (f_dtm_bounds m)) false e los /\
    out = map (fun l => f_kept (fground_position m transform fuel cells steps l)) (f_lines los).
(** rpc.cpp 157-199 [direct_loc_dtm] of one pixel; 201-251 does the same for each pixel of a vector. *)
Definition c_direct_loc_dtm (M : fmodel) (m : fraster) (c : cdtm) (fuel cells steps : nat) (row col : b64) (out : cground) : Prop :=
  exists t b, c_los_extrema M row col (fst (c_dtm_bounds m)) (snd (c_dtm_bounds m)) false t b /\ out = c_ground_position c fuel cells steps (f_line t b).
