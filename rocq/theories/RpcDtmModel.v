(** Model of the RPC direct localization on a DTM. *)
From Coq Require Import Reals ZArith List Bool.
From Verif Require Import Num InterpModel ProjModel RpcModel DtmModel.
Import ListNotations.
Open Scope R_scope.

(** [np.min] and [np.max] of floats: NaN as soon as one of them is NaN. *)
Definition np_min (l : list num) : num := match seq_opt l with Some v => Some (list_min v) | None => None end.
Definition np_max (l : list num) : num := match seq_opt l with Some v => Some (list_max v) | None => None end.

(** geomodel_template.py 126-147 [get_dtm_alt_offset]; [epsg] is the one of the model.  [conv] is [coordinates_conversion]
    (external), called for the four corners at once. *)
Definition get_dtm_alt_offset (conv : Z -> Z -> list row3 -> list row3) (epsg : Z) (d : dtm) : num * num :=
  let alti_moy := (alt_min d + alt_max d) / 2 in
  let ground_corners :=
    map (fun rc => let '(y, x) := transform_index_to_physical_point (dt_transform d) (fst rc) (snd rc) in
                   R3 (fin x) (fin y) (fin alti_moy))
        (get_footprint_corners (nb_rows d) (nb_columns d)) in
  let converted_corners := conv (dt_epsg d) epsg ground_corners in
  (nsub (np_min (map alt3 converted_corners)) (fin alti_moy),
   nsub (np_max (map alt3 converted_corners)) (fin alti_moy)).

(** rpc.py 326-330: the (2N, 3) array of line of sight ends reshaped into N lines of sight of two
    vertices. *)
Definition los_of_edges (los : list row3) : list (list row3) :=
  map (fun p => [fst p; snd p]) (pairs_of los).

(** rpc.py 301-336 [direct_loc_dtm].  [None]: an exception.  When an altitude offset is NaN (a
    corner of the DTM that cannot be converted) the comparisons of rpc.py 588-590 are false and
    the extrapolated ends are NaN: every line of sight is NaN. *)
Definition direct_loc_dtm (conv : Z -> Z -> list row3 -> list row3) (fuel : nat) (m : rpc)
  (row col : list num) (d : dtm) : option (list row3) :=
  let los :=
    match get_dtm_alt_offset conv (rpc_epsg m) d with
    | (Some diff_alti_min, Some diff_alti_max) =>
        let min_dtm := alt_min d - 1 + diff_alti_min in
        let max_dtm := alt_max d + 1 + diff_alti_max in
        los_extrema conv m row col (Some min_dtm) (Some max_dtm) false (Some (dt_epsg d))
    | _ =>
        match los_extrema conv m row col None None false None with
        | Some edges => Some (map (fun _ => nan3) edges)
        | None => None
        end
    end in
  match los with
  | None => None
  | Some los =>
      match intersection_n_los_dtm d fuel (los_of_edges los) with
      | None => None
      | Some res => Some (if (dt_epsg d =? 4326)%Z then check_lonlat res else res)
      end
  end.

(** rpc.py 270-299 [direct_loc_grid_h]: the loop calls [direct_loc_h] for one pixel (a (1, 3)
    array) and unpacks the result, an array with as many elements as pixels, into three names.
    [None]: ValueError.  [unpack3 l] is the unpacking of an array with rows [l]. *)
Definition unpack3 {A} (l : list A) : option (A * A * A) :=
  match l with [a; b; c] => Some (a, b, c) | _ => None end.
Definition direct_loc_grid_h (m : rpc) (row0 col0 steprow stepcol : R) (nbrow nbcol : nat) (alt : R) :
  option (list (row3 * row3 * row3)) :=
  seq_opt (flat_map (fun column => map (fun line =>
     match direct_loc_h m [fin (row0 + INR line * steprow)] [fin (col0 + INR column * stepcol)] [fin alt] false false with
     | Some res => unpack3 res
     | None => None
     end) (seq 0 nbrow)) (seq 0 nbcol)).
