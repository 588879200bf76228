(** Model of [shareloc/geomodels/rpc_optim.py]: the class RPCoptim over the C++ bindings, and of the
    localization on a DTM of [shareloc/bindings/rpc.cpp]. *)
From Coq Require Import Reals ZArith List Bool String.
From Verif Require Import Num InterpModel ProjModel RpcModel CppRpcModel DtmModel CppDtmModel RpcDtmModel ReadersModel LoadModel.
Import ListNotations.
Open Scope R_scope.

(** [std::array<double, 20>] arguments of rpc.cpp 29-40: the binding accepts lists of 20 elements only
    ([None]: TypeError). *)
Definition array20 (l : list R) : option (list R) := if (List.length l =? 20)%nat then Some l else None.
(** rpc_optim.py 80. *)
Definition empty20 : list R := repeat 0 20.
(** [all(i == 0 for i in l)] of rpc_optim.py 83-84, 103 and 122. *)
Definition all_zero (l : list R) : bool := forallb (fun i => Reqb i 0) l.

(** rpc_optim.py 55-146 [__init__] and rpc.cpp 29-77.  [None]: ValueError (coefficients all 0, or no
    coefficients), or TypeError of the binding.  Simplification: [None] when a parameter is NaN, like
    [rpc_of_params].  The epsg is 4326 whatever the parameters (line 145). *)
Definition optim_of_params (p : rpc_params) : option rpc :=
  match rpc_of_params p with
  | None => None
  | Some m =>
      let build inv dir nc dc nr dr nx dx ny dy :=
        match array20 nc, array20 dc, array20 nr, array20 dr, array20 nx, array20 dx, array20 ny, array20 dy with
        | Some nc, Some dc, Some nr, Some dr, Some nx, Some dx, Some ny, Some dy =>
            Some (mkRpc nc dc nr dr nx dx ny dy inv dir (offset_x m) (scale_x m) (offset_y m) (scale_y m)
                    (offset_alt m) (scale_alt m) (offset_col m) (scale_col m) (offset_row m) (scale_row m) 4326)
        | _, _, _, _, _, _, _, _ => None
        end in
      if given (num_col m) && given (num_x m) then
        if negb (all_zero (num_col m)) && negb (all_zero (num_x m)) then
          build true true (num_col m) (den_col m) (num_row m) (den_row m) (num_x m) (den_x m) (num_y m) (den_y m)
        else None
      else if given (num_col m) then
        if negb (all_zero (num_col m)) then
          build true false (num_col m) (den_col m) (num_row m) (den_row m) empty20 empty20 empty20 empty20
        else None
      else if given (num_x m) then
        if negb (all_zero (num_x m)) then
          build false true empty20 empty20 empty20 empty20 (num_x m) (den_x m) (num_y m) (den_y m)
        else None
      else None
  end.

(** rpc_optim.py 149-163 [load], with the convention as an argument (the code always passes True). *)
Definition load_optim (pyfloat : string -> option num) (path : string) (f : file_view) (topleft : bool) : option rpc :=
  match rpc_reader pyfloat path f topleft with
  | Ok p => optim_of_params p
  | Err _ => None
  end.

(** rpc_optim.py 260-282 [inverse_loc]: no broadcast of the altitude ([None]: ragged array, or the
    exception of the binding).  The binding does not look at [inverse_coefficient]. *)
Definition optim_inverse_loc (m : rpc) (lon lat alt : list num) : option (list num * list num * list num) :=
  match zip3 lon lat alt with
  | None => None
  | Some rows =>
      let rows := check_lonlat rows in
      match cpp_inverse_loc_vec m (map lon3 rows) (map lat3 rows) (map alt3 rows) with
      | Some l => Some (map lon3 l, map lat3 l, map alt3 l)
      | None => None
      end
  end.

(** rpc_optim.py 165-204 [direct_loc_h]. *)
Definition optim_direct_loc_h (m : rpc) (row col alt : list num) (fill_nan using_direct_coef : bool) : option (list row3) :=
  match broadcast_alt (List.length col) alt with
  | None => None
  | Some alt =>
      match cpp_direct_loc_h_vec m row col alt fill_nan using_direct_coef with
      | Some rows => Some (check_lonlat rows)
      | None => None
      end
  end.

(** rpc_optim.py 329-370, the part of [los_extrema] for a system other than 4326: the Python copy of the
    function over the binding (no [check_lonlat]). *)
Definition optim_los_edges (m : rpc) (row col : list num) (alt_min alt_max : option R) (fill_nan : bool) : option (list row3) :=
  let '(extrapolate, los_alt_min, los_alt_max) :=
    match alt_min, alt_max with
    | Some lo, Some hi =>
        if Rleb (fst (alt_minmax m)) lo && Rleb hi (snd (alt_minmax m)) then (None, lo, hi)
        else (Some (lo, hi), fst (get_alt_min_max m), snd (get_alt_min_max m))
    | _, _ => (None, fst (get_alt_min_max m), snd (get_alt_min_max m))
    end in
  let row_array := flat_map (fun r => [r; r]) row in
  let col_array := flat_map (fun c => [c; c]) col in
  let alt_array := flat_map (fun _ => [fin los_alt_max; fin los_alt_min]) row in
  match cpp_direct_loc_h_vec m row_array col_array alt_array fill_nan false with
  | None => None
  | Some los_edges =>
      Some (match extrapolate with
            | Some (lo, hi) => flat_map (fun p => extrapolate_los lo hi (fst p) (snd p)) (pairs_of los_edges)
            | None => los_edges
            end)
  end.

(** rpc_optim.py 307-370 [los_extrema].  In the system 4326 the binding takes numbers: [None] (TypeError)
    for a bound that is Python's None and for anything but one pixel. *)
Definition optim_los_extrema (conv : Z -> Z -> list row3 -> list row3) (m : rpc) (row col : list num)
  (alt_min alt_max : option R) (fill_nan : bool) (epsg : Z) : option (list row3) :=
  if (epsg =? 4326)%Z then
    match row, col, alt_min, alt_max with
    | [r], [c], Some lo, Some hi => cpp_los_extrema m r c (fin lo) (fin hi) fill_nan
    | _, _, _, _ => None
    end
  else
    match optim_los_edges m row col alt_min alt_max fill_nan with
    | Some los_edges => Some (conv 4326%Z epsg los_edges)
    | None => None
    end.

(** dtm_intersection.cpp 964-1040, one line of sight, whose coordinates may be NaN (then no plane is
    crossed; the code could only differ when the first vertex is finite and exactly on a plane). *)
Definition cpp_intersection_num (c : cpp_dtm) (fuel : nat) (los : list row3) : cpp_result :=
  match seq_opt (map finite_row los) with
  | None => Value nan3
  | Some los => cpp_intersection_one c fuel los
  end.

(** rpc.cpp 157-197 and 219-252 [direct_loc_dtm], one pixel: the found flag of [intersection] is ignored. *)
Definition cpp_direct_loc_dtm (c : cpp_dtm) (alt_min alt_max : R) (fuel : nat) (m : rpc) (row col : num) : cpp_result :=
  match cpp_los_extrema m row col (fin (alt_min - 1)) (fin (alt_max + 1)) false with
  | None => Throws
  | Some los => cpp_intersection_num c fuel los
  end.

(** The results of a loop whose body may throw ([None]: the call throws, or does not end). *)
Definition all_results (l : list cpp_result) : option (list cpp_result) :=
  if existsb (fun r => match r with Throws | Endless => true | _ => false end) l then None else Some l.

(** [check_lonlat] on the results; an indeterminate row stays indeterminate. *)
Definition check_result (r : cpp_result) : cpp_result :=
  match r with Value p => Value (if lonlat_filtering p then nan3 else p) | r => r end.

(** rpc_optim.py 206-258 [direct_loc_dtm], over the C++ object built from the data of [d].
    rpc_optim.py 284-305 [get_dtm_alt_offset] has the text of the function of the template. *)
Definition optim_direct_loc_dtm (conv : Z -> Z -> list row3 -> list row3) (fuel : nat) (m : rpc)
  (row col : list num) (d : dtm) : option (list cpp_result) :=
  if (dt_epsg d =? 4326)%Z then
    match all_results (map2 (cpp_direct_loc_dtm (cpp_of d) (alt_min d) (alt_max d) fuel m) row col) with
    | Some l => Some (map check_result l)
    | None => None
    end
  else
    let los :=
      match get_dtm_alt_offset conv 4326 d with
      | (Some diff_alti_min, Some diff_alti_max) =>
          optim_los_extrema conv m row col (Some (alt_min d - 1 + diff_alti_min)) (Some (alt_max d + 1 + diff_alti_max)) false (dt_epsg d)
      | _ =>
          match optim_los_edges m row col None None false with
          | Some edges => Some (map (fun _ => nan3) edges)
          | None => None
          end
      end in
    match los with
    | None => None
    | Some los => all_results (map (cpp_intersection_num (cpp_of d) fuel) (los_of_edges los))
    end.
