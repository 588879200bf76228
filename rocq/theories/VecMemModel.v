(** Model of the memory accesses of the functions of [shareloc/bindings/rpc.cpp] on vectors, and of the methods of
    RPCoptim that call them: every access is checked, and so is the use of coefficients that were never set. *)
From Coq Require Import Reals ZArith List Bool.
From Verif Require Import Num ProjModel RpcModel CppRpcModel CppMemModel StripMemModel OptimModel.
Import ListNotations.
Open Scope Z_scope.

(** A loop that fills the vectors of the result. *)
Fixpoint for_each {A} (n : nat) (i : Z) (f : Z -> mem A) : mem (list A) :=
  match n with
  | O => Ran []
  | S n => let* x := f i in let* t := for_each n (i + 1) f in Ran (x :: t)
  end.

(** rpc.cpp 831-860 [check_sizes]. *)
Definition mem_check_sizes (lon_col lat_row alt : list num) : mem (list num * list num * list num) :=
  let n := Nat.min (length lon_col) (length lat_row) in
  let* alt_norm := if (length alt =? n)%nat then Ran alt else let* a := read alt 0 in Ran (repeat a n) in
  Ran (firstn n lon_col, firstn n lat_row, alt_norm).

(** rpc.cpp 642-719 [compute_rational_function_polynomial]; [set]: the constructor has set the coefficients used (rpc.cpp
    48-59); [point]: the computation of one point, from its coordinates and altitude and the altitude read in the NaN branch. *)
Definition mem_rational_vec (set : bool) (point : num -> num -> num -> option num -> option row3) (lon_col lat_row alt : list num)
  : mem (list row3) :=
  let* v := mem_check_sizes lon_col lat_row alt in
  let '(lon_col', lat_row', alt') := v in
  for_each (length lon_col') 0 (fun i =>
    let* x := read lon_col' i in
    let* y := read lat_row' i in
    if isnan x || isnan y then let* a := read alt i in call (point x y nan (Some a))
    else let* a := read alt' i in if set then call (point x y a (Some a)) else Undefined).

(** rpc.cpp 287-315 [inverse_loc]. *)
Definition mem_inverse_loc_vec (m : rpc) (lon lat alt : list num) : mem (list row3) :=
  let* l := mem_rational_vec (inverse_coefficient m) (fun x y a ai =>
              cpp_rational_vec_point m x y a ai (num_col m) (den_col m) (num_row m) (den_row m) false false
                (scale_x m) (offset_x m) (scale_y m) (offset_y m) (scale_alt m) (offset_alt m)
                (scale_col m) (offset_col m) (scale_row m) (offset_row m)) lon lat alt in
  Ran (map (fun p => R3 (lat3 p) (lon3 p) (alt3 p)) l).

(** rpc.cpp 427-513 [direct_loc_inverse_iterative]. *)
Definition mem_direct_loc_inverse_iterative_vec (m : rpc) (row col alt : list num) (nb_iter_max : nat) (fill_nan : bool) : mem (list row3) :=
  let* v := mem_check_sizes col row alt in
  let '(col', row', alt') := v in
  for_each (length col') 0 (fun i =>
    let* r := read row' i in
    let* c := read col' i in
    let* a := read alt' i in
    if negb (inverse_coefficient m) && negb (isnan r || isnan c) then Undefined
    else let '(lo, la, al) := cpp_direct_loc_inverse_iterative m r c a nb_iter_max fill_nan in Ran (R3 lo la al)).

(** rpc.cpp 115-155 [direct_loc_h]. *)
Definition mem_direct_loc_h_vec (m : rpc) (row col alt : list num) (fill_nan using_direct_coef : bool) : mem (list row3) :=
  if negb using_direct_coef && inverse_coefficient m then mem_direct_loc_inverse_iterative_vec m row col alt 10 fill_nan
  else if using_direct_coef && direct_coefficient m then
    mem_rational_vec (direct_coefficient m) (fun x y a ai =>
      cpp_rational_vec_point m x y a ai (num_x m) (den_x m) (num_y m) (den_y m) fill_nan true
        (scale_col m) (offset_col m) (scale_row m) (offset_row m) (scale_alt m) (offset_alt m)
        (scale_x m) (offset_x m) (scale_y m) (offset_y m)) col row alt
  else Threw.

(** rpc.cpp 202-253 [direct_loc_dtm]; [locate]: lines 234-250 for one point (its accesses are those of C90). *)
Definition mem_direct_loc_dtm_vec {A} (locate : num -> num -> mem A) (row col : list num) : mem (list A) :=
  for_each (length row) 0 (fun i => let* r := read row i in let* c := read col i in locate r c).

(** rpc_optim.py 260-282 [inverse_loc]. *)
Definition mem_optim_inverse_loc (m : rpc) (lon lat alt : list num) : mem (list num * list num * list num) :=
  let* rows := call (zip3 lon lat alt) in
  let rows := check_lonlat rows in
  let* l := mem_inverse_loc_vec m (map lon3 rows) (map lat3 rows) (map alt3 rows) in
  Ran (map lon3 l, map lat3 l, map alt3 l).

(** rpc_optim.py 165-204 [direct_loc_h]. *)
Definition mem_optim_direct_loc_h (m : rpc) (row col alt : list num) (fill_nan using_direct_coef : bool) : mem (list row3) :=
  let* alt := call (broadcast_alt (length col) alt) in
  let* rows := mem_direct_loc_h_vec m row col alt fill_nan using_direct_coef in
  Ran (check_lonlat rows).
