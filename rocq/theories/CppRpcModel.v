(** Model of [shareloc/bindings/rpc.cpp] (C++ twin of the RPC class).  Same simplifications as
    [RpcModel.v].  A C++ exception or an out-of-bounds read is [None]. *)
From Coq Require Import Reals ZArith List Bool Arith.
From Verif Require Import Num ProjModel RpcModel.
Import ListNotations.
Open Scope R_scope.

(** rpc.cpp 734-761 [pre_polynomial_equation]. *)
Definition cpp_pre_polynomial_equation (x y z : R) : list R :=
  [1; x; y; z; x * y; x * z; y * z; x * x; y * y; z * z; x * y * z; x * x * x; x * y * y;
   x * z * z; x * x * y; y * y * y; y * z * z; x * x * z; y * y * z; z * z * z].

(** rpc.cpp 763-788 [polynomial_equation]. *)
Definition cpp_polynomial_equation (n c : list R) : R :=
  co n 0 * co c 0 + co n 1 * co c 1 + co n 2 * co c 2 + co n 3 * co c 3 + co n 4 * co c 4
  + co n 5 * co c 5 + co n 6 * co c 6 + co n 7 * co c 7 + co n 8 * co c 8 + co n 9 * co c 9
  + co n 10 * co c 10 + co n 11 * co c 11 + co n 12 * co c 12 + co n 13 * co c 13
  + co n 14 * co c 14 + co n 15 * co c 15 + co n 16 * co c 16 + co n 17 * co c 17
  + co n 18 * co c 18 + co n 19 * co c 19.

(** rpc.cpp 790-807 [derivative_polynomial_latitude]. *)
Definition cpp_derivative_polynomial_latitude (lon lat alt : R) (c : list R) : R :=
  co c 2 + lon * co c 4 + alt * co c 6 + 2 * lat * co c 8 + lon * alt * co c 10
  + 2 * lat * lon * co c 12 + lon * lon * co c 14 + lat * lat * 3 * co c 15
  + alt * alt * co c 16 + 2 * lat * alt * co c 18.

(** rpc.cpp 809-826 [derivative_polynomial_longitude]. *)
Definition cpp_derivative_polynomial_longitude (lon lat alt : R) (c : list R) : R :=
  co c 1 + lat * co c 4 + alt * co c 5 + 2 * lon * co c 7 + lat * alt * co c 10
  + lon * lon * 3 * co c 11 + lat * lat * co c 12 + alt * alt * co c 13
  + 2 * lon * lat * co c 14 + 2 * lon * alt * co c 17.

(** rpc.cpp 623-635: [poly_num / poly_den * scale + offset]. *)
Definition cpp_rational (x y z : num) (nu de : list R) (scale offset : R) : num :=
  match x, y, z with
  | Some x, Some y, Some z =>
      let norms := cpp_pre_polynomial_equation x y z in
      nadd (nmul (ndiv (fin (cpp_polynomial_equation norms nu))
                       (fin (cpp_polynomial_equation norms de))) (fin scale)) (fin offset)
  | _, _, _ => nan
  end.

(** rpc.cpp 574-640 [compute_rational_function_polynomial_unitary]: (col_lon_out, row_lat_out,
    alt_out).  The offsets used for NaN inputs are the members of the object. *)
Definition cpp_rational_unitary (m : rpc) (lon_col lat_row alt : num)
  (ncol dcol nlin dlin : list R) (fill_nan direct : bool)
  (sx ox sy oy sa oa sc oc sl ol : R) : num * num * num :=
  if isnan lon_col || isnan lat_row then
    if fill_nan then
      if direct then (fin (offset_x m), fin (offset_y m), alt)
      else (fin (offset_col m), fin (offset_row m), alt)
    else (nan, nan, alt)
  else
    let x := normalise ox sx lon_col in
    let y := normalise oy sy lat_row in
    let z := normalise oa sa alt in
    (cpp_rational x y z ncol dcol sc oc, cpp_rational x y z nlin dlin sl ol, alt).

(** rpc.cpp 256-285 [inverse_loc] (scalar): (row, col, alt). *)
Definition cpp_inverse_loc (m : rpc) (lon lat alt : num) : num * num * num :=
  let '(c, r, a) :=
    cpp_rational_unitary m lon lat alt (num_col m) (den_col m) (num_row m) (den_row m) false false
      (scale_x m) (offset_x m) (scale_y m) (offset_y m) (scale_alt m) (offset_alt m)
      (scale_col m) (offset_col m) (scale_row m) (offset_row m) in
  (r, c, a).

(** rpc.cpp 317-351 [compute_loc_inverse_derivates]. *)
Definition cpp_quotient_derivative (sout sin dnum den dden nu : R) : num :=
  ndiv (nmul (ndiv (fin sout) (fin sin)) (fin (dnum * den - dden * nu))) (fin (den * den)).
Definition cpp_compute_loc_inverse_derivates (m : rpc) (lon lat alt : num)
  : num * num * num * num :=
  match normalise (offset_x m) (scale_x m) lon, normalise (offset_y m) (scale_y m) lat,
        normalise (offset_alt m) (scale_alt m) alt with
  | Some x, Some y, Some z =>
      let norms := cpp_pre_polynomial_equation x y z in
      let num_dcol := cpp_polynomial_equation norms (num_col m) in
      let den_dcol := cpp_polynomial_equation norms (den_col m) in
      let num_drow := cpp_polynomial_equation norms (num_row m) in
      let den_drow := cpp_polynomial_equation norms (den_row m) in
      let num_dcol_dlon := cpp_derivative_polynomial_longitude x y z (num_col m) in
      let den_dcol_dlon := cpp_derivative_polynomial_longitude x y z (den_col m) in
      let num_drow_dlon := cpp_derivative_polynomial_longitude x y z (num_row m) in
      let den_drow_dlon := cpp_derivative_polynomial_longitude x y z (den_row m) in
      let num_dcol_dlat := cpp_derivative_polynomial_latitude x y z (num_col m) in
      let den_dcol_dlat := cpp_derivative_polynomial_latitude x y z (den_col m) in
      let num_drow_dlat := cpp_derivative_polynomial_latitude x y z (num_row m) in
      let den_drow_dlat := cpp_derivative_polynomial_latitude x y z (den_row m) in
      (cpp_quotient_derivative (scale_col m) (scale_x m) num_dcol_dlon den_dcol den_dcol_dlon num_dcol,
       cpp_quotient_derivative (scale_col m) (scale_y m) num_dcol_dlat den_dcol den_dcol_dlat num_dcol,
       cpp_quotient_derivative (scale_row m) (scale_x m) num_drow_dlon den_drow den_drow_dlon num_drow,
       cpp_quotient_derivative (scale_row m) (scale_y m) num_drow_dlat den_drow den_drow_dlat num_drow)
  | _, _, _ => (nan, nan, nan, nan)
  end.

(** rpc.cpp 391-421 and 477-508: the loop for one point; [fuel] is [nb_iter_max - iteration]; also
    returns the final residues and the number of iterations. *)
Fixpoint cpp_newton_loop (m : rpc) (row col alt : num) (fuel : nat) (lon lat dcol drow : num)
  : num * num * num * num * nat :=
  if ngtb (nabs dcol) (fin eps) || ngtb (nabs drow) (fin eps) then
    match fuel with
    | O => (lon, lat, dcol, drow, O)
    | S fuel =>
        let '(lon, lat) := newton_update (cpp_compute_loc_inverse_derivates m lon lat alt)
                                         dcol drow lon lat in
        let '(row_estim, col_estim, _) := cpp_inverse_loc m lon lat alt in
        let '(lo, la, dc, dr, k) :=
          cpp_newton_loop m row col alt fuel lon lat (nsub col col_estim) (nsub row row_estim) in
        (lo, la, dc, dr, S k)
    end
  else (lon, lat, dcol, drow, O).

(** rpc.cpp 353-425 [direct_loc_inverse_iterative] (scalar). *)
Definition cpp_direct_loc_inverse_iterative (m : rpc) (row col alt : num) (nb_iter_max : nat)
  (fill_nan : bool) : num * num * num :=
  if isnan row || isnan col then
    if fill_nan then (fin (offset_x m), fin (offset_y m), alt) else (nan, nan, alt)
  else
    let lon := fin (offset_x m) in
    let lat := fin (offset_y m) in
    let '(row_start, col_start, _) := cpp_inverse_loc m lon lat alt in
    let '(lo, la, _, _, _) :=
      cpp_newton_loop m row col alt nb_iter_max lon lat (nsub col col_start) (nsub row row_start) in
    (lo, la, alt).

(** rpc.cpp 831-860 [check_sizes].  [None]: read of [alt[0]] on an empty vector. *)
Definition check_sizes (lon_col lat_row alt : list num) : option (list num * list num * list num) :=
  let n := Nat.min (length lon_col) (length lat_row) in
  match broadcast_alt n alt with
  | Some alt => Some (firstn n lon_col, firstn n lat_row, alt)
  | None => None
  end.

(** rpc.cpp 427-513 [direct_loc_inverse_iterative] (vectors): the loop over the points; its body
    is the scalar function (the two texts are the same). *)
Definition cpp_direct_loc_inverse_iterative_vec (m : rpc) (row col alt : list num)
  (nb_iter_max : nat) (fill_nan : bool) : option (list row3) :=
  match check_sizes col row alt with
  | None => None
  | Some (col, row, alt) =>
      Some (map (fun p => let '(r, c, a, _) := p in
                 let '(lo, la, al) :=
                   cpp_direct_loc_inverse_iterative m r c a nb_iter_max fill_nan in
                 R3 lo la al)
                (zip4 row col alt alt))
  end.

(** rpc.cpp 642-719 [compute_rational_function_polynomial] (vectors), one point: [None] is the
    exception of line 714.  In the NaN branch the code reads [alt[i]] of the original vector,
    which is out of bounds when a single altitude was given for several points: [alt_i]. *)
Definition cpp_rational_vec_point (m : rpc) (lon_col lat_row alt : num) (alt_i : option num)
  (ncol dcol nlin dlin : list R) (fill_nan direct : bool)
  (sx ox sy oy sa oa sc oc sl ol : R) : option row3 :=
  if isnan lon_col || isnan lat_row then
    match alt_i with
    | None => None
    | Some a =>
        if fill_nan then
          if direct then Some (R3 (fin (offset_x m)) (fin (offset_y m)) a)
          else Some (R3 (fin (offset_col m)) (fin (offset_row m)) a)
        else Some (R3 nan nan a)
    end
  else
    match normalise ox sx lon_col, normalise oy sy lat_row, normalise oa sa alt with
    | Some x, Some y, Some z =>
        let norms := cpp_pre_polynomial_equation x y z in
        if Reqb (cpp_polynomial_equation norms dcol) 0 || Reqb (cpp_polynomial_equation norms dlin) 0
        then None
        else Some (R3 (cpp_rational (fin x) (fin y) (fin z) ncol dcol sc oc)
                      (cpp_rational (fin x) (fin y) (fin z) nlin dlin sl ol) alt)
    | _, _, _ => Some (R3 nan nan alt)
    end.

(** rpc.cpp 287-315 [inverse_loc] (vectors), as rows (row, col, alt). *)
Definition cpp_inverse_loc_vec (m : rpc) (lon lat alt : list num) : option (list row3) :=
  match check_sizes lon lat alt with
  | None => None
  | Some (lon', lat', alt') =>
      match seq_opt (map (fun p => let '(x, y, a, i) := p in
               cpp_rational_vec_point m x y a (nth_error alt i)
                 (num_col m) (den_col m) (num_row m) (den_row m) false false
                 (scale_x m) (offset_x m) (scale_y m) (offset_y m) (scale_alt m) (offset_alt m)
                 (scale_col m) (offset_col m) (scale_row m) (offset_row m))
             (zip4 lon' lat' alt' (seq 0 (length lon')))) with
      | None => None
      | Some l => Some (map (fun p => R3 (lat3 p) (lon3 p) (alt3 p)) l)
      end
  end.

(** rpc.cpp 115-155 [direct_loc_h] (vectors). *)
Definition cpp_direct_loc_h_vec (m : rpc) (row col alt : list num) (fill_nan using_direct_coef : bool)
  : option (list row3) :=
  if negb using_direct_coef && inverse_coefficient m then
    cpp_direct_loc_inverse_iterative_vec m row col alt 10 fill_nan
  else if using_direct_coef && direct_coefficient m then
    match check_sizes col row alt with
    | None => None
    | Some (col', row', alt') =>
        seq_opt (map (fun p => let '(x, y, a, i) := p in
               cpp_rational_vec_point m x y a (nth_error alt i)
                 (num_x m) (den_x m) (num_y m) (den_y m) fill_nan true
                 (scale_col m) (offset_col m) (scale_row m) (offset_row m)
                 (scale_alt m) (offset_alt m)
                 (scale_x m) (offset_x m) (scale_y m) (offset_y m))
             (zip4 col' row' alt' (seq 0 (length col'))))
    end
  else None.

(** rpc.cpp 520-572 [los_extrema]; a NaN bound plays the role of Python's None. *)
Definition cpp_los_extrema (m : rpc) (row col : num) (alt_min alt_max : num) (fill_nan : bool)
  : option (list row3) :=
  let '(extrapolate, los_alt_min, los_alt_max) :=
    match alt_min, alt_max with
    | Some lo, Some hi =>
        if Rleb (fst (alt_minmax m)) lo && Rleb hi (snd (alt_minmax m)) then (None, lo, hi)
        else (Some (lo, hi), fst (get_alt_min_max m), snd (get_alt_min_max m))
    | _, _ => (None, fst (get_alt_min_max m), snd (get_alt_min_max m))
    end in
  match cpp_direct_loc_h_vec m [row; row] [col; col] [fin los_alt_max; fin los_alt_min] fill_nan false with
  | Some [top; bot] =>
      match extrapolate with
      | Some (lo, hi) => Some (extrapolate_los lo hi top bot)
      | None => Some [top; bot]
      end
  | _ => None
  end.
