(** Model of [shareloc/geomodels/rpc.py]: the RPC geometric model.

    General simplifications: exact reals instead of floats; NaN and infinities are both [None]
    (a denominator or determinant that is exactly 0 gives NaN); numba's [fastmath] is ignored;
    log messages are dropped; scalars are arrays of length 1 (the code converts them first). *)
From Coq Require Import Reals ZArith List Bool Arith.
From Verif Require Import Num ProjModel.
Import ListNotations.
Open Scope R_scope.

(** ** Parameters (rpc.py 53-180) *)
Record rpc := mkRpc {
  num_col : list R; den_col : list R; num_row : list R; den_row : list R;
  num_x : list R; den_x : list R; num_y : list R; den_y : list R;
  inverse_coefficient : bool; direct_coefficient : bool;
  offset_x : R; scale_x : R; offset_y : R; scale_y : R;
  offset_alt : R; scale_alt : R; offset_col : R; scale_col : R; offset_row : R; scale_row : R;
  rpc_epsg : Z }.

(** rpc.py 176: [alt_minmax]. *)
Definition alt_minmax (m : rpc) : R * R := (offset_alt m - scale_alt m, offset_alt m + scale_alt m).

(** rpc.py 80-103 [monomes]: multiplicity and exponents of X, Y, Z. *)
Definition monomes : list (nat * nat * nat * nat) :=
  [(1,0,0,0); (1,1,0,0); (1,0,1,0); (1,0,0,1); (1,1,1,0); (1,1,0,1); (1,0,1,1);
   (1,2,0,0); (1,0,2,0); (1,0,0,2); (1,1,1,1); (1,3,0,0); (1,1,2,0); (1,1,0,2);
   (1,2,1,0); (1,0,3,0); (1,0,1,2); (1,2,0,1); (1,0,2,1); (1,0,0,3)]%nat.

(** rpc.py 106-129 [monomes_deriv_1]. *)
Definition monomes_deriv_1 : list (nat * nat * nat * nat) :=
  [(0,0,0,0); (1,0,0,0); (0,0,1,0); (0,0,0,1); (1,0,1,0); (1,0,0,1); (0,0,1,1);
   (2,1,0,0); (0,0,2,0); (0,0,0,2); (1,0,1,1); (3,2,0,0); (1,0,2,0); (1,0,0,2);
   (2,1,1,0); (0,0,3,0); (0,0,1,2); (2,1,0,1); (0,0,2,1); (0,0,0,3)]%nat.

(** rpc.py 132-155 [monomes_deriv_2]. *)
Definition monomes_deriv_2 : list (nat * nat * nat * nat) :=
  [(0,0,0,0); (0,1,0,0); (1,0,0,0); (0,0,0,1); (1,1,0,0); (0,1,0,1); (1,0,0,1);
   (0,2,0,0); (2,0,1,0); (0,0,0,2); (1,1,0,1); (0,3,0,0); (2,1,1,0); (0,1,0,2);
   (1,2,0,0); (3,0,2,0); (1,0,0,2); (0,2,0,1); (2,0,1,1); (0,0,0,3)]%nat.

(** ** Polynomials *)
(** [coeff[k]]; the arrays have 20 elements. *)
Definition co (c : list R) (k : nat) : R := nth k c 0.

(** rpc.py 627-665 [polynomial_equation]. *)
Definition polynomial_equation (x y z : R) (c : list R) : R :=
  co c 0 + co c 1 * x + co c 2 * y + co c 3 * z + co c 4 * x * y + co c 5 * x * z
  + co c 6 * y * z + co c 7 * x ^ 2 + co c 8 * y ^ 2 + co c 9 * z ^ 2 + co c 10 * x * y * z
  + co c 11 * x ^ 3 + co c 12 * x * y ^ 2 + co c 13 * x * z ^ 2 + co c 14 * x ^ 2 * y
  + co c 15 * y ^ 3 + co c 16 * y * z ^ 2 + co c 17 * x ^ 2 * z + co c 18 * y ^ 2 * z
  + co c 19 * z ^ 3.

(** rpc.py 735-763 [derivative_polynomial_latitude]. *)
Definition derivative_polynomial_latitude (lon lat alt : R) (c : list R) : R :=
  co c 2 + co c 4 * lon + co c 6 * alt + 2 * co c 8 * lat + co c 10 * lon * alt
  + 2 * co c 12 * lon * lat + co c 14 * lon ^ 2 + 3 * co c 15 * lat ^ 2 + co c 16 * alt ^ 2
  + 2 * co c 18 * lat * alt.

(** rpc.py 767-795 [derivative_polynomial_longitude]. *)
Definition derivative_polynomial_longitude (lon lat alt : R) (c : list R) : R :=
  co c 1 + co c 4 * lat + co c 5 * alt + 2 * co c 7 * lon + co c 10 * lat * alt
  + 3 * co c 11 * lon ^ 2 + co c 12 * lat ^ 2 + co c 13 * alt ^ 2 + 2 * co c 14 * lat * lon
  + 2 * co c 17 * lon * alt.

(** ** Arrays written by the parallel loops *)
(** A set of output arrays: array identifier, index |-> content; [np.zeros] at first. *)
Definition mem := nat -> nat -> num.
Definition zeros : mem := fun _ _ => fin 0.
(** One store [array[i] = v]. *)
Record store := St { st_arr : nat; st_idx : nat; st_val : num }.
Definition do_store (m : mem) (s : store) : mem :=
  fun a i => if ((a =? st_arr s) && (i =? st_idx s))%nat then st_val s else m a i.
Definition run_stores (l : list store) (m : mem) : mem := fold_left do_store l m.
Definition read_array (m : mem) (a n : nat) : list num := map (m a) (seq 0 n).

(** [array[i]] on an input array (indices are always in range in the loops). *)
Definition at_ (l : list num) (i : nat) : num := nth i l nan.

(** rpc.py 724-729: one output value, [poly_num / poly_den * scale + offset]. *)
Definition rational (x y z : num) (nu de : list R) (scale offset : R) : num :=
  match x, y, z with
  | Some x, Some y, Some z =>
      nadd (nmul (ndiv (fin (polynomial_equation x y z nu)) (fin (polynomial_equation x y z de)))
                 (fin scale)) (fin offset)
  | _, _, _ => nan
  end.

(** rpc.py 723-729: the stores of iteration [i] (array 0: [col_lat_out], array 1: [row_lon_out]). *)
Definition rational_stores (xs ys zs : list num) (ncol dcol nlin dlin : list R)
  (sc oc sl ol : R) (i : nat) : list store :=
  [St 0 i (rational (at_ xs i) (at_ ys i) (at_ zs i) ncol dcol sc oc);
   St 1 i (rational (at_ xs i) (at_ ys i) (at_ zs i) nlin dlin sl ol)].

(** rpc.py 675-731 [compute_rational_function_polynomial]; returns (row_lon_out, col_lat_out).
    The iterations run in the order of the indices; [PropertiesRpc.v] shows that every other
    order of the stores gives the same arrays.  [None]: the assertion of line 717, or arrays
    lon/lat of different lengths. *)
Definition compute_rational_function_polynomial (xs ys zs : list num)
  (ncol dcol nlin dlin : list R) (sc oc sl ol : R) : option (list num * list num) :=
  let n := length xs in
  if ((length zs =? n) && (length ys =? n))%nat then
    let m := run_stores (flat_map (rational_stores xs ys zs ncol dcol nlin dlin sc oc sl ol)
                                  (seq 0 n)) zeros in
    Some (read_array m 1 n, read_array m 0 n)
  else None.

(** rpc.py 859-862: [scale_out / scale_in * (dnum * den - dden * num) / den**2]. *)
Definition quotient_derivative (sout sin dnum den dden nu : R) : num :=
  ndiv (nmul (ndiv (fin sout) (fin sin)) (fin (dnum * den - dden * nu))) (fin (den ^ 2)).

(** rpc.py 843-862: the four partial derivatives at one point:
    (dcol_dlon, dcol_dlat, drow_dlon, drow_dlat). *)
Definition derivates_point (x y z : num) (ncol dcol nlin dlin : list R) (sc slon sl slat : R)
  : num * num * num * num :=
  match x, y, z with
  | Some x, Some y, Some z =>
      let num_dcol := polynomial_equation x y z ncol in
      let den_dcol := polynomial_equation x y z dcol in
      let num_drow := polynomial_equation x y z nlin in
      let den_drow := polynomial_equation x y z dlin in
      let num_dcol_dlon := derivative_polynomial_longitude x y z ncol in
      let den_dcol_dlon := derivative_polynomial_longitude x y z dcol in
      let num_drow_dlon := derivative_polynomial_longitude x y z nlin in
      let den_drow_dlon := derivative_polynomial_longitude x y z dlin in
      let num_dcol_dlat := derivative_polynomial_latitude x y z ncol in
      let den_dcol_dlat := derivative_polynomial_latitude x y z dcol in
      let num_drow_dlat := derivative_polynomial_latitude x y z nlin in
      let den_drow_dlat := derivative_polynomial_latitude x y z dlin in
      (quotient_derivative sc slon num_dcol_dlon den_dcol den_dcol_dlon num_dcol,
       quotient_derivative sc slat num_dcol_dlat den_dcol den_dcol_dlat num_dcol,
       quotient_derivative sl slon num_drow_dlon den_drow den_drow_dlon num_drow,
       quotient_derivative sl slat num_drow_dlat den_drow den_drow_dlat num_drow)
  | _, _, _ => (nan, nan, nan, nan)
  end.

(** rpc.py 843-862: the stores of iteration [i]. *)
Definition derivates_stores (xs ys zs : list num) (ncol dcol nlin dlin : list R)
  (sc slon sl slat : R) (i : nat) : list store :=
  let '(d1, d2, d3, d4) :=
    derivates_point (at_ xs i) (at_ ys i) (at_ zs i) ncol dcol nlin dlin sc slon sl slat in
  [St 0 i d1; St 1 i d2; St 2 i d3; St 3 i d4].

(** rpc.py 805-864 [compute_loc_inverse_derivates_numba]. *)
Definition compute_loc_inverse_derivates_numba (xs ys zs : list num)
  (ncol dcol nlin dlin : list R) (sc slon sl slat : R)
  : list num * list num * list num * list num :=
  let n := length xs in
  let m := run_stores (flat_map (derivates_stores xs ys zs ncol dcol nlin dlin sc slon sl slat)
                                (seq 0 n)) zeros in
  (read_array m 0 n, read_array m 1 n, read_array m 2 n, read_array m 3 n).

(** ** Localization *)
(** [if alt.shape[0] != n: alt = np.full(n, fill_value=alt[0])] (rpc.py 222-223, 358-359,
    439-440, 489-490).  [None]: IndexError on an empty array. *)
Definition broadcast_alt (n : nat) (alt : list num) : option (list num) :=
  if (length alt =? n)%nat then Some alt
  else match alt with a :: _ => Some (repeat a n) | [] => None end.

(** [np.array([lon, lat, alt]).transpose()] and back (rpc.py 361).  [None]: ragged arrays. *)
Fixpoint zip3 (a b c : list num) : option (list row3) :=
  match a, b, c with
  | [], [], [] => Some []
  | x :: a, y :: b, z :: c => match zip3 a b c with Some r => Some (R3 x y z :: r) | None => None end
  | _, _, _ => None
  end.

(** [(v - offset) / scale]. *)
Definition normalise (offset scale : R) (v : num) : num := ndiv (nsub v (fin offset)) (fin scale).

(** rpc.py 338-390 [inverse_loc]; returns (row, col, alt).  [None]: no inverse coefficients, or an
    exception on ill-shaped arguments. *)
Definition inverse_loc (m : rpc) (lon lat alt : list num)
  : option (list num * list num * list num) :=
  if inverse_coefficient m then
    match broadcast_alt (length lon) alt with
    | None => None
    | Some alt =>
        match zip3 lon lat alt with
        | None => None
        | Some rows =>
            let rows := check_lonlat rows in
            let lon := map lon3 rows in
            let lat := map lat3 rows in
            let alt := map alt3 rows in
            match compute_rational_function_polynomial
                    (map (normalise (offset_x m) (scale_x m)) lon)
                    (map (normalise (offset_y m) (scale_y m)) lat)
                    (map (normalise (offset_alt m) (scale_alt m)) alt)
                    (num_col m) (den_col m) (num_row m) (den_row m)
                    (scale_col m) (offset_col m) (scale_row m) (offset_row m) with
            | None => None
            | Some (row, col) => Some (row, col, alt)
            end
        end
    end
  else None.

(** rpc.py 426-460 [compute_loc_inverse_derivates]. *)
Definition compute_loc_inverse_derivates (m : rpc) (lon lat alt : list num)
  : option (list num * list num * list num * list num) :=
  match broadcast_alt (length lon) alt with
  | None => None
  | Some alt =>
      Some (compute_loc_inverse_derivates_numba
              (map (normalise (offset_x m) (scale_x m)) lon)
              (map (normalise (offset_y m) (scale_y m)) lat)
              (map (normalise (offset_alt m) (scale_alt m)) alt)
              (num_col m) (den_col m) (num_row m) (den_row m)
              (scale_col m) (scale_x m) (scale_row m) (scale_y m))
  end.

(** Boolean-mask indexing [a[mask]] and masked assignment [a[mask] = vals]. *)
Fixpoint gather {A} (mask : list bool) (a : list A) : list A :=
  match mask, a with
  | true :: mask, x :: a => x :: gather mask a
  | false :: mask, _ :: a => gather mask a
  | _, _ => []
  end.
Fixpoint scatter {A} (mask : list bool) (a vals : list A) : list A :=
  match mask, a with
  | true :: mask, x :: a =>
      match vals with v :: vals => v :: scatter mask a vals | [] => x :: scatter mask a [] end
  | false :: mask, x :: a => x :: scatter mask a vals
  | _, _ => a
  end.

(** Element-wise operations on arrays of the same length. *)
Fixpoint map2 {A B C} (f : A -> B -> C) (a : list A) (b : list B) : list C :=
  match a, b with x :: a, y :: b => f x y :: map2 f a b | _, _ => [] end.

(** rpc.py 392-424 [filter_coordinates]: (mask of the usable points, x_out, y_out). *)
Definition filter_coordinates (m : rpc) (first second : list num) (fill_nan direct : bool)
  : list bool * list num * list num :=
  let mask := map2 (fun a b => negb (isnan a || isnan b)) first second in
  let ox := if fill_nan then fin (if direct then offset_x m else offset_col m) else nan in
  let oy := if fill_nan then fin (if direct then offset_y m else offset_row m) else nan in
  (mask, repeat ox (length second), repeat oy (length second)).

(** rpc.py 508: the required precision, in pixels. *)
Definition eps : R := 1 / 1000000.

(** [np.max(abs(a)) > eps] (rpc.py 520): a NaN makes the maximum NaN and the test false. *)
Definition max_abs_gt_eps (a : list num) : bool :=
  negb (existsb isnan a) && existsb (fun d => ngtb (nabs d) (fin eps)) a.

(** The variables of the loop of rpc.py 520-545. *)
Record nstate := NS { ns_lon : list num; ns_lat : list num; ns_dcol : list num; ns_drow : list num }.

(** rpc.py 529-536: the new position of one point. *)
Definition newton_update (d : num * num * num * num) (dcol drow lon lat : num) : num * num :=
  let '(dcol_dlon, dcol_dlat, drow_dlon, drow_dlat) := d in
  let det := nsub (nmul dcol_dlon drow_dlat) (nmul drow_dlon dcol_dlat) in
  let delta_lon := ndiv (nsub (nmul drow_dlat dcol) (nmul dcol_dlat drow)) det in
  let delta_lat := ndiv (nadd (nmul (nopp drow_dlon) dcol) (nmul dcol_dlon drow)) det in
  (nadd lon delta_lon, nadd lat delta_lat).

Fixpoint zip4 {A B C D} (a : list A) (b : list B) (c : list C) (d : list D) : list (A * B * C * D) :=
  match a, b, c, d with
  | x :: a, y :: b, z :: c, t :: d => (x, y, z, t) :: zip4 a b c d
  | _, _, _, _ => []
  end.

(** rpc.py 520-545: the loop.  [fuel] is [nb_iter_max - iteration]; the result also carries the
    number of iterations performed.  [None]: an exception. *)
Fixpoint newton_loop (m : rpc) (row col alt : list num) (fuel : nat) (s : nstate)
  : option (nstate * nat) :=
  if max_abs_gt_eps (ns_dcol s) || max_abs_gt_eps (ns_drow s) then
    match fuel with
    | O => Some (s, O)
    | S fuel =>
        let it := map2 (fun dc dr => ngtb (nabs dc) (fin eps) || ngtb (nabs dr) (fin eps))
                       (ns_dcol s) (ns_drow s) in
        let lon_i := gather it (ns_lon s) in
        let lat_i := gather it (ns_lat s) in
        let alt_i := gather it alt in
        match compute_loc_inverse_derivates m lon_i lat_i alt_i with
        | None => None
        | Some (d1, d2, d3, d4) =>
            let new := map2 (fun d p => let '(dc, dr, lo, la) := p in newton_update d dc dr lo la)
                            (zip4 d1 d2 d3 d4)
                            (zip4 (gather it (ns_dcol s)) (gather it (ns_drow s)) lon_i lat_i) in
            let lon := scatter it (ns_lon s) (map fst new) in
            let lat := scatter it (ns_lat s) (map snd new) in
            match inverse_loc m (gather it lon) (gather it lat) alt_i with
            | None => None
            | Some (row_estim, col_estim, _) =>
                let dcol := scatter it (ns_dcol s) (map2 nsub (gather it col) col_estim) in
                let drow := scatter it (ns_drow s) (map2 nsub (gather it row) row_estim) in
                match newton_loop m row col alt fuel (NS lon lat dcol drow) with
                | Some (s, k) => Some (s, S k)
                | None => None
                end
            end
        end
    end
  else Some (s, O).

(** The tests [np.any(filter_nan)] of rpc.py 495. *)
Definition any (l : list bool) : bool := existsb (fun b => b) l.

(** rpc.py 462-554 [direct_loc_inverse_iterative]; returns (long_out, lat_out, alt) and the number
    of iterations (not returned by the code).  [col - col_start] broadcasts the single start
    position.  [None]: no inverse coefficients, or an exception on ill-shaped arguments. *)
Definition direct_loc_inverse_iterative (m : rpc) (row col alt : list num) (nb_iter_max : nat)
  (fill_nan : bool) : option (list num * list num * list num * nat) :=
  if inverse_coefficient m && (length row =? length col)%nat then
    match broadcast_alt (length col) alt with
    | None => None
    | Some alt =>
        let '(mask, long_out, lat_out) := filter_coordinates m row col fill_nan true in
        if negb (any mask) then Some (long_out, lat_out, gather mask alt, O)
        else
          let row_f := gather mask row in
          let col_f := gather mask col in
          let alt_f := gather mask alt in
          match inverse_loc m [fin (offset_x m)] [fin (offset_y m)] alt_f with
          | Some ([row_start], [col_start], _) =>
              let dcol := map (fun c => nsub c col_start) col_f in
              let drow := map (fun r => nsub r row_start) row_f in
              let n := length dcol in
              match newton_loop m row_f col_f alt_f nb_iter_max
                      (NS (repeat (fin (offset_x m)) n) (repeat (fin (offset_y m)) n) dcol drow) with
              | Some (s, k) =>
                  Some (scatter mask long_out (ns_lon s), scatter mask lat_out (ns_lat s), alt, k)
              | None => None
              end
          | _ => None
          end
    end
  else None.

(** rpc.py 198-268 [direct_loc_h].  [None]: ValueError of line 265, or an exception on ill-shaped
    arguments (rows and columns of different lengths do not fit the same mask, lines 225-227). *)
Definition direct_loc_h (m : rpc) (row col alt : list num) (fill_nan using_direct_coef : bool)
  : option (list row3) :=
  if negb (length row =? length col)%nat then None else
  match broadcast_alt (length col) alt with
  | None => None
  | Some alt =>
      let '(mask, px, py) := filter_coordinates m row col fill_nan true in
      let row := gather mask row in
      let col := gather mask col in
      let pts :=
        if negb using_direct_coef && inverse_coefficient m then
          match direct_loc_inverse_iterative m row col (gather mask alt) 10 fill_nan with
          | Some (lon, lat, _, _) => Some (scatter mask px lon, scatter mask py lat)
          | None => None
          end
        else if using_direct_coef && direct_coefficient m then
          match compute_rational_function_polynomial
                  (map (normalise (offset_col m) (scale_col m)) col)
                  (map (normalise (offset_row m) (scale_row m)) row)
                  (map (normalise (offset_alt m) (scale_alt m)) (gather mask alt))
                  (num_x m) (den_x m) (num_y m) (den_y m)
                  (scale_x m) (offset_x m) (scale_y m) (offset_y m) with
          | Some (lat, lon) => Some (scatter mask px lon, scatter mask py lat)
          | None => None
          end
        else None in
      match pts with
      | Some (lon, lat) =>
          match zip3 lon lat alt with
          | Some rows => Some (check_lonlat rows)
          | None => None
          end
      | None => None
      end
  end.

(** rpc.py 556-563 [get_alt_min_max]. *)
Definition get_alt_min_max (m : rpc) : R * R :=
  (offset_alt m - scale_alt m / 2, offset_alt m + scale_alt m / 2).

(** The slices [a[0::2]] and [a[1::2]] of an array of even length. *)
Fixpoint pairs_of {A} (l : list A) : list (A * A) :=
  match l with x :: y :: l => (x, y) :: pairs_of l | _ => [] end.

(** rpc.py 611-618: the extrapolation of one line of sight; [top] and [bot] are its points at the
    upper and lower altitudes of the model. *)
Definition extrapolate_los (alt_min alt_max : R) (top bot : row3) : list row3 :=
  let dlon := nsub (lon3 top) (lon3 bot) in
  let dlat := nsub (lat3 top) (lat3 bot) in
  let dalt := nsub (alt3 top) (alt3 bot) in
  let cmax := ndiv (nsub (fin alt_max) (alt3 bot)) dalt in
  let cmin := ndiv (nsub (fin alt_min) (alt3 bot)) dalt in
  [R3 (nadd (lon3 bot) (nmul dlon cmax)) (nadd (lat3 bot) (nmul dlat cmax))
      (nadd (alt3 bot) (nmul dalt cmax));
   R3 (nadd (lon3 bot) (nmul dlon cmin)) (nadd (lat3 bot) (nmul dlat cmin))
      (nadd (alt3 bot) (nmul dalt cmin))].

(** rpc.py 565-623 [los_extrema].  [conv] is [coordinates_conversion] (external).
    [None] bounds are Python's None.  Rows and columns are arrays of the same length (numpy would repeat a single
    column). *)
Definition los_extrema (conv : Z -> Z -> list row3 -> list row3) (m : rpc) (row col : list num)
  (alt_min alt_max : option R) (fill_nan : bool) (epsg : option Z) : option (list row3) :=
  let '(extrapolate, los_alt_min, los_alt_max) :=
    match alt_min, alt_max with
    | Some lo, Some hi =>
        if Rleb (fst (alt_minmax m)) lo && Rleb hi (snd (alt_minmax m)) then (None, lo, hi)
        else (Some (lo, hi), fst (get_alt_min_max m), snd (get_alt_min_max m))
    | _, _ => (None, fst (get_alt_min_max m), snd (get_alt_min_max m))
    end in
  let row_array := flat_map (fun r => [r; r]) row in
  let col_array := flat_map (fun c => [c; c]) col in
  let alt_array := flat_map (fun _ => [fin los_alt_max; fin los_alt_min]) row in
  match direct_loc_h m row_array col_array alt_array fill_nan false with
  | None => None
  | Some los_edges =>
      let los_edges :=
        match extrapolate with
        | Some (lo, hi) =>
            flat_map (fun p => extrapolate_los lo hi (fst p) (snd p)) (pairs_of los_edges)
        | None => los_edges
        end in
      match epsg with
      | Some e => if (e =? rpc_epsg m)%Z then Some los_edges
                  else Some (conv (rpc_epsg m) e los_edges)
      | None => Some los_edges
      end
  end.
