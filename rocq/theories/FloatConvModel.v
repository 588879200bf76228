(** Model, in binary64, of the derivatives and of the corrections of the iterative direct localization of an RPC model
    ([shareloc/geomodels/rpc.py] and [shareloc/bindings/rpc.cpp]).

    FloatNewtonModel.v leaves the corrections free; here they are the results of the operations of the code.  As in FloatRpcModel.v,
    the polynomials are evaluated in any order, with or without fused operations.  The other operations are the ones of the
    source; a sum or a difference of two products may be fused, and a division replaced by the product by an inverse. *)
From Coq Require Import ZArith List Bool.
From Flocq Require Import Core BinarySingleNaN.
From Verif Require Import FloatModel FloatRpcModel FloatNewtonModel.
Import ListNotations.

(** rpc.py 767-795, rpc.cpp 811-829 [derivative_polynomial_longitude]: the terms. *)
Definition longitude_terms (x y z : b64) (c : list b64) : fpoly :=
  [[fco c 1]; [fco c 4; y]; [fco c 5; z]; [fint 2; fco c 7; x]; [fco c 10; y; z]; [fint 3; fco c 11; x; x]; [fco c 12; y; y];
   [fco c 13; z; z]; [fint 2; fco c 14; y; x]; [fint 2; fco c 17; x; z]].
(** rpc.py 735-763, rpc.cpp 791-809 [derivative_polynomial_latitude]: the terms. *)
Definition latitude_terms (x y z : b64) (c : list b64) : fpoly :=
  [[fco c 2]; [fco c 4; x]; [fco c 6; z]; [fint 2; fco c 8; y]; [fco c 10; x; z]; [fint 2; fco c 12; x; y]; [fco c 14; x; x];
   [fint 3; fco c 15; y; y]; [fco c 16; z; z]; [fint 2; fco c 18; y; z]].

(** The results of the expressions x * y + z * t and x * y - z * t. *)
Inductive sum_of_products (x y z t : b64) : b64 -> Prop :=
| sp_source : sum_of_products x y z t (fadd (fmul x y) (fmul z t))
| sp_fused1 : sum_of_products x y z t (ffma x y (fmul z t))
| sp_fused2 : sum_of_products x y z t (ffma z t (fmul x y)).
Inductive difference_of_products (x y z t : b64) : b64 -> Prop :=
| dp_source : difference_of_products x y z t (fsub (fmul x y) (fmul z t))
| dp_fused1 : difference_of_products x y z t (ffma x y (Bopp (fmul z t)))
| dp_fused2 : difference_of_products x y z t (ffma (Bopp z) t (fmul x y)).

(** rpc.py 859-862, rpc.cpp 343-346: sout / sin * (dnum * den - dden * num) / den**2. *)
Inductive slope (sout sin num den dnum dden : b64) : b64 -> Prop :=
| sl_source : forall g, difference_of_products dnum den dden num g ->
    slope sout sin num den dnum dden (fdiv (fmul (fdiv sout sin) g) (fmul den den))
| sl_inverse : forall g, difference_of_products dnum den dden num g ->
    slope sout sin num den dnum dden (fmul (fmul (fdiv sout sin) g) (fdiv (fint 1) (fmul den den))).

(** rpc.py 426-460 and 843-862, rpc.cpp 318-348 [compute_loc_inverse_derivates], for one point and one of the two outputs: the
    derivatives along the longitude and the latitude. *)
Definition slopes (M : fmodel) (out : faxis) (num den : list b64) (lon lat alt a b : b64) : Prop :=
  let x := fnormalise lon (fa_offset (fm_x M)) (fa_scale (fm_x M)) in
  let y := fnormalise lat (fa_offset (fm_y M)) (fa_scale (fm_y M)) in
  let z := fnormalise alt (fa_offset (fm_alt M)) (fa_scale (fm_alt M)) in
  exists n d nx dx ny dy, compiled_polynomial x y z num n /\ compiled_polynomial x y z den d /\
    evaluates (longitude_terms x y z num) nx /\ evaluates (longitude_terms x y z den) dx /\
    evaluates (latitude_terms x y z num) ny /\ evaluates (latitude_terms x y z den) dy /\
    slope (fa_scale out) (fa_scale (fm_x M)) n d nx dx a /\ slope (fa_scale out) (fa_scale (fm_y M)) n d ny dy b.

(** rpc.py 524-532, rpc.cpp 391-400: the correction, from the derivatives and the residues. *)
Definition solved (a b c d dcol drow dlon dlat : b64) : Prop :=
  exists det nlon nlat, difference_of_products a d c b det /\ difference_of_products d dcol b drow nlon /\
    sum_of_products (Bopp c) dcol a drow nlat /\ dlon = fdiv nlon det /\ dlat = fdiv nlat det.
Definition correction (M : fmodel) (alt : b64) (s : fstate) (dlon dlat : b64) : Prop :=
  exists a b c d, slopes M (fm_col M) (fm_num_col M) (fm_den_col M) (fs_lon s) (fs_lat s) alt a b /\
    slopes M (fm_row M) (fm_num_row M) (fm_den_row M) (fs_lon s) (fs_lat s) alt c d /\ solved a b c d (fs_dcol s) (fs_drow s) dlon dlat.

(** rpc.py 522-543: an iteration, for one point of the batch. *)
Definition n_iterate (M : fmodel) (p : fpixel) (s s' : fstate) : Prop :=
  if f_again s then
    exists dlon dlat row col, correction M (fp_alt p) s dlon dlat /\
      f_inverse_loc M (fadd (fs_lon s) dlon) (fadd (fs_lat s) dlat) (fp_alt p) row col /\
      s' = FSt (fadd (fs_lon s) dlon) (fadd (fs_lat s) dlat) (fsub (fp_col p) col) (fsub (fp_row p) row)
  else s' = s.
(** rpc.py 520-545: the loop, with [n] iterations left. *)
Inductive n_loop (M : fmodel) (ps : list fpixel) : nat -> list fstate -> fending -> list fstate -> Prop :=
| nl_precise : forall n ss, f_guard ss = false -> n_loop M ps n ss FPrecise ss
| nl_limit : forall ss, f_guard ss = true -> n_loop M ps 0 ss FLimit ss
| nl_iterate : forall n ss ss' e out, f_guard ss = true ->
    Forall2 (fun ps s' => n_iterate M (fst ps) (snd ps) s') (combine ps ss) ss' -> length ss = length ps ->
    n_loop M ps n ss' e out -> n_loop M ps (S n) ss e out.
(** rpc.py 462-554 [direct_loc_inverse_iterative]. *)
Definition n_direct (M : fmodel) (ps : list fpixel) (nb_iter_max : nat) (fill_nan : bool) (e : fending) (out : list (b64 * b64)) : Prop :=
  let none := if fill_nan then (fa_offset (fm_x M), fa_offset (fm_y M)) else (B754_nan, B754_nan) in
  let ps' := filter f_valid ps in
  match ps' with
  | [] => e = FPrecise /\ out = map (fun _ => none) ps
  | _ => exists ss ss', f_start M ps' ss /\ n_loop M ps' nb_iter_max ss e ss' /\ out = f_scatter none ps ss'
  end.

(** rpc.cpp 388-421, and 481-512 for each pixel of a vector: the loop of the compiled version. *)
Inductive cn_loop (M : fmodel) (p : fpixel) : nat -> fstate -> fending -> fstate -> Prop :=
| cnl_precise : forall n s, f_again s = false -> cn_loop M p n s FPrecise s
| cnl_limit : forall s, f_again s = true -> cn_loop M p 0 s FLimit s
| cnl_iterate : forall n s e out dlon dlat row col, f_again s = true -> correction M (fp_alt p) s dlon dlat ->
    c_inverse_loc M (fadd (fs_lon s) dlon) (fadd (fs_lat s) dlat) (fp_alt p) row col ->
    cn_loop M p n (FSt (fadd (fs_lon s) dlon) (fadd (fs_lat s) dlat) (fsub (fp_col p) col) (fsub (fp_row p) row)) e out ->
    cn_loop M p (S n) s e out.
(** rpc.cpp 353-425 [direct_loc_inverse_iterative] of one pixel; 427-516 does the same for each pixel of a vector. *)
Definition cn_direct (M : fmodel) (p : fpixel) (nb_iter_max : nat) (fill_nan : bool) (e : fending) (out : b64 * b64) : Prop :=
  if f_valid p then
    exists row col s, c_inverse_loc M (fa_offset (fm_x M)) (fa_offset (fm_y M)) (fp_alt p) row col /\
      cn_loop M p nb_iter_max (FSt (fa_offset (fm_x M)) (fa_offset (fm_y M)) (fsub (fp_col p) col) (fsub (fp_row p) row)) e s /\
      out = (fs_lon s, fs_lat s)
  else e = FPrecise /\ out = (if fill_nan then (fa_offset (fm_x M), fa_offset (fm_y M)) else (B754_nan, B754_nan)).
