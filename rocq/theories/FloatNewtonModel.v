(** Model, in binary64, of the iterative direct localization of an RPC model ([shareloc/geomodels/rpc.py] and
    [shareloc/bindings/rpc.cpp]).

    The inverse localization is the set of all the results of FloatRpcModel.v.  The correction that the derivatives give at each
    iteration is any number here: the statements hold whatever the derivatives are. *)
From Coq Require Import ZArith List Bool.
From Flocq Require Import Core BinarySingleNaN.
From Verif Require Import FloatModel FloatRpcModel.
Import ListNotations.

(** The offsets, scales and inverse coefficients of a model (rpc.py 53-181, the attributes). *)
Record fmodel := FMod {
  fm_x : faxis; fm_y : faxis; fm_alt : faxis; fm_col : faxis; fm_row : faxis;
  fm_num_col : list b64; fm_den_col : list b64; fm_num_row : list b64; fm_den_row : list b64 }.

(** geomodel_template.py 119-124 [check_lonlat], for one point: false when its coordinates are replaced by NaN. *)
Definition f_lonlat_ok (lon lat alt : b64) : bool :=
  negb (Bltb (fint 180) (Babs lon) || Bltb (fint 90) (Babs lat) || (is_nan lon || is_nan lat || is_nan alt)).
(** rpc.py 363-386, rpc.cpp 621-635 ([compute_rational_function_polynomial] of one point): a row and a column that the rational
    functions can give. *)
Definition f_sensor (M : fmodel) (lon lat alt row col : b64) : Prop :=
  compiled_rational (fm_x M) (fm_y M) (fm_alt M) (fm_row M) (fm_num_row M) (fm_den_row M) lon lat alt row /\
  compiled_rational (fm_x M) (fm_y M) (fm_alt M) (fm_col M) (fm_num_col M) (fm_den_col M) lon lat alt col.
(** rpc.py 351-390 [inverse_loc], for one point.  The values of the fastmath functions at NaN coordinates are not specified: any row
    and column. *)
Definition f_inverse_loc (M : fmodel) (lon lat alt row col : b64) : Prop :=
  f_lonlat_ok lon lat alt = true -> f_sensor M lon lat alt row col.

(** rpc.py 508, rpc.cpp 365 and 445: eps = 1e-6. *)
Definition feps : b64 := flit 4722366482869645 (-72).

(** A pixel and the altitude asked for; the current ground position and the residues. *)
Record fpixel := FPix { fp_row : b64; fp_col : b64; fp_alt : b64 }.
Record fstate := FSt { fs_lon : b64; fs_lat : b64; fs_dcol : b64; fs_drow : b64 }.

(** rpc.py 522: the point requires another iteration. *)
Definition f_again (s : fstate) : bool := Bltb feps (Babs (fs_dcol s)) || Bltb feps (Babs (fs_drow s)).
(** [np.max] of an array: NaN when an element is NaN.  (An empty array raises an exception: it does not happen, 495-496.) *)
Definition f_maximum (x y : b64) : b64 := if is_nan x then x else if is_nan y then y else if Bltb x y then y else x.
Definition f_max (l : list b64) : b64 := match l with [] => B754_nan | x :: l => fold_left f_maximum l x end.
(** rpc.py 520: the precision is not achieved. *)
Definition f_guard (ss : list fstate) : bool :=
  Bltb feps (f_max (map (fun s => Babs (fs_dcol s)) ss)) || Bltb feps (f_max (map (fun s => Babs (fs_drow s)) ss)).

(** rpc.py 522-543: an iteration, for one point of the batch.  [dlon] and [dlat] are any numbers. *)
Definition f_iterate (M : fmodel) (p : fpixel) (s s' : fstate) : Prop :=
  if f_again s then
    exists dlon dlat row col, f_inverse_loc M (fadd (fs_lon s) dlon) (fadd (fs_lat s) dlat) (fp_alt p) row col /\
      s' = FSt (fadd (fs_lon s) dlon) (fadd (fs_lat s) dlat) (fsub (fp_col p) col) (fsub (fp_row p) row)
  else s' = s.

(** How the loop ends: with the precision, or after the last iteration. *)
Inductive fending := FPrecise | FLimit.
(** rpc.py 520-545: the loop, with [n] iterations left. *)
Inductive f_loop (M : fmodel) (ps : list fpixel) : nat -> list fstate -> fending -> list fstate -> Prop :=
| fl_precise : forall n ss, f_guard ss = false -> f_loop M ps n ss FPrecise ss
| fl_limit : forall ss, f_guard ss = true -> f_loop M ps 0 ss FLimit ss
| fl_iterate : forall n ss ss' e out, f_guard ss = true ->
    Forall2 (fun ps s' => f_iterate M (fst ps) (snd ps) s') (combine ps ss) ss' -> length ss = length ps ->
    f_loop M ps n ss' e out -> f_loop M ps (S n) ss e out.

(** rpc.py 503-517: the start at the offsets of the model.  The inverse localization of one position with all the altitudes uses
    the first one (358-359), and its row and column are the ones of all the pixels. *)
Definition f_start (M : fmodel) (ps : list fpixel) (ss : list fstate) : Prop :=
  match ps with
  | [] => False
  | p :: _ =>
      let lon := fa_offset (fm_x M) in let lat := fa_offset (fm_y M) in
      exists row col, f_inverse_loc M lon lat (fp_alt p) row col /\
        ss = map (fun q => FSt lon lat (fsub (fp_col q) col) (fsub (fp_row q) row)) ps
  end.

(** rpc.py 408 [filter_coordinates]. *)
Definition f_valid (p : fpixel) : bool := negb (is_nan (fp_row p) || is_nan (fp_col p)).
(** rpc.py 547-548: the positions of the valid pixels are put back between the ones of the others. *)
Fixpoint f_scatter (none : b64 * b64) (ps : list fpixel) (ss : list fstate) : list (b64 * b64) :=
  match ps with
  | [] => []
  | p :: ps =>
      if f_valid p
      then match ss with s :: ss => (fs_lon s, fs_lat s) :: f_scatter none ps ss | [] => none :: f_scatter none ps [] end
      else none :: f_scatter none ps ss
  end.
(** rpc.py 462-554 [direct_loc_inverse_iterative], with inverse coefficients and as many altitudes as pixels (or one for all of
    them).  The results: how the loop ended, and the longitudes and latitudes. *)
Definition f_direct (M : fmodel) (ps : list fpixel) (nb_iter_max : nat) (fill_nan : bool) (e : fending) (out : list (b64 * b64)) : Prop :=
  let none := if fill_nan then (fa_offset (fm_x M), fa_offset (fm_y M)) else (B754_nan, B754_nan) in
  let ps' := filter f_valid ps in
  match ps' with
  | [] => e = FPrecise /\ out = map (fun _ => none) ps
  | _ => exists ss ss', f_start M ps' ss /\ f_loop M ps' nb_iter_max ss e ss' /\ out = f_scatter none ps ss'
  end.

(** rpc.cpp 604-637: the inverse localization of the compiled version for one point; it only tests for NaN. *)
Definition c_inverse_loc (M : fmodel) (lon lat alt row col : b64) : Prop :=
  if is_nan lon || is_nan lat then row = B754_nan /\ col = B754_nan else f_sensor M lon lat alt row col.
(** rpc.cpp 388-421, and 481-512 for each pixel of a vector: the loop of the compiled version. *)
Inductive c_loop (M : fmodel) (p : fpixel) : nat -> fstate -> fending -> fstate -> Prop :=
| cl_precise : forall n s, f_again s = false -> c_loop M p n s FPrecise s
| cl_limit : forall s, f_again s = true -> c_loop M p 0 s FLimit s
| cl_iterate : forall n s e out dlon dlat row col, f_again s = true ->
    c_inverse_loc M (fadd (fs_lon s) dlon) (fadd (fs_lat s) dlat) (fp_alt p) row col ->
    c_loop M p n (FSt (fadd (fs_lon s) dlon) (fadd (fs_lat s) dlat) (fsub (fp_col p) col) (fsub (fp_row p) row)) e out ->
    c_loop M p (S n) s e out.
(** rpc.cpp 353-425 [direct_loc_inverse_iterative] of one pixel; 427-516 does the same for each pixel of a vector. *)
Definition c_direct (M : fmodel) (p : fpixel) (nb_iter_max : nat) (fill_nan : bool) (e : fending) (out : b64 * b64) : Prop :=
  if f_valid p then
    exists row col s, c_inverse_loc M (fa_offset (fm_x M)) (fa_offset (fm_y M)) (fp_alt p) row col /\
      c_loop M p nb_iter_max (FSt (fa_offset (fm_x M)) (fa_offset (fm_y M)) (fsub (fp_col p) col) (fsub (fp_row p) row)) e s /\
      out = (fs_lon s, fs_lat s)
  else e = FPrecise /\ out = (if fill_nan then (fa_offset (fm_x M), fa_offset (fm_y M)) else (B754_nan, B754_nan)).
