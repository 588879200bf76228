(** Model of the functions that assign to the arrays of their caller: the arrays are objects with an identity,
    held in a store. *)
From Coq Require Import Reals ZArith List Bool.
From Verif Require Import Num InterpModel ProjModel ImageModel DtmReadModel RectModel.
Import ListNotations.
Open Scope R_scope.

(** The arrays of type [A], by identity.  [x[...] = v] changes the object, not the name. *)
Definition store (A : Type) := nat -> A.
Definition assign {A} (s : store A) (k : nat) (v : A) : store A := fun n => if Nat.eqb n k then v else s n.

(** ** Geoid heights *)
(** dtm_reader.py 149-195 [interpolate_geoid_height], statement by statement, on the array [k] of positions; [g] is
    the image of the geoid file.  [None]: RuntimeError, after the assignments. *)
Definition geoid_call (g : image) (s : store (list (R * R))) (k : nat) : store (list (R * R)) * option (list num) :=
  let p := im_pixel_size_col g in
  let min_lon := im_origin_col g + p / 2 in
  let max_lon := im_origin_col g + IZR (rs_cols (overlap g)) * p - p / 2 in
  let s := assign s k (map (fun q => (if Rltb (fst q + min_lon) 0 then fst q + 360 else fst q, snd q)) (s k)) in
  let s := assign s k (map (fun q => (if Rltb 0 (fst q - max_lon) then fst q - 360 else fst q, snd q)) (s k)) in
  if existsb (fun q => Rltb 90 (Rabs (snd q))) (s k) then (s, None)
  else (s, Some (map (fun q => let '(r, c) := transform_physical_point_to_index (im_trans_inv g) (snd q) (fst q) in interpn (overlap g) r c) (s k))).
(** A program: calls one after the other, on any geoids and arrays; an exception does not stop it (the caller
    may catch it). *)
Fixpoint geoid_calls (l : list (image * nat)) (s : store (list (R * R))) : store (list (R * R)) :=
  match l with
  | [] => s
  | (g, k) :: l => geoid_calls l (fst (geoid_call g s k))
  end.

(** ** Displacement grids *)
(** [grid[:, :, 0] = grid[:, :, 0] - grids_rows], and the same with the columns. *)
Definition minus_rows (epi_step : R) (grid : list (list row3)) : list (list row3) :=
  mapi (fun r line => mapi (fun c p => R3 (nsub (lon3 p) (fin (snd (transform_index_to_physical_point (displacement_transform epi_step) (INR c) (INR r))))) (lat3 p) (alt3 p)) 0 line) 0 grid.
Definition minus_cols (epi_step : R) (grid : list (list row3)) : list (list row3) :=
  mapi (fun r line => mapi (fun c p => R3 (lon3 p) (nsub (lat3 p) (fin (fst (transform_index_to_physical_point (displacement_transform epi_step) (INR c) (INR r))))) (alt3 p)) 0 line) 0 grid.
(** rectification.py 775-804 [positions_to_displacement_grid] on the arrays [l] and [r], of the same shape; the
    arrays returned are [l] and [r] themselves. *)
Definition displacement_call (epi_step : R) (s : store (list (list row3))) (l r : nat) : store (list (list row3)) * (nat * nat) :=
  let s := assign s l (minus_rows epi_step (s l)) in
  let s := assign s l (minus_cols epi_step (s l)) in
  let s := assign s r (minus_rows epi_step (s r)) in
  let s := assign s r (minus_cols epi_step (s r)) in
  (s, (l, r)).

(** ** The filter of the positions *)
(** geomodel_template.py 111-124 [check_lonlat] on the array [k]; the array returned is [k] itself. *)
Definition check_lonlat_call (s : store (list row3)) (k : nat) : store (list row3) * nat :=
  (assign s k (check_lonlat (s k)), k).
(** rpc.py 361, grid.py 790, rpc_optim.py 279: the arrays of longitudes, latitudes and altitudes of the caller are
    copied ([np.array]) to a new array before the filter; [new] is the identity of the new array. *)
Definition filtered_inputs (s : store (list row3)) (new : nat) (lon lat alt : list num) : store (list row3) * nat :=
  check_lonlat_call (assign s new (map (fun t => R3 (fst (fst t)) (snd (fst t)) (snd t)) (combine (combine lon lat) alt))) new.
