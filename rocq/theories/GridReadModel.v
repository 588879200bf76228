(** Model of [shareloc/geomodels/grid.py]: reading a multi-altitude grid.

    Simplifications: an altitude that is not finite is refused (ValueError), where the code stores it; the
    grid has at least two rows and two columns ([np.squeeze] of image.py 192 removes an axis of size one). *)
From Coq Require Import Reals ZArith List Bool Ascii String.
From Verif Require Import Num InterpModel ProjModel PyStrModel ReadersModel GridModel.
Import ListNotations.
Open Scope string_scope.

(** The raster file: its driver, its tags (all the namespaces), its bands, its geotransform. *)
Record grid_file := mkGridFile { gf_driver : string; gf_tags : list (string * string); gf_bands : list raster; gf_transform : affine }.

(** [s.split(c)] for one character. *)
Fixpoint split_char (c : ascii) (s w : string) : list string :=
  match s with
  | EmptyString => [rev_string w ""]
  | String d s => if Ascii.eqb d c then rev_string w "" :: split_char c s "" else split_char c s (String d w)
  end.
(** [l[1]]. *)
Definition second_of (l : list string) : result string := match l with _ :: b :: _ => Ok b | _ => Err IndexError end.
(** [sub in s]. *)
Definition contains (sub s : string) : bool := match index 0 sub s with Some _ => true | None => false end.

Section READ.
(** The builtins [int] and [float] on strings; [np.argsort]. *)
Context (pyint : string -> option Z) (pyfloat : string -> option num) (argsort : list R -> list nat).
Definition py_int (s : string) : result Z := match pyint s with Some n => Ok n | None => Err ValueError end.
Definition py_finite (s : string) : result R := match pyfloat s with Some (Some x) => Ok x | _ => Err ValueError end.

(** grid.py 198-210 [check_status_band]. *)
Definition check_status_band (tags : list (string * string)) : bool := existsb (fun kv => String.eqb (snd kv) "status") tags.
(** The number of bands of a layer. *)
Definition layer_bands (status : bool) : nat := if status then 3 else 2.

(** [a[i] = v], with Python's negative indices. *)
Fixpoint set_at (n : nat) (v : R) (l : list R) : list R :=
  match l, n with
  | [], _ => []
  | _ :: l, O => v :: l
  | x :: l, S n => x :: set_at n v l
  end.
Definition store (a : list R) (i : Z) (v : R) : result (list R) :=
  let n := Z.of_nat (List.length a) in
  if ((0 <=? i) && (i <? n))%Z then Ok (set_at (Z.to_nat i) v a)
  else if ((- n <=? i) && (i <? 0))%Z then Ok (set_at (Z.to_nat (n + i)) v a)
  else Err IndexError.

(** grid.py 226-229: the loop on the tags. *)
Fixpoint read_altitudes (tags : list (string * string)) (status : bool) (a : list R) : result (list R) :=
  match tags with
  | [] => Ok a
  | (key, value) :: tags =>
      if contains "ALTITUDE" key then
        let! b := second_of (split_char "B" key "") in
        let! n := py_int b in
        let! v := py_finite value in
        let! a := store a (Z.quot n (Z.of_nat (layer_bands status))) v in
        read_altitudes tags status a
      else read_altitudes tags status a
  end.
(** grid.py 212-232 [parse_metadata_alti]: the indices of the layers and [alts_down]. *)
Definition parse_metadata_alti (tags : list (string * string)) (nbalt : nat) (status : bool) : result (list nat * list R) :=
  let! a := read_altitudes tags status (repeat 0%R nbalt) in
  let indexes := rev (argsort a) in
  Ok (indexes, map (fun i => nth i a 0%R) indexes).

(** grid.py 188-196: the coordinate system. *)
Fixpoint read_epsg (tags : list (string * string)) (epsg : option Z) : result (option Z) :=
  match tags with
  | [] => Ok epsg
  | (key, value) :: tags =>
      if endswith key "REF" then
        if prefix "EPSG:" value then
          let! s := second_of (split_char ":" value "") in
          let! n := py_int s in
          read_epsg tags (Some n)
        else read_epsg tags (Some 4326%Z)
      else read_epsg tags epsg
  end.

(** grid.py 147-196 [read].  The driver that is not GTiff (TypeError) is given as ValueError. *)
Definition read_grid (f : grid_file) : result grid :=
  if negb (String.eqb (gf_driver f) "GTiff") then Err ValueError
  else
    let status := check_status_band (gf_tags f) in
    let nbalt := (List.length (gf_bands f) / layer_bands status)%nat in
    let! (indexes, alts_down) := parse_metadata_alti (gf_tags f) nbalt status in
    let band i := nth i (gf_bands f) no_layer in
    let lon := map (fun i => band (i * layer_bands status)%nat) indexes in
    let lat := map (fun i => band (i * layer_bands status + 1)%nat) indexes in
    let! epsg := read_epsg (gf_tags f) None in
    let first := hd no_layer (gf_bands f) in
    let t := gf_transform f in
    Ok (mkGrid (af_f t) (af_c t) (af_e t) (af_a t) (rs_rows first) (rs_cols first) alts_down lon lat epsg).
End READ.
