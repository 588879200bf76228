(** Model of the writes of [shareloc/geomodels/rpc_writers.py], one call at a time, for executions that stop
    before their end. *)
From Coq Require Import Reals List Bool Arith Ascii String.
From Verif Require Import Num PyStrModel ReadersModel WritersModel.
Import ListNotations.
Open Scope string_scope.

(** ** Calls *)
(** [open(path, "w")], which empties the file, and [f.write(text)] on the file so opened. *)
Inductive op := Open (path : string) | Write (path text : string).
Definition text_of (c : option content) : string := match c with Some (TextFile t) => t | _ => "" end.
Definition apply_op (s : fs) (o : op) : fs :=
  match o with
  | Open p => fs_set s p (TextFile "")
  | Write p x => fs_set s p (TextFile (text_of (s p) ++ x))
  end.
Definition apply_ops (s : fs) (l : list op) : fs := fold_left apply_op l s.

(** The execution of [l] from [s] may stop in the state [s']: between two calls, or when a part of the text of
    one has reached the file.  The buffer of the file only delays what is written; the states that it gives are
    among those ones. *)
Inductive stops (s : fs) : list op -> fs -> Prop :=
| stop_here : forall l, stops s l s
| stop_inside : forall p x y l, stops s (Write p (x ++ y) :: l) (apply_op s (Write p x))
| stop_later : forall o l s', stops (apply_op s o) l s' -> stops s (o :: l) s'.

(** ** Writers *)
Section REPR.
Context (repr : num -> string).

(** rpc_writers.py 99-105 [write_coeff]. *)
Fixpoint coeff_writes (path : string) (l : list num) : list op :=
  match l with
  | [] => []
  | [c] => [Write path (tab ++ tab ++ repr c ++ newline)]
  | c :: l => Write path (tab ++ tab ++ repr c ++ "," ++ newline) :: coeff_writes path l
  end.
Definition write_coeff_ops (path name : string) (l : list num) : list op :=
  (Write path (tab ++ name ++ " = (" ++ newline) :: coeff_writes path l ++ [Write path (tab ++ ");" ++ newline)])%list.
Definition scalar_op (path name : string) (x : num) : op := Write path (tab ++ name ++ " = " ++ repr x ++ ";" ++ newline).

(** rpc_writers.py 107-132, the body of [write_rio_rpc_as_rpb].  The numbers are printed before each call. *)
Definition rpb_ops (r : rio_rpc) (path : string) : list op :=
  ([Open path;
    Write path ("satId =  'UNKNOWN';" ++ newline); Write path ("bandId = 'P';" ++ newline);
    Write path ("SpecId = " ++ quote ++ "RPC00B" ++ quote ++ ";" ++ newline); Write path ("BEGIN_GROUP = IMAGE" ++ newline);
    Write path (tab ++ "errBias = -1;" ++ newline); Write path (tab ++ "errRand = -1;" ++ newline);
    scalar_op path "lineOffset" (line_off r); scalar_op path "sampOffset" (samp_off r); scalar_op path "latOffset" (lat_off r);
    scalar_op path "longOffset" (long_off r); scalar_op path "heightOffset" (height_off r);
    scalar_op path "lineScale" (line_scale r); scalar_op path "sampScale" (samp_scale r); scalar_op path "latScale" (lat_scale r);
    scalar_op path "longScale" (long_scale r); scalar_op path "heightScale" (height_scale r)]
   ++ write_coeff_ops path "lineNumCoef" (line_num_coeff r) ++ write_coeff_ops path "lineDenCoef" (line_den_coeff r)
   ++ write_coeff_ops path "sampNumCoef" (samp_num_coeff r) ++ write_coeff_ops path "sampDenCoef" (samp_den_coeff r)
   ++ [Write path ("END_GROUP = IMAGE" ++ newline); Write path ("END;" ++ newline)])%list.

(** rpc_writers.py 180-181: what [json.dump(…, indent=4)] writes for the fields of the dictionary.  Its calls of
    [f.write] are merged: a call may stop anywhere. *)
Definition indent : string := "    ".
Fixpoint json_items (l : list num) : string :=
  match l with
  | [] => ""
  | [c] => newline ++ indent ++ indent ++ repr c
  | c :: l => newline ++ indent ++ indent ++ repr c ++ "," ++ json_items l
  end.
Definition json_value (v : json) : string :=
  match v with
  | JNum x => repr x
  | JList [] => "[]"
  | JList l => "[" ++ json_items l ++ newline ++ indent ++ "]"
  end.
Definition json_member (f : string * json) : string := newline ++ indent ++ quote ++ fst f ++ quote ++ ": " ++ json_value (snd f).
Fixpoint json_members (l : list (string * json)) : string :=
  match l with
  | [] => ""
  | [f] => json_member f
  | f :: l => json_member f ++ "," ++ json_members l
  end.
Definition json_text (l : list (string * json)) : string := "{" ++ json_members l ++ newline ++ "}".
Definition json_ops (r : rio_rpc) (path : string) : list op := [Open path; Write path (json_text (json_fields r))].

(** rpc_writers.py 39-60 [rpc_writer] and 73-75, for the formats that it writes itself: [None] for an unknown
    format (nothing is written, 48-49) and for geotiff (written by rasterio). *)
Definition writer_ops (p : rpc_params) (filename out_format : string) : option (list op) :=
  if negb (existsb (String.eqb out_format) available_formats) then None
  else
    let r := rpc_dict_to_rio_rpcs p true in
    if prefix "geotiff" out_format then
      if endswith out_format "rpb" then Some (rpb_ops r (splitext_root filename ++ ".RPB")) else None
    else if String.eqb out_format "rpb" then Some (rpb_ops r filename)
    else if String.eqb out_format "json" then Some (json_ops r filename)
    else None.
End REPR.
