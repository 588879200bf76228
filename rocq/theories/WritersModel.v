(** Model of [shareloc/geomodels/rpc_writers.py] and [shareloc/rpc_converter.py].

    The file system is a map from names to contents; a raster is reduced to its RPCs and an opaque rest.
    [repr] prints a number. *)
From Coq Require Import Reals List Bool Arith Ascii String.
From Verif Require Import Num PyStrModel ReadersModel.
Import ListNotations.
Open Scope string_scope.

(** ** Files *)
Inductive json := JNum (x : num) | JList (l : list num).
Inductive content :=
| Raster (rpcs : option rio_rpc) (rest : nat)   (** a file that rasterio opens, its RPCs, its pixels *)
| TextFile (text : string)
| JsonFile (fields : list (string * json))
| Other (bytes : nat).
Definition fs := string -> option content.
Definition fs_set (s : fs) (name : string) (c : content) : fs := fun n => if String.eqb n name then Some c else s n.

(** [os.path.splitext(p)[0]]: without what follows the last dot, unless only dots precede it in the name of
    the file.  [r] is the path reversed. *)
Fixpoint has_name_char (r : string) : bool :=
  match r with
  | EmptyString => false
  | String c r => if Ascii.eqb c "/" then false else if Ascii.eqb c "." then has_name_char r else true
  end.
Fixpoint before_dot (r : string) : option string :=
  match r with
  | EmptyString => None
  | String c r => if Ascii.eqb c "/" then None else if Ascii.eqb c "." then Some r else before_dot r
  end.
Definition splitext_root (p : string) : string :=
  match before_dot (rev_string p "") with
  | Some r => if has_name_char r then rev_string r "" else p
  | None => p
  end.

(** ** Conversion to rasterio's convention *)
(** rpc_writers.py 135-169 [rpc_dict_to_rio_rpcs]. *)
Definition rpc_dict_to_rio_rpcs (p : rpc_params) (topleft : bool) : rio_rpc :=
  let back x := if topleft then nsub x (fin (1 / 2)) else x in
  mkRio (p_off_alt p) (p_scale_alt p) (p_off_y p) (p_scale_y p) (p_off_x p) (p_scale_x p)
    (back (p_off_row p)) (p_scale_row p) (back (p_off_col p)) (p_scale_col p)
    (p_num_row p) (p_den_row p) (p_num_col p) (p_den_col p).

(** ** RPB text *)
Section REPR.
Context (repr : num -> string).
Definition tab : string := String "009" "".
Definition newline : string := String "010" "".
Definition quote : string := String "034" "".
(** rpc_writers.py 99-105 [write_coeff]. *)
Fixpoint coeff_lines (l : list num) : string :=
  match l with
  | [] => ""
  | [c] => tab ++ tab ++ repr c ++ newline
  | c :: l => tab ++ tab ++ repr c ++ "," ++ newline ++ coeff_lines l
  end.
Definition write_coeff (name : string) (l : list num) : string :=
  tab ++ name ++ " = (" ++ newline ++ coeff_lines l ++ tab ++ ");" ++ newline.
Definition write_scalar (name : string) (x : num) : string := tab ++ name ++ " = " ++ repr x ++ ";" ++ newline.
(** rpc_writers.py 89-132 [write_rio_rpc_as_rpb], with the default satellite and band (the only ones [rpc_writer]
    uses).  Opening the file for writing is taken to succeed: OSError is left out, and interruptions
    are in [WriteCrashModel.v]. *)
Definition rpb_text (r : rio_rpc) : string :=
  "satId =  'UNKNOWN';" ++ newline ++ "bandId = 'P';" ++ newline ++ "SpecId = " ++ quote ++ "RPC00B" ++ quote ++ ";" ++ newline ++
  "BEGIN_GROUP = IMAGE" ++ newline ++
  tab ++ "errBias = -1;" ++ newline ++ tab ++ "errRand = -1;" ++ newline ++
  write_scalar "lineOffset" (line_off r) ++ write_scalar "sampOffset" (samp_off r) ++ write_scalar "latOffset" (lat_off r) ++
  write_scalar "longOffset" (long_off r) ++ write_scalar "heightOffset" (height_off r) ++
  write_scalar "lineScale" (line_scale r) ++ write_scalar "sampScale" (samp_scale r) ++ write_scalar "latScale" (lat_scale r) ++
  write_scalar "longScale" (long_scale r) ++ write_scalar "heightScale" (height_scale r) ++
  write_coeff "lineNumCoef" (line_num_coeff r) ++ write_coeff "lineDenCoef" (line_den_coeff r) ++
  write_coeff "sampNumCoef" (samp_num_coeff r) ++ write_coeff "sampDenCoef" (samp_den_coeff r) ++
  "END_GROUP = IMAGE" ++ newline ++ "END;" ++ newline.
Definition write_rio_rpc_as_rpb (s : fs) (r : rio_rpc) (path : string) : fs := fs_set s path (TextFile (rpb_text r)).

(** rpc_writers.py 172-181 [write_rio_rpc_as_json]: [json.dump] of the dictionary, at the level of its keys
    and values. *)
Definition json_fields (r : rio_rpc) : list (string * json) :=
  [("height_off", JNum (height_off r)); ("height_scale", JNum (height_scale r)); ("lat_off", JNum (lat_off r)); ("lat_scale", JNum (lat_scale r));
   ("line_den_coeff", JList (line_den_coeff r)); ("line_num_coeff", JList (line_num_coeff r)); ("line_off", JNum (line_off r)); ("line_scale", JNum (line_scale r));
   ("long_off", JNum (long_off r)); ("long_scale", JNum (long_scale r)); ("samp_den_coeff", JList (samp_den_coeff r)); ("samp_num_coeff", JList (samp_num_coeff r));
   ("samp_off", JNum (samp_off r)); ("samp_scale", JNum (samp_scale r))].
Definition write_rio_rpc_as_json (s : fs) (r : rio_rpc) (path : string) : fs := fs_set s path (JsonFile (json_fields r)).

(** ** Writer *)
(** rpc_writers.py 63-86 [geotiff_rpc_updater].  A file that rasterio does not open (RasterioIOError) is
    logged and ignored. *)
Definition geotiff_rpc_updater (s : fs) (r : rio_rpc) (filename : string) (export_rpb force_rpc : bool) : fs * result unit :=
  if export_rpb then (write_rio_rpc_as_rpb s r (splitext_root filename ++ ".RPB"), Ok tt)
  else
    match s filename with
    | Some (Raster rpcs rest) =>
        if match rpcs with Some _ => negb force_rpc | None => false end then (s, Err RuntimeError)
        else (fs_set s filename (Raster (Some r) rest), Ok tt)
    | _ => (s, Ok tt)
    end.

(** rpc_writers.py 36 and 39-60 [rpc_writer]. *)
Definition available_formats : list string := ["geotiff"; "geotiff_rpb"; "rpb"; "json"].
Definition rpc_writer (s : fs) (p : rpc_params) (filename out_format : string) (override : bool) : fs * result unit :=
  if negb (existsb (String.eqb out_format) available_formats) then (s, Err ValueError)
  else
    let r := rpc_dict_to_rio_rpcs p true in
    if prefix "geotiff" out_format then geotiff_rpc_updater s r filename (endswith out_format "rpb") override
    else if String.eqb out_format "rpb" then (write_rio_rpc_as_rpb s r filename, Ok tt)
    else if String.eqb out_format "json" then (write_rio_rpc_as_json s r filename, Ok tt)
    else (s, Ok tt).

(** ** Converter *)
(** What the libraries make of a content: rasterio opens rasters; [xml] and [lines] are the parsers of the
    other readers. *)
Definition view_of (xml : content -> option node) (lines : content -> option (list string)) (c : option content) : file_view :=
  match c with
  | Some (Raster rpcs rest) => mkView (Some rpcs) (xml (Raster rpcs rest)) (lines (Raster rpcs rest))
  | Some c => mkView None (xml c) (lines c)
  | None => mkView None None None
  end.
(** rpc_converter.py 33-46 [rpc_converter] (the logging is left out). *)
Definition rpc_converter (pyfloat : string -> option num) (xml : content -> option node) (lines : content -> option (list string))
  (s : fs) (input_rpc output_file rpc_format : string) (override : bool) : fs * result unit :=
  match rpc_reader pyfloat input_rpc (view_of xml lines (s input_rpc)) true with
  | Err e => (s, Err e)
  | Ok p => rpc_writer s p output_file rpc_format override
  end.
End REPR.
