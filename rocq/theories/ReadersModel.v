(** Model of [shareloc/geomodels/rpc_readers.py]: the readers of the RPC files.

    What the libraries make of a file is a record [file_view]: rasterio's RPCs, the XML document of
    minidom, the lines of text.  [pyfloat] is the builtin [float] on strings. *)
From Coq Require Import Reals List Bool Arith Ascii String.
From Verif Require Import Num PyStrModel.
Import ListNotations.
Open Scope string_scope.

(** ** Exceptions *)
Inductive exn := ValueError | IndexError | AttributeError | KeyError | RuntimeError | OSError | ExpatError.
Inductive result (A : Type) := Ok (a : A) | Err (e : exn).
Arguments Ok {A}. Arguments Err {A}.
Definition bind {A B} (r : result A) (f : A -> result B) : result B :=
  match r with Ok a => f a | Err e => Err e end.
Notation "'let!' x ':=' r 'in' k" := (bind r (fun x => k)) (at level 200, x pattern, right associativity).
Fixpoint mapM {A B} (f : A -> result B) (l : list A) : result (list B) :=
  match l with
  | [] => Ok []
  | a :: l => let! b := f a in let! bs := mapM f l in Ok (b :: bs)
  end.

(** ** XML documents ([xml.dom.minidom]) *)
Inductive node := Elt (tag : string) (attrs : list (string * string)) (children : list node) | Text (data : string).
Definition children (n : node) : list node := match n with Elt _ _ c => c | Text _ => [] end.
Definition tag_is (tag : string) (n : node) : bool :=
  match n with Elt t _ _ => String.eqb t tag | Text _ => false end.
(** [n.getElementsByTagName(tag)]: the descendants of [n], in the order of the document. *)
Fixpoint elements (tag : string) (n : node) : list node :=
  match n with
  | Text _ => []
  | Elt _ _ c => flat_map (fun m => if tag_is tag m then m :: elements tag m else elements tag m) c
  end.
(** [l[0]]. *)
Definition first_of {A} (l : list A) : result A := match l with a :: _ => Ok a | [] => Err IndexError end.
Definition element (tag : string) (n : node) : result node := first_of (elements tag n).
(** [n.firstChild.data]. *)
Definition data_of (n : node) : result string :=
  match children n with Text s :: _ => Ok s | _ => Err AttributeError end.
(** [n.attributes.items()[0][1]]. *)
Definition first_attribute (n : node) : result string :=
  match n with
  | Elt _ attrs _ => let! a := first_of attrs in Ok (snd a)
  | Text _ => Err AttributeError
  end.

(** ** Parameters *)
(** The dictionary that the readers return.  [None] for the direct coefficients that are not defined. *)
Record rpc_params := mkParams {
  p_driver : string;
  p_off_row : num; p_off_col : num; p_scale_row : num; p_scale_col : num;
  p_off_x : num; p_scale_x : num; p_off_y : num; p_scale_y : num; p_off_alt : num; p_scale_alt : num;
  p_num_row : list num; p_den_row : list num; p_num_col : list num; p_den_col : list num;
  p_num_x : option (list num); p_den_x : option (list num); p_num_y : option (list num); p_den_y : option (list num) }.

(** rasterio's dictionary ([RPC.to_dict()]), the keys that are used. *)
Record rio_rpc := mkRio {
  height_off : num; height_scale : num; lat_off : num; lat_scale : num; long_off : num; long_scale : num;
  line_off : num; line_scale : num; samp_off : num; samp_scale : num;
  line_num_coeff : list num; line_den_coeff : list num; samp_num_coeff : list num; samp_den_coeff : list num }.

(** What the libraries make of a file.  [fv_rio]: [None] is RasterioIOError; [Some None], no RPC.
    [fv_xml]: [None] is an exception of the parser.  [fv_lines]: [None], an exception of [open] or of
    [readlines]. *)
Record file_view := mkView { fv_rio : option (option rio_rpc); fv_xml : option node; fv_lines : option (list string) }.

Section READERS.
Context (pyfloat : string -> option num).

Definition py_float (s : string) : result num := match pyfloat s with Some x => Ok x | None => Err ValueError end.
(** [float(n.getElementsByTagName(tag)[0].firstChild.data)]. *)
Definition number (n : node) (tag : string) : result num :=
  let! e := element tag n in let! s := data_of e in py_float s.
(** [[float(...(f"{tag}_{index}")...) for index in range(1, 21)]]. *)
Definition numbers (n : node) (tag : string) : result (list num) :=
  mapM (fun k => number n (tag ++ "_" ++ decimal k)) (seq 1 20).

(** rpc_readers.py 169-171, 236-238, 296-298, 396-398: half a pixel for the top left convention. *)
Definition half (topleft : bool) (x : num) : num := if topleft then nadd x (fin (1 / 2)) else x.

(** Comparisons of floats: false for NaN. *)
Definition flt (x : num) (y : R) : bool := match x with Some x => Rltb x y | None => false end.
Definition fge (x : num) (y : R) : bool := match x with Some x => Rleb y x | None => false end.

(** [basename(geomodel_path).upper().endswith("XML")], rpc_readers.py 85, 188 (and 58, where [upper] is
    applied first). *)
Definition xml_name (path : string) : bool := endswith (upper (basename path)) "XML".
Definition parse_xml (f : file_view) : result node := match fv_xml f with Some d => Ok d | None => Err ExpatError end.

(** rpc_readers.py 72-172 [rpc_reader_dimap_v23]. *)
Definition rpc_reader_dimap_v23 (path : string) (f : file_view) (topleft : bool) : result rpc_params :=
  if negb (xml_name path) then Err ValueError else
  let! doc := parse_xml f in
  let! mtd := element "Metadata_Identification" doc in
  let! fmt := element "METADATA_FORMAT" mtd in
  let! version := first_attribute fmt in
  let! rfm := element "Global_RFM" doc in
  let! norm := element "RFM_Validity" rfm in
  let! offset_row := number norm "LINE_OFF" in
  let! offset_col := number norm "SAMP_OFF" in
  let! v := py_float version in
  let! (inverse, num_x, den_x, num_y, den_y, offset_col, offset_row) :=
    (if fge v 3 then
       let! direct := element "ImagetoGround_Values" rfm in
       let! inverse := element "GroundtoImage_Values" rfm in
       let! num_x := numbers direct "LON_NUM_COEFF" in
       let! den_x := numbers direct "LON_DEN_COEFF" in
       let! num_y := numbers direct "LAT_NUM_COEFF" in
       let! den_y := numbers direct "LAT_DEN_COEFF" in
       Ok (inverse, num_x, den_x, num_y, den_y, nsub offset_col (fin (1 / 2)), nsub offset_row (fin (1 / 2)))
     else
       let! direct := element "Direct_Model" rfm in
       let! inverse := element "Inverse_Model" rfm in
       let! num_x := numbers direct "SAMP_NUM_COEFF" in
       let! den_x := numbers direct "SAMP_DEN_COEFF" in
       let! num_y := numbers direct "LINE_NUM_COEFF" in
       let! den_y := numbers direct "LINE_DEN_COEFF" in
       Ok (inverse, num_x, den_x, num_y, den_y, nsub offset_col (fin 1), nsub offset_row (fin 1))) in
  let! num_col := numbers inverse "SAMP_NUM_COEFF" in
  let! den_col := numbers inverse "SAMP_DEN_COEFF" in
  let! num_row := numbers inverse "LINE_NUM_COEFF" in
  let! den_row := numbers inverse "LINE_DEN_COEFF" in
  let! scale_col := number norm "SAMP_SCALE" in
  let! scale_row := number norm "LINE_SCALE" in
  let! offset_alt := number norm "HEIGHT_OFF" in
  let! scale_alt := number norm "HEIGHT_SCALE" in
  let! offset_x := number norm "LONG_OFF" in
  let! scale_x := number norm "LONG_SCALE" in
  let! offset_y := number norm "LAT_OFF" in
  let! scale_y := number norm "LAT_SCALE" in
  Ok (mkParams ("dimap_v" ++ version) (half topleft offset_row) (half topleft offset_col) scale_row scale_col
        offset_x scale_x offset_y scale_y offset_alt scale_alt num_row den_row num_col den_col
        (Some num_x) (Some den_x) (Some num_y) (Some den_y)).

(** [[float(el) for el in ...firstChild.data.split()]], rpc_readers.py 199-202,
    and 326-335 [parse_coeff_line]. *)
Definition number_list (n : node) (tag : string) : result (list num) :=
  let! e := element tag n in let! s := data_of e in mapM py_float (py_split s).
(** [float(rfm_validity[0].getElementsByTagName(axis)[0].getElementsByTagName(tag)[0].firstChild.data)],
    rpc_readers.py 204-213. *)
Definition axis_number (n : node) (axis tag : string) : result num :=
  let! e := element axis n in number e tag.

(** rpc_readers.py 175-239 [rpc_reader_dimap_v1]. *)
Definition rpc_reader_dimap_v1 (path : string) (f : file_view) (topleft : bool) : result rpc_params :=
  if negb (xml_name path) then Err ValueError else
  let! doc := parse_xml f in
  let! mtd := element "Metadata_Identification" doc in
  let! profile := element "METADATA_PROFILE" mtd in
  let! version := first_attribute profile in
  let! rfm := element "Global_RFM" doc in
  let! coeff_lon := number_list rfm "F_LON" in
  let! coeff_lat := number_list rfm "F_LAT" in
  let! coeff_col := number_list rfm "F_COL" in
  let! coeff_lig := number_list rfm "F_ROW" in
  let! validity := element "RFM_Validity" doc in
  let! scale_lon := axis_number validity "Lon" "A" in
  let! offset_lon := axis_number validity "Lon" "B" in
  let! scale_lat := axis_number validity "Lat" "A" in
  let! offset_lat := axis_number validity "Lat" "B" in
  let! scale_alt := axis_number validity "Alt" "A" in
  let! offset_alt := axis_number validity "Alt" "B" in
  let! scale_col := axis_number validity "Col" "A" in
  let! offset_col := axis_number validity "Col" "B" in
  let! scale_row := axis_number validity "Row" "A" in
  let! offset_row := axis_number validity "Row" "B" in
  Ok (mkParams ("dimap_v" ++ version)
        (half topleft (nsub offset_row (fin 1))) (half topleft (nsub offset_col (fin 1))) scale_row scale_col
        offset_lon scale_lon offset_lat scale_lat offset_alt scale_alt
        (firstn 20 coeff_lig) (skipn 20 coeff_lig) (firstn 20 coeff_col) (skipn 20 coeff_col)
        (Some (firstn 20 coeff_lon)) (Some (skipn 20 coeff_lon)) (Some (firstn 20 coeff_lat)) (Some (skipn 20 coeff_lat))).

(** ** OSSIM keyword lists *)
(** rpc_readers.py 257-260, 350-353: the dictionary, the last assignment of a key wins. *)
Definition dict := list (string * string).
Definition dict_set (d : dict) (k v : string) : dict := (k, v) :: d.
Fixpoint dict_get (d : dict) (k : string) : result string :=
  match d with
  | [] => Err KeyError
  | (k', v) :: d => if String.eqb k' k then Ok v else dict_get d k
  end.
Fixpoint parse_lines (lines : list string) (d : dict) : result dict :=
  match lines with
  | [] => Ok d
  | line :: lines =>
      match py_split_colon line with
      | [key; val] => parse_lines lines (dict_set d key (rstrip val))
      | _ => Err ValueError
      end
  end.
Definition dict_number (d : dict) (k : string) : result num := let! s := dict_get d k in py_float s.
(** rpc_readers.py 262-279: the key [f"{axis}_{num_den}_coeff_{index:02d}"], [range(0, 20)].  The code
    fills the four lists in one loop: an exception is the same one except when several are due. *)
Definition dict_numbers (d : dict) (axis num_den : string) : result (list num) :=
  mapM (fun k => dict_number d (axis ++ "_" ++ num_den ++ "_coeff_" ++ decimal02 k)) (seq 0 20).

(** rpc_readers.py 242-299 [rpc_reader_ossim_kwl]. *)
Definition rpc_reader_ossim_kwl (f : file_view) (topleft : bool) : result rpc_params :=
  let! content := match fv_lines f with Some l => Ok l | None => Err OSError end in
  let! d := parse_lines content [] in
  let! den_row := dict_numbers d "line" "den" in
  let! num_row := dict_numbers d "line" "num" in
  let! num_col := dict_numbers d "samp" "num" in
  let! den_col := dict_numbers d "samp" "den" in
  let! offset_col := dict_number d "samp_off" in
  let! scale_col := dict_number d "samp_scale" in
  let! offset_row := dict_number d "line_off" in
  let! scale_row := dict_number d "line_scale" in
  let! offset_alt := dict_number d "height_off" in
  let! scale_alt := dict_number d "height_scale" in
  let! offset_x := dict_number d "long_off" in
  let! scale_x := dict_number d "long_scale" in
  let! offset_y := dict_number d "lat_off" in
  let! scale_y := dict_number d "lat_scale" in
  Ok (mkParams "ossim_kwl" (half topleft offset_row) (half topleft offset_col) scale_row scale_col
        offset_x scale_x offset_y scale_y offset_alt scale_alt num_row den_row num_col den_col
        None None None None).

(** ** Rasterio *)
(** rpc_readers.py 362-400 [convert_rio_rpc_to_rpc_dict]. *)
Definition convert_rio_rpc_to_rpc_dict (r : rio_rpc) (topleft : bool) : rpc_params :=
  mkParams "rasterio_rpc" (half topleft (line_off r)) (half topleft (samp_off r)) (line_scale r) (samp_scale r)
    (long_off r) (long_scale r) (lat_off r) (lat_scale r) (height_off r) (height_scale r)
    (line_num_coeff r) (line_den_coeff r) (samp_num_coeff r) (samp_den_coeff r) None None None None.

(** rpc_readers.py 403-426 [rpc_reader_via_rasterio]; [None] is Python's None. *)
Definition rpc_reader_via_rasterio (f : file_view) (topleft : bool) : option rpc_params :=
  match fv_rio f with
  | Some (Some r) => Some (convert_rio_rpc_to_rpc_dict r topleft)
  | _ => None
  end.

(** ** Identification *)
(** rpc_readers.py 302-323 [identify_dimap]: any exception gives None. *)
Definition identify_dimap (f : file_view) : option string :=
  match
    (let! doc := parse_xml f in
     let! mtd := element "Metadata_Identification" doc in
     let! e := element "METADATA_FORMAT" mtd in
     let! mtd_format := data_of e in
     let version_tag := if String.eqb mtd_format "DIMAP_PHR" then "METADATA_PROFILE" else "METADATA_FORMAT" in
     let! e := element version_tag mtd in
     first_attribute e)
  with Ok v => Some v | Err _ => None end.

(** rpc_readers.py 338-359 [identify_ossim_kwl]. *)
Definition identify_ossim_kwl (f : file_view) : option string :=
  match
    (let! content := match fv_lines f with Some l => Ok l | None => Err OSError end in
     let! d := parse_lines content [] in
     Ok (match dict_get d "type" with
         | Ok t => if prefix "ossim" (strip t) then Some (strip t) else None
         | Err _ => None
         end))
  with Ok v => v | Err _ => None end.

(** rpc_readers.py 38-69 [rpc_reader].  An infinite version is merged with NaN and falls through, where
    Python takes it for a version above 2. *)
Definition ossim_or_error (f : file_view) (topleft : bool) : result rpc_params :=
  match identify_ossim_kwl f with
  | Some _ => rpc_reader_ossim_kwl f topleft
  | None => Err ValueError
  end.
Definition rpc_reader (path : string) (f : file_view) (topleft : bool) : result rpc_params :=
  match rpc_reader_via_rasterio f topleft with
  | Some p => Ok p
  | None =>
      if endswith (basename (upper path)) "XML" then
        match identify_dimap f with
        | Some version =>
            let! v := py_float version in
            if flt v 2 then rpc_reader_dimap_v1 path f topleft
            else if fge v 2 then rpc_reader_dimap_v23 path f topleft
            else ossim_or_error f topleft
        | None => ossim_or_error f topleft
        end
      else ossim_or_error f topleft
  end.
End READERS.
