(** Specification of the files that the RPC writer produces. *)
From Coq Require Import Reals List Bool Arith Ascii String.
From Verif Require Import Num PyStrModel ReadersModel ReadersSpec WritersModel.
Import ListNotations.
Open Scope string_scope.

(** Two dictionaries have the same offsets, scales and inverse coefficients. *)
Definition same_inverse_model (p q : rpc_params) : Prop :=
  p_off_row q = p_off_row p /\ p_off_col q = p_off_col p /\ p_scale_row q = p_scale_row p /\ p_scale_col q = p_scale_col p /\
  p_off_x q = p_off_x p /\ p_scale_x q = p_scale_x p /\ p_off_y q = p_off_y p /\ p_scale_y q = p_scale_y p /\
  p_off_alt q = p_off_alt p /\ p_scale_alt q = p_scale_alt p /\
  p_num_row q = p_num_row p /\ p_den_row q = p_den_row p /\ p_num_col q = p_num_col p /\ p_den_col q = p_den_col p.

(** ** RPB files *)
(** The text of a number. *)
Definition number_char (c : ascii) : Prop := In c (list_ascii_of_string "0123456789+-.enaif").
(** [s] is not empty and made of such characters. *)
Definition number_text (s : string) : Prop := s <> "" /\ all_chars number_char s.
(** [1, 2, 3] is written "1," "2," "3". *)
Fixpoint with_commas (l : list string) : list string :=
  match l with
  | [] => []
  | [s] => [s]
  | s :: l => (s ++ ",") :: with_commas l
  end.
(** Among the words of [text] there is, once, [name = value], where the words [value] go up to the first
    one that ends with a semicolon. *)
Definition ends_statement (w : string) : Prop := exists a, w = a ++ ";".
Definition assigns (text name : string) (value : list string) : Prop :=
  exists before after, words text (before ++ name :: "=" :: value ++ after)%list /\
    ~ In name before /\ ~ In name (value ++ after)%list /\
    exists start w, value = (start ++ [w])%list /\ ends_statement w /\ Forall (fun v => ~ ends_statement v) start.

Section RPB.
(** How a number is read. *)
Context (pyfloat : string -> option num).
Definition is_text_of (s : string) (x : num) : Prop := number_text s /\ pyfloat s = Some x.
Definition assigns_number (text name : string) (x : num) : Prop :=
  exists s, assigns text name [s ++ ";"] /\ is_text_of s x.
Definition assigns_numbers (text name : string) (l : list num) : Prop :=
  exists ss, assigns text name ("(" :: with_commas ss ++ [");"])%list /\ Forall2 is_text_of ss l.
(** The RPCs that an RPB file holds. *)
Definition describes_rpb (text : string) (r : rio_rpc) : Prop :=
  assigns_number text "lineOffset" (line_off r) /\ assigns_number text "sampOffset" (samp_off r) /\
  assigns_number text "latOffset" (lat_off r) /\ assigns_number text "longOffset" (long_off r) /\
  assigns_number text "heightOffset" (height_off r) /\
  assigns_number text "lineScale" (line_scale r) /\ assigns_number text "sampScale" (samp_scale r) /\
  assigns_number text "latScale" (lat_scale r) /\ assigns_number text "longScale" (long_scale r) /\
  assigns_number text "heightScale" (height_scale r) /\
  assigns_numbers text "lineNumCoef" (line_num_coeff r) /\ assigns_numbers text "lineDenCoef" (line_den_coeff r) /\
  assigns_numbers text "sampNumCoef" (samp_num_coeff r) /\ assigns_numbers text "sampDenCoef" (samp_den_coeff r).
(** What is written for the numbers of [p] is read back as these numbers (the offsets are written minus
    half a pixel). *)
Definition prints (repr : num -> string) (p : rpc_params) : Prop :=
  forall x, In x ([nsub (p_off_row p) (fin (1 / 2)); nsub (p_off_col p) (fin (1 / 2)); p_scale_row p; p_scale_col p;
                   p_off_x p; p_scale_x p; p_off_y p; p_scale_y p; p_off_alt p; p_scale_alt p]
                  ++ p_num_row p ++ p_den_row p ++ p_num_col p ++ p_den_col p)%list -> is_text_of (repr x) x.
End RPB.

(** ** JSON files *)
(** The key occurs once, with this value. *)
Definition field (l : list (string * json)) (k : string) (v : json) : Prop := In (k, v) l /\ NoDup (map fst l).
Definition describes_json (l : list (string * json)) (r : rio_rpc) : Prop :=
  field l "line_off" (JNum (line_off r)) /\ field l "samp_off" (JNum (samp_off r)) /\ field l "lat_off" (JNum (lat_off r)) /\
  field l "long_off" (JNum (long_off r)) /\ field l "height_off" (JNum (height_off r)) /\
  field l "line_scale" (JNum (line_scale r)) /\ field l "samp_scale" (JNum (samp_scale r)) /\ field l "lat_scale" (JNum (lat_scale r)) /\
  field l "long_scale" (JNum (long_scale r)) /\ field l "height_scale" (JNum (height_scale r)) /\
  field l "line_num_coeff" (JList (line_num_coeff r)) /\ field l "line_den_coeff" (JList (line_den_coeff r)) /\
  field l "samp_num_coeff" (JList (samp_num_coeff r)) /\ field l "samp_den_coeff" (JList (samp_den_coeff r)).

(** ** Names *)
(** [path] is [root.ext], where the name of the file has something else than dots before its extension. *)
Definition has_extension (path root ext : string) : Prop :=
  path = root ++ "." ++ ext /\ all_chars (fun c => c <> "."%char /\ c <> "/"%char) ext /\
  exists a c dots, root = a ++ String c dots /\ c <> "."%char /\ c <> "/"%char /\ all_chars (eq "."%char) dots.
(** The RPB file that goes with an image: the extension is replaced, or added when there is none. *)
Definition rpb_beside (path name : string) : Prop :=
  (exists root ext, has_extension path root ext /\ name = root ++ ".RPB") \/
  ((forall root ext, ~ has_extension path root ext) /\ name = path ++ ".RPB").
