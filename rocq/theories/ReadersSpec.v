(** Specification of the RPC files: what each format says of a geometry. *)
From Coq Require Import Reals List Bool Arith Ascii String.
From Verif Require Import Num PyStrModel ReadersModel.
Import ListNotations.
Open Scope string_scope.

(** ** XML *)
Inductive descendant : node -> node -> Prop :=
| d_child : forall m n, In m (children n) -> descendant m n
| d_deep : forall m k n, In k (children n) -> descendant m k -> descendant m n.
Definition has_tag (n : node) (tag : string) : Prop := exists attrs c, n = Elt tag attrs c.
(** [e] is the one element of that name under [n]. *)
Definition only_element (n : node) (tag : string) (e : node) : Prop :=
  descendant e n /\ has_tag e tag /\ forall e', descendant e' n -> has_tag e' tag -> e' = e.
(** Its text, its first attribute. *)
Definition has_text (e : node) (s : string) : Prop := exists rest, children e = Text s :: rest.
Definition has_attribute (e : node) (v : string) : Prop := exists tag a rest c, e = Elt tag ((a, v) :: rest) c.

(** ** Text *)
(** [l] are the words of [s]. *)
Definition space (c : ascii) : Prop := In (nat_of_ascii c) [9; 10; 11; 12; 13; 28; 29; 30; 31; 32]%nat.
Fixpoint all_chars (P : ascii -> Prop) (s : string) : Prop :=
  match s with EmptyString => True | String c s => P c /\ all_chars P s end.
Inductive words : string -> list string -> Prop :=
| w_end : words "" []
| w_space : forall c s l, space c -> words s l -> words (String c s) l
| w_word : forall w s l, w <> "" -> all_chars (fun c => ~ space c) w -> (s = "" \/ exists c t, s = String c t /\ space c) ->
    words s l -> words (w ++ s) (w :: l).
(** A line [key: value], with spaces at its end. *)
Definition no_separator (s : string) : Prop := forall a b, s <> a ++ ": " ++ b.
Definition no_trailing_space (s : string) : Prop := forall a c, s = a ++ String c "" -> ~ space c.
Definition line_sets (line key val : string) : Prop :=
  exists trail, line = key ++ ": " ++ val ++ trail /\ all_chars space trail /\ no_trailing_space val /\
    no_separator key /\ no_separator (val ++ trail).
(** The last line that sets [key] sets it to [val]. *)
Definition last_value (lines : list string) (key val : string) : Prop :=
  exists l1 line l2, lines = (l1 ++ line :: l2)%list /\ line_sets line key val /\
    forall line' v, In line' l2 -> ~ line_sets line' key v.

(** ** Geometry *)
(** The parameters of a model, with rows and columns counted from the centre of the first pixel.  The
    direct coefficients are those of the formats that have them. *)
Record geometry := mkGeometry {
  g_row : R; g_col : R; g_scale_row : R; g_scale_col : R;
  g_x : R; g_scale_x : R; g_y : R; g_scale_y : R; g_alt : R; g_scale_alt : R;
  g_num_row : list R; g_den_row : list R; g_num_col : list R; g_den_col : list R;
  g_num_x : list R; g_den_x : list R; g_num_y : list R; g_den_y : list R }.

Section FILES.
(** The builtin [float]. *)
Context (pyfloat : string -> option num).
Definition reads (s : string) (x : R) : Prop := pyfloat s = Some (Some x).
(** Under [n], the text of the element [tag] is the number [x]. *)
Definition value_is (n : node) (tag : string) (x : R) : Prop :=
  exists e s, only_element n tag e /\ has_text e s /\ reads s x.
(** Twenty coefficients, in the elements [tag_1] to [tag_20]. *)
Definition values_are (n : node) (tag : string) (l : list R) : Prop :=
  List.length l = 20%nat /\ forall k x, nth_error l k = Some x -> value_is n (tag ++ "_" ++ decimal (k + 1)) x.

(** The block of the offsets and scales of DIMAP 2 and 3; [first] is the number of the centre of the
    first row (column). *)
Definition normalisation (norm : node) (first : R) (g : geometry) : Prop :=
  value_is norm "LINE_OFF" (g_row g + first) /\ value_is norm "SAMP_OFF" (g_col g + first) /\
  value_is norm "LINE_SCALE" (g_scale_row g) /\ value_is norm "SAMP_SCALE" (g_scale_col g) /\
  value_is norm "LONG_OFF" (g_x g) /\ value_is norm "LONG_SCALE" (g_scale_x g) /\
  value_is norm "LAT_OFF" (g_y g) /\ value_is norm "LAT_SCALE" (g_scale_y g) /\
  value_is norm "HEIGHT_OFF" (g_alt g) /\ value_is norm "HEIGHT_SCALE" (g_scale_alt g).
Definition inverse_block (n : node) (g : geometry) : Prop :=
  values_are n "SAMP_NUM_COEFF" (g_num_col g) /\ values_are n "SAMP_DEN_COEFF" (g_den_col g) /\
  values_are n "LINE_NUM_COEFF" (g_num_row g) /\ values_are n "LINE_DEN_COEFF" (g_den_row g).

(** DIMAP version 2: the first row and column are numbered 1. *)
Definition describes_v2 (doc : node) (version : string) (g : geometry) : Prop :=
  exists mtd fmt rfm norm direct inverse v,
    only_element doc "Metadata_Identification" mtd /\ only_element mtd "METADATA_FORMAT" fmt /\ has_attribute fmt version /\
    reads version v /\ (2 <= v < 3)%R /\
    only_element doc "Global_RFM" rfm /\ only_element rfm "RFM_Validity" norm /\
    only_element rfm "Direct_Model" direct /\ only_element rfm "Inverse_Model" inverse /\
    normalisation norm 1 g /\ inverse_block inverse g /\
    values_are direct "SAMP_NUM_COEFF" (g_num_x g) /\ values_are direct "SAMP_DEN_COEFF" (g_den_x g) /\
    values_are direct "LINE_NUM_COEFF" (g_num_y g) /\ values_are direct "LINE_DEN_COEFF" (g_den_y g).
(** DIMAP version 3: the first row and column are numbered 1/2. *)
Definition describes_v3 (doc : node) (version : string) (g : geometry) : Prop :=
  exists mtd fmt rfm norm direct inverse v,
    only_element doc "Metadata_Identification" mtd /\ only_element mtd "METADATA_FORMAT" fmt /\ has_attribute fmt version /\
    reads version v /\ (3 <= v)%R /\
    only_element doc "Global_RFM" rfm /\ only_element rfm "RFM_Validity" norm /\
    only_element rfm "ImagetoGround_Values" direct /\ only_element rfm "GroundtoImage_Values" inverse /\
    normalisation norm (1 / 2) g /\ inverse_block inverse g /\
    values_are direct "LON_NUM_COEFF" (g_num_x g) /\ values_are direct "LON_DEN_COEFF" (g_den_x g) /\
    values_are direct "LAT_NUM_COEFF" (g_num_y g) /\ values_are direct "LAT_DEN_COEFF" (g_den_y g).
(** DIMAP version 1: the first row and column are numbered 1; forty coefficients per function, the
    numerator first; A is the scale and B the offset. *)
Definition function_is (rfm : node) (tag : string) (num den : list R) : Prop :=
  List.length num = 20%nat /\ List.length den = 20%nat /\
  exists e s ws, only_element rfm tag e /\ has_text e s /\ words s ws /\ Forall2 reads ws (num ++ den)%list.
Definition axis_is (validity : node) (axis : string) (scale offset : R) : Prop :=
  exists e, only_element validity axis e /\ value_is e "A" scale /\ value_is e "B" offset.
Definition describes_v1 (doc : node) (version : string) (g : geometry) : Prop :=
  exists mtd profile rfm validity,
    only_element doc "Metadata_Identification" mtd /\ only_element mtd "METADATA_PROFILE" profile /\ has_attribute profile version /\
    only_element doc "Global_RFM" rfm /\ only_element doc "RFM_Validity" validity /\
    function_is rfm "F_LON" (g_num_x g) (g_den_x g) /\ function_is rfm "F_LAT" (g_num_y g) (g_den_y g) /\
    function_is rfm "F_COL" (g_num_col g) (g_den_col g) /\ function_is rfm "F_ROW" (g_num_row g) (g_den_row g) /\
    axis_is validity "Lon" (g_scale_x g) (g_x g) /\ axis_is validity "Lat" (g_scale_y g) (g_y g) /\
    axis_is validity "Alt" (g_scale_alt g) (g_alt g) /\
    axis_is validity "Col" (g_scale_col g) (g_col g + 1) /\ axis_is validity "Row" (g_scale_row g) (g_row g + 1).
(** OSSIM: the first row and column are numbered 0. *)
Definition key_is (lines : list string) (key : string) (x : R) : Prop :=
  exists s, last_value lines key s /\ reads s x.
Definition two_digits : list string :=
  ["00"; "01"; "02"; "03"; "04"; "05"; "06"; "07"; "08"; "09"; "10"; "11"; "12"; "13"; "14"; "15"; "16"; "17"; "18"; "19"].
Definition keys_are (lines : list string) (name : string) (l : list R) : Prop :=
  List.length l = 20%nat /\ forall k x, nth_error l k = Some x -> key_is lines (name ++ "_coeff_" ++ nth k two_digits "") x.
Definition describes_ossim (lines : list string) (g : geometry) : Prop :=
  (forall line, In line lines -> exists key val, line_sets line key val) /\
  key_is lines "line_off" (g_row g) /\ key_is lines "samp_off" (g_col g) /\
  key_is lines "line_scale" (g_scale_row g) /\ key_is lines "samp_scale" (g_scale_col g) /\
  key_is lines "long_off" (g_x g) /\ key_is lines "long_scale" (g_scale_x g) /\
  key_is lines "lat_off" (g_y g) /\ key_is lines "lat_scale" (g_scale_y g) /\
  key_is lines "height_off" (g_alt g) /\ key_is lines "height_scale" (g_scale_alt g) /\
  keys_are lines "line_num" (g_num_row g) /\ keys_are lines "line_den" (g_den_row g) /\
  keys_are lines "samp_num" (g_num_col g) /\ keys_are lines "samp_den" (g_den_col g).
End FILES.

(** The tags of a raster file: the first row and column are numbered 0. *)
Definition describes_rio (r : rio_rpc) (g : geometry) : Prop :=
  r = mkRio (fin (g_alt g)) (fin (g_scale_alt g)) (fin (g_y g)) (fin (g_scale_y g)) (fin (g_x g)) (fin (g_scale_x g))
        (fin (g_row g)) (fin (g_scale_row g)) (fin (g_col g)) (fin (g_scale_col g))
        (map fin (g_num_row g)) (map fin (g_den_row g)) (map fin (g_num_col g)) (map fin (g_den_col g)).

(** What is delivered: rows and columns counted from the corner of the first pixel, or from its centre. *)
Definition first_corner (topleft : bool) : R := if topleft then 1 / 2 else 0.
Definition delivered (driver : string) (topleft direct : bool) (g : geometry) : rpc_params :=
  let d l := if direct then Some (map fin l) else None in
  mkParams driver (fin (g_row g + first_corner topleft)) (fin (g_col g + first_corner topleft))
    (fin (g_scale_row g)) (fin (g_scale_col g)) (fin (g_x g)) (fin (g_scale_x g)) (fin (g_y g)) (fin (g_scale_y g))
    (fin (g_alt g)) (fin (g_scale_alt g))
    (map fin (g_num_row g)) (map fin (g_den_row g)) (map fin (g_num_col g)) (map fin (g_den_col g))
    (d (g_num_x g)) (d (g_den_x g)) (d (g_num_y g)) (d (g_den_y g)).
