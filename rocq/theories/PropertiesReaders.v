(** Properties of the RPC readers: conventions (C40). *)
From Coq Require Import Reals List Bool Arith Ascii String Lra Lia ZArith DecimalString.
From Verif Require Import Num NumLemmas PyStrModel ReadersModel ReadersSpec ReadersProofs.
Import ListNotations.
Open Scope string_scope.

Ltac go := repeat first
  [ erewrite only_element_ok by eassumption | erewrite has_attribute_ok by eassumption
  | erewrite number_ok by eassumption | erewrite numbers_ok by eassumption | erewrite number_list_ok by eassumption
  | progress cbn [bind] ].

(** ** C40 *)
(** Each reader delivers the parameters of the geometry that the file describes, each at its place, with
    the rows and columns counted as asked. *)
Theorem C40_dimap_v2 :
  forall pyfloat path f topleft doc version g, xml_name path = true -> fv_xml f = Some doc -> describes_v2 pyfloat doc version g ->
  rpc_reader_dimap_v23 pyfloat path f topleft = Ok (delivered ("dimap_v" ++ version) topleft true g).
Proof.
  intros pyfloat path f tl doc version g HN HX (mtd & fmt & rfm & norm & direct & inverse & v & H1 & H2 & H3 & H4 & H5 & H6 & H7 & H8 & H9 & HM & HI & HD1 & HD2 & HD3 & HD4).
  destruct HM as (M1 & M2 & M3 & M4 & M5 & M6 & M7 & M8 & M9 & M10). destruct HI as (I1 & I2 & I3 & I4).
  unfold rpc_reader_dimap_v23, parse_xml. rewrite HN, HX. cbn [negb]. go. unfold py_float at 1. rewrite H4. cbn [bind].
  assert (E : fge (Some v) 3 = false) by (apply Rleb_false; lra). rewrite E. go. unfold delivered. f_equal.
  destruct tl; cbn [half first_corner nadd nsub nlift2 fin]; f_equal; unfold fin; f_equal; lra.
Qed.

Theorem C40_dimap_v3 :
  forall pyfloat path f topleft doc version g, xml_name path = true -> fv_xml f = Some doc -> describes_v3 pyfloat doc version g ->
  rpc_reader_dimap_v23 pyfloat path f topleft = Ok (delivered ("dimap_v" ++ version) topleft true g).
Proof.
  intros pyfloat path f tl doc version g HN HX (mtd & fmt & rfm & norm & direct & inverse & v & H1 & H2 & H3 & H4 & H5 & H6 & H7 & H8 & H9 & HM & HI & HD1 & HD2 & HD3 & HD4).
  destruct HM as (M1 & M2 & M3 & M4 & M5 & M6 & M7 & M8 & M9 & M10). destruct HI as (I1 & I2 & I3 & I4).
  unfold rpc_reader_dimap_v23, parse_xml. rewrite HN, HX. cbn [negb]. go. unfold py_float at 1. rewrite H4. cbn [bind].
  assert (E : fge (Some v) 3 = true) by (apply Rleb_true; lra). rewrite E. go. unfold delivered. f_equal.
  destruct tl; cbn [half first_corner nadd nsub nlift2 fin]; f_equal; unfold fin; f_equal; lra.
Qed.

Lemma firstn_20 : forall a b : list R, List.length a = 20%nat -> firstn 20 (map fin a ++ map fin b) = map fin a /\ skipn 20 (map fin a ++ map fin b) = map fin b.
Proof.
  intros a b H. assert (L : List.length (map fin a) = 20%nat) by now rewrite map_length. split.
  - rewrite firstn_app, L, Nat.sub_diag, firstn_all2 by lia. apply app_nil_r.
  - rewrite skipn_app, L, Nat.sub_diag, skipn_all2 by lia. reflexivity.
Qed.
Theorem C40_dimap_v1 :
  forall pyfloat path f topleft doc version g, xml_name path = true -> fv_xml f = Some doc -> describes_v1 pyfloat doc version g ->
  rpc_reader_dimap_v1 pyfloat path f topleft = Ok (delivered ("dimap_v" ++ version) topleft true g).
Proof.
  intros pyfloat path f tl doc version g HN HX (mtd & profile & rfm & validity & H1 & H2 & H3 & H4 & H5 & F1 & F2 & F3 & F4 & A1 & A2 & A3 & A4 & A5).
  unfold rpc_reader_dimap_v1, parse_xml. rewrite HN, HX. cbn [negb]. go.
  apply axis_ok in A1. apply axis_ok in A2. apply axis_ok in A3. apply axis_ok in A4. apply axis_ok in A5.
  destruct A1 as [-> ->], A2 as [-> ->], A3 as [-> ->], A4 as [-> ->], A5 as [-> ->]. cbn [bind].
  destruct (firstn_20 (g_num_x g) (g_den_x g) (proj1 F1)) as [-> ->]. destruct (firstn_20 (g_num_y g) (g_den_y g) (proj1 F2)) as [-> ->].
  destruct (firstn_20 (g_num_col g) (g_den_col g) (proj1 F3)) as [-> ->]. destruct (firstn_20 (g_num_row g) (g_den_row g) (proj1 F4)) as [-> ->].
  unfold delivered. f_equal.
  destruct tl; cbn [half first_corner nadd nsub nlift2 fin]; f_equal; unfold fin; f_equal; lra.
Qed.

Theorem C40_ossim :
  forall pyfloat f topleft lines g, fv_lines f = Some lines -> describes_ossim pyfloat lines g ->
  rpc_reader_ossim_kwl pyfloat f topleft = Ok (delivered "ossim_kwl" topleft false g).
Proof.
  intros pyfloat f tl lines g HX (HL & K1 & K2 & K3 & K4 & K5 & K6 & K7 & K8 & K9 & K10 & N1 & N2 & N3 & N4).
  unfold rpc_reader_ossim_kwl. rewrite HX. cbn [bind]. destruct (parse_lines_ok lines [] HL) as (d & E). rewrite E. cbn [bind].
  rewrite (keys_ok pyfloat lines d "line" "den" _ HL E N2). cbn [bind]. rewrite (keys_ok pyfloat lines d "line" "num" _ HL E N1). cbn [bind].
  rewrite (keys_ok pyfloat lines d "samp" "num" _ HL E N3). cbn [bind]. rewrite (keys_ok pyfloat lines d "samp" "den" _ HL E N4). cbn [bind].
  rewrite !(key_ok pyfloat lines d _ _ HL E K1), !(key_ok pyfloat lines d _ _ HL E K2), !(key_ok pyfloat lines d _ _ HL E K3), !(key_ok pyfloat lines d _ _ HL E K4),
    !(key_ok pyfloat lines d _ _ HL E K5), !(key_ok pyfloat lines d _ _ HL E K6), !(key_ok pyfloat lines d _ _ HL E K7), !(key_ok pyfloat lines d _ _ HL E K8),
    !(key_ok pyfloat lines d _ _ HL E K9), !(key_ok pyfloat lines d _ _ HL E K10). cbn [bind].
  unfold delivered. f_equal. destruct tl; cbn [half first_corner nadd nsub nlift2 fin]; f_equal; unfold fin; f_equal; lra.
Qed.

Theorem C40_rasterio :
  forall f topleft r g, fv_rio f = Some (Some r) -> describes_rio r g ->
  rpc_reader_via_rasterio f topleft = Some (delivered "rasterio_rpc" topleft false g).
Proof.
  intros f tl r g HX ->. unfold rpc_reader_via_rasterio. rewrite HX. unfold convert_rio_rpc_to_rpc_dict, delivered. cbn. f_equal.
  destruct tl; cbn [half first_corner nadd nsub nlift2 fin]; f_equal; unfold fin; f_equal; lra.
Qed.

(** The parameters that every format has. *)
Definition without_direct (p : rpc_params) : rpc_params :=
  mkParams "" (p_off_row p) (p_off_col p) (p_scale_row p) (p_scale_col p) (p_off_x p) (p_scale_x p) (p_off_y p) (p_scale_y p) (p_off_alt p) (p_scale_alt p)
    (p_num_row p) (p_den_row p) (p_num_col p) (p_den_col p) None None None None.
(** Hence the same geometry, in two formats, gives the same parameters. *)
Theorem C40_same_geometry_same_parameters :
  forall pyfloat path1 path2 path3 f1 f2 f3 f4 f5 topleft doc1 doc2 doc3 v1 v2 v3 lines r g,
    xml_name path1 = true -> fv_xml f1 = Some doc1 -> describes_v1 pyfloat doc1 v1 g ->
    xml_name path2 = true -> fv_xml f2 = Some doc2 -> describes_v2 pyfloat doc2 v2 g ->
    xml_name path3 = true -> fv_xml f3 = Some doc3 -> describes_v3 pyfloat doc3 v3 g ->
    fv_lines f4 = Some lines -> describes_ossim pyfloat lines g ->
    fv_rio f5 = Some (Some r) -> describes_rio r g ->
    exists p1 p2 p3 p4 p5,
      rpc_reader_dimap_v1 pyfloat path1 f1 topleft = Ok p1 /\ rpc_reader_dimap_v23 pyfloat path2 f2 topleft = Ok p2 /\
      rpc_reader_dimap_v23 pyfloat path3 f3 topleft = Ok p3 /\ rpc_reader_ossim_kwl pyfloat f4 topleft = Ok p4 /\
      rpc_reader_via_rasterio f5 topleft = Some p5 /\
      without_direct p1 = without_direct p5 /\ without_direct p2 = without_direct p5 /\
      without_direct p3 = without_direct p5 /\ without_direct p4 = without_direct p5.
Proof.
  intros. do 5 eexists. split; [eapply C40_dimap_v1; eassumption|]. split; [eapply C40_dimap_v2; eassumption|]. split; [eapply C40_dimap_v3; eassumption|].
  split; [eapply C40_ossim; eassumption|]. split; [eapply C40_rasterio; eassumption|]. repeat split.
Qed.

(** Whatever the file, the top left convention moves both offsets by half a pixel, and nothing else. *)
Definition move_half (p : rpc_params) : rpc_params :=
  mkParams (p_driver p) (nadd (p_off_row p) (fin (1 / 2))) (nadd (p_off_col p) (fin (1 / 2))) (p_scale_row p) (p_scale_col p)
    (p_off_x p) (p_scale_x p) (p_off_y p) (p_scale_y p) (p_off_alt p) (p_scale_alt p)
    (p_num_row p) (p_den_row p) (p_num_col p) (p_den_col p) (p_num_x p) (p_den_x p) (p_num_y p) (p_den_y p).
Ltac head_step t := lazymatch t with bind ?r _ => head_step r | (if ?b then _ else _) => destruct b | _ => destruct t end.
Ltac steps := repeat (lazymatch goal with |- bind ?r _ = _ => head_step r end; cbn [bind]; try reflexivity).
Theorem C40_topleft_is_half_a_pixel :
  forall pyfloat path f,
    rpc_reader pyfloat path f true = bind (rpc_reader pyfloat path f false) (fun p => Ok (move_half p)).
Proof.
  intros pyfloat path f. assert (HO : ossim_or_error pyfloat f true = bind (ossim_or_error pyfloat f false) (fun p => Ok (move_half p))).
  { unfold ossim_or_error. destruct (identify_ossim_kwl f); [|reflexivity]. unfold rpc_reader_ossim_kwl. steps. }
  unfold rpc_reader, rpc_reader_via_rasterio. destruct (fv_rio f) as [[r|]|]; [reflexivity| |];
  (destruct (endswith _ _); [|exact HO]; destruct (identify_dimap f) as [v|]; [|exact HO];
   destruct (py_float pyfloat v) as [x|]; cbn [bind]; [|reflexivity];
   destruct (flt x 2); [unfold rpc_reader_dimap_v1; destruct (negb _); [reflexivity|]; steps|];
   destruct (fge x 2); [unfold rpc_reader_dimap_v23; destruct (negb _); [reflexivity|]; steps|exact HO]).
Qed.

(** Files of each format that meet the hypotheses: [C40_example_*] in [PropertiesReaders2]. *)
