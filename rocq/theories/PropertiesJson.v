(** C95: the text of the exported files, read again. *)
From Coq Require Import Reals Ascii String List Bool Arith Lra Lia.
From Verif Require Import Num NumLemmas PyStrModel ReadersModel ReadersSpec ReadersProofs WritersModel WritersSpec WritersProofs PropertiesWriters
  WriteCrashModel WriteCrash PropertiesCrash JsonSpec JsonProofs.
Import ListNotations.
Open Scope string_scope.

(** The numbers that are written for [p] (the offsets in pixels are written minus half a pixel). *)
Definition written_numbers (p : rpc_params) : list num :=
  ([nsub (p_off_row p) (fin (1 / 2)); nsub (p_off_col p) (fin (1 / 2)); p_scale_row p; p_scale_col p;
    p_off_x p; p_scale_x p; p_off_y p; p_scale_y p; p_off_alt p; p_scale_alt p]
   ++ p_num_row p ++ p_den_row p ++ p_num_col p ++ p_den_col p)%list.
(** Each is printed as a number (or NaN, Infinity), which is read back as itself. *)
Definition prints_json (number : string -> option num) (repr : num -> string) (p : rpc_params) : Prop :=
  forall x, In x (written_numbers p) ->
    repr x <> "" /\ (forall c, In c (list_ascii_of_string (repr x)) -> In c (list_ascii_of_string "0123456789+-.eEINafnity")) /\ number (repr x) = Some x.
(** The RPCs that a JSON object holds. *)
Definition entry (o : list (string * jvalue)) (k : string) (v : jvalue) : Prop := In (k, v) o /\ NoDup (map fst o).
Definition describes_object (o : list (string * jvalue)) (r : rio_rpc) : Prop :=
  entry o "line_off" (VNum (line_off r)) /\ entry o "samp_off" (VNum (samp_off r)) /\ entry o "lat_off" (VNum (lat_off r)) /\
  entry o "long_off" (VNum (long_off r)) /\ entry o "height_off" (VNum (height_off r)) /\
  entry o "line_scale" (VNum (line_scale r)) /\ entry o "samp_scale" (VNum (samp_scale r)) /\ entry o "lat_scale" (VNum (lat_scale r)) /\
  entry o "long_scale" (VNum (long_scale r)) /\ entry o "height_scale" (VNum (height_scale r)) /\
  entry o "line_num_coeff" (VList (map VNum (line_num_coeff r))) /\ entry o "line_den_coeff" (VList (map VNum (line_den_coeff r))) /\
  entry o "samp_num_coeff" (VList (map VNum (samp_num_coeff r))) /\ entry o "samp_den_coeff" (VList (map VNum (samp_den_coeff r))).

Lemma entry_fun o k v w : entry o k v -> entry o k w -> v = w.
Proof.
  intros [A N] [B _]. induction o as [|[a b] o IH]; [destruct A|]. cbn [map fst] in N. inversion N as [|x y Hx Hy]; subst.
  destruct A as [A|A], B as [B|B].
  - congruence.
  - injection A as -> ->. exfalso. apply Hx. exact (in_map fst _ _ B).
  - injection B as -> ->. exfalso. apply Hx. exact (in_map fst _ _ A).
  - auto.
Qed.
Lemma object_field l k v : field l k v -> entry (object_of l) k (jvalue_of v).
Proof.
  intros [A N]. split.
  - apply (in_map (fun f => (fst f, jvalue_of (snd f))) _ _ A).
  - unfold object_of. rewrite map_map. exact N.
Qed.
Lemma vnums_inj : forall a b, VList (map VNum a) = VList (map VNum b) -> a = b.
Proof.
  intros a b E. injection E as E. revert b E. induction a as [|x a IH]; intros [|y b] E; try discriminate; [reflexivity|].
  cbn [map] in E. injection E as -> E. f_equal. now apply IH.
Qed.
Lemma object_describes r : describes_object (object_of (json_fields r)) r.
Proof.
  destruct (json_describes r) as (B1 & B2 & B3 & B4 & B5 & B6 & B7 & B8 & B9 & B10 & B11 & B12 & B13 & B14).
  repeat split; first [apply (object_field _ _ _ B1)|apply (object_field _ _ _ B2)|apply (object_field _ _ _ B3)|apply (object_field _ _ _ B4)|
    apply (object_field _ _ _ B5)|apply (object_field _ _ _ B6)|apply (object_field _ _ _ B7)|apply (object_field _ _ _ B8)|apply (object_field _ _ _ B9)|
    apply (object_field _ _ _ B10)|apply (object_field _ _ _ B11)|apply (object_field _ _ _ B12)|apply (object_field _ _ _ B13)|apply (object_field _ _ _ B14)].
Qed.
Lemma describes_fun o r r0 : describes_object o r -> describes_object o r0 -> r = r0.
Proof.
  intros (A1 & A2 & A3 & A4 & A5 & A6 & A7 & A8 & A9 & A10 & A11 & A12 & A13 & A14)
         (B1 & B2 & B3 & B4 & B5 & B6 & B7 & B8 & B9 & B10 & B11 & B12 & B13 & B14).
  pose proof (entry_fun _ _ _ _ A1 B1) as E1. pose proof (entry_fun _ _ _ _ A2 B2) as E2. pose proof (entry_fun _ _ _ _ A3 B3) as E3.
  pose proof (entry_fun _ _ _ _ A4 B4) as E4. pose proof (entry_fun _ _ _ _ A5 B5) as E5. pose proof (entry_fun _ _ _ _ A6 B6) as E6.
  pose proof (entry_fun _ _ _ _ A7 B7) as E7. pose proof (entry_fun _ _ _ _ A8 B8) as E8. pose proof (entry_fun _ _ _ _ A9 B9) as E9.
  pose proof (entry_fun _ _ _ _ A10 B10) as E10. pose proof (vnums_inj _ _ (entry_fun _ _ _ _ A11 B11)) as E11. pose proof (vnums_inj _ _ (entry_fun _ _ _ _ A12 B12)) as E12.
  pose proof (vnums_inj _ _ (entry_fun _ _ _ _ A13 B13)) as E13. pose proof (vnums_inj _ _ (entry_fun _ _ _ _ A14 B14)) as E14.
  clear - E1 E2 E3 E4 E5 E6 E7 E8 E9 E10 E11 E12 E13 E14. destruct r, r0; simpl in *. congruence.
Qed.
Lemma fields_plain number repr p : prints_json number repr p -> forall k v, In (k, v) (json_fields (rpc_dict_to_rio_rpcs p true)) ->
  simple_name k /\ field_plain number repr v.
Proof.
  intros HP k v Hk.
  assert (S : forall c, In c (list_ascii_of_string "0123456789+-.eEINafnity") -> stop_char c = false).
  { intros c Hc. cbn [list_ascii_of_string In] in Hc. repeat (destruct Hc as [<-|Hc]; [reflexivity|]). destruct Hc. }
  assert (A : forall s, (forall c, In c (list_ascii_of_string s) -> stop_char c = false) -> all_chars (fun c => stop_char c = false) s).
  { induction s as [|c s IH]; intros H; [exact I|]. split; [apply H; now left|]. apply IH. intros d Hd. apply H. now right. }
  assert (W : forall x, In x (written_numbers p) -> plain number (repr x) x).
  { intros x Hx. destruct (HP x Hx) as (Hn & Hc & Hr). split; [exact Hn|]. split; [|exact Hr]. apply A. intros c H. apply S, Hc, H. }
  unfold json_fields, rpc_dict_to_rio_rpcs in Hk.
  cbn [line_off samp_off lat_off long_off height_off line_scale samp_scale lat_scale long_scale height_scale line_num_coeff line_den_coeff samp_num_coeff samp_den_coeff] in Hk.
  cbn [In] in Hk. unfold written_numbers in W.
  repeat (destruct Hk as [Hk|Hk]; [injection Hk as <- <-; split; [simpl; repeat split|]; intros x Hx; apply W; rewrite !in_app_iff; cbn [value_numbers In] in Hx |- *; tauto|]).
  destruct Hk.
Qed.

(** The JSON file is a JSON object that holds the inverse model, and nothing else can be read from it. *)
Theorem C95_json_back :
  forall number repr (s : fs) p filename ops, prints_json number repr p -> writer_ops repr p filename "json" = Some ops ->
    exists text o, apply_ops s ops filename = Some (TextFile text) /\ json_load number text = Some (VObject o) /\
      (exists r, describes_object o r) /\
      forall r, describes_object o r -> same_inverse_model p (convert_rio_rpc_to_rpc_dict r true).
Proof.
  intros number repr s p filename ops HP H. destruct (ops_cases _ _ _ _ _ H) as [[E _]|[[E _]|[_ ->]]]; [discriminate|discriminate|].
  eexists _, (object_of (json_fields (rpc_dict_to_rio_rpcs p true))). split.
  { rewrite json_writes, file_all, set_same. cbn [join]. rewrite app_nil. reflexivity. }
  split; [apply load_text; [discriminate|exact (fields_plain _ _ _ HP)]|].
  split; [eexists; apply object_describes|]. intros r Hr. rewrite (describes_fun _ _ _ Hr (object_describes _)). apply convert_back.
Qed.

(** Wherever the writer stops, the file is the one that was there, or the complete one, or no JSON text at all. *)
Theorem C95_json_interrupted :
  forall number repr (s s' : fs) p filename ops, prints_json number repr p -> writer_ops repr p filename "json" = Some ops -> stops s ops s' ->
    s' filename = s filename \/ s' filename = apply_ops s ops filename \/
    exists text, s' filename = Some (TextFile text) /\ json_load number text = None.
Proof.
  intros number repr s s' p filename ops HP H St.
  assert (NB : forall t, no_brace t <-> ~ In "}"%char (list_ascii_of_string t)).
  { induction t as [|c t IH]; unfold no_brace in *; simpl; [tauto|]. rewrite IH. intuition. }
  destruct (C91_interrupted_json repr s s' p filename ops) as [E|[E|(t & E & N)]]; [|exact H|exact St|now left|now right; left|].
  { intros x Hx K. destruct (HP x Hx) as (_ & Hc & _). apply Hc in K. cbn in K. repeat (destruct K as [K|K]; [discriminate|]). destruct K. }
  destruct (ops_cases _ _ _ _ _ H) as [[F _]|[[F _]|[_ ->]]]; [discriminate|discriminate|]. rewrite json_writes in St.
  destruct (file_stop _ _ _ _ St) as [[F|(t' & rest & E' & J)] _]; [left; now rewrite F|].
  assert (t' = t) by congruence. subst t'. right; right. exists t. split; [exact E|]. apply NB in N.
  destruct t as [|c t]; [reflexivity|]. cbn [join] in J. unfold json_text in J.
  injection J as Hc _. subst c. apply cut_object. apply N.
Qed.

(** The reader of the package does not read the files that the writer makes beside images: it raises, for every model,
    every name and every way of reading numbers (rasterio and the XML parser do not open these texts). *)
Theorem C95_own_reader_refuted :
  forall pyfloat repr (s : fs) p filename format ops rpb, writer_ops repr p filename format = Some ops -> rpb_beside filename rpb ->
    exists text, apply_ops s ops (if String.eqb format "geotiff_rpb" then rpb else filename) = Some (TextFile text) /\
      forall path topleft, rpc_reader pyfloat path (mkView None None (Some (readlines text))) topleft = Err ValueError.
Proof.
  intros pyfloat repr s p filename format ops rpb H Hr.
  assert (G : forall first rest path topleft, (exists t, first ++ rest = t /\ exists ls, readlines t = first :: ls) -> py_split_colon first = [first] ->
     rpc_reader pyfloat path (mkView None None (Some (readlines (first ++ rest)))) topleft = Err ValueError).
  { intros first rest path topleft (t & <- & ls & El) Hs. unfold rpc_reader. cbn [rpc_reader_via_rasterio fv_rio].
    assert (I : identify_ossim_kwl (mkView None None (Some (readlines (first ++ rest)))) = None).
    { unfold identify_ossim_kwl. cbn [fv_lines]. rewrite El. cbn [bind parse_lines]. rewrite Hs. reflexivity. }
    unfold ossim_or_error. rewrite I. unfold identify_dimap, parse_xml. cbn [fv_xml bind]. destruct (endswith _ _); reflexivity. }
  assert (R : forall r, exists rest, rpb_text repr r = ("satId =  'UNKNOWN';" ++ newline) ++ rest).
  { intros r. unfold rpb_text. eexists. rewrite sapp_assoc. reflexivity. }
  destruct (ops_cases _ _ _ _ _ H) as [[-> ->]|[[-> ->]|[-> ->]]].
  - eexists. split.
    { change (String.eqb "geotiff_rpb" "geotiff_rpb") with true. cbv iota. rewrite (splitext_beside _ _ Hr), rpb_writes, file_all, rpb_join, set_same. reflexivity. }
    intros path topleft. destruct (R (rpc_dict_to_rio_rpcs p true)) as [rest ->]. apply G; [|reflexivity].
    eexists. split; [reflexivity|]. eexists. reflexivity.
  - eexists. split.
    { change (String.eqb "rpb" "geotiff_rpb") with false. cbv iota. rewrite rpb_writes, file_all, rpb_join, set_same. reflexivity. }
    intros path topleft. destruct (R (rpc_dict_to_rio_rpcs p true)) as [rest ->]. apply G; [|reflexivity].
    eexists. split; [reflexivity|]. eexists. reflexivity.
  - eexists. split.
    { change (String.eqb "json" "geotiff_rpb") with false. cbv iota. rewrite json_writes, file_all, set_same. cbn [join]. rewrite app_nil. reflexivity. }
    intros path topleft.
    assert (J : exists rest, json_text repr (json_fields (rpc_dict_to_rio_rpcs p true)) = ("{" ++ newline) ++ rest) by (eexists; reflexivity).
    destruct J as [rest ->]. apply G; [|reflexivity]. eexists. split; [reflexivity|]. eexists. reflexivity.
Qed.

(** The dictionary of C41, printed and read. *)
Definition json_repr (x : num) : string :=
  match x with Some v => if Reqb v 1 then "1.0" else if Reqb v (-5 / 2) then "-2.5" else "1e-07" | None => "NaN" end.
Definition json_number (s : string) : option num :=
  if String.eqb s "1.0" then Some (fin 1) else if String.eqb s "-2.5" then Some (fin (-5 / 2)) else if String.eqb s "1e-07" then Some (fin (1 / 10 ^ 7))
  else if String.eqb s "NaN" then Some nan else None.
Example C95_prints : prints_json json_number json_repr ex_params.
Proof.
  assert (A : forall x, x = fin 1 \/ x = fin (-5 / 2) \/ x = fin (1 / 10 ^ 7) \/ x = nan ->
    json_repr x <> "" /\ (forall c, In c (list_ascii_of_string (json_repr x)) -> In c (list_ascii_of_string "0123456789+-.eEINafnity")) /\ json_number (json_repr x) = Some x).
  { assert (T : forall t, t = "1.0" \/ t = "-2.5" \/ t = "1e-07" \/ t = "NaN" -> t <> "" /\ (forall c, In c (list_ascii_of_string t) -> In c (list_ascii_of_string "0123456789+-.eEINafnity"))).
    { intros t [ -> | [ -> | [ -> | -> ]]]; (split; [discriminate|]); intros c Hc; cbn in Hc |- *; tauto. }
    intros x [ -> | [ -> | [ -> | -> ]]]; unfold json_repr, fin, nan.
    - replace (Reqb 1 1) with true by (symmetry; apply Reqb_true; lra). destruct (T "1.0" ltac:(auto)). auto.
    - replace (Reqb (-5 / 2) 1) with false by (symmetry; apply Reqb_false; lra). replace (Reqb (-5 / 2) (-5 / 2)) with true by (symmetry; apply Reqb_true; lra).
      destruct (T "-2.5" ltac:(auto)). auto.
    - replace (Reqb (1 / 10 ^ 7) 1) with false by (symmetry; apply Reqb_false; lra). replace (Reqb (1 / 10 ^ 7) (-5 / 2)) with false by (symmetry; apply Reqb_false; lra).
      destruct (T "1e-07" ltac:(auto)). auto.
    - destruct (T "NaN" ltac:(auto 6)). auto. }
  intros x Hx. apply A. simpl in Hx. unfold nsub, nlift2, fin, nan in *. simpl in Hx.
  repeat (destruct Hx as [<-|Hx]; [first [now left | now right; left | now right; right; left | now right; right; right | left; f_equal; lra | right; left; f_equal; lra]|]).
  destruct Hx.
Qed.
Example C95_case : exists text o, apply_ops C91_example_files
    [Open "m.json"; Write "m.json" text] "m.json" = Some (TextFile text) /\
  writer_ops json_repr ex_params "m.json" "json" = Some [Open "m.json"; Write "m.json" text] /\
  json_load json_number text = Some (VObject o) /\ entry o "samp_num_coeff" (VList []).
Proof.
  destruct (C95_json_back json_number json_repr C91_example_files ex_params "m.json" _ C95_prints eq_refl) as (text & o & E & L & (r & Hr) & U).
  pose proof E as E0. unfold json_ops in E0. cbn [apply_ops fold_left apply_op] in E0. unfold fs_set in E0. rewrite String.eqb_refl in E0. cbn [text_of String.append] in E0.
  injection E0 as <-. eexists _, o. split; [exact E|]. split; [reflexivity|]. split; [exact L|].
  specialize (U r Hr). destruct U as (_ & _ & _ & _ & _ & _ & _ & _ & _ & _ & _ & _ & Un & _).
  destruct Hr as (_ & _ & _ & _ & _ & _ & _ & _ & _ & _ & _ & _ & Hs & _). cbn [convert_rio_rpc_to_rpc_dict p_num_col ex_params] in Un. now rewrite Un in Hs.
Qed.
(** The reader of the specification reads and refuses. *)
Example C95_load_examples :
  json_load json_number "{}" = Some (VObject []) /\
  json_load json_number " [1.0 , -2.5] " = Some (VList [VNum (fin 1); VNum (fin (-5 / 2))]) /\
  json_load json_number "[1.0 -2.5]" = None /\ json_load json_number "[1.0,]" = None /\ json_load json_number "[[[1.0]]]" = Some (VList [VList [VList [VNum (fin 1)]]]).
Proof. repeat split; reflexivity. Qed.
