(** Properties of the RPC readers: files that meet the hypotheses of C40; selection of the driver (C43). *)
From Coq Require Import Reals List Bool Arith Ascii String Lra Lia ZArith DecimalString.
From Verif Require Import Num NumLemmas PyStrModel ReadersModel ReadersSpec ReadersProofs PropertiesReaders.
Import ListNotations.
Open Scope string_scope.

(** *** A geometry written in the five formats *)
(** A [float] for the numbers n and n.5. *)
Definition ex_int (s : string) : option R := option_map (fun d => IZR (Z.of_int d)) (NilZero.int_of_string s).
Definition ex_float (s : string) : option num :=
  if endswith s ".5" then option_map (fun x => Some (x + 1 / 2)%R) (ex_int (substring 0 (String.length s - 2) s))
  else option_map Some (ex_int s).
Definition leaf (tag val : string) : node := Elt tag [] [Text val].
Definition leaves (tag : string) (vals : list string) : list node :=
  map (fun kv => leaf (tag ++ "_" ++ decimal (fst kv)) (snd kv)) (combine (seq 1 20) vals).
(** The coefficients 1, 0, ..., 0 and 0, ..., 0, d. *)
Definition one_then (d : string) : list string := ["1"; "0"; "0"; "0"; "0"; "0"; "0"; "0"; "0"; "0"; "0"; "0"; "0"; "0"; "0"; "0"; "0"; "0"; "0"; d].
Definition one_then_R (d : R) : list R := [1; 0; 0; 0; 0; 0; 0; 0; 0; 0; 0; 0; 0; 0; 0; 0; 0; 0; 0; d]%R.
Definition ex_geometry : geometry :=
  mkGeometry 100 200 1000 2000 7 2 43 3 500 600 (one_then_R 2) (one_then_R 3) (one_then_R 4) (one_then_R 5) (one_then_R 6) (one_then_R 7) (one_then_R 8) (one_then_R 9).
Definition document (format_version profile_version : string) (rfm : list node) : node :=
  Elt "#document" [] [Elt "Dimap_Document" []
    [Elt "Metadata_Identification" [] [Elt "METADATA_FORMAT" [("version", format_version)] [Text "DIMAP"]; Elt "METADATA_PROFILE" [("version", profile_version)] [Text "PHR"]];
     Elt "Rational_Function_Model" [] [Elt "Global_RFM" [] rfm]]].
Definition ex_norm (row col : string) : node :=
  Elt "RFM_Validity" [] [leaf "LINE_OFF" row; leaf "SAMP_OFF" col; leaf "LINE_SCALE" "1000"; leaf "SAMP_SCALE" "2000"; leaf "LONG_OFF" "7"; leaf "LONG_SCALE" "2";
    leaf "LAT_OFF" "43"; leaf "LAT_SCALE" "3"; leaf "HEIGHT_OFF" "500"; leaf "HEIGHT_SCALE" "600"].
Definition ex_inverse (tag : string) : node :=
  Elt tag [] (leaves "SAMP_NUM_COEFF" (one_then "4") ++ leaves "SAMP_DEN_COEFF" (one_then "5") ++ leaves "LINE_NUM_COEFF" (one_then "2") ++ leaves "LINE_DEN_COEFF" (one_then "3"))%list.
Definition ex_direct (tag x y : string) : node :=
  Elt tag [] (leaves (x ++ "_NUM_COEFF") (one_then "6") ++ leaves (x ++ "_DEN_COEFF") (one_then "7") ++ leaves (y ++ "_NUM_COEFF") (one_then "8") ++ leaves (y ++ "_DEN_COEFF") (one_then "9"))%list.
Definition ex_doc2 : node := document "2" "2" [ex_direct "Direct_Model" "SAMP" "LINE"; ex_inverse "Inverse_Model"; ex_norm "101" "201"].
Definition ex_doc3 : node := document "3" "2" [ex_direct "ImagetoGround_Values" "LON" "LAT"; ex_inverse "GroundtoImage_Values"; ex_norm "100.5" "200.5"].
Definition forty (a b : string) : string := String.concat " " (one_then a ++ one_then b).
Definition axis (tag a b : string) : node := Elt tag [] [leaf "A" a; leaf "B" b].
Definition ex_doc1 : node := document "1" "1"
  [leaf "F_LON" (forty "6" "7"); leaf "F_LAT" (forty "8" "9"); leaf "F_COL" (forty "4" "5"); leaf "F_ROW" (forty "2" "3");
   Elt "RFM_Validity" [] [axis "Lon" "2" "7"; axis "Lat" "3" "43"; axis "Alt" "600" "500"; axis "Col" "2000" "201"; axis "Row" "1000" "101"]].
Definition nl : string := String "010" "".
Definition kwl (name : string) (vals : list string) : list string :=
  map (fun kv => name ++ "_coeff_" ++ decimal02 (fst kv) ++ ": " ++ snd kv ++ nl) (combine (seq 0 20) vals).
Definition ex_lines : list string :=
  (map (fun s => append s nl)
     ["type: ossimRpcModel"; "line_off: 100"; "samp_off: 200"; "line_scale: 1000"; "samp_scale: 2000"; "long_off: 7"; "long_scale: 2";
      "lat_off: 43"; "lat_scale: 3"; "height_off: 500"; "height_scale: 600"]
   ++ kwl "line_num" (one_then "2") ++ kwl "line_den" (one_then "3") ++ kwl "samp_num" (one_then "4") ++ kwl "samp_den" (one_then "5"))%list.

Lemma reads_intro : forall s x y, ex_float s = Some (Some x) -> x = y -> reads ex_float s y.
Proof. intros s x y H ->. exact H. Qed.
Lemma value_intro : forall n tag e s x y, elements tag n = [e] -> children e = [Text s] -> ex_float s = Some (Some x) -> x = y -> value_is ex_float n tag y.
Proof. intros n tag e s x y H1 H2 H3 ->. exists e, s. split; [now apply elements_only|]. split; [exists []; exact H2|exact H3]. Qed.
Lemma one_then_reads : forall s d, reads ex_float s d -> Forall2 (reads ex_float) (one_then s) (one_then_R d).
Proof. intros s d H. unfold one_then, one_then_R. repeat (constructor; [first [exact H|reflexivity]|]). constructor. Qed.
Lemma values_intro : forall n tag s d, reads ex_float s d ->
  map (fun k => elements (tag ++ "_" ++ decimal k) n) (seq 1 20) = map (fun kv => [leaf (tag ++ "_" ++ decimal (fst kv)) (snd kv)]) (combine (seq 1 20) (one_then s)) ->
  values_are ex_float n tag (one_then_R d).
Proof.
  intros n tag s d HR H. split; [reflexivity|]. intros k x Hx. pose proof (one_then_reads s d HR) as HF.
  assert (Hk : (k < 20)%nat) by (apply (proj1 (nth_error_Some (one_then_R d) k)); congruence).
  assert (exists w, nth_error (one_then s) k = Some w /\ reads ex_float w x) as (w & Hw & Hr).
  { clear H. revert k Hx Hk. induction HF as [|a b l l' R F IH]; intros [|k] Hx Hk; try discriminate; cbn in *; [injection Hx as <-; eauto|apply IH; [exact Hx|lia]]. }
  exists (leaf (tag ++ "_" ++ decimal (k + 1)) w), w. split; [|split; [exists []; reflexivity|exact Hr]].
  apply elements_only. apply (f_equal (fun l => nth_error l k)) in H. rewrite !nth_error_map, nth_error_seq in H by exact Hk.
  assert (HC : nth_error (combine (seq 1 20) (one_then s)) k = Some ((k + 1)%nat, w)).
  { clear -Hw Hk. do 20 (destruct k as [|k]; [cbn in *; injection Hw as <-; reflexivity|]). lia. }
  rewrite HC in H. cbn [option_map fst snd] in H. injection H as H. replace (k + 1)%nat with (S k) in H |- * by lia. exact H.
Qed.
Ltac one_elt := apply elements_only; vm_compute; reflexivity.
Ltac val := eapply value_intro; [vm_compute; reflexivity|reflexivity|reflexivity|cbn; lra].
Ltac vals s := eapply (values_intro _ _ s); [eapply reads_intro; [reflexivity|cbn; lra]|vm_compute; reflexivity].

Example C40_example_v2 : describes_v2 ex_float ex_doc2 "2" ex_geometry.
Proof.
  do 6 eexists. exists 2%R. split; [one_elt|]. split; [one_elt|]. split; [do 4 eexists; reflexivity|]. split; [reflexivity|]. split; [lra|].
  split; [one_elt|]. split; [one_elt|]. split; [one_elt|]. split; [one_elt|].
  split; [unfold normalisation; cbn [ex_geometry g_row g_col g_scale_row g_scale_col g_x g_scale_x g_y g_scale_y g_alt g_scale_alt]; repeat (split; [val|]); val|].
  split; [unfold inverse_block; cbn [ex_geometry g_num_col g_den_col g_num_row g_den_row]; split; [vals "4"|]; split; [vals "5"|]; split; [vals "2"|vals "3"]|].
  cbn [ex_geometry g_num_x g_den_x g_num_y g_den_y]. split; [vals "6"|]. split; [vals "7"|]. split; [vals "8"|vals "9"].
Qed.
Example C40_example_v3 : describes_v3 ex_float ex_doc3 "3" ex_geometry.
Proof.
  do 6 eexists. exists 3%R. split; [one_elt|]. split; [one_elt|]. split; [do 4 eexists; reflexivity|]. split; [reflexivity|]. split; [lra|].
  split; [one_elt|]. split; [one_elt|]. split; [one_elt|]. split; [one_elt|].
  split; [unfold normalisation; cbn [ex_geometry g_row g_col g_scale_row g_scale_col g_x g_scale_x g_y g_scale_y g_alt g_scale_alt]; repeat (split; [val|]); val|].
  split; [unfold inverse_block; cbn [ex_geometry g_num_col g_den_col g_num_row g_den_row]; split; [vals "4"|]; split; [vals "5"|]; split; [vals "2"|vals "3"]|].
  cbn [ex_geometry g_num_x g_den_x g_num_y g_den_y]. split; [vals "6"|]. split; [vals "7"|]. split; [vals "8"|vals "9"].
Qed.

Lemma words_concat : forall l, Forall (fun w => w <> "" /\ all_chars (fun c => ~ space c) w) l -> words (String.concat " " l) l.
Proof.
  intros l H. induction H as [|w l [HN HW] H IH]; [constructor|]. destruct l as [|w2 l].
  - cbn [concat]. assert (X : words (w ++ "") [w]) by (apply w_word; auto; constructor). rewrite app_empty in X. exact X.
  - change (concat " " (w :: w2 :: l)) with (w ++ " " ++ concat " " (w2 :: l)). apply w_word; auto; [right; do 2 eexists; split; [reflexivity|now apply is_space_iff]|].
    apply w_space; [now apply is_space_iff|exact IH].
Qed.
Lemma function_intro : forall rfm tag e a b x y, elements tag rfm = [e] -> children e = [Text (forty a b)] ->
  reads ex_float a x -> reads ex_float b y -> Forall (fun w => w <> "" /\ all_chars (fun c => ~ space c) w) [a; b] ->
  function_is ex_float rfm tag (one_then_R x) (one_then_R y).
Proof.
  intros rfm tag e a b x y H1 H2 H3 H4 H5. split; [reflexivity|]. split; [reflexivity|]. exists e, (forty a b), (one_then a ++ one_then b)%list.
  split; [now apply elements_only|]. split; [exists []; exact H2|]. split.
  - apply words_concat. apply Forall_app. inversion H5 as [|? ? Ha Hb']; subst. inversion Hb' as [|? ? Hb _]; subst.
    split; unfold one_then; repeat (constructor; [first [assumption|split; [discriminate|split; [intros E; apply is_space_iff in E; discriminate E|exact I]]]|]); constructor.
  - apply Forall2_app; now apply one_then_reads.
Qed.
Ltac func a b := eapply (function_intro _ _ _ a b); [vm_compute; reflexivity|reflexivity|eapply reads_intro; [reflexivity|cbn; lra]|eapply reads_intro; [reflexivity|cbn; lra]|
  repeat (constructor; [split; [discriminate|split; [intros E; apply is_space_iff in E; discriminate E|exact I]]|]); constructor].
Ltac axis_val := eexists; split; [one_elt|split; val].
Example C40_example_v1 : describes_v1 ex_float ex_doc1 "1" ex_geometry.
Proof.
  do 4 eexists. split; [one_elt|]. split; [one_elt|]. split; [do 4 eexists; reflexivity|]. split; [one_elt|]. split; [one_elt|].
  cbn [ex_geometry g_row g_col g_scale_row g_scale_col g_x g_scale_x g_y g_scale_y g_alt g_scale_alt g_num_x g_den_x g_num_y g_den_y g_num_col g_den_col g_num_row g_den_row].
  split; [func "6" "7"|]. split; [func "8" "9"|]. split; [func "4" "5"|]. split; [func "2" "3"|]. repeat (split; [axis_val|]); axis_val.
Qed.

(** Computable forms of the conditions on the lines. *)
Fixpoint has_separator (s : string) : bool :=
  match s with String c t => (match t with String d _ => Ascii.eqb c ":" && Ascii.eqb d " " | _ => false end) || has_separator t | EmptyString => false end.
Lemma no_separator_intro : forall s, has_separator s = false -> no_separator s.
Proof.
  induction s as [|c s IH]; intros H a b E.
  - destruct a; discriminate.
  - cbn in H. apply orb_false_iff in H. destruct H as [H1 H2]. destruct a as [|x a].
    + cbn in E. injection E as -> ->. cbn in H1. discriminate.
    + cbn in E. injection E as _ E. exact (IH H2 a b E).
Qed.
Lemma no_trailing_intro : forall s, rstrip s = s -> no_trailing_space s.
Proof.
  intros s H a c -> HC. assert (HH : forall a, rstrip (a ++ String c "") = rstrip a).
  { clear -HC. apply is_space_iff in HC. induction a as [|x a IH]; cbn; [rewrite HC; reflexivity|]. rewrite IH. reflexivity. }
  rewrite HH in H. assert (L : forall t, (String.length (rstrip t) <= String.length t)%nat).
  { clear. induction t as [|x t IH]; cbn; [lia|]. destruct (rstrip t); [destruct (is_space x); cbn in *; lia|cbn in *; lia]. }
  specialize (L a). rewrite H in L. assert (LA : String.length (a ++ String c "") = S (String.length a)). { clear. induction a; cbn; [reflexivity|now rewrite IHa]. } lia.
Qed.
Lemma line_intro : forall key val, has_separator key = false -> has_separator (val ++ nl) = false -> rstrip val = val -> line_sets (key ++ ": " ++ val ++ nl) key val.
Proof.
  intros key v H1 H2 H3. exists nl. split; [reflexivity|]. split; [split; [now apply is_space_iff|exact I]|]. split; [now apply no_trailing_intro|]. split; now apply no_separator_intro.
Qed.
Lemma line_key : forall line key val, line_sets line key val -> hd "" (py_split_colon line) = key.
Proof. intros line key v H. destruct (line_ok _ _ _ H) as (w & -> & _). reflexivity. Qed.
Lemma key_intro : forall l1 l2 key val x y, has_separator key = false -> has_separator (val ++ nl) = false -> rstrip val = val ->
  forallb (fun line => negb (String.eqb (hd "" (py_split_colon line)) key)) l2 = true -> ex_float val = Some (Some x) -> x = y ->
  key_is ex_float (l1 ++ (key ++ ": " ++ val ++ nl) :: l2) key y.
Proof.
  intros l1 l2 key v x y H1 H2 H3 H4 H5 ->. exists v. split; [|exact H5]. exists l1, (key ++ ": " ++ v ++ nl), l2. split; [reflexivity|]. split; [now apply line_intro|].
  intros line' w Hin HS. rewrite forallb_forall in H4. specialize (H4 line' Hin). rewrite (line_key _ _ _ HS), String.eqb_refl in H4. discriminate.
Qed.
(** The place of a key in [ex_lines]. *)
Lemma key_at : forall n key val x y, nth_error ex_lines n = Some (key ++ ": " ++ val ++ nl) -> has_separator key = false -> has_separator (val ++ nl) = false -> rstrip val = val ->
  forallb (fun line => negb (String.eqb (hd "" (py_split_colon line)) key)) (skipn (S n) ex_lines) = true -> ex_float val = Some (Some x) -> x = y ->
  key_is ex_float ex_lines key y.
Proof.
  intros n key v x y HN H1 H2 H3 H4 H5 H6. destruct (nth_error_split _ _ HN) as (l1 & l2 & E & HL). rewrite E in H4 |- *. eapply key_intro; try eassumption.
  rewrite <- HL, skipn_app, skipn_all2 in H4 by lia. replace (S (List.length l1) - List.length l1)%nat with 1%nat in H4 by lia. exact H4.
Qed.
Lemma keys_at : forall n name s d, reads ex_float s d -> rstrip s = s -> has_separator (s ++ nl) = false ->
  forallb (fun k => match nth_error ex_lines (n + k) with
                    | Some line => String.eqb line (name ++ "_coeff_" ++ nth k two_digits "" ++ ": " ++ nth k (one_then s) "" ++ nl)
                    | None => false end
                    && negb (has_separator (name ++ "_coeff_" ++ nth k two_digits ""))
                    && forallb (fun line => negb (String.eqb (hd "" (py_split_colon line)) (name ++ "_coeff_" ++ nth k two_digits ""))) (skipn (S (n + k)) ex_lines)) (seq 0 20) = true ->
  keys_are ex_float ex_lines name (one_then_R d).
Proof.
  intros n name s d HR HS HS2 H. split; [reflexivity|]. intros k x Hx. rewrite forallb_forall in H.
  assert (Hk : (k < 20)%nat) by (apply (proj1 (nth_error_Some (one_then_R d) k)); congruence).
  specialize (H k). rewrite !andb_true_iff in H. destruct H as [[A B] C]; [apply in_seq; lia|].
  destruct (nth_error ex_lines (n + k)) as [line|] eqn:EL; [|discriminate]. apply String.eqb_eq in A. apply negb_true_iff in B.
  assert (HW : reads ex_float (nth k (one_then s) "") x /\ rstrip (nth k (one_then s) "") = nth k (one_then s) "" /\ has_separator (nth k (one_then s) "" ++ nl) = false).
  { clear -HR HS HS2 Hk Hx. do 20 (destruct k as [|k]; [cbn in *; injection Hx as <-; split; [first [exact HR|reflexivity]|first [split; reflexivity|split; assumption]]|]). lia. }
  destruct HW as (W1 & W2 & W3).
  eapply (key_at (n + k) _ (nth k (one_then s) "")); try eassumption; [|reflexivity]. rewrite EL. f_equal. rewrite A.
  assert (AA : forall u v w : string, (u ++ v) ++ w = u ++ v ++ w). { induction u as [|c u IHu]; intros; cbn; [reflexivity|now rewrite IHu]. }
  rewrite !AA. reflexivity.
Qed.
Ltac key n v := eapply (key_at n _ v); [reflexivity|reflexivity|reflexivity|reflexivity|vm_compute; reflexivity|reflexivity|cbn; lra].
Ltac keys n v := eapply (keys_at n _ v); [eapply reads_intro; [reflexivity|cbn; lra]|reflexivity|reflexivity|vm_compute; reflexivity].
Example C40_example_ossim : describes_ossim ex_float ex_lines ex_geometry.
Proof.
  split.
  { intros line Hin. exists (nth 0 (py_split_colon line) ""), (rstrip (nth 1 (py_split_colon line) "")).
    assert (HH : forallb (fun line => let key := nth 0 (py_split_colon line) "" in let val := rstrip (nth 1 (py_split_colon line) "") in
        String.eqb line (key ++ ": " ++ val ++ nl) && negb (has_separator key) && negb (has_separator (val ++ nl)) && String.eqb (rstrip val) val) ex_lines = true) by (vm_compute; reflexivity).
    rewrite forallb_forall in HH. specialize (HH line Hin). cbv zeta in HH. rewrite !andb_true_iff in HH. destruct HH as [[[A B] C] D].
    apply String.eqb_eq in A. apply negb_true_iff in B. apply negb_true_iff in C. apply String.eqb_eq in D. rewrite A at 1. now apply line_intro. }
  cbn [ex_geometry g_row g_col g_scale_row g_scale_col g_x g_scale_x g_y g_scale_y g_alt g_scale_alt g_num_col g_den_col g_num_row g_den_row].
  split; [key 1%nat "100"|]. split; [key 2%nat "200"|]. split; [key 3%nat "1000"|]. split; [key 4%nat "2000"|]. split; [key 5%nat "7"|]. split; [key 6%nat "2"|]. split; [key 7%nat "43"|].
  split; [key 8%nat "3"|]. split; [key 9%nat "500"|]. split; [key 10%nat "600"|]. split; [keys 11%nat "2"|]. split; [keys 31%nat "3"|]. split; [keys 51%nat "4"|keys 71%nat "5"].
Qed.
Example C40_example_rasterio : exists r, describes_rio r ex_geometry.
Proof. eexists. reflexivity. Qed.

(** ** C43 *)
(** The version that a DIMAP document announces. *)
Definition dimap_version (doc : node) (v : string) : Prop :=
  exists mtd fmt text, only_element doc "Metadata_Identification" mtd /\ only_element mtd "METADATA_FORMAT" fmt /\ has_text fmt text /\
    ((text <> "DIMAP_PHR" /\ has_attribute fmt v) \/
     (text = "DIMAP_PHR" /\ exists profile, only_element mtd "METADATA_PROFILE" profile /\ has_attribute profile v)).
(** The file is not a DIMAP document: it is not XML, or has no identification. *)
Definition not_dimap (f : file_view) : Prop :=
  forall doc, fv_xml f = Some doc -> forall e, descendant e doc -> ~ has_tag e "Metadata_Identification".
(** The file is an OSSIM keyword list. *)
Definition is_ossim (f : file_view) : Prop :=
  exists lines t, fv_lines f = Some lines /\ (forall line, In line lines -> exists key val, line_sets line key val) /\
    last_value lines "type" t /\ prefix "ossim" (strip t) = true.
(** It is not: some line is not a key and a value, or no line gives a type of OSSIM. *)
Definition not_ossim (f : file_view) : Prop :=
  forall lines, fv_lines f = Some lines ->
    (exists line, In line lines /\ List.length (py_split_colon line) <> 2%nat) \/
    ((forall line, In line lines -> exists key val, line_sets line key val) /\
     ((forall line v, In line lines -> ~ line_sets line "type" v) \/ exists t, last_value lines "type" t /\ prefix "ossim" (strip t) = false)).

Lemma identify_dimap_ok : forall f doc v, fv_xml f = Some doc -> dimap_version doc v -> identify_dimap f = Some v.
Proof.
  intros f doc v HX (mtd & fmt & text & H1 & H2 & H3 & H4). unfold identify_dimap, parse_xml. rewrite HX. cbn [bind].
  rewrite (only_element_ok _ _ _ H1). cbn [bind]. rewrite (only_element_ok _ _ _ H2). cbn [bind]. rewrite (has_text_ok _ _ H3). cbn [bind].
  destruct H4 as [[HN HA]|[ -> (profile & HP & HA)]].
  - apply String.eqb_neq in HN. rewrite HN. rewrite (only_element_ok _ _ _ H2). cbn [bind]. rewrite (has_attribute_ok _ _ HA). reflexivity.
  - rewrite String.eqb_refl. rewrite (only_element_ok _ _ _ HP). cbn [bind]. rewrite (has_attribute_ok _ _ HA). reflexivity.
Qed.
Lemma identify_dimap_not : forall f, not_dimap f -> identify_dimap f = None.
Proof.
  intros f H. unfold identify_dimap, parse_xml. destruct (fv_xml f) as [doc|] eqn:E; [|reflexivity]. cbn [bind]. unfold element at 1.
  destruct (elements "Metadata_Identification" doc) as [|e l] eqn:EE; [reflexivity|]. exfalso.
  assert (In e (elements "Metadata_Identification" doc)) as HI by (rewrite EE; left; reflexivity). apply elements_iff in HI. destruct HI as [H1 H2]. exact (H doc E e H1 H2).
Qed.
Lemma identify_ossim_ok : forall f, is_ossim f -> exists t, identify_ossim_kwl f = Some t.
Proof.
  intros f (lines & t & HL & HS & HV & HP). unfold identify_ossim_kwl. rewrite HL. cbn [bind]. destruct (parse_lines_ok lines [] HS) as (d & E). rewrite E. cbn [bind].
  rewrite (last_value_ok _ _ _ _ HS E HV), HP. eexists. reflexivity.
Qed.
Lemma parse_lines_bad : forall lines d line, In line lines -> List.length (py_split_colon line) <> 2%nat -> exists e, parse_lines lines d = Err e.
Proof.
  induction lines as [|x lines IH]; intros d line Hin HN; [destruct Hin|]. cbn. destruct Hin as [ -> | Hin ].
  - destruct (py_split_colon line) as [|a [|b [|c l]]]; try (eexists; reflexivity). exfalso. apply HN. reflexivity.
  - destruct (py_split_colon x) as [|a [|b [|c l]]]; try (eexists; reflexivity). eapply IH; eassumption.
Qed.
Lemma identify_ossim_not : forall f, not_ossim f -> identify_ossim_kwl f = None.
Proof.
  intros f H. unfold identify_ossim_kwl. destruct (fv_lines f) as [lines|] eqn:E; [|reflexivity]. cbn [bind]. specialize (H lines E).
  destruct H as [(line & Hin & HN)|[HS H]].
  - destruct (parse_lines_bad lines [] line Hin HN) as (e & ->). reflexivity.
  - destruct (parse_lines_ok lines [] HS) as (d & Ed). rewrite Ed. cbn [bind]. destruct H as [H|(t & HV & HP)].
    + rewrite (parse_lines_skip lines [] d "type" HS H Ed). reflexivity.
    + rewrite (last_value_ok _ _ _ _ HS Ed HV), HP. reflexivity.
Qed.
Lemma upper_rev : forall s a, upper (rev_string s a) = rev_string (upper s) (upper a).
Proof. induction s as [|c s IH]; intros a; cbn; [reflexivity|apply IH]. Qed.
Lemma basename_slash : forall c s acc, basename_ (String c s) acc = if Ascii.eqb c "/" then basename_ s "" else basename_ s (String c acc).
Proof. intros c s acc. destruct c as [[] [] [] [] [] [] [] []]; reflexivity. Qed.
Lemma upper_slash : forall c, Ascii.eqb (upper_ascii c) "/" = Ascii.eqb c "/".
Proof. intros c. destruct c as [[] [] [] [] [] [] [] []]; reflexivity. Qed.
Lemma basename_upper_ : forall s acc, basename_ (upper s) (upper acc) = upper (basename_ s acc).
Proof.
  induction s as [|c s IH]; intros acc; [cbn; now rewrite upper_rev|]. cbn [upper]. rewrite !basename_slash, upper_slash.
  destruct (Ascii.eqb c "/"); [apply (IH "")|apply (IH (String c acc))].
Qed.
(** The two tests of the name of the file agree. *)
Lemma name_tests : forall path, endswith (basename (upper path)) "XML" = xml_name path.
Proof. intros path. unfold xml_name, basename. rewrite <- (basename_upper_ path ""). reflexivity. Qed.

(** A file is taken for an XML one exactly when its path ends with these three letters, in any case. *)
Definition ends_with_xml (path : string) : Prop :=
  exists start x m l, path = start ++ String x (String m (String l "")) /\
    In x ["x"; "X"]%char /\ In m ["m"; "M"]%char /\ In l ["l"; "L"]%char.
Fixpoint upto_slash (s : string) : string :=
  match s with EmptyString => "" | String c s => if Ascii.eqb c "/" then "" else String c (upto_slash s) end.
Lemma rev_acc : forall s a, rev_string s a = rev_string s "" ++ a.
Proof. induction s as [|c s IH]; intros a; cbn; [reflexivity|]. rewrite (IH (String c a)), (IH (String c "")). generalize (rev_string s ""). induction s0 as [|d u IHu]; cbn; [reflexivity|now rewrite IHu]. Qed.
Lemma upto_app : forall a b, upto_slash (a ++ String "/" b) = upto_slash a.
Proof. induction a as [|c a IH]; intros b; cbn; [reflexivity|]. now rewrite IH. Qed.
Lemma rev_basename : forall s acc, upto_slash acc = acc -> rev_string (basename_ s acc) "" = upto_slash (rev_string s acc).
Proof.
  induction s as [|c s IH]; intros acc H.
  - cbn. now rewrite rev_rev, H.
  - rewrite basename_slash. cbn [rev_string]. destruct (Ascii.eqb_spec c "/") as [->|N].
    + rewrite (IH "" eq_refl), (rev_acc s (String "/" acc)). now rewrite upto_app.
    + apply IH. cbn. apply Ascii.eqb_neq in N. now rewrite N, H.
Qed.
Theorem C43_xml_names : forall path, xml_name path = true <-> ends_with_xml path.
Proof.
  intros path. unfold xml_name, endswith, basename. rewrite <- (upper_rev _ ""), (rev_basename _ "" eq_refl).
  assert (E : forall r, prefix "LMX" (upper (upto_slash r)) = true <->
            exists l m x a, r = String l (String m (String x a)) /\ In x ["x"; "X"]%char /\ In m ["m"; "M"]%char /\ In l ["l"; "L"]%char).
  { intros r. split.
    - intros H.
      assert (S1 : forall k t s, prefix (String k t) (upper (upto_slash s)) = true ->
                exists c s', s = String c s' /\ k = upper_ascii c /\ prefix t (upper (upto_slash s')) = true).
      { intros k t s P. destruct s as [|c s]; [discriminate|]. cbn [upto_slash] in P. destruct (Ascii.eqb c "/"); [discriminate|]. cbn [upper prefix] in P.
        destruct (ascii_dec k (upper_ascii c)); [|discriminate]. now exists c, s. }
      destruct (S1 _ _ _ H) as (l & s1 & -> & El & H1). destruct (S1 _ _ _ H1) as (m & s2 & -> & Em & H2). destruct (S1 _ _ _ H2) as (x & s3 & -> & Ex & _).
      exists l, m, x, s3. split; [reflexivity|]. clear - El Em Ex.
      split; [|split]; [destruct x as [[] [] [] [] [] [] [] []]; try discriminate Ex|destruct m as [[] [] [] [] [] [] [] []]; try discriminate Em|destruct l as [[] [] [] [] [] [] [] []]; try discriminate El]; cbn; tauto.
    - intros (l & m & x & a & -> & Hx & Hm & Hl). cbn in Hx, Hm, Hl. destruct Hx as [<-|[<-|[]]]; destruct Hm as [<-|[<-|[]]]; destruct Hl as [<-|[<-|[]]]; cbn; destruct (upper (upto_slash a)); reflexivity. }
  change (rev_string "XML" "") with "LMX". rewrite E. split.
  - intros (l & m & x & a & H & I). exists (rev_string a ""), x, m, l. split; [|exact I]. rewrite <- (rev_rev path), H. cbn [rev_string]. apply rev_acc.
  - intros (s & x & m & l & -> & I). exists l, m, x, (rev_string s ""). split; [|exact I].
    assert (G : forall u v w, rev_string (u ++ v) w = rev_string v (rev_string u w)) by (induction u as [|c u IHu]; intros; cbn; [reflexivity|apply IHu]).
    rewrite G. reflexivity.
Qed.
Example C43_xml_names_ex : ends_with_xml "/data.d/img.xMl" /\ ~ ends_with_xml "x.xml/img.geom".
Proof.
  split; [exists "/data.d/img.", "x"%char, "M"%char, "l"%char; cbn; tauto|]. intros H. apply C43_xml_names in H. discriminate.
Qed.

(** The RPCs that rasterio reports are used first, whatever the file. *)
Theorem C43_raster_first :
  forall pyfloat path f topleft r, fv_rio f = Some (Some r) ->
  rpc_reader pyfloat path f topleft = Ok (convert_rio_rpc_to_rpc_dict r topleft).
Proof. intros pyfloat path f tl r H. unfold rpc_reader, rpc_reader_via_rasterio. rewrite H. reflexivity. Qed.

(** Otherwise a DIMAP, under a name that ends with XML in any case, is read by the reader of its version;
    a version that is not a number is an error, and with the version "nan" the file is not taken for a
    DIMAP (an infinite version is not modelled). *)
Theorem C43_dimap_by_version :
  forall pyfloat path f topleft doc v, (forall r, fv_rio f <> Some (Some r)) -> xml_name path = true -> fv_xml f = Some doc -> dimap_version doc v ->
    (forall x, pyfloat v = Some (Some x) -> (x < 2)%R -> rpc_reader pyfloat path f topleft = rpc_reader_dimap_v1 pyfloat path f topleft) /\
    (forall x, pyfloat v = Some (Some x) -> (2 <= x)%R -> rpc_reader pyfloat path f topleft = rpc_reader_dimap_v23 pyfloat path f topleft) /\
    (pyfloat v = None -> rpc_reader pyfloat path f topleft = Err ValueError) /\
    (pyfloat v = Some nan -> is_ossim f -> rpc_reader pyfloat path f topleft = rpc_reader_ossim_kwl pyfloat f topleft) /\
    (pyfloat v = Some nan -> not_ossim f -> rpc_reader pyfloat path f topleft = Err ValueError).
Proof.
  intros pyfloat path f tl doc v HR HN HX HV. pose proof (identify_dimap_ok f doc v HX HV) as HI.
  assert (HH : rpc_reader pyfloat path f tl = bind (py_float pyfloat v) (fun v => if flt v 2 then rpc_reader_dimap_v1 pyfloat path f tl else if fge v 2 then rpc_reader_dimap_v23 pyfloat path f tl else ossim_or_error pyfloat f tl)).
  { unfold rpc_reader, rpc_reader_via_rasterio. rewrite name_tests, HN, HI. destruct (fv_rio f) as [[r|]|]; [exfalso; exact (HR r eq_refl)|reflexivity|reflexivity]. }
  rewrite HH. unfold py_float. split; [|split; [|split; [|split]]].
  - intros x -> HL. cbn [bind flt fge]. apply Rltb_true in HL. rewrite HL. reflexivity.
  - intros x -> HL. cbn [bind flt fge]. assert (HL2 : Rltb x 2 = false) by (apply Rltb_false; lra). apply Rleb_true in HL. rewrite HL2, HL. reflexivity.
  - intros ->. reflexivity.
  - intros -> HO. cbn [bind flt fge nan]. unfold ossim_or_error. destruct (identify_ossim_ok f HO) as (t & ->). reflexivity.
  - intros -> HO. cbn [bind flt fge nan]. unfold ossim_or_error. now rewrite (identify_ossim_not f HO).
Qed.

(** Otherwise an OSSIM keyword list is read as such, and anything else is a ValueError. *)
Theorem C43_ossim_then_error :
  forall pyfloat path f topleft, (forall r, fv_rio f <> Some (Some r)) -> xml_name path = false \/ not_dimap f ->
    (is_ossim f -> rpc_reader pyfloat path f topleft = rpc_reader_ossim_kwl pyfloat f topleft) /\
    (not_ossim f -> rpc_reader pyfloat path f topleft = Err ValueError).
Proof.
  intros pyfloat path f tl HR HD. assert (HH : rpc_reader pyfloat path f tl = ossim_or_error pyfloat f tl).
  { unfold rpc_reader, rpc_reader_via_rasterio. rewrite name_tests. destruct (fv_rio f) as [[r|]|]; [exfalso; exact (HR r eq_refl)| |];
    (destruct HD as [ -> | HD ]; [reflexivity|]; rewrite (identify_dimap_not f HD); destruct (xml_name path); reflexivity). }
  rewrite HH. unfold ossim_or_error. split; intros HO.
  - destruct (identify_ossim_ok f HO) as (t & ->). reflexivity.
  - rewrite (identify_ossim_not f HO). reflexivity.
Qed.

(** The driver that the parameters report is the one that read them. *)
Theorem C43_driver_reported :
  forall pyfloat path f topleft p, rpc_reader pyfloat path f topleft = Ok p ->
    (p_driver p = "rasterio_rpc" /\ rpc_reader_via_rasterio f topleft = Some p) \/
    (rpc_reader_via_rasterio f topleft = None /\
     ((exists v, p_driver p = "dimap_v" ++ v /\ xml_name path = true /\
        (rpc_reader_dimap_v1 pyfloat path f topleft = Ok p \/ rpc_reader_dimap_v23 pyfloat path f topleft = Ok p)) \/
      (p_driver p = "ossim_kwl" /\ rpc_reader_ossim_kwl pyfloat f topleft = Ok p))).
Proof.
  intros pyfloat path f tl p H.
  assert (HO : ossim_or_error pyfloat f tl = Ok p -> p_driver p = "ossim_kwl" /\ rpc_reader_ossim_kwl pyfloat f tl = Ok p).
  { unfold ossim_or_error. destruct (identify_ossim_kwl f); [|discriminate]. intros E. split; [|exact E]. unfold rpc_reader_ossim_kwl in E.
    repeat (match type of E with bind ?r _ = _ => destruct r; cbn [bind] in E; [|discriminate] end). injection E as <-. reflexivity. }
  assert (H1 : rpc_reader_dimap_v1 pyfloat path f tl = Ok p -> exists v, p_driver p = "dimap_v" ++ v).
  { unfold rpc_reader_dimap_v1. destruct (negb _); [discriminate|]. intros E. repeat (match type of E with bind ?r _ = _ => destruct r; cbn [bind] in E; [|discriminate] end). injection E as <-. eexists. reflexivity. }
  assert (H23 : rpc_reader_dimap_v23 pyfloat path f tl = Ok p -> exists v, p_driver p = "dimap_v" ++ v).
  { unfold rpc_reader_dimap_v23. destruct (negb _); [discriminate|]. intros E.
    repeat (match type of E with bind ?r _ = _ => lazymatch r with (if _ then _ else _) => fail | _ => destruct r; cbn [bind] in E; [|discriminate] end end).
    match type of E with bind ?r _ = _ => destruct r as [[[[[[[? ?] ?] ?] ?] ?] ?]|]; cbn [bind] in E; [|discriminate] end.
    repeat (match type of E with bind ?r _ = _ => destruct r; cbn [bind] in E; [|discriminate] end). injection E as <-. eexists. reflexivity. }
  unfold rpc_reader in H. destruct (rpc_reader_via_rasterio f tl) as [q|] eqn:ER.
  - injection H as ->. left. split; [|reflexivity]. unfold rpc_reader_via_rasterio in ER. destruct (fv_rio f) as [[r|]|]; try discriminate. injection ER as <-. reflexivity.
  - right. split; [reflexivity|]. rewrite name_tests in H. destruct (xml_name path) eqn:EX; [|right; now apply HO].
    destruct (identify_dimap f) as [v|]; [|right; now apply HO]. destruct (py_float pyfloat v) as [x|]; [|discriminate]. cbn [bind] in H.
    destruct (flt x 2); [left; destruct (H1 H) as (w & Hw); exists w; auto|]. destruct (fge x 2); [left; destruct (H23 H) as (w & Hw); exists w; auto|right; now apply HO].
Qed.

Example C43_example :
  dimap_version ex_doc2 "2" /\ dimap_version ex_doc1 "1" /\ xml_name "/data.d/img.xml" = true /\ xml_name "img.XML" = true /\ xml_name "x.xml/img.geom" = false /\
  is_ossim (mkView None None (Some ex_lines)) /\ not_dimap (mkView None None (Some ex_lines)) /\ not_ossim (mkView None (Some ex_doc2) (Some ["<?xml version"])).
Proof.
  split; [do 3 eexists; split; [one_elt|]; split; [one_elt|]; split; [eexists; reflexivity|]; left; split; [discriminate|do 4 eexists; reflexivity]|].
  split; [do 3 eexists; split; [one_elt|]; split; [one_elt|]; split; [eexists; reflexivity|]; left; split; [discriminate|do 4 eexists; reflexivity]|].
  split; [reflexivity|]. split; [reflexivity|]. split; [reflexivity|]. split; [|split].
  - exists ex_lines, "ossimRpcModel". split; [reflexivity|]. split; [exact (proj1 C40_example_ossim)|]. split; [|reflexivity].
    exists [], (nth 0 ex_lines ""), (tl ex_lines). split; [reflexivity|]. split; [apply (line_intro "type" "ossimRpcModel"); reflexivity|].
    intros line v Hin HS. apply line_key in HS. assert (HH : forallb (fun l => negb (String.eqb (hd "" (py_split_colon l)) "type")) (tl ex_lines) = true) by (vm_compute; reflexivity).
    rewrite forallb_forall in HH. specialize (HH line Hin). rewrite HS in HH. discriminate.
  - intros doc E. discriminate.
  - intros lines E. injection E as <-. left. exists "<?xml version". split; [left; reflexivity|discriminate].
Qed.
