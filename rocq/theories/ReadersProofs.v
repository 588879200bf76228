(** Lemmas on the RPC readers. *)
From Coq Require Import Reals List Bool Arith Ascii String Lra Lia.
From Verif Require Import Num NumLemmas PyStrModel ReadersModel ReadersSpec.
Import ListNotations.
Open Scope string_scope.

(** ** XML *)
Section NODE_IND.
  Context (P : node -> Prop) (HT : forall s, P (Text s)) (HE : forall t a c, Forall P c -> P (Elt t a c)).
  Fixpoint node_ind2 (n : node) : P n :=
    match n with
    | Text s => HT s
    | Elt t a c => HE t a c ((fix go (l : list node) : Forall P l := match l with [] => Forall_nil P | m :: l => Forall_cons m (node_ind2 m) (go l) end) c)
    end.
End NODE_IND.

Lemma tag_is_iff : forall tag n, tag_is tag n = true <-> has_tag n tag.
Proof.
  intros tag [t a c|s]; cbn; split.
  - intros H. apply String.eqb_eq in H. subst. exists a, c. reflexivity.
  - intros (a' & c' & E). injection E as -> _ _. apply String.eqb_refl.
  - discriminate.
  - intros (a & c & E). discriminate.
Qed.
Lemma elements_iff : forall tag n e, In e (elements tag n) <-> descendant e n /\ has_tag e tag.
Proof.
  intros tag n. induction n as [s|t a c IH] using node_ind2; intros e.
  - cbn. split; [contradiction|]. intros [H _]. inversion H; cbn in *; contradiction.
  - cbn [elements]. rewrite in_flat_map. rewrite Forall_forall in IH. split.
    + intros (m & Hm & He). destruct (tag_is tag m) eqn:ET.
      * destruct He as [ <- | He ]; [split; [now apply d_child|now apply tag_is_iff]|]. apply IH in He; [|exact Hm]. destruct He. split; [eapply d_deep; eassumption|assumption].
      * apply IH in He; [|exact Hm]. destruct He. split; [eapply d_deep; eassumption|assumption].
    + intros [HD HT]. inversion HD as [m n0 Hin|m k n0 Hk HD2]; subst; cbn in *.
      * exists e. split; [exact Hin|]. apply tag_is_iff in HT. rewrite HT. left. reflexivity.
      * exists k. split; [exact Hk|]. assert (In e (elements tag k)) by (apply IH; auto). destruct (tag_is tag k); [right|]; assumption.
Qed.
Lemma only_element_ok : forall n tag e, only_element n tag e -> element tag n = Ok e.
Proof.
  intros n tag e (HD & HT & HU). unfold element. destruct (elements tag n) as [|e' l] eqn:E.
  - assert (In e (elements tag n)) by (apply elements_iff; auto). rewrite E in H. destruct H.
  - cbn. f_equal. assert (In e' (elements tag n)) by (rewrite E; left; reflexivity). apply elements_iff in H. destruct H. now apply HU.
Qed.
Lemma elements_only : forall n tag e, elements tag n = [e] -> only_element n tag e.
Proof.
  intros n tag e H. assert (In e (elements tag n)) as HI by (rewrite H; left; reflexivity). apply elements_iff in HI. destruct HI as [H1 H2].
  split; [exact H1|]. split; [exact H2|]. intros e' H3 H4. assert (In e' (elements tag n)) as HI by (apply elements_iff; auto). rewrite H in HI. destruct HI as [HI|[]]. auto.
Qed.
Lemma has_text_ok : forall e s, has_text e s -> data_of e = Ok s.
Proof. intros e s (rest & H). unfold data_of. rewrite H. reflexivity. Qed.
Lemma has_attribute_ok : forall e v, has_attribute e v -> first_attribute e = Ok v.
Proof. intros e v (t & a & r & c & ->). reflexivity. Qed.

Lemma mapM_ok : forall A B (f : A -> result B) l bs, Forall2 (fun a b => f a = Ok b) l bs -> mapM f l = Ok bs.
Proof. intros A B f l bs H. induction H as [|a b l bs E H IH]; [reflexivity|]. cbn. rewrite E. cbn. rewrite IH. reflexivity. Qed.
Lemma Forall2_nth : forall A B (P : A -> B -> Prop) l bs, List.length l = List.length bs ->
  (forall k a b, nth_error l k = Some a -> nth_error bs k = Some b -> P a b) -> Forall2 P l bs.
Proof.
  intros A B P l. induction l as [|a l IH]; intros [|b bs] HL H; try discriminate; constructor; [apply (H 0%nat); reflexivity|].
  apply IH; [cbn in HL; lia|]. intros k a' b' Ha Hb. apply (H (S k)); assumption.
Qed.
Lemma nth_error_seq : forall s n k, (k < n)%nat -> nth_error (seq s n) k = Some (s + k)%nat.
Proof. intros s n k H. rewrite (nth_error_nth' _ 0%nat) by (rewrite seq_length; exact H). f_equal. apply seq_nth. exact H. Qed.

Section FLOAT.
Context (pyfloat : string -> option num).
Lemma number_ok : forall n tag x, value_is pyfloat n tag x -> number pyfloat n tag = Ok (fin x).
Proof.
  intros n tag x (e & s & HE & HT & HR). unfold number. rewrite (only_element_ok _ _ _ HE). cbn [bind]. rewrite (has_text_ok _ _ HT). cbn [bind].
  unfold py_float. rewrite HR. reflexivity.
Qed.
Lemma numbers_ok : forall n tag l, values_are pyfloat n tag l -> numbers pyfloat n tag = Ok (map fin l).
Proof.
  intros n tag l (HL & H). unfold numbers. apply mapM_ok. apply Forall2_nth; [now rewrite seq_length, map_length|].
  intros k a b Ha Hb. rewrite nth_error_map in Hb. destruct (nth_error l k) as [x|] eqn:Ex; [|discriminate]. injection Hb as <-.
  assert (k < 20)%nat by (rewrite <- HL; apply nth_error_Some; congruence). rewrite nth_error_seq in Ha by assumption. assert (a = (k + 1)%nat) by (injection Ha; lia). subst a.
  apply number_ok. now apply H.
Qed.
Lemma axis_ok : forall v axis a b, axis_is pyfloat v axis a b ->
  axis_number pyfloat v axis "A" = Ok (fin a) /\ axis_number pyfloat v axis "B" = Ok (fin b).
Proof.
  intros v axis a b (e & HE & HA & HB). unfold axis_number. rewrite (only_element_ok _ _ _ HE). cbn [bind]. split; now apply number_ok.
Qed.

(** ** Words *)
Lemma rev_string_app : forall a b c, rev_string (a ++ b) c = rev_string b (rev_string a c).
Proof. induction a as [|x a IH]; intros b c; cbn; [reflexivity|apply IH]. Qed.
Lemma rev_string_rev : forall a b c, rev_string (rev_string a b) c = rev_string b (a ++ c).
Proof. induction a as [|x a IH]; intros b c; cbn; [reflexivity|]. rewrite IH. reflexivity. Qed.
Lemma app_empty : forall s, s ++ "" = s.
Proof. induction s as [|c s IH]; cbn; [reflexivity|now rewrite IH]. Qed.
Lemma rev_rev : forall s, rev_string (rev_string s "") "" = s.
Proof. intros s. rewrite rev_string_rev. cbn. apply app_empty. Qed.
Lemma is_space_iff : forall c, is_space c = true <-> space c.
Proof.
  intros c. unfold space. split.
  - intros H. destruct c as [[] [] [] [] [] [] [] []]; try discriminate H; cbn; tauto.
  - intros H. destruct c as [[] [] [] [] [] [] [] []]; try reflexivity; exfalso; cbn in H; repeat (destruct H as [H|H]; [discriminate H|]); exact H.
Qed.
Lemma split_word : forall w acc s, all_chars (fun c => ~ space c) w -> (s = "" \/ exists c t, s = String c t /\ space c) ->
  split_words (w ++ s) acc = push_word (rev_string w acc) (split_words s "").
Proof.
  induction w as [|c w IH]; intros acc s HW HS; cbn [append rev_string].
  - destruct HS as [ -> | (c & t & -> & HC) ].
    + cbn. destruct acc; reflexivity.
    + cbn [split_words]. rewrite (proj2 (is_space_iff _) HC). cbn [push_word]. reflexivity.
  - destruct HW as [HC HW]. cbn [split_words]. rewrite <- is_space_iff in HC. destruct (is_space c); [exfalso; apply HC; reflexivity|]. now apply IH.
Qed.
Lemma words_ok : forall s l, words s l -> py_split s = l.
Proof.
  intros s l H. unfold py_split. induction H as [|c s l HC H IH|w s l HN HW HS H IH].
  - reflexivity.
  - cbn [split_words]. rewrite (proj2 (is_space_iff _) HC). exact IH.
  - rewrite split_word by assumption. rewrite IH. destruct w as [|c w]; [contradiction|]. cbn [rev_string]. unfold push_word.
    destruct (rev_string w (String c "")) eqn:E.
    + apply (f_equal (fun t => rev_string t "")) in E. rewrite rev_string_rev in E. cbn in E. destruct (w ++ ""); discriminate.
    + f_equal. rewrite <- E, rev_string_rev. cbn. now rewrite app_empty.
Qed.
Lemma number_list_ok : forall rfm tag num den, function_is pyfloat rfm tag num den -> number_list pyfloat rfm tag = Ok (map fin num ++ map fin den)%list.
Proof.
  intros rfm tag nu de (_ & _ & e & s & ws & HE & HT & HW & HF). unfold number_list. rewrite (only_element_ok _ _ _ HE). cbn [bind]. rewrite (has_text_ok _ _ HT). cbn [bind].
  rewrite (words_ok _ _ HW). rewrite <- map_app. apply mapM_ok. clear -HF. induction HF as [|a x ws l H HF IH]; cbn; constructor; [unfold py_float; rewrite H; reflexivity|exact IH].
Qed.

(** ** Lines *)
Lemma split_key : forall key acc s, no_separator key -> split_colon (key ++ ": " ++ s) acc = rev_string (rev_string key acc) "" :: split_colon s "".
Proof.
  induction key as [|c key IH]; intros acc s HN; [reflexivity|].
  assert (HN' : no_separator key). { intros a b E. apply (HN (String c a) b). rewrite E. reflexivity. }
  specialize (IH (String c acc) s HN'). cbn [append rev_string] in *.
  destruct (Ascii.eqb_spec c ":") as [ -> | HC ].
  - destruct key as [|c2 key]; [exact IH|]. destruct (Ascii.eqb_spec c2 " ") as [ -> | HC2 ].
    + exfalso. apply (HN "" key). reflexivity.
    + rewrite <- IH. cbn [append]. clear -HC2. destruct c2 as [[] [] [] [] [] [] [] []]; try reflexivity. exfalso. apply HC2. reflexivity.
  - rewrite <- IH. clear -HC. destruct c as [[] [] [] [] [] [] [] []]; try reflexivity. exfalso. apply HC. reflexivity.
Qed.
Lemma split_last : forall s acc, no_separator s -> split_colon s acc = [rev_string (rev_string s acc) ""].
Proof.
  induction s as [|c s IH]; intros acc HN; [reflexivity|].
  assert (HN' : no_separator s). { intros a b E. apply (HN (String c a) b). rewrite E. reflexivity. }
  specialize (IH (String c acc) HN'). cbn [rev_string].
  destruct (Ascii.eqb_spec c ":") as [ -> | HC ].
  - destruct s as [|c2 s]; [exact IH|]. destruct (Ascii.eqb_spec c2 " ") as [ -> | HC2 ].
    + exfalso. apply (HN "" s). reflexivity.
    + rewrite <- IH. clear -HC2. destruct c2 as [[] [] [] [] [] [] [] []]; try reflexivity. exfalso. apply HC2. reflexivity.
  - rewrite <- IH. clear -HC. destruct c as [[] [] [] [] [] [] [] []]; try reflexivity. exfalso. apply HC. reflexivity.
Qed.
Lemma rstrip_spaces : forall t, all_chars space t -> rstrip t = "".
Proof. induction t as [|c t IH]; intros H; [reflexivity|]. destruct H as [HC H]. cbn. rewrite IH by exact H. rewrite (proj2 (is_space_iff _) HC). reflexivity. Qed.
Lemma rstrip_ok : forall v t, no_trailing_space v -> all_chars space t -> rstrip (v ++ t) = v.
Proof.
  induction v as [|c v IH]; intros t HV HT; [now apply rstrip_spaces|].
  assert (HV' : no_trailing_space v). { intros a d E. apply (HV (String c a) d). rewrite E. reflexivity. }
  cbn [append rstrip]. rewrite (IH t HV' HT). destruct v as [|d v]; [|reflexivity].
  specialize (HV "" c eq_refl). rewrite <- is_space_iff in HV. destruct (is_space c); [exfalso; apply HV; reflexivity|reflexivity].
Qed.
Lemma line_ok : forall line key val, line_sets line key val -> exists v, py_split_colon line = [key; v] /\ rstrip v = val.
Proof.
  intros line key val (t & -> & HT & HV & HK & HN). exists (val ++ t). split; [|now apply rstrip_ok].
  unfold py_split_colon. rewrite split_key by exact HK. rewrite split_last by exact HN. rewrite !rev_rev. reflexivity.
Qed.
Lemma parse_lines_app : forall l1 l2 d, parse_lines (l1 ++ l2) d = bind (parse_lines l1 d) (parse_lines l2).
Proof.
  induction l1 as [|x l1 IH]; intros l2 d; [reflexivity|]. cbn. destruct (py_split_colon x) as [|k [|v [|]]]; try reflexivity. apply IH.
Qed.
Lemma parse_lines_ok : forall lines d, (forall line, In line lines -> exists key val, line_sets line key val) -> exists d', parse_lines lines d = Ok d'.
Proof.
  induction lines as [|x lines IH]; intros d H; [exists d; reflexivity|]. destruct (H x (or_introl eq_refl)) as (k & v & HS). destruct (line_ok _ _ _ HS) as (v' & E & _).
  cbn. rewrite E. apply IH. intros line Hl. apply H. right. exact Hl.
Qed.
Lemma parse_lines_skip : forall lines d d' key, (forall line, In line lines -> exists key val, line_sets line key val) ->
  (forall line v, In line lines -> ~ line_sets line key v) -> parse_lines lines d = Ok d' -> dict_get d' key = dict_get d key.
Proof.
  induction lines as [|x lines IH]; intros d d' key H HN E; [injection E as <-; reflexivity|].
  destruct (H x (or_introl eq_refl)) as (k & v & HS). destruct (line_ok _ _ _ HS) as (v' & E1 & E2). cbn in E. rewrite E1 in E.
  rewrite (IH _ _ key (fun l Hl => H l (or_intror Hl)) (fun l w Hl => HN l w (or_intror Hl)) E). unfold dict_set. cbn [dict_get].
  destruct (String.eqb_spec k key) as [ -> | NE ]; [|reflexivity]. exfalso. exact (HN x v (or_introl eq_refl) HS).
Qed.
Lemma last_value_ok : forall lines d key val, (forall line, In line lines -> exists key val, line_sets line key val) ->
  parse_lines lines [] = Ok d -> last_value lines key val -> dict_get d key = Ok val.
Proof.
  intros lines d key val H E (l1 & line & l2 & -> & HS & HN). rewrite parse_lines_app in E.
  destruct (parse_lines_ok l1 []) as (d1 & E1). { intros l Hl. apply H. apply in_or_app. left. exact Hl. }
  rewrite E1 in E. cbn [bind] in E. destruct (line_ok _ _ _ HS) as (v & E2 & E3). cbn in E. rewrite E2, E3 in E.
  rewrite (parse_lines_skip l2 _ d key) with (3 := E); [|intros l Hl; apply H; apply in_or_app; right; right; exact Hl|exact HN].
  unfold dict_set. cbn [dict_get]. now rewrite String.eqb_refl.
Qed.
Lemma key_ok : forall lines d key x, (forall line, In line lines -> exists key val, line_sets line key val) ->
  parse_lines lines [] = Ok d -> key_is pyfloat lines key x -> dict_number pyfloat d key = Ok (fin x).
Proof.
  intros lines d key x H E (s & HL & HR). unfold dict_number. rewrite (last_value_ok _ _ _ _ H E HL). cbn [bind]. unfold py_float. rewrite HR. reflexivity.
Qed.
Lemma keys_ok : forall lines d axis nd l, (forall line, In line lines -> exists key val, line_sets line key val) ->
  parse_lines lines [] = Ok d -> keys_are pyfloat lines (axis ++ "_" ++ nd) l -> dict_numbers pyfloat d axis nd = Ok (map fin l).
Proof.
  intros lines d axis nd l H E (HL & HK). unfold dict_numbers. apply mapM_ok. apply Forall2_nth; [now rewrite seq_length, map_length|].
  intros k a b Ha Hb. rewrite nth_error_map in Hb. destruct (nth_error l k) as [x|] eqn:Ex; [|discriminate]. injection Hb as <-.
  assert (k < 20)%nat by (rewrite <- HL; apply nth_error_Some; congruence). rewrite nth_error_seq in Ha by assumption. injection Ha as <-.
  cbn [Nat.add]. apply (key_ok lines); try assumption. specialize (HK k x Ex).
  replace (nth k two_digits "") with (decimal02 k) in HK by (do 20 (destruct k as [|k]; [reflexivity|]); lia).
  replace (axis ++ "_" ++ nd ++ "_coeff_" ++ decimal02 k) with ((axis ++ "_" ++ nd) ++ "_coeff_" ++ decimal02 k); [exact HK|].
  assert (AA : forall u v w : string, (u ++ v) ++ w = u ++ v ++ w). { induction u as [|y u IHu]; intros; cbn; [reflexivity|now rewrite IHu]. }
  rewrite !AA. reflexivity.
Qed.
End FLOAT.
