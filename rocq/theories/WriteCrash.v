(** Interrupted writes: proofs. *)
From Coq Require Import Reals List Bool Arith Ascii String Lia.
From Verif Require Import Num NumLemmas PyStrModel ReadersModel ReadersSpec ReadersProofs WritersModel WritersSpec WritersProofs WriteCrashModel.
Import ListNotations.
Open Scope string_scope.

(** ** Files *)
Fixpoint join (l : list string) : string := match l with [] => "" | x :: l => x ++ join l end.
Lemma join_app : forall a b, join (a ++ b)%list = join a ++ join b.
Proof. induction a as [|x a IH]; intro b; simpl; [reflexivity|]. now rewrite IH, sapp_assoc. Qed.
Lemma set_same : forall s n c, fs_set s n c n = Some c.
Proof. intros. unfold fs_set. now rewrite String.eqb_refl. Qed.
Lemma set_other : forall s n m c, m <> n -> fs_set s n c m = s m.
Proof. intros s n m c H. unfold fs_set. destruct (String.eqb_spec m n); [contradiction|reflexivity]. Qed.
Lemma app_nil : forall s : string, s ++ "" = s.
Proof. induction s as [|c s IH]; simpl; [reflexivity|now rewrite IH]. Qed.

(** Writes to one file: any stop leaves a beginning of the text. *)
Lemma writes_stop : forall p xs s s' t0, s p = Some (TextFile t0) -> stops s (map (Write p) xs) s' ->
  (exists t rest, s' p = Some (TextFile (t0 ++ t)) /\ join xs = t ++ rest) /\ forall n, n <> p -> s' n = s n.
Proof.
  induction xs as [|x xs IH]; intros s s' t0 H0 H; cbn [map] in H.
  - inversion H; subst. split; [|auto]. exists "", "". now rewrite app_nil.
  - inversion H as [l E|q a b l E|o l s'' H' E]; subst.
    + split; [|auto]. exists "", (x ++ join xs). now rewrite app_nil.
    + split.
      * exists a, (b ++ join xs). cbn [apply_op]. rewrite set_same, H0. split; [reflexivity|]. simpl. now rewrite sapp_assoc.
      * intros n Hn. now apply set_other.
    + assert (H1 : apply_op s (Write p x) p = Some (TextFile (t0 ++ x))) by (cbn [apply_op]; rewrite set_same, H0; reflexivity).
      destruct (IH _ _ _ H1 H') as [(t & rest & E & J) O]. split.
      * exists (x ++ t), rest. rewrite E, sapp_assoc. split; [reflexivity|]. simpl. now rewrite J, sapp_assoc.
      * intros n Hn. rewrite (O n Hn). now apply set_other.
Qed.
Lemma file_stop : forall p xs s s', stops s (Open p :: map (Write p) xs) s' ->
  (s' = s \/ exists t rest, s' p = Some (TextFile t) /\ join xs = t ++ rest) /\ forall n, n <> p -> s' n = s n.
Proof.
  intros p xs s s' H. inversion H as [l E|q a b l E|o l s'' H' E]; subst; [auto|].
  destruct (writes_stop p xs (apply_op s (Open p)) s' "") as [(t & rest & E & J) O]; [apply set_same|exact H'|]. split.
  - right. exists t, rest. auto.
  - intros n Hn. rewrite (O n Hn). now apply set_other.
Qed.
Lemma writes_all : forall p xs s t0, s p = Some (TextFile t0) ->
  forall n, apply_ops s (map (Write p) xs) n = fs_set s p (TextFile (t0 ++ join xs)) n.
Proof.
  induction xs as [|x xs IH]; intros s t0 H0 n; unfold apply_ops; cbn [map fold_left join].
  - rewrite app_nil. unfold fs_set. destruct (String.eqb_spec n p) as [->|]; auto.
  - fold (apply_ops (apply_op s (Write p x)) (map (Write p) xs)). rewrite (IH _ (t0 ++ x)); [|cbn [apply_op]; rewrite set_same, H0; reflexivity].
    rewrite sapp_assoc. unfold fs_set, apply_op, fs_set. destruct (String.eqb n p); reflexivity.
Qed.
Lemma file_all : forall p xs s n, apply_ops s (Open p :: map (Write p) xs) n = fs_set s p (TextFile (join xs)) n.
Proof.
  intros p xs s n. unfold apply_ops. cbn [fold_left]. fold (apply_ops (apply_op s (Open p)) (map (Write p) xs)).
  rewrite (writes_all p xs _ ""); [|apply set_same]. simpl. unfold fs_set. destruct (String.eqb n p); reflexivity.
Qed.

(** ** The writes of an RPB file *)
Section REPR.
Context (repr : num -> string).
Fixpoint coeff_chunks (l : list num) : list string :=
  match l with
  | [] => []
  | [c] => [tab ++ tab ++ repr c ++ newline]
  | c :: l => (tab ++ tab ++ repr c ++ "," ++ newline) :: coeff_chunks l
  end.
Lemma coeff_chunks_writes : forall p l, coeff_writes repr p l = map (Write p) (coeff_chunks l).
Proof.
  induction l as [|c [|d l] IH]; [reflexivity|reflexivity|].
  change (Write p (tab ++ tab ++ repr c ++ "," ++ newline) :: coeff_writes repr p (d :: l) =
          Write p (tab ++ tab ++ repr c ++ "," ++ newline) :: map (Write p) (coeff_chunks (d :: l))). now rewrite IH.
Qed.
Lemma coeff_chunks_text : forall l, join (coeff_chunks l) = coeff_lines repr l.
Proof.
  induction l as [|c [|d l] IH]; [reflexivity|cbn [coeff_chunks join coeff_lines]; now rewrite app_nil|].
  change ((tab ++ tab ++ repr c ++ "," ++ newline) ++ join (coeff_chunks (d :: l)) = tab ++ tab ++ repr c ++ "," ++ newline ++ coeff_lines repr (d :: l)).
  rewrite IH. now rewrite !sapp_assoc.
Qed.
Definition block_chunks (name : string) (l : list num) : list string :=
  ((tab ++ name ++ " = (" ++ newline)%string :: coeff_chunks l ++ [(tab ++ ");" ++ newline)%string])%list.
Lemma block_writes : forall p name l, write_coeff_ops repr p name l = map (Write p) (block_chunks name l).
Proof. intros. unfold write_coeff_ops, block_chunks. rewrite coeff_chunks_writes. cbn [map]. now rewrite map_app. Qed.
Lemma block_text : forall name l, join (block_chunks name l) = write_coeff repr name l.
Proof.
  intros. unfold block_chunks, write_coeff. cbn [join]. rewrite join_app, coeff_chunks_text. cbn [join]. rewrite app_nil. now rewrite !sapp_assoc.
Qed.
Definition rpb_chunks (r : rio_rpc) : list string :=
  (["satId =  'UNKNOWN';" ++ newline; "bandId = 'P';" ++ newline; "SpecId = " ++ quote ++ "RPC00B" ++ quote ++ ";" ++ newline;
    "BEGIN_GROUP = IMAGE" ++ newline; tab ++ "errBias = -1;" ++ newline; tab ++ "errRand = -1;" ++ newline;
    write_scalar repr "lineOffset" (line_off r); write_scalar repr "sampOffset" (samp_off r); write_scalar repr "latOffset" (lat_off r);
    write_scalar repr "longOffset" (long_off r); write_scalar repr "heightOffset" (height_off r);
    write_scalar repr "lineScale" (line_scale r); write_scalar repr "sampScale" (samp_scale r); write_scalar repr "latScale" (lat_scale r);
    write_scalar repr "longScale" (long_scale r); write_scalar repr "heightScale" (height_scale r)]%string
   ++ block_chunks "lineNumCoef" (line_num_coeff r) ++ block_chunks "lineDenCoef" (line_den_coeff r)
   ++ block_chunks "sampNumCoef" (samp_num_coeff r) ++ block_chunks "sampDenCoef" (samp_den_coeff r)
   ++ ["END_GROUP = IMAGE" ++ newline; "END;" ++ newline]%string)%list.
Lemma rpb_writes : forall r p, rpb_ops repr r p = Open p :: map (Write p) (rpb_chunks r).
Proof. intros. unfold rpb_ops, rpb_chunks. rewrite !block_writes, !map_app. reflexivity. Qed.
Lemma rpb_join : forall r, join (rpb_chunks r) = rpb_text repr r.
Proof.
  intro r. unfold rpb_chunks. rewrite !join_app, !block_text. cbn [join]. rewrite app_nil. unfold rpb_text. rewrite !sapp_assoc. reflexivity.
Qed.
End REPR.

(** ** The words of a beginning of a text *)
(** [m] is a beginning of [l], the last word perhaps cut. *)
Inductive cut : list string -> list string -> Prop :=
| cut_end : forall l, cut l []
| cut_word : forall w x l, cut ((w ++ x) :: l) [w]
| cut_next : forall w l m, cut l m -> cut (w :: l) (w :: m).
Lemma app_split : forall a b c d : string, a ++ b = c ++ d -> (exists x, c = a ++ x /\ b = x ++ d) \/ (exists x, a = c ++ x /\ d = x ++ b).
Proof.
  induction a as [|k a IH]; intros b c d H.
  - left. now exists c.
  - destruct c as [|k' c]; [right; exists (String k a); auto|]. simpl in H. injection H as -> H.
    destruct (IH _ _ _ H) as [(x & -> & ->)|(x & -> & ->)]; [left|right]; exists x; auto.
Qed.
Lemma words_total : forall s, exists l, words s l.
Proof.
  induction s as [|c s [l IH]]; [exists []; constructor|]. destruct (is_space c) eqn:Ec.
  - exists l. apply w_space; [now apply is_space_iff|exact IH].
  - assert (Hc : ~ space c) by (intro K; apply is_space_iff in K; congruence).
    assert (One : s = "" \/ (exists d t, s = String d t /\ space d) -> exists l, words (String c s) l).
    { intro K. exists (String c "" :: l). change (String c s) with (String c "" ++ s). apply w_word; [discriminate|simpl; auto|exact K|exact IH]. }
    inversion IH as [|d t m Hd Ht|w t m Hw Hn Hs Ht]; subst.
    + auto.
    + apply One. right. now exists d, t.
    + exists (String c w :: m). change (String c (w ++ t)) with (String c w ++ t). apply w_word; [discriminate|simpl; auto|exact Hs|exact Ht].
Qed.
Lemma words_cut : forall text ws, words text ws -> forall t rest m, text = t ++ rest -> words t m -> cut ws m.
Proof.
  intros text ws H. induction H as [|c s l Hc H IH|w s l Hw Hc Hs H IH]; intros t rest m E M.
  - destruct t; [|discriminate]. rewrite (words_fun _ _ _ M w_end). constructor.
  - destruct t as [|d t]; [rewrite (words_fun _ _ _ M w_end); constructor|]. simpl in E. injection E as <- E.
    destruct (words_total t) as [m' M']. rewrite (words_fun _ _ _ M (w_space _ _ _ Hc M')). eapply IH; eauto.
  - destruct (app_split _ _ _ _ E) as [(x & -> & ->)|(x & -> & ->)].
    + destruct (words_total x) as [m' M'].
      assert (Hx : x = "" \/ exists c y, x = String c y /\ space c).
      { destruct x as [|c y]; [auto|]. right. destruct Hs as [Hs|(c' & y' & Hs & K)]; [discriminate|]. injection Hs as -> Hs. now exists c', y. }
      rewrite (words_fun _ _ _ M (w_word _ _ _ Hw Hc Hx M')). apply cut_next. eapply IH; eauto.
    + destruct t as [|k t]; [rewrite (words_fun _ _ _ M w_end); constructor|].
      apply all_chars_app in Hc as [Hc _].
      assert (M' : words (String k t ++ "") [String k t]) by (apply w_word; auto using w_end; discriminate).
      rewrite app_nil in M'. rewrite (words_fun _ _ _ M M'). apply (cut_word (String k t) x l).
Qed.

(** ** The statements of a beginning of a text *)
Definition no_semi : string -> Prop := all_chars (fun c => c <> ";"%char).
Lemma semi_in : forall a b, ~ no_semi (a ++ String ";" b).
Proof. intros a b H. apply all_chars_app in H as [_ [H _]]. now apply H. Qed.
Lemma semi_end : forall z x u, z ++ String ";" x = u ++ ";" -> no_semi u -> z = u /\ x = "".
Proof.
  induction z as [|c z IH]; intros x u H N; destruct u as [|d u]; simpl in H.
  - injection H as ->. auto.
  - injection H as <- _. destruct N as [N _]. now elim N.
  - injection H as _ H. destruct z; discriminate.
  - injection H as <- H. destruct (IH _ _ H (proj2 N)) as [-> ->]. auto.
Qed.
Lemma statement_cut : forall start u a start' w a', Forall no_semi start -> no_semi u -> ends_statement w -> Forall (fun v => ~ ends_statement v) start' ->
  cut ((start ++ [(u ++ ";")%string]) ++ a)%list ((start' ++ [w]) ++ a')%list -> start' = start /\ w = u ++ ";".
Proof.
  induction start as [|v start IH]; intros u a start' w a' F N [z ->] F' C; destruct start' as [|s start']; simpl in C.
  - split; [reflexivity|]. inversion C as [|w x l E|w l m C']; subst.
    + rewrite sapp_assoc in E. change (";" ++ x) with (String ";" x) in E. destruct (semi_end _ _ _ E N) as [A B]. subst. now rewrite app_nil.
    + reflexivity.
  - exfalso. inversion F' as [|k l K]; subst. inversion C as [|w x l E|w l m C']; subst.
    + destruct start'; discriminate.
    + apply K. now exists u.
  - exfalso. inversion F as [|k l K _]; subst. inversion C as [|w x l E|w l m C']; subst.
    + rewrite sapp_assoc in K. now apply (semi_in z x).
    + now apply (semi_in z "").
  - inversion F; inversion F'; subst. inversion C as [|w x l E|w l m C']; subst; [destruct start'; discriminate|].
    destruct (IH u a start' (z ++ ";") a') as [-> E]; auto. now exists z.
Qed.
Lemma cut_middle : forall m1 l x y m2, cut l (m1 ++ x :: y :: m2)%list -> exists l', l = (m1 ++ x :: l')%list /\ cut l' (y :: m2).
Proof.
  induction m1 as [|k m1 IH]; intros l x y m2 C; simpl in C; inversion C as [|w z l' E|w l' m C']; subst.
  - now exists l'.
  - destruct m1; discriminate.
  - destruct (IH _ _ _ _ C') as (l'' & -> & H). now exists l''.
Qed.
Lemma split_first : forall (A : Type) (x : A) a b c d, ~ In x a -> ~ In x c -> (a ++ x :: b = c ++ x :: d)%list -> a = c /\ b = d.
Proof.
  intros A x a; induction a as [|y a IH]; intros b c d Ha Hc H; destruct c as [|z c]; simpl in H.
  - injection H as H. now subst.
  - injection H as H1 H2. subst. exfalso. apply Hc. now left.
  - injection H as H1 H2. subst. exfalso. apply Ha. now left.
  - injection H as H1 H2. subst z. destruct (IH b c d) as [-> ->]; auto; intro K; [apply Ha|apply Hc]; now right.
Qed.
Lemma assigns_cut : forall t rest name start u v', Forall no_semi start -> no_semi u ->
  assigns (t ++ rest) name (start ++ [(u ++ ";")%string])%list -> assigns t name v' -> v' = (start ++ [(u ++ ";")%string])%list.
Proof.
  intros t rest name start u v' F N (b & a & W & Hb & _ & _) (b' & a' & W' & Hb' & _ & s' & w & -> & E & F').
  pose proof (words_cut _ _ W t rest _ eq_refl W') as C. apply cut_middle in C as (l' & El & C).
  apply split_first in El as [_ <-]; auto.
  assert (C' : cut ((start ++ [(u ++ ";")%string]) ++ a)%list ((s' ++ [w]) ++ a')%list).
  { inversion C as [|k x l H|k l m H]; subst; [destruct s'; discriminate|exact H]. }
  now destruct (statement_cut _ _ _ _ _ _ F N E F' C') as [-> ->].
Qed.

Section PARSE.
Context (pyfloat : string -> option num).
Lemma number_no_semi : forall s, number_text s -> no_semi s.
Proof. intros s [_ H]. eapply all_chars_impl; [|exact H]. intros c Hc ->. unfold number_char in Hc. simpl in Hc. repeat (destruct Hc as [Hc|Hc]; [discriminate|]). exact Hc. Qed.
Lemma commas_no_semi : forall ss l, Forall2 (is_text_of pyfloat) ss l -> Forall no_semi (with_commas ss).
Proof.
  intros ss l H. induction H as [|s x ss l [Hs _] H IH]; [constructor|]. apply number_no_semi in Hs.
  destruct ss as [|s' ss]; [now repeat constructor|].
  change (with_commas (s :: s' :: ss)) with ((s ++ ",") :: with_commas (s' :: ss)). constructor; [|exact IH].
  apply all_chars_app. split; [exact Hs|]. split; [discriminate|exact I].
Qed.
Lemma number_cut : forall t rest name x y, assigns_number pyfloat (t ++ rest) name x -> assigns_number pyfloat t name y -> x = y.
Proof.
  intros t rest name x y (s & A & N & P) (s' & B & _ & Q).
  pose proof (assigns_cut t rest name [] s _ (Forall_nil _) (number_no_semi _ N) A B) as H. injection H as H. apply app_last_inj in H. congruence.
Qed.
Lemma numbers_cut : forall t rest name x y, assigns_numbers pyfloat (t ++ rest) name x -> assigns_numbers pyfloat t name y -> x = y.
Proof.
  intros t rest name x y (ss & A & P) (ss' & B & Q).
  assert (H : ("(" :: with_commas ss' ++ [");"])%list = (("(" :: with_commas ss) ++ [(")" ++ ";")%string])%list).
  { apply (assigns_cut t rest name).
    - constructor; [simpl; split; [discriminate|exact I]|]. eapply commas_no_semi; eauto.
    - simpl. split; [discriminate|exact I].
    - exact A.
    - exact B. }
  simpl in H. injection H as H. apply app_inj_tail in H as [H _]. apply with_commas_inj in H. subst ss'. clear A B. revert y Q.
  induction P as [|a b l m [_ Ha] P IH]; intros y Q; inversion Q as [|a' b' l' m' [_ Hb] Q']; subst; [reflexivity|]. f_equal; [congruence|auto].
Qed.
Lemma describes_cut : forall t rest r r', describes_rpb pyfloat (t ++ rest) r -> describes_rpb pyfloat t r' -> r = r'.
Proof.
  intros t rest r r' (A1 & A2 & A3 & A4 & A5 & A6 & A7 & A8 & A9 & A10 & A11 & A12 & A13 & A14) (B1 & B2 & B3 & B4 & B5 & B6 & B7 & B8 & B9 & B10 & B11 & B12 & B13 & B14).
  pose proof (number_cut _ _ _ _ _ A1 B1) as E1. pose proof (number_cut _ _ _ _ _ A2 B2) as E2. pose proof (number_cut _ _ _ _ _ A3 B3) as E3.
  pose proof (number_cut _ _ _ _ _ A4 B4) as E4. pose proof (number_cut _ _ _ _ _ A5 B5) as E5. pose proof (number_cut _ _ _ _ _ A6 B6) as E6.
  pose proof (number_cut _ _ _ _ _ A7 B7) as E7. pose proof (number_cut _ _ _ _ _ A8 B8) as E8. pose proof (number_cut _ _ _ _ _ A9 B9) as E9.
  pose proof (number_cut _ _ _ _ _ A10 B10) as E10. pose proof (numbers_cut _ _ _ _ _ A11 B11) as E11. pose proof (numbers_cut _ _ _ _ _ A12 B12) as E12.
  pose proof (numbers_cut _ _ _ _ _ A13 B13) as E13. pose proof (numbers_cut _ _ _ _ _ A14 B14) as E14.
  clear - E1 E2 E3 E4 E5 E6 E7 E8 E9 E10 E11 E12 E13 E14. destruct r, r'. simpl in *. subst. reflexivity.
Qed.
End PARSE.

(** ** JSON *)
Definition no_brace : string -> Prop := all_chars (fun c => c <> "}"%char).
Lemma no_brace_cat : forall a b, no_brace a -> no_brace b -> no_brace (a ++ b).
Proof. intros. now apply all_chars_app. Qed.
Section JSON.
Context (repr : num -> string).
Lemma items_no_brace : forall l, (forall x, In x l -> no_brace (repr x)) -> no_brace (json_items repr l).
Proof.
  assert (P : no_brace (newline ++ indent ++ indent)) by (simpl; repeat split; discriminate).
  induction l as [|c [|d l] IH]; intro H; [exact I| |].
  - cbn [json_items]. rewrite <- !sapp_assoc. apply no_brace_cat; [rewrite sapp_assoc; exact P|apply H; now left].
  - change (json_items repr (c :: d :: l)) with (newline ++ indent ++ indent ++ repr c ++ "," ++ json_items repr (d :: l)).
    assert (Q : no_brace (json_items repr (d :: l))) by (apply IH; intros x Hx; apply H; now right).
    assert (C : no_brace (repr c)) by (apply H; now left).
    replace (newline ++ indent ++ indent ++ repr c ++ "," ++ json_items repr (d :: l)) with ((newline ++ indent ++ indent) ++ repr c ++ "," ++ json_items repr (d :: l))
      by now rewrite !sapp_assoc.
    apply no_brace_cat; [exact P|]. apply no_brace_cat; [exact C|]. apply no_brace_cat; [simpl; split; [discriminate|exact I]|exact Q].
Qed.
Lemma brace_end : forall t rest u, t ++ rest = u ++ "}" -> no_brace u -> no_brace t \/ (t = u ++ "}" /\ rest = "").
Proof.
  induction t as [|c t IH]; intros rest u H N; [left; exact I|]. destruct u as [|d u]; simpl in H; injection H as -> H.
  - right. destruct t; [simpl in H; now subst|discriminate].
  - destruct N as [Nd N]. destruct (IH _ _ H N) as [K|[-> ->]]; [left; split; assumption|right; split; reflexivity].
Qed.
Definition value_numbers (v : json) : list num := match v with JNum x => [x] | JList l => l end.
Lemma members_no_brace : forall l, (forall k v, In (k, v) l -> no_brace k) -> (forall k v x, In (k, v) l -> In x (value_numbers v) -> no_brace (repr x)) ->
  no_brace (json_members repr l).
Proof.
  intros l.
  assert (M : forall f, no_brace (fst f) -> (forall x, In x (value_numbers (snd f)) -> no_brace (repr x)) -> no_brace (json_member repr f)).
  { intros [k v] Hk Hv. unfold json_member. cbn [fst snd] in *.
    repeat (apply no_brace_cat; [first [exact Hk | simpl; repeat split; discriminate]|]).
    destruct v as [x|[|y l']]; cbn [json_value].
    - apply Hv. now left.
    - simpl; repeat split; discriminate.
    - apply no_brace_cat; [simpl; repeat split; discriminate|]. apply no_brace_cat; [now apply items_no_brace|]. simpl; repeat split; discriminate. }
  induction l as [|f [|g l] IH]; intros K V; [exact I| |].
  - cbn [json_members]. destruct f as [k v]. apply M; [eapply K; now left|intros x Hx; eapply V; [now left|exact Hx]].
  - change (json_members repr (f :: g :: l)) with (json_member repr f ++ "," ++ json_members repr (g :: l)).
    apply no_brace_cat.
    + destruct f as [k v]. apply M; [eapply K; now left|intros x Hx; eapply V; [now left|exact Hx]].
    + apply no_brace_cat; [simpl; split; [discriminate|exact I]|]. apply IH; intros; [eapply K; right; eauto|eapply V; [right; eauto|auto]].
Qed.
End JSON.
