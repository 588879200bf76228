(** Proofs about the RPC writer. *)
From Coq Require Import Reals List Bool Arith Ascii String Lia Lra.
From Verif Require Import Num NumLemmas PyStrModel ReadersModel ReadersSpec ReadersProofs WritersModel WritersSpec.
Import ListNotations.
Open Scope string_scope.

Lemma sapp_assoc : forall a b c : string, (a ++ b) ++ c = a ++ (b ++ c).
Proof. induction a as [|x a IH]; intros b c; [reflexivity|]. change (String x ((a ++ b) ++ c) = String x (a ++ (b ++ c))). now rewrite IH. Qed.
Lemma all_chars_app : forall P a b, all_chars P (a ++ b) <-> all_chars P a /\ all_chars P b.
Proof.
  intros P a b; induction a as [|x a IH]; [simpl; tauto|].
  change (P x /\ all_chars P (a ++ b) <-> (P x /\ all_chars P a) /\ all_chars P b). tauto.
Qed.
Lemma all_chars_impl : forall (P Q : ascii -> Prop) s, (forall c, P c -> Q c) -> all_chars P s -> all_chars Q s.
Proof. intros P Q s H; induction s as [|c s IH]; simpl; [trivial|]. intros [A B]; split; auto. Qed.
Lemma app_last_inj : forall a b c, a ++ String c "" = b ++ String c "" -> a = b.
Proof.
  intros a b c H. apply (f_equal (fun s => rev_string s "")) in H. rewrite !rev_string_app in H. simpl in H.
  injection H as H. rewrite <- (rev_rev a), <- (rev_rev b). now rewrite H.
Qed.

(** ** Words *)
(** [s] is a line: followed by anything, its words come first. *)
Definition line_words (s : string) (l : list string) : Prop := forall t m, words t m -> words (s ++ t) (l ++ m)%list.
Lemma line_nil : line_words "" [].
Proof. intros t m H; exact H. Qed.
Lemma line_space : forall c s l, is_space c = true -> line_words s l -> line_words (String c s) l.
Proof. intros c s l Hc Hs t m Ht. change (words (String c (s ++ t)) (l ++ m)%list). apply w_space; [now apply is_space_iff|]. now apply Hs. Qed.
Lemma line_word : forall w c s l, w <> "" -> all_chars (fun c => ~ space c) w -> is_space c = true -> line_words s l ->
  line_words (w ++ String c s) (w :: l).
Proof.
  intros w c s l Hw Hc Hsp Hs t m Ht. rewrite sapp_assoc. change (words (w ++ String c (s ++ t)) (w :: (l ++ m))%list).
  apply is_space_iff in Hsp. apply w_word; auto; [right; now exists c, (s ++ t)|]. apply w_space; [exact Hsp|]. now apply Hs.
Qed.
Lemma line_app : forall a b l m, line_words a l -> line_words b m -> line_words (a ++ b) (l ++ m)%list.
Proof. intros a b l m Ha Hb t k Ht. rewrite sapp_assoc, <- app_assoc. apply Ha. now apply Hb. Qed.
Lemma line_all : forall s l, line_words s l -> words s l.
Proof. intros s l H. rewrite <- (app_empty s), <- (app_nil_r l). apply H. constructor. Qed.

(** Decision for literal words. *)
Fixpoint no_space (s : string) : bool := match s with EmptyString => true | String c s => negb (is_space c) && no_space s end.
Lemma no_space_ok : forall s, no_space s = true -> all_chars (fun c => ~ space c) s.
Proof. induction s as [|c s IH]; simpl; [trivial|]. intros H. apply andb_prop in H as [A B]. split; [|auto]. intro K. apply is_space_iff in K. rewrite K in A. discriminate. Qed.

Lemma number_char_no_space : forall c, number_char c -> ~ space c.
Proof. intros c H K. unfold number_char in H. simpl in H. apply is_space_iff in K. repeat (destruct H as [<-|H]; [discriminate K|]). exact H. Qed.
Lemma number_text_ok : forall s t, number_text s -> no_space t = true -> s ++ t <> "" /\ all_chars (fun c => ~ space c) (s ++ t).
Proof.
  intros s t [Hn Hc] Ht. split; [destruct s; [congruence|discriminate]|]. apply all_chars_app. split; [|now apply no_space_ok].
  eapply all_chars_impl; [|exact Hc]. exact number_char_no_space.
Qed.

(** Word lists determine the value that a name is given. *)
Lemma words_fun : forall s l m, words s l -> words s m -> l = m.
Proof. intros s l m A B. apply words_ok in A, B. congruence. Qed.
Lemma split_unique : forall (A : Type) (x : A) a b c d, ~ In x a -> ~ In x b -> ~ In x c -> ~ In x d -> (a ++ x :: b = c ++ x :: d)%list -> a = c /\ b = d.
Proof.
  intros A x a; induction a as [|y a IH]; intros b c d Ha Hb Hc Hd H; destruct c as [|z c]; simpl in H.
  - injection H as H. now subst.
  - injection H as H1 H2. subst. exfalso. apply Hc. now left.
  - injection H as H1 H2. subst. exfalso. apply Ha. now left.
  - injection H as H1 H2. subst z. destruct (IH b c d) as [-> ->]; auto; intro K; [apply Ha|apply Hc]; now right.
Qed.
Lemma statement_unique : forall s1 w1 r1 s2 w2 r2,
  ends_statement w1 -> Forall (fun v => ~ ends_statement v) s1 -> ends_statement w2 -> Forall (fun v => ~ ends_statement v) s2 ->
  ((s1 ++ [w1]) ++ r1 = (s2 ++ [w2]) ++ r2)%list -> s1 = s2 /\ w1 = w2.
Proof.
  induction s1 as [|v s1 IH]; intros w1 r1 s2 w2 r2 E1 F1 E2 F2 H; destruct s2 as [|u s2]; simpl in H.
  - injection H as -> _. auto.
  - injection H as -> _. inversion F2; subst. contradiction.
  - injection H as -> _. inversion F1; subst. contradiction.
  - injection H as -> H. inversion F1; inversion F2; subst. destruct (IH _ _ _ _ _ E1 H3 E2 H7 H) as [-> ->]. auto.
Qed.
Lemma assigns_fun : forall text name u v, name <> "=" -> assigns text name u -> assigns text name v -> u = v.
Proof.
  intros text name u v Hn (b1 & a1 & W1 & N1 & M1 & s1 & w1 & -> & E1 & F1) (b2 & a2 & W2 & N2 & M2 & s2 & w2 & -> & E2 & F2).
  pose proof (words_fun _ _ _ W1 W2) as H. apply split_unique in H as [_ H]; auto; try (intros [K|K]; [now apply Hn|contradiction]).
  injection H as H. destruct (statement_unique _ _ _ _ _ _ E1 F1 E2 F2 H) as [-> ->]. reflexivity.
Qed.
Lemma with_commas_inj : forall l m, with_commas l = with_commas m -> l = m.
Proof.
  induction l as [|a l IH]; intros m H.
  - destruct m as [|b [|c m]]; [reflexivity|discriminate|discriminate].
  - destruct m as [|b m]; [destruct l; discriminate|].
    destruct l as [|a' l], m as [|b' m]; try (destruct l; discriminate); try (destruct m; discriminate).
    + now injection H as ->.
    + change (((a ++ ",") :: with_commas (a' :: l)) = ((b ++ ",") :: with_commas (b' :: m))) in H. injection H as H1 H2.
      apply app_last_inj in H1. subst b. f_equal. apply IH. exact H2.
Qed.
Section FUN.
Context (pyfloat : string -> option num).
Lemma assigns_number_fun : forall text name x y, name <> "=" -> assigns_number pyfloat text name x -> assigns_number pyfloat text name y -> x = y.
Proof.
  intros text name x y Hn (s & A & _ & P) (t & B & _ & Q). pose proof (assigns_fun _ _ _ _ Hn A B) as H. injection H as H.
  apply app_last_inj in H. congruence.
Qed.
Lemma assigns_numbers_fun : forall text name x y, name <> "=" -> assigns_numbers pyfloat text name x -> assigns_numbers pyfloat text name y -> x = y.
Proof.
  intros text name x y Hn (s & A & P) (t & B & Q). pose proof (assigns_fun _ _ _ _ Hn A B) as H. injection H as H.
  apply app_inj_tail in H as [H _]. apply with_commas_inj in H. subst t. clear A B. revert y Q.
  induction P as [|a b l m [_ Ha] P IH]; intros y Q; inversion Q as [|a' b' l' m' [_ Hb] Q']; subst; [reflexivity|]. f_equal; [congruence|auto].
Qed.
Lemma describes_rpb_fun : forall text r1 r2, describes_rpb pyfloat text r1 -> describes_rpb pyfloat text r2 -> r1 = r2.
Proof.
  intros text r1 r2 (A1 & A2 & A3 & A4 & A5 & A6 & A7 & A8 & A9 & A10 & A11 & A12 & A13 & A14) (B1 & B2 & B3 & B4 & B5 & B6 & B7 & B8 & B9 & B10 & B11 & B12 & B13 & B14).
  pose proof (fun N => assigns_number_fun text "lineOffset" _ _ N A1 B1) as E1. specialize (E1 ltac:(discriminate)).
  pose proof (fun N => assigns_number_fun text "sampOffset" _ _ N A2 B2) as E2. specialize (E2 ltac:(discriminate)).
  pose proof (fun N => assigns_number_fun text "latOffset" _ _ N A3 B3) as E3. specialize (E3 ltac:(discriminate)).
  pose proof (fun N => assigns_number_fun text "longOffset" _ _ N A4 B4) as E4. specialize (E4 ltac:(discriminate)).
  pose proof (fun N => assigns_number_fun text "heightOffset" _ _ N A5 B5) as E5. specialize (E5 ltac:(discriminate)).
  pose proof (fun N => assigns_number_fun text "lineScale" _ _ N A6 B6) as E6. specialize (E6 ltac:(discriminate)).
  pose proof (fun N => assigns_number_fun text "sampScale" _ _ N A7 B7) as E7. specialize (E7 ltac:(discriminate)).
  pose proof (fun N => assigns_number_fun text "latScale" _ _ N A8 B8) as E8. specialize (E8 ltac:(discriminate)).
  pose proof (fun N => assigns_number_fun text "longScale" _ _ N A9 B9) as E9. specialize (E9 ltac:(discriminate)).
  pose proof (fun N => assigns_number_fun text "heightScale" _ _ N A10 B10) as E10. specialize (E10 ltac:(discriminate)).
  pose proof (fun N => assigns_numbers_fun text "lineNumCoef" _ _ N A11 B11) as E11. specialize (E11 ltac:(discriminate)).
  pose proof (fun N => assigns_numbers_fun text "lineDenCoef" _ _ N A12 B12) as E12. specialize (E12 ltac:(discriminate)).
  pose proof (fun N => assigns_numbers_fun text "sampNumCoef" _ _ N A13 B13) as E13. specialize (E13 ltac:(discriminate)).
  pose proof (fun N => assigns_numbers_fun text "sampDenCoef" _ _ N A14 B14) as E14. specialize (E14 ltac:(discriminate)).
  clear - E1 E2 E3 E4 E5 E6 E7 E8 E9 E10 E11 E12 E13 E14. destruct r1, r2. simpl in *. subst. reflexivity.
Qed.
End FUN.

(** ** The text *)
Section TEXT.
Context (pyfloat : string -> option num) (repr : num -> string).
Lemma scalar_line : forall name x, name <> "" -> no_space name = true -> number_text (repr x) ->
  line_words (write_scalar repr name x) [name; "="; repr x ++ ";"].
Proof.
  intros name x Hn Hs Hx. unfold write_scalar. apply line_space; [reflexivity|].
  change (line_words (name ++ String " " ("=" ++ String " " (repr x ++ ";" ++ newline))) [name; "="; repr x ++ ";"]).
  apply line_word; auto; [now apply no_space_ok|]. apply line_word; [discriminate|now apply no_space_ok|reflexivity|].
  rewrite <- sapp_assoc. destruct (number_text_ok (repr x) ";" Hx eq_refl). apply line_word; auto. apply line_nil.
Qed.
Lemma coeff_line : forall l, (forall x, In x l -> number_text (repr x)) -> line_words (coeff_lines repr l) (with_commas (map repr l)).
Proof.
  induction l as [|a l IH]; intros H; [apply line_nil|].
  assert (Ha : number_text (repr a)) by (apply H; now left).
  destruct l as [|b l].
  - change (line_words (String "009" (String "009" (repr a ++ String "010" ""))) [repr a]).
    do 2 (apply line_space; [reflexivity|]). destruct (number_text_ok (repr a) "" Ha eq_refl) as [P Q]. rewrite app_empty in P, Q. apply line_word; auto. apply line_nil.
  - change (line_words (String "009" (String "009" (repr a ++ "," ++ String "010" (coeff_lines repr (b :: l))))) ((repr a ++ ",") :: with_commas (map repr (b :: l)))).
    do 2 (apply line_space; [reflexivity|]). rewrite <- sapp_assoc. destruct (number_text_ok (repr a) "," Ha eq_refl).
    apply line_word; auto. apply IH. intros x Hx. apply H. now right.
Qed.
Lemma coeff_block : forall name l, name <> "" -> no_space name = true -> (forall x, In x l -> number_text (repr x)) ->
  line_words (write_coeff repr name l) (name :: "=" :: "(" :: with_commas (map repr l) ++ [");"])%list.
Proof.
  intros name l Hn Hs Hl. unfold write_coeff. apply line_space; [reflexivity|].
  change (line_words (name ++ String " " ("=" ++ String " " ("(" ++ String "010" (coeff_lines repr l ++ String "009" (");" ++ String "010" "")))))
    (name :: "=" :: "(" :: with_commas (map repr l) ++ [");"])%list).
  apply line_word; auto; [now apply no_space_ok|]. do 2 (apply line_word; [discriminate|now apply no_space_ok|reflexivity|]).
  apply line_app; [now apply coeff_line|]. apply line_space; [reflexivity|]. apply line_word; [discriminate|now apply no_space_ok|reflexivity|]. apply line_nil.
Qed.

(** The statements of the file, as lists of words. *)
Definition scalar_words (name : string) (x : num) : list string := [name; "="; repr x ++ ";"].
Definition coeff_words (name : string) (l : list num) : list string := (name :: "=" :: "(" :: with_commas (map repr l) ++ [");"])%list.
Definition head_words : list string :=
  ["satId"; "="; "'UNKNOWN';"; "bandId"; "="; "'P';"; "SpecId"; "="; quote ++ "RPC00B" ++ quote ++ ";"; "BEGIN_GROUP"; "="; "IMAGE";
   "errBias"; "="; "-1;"; "errRand"; "="; "-1;"].
Definition blocks (r : rio_rpc) : list (list string) :=
  [head_words; scalar_words "lineOffset" (line_off r); scalar_words "sampOffset" (samp_off r); scalar_words "latOffset" (lat_off r);
   scalar_words "longOffset" (long_off r); scalar_words "heightOffset" (height_off r); scalar_words "lineScale" (line_scale r);
   scalar_words "sampScale" (samp_scale r); scalar_words "latScale" (lat_scale r); scalar_words "longScale" (long_scale r);
   scalar_words "heightScale" (height_scale r); coeff_words "lineNumCoef" (line_num_coeff r); coeff_words "lineDenCoef" (line_den_coeff r);
   coeff_words "sampNumCoef" (samp_num_coeff r); coeff_words "sampDenCoef" (samp_den_coeff r); ["END_GROUP"; "="; "IMAGE"; "END;"]].
Definition rio_numbers (r : rio_rpc) : list num :=
  ([line_off r; samp_off r; lat_off r; long_off r; height_off r; line_scale r; samp_scale r; lat_scale r; long_scale r; height_scale r]
   ++ line_num_coeff r ++ line_den_coeff r ++ samp_num_coeff r ++ samp_den_coeff r)%list.

Lemma text_words : forall r, (forall x, In x (rio_numbers r) -> number_text (repr x)) -> words (rpb_text repr r) (List.concat (blocks r)).
Proof.
  intros r H. apply line_all. unfold rpb_text, blocks.
  assert (Hs : forall x, In x [line_off r; samp_off r; lat_off r; long_off r; height_off r; line_scale r; samp_scale r; lat_scale r; long_scale r; height_scale r] -> number_text (repr x))
    by (intros x Hx; apply H; unfold rio_numbers; apply in_or_app; now left).
  assert (Hc : forall x, In x (line_num_coeff r) \/ In x (line_den_coeff r) \/ In x (samp_num_coeff r) \/ In x (samp_den_coeff r) -> number_text (repr x))
    by (intros x Hx; apply H; unfold rio_numbers; rewrite !in_app_iff; tauto).
  match goal with |- line_words ?s (List.concat (head_words :: ?l)) =>
    match s with context [write_scalar repr "lineOffset" (line_off r) ++ ?rest] =>
      set (tl := write_scalar repr "lineOffset" (line_off r) ++ rest);
      change (line_words (
        ("satId" ++ String " " ("=" ++ String " " (String " " ("'UNKNOWN';" ++ String "010" ("bandId" ++ String " " ("=" ++ String " " ("'P';" ++ String "010" (
        "SpecId" ++ String " " ("=" ++ String " " ((quote ++ "RPC00B" ++ quote ++ ";") ++ String "010" ("BEGIN_GROUP" ++ String " " ("=" ++ String " " ("IMAGE" ++ String "010" (String "009" (
        "errBias" ++ String " " ("=" ++ String " " ("-1;" ++ String "010" (String "009" ("errRand" ++ String " " ("=" ++ String " " ("-1;" ++ String "010" ""))))))))))))))))))))) ++ tl)
        (head_words ++ List.concat l)%list)
    end end.
  apply line_app.
  { unfold head_words. repeat first [ apply line_nil | apply line_space; [reflexivity|] | apply line_word; [discriminate|now apply no_space_ok|reflexivity|] ]. }
  unfold tl; clear tl.
  do 10 (match goal with |- line_words _ (List.concat (?b :: ?l)) => change (List.concat (b :: l)) with (b ++ List.concat l)%list end;
         apply line_app; [apply scalar_line; [discriminate|reflexivity|apply Hs; simpl; tauto]|]).
  do 4 (match goal with |- line_words _ (List.concat (?b :: ?l)) => change (List.concat (b :: l)) with (b ++ List.concat l)%list end;
        apply line_app; [apply coeff_block; [discriminate|reflexivity|intros x Hx; apply Hc; tauto]|]).
  change (line_words ("END_GROUP" ++ String " " ("=" ++ String " " ("IMAGE" ++ String "010" ("END;" ++ String "010" "")))) ["END_GROUP"; "="; "IMAGE"; "END;"]).
  repeat (apply line_word; [discriminate|now apply no_space_ok|reflexivity|]). apply line_nil.
Qed.

(** A name of the file is none of the words that hold values. *)
Definition plain (name : string) : Prop :=
  (exists c t, name = String c t /\ ~ number_char c) /\ ~ ends_statement name /\ (forall a, name <> a ++ ",") /\ name <> "=" /\ name <> "(".
Lemma not_in_scalar : forall name m x, plain name -> m <> name -> ~ In name (scalar_words m x).
Proof.
  intros name m x (_ & Hs & _ & He & _) Hm [H|[H|[H|[]]]]; [congruence|congruence|]. apply Hs. now exists (repr x).
Qed.
Lemma not_in_commas : forall name l, plain name -> (forall x, In x l -> number_text (repr x)) -> ~ In name (with_commas (map repr l)).
Proof.
  intros name l [[c [t [En Hc]]] [_ [Hk [_ _]]]]; induction l as [|a l IH]; intros Hl H; [exact H|].
  assert (Ha : repr a <> name).
  { intro E. destruct (Hl a (or_introl eq_refl)) as [_ K]. rewrite E, En in K. destruct K as [K _]. contradiction. }
  destruct l as [|b l].
  - destruct H as [H|[]]. contradiction.
  - change (In name ((repr a ++ ",") :: with_commas (map repr (b :: l)))) in H. destruct H as [H|H]; [exact (Hk _ (eq_sym H))|].
    apply IH; auto. intros x Hx. apply Hl. now right.
Qed.
Lemma not_in_value : forall name l, plain name -> (forall x, In x l -> number_text (repr x)) -> ~ In name ("(" :: with_commas (map repr l) ++ [");"])%list.
Proof.
  intros name l Hp Hl [H|H]; [apply Hp; auto|]. apply in_app_or in H as [H|[H|[]]].
  - exact (not_in_commas _ _ Hp Hl H).
  - destruct Hp as (_ & Hs & _). apply Hs. now exists ")".
Qed.
Lemma not_in_coeff : forall name m l, plain name -> m <> name -> (forall x, In x l -> number_text (repr x)) -> ~ In name (coeff_words m l).
Proof.
  intros name m l Hp Hm Hl [H|[H|H]]; [congruence|destruct Hp as (_ & _ & _ & He & _); congruence|]. exact (not_in_value _ _ Hp Hl H).
Qed.
Lemma not_in_concat : forall (name : string) bs, Forall (fun b => ~ In name b) bs -> ~ In name (List.concat bs).
Proof. intros name bs H K. apply in_concat in K as (b & Hb & K). rewrite Forall_forall in H. exact (H b Hb K). Qed.
Lemma assigns_block : forall text A name value C, words text (List.concat (A ++ (name :: "=" :: value) :: C)%list) ->
  name <> "=" -> Forall (fun b => ~ In name b) A -> ~ In name value -> Forall (fun b => ~ In name b) C ->
  (exists start w, value = (start ++ [w])%list /\ ends_statement w /\ Forall (fun v => ~ ends_statement v) start) -> assigns text name value.
Proof.
  intros text A name value C W Hn HA Hv HC Hw. exists (List.concat A), (List.concat C). split; [|split; [now apply not_in_concat|split; [|exact Hw]]].
  - rewrite concat_app in W. exact W.
  - intro K. apply in_app_or in K as [K|K]; [contradiction|]. exact (not_in_concat _ _ HC K).
Qed.
Lemma number_no_statement : forall s, number_text s -> ~ ends_statement s.
Proof.
  intros s [_ H] [a ->]. apply all_chars_app in H as [_ [H _]]. unfold number_char in H. simpl in H.
  repeat (destruct H as [H|H]; [discriminate H|]). exact H.
Qed.
Lemma comma_no_statement : forall s, ~ ends_statement (s ++ ",").
Proof.
  intros s [a H]. apply (f_equal (fun s => rev_string s "")) in H. rewrite !rev_string_app in H. simpl in H. discriminate H.
Qed.
Lemma scalar_closes : forall x, exists start w, [repr x ++ ";"] = (start ++ [w])%list /\ ends_statement w /\ Forall (fun v => ~ ends_statement v) start.
Proof. intro x. exists [], (repr x ++ ";"). split; [reflexivity|split; [now exists (repr x)|constructor]]. Qed.
Lemma coeff_closes : forall l, (forall x, In x l -> number_text (repr x)) ->
  exists start w, ("(" :: with_commas (map repr l) ++ [");"])%list = (start ++ [w])%list /\ ends_statement w /\ Forall (fun v => ~ ends_statement v) start.
Proof.
  intros l Hl. exists ("(" :: with_commas (map repr l))%list, ");". split; [reflexivity|split; [now exists ")"|]]. constructor.
  - intros [a H]. destruct a as [|c [|d a]]; discriminate H.
  - induction l as [|a l IH]; [constructor|]. assert (Ha := Hl a (or_introl eq_refl)). destruct l as [|b l].
    + constructor; [now apply number_no_statement|constructor].
    + change (Forall (fun v => ~ ends_statement v) ((repr a ++ ",") :: with_commas (map repr (b :: l)))). constructor; [apply comma_no_statement|].
      apply IH. intros x Hx. apply Hl. now right.
Qed.

Lemma plain_intro : forall c t, existsb (Ascii.eqb c) (list_ascii_of_string "0123456789+-.enaif=(") = false ->
  match rev_string (String c t) "" with String d _ => negb (Ascii.eqb d ";") && negb (Ascii.eqb d ",") | _ => false end = true -> plain (String c t).
Proof.
  intros c t Hc Hl. assert (Hn : forall d, In d (list_ascii_of_string "0123456789+-.enaif=(") -> c <> d).
  { intros d Hd E. subst d. assert (K : existsb (Ascii.eqb c) (list_ascii_of_string "0123456789+-.enaif=(") = true)
      by (apply existsb_exists; exists c; split; [exact Hd|apply Ascii.eqb_refl]). congruence. }
  assert (Last : forall a d, String c t = a ++ String d "" -> match rev_string (String c t) "" with String e _ => e = d | _ => False end).
  { intros a d E. rewrite E, rev_string_app. reflexivity. }
  split; [exists c, t; split; [reflexivity|]; intro K; apply (Hn c); [|reflexivity]; unfold number_char in K; simpl in K |- *; tauto|].
  repeat split.
  - intros [a E]. specialize (Last _ _ E). destruct (rev_string (String c t) "") as [|e u]; [exact Last|]. subst e. discriminate Hl.
  - intros a E. specialize (Last _ _ E). destruct (rev_string (String c t) "") as [|e u]; [exact Last|]. subst e. discriminate Hl.
  - intro E. injection E as -> _. apply (Hn "="%char); [simpl; tauto|reflexivity].
  - intro E. injection E as -> _. apply (Hn "("%char); [simpl; tauto|reflexivity].
Qed.

Ltac frame := unfold blocks; cbn [firstn skipn];
  repeat (apply Forall_cons; [first [ apply not_in_scalar; [now apply plain_intro|discriminate] | apply not_in_coeff; [now apply plain_intro|discriminate|assumption]
    | let K := fresh in intro K; repeat (destruct K as [K|K]; [discriminate K|]); exact K ]|]); apply Forall_nil.
Ltac scalar S Hs k := apply (S k); [reflexivity|now apply plain_intro|frame|frame|apply Hs; simpl; tauto].
Ltac coeff C H k := apply (C k); [reflexivity|now apply plain_intro|frame|frame|exact H].
Lemma rpb_describes : forall r, (forall x, In x (rio_numbers r) -> is_text_of pyfloat (repr x) x) -> describes_rpb pyfloat (rpb_text repr r) r.
Proof.
  intros r H.
  assert (W : words (rpb_text repr r) (List.concat (blocks r))) by (apply text_words; intros x Hx; exact (proj1 (H x Hx))).
  assert (Hs : forall x, In x [line_off r; samp_off r; lat_off r; long_off r; height_off r; line_scale r; samp_scale r; lat_scale r; long_scale r; height_scale r] -> is_text_of pyfloat (repr x) x)
    by (intros x Hx; apply H; unfold rio_numbers; apply in_or_app; now left).
  assert (H1 : forall x, In x (line_num_coeff r) -> is_text_of pyfloat (repr x) x) by (intros x Hx; apply H; unfold rio_numbers; rewrite !in_app_iff; tauto).
  assert (H2 : forall x, In x (line_den_coeff r) -> is_text_of pyfloat (repr x) x) by (intros x Hx; apply H; unfold rio_numbers; rewrite !in_app_iff; tauto).
  assert (H3 : forall x, In x (samp_num_coeff r) -> is_text_of pyfloat (repr x) x) by (intros x Hx; apply H; unfold rio_numbers; rewrite !in_app_iff; tauto).
  assert (H4 : forall x, In x (samp_den_coeff r) -> is_text_of pyfloat (repr x) x) by (intros x Hx; apply H; unfold rio_numbers; rewrite !in_app_iff; tauto).
  clear H.
  assert (N1 : forall x, In x (line_num_coeff r) -> number_text (repr x)) by (intros x Hx; exact (proj1 (H1 x Hx))).
  assert (N2 : forall x, In x (line_den_coeff r) -> number_text (repr x)) by (intros x Hx; exact (proj1 (H2 x Hx))).
  assert (N3 : forall x, In x (samp_num_coeff r) -> number_text (repr x)) by (intros x Hx; exact (proj1 (H3 x Hx))).
  assert (N4 : forall x, In x (samp_den_coeff r) -> number_text (repr x)) by (intros x Hx; exact (proj1 (H4 x Hx))).
  set (text := rpb_text repr r) in *. clearbody text.
  assert (S : forall k name x, nth_error (blocks r) k = Some (scalar_words name x) -> plain name ->
    Forall (fun b => ~ In name b) (firstn k (blocks r)) -> Forall (fun b => ~ In name b) (skipn (S k) (blocks r)) ->
    is_text_of pyfloat (repr x) x -> assigns_number pyfloat text name x).
  { intros k name x E Hp HA HC Hx. exists (repr x). split; [|exact Hx]. apply (assigns_block text (firstn k (blocks r)) name [repr x ++ ";"] (skipn (S k) (blocks r))); auto.
    - destruct (nth_error_split _ _ E) as (l1 & l2 & E1 & E2). rewrite E1 in W |- *. rewrite <- E2. rewrite firstn_app, firstn_all, Nat.sub_diag.
      replace (skipn (S (List.length l1)) (l1 ++ scalar_words name x :: l2)%list) with l2; [simpl firstn; rewrite app_nil_r; exact W|].
      clear. induction l1; [reflexivity|assumption].
    - apply Hp.
    - intros [K|[]]. destruct Hp as (_ & Hst & _). apply Hst. now exists (repr x).
    - apply scalar_closes. }
  assert (C : forall k name l, nth_error (blocks r) k = Some (coeff_words name l) -> plain name ->
    Forall (fun b => ~ In name b) (firstn k (blocks r)) -> Forall (fun b => ~ In name b) (skipn (Datatypes.S k) (blocks r)) ->
    (forall x, In x l -> is_text_of pyfloat (repr x) x) -> assigns_numbers pyfloat text name l).
  { intros k name l E Hp HA HC Hx. exists (map repr l). split.
    2:{ clear - Hx. induction l as [|a l IH]; constructor; [apply Hx; now left|]. apply IH. intros x K. apply Hx. now right. }
    assert (Hn : forall x, In x l -> number_text (repr x)) by (intros x K; exact (proj1 (Hx x K))).
    apply (assigns_block text (firstn k (blocks r)) name ("(" :: with_commas (map repr l) ++ [");"])%list (skipn (Datatypes.S k) (blocks r))); auto.
    - destruct (nth_error_split _ _ E) as (l1 & l2 & E1 & E2). rewrite E1 in W |- *. rewrite <- E2. rewrite firstn_app, firstn_all, Nat.sub_diag.
      replace (skipn (Datatypes.S (List.length l1)) (l1 ++ coeff_words name l :: l2)%list) with l2; [simpl firstn; rewrite app_nil_r; exact W|].
      clear. induction l1; [reflexivity|assumption].
    - apply Hp.
    - now apply not_in_value.
    - now apply coeff_closes. }
  unfold describes_rpb.
  split; [scalar S Hs 1%nat|]. split; [scalar S Hs 2%nat|]. split; [scalar S Hs 3%nat|]. split; [scalar S Hs 4%nat|]. split; [scalar S Hs 5%nat|].
  split; [scalar S Hs 6%nat|]. split; [scalar S Hs 7%nat|]. split; [scalar S Hs 8%nat|]. split; [scalar S Hs 9%nat|]. split; [scalar S Hs 10%nat|].
  split; [coeff C H1 11%nat|]. split; [coeff C H2 12%nat|]. split; [coeff C H3 13%nat|]. coeff C H4 14%nat.
Qed.
End TEXT.

(** ** Names *)
Lemma before_dot_app : forall e r, all_chars (fun c => c <> "."%char /\ c <> "/"%char) e -> before_dot (e ++ String "." r) = Some r.
Proof.
  induction e as [|c e IH]; intros r H; [reflexivity|]. destruct H as [[A B] H].
  change (before_dot (String c (e ++ String "." r)) = Some r). simpl.
  destruct (Ascii.eqb_spec c "/"); [contradiction|]. destruct (Ascii.eqb_spec c "."); [contradiction|]. now apply IH.
Qed.
Lemma before_dot_inv : forall s r, before_dot s = Some r -> exists e, s = e ++ String "." r /\ all_chars (fun c => c <> "."%char /\ c <> "/"%char) e.
Proof.
  induction s as [|c s IH]; intros r H; [discriminate|]. simpl in H. destruct (Ascii.eqb_spec c "/"); [discriminate|].
  destruct (Ascii.eqb_spec c "."); [injection H as ->; exists ""; subst; split; [reflexivity|exact I]|].
  destruct (IH _ H) as (e & -> & He). exists (String c e). split; [reflexivity|]. split; auto.
Qed.
Lemma has_name_char_app : forall d c r, all_chars (eq "."%char) d -> c <> "."%char -> c <> "/"%char -> has_name_char (d ++ String c r) = true.
Proof.
  induction d as [|x d IH]; intros c r H A B.
  - simpl. destruct (Ascii.eqb_spec c "/"); [contradiction|]. destruct (Ascii.eqb_spec c "."); [contradiction|reflexivity].
  - destruct H as [<- H]. change (has_name_char (d ++ String c r) = true). now apply IH.
Qed.
Lemma has_name_char_inv : forall r, has_name_char r = true -> exists d c t, r = d ++ String c t /\ all_chars (eq "."%char) d /\ c <> "."%char /\ c <> "/"%char.
Proof.
  induction r as [|x r IH]; intros H; [discriminate|]. simpl in H. destruct (Ascii.eqb_spec x "/"); [discriminate|].
  destruct (Ascii.eqb_spec x ".") as [->|N].
  - destruct (IH H) as (d & c & t & -> & Hd & Hc). exists (String "." d), c, t. split; [reflexivity|]. split; [now split|exact Hc].
  - exists "", x, r. split; [reflexivity|]. split; [exact I|auto].
Qed.
Lemma all_chars_rev : forall P s a, all_chars P s -> all_chars P a -> all_chars P (rev_string s a).
Proof. intros P; induction s as [|c s IH]; intros a H K; [exact K|]. destruct H as [A B]. simpl. apply IH; [exact B|]. now split. Qed.
Lemma rev_snoc : forall s c a, rev_string s (String c a) = rev_string s "" ++ String c a.
Proof.
  assert (G : forall s a b, rev_string s (a ++ b) = rev_string s a ++ b).
  { induction s as [|c s IH]; intros a b; [reflexivity|]. exact (IH (String c a) b). }
  intros s c a. exact (G s "" (String c a)).
Qed.
Lemma splitext_some : forall path root ext, has_extension path root ext -> splitext_root path = root.
Proof.
  intros path root ext (-> & He & a & c & d & -> & A & B & Hd). unfold splitext_root.
  rewrite rev_string_app, rev_string_app. simpl (rev_string "." _). rewrite rev_snoc.
  rewrite before_dot_app by (apply all_chars_rev; [exact He|exact I]).
  replace (has_name_char (rev_string (a ++ String c d) "")) with true; [apply rev_rev|]. symmetry.
  rewrite rev_string_app. simpl. rewrite rev_snoc. apply has_name_char_app; auto. apply all_chars_rev; [exact Hd|exact I].
Qed.
Lemma splitext_none : forall path, (forall root ext, ~ has_extension path root ext) -> splitext_root path = path.
Proof.
  intros path H. unfold splitext_root. destruct (before_dot (rev_string path "")) as [r|] eqn:E; [|reflexivity].
  destruct (has_name_char r) eqn:N; [|reflexivity]. exfalso.
  apply before_dot_inv in E as (e & E & He). apply has_name_char_inv in N as (d & c & t & -> & Hd & A & B).
  apply (H (rev_string (d ++ String c t) "") (rev_string e "")). split; [|split; [apply all_chars_rev; [exact He|exact I]|]].
  - rewrite <- (rev_rev path), E, rev_string_app. change (rev_string (String "." (d ++ String c t)) (rev_string e "")) with (rev_string (d ++ String c t) (String "." (rev_string e ""))). apply rev_snoc.
  - exists (rev_string t ""), c, (rev_string d ""). split; [|split; [exact A|split; [exact B|apply all_chars_rev; [exact Hd|exact I]]]].
    rewrite rev_string_app. change (rev_string (String c t) (rev_string d "")) with (rev_string t (String c (rev_string d ""))). apply rev_snoc.
Qed.
Lemma splitext_beside : forall path name, rpb_beside path name -> splitext_root path ++ ".RPB" = name.
Proof.
  intros path name [(root & ext & H & ->)|[H ->]]; [now rewrite (splitext_some _ _ _ H)|now rewrite (splitext_none _ H)].
Qed.
