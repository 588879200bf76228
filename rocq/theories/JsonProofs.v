(** The text that the writer prints, read by the reader of the specification. *)
From Coq Require Import Ascii String List Bool Arith Lia.
From Verif Require Import Num PyStrModel ReadersModel ReadersSpec ReadersProofs WritersModel WritersProofs WriteCrashModel WriteCrash JsonSpec.
Import ListNotations.
Open Scope string_scope.

(** The value that a field stands for. *)
Definition jvalue_of (v : json) : jvalue := match v with JNum x => VNum x | JList l => VList (map VNum l) end.
Definition object_of (l : list (string * json)) : list (string * jvalue) := map (fun f => (fst f, jvalue_of (snd f))) l.

Lemma next_blank c t : blank c = true -> next (String c t) = next t.
Proof. intros H. unfold next. cbn [skip]. now rewrite H. Qed.
Lemma next_char c t : blank c = false -> next (String c t) = Some (c, t).
Proof. intros H. unfold next. cbn [skip]. now rewrite H. Qed.
Lemma sapp_cons c a b : String c a ++ b = String c (a ++ b).
Proof. reflexivity. Qed.

Section Load.
Context (number : string -> option num) (repr : num -> string).
Notation value := (value number). Notation elements := (elements number). Notation members := (members number).

Lemma value_S n s : value (S n) s =
  match next s with
  | None => None
  | Some (c, t) =>
      if Ascii.eqb c "034" then match quoted t with Some (k, r) => Some (VText k, r) | None => None end
      else if Ascii.eqb c "[" then
        match next t with
        | Some ("]"%char, r) => Some (VList [], r)
        | _ => match elements n t with Some (l, r) => Some (VList l, r) | None => None end
        end
      else if Ascii.eqb c "{" then
        match next t with
        | Some ("}"%char, r) => Some (VObject [], r)
        | _ => match members n t with Some (l, r) => Some (VObject l, r) | None => None end
        end
      else match number (fst (word (String c t))) with Some x => Some (VNum x, snd (word (String c t))) | None => None end
  end.
Proof. reflexivity. Qed.
Lemma elements_S n s : elements (S n) s =
  match value n s with
  | None => None
  | Some (v, r) =>
      match next r with
      | Some (","%char, t) => match elements n t with Some (l, r) => Some (v :: l, r) | None => None end
      | Some ("]"%char, t) => Some ([v], t)
      | _ => None
      end
  end.
Proof. reflexivity. Qed.
Lemma members_S n s : members (S n) s =
  match next s with
  | Some ("034"%char, t) =>
      match quoted t with
      | None => None
      | Some (k, r) =>
          match next r with
          | Some (":"%char, r) =>
              match value n r with
              | None => None
              | Some (v, r) =>
                  match next r with
                  | Some (","%char, t) => match members n t with Some (l, r) => Some ((k, v) :: l, r) | None => None end
                  | Some ("}"%char, t) => Some ([(k, v)], t)
                  | _ => None
                  end
              end
          | _ => None
          end
      end
  | _ => None
  end.
Proof. reflexivity. Qed.
Lemma value_blank n c t : blank c = true -> value n (String c t) = value n t.
Proof. intros H. destruct n; [reflexivity|]. rewrite ?value_S. now rewrite next_blank. Qed.
Lemma elements_blank n c t : blank c = true -> elements n (String c t) = elements n t.
Proof. intros H. destruct n; [reflexivity|]. rewrite ?elements_S. now rewrite value_blank. Qed.
Lemma members_blank n c t : blank c = true -> members n (String c t) = members n t.
Proof. intros H. destruct n; [reflexivity|]. rewrite ?members_S. now rewrite next_blank. Qed.

(** A number, followed by a character that ends it. *)
Definition plain (s : string) (x : num) : Prop := s <> "" /\ all_chars (fun c => stop_char c = false) s /\ number s = Some x.
Lemma word_plain : forall s c rest, all_chars (fun c => stop_char c = false) s -> stop_char c = true -> word (s ++ String c rest) = (s, String c rest).
Proof.
  induction s as [|d s IH]; intros c rest H Hc.
  - cbn [String.append word]. now rewrite Hc.
  - destruct H as [Hd H]. rewrite sapp_cons. cbn [word]. rewrite Hd, (IH c rest H Hc). reflexivity.
Qed.
Lemma value_plain n s x c rest : plain s x -> stop_char c = true -> value (S n) (s ++ String c rest) = Some (VNum x, String c rest).
Proof.
  intros (Hn & Ha & Hx) Hc. destruct s as [|d s]; [congruence|]. rewrite ?value_S.
  pose proof (word_plain _ _ rest Ha Hc) as W. destruct Ha as [Hd _]. rewrite sapp_cons in *.
  unfold stop_char in Hd. apply orb_false_elim in Hd as [Hd Hq]. apply orb_false_elim in Hd as [Hb Hs].
  rewrite next_char by exact Hb. rewrite Hq. cbn [existsb list_ascii_of_string] in Hs.
  repeat (apply orb_false_elim in Hs as [? Hs]). rewrite H1, H3. rewrite W. cbn [fst snd]. now rewrite Hx.
Qed.

Lemma elements_items : forall l n rest, l <> [] -> (length l < n)%nat -> (forall x, In x l -> plain (repr x) x) ->
  elements n (json_items repr l ++ newline ++ indent ++ "]" ++ rest) = Some (map VNum l, rest).
Proof.
  induction l as [|a [|b l] IH]; intros n rest Hl Hn HP; [congruence| |]; (destruct n as [|n]; [cbn in Hn; lia|]).
  - cbn [json_items]. rewrite !sapp_assoc. cbn [newline indent String.append].
    rewrite !elements_blank by reflexivity. rewrite ?elements_S. destruct n as [|n]; [cbn in Hn; lia|].
    rewrite (value_plain n _ a) by (try reflexivity; apply HP; now left).
    rewrite !next_blank by reflexivity. rewrite next_char by reflexivity. reflexivity.
  - change (json_items repr (a :: b :: l)) with (newline ++ indent ++ indent ++ repr a ++ "," ++ json_items repr (b :: l)).
    assert (K : elements n (json_items repr (b :: l) ++ newline ++ indent ++ "]" ++ rest) = Some (map VNum (b :: l), rest)).
    { apply IH; [discriminate|cbn in *; lia|]. intros x Hx. apply HP. now right. }
    set (tl := json_items repr (b :: l)) in *. clearbody tl. rewrite !sapp_assoc.
    unfold newline at 1. unfold indent at 1 2. cbn [String.append]. rewrite !elements_blank by reflexivity. rewrite ?elements_S.
    destruct n as [|n]; [cbn in Hn; lia|]. rewrite (value_plain n _ a) by (try reflexivity; apply HP; now left).
    rewrite next_char by reflexivity. cbn [String.append] in K |- *. rewrite K. reflexivity.
Qed.
Lemma items_head : forall l t, l <> [] -> (forall x, In x l -> plain (repr x) x) ->
  exists c r, next (json_items repr l ++ t) = Some (c, r) /\ c <> "]"%char.
Proof.
  intros [|a l] t Hl HP; [congruence|]. destruct (HP a (or_introl eq_refl)) as (Hn & Ha & _). destruct (repr a) as [|c s] eqn:E; [congruence|].
  destruct Ha as [Hc _].
  assert (B : blank c = false) by (unfold stop_char in Hc; now destruct (blank c)).
  assert (J : exists u, json_items repr (a :: l) = newline ++ indent ++ indent ++ String c u).
  { destruct l; cbn [json_items]; rewrite E; eexists; reflexivity. }
  destruct J as [u ->]. rewrite !sapp_assoc. cbn [newline indent String.append]. rewrite !next_blank by reflexivity. rewrite next_char by exact B.
  eexists _, _. split; [reflexivity|]. intros ->. discriminate Hc.
Qed.
Definition field_size (v : json) : nat := match v with JNum _ => 0 | JList l => length l end.
Definition field_plain (v : json) : Prop := forall x, In x (value_numbers v) -> plain (repr x) x.
Lemma value_json v n c rest : field_plain v -> stop_char c = true -> (field_size v + 1 < n)%nat ->
  value n (String " " (json_value repr v ++ String c rest)) = Some (jvalue_of v, String c rest).
Proof.
  intros HP Hc Hn. rewrite value_blank by reflexivity. destruct n as [|n]; [lia|]. destruct v as [x|l].
  - cbn [json_value jvalue_of]. apply value_plain; [|exact Hc]. apply HP. now left.
  - destruct l as [|a l].
    + cbn [json_value String.append]. rewrite value_S. rewrite next_char by reflexivity. cbn [Ascii.eqb Bool.eqb].
      rewrite next_char by reflexivity. reflexivity.
    + assert (E : json_value repr (JList (a :: l)) = "[" ++ json_items repr (a :: l) ++ newline ++ indent ++ "]") by reflexivity.
      rewrite E. assert (K := elements_items (a :: l) n (String c rest) ltac:(discriminate) ltac:(cbn [field_size] in Hn; lia) HP).
      destruct (items_head (a :: l) (newline ++ indent ++ "]" ++ String c rest) ltac:(discriminate) HP) as (d & r & Hd & Nd).
      set (it := json_items repr (a :: l)) in *. clearbody it. rewrite !sapp_assoc. cbn [String.append]. rewrite ?value_S.
      rewrite next_char by reflexivity. cbn [Ascii.eqb Bool.eqb]. cbn [String.append] in Hd, K. rewrite Hd, K.
      destruct d as [[] [] [] [] [] [] [] []]; try reflexivity. congruence.
Qed.

(** A name without quotes or escapes. *)
Definition simple_name (k : string) : Prop := all_chars (fun c => Ascii.eqb c "034" = false /\ Ascii.eqb c "\" = false) k.
Lemma quoted_name : forall k t, simple_name k -> quoted (k ++ String "034" t) = Some (k, t).
Proof.
  induction k as [|c k IH]; intros t H; [reflexivity|]. destruct H as [[H1 H2] H]. rewrite sapp_cons. cbn [quoted]. now rewrite H1, H2, IH.
Qed.
Lemma members_fields : forall l n rest, l <> [] ->
  (forall k v, In (k, v) l -> simple_name k /\ field_plain v /\ (field_size v + length l + 2 < n)%nat) ->
  members n (json_members repr l ++ newline ++ "}" ++ rest) = Some (object_of l, rest).
Proof.
  induction l as [|[k v] [|g l] IH]; intros n rest Hl HP; [congruence| |];
    destruct (HP _ _ (or_introl eq_refl)) as (Hk & Hv & Hn); (destruct n as [|n]; [lia|]).
  - cbn [json_members]. unfold json_member. cbn [fst snd]. rewrite !sapp_assoc.
    change (": " ++ json_value repr v ++ newline ++ "}" ++ rest) with (String ":" (String " " (json_value repr v ++ String "010" (String "}" rest)))).
    change (newline ++ indent ++ quote ++ k ++ quote ++ String ":" (String " " (json_value repr v ++ String "010" (String "}" rest)))) with
      (String "010" (String " " (String " " (String " " (String " " (String "034" (k ++ String "034" (String ":" (String " " (json_value repr v ++ String "010" (String "}" rest))))))))))).
    rewrite !members_blank by reflexivity. rewrite ?members_S. rewrite next_char by reflexivity.
    rewrite quoted_name by exact Hk. rewrite next_char by reflexivity. cbn [length] in Hn.
    rewrite (value_json v n "010" _ Hv) by (try reflexivity; lia).
    rewrite next_blank by reflexivity. rewrite next_char by reflexivity. reflexivity.
  - change (json_members repr ((k, v) :: g :: l)) with (json_member repr (k, v) ++ "," ++ json_members repr (g :: l)).
    assert (K : members n (json_members repr (g :: l) ++ newline ++ "}" ++ rest) = Some (object_of (g :: l), rest)).
    { apply IH; [discriminate|]. intros k' v' H'. destruct (HP k' v' (or_intror H')) as (? & ? & ?). cbn [length] in *. split; [assumption|split; [assumption|lia]]. }
    set (tl := json_members repr (g :: l)) in *. clearbody tl. unfold json_member. cbn [fst snd]. rewrite !sapp_assoc.
    change (": " ++ json_value repr v ++ "," ++ tl ++ newline ++ "}" ++ rest) with (String ":" (String " " (json_value repr v ++ String "," (tl ++ newline ++ "}" ++ rest)))).
    set (u := tl ++ newline ++ "}" ++ rest) in *. clearbody u.
    change (newline ++ indent ++ quote ++ k ++ quote ++ String ":" (String " " (json_value repr v ++ String "," u))) with
      (String "010" (String " " (String " " (String " " (String " " (String "034" (k ++ String "034" (String ":" (String " " (json_value repr v ++ String "," u)))))))))).
    rewrite !members_blank by reflexivity. rewrite ?members_S. rewrite next_char by reflexivity.
    rewrite quoted_name by exact Hk. rewrite next_char by reflexivity. cbn [length] in Hn.
    rewrite (value_json v n "," _ Hv) by (try reflexivity; lia).
    rewrite next_char by reflexivity. rewrite K. reflexivity.
Qed.

(** The whole text. *)
Lemma items_length : forall l, (length l <= String.length (json_items repr l))%nat.
Proof.
  assert (A : forall a b, String.length (a ++ b) = (String.length a + String.length b)%nat).
  { induction a as [|c a IH]; intros b; [reflexivity|]. cbn [String.append String.length]. now rewrite IH. }
  induction l as [|a [|b l] IH]; [cbn; lia| |].
  - cbn [json_items newline indent String.append String.length length]. lia.
  - change (json_items repr (a :: b :: l)) with (newline ++ indent ++ indent ++ repr a ++ "," ++ json_items repr (b :: l)).
    rewrite !A. cbn [newline indent String.length length] in *. lia.
Qed.
Lemma members_length : forall l k v, In (k, v) l -> (field_size v + length l <= String.length (json_members repr l))%nat.
Proof.
  assert (A : forall a b, String.length (a ++ b) = (String.length a + String.length b)%nat).
  { induction a as [|c a IH]; intros b; [reflexivity|]. cbn [String.append String.length]. now rewrite IH. }
  assert (M : forall f, (field_size (snd f) + 5 <= String.length (json_member repr f))%nat).
  { intros [k v]. unfold json_member. cbn [fst snd]. rewrite !A. cbn [newline indent quote String.length].
    assert (field_size v <= String.length (json_value repr v))%nat; [|lia]. destruct v as [x|[|a l]]; cbn [field_size]; [lia|cbn; lia|].
    cbn [json_value]. rewrite !A. pose proof (items_length (a :: l)). lia. }
  induction l as [|f [|g l] IH]; intros k v H; [destruct H| |].
  - destruct H as [->|[]]. cbn [json_members length]. specialize (M (k, v)). cbn [snd] in M. lia.
  - change (json_members repr (f :: g :: l)) with (json_member repr f ++ "," ++ json_members repr (g :: l)). rewrite !A.
    specialize (M f). destruct H as [->|H].
    + cbn [snd] in M. assert (length (g :: l) <= String.length (json_members repr (g :: l)))%nat.
      { destruct g as [k' v']. specialize (IH k' v' (or_introl eq_refl)). lia. }
      cbn [length String.length] in *. lia.
    + specialize (IH k v H). cbn [length String.length] in *. lia.
Qed.
Lemma load_text l : l <> [] -> (forall k v, In (k, v) l -> simple_name k /\ field_plain v) ->
  json_load number (json_text repr l) = Some (VObject (object_of l)).
Proof.
  intros Hl HP. unfold json_load, json_text. set (n := (2 * _ + 2)%nat).
  assert (Hn : exists n', n = S n' /\ forall k v, In (k, v) l -> (field_size v + length l + 2 < n')%nat).
  { exists (2 * String.length ("{" ++ json_members repr l ++ newline ++ "}") + 1)%nat. split; [unfold n; lia|]. intros k v H.
    pose proof (members_length _ _ _ H).
    assert (A : forall a b, String.length (a ++ b) = (String.length a + String.length b)%nat).
    { induction a as [|c a IH]; intros b; [reflexivity|]. cbn [String.append String.length]. now rewrite IH. }
    rewrite !A. cbn [String.length newline]. lia. }
  clearbody n. destruct Hn as (n' & -> & Hn). rewrite value_S. cbn [String.append]. rewrite next_char by reflexivity.
  assert (K : members n' (json_members repr l ++ newline ++ "}" ++ "") = Some (object_of l, "")).
  { apply members_fields; [exact Hl|]. intros k v H. destruct (HP k v H) as [H1 H2]. exact (conj H1 (conj H2 (Hn k v H))). }
  assert (Hd : exists r, next (json_members repr l ++ newline ++ "}") = Some ("034"%char, r)).
  { destruct l as [|f [|g l]]; [congruence| |]; eexists; unfold json_members, json_member; rewrite !sapp_assoc; cbn [newline indent quote String.append];
      rewrite !next_blank by reflexivity; rewrite next_char by reflexivity; reflexivity. }
  destruct Hd as [r Hd]. cbn [String.append] in K, Hd. rewrite Hd, K. reflexivity.
Qed.

(** A text without a closing brace is no object. *)
Lemma skip_brace : forall s, no_brace s -> no_brace (skip s).
Proof. induction s as [|c s IH]; intros H; [exact I|]. cbn [skip]. destruct (blank c); [apply IH, H|exact H]. Qed.
Lemma next_brace s c t : no_brace s -> next s = Some (c, t) -> c <> "}"%char /\ no_brace t.
Proof. intros H. unfold next. pose proof (skip_brace _ H) as K. destruct (skip s); [discriminate|]. intros [= <- <-]. exact K. Qed.
Lemma quoted_brace : forall s k t, no_brace s -> quoted s = Some (k, t) -> no_brace t.
Proof.
  induction s as [|c s IH]; intros k t H; [discriminate|]. cbn [quoted]. destruct H as [_ H]. destruct (Ascii.eqb c "034"); [intros [= <- <-]; exact H|].
  destruct (Ascii.eqb c "\"); [discriminate|]. destruct (quoted s) as [[k' r]|] eqn:E; [|discriminate]. intros [= <- <-]. eapply IH; eauto.
Qed.
Lemma word_brace : forall s, no_brace s -> no_brace (snd (word s)).
Proof. induction s as [|c s IH]; intros H; [exact I|]. cbn [word]. destruct (stop_char c); [exact H|]. apply IH, H. Qed.
Lemma no_object : forall n,
  (forall s v r, no_brace s -> value n s = Some (v, r) -> no_brace r) /\
  (forall s l r, no_brace s -> elements n s = Some (l, r) -> no_brace r) /\
  (forall s, no_brace s -> members n s = None).
Proof.
  induction n as [|n (IV & IE & IM)]; [repeat split; intros; try discriminate; reflexivity|]. split; [|split].
  - intros s v r H. rewrite value_S. destruct (next s) as [[c t]|] eqn:E; [|discriminate]. destruct (next_brace _ _ _ H E) as [Hc Ht].
    destruct (Ascii.eqb c "034").
    { destruct (quoted t) as [[k r']|] eqn:Eq; [|discriminate]. intros [= <- <-]. eapply quoted_brace; eauto. }
    destruct (Ascii.eqb c "[").
    { assert (G : match elements n t with Some (l, r) => Some (VList l, r) | None => None end = Some (v, r) -> no_brace r).
      { destruct (elements n t) as [[l r']|] eqn:Ee; [|discriminate]. intros [= <- <-]. eapply IE; eauto. }
      destruct (next t) as [[d r']|] eqn:En; [|exact G]. destruct (next_brace _ _ _ Ht En) as [_ Hr].
      destruct d as [[] [] [] [] [] [] [] []]; try exact G. intros [= <- <-]. exact Hr. }
    destruct (Ascii.eqb c "{").
    { rewrite (IM t Ht). destruct (next t) as [[d r']|] eqn:En; [|discriminate]. destruct (next_brace _ _ _ Ht En) as [Hd _].
      destruct d as [[] [] [] [] [] [] [] []]; try discriminate. now destruct Hd. }
    destruct (number _); [|discriminate]. intros [= <- <-]. apply (word_brace (String c t)). split; assumption.
  - intros s l r H. rewrite elements_S. destruct (value n s) as [[v r']|] eqn:Ev; [|discriminate]. pose proof (IV _ _ _ H Ev) as Hr.
    destruct (next r') as [[d t]|] eqn:En; [|discriminate]. destruct (next_brace _ _ _ Hr En) as [_ Ht].
    destruct (elements n t) as [[l' r'']|] eqn:Ee.
    + pose proof (IE _ _ _ Ht Ee). destruct d as [[] [] [] [] [] [] [] []]; try discriminate; intros [= <- <-]; assumption.
    + destruct d as [[] [] [] [] [] [] [] []]; try discriminate; intros [= <- <-]; assumption.
  - intros s H. rewrite members_S. destruct (next s) as [[c t]|] eqn:E; [|reflexivity]. destruct (next_brace _ _ _ H E) as [_ Ht].
    assert (G : match quoted t with
      | Some (k, r) => match next r with
          | Some (":"%char, r0) => match value n r0 with
              | Some (v, r1) => match next r1 with
                  | Some (","%char, t0) => match members n t0 with Some (l, r2) => Some ((k, v) :: l, r2) | None => None end
                  | Some ("}"%char, t0) => Some ([(k, v)], t0) | _ => None end
              | None => None end
          | _ => None end
      | None => None end = None).
    { destruct (quoted t) as [[k r]|] eqn:Eq; [|reflexivity]. pose proof (quoted_brace _ _ _ Ht Eq) as Hr.
      destruct (next r) as [[d r0]|] eqn:En; [|reflexivity]. destruct (next_brace _ _ _ Hr En) as [_ Hr0].
      assert (G2 : match value n r0 with
              | Some (v, r1) => match next r1 with
                  | Some (","%char, t0) => match members n t0 with Some (l, r2) => Some ((k, v) :: l, r2) | None => None end
                  | Some ("}"%char, t0) => Some ([(k, v)], t0) | _ => None end
              | None => None end = None).
      { destruct (value n r0) as [[v r1]|] eqn:Ev; [|reflexivity]. pose proof (IV _ _ _ Hr0 Ev) as Hr1.
        destruct (next r1) as [[e t0]|] eqn:En1; [|reflexivity]. destruct (next_brace _ _ _ Hr1 En1) as [He Ht0].
        rewrite (IM t0 Ht0). destruct e as [[] [] [] [] [] [] [] []]; try reflexivity. now destruct He. }
      rewrite G2. destruct d as [[] [] [] [] [] [] [] []]; reflexivity. }
    rewrite G. destruct c as [[] [] [] [] [] [] [] []]; reflexivity.
Qed.
Lemma cut_object t : no_brace t -> json_load number (String "{" t) = None.
Proof.
  intros H. unfold json_load. set (n := (2 * _ + 2)%nat). assert (Hn : exists n', n = S n') by (exists (2 * String.length (String "{" t) + 1)%nat; unfold n; lia).
  clearbody n. destruct Hn as [n' ->]. rewrite value_S, next_char by reflexivity. cbn [Ascii.eqb Bool.eqb]. rewrite (proj2 (proj2 (no_object n')) t H).
  destruct (next t) as [[d r]|] eqn:E; [|reflexivity]. destruct (next_brace _ _ _ H E) as [Hd _].
  destruct d as [[] [] [] [] [] [] [] []]; try reflexivity. now destruct Hd.
Qed.
End Load.
