(** C44: the factory of the geometric models. *)
From Coq Require Import List Bool String Lia.
From Verif Require Import Num PyStrModel ReadersModel FactoryModel.
Import ListNotations.
Open Scope string_scope.

Section C44.
Context {class object : Type} (load : class -> string -> result object).
Notation call := (call (class := class)).
(** In the calls [l], the last registration under [t] is the one of [c]. *)
Definition last_registered (l : list call) (t : string) (c : class) : Prop :=
  exists l1 l2, l = (l1 ++ Register t c :: l2)%list /\ forall c', ~ In (Register t c') l2.
Definition never_registered (l : list call) (t : string) : Prop := forall c, ~ In (Register t c) l.

Lemma lookup_register : forall (d : registry (class := class)) t c u, lookup (register d t c) u = if String.eqb t u then Ok c else lookup d u.
Proof.
  induction d as [|[k v] d IH]; intros t c u; simpl.
  - reflexivity.
  - destruct (String.eqb_spec k t) as [->|N]; simpl; [destruct (String.eqb t u); reflexivity|]. rewrite IH.
    destruct (String.eqb_spec k u) as [->|]; [|reflexivity]. destruct (String.eqb_spec t u); [congruence|reflexivity].
Qed.
Lemma run_app : forall l1 l2 (d : registry (class := class)), run load d (l1 ++ l2)%list =
  let '(d1, a1) := run load d l1 in let '(d2, a2) := run load d1 l2 in (d2, a1 ++ a2)%list.
Proof.
  induction l1 as [|k l1 IH]; intros l2 d; simpl; [destruct (run load d l2); reflexivity|].
  destruct (step load d k) as [d' a]. rewrite IH. destruct (run load d' l1) as [d1 a1]. destruct (run load d1 l2). reflexivity.
Qed.
Lemma run_skip : forall l (d : registry (class := class)) t, never_registered l t -> lookup (fst (run load d l)) t = lookup d t.
Proof.
  induction l as [|k l IH]; intros d t H; [reflexivity|]. simpl. destruct (step load d k) as [d' a] eqn:E. specialize (IH d' t).
  destruct (run load d' l) as [d2 a2]. simpl in *. rewrite IH by (intros c K; apply (H c); now right).
  destruct k as [u c|p u|]; simpl in E; apply pair_equal_spec in E as [<- _]; try reflexivity.
  rewrite lookup_register. destruct (String.eqb_spec u t) as [->|]; [|reflexivity]. exfalso. apply (H c). now left.
Qed.
Lemma lookup_last : forall l (d : registry (class := class)) t c, last_registered l t c -> lookup (fst (run load d l)) t = Ok c.
Proof.
  intros l d t c (l1 & l2 & -> & H). rewrite run_app. destruct (run load d l1) as [d1 a1]. simpl.
  pose proof (run_skip l2 (register d1 t c) t H) as K. destruct (run load (register d1 t c) l2) as [d2 a2]. simpl in *. rewrite K, lookup_register.
  now rewrite String.eqb_refl.
Qed.

(** The answers to a program are the answers to its calls, each after the calls before it. *)
Lemma answer_at : forall l1 k l2 (d : registry (class := class)),
  nth_error (snd (run load d (l1 ++ k :: l2)%list)) (List.length l1) = Some (snd (step load (fst (run load d l1)) k)).
Proof.
  intros l1 k l2 d. rewrite run_app.
  assert (L : forall l (d : registry (class := class)), List.length (snd (run load d l)) = List.length l).
  { induction l as [|a l IH]; intros e; [reflexivity|]. simpl. destruct (step load e a) as [e' b]. specialize (IH e'). destruct (run load e' l). simpl in *. now rewrite IH. }
  specialize (L l1 d). destruct (run load d l1) as [d1 a1]. simpl in *. destruct (step load d1 k) as [d2 a]. destruct (run load d2 l2) as [d3 a3]. simpl.
  rewrite nth_error_app2 by lia. rewrite L, PeanoNat.Nat.sub_diag. reflexivity.
Qed.

(** A creation gives what [load] of the last class registered under its type gives. *)
Theorem C44_last_registration_wins :
  forall before after path t c, last_registered before t c ->
    nth_error (snd (run load [] (before ++ New path (Some t) :: after)%list)) (List.length before) = Some (Built (load c path)).
Proof.
  intros before after path t c H. rewrite answer_at. simpl. unfold new_geomodel, create_geomodel. now rewrite (lookup_last _ _ _ _ H).
Qed.
(** Without a type it is the type "RPC". *)
Theorem C44_default_type :
  forall before after path c, last_registered before "RPC" c ->
    nth_error (snd (run load [] (before ++ New path None :: after)%list)) (List.length before) = Some (Built (load c path)).
Proof.
  intros before after path c H. rewrite answer_at. simpl. unfold new_geomodel, create_geomodel. now rewrite (lookup_last _ _ _ _ H).
Qed.
Theorem C44_unknown_type :
  forall before after path t, never_registered before t ->
    nth_error (snd (run load [] (before ++ New path (Some t) :: after)%list)) (List.length before) = Some (Built (Err KeyError)).
Proof.
  intros before after path t H. rewrite answer_at. simpl. unfold new_geomodel, create_geomodel. now rewrite (run_skip _ _ _ H).
Qed.
(** The listing has each registered type once. *)
Lemma names_register : forall (d : registry (class := class)) t c, NoDup (print_available d) ->
  NoDup (print_available (register d t c)) /\ forall u, In u (print_available (register d t c)) <-> u = t \/ In u (print_available d).
Proof.
  induction d as [|[k v] d IH]; intros t c N; simpl.
  - split; [constructor; [intros []|constructor]|]. intuition.
  - inversion N as [|x y Hx Hy]; subst. destruct (String.eqb_spec k t) as [->|Hk]; simpl.
    + split; [now constructor|]. intro u. split; [intros [->|]; auto|intros [->|[->|]]; auto].
    + destruct (IH t c Hy) as [A B]. split.
      * constructor; [|exact A]. intro K. apply B in K as [K|K]; [congruence|contradiction].
      * intro u. split; [intros [->|K]; [auto|apply B in K; tauto]|intros [->|[->|K]]; [right; apply B; auto|auto|right; apply B; auto]].
Qed.
Theorem C44_listing :
  forall before after, exists l,
    nth_error (snd (run load [] (before ++ Print :: after)%list)) (List.length before) = Some (Printed l) /\ NoDup l /\
    forall t, In t l <-> exists c, In (Register t c) before.
Proof.
  intros before after. exists (print_available (fst (run load [] before))). split; [now rewrite answer_at|].
  assert (G : forall l (d : registry (class := class)), NoDup (print_available d) -> NoDup (print_available (fst (run load d l))) /\
    forall t, In t (print_available (fst (run load d l))) <-> In t (print_available d) \/ exists c, In (Register t c) l).
  { induction l as [|k l IH]; intros d N; simpl; [split; [exact N|]; intro t; split; [auto|intros [H|[c []]]; exact H]|].
    destruct (step load d k) as [d' a] eqn:E.
    assert (N' : NoDup (print_available d') /\ forall t, In t (print_available d') <-> In t (print_available d) \/ exists c, k = Register t c).
    { destruct k as [u c|p u|]; simpl in E; apply pair_equal_spec in E as [<- _].
      - destruct (names_register d u c N) as [A B]. split; [exact A|]. intro t. rewrite B. split; [intros [->|]; [right; now exists c|auto]|intros [|[c' K]]; [auto|injection K as -> _; auto]].
      - split; [exact N|]. intro t. split; [auto|intros [|[c' K]]; [auto|discriminate K]].
      - split; [exact N|]. intro t. split; [auto|intros [|[c' K]]; [auto|discriminate K]]. }
    destruct N' as [A B]. specialize (IH d' A). destruct (run load d' l) as [d2 a2]. simpl in *. destruct IH as [P Q]. split; [exact P|].
    intro t. rewrite Q, B. split.
    - intros [[H|[c ->]]|[c H]]; [auto|right; exists c; auto|right; exists c; auto].
    - intros [H|[c [->|H]]]; [auto|left; right; now exists c|right; now exists c]. }
  destruct (G before [] (NoDup_nil _)) as [A B]. split; [exact A|]. intro t. rewrite B. simpl. split; [intros [[]|H]; exact H|auto].
Qed.
End C44.

(** A second registration, with a creation in between. *)
Example C44_example :
  let l := [Register "RPC" 1%nat; Register "GRID" 2%nat; New "a" None; Register "RPC" 3%nat; Print] in
  last_registered l "RPC" 3%nat /\ last_registered l "GRID" 2%nat /\ never_registered l "rpc".
Proof.
  split; [|split].
  - exists [Register "RPC" 1%nat; Register "GRID" 2%nat; New "a" None], [Print]. split; [reflexivity|]. intros c [K|[]]; discriminate K.
  - exists [Register "RPC" 1%nat], [New "a" None; Register "RPC" 3%nat; Print]. split; [reflexivity|]. intros c [K|[K|[K|[]]]]; discriminate K.
  - intros c [K|[K|[K|[K|[K|[]]]]]]; discriminate K.
Qed.
