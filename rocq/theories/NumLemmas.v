(** Lemmas on the numbers of [Num.v]. *)
From Coq Require Import Reals ZArith List Bool Lra Lia.
From Verif Require Import Num.
Import ListNotations.
Open Scope R_scope.

Lemma Rltb_true x y : Rltb x y = true <-> x < y.
Proof. unfold Rltb; destruct (Rlt_dec x y); split; intros; try easy. Qed.
Lemma Rltb_false x y : Rltb x y = false <-> y <= x.
Proof. unfold Rltb; destruct (Rlt_dec x y); split; intros; try easy; lra. Qed.
Lemma Rleb_true x y : Rleb x y = true <-> x <= y.
Proof. unfold Rleb; destruct (Rle_dec x y); split; intros; try easy. Qed.
Lemma Rleb_false x y : Rleb x y = false <-> y < x.
Proof. unfold Rleb; destruct (Rle_dec x y); split; intros; try easy; lra. Qed.
Lemma Reqb_true x y : Reqb x y = true <-> x = y.
Proof. unfold Reqb; destruct (Req_EM_T x y); split; intros; try easy. Qed.
Lemma Reqb_false x y : Reqb x y = false <-> x <> y.
Proof. unfold Reqb; destruct (Req_EM_T x y); split; intros; try easy. Qed.

Lemma Rltb_spec x y : reflect (x < y) (Rltb x y).
Proof. unfold Rltb; destruct (Rlt_dec x y); constructor; lra. Qed.
Lemma Rleb_spec x y : reflect (x <= y) (Rleb x y).
Proof. unfold Rleb; destruct (Rle_dec x y); constructor; lra. Qed.
Lemma Reqb_spec x y : reflect (x = y) (Reqb x y).
Proof. unfold Reqb; destruct (Req_EM_T x y); constructor; lra. Qed.

Ltac rcase1 :=
  match goal with
  | |- context [Rltb ?a ?b] => destruct (Rltb_spec a b)
  | |- context [Rleb ?a ?b] => destruct (Rleb_spec a b)
  | |- context [Reqb ?a ?b] => destruct (Reqb_spec a b)
  | H : context [Rltb ?a ?b] |- _ => destruct (Rltb_spec a b)
  | H : context [Rleb ?a ?b] |- _ => destruct (Rleb_spec a b)
  | H : context [Reqb ?a ?b] |- _ => destruct (Reqb_spec a b)
  end.

Lemma Rfloor_bounds x : IZR (Rfloor x) <= x < IZR (Rfloor x) + 1.
Proof. unfold Rfloor. pose proof (base_Int_part x). lra. Qed.

Lemma Rfloor_unique x z : IZR z <= x < IZR z + 1 -> Rfloor x = z.
Proof.
  intros [H1 H2]. destruct (Rfloor_bounds x) as [H3 H4].
  apply Z.le_antisymm.
  - apply Z.lt_succ_r. apply lt_IZR. rewrite succ_IZR. lra.
  - apply Z.lt_succ_r. apply lt_IZR. rewrite succ_IZR. lra.
Qed.

Lemma Rfloor_IZR z : Rfloor (IZR z) = z.
Proof. apply Rfloor_unique; lra. Qed.

Lemma Rfloor_le x y : x <= y -> (Rfloor x <= Rfloor y)%Z.
Proof.
  intros. destruct (Rfloor_bounds x), (Rfloor_bounds y).
  apply Z.lt_succ_r. apply lt_IZR. rewrite succ_IZR. lra.
Qed.

Lemma Rceil_bounds x : IZR (Rceil x) - 1 < x <= IZR (Rceil x).
Proof.
  unfold Rceil. pose proof (Rfloor_bounds (- x)) as [H1 H2]. unfold Rfloor in *.
  rewrite opp_IZR. lra.
Qed.

Lemma Rceil_unique x z : IZR z - 1 < x <= IZR z -> Rceil x = z.
Proof.
  intros. unfold Rceil. change (Int_part (- x)) with (Rfloor (- x)). rewrite (Rfloor_unique (-x) (- z)); [lia|].
  rewrite opp_IZR; lra.
Qed.

Lemma Rceil_IZR z : Rceil (IZR z) = z.
Proof. apply Rceil_unique; lra. Qed.

Lemma le_floor z x : IZR z <= x -> (z <= Rfloor x)%Z.
Proof. intros. rewrite <- (Rfloor_IZR z). now apply Rfloor_le. Qed.
Lemma floor_lt z x : x < IZR z -> (Rfloor x < z)%Z.
Proof. intros. destruct (Rfloor_bounds x). apply lt_IZR. lra. Qed.
Lemma ceil_le z x : x <= IZR z -> (Rceil x <= z)%Z.
Proof.
  intros. destruct (Rceil_bounds x).
  apply Z.lt_succ_r. apply lt_IZR. rewrite succ_IZR. lra.
Qed.
Lemma lt_ceil z x : IZR z < x -> (z < Rceil x)%Z.
Proof. intros. destruct (Rceil_bounds x). apply lt_IZR. lra. Qed.

Lemma Rtrunc_nonneg x : 0 <= x -> Rtrunc x = Rfloor x.
Proof. intros; unfold Rtrunc; rcase1; [lra|reflexivity]. Qed.

Lemma seq_opt_map_Some {A B} (f : A -> B) (l : list A) :
  seq_opt (map (fun x => Some (f x)) l) = Some (map f l).
Proof. induction l as [|a l IH]; simpl; [reflexivity|]. now rewrite IH. Qed.

Lemma seq_opt_map_ext {A B} (g : A -> option B) (f : A -> B) (l : list A) :
  (forall x, In x l -> g x = Some (f x)) ->
  seq_opt (map g l) = Some (map f l).
Proof.
  induction l as [|a l IH]; intros H; simpl; [reflexivity|].
  rewrite H by now left. rewrite IH; [reflexivity|]. intros; apply H; now right.
Qed.

Lemma seq_opt_nth {A} (l : list (option A)) r i a :
  seq_opt l = Some r -> nth_error r i = Some a -> nth_error l i = Some (Some a).
Proof.
  revert r i. induction l as [|[x|] l IH]; simpl; intros r i Hs Hn; try easy.
  - inversion Hs; subst. destruct i; easy.
  - destruct (seq_opt l) as [r'|] eqn:E; [|easy]. inversion Hs; subst.
    destruct i; simpl in *; [congruence|]. eapply IH; eauto.
Qed.

Lemma seq_opt_length {A} (l : list (option A)) r : seq_opt l = Some r -> length r = length l.
Proof.
  revert r; induction l as [|[x|] l IH]; simpl; intros r H; try easy.
  - now inversion H.
  - destruct (seq_opt l); [|easy]. inversion H; subst; simpl. now rewrite IH.
Qed.
