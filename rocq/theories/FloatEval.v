(** Rounding errors of the polynomials, whatever the order of the operations. *)
From Coq Require Import ZArith Reals List Permutation Bool Lia Lra Psatz.
From Flocq Require Import Core BinarySingleNaN.
From Verif Require Import FloatModel Float FloatErr FloatRpcModel.
Import ListNotations.
Open Scope R_scope.

(** ** Sums of products *)
Lemma distribute_cons l t u : distribute (l :: t) u = map (fun m => l ++ m) u ++ distribute t u.
Proof. reflexivity. Qed.
Section SUMS.
Context (f : b64 -> R).
Fixpoint prodf (l : fterm) : R := match l with [] => 1 | x :: l => f x * prodf l end.
Fixpoint sumf (t : fpoly) : R := match t with [] => 0 | l :: t => prodf l + sumf t end.
Lemma prodf_app l m : prodf (l ++ m) = prodf l * prodf m.
Proof. induction l as [|x l IH]; cbn; [ring|]. rewrite IH. ring. Qed.
Lemma sumf_app t u : sumf (t ++ u) = sumf t + sumf u.
Proof. induction t as [|l t IH]; cbn; [ring|]. rewrite IH. ring. Qed.
Lemma sumf_map l u : sumf (map (fun m => l ++ m) u) = prodf l * sumf u.
Proof. induction u as [|m u IH]; cbn; [ring|]. rewrite prodf_app, IH. ring. Qed.
Lemma sumf_distribute t u : sumf (distribute t u) = sumf t * sumf u.
Proof. induction t as [|l t IH]; [cbn; ring|]. rewrite distribute_cons, sumf_app, sumf_map, IH. cbn. ring. Qed.
Lemma prodf_perm l m : Permutation l m -> prodf l = prodf m.
Proof. induction 1 as [|x l m _ IH|x y l|l m n _ IH1 _ IH2]; cbn; [reflexivity|now rewrite IH|ring|congruence]. Qed.
Lemma sumf_same t u : same_poly t u -> sumf t = sumf u.
Proof.
  intros (v & P & F). transitivity (sumf v).
  - clear F. induction P as [|x l m _ IH|x y l|l m n _ IH1 _ IH2]; cbn; [reflexivity|now rewrite IH|ring|congruence].
  - clear P. induction F as [|l m v u H _ IH]; cbn; [reflexivity|]. now rewrite IH, (prodf_perm _ _ H).
Qed.
End SUMS.
Definition value := sumf B2R.
Definition magnitude := sumf (fun x : b64 => Rabs (B2R x)).
Definition weight := sumf (fun x : b64 => Rmax 1 (Rabs (B2R x))).

(** ** Sizes *)
Fixpoint longest (t : fpoly) : nat := match t with [] => 0%nat | l :: t => Nat.max (length l) (longest t) end.
Definition rounds (t : fpoly) : nat := (length t - 1) + (longest t - 1).
Definition shaped (t : fpoly) : Prop := t <> [] /\ Forall (fun l => l <> []) t.
Definition finite_poly (t : fpoly) : Prop := Forall (Forall (fun x : b64 => is_finite x = true)) t.
Lemma longest_app t u : longest (t ++ u) = Nat.max (longest t) (longest u).
Proof. induction t as [|l t IH]; cbn; [reflexivity|]. rewrite IH. lia. Qed.
Lemma longest_map l u : u <> [] -> longest (map (fun m => l ++ m) u) = (length l + longest u)%nat.
Proof.
  intros H. destruct u as [|m u]; [contradiction|]. clear H. revert m. induction u as [|m' u IH]; intros m; cbn; [rewrite app_length; lia|].
  cbn in IH. rewrite (IH m'). rewrite app_length. lia.
Qed.
Lemma longest_distribute t u : t <> [] -> u <> [] -> longest (distribute t u) = (longest t + longest u)%nat.
Proof.
  intros Ht Hu. destruct t as [|l t]; [contradiction|]. clear Ht. revert l. induction t as [|l' t IH]; intros l.
  - cbn. rewrite app_nil_r, longest_map by assumption. lia.
  - change (distribute (l :: l' :: t) u) with (map (fun m => l ++ m) u ++ distribute (l' :: t) u). rewrite longest_app, IH, longest_map by assumption. cbn. lia.
Qed.
Lemma length_distribute t u : length (distribute t u) = (length t * length u)%nat.
Proof. induction t as [|l t IH]; [reflexivity|]. rewrite distribute_cons. etransitivity; [apply app_length|]. cbn [length Nat.mul]. apply f_equal2; [apply map_length|exact IH]. Qed.
Lemma same_sizes t u : same_poly t u -> length t = length u /\ longest t = longest u.
Proof.
  intros (v & P & F). assert (A : length t = length v /\ longest t = longest v).
  { clear F. induction P as [|x l m _ IH|x y l|l m n _ IH1 _ IH2]; cbn; [auto|split; lia|split; lia|split; lia]. }
  assert (B : length v = length u /\ longest v = longest u).
  { clear P A. induction F as [|l m v u H _ IH]; cbn; [auto|]. rewrite (Permutation_length H). split; lia. }
  split; lia.
Qed.
Lemma shaped_longest t : shaped t -> (1 <= longest t)%nat /\ (1 <= length t)%nat.
Proof.
  intros [H F]. destruct t as [|l t]; [contradiction|]. inversion F; subst. destruct l; [contradiction|]. cbn [longest length]. lia.
Qed.
Lemma shaped_app t u : shaped t -> shaped u -> shaped (t ++ u).
Proof. intros [H F] [_ G]. split; [destruct t; [contradiction|discriminate]|]. apply Forall_app. auto. Qed.
Lemma shaped_distribute t u : shaped t -> shaped u -> shaped (distribute t u).
Proof.
  intros [H F] [H' F']. split.
  - intros E. apply (f_equal (@length _)) in E. rewrite length_distribute in E. destruct t; [contradiction|]. destruct u; [contradiction|]. cbn in E. lia.
  - unfold distribute. apply Forall_flat_map. eapply Forall_impl; [|exact F]. cbv beta. intros l Hl. apply Forall_map. apply Forall_forall. intros m _. destruct l; [contradiction|discriminate].
Qed.
Lemma evaluates_shaped t x : evaluates t x -> shaped t.
Proof.
  induction 1 as [x|t u x y _ IH1 _ IH2|t u x y _ IH1 _ IH2|t u v x y z _ IH1 _ IH2 _ IH3|t u x S _ IH].
  - split; [discriminate|]. constructor; [discriminate|constructor].
  - now apply shaped_app.
  - now apply shaped_distribute.
  - apply shaped_app; [now apply shaped_distribute|assumption].
  - destruct IH as [H F]. destruct S as (v & P & G). split.
    + intros ->. inversion G; subst. apply Permutation_sym, Permutation_nil in P. contradiction.
    + assert (F' : Forall (fun l => l <> []) v) by (eapply Permutation_Forall; eassumption). clear P H F. induction G as [|l m v u E _ IH]; [constructor|]. inversion F'; subst.
      constructor; [|now apply IH]. intros ->. apply Permutation_sym, Permutation_nil in E. contradiction.
Qed.
Lemma finite_app t u : finite_poly (t ++ u) -> finite_poly t /\ finite_poly u.
Proof. unfold finite_poly. now rewrite Forall_app. Qed.
Lemma finite_distribute t u : t <> [] -> u <> [] -> finite_poly (distribute t u) -> finite_poly t /\ finite_poly u.
Proof.
  intros Ht Hu F. unfold finite_poly, distribute in *. rewrite Forall_flat_map in F. split.
  - rewrite Forall_forall in F |- *. intros l Hl. specialize (F l Hl). rewrite Forall_map in F. destruct u as [|m u]; [contradiction|]. inversion F; subst. now apply Forall_app in H1.
  - destruct t as [|l t]; [contradiction|]. inversion F; subst. rewrite Forall_map in H1. eapply Forall_impl; [|exact H1]. cbv beta. intros m Hm. now apply Forall_app in Hm.
Qed.
Lemma finite_same t u : same_poly t u -> finite_poly u -> finite_poly t.
Proof.
  intros (v & P & F) H. eapply Permutation_Forall; [apply Permutation_sym, P|]. clear P. induction F as [|l m v u E _ IH]; [constructor|]. inversion H; subst.
  constructor; [eapply Permutation_Forall; [apply Permutation_sym, E|assumption]|now apply IH].
Qed.

(** ** Bounds *)
Lemma prodf_le f g l : (forall x, 0 <= f x <= g x) -> 0 <= prodf f l <= prodf g l.
Proof. intros H. induction l as [|x l IH]; cbn; [lra|]. specialize (H x). split; [apply Rmult_le_pos; lra|apply Rmult_le_compat; lra]. Qed.
Lemma sumf_le f g t : (forall x, 0 <= f x <= g x) -> 0 <= sumf f t <= sumf g t.
Proof. intros H. induction t as [|l t IH]; cbn; [lra|]. pose proof (prodf_le f g l H). lra. Qed.
Lemma magnitude_weight t : 0 <= magnitude t <= weight t.
Proof. apply sumf_le. intros x. split; [apply Rabs_pos|apply Rmax_r]. Qed.
Lemma value_magnitude t : Rabs (value t) <= magnitude t.
Proof.
  assert (P : forall l, Rabs (prodf B2R l) = prodf (fun x : b64 => Rabs (B2R x)) l).
  { induction l as [|x l IH]; cbn; [apply Rabs_R1|]. now rewrite Rabs_mult, IH. }
  unfold value, magnitude. induction t as [|l t IH]; cbn; [rewrite Rabs_R0; lra|]. eapply Rle_trans; [apply Rabs_triang|]. rewrite P. lra.
Qed.
Lemma weight_term l : 1 <= prodf (fun x : b64 => Rmax 1 (Rabs (B2R x))) l.
Proof. induction l as [|x l IH]; cbn; [lra|]. pose proof (Rmax_l 1 (Rabs (B2R x))). nra. Qed.
Lemma weight_1 t : t <> [] -> 1 <= weight t.
Proof.
  intros H. destruct t as [|l t]; [contradiction|]. unfold weight. cbn. pose proof (weight_term l).
  assert (0 <= sumf (fun x : b64 => Rmax 1 (Rabs (B2R x))) t).
  { clear. induction t as [|l t IH]; cbn; [lra|]. pose proof (weight_term l). lra. }
  lra.
Qed.
Lemma weight_0 t : 0 <= weight t.
Proof. destruct (magnitude_weight t). lra. Qed.

(** What the magnitude becomes after [k] roundings. *)
Definition grow (k : nat) : R := (1 + ulp1) ^ k.
Definition bound (k : nat) (m w : R) : R := grow k * (m + (2 ^ k - 1) * tiny * w).
Lemma grow_1 k : 1 <= grow k.
Proof. unfold grow. apply pow_R1_Rle. pose proof ulp1_pos. lra. Qed.
Lemma grow_le j k : (j <= k)%nat -> grow j <= grow k.
Proof. intros H. unfold grow. apply Rle_pow; [pose proof ulp1_pos; lra|exact H]. Qed.
Lemma grow_plus j k : grow (j + k) = grow j * grow k.
Proof. apply pow_add. Qed.
Lemma grow_S k : grow (S k) = (1 + ulp1) * grow k.
Proof. reflexivity. Qed.
Lemma two_1 k : 1 <= 2 ^ k.
Proof. apply pow_R1_Rle. lra. Qed.
Lemma two_le j k : (j <= k)%nat -> 2 ^ j <= 2 ^ k.
Proof. intros H. apply Rle_pow; [lra|exact H]. Qed.
Lemma tiny_1 : tiny <= 1.
Proof. pose proof tiny_small. pose proof ulp1_small. pose proof ulp1_pos. lra. Qed.
Lemma inner_pos k m w : 0 <= m -> 0 <= w -> 0 <= m + (2 ^ k - 1) * tiny * w.
Proof. intros. pose proof (two_1 k). pose proof tiny_pos. assert (0 <= (2 ^ k - 1) * tiny) by (apply Rmult_le_pos; lra). assert (0 <= (2 ^ k - 1) * tiny * w) by (apply Rmult_le_pos; lra). lra. Qed.
Lemma bound_mono j k m w : (j <= k)%nat -> 0 <= m -> 0 <= w -> bound j m w <= bound k m w.
Proof.
  intros H Hm Hw. unfold bound. pose proof (grow_1 j). apply Rmult_le_compat; [lra|now apply inner_pos|now apply grow_le|].
  apply Rplus_le_compat_l. apply Rmult_le_compat_r; [exact Hw|]. apply Rmult_le_compat_r; [apply Rlt_le, tiny_pos|]. pose proof (two_le j k H). lra.
Qed.
Lemma bound_m k m w : 0 <= m -> 0 <= w -> m <= bound k m w.
Proof.
  intros Hm Hw. unfold bound. pose proof (grow_1 k). pose proof (inner_pos k 0 w ltac:(lra) Hw).
  assert (1 * m <= grow k * (m + (2 ^ k - 1) * tiny * w)) by (apply Rmult_le_compat; lra). lra.
Qed.
Lemma bound_add_w k m w w' : 0 <= m -> 0 <= w <= w' -> bound k m w <= bound k m w'.
Proof.
  intros Hm Hw. unfold bound. pose proof (grow_1 k). apply Rmult_le_compat_l; [lra|]. apply Rplus_le_compat_l. apply Rmult_le_compat_l; [|lra].
  apply Rmult_le_pos; [pose proof (two_1 k); lra|apply Rlt_le, tiny_pos].
Qed.
(** One more rounding. *)
Lemma bound_S k m w : 0 <= m -> 1 <= w -> (1 + ulp1) * bound k m w + tiny <= bound (S k) m w.
Proof.
  intros Hm Hw. unfold bound. rewrite grow_S. pose proof (grow_1 (S k)) as G. rewrite grow_S in G. set (g := (1 + ulp1) * grow k) in *.
  replace ((1 + ulp1) * (grow k * (m + (2 ^ k - 1) * tiny * w))) with (g * (m + (2 ^ k - 1) * tiny * w)) by (unfold g; ring).
  pose proof (two_1 k). pose proof tiny_pos. cbn [pow].
  replace (g * (m + (2 * 2 ^ k - 1) * tiny * w)) with (g * (m + (2 ^ k - 1) * tiny * w) + g * (2 ^ k * w) * tiny) by ring.
  assert (1 <= 2 ^ k * w) by nra. assert (1 <= g * (2 ^ k * w)) by nra. nra.
Qed.
Lemma bound_plus k m w m' w' : bound k m w + bound k m' w' = bound k (m + m') (w + w').
Proof. unfold bound. ring. Qed.
Lemma bound_times j k m w m' w' : 0 <= m <= w -> 0 <= m' <= w' -> bound j m w * bound k m' w' <= bound (j + k) (m * m') (w * w').
Proof.
  intros H H'. unfold bound. rewrite grow_plus.
  replace (grow j * (m + (2 ^ j - 1) * tiny * w) * (grow k * (m' + (2 ^ k - 1) * tiny * w'))) with
    (grow j * grow k * ((m + (2 ^ j - 1) * tiny * w) * (m' + (2 ^ k - 1) * tiny * w'))) by ring.
  pose proof (grow_1 j). pose proof (grow_1 k). apply Rmult_le_compat_l; [nra|].
  pose proof (two_1 j) as J. pose proof (two_1 k) as K. pose proof tiny_pos as T. pose proof tiny_1 as T1. rewrite pow_add.
  set (a := 2 ^ j - 1) in *. set (b := 2 ^ k - 1) in *. replace (2 ^ j * 2 ^ k - 1) with (a + b + a * b) by (unfold a, b; ring).
  assert (A : 0 <= a) by (unfold a; lra). assert (B : 0 <= b) by (unfold b; lra). clearbody a b. clear J K.
  assert (E1 : a * tiny * w * m' <= a * tiny * (w * w')).
  { replace (a * tiny * w * m') with (a * tiny * w * m') by ring. replace (a * tiny * (w * w')) with (a * tiny * w * w') by ring.
    apply Rmult_le_compat_l; [|lra]. apply Rmult_le_pos; [apply Rmult_le_pos; lra|lra]. }
  assert (E2 : b * tiny * w' * m <= b * tiny * (w * w')).
  { replace (b * tiny * (w * w')) with (b * tiny * w' * w) by ring. apply Rmult_le_compat_l; [|lra]. apply Rmult_le_pos; [apply Rmult_le_pos; lra|lra]. }
  assert (E3 : a * b * tiny * tiny * (w * w') <= a * b * tiny * (w * w')).
  { apply Rmult_le_compat_r; [nra|]. rewrite <- (Rmult_1_r (a * b * tiny)) at 2. apply Rmult_le_compat_l; [|lra]. apply Rmult_le_pos; [nra|lra]. }
  nra.
Qed.

(** ** The result of any evaluation *)
Lemma ffma_round x y z : is_finite x = true -> is_finite y = true -> is_finite z = true ->
  Rabs (rnd (B2R x * B2R y + B2R z)) < bpow radix2 1024 ->
  B2R (ffma x y z) = rnd (B2R x * B2R y + B2R z) /\ is_finite (ffma x y z) = true.
Proof.
  intros Hx Hy Hz H. pose proof (Bfma_correct 53 1024 _ _ mode_NE x y z Hx Hy Hz) as C. cbv zeta in C. cbn [round_mode] in C.
  unfold rnd in H. rewrite Rlt_bool_true in C by exact H. destruct C as (C1 & C2 & _). auto.
Qed.
(** [x] is the value of [v] up to an error that makes a magnitude [m] at most [b]. *)
Definition within (x : b64) (v m b : R) : Prop := is_finite x = true /\ Rabs (B2R x - v) <= b - m /\ Rabs v <= m.
Lemma within_abs x v m b : within x v m b -> Rabs (B2R x) <= b.
Proof. intros (_ & H & V). replace (B2R x) with ((B2R x - v) + v) by ring. eapply Rle_trans; [apply Rabs_triang|]. lra. Qed.
Lemma within_round x z v m b b' : is_finite x = true -> B2R x = rnd z -> Rabs (z - v) <= b - m -> Rabs v <= m ->
  (1 + ulp1) * b + tiny <= b' -> within x v m b'.
Proof.
  intros F E H V L. split; [exact F|]. split; [|exact V]. rewrite E. replace (rnd z - v) with ((rnd z - z) + (z - v)) by ring.
  eapply Rle_trans; [apply Rabs_triang|]. pose proof (rnd_error z) as R0.
  assert (Z : Rabs z <= b) by (replace z with ((z - v) + v) by ring; eapply Rle_trans; [apply Rabs_triang|lra]).
  assert (ulp1 * Rabs z <= ulp1 * b) by (apply Rmult_le_compat_l; [apply Rlt_le, ulp1_pos|exact Z]). lra.
Qed.
Lemma within_add x y v w m n b c d : within x v m b -> within y w n c -> (1 + ulp1) * (b + c) + tiny <= d -> b + c <= huge ->
  within (fadd x y) (v + w) (m + n) d.
Proof.
  intros WX WY L HU. pose proof (within_abs _ _ _ _ WX) as AX. pose proof (within_abs _ _ _ _ WY) as AY.
  destruct WX as (F1 & H1 & V1). destruct WY as (F2 & H2 & V2).
  destruct (fadd_round x y F1 F2) as [E F]; [apply huge_lt; eapply Rle_trans; [apply Rabs_triang|lra]|].
  eapply within_round with (b := b + c); [exact F|exact E| | |exact L].
  - replace (B2R x + B2R y - (v + w)) with ((B2R x - v) + (B2R y - w)) by ring. eapply Rle_trans; [apply Rabs_triang|lra].
  - eapply Rle_trans; [apply Rabs_triang|lra].
Qed.
Lemma product_error x y v w m n b c : Rabs (x - v) <= b - m -> Rabs v <= m -> Rabs (y - w) <= c - n -> Rabs w <= n ->
  Rabs (x * y - v * w) <= b * c - m * n /\ Rabs (v * w) <= m * n /\ Rabs (x * y) <= b * c.
Proof.
  intros H1 V1 H2 V2. pose proof (Rabs_pos (x - v)). pose proof (Rabs_pos (y - w)). pose proof (Rabs_pos v). pose proof (Rabs_pos w).
  assert (A : Rabs (x * y - v * w) <= b * c - m * n).
  { replace (x * y - v * w) with ((x - v) * w + (v * (y - w) + (x - v) * (y - w))) by ring.
    eapply Rle_trans; [apply Rabs_triang|]. eapply Rle_trans; [apply Rplus_le_compat_l, Rabs_triang|]. rewrite !Rabs_mult.
    assert (Rabs (x - v) * Rabs w <= (b - m) * n) by (apply Rmult_le_compat; lra).
    assert (Rabs v * Rabs (y - w) <= m * (c - n)) by (apply Rmult_le_compat; lra).
    assert (Rabs (x - v) * Rabs (y - w) <= (b - m) * (c - n)) by (apply Rmult_le_compat; lra). lra. }
  assert (B : Rabs (v * w) <= m * n) by (rewrite Rabs_mult; apply Rmult_le_compat; lra).
  split; [exact A|]. split; [exact B|]. replace (x * y) with ((x * y - v * w) + v * w) by ring. eapply Rle_trans; [apply Rabs_triang|lra].
Qed.
Lemma within_mul x y v w m n b c d : within x v m b -> within y w n c -> (1 + ulp1) * (b * c) + tiny <= d -> b * c <= huge ->
  within (fmul x y) (v * w) (m * n) d.
Proof.
  intros (F1 & H1 & V1) (F2 & H2 & V2) L HU. destruct (product_error _ _ _ _ _ _ _ _ H1 V1 H2 V2) as (A & B & C).
  destruct (fmul_round x y F1 F2) as [E F]; [apply huge_lt; lra|]. eapply within_round with (b := b * c); eassumption.
Qed.
Lemma within_fma x y z v w r m n p b c e d : within x v m b -> within y w n c -> within z r p e ->
  (1 + ulp1) * (b * c + e) + tiny <= d -> b * c + e <= huge -> within (ffma x y z) (v * w + r) (m * n + p) d.
Proof.
  intros (F1 & H1 & V1) (F2 & H2 & V2) WZ L HU. pose proof (within_abs _ _ _ _ WZ) as AZ. destruct WZ as (F3 & H3 & V3).
  destruct (product_error _ _ _ _ _ _ _ _ H1 V1 H2 V2) as (A & B & C).
  destruct (ffma_round x y z F1 F2 F3) as [E F]; [apply huge_lt; eapply Rle_trans; [apply Rabs_triang|lra]|].
  eapply within_round with (b := b * c + e); [exact F|exact E| | |exact L].
  - replace (B2R x * B2R y + B2R z - (v * w + r)) with ((B2R x * B2R y - v * w) + (B2R z - r)) by ring. eapply Rle_trans; [apply Rabs_triang|lra].
  - eapply Rle_trans; [apply Rabs_triang|lra].
Qed.
Lemma bound_le j k m w w' : (j <= k)%nat -> 0 <= m -> 0 <= w <= w' -> bound j m w <= bound k m w'.
Proof. intros. eapply Rle_trans; [apply bound_mono; [eassumption|lra|lra]|]. now apply bound_add_w. Qed.
Lemma bound_mw k m m' w : m <= m' -> bound k m w <= bound k m' w.
Proof. intros. unfold bound. pose proof (grow_1 k). apply Rmult_le_compat_l; lra. Qed.

Lemma evaluates_within t x : evaluates t x -> finite_poly t -> bound (rounds t) (weight t) (weight t) <= huge ->
  within x (value t) (magnitude t) (bound (rounds t) (magnitude t) (weight t)).
Proof.
  intros HE. induction HE as [x|t u x y E1 IH1 E2 IH2|t u x y E1 IH1 E2 IH2|t u v x y z E1 IH1 E2 IH2 E3 IH3|t u x S E IH]; intros HF HU.
  - unfold value, magnitude. cbn. inversion HF as [|? ? F _]; subst. inversion F; subst. split; [assumption|]. split; [|rewrite !Rmult_1_r, !Rplus_0_r; lra].
    replace (B2R x - (B2R x * 1 + 0)) with 0 by ring. rewrite Rabs_R0. unfold bound, rounds. cbn. lra.
  - destruct (finite_app _ _ HF) as [F1 F2]. pose proof (shaped_longest _ (evaluates_shaped _ _ E1)) as [S1 S1']. pose proof (shaped_longest _ (evaluates_shaped _ _ E2)) as [S2 S2'].
    pose proof (weight_1 t (proj1 (evaluates_shaped _ _ E1))) as W1. pose proof (weight_1 u (proj1 (evaluates_shaped _ _ E2))) as W2.
    pose proof (magnitude_weight t) as M1. pose proof (magnitude_weight u) as M2.
    assert (EW : weight (t ++ u) = weight t + weight u) by apply sumf_app. assert (EM : magnitude (t ++ u) = magnitude t + magnitude u) by apply sumf_app.
    assert (EV : value (t ++ u) = value t + value u) by apply sumf_app. rewrite EW in *. rewrite EM, EV.
    set (k := rounds (t ++ u)) in *.
    assert (K : exists k', k = S k' /\ (rounds t <= k')%nat /\ (rounds u <= k')%nat).
    { exists (k - 1)%nat. unfold k, rounds. rewrite app_length, longest_app. lia. }
    destruct K as (k' & -> & K1 & K2).
    assert (BS : (1 + ulp1) * (bound k' (magnitude t) (weight t) + bound k' (magnitude u) (weight u)) + tiny <= bound (S k') (magnitude t + magnitude u) (weight t + weight u)).
    { rewrite bound_plus. apply bound_S; lra. }
    assert (HB : bound (S k') (magnitude t + magnitude u) (weight t + weight u) <= huge) by (eapply Rle_trans; [apply bound_mw|exact HU]; lra).
    assert (U1 : bound (rounds t) (weight t) (weight t) <= huge).
    { eapply Rle_trans; [apply bound_le with (k := S k') (w' := weight t + weight u); [lia|lra|lra]|]. eapply Rle_trans; [apply bound_mw|exact HU]. lra. }
    assert (U2 : bound (rounds u) (weight u) (weight u) <= huge).
    { eapply Rle_trans; [apply bound_le with (k := S k') (w' := weight t + weight u); [lia|lra|lra]|]. eapply Rle_trans; [apply bound_mw|exact HU]. lra. }
    specialize (IH1 F1 U1). specialize (IH2 F2 U2).
    pose proof (bound_mono (rounds t) k' (magnitude t) (weight t) K1 ltac:(lra) ltac:(lra)) as B1. pose proof (bound_mono (rounds u) k' (magnitude u) (weight u) K2 ltac:(lra) ltac:(lra)) as B2.
    pose proof (bound_m k' (magnitude t) (weight t) ltac:(lra) ltac:(lra)). pose proof (bound_m k' (magnitude u) (weight u) ltac:(lra) ltac:(lra)). pose proof ulp1_pos. pose proof tiny_pos.
    eapply within_add with (b := bound k' (magnitude t) (weight t)) (c := bound k' (magnitude u) (weight u)).
    + destruct IH1 as (A & B & C). repeat split; [exact A|lra|exact C].
    + destruct IH2 as (A & B & C). repeat split; [exact A|lra|exact C].
    + exact BS.
    + nra.
  - pose proof (evaluates_shaped _ _ E1) as HS1. pose proof (evaluates_shaped _ _ E2) as HS2.
    destruct (finite_distribute _ _ (proj1 HS1) (proj1 HS2) HF) as [F1 F2]. pose proof (shaped_longest _ HS1) as [S1 S1']. pose proof (shaped_longest _ HS2) as [S2 S2'].
    pose proof (weight_1 t (proj1 HS1)) as W1. pose proof (weight_1 u (proj1 HS2)) as W2.
    pose proof (magnitude_weight t) as M1. pose proof (magnitude_weight u) as M2.
    assert (EW : weight (distribute t u) = weight t * weight u) by apply sumf_distribute. assert (EM : magnitude (distribute t u) = magnitude t * magnitude u) by apply sumf_distribute.
    assert (EV : value (distribute t u) = value t * value u) by apply sumf_distribute. rewrite EW in *. rewrite EM, EV.
    set (k := rounds (distribute t u)) in *.
    assert (K : (rounds t + rounds u + 1 <= k)%nat).
    { unfold k, rounds. rewrite length_distribute, longest_distribute by (apply HS1 || apply HS2). nia. }
    assert (WW : weight t <= weight t * weight u /\ weight u <= weight t * weight u) by (split; nra).
    assert (MW : 0 <= magnitude t * magnitude u <= weight t * weight u) by (split; [apply Rmult_le_pos; lra|apply Rmult_le_compat; lra]).
    assert (BS : (1 + ulp1) * (bound (rounds t) (magnitude t) (weight t) * bound (rounds u) (magnitude u) (weight u)) + tiny <= bound k (magnitude t * magnitude u) (weight t * weight u)).
    { eapply Rle_trans; [|apply bound_mono with (j := S (rounds t + rounds u)); [lia|lra|lra]]. eapply Rle_trans; [|apply bound_S; [lra|nra]].
      apply Rplus_le_compat_r. apply Rmult_le_compat_l; [pose proof ulp1_pos; lra|]. apply bound_times; lra. }
    assert (HB : bound k (magnitude t * magnitude u) (weight t * weight u) <= huge) by (eapply Rle_trans; [apply bound_mw|exact HU]; lra).
    assert (U1 : bound (rounds t) (weight t) (weight t) <= huge).
    { eapply Rle_trans; [apply bound_le with (k := k) (w' := weight t * weight u); [lia|lra|lra]|]. eapply Rle_trans; [apply bound_mw|exact HU]. lra. }
    assert (U2 : bound (rounds u) (weight u) (weight u) <= huge).
    { eapply Rle_trans; [apply bound_le with (k := k) (w' := weight t * weight u); [lia|lra|lra]|]. eapply Rle_trans; [apply bound_mw|exact HU]. lra. }
    specialize (IH1 F1 U1). specialize (IH2 F2 U2).
    pose proof (bound_m (rounds t) (magnitude t) (weight t) ltac:(lra) ltac:(lra)) as P1. pose proof (bound_m (rounds u) (magnitude u) (weight u) ltac:(lra) ltac:(lra)) as P2. pose proof ulp1_pos. pose proof tiny_pos.
    eapply within_mul; [exact IH1|exact IH2|exact BS|].
    assert (0 <= bound (rounds t) (magnitude t) (weight t) * bound (rounds u) (magnitude u) (weight u)) by (apply Rmult_le_pos; lra). nra.
  - pose proof (evaluates_shaped _ _ E1) as HS1. pose proof (evaluates_shaped _ _ E2) as HS2. pose proof (evaluates_shaped _ _ E3) as HS3.
    destruct (finite_app _ _ HF) as [F12 F3].
    destruct (finite_distribute _ _ (proj1 HS1) (proj1 HS2) F12) as [F1 F2]. pose proof (shaped_longest _ HS1) as [S1 S1']. pose proof (shaped_longest _ HS2) as [S2 S2']. pose proof (shaped_longest _ HS3) as [S3 S3'].
    pose proof (weight_1 t (proj1 HS1)) as W1. pose proof (weight_1 u (proj1 HS2)) as W2. pose proof (weight_1 v (proj1 HS3)) as W3.
    pose proof (magnitude_weight t) as M1. pose proof (magnitude_weight u) as M2. pose proof (magnitude_weight v) as M3.
    assert (EW : weight (distribute t u ++ v) = weight t * weight u + weight v) by (unfold weight; now rewrite sumf_app, sumf_distribute).
    assert (EM : magnitude (distribute t u ++ v) = magnitude t * magnitude u + magnitude v) by (unfold magnitude; now rewrite sumf_app, sumf_distribute).
    assert (EV : value (distribute t u ++ v) = value t * value u + value v) by (unfold value; now rewrite sumf_app, sumf_distribute). rewrite EW in *. rewrite EM, EV.
    set (k := rounds (distribute t u ++ v)) in *.
    assert (K : exists k', k = S k' /\ (rounds t + rounds u <= k')%nat /\ (rounds v <= k')%nat).
    { exists (k - 1)%nat. unfold k, rounds. rewrite app_length, longest_app, length_distribute, longest_distribute by (apply HS1 || apply HS2). nia. }
    destruct K as (k' & -> & K1 & K2).
    assert (WW : weight t <= weight t * weight u /\ weight u <= weight t * weight u) by (split; nra).
    assert (MW : 0 <= magnitude t * magnitude u <= weight t * weight u) by (split; [apply Rmult_le_pos; lra|apply Rmult_le_compat; lra]).
    assert (BS : (1 + ulp1) * (bound (rounds t) (magnitude t) (weight t) * bound (rounds u) (magnitude u) (weight u) + bound (rounds v) (magnitude v) (weight v)) + tiny
              <= bound (S k') (magnitude t * magnitude u + magnitude v) (weight t * weight u + weight v)).
    { eapply Rle_trans; [|apply bound_S; [lra|lra]]. rewrite <- bound_plus.
      apply Rplus_le_compat_r. apply Rmult_le_compat_l; [pose proof ulp1_pos; lra|]. apply Rplus_le_compat.
      - eapply Rle_trans; [apply bound_times; lra|]. apply bound_mono; [exact K1|lra|lra].
      - apply bound_mono; [exact K2|lra|lra]. }
    assert (HB : bound (S k') (magnitude t * magnitude u + magnitude v) (weight t * weight u + weight v) <= huge) by (eapply Rle_trans; [apply bound_mw|exact HU]; lra).
    assert (U1 : bound (rounds t) (weight t) (weight t) <= huge).
    { eapply Rle_trans; [apply bound_le with (k := S k') (w' := weight t * weight u + weight v); [lia|lra|lra]|]. eapply Rle_trans; [apply bound_mw|exact HU]. lra. }
    assert (U2 : bound (rounds u) (weight u) (weight u) <= huge).
    { eapply Rle_trans; [apply bound_le with (k := S k') (w' := weight t * weight u + weight v); [lia|lra|lra]|]. eapply Rle_trans; [apply bound_mw|exact HU]. lra. }
    assert (U3 : bound (rounds v) (weight v) (weight v) <= huge).
    { eapply Rle_trans; [apply bound_le with (k := S k') (w' := weight t * weight u + weight v); [lia|lra|lra]|]. eapply Rle_trans; [apply bound_mw|exact HU]. lra. }
    specialize (IH1 F1 U1). specialize (IH2 F2 U2). specialize (IH3 F3 U3).
    pose proof (bound_m (rounds t) (magnitude t) (weight t) ltac:(lra) ltac:(lra)) as P1. pose proof (bound_m (rounds u) (magnitude u) (weight u) ltac:(lra) ltac:(lra)) as P2.
    pose proof (bound_m (rounds v) (magnitude v) (weight v) ltac:(lra) ltac:(lra)) as P3. pose proof ulp1_pos. pose proof tiny_pos.
    eapply within_fma; [exact IH1|exact IH2|exact IH3|exact BS|].
    assert (0 <= bound (rounds t) (magnitude t) (weight t) * bound (rounds u) (magnitude u) (weight u)) by (apply Rmult_le_pos; lra). nra.
  - destruct (same_sizes _ _ S) as [L1 L2].
    assert (EW : weight u = weight t) by (symmetry; now apply sumf_same). assert (EM : magnitude u = magnitude t) by (symmetry; now apply sumf_same).
    assert (EV : value u = value t) by (symmetry; now apply sumf_same). assert (ER : rounds u = rounds t) by (unfold rounds; now rewrite L1, L2).
    rewrite EW, ER in *. rewrite EM, EV. apply IH; [now apply (finite_same t u)|exact HU].
Qed.
