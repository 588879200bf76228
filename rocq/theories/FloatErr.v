(** Rounding errors of the binary64 operations. *)
From Coq Require Import ZArith Reals Bool Lia Lra Psatz.
From Flocq Require Import Core BinarySingleNaN Relative.
From Verif Require Import FloatModel Float.
Open Scope R_scope.

Definition ulp1 : R := bpow radix2 (-53).
Definition tiny : R := bpow radix2 (-1075).
Definition huge : R := bpow radix2 1020.

Lemma ulp1_pos : 0 < ulp1. Proof. apply bpow_gt_0. Qed.
Lemma tiny_pos : 0 < tiny. Proof. apply bpow_gt_0. Qed.
Lemma ulp1_val : ulp1 = / IZR (2 ^ 53). Proof. reflexivity. Qed.
Lemma ulp1_small : ulp1 <= / 1000000.
Proof. rewrite ulp1_val. change (IZR (2 ^ 53)) with 9007199254740992. apply Rinv_le; lra. Qed.
Lemma tiny_small : tiny <= ulp1 * / 1000000.
Proof.
  apply Rle_trans with (bpow radix2 (-1022) * ulp1); [unfold tiny, ulp1; rewrite <- bpow_plus; apply bpow_le; lia|].
  rewrite Rmult_comm. apply Rmult_le_compat_l; [apply Rlt_le, ulp1_pos|].
  apply Rle_trans with (bpow radix2 (-53)); [apply bpow_le; lia|apply ulp1_small].
Qed.

Lemma rnd_error x : Rabs (rnd x - x) <= ulp1 * Rabs x + tiny.
Proof.
  destruct (error_N_FLT radix2 (-1074) 53 ltac:(lia) (fun x => negb (Z.even x)) x) as (e & t & He & Ht & _ & E).
  unfold rnd. change (SpecFloat.fexp 53 1024) with (FLT_exp (-1074) 53). rewrite E.
  replace (x * (1 + e) + t - x) with (x * e + t) by ring. eapply Rle_trans; [apply Rabs_triang|]. rewrite Rabs_mult.
  assert (H1 : / 2 * bpow radix2 (-53 + 1) = ulp1) by (unfold ulp1; change (-53 + 1)%Z with (1 + -53)%Z; rewrite bpow_plus; change (bpow radix2 1) with 2; field).
  assert (H2 : / 2 * bpow radix2 (-1074) = tiny) by (unfold tiny; change (-1074)%Z with (1 + -1075)%Z; rewrite bpow_plus; change (bpow radix2 1) with 2; field).
  assert (He1 : Rabs e <= ulp1) by (rewrite <- H1; exact He). assert (Ht1 : Rabs t <= tiny) by (rewrite <- H2; exact Ht). pose proof (Rabs_pos x). rewrite (Rmult_comm ulp1). apply Rplus_le_compat; [|exact Ht1].
  apply Rmult_le_compat_l; assumption.
Qed.
Lemma huge_lt x : Rabs x <= huge -> Rabs (rnd x) < bpow radix2 1024.
Proof.
  intros H. replace (rnd x) with (x + (rnd x - x)) by ring. eapply Rle_lt_trans; [apply Rabs_triang|].
  pose proof (rnd_error x) as E. pose proof ulp1_small. pose proof ulp1_pos. pose proof tiny_small. pose proof (Rabs_pos x).
  assert (B : bpow radix2 1024 = 16 * huge) by (unfold huge; change 1024%Z with (4 + 1020)%Z; rewrite bpow_plus; reflexivity).
  assert (1 <= huge) by (unfold huge; change 1 with (bpow radix2 0); apply bpow_le; lia).
  assert (ulp1 * Rabs x <= 1 * Rabs x) by (apply Rmult_le_compat_r; lra). lra.
Qed.

(** [x] is within [e] of the number [v]. *)
Definition near (x : b64) (v e : R) : Prop := is_finite x = true /\ Rabs (B2R x - v) <= e.
Lemma near_exact x : is_finite x = true -> near x (B2R x) 0.
Proof. intros F. split; [exact F|]. replace (B2R x - B2R x) with 0 by ring. rewrite Rabs_R0. lra. Qed.
Lemma near_weaken x v e e' : near x v e -> e <= e' -> near x v e'.
Proof. intros [F H] L. split; [exact F|lra]. Qed.

Lemma near_round x v z c e e' : is_finite x = true -> B2R x = rnd z -> Rabs (z - v) <= e -> Rabs v <= c ->
  e + ulp1 * (c + e) + tiny <= e' -> near x v e'.
Proof.
  intros F E H C L. split; [exact F|]. rewrite E. replace (rnd z - v) with ((rnd z - z) + (z - v)) by ring.
  eapply Rle_trans; [apply Rabs_triang|]. pose proof (rnd_error z) as R0.
  assert (Z : Rabs z <= c + e) by (replace z with (v + (z - v)) by ring; eapply Rle_trans; [apply Rabs_triang|lra]).
  assert (ulp1 * Rabs z <= ulp1 * (c + e)) by (apply Rmult_le_compat_l; [apply Rlt_le, ulp1_pos|exact Z]). lra.
Qed.
Lemma near_bound z v c e : Rabs (z - v) <= e -> Rabs v <= c -> Rabs z <= c + e.
Proof. intros H C. replace z with (v + (z - v)) by ring. eapply Rle_trans; [apply Rabs_triang|lra]. Qed.
Lemma near_add x y a b e1 e2 c e : near x a e1 -> near y b e2 -> Rabs (a + b) <= c ->
  (e1 + e2) + ulp1 * (c + (e1 + e2)) + tiny <= e -> c + (e1 + e2) <= huge -> near (fadd x y) (a + b) e.
Proof.
  intros [F1 H1] [F2 H2] C L HU.
  assert (D : Rabs (B2R x + B2R y - (a + b)) <= e1 + e2).
  { replace (B2R x + B2R y - (a + b)) with ((B2R x - a) + (B2R y - b)) by ring. eapply Rle_trans; [apply Rabs_triang|lra]. }
  destruct (fadd_round x y F1 F2) as [E F]; [apply huge_lt; pose proof (near_bound _ _ _ _ D C); lra|].
  eapply near_round; eassumption.
Qed.
Lemma near_sub x y a b e1 e2 c e : near x a e1 -> near y b e2 -> Rabs (a - b) <= c ->
  (e1 + e2) + ulp1 * (c + (e1 + e2)) + tiny <= e -> c + (e1 + e2) <= huge -> near (fsub x y) (a - b) e.
Proof.
  intros [F1 H1] [F2 H2] C L HU.
  assert (D : Rabs (B2R x - B2R y - (a - b)) <= e1 + e2).
  { replace (B2R x - B2R y - (a - b)) with ((B2R x - a) + - (B2R y - b)) by ring. eapply Rle_trans; [apply Rabs_triang|]. rewrite Rabs_Ropp. lra. }
  destruct (fsub_round x y F1 F2) as [E F]; [apply huge_lt; pose proof (near_bound _ _ _ _ D C); lra|].
  eapply near_round; eassumption.
Qed.
Lemma near_mul x y a b e1 e2 A B c d e : near x a e1 -> near y b e2 -> Rabs a <= A -> Rabs b <= B -> A * B <= c ->
  e1 * B + A * e2 + e1 * e2 <= d -> d + ulp1 * (c + d) + tiny <= e -> c + d <= huge -> near (fmul x y) (a * b) e.
Proof.
  intros [F1 H1] [F2 H2] HA HB HC HD L HU.
  pose proof (Rabs_pos a). pose proof (Rabs_pos b). pose proof (Rabs_pos (B2R x - a)). pose proof (Rabs_pos (B2R y - b)).
  assert (D : Rabs (B2R x * B2R y - a * b) <= d).
  { replace (B2R x * B2R y - a * b) with ((B2R x - a) * b + a * (B2R y - b) + (B2R x - a) * (B2R y - b)) by ring.
    eapply Rle_trans; [apply Rabs_triang|]. eapply Rle_trans; [apply Rplus_le_compat; [apply Rabs_triang|apply Rle_refl]|]. rewrite !Rabs_mult.
    assert (Rabs (B2R x - a) * Rabs b <= e1 * B) by (apply Rmult_le_compat; lra).
    assert (Rabs a * Rabs (B2R y - b) <= A * e2) by (apply Rmult_le_compat; lra).
    assert (Rabs (B2R x - a) * Rabs (B2R y - b) <= e1 * e2) by (apply Rmult_le_compat; lra). lra. }
  assert (C : Rabs (a * b) <= c) by (rewrite Rabs_mult; eapply Rle_trans; [apply Rmult_le_compat; eassumption|exact HC]).
  destruct (fmul_round x y F1 F2) as [E F]; [apply huge_lt; pose proof (near_bound _ _ _ _ D C); lra|].
  eapply near_round; eassumption.
Qed.

(** Exact operations: the result is a binary64 number. *)
Lemma fits_b64 (x : b64) : is_finite x = true -> fits (B2R x).
Proof. intros F. split; [apply generic_format_B2R|]. apply abs_B2R_lt_emax. Qed.
Lemma fadd_fits x y r : is_finite x = true -> is_finite y = true -> B2R x + B2R y = r -> fits r -> B2R (fadd x y) = r /\ is_finite (fadd x y) = true.
Proof. intros F1 F2 E H. destruct (rnd_fits r H) as [R1 R2]. destruct (fadd_round x y F1 F2) as [E1 E2]; rewrite E in *; [exact R2|]. rewrite E1. tauto. Qed.
Lemma fsub_fits x y r : is_finite x = true -> is_finite y = true -> B2R x - B2R y = r -> fits r -> B2R (fsub x y) = r /\ is_finite (fsub x y) = true.
Proof. intros F1 F2 E H. destruct (rnd_fits r H) as [R1 R2]. destruct (fsub_round x y F1 F2) as [E1 E2]; rewrite E in *; [exact R2|]. rewrite E1. tauto. Qed.
Lemma fmul_fits x y r : is_finite x = true -> is_finite y = true -> B2R x * B2R y = r -> fits r -> B2R (fmul x y) = r /\ is_finite (fmul x y) = true.
Proof. intros F1 F2 E H. destruct (rnd_fits r H) as [R1 R2]. destruct (fmul_round x y F1 F2) as [E1 E2]; rewrite E in *; [exact R2|]. rewrite E1. tauto. Qed.
