(** Proofs about the binary64 model: exact operations, the ceiling, lengths of coordinate vectors. *)
From Coq Require Import ZArith Reals Bool Lia Lra.
From Flocq Require Import Core BinarySingleNaN Relative.
From Verif Require Import FloatModel.
Open Scope R_scope.

Definition rnd (x : R) : R := round radix2 (SpecFloat.fexp 53 1024) ZnearestE x.
Definition fits (x : R) : Prop :=
  generic_format radix2 (SpecFloat.fexp 53 1024) x /\ Rabs x < bpow radix2 1024.

Lemma rnd_fits x : fits x -> rnd x = x /\ Rabs (rnd x) < bpow radix2 1024.
Proof.
  intros [F B]. assert (E : rnd x = x) by (apply round_generic; [ apply valid_rnd_N | exact F ]).
  rewrite E. tauto.
Qed.

Lemma fits_dyadic k e : (Z.abs k < 2 ^ 53)%Z -> (-1074 <= e <= 970)%Z -> fits (IZR k * bpow radix2 e).
Proof.
  intros K E. split.
  - apply (generic_format_FLT radix2 (-1074) 53). exists (Float radix2 k e); cbn; [ reflexivity | exact K | lia ].
  - rewrite Rabs_mult, (Rabs_pos_eq (bpow radix2 e)) by apply bpow_ge_0.
    apply Rlt_le_trans with (bpow radix2 53 * bpow radix2 e).
    + apply Rmult_lt_compat_r; [ apply bpow_gt_0 | ].
      rewrite <- abs_IZR. apply IZR_lt in K. eapply Rlt_le_trans; [ exact K | ]. right. reflexivity.
    + rewrite <- bpow_plus. apply bpow_le. lia.
Qed.
Lemma fits_int k : (Z.abs k < 2 ^ 53)%Z -> fits (IZR k).
Proof. intros K. replace (IZR k) with (IZR k * bpow radix2 0) by (cbn; lra). apply fits_dyadic; [ exact K | lia ]. Qed.

Lemma fmul_round x y : is_finite x = true -> is_finite y = true ->
  Rabs (rnd (B2R x * B2R y)) < bpow radix2 1024 ->
  B2R (fmul x y) = rnd (B2R x * B2R y) /\ is_finite (fmul x y) = true.
Proof.
  intros X Y B. generalize (Bmult_correct 53 1024 _ _ mode_NE x y). cbv beta. fold (fmul x y).
  rewrite Rlt_bool_true by exact B. rewrite X, Y. intros (E & F & _). split; assumption.
Qed.
Lemma fadd_round x y : is_finite x = true -> is_finite y = true ->
  Rabs (rnd (B2R x + B2R y)) < bpow radix2 1024 ->
  B2R (fadd x y) = rnd (B2R x + B2R y) /\ is_finite (fadd x y) = true.
Proof.
  intros X Y B. generalize (Bplus_correct 53 1024 _ _ mode_NE x y X Y). fold (fadd x y).
  rewrite Rlt_bool_true by exact B. intros (E & F & _). split; assumption.
Qed.
Lemma fsub_round x y : is_finite x = true -> is_finite y = true ->
  Rabs (rnd (B2R x - B2R y)) < bpow radix2 1024 ->
  B2R (fsub x y) = rnd (B2R x - B2R y) /\ is_finite (fsub x y) = true.
Proof.
  intros X Y B. generalize (Bminus_correct 53 1024 _ _ mode_NE x y X Y). fold (fsub x y).
  rewrite Rlt_bool_true by exact B. intros (E & F & _). split; assumption.
Qed.
Lemma fdiv_round x y : is_finite x = true -> B2R y <> 0 ->
  Rabs (rnd (B2R x / B2R y)) < bpow radix2 1024 ->
  B2R (fdiv x y) = rnd (B2R x / B2R y) /\ is_finite (fdiv x y) = true.
Proof.
  intros X Y B. generalize (Bdiv_correct 53 1024 _ _ mode_NE x y Y). fold (fdiv x y).
  rewrite Rlt_bool_true by exact B. rewrite X. intros (E & F & _). split; assumption.
Qed.
Lemma flit_exact m e : fits (IZR m * bpow radix2 e) ->
  B2R (flit m e) = IZR m * bpow radix2 e /\ is_finite (flit m e) = true.
Proof.
  intros F. destruct (rnd_fits _ F) as [E B].
  generalize (binary_normalize_correct 53 1024 _ _ mode_NE m e false). cbv zeta. fold (flit m e).
  rewrite Rlt_bool_true; [ | exact B ]. intros (A & G & _). split; [ | exact G ]. rewrite A. exact E.
Qed.
Lemma fint_exact n : (Z.abs n < 2 ^ 53)%Z -> B2R (fint n) = IZR n /\ is_finite (fint n) = true.
Proof.
  intros N. destruct (flit_exact n 0) as [A B]; [ apply fits_dyadic; [ exact N | lia ] | ].
  split; [ | exact B ]. unfold fint. rewrite A. cbn. lra.
Qed.

Lemma fceil_finite (x : b64) : is_finite x = true -> fceil x = Some (Zceil (B2R x)).
Proof.
  destruct x as [ s | s | | s m e H ]; try discriminate; intros _; cbn [fceil B2R].
  - f_equal. symmetry. change 0 with (IZR 0). apply Zceil_IZR.
  - f_equal. unfold F2R. cbn [Fnum Fexp].
    replace (IZR (cond_Zopp s (Z.pos m))) with (IZR (if s then Z.neg m else Z.pos m)) by (destruct s; reflexivity).
    set (v := if s then Z.neg m else Z.pos m). destruct (0 <=? e)%Z eqn:E.
    + apply Z.leb_le in E. rewrite <- (IZR_Zpower radix2) by exact E. rewrite <- mult_IZR, Zceil_IZR. reflexivity.
    + apply Z.leb_gt in E. unfold Zceil. f_equal.
      assert (P : IZR (radix2 ^ (- e)) = / bpow radix2 e)
        by (rewrite (IZR_Zpower radix2) by lia; apply bpow_opp).
      replace (- (IZR v * bpow radix2 e)) with (IZR (- v) / IZR (radix2 ^ (- e))).
      * symmetry. apply Zfloor_div. change (radix_val radix2) with 2%Z. generalize (Z.pow_pos_nonneg 2 (- e)). lia.
      * rewrite P, opp_IZR. unfold Rdiv. rewrite Rinv_inv. ring.
Qed.

Lemma rnd_le x y : x <= y -> rnd x <= rnd y.
Proof. apply round_le; [ apply (fexp_correct 53 1024); reflexivity | apply valid_rnd_N ]. Qed.
Lemma rnd_0 : rnd 0 = 0.
Proof. apply round_0. apply valid_rnd_N. Qed.

(** The first coordinate of a grid written by the library is 0. *)
Lemma centre_origin step : is_finite step = true ->
  B2R (centre step (grid_origin step)) = 0 /\ is_finite (centre step (grid_origin step)) = true.
Proof.
  intros F. unfold centre, grid_origin.
  assert (HF : B2R half = /2 /\ is_finite half = true).
  { destruct (flit_exact 1 (-1)) as [A B]; [ apply fits_dyadic; lia | ]. split; [ | exact B ].
    unfold half. rewrite A. cbn. lra. }
  destruct HF as [HV HF].
  assert (FS : generic_format radix2 (SpecFloat.fexp 53 1024) (B2R step)) by apply generic_format_B2R.
  assert (SB : Rabs (B2R step) < bpow radix2 1024) by apply abs_B2R_lt_emax.
  assert (HB : forall y, y = B2R step * /2 -> Rabs (rnd y) < bpow radix2 1024).
  { intros y ->. apply Rle_lt_trans with (Rabs (B2R step)); [ | exact SB ].
    apply abs_round_le_generic;
      [ apply (fexp_correct 53 1024); reflexivity | apply valid_rnd_N | apply generic_format_abs; exact FS | ].
    rewrite Rabs_mult, (Rabs_pos_eq (/2)) by lra. generalize (Rabs_pos (B2R step)). lra. }
  destruct (fmul_round half step) as [M1 F1]; [ assumption | assumption | apply HB; rewrite HV; ring | ].
  destruct (fmul_round step half) as [M2 F2]; [ assumption | assumption | apply HB; rewrite HV; ring | ].
  destruct (fint_exact 0) as [Z1 Z2]; [ lia | ].
  destruct (fmul_round half (fint 0)) as [M3 F3]; [ assumption | assumption | | ].
  { rewrite Z1, Rmult_0_r, rnd_0, Rabs_R0. apply bpow_gt_0. }
  rewrite Z1, Rmult_0_r, rnd_0 in M3.
  set (p := rnd (B2R step * B2R half)) in *.
  assert (P : rnd p = p) by (apply round_generic; [ apply valid_rnd_N | ];
    apply generic_format_round; [ apply (fexp_correct 53 1024); reflexivity | apply valid_rnd_N ]).
  rewrite (Rmult_comm (B2R half)) in M1. fold p in M1.
  destruct (fadd_round (fmul half step) (fmul half (fint 0))) as [A1 G1]; [ assumption | assumption | | ].
  { rewrite M1, M3, Rplus_0_r, P. unfold p. apply HB. rewrite HV. reflexivity. }
  rewrite M1, M3, Rplus_0_r, P in A1.
  assert (O : B2R (fopp (fmul step half)) = - p) by (unfold fopp; rewrite B2R_Bopp, M2; reflexivity).
  assert (OF : is_finite (fopp (fmul step half)) = true) by (unfold fopp; rewrite is_finite_Bopp; exact F2).
  destruct (fadd_round (fadd (fmul half step) (fmul half (fint 0))) (fopp (fmul step half))) as [A2 G2];
    [ assumption | assumption | | ].
  { rewrite A1, O. replace (p + - p) with 0 by ring. rewrite rnd_0, Rabs_R0. apply bpow_gt_0. }
  split; [ | exact G2 ]. rewrite A2, A1, O. replace (p + - p) with 0 by ring. apply rnd_0.
Qed.

(** On a dyadic lattice, every operation is exact. *)
Lemma coordinates_exact start stop step (a b n e : Z) :
  is_finite start = true -> is_finite stop = true ->
  B2R start = IZR a * bpow radix2 e -> B2R stop = IZR (a + n * b) * bpow radix2 e ->
  B2R step = IZR b * bpow radix2 e ->
  (-1074 <= e <= 970)%Z -> (b <> 0)%Z -> (0 <= n < 2 ^ 53)%Z -> (Z.abs (n * b) < 2 ^ 53)%Z ->
  arange_length start stop step = Some (Z.to_nat n).
Proof.
  intros FA FO A O S E B N NB. unfold arange_length.
  assert (D : B2R stop - B2R start = IZR (n * b) * bpow radix2 e) by (rewrite A, O, plus_IZR; ring).
  destruct (rnd_fits (IZR (n * b) * bpow radix2 e)) as [D1 D2]; [ apply fits_dyadic; assumption | ].
  destruct (fsub_round stop start) as [U1 U2]; [ assumption | assumption | rewrite D; exact D2 | ].
  rewrite D, D1 in U1.
  assert (BP := bpow_gt_0 radix2 e).
  assert (IB : IZR b <> 0) by (intros C; apply B; apply eq_IZR; exact C).
  assert (Q : B2R (fsub stop start) / B2R step = IZR n)
    by (rewrite U1, S, mult_IZR; field; split; [ lra | exact IB ]).
  destruct (rnd_fits (IZR n)) as [N1 N2]; [ apply fits_int; lia | ].
  destruct (fdiv_round (fsub stop start) step) as [V1 V2].
  - exact U2.
  - rewrite S. apply Rmult_integral_contrapositive. split; [ exact IB | lra ].
  - rewrite Q. exact N2.
  - rewrite (fceil_finite _ V2), V1, Q, N1, Zceil_IZR. reflexivity.
Qed.
