(** Proofs about the binary64 model of the DTM intersection: the points of the walk are on the line of sight. *)
From Coq Require Import ZArith Reals Bool List Lia Lra Psatz.
From Flocq Require Import Core BinarySingleNaN.
From Verif Require Import FloatModel FloatInterpModel Float FloatErr FloatInterp FloatWalkModel FloatWalkSpec FloatWalk FloatRefine FloatLineSpec.
Import ListNotations.
Open Scope R_scope.

(** ** Operations with a finite result *)
Lemma overflow_not_finite s : is_finite_SF (binary_overflow 53 1024 mode_NE s) = false.
Proof. destruct s; reflexivity. Qed.
Lemma finite_SF (x : b64) : is_finite x = is_finite_SF (B2SF x).
Proof. symmetry. apply is_finite_SF_B2SF. Qed.
Lemma fadd_inv (x y : b64) : is_finite (fadd x y) = true -> is_finite x = true /\ is_finite y = true /\ B2R (fadd x y) = rnd (B2R x + B2R y).
Proof.
  intros H. assert (F : is_finite x = true /\ is_finite y = true).
  { unfold fadd in H. destruct x as [sx|sx| |sx mx ex Hx], y as [sy|sy| |sy my ey Hy]; try (split; reflexivity); try discriminate H; cbn in H; destruct sx, sy; discriminate. }
  destruct F as [Fx Fy]. split; [exact Fx|]. split; [exact Fy|].
  generalize (Bplus_correct 53 1024 _ _ mode_NE x y Fx Fy). fold (fadd x y).
  change (round radix2 (SpecFloat.fexp 53 1024) (round_mode mode_NE) (B2R x + B2R y)) with (rnd (B2R x + B2R y)).
  destruct (Rlt_bool_spec (Rabs (rnd (B2R x + B2R y))) (bpow radix2 1024)); [tauto|]. intros [E _]. exfalso.
  rewrite finite_SF, E, overflow_not_finite in H. discriminate.
Qed.
Lemma fmul_inv (x y : b64) : is_finite (fmul x y) = true -> is_finite x = true /\ is_finite y = true /\ B2R (fmul x y) = rnd (B2R x * B2R y).
Proof.
  intros H. assert (F : is_finite x = true /\ is_finite y = true).
  { unfold fmul in H. destruct x as [sx|sx| |sx mx ex Hx], y as [sy|sy| |sy my ey Hy]; try (split; reflexivity); discriminate H. }
  destruct F as [Fx Fy]. split; [exact Fx|]. split; [exact Fy|].
  generalize (Bmult_correct 53 1024 _ _ mode_NE x y). cbv beta. fold (fmul x y).
  change (round radix2 (SpecFloat.fexp 53 1024) (round_mode mode_NE) (B2R x * B2R y)) with (rnd (B2R x * B2R y)).
  destruct (Rlt_bool_spec (Rabs (rnd (B2R x * B2R y))) (bpow radix2 1024)); [tauto|]. intros E. exfalso.
  rewrite finite_SF, E, overflow_not_finite in H. discriminate.
Qed.
Lemma fdiv_inv (x y : b64) : is_finite y = true -> B2R y <> 0 -> is_finite (fdiv x y) = true -> is_finite x = true /\ B2R (fdiv x y) = rnd (B2R x / B2R y).
Proof.
  intros Fy NZ H. assert (Fx : is_finite x = true).
  { unfold fdiv in H. destruct x as [sx|sx| |sx mx ex Hx], y as [sy|sy| |sy my ey Hy]; try reflexivity; try discriminate H; try discriminate Fy. }
  split; [exact Fx|]. generalize (Bdiv_correct 53 1024 _ _ mode_NE x y NZ). fold (fdiv x y).
  change (round radix2 (SpecFloat.fexp 53 1024) (round_mode mode_NE) (B2R x / B2R y)) with (rnd (B2R x / B2R y)).
  destruct (Rlt_bool_spec (Rabs (rnd (B2R x / B2R y))) (bpow radix2 1024)); [tauto|]. intros E. exfalso.
  rewrite finite_SF, E, overflow_not_finite in H. discriminate.
Qed.

(** ** Differences of usual numbers *)
Definition grain : R := bpow radix2 (-453).
Lemma usual_multiple x : usual_number x -> exists k, B2R x = IZR k * bpow radix2 (-452).
Proof.
  intros (F & _ & [Z0|L]); [exists 0%Z; rewrite Z0; lra|].
  pose proof (generic_format_B2R 53 1024 x) as G.
  assert (MG : (-399 <= mag radix2 (B2R x))%Z).
  { apply mag_ge_bpow. exact L. }
  unfold generic_format, F2R in G. cbn [Fnum Fexp] in G. set (e := cexp radix2 (SpecFloat.fexp 53 1024) (B2R x)) in *.
  assert (E : (-452 <= e)%Z) by (unfold e, cexp, SpecFloat.fexp, SpecFloat.emin; lia).
  exists (Ztrunc (scaled_mantissa radix2 (SpecFloat.fexp 53 1024) (B2R x)) * 2 ^ (e + 452))%Z.
  rewrite G at 1. rewrite mult_IZR, Rmult_assoc. f_equal. rewrite (IZR_Zpower radix2) by lia. rewrite <- bpow_plus. f_equal. lia.
Qed.
Lemma usual_gap x y : usual_number x -> usual_number y -> B2R x <> B2R y -> bpow radix2 (-452) <= Rabs (B2R x - B2R y).
Proof.
  intros Ux Uy N. destruct (usual_multiple x Ux) as [k Ek]. destruct (usual_multiple y Uy) as [l El]. rewrite Ek, El in *.
  rewrite <- Rmult_minus_distr_r, <- minus_IZR, Rabs_mult, (Rabs_pos_eq (bpow _ _)) by apply bpow_ge_0.
  rewrite <- (Rmult_1_l (bpow radix2 (-452))) at 1. apply Rmult_le_compat_r; [apply bpow_ge_0|].
  rewrite <- abs_IZR. apply IZR_le. assert (k <> l) by (intros ->; now apply N). lia.
Qed.
Lemma usual_sub x y : usual_number x -> usual_number y ->
  is_finite (fsub x y) = true /\ B2R (fsub x y) = rnd (B2R x - B2R y) /\ Rabs (B2R (fsub x y) - (B2R x - B2R y)) <= ulp1 * Rabs (B2R x - B2R y) + tiny.
Proof.
  intros (Fx & Bx & _) (Fy & By & _). unfold reach in *. pose proof huge_num as HG.
  destruct (fsub_round x y Fx Fy) as [E F].
  - apply huge_lt. apply Rabs_le_inv in Bx, By. apply Rle_trans with 600000; [apply Rabs_le; lra|lra].
  - rewrite E. split; [exact F|]. split; [reflexivity|apply rnd_error].
Qed.
Lemma usual_sub_zero x y : usual_number x -> usual_number y -> B2R (fsub x y) = 0 -> B2R x = B2R y.
Proof.
  intros Ux Uy Z0. destruct (usual_sub x y Ux Uy) as (_ & _ & E). rewrite Z0 in E. destruct (Req_dec (B2R x) (B2R y)) as [Q|Q]; [exact Q|exfalso].
  pose proof (usual_gap x y Ux Uy Q) as G. replace (0 - (B2R x - B2R y)) with (- (B2R x - B2R y)) in E by ring. rewrite Rabs_Ropp in E.
  set (d := Rabs (B2R x - B2R y)) in *. destruct ulp1_num as [U0 U1]. assert (ulp1 * d <= / 2 * d) by (apply Rmult_le_compat_r; [apply Rabs_pos|lra]).
  assert (tiny < / 2 * bpow radix2 (-452)); [|lra]. change (/ 2) with (bpow radix2 (-1)). rewrite <- bpow_plus. apply bpow_lt. lia.
Qed.

(** ** The coordinates of a point of the walk *)
(** [start + a * direction], when it is in reach. *)
Lemma computed_near (x0 xb a : b64) : usual_number x0 -> usual_number xb ->
  let x := fadd x0 (fmul a (fsub xb x0)) in is_finite x = true -> Rabs (B2R x) <= reach ->
  is_finite a = true /\ Rabs (B2R x - (B2R x0 + B2R a * (B2R xb - B2R x0))) <= nano.
Proof.
  intros U0 Ub x F B. destruct (fadd_inv _ _ F) as (F0 & FP & EX). destruct (fmul_inv _ _ FP) as (Fa & Fd & EP). split; [exact Fa|].
  destruct (usual_sub xb x0 Ub U0) as (_ & _ & ED). fold x in EX. set (d := B2R (fsub xb x0)) in *. set (P := B2R (fmul a (fsub xb x0))) in *. set (v := B2R a) in *.
  pose proof (rnd_error (B2R x0 + P)) as R1. rewrite <- EX in R1. pose proof (rnd_error (v * d)) as R2. rewrite <- EP in R2.
  destruct ulp1_num as [L0 L1]. destruct tiny_num as [T0 T1]. pose proof U0 as (_ & B0 & _).
  set (D := B2R xb - B2R x0) in *. unfold reach, nano in *.
  assert (S1 : Rabs (B2R x0 + P) <= 262145).
  { set (q := B2R x0 + P) in *. assert (H1 : Rabs q <= Rabs (B2R x) + Rabs (B2R x - q)) by (replace q with (B2R x + - (B2R x - q)) at 1 by ring; eapply Rle_trans; [apply Rabs_triang|]; rewrite Rabs_Ropp; lra).
    pose proof (Rabs_pos q). assert (ulp1 * Rabs q <= / 10000000 * Rabs q) by (apply Rmult_le_compat_r; lra). lra. }
  assert (S2 : Rabs P <= 524290) by (apply Rabs_le_inv in S1, B0; apply Rabs_le; lra).
  assert (S3 : Rabs (v * d) <= 524291).
  { set (q := v * d) in *. assert (H1 : Rabs q <= Rabs P + Rabs (P - q)) by (replace q with (P + - (P - q)) at 1 by ring; eapply Rle_trans; [apply Rabs_triang|]; rewrite Rabs_Ropp; lra).
    pose proof (Rabs_pos q). assert (ulp1 * Rabs q <= / 10000000 * Rabs q) by (apply Rmult_le_compat_r; lra). lra. }
  assert (TV : Rabs v * tiny <= / 1000000000000).
  { apply Rle_trans with (bpow radix2 1024 * tiny); [apply Rmult_le_compat_r; [lra|]; unfold v; apply Rlt_le, abs_B2R_lt_emax|].
    unfold tiny. rewrite <- bpow_plus. cbn. lra. }
  assert (S4 : Rabs (v * (d - D)) <= 6 / 100000000000).
  { rewrite Rabs_mult. apply Rle_trans with (Rabs v * (ulp1 * Rabs D + tiny)); [apply Rmult_le_compat_l; [apply Rabs_pos|exact ED]|].
    assert (H1 : Rabs D * (1 - ulp1) <= Rabs d + tiny).
    { assert (Rabs D <= Rabs d + Rabs (d - D)) by (replace D with (d + - (d - D)) at 1 by ring; eapply Rle_trans; [apply Rabs_triang|]; rewrite Rabs_Ropp; lra). lra. }
    assert (H2 : Rabs v * (Rabs D * (1 - ulp1)) <= Rabs v * (Rabs d + tiny)) by (apply Rmult_le_compat_l; [apply Rabs_pos|exact H1]).
    rewrite Rabs_mult in S3. pose proof (Rabs_pos v). pose proof (Rabs_pos D). set (VD := Rabs v * Rabs D) in *.
    assert (H3 : VD * (1 - ulp1) <= 524292) by (unfold VD; lra).
    assert (V0 : 0 <= VD) by (now apply Rmult_le_pos).
    assert (H4 : VD * ulp1 <= VD * / 1000000) by (apply Rmult_le_compat_l; lra).
    assert (H5 : ulp1 * VD <= ulp1 * 524300) by (apply Rmult_le_compat_l; lra).
    replace (Rabs v * (ulp1 * Rabs D + tiny)) with (ulp1 * VD + Rabs v * tiny) by (unfold VD; ring). lra. }
  assert (E1 : ulp1 * Rabs (B2R x0 + P) <= ulp1 * 262145) by (apply Rmult_le_compat_l; lra).
  assert (E2 : ulp1 * Rabs (v * d) <= ulp1 * 524291) by (apply Rmult_le_compat_l; lra).
  replace (B2R x - (B2R x0 + v * D)) with ((B2R x - (B2R x0 + P)) + ((P - v * d) + v * (d - D))) by ring.
  eapply Rle_trans; [apply Rabs_triang|]. assert (Rabs (P - v * d + v * (d - D)) <= Rabs (P - v * d) + Rabs (v * (d - D))) by apply Rabs_triang. lra.
Qed.
(** A whole coordinate [n], reached at [(n - start) / direction]. *)
Lemma fixed_near (x0 xb : b64) n : usual_number x0 -> usual_number xb -> (0 <= n <= 2 ^ 18)%Z -> B2R (fsub xb x0) <> 0 ->
  let a := fdiv (fsub (fint n) x0) (fsub xb x0) in is_finite a = true ->
  Rabs (IZR n - (B2R x0 + B2R a * (B2R xb - B2R x0))) <= nano.
Proof.
  intros U0 Ub Hn NZ a Fa. destruct (usual_sub xb x0 Ub U0) as (Fd & _ & ED). destruct (fdiv_inv _ _ Fd NZ Fa) as (_ & EA). fold a in EA.
  destruct (fint_exact n) as [In Fn]; [lia|]. pose proof U0 as (F0 & B0 & _). destruct ulp1_num as [L0 L1]. destruct tiny_num as [T0 T1]. pose proof huge_num as HG.
  assert (HN : 0 <= IZR n <= 262144) by (split; apply IZR_le; lia). unfold reach, nano in *. apply Rabs_le_inv in B0.
  destruct (fsub_round (fint n) x0 Fn F0) as [EN FN].
  { apply huge_lt. rewrite In. apply Rle_trans with 600000; [apply Rabs_le; lra|lra]. }
  pose proof (rnd_error (IZR n - B2R x0)) as R1. rewrite In in EN. rewrite <- EN in R1.
  set (N := B2R (fsub (fint n) x0)) in *. set (d := B2R (fsub xb x0)) in *. set (D := B2R xb - B2R x0) in *. set (v := B2R a) in *.
  pose proof (rnd_error (N / d)) as R2. rewrite <- EA in R2.
  assert (S1 : Rabs (IZR n - B2R x0) <= 524288) by (apply Rabs_le; lra).
  assert (E1 : ulp1 * Rabs (IZR n - B2R x0) <= ulp1 * 524288) by (apply Rmult_le_compat_l; lra).
  assert (S2 : Rabs N <= 524289) by (apply Rabs_le_inv in R1, S1; apply Rabs_le; lra).
  assert (SD : Rabs D <= 524288) by (pose proof Ub as (_ & Bb & _); unfold reach in Bb; apply Rabs_le_inv in Bb; apply Rabs_le; unfold D; lra).
  assert (Sd : Rabs d <= 524289).
  { assert (Rabs d <= Rabs D + Rabs (d - D)) by (replace d with (D + (d - D)) at 1 by ring; apply Rabs_triang).
    assert (ulp1 * Rabs D <= ulp1 * 524288) by (apply Rmult_le_compat_l; lra). lra. }
  assert (R3 : Rabs (v * d - N) <= ulp1 * 524289 + tiny * 524289).
  { replace (v * d - N) with ((v - N / d) * d) by (field; exact NZ). rewrite Rabs_mult.
    apply Rle_trans with ((ulp1 * Rabs (N / d) + tiny) * Rabs d); [apply Rmult_le_compat_r; [apply Rabs_pos|exact R2]|].
    rewrite Rmult_plus_distr_r. apply Rplus_le_compat.
    - unfold Rdiv. rewrite Rabs_mult, Rabs_inv. assert (Rabs d <> 0) by now apply Rabs_no_R0.
      replace (ulp1 * (Rabs N * / Rabs d) * Rabs d) with (ulp1 * Rabs N) by (field; assumption). apply Rmult_le_compat_l; lra.
    - apply Rmult_le_compat_l; lra. }
  assert (S3 : Rabs (v * d) <= 524291) by (apply Rabs_le_inv in R3, S2; apply Rabs_le; lra).
  assert (TV : Rabs v * tiny <= / 1000000000000).
  { apply Rle_trans with (bpow radix2 1024 * tiny); [apply Rmult_le_compat_r; [lra|]; unfold v; apply Rlt_le, abs_B2R_lt_emax|].
    unfold tiny. rewrite <- bpow_plus. cbn. lra. }
  assert (S4 : Rabs (v * (d - D)) <= 6 / 100000000000).
  { rewrite Rabs_mult. apply Rle_trans with (Rabs v * (ulp1 * Rabs D + tiny)); [apply Rmult_le_compat_l; [apply Rabs_pos|exact ED]|].
    assert (H1 : Rabs D * (1 - ulp1) <= Rabs d + tiny).
    { assert (Rabs D <= Rabs d + Rabs (d - D)) by (replace D with (d + - (d - D)) at 1 by ring; eapply Rle_trans; [apply Rabs_triang|]; rewrite Rabs_Ropp; lra). lra. }
    assert (H2 : Rabs v * (Rabs D * (1 - ulp1)) <= Rabs v * (Rabs d + tiny)) by (apply Rmult_le_compat_l; [apply Rabs_pos|exact H1]).
    rewrite Rabs_mult in S3. pose proof (Rabs_pos v). pose proof (Rabs_pos D). set (VD := Rabs v * Rabs D) in *.
    assert (H3 : VD * (1 - ulp1) <= 524292) by (unfold VD; lra).
    assert (V0 : 0 <= VD) by (now apply Rmult_le_pos).
    assert (H4 : VD * ulp1 <= VD * / 1000000) by (apply Rmult_le_compat_l; lra).
    assert (H5 : ulp1 * VD <= ulp1 * 524300) by (apply Rmult_le_compat_l; lra).
    replace (Rabs v * (ulp1 * Rabs D + tiny)) with (ulp1 * VD + Rabs v * tiny) by (unfold VD; ring). lra. }
  replace (IZR n - (B2R x0 + v * D)) with (- (N - (IZR n - B2R x0)) + (- (v * d - N) + v * (d - D))) by ring.
  eapply Rle_trans; [apply Rabs_triang|]. rewrite Rabs_Ropp.
  assert (Rabs (- (v * d - N) + v * (d - D)) <= Rabs (v * d - N) + Rabs (v * (d - D))) by (eapply Rle_trans; [apply Rabs_triang|]; rewrite Rabs_Ropp; lra).
  lra.
Qed.

(** ** A move *)
Lemma eqb_finite (y x : b64) : is_finite x = true -> Beqb y x = true -> is_finite y = true /\ B2R y = B2R x.
Proof.
  intros Fx H. assert (Fy : is_finite y = true).
  { destruct y as [sy|sy| |sy my ey Hy], x as [sx|sx| |sx mx ex Hx]; try reflexivity; try discriminate Fx; try discriminate H; destruct sy; discriminate H. }
  split; [exact Fy|]. rewrite Beqb_correct in H by assumption. destruct (Req_bool_spec (B2R y) (B2R x)); [assumption|discriminate].
Qed.
Lemma eqb_zero_true (x : b64) : Beqb x fzero = true -> B2R x = 0.
Proof. intros H. apply eqb_finite in H; [|reflexivity]. destruct H as [_ H]. rewrite H. reflexivity. Qed.

Section MOVE.
Context (m : fraster) (a b : fvec3) (UA : usual_point a) (UB : usual_point b) (SZ : (fr_rows m <= 2 ^ 18)%Z /\ (fr_cols m <= 2 ^ 18)%Z).
Let s := fsegment_of a b.
Context (e : R) (He : nano <= e).
(** The coordinates that the moves do not compute. *)
Definition keeps (w : fwalk) : Prop :=
  (B2R (f_d0 s) = 0 -> Rabs (B2R (fv_row (fw_p w)) - B2R (fv_row a)) <= e) /\
  (B2R (f_d1 s) = 0 -> Rabs (B2R (fv_col (fw_p w)) - B2R (fv_col a)) <= e).
Lemma usual_segment : finite_segment s.
Proof.
  destruct UA as (A1 & A2 & A3). destruct UB as (B1 & B2 & B3). destruct (usual_sub _ _ B1 A1) as (F1 & _). destruct (usual_sub _ _ B2 A2) as (F2 & _).
  split; [apply A1|]. split; [apply A2|]. split; assumption.
Qed.
Lemma alt_near (v : b64) : let z := fadd (f_z0 s) (fmul v (f_d2 s)) in is_finite z = true -> Rabs (B2R z) <= reach ->
  is_finite v = true /\ Rabs (B2R z - (B2R (fv_alt a) + B2R v * (B2R (fv_alt b) - B2R (fv_alt a)))) <= nano.
Proof. destruct UA as (A1 & A2 & A3). destruct UB as (B1 & B2 & B3). now apply computed_near. Qed.
Lemma col_near (v : b64) : let z := fadd (f_col0 s) (fmul v (f_d0 s)) in is_finite z = true -> Rabs (B2R z) <= reach ->
  is_finite v = true /\ Rabs (B2R z - (B2R (fv_row a) + B2R v * (B2R (fv_row b) - B2R (fv_row a)))) <= nano.
Proof. destruct UA as (A1 & A2 & A3). destruct UB as (B1 & B2 & B3). now apply computed_near. Qed.
Lemma row_near (v : b64) : let z := fadd (f_row0 s) (fmul v (f_d1 s)) in is_finite z = true -> Rabs (B2R z) <= reach ->
  is_finite v = true /\ Rabs (B2R z - (B2R (fv_col a) + B2R v * (B2R (fv_col b) - B2R (fv_col a)))) <= nano.
Proof. destruct UA as (A1 & A2 & A3). destruct UB as (B1 & B2 & B3). now apply computed_near. Qed.
Lemma at_col_near n : (0 <= n <= 2 ^ 18)%Z -> B2R (f_d0 s) <> 0 -> let v := fdiv (fsub (fint n) (f_col0 s)) (f_d0 s) in is_finite v = true ->
  Rabs (B2R (fint n) - (B2R (fv_row a) + B2R v * (B2R (fv_row b) - B2R (fv_row a)))) <= nano.
Proof. intros Hn NZ v F. destruct (fint_exact n) as [-> _]; [lia|]. destruct UA as (A1 & A2 & A3). destruct UB as (B1 & B2 & B3). now apply fixed_near. Qed.
Lemma at_row_near n : (0 <= n <= 2 ^ 18)%Z -> B2R (f_d1 s) <> 0 -> let v := fdiv (fsub (fint n) (f_row0 s)) (f_d1 s) in is_finite v = true ->
  Rabs (B2R (fint n) - (B2R (fv_col a) + B2R v * (B2R (fv_col b) - B2R (fv_col a)))) <= nano.
Proof. intros Hn NZ v F. destruct (fint_exact n) as [-> _]; [lia|]. destruct UA as (A1 & A2 & A3). destruct UB as (B1 & B2 & B3). now apply fixed_near. Qed.
(** The coordinate at a node. *)
Lemma node_near (y : b64) n (v : b64) D : (0 <= n <= 2 ^ 18)%Z -> Beqb y (fint n) = true ->
  (is_finite y = true -> Rabs (B2R y) <= reach -> is_finite v = true /\ Rabs (B2R y - D) <= nano) -> Rabs (B2R (fint n) - D) <= nano.
Proof.
  intros Hn E H. destruct (fint_exact n) as [I F]; [lia|]. apply eqb_finite in E; [|exact F]. destruct E as [Fy Ey]. rewrite <- Ey.
  apply H; [exact Fy|]. rewrite Ey, I. unfold reach. rewrite <- abs_IZR. apply IZR_le. lia.
Qed.

Lemma move_on_line w : fcell_guard m w = true -> Beqb (f_d0 s) fzero && Beqb (f_d1 s) fzero = false -> keeps w ->
  keeps (fmesh_move s w) /\ (in_reach (fw_p (fmesh_move s w)) -> exists t, line_at a b t e (fw_p (fmesh_move s w))).
Proof.
  intros G NV KW. destruct (guard_cells m w G) as [HC HR]. pose proof usual_segment as FS. pose proof (orientation s FS) as OR. destruct SZ as [S1 S2].
  assert (RN : forall n, (0 <= n < 2 ^ 52)%Z -> Beqb (f_d0 s) fzero = false -> Beqb (f_d1 s) fzero = false -> is_nan (fadd (f_row0 s) (fmul (fdiv (fsub (fint n) (f_col0 s)) (f_d0 s)) (f_d1 s))) = false)
    by (intros; now apply (row_at_not_nan m s FS)).
  assert (CN : forall n, (0 <= n < 2 ^ 52)%Z -> Beqb (f_d0 s) fzero = false -> Beqb (f_d1 s) fzero = false -> is_nan (fadd (f_col0 s) (fmul (fdiv (fsub (fint n) (f_row0 s)) (f_d1 s)) (f_d0 s))) = false)
    by (intros; now apply (col_at_not_nan m s FS)).
  destruct FS as (F0 & F1 & F2 & F3). destruct KW as [K0 K1].
  assert (HC' : (0 <= fw_c w < 2 ^ 18)%Z) by lia. assert (HR' : (0 <= fw_r w < 2 ^ 18)%Z) by lia. clear HC HR G.
  unfold fmesh_move. cbv zeta. destruct (Beqb (f_d0 s) fzero) eqn:E0; [|destruct (Beqb (f_d1 s) fzero) eqn:E1].
  - cbn [andb] in NV. pose proof (eqb_zero_true _ E0) as Z0. pose proof (eqb_zero _ F3 NV) as Z1. specialize (K0 Z0).
    assert (EQ : B2R (fv_row b) = B2R (fv_row a)) by (apply usual_sub_zero; [apply UB|apply UA|exact Z0]).
    destruct (Bltb (f_d1 s) fzero); (split; [split; cbn [fw_p fv_row fv_col]; [intros _; exact K0|intros Q; contradiction]|]);
      cbn [fw_p]; intros ((Q1 & Q2) & (Q3 & Q4) & (Q5 & Q6)); cbn [fv_row fv_col fv_alt] in *; destruct (alt_near _ Q5 Q6) as [Fv NA]; apply (fun H => Rle_trans _ _ _ H He) in NA;
      (eexists; split; [|split]; cbn [fv_row fv_col fv_alt]; [|eapply Rle_trans; [eapply at_row_near; [lia|exact Z1|exact Fv]|exact He]|exact NA]);
      rewrite EQ; match goal with |- Rabs (?x - (?y + ?t * (?y - ?y))) <= _ => replace (x - (y + t * (y - y))) with (x - y) by ring end; exact K0.
  - pose proof (eqb_zero_true _ E1) as Z1. pose proof (eqb_zero _ F2 E0) as Z0. specialize (K1 Z1).
    assert (EQ : B2R (fv_col b) = B2R (fv_col a)) by (apply usual_sub_zero; [apply UB|apply UA|exact Z1]).
    destruct (Bltb (f_d0 s) fzero); (split; [split; cbn [fw_p fv_row fv_col]; [intros Q; contradiction|intros _; exact K1]|]);
      cbn [fw_p]; intros ((Q1 & Q2) & (Q3 & Q4) & (Q5 & Q6)); cbn [fv_row fv_col fv_alt] in *; destruct (alt_near _ Q5 Q6) as [Fv NA]; apply (fun H => Rle_trans _ _ _ H He) in NA;
      (eexists; split; [|split]; cbn [fv_row fv_col fv_alt]; [eapply Rle_trans; [eapply at_col_near; [lia|exact Z0|exact Fv]|exact He]| |exact NA]);
      rewrite EQ; match goal with |- Rabs (?x - (?y + ?t * (?y - ?y))) <= _ => replace (x - (y + t * (y - y))) with (x - y) by ring end; exact K1.
  - pose proof (eqb_zero _ F2 E0) as Z0. pose proof (eqb_zero _ F3 E1) as Z1. specialize (OR eq_refl eq_refl).
    split; [split; intros Q; contradiction|].
    set (c := fw_c w) in *. set (r := fw_r w) in *.
    pose proof (five_tests (fadd (f_row0 s) (fmul (fdiv (fsub (fint c) (f_col0 s)) (f_d0 s)) (f_d1 s))) r (RN c ltac:(lia) eq_refl eq_refl) ltac:(lia)) as T1.
    pose proof (five_tests (fadd (f_row0 s) (fmul (fdiv (fsub (fint (c + 1)) (f_col0 s)) (f_d0 s)) (f_d1 s))) r (RN (c + 1)%Z ltac:(lia) eq_refl eq_refl) ltac:(lia)) as T2.
    pose proof (five_tests (fadd (f_col0 s) (fmul (fdiv (fsub (fint r) (f_row0 s)) (f_d1 s)) (f_d0 s))) c (CN r ltac:(lia) eq_refl eq_refl) ltac:(lia)) as T3.
    pose proof (five_tests (fadd (f_col0 s) (fmul (fdiv (fsub (fint (r + 1)) (f_row0 s)) (f_d1 s)) (f_d0 s))) c (CN (r + 1)%Z ltac:(lia) eq_refl eq_refl) ltac:(lia)) as T4.
    clear RN CN.
    Ltac on_line He alt_near col_near row_near at_col_near at_row_near node_near Z0 Z1 :=
      cbn [fw_p]; intros ((Q1 & Q2) & (Q3 & Q4) & (Q5 & Q6)); cbn [fv_row fv_col fv_alt] in *; destruct (alt_near _ Q5 Q6) as [Fv NA]; apply (fun H => Rle_trans _ _ _ H He) in NA;
      eexists; split; [|split; [|exact NA]]; cbn [fv_row fv_col fv_alt]; (eapply Rle_trans; [|exact He]);
      first [ now apply col_near | now apply row_near | (apply at_col_near; [lia|exact Z0|exact Fv]) | (apply at_row_near; [lia|exact Z1|exact Fv])
            | (eapply node_near; [lia|eassumption|apply row_near]) | (eapply node_near; [lia|eassumption|apply col_near]) ].
    Ltac sides T tac :=
      match goal with |- context[Bltb ?u ?y && Bltb ?y ?v] => destruct (Bltb u y && Bltb y v); [tac|]; destruct (Bltb y u); [tac|]; destruct (Bltb v y); [tac|];
        destruct (Beqb y u) eqn:?; [tac|]; destruct (Beqb y v) eqn:?; [tac|]; exfalso; now apply T end.
    destruct (Bltb (f_d0 s) fzero && Bleb (f_d0 s) (f_d1 s) && Bleb (f_d0 s) (fopp (f_d1 s))).
    { sides T1 ltac:(on_line He alt_near col_near row_near at_col_near at_row_near node_near Z0 Z1). }
    destruct (Bltb fzero (f_d1 s) && Bleb (f_d0 s) (f_d1 s) && Bleb (fopp (f_d0 s)) (f_d1 s)).
    { sides T4 ltac:(on_line He alt_near col_near row_near at_col_near at_row_near node_near Z0 Z1). }
    destruct (Bltb fzero (f_d0 s) && Bleb (f_d1 s) (f_d0 s) && Bleb (fopp (f_d1 s)) (f_d0 s)).
    { sides T2 ltac:(on_line He alt_near col_near row_near at_col_near at_row_near node_near Z0 Z1). }
    rewrite (OR eq_refl eq_refl eq_refl).
    sides T3 ltac:(on_line He alt_near col_near row_near at_col_near at_row_near node_near Z0 Z1).
Qed.
End MOVE.

(** ** The loop over the cells *)
(** [p] was found by the refinement between two positions on either side of the surface. *)
Definition between_of (m : fraster) (fuel : nat) (p_1 : fvec3) (alti_1 : b64) (p_2 : fvec3) (h_2 : b64) (p : fvec3) : Prop :=
  finterpolate m (fv_row p_1) (fv_col p_1) = Some alti_1 /\ finterpolate m (fv_row p_2) (fv_col p_2) = Some h_2 /\
  Bleb (fmul (fsub (fv_alt p_1) alti_1) (fsub (fv_alt p_2) h_2)) fzero = true /\ frefine (finterpolate m) fuel p_1 alti_1 p_2 h_2 = FFound p.
Definition on_line_in_reach (a b : fvec3) (e : R) (p : fvec3) : Prop := in_reach p -> exists t, line_at a b t e p.
Lemma cell_loop_line m a b e fuel : usual_point a -> usual_point b -> (fr_rows m <= 2 ^ 18)%Z -> (fr_cols m <= 2 ^ 18)%Z -> nano <= e ->
  Beqb (f_d0 (fsegment_of a b)) fzero && Beqb (f_d1 (fsegment_of a b)) fzero = false ->
  forall n w p, keeps a b e w -> on_line_in_reach a b e (fw_p w) -> fcell_loop m (fsegment_of a b) fuel n w = FDone (FFound p) ->
  exists p_1 alti_1 p_2 h_2, between_of m fuel p_1 alti_1 p_2 h_2 p /\ on_line_in_reach a b e p_1 /\ on_line_in_reach a b e p_2.
Proof.
  intros UA UB S1 S2 He NV. induction n as [|n IH]; intros w p K L H; cbn [fcell_loop] in H; destruct (fcell_guard m w) eqn:G; try discriminate. cbv zeta in H.
  destruct (move_on_line m a b UA UB (conj S1 S2) e He w G NV K) as [K' L']. fold (on_line_in_reach a b e (fw_p (fmesh_move (fsegment_of a b) w))) in L'.
  set (w' := fmesh_move (fsegment_of a b) w) in *.
  destruct (fmay_intersect _ _ _ _ _ _); [|exact (IH _ _ K' L' H)].
  destruct (finterpolate m (fv_row (fw_p w)) (fv_col (fw_p w))) as [a1|] eqn:E1; [|discriminate].
  destruct (finterpolate m (fv_row (fw_p w')) (fv_col (fw_p w'))) as [h2|] eqn:E2; [|discriminate].
  destruct (Bleb _ _) eqn:E3; [|exact (IH _ _ K' L' H)]. injection H as H.
  exists (fw_p w), a1, (fw_p w'), h2. repeat split; assumption.
Qed.

(** ** The loop over the vertices *)
(** The segments that the loop walks: two consecutive vertices, or the last and the first one. *)
Definition joined (los : list fvec3) (a b : fvec3) : Prop := exists i, fpy_get los i = Some a /\ fpy_get los (i + 1) = Some b.
Definition starts (los : list fvec3) (e : R) (i : Z) (p : fvec3) : Prop :=
  forall a b, fpy_get los i = Some a -> fpy_get los (i + 1) = Some b -> exists t, line_at a b t e p.
Lemma start_keeps a b e p v c r t : usual_point a -> usual_point b -> line_at a b t e p -> keeps a b e (FW v c r p).
Proof.
  intros UA UB (L1 & L2 & _). split; cbn [fw_p]; intros Z0.
  - assert (EQ : B2R (fv_row b) = B2R (fv_row a)) by (apply usual_sub_zero; [apply UB|apply UA|exact Z0]). rewrite EQ in L1.
    replace (B2R (fv_row a) + t * (B2R (fv_row a) - B2R (fv_row a))) with (B2R (fv_row a)) in L1 by ring. exact L1.
  - assert (EQ : B2R (fv_col b) = B2R (fv_col a)) by (apply usual_sub_zero; [apply UB|apply UA|exact Z0]). rewrite EQ in L2.
    replace (B2R (fv_col a) + t * (B2R (fv_col a) - B2R (fv_col a))) with (B2R (fv_col a)) in L2 by ring. exact L2.
Qed.
Lemma vertex_loop_line m los e fuel cells : Forall usual_point los -> (fr_rows m <= 2 ^ 18)%Z -> (fr_cols m <= 2 ^ 18)%Z -> nano <= e ->
  (forall a b, joined los a b -> B2R (fv_row a) <> B2R (fv_row b) \/ B2R (fv_col a) <> B2R (fv_col b)) ->
  forall steps i_0 p_2 h_2 p, starts los e i_0 p_2 -> fvertex_loop m los fuel cells steps i_0 p_2 h_2 = FFound p ->
  exists a b p_1 alti_1 p_2 h_2, joined los a b /\ between_of m fuel p_1 alti_1 p_2 h_2 p /\ on_line_in_reach a b e p_1 /\ on_line_in_reach a b e p_2.
Proof.
  intros UL S1 S2 He NV. induction steps as [|steps IH]; intros i_0 p_2 h_2 p ST H; cbn [fvertex_loop] in H; destruct (i_0 <? _)%Z; try discriminate. cbv zeta in H.
  destruct (fpy_get los i_0) as [a|] eqn:EA; [|discriminate]. destruct (fpy_get los (i_0 + 1)) as [b|] eqn:EB; [|discriminate].
  assert (J : joined los a b) by (exists i_0; tauto).
  assert (UA : usual_point a) by (rewrite Forall_forall in UL; apply UL; exact (py_get_in _ _ _ EA)).
  assert (UB : usual_point b) by (rewrite Forall_forall in UL; apply UL; exact (py_get_in _ _ _ EB)).
  destruct (Beqb (f_d0 (fsegment_of a b)) fzero && Beqb (f_d1 (fsegment_of a b)) fzero) eqn:V.
  - exfalso. apply andb_true_iff in V as [V0 V1]. apply eqb_zero_true in V0, V1. cbn [f_d0 f_d1 fsegment_of] in V0, V1.
    apply usual_sub_zero in V0; [|apply UB|apply UA]. apply usual_sub_zero in V1; [|apply UB|apply UA]. destruct (NV a b J) as [N|N]; apply N; now symmetry.
  - destruct (ffirst_cell _ _) as [c|]; [|discriminate]. destruct (ffirst_cell _ _) as [r|]; [|discriminate].
    destruct (fcell_guard m _); [|discriminate]. destruct (fcell_loop m _ fuel cells _) as [o|a_2] eqn:E.
    + subst o. destruct (ST a b EA EB) as [t L].
      destruct (cell_loop_line m a b e fuel UA UB S1 S2 He V _ _ p (start_keeps a b e p_2 _ c r t UA UB L) (fun _ => ex_intro _ t L) E) as (q_1 & k_1 & q_2 & k_2 & B & L1 & L2).
      exists a, b, q_1, k_1, q_2, k_2. tauto.
    + destruct (Bleb fone a_2); [|discriminate]. eapply IH; [|exact H]. intros a' b' EA' EB'. rewrite EB in EA'. injection EA' as <-.
      exists 0. assert (e0 : 0 <= e) by (unfold nano in He; lra). unfold line_at.
      assert (Z : forall x y, Rabs (x - (x + 0 * (y - x))) <= e) by (intros x y; replace (x - (x + 0 * (y - x))) with 0 by ring; rewrite Rabs_R0; exact e0).
      repeat split; apply Z.
Qed.
