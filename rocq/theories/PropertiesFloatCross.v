(** C86: the rounding error of the entry position in the DTM cube. *)
From Coq Require Import ZArith Reals Bool Lia Lra Psatz.
From Flocq Require Import Core BinarySingleNaN.
From Verif Require Import FloatModel Float FloatErr FloatInterpModel FloatRpc.
Open Scope R_scope.

Lemma plan_top (m : b64) p : is_finite m = true -> is_finite (fv_row p) = true -> is_finite (fv_col p) = true -> is_finite (fv_alt p) = true ->
  Rabs (B2R (fv_alt p) - B2R m) <= huge ->
  is_finite (feq_plan_top m p) = true /\ B2R (feq_plan_top m p) = rnd (B2R (fv_alt p) - B2R m).
Proof.
  intros Fm Fr Fc Fa HU. unfold feq_plan_top. destruct (fint_exact 0) as [Z1 Z2]; [lia|]. destruct (fint_exact 1) as [O1 O2]; [lia|].
  assert (A0 : Rabs (rnd 0) < bpow radix2 1024) by (rewrite rnd_0, Rabs_R0; apply bpow_gt_0).
  assert (M0 : forall x : b64, is_finite x = true -> B2R (fmul (fint 0) x) = 0 /\ is_finite (fmul (fint 0) x) = true).
  { intros x F. destruct (fmul_round (fint 0) x Z2 F) as [E G]; rewrite Z1, Rmult_0_l in *; [exact A0|]. rewrite rnd_0 in E. auto. }
  assert (SAME : forall x : b64, is_finite x = true -> rnd (B2R x) = B2R x) by (intros x F; unfold rnd; apply round_generic; [apply valid_rnd_N|apply generic_format_B2R]).
  assert (SIZE : forall x : b64, is_finite x = true -> Rabs (rnd (B2R x)) < bpow radix2 1024) by (intros x F; rewrite SAME by assumption; apply abs_B2R_lt_emax).
  destruct (M0 _ Fr) as [R1 R2]. destruct (M0 _ Fc) as [C1 C2].
  destruct (fmul_round (fint 1) (fv_alt p) O2 Fa) as [A1 A2]; rewrite O1, Rmult_1_l in *; [now apply SIZE|]. rewrite SAME in A1 by assumption.
  destruct (fadd_round _ _ R2 C2) as [S1 S2]; rewrite R1, C1, Rplus_0_r in *; [exact A0|]. rewrite rnd_0 in S1.
  destruct (fadd_round _ _ S2 A2) as [T1 T2]; rewrite S1, A1, Rplus_0_l in *; [now apply SIZE|]. rewrite SAME in T1 by assumption.
  destruct (fsub_round _ _ T2 Fm) as [U1 U2]; rewrite T1 in *; [now apply huge_lt|]. auto.
Qed.

(** The quotient of a part of the height by the height. *)
Lemma part_near (x y : b64) P H : near x P (ulp1 * Rabs P + tiny) -> is_finite y = true -> Rabs (B2R y + H) <= 2001 / 1000 * ulp1 * H ->
  / 1000 <= H -> Rabs P <= H -> near (fdiv x y) (- P / H) (402 / 100 * ulp1).
Proof.
  intros NX Fy DY HH HP. pose proof ulp1_pos as U0. pose proof ulp1_small as U1. pose proof tiny_pos as T0. pose proof big_tiny as T1. pose proof big_huge as HB.
  assert (TU : 1000000 * tiny <= ulp1 / 10000000) by nra.
  assert (UH : 2001 / 1000 * ulp1 * H <= / 100000 * H) by (apply Rmult_le_compat_r; lra).
  apply Rabs_le_inv in DY. set (Y := B2R y) in *.
  assert (YN : Y < 0) by lra. assert (NZ : Y <> 0) by lra. assert (AY : Rabs Y = - Y) by (apply Rabs_left; lra).
  assert (AI : Rabs (/ Y) = / (- Y)) by (rewrite Rabs_inv, AY; reflexivity).
  assert (IY : / (- Y) <= 100002 / 100000 * / H).
  { apply Rmult_le_reg_r with (- Y); [lra|]. rewrite Rinv_l by lra. apply Rmult_le_reg_r with H; [lra|].
    replace (100002 / 100000 * / H * - Y * H) with (100002 / 100000 * - Y) by (field; lra). lra. }
  assert (IH : / H <= 1000) by (rewrite <- (Rinv_inv 1000); apply Rinv_le; lra). assert (IP : 0 < / H) by (apply Rinv_0_lt_compat; lra).
  assert (IYP : 0 < / (- Y)) by (apply Rinv_0_lt_compat; lra).
  pose proof (Rabs_pos P) as PP.
  assert (PQ : Rabs P * / (- Y) <= 100002 / 100000).
  { apply Rle_trans with (H * (100002 / 100000 * / H)); [apply Rmult_le_compat; lra|]. replace (H * (100002 / 100000 * / H)) with (100002 / 100000) by (field; lra). lra. }
  assert (N : near (fdiv x y) (P / Y) (20015 / 10000 * ulp1)).
  { eapply near_div; [exact NX|exact Fy|exact NZ| |fold Y; rewrite AI| |].
    - fold Y. unfold Rdiv. rewrite Rabs_mult, AI. exact PQ.
    - rewrite Rmult_plus_distr_r. instantiate (1 := 10005 / 10000 * ulp1).
      assert (ulp1 * (Rabs P * / - Y) <= ulp1 * (100002 / 100000)) by (apply Rmult_le_compat_l; lra).
      assert (tiny * / - Y <= tiny * 1001) by (apply Rmult_le_compat_l; lra). lra.
    - assert (ulp1 * (10005 / 10000 * ulp1) <= ulp1 * (/ 100000)) by (apply Rmult_le_compat_l; lra). lra.
    - lra. }
  destruct N as [NF N]. split; [exact NF|].
  assert (D : Rabs (P / Y - - P / H) <= 2003 / 1000 * ulp1).
  { replace (P / Y - - P / H) with (P * / Y * ((Y + H) / H)) by (field; split; lra). rewrite !Rabs_mult, AI.
    assert (Q : Rabs ((Y + H) / H) <= 2001 / 1000 * ulp1).
    { unfold Rdiv at 1. rewrite Rabs_mult, (Rabs_pos_eq (/ H)) by lra. apply Rmult_le_reg_r with H; [lra|]. rewrite Rmult_assoc, Rinv_l by lra. rewrite Rmult_1_r. apply Rabs_le. lra. }
    eapply Rle_trans; [apply Rmult_le_compat; [apply Rmult_le_pos; lra|apply Rabs_pos|exact PQ|exact Q]|]. nra. }
  replace (B2R (fdiv x y) - - P / H) with ((B2R (fdiv x y) - P / Y) + (P / Y - - P / H)) by ring.
  eapply Rle_trans; [apply Rabs_triang|]. lra.
Qed.
(** The combination of two coordinates with such weights. *)
Lemma weighted_near (x y u v : b64) s C : near x (1 - s) (402 / 100 * ulp1) -> near y s (402 / 100 * ulp1) -> 0 <= s <= 1 ->
  is_finite u = true -> is_finite v = true -> Rabs (B2R u) <= C -> Rabs (B2R v) <= C -> 1 <= C <= 1000000000 ->
  near (fadd (fmul x u) (fmul y v)) ((1 - s) * B2R u + s * B2R v) (12 * ulp1 * C).
Proof.
  intros NX NY HS Fu Fv HU HV HC. pose proof ulp1_pos as U0. pose proof ulp1_small as U1. pose proof tiny_pos as T0. pose proof big_tiny as T1. pose proof big_huge as HB.
  assert (TU : 1000000 * tiny <= ulp1 / 10000000) by nra.
  assert (UC : ulp1 <= ulp1 * C) by (rewrite <- (Rmult_1_r ulp1) at 1; apply Rmult_le_compat_l; lra).
  assert (UUC : ulp1 * (ulp1 * C) <= / 1000000 * (ulp1 * C)) by (apply Rmult_le_compat_r; nra).
  assert (SC : ulp1 * C <= 1000) by (apply Rle_trans with (/ 1000000 * 1000000000); [apply Rmult_le_compat; lra|lra]).
  assert (P1 : near (fmul x u) ((1 - s) * B2R u) (503 / 100 * ulp1 * C)).
  { eapply (near_mul x u (1 - s) (B2R u) _ 0 1 C C (402 / 100 * ulp1 * C)); [exact NX|apply near_exact, Fu|apply Rabs_le; lra|exact HU|lra| | |]; nra. }
  assert (P2 : near (fmul y v) (s * B2R v) (503 / 100 * ulp1 * C)).
  { eapply (near_mul y v s (B2R v) _ 0 1 C C (402 / 100 * ulp1 * C)); [exact NY|apply near_exact, Fv|apply Rabs_le; lra|exact HV|lra| | |]; nra. }
  eapply (near_add _ _ _ _ _ _ C); [exact P1|exact P2| | |].
  - apply Rabs_le_inv in HU. apply Rabs_le_inv in HV. apply Rabs_le. nra.
  - nra.
  - nra.
Qed.

(** The position where a line of sight crosses the face of the largest altitude is computed within
    12 x 2^-53 of the size of its coordinates, at the altitude of the face exactly. *)
Theorem C86_crossing_error :
  forall (alt_max : b64) (a b : fvec3) C,
    is_finite alt_max = true ->
    is_finite (fv_row a) = true -> is_finite (fv_col a) = true -> is_finite (fv_alt a) = true ->
    is_finite (fv_row b) = true -> is_finite (fv_col b) = true -> is_finite (fv_alt b) = true ->
    1 <= C <= 1000000000 ->
    Rabs (B2R (fv_row a)) <= C -> Rabs (B2R (fv_row b)) <= C -> Rabs (B2R (fv_col a)) <= C -> Rabs (B2R (fv_col b)) <= C ->
    Rabs (B2R (fv_alt a)) <= 1000000000 -> Rabs (B2R (fv_alt b)) <= 1000000000 ->
    B2R (fv_alt b) <= B2R alt_max <= B2R (fv_alt a) -> / 1000 <= B2R (fv_alt a) - B2R (fv_alt b) ->
    let t := (B2R (fv_alt a) - B2R alt_max) / (B2R (fv_alt a) - B2R (fv_alt b)) in
    let p := fcross_top alt_max a b in
    is_finite (fv_row p) = true /\ Rabs (B2R (fv_row p) - (B2R (fv_row a) + t * (B2R (fv_row b) - B2R (fv_row a)))) <= 12 * bpow radix2 (-53) * C /\
    is_finite (fv_col p) = true /\ Rabs (B2R (fv_col p) - (B2R (fv_col a) + t * (B2R (fv_col b) - B2R (fv_col a)))) <= 12 * bpow radix2 (-53) * C /\
    B2R (fv_alt p) = B2R alt_max.
Proof.
  intros m a b C Fm Fra Fca Faa Frb Fcb Fab HC Ra Rb Ca Cb Aa Ab HM HH t p. fold ulp1.
  pose proof ulp1_pos as U0. pose proof ulp1_small as U1. pose proof tiny_pos as T0. pose proof big_tiny as T1. pose proof big_huge as HB.
  assert (TU : 1000000 * tiny <= ulp1 / 10000000) by nra.
  apply Rabs_le_inv in Aa. apply Rabs_le_inv in Ab.
  set (P := B2R (fv_alt a) - B2R m) in *. set (Q := B2R m - B2R (fv_alt b)). assert (HPQ : B2R (fv_alt a) - B2R (fv_alt b) = P + Q) by (unfold P, Q; ring).
  rewrite HPQ in HH. assert (P0 : 0 <= P) by (unfold P; lra). assert (Q0 : 0 <= Q) by (unfold Q; lra).
  assert (HX : P + Q <= 2000000000) by (rewrite <- HPQ; lra).
  destruct (plan_top m a Fm Fra Fca Faa) as [LA1 LA2]; [fold P; rewrite Rabs_pos_eq; lra|]. fold P in LA2.
  destruct (plan_top m b Fm Frb Fcb Fab) as [LB1 LB2]; [replace (B2R (fv_alt b) - B2R m) with (- Q) by (unfold Q; ring); rewrite Rabs_Ropp, Rabs_pos_eq; lra|].
  replace (B2R (fv_alt b) - B2R m) with (- Q) in LB2 by (unfold Q; ring).
  set (la := feq_plan_top m a) in *. set (lb := feq_plan_top m b) in *.
  assert (NA : near la P (ulp1 * Rabs P + tiny)) by (split; [exact LA1|rewrite LA2; apply rnd_error]).
  assert (NB : near lb (- Q) (ulp1 * Rabs (- Q) + tiny)) by (split; [exact LB1|rewrite LB2; apply rnd_error]).
  assert (NO : near (fopp la) (- P) (ulp1 * Rabs (- P) + tiny)).
  { destruct NA as [A1 A2]. split; [unfold fopp; rewrite is_finite_Bopp; exact A1|]. unfold fopp. rewrite B2R_Bopp, Rabs_Ropp.
    replace (- B2R la - - P) with (- (B2R la - P)) by ring. now rewrite Rabs_Ropp. }
  assert (UH : ulp1 * (ulp1 * (P + Q)) <= / 1000000 * (ulp1 * (P + Q))) by (apply Rmult_le_compat_r; nra).
  assert (UL : ulp1 * / 1000 <= ulp1 * (P + Q)) by (apply Rmult_le_compat_l; lra).
  assert (ND : near (fsub lb la) (- Q - P) (2001 / 1000 * ulp1 * (P + Q))).
  { eapply near_sub; [exact NB|exact NA|instantiate (1 := P + Q); apply Rabs_le; lra| |]; rewrite Rabs_Ropp, !Rabs_pos_eq by lra; nra. }
  destruct ND as [ND1 ND2]. replace (B2R (fsub lb la) - (- Q - P)) with (B2R (fsub lb la) + (P + Q)) in ND2 by ring.
  pose proof (part_near lb (fsub lb la) (- Q) (P + Q) NB ND1 ND2 HH ltac:(rewrite Rabs_Ropp, Rabs_pos_eq; lra)) as WA.
  pose proof (part_near (fopp la) (fsub lb la) (- P) (P + Q) NO ND1 ND2 HH ltac:(rewrite Rabs_Ropp, Rabs_pos_eq; lra)) as WB.
  assert (ET : t = P / (P + Q)) by (unfold t; now rewrite HPQ).
  assert (E1 : - - Q / (P + Q) = 1 - t) by (rewrite ET; field; lra). assert (E2 : - - P / (P + Q) = t) by (rewrite ET; field; lra).
  rewrite E1 in WA. rewrite E2 in WB.
  assert (T01 : 0 <= t <= 1).
  { rewrite ET. assert (0 < / (P + Q)) by (apply Rinv_0_lt_compat; lra). split; [apply Rmult_le_pos; lra|].
    apply Rmult_le_reg_r with (P + Q); [lra|]. replace (P / (P + Q) * (P + Q)) with P by (field; lra). lra. }
  destruct (weighted_near _ _ (fv_row a) (fv_row b) t C WA WB T01 Fra Frb Ra Rb HC) as [G1 G2].
  destruct (weighted_near _ _ (fv_col a) (fv_col b) t C WA WB T01 Fca Fcb Ca Cb HC) as [K1 K2].
  replace ((1 - t) * B2R (fv_row a) + t * B2R (fv_row b)) with (B2R (fv_row a) + t * (B2R (fv_row b) - B2R (fv_row a))) in G2 by ring.
  replace ((1 - t) * B2R (fv_col a) + t * B2R (fv_col b)) with (B2R (fv_col a) + t * (B2R (fv_col b) - B2R (fv_col a))) in K2 by ring.
  unfold p, fcross_top. fold la lb. cbn [fv_row fv_col fv_alt]. auto.
Qed.
(** From (0, 10, 103) to (2, 40, 98) through the altitude 100. *)
Example C86_crossing_case :
  let p := fcross_top (fint 100) (FV3 (fint 0) (fint 10) (fint 103)) (FV3 (fint 2) (fint 40) (fint 98)) in
  Rabs (B2R (fv_row p) - 6 / 5) <= 480 * bpow radix2 (-53) /\ Rabs (B2R (fv_col p) - 28) <= 480 * bpow radix2 (-53).
Proof.
  assert (I : forall n, (Z.abs n < 2 ^ 53)%Z -> B2R (fint n) = IZR n /\ is_finite (fint n) = true) by (intros; now apply fint_exact).
  destruct (I 0%Z) as [I0 J0]; [lia|]. destruct (I 2%Z) as [I2 J2]; [lia|]. destruct (I 10%Z) as [I10 J10]; [lia|]. destruct (I 40%Z) as [I40 J40]; [lia|].
  destruct (I 103%Z) as [I103 J103]; [lia|]. destruct (I 98%Z) as [I98 J98]; [lia|]. destruct (I 100%Z) as [I100 J100]; [lia|].
  destruct (C86_crossing_error (fint 100) (FV3 (fint 0) (fint 10) (fint 103)) (FV3 (fint 2) (fint 40) (fint 98)) 40) as (_ & A & _ & B & _);
    cbn [fv_row fv_col fv_alt]; try assumption; try (rewrite ?I0, ?I2, ?I10, ?I40, ?I103, ?I98, ?I100, Rabs_pos_eq; lra); try (rewrite ?I0, ?I2, ?I10, ?I40, ?I103, ?I98, ?I100; lra).
  cbv zeta in *. cbn [fv_row fv_col fv_alt] in A, B. rewrite I0, I2, I103, I98, I100 in A. rewrite I10, I40, I103, I98, I100 in B. cbv zeta.
  replace (0 + (103 - 100) / (103 - 98) * (2 - 0)) with (6 / 5) in A by field. replace (10 + (103 - 100) / (103 - 98) * (40 - 10)) with 28 in B by field.
  split; eapply Rle_trans; [exact A| |exact B|]; lra.
Qed.
