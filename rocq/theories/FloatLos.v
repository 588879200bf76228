(** Proofs: the lines of sight of an RPC model in binary64. *)
From Coq Require Import ZArith Reals List Bool Lia Lra Psatz.
From Flocq Require Import Core BinarySingleNaN.
From Verif Require Import RpcModel RpcSpec FloatModel Float FloatErr FloatRpcModel FloatEval FloatRpcSpec FloatRpc FloatRpcOut FloatNewtonModel FloatNewtonSpec FloatNewton FloatConvModel FloatSolve FloatConvSpec FloatLosModel FloatLosSpec.
Import ListNotations.
Open Scope R_scope.

(** ** Prolonged lines *)
Lemma round_value x : Rabs x <= 1000000000 -> Rabs (rnd x - x) <= ulp1 * Rabs x + tiny /\ Rabs (rnd x) < bpow radix2 1024.
Proof. intros H. split; [apply rnd_error|]. apply huge_lt. pose proof large_huge. lra. Qed.
Lemma difference x y B : is_finite x = true -> is_finite y = true -> Rabs (B2R x - B2R y) <= B -> B <= 1000000000 ->
  is_finite (fsub x y) = true /\ Rabs (B2R (fsub x y) - (B2R x - B2R y)) <= ulp1 * Rabs (B2R x - B2R y) + tiny.
Proof. intros Fx Fy H L. destruct (round_value (B2R x - B2R y)) as [E O]; [lra|]. destruct (fsub_round x y Fx Fy O) as [V F]. rewrite V. auto. Qed.
Lemma quotient n d N D T : is_finite n = true -> 1 <= D -> N = T * D -> Rabs T <= 1000 ->
  Rabs (B2R n - N) <= ulp1 * Rabs N + tiny -> Rabs (B2R d - D) <= ulp1 * D + tiny ->
  is_finite (fdiv n d) = true /\ Rabs (B2R (fdiv n d) - T) <= 4 * ulp1 * Rabs T + 4 * tiny.
Proof.
  intros Fn HD EN HT EN' ED. pose proof ulp1_pos. pose proof tiny_pos. pose proof ulp1_fine. pose proof tiny_fine. pose proof (Rabs_pos T) as T0.
  assert (TU : 1000000 * tiny <= ulp1) by (pose proof tiny_small; lra).
  set (u := ulp1) in *. set (t := tiny) in *. apply Rabs_le_inv in ED.
  assert (UD : u * D <= 1 / 1000 * D) by (apply Rmult_le_compat_r; lra). assert (DP : 99 / 100 * D <= B2R d) by lra.
  assert (Q : Rabs (B2R n / B2R d - T) <= 102 / 50 * u * Rabs T + 2 * t).
  { replace (B2R n / B2R d - T) with (((B2R n - N) + T * (D - B2R d)) * / B2R d) by (rewrite EN; field; lra).
    rewrite Rabs_mult, (Rabs_pos_eq (/ B2R d)) by (apply Rlt_le, Rinv_0_lt_compat; lra).
    assert (I : / B2R d <= 100 / 99 * / D). { replace (100 / 99 * / D) with (/ (99 / 100 * D)) by (field; lra). apply Rinv_le; lra. }
    assert (S : Rabs ((B2R n - N) + T * (D - B2R d)) <= u * (Rabs T * D) + t + Rabs T * (u * D + t)).
    { eapply Rle_trans; [apply Rabs_triang|]. apply Rplus_le_compat; [rewrite EN, Rabs_mult, (Rabs_pos_eq D) in EN' by lra; rewrite EN; exact EN'|].
      rewrite Rabs_mult. apply Rmult_le_compat_l; [exact T0|]. apply Rabs_le; lra. }
    eapply Rle_trans; [apply Rmult_le_compat; [apply Rabs_pos|apply Rlt_le, Rinv_0_lt_compat; lra|exact S|exact I]|].
    replace ((u * (Rabs T * D) + t + Rabs T * (u * D + t)) * (100 / 99 * / D)) with (100 / 99 * (2 * u * Rabs T + t * / D + Rabs T * t * / D)) by (field; lra).
    assert (ID : 0 < / D <= 1) by (split; [apply Rinv_0_lt_compat; lra|rewrite <- Rinv_1; apply Rinv_le; lra]).
    assert (t * / D <= t * 1) by (apply Rmult_le_compat_l; lra). assert (0 <= Rabs T * t) by (apply Rmult_le_pos; lra). assert (Rabs T * t * / D <= Rabs T * t * 1) by (apply Rmult_le_compat_l; lra).
    assert (Rabs T * (1000000 * t) <= Rabs T * u) by (apply Rmult_le_compat_l; lra). assert (0 <= u * Rabs T) by (apply Rmult_le_pos; lra). lra. }
  assert (UT : u * Rabs T <= 1 * Rabs T) by (apply Rmult_le_compat_r; lra). assert (UT0 : 0 <= u * Rabs T) by (apply Rmult_le_pos; lra).
  assert (BQ : Rabs (B2R n / B2R d) <= Rabs T + (102 / 50 * u * Rabs T + 2 * t)).
  { replace (B2R n / B2R d) with (T + (B2R n / B2R d - T)) by ring. eapply Rle_trans; [apply Rabs_triang|lra]. }
  destruct (round_value (B2R n / B2R d)) as [E O]; [lra|]. assert (NZ : B2R d <> 0) by lra.
  destruct (fdiv_round n d Fn NZ O) as [V F]. split; [exact F|]. rewrite V. replace (rnd (B2R n / B2R d) - T) with ((rnd (B2R n / B2R d) - B2R n / B2R d) + (B2R n / B2R d - T)) by ring.
  eapply Rle_trans; [apply Rabs_triang|]. assert (UQ : u * Rabs (B2R n / B2R d) <= u * (Rabs T + (102 / 50 * u * Rabs T + 2 * t))) by (apply Rmult_le_compat_l; lra).
  assert (u * (u * Rabs T) <= 1 / 1000 * (u * Rabs T)) by (apply Rmult_le_compat_r; lra). assert (u * t <= 1 / 1000 * t) by (apply Rmult_le_compat_r; lra). fold t u in E. lra.
Qed.
(** A coordinate of a prolonged line. *)
Lemma prolonged_value vt vb c T v : is_finite vt = true -> is_finite vb = true -> is_finite c = true -> plus_product vb (fsub vt vb) c v ->
  Rabs (B2R vt - B2R vb) <= 60000 -> Rabs (B2R vb) <= 60000 -> Rabs T <= 1000 -> Rabs (B2R vt - B2R vb) * Rabs T <= 360000 ->
  Rabs (B2R c - T) <= 4 * ulp1 * Rabs T + 4 * tiny ->
  is_finite v = true /\ Rabs (B2R v - (B2R vb + (B2R vt - B2R vb) * T)) <= 1 / 1000000000.
Proof.
  intros Ft Fb Fc H HV HB HT HVT HC. destruct (difference vt vb 60000 Ft Fb HV ltac:(lra)) as [Fd Ed].
  pose proof ulp1_pos. pose proof tiny_pos. pose proof ulp1_fine as UF. pose proof tiny_fine as TF. 
  set (V := B2R vt - B2R vb) in *. set (d := fsub vt vb) in *. set (u := ulp1) in *. set (t := tiny) in *. pose proof (Rabs_pos T) as T0. pose proof (Rabs_pos V) as V0. clearbody d.
  assert (UV : u * Rabs V <= u * 60000) by (apply Rmult_le_compat_l; lra). assert (UT : u * Rabs T <= u * 1000) by (apply Rmult_le_compat_l; lra).
  assert (P : Rabs (B2R d * B2R c - V * T) <= 5 * u * 360000 + u + t * 1000000).
  { replace (B2R d * B2R c - V * T) with ((B2R d - V) * (B2R c - T) + (B2R d - V) * T + V * (B2R c - T)) by ring.
    eapply Rle_trans; [apply Rabs_triang|]. eapply Rle_trans; [apply Rplus_le_compat_r, Rabs_triang|]. rewrite !Rabs_mult.
    assert (A1 : Rabs (B2R d - V) * Rabs (B2R c - T) <= (u * 60000 + t) * (4 * (u * 1000) + 4 * t)) by (apply Rmult_le_compat; try apply Rabs_pos; lra).
    assert (A2 : Rabs (B2R d - V) * Rabs T <= (u * Rabs V + t) * Rabs T) by (apply Rmult_le_compat_r; lra).
    assert (A3 : Rabs V * Rabs (B2R c - T) <= Rabs V * (4 * u * Rabs T + 4 * t)) by (apply Rmult_le_compat_l; lra).
    assert (A4 : (u * 60000 + t) * (4 * (u * 1000) + 4 * t) <= 1 / 1000 * (4 * (u * 1000) + 4 * t)) by (apply Rmult_le_compat_r; lra).
    assert (A4' : 1 / 100000000 * (4 * (u * 1000) + 4 * t) >= (u * 60000 + t) * (4 * (u * 1000) + 4 * t)) by (apply Rle_ge, Rmult_le_compat_r; lra).
    assert (A5 : u * (Rabs V * Rabs T) <= u * 360000) by (apply Rmult_le_compat_l; lra). assert (t * Rabs T <= t * 1000) by (apply Rmult_le_compat_l; lra). assert (t * Rabs V <= t * 60000) by (apply Rmult_le_compat_l; lra). lra. }
  assert (BVT : Rabs (V * T) <= 360000) by (rewrite Rabs_mult; exact HVT).
  assert (BP : Rabs (B2R d * B2R c) <= 360001). { replace (B2R d * B2R c) with (V * T + (B2R d * B2R c - V * T)) by ring. eapply Rle_trans; [apply Rabs_triang|lra]. }
  assert (BS : forall x, Rabs (x - V * T) <= 1 -> Rabs (B2R vb + x) <= 420001). { intros x Hx. replace (B2R vb + x) with (B2R vb + (V * T + (x - V * T))) by ring. eapply Rle_trans; [apply Rabs_triang|]. pose proof (Rabs_triang (V * T) (x - V * T)). lra. }
  inversion H; subst.
  - destruct (round_value (B2R d * B2R c)) as [E O]; [lra|]. destruct (fmul_round d c Fd Fc O) as [Vm Fm]. fold u t in E.
    assert (UP : u * Rabs (B2R d * B2R c) <= u * 360001) by (apply Rmult_le_compat_l; lra).
    assert (PM : Rabs (B2R (fmul d c) - V * T) <= 6 * u * 360000 + 2 * u + t * 1000001).
    { rewrite Vm. replace (rnd (B2R d * B2R c) - V * T) with ((rnd (B2R d * B2R c) - B2R d * B2R c) + (B2R d * B2R c - V * T)) by ring. eapply Rle_trans; [apply Rabs_triang|]. lra. }
    pose proof (BS (B2R (fmul d c)) ltac:(lra)) as B1. destruct (round_value (B2R vb + B2R (fmul d c))) as [E' O']; [lra|]. destruct (fadd_round vb (fmul d c) Fb Fm O') as [Va Fa]. fold u t in E'.
    split; [exact Fa|]. rewrite Va. replace (rnd (B2R vb + B2R (fmul d c)) - (B2R vb + V * T)) with ((rnd (B2R vb + B2R (fmul d c)) - (B2R vb + B2R (fmul d c))) + (B2R (fmul d c) - V * T)) by ring.
    eapply Rle_trans; [apply Rabs_triang|]. assert (u * Rabs (B2R vb + B2R (fmul d c)) <= u * 420001) by (apply Rmult_le_compat_l; lra). lra.
  - pose proof (BS (B2R d * B2R c) ltac:(lra)) as B1. replace (B2R vb + B2R d * B2R c) with (B2R d * B2R c + B2R vb) in B1 by ring.
    destruct (round_value (B2R d * B2R c + B2R vb)) as [E' O']; [lra|]. destruct (ffma_round d c vb Fd Fc Fb O') as [Va Fa]. fold u t in E'.
    split; [exact Fa|]. rewrite Va. replace (rnd (B2R d * B2R c + B2R vb) - (B2R vb + V * T)) with ((rnd (B2R d * B2R c + B2R vb) - (B2R d * B2R c + B2R vb)) + (B2R d * B2R c - V * T)) by ring.
    eapply Rle_trans; [apply Rabs_triang|]. assert (u * Rabs (B2R d * B2R c + B2R vb) <= u * 420001) by (apply Rmult_le_compat_l; lra). lra.
Qed.
Lemma prolonged_on_the_line alt t b q : f_prolonged alt t b q -> is_finite alt = true ->
  is_finite (fg_lon t) = true -> is_finite (fg_lat t) = true -> is_finite (fg_alt t) = true -> is_finite (fg_lon b) = true -> is_finite (fg_lat b) = true -> is_finite (fg_alt b) = true ->
  Rabs (B2R (fg_lon t)) <= 180 -> Rabs (B2R (fg_lat t)) <= 90 -> Rabs (B2R (fg_lon b)) <= 180 -> Rabs (B2R (fg_lat b)) <= 90 ->
  Rabs (B2R (fg_alt b)) <= 30000 -> Rabs (B2R (fg_alt t)) <= 30000 -> Rabs (B2R alt) <= 30000 -> 1 <= B2R (fg_alt t) - B2R (fg_alt b) ->
  Rabs (B2R alt - B2R (fg_alt b)) <= 1000 * (B2R (fg_alt t) - B2R (fg_alt b)) -> on_the_line t b (B2R alt) q.
Proof.
  intros (H1 & H2 & H3) Fa F1 F2 F3 F4 F5 F6 B1 B2 B3 B4 B5 B6 B7 HD HT.
  set (D := B2R (fg_alt t) - B2R (fg_alt b)) in *. set (T := (B2R alt - B2R (fg_alt b)) / D).
  assert (ET : B2R alt - B2R (fg_alt b) = T * D) by (unfold T; field; lra).
  assert (BT : Rabs T <= 1000). { rewrite ET, Rabs_mult, (Rabs_pos_eq D) in HT by lra. apply Rmult_le_reg_r with D; lra. }
  assert (TR : forall x y c, Rabs x <= c -> Rabs y <= c -> Rabs (x - y) <= 2 * c) by (intros x y c X Y; eapply Rle_trans; [apply Rabs_triang|]; rewrite Rabs_Ropp; lra).
  pose proof (TR _ _ _ B1 B3) as C1. pose proof (TR _ _ _ B2 B4) as C2. pose proof (TR _ _ _ B6 B5) as C3. pose proof (TR _ _ _ B7 B5) as C4. fold D in C3.
  destruct (difference alt (fg_alt b) 60000 Fa F6 ltac:(lra) ltac:(lra)) as [Fn En]. destruct (difference (fg_alt t) (fg_alt b) 60000 F3 F6 ltac:(fold D; lra) ltac:(lra)) as [Fd Ed].
  fold D in Ed. rewrite (Rabs_pos_eq D) in Ed by lra.
  destruct (quotient _ _ _ D T Fn HD ET BT En Ed) as [Fc Ec].
  pose proof (Rabs_pos T). pose proof (Rabs_pos (B2R (fg_lon t) - B2R (fg_lon b))). pose proof (Rabs_pos (B2R (fg_lat t) - B2R (fg_lat b))).
  assert (M1 : Rabs (B2R (fg_lon t) - B2R (fg_lon b)) * Rabs T <= (2 * 180) * 1000) by (apply Rmult_le_compat; lra).
  assert (M2 : Rabs (B2R (fg_lat t) - B2R (fg_lat b)) * Rabs T <= (2 * 90) * 1000) by (apply Rmult_le_compat; lra).
  assert (M3 : Rabs D * Rabs T <= 360000) by (rewrite <- Rabs_mult; replace (D * T) with (B2R alt - B2R (fg_alt b)) by (rewrite ET; ring); lra).
  destruct (prolonged_value _ _ _ T _ F1 F4 Fc H1 ltac:(lra) ltac:(lra) BT ltac:(lra) Ec) as [G1 V1].
  destruct (prolonged_value _ _ _ T _ F2 F5 Fc H2 ltac:(lra) ltac:(lra) BT ltac:(lra) Ec) as [G2 V2].
  destruct (prolonged_value _ _ _ T _ F3 F6 Fc H3 ltac:(fold D; lra) ltac:(lra) BT ltac:(fold D; lra) Ec) as [G3 V3].
  unfold on_the_line. cbv zeta. fold D. fold T. split; [exact G1|]. split; [exact G2|]. split; [exact G3|]. split; [exact V1|]. split; [exact V2|].
  replace (B2R alt) with (B2R (fg_alt b) + D * T) by (assert (D * T = T * D) by ring; lra). exact V3.
Qed.

(** ** The altitudes *)
Lemma altitude_sum x y (B : R) : is_finite x = true -> is_finite y = true -> Rabs (B2R x + B2R y) <= B -> B <= 1000000000 ->
  is_finite (fadd x y) = true /\ Rabs (B2R (fadd x y) - (B2R x + B2R y)) <= ulp1 * Rabs (B2R x + B2R y) + tiny.
Proof. intros Fx Fy H L. destruct (round_value (B2R x + B2R y)) as [E O]; [lra|]. destruct (fadd_round x y Fx Fy O) as [V F]. rewrite V. auto. Qed.
Lemma leb_true (x y : b64) : is_finite x = true -> is_finite y = true -> (Bleb x y = true <-> B2R x <= B2R y).
Proof. intros F G. rewrite Bleb_correct by assumption. case Rle_bool_spec; intros; split; intros; try easy; lra. Qed.
Section altitudes.
Variables (m : rpc) (M : fmodel).
Hypothesis (S : same_model m M) (U : usual_model_altitudes m M).
Lemma alt_offset : B2R (fa_offset (fm_alt M)) = offset_alt m. Proof. symmetry. apply S. Qed.
Lemma alt_scale : B2R (fa_scale (fm_alt M)) = scale_alt m. Proof. symmetry. apply S. Qed.
Lemma middle_values :
  is_finite (middle_lowest M) = true /\ is_finite (middle_highest M) = true /\
  Rabs (B2R (middle_lowest M) - (offset_alt m - scale_alt m / 2)) <= 1 / 1000000000 /\ Rabs (B2R (middle_highest M) - (offset_alt m + scale_alt m / 2)) <= 1 / 1000000000.
Proof.
  destruct U as (F1 & F2 & U1 & U2). pose proof ulp1_fine. pose proof tiny_fine. pose proof ulp1_pos. pose proof tiny_pos. destruct fint2 as [V2 G2]. pose proof (Rabs_pos (offset_alt m)).
  assert (HH : is_finite (fdiv (fa_scale (fm_alt M)) (fint 2)) = true /\ Rabs (B2R (fdiv (fa_scale (fm_alt M)) (fint 2)) - scale_alt m / 2) <= 2 / 1000000000000).
  { assert (B : Rabs (B2R (fa_scale (fm_alt M)) / B2R (fint 2)) <= 15000) by (rewrite alt_scale, V2, Rabs_pos_eq; lra).
    destruct (round_value (B2R (fa_scale (fm_alt M)) / B2R (fint 2))) as [E O]; [lra|]. destruct (fdiv_round (fa_scale (fm_alt M)) (fint 2) F2 ltac:(rewrite V2; lra) O) as [V F]. split; [exact F|].
    rewrite V. rewrite <- alt_scale. rewrite V2 in *. assert (ulp1 * Rabs (B2R (fa_scale (fm_alt M)) / 2) <= ulp1 * 15000) by (apply Rmult_le_compat_l; lra). lra. }
  destruct HH as [Fh Eh]. apply Rabs_le_inv in Eh. pose proof (Rabs_def2 (offset_alt m) (Rabs (offset_alt m) + 1) ltac:(lra)) as OB.
  assert (OB' : - Rabs (offset_alt m) <= offset_alt m <= Rabs (offset_alt m)) by (apply Rabs_le_inv; lra).
  unfold middle_lowest, middle_highest. set (h := fdiv _ _) in *.
  assert (B1 : Rabs (B2R (fa_offset (fm_alt M)) - B2R h) <= 50000) by (rewrite alt_offset; apply Rabs_le; lra).
  assert (B2 : Rabs (B2R (fa_offset (fm_alt M)) + B2R h) <= 50000) by (rewrite alt_offset; apply Rabs_le; lra).
  destruct (difference (fa_offset (fm_alt M)) h 50000 F1 Fh B1 ltac:(lra)) as [G1 E1]. destruct (altitude_sum (fa_offset (fm_alt M)) h 50000 F1 Fh B2 ltac:(lra)) as [G3 E3].
  assert (ulp1 * Rabs (B2R (fa_offset (fm_alt M)) - B2R h) <= ulp1 * 50000) by (apply Rmult_le_compat_l; lra). assert (ulp1 * Rabs (B2R (fa_offset (fm_alt M)) + B2R h) <= ulp1 * 50000) by (apply Rmult_le_compat_l; lra).
  split; [exact G1|]. split; [exact G3|]. rewrite alt_offset in *. apply Rabs_le_inv in E1, E3. split; apply Rabs_le; lra.
Qed.
Lemma limits_finite : is_finite (model_lowest M) = true /\ is_finite (model_highest M) = true /\ B2R (model_lowest M) = rnd (offset_alt m - scale_alt m) /\ B2R (model_highest M) = rnd (offset_alt m + scale_alt m).
Proof.
  destruct U as (F1 & F2 & U1 & U2). assert (OB' : - Rabs (offset_alt m) <= offset_alt m <= Rabs (offset_alt m)) by (apply Rabs_le_inv; lra). rewrite <- alt_offset, <- alt_scale in *.
  unfold model_lowest, model_highest. destruct (round_value (B2R (fa_offset (fm_alt M)) - B2R (fa_scale (fm_alt M)))) as [_ O1]; [apply Rabs_le; lra|]. destruct (round_value (B2R (fa_offset (fm_alt M)) + B2R (fa_scale (fm_alt M)))) as [_ O2]; [apply Rabs_le; lra|].
  destruct (fsub_round _ _ F1 F2 O1) as [V1 G1]. destruct (fadd_round _ _ F1 F2 O2) as [V2 G2]. auto.
Qed.
Lemma used_range bounds lo hi : used_altitudes m M bounds lo hi -> f_range M bounds = ((lo, hi), None).
Proof.
  destruct bounds as [[a b]|]; cbn [used_altitudes f_range]; [|intros [-> ->]; reflexivity]. intros (-> & -> & F1 & F2 & L & H). destruct limits_finite as (G1 & G2 & V1 & V2).
  rewrite (proj2 (leb_true _ _ G1 F1)), (proj2 (leb_true _ _ F2 G2)); [reflexivity| |].
  - rewrite V2. replace (B2R hi) with (rnd (B2R hi)) by apply (rnd_fits _ (fits_b64 hi F2)). now apply rnd_le.
  - rewrite V1. replace (B2R lo) with (rnd (B2R lo)) by apply (rnd_fits _ (fits_b64 lo F1)). now apply rnd_le.
Qed.
Lemma far_range a b : far_altitudes m M a b -> f_range M (Some (a, b)) = ((middle_lowest M, middle_highest M), Some (a, b)).
Proof.
  intros (F1 & F2 & H & _). destruct limits_finite as (G1 & G2 & _). cbn [f_range]. destruct (Bleb (model_lowest M) a && Bleb b (model_highest M)) eqn:E; [exfalso|reflexivity].
  apply andb_true_iff in E as [E1 E2]. apply leb_true in E1, E2; try assumption. lra.
Qed.
(** The prolonged lines. *)
Lemma prolonged_end a b c t q p : far_altitudes m M a b -> (c = a \/ c = b) -> f_prolonged c t q p -> fg_alt t = middle_highest M -> fg_alt q = middle_lowest M ->
  is_finite (fg_lon t) = true -> is_finite (fg_lat t) = true -> is_finite (fg_lon q) = true -> is_finite (fg_lat q) = true ->
  Rabs (B2R (fg_lon t)) <= 180 -> Rabs (B2R (fg_lat t)) <= 90 -> Rabs (B2R (fg_lon q)) <= 180 -> Rabs (B2R (fg_lat q)) <= 90 -> on_the_line t q (B2R c) p.
Proof.
  intros (F1 & F2 & _ & A1 & A2 & A3 & A4) C P ET EQ G1 G2 G3 G4 B1 B2 B3 B4. destruct middle_values as (G5 & G6 & V5 & V6). apply Rabs_le_inv in V5, V6. destruct U as (_ & _ & U1 & U2).
  assert (OB' : - Rabs (offset_alt m) <= offset_alt m <= Rabs (offset_alt m)) by (apply Rabs_le_inv; lra).
  assert (K : is_finite c = true /\ Rabs (B2R c) <= 30000 /\ Rabs (B2R c - offset_alt m) <= 900 * scale_alt m) by (destruct C as [->| ->]; auto).
  destruct K as (Fc & Ac & Bc). apply Rabs_le_inv in Bc. apply prolonged_on_the_line; rewrite ?ET, ?EQ; try assumption; try (apply Rabs_le; lra). lra.
Qed.
End altitudes.

(** ** The pixels *)
Lemma ends_nth px lo hi i row col : nth_error px i = Some (row, col) ->
  nth_error (f_ends px lo hi) (2 * i) = Some (FPix row col hi) /\ nth_error (f_ends px lo hi) (2 * i + 1) = Some (FPix row col lo).
Proof.
  revert i. induction px as [|[r c] px IH]; intros i E; [destruct i; discriminate|]. destruct i as [|i]; cbn [nth_error] in E; [injection E as -> ->; split; reflexivity|].
  destruct (IH i E) as [H1 H2]. replace (2 * S i)%nat with (S (S (2 * i))) by lia. replace (S (S (2 * i)) + 1)%nat with (S (S (2 * i + 1))) by lia. split; assumption.
Qed.
Lemma ends_in px lo hi p : In p (f_ends px lo hi) -> In (fp_row p, fp_col p) px /\ (fp_alt p = hi \/ fp_alt p = lo).
Proof.
  unfold f_ends. rewrite in_flat_map. intros ([r c] & I & [<-|[<-|[]]]); cbn [fp_row fp_col fp_alt fst snd]; auto.
Qed.
Lemma ends_first px lo hi p0 l : filter f_valid (f_ends px lo hi) = p0 :: l -> fp_alt p0 = hi.
Proof.
  induction px as [|[r c] px IH]; cbn [f_ends flat_map app filter fst snd]; [discriminate|]. change (flat_map _ px) with (f_ends px lo hi).
  replace (f_valid (FPix r c lo)) with (f_valid (FPix r c hi)) by reflexivity. destruct (f_valid (FPix r c hi)); [|exact IH]. intros E. injection E as <- _. reflexivity.
Qed.
Lemma combine_nth {A B C} (f : A * B -> C) l l' k x y : nth_error l k = Some x -> nth_error l' k = Some y -> nth_error (map f (combine l l')) k = Some (f (x, y)).
Proof. revert l' k. induction l as [|a l IH]; intros [|b l'] [|k] H H'; try discriminate; cbn in *; [congruence|]. now apply IH. Qed.
Lemma prolonged_nth lo hi l l' i t b : f_prolonged_rows lo hi l l' -> nth_error l (2 * i) = Some t -> nth_error l (2 * i + 1) = Some b ->
  exists t' b', nth_error l' (2 * i) = Some t' /\ nth_error l' (2 * i + 1) = Some b' /\ f_prolonged hi t b t' /\ f_prolonged lo t b b'.
Proof.
  intros H. revert i. induction H as [|t0 b0 t' b' l l' P1 P2 H IH]; intros i E1 E2; [destruct i; discriminate|].
  destruct i as [|i].
  - cbn in E1, E2. injection E1 as ->. injection E2 as ->. exists t', b'. auto.
  - replace (2 * S i)%nat with (S (S (2 * i))) in * by lia. replace (S (S (2 * i)) + 1)%nat with (S (S (2 * i + 1))) in * by lia. cbn [nth_error] in *. exact (IH i E1 E2).
Qed.
Lemma same_sf (x : b64) : FloatWalk.b_eqb x x = true.
Proof. unfold FloatWalk.b_eqb, FloatWalk.sf_eqb. destruct x as [s|s| |s mm ex B]; cbn [B2SF]; try destruct s; try reflexivity; rewrite ?Pos.eqb_refl, ?Z.eqb_refl; reflexivity. Qed.
