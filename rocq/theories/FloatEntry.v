(** Proofs about the binary64 model of the DTM intersection: the entry in the box of the DTM is on the line of sight. *)
From Coq Require Import ZArith Reals Bool List Lia Lra Psatz.
From Flocq Require Import Core BinarySingleNaN.
From Verif Require Import FloatModel FloatInterpModel Float FloatErr FloatInterp FloatRpc FloatWalkModel FloatWalkSpec FloatWalk FloatRefine FloatLineSpec FloatLine PropertiesFloatCross.
Import ListNotations.
Open Scope R_scope.

(** ** The six planes *)
Definition plane_coord (i : nat) (p : fvec3) : b64 := if (i <? 2)%nat then fv_row p else if (i <? 4)%nat then fv_col p else fv_alt p.
Definition plane_at (m : fraster) (i : nat) : b64 := nth i (fplane_coef_d m) fzero.

Lemma fold_pick (f : b64 -> b64 -> b64) (P : b64 -> Prop) : (forall x y, f x y = x \/ f x y = y) -> forall l x, P x -> Forall P l -> P (fold_left f l x).
Proof.
  intros H. induction l as [|y l IH]; intros x Px Hl; [exact Px|]. inversion Hl as [|? ? Py Hl']. subst. cbn [fold_left]. apply IH; [|exact Hl'].
  destruct (H x y) as [->| ->]; assumption.
Qed.
Lemma fflatten_all m (P : b64 -> Prop) : (forall r c, (0 <= r < fr_rows m)%Z -> (0 <= c < fr_cols m)%Z -> P (fr_at m r c)) -> Forall P (fflatten m).
Proof.
  intros H. apply Forall_forall. intros x I. unfold fflatten in I. apply in_flat_map in I as (r & Hr & I). apply in_map_iff in I as (c & <- & Hc).
  apply in_seq in Hr, Hc. apply H; lia.
Qed.
Lemma usual_int n : (Z.abs n <= 2 ^ 18)%Z -> usual_number (fint n).
Proof.
  intros H. destruct (fint_exact n) as [E F]; [lia|]. split; [exact F|]. rewrite E. split.
  - unfold reach. rewrite <- abs_IZR. apply IZR_le. lia.
  - destruct (Z.eq_dec n 0) as [->|N]; [left; reflexivity|right]. apply Rle_trans with 1; [apply (bpow_le radix2 (-400) 0); lia|].
    rewrite <- abs_IZR. apply IZR_le. lia.
Qed.
Lemma usual_planes m : usual_terrain m -> usual_altitudes m -> forall i, usual_number (plane_at m i).
Proof.
  intros ((R1 & R2) & (C1 & C2) & _) UA i.
  assert (Z0 : usual_number fzero) by (apply usual_int; lia).
  assert (SUB : forall n, (2 <= n <= 2 ^ 18)%Z -> usual_number (fsub (fint n) fone)).
  { intros n Hn. destruct (fint_exact n) as [E1 F1]; [lia|]. destruct (fint_exact 1) as [E2 F2]; [lia|].
    destruct (fsub_fits (fint n) fone (IZR (n - 1)) F1 F2) as [E F]; [unfold fone; rewrite E1, E2; now rewrite minus_IZR|apply fits_int; lia|].
    destruct (usual_int (n - 1)) as (_ & B & G); [lia|]. destruct (fint_exact (n - 1)) as [E3 _]; [lia|]. rewrite E3 in B, G. split; [exact F|]. rewrite E. tauto. }
  assert (FL : Forall usual_number (fflatten m)) by (apply fflatten_all; exact UA).
  assert (MN : usual_number (falt_min m)).
  { unfold falt_min. destruct (fflatten m) as [|x l]; [exact Z0|]. inversion FL; subst. apply fold_pick; [|assumption|assumption].
    intros u v. unfold fmin2. destruct (Bltb v u); tauto. }
  assert (MX : usual_number (falt_max m)).
  { unfold falt_max. destruct (fflatten m) as [|x l]; [exact Z0|]. inversion FL; subst. apply fold_pick; [|assumption|assumption].
    intros u v. unfold fmax2. destruct (Bltb u v); tauto. }
  unfold plane_at, fplane_coef_d. do 6 (destruct i as [|i]; [cbn [nth]; try assumption; apply SUB; lia|]). destruct i; exact Z0.
Qed.

Lemma eq_plan_val m i p : (i < 6)%nat -> usual_number (plane_at m i) -> usual_point p ->
  is_finite (feq_plan m i p) = true /\ B2R (feq_plan m i p) = rnd (B2R (plane_coord i p) - B2R (plane_at m i)).
Proof.
  intros Hi (Fm & Bm & _) ((Fr & Br & _) & (Fc & Bc & _) & (Fa & Ba & _)). unfold reach in *. pose proof huge_num as HG.
  unfold feq_plan. fold (plane_at m i). set (d := plane_at m i) in *. unfold fplane_coef_a, fplane_coef_b, fplane_coef_c, plane_coord, fone, fzero.
  destruct (fint_exact 0) as [Z1 Z2]; [lia|]. destruct (fint_exact 1) as [O1 O2]; [lia|].
  assert (A0 : Rabs (rnd 0) < bpow radix2 1024) by (rewrite rnd_0, Rabs_R0; apply bpow_gt_0).
  assert (M0 : forall x : b64, is_finite x = true -> B2R (fmul (fint 0) x) = 0 /\ is_finite (fmul (fint 0) x) = true).
  { intros x F. destruct (fmul_round (fint 0) x Z2 F) as [E G]; rewrite Z1, Rmult_0_l in *; [exact A0|]. rewrite rnd_0 in E. auto. }
  assert (SAME : forall x : b64, is_finite x = true -> rnd (B2R x) = B2R x) by (intros x F; unfold rnd; apply round_generic; [apply valid_rnd_N|apply generic_format_B2R]).
  assert (SIZE : forall x : b64, is_finite x = true -> Rabs (rnd (B2R x)) < bpow radix2 1024) by (intros x F; rewrite SAME by assumption; apply abs_B2R_lt_emax).
  assert (M1 : forall x : b64, is_finite x = true -> B2R (fmul (fint 1) x) = B2R x /\ is_finite (fmul (fint 1) x) = true).
  { intros x F. destruct (fmul_round (fint 1) x O2 F) as [E G]; rewrite O1, Rmult_1_l in *; [now apply SIZE|]. rewrite SAME in E by assumption. auto. }
  assert (ADD : forall x y z : b64, is_finite x = true -> is_finite y = true -> is_finite z = true -> B2R x + B2R y = B2R z -> B2R (fadd x y) = B2R z /\ is_finite (fadd x y) = true).
  { intros x y z Fx Fy Fz E. apply fadd_fits; try assumption. now apply fits_b64. }
  assert (SUB : forall x y : b64, is_finite x = true -> B2R x = B2R y -> Rabs (B2R y) <= 262144 -> is_finite (fsub x d) = true /\ B2R (fsub x d) = rnd (B2R y - B2R d)).
  { intros x y Fx E B. rewrite <- E in *. destruct (fsub_round x d Fx Fm) as [U1 U2]; [|auto]. apply huge_lt. apply Rabs_le_inv in B, Bm. apply Rle_trans with 600000; [apply Rabs_le; lra|lra]. }
  destruct (M0 _ Fr) as [R1 R2]. destruct (M0 _ Fc) as [C1 C2]. destruct (M0 _ Fa) as [A1 A2].
  destruct (M1 _ Fr) as [R3 R4]. destruct (M1 _ Fc) as [C3 C4]. destruct (M1 _ Fa) as [A3 A4].
  destruct (ADD _ _ (fv_row p) R4 C2 Fr ltac:(lra)) as [S1 S2]. destruct (ADD _ _ (fv_row p) S2 A2 Fr ltac:(lra)) as [S3 S4].
  destruct (ADD _ _ (fv_col p) R2 C4 Fc ltac:(lra)) as [T1 T2]. destruct (ADD _ _ (fv_col p) T2 A2 Fc ltac:(lra)) as [T3 T4].
  destruct (ADD _ _ (fint 0) R2 C2 Z2 ltac:(lra)) as [U1 U2]. destruct (ADD _ _ (fv_alt p) U2 A4 Fa ltac:(lra)) as [U3 U4].
  destruct i as [|[|[|[|[|[|i]]]]]]; [| | | | | |lia]; cbn [nth Nat.ltb Nat.leb]; (apply SUB; assumption).
Qed.

(** ** The weights of the two vertices *)
Lemma quot_near (x w : b64) W : is_finite x = true -> is_finite w = true -> Rabs (B2R x) <= Rabs W -> Rabs (B2R x) <= Rabs (B2R w) ->
  Rabs (B2R w - W) <= ulp1 * Rabs W + tiny -> bpow radix2 (-453) <= Rabs W -> B2R w <> 0 -> 0 <= B2R x / B2R w ->
  near (fdiv x w) (B2R x / W) (402 / 100 * ulp1) /\ 0 <= B2R (fdiv x w) <= 1.
Proof.
  intros Fx Fw XW Xw DW GW NZ SG. destruct ulp1_num as [L0 L1]. destruct tiny_num as [T0 T1]. pose proof huge_num as HG. pose proof tiny_small as TS.
  set (X := B2R x) in *. set (V := B2R w) in *.
  assert (W0 : 0 < Rabs W) by (pose proof (bpow_gt_0 radix2 (-453)); lra). assert (NW : W <> 0) by (intros ->; rewrite Rabs_R0 in W0; lra).
  assert (V0 : 0 < Rabs V) by now apply Rabs_pos_lt.
  assert (Q1 : X / V <= 1).
  { rewrite <- (Rabs_pos_eq (X / V)) by exact SG. unfold Rdiv. rewrite Rabs_mult, Rabs_inv. apply Rmult_le_reg_r with (Rabs V); [exact V0|].
    rewrite Rmult_assoc, Rinv_l by lra. lra. }
  destruct (fdiv_round x w Fx NZ) as [E F]; [apply huge_lt; fold X V; rewrite Rabs_pos_eq; lra|]. fold X V in E.
  assert (B01 : 0 <= rnd (X / V) <= 1).
  { split; [rewrite <- rnd_0; now apply rnd_le|]. assert (R1 : rnd 1 = 1) by (apply rnd_fits; apply (fits_int 1); lia). rewrite <- R1. now apply rnd_le. }
  rewrite E. split; [|exact B01]. split; [exact F|]. rewrite E.
  pose proof (rnd_error (X / V)) as R. rewrite (Rabs_pos_eq (X / V)) in R by exact SG.
  assert (R' : Rabs (rnd (X / V) - X / V) <= 1001 / 1000 * ulp1) by (assert (ulp1 * (X / V) <= ulp1 * 1) by (apply Rmult_le_compat_l; lra); lra).
  assert (D : Rabs (X / V - X / W) <= 1001 / 1000 * ulp1).
  { replace (X / V - X / W) with (X / V * ((W - V) / W)) by (field; split; assumption). rewrite Rabs_mult, (Rabs_pos_eq (X / V)) by exact SG.
    assert (Q : Rabs ((W - V) / W) <= 1001 / 1000 * ulp1).
    { unfold Rdiv. rewrite Rabs_mult, Rabs_inv, (Rabs_minus_sym W V). apply Rmult_le_reg_r with (Rabs W); [exact W0|]. rewrite Rmult_assoc, Rinv_l by lra. rewrite Rmult_1_r.
      assert (TG : tiny <= / 1000 * (ulp1 * Rabs W)).
      { apply Rle_trans with (bpow radix2 (-10) * (ulp1 * bpow radix2 (-453))).
        - unfold tiny, ulp1. rewrite <- !bpow_plus. apply bpow_le. lia.
        - apply Rmult_le_compat; [apply bpow_ge_0|apply Rmult_le_pos; [lra|apply bpow_ge_0]|cbn; lra|apply Rmult_le_compat_l; lra]. }
      lra. }
    apply Rle_trans with (1 * (1001 / 1000 * ulp1)); [apply Rmult_le_compat; [exact SG|apply Rabs_pos|exact Q1|exact Q]|lra]. }
  replace (rnd (X / V) - X / W) with ((rnd (X / V) - X / V) + (X / V - X / W)) by ring. eapply Rle_trans; [apply Rabs_triang|]. lra.
Qed.
(** Two numbers of opposite signs. *)
Lemma weights (la lb : b64) : is_finite la = true -> is_finite lb = true -> Rabs (B2R la) <= 600000 -> Rabs (B2R lb) <= 600000 ->
  bpow radix2 (-453) <= Rabs (B2R la) -> B2R la * B2R lb < 0 ->
  let t := B2R la / (B2R la - B2R lb) in let ca := fdiv lb (fsub lb la) in let cb := fdiv (fopp la) (fsub lb la) in
  0 <= t <= 1 /\ near ca (1 - t) (402 / 100 * ulp1) /\ near cb t (402 / 100 * ulp1) /\ 0 <= B2R ca <= 1.
Proof.
  intros Fa Fb Ba Bb Ga OP t ca cb. destruct ulp1_num as [L0 L1]. destruct tiny_num as [T0 T1]. pose proof huge_num as HG.
  set (x := B2R la) in *. set (y := B2R lb) in *.
  assert (SG : (x < 0 /\ 0 < y) \/ (0 < x /\ y < 0)).
  { destruct (Rtotal_order x 0) as [Hx|[Hx|Hx]]; destruct (Rtotal_order y 0) as [Hy|[Hy|Hy]]; try (left; split; assumption); try (right; split; assumption); exfalso; try (rewrite Hx in OP; lra); try (rewrite Hy in OP; lra).
    - assert (0 < - x * - y) by (apply Rmult_lt_0_compat; lra). lra.
    - assert (0 < x * y) by (apply Rmult_lt_0_compat; lra). lra. }
  assert (HW : Rabs (y - x) = Rabs x + Rabs y).
  { destruct SG as [[]|[]].
    - rewrite (Rabs_left x), (Rabs_pos_eq y), Rabs_pos_eq by lra. ring.
    - rewrite (Rabs_pos_eq x), (Rabs_left y), Rabs_left by lra. ring. }
  pose proof (Rabs_pos x) as X0. pose proof (Rabs_pos y) as Y0.
  destruct (fsub_round lb la Fb Fa) as [EW FW]; [apply huge_lt; fold x y; lra|]. fold x y in EW.
  assert (SAME : forall z : b64, rnd (B2R z) = B2R z) by (intros z; unfold rnd; apply round_generic; [apply valid_rnd_N|apply generic_format_B2R]).
  assert (OPP : rnd (- x) = - x) by (unfold x; rewrite <- (SAME la) at 2; unfold rnd; apply round_NE_opp).
  pose proof (SAME lb) as SB. fold y in SB.
  assert (Fo : is_finite (fopp la) = true) by (unfold fopp; now rewrite is_finite_Bopp). assert (Eo : B2R (fopp la) = - x) by (unfold fopp; apply B2R_Bopp).
  assert (PK : forall z, rnd z = z -> (z <= y - x -> z <= rnd (y - x)) /\ (y - x <= z -> rnd (y - x) <= z)) by (intros z E; split; intros H; rewrite <- E; now apply rnd_le).
  assert (WB : (0 < y -> y <= rnd (y - x) /\ - x <= rnd (y - x)) /\ (y < 0 -> rnd (y - x) <= y /\ rnd (y - x) <= - x)).
  { split; intros Hy; (assert (Hx : (y < 0 -> 0 < x) /\ (0 < y -> x < 0)) by lra); split; apply PK; try assumption; lra. }
  set (V := rnd (y - x)) in *.
  assert (NV : V <> 0) by (destruct SG as [[]|[]]; lra).
  assert (AV : Rabs y <= Rabs V /\ Rabs x <= Rabs V).
  { destruct SG as [[]|[]].
    - rewrite (Rabs_left x), (Rabs_pos_eq y), (Rabs_pos_eq V) by lra. lra.
    - rewrite (Rabs_pos_eq x), (Rabs_left y), (Rabs_left V) by lra. lra. }
  assert (QP : 0 <= y / V /\ 0 <= - x / V).
  { assert (IV : (0 < V -> 0 < / V) /\ (V < 0 -> / V < 0)) by (split; [apply Rinv_0_lt_compat|apply Rinv_lt_0_compat]). unfold Rdiv.
    destruct SG as [[]|[]].
    - assert (0 < / V) by (apply IV; lra). split; apply Rmult_le_pos; lra.
    - assert (/ V < 0) by (apply IV; lra). split; [replace (y * / V) with (- y * - / V) by ring|replace (- x * / V) with (x * - / V) by ring]; apply Rmult_le_pos; lra. }
  assert (GW : bpow radix2 (-453) <= Rabs (y - x)) by lra.
  assert (DW : Rabs (V - (y - x)) <= ulp1 * Rabs (y - x) + tiny) by apply rnd_error.
  destruct (quot_near lb (fsub lb la) (y - x) Fb FW) as [N1 N2]; rewrite ?EW; fold y V; try assumption; try lra; try tauto.
  destruct (quot_near (fopp la) (fsub lb la) (y - x) Fo FW) as [N3 N4]; rewrite ?EW, ?Eo, ?Rabs_Ropp; fold V; try assumption; try lra; try tauto.
  rewrite Eo in N3. fold y in N1. fold ca in N1, N2. fold cb in N3.
  assert (E1 : y / (y - x) = 1 - t) by (unfold t; field; lra). assert (E2 : - x / (y - x) = t) by (unfold t; field; lra). rewrite E1 in N1. rewrite E2 in N3.
  split; [|tauto].
  assert (T : 0 <= t /\ 0 <= 1 - t); [|lra]. rewrite <- E1. rewrite <- E2.
  assert (IW : (0 < y - x -> 0 < / (y - x)) /\ (y - x < 0 -> / (y - x) < 0)) by (split; [apply Rinv_0_lt_compat|apply Rinv_lt_0_compat]). unfold Rdiv.
  destruct SG as [[]|[]].
  - assert (0 < / (y - x)) by (apply IW; lra). split; apply Rmult_le_pos; lra.
  - assert (/ (y - x) < 0) by (apply IW; lra). split; [replace (- x * / (y - x)) with (x * - / (y - x)) by ring|replace (y * / (y - x)) with (- y * - / (y - x)) by ring]; apply Rmult_le_pos; lra.
Qed.
(** The face: the coordinate of the plane, at the parameter of the computed distances [x] and [y] to it. *)
Lemma face_near X Y x y : Rabs (x - X) <= ulp1 * Rabs X + tiny -> Rabs (y - Y) <= ulp1 * Rabs Y + tiny -> Rabs X <= 524288 -> Rabs Y <= 524288 -> x * y < 0 ->
  let t := x / (x - y) in 0 <= t <= 1 -> Rabs (X + t * (Y - X)) <= / 10000000000.
Proof.
  intros HX HY BX BY OP t T. destruct ulp1_num as [L0 L1]. destruct tiny_num as [T0 T1].
  assert (N : x - y <> 0) by (intros E; assert (x = y) by lra; subst; pose proof (Rle_0_sqr y) as S; unfold Rsqr in S; lra).
  assert (Z : (1 - t) * x + t * y = 0) by (unfold t; field; exact N).
  replace (X + t * (Y - X)) with ((1 - t) * - (x - X) + t * - (y - Y)) by (transitivity ((1 - t) * X + t * Y - ((1 - t) * x + t * y)); [ring|rewrite Z; ring]).
  assert (EX : Rabs (x - X) <= 6 / 100000000000) by (assert (ulp1 * Rabs X <= ulp1 * 524288) by (apply Rmult_le_compat_l; lra); lra).
  assert (EY : Rabs (y - Y) <= 6 / 100000000000) by (assert (ulp1 * Rabs Y <= ulp1 * 524288) by (apply Rmult_le_compat_l; lra); lra).
  eapply Rle_trans; [apply Rabs_triang|]. rewrite !Rabs_mult, !Rabs_Ropp, (Rabs_pos_eq (1 - t)), (Rabs_pos_eq t) by lra.
  assert ((1 - t) * Rabs (x - X) <= (1 - t) * (6 / 100000000000)) by (apply Rmult_le_compat_l; lra).
  assert (t * Rabs (y - Y) <= t * (6 / 100000000000)) by (apply Rmult_le_compat_l; lra). lra.
Qed.

(** ** One crossing *)
Definition cross_point (c : fcrossing) : fvec3 := FV3 (fx_col c) (fx_row c) (fx_alt c).
Lemma bleb_zero (x : b64) : is_finite x = true -> Bleb x fzero = true -> B2R x <= 0.
Proof.
  intros F H. rewrite Bleb_correct in H by (assumption || reflexivity). change (B2R fzero) with 0 in H. destruct (Rle_bool_spec (B2R x) 0); [assumption|discriminate].
Qed.
Lemma eqb_zero_false (x : b64) : is_finite x = true -> Beqb x fzero = false -> B2R x <> 0.
Proof. apply eqb_zero. Qed.
(** The distance to a plane: exact sign, and not too small. *)
Lemma plane_distance m i p : (i < 6)%nat -> usual_number (plane_at m i) -> usual_point p ->
  let l := feq_plan m i p in is_finite l = true /\ Rabs (B2R l - (B2R (plane_coord i p) - B2R (plane_at m i))) <= ulp1 * Rabs (B2R (plane_coord i p) - B2R (plane_at m i)) + tiny /\
  Rabs (B2R (plane_coord i p) - B2R (plane_at m i)) <= 524288 /\ Rabs (B2R l) <= 600000 /\ (B2R l <> 0 -> bpow radix2 (-453) <= Rabs (B2R l)) /\
  (B2R l = 0 -> B2R (plane_coord i p) = B2R (plane_at m i)).
Proof.
  intros Hi UM UP l. destruct (eq_plan_val m i p Hi UM UP) as [F E]. fold l in F, E.
  assert (UC : usual_number (plane_coord i p)) by (destruct UP as (U1 & U2 & U3); unfold plane_coord; destruct (i <? 2)%nat; [exact U1|]; destruct (i <? 4)%nat; [exact U2|exact U3]).
  destruct ulp1_num as [L0 L1]. destruct tiny_num as [T0 T1].
  set (D := B2R (plane_coord i p) - B2R (plane_at m i)) in *.
  assert (BD : Rabs D <= 524288).
  { destruct UC as (_ & B1 & _). destruct UM as (_ & B2 & _). unfold reach in *. apply Rabs_le_inv in B1, B2. apply Rabs_le. unfold D. lra. }
  pose proof (rnd_error D) as R. rewrite <- E in R.
  assert (UD : ulp1 * Rabs D <= ulp1 * 524288) by (apply Rmult_le_compat_l; lra).
  assert (TR : Rabs D <= Rabs (B2R l) + Rabs (B2R l - D)) by (replace D with (B2R l + - (B2R l - D)) at 1 by ring; eapply Rle_trans; [apply Rabs_triang|]; rewrite Rabs_Ropp; lra).
  assert (UH : ulp1 * Rabs D <= / 4 * Rabs D) by (apply Rmult_le_compat_r; [apply Rabs_pos|lra]).
  assert (TG : tiny <= / 8 * bpow radix2 (-452)) by (change (/ 8) with (bpow radix2 (-3)); rewrite <- bpow_plus; unfold tiny; apply bpow_le; lia).
  assert (BG : bpow radix2 (-453) = / 2 * bpow radix2 (-452)) by (change (/ 2) with (bpow radix2 (-1)); rewrite <- bpow_plus; f_equal).
  assert (GAP : D <> 0 -> bpow radix2 (-452) <= Rabs D) by (intros N; apply usual_gap; [exact UC|exact UM|intros Q; apply N; unfold D; lra]).
  split; [exact F|]. split; [exact R|]. split; [exact BD|]. split; [|split].
  - assert (Rabs (B2R l) <= Rabs D + Rabs (B2R l - D)) by (replace (B2R l) with (D + (B2R l - D)) at 1 by ring; apply Rabs_triang). lra.
  - intros N. assert (D <> 0) by (intros Z0; apply N; rewrite E, Z0; apply rnd_0). specialize (GAP H). pose proof (bpow_gt_0 radix2 (-452)). lra.
  - intros Z0. destruct (Req_dec D 0) as [Q|Q]; [unfold D in Q; lra|exfalso]. specialize (GAP Q). rewrite Z0, Rabs_R0 in TR. replace (0 - D) with (- D) in * by ring.
    rewrite Z0 in R. replace (0 - D) with (- D) in R by ring. rewrite Rabs_Ropp in R. pose proof (bpow_gt_0 radix2 (-452)). lra.
Qed.
Lemma opposite_signs (la lb : b64) : is_finite la = true -> is_finite lb = true -> Rabs (B2R la) <= 600000 -> Rabs (B2R lb) <= 600000 ->
  bpow radix2 (-453) <= Rabs (B2R la) -> bpow radix2 (-453) <= Rabs (B2R lb) -> Bleb (fmul la lb) fzero = true -> B2R la * B2R lb < 0.
Proof.
  intros Fa Fb Ba Bb Ga Gb H. pose proof huge_num as HG.
  assert (BM : Rabs (B2R la * B2R lb) <= huge).
  { rewrite Rabs_mult. apply Rle_trans with (600000 * 600000); [apply Rmult_le_compat; try assumption; apply Rabs_pos|].
    apply Rle_trans with (bpow radix2 40); [cbn; lra|]. unfold huge. apply bpow_le. lia. }
  destruct (fmul_round la lb Fa Fb) as [E F]; [now apply huge_lt|]. apply bleb_zero in H; [|exact F]. rewrite E in H.
  assert (G : bpow radix2 (-906) <= Rabs (B2R la * B2R lb)).
  { rewrite Rabs_mult. change (-906)%Z with (-453 + -453)%Z. rewrite bpow_plus. apply Rmult_le_compat; try assumption; apply bpow_ge_0. }
  destruct (Rlt_or_le (B2R la * B2R lb) 0) as [L|L]; [exact L|exfalso]. rewrite Rabs_pos_eq in G by exact L.
  assert (K : rnd (bpow radix2 (-906)) = bpow radix2 (-906)).
  { apply rnd_fits. replace (bpow radix2 (-906)) with (IZR 1 * bpow radix2 (-906)) by ring. apply fits_dyadic; lia. }
  pose proof (rnd_le _ _ G). pose proof (bpow_gt_0 radix2 (-906)). lra.
Qed.
Lemma crossing_line m i a b layer : usual_terrain m -> usual_altitudes m -> (i < 6)%nat -> usual_point a -> usual_point b ->
  let la := feq_plan m i a in let lb := feq_plan m i b in
  B2R la <> 0 -> B2R lb <> 0 -> Bleb (fmul la lb) fzero = true ->
  let c := fplane_crossing m i a b la lb layer in
  exists t ca, 0 <= t <= 1 /\ line_at a b t (4 / 10000000000) (cross_point c) /\ fx_h c = fsub (fint layer) ca /\
    near ca (1 - t) (402 / 100 * ulp1) /\ 0 <= B2R ca <= 1.
Proof.
  intros UT UL Hi UA UB la lb Na Nb OP c. pose proof (usual_planes m UT UL i) as UM.
  destruct (plane_distance m i a Hi UM UA) as (Fa & Da & Xa & Ba & Ga & _). fold la in Fa, Da, Ba, Ga.
  destruct (plane_distance m i b Hi UM UB) as (Fb & Db & Xb & Bb & Gb & _). fold lb in Fb, Db, Bb, Gb.
  specialize (Ga Na). specialize (Gb Nb). pose proof (opposite_signs la lb Fa Fb Ba Bb Ga Gb OP) as SG.
  destruct (weights la lb Fa Fb Ba Bb Ga SG) as (T & NA & NB & CA).
  set (t := B2R la / (B2R la - B2R lb)) in *. set (ca := fdiv lb (fsub lb la)) in *. set (cb := fdiv (fopp la) (fsub lb la)) in *.
  pose proof (face_near _ _ _ _ Da Db Xa Xb SG T) as FN. fold t in FN.
  exists t, ca. destruct ulp1_num as [L0 L1].
  assert (E : c = FCr (if (i <? 2)%nat then plane_at m i else fadd (fmul ca (fv_row a)) (fmul cb (fv_row b)))
                      (if ((1 <? i) && (i <? 4))%nat then plane_at m i else fadd (fmul ca (fv_col a)) (fmul cb (fv_col b)))
                      (if (3 <? i)%nat then plane_at m i else fadd (fmul ca (fv_alt a)) (fmul cb (fv_alt b))) (fsub (fint layer) ca)).
  { unfold c, fplane_crossing. destruct (Beqb la fzero) eqn:Q1; [apply eqb_zero_true in Q1; contradiction|].
    destruct (Beqb lb fzero) eqn:Q2; [apply eqb_zero_true in Q2; contradiction|]. reflexivity. }
  clearbody c. subst c. split; [exact T|]. split; [|split; [reflexivity|tauto]].
  assert (MIX : forall u v : b64, usual_number u -> usual_number v ->
    Rabs (B2R (fadd (fmul ca u) (fmul cb v)) - (B2R u + t * (B2R v - B2R u))) <= 4 / 10000000000).
  { intros u v (Fu & Bu & _) (Fv & Bv & _). unfold reach in *.
    destruct (weighted_near ca cb u v t 262144 NA NB T Fu Fv Bu Bv ltac:(lra)) as [_ N]. replace (B2R u + t * (B2R v - B2R u)) with ((1 - t) * B2R u + t * B2R v) by ring. lra. }
  assert (FACE : Rabs (B2R (plane_at m i) - (B2R (plane_coord i a) + t * (B2R (plane_coord i b) - B2R (plane_coord i a)))) <= 4 / 10000000000).
  { rewrite <- Rabs_Ropp. replace (- (B2R (plane_at m i) - (B2R (plane_coord i a) + t * (B2R (plane_coord i b) - B2R (plane_coord i a)))))
      with ((B2R (plane_coord i a) - B2R (plane_at m i)) + t * ((B2R (plane_coord i b) - B2R (plane_at m i)) - (B2R (plane_coord i a) - B2R (plane_at m i)))) by ring. lra. }
  destruct UA as (A1 & A2 & A3). destruct UB as (B1 & B2 & B3). unfold line_at, cross_point. cbn [fv_row fv_col fv_alt fx_col fx_row fx_alt].
  unfold plane_coord in FACE. destruct i as [|[|[|[|[|[|i]]]]]]; [| | | | | |lia]; cbn [Nat.ltb Nat.leb andb] in *; (split; [|split]); first [now apply MIX | exact FACE].
Qed.

(** ** The lists of crossings *)
Lemma scan_spec m i : forall rest a layer c, fplane_scan m i a rest layer = Some c ->
  exists k b p, nth_error rest k = Some b /\ nth_error (a :: rest) k = Some p /\
    Bleb (fmul (feq_plan m i p) (feq_plan m i b)) fzero = true /\ c = fplane_crossing m i p b (feq_plan m i p) (feq_plan m i b) (layer + Z.of_nat k).
Proof.
  induction rest as [|b rest IH]; intros a layer c H; cbn [fplane_scan] in H; [discriminate|]. cbv zeta in H.
  destruct (Bleb _ _) eqn:E.
  - injection H as <-. exists 0%nat, b, a. cbn. rewrite Z.add_0_r. repeat split. exact E.
  - destruct (IH b (layer + 1)%Z c H) as (k & b' & p & N1 & N2 & E' & C). exists (S k), b', p. split; [exact N1|]. split; [exact N2|]. split; [exact E'|].
    rewrite C. f_equal. lia.
Qed.
Lemma sort_pass_in x : forall l q l', fsort_pass x l = (q, l') -> forall c, In c (q :: l') -> In c (x :: l).
Proof.
  intros l. revert x. induction l as [|y l IH]; intros x q l' H c I; cbn [fsort_pass] in H.
  - injection H as <- <-. exact I.
  - destruct (Bltb (fx_h y) (fx_h x)).
    + destruct (fsort_pass y l) as [q1 l1] eqn:E. injection H as <- <-. specialize (IH y q1 l1 E c).
      destruct I as [<-|[<-|I]]; [right; apply IH; left; reflexivity|left; reflexivity|right; apply IH; right; exact I].
    + destruct (fsort_pass x l) as [q1 l1] eqn:E. injection H as <- <-. specialize (IH x q1 l1 E c).
      destruct I as [<-|[<-|I]]; [|right; left; reflexivity|]; (destruct IH as [Q|Q]; [(left; reflexivity) || (right; exact I)|left; exact Q|right; right; exact Q]).
Qed.
Lemma exchange_sort_in n : forall l c, In c (fexchange_sort n l) -> In c l.
Proof.
  induction n as [|n IH]; intros l c I; cbn [fexchange_sort] in I; [destruct l; exact I|]. destruct l as [|x l]; [exact I|].
  destruct (fsort_pass x l) as [q l'] eqn:E. apply (sort_pass_in x l q l' E). destruct I as [<-|I]; [left; reflexivity|right; exact (IH _ _ I)].
Qed.
Lemma cube_crossing m los p h : fintersect_dtm_cube m los = Some (p, h) ->
  exists v rest i c, los = v :: rest /\ (i < 6)%nat /\ fplane_scan m i v los 0 = Some c /\ p = cross_point c /\ h = fx_h c /\ ftest_on_cube m c = true.
Proof.
  unfold fintersect_dtm_cube. cbv zeta. set (cs := fall_crossings m los). intros H.
  destruct (filter (ftest_on_cube m) (fexchange_sort (length cs) cs)) as [|c [|c' l]] eqn:E; try discriminate. injection H as <- <-.
  assert (I : In c (filter (ftest_on_cube m) (fexchange_sort (length cs) cs))) by (rewrite E; left; reflexivity).
  apply filter_In in I as [I T]. apply exchange_sort_in in I. unfold cs, fall_crossings in I. destruct los as [|v rest]; [destruct I|].
  apply in_flat_map in I as (i & Hi & I). destruct (fplane_scan m i v (v :: rest) 0) as [c0|] eqn:S; [|destruct I]. destruct I as [<-|[]].
  apply in_seq in Hi. exists v, rest, i, c0. repeat split; try assumption. lia.
Qed.

(** ** The entry *)
Lemma line_start a b : line_at a b 0 0 a.
Proof. unfold line_at. repeat split; match goal with |- Rabs ?x <= 0 => replace x with 0 by ring end; rewrite Rabs_R0; lra. Qed.
Lemma line_end a b : line_at a b 1 0 b.
Proof. unfold line_at. repeat split; match goal with |- Rabs ?x <= 0 => replace x with 0 by ring end; rewrite Rabs_R0; lra. Qed.
Lemma line_weaken a b t e e' p : line_at a b t e p -> e <= e' -> line_at a b t e' p.
Proof. intros (H1 & H2 & H3) L. repeat split; lra. Qed.
Lemma py_get_nat l k : fpy_get l (Z.of_nat k) = nth_error l k.
Proof. unfold fpy_get. destruct (Z.ltb_spec (Z.of_nat k) 0); [lia|]. now rewrite Nat2Z.id. Qed.
(** The position of a point close to the end of a segment, from the next one. *)
Lemma near_end a b a' t p e d : usual_point a -> usual_point b -> line_at a b t e p -> 0 <= 1 - t <= d -> line_at b a' 0 (e + d * 524288) p.
Proof.
  intros (A1 & A2 & A3) (B1 & B2 & B3) (H1 & H2 & H3) D.
  assert (G : forall x y z : b64, usual_number x -> usual_number y -> Rabs (B2R z - (B2R x + t * (B2R y - B2R x))) <= e ->
    forall u, Rabs (B2R z - (B2R y + 0 * u)) <= e + d * 524288).
  { intros x y z (_ & Bx & _) (_ & By & _) H u. unfold reach in *.
    replace (B2R z - (B2R y + 0 * u)) with ((B2R z - (B2R x + t * (B2R y - B2R x))) + - ((1 - t) * (B2R y - B2R x))) by ring.
    eapply Rle_trans; [apply Rabs_triang|]. rewrite Rabs_Ropp, Rabs_mult, (Rabs_pos_eq (1 - t)) by lra.
    assert ((1 - t) * Rabs (B2R y - B2R x) <= d * 524288); [|lra].
    apply Rmult_le_compat; [lra|apply Rabs_pos|lra|]. apply Rabs_le_inv in Bx, By. apply Rabs_le. lra. }
  split; [exact (G _ _ _ A1 B1 H1 _)|]. split; [exact (G _ _ _ A2 B2 H2 _)|exact (G _ _ _ A3 B3 H3 _)].
Qed.
Lemma entry_line m los p h : usual_terrain m -> usual_altitudes m -> Forall usual_point los -> (Z.of_nat (length los) <= 2 ^ 18)%Z ->
  fintersect_dtm_cube m los = Some (p, h) ->
  exists i_0, ffloor h = Some i_0 /\ starts los (nano * INR (length los)) i_0 p /\
    ((exists i a b t, segment_at los i a b /\ 0 <= t <= 1 /\ line_at a b t nano p /\ Rabs (B2R h - (INR i + t)) <= nano) \/ (nth_error los 0 = Some p /\ B2R h = -1)).
Proof.
  intros UT UL UP SZ H. destruct (cube_crossing m los p h H) as (v & rest & i & c & EL & Hi & SC & -> & -> & _).
  destruct (scan_spec m i _ _ _ _ SC) as (k & b & a & N1 & N2 & OP & EC). rewrite Z.add_0_l in EC.
  assert (UB : usual_point b) by (rewrite Forall_forall in UP; apply UP; exact (nth_error_In _ _ N1)).
  assert (UA : usual_point a).
  { rewrite Forall_forall in UP. apply nth_error_In in N2. destruct N2 as [<-|N2]; [|now apply UP]. apply UP. rewrite EL. left; reflexivity. }
  pose proof (usual_planes m UT UL i) as UM.
  destruct (plane_distance m i a Hi UM UA) as (Fa & Da & Xa & Ba & Ga & _). destruct (plane_distance m i b Hi UM UB) as (Fb & Db & Xb & Bb & Gb & _).
  assert (LEN : 1 <= INR (length los)) by (rewrite EL; cbn [length]; rewrite S_INR; pose proof (pos_INR (length rest)); lra).
  assert (E0 : 0 <= nano * INR (length los)) by (unfold nano; lra). assert (E1 : nano <= nano * INR (length los)) by (unfold nano; lra).
  assert (KL : (k < length los)%nat) by (apply nth_error_Some; congruence).
  destruct ulp1_num as [L0 L1]. destruct tiny_num as [T0 T1].
  assert (FLOOR : forall n, (Z.abs n < 2 ^ 53)%Z -> ffloor (fint n) = Some n) by (intros n Hn; destruct (fint_exact n Hn) as [En Fn]; rewrite (ffloor_finite _ Fn), En; now rewrite Zfloor_IZR).
  assert (AT0 : forall j q, nth_error los j = Some q -> starts los (nano * INR (length los)) (Z.of_nat j) q).
  { intros j q Q a' b' G1 _. rewrite py_get_nat, Q in G1. injection G1 as <-. exists 0. eapply line_weaken; [apply line_start|exact E0]. }
  destruct k as [|k].
  - (* the first vertex with itself *)
    rewrite EL in N1. cbn in N1, N2. injection N1 as <-. injection N2 as <-.
    assert (Z0 : B2R (feq_plan m i v) = 0).
    { destruct (Req_dec (B2R (feq_plan m i v)) 0) as [Q|Q]; [exact Q|exfalso]. specialize (Ga Q).
      pose proof (opposite_signs _ _ Fa Fa Ba Ba Ga Ga OP) as S. pose proof (Rle_0_sqr (B2R (feq_plan m i v))) as S'. unfold Rsqr in S'. lra. }
    assert (Q : Beqb (feq_plan m i v) fzero = true).
    { destruct (Beqb (feq_plan m i v) fzero) eqn:Q; [reflexivity|]. apply eqb_zero_false in Q; [contradiction|exact Fa]. }
    unfold fplane_crossing in EC. rewrite Q in EC. cbn -[fint Z.sub] in EC. subst c. unfold cross_point. cbn [fx_col fx_row fx_alt fx_h].
    assert (EV : FV3 (fv_row v) (fv_col v) (fv_alt v) = v) by (destruct v; reflexivity). rewrite EV.
    exists (-1)%Z. change (Z.of_nat 0 - 1)%Z with (-1)%Z. split; [apply FLOOR; lia|]. split.
    + intros a' b' _ G2. change (-1 + 1)%Z with (Z.of_nat 0) in G2. rewrite py_get_nat, EL in G2. cbn in G2. injection G2 as <-.
      exists 1. eapply line_weaken; [apply line_end|exact E0].
    + right. rewrite EL. split; [reflexivity|]. destruct (fint_exact (-1)) as [E _]; [lia|exact E].
  - assert (SEG : segment_at los k a b) by (split; [exact N2|exact N1]).
    destruct (Beqb (feq_plan m i a) fzero) eqn:Q1.
    + unfold fplane_crossing in EC. rewrite Q1 in EC. subst c. unfold cross_point. cbn [fx_col fx_row fx_alt fx_h].
      assert (EV : FV3 (fv_row a) (fv_col a) (fv_alt a) = a) by (destruct a; reflexivity). rewrite EV.
      exists (Z.of_nat k). replace (Z.of_nat (S k) - 1)%Z with (Z.of_nat k) by lia. split; [apply FLOOR; lia|]. split; [apply AT0; exact N2|].
      left. exists k, a, b, 0. split; [exact SEG|]. split; [lra|]. split; [eapply line_weaken; [apply line_start|unfold nano; lra]|].
      destruct (fint_exact (Z.of_nat k)) as [-> _]; [lia|]. rewrite <- INR_IZR_INZ. replace (INR k - (INR k + 0)) with 0 by ring. rewrite Rabs_R0. unfold nano. lra.
    + destruct (Beqb (feq_plan m i b) fzero) eqn:Q2.
      * unfold fplane_crossing in EC. rewrite Q1, Q2 in EC. subst c. unfold cross_point. cbn [fx_col fx_row fx_alt fx_h].
        assert (EV : FV3 (fv_row b) (fv_col b) (fv_alt b) = b) by (destruct b; reflexivity). rewrite EV.
        exists (Z.of_nat (S k)). split; [apply FLOOR; lia|]. split; [apply AT0; exact N1|].
        left. exists k, a, b, 1. split; [exact SEG|]. split; [lra|]. split; [eapply line_weaken; [apply line_end|unfold nano; lra]|].
        destruct (fint_exact (Z.of_nat (S k))) as [-> _]; [lia|]. rewrite <- INR_IZR_INZ, S_INR. replace (INR k + 1 - (INR k + 1)) with 0 by ring. rewrite Rabs_R0. unfold nano. lra.
      * apply eqb_zero_false in Q1; [|exact Fa]. apply eqb_zero_false in Q2; [|exact Fb].
        destruct (crossing_line m i a b (Z.of_nat (S k)) UT UL Hi UA UB Q1 Q2 OP) as (t & ca & T & LN & EH & [FC NC] & CA). rewrite <- EC in LN, EH.
        destruct (fint_exact (Z.of_nat (S k))) as [EK FK]; [lia|]. rewrite <- INR_IZR_INZ in EK.
        assert (BK : 1 <= INR (S k) <= 262144).
        { rewrite INR_IZR_INZ. split; [apply (IZR_le 1); lia|apply (IZR_le _ (2 ^ 18)); lia]. }
        destruct (fsub_round (fint (Z.of_nat (S k))) ca FK FC) as [EV FV].
        { apply huge_lt. pose proof huge_num. rewrite EK. apply Rle_trans with 300000; [apply Rabs_le; lra|lra]. }
        rewrite EK in EV. rewrite <- EH in EV, FV. pose proof (rnd_error (INR (S k) - B2R ca)) as RE. rewrite <- EV in RE.
        assert (HB : INR k <= B2R (fx_h c) <= INR (S k)).
        { rewrite EV. assert (RI : forall n, (n <= S k)%nat -> rnd (INR n) = INR n) by (intros n Hn; apply rnd_fits; rewrite INR_IZR_INZ; apply fits_int; lia).
          pose proof (RI k ltac:(lia)) as RI1. pose proof (RI (S k) ltac:(lia)) as RI2. rewrite S_INR in *.
          assert (P1 : rnd (INR k) <= rnd (INR k + 1 - B2R ca)) by (apply rnd_le; lra). assert (P2 : rnd (INR k + 1 - B2R ca) <= rnd (INR k + 1)) by (apply rnd_le; lra). lra. }
        assert (US : ulp1 * Rabs (INR (S k) - B2R ca) <= ulp1 * INR (S k)) by (apply Rmult_le_compat_l; [lra|apply Rabs_le; lra]).
        assert (NF : Rabs (B2R (fx_h c) - (INR k + t)) <= nano).
        { rewrite S_INR in *. apply Rabs_le_inv in RE, NC. assert (ulp1 * (INR k + 1) <= ulp1 * 262144) by (apply Rmult_le_compat_l; lra). unfold nano. apply Rabs_le. lra. }
        assert (SEC : exists i' a' b' t', segment_at los i' a' b' /\ 0 <= t' <= 1 /\ line_at a' b' t' nano (cross_point c) /\ Rabs (B2R (fx_h c) - (INR i' + t')) <= nano).
        { exists k, a, b, t. split; [exact SEG|]. split; [exact T|]. split; [|exact NF]. eapply line_weaken; [exact LN|unfold nano; lra]. }
        rewrite (ffloor_finite _ FV).
        destruct (Rlt_or_le (B2R (fx_h c)) (INR (S k))) as [LT|GE].
        -- assert (FL : Zfloor (B2R (fx_h c)) = Z.of_nat k).
           { apply Zfloor_imp. rewrite plus_IZR, <- INR_IZR_INZ. rewrite S_INR in LT. lra. }
           exists (Z.of_nat k). split; [now rewrite FL|]. split; [|left; exact SEC].
           intros a' b' G1 G2. replace (Z.of_nat k + 1)%Z with (Z.of_nat (S k)) in G2 by lia. rewrite py_get_nat in G1, G2.
           change (nth_error los k = Some a') in G1. destruct SEG as [SG1 SG2]. rewrite SG1 in G1. rewrite SG2 in G2. injection G1 as <-. injection G2 as <-.
           exists t. eapply line_weaken; [exact LN|unfold nano in *; lra].
        -- assert (HE : B2R (fx_h c) = INR (S k)) by lra.
           assert (FL : Zfloor (B2R (fx_h c)) = Z.of_nat (S k)) by (rewrite HE, INR_IZR_INZ; apply Zfloor_IZR).
           exists (Z.of_nat (S k)). split; [now rewrite FL|]. split; [|left; exact SEC].
           intros a' b' G1 _. rewrite py_get_nat in G1. rewrite N1 in G1. injection G1 as <-.
           exists 0. assert (DT : 0 <= 1 - t <= ulp1 * INR (S k) + 503 / 100 * ulp1).
           { rewrite HE in RE. replace (INR (S k) - (INR (S k) - B2R ca)) with (B2R ca) in RE by ring. rewrite (Rabs_pos_eq (B2R ca)) in RE by lra.
             apply Rabs_le_inv in NC. pose proof tiny_small. lra. }
           eapply line_weaken; [exact (near_end a b b' t _ _ _ UA UB LN DT)|].
           assert (LK : INR (S k) <= INR (length los)) by (apply le_INR; lia).
           assert (ulp1 * INR (S k) <= 1111 / 10000000000000000000 * INR (S k)) by (apply Rmult_le_compat_r; lra). unfold nano. lra.
Qed.
