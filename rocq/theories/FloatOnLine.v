(** Proofs about the binary64 model of the DTM intersection: the refined point is on the line of sight. *)
From Coq Require Import ZArith Reals Bool List Lia Lra Psatz.
From Flocq Require Import Core BinarySingleNaN.
From Verif Require Import FloatModel FloatInterpModel Float FloatErr FloatInterp FloatWalkModel FloatWalkSpec FloatWalk FloatRefine FloatLineSpec FloatLine FloatEntry.
Import ListNotations.
Open Scope R_scope.

(** The point of one iteration. *)
Definition coefficient (t : state) : b64 :=
  let '(p_1, a_1, p_2, h_2) := t in fdiv (fsub (fv_alt p_1) a_1) (fsub (fsub h_2 a_1) (fsub (fv_alt p_2) (fv_alt p_1))).
Definition step_point (t : state) : fvec3 :=
  let '(p_1, a_1, p_2, h_2) := t in let c := coefficient t in
  FV3 (mixed c (fv_row p_1) (fv_row p_2)) (mixed c (fv_col p_1) (fv_col p_2)) (mixed c (fv_alt p_1) (fv_alt p_2)).
Definition mixes (c : R) (p q r : fvec3) : Prop :=
  Rabs (B2R (fv_row r) - (B2R (fv_row p) + c * (B2R (fv_row q) - B2R (fv_row p)))) <= nano /\
  Rabs (B2R (fv_col r) - (B2R (fv_col p) + c * (B2R (fv_col q) - B2R (fv_col p)))) <= nano /\
  Rabs (B2R (fv_alt r) - (B2R (fv_alt p) + c * (B2R (fv_alt q) - B2R (fv_alt p)))) <= nano.
Lemma step_mixes m x p_1 a_1 p_2 h_2 : usual_terrain m -> good m x (p_1, a_1, p_2, h_2) ->
  exists c, 0 <= c <= 1001 / 1000 /\ (1 < c -> - above p_2 h_2 <= eta) /\ mixes c p_1 p_2 (step_point (p_1, a_1, p_2, h_2)).
Proof.
  intros U (BX1 & BX2 & S1 & S2 & U0 & V0 & W0 & X0 & XM).
  unfold measured in XM. set (D := apart p_1 p_2) in *. set (u := above p_1 a_1) in *. set (v := - above p_2 h_2) in *.
  assert (D0 : 0 <= D) by apply apart_pos. pose proof (mu_ge D u v D0) as MD. set (MU := mu D u v) in *.
  assert (XB : 0 <= x <= 4 * top) by lra.
  destruct (box_range m x p_1 BX1 XB) as (R1 & C1 & Z1). destruct (box_range m x p_2 BX2 XB) as (R2 & C2 & Z2).
  pose proof (surface_range m x p_1 a_1 U BX1 XB S1) as A1. pose proof (surface_range m x p_2 h_2 U BX2 XB S2) as A2.
  pose proof BX1 as (FR1 & FC1 & FZ1 & IR1 & IC1 & IZ1). pose proof BX2 as (FR2 & FC2 & FZ2 & IR2 & IC2 & IZ2).
  destruct S1 as [FA1 S1]. destruct S2 as [FA2 S2].
  unfold step_point, coefficient. set (c := fdiv (fsub (fv_alt p_1) a_1) (fsub (fsub h_2 a_1) (fsub (fv_alt p_2) (fv_alt p_1)))).
  assert (CN : is_finite c = true /\ 0 <= B2R c /\ Rabs (B2R c * (u + v) - u) <= eta).
  { replace v with (B2R h_2 - B2R (fv_alt p_2)) in * by (unfold v, above; ring). apply coef_near; assumption. }
  destruct CN as (Fc & C0 & CU).
  pose proof (over u v (B2R c) V0 W0 CU) as OV. pose proof (over_small u v (B2R c) W0 CU) as OS.
  assert (N18 : IZR (fr_rows m) <= 262144 /\ IZR (fr_cols m) <= 262144).
  { destruct U as ((_ & A) & (_ & B) & _). split; [apply (IZR_le _ (2 ^ 18)) in A|apply (IZR_le _ (2 ^ 18)) in B]; assumption. }
  destruct ulp1_num as [UL0 UL1].
  set (dr := Rabs (B2R (fv_row p_2) - B2R (fv_row p_1))) in *. set (dc := Rabs (B2R (fv_col p_2) - B2R (fv_col p_1))) in *. set (dz := Rabs (B2R (fv_alt p_2) - B2R (fv_alt p_1))) in *.
  assert (DE : D = slope * (dr + dc) + dz) by reflexivity.
  assert (dr0 : 0 <= dr) by apply Rabs_pos. assert (dc0 : 0 <= dc) by apply Rabs_pos. assert (dz0 : 0 <= dz) by apply Rabs_pos.
  exists (B2R c). split; [lra|]. split; [exact OS|]. unfold mixes, nano. cbn [fv_row fv_col fv_alt]. unfold mixed.
  assert (NR : near (fadd (fv_row p_1) (fmul c (fsub (fv_row p_2) (fv_row p_1)))) (B2R (fv_row p_1) + B2R c * (B2R (fv_row p_2) - B2R (fv_row p_1))) (/ 1000000000)).
  { apply (mix_near _ _ _ 262144 6); try assumption; try lra; [apply Rabs_le; lra|fold dr; unfold slope, top in *; lra]. }
  assert (NC : near (fadd (fv_col p_1) (fmul c (fsub (fv_col p_2) (fv_col p_1)))) (B2R (fv_col p_1) + B2R c * (B2R (fv_col p_2) - B2R (fv_col p_1))) (/ 1000000000)).
  { apply (mix_near _ _ _ 262144 6); try assumption; try lra; [apply Rabs_le; lra|fold dc; unfold slope, top in *; lra]. }
  assert (NZ : near (fadd (fv_alt p_1) (fmul c (fsub (fv_alt p_2) (fv_alt p_1)))) (B2R (fv_alt p_1) + B2R c * (B2R (fv_alt p_2) - B2R (fv_alt p_1))) (/ 1000000000)).
  { apply (mix_near _ _ _ 98304 196608); try assumption; try lra. apply Rabs_le. apply Rabs_le_inv in Z1, Z2. lra. }
  split; [apply NR|]. split; [apply NC|apply NZ].
Qed.
Definition within (a b : fvec3) (e : R) (p : fvec3) : Prop := exists t, line_at a b t e p.
Lemma within_weaken a b e e' p : within a b e p -> e <= e' -> within a b e' p.
Proof. intros [t H] L. exists t. eapply line_weaken; eassumption. Qed.
Lemma mixes_line a b e1 e2 c p q r : within a b e1 p -> within a b e2 q -> 0 <= c -> mixes c p q r -> within a b (Rabs (1 - c) * e1 + c * e2 + nano) r.
Proof.
  intros [t1 (A1 & A2 & A3)] [t2 (B1 & B2 & B3)] C0 (M1 & M2 & M3). exists (t1 + c * (t2 - t1)).
  assert (G : forall x y u v w, Rabs (u - (x + t1 * (y - x))) <= e1 -> Rabs (v - (x + t2 * (y - x))) <= e2 -> Rabs (w - (u + c * (v - u))) <= nano ->
    Rabs (w - (x + (t1 + c * (t2 - t1)) * (y - x))) <= Rabs (1 - c) * e1 + c * e2 + nano).
  { intros x y u v w H1 H2 H3.
    replace (w - (x + (t1 + c * (t2 - t1)) * (y - x))) with ((w - (u + c * (v - u))) + ((1 - c) * (u - (x + t1 * (y - x))) + c * (v - (x + t2 * (y - x))))) by ring.
    eapply Rle_trans; [apply Rabs_triang|]. rewrite Rplus_comm. apply Rplus_le_compat; [|exact H3]. eapply Rle_trans; [apply Rabs_triang|]. rewrite !Rabs_mult, (Rabs_pos_eq c) by exact C0.
    apply Rplus_le_compat; apply Rmult_le_compat_l; try assumption. apply Rabs_pos. }
  split; [|split]; (eapply G; [| |eassumption]); eassumption.
Qed.
Lemma refine_cases m n t p : refine_from (finterpolate m) (S n) t = FFound p ->
  p = step_point t \/
  exists z, refine_step (finterpolate m) t = Some (let '(p_1, a_1, p_2, h_2) := t in if Bltb (fsub z (fv_alt (step_point t))) fzero then (step_point t, z, p_2, h_2) else (p_1, a_1, step_point t, z)).
Proof.
  destruct t as [[[p_1 a_1] p_2] h_2]. unfold refine_from, refine_step. cbn [frefine]. cbv zeta.
  change (fdiv (fsub (fv_alt p_1) a_1) (fsub (fsub h_2 a_1) (fsub (fv_alt p_2) (fv_alt p_1)))) with (coefficient (p_1, a_1, p_2, h_2)).
  unfold step_point, mixed. set (q := FV3 _ _ _). destruct (finterpolate m (fv_row q) (fv_col q)) as [z|]; [|discriminate].
  destruct (Bltb ftol_z (fabs (fsub z (fv_alt q)))); [|intros H; injection H as <-; left; reflexivity].
  intros _. right. exists z. reflexivity.
Qed.
Lemma refine_line m a b e0 : usual_terrain m -> 0 <= e0 -> forall n x t p E, good m x t -> 101 / 100 * e0 <= E ->
  let '(p_1, a_1, p_2, h_2) := t in
  within a b E p_1 -> within a b e0 p_2 \/ (eta < - above p_2 h_2 /\ within a b E p_2) -> refine_from (finterpolate m) n t = FFound p ->
  within a b (E + INR n * nano) p.
Proof.
  intros U He. induction n as [|n IH]; intros x t p E G HE; destruct t as [[[p_1 a_1] p_2] h_2]; intros W1 W2 H; [discriminate|].
  destruct (step_mixes m x p_1 a_1 p_2 h_2 U G) as (c & C & OS & MX). destruct tol_num as [TN _].
  assert (W2' : within a b E p_2) by (destruct W2 as [W2|[_ W2]]; [eapply within_weaken; [exact W2|lra]|exact W2]).
  assert (WA : within a b (E + nano) (step_point (p_1, a_1, p_2, h_2))).
  { destruct (Rle_or_lt c 1) as [L|L].
    - eapply within_weaken; [exact (mixes_line a b _ _ c _ _ _ W1 W2' (proj1 C) MX)|]. rewrite (Rabs_pos_eq (1 - c)) by lra. lra.
    - specialize (OS L). destruct W2 as [W2|[K _]]; [|lra].
      eapply within_weaken; [exact (mixes_line a b _ _ c _ _ _ W1 W2 (proj1 C) MX)|]. rewrite (Rabs_left1 (1 - c)) by lra.
      assert (- (1 - c) * E <= / 1000 * E) by (apply Rmult_le_compat_r; lra). assert (c * e0 <= 1001 / 1000 * e0) by (apply Rmult_le_compat_r; lra). lra. }
  rewrite S_INR. replace (E + (INR n + 1) * nano) with ((E + nano) + INR n * nano) by ring. assert (N0 : 0 <= nano) by (unfold nano; lra).
  assert (EE : E <= E + nano) by lra.
  destruct (refine_cases m n _ p H) as [->|[z ES]].
  - eapply within_weaken; [exact WA|]. pose proof (pos_INR n). assert (0 <= INR n * nano) by now apply Rmult_le_pos. lra.
  - rewrite (refine_unfold _ _ _ _ ES) in H. destruct (step_good m x _ U G) as [(q & _ & Hq)|(t' & x' & ES' & G' & _ & LT)].
    { exfalso. specialize (Hq 0%nat). rewrite (refine_unfold _ _ _ _ ES) in Hq. unfold refine_from in Hq. destruct (Bltb _ fzero) in Hq; discriminate. }
    rewrite ES in ES'. assert (ET : forall u v : state, Some u = Some v -> u = v) by congruence. apply ET in ES'. clear ET. subst t'. cbv zeta in *.
    clear ES MX. destruct (Bltb (fsub z (fv_alt (step_point (p_1, a_1, p_2, h_2)))) fzero).
    + specialize (IH x' (step_point (p_1, a_1, p_2, h_2), z, p_2, h_2) p (E + nano) G' ltac:(lra)). cbv beta iota in IH. apply IH; [exact WA| |exact H].
      destruct W2 as [W2|[K W2]]; [left; exact W2|right; split; [exact K|eapply within_weaken; [exact W2|exact EE]]].
    + specialize (IH x' (p_1, a_1, step_point (p_1, a_1, p_2, h_2), z) p (E + nano) G' ltac:(lra)). cbv beta iota in IH. apply IH; [eapply within_weaken; [exact W1|exact EE]| |exact H].
      unfold later in LT. destruct LT as [[Q1 Q2]|LT].
      * destruct W2 as [W2|[K W2]]; [left; rewrite Q1; exact W2|right; split; [rewrite Q1, Q2; exact K|exact WA]].
      * right. split; [unfold eta; lra|exact WA].
Qed.
(** The two ends in the raster, on the line. *)
Lemma regular_line m a b e n p_1 a_1 p_2 h_2 p : usual_terrain m -> in_raster m p_1 -> in_raster m p_2 -> one_cell p_1 p_2 -> 0 <= e ->
  finterpolate m (fv_row p_1) (fv_col p_1) = Some a_1 -> finterpolate m (fv_row p_2) (fv_col p_2) = Some h_2 -> goes_down p_1 a_1 p_2 h_2 ->
  within a b e p_1 -> within a b e p_2 -> frefine (finterpolate m) n p_1 a_1 p_2 h_2 = FFound p -> within a b (101 / 100 * e + INR n * nano) p.
Proof.
  intros U I1 I2 O He E1 E2 G W1 W2 H. destruct (regular_good m p_1 a_1 p_2 h_2 U I1 I2 O E1 E2 G) as [GG _].
  apply (refine_line m a b e U He n 0 (p_1, a_1, p_2, h_2) p (101 / 100 * e) GG (Rle_refl _)).
  - eapply within_weaken; [exact W1|lra].
  - left. exact W2.
  - exact H.
Qed.
(** In the raster means in reach. *)
Lemma raster_reach m p : usual_terrain m -> in_raster m p -> in_reach p.
Proof.
  intros ((_ & R1) & (_ & C1) & _) (F1 & F2 & F3 & A & B & C). apply (IZR_le _ (2 ^ 18)) in R1, C1. rewrite minus_IZR in A, B. unfold in_reach, reach, top in *.
  split; [split; [exact F1|apply Rabs_le; lra]|]. split; [split; [exact F2|apply Rabs_le; lra]|]. split; [exact F3|lra].
Qed.
Lemma locate_line m fuel cells steps los p : usual_terrain m -> usual_altitudes m -> Forall usual_point los -> (Z.of_nat (length los) <= 2 ^ 18)%Z ->
  (forall a b, joined los a b -> B2R (fv_row a) <> B2R (fv_row b) \/ B2R (fv_col a) <> B2R (fv_col b)) ->
  flocate m fuel cells steps los = Some (FFound p) ->
  exists a b p_1 alti_1 p_2 h_2, joined los a b /\ between_of m fuel p_1 alti_1 p_2 h_2 p /\
    on_line_in_reach a b (nano * INR (length los)) p_1 /\ on_line_in_reach a b (nano * INR (length los)) p_2.
Proof.
  intros UT UL UP SZ NV H. unfold flocate in H. destruct (fintersect_dtm_cube m los) as [[pb h]|] eqn:E; [|discriminate]. injection H as H. unfold fintersection in H.
  destruct (finterpolate m _ _) as [z|]; [|discriminate]. destruct (Bltb _ _); [discriminate|].
  destruct (entry_line m los pb h UT UL UP SZ E) as (i_0 & EF & ST & _). rewrite EF in H.
  assert (LEN : 1 <= INR (length los)).
  { destruct los as [|v l]; [discriminate|]. cbn [length]. rewrite S_INR. pose proof (pos_INR (length l)). lra. }
  pose proof UT as ((_ & R) & (_ & C) & _).
  apply (vertex_loop_line m los _ fuel cells UP R C) with (steps := steps) (i_0 := i_0) (p_2 := pb) (h_2 := h); try assumption. unfold nano. lra.
Qed.
