(** Proofs: in binary64 the DTM intersection does not skip a cell in which the line of sight crosses the ground. *)
From Coq Require Import ZArith Reals Bool List Lia Lra.
From Flocq Require Import Core BinarySingleNaN.
From Verif Require Import Num InterpModel InterpSpec InterpProofs FloatModel FloatInterpModel Float FloatErr FloatInterp FloatWalkModel FloatWalkSpec FloatWalk FloatRefine FloatLineSpec PropertiesFloat2 FloatMissSpec.
Import ListNotations.
Open Scope R_scope.

Lemma ltb_lt (x y : b64) : is_finite x = true -> is_finite y = true -> Bltb x y = true -> B2R x < B2R y.
Proof. intros Fx Fy L. rewrite Bltb_correct in L by assumption. revert L. case Rlt_bool_spec; [easy|discriminate]. Qed.
Lemma ltb_ge (x y : b64) : is_finite x = true -> is_finite y = true -> Bltb x y = false -> B2R y <= B2R x.
Proof. intros Fx Fy L. rewrite Bltb_correct in L by assumption. revert L. case Rlt_bool_spec; [discriminate|easy]. Qed.
(** ** The lowest and the highest altitudes of a cell *)
Definition ordinary (x : b64) : Prop := is_finite x = true /\ Rabs (B2R x) <= top.
Lemma min_below (x y : b64) : ordinary x -> ordinary y -> ordinary (fmin2 x y) /\ B2R (fmin2 x y) <= B2R x /\ B2R (fmin2 x y) <= B2R y.
Proof.
  intros X Y. unfold fmin2. destruct (Bltb y x) eqn:E.
  - apply ltb_lt in E; [|apply Y|apply X]. split; [exact Y|lra].
  - apply ltb_ge in E; [|apply Y|apply X]. split; [exact X|lra].
Qed.
Lemma max_above (x y : b64) : ordinary x -> ordinary y -> ordinary (fmax2 x y) /\ B2R x <= B2R (fmax2 x y) /\ B2R y <= B2R (fmax2 x y).
Proof.
  intros X Y. unfold fmax2. destruct (Bltb x y) eqn:E.
  - apply ltb_lt in E; [|apply X|apply Y]. split; [exact Y|lra].
  - apply ltb_ge in E; [|apply X|apply Y]. split; [exact X|lra].
Qed.
Lemma floor_below (x : b64) : ordinary x -> is_finite (np_floor x) = true /\ B2R (np_floor x) <= B2R x.
Proof.
  intros [F B]. unfold np_floor. rewrite ffloor_finite by exact F. apply Rabs_le_inv in B. unfold top in B.
  pose proof (Zfloor_lb (B2R x)) as L. pose proof (Zfloor_ub (B2R x)) as H.
  destruct (fint_exact (Zfloor (B2R x))) as [E G].
  { apply Z.abs_lt. split; apply lt_IZR; [rewrite opp_IZR|]; change (2 ^ 53)%Z with 9007199254740992%Z; lra. }
  rewrite E. tauto.
Qed.
Lemma ceil_above (x : b64) : ordinary x -> is_finite (np_ceil x) = true /\ B2R x <= B2R (np_ceil x).
Proof.
  intros [F B]. unfold np_ceil. rewrite fceil_finite by exact F. apply Rabs_le_inv in B. unfold top in B.
  pose proof (Zceil_ub (B2R x)) as L. pose proof (Zceil_lb (B2R x)) as H.
  destruct (fint_exact (Zceil (B2R x))) as [E G].
  { apply Z.abs_lt. split; apply lt_IZR; [rewrite opp_IZR|]; change (2 ^ 53)%Z with 9007199254740992%Z; lra. }
  rewrite E. tauto.
Qed.
Section CELL.
Variables (m : fraster) (i j : Z).
Hypothesis U : usual_terrain m.
Hypothesis CELL : is_cell (real_raster m) i j.
Lemma corner a b : (a = i \/ a = i + 1)%Z -> (b = j \/ b = j + 1)%Z -> ordinary (fr_at m a b).
Proof. intros A B. destruct CELL as [C1 C2]. cbn in C1, C2. destruct U as (_ & _ & H). apply H; lia. Qed.
Lemma cell_extremes :
  is_finite (falt_min_cell m i j) = true /\ is_finite (falt_max_cell m i j) = true /\
  cell_samples_within (real_raster m) i j (B2R (falt_min_cell m i j)) (B2R (falt_max_cell m i j)).
Proof.
  assert (O00 := corner i j (or_introl eq_refl) (or_introl eq_refl)). assert (O01 := corner i (j + 1) (or_introl eq_refl) (or_intror eq_refl)).
  assert (O10 := corner (i + 1) j (or_intror eq_refl) (or_introl eq_refl)). assert (O11 := corner (i + 1) (j + 1) (or_intror eq_refl) (or_intror eq_refl)).
  unfold falt_min_cell, falt_max_cell.
  destruct (min_below _ _ O00 O01) as (N1 & N1a & N1b). destruct (min_below _ _ N1 O10) as (N2 & N2a & N2b). destruct (min_below _ _ N2 O11) as (N3 & N3a & N3b).
  destruct (max_above _ _ O00 O01) as (X1 & X1a & X1b). destruct (max_above _ _ X1 O10) as (X2 & X2a & X2b). destruct (max_above _ _ X2 O11) as (X3 & X3a & X3b).
  destruct (floor_below _ N3) as [F1 L]. destruct (ceil_above _ X3) as [F2 H].
  split; [exact F1|]. split; [exact F2|]. intros a b A B. cbn [real_raster rs_at].
  destruct A as [->| ->], B as [->| ->]; lra.
Qed.
(** The bilinear surface in the cell is between them. *)
Lemma cell_between lo hi r c : cell_samples_within (real_raster m) i j lo hi -> in_cell i j r c -> lo <= bilinear_in_cell (real_raster m) i j r c <= hi.
Proof.
  intros W [R C]. unfold bilinear_in_cell.
  assert (LP : forall a b t, 0 <= t <= 1 -> lo <= a <= hi -> lo <= b <= hi -> lo <= lerp a b t <= hi).
  { intros a b t T A B. unfold lerp. replace (a + t * (b - a)) with ((1 - t) * a + t * b) by ring.
    assert (H1 : forall u v w, 0 <= u -> v <= w -> u * v <= u * w) by (intros; now apply Rmult_le_compat_l).
    pose proof (H1 (1 - t) lo a ltac:(lra) ltac:(lra)). pose proof (H1 (1 - t) a hi ltac:(lra) ltac:(lra)). pose proof (H1 t lo b ltac:(lra) ltac:(lra)). pose proof (H1 t b hi ltac:(lra) ltac:(lra)). lra. }
  apply LP; [lra| |]; (apply LP; [lra| |]); apply W; tauto.
Qed.
(** The surface at a position close to the cell. *)
Lemma close_between p : in_raster m p -> close_to_cell i j p ->
  B2R (falt_min_cell m i j) - 4 / 10000 <= surf m (B2R (fv_row p)) (B2R (fv_col p)) <= B2R (falt_max_cell m i j) + 4 / 10000.
Proof.
  intros (F1 & F2 & F3 & A & B & _) [C1 C2]. destruct cell_extremes as (_ & _ & W).
  set (r := B2R (fv_row p)) in *. set (c := B2R (fv_col p)) in *. unfold nano in *.
  set (r' := Rmax (IZR i) (Rmin r (IZR i + 1))). set (c' := Rmax (IZR j) (Rmin c (IZR j + 1))).
  assert (P : forall (x : R) k, IZR k - / 1000000000 <= x <= IZR k + 1 + / 1000000000 -> let x' := Rmax (IZR k) (Rmin x (IZR k + 1)) in
    IZR k <= x' <= IZR k + 1 /\ Rabs (x - x') <= / 1000000000).
  { intros x k H x'. unfold x', Rmax, Rmin. destruct (Rle_dec x (IZR k + 1)) as [L|L]; destruct (Rle_dec (IZR k) _) as [L'|L']; (split; [lra|apply Rabs_le; lra]). }
  destruct (P r i C1) as [PR DR]. destruct (P c j C2) as [PC DC]. fold r' in PR, DR. fold c' in PC, DC.
  pose proof CELL as [I1 I2]. cbn in I1, I2. rewrite minus_IZR in A, B.
  assert (Q : forall k n, (0 <= k < n - 1)%Z -> 0 <= IZR k /\ IZR k + 1 <= IZR n) by (intros k n Hk; split; [apply IZR_le; lia|rewrite <- plus_IZR; apply IZR_le; lia]).
  destruct (Q _ _ I1). destruct (Q _ _ I2).
  assert (S : surf m r' c' = bilinear_in_cell (real_raster m) i j r' c') by (rewrite <- (interp_in_cell (real_raster m) i j) by (assumption || now split); reflexivity).
  pose proof (cell_between _ _ r' c' W (conj PR PC)) as BT. rewrite <- S in BT.
  pose proof (surf_lipschitz m U r c r' c' ltac:(lra) ltac:(lra) ltac:(lra) ltac:(lra)) as L. unfold slope, top in L. apply Rabs_le_inv in L. lra.
Qed.
End CELL.
(** The bound on the altitudes is the one of the surface. *)
Lemma raster_cell m p : usual_terrain m -> in_raster m p -> exists i j, is_cell (real_raster m) i j /\ in_cell i j (B2R (fv_row p)) (B2R (fv_col p)) /\
  surf m (B2R (fv_row p)) (B2R (fv_col p)) = bilinear_in_cell (real_raster m) i j (B2R (fv_row p)) (B2R (fv_col p)).
Proof.
  intros U (_ & _ & _ & A & B & _). destruct U as ((R1 & _) & (C1 & _) & _).
  destruct (hull_in_a_cell (real_raster m) (B2R (fv_row p)) (B2R (fv_col p))) as (i & j & C & I); [split; assumption|split; assumption|].
  exists i, j. split; [exact C|]. split; [exact I|]. rewrite <- (interp_in_cell (real_raster m) i j) by assumption. reflexivity.
Qed.
(** The product of two differences of opposite signs. *)
Lemma opposite (x y u v : b64) : is_finite x = true -> is_finite y = true -> is_finite u = true -> is_finite v = true ->
  Rabs (B2R x - B2R y) <= 1000000 -> Rabs (B2R u - B2R v) <= 1000000 -> B2R y <= B2R x -> B2R u <= B2R v ->
  Bleb (fmul (fsub x y) (fsub u v)) fzero = true.
Proof.
  intros Fx Fy Fu Fv D1 D2 S1 S2.
  assert (HU : 10000000000000 <= huge) by (apply Rle_trans with (bpow radix2 50); [change (bpow radix2 50) with (IZR (2 ^ 50)); apply IZR_le; lia|apply bpow_le; lia]).
  assert (B : forall z, Rabs z <= 1000000 -> Rabs (rnd z) <= 1000001).
  { intros z Z. pose proof (rnd_error z) as E. destruct ulp1_num as [U0 U1]. destruct tiny_num as [T0 T1].
    assert (ulp1 * Rabs z <= ulp1 * 1000000) by (apply Rmult_le_compat_l; lra). replace (rnd z) with ((rnd z - z) + z) by ring. eapply Rle_trans; [apply Rabs_triang|]. lra. }
  destruct (fsub_round x y Fx Fy) as [E1 F1]; [apply huge_lt; lra|]. destruct (fsub_round u v Fu Fv) as [E2 F2]; [apply huge_lt; lra|].
  assert (P1 : 0 <= B2R (fsub x y)) by (rewrite E1, <- rnd_0; apply rnd_le; lra). assert (P2 : B2R (fsub u v) <= 0) by (rewrite E2, <- rnd_0; apply rnd_le; lra).
  assert (Q1 : Rabs (B2R (fsub x y)) <= 1000001) by (rewrite E1; now apply B). assert (Q2 : Rabs (B2R (fsub u v)) <= 1000001) by (rewrite E2; now apply B).
  destruct (fmul_round (fsub x y) (fsub u v) F1 F2) as [E F].
  { apply huge_lt. rewrite Rabs_mult. eapply Rle_trans; [apply Rmult_le_compat; [apply Rabs_pos|apply Rabs_pos|exact Q1|exact Q2]|]. lra. }
  destruct (fint_exact 0) as [Z0 FZ]; [lia|]. rewrite Bleb_correct by assumption. unfold fzero. rewrite Z0, E. apply Rle_bool_true. rewrite <- rnd_0. apply rnd_le.
  assert (0 <= B2R (fsub x y) * - B2R (fsub u v)) by (apply Rmult_le_pos; lra). lra.
Qed.
(** ** The cell is not skipped *)
Lemma crosses_refined m s w : usual_terrain m -> fcell_guard m w = true -> is_finite (f_z0 s) = true -> is_finite (f_z1 s) = true -> crosses_ground m s w ->
  exists alti_1 h_2, finterpolate m (fv_row (fw_p w)) (fv_col (fw_p w)) = Some alti_1 /\
    finterpolate m (fv_row (fw_p (fmesh_move s w))) (fv_col (fw_p (fmesh_move s w))) = Some h_2 /\
    goes_down (fw_p w) alti_1 (fw_p (fmesh_move s w)) h_2 /\
    forall fuel n, fcell_loop m s fuel (S n) w = FDone (frefine (finterpolate m) fuel (fw_p w) alti_1 (fw_p (fmesh_move s w)) h_2).
Proof.
  intros U G F0 F1 (I1 & I2 & N1 & N2 & _ & AB & BE & Z1). destruct (guard_cells m w G) as [HC HR].
  assert (CELL : is_cell (real_raster m) (fw_c w) (fw_r w)) by (split; cbn; lia).
  destruct (cell_extremes m _ _ U CELL) as (FI & FS & _).
  pose proof (close_between m _ _ U CELL _ I1 N1) as B1. pose proof (close_between m _ _ U CELL _ I2 N2) as B2.
  destruct (raster_cell m _ U I1) as (i1 & j1 & C1 & D1 & S1). destruct (raster_cell m _ U I2) as (i2 & j2 & C2 & D2 & S2).
  specialize (AB _ _ C1 D1). specialize (BE _ _ C2 D2). rewrite <- S1 in AB. rewrite <- S2 in BE. clear S1 S2 C1 C2 D1 D2.
  destruct I1 as (X1 & X2 & X3 & X4 & X5 & X6). destruct I2 as (Y1 & Y2 & Y3 & Y4 & Y5 & Y6). rewrite minus_IZR in X4, X5, Y4, Y5.
  destruct (interp_near m (fv_row (fw_p w)) (fv_col (fw_p w)) U X1 X2 ltac:(lra) ltac:(lra)) as (a1 & E1 & FA & NA).
  destruct (interp_near m (fv_row (fw_p (fmesh_move s w))) (fv_col (fw_p (fmesh_move s w))) U Y1 Y2 ltac:(lra) ltac:(lra)) as (h2 & E2 & FH & NH).
  pose proof (surf_bound m U (B2R (fv_row (fw_p w))) (B2R (fv_col (fw_p w))) ltac:(lra) ltac:(lra)) as SB1.
  pose proof (surf_bound m U (B2R (fv_row (fw_p (fmesh_move s w)))) (B2R (fv_col (fw_p (fmesh_move s w)))) ltac:(lra) ltac:(lra)) as SB2.
  exists a1, h2. split; [exact E1|]. split; [exact E2|].
  apply Rabs_le_inv in NA, NH, SB1, SB2, X6, Y6. unfold top in *.
  split; [unfold goes_down; change (bpow radix2 (-20)) with (/ 1048576); lra|].
  intros fuel n. cbn [fcell_loop]. rewrite G. cbv zeta. rewrite E1, E2.
  set (p_1 := fw_p w) in *. set (p_2 := fw_p (fmesh_move s w)) in *.
  set (h_i := falt_min_cell m (fw_c w) (fw_r w)) in *. set (h_s := falt_max_cell m (fw_c w) (fw_r w)) in *.
  assert (MAY : fmay_intersect h_i h_s (f_z0 s) (f_z1 s) (fv_alt p_1) (fv_alt p_2) = true).
  { unfold fmay_intersect. cbv zeta.
    assert (LOW : Bltb (fv_alt p_1) h_i = false) by (destruct (Bltb (fv_alt p_1) h_i) eqn:E; [apply ltb_lt in E; try assumption; lra|reflexivity]).
    rewrite LOW. cbn [andb]. rewrite !orb_false_r.
    assert (HIGH : forall z : b64, is_finite z = true -> B2R z <= B2R (fv_alt p_2) -> Bltb h_s z = false).
    { intros z Fz L. destruct (Bltb h_s z) eqn:E; [apply ltb_lt in E; try assumption; lra|reflexivity]. }
    destruct (Bltb (f_z0 s) (fv_alt p_2)) eqn:L0.
    - apply ltb_lt in L0; [|assumption|assumption]. rewrite (HIGH (f_z0 s)) by (assumption || lra). now rewrite andb_false_r.
    - destruct (Bltb (fv_alt p_2) (f_z1 s)) eqn:L1; [apply ltb_lt in L1; try assumption; lra|]. rewrite (HIGH (fv_alt p_2)) by (assumption || lra). now rewrite andb_false_r. }
  rewrite MAY.
  assert (PROD : Bleb (fmul (fsub (fv_alt p_1) a1) (fsub (fv_alt p_2) h2)) fzero = true).
  { apply opposite; try assumption; try (apply Rabs_le; lra); lra. }
  rewrite PROD. reflexivity.
Qed.
(** ** The moves *)
Section NEXT.
Variables (m : fraster) (s : fsegment).
Hypothesis FS : finite_segment s.
Hypothesis S1 : (fr_rows m < 2 ^ 52)%Z.
Hypothesis S2 : (fr_cols m < 2 ^ 52)%Z.
Lemma line_up k n : (0 <= k < 2 ^ 52)%Z -> n = (k + 1)%Z -> over_a_line k n (fint (k + 1)).
Proof. intros H ->. destruct (fint_exact (k + 1)) as [E F]; [lia|]. right; left. tauto. Qed.
Lemma line_down k n : (0 <= k < 2 ^ 52)%Z -> n = (k - 1)%Z -> over_a_line k n (fint k).
Proof. intros H ->. destruct (fint_exact k) as [E F]; [lia|]. right; right. tauto. Qed.
Lemma in_open (y : b64) k : (0 <= k < 2 ^ 52)%Z -> Bltb (fint k) y && Bltb y (fint (k + 1)) = true -> IZR k <= B2R y <= IZR (k + 1).
Proof.
  intros H L. apply andb_true_iff in L as [L1 L2]. destruct (fint_exact k) as [E F]; [lia|]. destruct (fint_exact (k + 1)) as [E' F']; [lia|].
  assert (Fy : is_finite y = true).
  { destruct y as [| [] | |]; try reflexivity; exfalso; [destruct (fint k) as [| [] | |[]]|destruct (fint (k + 1)) as [| [] | |[]]|destruct (fint k) as [| [] | |[]]]; discriminate. }
  apply ltb_lt in L1, L2; try assumption. rewrite E in L1. rewrite E' in L2. lra.
Qed.
Lemma next_cell w : fcell_guard m w = true -> B2R (f_d0 s) <> 0 \/ B2R (f_d1 s) <> 0 ->
  let w' := fmesh_move s w in
  (fw_c w' <> fw_c w \/ fw_r w' <> fw_r w) /\
  over_a_line (fw_c w) (fw_c w') (fv_row (fw_p w')) /\ over_a_line (fw_r w) (fw_r w') (fv_col (fw_p w')) /\
  (largest (B2R (f_d0 s)) (B2R (f_d1 s)) -> fw_c w' <> fw_c w ->
   (if Rlt_dec 0 (B2R (f_d0 s)) then fw_c w' = fw_c w + 1 else fw_c w' = fw_c w - 1)%Z /\
   (fv_col (fw_p w') = fv_col (fw_p w) /\ B2R (f_d1 s) = 0 \/ IZR (fw_r w) <= B2R (fv_col (fw_p w')) <= IZR (fw_r w + 1))) /\
  (largest (B2R (f_d1 s)) (B2R (f_d0 s)) -> fw_r w' <> fw_r w ->
   (if Rlt_dec 0 (B2R (f_d1 s)) then fw_r w' = fw_r w + 1 else fw_r w' = fw_r w - 1)%Z /\
   (fv_row (fw_p w') = fv_row (fw_p w) /\ B2R (f_d0 s) = 0 \/ IZR (fw_c w) <= B2R (fv_row (fw_p w')) <= IZR (fw_c w + 1))).
Proof.
  intros G NV. cbv zeta. destruct (guard_cells m w G) as [HC HR]. pose proof (orientation s FS) as OR.
  assert (RN : forall n, (0 <= n < 2 ^ 52)%Z -> Beqb (f_d0 s) fzero = false -> Beqb (f_d1 s) fzero = false -> is_nan (fadd (f_row0 s) (fmul (fdiv (fsub (fint n) (f_col0 s)) (f_d0 s)) (f_d1 s))) = false)
    by (intros; now apply (row_at_not_nan m s FS)).
  assert (CN : forall n, (0 <= n < 2 ^ 52)%Z -> Beqb (f_d0 s) fzero = false -> Beqb (f_d1 s) fzero = false -> is_nan (fadd (f_col0 s) (fmul (fdiv (fsub (fint n) (f_row0 s)) (f_d1 s)) (f_d0 s))) = false)
    by (intros; now apply (col_at_not_nan m s FS)).
  destruct FS as (F0 & F1 & F2 & F3).
  assert (HC' : (0 <= fw_c w < 2 ^ 52)%Z /\ (fw_c w + 1 < 2 ^ 52)%Z) by lia. assert (HR' : (0 <= fw_r w < 2 ^ 52)%Z /\ (fw_r w + 1 < 2 ^ 52)%Z) by lia. clear HC HR G.
  destruct HC' as [HC HC']. destruct HR' as [HR HR'].
  destruct (fint_exact 0) as [Z0 FZ]; [lia|].
  assert (NEG : forall x : b64, is_finite x = true -> Bltb x fzero = true -> B2R x < 0) by (intros x Fx L; apply ltb_lt in L; try assumption; unfold fzero in L; lra).
  assert (NNEG : forall x : b64, is_finite x = true -> Bltb x fzero = false -> 0 <= B2R x) by (intros x Fx L; apply ltb_ge in L; try assumption; unfold fzero in L; lra).
  assert (POS : forall x : b64, is_finite x = true -> Bltb fzero x = true -> 0 < B2R x) by (intros x Fx L; apply ltb_lt in L; try assumption; unfold fzero in L; lra).
  assert (LE : forall x y : b64, is_finite x = true -> is_finite y = true -> Bleb x y = true -> B2R x <= B2R y).
  { intros x y Fx Fy L. rewrite Bleb_correct in L by assumption. revert L. case Rle_bool_spec; [easy|discriminate]. }
  assert (FO : forall x : b64, is_finite x = true -> is_finite (fopp x) = true /\ B2R (fopp x) = - B2R x) by (intros x Fx; unfold fopp; rewrite is_finite_Bopp, B2R_Bopp; tauto).
  destruct (FO _ F2) as [FO0 VO0]. destruct (FO _ F3) as [FO1 VO1].
  assert (EQZ : forall x : b64, is_finite x = true -> Beqb x fzero = true -> B2R x = 0).
  { intros x Fx E. rewrite Beqb_correct in E by assumption. unfold fzero in E. rewrite Z0 in E. revert E. case Req_bool_spec; [easy|discriminate]. }
  assert (NQZ : forall x : b64, is_finite x = true -> Beqb x fzero = false -> B2R x <> 0) by (intros x Fx E; now apply eqb_zero).
  assert (SAME : forall k x, over_a_line k k x) by (intros; left; reflexivity).
  destruct (fint_exact (fw_r w)) as [VR FR]; [lia|]. destruct (fint_exact (fw_r w + 1)) as [VR' FR']; [lia|].
  destruct (fint_exact (fw_c w)) as [VC FC]; [lia|]. destruct (fint_exact (fw_c w + 1)) as [VC' FC']; [lia|].
  assert (PL : IZR (fw_r w) <= IZR (fw_r w + 1) /\ IZR (fw_c w) <= IZR (fw_c w + 1)) by (split; apply IZR_le; lia).
  unfold fmesh_move. cbv zeta. destruct (Beqb (f_d0 s) fzero) eqn:E0; [|destruct (Beqb (f_d1 s) fzero) eqn:E1].
  - pose proof (EQZ _ F2 E0) as Q0. assert (Q1 : B2R (f_d1 s) <> 0) by (destruct NV; [contradiction|assumption]).
    destruct (Bltb (f_d1 s) fzero) eqn:L; cbn [fw_p fw_c fw_r fv_row fv_col].
    + apply NEG in L; [|exact F3]. split; [right; lia|]. split; [apply SAME|]. split; [now apply line_down|]. split; [intros _ H; contradiction|].
      intros _ _. destruct (Rlt_dec 0 (B2R (f_d1 s))); [lra|]. split; [reflexivity|left; tauto].
    + apply NNEG in L; [|exact F3]. split; [right; lia|]. split; [apply SAME|]. split; [now apply line_up|]. split; [intros _ H; contradiction|].
      intros _ _. destruct (Rlt_dec 0 (B2R (f_d1 s))); [|lra]. split; [reflexivity|left; tauto].
  - pose proof (EQZ _ F3 E1) as Q1. pose proof (NQZ _ F2 E0) as Q0.
    destruct (Bltb (f_d0 s) fzero) eqn:L; cbn [fw_p fw_c fw_r fv_row fv_col].
    + apply NEG in L; [|exact F2]. split; [left; lia|]. split; [now apply line_down|]. split; [apply SAME|]. split; [|intros _ H; contradiction].
      intros _ _. destruct (Rlt_dec 0 (B2R (f_d0 s))); [lra|]. split; [reflexivity|left; tauto].
    + apply NNEG in L; [|exact F2]. split; [left; lia|]. split; [now apply line_up|]. split; [apply SAME|]. split; [|intros _ H; contradiction].
      intros _ _. destruct (Rlt_dec 0 (B2R (f_d0 s))); [|lra]. split; [reflexivity|left; tauto].
  - pose proof (NQZ _ F2 E0) as Q0. pose proof (NQZ _ F3 E1) as Q1. specialize (OR eq_refl eq_refl).
    set (c := fw_c w) in *. set (r := fw_r w) in *.
    pose proof (five_tests (fadd (f_row0 s) (fmul (fdiv (fsub (fint c) (f_col0 s)) (f_d0 s)) (f_d1 s))) r (RN c ltac:(lia) eq_refl eq_refl) ltac:(lia)) as T1.
    pose proof (five_tests (fadd (f_row0 s) (fmul (fdiv (fsub (fint (c + 1)) (f_col0 s)) (f_d0 s)) (f_d1 s))) r (RN (c + 1)%Z ltac:(lia) eq_refl eq_refl) ltac:(lia)) as T2.
    pose proof (five_tests (fadd (f_col0 s) (fmul (fdiv (fsub (fint r) (f_row0 s)) (f_d1 s)) (f_d0 s))) c (CN r ltac:(lia) eq_refl eq_refl) ltac:(lia)) as T3.
    pose proof (five_tests (fadd (f_col0 s) (fmul (fdiv (fsub (fint (r + 1)) (f_row0 s)) (f_d1 s)) (f_d0 s))) c (CN (r + 1)%Z ltac:(lia) eq_refl eq_refl) ltac:(lia)) as T4.
    clear RN CN.
    Ltac finish HC HR VR VR' VC VC' D :=
      cbn [fw_p fw_c fw_r fv_row fv_col];
      split; [first [left; lia|right; lia]|];
      split; [first [left; reflexivity|now apply line_up|now apply line_down]|];
      split; [first [left; reflexivity|now apply line_up|now apply line_down]|];
      unfold largest; split; intros LG NE; try (exfalso; apply NE; reflexivity);
      first [exfalso; apply D in LG; exact LG
            |split; [match goal with |- context[Rlt_dec 0 ?x] => destruct (Rlt_dec 0 x) end; first [reflexivity|exfalso; lra]
                    |right; first [apply in_open; assumption|rewrite ?VR, ?VR', ?VC, ?VC'; split; (apply Rle_refl || (apply IZR_le; lia))]]].
    Ltac each T tac :=
      match goal with |- context[Bltb ?u ?y && Bltb ?y ?v] => destruct (Bltb u y && Bltb y v) eqn:?; [tac|]; destruct (Bltb y u); [tac|]; destruct (Bltb v y); [tac|];
        destruct (Beqb y u) eqn:?; [tac|]; destruct (Beqb y v) eqn:?; [tac|]; exfalso; now apply T end.
    destruct (Bltb (f_d0 s) fzero && Bleb (f_d0 s) (f_d1 s) && Bleb (f_d0 s) (fopp (f_d1 s))) eqn:N.
    { rewrite !andb_true_iff in N. destruct N as ((N1 & N2) & N3). apply NEG in N1; [|exact F2]. apply LE in N2; [|assumption|assumption]. apply LE in N3; [|assumption|assumption]. rewrite VO1 in N3.
      assert (D : Rabs (B2R (f_d0 s)) < Rabs (B2R (f_d1 s)) -> False) by (rewrite (Rabs_left (B2R (f_d0 s))) by exact N1; intros H; revert H; apply Rle_not_lt, Rabs_le; lra).
      each T1 ltac:(finish HC HR VR VR' VC VC' D). }
    destruct (Bltb fzero (f_d1 s) && Bleb (f_d0 s) (f_d1 s) && Bleb (fopp (f_d0 s)) (f_d1 s)) eqn:E.
    { rewrite !andb_true_iff in E. destruct E as ((N1 & N2) & N3). apply POS in N1; [|exact F3]. apply LE in N2; [|assumption|assumption]. apply LE in N3; [|assumption|assumption]. rewrite VO0 in N3.
      assert (D : Rabs (B2R (f_d1 s)) < Rabs (B2R (f_d0 s)) -> False) by (rewrite (Rabs_pos_eq (B2R (f_d1 s))) by lra; intros H; revert H; apply Rle_not_lt, Rabs_le; lra).
      each T4 ltac:(finish HC HR VR VR' VC VC' D). }
    destruct (Bltb fzero (f_d0 s) && Bleb (f_d1 s) (f_d0 s) && Bleb (fopp (f_d1 s)) (f_d0 s)) eqn:S.
    { rewrite !andb_true_iff in S. destruct S as ((N1 & N2) & N3). apply POS in N1; [|exact F2]. apply LE in N2; [|assumption|assumption]. apply LE in N3; [|assumption|assumption]. rewrite VO1 in N3.
      assert (D : Rabs (B2R (f_d0 s)) < Rabs (B2R (f_d1 s)) -> False) by (rewrite (Rabs_pos_eq (B2R (f_d0 s))) by lra; intros H; revert H; apply Rle_not_lt, Rabs_le; lra).
      each T2 ltac:(finish HC HR VR VR' VC VC' D). }
    specialize (OR eq_refl eq_refl eq_refl). rewrite OR. rewrite !andb_true_iff in OR. destruct OR as ((N1 & N2) & N3). apply NEG in N1; [|exact F3]. apply LE in N2; [|assumption|assumption]. apply LE in N3; [|assumption|assumption]. rewrite VO0 in N3.
    assert (D : Rabs (B2R (f_d1 s)) < Rabs (B2R (f_d0 s)) -> False) by (rewrite (Rabs_left (B2R (f_d1 s))) by lra; intros H; revert H; apply Rle_not_lt, Rabs_le; lra).
    each T3 ltac:(finish HC HR VR VR' VC VC' D).
Qed.
(** ** The first cell *)
Lemma first_cell (p d : b64) c : is_finite p = true -> is_finite d = true -> Rabs (B2R p) <= IZR (2 ^ 52) -> ffirst_cell p d = Some c ->
  if Rlt_dec (B2R d) 0 then IZR c < B2R p <= IZR c + 1 else IZR c <= B2R p < IZR c + 1.
Proof.
  intros Fp Fd B H. unfold ffirst_cell in H. rewrite ffloor_finite in H by exact Fp. pose proof (Zfloor_lb (B2R p)) as L. pose proof (Zfloor_ub (B2R p)) as U. apply Rabs_le_inv in B.
  change (IZR (2 ^ 52)) with 4503599627370496 in B.
  set (n := Zfloor (B2R p)) in *. destruct (fint_exact n) as [E F].
  { apply Z.abs_lt. split; apply lt_IZR; [rewrite opp_IZR|]; change (2 ^ 53)%Z with 9007199254740992%Z; lra. }
  destruct (fint_exact 0) as [Z0 FZ]; [lia|].
  assert (LT : Bltb d fzero = if Rlt_dec (B2R d) 0 then true else false).
  { rewrite Bltb_correct by assumption. unfold fzero. rewrite Z0. destruct (Rlt_dec (B2R d) 0); [now apply Rlt_bool_true|apply Rlt_bool_false; lra]. }
  rewrite LT in H. assert (EQ : Beqb p (fint n) = true <-> B2R p = IZR n).
  { rewrite Beqb_correct by assumption. rewrite E. split; [case Req_bool_spec; [easy|discriminate]|apply Req_bool_true]. }
  assert (H' : c = (if Beqb p (fint n) && (if Rlt_dec (B2R d) 0 then true else false) then n - 1 else n)%Z) by congruence. clear H.
  destruct (Rlt_dec (B2R d) 0).
  - destruct (Beqb p (fint n)) eqn:Q; cbn [andb] in H'; subst c.
    + rewrite minus_IZR. pose proof (proj1 EQ eq_refl) as V. lra.
    + assert (B2R p <> IZR n) by (intros V; apply EQ in V; discriminate). lra.
  - rewrite andb_false_r in H'. subst c. lra.
Qed.
End NEXT.
