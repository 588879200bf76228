(** Properties of the epipolar grids with an adaptive step (C78 - C81). *)
From Coq Require Import Reals ZArith List Bool Lra Lia.
From Verif Require Import Num NumLemmas ProjModel RpcModel RpcDtmModel LocModel TriModel TriBatch
  RectModel RectSpec RectAdaptSpec RectProofs RectStrip RectGrid RectBox RectDisp RectAdapt RectAdapt2 PropertiesRect.
Import ListNotations.
Open Scope R_scope.

(** ** C78: what the adaptive grids are *)
Theorem C78_adaptive_grids :
  forall (D : Type) (dtm_epsg : D -> Z) conv ml mr (pl pr : pmodel D) s off im step margin scale max_ratio ecef P p L' R' size ratio,
    behaves ml pl -> behaves mr pr -> 1 <= max_ratio -> 0 <= scale ->
    (0 <= li_rows im)%Z -> (0 <= li_cols im)%Z -> 0 < mean_spacing im -> 0 < step -> (0 <= margin)%Z ->
    geocentric conv (gm_epsg ml) ecef ->
    prepare_rectification dtm_epsg conv ml mr im (elev_of s) step off margin = Some P -> pr_start P = node p ->
    let d := step * mean_spacing im in
    (forall axis alpha, epipolar_direction pl pr s off p alpha -> 0 < ground_step pl ecef axis d p alpha) ->
    compute_stereorectification_epipolar_grids dtm_epsg conv ml mr im (elev_of s) step off margin (Some (scale, max_ratio))
    = Some (L', R', size, ratio) ->
    exists alpha L R h w,
      L' = map (map node) L /\ R' = map (map node) R /\ shaped h w L /\ shaped h w R
      /\ epipolar_direction pl pr s off p alpha
      /\ adaptive_grid pl pr s off d (ground_step pl ecef 0 d p alpha) (ground_step pl ecef 1 d p alpha) scale max_ratio p L R
      /\ just_reaches (IZR (snd (pr_grid_size P) - 1) * d) L
      /\ just_reaches (IZR (fst (pr_grid_size P) - 1) * d) [first_column L]
      /\ (fst (pr_grid_size P) <= Z.of_nat h)%Z /\ (snd (pr_grid_size P) <= Z.of_nat w)%Z.
Proof.
  intros D dtm_epsg conv ml mr pl pr s off im step margin scale max_ratio ecef P p L' R' size ratio Hl Hr Hm Hsc HR HC Hs Hst Hmg HG HP Hp d Hpos H.
  rewrite (prepare_plain _ _ _ _ pl pr) in HP by auto. injection HP as <-.
  set (P := prepare_at im step margin (start_angle pl pr s off im) (fin (start_alt pl pr s off im))) in *.
  destruct (grid_big im step margin (start_angle pl pr s off im) (fin (start_alt pl pr s off im)) HR HC Hs Hst Hmg) as [ G0 G1 ]. fold P in G0, G1.
  pose proof (gsd_plain dtm_epsg conv ml mr pl pr s off Hl Hr ecef p (mean_spacing im) step HG) as GS. fold d in GS.
  assert (HA : epipolar_direction pl pr s off p (angle_at pl pr s off p)).
  { split; [ apply direction_has_direction | apply direction_range ]. }
  assert (Hd : 0 < d) by (apply Rmult_lt_0_compat; auto).
  pose proof (Hpos 0%Z _ HA) as P0. pose proof (Hpos 1%Z _ HA) as P1.
  set (d0 := ground_step pl ecef 0 d p (angle_at pl pr s off p)) in *. set (d1 := ground_step pl ecef 1 d p (angle_at pl pr s off p)) in *.
  destruct (stereo_adapt dtm_epsg conv ml mr pl pr s off max_ratio scale Hl Hr Hm Hsc im step margin p d0 d1 L' R' size ratio
              Hp ltac:(fold P; lia) ltac:(fold P; lia) Hd GS P0 P1 H) as (n0 & n1 & K).
  cbv zeta in K. fold P in K. fold d in K. destruct K as (-> & -> & _ & J1 & J0).
  assert (I1 : INR (Z.to_nat (snd (pr_grid_size P))) - 1 = IZR (snd (pr_grid_size P) - 1)).
  { rewrite minus_IZR, INR_IZR_INZ, Z2Nat.id by lia. reflexivity. }
  assert (I0 : INR (Z.to_nat (fst (pr_grid_size P))) - 1 = IZR (fst (pr_grid_size P) - 1)).
  { rewrite minus_IZR, INR_IZR_INZ, Z2Nat.id by lia. reflexivity. }
  rewrite I1 in J1. rewrite I0 in J0.
  exists (angle_at pl pr s off p), (map (map an_p) (agrid_of pl pr s off max_ratio scale d0 d1 d n0 n1 p)),
    (map (map an_q) (agrid_of pl pr s off max_ratio scale d0 d1 d n0 n1 p)), (S n0), (S n1).
  split; [ rewrite map_map; apply map_ext; intro; rewrite map_map; reflexivity | ].
  split; [ rewrite map_map; apply map_ext; intro; rewrite map_map; reflexivity | ].
  split; [ apply agrid_shaped | ]. split; [ apply agrid_shaped | ]. split; [ exact HA | ].
  split; [ apply agrid_adaptive | ]. split; [ exact J1 | ]. split; [ rewrite agrid_first; exact J0 | ].
  split.
  - destruct J0 as [ F _ ]. apply Forall_inv in F as F1. unfold acolumn_of in F1. cbv zeta in F1. rewrite trail_path in F1 by (auto; lra).
    pose proof (aiter_sum_le pl pr s off d0 max_ratio scale 0 d n0 (ANode p (matched pl pr s p) (angle_at pl pr s off p) 1) P0 Hm Hsc) as A.
    cbn [an_s] in A, F1. assert (B : IZR (fst (pr_grid_size P) - 1) <= INR n0).
    { apply Rmult_le_reg_r with d; auto. nra. }
    rewrite INR_IZR_INZ in B. apply le_IZR in B. lia.
  - destruct J1 as [ F _ ]. unfold agrid_of in F. rewrite (map_map _ (map an_p)) in F. unfold acolumn_of in F. cbv zeta in F.
    rewrite (map_cons restart), (map_cons (fun x => map an_p (x :: _))) in F. apply Forall_inv in F as F1.
    rewrite trail_path in F1 by (auto; lra).
    pose proof (aiter_sum_le pl pr s off d1 max_ratio scale 1 d n1 (restart (ANode p (matched pl pr s p) (angle_at pl pr s off p) 1)) P1 Hm Hsc) as A.
    change (an_s (restart (ANode p (matched pl pr s p) (angle_at pl pr s off p) 1))) with 1 in A, F1.
    assert (B : IZR (snd (pr_grid_size P) - 1) <= INR n1).
    { apply Rmult_le_reg_r with d; auto. nra. }
    rewrite INR_IZR_INZ in B. apply le_IZR in B. lia.
Qed.

(** Cameras over a terrain of altitude [z row]: the epipolar lines follow the rows. *)
Definition cam_over (z : R -> R) : pmodel unit :=
  PModel (fun r c h => V3 c r h) (fun _ r c => V3 c r (z r)) (fun lon lat h => (lat, lon)).
Definition same_frame : Z -> Z -> list row3 -> list row3 := fun _ _ g => g.
Lemma same_frame_geocentric : forall epsg, geocentric same_frame epsg (fun g => g).
Proof. intros epsg l. unfold same_frame. apply map_ext. reflexivity. Qed.
Lemma over_end : forall z sf dh p,
  v0 (epipolar_end (cam_over z) cam_right sf dh p) = v0 p /\ v1 (epipolar_end (cam_over z) cam_right sf dh p) = v1 p + dh.
Proof. intros z [ h | [] ] dh p; cbn; split; ring. Qed.
Lemma over_direction : forall z sf off p alpha, 0 < off -> epipolar_direction (cam_over z) cam_right sf off p alpha -> cos alpha = 1 /\ sin alpha = 0.
Proof.
  intros z sf off p alpha Ho [ [ A B ] _ ]. unfold image_distance in A, B.
  destruct (over_end z sf off p) as [ E1 E2 ]. destruct (over_end z sf (- off) p) as [ E3 E4 ]. rewrite E1, E2, E3, E4 in A, B.
  replace ((v1 p + off - (v1 p + - off)) * (v1 p + off - (v1 p + - off)) + (v0 p - v0 p) * (v0 p - v0 p)) with ((2 * off)²) in A, B by (unfold Rsqr; ring).
  rewrite sqrt_Rsqr in A, B by lra. split; [ | nra ]. apply Rmult_eq_reg_l with (2 * off); lra.
Qed.
Lemma over_angle : forall z sf off p, 0 < off -> angle_at (cam_over z) cam_right sf off p = 0.
Proof.
  intros z sf off p Ho. unfold angle_at, direction.
  destruct (over_end z sf off p) as [ A B ]. destruct (over_end z sf (- off) p) as [ A' B' ]. rewrite A, B, A', B'.
  destruct (Reqb_spec (v1 p + off) (v1 p + - off)); [ lra | ]. destruct (Rltb_spec (v1 p + - off) (v1 p + off)); [ | lra ].
  replace ((v0 p - v0 p) / (v1 p + off - (v1 p + - off))) with 0 by (field; lra). apply atan_0.
Qed.
Lemma over_ground_step : forall z axis d p alpha, 0 <= d -> ground_step (cam_over z) (fun g => g) axis d p alpha = d.
Proof.
  intros z axis d p alpha Hd. unfold ground_step, space_distance. cbn [cam_over pm_h v0 v1 v2].
  transitivity (sqrt (d * d)); [ | apply sqrt_square; auto ]. f_equal. pose proof (sin2_cos2 alpha) as SC. unfold Rsqr in SC.
  unfold moved; destruct (Z.eqb axis 1); cbn [v0 v1 v2].
  - transitivity (d * d * (sin alpha * sin alpha + cos alpha * cos alpha)); [ ring | rewrite SC; ring ].
  - transitivity (d * d * (sin alpha * sin alpha + cos alpha * cos alpha)); [ ring | rewrite SC; ring ].
Qed.
(** The adaptive grids of the default parameters exist when the terrain has a slope of at most 1/2. *)
Lemma over_exists : forall z im step margin, (forall a b, Rabs (z a - z b) <= Rabs (a - b) / 2) ->
  (0 <= li_rows im)%Z -> (0 <= li_cols im)%Z -> 0 < mean_spacing im -> 0 < step -> (0 <= margin)%Z ->
  exists P p L R0 size ratio,
    prepare_rectification (fun _ : unit => 4326%Z) same_frame (plain_model (cam_over z)) (plain_model cam_right) im (Dtm tt) step 50 margin = Some P
    /\ pr_start P = node p
    /\ compute_stereorectification_epipolar_grids (fun _ : unit => 4326%Z) same_frame (plain_model (cam_over z)) (plain_model cam_right)
         im (Dtm tt) step 50 margin (Some (1, 3)) = Some (L, R0, size, ratio).
Proof.
  intros z im step margin Hz HR HC Hs Hst Hmg.
  destruct (C31_whole_grid unit (fun _ => 4326%Z) same_frame _ _ _ _ (Terrain tt) 50 im step margin
              (plain_behaves (cam_over z)) (plain_behaves cam_right) ltac:(lra) HR HC Hs Hst Hmg) as (P & p & _ & _ & _ & EP & Hp & _).
  exists P, p. set (d := step * mean_spacing im).
  assert (Hd : 0 < d) by (apply Rmult_lt_0_compat; auto).
  pose proof (gsd_plain (fun _ : unit => 4326%Z) same_frame _ _ _ _ (Terrain tt) 50 (plain_behaves (cam_over z)) (plain_behaves cam_right)
                (fun g => g) p (mean_spacing im) step (same_frame_geocentric _)) as GS. fold d in GS.
  rewrite !over_ground_step in GS by lra.
  assert (E : compute_stereorectification_epipolar_grids (fun _ : unit => 4326%Z) same_frame (plain_model (cam_over z)) (plain_model cam_right)
         im (Dtm tt) step 50 margin (Some (1, 3)) <> None).
  { apply (C33_adaptive_strip_fits_partial unit (fun _ => 4326%Z) same_frame _ _ _ _ (Terrain tt) 50 im step margin 1 3 p d d P
              (plain_behaves (cam_over z)) (plain_behaves cam_right)); try lra; auto.
    intros axis gsd q alpha Hin dh.
    assert (Hg : gsd = d) by (destruct Hin as [ E | [ E | [] ] ]; congruence). rewrite Hg. fold d in dh.
    assert (Hdh : dh * dh <= d * d).
    { assert (B : Rabs dh <= d).
      { unfold dh. cbn [ground cam_over pm_d v2]. eapply Rle_trans; [ apply Hz | ].
        assert (Rabs (v0 (moved axis d q alpha) - v0 q) <= d); [ | lra ].
        pose proof (SIN_bound alpha). pose proof (COS_bound alpha). unfold moved.
        destruct (Z.eqb axis 1); cbn [v0]; apply Rabs_le; split; nra. }
      rewrite <- (Rabs_pos_eq (dh * dh)) by apply Rle_0_sqr. rewrite Rabs_mult. pose proof (Rabs_pos dh). nra. }
    assert (S2 : sqrt (dh * dh + d * d) <= 2 * d).
    { rewrite <- (sqrt_square (2 * d)) by lra. apply sqrt_le_1_alt. nra. }
    apply Rmult_le_reg_r with d; auto. unfold Rdiv at 1. rewrite Rmult_assoc, Rinv_l by lra. lra. }
  destruct (compute_stereorectification_epipolar_grids _ _ _ _ _ _ _ _ _ _) as [ [ [ [ L R0 ] size ] ratio ] | ]; [ | congruence ].
  exists L, R0, size, ratio. auto.
Qed.
Lemma slope_half : forall a b, Rabs (a / 2 - b / 2) <= Rabs (a - b) / 2.
Proof. intros a b. replace (a / 2 - b / 2) with ((a - b) * / 2) by field. rewrite Rabs_mult, (Rabs_pos_eq (/ 2)) by lra. unfold Rdiv. lra. Qed.

Lemma over_tiny_size : forall z alt margin,
  pr_grid_size (prepare_at tiny 1 margin (start_angle (cam_over z) cam_right (Terrain tt) 50 tiny) alt) = (3 + 2 * margin, 5 + 2 * margin)%Z.
Proof.
  intros z alt margin. pose proof (tiny_size (Terrain tt) 50 alt margin ltac:(lra)) as T.
  unfold start_angle in *. destruct (transform_index_to_physical_point (li_transform tiny) 0 0) as [ r c ].
  rewrite cam_angle in T by lra. rewrite over_angle by lra. exact T.
Qed.

Example C78_case :
  exists P p L' R' size ratio L R h w,
    prepare_rectification (fun _ : unit => 4326%Z) same_frame (plain_model (cam_over (fun r => r / 2))) (plain_model cam_right) tiny (Dtm tt) 1 50 0 = Some P
    /\ pr_start P = node p
    /\ compute_stereorectification_epipolar_grids (fun _ : unit => 4326%Z) same_frame (plain_model (cam_over (fun r => r / 2))) (plain_model cam_right)
         tiny (Dtm tt) 1 50 0 (Some (1, 3)) = Some (L', R', size, ratio)
    /\ L' = map (map node) L /\ R' = map (map node) R /\ shaped h w L /\ (3 <= h)%nat /\ (5 <= w)%nat
    /\ adaptive_grid (cam_over (fun r => r / 2)) cam_right (Terrain tt) 50 1 1 1 1 3 p L R.
Proof.
  destruct (over_exists (fun r => r / 2) tiny 1 0 slope_half) as (P & p & L' & R' & size & ratio & EP & Hp & E); try lra; try (cbn; lia).
  { rewrite tiny_spacing; lra. }
  destruct (C78_adaptive_grids unit (fun _ => 4326%Z) same_frame _ _ _ _ (Terrain tt) 50 tiny 1 0 1 3 (fun g => g) P p L' R' size ratio
              (plain_behaves (cam_over (fun r => r / 2))) (plain_behaves cam_right)) as (alpha & L & R & h & w & EL & ER & SL & SR & HA & AG & _ & _ & H0 & H1);
    try lra; try (cbn; lia); auto.
  { rewrite tiny_spacing; lra. }
  { apply same_frame_geocentric. }
  { intros axis alpha HA. rewrite tiny_spacing. rewrite over_ground_step; lra. }
  rewrite tiny_spacing in *. rewrite !over_ground_step in AG by lra. replace (1 * 1) with 1 in AG by ring.
  rewrite (prepare_plain _ _ _ _ (cam_over (fun r => r / 2)) cam_right (Terrain tt)) in EP by apply plain_behaves.
  assert (PG : pr_grid_size P = (3 + 2 * 0, 5 + 2 * 0)%Z) by (assert (PP : P = _) by (symmetry; apply (f_equal (fun o => match o with Some x => x | None => P end) EP)); rewrite PP; apply over_tiny_size).
  rewrite PG in H0, H1. cbn in H0, H1.
  exists P, p, L', R', size, ratio, L, R, h, w.
  split; [ rewrite (prepare_plain _ _ _ _ (cam_over (fun r => r / 2)) cam_right (Terrain tt)) by apply plain_behaves; exact EP | ].
  repeat (split; [ assumption || lia | ]). exact AG.
Qed.

(** ** C79: the right nodes and the left nodes see the same ground positions *)
(** False with adaptive steps.  The right node is put on the segment to the homologous position of
    the plain step, but when the terrain bends the homologous positions do not form a segment. *)
Theorem C79_homologous_refuted :
  exists (pl : pmodel unit) im L R size ratio i j p q,
    compute_stereorectification_epipolar_grids (fun _ => 4326%Z) same_frame (plain_model pl) (plain_model cam_right)
      im (Dtm tt) 1 50 0 (Some (1, 3)) = Some (map (map node) L, map (map node) R, size, ratio)
    /\ entry L i j = Some p /\ entry R i j = Some q /\ v1 q <> v1 (matched pl cam_right (Terrain tt) p).
Proof.
  set (z := fun r => Rabs (r - 3 / 4) / 2). exists (cam_over z), tiny.
  assert (Hz : forall a b, Rabs (z a - z b) <= Rabs (a - b) / 2).
  { intros a b. unfold z. replace (Rabs (a - 3 / 4) / 2 - Rabs (b - 3 / 4) / 2) with ((Rabs (a - 3 / 4) - Rabs (b - 3 / 4)) * / 2) by field.
    rewrite Rabs_mult, (Rabs_pos_eq (/ 2)) by lra. pose proof (Rabs_triang_inv2 (a - 3 / 4) (b - 3 / 4)) as T.
    replace (a - 3 / 4 - (b - 3 / 4)) with (a - b) in T by ring. unfold Rdiv. lra. }
  destruct (over_exists z tiny 1 0 Hz) as (P & p & L' & R' & size & ratio & EP & Hp & E); try lra; try (cbn; lia).
  { rewrite tiny_spacing; lra. }
  destruct (C78_adaptive_grids unit (fun _ => 4326%Z) same_frame _ _ _ _ (Terrain tt) 50 tiny 1 0 1 3 (fun g => g) P p L' R' size ratio
              (plain_behaves (cam_over z)) (plain_behaves cam_right)) as (alpha & L & R & h & w & EL & ER & SL & SR & HA & AG & _ & _ & H0 & H1);
    try lra; try (cbn; lia); auto.
  { rewrite tiny_spacing; lra. }
  { apply same_frame_geocentric. }
  { intros axis alpha HA. rewrite tiny_spacing. rewrite over_ground_step; lra. }
  rewrite tiny_spacing in *. rewrite !over_ground_step in AG by lra. replace (1 * 1) with 1 in AG by ring.
  rewrite (prepare_plain _ _ _ _ (cam_over z) cam_right (Terrain tt)) in EP by apply plain_behaves.
  assert (PP : P = prepare_at tiny 1 0 (start_angle (cam_over z) cam_right (Terrain tt) 50 tiny) (fin (start_alt (cam_over z) cam_right (Terrain tt) 50 tiny))) by congruence.
  assert (PG : pr_grid_size P = (3 + 2 * 0, 5 + 2 * 0)%Z) by (rewrite PP; apply over_tiny_size).
  rewrite PG in H0, H1. cbn in H0, H1.
  assert (P0 : v0 p = 1 / 2).
  { assert (A0 : start_angle (cam_over z) cam_right (Terrain tt) 50 tiny = 0).
    { unfold start_angle. destruct (transform_index_to_physical_point _ _ _). apply over_angle. lra. }
    rewrite PP, A0 in Hp. unfold prepare_at in Hp. rewrite tiny_spacing in Hp.
    unfold transform_index_to_physical_point, epipolar_box in Hp. cbn [tiny li_transform li_rows li_cols af_a af_b af_c af_d af_e af_f] in Hp.
    rewrite cos_0, sin_0 in Hp. unfold affine_apply in Hp. cbn in Hp. unfold node in Hp.
    assert (Q : forall a b c a' b' c', R3 a b c = R3 a' b' c' -> a = a') by congruence.
    apply Q in Hp. unfold fin in Hp. assert (Q2 : forall x y : Rdefinitions.RbaseSymbolsImpl.R, Some x = Some y -> y = x) by congruence. apply Q2 in Hp. rewrite Hp.
    unfold min4. repeat match goal with |- context [Rmin ?a ?b] => (rewrite (Rmin_left a b) by lra) || (rewrite (Rmin_right a b) by lra) end. lra. }
  destruct SL as [ SL1 SL2 ]. destruct SR as [ SR1 SR2 ].
  destruct AG as (A00 & B00 & AG). destruct (AG _ _ _ _ A00 B00) as (al & HAl & _ & DN). specialize (DN eq_refl).
  assert (GL : exists p', entry L 1 0 = Some p').
  { unfold entry. destruct (nth_error L 1) as [ l | ] eqn:El.
    - assert (length l = w) by (apply SL2; eapply nth_error_In; eauto). destruct l as [ | x l ]; [ cbn in *; lia | ]. exists x. reflexivity.
    - apply nth_error_None in El. lia. }
  assert (GR : exists q', entry R 1 0 = Some q').
  { unfold entry. destruct (nth_error R 1) as [ l | ] eqn:El.
    - assert (length l = w) by (apply SR2; eapply nth_error_In; eauto). destruct l as [ | x l ]; [ cbn in *; lia | ]. exists x. reflexivity.
    - apply nth_error_None in El. lia. }
  destruct GL as (p' & EP'). destruct GR as (q' & EQ'). destruct (DN p' q' EP' EQ') as [ Ep Eq ].
  exists L, R, size, ratio, 1%nat, 0%nat, p', q'. split; [ rewrite E, EL, ER; reflexivity | ]. split; [ exact EP' | ]. split; [ exact EQ' | ].
  destruct (over_direction z (Terrain tt) 50 p al ltac:(lra) HAl) as [ C S ].
  set (f := factor_at _ _ _ _ _ _ _ _ _) in *.
  assert (FV : 1 < f).
  { unfold f, factor_at, moved. cbn [Z.eqb ground cam_over pm_d v0 v1 v2]. rewrite C, P0. unfold z.
    rewrite (Rabs_pos_eq (1 / 2 + 1 * 1 - 3 / 4)) by lra. rewrite (Rabs_left (1 / 2 - 3 / 4)) by lra.
    unfold slope_factor. set (x := sqrt _ / 1).
    assert (1 < x).
    { unfold x. unfold Rdiv. rewrite Rinv_1, Rmult_1_r. rewrite <- sqrt_1 at 1. apply sqrt_lt_1_alt. lra. }
    unfold Rmin. destruct (Rle_dec 3 x); lra. }
  assert (FU : f < 2).
  { unfold f, factor_at, moved. cbn [Z.eqb ground cam_over pm_d v0 v1 v2]. rewrite C, P0. unfold z.
    rewrite (Rabs_pos_eq (1 / 2 + 1 * 1 - 3 / 4)) by lra. rewrite (Rabs_left (1 / 2 - 3 / 4)) by lra.
    unfold slope_factor. set (x := sqrt _ / 1).
    assert (x < 3 / 2).
    { unfold x. unfold Rdiv. rewrite Rinv_1, Rmult_1_r. rewrite <- (sqrt_square (3 * / 2)) by lra. apply sqrt_lt_1_alt. lra. }
    unfold Rmin. destruct (Rle_dec 3 x); lra. }
  assert (U1 : / f < 1) by (rewrite <- Rinv_1; apply Rinv_lt_contravar; lra).
  assert (U2 : / 2 < / f) by (apply Rinv_lt_contravar; lra).
  rewrite Ep, Eq. unfold between, matched, seen, moved. cbn [Z.eqb ground cam_over cam_right pm_d pm_inv fst snd v0 v1 v2]. rewrite C, S, P0. unfold z.
  rewrite (Rabs_pos_eq (1 / 2 + 1 * 1 - 3 / 4)) by lra. rewrite (Rabs_left (1 / 2 - 3 / 4)) by lra.
  rewrite (Rabs_pos_eq (1 / 2 + / f * (1 / 2 + 1 * 1 - 1 / 2) - 3 / 4)) by lra. lra.
Qed.

(** What holds: where the homologous positions of a segment form a segment, as for sensors whose
    positions depend linearly on the pixel over a plane.  Missing: the bends of the terrain. *)
Theorem C79_homologous_partial :
  forall (D : Type) (dtm_epsg : D -> Z) conv ml mr (pl pr : pmodel D) s off im step margin scale max_ratio ecef P p L R size ratio,
    behaves ml pl -> behaves mr pr -> 1 <= max_ratio -> 0 <= scale ->
    (0 <= li_rows im)%Z -> (0 <= li_cols im)%Z -> 0 < mean_spacing im -> 0 < step -> (0 <= margin)%Z ->
    geocentric conv (gm_epsg ml) ecef ->
    prepare_rectification dtm_epsg conv ml mr im (elev_of s) step off margin = Some P -> pr_start P = node p ->
    (forall axis alpha, epipolar_direction pl pr s off p alpha -> 0 < ground_step pl ecef axis (step * mean_spacing im) p alpha) ->
    (forall a b t, matched pl pr s (between a b t) = between (matched pl pr s a) (matched pl pr s b) t) ->
    compute_stereorectification_epipolar_grids dtm_epsg conv ml mr im (elev_of s) step off margin (Some (scale, max_ratio))
    = Some (map (map node) L, map (map node) R, size, ratio) ->
    R = map (map (matched pl pr s)) L.
Proof.
  intros D dtm_epsg conv ml mr pl pr s off im step margin scale max_ratio ecef P p L R size ratio Hl Hr Hm Hsc HR HC Hs Hst Hmg HG HP Hp Hpos HB H.
  destruct (C78_adaptive_grids D dtm_epsg conv ml mr pl pr s off im step margin scale max_ratio ecef P p _ _ size ratio
              Hl Hr Hm Hsc HR HC Hs Hst Hmg HG HP Hp Hpos H) as (alpha & L0 & R0 & h & w & EL & ER & SL & SR & _ & AG & _).
  assert (NI : forall x y : list (list vec3), map (map node) x = map (map node) y -> x = y).
  { assert (N1 : forall a b, node a = node b -> a = b).
    { intros [ a1 a2 a3 ] [ b1 b2 b3 ] N. unfold node in N. cbn [v0 v1 v2] in N. injection N as -> -> ->. reflexivity. }
    assert (N2 : forall a b : list vec3, map node a = map node b -> a = b).
    { induction a as [ | x a IH ]; intros [ | y b ] N; try discriminate; [ reflexivity | ]. cbn [map] in N. injection N. intros. f_equal; [ apply N1; unfold node; congruence | apply IH; assumption ]. }
    induction x as [ | x l IH ]; intros [ | y b ] N; try discriminate; [ reflexivity | ]. cbn [map] in N.
    assert (A1 : map node x = map node y) by congruence. assert (A2 : map (map node) l = map (map node) b) by congruence.
    f_equal; [ apply N2; exact A1 | apply IH; exact A2 ]. }
  apply NI in EL. apply NI in ER. subst L0 R0. clear NI H.
  destruct AG as (A0 & B0 & AG).
  assert (DEF : forall i j, (i < h)%nat -> (j < w)%nat -> exists a b, entry L i j = Some a /\ entry R i j = Some b).
  { assert (DD : forall (M : list (list vec3)), shaped h w M -> forall i j, (i < h)%nat -> (j < w)%nat -> exists a, entry M i j = Some a).
    { intros M [ S1 S2 ] i j Hi Hj. unfold entry. destruct (nth_error M i) as [ l | ] eqn:E.
      - assert (LL : length l = w) by (apply S2; eapply nth_error_In; eauto). destruct (nth_error l j) eqn:E2; [ eauto | ].
        apply nth_error_None in E2. lia.
      - apply nth_error_None in E. lia. }
    intros i j Hi Hj. destruct (DD L SL i j Hi Hj) as [ a Ea ]. destruct (DD R SR i j Hi Hj) as [ b Eb ]. eauto. }
  assert (BND : forall (M : list (list vec3)), shaped h w M -> forall i j a, entry M i j = Some a -> (i < h)%nat /\ (j < w)%nat).
  { intros M [ S1 S2 ] i j a E. unfold entry in E. destruct (nth_error M i) as [ l | ] eqn:El; [ | discriminate ].
    assert (length l = w) by (apply S2; eapply nth_error_In; eauto).
    split; [ rewrite <- S1; apply nth_error_Some; congruence | ]. subst w. apply nth_error_Some. congruence. }
  assert (COL : forall i a b, entry L i 0 = Some a -> entry R i 0 = Some b -> b = matched pl pr s a).
  { induction i as [ | i IH ]; intros a b Ea Eb; [ congruence | ].
    destruct (BND L SL _ _ _ Ea) as [ Hi Hj ]. destruct (DEF i 0%nat ltac:(lia) Hj) as (a0 & b0 & Ea0 & Eb0).
    destruct (AG _ _ _ _ Ea0 Eb0) as (al & _ & _ & DN). destruct (DN eq_refl a b Ea Eb) as [ -> -> ].
    rewrite HB, (IH a0 b0 Ea0 Eb0). reflexivity. }
  assert (ALL : forall j i a b, entry L i j = Some a -> entry R i j = Some b -> b = matched pl pr s a).
  { induction j as [ | j IH ]; intros i a b Ea Eb; [ eapply COL; eauto | ].
    destruct (BND L SL _ _ _ Ea) as [ Hi Hj ]. destruct (DEF i j Hi ltac:(lia)) as (a0 & b0 & Ea0 & Eb0).
    destruct (AG _ _ _ _ Ea0 Eb0) as (al & _ & RT & _). destruct (RT a b Ea Eb) as [ -> -> ].
    rewrite HB, (IH i a0 b0 Ea0 Eb0). reflexivity. }
  apply nth_ext with (d := []) (d' := []).
  { rewrite map_length. destruct SL, SR. congruence. }
  intros i Hi. destruct SR as [ S1 S2 ]. destruct SL as [ T1 T2 ]. rewrite S1 in Hi.
  change (@nil vec3) with (map (matched pl pr s) []) at 2. rewrite map_nth.
  assert (Li : length (nth i L []) = w) by (apply T2, nth_In; lia). assert (Ri : length (nth i R []) = w) by (apply S2, nth_In; lia).
  apply nth_ext with (d := matched pl pr s (V3 0 0 0)) (d' := matched pl pr s (V3 0 0 0)); [ rewrite map_length; congruence | ].
  intros j Hj. rewrite map_nth. apply (ALL j i).
  - unfold entry. rewrite (nth_error_nth' L []) by lia. apply nth_error_nth'. lia.
  - unfold entry. rewrite (nth_error_nth' R []) by lia. apply nth_error_nth'. lia.
Qed.
Example C79_case :
  forall a b t, matched (cam_over (fun r => r / 2)) cam_right (Terrain tt) (between a b t)
    = between (matched (cam_over (fun r => r / 2)) cam_right (Terrain tt) a) (matched (cam_over (fun r => r / 2)) cam_right (Terrain tt) b) t.
Proof.
  intros a b t. unfold matched, seen, between. cbn [ground cam_over cam_right pm_d pm_inv fst snd v0 v1 v2]. f_equal; field.
Qed.

(** ** C80: the announced size of the rectified images *)
(** The pixels 0 .. size - 1 are between the first node and the last one, [nodes - 1] steps further. *)
Definition covers (nodes : nat) (step : R) (size : Z) : Prop := IZR size - 1 <= (INR nodes - 1) * step.

Theorem C80_plain_size :
  forall (D : Type) (dtm_epsg : D -> Z) conv ml mr (pl pr : pmodel D) s off im step margin L R size ratio h w,
    behaves ml pl -> behaves mr pr -> off <> 0 ->
    (0 <= li_rows im)%Z -> (0 <= li_cols im)%Z -> 0 < mean_spacing im -> 0 < step -> (0 <= margin)%Z ->
    compute_stereorectification_epipolar_grids dtm_epsg conv ml mr im (elev_of s) step off margin None = Some (L, R, size, ratio) ->
    shaped h w L -> covers h step (fst size) /\ covers w step (snd size).
Proof.
  intros D dtm_epsg conv ml mr pl pr s off im step margin L R size ratio h w Hl Hr Ho HR HC Hs Hst Hm H SH.
  destruct (C31_whole_grid D dtm_epsg conv ml mr pl pr s off im step margin Hl Hr Ho HR HC Hs Hst Hm) as (P & p & L0 & size0 & ratio0 & EP & Hp & E & ES & SH0 & _).
  rewrite E in H. assert (L = map (map node) L0) by congruence. assert (size = size0) by congruence. subst L size size0. clear H.
  rewrite (prepare_plain _ _ _ _ pl pr) in EP by auto. assert (PP : P = prepare_at im step margin (start_angle pl pr s off im) (fin (start_alt pl pr s off im))) by congruence.
  destruct (grid_big im step margin (start_angle pl pr s off im) (fin (start_alt pl pr s off im)) HR HC Hs Hst Hm) as [ G0 G1 ]. rewrite <- PP in G0, G1.
  assert (SZ : exists n0 n1, pr_rectified_size P = (n0, n1) /\ pr_grid_size P = ((Rtrunc (IZR n0 / step + 2) + 2 * margin)%Z, (Rtrunc (IZR n1 / step + 2) + 2 * margin)%Z)).
  { rewrite PP. unfold prepare_at. destruct (transform_index_to_physical_point _ _ _). destruct (epipolar_box _ _) as [ [ [ ? ? ] ? ] ? ].
    eexists _, _. split; reflexivity. }
  destruct SZ as (n0 & n1 & E1 & E2). rewrite E1. rewrite E2 in *. cbn [fst snd] in *.
  destruct SH0 as [ A1 A2 ]. destruct SH as [ B1 B2 ]. rewrite map_length in B1. rewrite A1 in B1.
  assert (CO : forall n, (2 <= Rtrunc (IZR n / step + 2) + 2 * margin)%Z -> covers (Z.to_nat (Rtrunc (IZR n / step + 2) + 2 * margin)) step n).
  { intros n Hn. unfold covers. rewrite INR_IZR_INZ, Z2Nat.id by lia. rewrite plus_IZR, mult_IZR. assert (0 <= IZR margin) by (apply IZR_le; exact Hm).
    destruct (Z_lt_ge_dec n 0) as [ Neg | Pos ].
    - assert (IZR n <= -1) by (apply IZR_le; lia). apply IZR_le in Hn. rewrite plus_IZR, mult_IZR in Hn. nra.
    - assert (0 <= IZR n) by (apply IZR_le; lia). assert (0 <= IZR n / step) by (apply Rle_mult_inv_pos; auto).
      rewrite Rtrunc_nonneg by lra. pose proof (Rfloor_bounds (IZR n / step + 2)) as [ F1 F2 ].
      assert (IZR n / step <= IZR (Rfloor (IZR n / step + 2)) + 2 * IZR margin - 1) by lra.
      assert (IZR n / step * step <= (IZR (Rfloor (IZR n / step + 2)) + 2 * IZR margin - 1) * step) by (apply Rmult_le_compat_r; lra).
      assert (EX : IZR n / step * step = IZR n) by (field; lra). lra. }
  split.
  - rewrite <- B1. apply CO. lia.
  - assert (W : w = Z.to_nat (Rtrunc (IZR n1 / step + 2) + 2 * margin)).
    { destruct L0 as [ | l L0 ]; [ cbn [length] in A1; lia | ]. rewrite <- (B2 (map node l) (or_introl eq_refl)), map_length. apply A2. left; reflexivity. }
    rewrite W. apply CO. lia.
Qed.

(** With an adaptive step the announced size is computed from the number of nodes, and counts half a
    step more than there is between the first and the last one: without margin it goes out of the
    grid as soon as the step is more than two pixels. *)
Theorem C80_adaptive_size_refuted :
  exists (pl : pmodel unit) im step L R size ratio h w,
    compute_stereorectification_epipolar_grids (fun _ => 4326%Z) same_frame (plain_model pl) (plain_model cam_right)
      im (Dtm tt) step 50 0 (Some (1, 3)) = Some (L, R, size, ratio)
    /\ shaped h w L /\ ~ covers h step (fst size) /\ ~ covers w step (snd size).
Proof.
  set (z := fun _ : R => 0). exists (cam_over z), tiny, 4.
  pose proof (plain_behaves (cam_over z)) as Hl. pose proof (plain_behaves cam_right) as Hr.
  destruct (C31_whole_grid unit (fun _ => 4326%Z) same_frame _ _ _ _ (Terrain tt) 50 tiny 4 0 Hl Hr) as (P & p & L0 & size0 & ratio0 & EP & Hp & E & ES & SH0 & _);
    try lra; try (cbn; lia). { rewrite tiny_spacing; lra. }
  rewrite (prepare_plain _ _ _ _ (cam_over z) cam_right) in EP by auto.
  assert (PP : P = prepare_at tiny 4 0 (start_angle (cam_over z) cam_right (Terrain tt) 50 tiny) (fin (start_alt (cam_over z) cam_right (Terrain tt) 50 tiny))) by congruence.
  destruct (grid_big tiny 4 0 (start_angle (cam_over z) cam_right (Terrain tt) 50 tiny) (fin (start_alt (cam_over z) cam_right (Terrain tt) 50 tiny))) as [ G0 G1 ];
    try lra; try (cbn; lia). { rewrite tiny_spacing; lra. }
  rewrite <- PP in G0, G1.
  pose proof (gsd_plain (fun _ : unit => 4326%Z) same_frame _ _ _ _ (Terrain tt) 50 Hl Hr (fun g => g) p (mean_spacing tiny) 4 (same_frame_geocentric _)) as GS.
  rewrite !over_ground_step in GS by (rewrite tiny_spacing; lra).
  pose proof (stereo_flat (fun _ : unit => 4326%Z) same_frame _ _ _ _ (Terrain tt) 50 3 1 Hl Hr ltac:(lra) ltac:(lra) ltac:(lra)
                ltac:(intros a b; reflexivity) tiny 4 0 p (4 * mean_spacing tiny) (4 * mean_spacing tiny)) as F.
  cbv zeta in F. rewrite <- PP in F. rewrite tiny_spacing in F at 2 3 4 5. rewrite tiny_spacing in GS at 2 3.
  destruct (F Hp ltac:(lia) ltac:(lia) GS ltac:(lra) ltac:(lra)) as (L & R0 & size1 & ratio1 & E1 & E2).
  set (g0 := Z.to_nat (fst (pr_grid_size P))) in *. set (g1 := Z.to_nat (snd (pr_grid_size P))) in *.
  exists L, R0, (Rtrunc (INR g0 * 4 - 4 / 2 - 2 * 4 * 0), Rtrunc (INR g1 * 4 - 4 / 2 - 2 * 4 * 0)), ratio1, g0, g1.
  split; [ exact E2 | ].
  assert (T : forall g, (1 <= g)%nat -> ~ covers g 4 (Rtrunc (INR g * 4 - 4 / 2 - 2 * 4 * 0))).
  { intros g Hg C. unfold covers in C. replace (INR g * 4 - 4 / 2 - 2 * 4 * 0) with (IZR (4 * Z.of_nat g - 2)) in C.
    - rewrite Rtrunc_nonneg, Rfloor_IZR in C by (apply IZR_le; lia). rewrite minus_IZR, mult_IZR, <- INR_IZR_INZ in C. lra.
    - rewrite minus_IZR, mult_IZR, <- INR_IZR_INZ. lra. }
  split; [ | split; apply T; lia ].
  cbn [elev_of] in E, E1. rewrite E in E1. assert (EL : L = map (map node) L0) by congruence. subst L.
  destruct SH0 as [ S1 S2 ]. split; [ rewrite map_length; exact S1 | ].
  intros l Hin. apply in_map_iff in Hin. destruct Hin as (l' & <- & Hin). rewrite map_length. apply S2. exact Hin.
Qed.

(** What holds: with a margin, or with steps of at most two pixels.  Missing: the other cases. *)
Theorem C80_adaptive_size_partial :
  forall (D : Type) (dtm_epsg : D -> Z) conv ml mr (pl pr : pmodel D) s off im step margin scale max_ratio ecef P p L R size ratio h w,
    behaves ml pl -> behaves mr pr -> 1 <= max_ratio -> 0 <= scale ->
    (0 <= li_rows im)%Z -> (0 <= li_cols im)%Z -> 0 < mean_spacing im -> 0 < step -> (0 <= margin)%Z ->
    geocentric conv (gm_epsg ml) ecef ->
    prepare_rectification dtm_epsg conv ml mr im (elev_of s) step off margin = Some P -> pr_start P = node p ->
    (forall axis alpha, epipolar_direction pl pr s off p alpha -> 0 < ground_step pl ecef axis (step * mean_spacing im) p alpha) ->
    (1 <= margin)%Z \/ step <= 2 ->
    compute_stereorectification_epipolar_grids dtm_epsg conv ml mr im (elev_of s) step off margin (Some (scale, max_ratio))
    = Some (L, R, size, ratio) ->
    shaped h w L -> covers h step (fst size) /\ covers w step (snd size).
Proof.
  intros D dtm_epsg conv ml mr pl pr s off im step margin scale max_ratio ecef P p L R size ratio h w Hl Hr Hm Hsc HR HC Hs Hst Hmg HG HP Hp Hpos HX H SH.
  rewrite (prepare_plain _ _ _ _ pl pr) in HP by auto. injection HP as <-.
  set (P := prepare_at im step margin (start_angle pl pr s off im) (fin (start_alt pl pr s off im))) in *.
  destruct (grid_big im step margin (start_angle pl pr s off im) (fin (start_alt pl pr s off im)) HR HC Hs Hst Hmg) as [ G0 G1 ]. fold P in G0, G1.
  pose proof (gsd_plain dtm_epsg conv ml mr pl pr s off Hl Hr ecef p (mean_spacing im) step HG) as GS.
  assert (HA : epipolar_direction pl pr s off p (angle_at pl pr s off p)).
  { split; [ apply direction_has_direction | apply direction_range ]. }
  destruct (stereo_adapt dtm_epsg conv ml mr pl pr s off max_ratio scale Hl Hr Hm Hsc im step margin p _ _ L R size ratio
              Hp ltac:(fold P; lia) ltac:(fold P; lia) ltac:(apply Rmult_lt_0_compat; auto) GS (Hpos 0%Z _ HA) (Hpos 1%Z _ HA) H) as (n0 & n1 & K).
  cbv zeta in K. destruct K as (EL & _ & -> & _). cbn [fst snd].
  set (G := agrid_of _ _ _ _ _ _ _ _ _ _ _ _) in *.
  pose proof (agrid_shaped pl pr s off max_ratio scale (fun x => node (an_p x))
    (ground_step pl ecef 0 (step * mean_spacing im) p (angle_at pl pr s off p)) (ground_step pl ecef 1 (step * mean_spacing im) p (angle_at pl pr s off p))
    (step * mean_spacing im) n0 n1 p) as [ A1 A2 ]. fold G in A1, A2. rewrite <- EL in A1, A2.
  destruct SH as [ B1 B2 ]. assert (Eh : h = S n0) by congruence. assert (Ew : w = S n1).
  { destruct L as [ | l L ]; [ cbn in A1; lia | ]. rewrite <- (B2 l (or_introl eq_refl)). apply A2. left; reflexivity. }
  assert (M0 : 0 <= IZR margin) by (apply IZR_le; exact Hmg).
  assert (CO : forall n, covers (S n) step (Rtrunc (INR (S n) * step - step / 2 - 2 * step * IZR margin))).
  { intros n. unfold covers. pose proof (pos_INR n). rewrite S_INR. set (x := (INR n + 1) * step - step / 2 - 2 * step * IZR margin).
    assert (X : x <= INR n * step + 1).
    { unfold x. destruct HX as [ HX | HX ].
      - assert (1 <= IZR margin) by (apply IZR_le; exact HX). nra.
      - nra. }
    assert (0 <= INR n * step) by nra.
    unfold Rtrunc. destruct (Rltb_spec x 0) as [ Neg | Pos ]; [ | pose proof (Rfloor_bounds x); lra ].
    destruct (Rceil_bounds x) as [ C1 C2 ]. assert (Rceil x <= 0)%Z by (apply Z.lt_succ_r; apply lt_IZR; unfold Z.succ; rewrite plus_IZR; cbn; lra).
    apply IZR_le in H2. lra. }
  rewrite Eh, Ew. split; apply CO.
Qed.
(** With a margin of one node, a step of four pixels and a slope of 1/2. *)
Example C80_case :
  exists L R size ratio,
    compute_stereorectification_epipolar_grids (fun _ : unit => 4326%Z) same_frame (plain_model (cam_over (fun r => r / 2))) (plain_model cam_right)
      tiny (Dtm tt) 4 50 1 (Some (1, 3)) = Some (L, R, size, ratio).
Proof.
  destruct (over_exists (fun r => r / 2) tiny 4 1 slope_half) as (P & p & L' & R' & size & ratio & EP & Hp & E); try lra; try (cbn; lia).
  { rewrite tiny_spacing; lra. }
  eauto.
Qed.

(** ** C81: flat ground *)
Theorem C81_flat_ground :
  forall (D : Type) (dtm_epsg : D -> Z) conv ml mr (pl pr : pmodel D) s off im step margin scale max_ratio ecef P p,
    behaves ml pl -> behaves mr pr -> off <> 0 -> 1 <= max_ratio -> 0 <= scale ->
    (0 <= li_rows im)%Z -> (0 <= li_cols im)%Z -> 0 < mean_spacing im -> 0 < step -> (0 <= margin)%Z ->
    geocentric conv (gm_epsg ml) ecef ->
    prepare_rectification dtm_epsg conv ml mr im (elev_of s) step off margin = Some P -> pr_start P = node p ->
    (forall axis alpha, epipolar_direction pl pr s off p alpha -> 0 < ground_step pl ecef axis (step * mean_spacing im) p alpha) ->
    (forall q r, v2 (ground pl s q) = v2 (ground pl s r)) ->
    exists L R size size' ratio,
      compute_stereorectification_epipolar_grids dtm_epsg conv ml mr im (elev_of s) step off margin None = Some (L, R, size, ratio)
      /\ compute_stereorectification_epipolar_grids dtm_epsg conv ml mr im (elev_of s) step off margin (Some (scale, max_ratio)) = Some (L, R, size', ratio).
Proof.
  intros D dtm_epsg conv ml mr pl pr s off im step margin scale max_ratio ecef P p Hl Hr Ho Hm Hsc HR HC Hs Hst Hmg HG HP Hp Hpos HF.
  rewrite (prepare_plain _ _ _ _ pl pr) in HP by auto. injection HP as <-.
  destruct (grid_big im step margin (start_angle pl pr s off im) (fin (start_alt pl pr s off im)) HR HC Hs Hst Hmg) as [ G0 G1 ].
  pose proof (gsd_plain dtm_epsg conv ml mr pl pr s off Hl Hr ecef p (mean_spacing im) step HG) as GS.
  assert (HA : epipolar_direction pl pr s off p (angle_at pl pr s off p)).
  { split; [ apply direction_has_direction | apply direction_range ]. }
  destruct (stereo_flat dtm_epsg conv ml mr pl pr s off max_ratio scale Hl Hr Ho Hm Hsc HF im step margin p _ _ Hp ltac:(lia) ltac:(lia) GS
              (Hpos 0%Z _ HA) (Hpos 1%Z _ HA)) as (L & R & size & ratio & E1 & E2).
  eauto 8.
Qed.
Example C81_case :
  exists L R size size' ratio,
    compute_stereorectification_epipolar_grids (fun _ : unit => 4326%Z) same_frame (plain_model (cam_over (fun _ => 7))) (plain_model cam_right)
      tiny (Dtm tt) 4 50 0 None = Some (L, R, size, ratio)
    /\ compute_stereorectification_epipolar_grids (fun _ : unit => 4326%Z) same_frame (plain_model (cam_over (fun _ => 7))) (plain_model cam_right)
      tiny (Dtm tt) 4 50 0 (Some (1, 3)) = Some (L, R, size', ratio).
Proof.
  destruct (over_exists (fun _ => 7) tiny 4 0) as (P & p & _ & _ & _ & _ & EP & Hp & _); try lra; try (cbn; lia).
  { intros a b. rewrite Rminus_diag_eq by reflexivity. rewrite Rabs_R0. pose proof (Rabs_pos (a - b)). lra. }
  { rewrite tiny_spacing; lra. }
  apply (C81_flat_ground unit (fun _ => 4326%Z) same_frame _ _ (cam_over (fun _ => 7)) cam_right (Terrain tt) 50 tiny 4 0 1 3 (fun g => g) P p);
    try lra; try (cbn; lia); auto; try apply plain_behaves.
  - rewrite tiny_spacing; lra.
  - apply same_frame_geocentric.
  - intros axis alpha HA. rewrite tiny_spacing. rewrite over_ground_step; lra.
Qed.
