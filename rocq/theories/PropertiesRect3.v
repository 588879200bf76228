(** Properties of the epipolar geometry of affine sensors (C75). *)
From Coq Require Import Reals ZArith List Bool Lra Lia.
From Verif Require Import Num NumLemmas ProjModel RpcModel RpcDtmModel LocModel TriModel TriBatch
  RectModel RectSpec RectAffineSpec RectProofs RectStrip RectCpp RectGrid RectBox RectAdapt RectDisp RectAffine PropertiesRect.
Import ListNotations.
Open Scope R_scope.

(** A grid of positions, stored as a file of displacements and read again for the resampling. *)
Definition stored_grid (h w : nat) (G : list (list row3)) (step : R) : rect_grid :=
  let '(dcols, drows) := write_epipolar_grid (positions_to_displacement_grid G step) true in
  read_rectification_grid (displacement_transform step) w h dcols drows true.
(** The image position (row, col) of the epipolar pixel (X, Y), X counting the columns. *)
Definition resampled (g : rect_grid) (X Y : R) (p : vec3) : Prop := interpolate_grid g X Y = (fin (v1 p), fin (v0 p)).

Lemma resampled_lattice : forall h w (L : list (list vec3)) step start u v X Y p,
  shaped h w L -> (2 <= h)%nat -> (2 <= w)%nat -> 0 < step -> lattice L start u v ->
  resampled (stored_grid h w (map (map node) L) step) X Y p
  <-> fst start + X / step * fst u + Y / step * fst v = v0 p /\ snd start + X / step * snd u + Y / step * snd v = v1 p.
Proof.
  intros h w L step start u v X Y p HS Hh Hw Hs HL. unfold resampled, stored_grid.
  pose proof (interpolate_lattice h w L step start u v X Y HS Hh Hw Hs HL) as E.
  destruct (write_epipolar_grid _ true) as [dc dr]. rewrite E. unfold fin. split.
  - intro H. assert (A := f_equal fst H). assert (B := f_equal snd H). cbn [fst snd] in A, B.
    split; congruence.
  - intros [-> ->]. reflexivity.
Qed.

Lemma direction_of : forall off w0 w1 p q z z' alpha rho, off <> 0 -> rho <> 0 ->
  let a := V3 (p - - off * w0) (q - - off * w1) z in let b := V3 (p - off * w0) (q - off * w1) z' in
  image_distance a b / (2 * off) = rho -> has_direction a b alpha -> sin alpha = - w0 / rho /\ cos alpha = - w1 / rho.
Proof.
  intros off w0 w1 p q z z' alpha rho Ho Hr a b HD [H1 H2].
  assert (E : image_distance a b = 2 * off * rho) by (rewrite <- HD; field; exact Ho).
  rewrite E in H1, H2. unfold a, b in H1, H2. cbn [v0 v1] in H1, H2. split.
  - apply Rmult_eq_reg_l with (2 * off * rho); [|apply Rmult_integral_contrapositive_currified; lra].
    rewrite <- H2. field. exact Hr.
  - apply Rmult_eq_reg_l with (2 * off * rho); [|apply Rmult_integral_contrapositive_currified; lra].
    rewrite <- H1. field. exact Hr.
Qed.

(** ** C75: homologous points have the same epipolar row *)
Theorem C75_same_row_for_affine_sensors :
  forall (D : Type) (dtm_epsg : D -> Z) conv ml mr (pl pr : pmodel D) s off im step margin lefts rights size ratio g0 g1 rho any,
    behaves ml pl -> behaves mr pr -> affine_sensor pl -> affine_sensor pr -> off <> 0 ->
    (0 <= li_rows im)%Z -> (0 <= li_cols im)%Z -> 0 < mean_spacing im -> 0 < step -> (0 <= margin)%Z ->
    local_ratio pl pr (Plane s) off any = rho -> rho <> 0 ->
    compute_stereorectification_epipolar_grids dtm_epsg conv ml mr im (elev_of (Plane s)) step off margin None
      = Some (lefts, rights, size, ratio) ->
    shaped g0 g1 lefts ->
    forall ground, exists X Y,
      (forall A B, resampled (stored_grid g0 g1 lefts step) A B (seen pl ground) <-> A = X /\ B = Y)
      /\ (forall A B, resampled (stored_grid g0 g1 rights step) A B (seen pr ground)
                      <-> A = X - (v2 ground - s) * rho / mean_spacing im /\ B = Y).
Proof.
  intros D dtm_epsg conv ml mr pl pr s off im step margin lefts rights size ratio g0 g1 rho any Hl Hr Al Ar Ho HR HC Hs Hst Hm Hrho Hrho0 H HS.
  destruct (C31_whole_grid D dtm_epsg conv ml mr pl pr (Plane s) off im step margin Hl Hr Ho HR HC Hs Hst Hm)
    as (P & p & L & size' & ratio' & EP & _ & E & _ & SL & EG).
  assert (EL : lefts = map (map node) L) by congruence.
  assert (ER : rights = map (map (fun q => node (matched pl pr (Plane s) q))) L) by congruence.
  destruct (prepare_start im step margin (start_angle pl pr (Plane s) off im) (start_alt pl pr (Plane s) off im)) as [p' Hp'].
  destruct (grid_big im step margin (start_angle pl pr (Plane s) off im) (fin (start_alt pl pr (Plane s) off im)) HR HC Hs Hst Hm) as [G0 G1].
  assert (EP' : P = prepare_at im step margin (start_angle pl pr (Plane s) off im) (fin (start_alt pl pr (Plane s) off im))).
  { rewrite (prepare_plain _ _ _ _ pl pr) in EP by auto. congruence. }
  rewrite <- EP' in G0, G1.
  set (h := Z.to_nat (fst (pr_grid_size P))) in *. set (w := Z.to_nat (snd (pr_grid_size P))) in *.
  assert (Eh : g0 = h). { destruct HS as [HS _]. rewrite EL, map_length in HS. destruct SL as [SL _]. congruence. }
  assert (Ew : g1 = w).
  { destruct HS as [HS1 HS]. destruct SL as [SL1 SL]. subst lefts. destruct L as [|l L]; [cbn in SL1; lia|].
    specialize (HS (map node l) (or_introl eq_refl)). specialize (SL l (or_introl eq_refl)). rewrite map_length in HS. congruence. }
  subst g0 g1.
  destruct (affine_ends pl pr Al Ar) as (k0 & k1 & a & b & c & d & w0 & w1 & N & T & EE).
  assert (RHO : rho = Rabs off / off * sqrt (w1 * w1 + w0 * w0)).
  { rewrite <- Hrho. unfold local_ratio. rewrite !EE. apply affine_ratio. exact Ho. }
  assert (SG : (Rabs off / off) * (Rabs off / off) = 1).
  { replace (Rabs off / off * (Rabs off / off)) with ((Rabs off * Rabs off) / (off * off)) by (field; exact Ho).
    assert (RA : Rabs off * Rabs off = off * off) by (rewrite <- Rabs_mult; apply Rabs_pos_eq; apply Rle_0_sqr). rewrite RA. field. exact Ho. }
  assert (W2 : 0 <= w1 * w1 + w0 * w0). { assert (0 <= w1 * w1) by apply Rle_0_sqr. assert (0 <= w0 * w0) by apply Rle_0_sqr. lra. }
  assert (R2 : rho * rho = w1 * w1 + w0 * w0).
  { rewrite RHO. replace (Rabs off / off * sqrt (w1 * w1 + w0 * w0) * (Rabs off / off * sqrt (w1 * w1 + w0 * w0)))
      with ((Rabs off / off * (Rabs off / off)) * (sqrt (w1 * w1 + w0 * w0) * sqrt (w1 * w1 + w0 * w0))) by ring.
    rewrite SG, sqrt_sqrt by exact W2. ring. }
  set (dr := - w0 / rho). set (dc := - w1 / rho).
  assert (NRM : dr * dr + dc * dc = 1).
  { unfold dr, dc. replace (- w0 / rho * (- w0 / rho) + - w1 / rho * (- w1 / rho)) with ((w1 * w1 + w0 * w0) / (rho * rho)) by (field; exact Hrho0).
    rewrite <- R2. field. exact Hrho0. }
  assert (DIR : forall q alpha, epipolar_direction pl pr (Plane s) off q alpha -> sin alpha = dr /\ cos alpha = dc).
  { intros q alpha [HD _]. rewrite !EE in HD. refine (direction_of off w0 w1 _ _ _ _ alpha rho Ho Hrho0 _ HD).
    rewrite affine_ratio by exact Ho. symmetry. exact RHO. }
  set (dd := step * mean_spacing im) in *.
  assert (Hdd : 0 < dd) by (apply Rmult_lt_0_compat; assumption).
  pose proof (grid_lattice pl pr (Plane s) off dd p L h w dr dc SL EG DIR) as LL.
  set (f0 := fun x y : R => a * x + b * y). set (f1 := fun x y : R => c * x + d * y).
  assert (LR : lattice (map (map (fun q => matched pl pr (Plane s) q)) L)
                 (k0 + f0 (v0 p + s * w0) (v1 p + s * w1), k1 + f1 (v0 p + s * w0) (v1 p + s * w1))
                 (f0 (dd * dr) (dd * dc), f1 (dd * dr) (dd * dc)) (f0 (dd * dc) (- (dd * dr)), f1 (dd * dc) (- (dd * dr)))).
  { intros i j q Hq. rewrite map_entry in Hq. destruct (entry L i j) as [q0|] eqn:E0; [|discriminate].
    cbn [option_map] in Hq. assert (Eq : q = matched pl pr (Plane s) q0) by congruence. subst q.
    destruct (LL i j q0 E0) as [I0 I1]. cbn [fst snd] in *. rewrite T. cbn [v0 v1]. rewrite I0, I1. unfold f0, f1. split; ring. }
  assert (SR : shaped h w (map (map (fun q => matched pl pr (Plane s) q)) L)).
  { destruct SL as [S1 S2]. split; [rewrite map_length; auto|]. intros l Hl'. apply in_map_iff in Hl'. destruct Hl' as (l0 & <- & Hl'). rewrite map_length. auto. }
  assert (ER' : rights = map (map node) (map (map (fun q => matched pl pr (Plane s) q)) L)).
  { rewrite ER, map_map. apply map_ext. intro l. rewrite map_map. reflexivity. }
  intro gr. set (l := seen pl gr).
  exists (step * ((dr * (v0 l - v0 p) + dc * (v1 l - v1 p)) / dd)), (step * ((dc * (v0 l - v0 p) - dr * (v1 l - v1 p)) / dd)).
  set (x := (dr * (v0 l - v0 p) + dc * (v1 l - v1 p)) / dd). set (y := (dc * (v0 l - v0 p) - dr * (v1 l - v1 p)) / dd).
  assert (X0 : dd * x = dr * (v0 l - v0 p) + dc * (v1 l - v1 p)) by (unfold x; field; lra).
  assert (Y0 : dd * y = dc * (v0 l - v0 p) - dr * (v1 l - v1 p)) by (unfold y; field; lra).
  assert (L0 : v0 l = v0 p + x * (dd * dr) + y * (dd * dc)).
  { replace (x * (dd * dr)) with (dd * x * dr) by ring. replace (y * (dd * dc)) with (dd * y * dc) by ring. rewrite X0, Y0.
    replace (v0 p + (dr * (v0 l - v0 p) + dc * (v1 l - v1 p)) * dr + (dc * (v0 l - v0 p) - dr * (v1 l - v1 p)) * dc)
      with (v0 p + (v0 l - v0 p) * (dr * dr + dc * dc)) by ring. rewrite NRM. ring. }
  assert (L1 : v1 l = v1 p + x * (dd * dc) + y * - (dd * dr)).
  { replace (x * (dd * dc)) with (dd * x * dc) by ring. replace (y * - (dd * dr)) with (- (dd * y * dr)) by ring. rewrite X0, Y0.
    replace (v1 p + (dr * (v0 l - v0 p) + dc * (v1 l - v1 p)) * dc + - ((dc * (v0 l - v0 p) - dr * (v1 l - v1 p)) * dr))
      with (v1 p + (v1 l - v1 p) * (dr * dr + dc * dc)) by ring. rewrite NRM. ring. }
  assert (ND : dd * dr * - (dd * dr) - dd * dc * (dd * dc) <> 0).
  { replace (dd * dr * - (dd * dr) - dd * dc * (dd * dc)) with (- (dd * dd) * (dr * dr + dc * dc)) by ring. rewrite NRM.
    assert (0 < dd * dd) by (apply Rmult_lt_0_compat; lra). lra. }
  assert (UQ : forall A B x' y', (A / step - x') * (dd * dr) + (B / step - y') * (dd * dc) = 0 -> (A / step - x') * (dd * dc) + (B / step - y') * - (dd * dr) = 0 ->
     A = step * x' /\ B = step * y').
  { intros A B x' y' E1 E2. destruct (null2 (dd * dr) (dd * dc) (dd * dc) (- (dd * dr)) (A / step - x') (B / step - y') ND) as [Z1 Z2]; [lra|lra|].
    split; [replace A with (step * (A / step)) by (field; lra)|replace B with (step * (B / step)) by (field; lra)]; f_equal; lra. }
  assert (RL : seen pr gr = matched pl pr (Plane (v2 gr)) l).
  { unfold matched, ground, l. assert (EB := affine_both pl Al (v0 gr) (v1 gr) (v2 gr)).
    unfold seen at 3 4. cbn [v0 v1]. rewrite EB. unfold seen. cbn [v0 v1 v2]. reflexivity. }
  split; intros A B.
  - rewrite EL, (resampled_lattice h w L step _ _ _ A B l SL G0 G1 Hst LL). cbn [fst snd]. split.
    + intros [E1 E2]. rewrite L0 in E1. rewrite L1 in E2. apply UQ; lra.
    + intros [-> ->]. rewrite L0, L1. split; field; lra.
  - rewrite ER', (resampled_lattice h w _ step _ _ _ A B _ SR G0 G1 Hst LR). cbn [fst snd]. rewrite RL, T. cbn [v0 v1].
    set (dx := (v2 gr - s) * rho / dd).
    assert (WR : (v2 gr - s) * w0 = - dx * (dd * dr) /\ (v2 gr - s) * w1 = - dx * (dd * dc)).
    { unfold dx, dr, dc. split; field; split; lra. }
    destruct WR as [WR0 WR1].
    assert (DX : step * x - (v2 gr - s) * rho / mean_spacing im = step * (x - dx)) by (unfold dx, dd; field; split; lra).
    rewrite DX.
    assert (LW0 : v0 l + v2 gr * w0 = v0 p + s * w0 + (x - dx) * (dd * dr) + y * (dd * dc)).
    { rewrite L0. replace (v2 gr * w0) with ((v2 gr - s) * w0 + s * w0) by ring. rewrite WR0. ring. }
    assert (LW1 : v1 l + v2 gr * w1 = v1 p + s * w1 + (x - dx) * (dd * dc) + y * - (dd * dr)).
    { rewrite L1. replace (v2 gr * w1) with ((v2 gr - s) * w1 + s * w1) by ring. rewrite WR1. ring. }
    rewrite LW0, LW1. unfold f0, f1. split.
    + intros [E1 E2].
      destruct (null2 a b c d ((A / step - (x - dx)) * (dd * dr) + (B / step - y) * (dd * dc)) ((A / step - (x - dx)) * (dd * dc) + (B / step - y) * - (dd * dr)) N) as [Z1 Z2]; [lra|lra|].
      apply UQ; assumption.
    + intros [-> ->]. split; field; lra.
Qed.

(** Two sensors that look at the ground from two sides, over a 10 m plane: a camera looking down and
    one whose rows and columns are scaled and slanted. *)
Definition slanted : pmodel unit :=
  PModel (fun r c h => V3 ((c - 1) / 2 + h) (r / 2 - 3 * h) h) (fun _ r c => V3 c r 0) (fun lon lat h => (2 * lat + 6 * h, 2 * lon - 2 * h + 1)).
Lemma slanted_affine : affine_sensor slanted.
Proof.
  split.
  - exists 0, 0, 2, 6, 1, 2, 0, (-2). intros. cbn [slanted pm_inv]. f_equal; ring.
  - intros row col alt g. unfold g, slanted. cbn [pm_h pm_inv v0 v1 v2]. split; [reflexivity|]. f_equal; field.
Qed.
Lemma cam_left_affine : affine_sensor (cam_left 0).
Proof.
  split.
  - exists 0, 0, 1, 0, 0, 1, 0, 0. intros. cbn [cam_left pm_inv]. f_equal; ring.
  - intros row col alt g. unfold g, cam_left. cbn [pm_h pm_inv v0 v1 v2]. split; reflexivity.
Qed.
Lemma slanted_ratio : local_ratio (cam_left 0) slanted (Plane 10) 50 (V3 0 0 0) = sqrt 10.
Proof.
  unfold local_ratio, epipolar_end, matched, ground, seen, image_distance. cbn [cam_left slanted pm_h pm_inv v0 v1 v2 fst snd].
  match goal with |- sqrt ?e / _ = _ => replace e with (10 * (100 * 100)) by field end.
  rewrite sqrt_mult by lra. rewrite sqrt_square by lra. field.
Qed.
Example C75_case :
  exists lefts rights size ratio g0 g1,
    compute_stereorectification_epipolar_grids (fun _ => 4326%Z) (fun _ _ g => g) (plain_model (cam_left 0)) (plain_model slanted)
      tiny (elev_of (Plane 10)) 1 50 0 None = Some (lefts, rights, size, ratio)
    /\ shaped g0 g1 lefts
    /\ exists X Y,
      (forall A B, resampled (stored_grid g0 g1 lefts 1) A B (V3 7 3 20) <-> A = X /\ B = Y)
      /\ (forall A B, resampled (stored_grid g0 g1 rights 1) A B (V3 134 (-33) 20) <-> A = X - (20 - 10) * sqrt 10 / 1 /\ B = Y).
Proof.
  destruct (C31_whole_grid unit (fun _ => 4326%Z) (fun _ _ g => g) _ _ _ _ (Plane 10) 50 tiny 1 0
              (plain_behaves (cam_left 0)) (plain_behaves slanted)) as (P & p & L & size & ratio & _ & _ & E & _ & SL & _);
    try lra; try (cbn; lia). { rewrite tiny_spacing; lra. }
  eexists _, _, _, _, _, _. split; [exact E|].
  assert (SL' : shaped (Z.to_nat (fst (pr_grid_size P))) (Z.to_nat (snd (pr_grid_size P))) (map (map node) L)).
  { destruct SL as [S1 S2]. split; [rewrite map_length; auto|]. intros l Hl'. apply in_map_iff in Hl'. destruct Hl' as (l0 & <- & Hl'). rewrite map_length. auto. }
  split; [exact SL'|].
  destruct (C75_same_row_for_affine_sensors unit (fun _ => 4326%Z) (fun _ _ g => g) _ _ _ _ 10 50 tiny 1 0 _ _ _ _ _ _ (sqrt 10) (V3 0 0 0)
              (plain_behaves (cam_left 0)) (plain_behaves slanted) cam_left_affine slanted_affine ltac:(lra) ltac:(cbn; lia) ltac:(cbn; lia)
              ltac:(rewrite tiny_spacing; lra) ltac:(lra) ltac:(lia) slanted_ratio ltac:(assert (0 < sqrt 10) by (apply sqrt_lt_R0; lra); lra) E SL' (V3 3 7 20))
    as (X & Y & HX & HY).
  exists X, Y. rewrite tiny_spacing in HY. split; intros A B; [rewrite <- HX|rewrite <- HY]; unfold resampled, seen; cbn [cam_left slanted pm_inv v0 v1 v2 fst snd].
  - reflexivity.
  - replace (2 * 7 + 6 * 20) with 134 by ring. replace (2 * 3 - 2 * 20 + 1) with (-33) by ring. reflexivity.
Qed.
