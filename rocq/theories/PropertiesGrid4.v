(** C73, C74: colocation and resampling of the grids. *)
From Coq Require Import Reals ZArith List Bool Lra Lia.
From Verif Require Import Num NumLemmas InterpModel InterpSpec InterpProofs ProjModel ProjSpec PropertiesProj RpcModel
  DtmModel DtmSpec DtmCube DtmWalk DtmIntersect CppDtmModel CppDtmProofs DtmProofs DtmWitness PropertiesDtm DtmWitness2 RpcDtmModel PropertiesRpcDtm GridModel GridSpec GridProofs GridNewton GridPred PropertiesGrid PropertiesGrid2 PropertiesGrid3.
Import ListNotations.
Open Scope R_scope.

(** ** C73 *)
(** Every node of the colocation grid is the inverse localization, in the destination grid, of the
    localization on the DTM, in the source grid, of its pixel; an exception at a node is an exception. *)
Theorem C73_nodes :
  forall conv fuel src dst pd d l0 c0 steprow stepcol nbrow nbcol out, 
  grid_coloc conv fuel src dst pd d l0 c0 steprow stepcol nbrow nbcol = Some out ->
  length out = nbrow /\ (forall line, In line out -> length line = nbcol) /\
  forall i j, (i < nbrow)%nat -> (j < nbcol)%nat ->
  exists line q p, nth_error out i = Some line /\ nth_error line j = Some q /\
    grid_direct_loc_dtm conv fuel src [fin (l0 + steprow * INR i)] [fin (c0 + stepcol * INR j)] d = Some [p] /\
    grid_inverse_loc dst pd 15 [lon3 p] [lat3 p] [alt3 p] = Some [q].
Proof.
  intros conv fuel src dst pd d l0 c0 steprow stepcol nbrow nbcol out H. unfold grid_coloc in H.
  pose proof (seq_opt_len _ _ _ H) as HL. rewrite map_length, seq_length in HL. split; [exact HL|].
  assert (HR : forall i line, nth_error out i = Some line -> (i < nbrow)%nat /\
     seq_opt (map (fun j => grid_coloc_node conv fuel src dst pd d (l0 + steprow * INR i) (c0 + stepcol * INR j)) (seq 0 nbcol)) = Some line).
  { intros i line El. assert (Hi : (i < nbrow)%nat) by (rewrite <- HL; apply nth_error_Some; congruence). split; [exact Hi|].
    pose proof (seq_opt_nth_inv _ _ _ _ H El) as HN. rewrite nth_error_map in HN.
    rewrite (nth_error_nth' _ 0%nat) in HN by (rewrite seq_length; lia). rewrite seq_nth in HN by lia. cbn [option_map Nat.add] in HN. congruence. }
  split.
  - intros line HIn. apply In_nth_error in HIn. destruct HIn as [i El]. destruct (HR i line El) as [_ HN].
    pose proof (seq_opt_len _ _ _ HN) as HL2. now rewrite map_length, seq_length in HL2.
  - intros i j Hi Hj. destruct (nth_error out i) as [line|] eqn:El; [|apply nth_error_None in El; lia]. destruct (HR i line El) as [_ HN].
    pose proof (seq_opt_len _ _ _ HN) as HL2. rewrite map_length, seq_length in HL2.
    destruct (nth_error line j) as [q|] eqn:Eq; [|apply nth_error_None in Eq; lia].
    pose proof (seq_opt_nth_inv _ _ _ _ HN Eq) as HN2. rewrite nth_error_map in HN2.
    rewrite (nth_error_nth' _ 0%nat) in HN2 by (rewrite seq_length; lia). rewrite seq_nth in HN2 by lia. cbn [option_map Nat.add] in HN2.
    assert (HQ : grid_coloc_node conv fuel src dst pd d (l0 + steprow * INR i) (c0 + stepcol * INR j) = Some q) by congruence.
    unfold grid_coloc_node in HQ.
    destruct (grid_direct_loc_dtm conv fuel src [fin (l0 + steprow * INR i)] [fin (c0 + stepcol * INR j)] d) as [[|p [|]]|] eqn:ED; try discriminate.
    destruct (grid_inverse_loc dst pd 15 [lon3 p] [lat3 p] [alt3 p]) as [[|q' [|]]|] eqn:EI; try discriminate.
    assert (q' = q) by congruence. subst q'. exists line, q, p. auto.
Qed.

(** When the layers of the destination grid are affine, and its predictor is the estimated one: the node
    is the pixel of the destination grid that sees the ground point found by the source grid on the DTM,
    at the altitude of this point. *)
Theorem C73_homologous_pixel :
  forall inv conv fuel src dst pd nr nc d l0 c0 steprow stepcol nbrow nbcol out i j lon lat alt row col rt ct rb cb lon0 lat0,
  proper_grid dst -> (2 <= nr)%nat -> (2 <= nc)%nat -> inverts inv -> estimate_inverse_loc_predictor inv dst nr nc = Some pd ->
  affine_layers (gr_lon dst) -> affine_layers (gr_lat dst) ->
  (forall a r c r' c' lon lat, grid_ground dst r c a lon lat -> grid_ground dst r' c' a lon lat -> r' = r /\ c' = c) ->
  grid_coloc conv fuel src dst (Some pd) d l0 c0 steprow stepcol nbrow nbcol = Some out -> (i < nbrow)%nat -> (j < nbcol)%nat ->
  grid_direct_loc_dtm conv fuel src [fin (l0 + steprow * INR i)] [fin (c0 + stepcol * INR j)] d = Some [R3 (fin lon) (fin lat) (fin alt)] ->
  grid_ground dst row col alt lon lat -> Rabs lon <= 180 -> Rabs lat <= 90 ->
  grid_ground dst rt ct (hd 0 (gr_alts dst)) lon lat -> grid_ground dst rb cb (last (gr_alts dst) 0) lon lat ->
  let h := (alt - last (gr_alts dst) 0) / (hd 0 (gr_alts dst) - last (gr_alts dst) 0) in
  grid_ground dst (lerp rb rt h) (lerp cb ct h) alt lon0 lat0 -> in_range dst lon0 lat0 ->
  exists line, nth_error out i = Some line /\ nth_error line j = Some (fin row, fin col, fin alt).
Proof.
  intros inv conv fuel src dst pd nr nc d l0 c0 steprow stepcol nbrow nbcol out i j lon lat alt row col rt ct rb cb lon0 lat0
    HP Hr Hc HI HE A1 A2 HInj H Hi Hj HD HG Hlon Hlat HT HB h HG0 HI0.
  destruct (C73_nodes _ _ _ _ _ _ _ _ _ _ _ _ _ H) as (_ & _ & HN). destruct (HN i j Hi Hj) as (line & q & p & E1 & E2 & E3 & E4).
  exists line. split; [exact E1|]. rewrite E2. assert (p = R3 (fin lon) (fin lat) (fin alt)) as -> by congruence. cbn [lon3 lat3 alt3] in E4.
  rewrite (C72_affine_inverse_loc inv dst nr nc pd 15 row col alt lon lat rt ct rb cb lon0 lat0) in E4; auto; [congruence|lia].
Qed.

(** ** C74 *)
(** The altitudes of the resampled grid: evenly spaced from the highest to the lowest one, or those of the
    layers. *)
Definition resampled_altitudes (g : grid) (nbalt : option nat) : list R :=
  match nbalt with
  | Some (S n) => spread (hd 0 (gr_alts g)) (last (gr_alts g) 0) (S n)
  | _ => gr_alts g
  end.
(** Every node of the resampled grid is the ground position of its pixel at its altitude, or NaN when
    this position is out of range. *)
Theorem C74_nodes :
  forall g nbrow nbcol nbalt out, proper_grid g -> (2 <= nbrow)%nat -> (2 <= nbcol)%nat ->
  interpolate_grid_in_altitude g nbrow nbcol nbalt = Some out ->
  length out = length (resampled_altitudes g nbalt) /\
  forall k i j h r c lon lat, nth_error (resampled_altitudes g nbalt) k = Some h ->
    nth_error (spread (node_row g 0) (node_row g (gr_nbrow g - 1)) nbrow) i = Some r ->
    nth_error (spread (node_col g 0) (node_col g (gr_nbcol g - 1)) nbcol) j = Some c ->
    grid_ground g r c h lon lat ->
  exists layer line p, nth_error out k = Some layer /\ nth_error layer i = Some line /\ nth_error line j = Some p /\
    (in_range g lon lat -> p = R3 (fin lon) (fin lat) (fin h)) /\ (~ in_range g lon lat -> p = nan3).
Proof.
  intros g nbrow nbcol nbalt out HP Hr Hc H. unfold interpolate_grid_in_altitude in H.
  change (match nbalt with Some (S n) => linspace (hd 0 (gr_alts g)) (last (gr_alts g) 0) (S n) | _ => gr_alts g end) with (resampled_altitudes g nbalt) in H.
  split; [pose proof (seq_opt_len _ _ _ H) as HL; now rewrite map_length in HL|].
  intros k i j h r c lon lat Hh Hi Hj HG.
  pose proof (seq_opt_len _ _ _ H) as HL. rewrite map_length in HL.
  destruct (nth_error out k) as [layer|] eqn:El; [|apply nth_error_None in El; assert (k < length (resampled_altitudes g nbalt))%nat by (apply nth_error_Some; congruence); lia].
  pose proof (seq_opt_nth_inv _ _ _ _ H El) as HN. rewrite nth_error_map, Hh in HN. cbn [option_map] in HN.
  assert (HN2 : grid_direct_loc_grid_h g (gr_row0 g) (gr_col0 g) ((gr_rowmax g - gr_row0 g) / (INR nbrow - 1)) ((gr_colmax g - gr_col0 g) / (INR nbcol - 1)) nbrow nbcol h = Some layer) by congruence.
  assert (Li : (i < nbrow)%nat) by (rewrite <- (spread_length (node_row g 0) (node_row g (gr_nbrow g - 1)) nbrow); apply nth_error_Some; congruence).
  assert (Lj : (j < nbcol)%nat) by (rewrite <- (spread_length (node_col g 0) (node_col g (gr_nbcol g - 1)) nbcol); apply nth_error_Some; congruence).
  destruct (C60_grid_h_nodes _ _ _ _ _ _ _ _ _ i j HN2 Li Lj) as (line & p & E1 & E2 & E3).
  assert (Er : r = gr_row0 g + INR i * ((gr_rowmax g - gr_row0 g) / (INR nbrow - 1))).
  { unfold spread in Hi. rewrite nth_error_map, (nth_error_nth' _ 0%nat), seq_nth in Hi by (rewrite ?seq_length; lia). cbn in Hi. rewrite rowmax_node, row0_node. congruence. }
  assert (Ec : c = gr_col0 g + INR j * ((gr_colmax g - gr_col0 g) / (INR nbcol - 1))).
  { unfold spread in Hj. rewrite nth_error_map, (nth_error_nth' _ 0%nat), seq_nth in Hj by (rewrite ?seq_length; lia). cbn in Hj. rewrite colmax_node, col0_node. congruence. }
  rewrite <- Er, <- Ec in E3. exists layer, line, p. split; [reflexivity|]. do 2 (split; [assumption|]).
  destruct (C37_direct_loc_h_interpolates g [fin r] [fin c] [fin h] [p] 0 r c h lon lat HP eq_refl eq_refl E3 eq_refl eq_refl eq_refl HG) as [P1 P2].
  cbn [nth_error] in P1, P2. split; intros HI; [specialize (P1 HI)|specialize (P2 HI)]; congruence.
Qed.

Lemma layer_ground : forall g k h mlon mlat i j, proper_grid g -> nth_error (gr_alts g) k = Some h ->
  nth_error (gr_lon g) k = Some mlon -> nth_error (gr_lat g) k = Some mlat -> (0 <= i < gr_nbrow g)%Z -> (0 <= j < gr_nbcol g)%Z ->
  grid_ground g (node_row g i) (node_col g j) h (rs_at mlon i j) (rs_at mlat i j).
Proof.
  intros g k h mlon mlat i j HP Hh Hlon Hlat Hi Hj. pose proof HP as (HL & HD & L1 & L2 & _).
  destruct (grid_ground_exists g (node_row g i) (node_col g j) h HP) as (lon & lat & [G1 G2]).
  assert (K : forall data m, length data = length (gr_alts g) -> nth_error data k = Some m -> at_layers g data h (fun m => rs_at m i j) = rs_at m i j).
  { intros data m LD Hm. assert (Lk : (k < length (gr_alts g))%nat) by (apply nth_error_Some; congruence).
    destruct (le_lt_dec (length (gr_alts g)) (S k)) as [Last|Next].
    - destruct k as [|k]; [lia|].
      destruct (nth_error (gr_alts g) k) as [a|] eqn:Ea; [|apply nth_error_None in Ea; lia].
      destruct (nth_error data k) as [m'|] eqn:Em; [|apply nth_error_None in Em; lia].
      pose proof (HD k a h Ea Hh). rewrite (at_layers_nearest g data h _ k a h m' m HD HL); auto.
      + replace ((h - h) / (a - h)) with 0 by (field; lra). unfold lerp. ring.
      + split; [exact Ea|]. split; [exact Hh|]. split; [left; lra|left; lra].
    - destruct (nth_error (gr_alts g) (S k)) as [b|] eqn:Eb; [|apply nth_error_None in Eb; lia].
      destruct (nth_error data (S k)) as [m'|] eqn:Em; [|apply nth_error_None in Em; lia].
      pose proof (HD k h b Hh Eb). rewrite (at_layers_nearest g data h _ k h b m m' HD HL); auto.
      + replace ((h - b) / (h - b)) with 1 by (field; lra). unfold lerp. ring.
      + split; [exact Hh|]. split; [exact Eb|]. split; [left; lra|left; lra]. }
  pose proof (node_value _ _ _ _ _ _ HP (proper_lon g HP) Hi Hj G1) as V1. pose proof (node_value _ _ _ _ _ _ HP (proper_lat g HP) Hi Hj G2) as V2.
  unfold at_node in V1, V2. rewrite (K _ mlon L1 Hlon) in V1. rewrite (K _ mlat L2 Hlat) in V2. subst lon lat. split; assumption.
Qed.
(** A resampling of at least two rows and two columns is never refused. *)
Theorem C74_answers :
  forall g nbrow nbcol nbalt, proper_grid g -> (2 <= nbrow)%nat -> (2 <= nbcol)%nat ->
  exists out, interpolate_grid_in_altitude g nbrow nbcol nbalt = Some out.
Proof.
  intros g nbrow nbcol nbalt HP H1 H2. pose proof HP as (_ & _ & _ & _ & _ & HR & HC & SR & SC).
  assert (K : forall s n m, s <> 0 -> (2 <= n)%Z -> (2 <= m)%nat -> forall x, (x + s * (IZR n - 1) - x) / (INR m - 1) <> 0).
  { clear. intros s n m Hs Hn Hm x. apply le_INR in Hm. cbn in Hm. apply IZR_le in Hn. unfold Rdiv.
    apply Rmult_integral_contrapositive_currified; [|apply Rinv_neq_0_compat; lra].
    replace (x + s * (IZR n - 1) - x) with (s * (IZR n - 1)) by ring. apply Rmult_integral_contrapositive_currified; [assumption|lra]. }
  unfold interpolate_grid_in_altitude. cbv zeta.
  generalize (match nbalt with Some (S n) => linspace (hd 0 (gr_alts g)) (last (gr_alts g) 0) (S n) | _ => gr_alts g end). intros l.
  induction l as [|a l [out IH]]; [exists []; reflexivity|]. cbn [map seq_opt].
  destruct (grid_h_defined g (gr_row0 g) (gr_col0 g) ((gr_rowmax g - gr_row0 g) / (INR nbrow - 1)) ((gr_colmax g - gr_col0 g) / (INR nbcol - 1)) nbrow nbcol a) as [o ->];
    [unfold gr_rowmax; apply K; auto|unfold gr_colmax; apply K; auto|]. rewrite IH. eexists. reflexivity.
Qed.
(** Resampling a grid with its own size, at its own altitudes, changes nothing: every node is the node of
    the file (or NaN when the file has a position out of range). *)
Theorem C74_same_size :
  forall g out k h mlon mlat i j, proper_grid g ->
  interpolate_grid_in_altitude g (Z.to_nat (gr_nbrow g)) (Z.to_nat (gr_nbcol g)) None = Some out ->
  nth_error (gr_alts g) k = Some h -> nth_error (gr_lon g) k = Some mlon -> nth_error (gr_lat g) k = Some mlat ->
  (i < Z.to_nat (gr_nbrow g))%nat -> (j < Z.to_nat (gr_nbcol g))%nat ->
  let lon := rs_at mlon (Z.of_nat i) (Z.of_nat j) in let lat := rs_at mlat (Z.of_nat i) (Z.of_nat j) in
  exists layer line p, nth_error out k = Some layer /\ nth_error layer i = Some line /\ nth_error line j = Some p /\
    (in_range g lon lat -> p = R3 (fin lon) (fin lat) (fin h)) /\ (~ in_range g lon lat -> p = nan3).
Proof.
  intros g out k h mlon mlat i j HP H Hh Hlon Hlat Hi Hj lon lat. pose proof HP as (_ & _ & _ & _ & _ & HR & HC & SR & SC).
  destruct (C74_nodes g (Z.to_nat (gr_nbrow g)) (Z.to_nat (gr_nbcol g)) None out HP ltac:(lia) ltac:(lia) H) as [_ HN]. cbn [resampled_altitudes] in HN.
  assert (P : forall f s n i, (2 <= n)%Z -> (i < Z.to_nat n)%nat -> (forall z, f z = f 0%Z + IZR z * s) ->
     nth_error (spread (f 0%Z) (f (n - 1)%Z) (Z.to_nat n)) i = Some (f (Z.of_nat i))).
  { clear. intros f s n i Hn Hi Hf. unfold spread. rewrite nth_error_map, (nth_error_nth' _ 0%nat), seq_nth by (rewrite ?seq_length; lia). cbn [option_map Nat.add].
    f_equal. rewrite (Hf (n - 1)%Z), (Hf (Z.of_nat i)). rewrite minus_IZR. rewrite !INR_IZR_INZ, Z2Nat.id by lia. apply IZR_le in Hn. field. lra. }
  apply (HN k i j h (node_row g (Z.of_nat i)) (node_col g (Z.of_nat j))); auto.
  - apply (P (node_row g) (gr_steprow g)); auto. intros z. unfold node_row. ring.
  - apply (P (node_col g) (gr_stepcol g)); auto. intros z. unfold node_col. ring.
  - eapply layer_ground; eauto; lia.
Qed.

(** ** Cases *)
(** The pixel (1/2, 1/2) of the vertical grid sees the flat DTM (altitude 50) at (1/2, 1/2): this is the
    pixel (1/2, 0) of the tilted grid. *)
Example C73_case : exists pd, estimate_inverse_loc_predictor tilt_inv tilt_grid 3 3 = Some pd /\
  forall fuel, grid_coloc (fun _ _ l => l) fuel vertical_grid tilt_grid (Some pd) flat_dtm (1 / 2) (1 / 2) 1 1 1 1
  = Some [[(fin (1 / 2), fin 0, fin 50)]].
Proof.
  destruct tilt_estimate as [pd E]. exists pd. split; [exact E|]. intros fuel.
  unfold grid_coloc. cbn [seq map seq_opt]. unfold grid_coloc_node.
  replace (1 / 2 + 1 * INR 0) with (1 / 2) by (cbn; ring).
  destruct C59_surface_point_ex as (_ & _ & _ & _ & _ & H). specialize (H fuel).
  destruct (C59_batch_is_pointwise (fun _ _ l => l) fuel vertical_grid [fin (1 / 2); nan] [fin (1 / 2); fin 7] flat_dtm 4326 _ 0 (fin (1 / 2)) (fin (1 / 2)) vertical_proper flat_big eq_refl eq_refl (fun _ => eq_refl) eq_refl H eq_refl eq_refl) as (p & E1 & E2 & _).
  cbn in E1. injection E1 as <-. rewrite E2. cbn [lon3 lat3 alt3].
  assert (G : forall r c a lon lat, lon = c + (100 - a) / 100 -> lat = r -> grid_ground tilt_grid r c a lon lat) by (intros r c a lon lat -> ->; apply tilt_ground).
  rewrite (C72_affine_inverse_loc tilt_inv tilt_grid 3 3 pd 15 (1 / 2) 0 50 (1 / 2) (1 / 2) (1 / 2) (1 / 2) (1 / 2) (- (1 / 2)) (1 / 2) (1 / 2));
    try exact E; try exact tilt_affine_lon; try exact tilt_affine_lat; try exact tilt_injective; try exact tilt_inverts; try exact tilt_proper; try lia; try (apply Rabs_le; lra); try reflexivity;
    try (intros _; split; apply Rabs_le; lra); apply G; cbn [gr_alts tilt_grid hd last]; unfold lerp; lra.
Qed.
Example C74_nodes_ex : proper_grid ex_grid /\ exists out, interpolate_grid_in_altitude ex_grid 5 4 (Some 3%nat) = Some out.
Proof. split; [exact ex_proper|]. apply C74_answers; [exact ex_proper|cbn; lia|cbn; lia]. Qed.
Example C74_same_size_ex : proper_grid ex_grid /\ exists out, interpolate_grid_in_altitude ex_grid (Z.to_nat (gr_nbrow ex_grid)) (Z.to_nat (gr_nbcol ex_grid)) None = Some out.
Proof. split; [exact ex_proper|]. apply C74_answers; [exact ex_proper|cbn; lia|cbn; lia]. Qed.
