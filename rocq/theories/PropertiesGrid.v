(** C37, C38: the localization functions of the multi-layer grids. *)
From Coq Require Import Reals ZArith List Bool Lra Lia.
From Verif Require Import Num NumLemmas InterpModel InterpSpec InterpProofs ProjModel ProjSpec PropertiesProj RpcModel DtmModel RpcDtmModel
  GridModel GridSpec GridProofs GridNewton.
Import ListNotations.
Open Scope R_scope.

(** ** A grid for the examples: 3 layers, 3 rows, 4 columns, in longitude, latitude. *)
Definition ex_lon (k : nat) : raster := mkRaster 3 4 (fun i j => 1 / 10 * IZR j + 1 / 100 * INR k).
Definition ex_lat (k : nat) : raster := mkRaster 3 4 (fun i j => 45 - 1 / 10 * IZR i + 1 / 50 * IZR j).
Definition ex_grid : grid := mkGrid 0 0 100 50 3 4 [200; 100; 0] (map ex_lon [0; 1; 2]%nat) (map ex_lat [0; 1; 2]%nat) (Some 4326%Z).
Lemma ex_decreasing : decreasing [200; 100; 0].
Proof. intros [|[|[|i]]] a b Ha Hb; cbn in *; try discriminate; try (destruct i; discriminate); injection Ha as <-; injection Hb as <-; lra. Qed.
Lemma ex_proper : proper_grid ex_grid.
Proof.
  unfold proper_grid, ex_grid. cbn [gr_alts gr_lon gr_lat gr_nbrow gr_nbcol gr_steprow gr_stepcol map length].
  split; [lia|]. split; [exact ex_decreasing|]. split; [reflexivity|]. split; [reflexivity|]. split.
  - intros m [H|H]; cbn in H; decompose [or] H; subst; try contradiction; split; reflexivity.
  - repeat split; try lia; lra.
Qed.
Lemma ex_ground : grid_ground ex_grid 50 75 150 (3 / 20 + 1 / 200) (45 - 1 / 20 + 3 / 100).
Proof.
  assert (E1 : (50 - gr_row0 ex_grid) / gr_steprow ex_grid = 1 / 2) by (cbn; field).
  assert (E2 : (75 - gr_col0 ex_grid) / gr_stepcol ex_grid = 3 / 2) by (cbn; field).
  split; exists 0%nat, 200, 100.
  - exists (ex_lon 0), (ex_lon 1), 0%Z, 1%Z. rewrite E1, E2. repeat split; try reflexivity; try (cbn; lia); try (left; cbn; lra).
    unfold bilinear_in_cell, lerp. cbn. field.
  - exists (ex_lat 0), (ex_lat 1), 0%Z, 1%Z. rewrite E1, E2. repeat split; try reflexivity; try (cbn; lia); try (left; cbn; lra).
    unfold bilinear_in_cell, lerp. cbn. field.
Qed.

(** ** C37 *)
(** The lookup gives two consecutive layers that enclose the altitude when it is within the range of the
    grid, the first two above this range and the last two below. *)
Theorem C37_lookup_encloses :
  forall alts alt, (2 <= length alts)%nat -> decreasing alts ->
  exists k a b, return_grid_index alts alt = (Z.of_nat k, Z.of_nat k + 1)%Z /\
    nth_error alts k = Some a /\ nth_error alts (S k) = Some b /\
    (last alts 0 <= alt <= hd 0 alts -> b <= alt <= a) /\
    (hd 0 alts < alt -> k = 0%nat) /\ (alt < last alts 0 -> S (S k) = length alts).
Proof.
  intros alts alt HL HD. destruct (top_layer_nearest alts alt HL HD) as (a & b & HN & L).
  exists (top_layer alts alt), a, b. rewrite return_grid_index_top by assumption. pose proof HN as (N1 & N2 & N3 & N4).
  split; [f_equal; lia|]. split; [exact N1|]. split; [exact N2|].
  assert (Hk : (S (top_layer alts alt) < length alts)%nat) by (apply nth_error_Some; congruence).
  split; [|split].
  - intros [H1 H2]. split.
    + destruct N4 as [N4|N4]; [exact N4|]. rewrite last_nth in H1. replace (length alts - 1)%nat with (S (top_layer alts alt)) in H1 by lia.
      rewrite (nth_of_error _ _ _ N2) in H1. exact H1.
    + destruct N3 as [N3|N3]; [exact N3|]. destruct alts as [|x l]; [cbn in HL; lia|]. cbn in H2. rewrite N3 in N1. cbn in N1. congruence.
  - intros H. unfold top_layer. assert (above_count alts alt = 0%nat); [|lia]. destruct alts as [|x l]; [reflexivity|]. cbn in H.
    unfold above_count. cbn. rewrite (proj2 (Rleb_false alt x)) by lra. reflexivity.
  - intros H. destruct N4 as [N4|N4]; [|exact N4]. exfalso. rewrite last_nth in H.
    destruct (nth_error alts (length alts - 1)) as [z|] eqn:Ez; [|apply nth_error_None in Ez; lia]. rewrite (nth_of_error _ _ _ Ez) in H.
    destruct (Nat.eq_dec (S (top_layer alts alt)) (length alts - 1)) as [E|E].
    + rewrite E in N2. rewrite N2 in Ez. injection Ez as ->. lra.
    + assert (above_count alts alt = length alts) as EA.
      { destruct (le_lt_dec (length alts) (above_count alts alt)) as [G|G]; [pose proof (above_count_le alts alt); lia|].
        assert (LQ : (above_count alts alt <= length alts - 1)%nat) by lia.
        pose proof (above_count_lt alts alt _ z HD LQ Ez). lra. }
      unfold top_layer in E. rewrite EA in E. lia.
Qed.
Example C37_lookup_encloses_ex : (2 <= length [200; 100; 0])%nat /\ decreasing [200; 100; 0] /\ last [200; 100; 0] 0 <= 50 <= hd 0 [200; 100; 0].
Proof. split; [cbn; lia|]. split; [exact ex_decreasing|cbn; lra]. Qed.

(** A single layer cannot enclose anything: the lookup of its own altitude gives the layers -1 and 0. *)
Theorem C37_single_layer_refuted :
  forall a, return_grid_index [a] a = (-1, 0)%Z.
Proof.
  intros a. unfold return_grid_index. cbn [hd last length count_while]. rewrite (proj2 (Rltb_false a a)) by lra.
  rewrite (proj2 (Rleb_true a a)) by lra. reflexivity.
Qed.
Example C37_single_layer_ex : decreasing [150].
Proof. intros [|i] a b Ha Hb; cbn in *; try discriminate. Qed.

(** The direct localization of every finite pixel of a batch, at a finite altitude: the position is the
    interpolation of the two layers around the altitude (the nearest ones outside of the range), kept
    when it is in range, NaN otherwise; the other pixels have no effect. *)
Theorem C37_direct_loc_h_interpolates :
  forall g row col alt out n r c h lon lat, proper_grid g -> length row = length col -> length alt = length col ->
  grid_direct_loc_h g row col alt = Some out ->
  nth_error row n = Some (fin r) -> nth_error col n = Some (fin c) -> nth_error alt n = Some (fin h) ->
  grid_ground g r c h lon lat ->
  (in_range g lon lat -> nth_error out n = Some (R3 (fin lon) (fin lat) (fin h))) /\
  (~ in_range g lon lat -> nth_error out n = Some nan3).
Proof.
  intros g row col alt out n r c h lon lat HP L1 L2 H Hr Hc Hh HG. unfold grid_direct_loc_h, fill_alt in H.
  rewrite L1, L2, !Nat.eqb_refl in H. cbn [negb] in H. injection H as <-. rewrite check_geographic_map, nth_error_map.
  assert (E : nth_error (map3 (grid_position g) row col alt) n = Some (grid_position g (fin r) (fin c) (fin h))).
  { clear - Hr Hc Hh. revert row col alt Hr Hc Hh. induction n as [|n IH]; intros [|a row] [|b col] [|e alt] Hr Hc Hh; try discriminate; cbn in *.
    - congruence.
    - now apply IH. }
  rewrite E. cbn [option_map]. change (grid_position g (fin r) (fin c) (fin h)) with (grid_position g (Some r) (Some c) (Some h)).
  rewrite (grid_position_ground g r c h lon lat HP HG).
  destruct (check_geographic_one g lon lat h) as [C1 C2]. split; intros HI; [rewrite (C1 HI)|rewrite (C2 HI)]; reflexivity.
Qed.
Example C37_direct_loc_h_interpolates_ex :
  proper_grid ex_grid /\ grid_ground ex_grid 50 75 150 (3 / 20 + 1 / 200) (45 - 1 / 20 + 3 / 100) /\
  in_range ex_grid (3 / 20 + 1 / 200) (45 - 1 / 20 + 3 / 100).
Proof.
  split; [exact ex_proper|]. split; [exact ex_ground|]. intros _. split; apply Rabs_le; lra.
Qed.

(** Rows and columns that do not go together are refused, not cut. *)
Theorem C37_lengths :
  forall g row col alt out, grid_direct_loc_h g row col alt = Some out -> length row = length col.
Proof.
  intros g row col alt out H. unfold grid_direct_loc_h in H. destruct (Nat.eqb_spec (length row) (length col)); [assumption|discriminate].
Qed.

(** Without a finite row, column and altitude there is no longitude and no latitude. *)
Theorem C37_not_a_number :
  forall g row col alt out n r c h, length row = length col -> length alt = length col ->
  grid_direct_loc_h g row col alt = Some out ->
  nth_error row n = Some r -> nth_error col n = Some c -> nth_error alt n = Some h ->
  r = nan \/ c = nan \/ h = nan ->
  exists p, nth_error out n = Some p /\ lon3 p = nan /\ lat3 p = nan.
Proof.
  intros g row col alt out n r c h L1 L2 H Hr Hc Hh HN. unfold grid_direct_loc_h, fill_alt in H.
  rewrite L1, L2, !Nat.eqb_refl in H. cbn [negb] in H. injection H as <-. rewrite check_geographic_map, nth_error_map.
  assert (E : nth_error (map3 (grid_position g) row col alt) n = Some (grid_position g r c h)).
  { clear - Hr Hc Hh. revert row col alt Hr Hc Hh. induction n as [|n IH]; intros [|a row] [|b col] [|e alt] Hr Hc Hh; try discriminate; cbn in *.
    - congruence.
    - now apply IH. }
  rewrite E. cbn [option_map].
  assert (E2 : grid_position g r c h = R3 nan nan h).
  { unfold grid_position, interpolator_lonlat. destruct HN as [ -> | [ -> | -> ] ]; [reflexivity|destruct r; reflexivity|destruct r, c; reflexivity]. }
  rewrite E2. unfold check_geographic, check_lonlat. destruct (gr_epsg g) as [e|]; [destruct (e =? 4326)%Z|]; cbn [map hd]; try (eexists; split; [reflexivity|split; reflexivity]).
Qed.
Example C37_not_a_number_ex : exists out, grid_direct_loc_h ex_grid [nan; fin 50] [fin 75; nan] [fin 150; fin 150] = Some out.
Proof. eexists. reflexivity. Qed.

(** Every pixel has a ground position at every altitude, and only one. *)
Theorem C37_ground_defined :
  forall g r c h, proper_grid g ->
  exists lon lat, grid_ground g r c h lon lat /\
    forall lon' lat', grid_ground g r c h lon' lat' -> lon' = lon /\ lat' = lat.
Proof.
  intros g r c h HP. destruct (grid_ground_exists g r c h HP) as (lon & lat & HG). exists lon, lat. split; [exact HG|].
  intros lon' lat' HG'. exact (grid_ground_unique g r c h lon lat lon' lat' HP HG HG').
Qed.
Example C37_ground_defined_ex : proper_grid ex_grid.
Proof. exact ex_proper. Qed.

(** At a node and at the altitude of a layer, the ground position is the one of the file. *)
Theorem C37_exact_on_the_layers :
  forall g k a mlon mlat i j, proper_grid g ->
  nth_error (gr_alts g) k = Some a -> nth_error (gr_lon g) k = Some mlon -> nth_error (gr_lat g) k = Some mlat ->
  (0 <= i < gr_nbrow g)%Z -> (0 <= j < gr_nbcol g)%Z ->
  grid_ground g (node_row g i) (node_col g j) a (rs_at mlon i j) (rs_at mlat i j).
Proof.
  intros g k a mlon mlat i j HP Ha Hlon Hlat Hi Hj.
  assert (G : forall data m, good_cube g data -> nth_error data k = Some m -> cube_value g data (node_row g i) (node_col g j) a (rs_at m i j)).
  { intros data m GC Hm. pose proof (cube_value_exists g data (node_row g i) (node_col g j) a HP GC) as CV.
    rewrite (node_value g data a i j _ HP GC Hi Hj CV) in CV. replace (rs_at m i j) with (at_node g data a i j); [exact CV|].
    pose proof HP as (HL & HD & _). pose proof GC as [GC1 _].
    assert (Hk : (k < length (gr_alts g))%nat) by (apply nth_error_Some; congruence).
    unfold at_node. destruct (le_lt_dec (length (gr_alts g)) (S k)) as [LE|LT].
    - destruct k as [|k]; [lia|]. destruct (nth_error (gr_alts g) k) as [a0|] eqn:E0; [|apply nth_error_None in E0; lia].
      destruct (nth_error data k) as [m0|] eqn:E1; [|apply nth_error_None in E1; lia].
      pose proof (HD k a0 a E0 Ha) as LA.
      rewrite (at_layers_nearest g data a _ k a0 a m0 m HD HL); auto; [|repeat split; auto; lra].
      unfold lerp. rewrite Rminus_diag_eq by reflexivity. unfold Rdiv. rewrite Rmult_0_l. ring.
    - destruct (nth_error (gr_alts g) (S k)) as [a0|] eqn:E0; [|apply nth_error_None in E0; lia].
      destruct (nth_error data (S k)) as [m0|] eqn:E1; [|apply nth_error_None in E1; lia].
      pose proof (HD k a a0 Ha E0) as LA.
      rewrite (at_layers_nearest g data a _ k a a0 m m0 HD HL); auto; [|repeat split; auto; [left|left]; lra].
      unfold lerp. replace ((a - a0) / (a - a0)) with 1 by (field; lra). ring. }
  split; apply G; auto using proper_lon, proper_lat.
Qed.
Example C37_exact_on_the_layers_ex :
  proper_grid ex_grid /\ nth_error (gr_alts ex_grid) 1 = Some 100 /\ nth_error (gr_lon ex_grid) 1 = Some (ex_lon 1) /\
  nth_error (gr_lat ex_grid) 1 = Some (ex_lat 1) /\ (0 <= 2 < gr_nbrow ex_grid)%Z /\ (0 <= 3 < gr_nbcol ex_grid)%Z.
Proof. split; [exact ex_proper|]. repeat split; cbn; lia. Qed.

(** ** C38 *)
(** The matrix of the pixel, applied to the ground displacement of one grid step in column (in row), gives
    exactly this step in column (in row). *)
Theorem C38_matrix_is_the_inverse :
  forall g row col alt M, proper_grid g -> inverse_partial_derivative g row col alt = Some (Some M) ->
  exists i j, nearest_cell (gr_nbrow g) ((row - gr_row0 g) / gr_steprow g) i /\
    nearest_cell (gr_nbcol g) ((col - gr_col0 g) / gr_stepcol g) j /\
  forall l00 b00 l01 b01 l10 b10,
    grid_ground g (node_row g i) (node_col g j) alt l00 b00 ->
    grid_ground g (node_row g i) (node_col g (j + 1)) alt l01 b01 ->
    grid_ground g (node_row g (i + 1)) (node_col g j) alt l10 b10 ->
    m00 M * microrad (l01 - l00) + m01 M * microrad (b01 - b00) = gr_stepcol g /\
    m10 M * microrad (l01 - l00) + m11 M * microrad (b01 - b00) = 0 /\
    m00 M * microrad (l10 - l00) + m01 M * microrad (b10 - b00) = 0 /\
    m10 M * microrad (l10 - l00) + m11 M * microrad (b10 - b00) = gr_steprow g.
Proof.
  intros g row col alt M HP HM. pose proof HP as (HL & HD & _ & _ & _ & HR & HC & SR & SC).
  exists (lower_index (gr_nbrow g) (grid_pos_row g row)), (lower_index (gr_nbcol g) (grid_pos_col g col)).
  split; [now apply nearest_lower|]. split; [now apply nearest_lower|].
  pose proof (lower_index_range (gr_nbrow g) (grid_pos_row g row) HR) as RI. pose proof (lower_index_range (gr_nbcol g) (grid_pos_col g col) HC) as RJ.
  rewrite inverse_partial_derivative_eq in HM by exact HP. injection HM as HM. unfold cell_matrix in HM.
  set (i := lower_index (gr_nbrow g) (grid_pos_row g row)) in *. set (j := lower_index (gr_nbcol g) (grid_pos_col g col)) in *.
  intros l00 b00 l01 b01 l10 b10 [G1 G2] [G3 G4] [G5 G6].
  apply node_value in G1; auto using proper_lon; try lia. apply node_value in G3; auto using proper_lon; try lia. apply node_value in G5; auto using proper_lon; try lia.
  apply node_value in G2; auto using proper_lat; try lia. apply node_value in G4; auto using proper_lat; try lia. apply node_value in G6; auto using proper_lat; try lia.
  rewrite <- G1, <- G2, <- G3, <- G4, <- G5, <- G6 in HM.
  match type of HM with (if Req_EM_T ?x 0 then _ else _) = _ => destruct (Req_EM_T x 0) as [D|D]; [discriminate|] end.
  injection HM as <-. cbn [m00 m01 m10 m11].
  assert (D' : microrad (l01 - l00) * microrad (b10 - b00) - microrad (l10 - l00) * microrad (b01 - b00) <> 0).
  { intros Z. apply D. transitivity ((microrad (l01 - l00) * microrad (b10 - b00) - microrad (l10 - l00) * microrad (b01 - b00)) / (gr_stepcol g * gr_steprow g)); [field; auto|].
    rewrite Z. field. auto. }
  set (p := microrad (l01 - l00)) in *. set (q := microrad (b10 - b00)) in *. set (r := microrad (l10 - l00)) in *. set (s := microrad (b01 - b00)) in *.
  repeat split; field; repeat split; auto; intros Z; apply D'; rewrite <- Z; ring.
Qed.

(** It exists unless these two displacements are parallel (NaN), and never fails otherwise. *)
Theorem C38_matrix_exists_iff_not_parallel :
  forall g row col alt, proper_grid g ->
  exists i j M, nearest_cell (gr_nbrow g) ((row - gr_row0 g) / gr_steprow g) i /\
    nearest_cell (gr_nbcol g) ((col - gr_col0 g) / gr_stepcol g) j /\
    inverse_partial_derivative g row col alt = Some M /\
  forall l00 b00 l01 b01 l10 b10,
    grid_ground g (node_row g i) (node_col g j) alt l00 b00 ->
    grid_ground g (node_row g i) (node_col g (j + 1)) alt l01 b01 ->
    grid_ground g (node_row g (i + 1)) (node_col g j) alt l10 b10 ->
    (M = None <-> (l01 - l00) * (b10 - b00) = (l10 - l00) * (b01 - b00)).
Proof.
  intros g row col alt HP. pose proof HP as (HL & HD & _ & _ & _ & HR & HC & SR & SC).
  exists (lower_index (gr_nbrow g) (grid_pos_row g row)), (lower_index (gr_nbcol g) (grid_pos_col g col)).
  rewrite inverse_partial_derivative_eq by exact HP.
  eexists. split; [now apply nearest_lower|]. split; [now apply nearest_lower|]. split; [reflexivity|].
  pose proof (lower_index_range (gr_nbrow g) (grid_pos_row g row) HR) as RI. pose proof (lower_index_range (gr_nbcol g) (grid_pos_col g col) HC) as RJ.
  unfold cell_matrix.
  set (i := lower_index (gr_nbrow g) (grid_pos_row g row)) in *. set (j := lower_index (gr_nbcol g) (grid_pos_col g col)) in *.
  intros l00 b00 l01 b01 l10 b10 [G1 G2] [G3 G4] [G5 G6].
  apply node_value in G1; auto using proper_lon; try lia. apply node_value in G3; auto using proper_lon; try lia. apply node_value in G5; auto using proper_lon; try lia.
  apply node_value in G2; auto using proper_lat; try lia. apply node_value in G4; auto using proper_lat; try lia. apply node_value in G6; auto using proper_lat; try lia.
  rewrite <- G1, <- G2, <- G3, <- G4, <- G5, <- G6.
  set (k := PI / 180 * 1000000).
  assert (K : k <> 0) by (unfold k; pose proof PI_RGT_0; nra).
  assert (MR : forall x, microrad x = k * x) by (intros; unfold microrad, k; field). rewrite !MR.
  match goal with |- context [Req_EM_T ?x 0] => assert (EX : x = k * k / (gr_stepcol g * gr_steprow g) * ((l01 - l00) * (b10 - b00) - (l10 - l00) * (b01 - b00))) by (field; auto);
    destruct (Req_EM_T x 0) as [D|D] end.
  - split; [intros _|reflexivity]. rewrite EX in D. apply Rmult_integral in D. destruct D as [D|D]; [|lra].
    exfalso. apply (Rmult_eq_compat_r (gr_stepcol g * gr_steprow g)) in D. rewrite Rmult_0_l in D. unfold Rdiv in D. rewrite Rmult_assoc, Rinv_l in D.
    + assert (k * k = 0) by lra. apply Rmult_integral in H. tauto.
    + apply Rmult_integral_contrapositive. auto.
  - split; [discriminate|]. intros E. exfalso. apply D. rewrite EX, E. ring.
Qed.
Example C38_matrix_ex : proper_grid ex_grid /\ exists M, inverse_partial_derivative ex_grid 50 75 150 = Some (Some M).
Proof.
  split; [exact ex_proper|]. destruct (C38_matrix_exists_iff_not_parallel ex_grid 50 75 150 ex_proper) as (i & j & [M|] & N1 & N2 & E & H); [exists M; exact E|].
  exfalso. destruct N1 as (I1 & _). destruct N2 as (J1 & _). cbn in I1, J1.
  assert (G : forall i j, (0 <= i < 3)%Z -> (0 <= j < 4)%Z -> grid_ground ex_grid (node_row ex_grid i) (node_col ex_grid j) 150 (1 / 10 * IZR j + 1 / 200) (45 - 1 / 10 * IZR i + 1 / 50 * IZR j)).
  { clear. intros i j Hi Hj. destruct (grid_ground_exists ex_grid (node_row ex_grid i) (node_col ex_grid j) 150 ex_proper) as (lon & lat & [G1 G2]).
    split.
    - pose proof (node_value ex_grid _ 150 i j _ ex_proper (proper_lon _ ex_proper) Hi Hj G1) as E. rewrite E in G1.
      replace (1 / 10 * IZR j + 1 / 200) with (at_node ex_grid (gr_lon ex_grid) 150 i j); [exact G1|].
      unfold at_node. rewrite (at_layers_nearest ex_grid _ 150 _ 0 200 100 (ex_lon 0) (ex_lon 1) ex_decreasing); [cbn; unfold lerp; field|cbn; lia|repeat split; left; lra|reflexivity|reflexivity].
    - pose proof (node_value ex_grid _ 150 i j _ ex_proper (proper_lat _ ex_proper) Hi Hj G2) as E. rewrite E in G2.
      replace (45 - 1 / 10 * IZR i + 1 / 50 * IZR j) with (at_node ex_grid (gr_lat ex_grid) 150 i j); [exact G2|].
      unfold at_node. rewrite (at_layers_nearest ex_grid _ 150 _ 0 200 100 (ex_lat 0) (ex_lat 1) ex_decreasing); [cbn; unfold lerp; field|cbn; lia|repeat split; left; lra|reflexivity|reflexivity]. }
  destruct (H _ _ _ _ _ _ (G i j ltac:(lia) ltac:(lia)) (G i (j + 1)%Z ltac:(lia) ltac:(lia)) (G (i + 1)%Z j ltac:(lia) ltac:(lia))) as [Z _].
  specialize (Z eq_refl). rewrite !plus_IZR in Z. lra.
Qed.

Lemma zip3_map3 : forall a b c, length b = length a -> length c = length a -> zip3 a b c = Some (map3 R3 a b c).
Proof.
  induction a as [|x a IH]; intros [|y b] [|z c] H1 H2; try discriminate; [reflexivity|]. cbn [zip3 map3]. now rewrite IH by (cbn in *; lia).
Qed.
(** So are longitudes and latitudes. *)
Theorem C38_lengths :
  forall g pd n lon lat alt out, grid_inverse_loc g pd n lon lat alt = Some out -> length lat = length lon.
Proof.
  intros g pd n lon lat alt out H. unfold grid_inverse_loc in H. destruct (fill_alt (length lon) alt) as [al|]; [|discriminate].
  destruct (zip3 lon lat al) as [rows|] eqn:E; [|discriminate]. clear H.
  revert lat al rows E. induction lon as [|x lon IH]; intros [|y lat] [|z al] rows E; try discriminate; [reflexivity|].
  cbn [zip3] in E. destruct (zip3 lon lat al) as [r|] eqn:E2; [|discriminate]. cbn [length]. f_equal. exact (IH _ _ _ E2).
Qed.
(** A batch gives to every point what it gets alone, and fails as soon as one of them fails. *)
Theorem C38_batch_is_pointwise :
  forall g pd n lon lat alt, length lat = length lon -> length alt = length lon ->
  (forall out i x y h, grid_inverse_loc g pd n lon lat alt = Some out ->
     nth_error lon i = Some x -> nth_error lat i = Some y -> nth_error alt i = Some h ->
     exists q, nth_error out i = Some q /\ grid_inverse_loc g pd n [x] [y] [h] = Some [q]) /\
  (grid_inverse_loc g pd n lon lat alt = None ->
     exists i x y h, nth_error lon i = Some x /\ nth_error lat i = Some y /\ nth_error alt i = Some h /\
       grid_inverse_loc g pd n [x] [y] [h] = None).
Proof.
  intros g pd n lon lat alt L1 L2. unfold grid_inverse_loc, fill_alt. rewrite L2, Nat.eqb_refl, (zip3_map3 lon lat alt L1 L2). cbn [length Nat.eqb negb map3 zip3].
  unfold check_lonlat.
  set (F := fun p => match grid_inverse_one g pd n p with Some (r, c) => Some (r, c, alt3 p) | None => None end).
  cbn [map].
  revert lat alt L1 L2. induction lon as [|x0 lon IH]; intros [|y0 lat] [|h0 alt] L1 L2; try discriminate; cbn [map3 map seq_opt].
  - split; [intros out i x y h _ H; destruct i; discriminate|discriminate].
  - destruct (IH lat alt ltac:(cbn in *; lia) ltac:(cbn in *; lia)) as [IH1 IH2]. cbn [seq_opt] in *.
    set (T := seq_opt (map F (map (fun p => if lonlat_filtering p then nan3 else p) (map3 R3 lon lat alt)))) in *.
    destruct (F (if lonlat_filtering (R3 x0 y0 h0) then nan3 else R3 x0 y0 h0)) as [q0|] eqn:E0.
    + destruct T as [out'|].
      * split; [|discriminate]. intros out [|i] x y h H Hx Hy Hh; injection H as <-; cbn [nth_error] in *.
        -- injection Hx as <-. injection Hy as <-. injection Hh as <-. exists q0. rewrite E0. auto.
        -- exact (IH1 out' i x y h eq_refl Hx Hy Hh).
      * split; [discriminate|]. intros _. destruct (IH2 eq_refl) as (i & x & y & h & A & B & C & D). exists (S i), x, y, h. auto.
    + split; [discriminate|]. intros _. exists 0%nat, x0, y0, h0. cbn [nth_error]. rewrite E0. auto.
Qed.
Example C38_batch_is_pointwise_ex : length [fin 1; fin 2] = length [fin 3; nan] /\ length [nan; fin 2] = length [fin 3; nan].
Proof. split; reflexivity. Qed.

Lemma newton_affine : forall g lon lat alt row col, proper_grid g -> affine_layers (gr_lon g) -> affine_layers (gr_lat g) ->
  grid_ground g row col alt lon lat -> in_range g lon lat ->
  (forall r c, exists M, inverse_partial_derivative g r c alt = Some (Some M)) ->
  forall n e, grid_newton g lon lat alt n (Some row) (Some col) (Some e) = Some (Some row, Some col).
Proof.
  intros g lon lat alt row col HP A1 A2 HG HI HM. induction n as [|n IH]; intros e; [reflexivity|].
  destruct (Rlt_dec tol_m2 e) as [L|L].
  - destruct (HM row col) as [M EM]. rewrite (newton_step g lon lat alt n row col e lon lat M HP L HG HI EM).
    destruct (affine_correction g lon lat alt row col row col lon lat M HP A1 A2 HG HG EM) as [-> ->]. apply IH.
  - cbn [grid_newton]. unfold ngtb, fin. rewrite (proj2 (Rltb_false tol_m2 e)) by lra. reflexivity.
Qed.
Lemma affine_injective_matrix : forall g alt, proper_grid g -> affine_layers (gr_lon g) -> affine_layers (gr_lat g) ->
  (forall r c r' c' lon lat, grid_ground g r c alt lon lat -> grid_ground g r' c' alt lon lat -> r' = r /\ c' = c) ->
  forall r c, exists M, inverse_partial_derivative g r c alt = Some (Some M).
Proof.
  intros g alt HP A1 A2 HInj r c. rewrite inverse_partial_derivative_eq by exact HP. pose proof HP as (HL & HD & _ & _ & _ & HR & HC & SR & SC).
  destruct (affine_at_layers g _ alt HP (proper_lon g HP) A1) as (A & B & C & E1 & N1).
  destruct (affine_at_layers g _ alt HP (proper_lat g HP) A2) as (A' & B' & C' & E2 & N2).
  pose proof (lower_index_range (gr_nbrow g) (grid_pos_row g r) HR) as RI. pose proof (lower_index_range (gr_nbcol g) (grid_pos_col g c) HC) as RJ.
  unfold cell_matrix. rewrite !N1, !N2 by lia. rewrite !plus_IZR.
  match goal with |- context [Req_EM_T ?x 0] => destruct (Req_EM_T x 0) as [D|D]; [exfalso|eexists; reflexivity] end.
  set (k := PI / 180 * 1000000) in *. assert (K : k <> 0) by (unfold k; pose proof PI_RGT_0; nra).
  assert (MR : forall x, microrad x = k * x) by (intros; unfold microrad, k; field). rewrite !MR in D.
  assert (D' : C * B' - B * C' = 0).
  { match type of D with ?x = 0 => assert (EX : x = k * k / (gr_stepcol g * gr_steprow g) * (C * B' - B * C')) by (field; auto) end.
    rewrite EX in D. apply Rmult_integral in D. destruct D as [D|D]; [|exact D]. exfalso.
    apply (Rmult_eq_compat_r (gr_stepcol g * gr_steprow g)) in D. rewrite Rmult_0_l in D. unfold Rdiv in D. rewrite Rmult_assoc, Rinv_l in D.
    + assert (KK : k * k = 0) by lra. apply Rmult_integral in KK. tauto.
    + apply Rmult_integral_contrapositive. auto. }
  assert (GND : forall x y, B * x + C * y = 0 -> B' * x + C' * y = 0 -> x = 0 /\ y = 0).
  { intros x y Z1 Z2.
    destruct (grid_ground_exists g (gr_row0 g) (gr_col0 g) alt HP) as (lon & lat & G).
    destruct (grid_ground_exists g (gr_row0 g + x * gr_steprow g) (gr_col0 g + y * gr_stepcol g) alt HP) as (lon' & lat' & G').
    assert (lon' = lon /\ lat' = lat) as [-> ->].
    { destruct G as [G1 G2]. destruct G' as [G1' G2'].
      rewrite (cube_value_layers g _ _ _ _ _ HP (proper_lon g HP) G1), (cube_value_layers g _ _ _ _ _ HP (proper_lat g HP) G2),
        (cube_value_layers g _ _ _ _ _ HP (proper_lon g HP) G1'), (cube_value_layers g _ _ _ _ _ HP (proper_lat g HP) G2'), !E1, !E2.
      unfold grid_pos_row, grid_pos_col.
      replace ((gr_row0 g + x * gr_steprow g - gr_row0 g) / gr_steprow g) with x by (field; auto).
      replace ((gr_col0 g + y * gr_stepcol g - gr_col0 g) / gr_stepcol g) with y by (field; auto).
      replace ((gr_row0 g - gr_row0 g) / gr_steprow g) with 0 by (field; auto).
      replace ((gr_col0 g - gr_col0 g) / gr_stepcol g) with 0 by (field; auto). split; lra. }
    destruct (HInj _ _ _ _ _ _ G G') as [Q1 Q2]. split.
    - apply (Rmult_eq_reg_r (gr_steprow g)); auto. lra.
    - apply (Rmult_eq_reg_r (gr_stepcol g)); auto. lra. }
  destruct (GND C (- B)) as [Q1 Q2]; [ring|lra|]. destruct (GND C' (- B')) as [Q3 Q4]; [lra|ring|].
  assert (B = 0) by lra. assert (B' = 0) by lra. subst. destruct (GND 1 0); lra.
Qed.

(** When every layer is affine, the inverse localization gives back exactly the pixel, whatever the
    number of iterations (at least one) and the first guess, provided the guess is a pixel whose ground
    position is in range. *)
Theorem C38_affine_grid_exact :
  forall g pd n row col alt lon lat r0 c0 lon0 lat0, proper_grid g -> (1 <= n)%nat ->
  affine_layers (gr_lon g) -> affine_layers (gr_lat g) ->
  (forall r c r' c' lon lat, grid_ground g r c alt lon lat -> grid_ground g r' c' alt lon lat -> r' = r /\ c' = c) ->
  grid_ground g row col alt lon lat -> Rabs lon <= 180 -> Rabs lat <= 90 ->
  inverse_loc_predictor g pd lon lat alt = (fin r0, fin c0) ->
  grid_ground g r0 c0 alt lon0 lat0 -> in_range g lon0 lat0 ->
  grid_inverse_loc g (Some pd) n [fin lon] [fin lat] [fin alt] = Some [(fin row, fin col, fin alt)].
Proof.
  intros g pd n row col alt lon lat r0 c0 lon0 lat0 HP Hn A1 A2 HInj HG Hlon Hlat HPd HG0 HI0.
  pose proof (affine_injective_matrix g alt HP A1 A2 HInj) as HM.
  unfold grid_inverse_loc, fill_alt. cbn [length Nat.eqb negb map3 zip3]. unfold check_lonlat. cbn [map].
  assert (F : lonlat_filtering (R3 (fin lon) (fin lat) (fin alt)) = false) by (apply valid_lonlat_in; auto). rewrite F.
  unfold grid_inverse_one. cbn [lon3 lat3 alt3]. unfold fin at 1 2 3. rewrite HPd. destruct n as [|n]; [lia|].
  destruct (HM r0 c0) as [M EM].
  assert (T : tol_m2 < 10) by (unfold tol_m2; lra).
  change (grid_newton g lon lat alt (S n) (fin r0) (fin c0) (fin 10)) with (grid_newton g lon lat alt (S n) (Some r0) (Some c0) (Some 10)).
  rewrite (newton_step g lon lat alt n r0 c0 10 lon0 lat0 M HP T HG0 HI0 EM).
  destruct (affine_correction g lon lat alt row col r0 c0 lon0 lat0 M HP A1 A2 HG HG0 EM) as [-> ->].
  rewrite (newton_affine g lon lat alt row col HP A1 A2 HG); auto. unfold in_range. auto.
Qed.
Lemma ex_affine_lon : affine_layers (gr_lon ex_grid).
Proof.
  intros m H. cbn in H. decompose [or] H; try contradiction; subst m; [exists 0|exists (1 / 100)|exists (2 / 100)]; exists 0, (1 / 10); intros i j _; cbn; field.
Qed.
Lemma ex_affine_lat : affine_layers (gr_lat ex_grid).
Proof.
  intros m H. cbn in H. decompose [or] H; try contradiction; subst m; exists 45, (- (1 / 10)), (1 / 50); intros i j _; cbn; field.
Qed.
Definition ex_pred : predictor := Pred [0; 0; 0; 0; 0; 0] [0; 0; 0; 0; 0; 0] [0; 0; 0; 0; 0; 0] [0; 0; 0; 0; 0; 0] (0, 1) (45, 1) (50, 1) (75, 1).
Lemma ex_ground_at : forall r c, grid_ground ex_grid r c 150 (1 / 500 * c + 1 / 200) (45 - 1 / 1000 * r + 1 / 2500 * c).
Proof.
  intros r c. destruct (grid_ground_exists ex_grid r c 150 ex_proper) as (lon & lat & [G1 G2]). split.
  - pose proof (cube_value_layers _ _ _ _ _ _ ex_proper (proper_lon _ ex_proper) G1) as E. rewrite E in G1.
    rewrite (at_layers_nearest ex_grid _ 150 _ 0 200 100 (ex_lon 0) (ex_lon 1) ex_decreasing) in G1; [|cbn; lia|repeat split; left; lra|reflexivity|reflexivity].
    replace (1 / 500 * c + 1 / 200) with (lerp (interp (ex_lon 1) (grid_pos_row ex_grid r) (grid_pos_col ex_grid c)) (interp (ex_lon 0) (grid_pos_row ex_grid r) (grid_pos_col ex_grid c)) ((150 - 100) / (200 - 100))); [exact G1|].
    rewrite (interp_affine (ex_lon 1) (1 / 100) 0 (1 / 10)), (interp_affine (ex_lon 0) 0 0 (1 / 10)); try (split; cbn; lia); try (intros i j _; cbn; field).
    unfold grid_pos_row, grid_pos_col, lerp. cbn. field.
  - pose proof (cube_value_layers _ _ _ _ _ _ ex_proper (proper_lat _ ex_proper) G2) as E. rewrite E in G2.
    rewrite (at_layers_nearest ex_grid _ 150 _ 0 200 100 (ex_lat 0) (ex_lat 1) ex_decreasing) in G2; [|cbn; lia|repeat split; left; lra|reflexivity|reflexivity].
    replace (45 - 1 / 1000 * r + 1 / 2500 * c) with (lerp (interp (ex_lat 1) (grid_pos_row ex_grid r) (grid_pos_col ex_grid c)) (interp (ex_lat 0) (grid_pos_row ex_grid r) (grid_pos_col ex_grid c)) ((150 - 100) / (200 - 100))); [exact G2|].
    rewrite (interp_affine (ex_lat 1) 45 (- (1 / 10)) (1 / 50)), (interp_affine (ex_lat 0) 45 (- (1 / 10)) (1 / 50)); try (split; cbn; lia); try (intros i j _; cbn; field).
    unfold grid_pos_row, grid_pos_col, lerp. cbn. field.
Qed.
Example C38_affine_grid_exact_ex :
  proper_grid ex_grid /\ affine_layers (gr_lon ex_grid) /\ affine_layers (gr_lat ex_grid) /\
  (forall r c r' c' lon lat, grid_ground ex_grid r c 150 lon lat -> grid_ground ex_grid r' c' 150 lon lat -> r' = r /\ c' = c) /\
  grid_ground ex_grid 120 30 150 (1 / 500 * 30 + 1 / 200) (45 - 1 / 1000 * 120 + 1 / 2500 * 30) /\
  inverse_loc_predictor ex_grid ex_pred (1 / 500 * 30 + 1 / 200) (45 - 1 / 1000 * 120 + 1 / 2500 * 30) 150 = (fin 50, fin 75) /\
  grid_ground ex_grid 50 75 150 (1 / 500 * 75 + 1 / 200) (45 - 1 / 1000 * 50 + 1 / 2500 * 75) /\
  in_range ex_grid (1 / 500 * 75 + 1 / 200) (45 - 1 / 1000 * 50 + 1 / 2500 * 75).
Proof.
  split; [exact ex_proper|]. split; [exact ex_affine_lon|]. split; [exact ex_affine_lat|]. split.
  { intros r c r' c' lon lat G G'. destruct (grid_ground_unique _ _ _ _ _ _ _ _ ex_proper (ex_ground_at r c) G).
    destruct (grid_ground_unique _ _ _ _ _ _ _ _ ex_proper (ex_ground_at r' c') G'). split; lra. }
  split; [apply ex_ground_at|]. split.
  - unfold inverse_loc_predictor. cbn [ex_pred pd_lon pd_lat pd_row pd_col pd_col_min pd_row_min pd_col_max pd_row_max fst snd ex_grid gr_alts last hd].
    unfold ndiv, fin. destruct (Req_EM_T 1 0) as [Z|Z]; [lra|]. destruct (Req_EM_T (200 - 0) 0) as [Z'|Z']; [lra|].
    unfold dot. cbn [map2 fold_right]. f_equal; f_equal; field.
  - split; [apply ex_ground_at|]. intros _. split; apply Rabs_le; lra.
Qed.

(** The loop, for any grid: a finite result is reached from the first guess by k corrections, at most the
    number of iterations; every pixel before the last but one has an error above the tolerance (1e-6
    square metre); and when k is less than the number of iterations, the last corrected pixel (the one
    before the result) has an error within the tolerance. *)
Lemma correction_spec : forall g lon lat alt r c r' c', proper_grid g -> correction g lon lat alt r c r' c' -> newton_correction g lon lat alt (r, c) (r', c').
Proof.
  intros g lon lat alt r c r' c' HP (lon' & lat' & M & HG & HI & HM & Ec & Er). pose proof HP as (HL & HD & _ & _ & _ & HR & HC & SR & SC).
  set (i := lower_index (gr_nbrow g) (grid_pos_row g r)). set (j := lower_index (gr_nbcol g) (grid_pos_col g c)).
  pose proof (lower_index_range (gr_nbrow g) (grid_pos_row g r) HR) as RI. pose proof (lower_index_range (gr_nbcol g) (grid_pos_col g c) HC) as RJ.
  fold i in RI. fold j in RJ.
  destruct (grid_ground_exists g (node_row g i) (node_col g j) alt HP) as (l00 & b00 & G00).
  destruct (grid_ground_exists g (node_row g i) (node_col g (j + 1)) alt HP) as (l01 & b01 & G01).
  destruct (grid_ground_exists g (node_row g (i + 1)) (node_col g j) alt HP) as (l10 & b10 & G10).
  exists i, j, lon', lat', l00, b00, l01, b01, l10, b10. cbn [fst snd].
  split; [now apply nearest_lower|]. split; [now apply nearest_lower|]. do 5 (split; [assumption|]).
  rewrite inverse_partial_derivative_eq in HM by exact HP. injection HM as HM. unfold cell_matrix in HM. fold i j in HM.
  destruct G00 as [G1 G2]. destruct G01 as [G3 G4]. destruct G10 as [G5 G6].
  apply node_value in G1; auto using proper_lon; try lia. apply node_value in G3; auto using proper_lon; try lia. apply node_value in G5; auto using proper_lon; try lia.
  apply node_value in G2; auto using proper_lat; try lia. apply node_value in G4; auto using proper_lat; try lia. apply node_value in G6; auto using proper_lat; try lia.
  rewrite <- G1, <- G2, <- G3, <- G4, <- G5, <- G6 in HM.
  match type of HM with (if Req_EM_T ?x 0 then _ else _) = _ => destruct (Req_EM_T x 0) as [D|D]; [discriminate|] end.
  injection HM as <-. cbn [m00 m01 m10 m11] in Ec, Er.
  set (k := PI / 180 * 1000000) in *. assert (MR : forall x, microrad x = k * x) by (intros; unfold microrad, k; field). rewrite !MR in *.
  assert (D' : k * (k * ((l01 - l00) * (b10 - b00) - (l10 - l00) * (b01 - b00))) <> 0).
  { intros Z. apply D. transitivity (k * (k * ((l01 - l00) * (b10 - b00) - (l10 - l00) * (b01 - b00))) / (gr_stepcol g * gr_steprow g)); [field; auto|]. rewrite Z. field. auto. }
  assert (K : k <> 0) by (intros Z; apply D'; rewrite Z; ring).
  assert (D2 : (l01 - l00) * (b10 - b00) - (l10 - l00) * (b01 - b00) <> 0) by (intros Z; apply D'; rewrite Z; ring).
  rewrite Ec, Er. split; field; repeat split; auto; intros Z; apply D'; rewrite <- Z; ring.
Qed.

Lemma newton_loop : forall g lon lat alt, proper_grid g -> forall n r c e row col, tol_m2 < e ->
  grid_newton g lon lat alt (S n) (Some r) (Some c) (Some e) = Some (Some row, Some col) ->
  exists k path, (k <= n)%nat /\ path 0%nat = (r, c) /\ path (S k) = (row, col) /\
    (forall m, (m <= k)%nat -> newton_correction g lon lat alt (path m) (path (S m))) /\
    (forall m v, (m < k)%nat -> pixel_error g lon lat alt (path m) v -> tol_m2 < v) /\
    ((k < n)%nat -> forall v, pixel_error g lon lat alt (path k) v -> v <= tol_m2).
Proof.
  intros g lon lat alt HP. induction n as [|n IH]; intros r c e row col He H.
  - destruct (grid_ground_exists g r c alt HP) as (lon' & lat' & HG).
    destruct (inverse_partial_derivative g r c alt) as [[M|]|] eqn:EM.
    + destruct (in_range_dec g lon' lat') as [HI|HI].
      * rewrite (newton_step g lon lat alt 0 r c e lon' lat' M HP He HG HI EM) in H. cbn [grid_newton] in H. injection H as Er Ec.
        exists 0%nat, (fun m => match m with O => (r, c) | _ => (row, col) end). split; [lia|]. split; [reflexivity|]. split; [reflexivity|]. split; [|split; intros; lia].
        intros m Hm. replace m with 0%nat by lia. apply correction_spec; [exact HP|]. exists lon', lat', M. do 3 (split; [assumption|]). split; [first [reflexivity | symmetry; assumption]|first [reflexivity | symmetry; assumption]].
      * exfalso. cbn [grid_newton] in H. unfold ngtb, fin in H. rewrite (proj2 (Rltb_true tol_m2 e) He) in H.
        rewrite EM in H. unfold grid_direct_loc_h, fill_alt in H. cbn [length Nat.eqb negb map3 zip3] in H.
        rewrite (grid_position_ground g r c alt lon' lat' HP HG) in H. rewrite (proj2 (check_geographic_one g lon' lat' alt) HI) in H. cbn in H. discriminate.
    + exfalso. cbn [grid_newton] in H. unfold ngtb, fin in H. rewrite (proj2 (Rltb_true tol_m2 e) He), EM in H.
      unfold grid_direct_loc_h, fill_alt in H. cbn [length Nat.eqb negb map3 zip3] in H. destruct (check_geographic _ _); [discriminate|]. cbn in H. discriminate.
    + rewrite inverse_partial_derivative_eq in EM by exact HP. discriminate.
  - destruct (grid_ground_exists g r c alt HP) as (lon' & lat' & HG).
    destruct (inverse_partial_derivative g r c alt) as [[M|]|] eqn:EM.
    + destruct (in_range_dec g lon' lat') as [HI|HI].
      * rewrite (newton_step g lon lat alt (S n) r c e lon' lat' M HP He HG HI EM) in H.
        set (r1 := r - (m10 M * microrad (lon' - lon) + m11 M * microrad (lat' - lat))) in *.
        set (c1 := c - (m00 M * microrad (lon' - lon) + m01 M * microrad (lat' - lat))) in *.
        assert (HC1 : newton_correction g lon lat alt (r, c) (r1, c1)).
        { apply correction_spec; [exact HP|]. exists lon', lat', M. do 3 (split; [assumption|]). split; [first [reflexivity | symmetry; assumption]|first [reflexivity | symmetry; assumption]]. }
        destruct (Rlt_dec tol_m2 (square_error lon lat lon' lat')) as [L|L].
        -- destruct (IH r1 c1 _ row col L H) as (k & path & K1 & K2 & K3 & K4 & K5 & K6).
           exists (S k), (fun m => match m with O => (r, c) | S m => path m end). split; [lia|]. split; [reflexivity|]. split; [exact K3|]. split; [|split].
           ++ intros [|m] Hm; [rewrite K2; exact HC1|apply K4; lia].
           ++ intros [|m] v Hm HE; [|apply (K5 m v); [lia|exact HE]]. destruct HE as (x & y & GE & ->). cbn in GE.
              destruct (grid_ground_unique g r c alt lon' lat' x y HP HG GE) as [-> ->]. exact L.
           ++ intros Hk v HE. apply K6; [lia|exact HE].
        -- cbn [grid_newton] in H. unfold ngtb, fin in H. rewrite (proj2 (Rltb_false tol_m2 (square_error lon lat lon' lat'))) in H by lra. injection H as Er Ec.
           exists 0%nat, (fun m => match m with O => (r, c) | _ => (row, col) end). split; [lia|]. split; [reflexivity|]. split; [reflexivity|]. split; [|split].
           ++ intros m Hm. replace m with 0%nat by lia. rewrite <- Er, <- Ec. exact HC1.
           ++ intros; lia.
           ++ intros _ v HE. destruct HE as (x & y & GE & ->). cbn in GE. destruct (grid_ground_unique g r c alt lon' lat' x y HP HG GE) as [-> ->]. lra.
      * exfalso. cbn [grid_newton] in H. unfold ngtb, fin in H. rewrite (proj2 (Rltb_true tol_m2 e) He) in H.
        rewrite EM in H. unfold grid_direct_loc_h, fill_alt in H. cbn [length Nat.eqb negb map3 zip3] in H.
        rewrite (grid_position_ground g r c alt lon' lat' HP HG) in H. rewrite (proj2 (check_geographic_one g lon' lat' alt) HI) in H. cbn in H. discriminate.
    + exfalso. cbn [grid_newton] in H. unfold ngtb, fin in H. rewrite (proj2 (Rltb_true tol_m2 e) He), EM in H.
      unfold grid_direct_loc_h, fill_alt in H. cbn [length Nat.eqb negb map3 zip3] in H.
      rewrite (grid_position_ground g r c alt lon' lat' HP HG) in H. rewrite check_geographic_map in H. cbn [map] in H.
      match type of H with context [lon3 (hd nan3 ?l)] => destruct (hd nan3 l) as [[x|] [y|] z] end; cbn in H; try discriminate;
      try (match type of H with context [Rltb ?a ?b] => destruct (Rltb a b) end); discriminate.
    + rewrite inverse_partial_derivative_eq in EM by exact HP. discriminate.
Qed.
(** Without any correction nothing is returned. *)
Theorem C38_no_correction :
  forall g pd lon lat alt, grid_inverse_loc g (Some pd) 0 [lon] [lat] [alt] = Some [(nan, nan, alt3 (hd nan3 (check_lonlat [R3 lon lat alt])))].
Proof.
  intros g pd lon lat alt. unfold grid_inverse_loc, fill_alt. cbn [length Nat.eqb negb map3 zip3]. unfold check_lonlat. cbn [map hd seq_opt]. unfold grid_inverse_one.
  match goal with |- context [alt3 ?q] => destruct q as [[x|] [y|] [z|]] end; cbn [lon3 lat3 alt3]; try reflexivity.
  destruct (inverse_loc_predictor g pd x y z). reflexivity.
Qed.
Theorem C38_loop :
  forall g pd n lon lat alt row col, proper_grid g ->
  grid_inverse_loc g (Some pd) n [fin lon] [fin lat] [fin alt] = Some [(fin row, fin col, fin alt)] ->
  exists k path r0 c0, (1 <= k <= n)%nat /\ inverse_loc_predictor g pd lon lat alt = (fin r0, fin c0) /\
    path 0%nat = (r0, c0) /\ path k = (row, col) /\
    (forall m, (m < k)%nat -> newton_correction g lon lat alt (path m) (path (S m))) /\
    (forall m v, (S m < k)%nat -> pixel_error g lon lat alt (path m) v -> 1 / 1000000 < v) /\
    ((k < n)%nat -> forall v, pixel_error g lon lat alt (path (k - 1)%nat) v -> v <= 1 / 1000000).
Proof.
  intros g pd n lon lat alt row col HP H. unfold grid_inverse_loc, fill_alt in H. cbn [length Nat.eqb negb map3 zip3] in H. unfold check_lonlat in H. cbn [map] in H.
  assert (ET : tol_m2 = 1 / 1000000) by (unfold tol_m2; lra).
  destruct (lonlat_filtering _); [discriminate|].
  cbn [seq_opt] in H. unfold grid_inverse_one in H. cbn [lon3 lat3 alt3] in H. unfold fin at 1 2 3 in H.
  destruct (inverse_loc_predictor g pd lon lat alt) as [r0 c0]. destruct n as [|n]; [discriminate|].
  assert (T : tol_m2 < 10) by (unfold tol_m2; lra).
  destruct (grid_newton g lon lat alt (S n) r0 c0 (fin 10)) as [[row' col']|] eqn:EN; [|discriminate]. injection H as -> ->.
  destruct r0 as [r0|]; [destruct c0 as [c0|]|].
  - destruct (newton_loop g lon lat alt HP n r0 c0 10 row col T EN) as (k & path & K1 & K2 & K3 & K4 & K5 & K6).
    exists (S k), path, r0, c0. split; [lia|]. split; [reflexivity|]. split; [exact K2|]. split; [exact K3|]. rewrite <- ET. split; [|split].
    + intros m Hm. apply K4. lia.
    + intros m v Hm HE. apply (K5 m v); [lia|exact HE].
    + intros Hk v HE. replace (S k - 1)%nat with k in HE by lia. apply K6; [lia|exact HE].
  - exfalso. cbn [grid_newton] in EN. unfold ngtb, fin in EN. rewrite (proj2 (Rltb_true tol_m2 10) T) in EN. discriminate.
  - exfalso. cbn [grid_newton] in EN. unfold ngtb, fin in EN. rewrite (proj2 (Rltb_true tol_m2 10) T) in EN. discriminate.
Qed.
Example C38_loop_ex :
  grid_inverse_loc ex_grid (Some ex_pred) 15 [fin (1 / 500 * 30 + 1 / 200)] [fin (45 - 1 / 1000 * 120 + 1 / 2500 * 30)] [fin 150] = Some [(fin 120, fin 30, fin 150)].
Proof.
  destruct C38_affine_grid_exact_ex as (A & B & C & D & E & F & G & H).
  eapply (C38_affine_grid_exact ex_grid ex_pred 15 120 30 150 _ _ 50 75 _ _ A); [lia|exact B|exact C|exact D|exact E| | |exact F|exact G|exact H]; apply Rabs_le; lra.
Qed.
