(** C83: convergence of the inverse localization of a grid. *)
From Coq Require Import Reals ZArith List Bool Lra Lia Psatz.
From Verif Require Import Num NumLemmas InterpModel InterpSpec InterpProofs ProjModel ProjSpec PropertiesProj RpcModel DtmModel RpcDtmModel
  GridModel GridSpec GridProofs GridNewton PropertiesGrid RpcConvSpec RpcConv GridConvSpec GridConv.
Import ListNotations.
Open Scope R_scope.

Lemma newton_converges g alt a b c d bend density row col lon lat radius :
  proper_grid g -> nearly_regular g alt a b c d bend -> not_flat a b c d density -> 10 * density * bend <= 1 ->
  grid_ground g row col alt lon lat -> Rabs lat < 90 ->
  (forall r q, apart g r q row col <= radius -> inside g r q /\ forall l p, grid_ground g r q alt l p -> in_range g l p) ->
  forall n r q e s, tol_m2 < e -> apart g r q row col <= s -> s <= radius ->
  exists r' q' k, grid_newton g lon lat alt (S n) (Some r) (Some q) (Some e) = Some (Some r', Some q') /\ (k <= n)%nat /\
    apart g r' q' row col <= (5 * density * bend) ^ S k * s /\
    ((k < n)%nat -> apart g r' q' row col <= 5 * density * bend * (5 / 4 * density * (millimetre / cos (lat * PI / 180)))).
Proof.
  intros HP HB HN HS HG HL HR.
  pose proof (bend_pos g alt HP a b c d bend HB) as BP. pose proof (density_pos a b c d density HN) as DP.
  set (th := 5 * density * bend) in *.
  assert (TH : 0 <= th <= 1 / 2) by (split; [unfold th; apply Rmult_le_pos; [lra|exact BP]|unfold th; lra]).
  assert (S0 : forall r q, 0 <= apart g r q row col) by (intros; apply size_pos).
  assert (IT : 0 <= radius -> inside g row col).
  { intros H. apply HR. unfold apart. replace (row - row) with 0 by ring. replace (col - col) with 0 by ring. unfold Rdiv. rewrite !Rmult_0_l, size_0. exact H. }
  induction n as [|n IH]; intros r q e s He Hs Hr; 
  destruct (HR r q ltac:(lra)) as [HI HRng]; pose proof (S0 r q) as S1;
  destruct (grid_ground_exists g r q alt HP) as (lon' & lat' & HG'); specialize (HRng lon' lat' HG');
  destruct (matrix_exists g alt HP a b c d bend density HB HN HS r q) as [M EM];
  rewrite (newton_step g lon lat alt _ r q e lon' lat' M HP He HG' HRng EM);
  set (r1 := r - (m10 M * microrad (lon' - lon) + m11 M * microrad (lat' - lat)));
  set (q1 := q - (m00 M * microrad (lon' - lon) + m01 M * microrad (lat' - lat)));
  assert (HC : newton_correction g lon lat alt (r, q) (r1, q1)) by (apply correction_spec; [exact HP|]; exists lon', lat', M; repeat (split; [assumption|]); split; reflexivity);
  pose proof (contract g alt HP a b c d bend density HB HN HS row col lon lat (r, q) (r1, q1) (IT ltac:(lra)) HG HI HC) as CT; cbn [fst snd] in CT; fold th in CT;
  assert (C2 : apart g r1 q1 row col <= th * s) by (eapply Rle_trans; [exact CT|apply Rmult_le_compat_l; lra]).
  - exists r1, q1, 0%nat. split; [reflexivity|]. split; [lia|]. split; [cbn [pow]; lra|lia].
  - destruct (Rlt_dec tol_m2 (square_error lon lat lon' lat')) as [L|L].
    + assert (TS : th * s <= s) by (rewrite <- (Rmult_1_l s) at 2; apply Rmult_le_compat_r; lra).
      destruct (IH r1 q1 _ (th * s) L C2 ltac:(lra)) as (r' & q' & k & E & Hk & B & B').
      exists r', q', (S k). split; [exact E|]. split; [lia|]. split.
      * eapply Rle_trans; [exact B|]. apply Req_le. cbn [pow]. ring.
      * intros H. apply B'. lia.
    + exists r1, q1, 0%nat. split; [|split; [lia|split; [cbn [pow]; lra|]]].
      * cbn [grid_newton]. unfold ngtb, fin. rewrite (proj2 (Rltb_false tol_m2 (square_error lon lat lon' lat'))) by lra. reflexivity.
      * intros _. eapply Rle_trans; [exact CT|]. apply Rmult_le_compat_l; [lra|].
        apply (millimetre_close g alt HP a b c d bend density HB HN HS row col lon lat r q lon' lat'); auto; [apply IT|]; lra.
Qed.

(** When the layer of the altitude is a parallelogram mesh up to [bend], not too flat for it, and the
    predictor starts in a square of half width [radius] around the true pixel that the grid covers, the
    inverse localization succeeds.  Each of the k corrections divides the distance to the true pixel by
    1 / (5 density bend) or more (at least two).  When it stops before the last iteration, it is as close
    as one correction from one millimetre makes it. *)
Theorem C83_inverse_loc_converges :
  forall g pd n alt a b c d bend density row col lon lat r0 c0 radius, proper_grid g -> (1 <= n)%nat ->
  nearly_regular g alt a b c d bend -> not_flat a b c d density -> 10 * density * bend <= 1 ->
  grid_ground g row col alt lon lat -> Rabs lon <= 180 -> Rabs lat < 90 ->
  (forall r q, apart g r q row col <= radius -> inside g r q /\ forall l p, grid_ground g r q alt l p -> in_range g l p) ->
  inverse_loc_predictor g pd lon lat alt = (fin r0, fin c0) -> apart g r0 c0 row col <= radius ->
  exists row' col' k, (1 <= k <= n)%nat /\
    grid_inverse_loc g (Some pd) n [fin lon] [fin lat] [fin alt] = Some [(fin row', fin col', fin alt)] /\
    apart g row' col' row col <= (5 * density * bend) ^ k * apart g r0 c0 row col /\
    ((k < n)%nat -> apart g row' col' row col <= 5 * density * bend * (5 / 4 * density * (millimetre / cos (lat * PI / 180)))).
Proof.
  intros g pd n alt a b c d bend density row col lon lat r0 c0 radius HP Hn HB HN HS HG Hlon Hlat HR HPd H0.
  unfold grid_inverse_loc, fill_alt. cbn [length Nat.eqb negb map3 zip3]. unfold check_lonlat. cbn [map].
  assert (F : lonlat_filtering (R3 (fin lon) (fin lat) (fin alt)) = false) by (apply valid_lonlat_in; auto using Rlt_le). rewrite F.
  unfold grid_inverse_one. cbn [lon3 lat3 alt3]. unfold fin at 1 2 3. rewrite HPd. destruct n as [|n]; [lia|].
  assert (T : tol_m2 < 10) by (unfold tol_m2; lra).
  destruct (newton_converges g alt a b c d bend density row col lon lat radius HP HB HN HS HG Hlat HR n r0 c0 10 _ T (Rle_refl _) H0)
    as (r' & q' & k & E & Hk & B & B').
  exists r', q', (S k). split; [lia|]. split; [|split; [exact B|intros; apply B'; lia]].
  unfold fin in *. rewrite E. reflexivity.
Qed.

(** With the default number of iterations (15), from a start at most one node away. *)
Corollary C83_fifteen_iterations :
  forall g pd alt a b c d bend density row col lon lat r0 c0, proper_grid g ->
  nearly_regular g alt a b c d bend -> not_flat a b c d density -> 10 * density * bend <= 1 ->
  grid_ground g row col alt lon lat -> Rabs lon <= 180 -> Rabs lat < 90 ->
  (forall r q, apart g r q row col <= 1 -> inside g r q /\ forall l p, grid_ground g r q alt l p -> in_range g l p) ->
  inverse_loc_predictor g pd lon lat alt = (fin r0, fin c0) -> apart g r0 c0 row col <= 1 ->
  exists row' col',
    grid_inverse_loc g (Some pd) 15 [fin lon] [fin lat] [fin alt] = Some [(fin row', fin col', fin alt)] /\
    (apart g row' col' row col <= 1 / 30000 \/
     apart g row' col' row col <= density * (millimetre / cos (lat * PI / 180))).
Proof.
  intros g pd alt a b c d bend density row col lon lat r0 c0 HP HB HN HS HG Hlon Hlat HR HPd H0.
  destruct (C83_inverse_loc_converges g pd 15 alt a b c d bend density row col lon lat r0 c0 1 HP ltac:(lia) HB HN HS HG Hlon Hlat HR HPd H0)
    as (r' & q' & k & Hk & E & B & B').
  exists r', q'. split; [exact E|].
  pose proof (bend_pos g alt HP a b c d bend HB) as BP. pose proof (density_pos a b c d density HN) as DP.
  set (th := 5 * density * bend) in *.
  assert (TH : 0 <= th <= 1 / 2) by (split; [unfold th; apply Rmult_le_pos; [lra|exact BP]|unfold th; lra]).
  destruct (Nat.eq_dec k 15) as [->|N].
  - left. eapply Rle_trans; [exact B|].
    assert (P : 0 <= th ^ 15 <= (1 / 2) ^ 15) by (split; [apply pow_le; lra|apply pow_incr; lra]).
    assert (Q : (1 / 2) ^ 15 <= 1 / 30000) by (simpl; lra).
    assert (0 <= apart g r0 c0 row col) by apply size_pos. nra.
  - right. eapply Rle_trans; [apply B'; lia|].
    assert (CP : 0 < cos (lat * PI / 180)). { apply Rabs_def2 in Hlat. pose proof PI_RGT_0. apply cos_gt_0; nra. }
    assert (MP : 0 <= millimetre / cos (lat * PI / 180)).
    { apply Rlt_le, Rdiv_lt_0_compat; [|exact CP]. unfold millimetre. pose proof PI_RGT_0. apply Rdiv_lt_0_compat; lra. }
    assert (0 <= density * (millimetre / cos (lat * PI / 180))) by (apply Rmult_le_pos; assumption). nra.
Qed.

(** In such a grid, a ground point has at most one pixel. *)
Theorem C83_one_pixel :
  forall g alt a b c d bend density r q r' q' lon lat, proper_grid g ->
  nearly_regular g alt a b c d bend -> not_flat a b c d density -> 10 * density * bend <= 1 ->
  inside g r q -> inside g r' q' -> grid_ground g r q alt lon lat -> grid_ground g r' q' alt lon lat -> r' = r /\ q' = q.
Proof.
  intros g alt a b c d bend density r q r' q' lon lat HP HB HN HS. apply (one_pixel g alt HP a b c d bend density HB HN HS).
Qed.

(** ** A bent grid: the columns spread as the row grows. *)
Definition bent_lon (k : nat) : raster := mkRaster 3 4 (fun i j => 1 / 10 * IZR j + 1 / 100 * INR k + IZR i * IZR j / 1000).
Definition bent_grid : grid := mkGrid 0 0 100 50 3 4 [200; 100; 0] (map bent_lon [0; 1; 2]%nat) (map ex_lat [0; 1; 2]%nat) (Some 4326%Z).
Lemma bent_proper : proper_grid bent_grid.
Proof.
  unfold proper_grid, bent_grid. cbn [gr_alts gr_lon gr_lat gr_nbrow gr_nbcol gr_steprow gr_stepcol map length].
  split; [lia|]. split; [exact ex_decreasing|]. split; [reflexivity|]. split; [reflexivity|]. split.
  - intros m [H|H]; cbn in H; decompose [or] H; subst; try contradiction; split; reflexivity.
  - repeat split; try lia; lra.
Qed.
Lemma bent_ground r q : grid_ground bent_grid r q 150 (q / 500 + 1 / 200 + r * q / 5000000) (45 - r / 1000 + q / 2500).
Proof.
  destruct (grid_ground_exists bent_grid r q 150 bent_proper) as (lon & lat & G). pose proof G as [G1 G2].
  apply (value_bilin bent_grid 150 bent_proper) in G1; [|apply proper_lon, bent_proper]. apply (value_bilin bent_grid 150 bent_proper) in G2; [|apply proper_lat, bent_proper].
  cbv zeta in G1, G2. unfold at_node in G1, G2.
  assert (A1 : forall f, at_layers bent_grid (gr_lon bent_grid) 150 f = lerp (f (bent_lon 1)) (f (bent_lon 0)) ((150 - 100) / (200 - 100)))
    by (intros f; apply (at_layers_nearest bent_grid _ 150 f 0 200 100 (bent_lon 0) (bent_lon 1) ex_decreasing); [cbn; lia|repeat split; left; lra|reflexivity|reflexivity]).
  assert (A2 : forall f, at_layers bent_grid (gr_lat bent_grid) 150 f = lerp (f (ex_lat 1)) (f (ex_lat 0)) ((150 - 100) / (200 - 100)))
    by (intros f; apply (at_layers_nearest bent_grid _ 150 f 0 200 100 (ex_lat 0) (ex_lat 1) ex_decreasing); [cbn; lia|repeat split; left; lra|reflexivity|reflexivity]).
  rewrite !A1 in G1. rewrite !A2 in G2.
  set (i := lower_index _ _) in G1, G2. set (j := lower_index _ _) in G1, G2.
  replace (q / 500 + 1 / 200 + r * q / 5000000) with lon; [replace (45 - r / 1000 + q / 2500) with lat; [exact G|]|].
  - rewrite G2. unfold bilin_value, lerp, grid_pos_row, grid_pos_col, ex_lat, bent_grid. cbn [rs_at gr_row0 gr_col0 gr_steprow gr_stepcol]. rewrite !plus_IZR. field.
  - rewrite G1. unfold bilin_value, lerp, grid_pos_row, grid_pos_col, bent_lon, bent_grid. cbn [rs_at gr_row0 gr_col0 gr_steprow gr_stepcol INR]. rewrite !plus_IZR. field.
Qed.
Lemma bent_unique r q lon lat : grid_ground bent_grid r q 150 lon lat -> lon = q / 500 + 1 / 200 + r * q / 5000000 /\ lat = 45 - r / 1000 + q / 2500.
Proof. intros G. exact (grid_ground_unique _ _ _ _ _ _ _ _ bent_proper (bent_ground r q) G). Qed.
Example C83_case :
  proper_grid bent_grid /\ nearly_regular bent_grid 150 (1 / 10) 0 (1 / 50) (- (1 / 10)) (3 / 1000) /\
  not_flat (1 / 10) 0 (1 / 50) (- (1 / 10)) 12 /\ 10 * 12 * (3 / 1000) <= 1 /\
  let lon := 80 / 500 + 1 / 200 + 100 * 80 / 5000000 in let lat := 45 - 100 / 1000 + 80 / 2500 in
  grid_ground bent_grid 100 80 150 lon lat /\ Rabs lon <= 180 /\ Rabs lat < 90 /\
  (forall r q, apart bent_grid r q 100 80 <= 1 -> inside bent_grid r q /\ forall l p, grid_ground bent_grid r q 150 l p -> in_range bent_grid l p) /\
  inverse_loc_predictor bent_grid ex_pred lon lat 150 = (fin 50, fin 75) /\ apart bent_grid 50 75 100 80 <= 1.
Proof.
  split; [exact bent_proper|]. split; [|split; [|split; [lra|]]].
  - intros i j lon lat lon' lat' Hi Hj G. apply bent_unique in G. destruct G as [-> ->]. cbn [bent_grid gr_nbrow gr_nbcol] in Hi, Hj.
    assert (J : 0 <= IZR j <= 3) by (split; apply IZR_le; lia). assert (I : 0 <= IZR i <= 2) by (split; apply IZR_le; lia).
    split; intros H G'; apply bent_unique in G'; destruct G' as [-> ->]; unfold node_row, node_col; cbn [bent_grid gr_row0 gr_col0 gr_steprow gr_stepcol]; rewrite plus_IZR;
    apply size_le; apply Rabs_le; lra.
  - intros u v. pose proof (size_l (1 / 10 * u + 0 * v) (1 / 50 * u + - (1 / 10) * v)) as A. pose proof (size_r (1 / 10 * u + 0 * v) (1 / 50 * u + - (1 / 10) * v)) as B.
    set (z := size (1 / 10 * u + 0 * v) (1 / 50 * u + - (1 / 10) * v)) in *. apply Rabs_bounds in A. apply Rabs_bounds in B. apply size_le; apply Rabs_le; lra.
  - cbv zeta. split; [apply bent_ground|]. split; [apply Rabs_le; lra|]. split; [apply Rabs_def1; lra|]. split; [|split].
    + intros r q H. unfold apart in H. cbn [bent_grid gr_steprow gr_stepcol] in H.
      pose proof (Rle_trans _ _ _ (size_l _ _) H) as A. pose proof (Rle_trans _ _ _ (size_r _ _) H) as B. apply Rabs_bounds in A. apply Rabs_bounds in B.
      assert (0 <= r <= 200) by lra. assert (30 <= q <= 130) by lra.
      split; [unfold inside; cbn [bent_grid gr_steprow gr_stepcol gr_row0 gr_col0 gr_nbrow gr_nbcol]; change (3 - 1)%Z with 2%Z; change (4 - 1)%Z with 3%Z; lra|].
      intros l p G _. apply bent_unique in G. destruct G as [-> ->]. assert (0 <= r * q <= 200 * 130) by nra. split; apply Rabs_le; lra.
    + unfold inverse_loc_predictor. cbn [ex_pred pd_lon pd_lat pd_row pd_col pd_col_min pd_row_min pd_col_max pd_row_max fst snd bent_grid gr_alts last hd].
      unfold ndiv, fin. destruct (Req_EM_T 1 0) as [Z|Z]; [lra|]. destruct (Req_EM_T (200 - 0) 0) as [Z'|Z']; [lra|].
      unfold dot. cbn [map2 fold_right]. f_equal; f_equal; field.
    + unfold apart. cbn [bent_grid gr_steprow gr_stepcol]. apply size_le; apply Rabs_le; lra.
Qed.
