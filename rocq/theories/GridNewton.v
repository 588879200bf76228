(** The inverse localization of the grids. *)
From Coq Require Import Reals ZArith List Bool Lra Lia.
From Verif Require Import Num NumLemmas InterpModel InterpSpec InterpProofs ProjModel ProjSpec PropertiesProj RpcModel DtmModel RpcDtmModel GridModel GridSpec GridProofs.
Import ListNotations.
Open Scope R_scope.

Lemma clip_lower : forall nb p, (2 <= nb)%Z -> Z.max (Z.min (Rfloor p) (nb - 2)) 0 = lower_index nb p.
Proof.
  intros nb p H. unfold lower_index. pose proof (Rfloor_bounds p) as [F1 F2]. rcase1.
  - assert (Rfloor p < 0)%Z by (apply lt_IZR; simpl; lra). lia.
  - assert (0 <= Rfloor p)%Z. { apply Z.lt_succ_r. apply lt_IZR. rewrite succ_IZR. lra. } rcase1.
    + assert (nb - 1 <= Rfloor p)%Z. { apply Z.lt_succ_r. apply lt_IZR. rewrite succ_IZR. lra. } lia.
    + assert (Rfloor p < nb - 1)%Z by (apply lt_IZR; lra). lia.
Qed.

(** The value of a cube at a node. *)
Definition at_node (g : grid) (data : list raster) (alt : R) (i j : Z) : R := at_layers g data alt (fun m => rs_at m i j).

Lemma grid_pos_node_row : forall g i, gr_steprow g <> 0 -> (node_row g i - gr_row0 g) / gr_steprow g = IZR i.
Proof. intros g i H. unfold node_row. field. exact H. Qed.
Lemma grid_pos_node_col : forall g i, gr_stepcol g <> 0 -> (node_col g i - gr_col0 g) / gr_stepcol g = IZR i.
Proof. intros g i H. unfold node_col. field. exact H. Qed.

Lemma at_layers_ext : forall g data alt f f', proper_grid g -> good_cube g data -> (forall m, In m data -> f m = f' m) -> at_layers g data alt f = at_layers g data alt f'.
Proof.
  intros g data alt f f' (HL & HD & _) [GC1 _] H. unfold at_layers.
  destruct (top_layer_nearest (gr_alts g) alt HL HD) as (a & b & (N1 & N2 & _) & L).
  assert (Hk : (S (top_layer (gr_alts g) alt) < length (gr_alts g))%nat) by (apply nth_error_Some; congruence).
  destruct (nth_error data (top_layer (gr_alts g) alt)) as [top|] eqn:Et; [|apply nth_error_None in Et; lia].
  destruct (nth_error data (S (top_layer (gr_alts g) alt))) as [bottom|] eqn:Eb; [|apply nth_error_None in Eb; lia].
  rewrite (layer_nth _ _ _ Et), (layer_nth_S _ _ _ Eb). rewrite (H top), (H bottom); [reflexivity|..]; eapply nth_error_In; eauto.
Qed.

Lemma node_value : forall g data alt i j v, proper_grid g -> good_cube g data -> (0 <= i < gr_nbrow g)%Z -> (0 <= j < gr_nbcol g)%Z ->
  cube_value g data (node_row g i) (node_col g j) alt v -> v = at_node g data alt i j.
Proof.
  intros g data alt i j v HP GC Hi Hj HV. rewrite (cube_value_layers g data _ _ alt v HP GC HV).
  pose proof HP as (_ & _ & _ & _ & _ & HR & HC & SR & SC). pose proof GC as [_ GC2].
  unfold at_node. apply at_layers_ext; auto. intros m Hm. destruct (GC2 m Hm) as [R1 C1].
  unfold grid_pos_row, grid_pos_col. rewrite grid_pos_node_row, grid_pos_node_col by assumption. apply interp_node; [split; lia|split; lia].
Qed.

(** The matrix, from the values at the nodes of the cell. *)
Definition cell_matrix (g : grid) (alt : R) (i j : Z) : option mat2 :=
  let L := at_node g (gr_lon g) alt in
  let B := at_node g (gr_lat g) alt in
  let dlon_c := microrad (L i (j + 1)%Z - L i j) / gr_stepcol g in
  let dlat_c := microrad (B i (j + 1)%Z - B i j) / gr_stepcol g in
  let dlon_l := microrad (L (i + 1)%Z j - L i j) / gr_steprow g in
  let dlat_l := microrad (B (i + 1)%Z j - B i j) / gr_steprow g in
  let det := dlon_c * dlat_l - dlon_l * dlat_c in
  if Req_EM_T det 0 then None else Some (M2 (dlat_l / det) (- dlon_l / det) (- dlat_c / det) (dlon_c / det)).

Lemma cube_get_node : forall g data k m i j, good_cube g data -> nth_error data k = Some m -> (0 <= i < gr_nbrow g)%Z -> (0 <= j < gr_nbcol g)%Z ->
  cube_get data (Z.of_nat k) i j = Some (rs_at m i j).
Proof.
  intros g data k m i j [_ GC] Hm Hi Hj. unfold cube_get. destruct (Z.of_nat k <? 0)%Z eqn:E; [apply Z.ltb_lt in E; lia|].
  rewrite Nat2Z.id, Hm. apply rs_get_node. destruct (GC m (nth_error_In _ _ Hm)) as [R1 C1]. split; lia.
Qed.

Lemma inverse_partial_derivative_eq : forall g row col alt, proper_grid g ->
  inverse_partial_derivative g row col alt =
  Some (cell_matrix g alt (lower_index (gr_nbrow g) (grid_pos_row g row)) (lower_index (gr_nbcol g) (grid_pos_col g col))).
Proof.
  intros g row col alt HP. pose proof HP as (HL & HD & _ & _ & _ & HR & HC & SR & SC).
  unfold inverse_partial_derivative. rewrite !clip_lower by assumption.
  pose proof (lower_index_range (gr_nbrow g) (grid_pos_row g row) HR) as RI. pose proof (lower_index_range (gr_nbcol g) (grid_pos_col g col) HC) as RJ.
  set (i := lower_index (gr_nbrow g) (grid_pos_row g row)) in *. set (j := lower_index (gr_nbcol g) (grid_pos_col g col)) in *.
  rewrite return_grid_index_top by assumption.
  destruct (top_layer_nearest (gr_alts g) alt HL HD) as (a & b & (N1 & N2 & _) & L).
  unfold cell_matrix, at_node, at_layers.
  set (k := top_layer (gr_alts g) alt) in *.
  assert (Hk : (S k < length (gr_alts g))%nat) by (apply nth_error_Some; congruence).
  destruct (proper_lon g HP) as [LL _]. destruct (proper_lat g HP) as [LB _].
  destruct (nth_error (gr_lon g) k) as [lt|] eqn:E1; [|apply nth_error_None in E1; lia].
  destruct (nth_error (gr_lon g) (S k)) as [lb|] eqn:E2; [|apply nth_error_None in E2; lia].
  destruct (nth_error (gr_lat g) k) as [bt|] eqn:E3; [|apply nth_error_None in E3; lia].
  destruct (nth_error (gr_lat g) (S k)) as [bb|] eqn:E4; [|apply nth_error_None in E4; lia].
  rewrite !(cube_get_node g (gr_lon g) k lt) by (auto using proper_lon; lia).
  rewrite !(cube_get_node g (gr_lon g) (S k) lb) by (auto using proper_lon; lia).
  rewrite !(cube_get_node g (gr_lat g) k bt) by (auto using proper_lat; lia).
  rewrite !(cube_get_node g (gr_lat g) (S k) bb) by (auto using proper_lat; lia).
  assert (A1 : alt_get (gr_alts g) (Z.of_nat k) = Some a). { unfold alt_get. destruct (Z.of_nat k <? 0)%Z eqn:E; [apply Z.ltb_lt in E; lia|]. now rewrite Nat2Z.id. }
  assert (A2 : alt_get (gr_alts g) (Z.of_nat (S k)) = Some b). { unfold alt_get. destruct (Z.of_nat (S k) <? 0)%Z eqn:E; [apply Z.ltb_lt in E; lia|]. now rewrite Nat2Z.id. }
  rewrite A1, A2. cbn [seq_opt]. rewrite (nth_of_error _ _ _ N1), (nth_of_error _ _ _ N2).
  rewrite (layer_nth _ _ _ E1), (layer_nth_S _ _ _ E2), (layer_nth _ _ _ E3), (layer_nth_S _ _ _ E4).
  unfold ndiv, fin. destruct (Req_EM_T (a - b) 0) as [E|E]; [lra|].
  rewrite !Z.add_0_r.
  set (h := (alt - b) / (a - b)).
  assert (EQ : forall t0 t1 b0 b1 s, s <> 0 -> ((1 - h) * (deg2rad (b1 - b0) / s) + h * (deg2rad (t1 - t0) / s)) * 1000000 = microrad (lerp b1 t1 h - lerp b0 t0 h) / s).
  { intros. unfold deg2rad, microrad, lerp. field. assumption. }
  rewrite !EQ by assumption.
  match goal with |- context [Req_EM_T ?x 0] => destruct (Req_EM_T x 0) end; reflexivity.
Qed.

(** ** Affine layers *)
Lemma affine_at_layers : forall g data alt, proper_grid g -> good_cube g data -> affine_layers data ->
  exists A B C, (forall row col, at_layers g data alt (fun m => interp m row col) = A + B * row + C * col) /\
    (forall i j, (0 <= i < gr_nbrow g)%Z -> (0 <= j < gr_nbcol g)%Z -> at_node g data alt i j = A + B * IZR i + C * IZR j).
Proof.
  intros g data alt HP GC HA. pose proof HP as (HL & HD & _ & _ & _ & HR & HC & _). pose proof GC as [GC1 GC2].
  destruct (top_layer_nearest (gr_alts g) alt HL HD) as (a & b & (N1 & N2 & _) & L).
  unfold at_node, at_layers. set (k := top_layer (gr_alts g) alt) in *.
  assert (Hk : (S k < length (gr_alts g))%nat) by (apply nth_error_Some; congruence).
  destruct (nth_error data k) as [t|] eqn:Et; [|apply nth_error_None in Et; lia].
  destruct (nth_error data (S k)) as [u|] eqn:Eu; [|apply nth_error_None in Eu; lia].
  destruct (HA t (nth_error_In _ _ Et)) as (A1 & B1 & C1 & H1). destruct (HA u (nth_error_In _ _ Eu)) as (A2 & B2 & C2 & H2).
  destruct (GC2 t (nth_error_In _ _ Et)) as [T1 T2]. destruct (GC2 u (nth_error_In _ _ Eu)) as [U1 U2].
  rewrite (layer_nth _ _ _ Et), (layer_nth_S _ _ _ Eu). set (h := (alt - nth (S k) (gr_alts g) 0) / (nth k (gr_alts g) 0 - nth (S k) (gr_alts g) 0)).
  exists (lerp A2 A1 h), (lerp B2 B1 h), (lerp C2 C1 h). split.
  - intros row col. rewrite (interp_affine t A1 B1 C1), (interp_affine u A2 B2 C2) by (auto; split; lia). unfold lerp. ring.
  - intros i j Hi Hj. rewrite H1, H2 by (split; lia). unfold lerp. ring.
Qed.

Lemma valid_lonlat_in : forall lon lat alt, lonlat_filtering (R3 (Some lon) (Some lat) (Some alt)) = false <-> Rabs lon <= 180 /\ Rabs lat <= 90.
Proof.
  intros. rewrite filtering_spec. unfold valid_lonlat. split.
  - intros (x & y & z & E & H1 & H2). injection E as -> -> ->. split; apply Rabs_le; lra.
  - intros [H1 H2]. exists lon, lat, alt. split; [reflexivity|]. unfold Rabs in *. destruct (Rcase_abs lon), (Rcase_abs lat); lra.
Qed.
Lemma in_range_dec : forall g lon lat, in_range g lon lat \/ ~ in_range g lon lat.
Proof.
  intros g lon lat. unfold in_range. destruct (gr_epsg g) as [e|]; [|left; discriminate].
  destruct (Z.eq_dec e 4326) as [->|N]; [|left; congruence].
  destruct (Rle_dec (Rabs lon) 180), (Rle_dec (Rabs lat) 90); [left; auto|..]; right; intros H; destruct (H eq_refl); lra.
Qed.
Lemma check_geographic_map : forall e l, check_geographic e l = map (fun p => hd nan3 (check_geographic e [p])) l.
Proof.
  intros e l. unfold check_geographic. destruct e as [e|]; [destruct (e =? 4326)%Z|]; unfold check_lonlat; cbn [map hd]; [reflexivity|now rewrite map_id|now rewrite map_id].
Qed.
Lemma check_geographic_one : forall g lon lat alt,
  (in_range g lon lat -> check_geographic (gr_epsg g) [R3 (fin lon) (fin lat) (fin alt)] = [R3 (fin lon) (fin lat) (fin alt)]) /\
  (~ in_range g lon lat -> check_geographic (gr_epsg g) [R3 (fin lon) (fin lat) (fin alt)] = [nan3]).
Proof.
  intros g lon lat alt. unfold in_range, check_geographic. destruct (gr_epsg g) as [e|].
  2:{ split; [reflexivity|]. intros H. exfalso. apply H. discriminate. }
  destruct (e =? 4326)%Z eqn:E.
  - apply Z.eqb_eq in E. subst e. unfold check_lonlat. cbn [map].
    destruct (lonlat_filtering (R3 (fin lon) (fin lat) (fin alt))) eqn:F.
    + split; [|reflexivity]. intros H. specialize (H eq_refl). apply (valid_lonlat_in lon lat alt) in H. unfold fin in F. congruence.
    + split; [reflexivity|]. intros H. exfalso. apply H. intros _. apply valid_lonlat_in in F. exact F.
  - apply Z.eqb_neq in E. split; [reflexivity|]. intros H. exfalso. apply H. congruence.
Qed.
Lemma direct_one : forall g row col alt lon lat, proper_grid g -> grid_ground g row col alt lon lat -> in_range g lon lat ->
  grid_direct_loc_h g [fin row] [fin col] [fin alt] = Some [R3 (fin lon) (fin lat) (fin alt)].
Proof.
  intros g row col alt lon lat HP HG HI. unfold grid_direct_loc_h, fill_alt. cbn [length Nat.eqb negb map3 zip3]. unfold fin at 1 2 3.
  rewrite (grid_position_ground g row col alt lon lat HP HG). f_equal. now apply check_geographic_one.
Qed.

(** ** One correction *)
(** The pixel obtained from (r, c) by one correction towards the ground point (lon, lat). *)
Definition correction (g : grid) (lon lat alt r c r' c' : R) : Prop :=
  exists lon' lat' M, grid_ground g r c alt lon' lat' /\ in_range g lon' lat' /\
    inverse_partial_derivative g r c alt = Some (Some M) /\
    c' = c - (m00 M * microrad (lon' - lon) + m01 M * microrad (lat' - lat)) /\
    r' = r - (m10 M * microrad (lon' - lon) + m11 M * microrad (lat' - lat)).

Lemma microrad_deg : forall x, microrad x = x * deg2mrad.
Proof. intros x. unfold microrad, deg2mrad, deg2rad. field. Qed.

Lemma newton_step : forall g lon lat alt n r c err lon' lat' M, proper_grid g -> tol_m2 < err ->
  grid_ground g r c alt lon' lat' -> in_range g lon' lat' -> inverse_partial_derivative g r c alt = Some (Some M) ->
  grid_newton g lon lat alt (S n) (Some r) (Some c) (Some err) =
  grid_newton g lon lat alt n
    (Some (r - (m10 M * microrad (lon' - lon) + m11 M * microrad (lat' - lat))))
    (Some (c - (m00 M * microrad (lon' - lon) + m01 M * microrad (lat' - lat))))
    (Some (square_error lon lat lon' lat')).
Proof.
  intros g lon lat alt n r c err lon' lat' M HP HE HG HI HM. cbn [grid_newton].
  replace (ngtb (Some err) (fin tol_m2)) with true by (symmetry; unfold ngtb, fin; apply Rltb_true; exact HE).
  rewrite (direct_one g r c alt lon' lat' HP HG HI), HM.
  cbn [lon3 lat3 nsub nmul nadd nlift2 fin]. rewrite <- !microrad_deg.
  f_equal; try reflexivity. f_equal. unfold square_error, rtx, deg2rad. field.
Qed.

Lemma affine_correction : forall g lon lat alt row col r c lon' lat' M, proper_grid g ->
  affine_layers (gr_lon g) -> affine_layers (gr_lat g) -> grid_ground g row col alt lon lat ->
  grid_ground g r c alt lon' lat' -> inverse_partial_derivative g r c alt = Some (Some M) ->
  r - (m10 M * microrad (lon' - lon) + m11 M * microrad (lat' - lat)) = row /\
  c - (m00 M * microrad (lon' - lon) + m01 M * microrad (lat' - lat)) = col.
Proof.
  intros g lon lat alt row col r c lon' lat' M HP HA1 HA2 [G1 G2] [G1' G2'] HM.
  pose proof HP as (HL & HD & _ & _ & _ & HR & HC & SR & SC).
  pose proof (cube_value_layers g _ _ _ _ _ HP (proper_lon g HP) G1) as ->. pose proof (cube_value_layers g _ _ _ _ _ HP (proper_lat g HP) G2) as ->.
  pose proof (cube_value_layers g _ _ _ _ _ HP (proper_lon g HP) G1') as ->. pose proof (cube_value_layers g _ _ _ _ _ HP (proper_lat g HP) G2') as ->.
  destruct (affine_at_layers g _ alt HP (proper_lon g HP) HA1) as (A & B & C & E1 & N1).
  destruct (affine_at_layers g _ alt HP (proper_lat g HP) HA2) as (A' & B' & C' & E2 & N2).
  rewrite !E1, !E2. rewrite inverse_partial_derivative_eq in HM by assumption. injection HM as HM.
  pose proof (lower_index_range (gr_nbrow g) (grid_pos_row g r) HR) as RI. pose proof (lower_index_range (gr_nbcol g) (grid_pos_col g c) HC) as RJ.
  unfold cell_matrix in HM. rewrite !N1, !N2 in HM by lia. rewrite !plus_IZR in HM.
  set (i := IZR (lower_index (gr_nbrow g) (grid_pos_row g r))) in *. set (j := IZR (lower_index (gr_nbcol g) (grid_pos_col g c))) in *.
  match type of HM with (if Req_EM_T ?x 0 then _ else _) = _ => destruct (Req_EM_T x 0) as [D|D]; [discriminate|] end.
  injection HM as <-. cbn [m00 m01 m10 m11]. unfold grid_pos_row, grid_pos_col.
  set (k := PI / 180 * 1000000) in *.
  assert (MR : forall x, microrad x = k * x) by (intros; unfold microrad, k; field).
  rewrite !MR in *.
  assert (D' : k * (k * (C * B' - B * C')) <> 0).
  { intros Z. apply D. transitivity (k * (k * (C * B' - B * C')) / (gr_stepcol g * gr_steprow g)); [field; auto|]. rewrite Z. field. auto. }
  assert (K : k <> 0) by (intros ->; apply D'; ring).
  assert (D'' : C * B' - B * C' <> 0) by (intros Z; apply D'; rewrite Z; ring).
  split; field; repeat split; auto.
  - intros Z; apply D''; lra || (rewrite <- Z; ring).
  - intros Z; apply D''; lra || (rewrite <- Z; ring).
Qed.
