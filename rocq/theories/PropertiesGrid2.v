(** C39, C59, C60: the grids and the DTM. *)
From Coq Require Import Reals ZArith List Bool Lra Lia.
From Verif Require Import Num NumLemmas InterpModel InterpSpec InterpProofs ProjModel ProjSpec PropertiesProj RpcModel
  DtmModel DtmSpec DtmCube DtmWalk DtmIntersect CppDtmModel CppDtmProofs DtmProofs DtmWitness PropertiesDtm DtmWitness2
  RpcDtmModel PropertiesRpcDtm GridModel GridSpec GridProofs GridNewton PropertiesGrid.
Import ListNotations.
Open Scope R_scope.

(** ** C39 *)
Lemma decreasing_cons : forall x l, decreasing l -> (forall a, hd_error l = Some a -> a < x) -> decreasing (x :: l).
Proof.
  intros x l HD H [|i] a b Ha Hb.
  - cbn in Ha. injection Ha as <-. apply H. destruct l; [discriminate|exact Hb].
  - exact (HD i a b Ha Hb).
Qed.
Lemma decreasing_snoc : forall x l, decreasing l -> (forall a, nth_error l (length l - 1) = Some a -> x < a) -> decreasing (l ++ [x]).
Proof.
  intros x l HD H i a b Ha Hb.
  destruct (lt_eq_lt_dec (S i) (length l)) as [[L|L]|L].
  - rewrite nth_error_app1 in Ha, Hb by lia. exact (HD i a b Ha Hb).
  - rewrite nth_error_app1 in Ha by lia. rewrite nth_error_app2 in Hb by lia. rewrite L, Nat.sub_diag in Hb. injection Hb as <-.
    apply H. replace (length l - 1)%nat with i by lia. exact Ha.
  - rewrite nth_error_app2 in Hb by lia. assert (E : (S i - length l >= 1)%nat) by lia. destruct (S i - length l)%nat as [|[|m]]; [lia|discriminate|discriminate].
Qed.
Lemma los_altitudes_covers : forall g lo hi, (2 <= length (gr_alts g))%nat -> decreasing (gr_alts g) -> lo < hi ->
  covers g lo hi (los_altitudes g (Some lo) (Some hi)).
Proof.
  intros g lo hi HL HD Hlh. unfold los_altitudes.
  set (L := gr_alts g) in *. destruct L as [|x L'] eqn:EL; [cbn in HL; lia|]. rewrite <- EL in *. clear EL. subst L.
  assert (Ht : hd_error (gr_alts g) = Some (hd 0 (gr_alts g))) by (destruct (gr_alts g); [cbn in HL; lia|reflexivity]).
  assert (Hb : nth_error (gr_alts g) (length (gr_alts g) - 1) = Some (last (gr_alts g) 0)).
  { rewrite last_nth. destruct (nth_error (gr_alts g) (length (gr_alts g) - 1)) as [z|] eqn:E; [|apply nth_error_None in E; lia]. f_equal. symmetry. now apply nth_of_error. }
  assert (Hsp : exists l, gr_alts g = l ++ [last (gr_alts g) 0]).
  { exists (removelast (gr_alts g)). apply app_removelast_last. intros E. rewrite E in HL. cbn in HL. lia. }
  assert (Hlt : last (gr_alts g) 0 < hd 0 (gr_alts g)).
  { apply (decreasing_lt (gr_alts g) 0 (length (gr_alts g) - 1) _ _ HD); [lia| |exact Hb]. destruct (gr_alts g); [cbn in HL; lia|reflexivity]. }
  set (A := if Rltb lo (last (gr_alts g) 0) then gr_alts g ++ [lo] else gr_alts g).
  assert (C1 : decreasing A /\ incl (gr_alts g) A /\ hd_error A = Some (hd 0 (gr_alts g)) /\ exists b l, A = l ++ [b] /\ b <= lo /\ (l <> [] )).
  { unfold A. destruct (Rltb_spec lo (last (gr_alts g) 0)) as [L|L].
    - split; [apply decreasing_snoc; [exact HD|intros a Ea; rewrite Hb in Ea; injection Ea as <-; exact L]|]. split; [apply incl_appl, incl_refl|].
      split; [destruct (gr_alts g); [cbn in HL; lia|reflexivity]|]. exists lo, (gr_alts g). split; [reflexivity|]. split; [lra|]. intros E. rewrite E in HL. cbn in HL. lia.
    - split; [exact HD|]. split; [apply incl_refl|]. split; [exact Ht|]. destruct Hsp as [l E]. exists (last (gr_alts g) 0), l. split; [exact E|]. split; [lra|].
      intros ->. rewrite E in HL. cbn in HL. lia. }
  destruct C1 as (D1 & I1 & H1 & b & l & E1 & B1 & NL).
  destruct (Rltb_spec (hd 0 (gr_alts g)) hi) as [U|U].
  - split; [apply decreasing_cons; [exact D1|intros a Ea; rewrite H1 in Ea; injection Ea as <-; exact U]|]. split; [apply incl_tl; exact I1|].
    split; [exists hi; split; [reflexivity|lra]|]. exists b, (hi :: l). split; [rewrite E1; reflexivity|exact B1].
  - split; [exact D1|]. split; [exact I1|]. split; [exists (hd 0 (gr_alts g)); split; [exact H1|lra]|]. exists b, l. split; [exact E1|exact B1].
Qed.

Lemma vertices : forall g r c alts, proper_grid g ->
  exists los, line_of_sight g r c alts los /\ map (fun h => grid_position g (Some r) (Some c) (fin h)) alts = map row_of_vec los.
Proof.
  intros g r c alts HP. induction alts as [|h alts IH]; [exists []; split; [constructor|reflexivity]|].
  destruct IH as (los & H1 & H2). destruct (grid_ground_exists g r c h HP) as (lon & lat & HG).
  exists (V3 lon lat h :: los). split; [constructor; [cbn; auto|exact H1]|]. cbn [map]. rewrite H2.
  change (fin h) with (Some h). rewrite (grid_position_ground g r c h lon lat HP HG). reflexivity.
Qed.

(** The altitudes of the lines of sight that are intersected with a DTM whose altitudes are between
    [lo] and [hi]: from [hi] or above down to [lo] or below, through all the layers; and every vertex
    of a line is the ground position of its pixel at its altitude. *)
Theorem C39_lines_cover_the_dtm :
  forall g row col e lo hi los n r c, proper_grid g -> gr_epsg g = Some e -> lo < hi ->
  compute_los g row col e (Some (los_altitudes g (fin lo) (fin hi))) = Some los ->
  nth_error row n = Some (fin r) -> nth_error col n = Some (fin c) ->
  exists alts line, covers g lo hi alts /\ line_of_sight g r c alts line /\ nth_error los n = Some (map row_of_vec line).
Proof.
  intros g row col e lo hi los n r c HP He Hlh H Hr Hc. pose proof HP as (HL & HD & _).
  set (alts := los_altitudes g (fin lo) (fin hi)) in *.
  destruct (vertices g r c alts HP) as (line & L1 & L2). exists alts, line. split; [now apply los_altitudes_covers|]. split; [exact L1|].
  unfold compute_los in H. destruct (negb _) in H; [discriminate|]. rewrite He, Z.eqb_refl in H. injection H as <-. rewrite <- L2.
  clear - Hr Hc. revert row col Hr Hc. induction n as [|n IH]; intros [|a row] [|b col] Hr Hc; try discriminate; cbn in *.
  - injection Hr as ->. injection Hc as ->. reflexivity.
  - now apply IH.
Qed.
Example C39_lines_cover_the_dtm_ex :
  proper_grid ex_grid /\ gr_epsg ex_grid = Some 4326%Z /\
  exists los, compute_los ex_grid [fin 50; nan] [fin 75; fin 3] 4326 (Some (los_altitudes ex_grid (fin (-10)) (fin 150))) = Some los.
Proof. split; [exact ex_proper|]. split; [reflexivity|]. eexists. reflexivity. Qed.

(** ** C59 *)
Lemma mask_points : forall (P : num -> num -> list row3) f row col res, length row = length col ->
  let m := map2 (fun r c : num => negb (isnan r || isnan c)) row col in
  seq_opt (map f (map2 P (gather m row) (gather m col))) = Some res ->
  forall n r c, nth_error row n = Some r -> nth_error col n = Some c ->
  (isnan r || isnan c = true /\ nth_error (scatter m (map (fun _ => nan3) col) res) n = Some nan3) \/
  (isnan r || isnan c = false /\ exists q, f (P r c) = Some q /\ nth_error (scatter m (map (fun _ => nan3) col) res) n = Some q).
Proof.
  intros P f row. induction row as [|x row IH]; intros [|y col] res HL m H n r c Hr Hc; try discriminate; [destruct n; discriminate|].
  unfold m in *. clear m. cbn [map2] in *. destruct (negb (isnan x || isnan y)) eqn:EN; cbn [gather map2 map seq_opt scatter] in *.
  - destruct (f (P x y)) as [q|] eqn:EF; [|discriminate].
    destruct (seq_opt (map f (map2 P (gather (map2 (fun r c => negb (isnan r || isnan c)) row col) row) (gather (map2 (fun r c => negb (isnan r || isnan c)) row col) col)))) as [res'|] eqn:ES; [|discriminate].
    injection H as <-. destruct n as [|n]; cbn [nth_error] in *.
    + injection Hr as <-. injection Hc as <-. right. apply negb_true_iff in EN. split; [exact EN|]. exists q. auto.
    + exact (IH col res' ltac:(cbn in HL; lia) ES n r c Hr Hc).
  - destruct n as [|n]; cbn [nth_error] in *.
    + injection Hr as <-. injection Hc as <-. left. apply negb_false_iff in EN. auto.
    + exact (IH col res ltac:(cbn in HL; lia) H n r c Hr Hc).
Qed.
Lemma all_nan_mask : forall (row col : list num), existsb (fun b => b) (map2 (fun r c : num => negb (isnan r || isnan c)) row col) = false ->
  forall n r c, nth_error row n = Some r -> nth_error col n = Some c -> isnan r || isnan c = true.
Proof.
  induction row as [|x row IH]; intros [|y col] H n r c Hr Hc; try (destruct n; discriminate). cbn [map2 existsb] in H. apply orb_false_iff in H. destruct H as [H1 H2].
  destruct n as [|n]; cbn in *; [injection Hr as <-; injection Hc as <-; now apply negb_false_iff|exact (IH col H2 n r c Hr Hc)].
Qed.
Lemma same_system_range : forall conv e d, (forall l, conv e e l = l) -> dt_epsg d = e -> big_enough (dt_data d) ->
  dtm_range conv e d = (fin (alt_min d - 1), fin (alt_max d + 1)).
Proof.
  intros conv e d Hc He Hb. unfold dtm_range, get_dtm_alt_offset. rewrite He, Hc. unfold get_footprint_corners. cbn [map fst snd].
  repeat match goal with |- context [let '(_, _) := ?t in _] => match t with transform_index_to_physical_point _ _ _ => destruct t end end.
  cbn [alt3 map]. unfold np_min, np_max. cbn [seq_opt]. unfold fin. cbn [seq_opt]. unfold list_min, list_max. cbn [fold_left nsub nadd nlift2].
  assert (E1 : forall x, Rmin x x = x) by (intros; apply Rmin_left; lra).
  assert (E2 : forall x, Rmax x x = x) by (intros; apply Rmax_left; lra). rewrite !E1, !E2. f_equal; f_equal; ring.
Qed.

(** What a pixel gets on a DTM in the system of the grid: NaN for a NaN pixel; for a finite pixel what the
    intersection gives for its own line of sight, which covers the altitudes of the DTM with a margin of
    1; then the range check. *)
Lemma dtm_pointwise : forall conv fuel g row col d e out, proper_grid g -> big_enough (dt_data d) ->
  gr_epsg g = Some e -> dt_epsg d = e -> (forall l, conv e e l = l) -> length row = length col ->
  grid_direct_loc_dtm conv fuel g row col d = Some out ->
  length out = length col /\
  forall n r c, nth_error row n = Some r -> nth_error col n = Some c ->
  (isnan r || isnan c = true /\ nth_error out n = Some nan3) \/
  exists r' c' los q, r = Some r' /\ c = Some c' /\
    line_of_sight g r' c' (los_altitudes g (Some (alt_min d - 1)) (Some (alt_max d + 1))) los /\
    intersection_one d fuel (map row_of_vec los) = Some q /\
    nth_error out n = Some (hd nan3 (check_geographic (gr_epsg g) [q])).
Proof.
  intros conv fuel g row col d e out HP Hb He Hd Hc HL H. unfold grid_direct_loc_dtm in H. rewrite HL, Nat.eqb_refl in H. cbn [negb] in H.
  set (m := map2 (fun r c : num => negb (isnan r || isnan c)) row col) in *.
  destruct (existsb (fun b => b) m) eqn:EX.
  2:{ injection H as <-. split; [apply map_length|]. intros n r c Hr Hcn. left. split; [exact (all_nan_mask row col EX n r c Hr Hcn)|].
      rewrite nth_error_map, Hcn. reflexivity. }
  rewrite He, (same_system_range conv e d Hc Hd Hb) in H. unfold compute_los in H. destruct (negb (length (gather m row) =? length (gather m col))%nat) in H; [discriminate|]. rewrite He, Hd, Z.eqb_refl in H.
  unfold intersection_n_los_dtm in H.
  match type of H with match seq_opt ?s with _ => _ end = _ => destruct (seq_opt s) as [res|] eqn:ES; [|discriminate] end.
  apply (f_equal (fun o => match o with Some x => x | None => [] end)) in H; cbv beta iota in H; subst out. rewrite <- He, check_geographic_map. split; [rewrite map_length; rewrite RpcBatch.scatter_length; apply map_length|].
  intros n r c Hr Hcn. rewrite nth_error_map.
  destruct (mask_points _ _ row col res HL ES n r c Hr Hcn) as [[N1 N2]|[N1 (q & Q1 & Q2)]].
  - left. split; [exact N1|]. fold m in N2. rewrite N2. cbn [option_map]. rewrite He. unfold check_geographic. destruct (e =? 4326)%Z; reflexivity.
  - right. destruct r as [r|]; [|discriminate]. destruct c as [c|]; [|discriminate]. unfold fin in Q1.
    destruct (vertices g r c (los_altitudes g (Some (alt_min d - 1)) (Some (alt_max d + 1))) HP) as (los & L1 & L2).
    exists r, c, los, q. split; [reflexivity|]. split; [reflexivity|]. split; [exact L1|]. rewrite <- L2. split; [exact Q1|].
    fold m in Q2. rewrite Q2. reflexivity.
Qed.

Lemma alt_range_lt : forall d, big_enough (dt_data d) -> alt_min d - 1 < alt_max d + 1.
Proof.
  intros d Hb. destruct (alt_min_node d Hb) as (i & j & Hn & E). pose proof (alt_max_ge d i j Hn). lra.
Qed.

(** Every position of the result is NaN, or (0, 0, 0) (a line of sight that misses the surface, see C20),
    or a point of the DTM surface on the straight line through two consecutive vertices of the line of
    sight of its pixel, at or after the first of them.  Partial: the lines of sight must not have a
    vertical segment nor a vertex hidden in a cell (see C17), and the point may be after the second
    vertex. *)
Theorem C59_surface_point_partial :
  forall conv fuel g row col d e out n r c p lo hi, proper_grid g -> big_enough (dt_data d) -> invertible (dt_transform d) ->
  gr_epsg g = Some e -> dt_epsg d = e -> (forall l, conv e e l = l) -> length row = length col ->
  lowest d lo -> highest d hi ->
  grid_direct_loc_dtm conv fuel g row col d = Some out ->
  nth_error row n = Some (fin r) -> nth_error col n = Some (fin c) -> nth_error out n = Some p ->
  exists alts los, covers g (lo - 1) (hi + 1) alts /\ line_of_sight g r c alts los /\
  let ilos := los_to_index d los in
  ((forall k u w, nth_error ilos k = Some u -> nth_error ilos (S k) = Some w -> v0 u <> v0 w \/ v1 u <> v1 w) ->
   no_vertex_hidden_in_a_cell (dt_data d) ilos -> (forall v, nth_error ilos 0 = Some v -> ~ on_face (dt_data d) v) ->
   p = nan3 \/ p = R3 (fin 0) (fin 0) (fin 0) \/
   exists k u w t, nth_error los k = Some u /\ nth_error los (S k) = Some w /\ 0 <= t /\ p = row_of_vec (along u w t) /\
     on_surface (dt_data d) (1 / 10000) (ter_to_index (dt_trans_inv d) (along u w t))).
Proof.
  intros conv fuel g row col d e out n r c p lo hi HP Hb Hi He Hd Hcv HL Hlo Hhi H Hr Hc Hp. pose proof HP as (HL2 & HD & _).
  rewrite <- (lowest_eq d lo Hb Hlo), <- (highest_eq d hi Hb Hhi).
  destruct (dtm_pointwise conv fuel g row col d e out HP Hb He Hd Hcv HL H) as [_ HPW].
  destruct (HPW n _ _ Hr Hc) as [[N _]|(r' & c' & los & q & Er & Ec & L1 & Q1 & Q2)]; [discriminate|].
  injection Er as <-. injection Ec as <-.
  exists (los_altitudes g (Some (alt_min d - 1)) (Some (alt_max d + 1))), los. split; [apply los_altitudes_covers; auto using alt_range_lt|]. split; [exact L1|].
  intros ilos Hob Hhid Hface. rewrite Hp in Q2. injection Q2 as ->.
  assert (HQ : q = nan3 \/ q = R3 (fin 0) (fin 0) (fin 0) \/ exists k u w t, nth_error los k = Some u /\ nth_error los (S k) = Some w /\ 0 <= t /\ q = row_of_vec (along u w t) /\
     on_surface (dt_data d) (1 / 10000) (ter_to_index (dt_trans_inv d) (along u w t))).
  { rewrite one_finite in Q1. destruct (intersect_dtm_cube d los) as [[pc h]|] eqn:EC; [|left; congruence].
    destruct (intersection d fuel (los_to_index d los) pc h) as [[[|] gg]|] eqn:EI; [| |discriminate].
    - right; right. injection Q1 as <-. destruct (C15_point_on_line_and_face d los pc h Hb EC) as [HF HO].
      assert (HON : on_los (los_to_index d los) h pc).
      { destruct HO as [HO|[_ HO]]; [exact HO|]. exfalso. exact (Hface pc HO HF). }
      destruct (C17_polyline_partial d fuel los pc h gg Hb Hi Hob Hhid HON EI) as (k & u & w & t & E1 & E2 & T0 & _ & -> & HS).
      exists k, u, w, t. auto.
    - right; left. injection Q1 as <-. unfold intersection in EI. destruct (intersection_index _ _ _ _ _); try discriminate. injection EI as <-. reflexivity. }
  assert (CK : hd nan3 (check_geographic (gr_epsg g) [q]) = nan3 \/ hd nan3 (check_geographic (gr_epsg g) [q]) = q).
  { rewrite He. unfold check_geographic. destruct (e =? 4326)%Z; [|right; reflexivity]. unfold check_lonlat. cbn [map hd]. destruct (lonlat_filtering q); auto. }
  destruct CK as [ -> | -> ]; [left; reflexivity|exact HQ].
Qed.

(** NaN pixels give NaN and do not disturb the others; a batch gives to every pixel what it gets alone. *)
Theorem C59_batch_is_pointwise :
  forall conv fuel g row col d e out n r c, proper_grid g -> big_enough (dt_data d) ->
  gr_epsg g = Some e -> dt_epsg d = e -> (forall l, conv e e l = l) -> length row = length col ->
  grid_direct_loc_dtm conv fuel g row col d = Some out ->
  nth_error row n = Some r -> nth_error col n = Some c ->
  exists p, nth_error out n = Some p /\ grid_direct_loc_dtm conv fuel g [r] [c] d = Some [p] /\
    (isnan r = true \/ isnan c = true -> p = nan3).
Proof.
  intros conv fuel g row col d e out n r c HP Hb He Hd Hcv HL H Hr Hc.
  destruct (dtm_pointwise conv fuel g row col d e out HP Hb He Hd Hcv HL H) as [_ HPW].
  destruct (HPW n _ _ Hr Hc) as [[N1 N2]|(r' & c' & los & q & -> & -> & L1 & Q1 & Q2)].
  - exists nan3. split; [exact N2|]. split; [|reflexivity]. unfold grid_direct_loc_dtm. cbn [length Nat.eqb negb map2 map]. rewrite N1. reflexivity.
  - exists (hd nan3 (check_geographic (gr_epsg g) [q])). split; [exact Q2|]. split; [|intros [E|E]; discriminate].
    unfold grid_direct_loc_dtm. cbn [length Nat.eqb map2 map isnan orb negb existsb gather]. rewrite He, (same_system_range conv e d Hcv Hd Hb).
    unfold compute_los. cbn [length Nat.eqb negb]. rewrite He, Hd, Z.eqb_refl. cbn [map2]. unfold intersection_n_los_dtm. cbn [map seq_opt].
    assert (EV : map (fun h => grid_position g (Some r') (Some c') (fin h)) (los_altitudes g (fin (alt_min d - 1)) (fin (alt_max d + 1))) = map row_of_vec los).
    { change (los_altitudes g (fin (alt_min d - 1)) (fin (alt_max d + 1))) with (los_altitudes g (Some (alt_min d - 1)) (Some (alt_max d + 1))). revert L1. generalize (los_altitudes g (Some (alt_min d - 1)) (Some (alt_max d + 1))). clear - HP. intros alts L1.
      induction L1 as [|h v alts los [G1 G2] L1 IH]; [reflexivity|]. cbn [map]. rewrite IH. f_equal.
      change (fin h) with (Some h). rewrite (grid_position_ground g r' c' h _ _ HP G1). unfold row_of_vec. rewrite G2. reflexivity. }
    rewrite EV, Q1. cbn [scatter]. unfold check_geographic. destruct (e =? 4326)%Z; reflexivity.
Qed.

(** With a DTM in another system than the grid, the localization always fails. *)
Theorem C59_other_system_refuted :
  forall conv fuel g row col d e n r c, gr_epsg g = Some e -> dt_epsg d <> e -> length row = length col ->
  nth_error row n = Some (fin r) -> nth_error col n = Some (fin c) ->
  grid_direct_loc_dtm conv fuel g row col d = None.
Proof.
  intros conv fuel g row col d e n r c He Hd HL Hr Hc. unfold grid_direct_loc_dtm. destruct (negb (length row =? length col)%nat); [reflexivity|].
  set (m := map2 (fun r c : num => negb (isnan r || isnan c)) row col).
  destruct (existsb (fun b => b) m) eqn:EX.
  - rewrite He. destruct (dtm_range conv e d). unfold compute_los. destruct (negb _); [reflexivity|]. rewrite He. rewrite (proj2 (Z.eqb_neq _ _) Hd). reflexivity.
  - exfalso. pose proof (all_nan_mask row col EX n _ _ Hr Hc). discriminate.
Qed.

(** ** A vertical line of sight over a flat DTM *)
Definition flat_dtm : dtm := mkDtm (mkRaster 2 2 (fun _ _ => 50)) (G6 (- (1 / 2)) 1 0 (- (1 / 2)) 0 1) 4326.
Definition vertical_grid : grid :=
  mkGrid 0 0 1 1 2 2 [200; 100] (repeat (mkRaster 2 2 (fun _ j => IZR j)) 2) (repeat (mkRaster 2 2 (fun i _ => IZR i)) 2) (Some 4326%Z).
Lemma flat_big : big_enough (dt_data flat_dtm).
Proof. split; cbn; lia. Qed.
Lemma flat_bounds : alt_min flat_dtm = 50 /\ alt_max flat_dtm = 50.
Proof.
  split.
  - destruct (alt_min_node flat_dtm flat_big) as (i & j & _ & <-). reflexivity.
  - destruct (alt_max_node flat_dtm flat_big) as (i & j & _ & <-). reflexivity.
Qed.
Lemma flat_lowest : lowest flat_dtm 50.
Proof. split; [intros; cbn; lra|]. exists 0%Z, 0%Z. split; [split; cbn; lia|reflexivity]. Qed.
Lemma flat_highest : highest flat_dtm 50.
Proof. split; [intros; cbn; lra|]. exists 0%Z, 0%Z. split; [split; cbn; lia|reflexivity]. Qed.
Lemma flat_invertible : invertible (dt_transform flat_dtm).
Proof. unfold invertible. cbn. lra. Qed.
Lemma flat_index : forall x y z, ter_to_index (dt_trans_inv flat_dtm) (V3 x y z) = V3 y x z.
Proof.
  intros. unfold ter_to_index, dt_trans_inv, transform_physical_point_to_index, affine_apply, affine_inv. cbn. f_equal; field.
Qed.
Lemma vertical_proper : proper_grid vertical_grid.
Proof.
  unfold proper_grid, vertical_grid. cbn [gr_alts gr_lon gr_lat gr_nbrow gr_nbcol gr_steprow gr_stepcol repeat length].
  split; [lia|]. split.
  { intros [|[|i]] a b Ha Hb; cbn in *; try discriminate; try (destruct i; discriminate); injection Ha as <-; injection Hb as <-; lra. }
  split; [reflexivity|]. split; [reflexivity|]. split.
  - intros m [H|H]; cbn in H; decompose [or] H; subst; try contradiction; split; reflexivity.
  - repeat split; try lia; lra.
Qed.
Lemma vertical_ground : forall r c h, grid_ground vertical_grid r c h c r.
Proof.
  intros r c h. pose proof vertical_proper as HP. destruct (grid_ground_exists vertical_grid r c h HP) as (lon & lat & [G1 G2]).
  pose proof (cube_value_layers _ _ _ _ _ _ HP (proper_lon _ HP) G1) as E1. pose proof (cube_value_layers _ _ _ _ _ _ HP (proper_lat _ HP) G2) as E2.
  assert (A1 : interp (mkRaster 2 2 (fun _ j => IZR j)) (grid_pos_row vertical_grid r) (grid_pos_col vertical_grid c) = c).
  { rewrite (interp_affine _ 0 0 1); [unfold grid_pos_row, grid_pos_col; cbn; field|split; cbn; lia|intros i j _; cbn; ring]. }
  assert (A2 : interp (mkRaster 2 2 (fun i _ => IZR i)) (grid_pos_row vertical_grid r) (grid_pos_col vertical_grid c) = r).
  { rewrite (interp_affine _ 0 1 0); [unfold grid_pos_row, grid_pos_col; cbn; field|split; cbn; lia|intros i j _; cbn; ring]. }
  assert (L : forall f data, at_layers vertical_grid (repeat data 2) h f = f data).
  { intros f data. unfold at_layers. assert (EL : forall k, (k <= 1)%Z -> layer (repeat data 2) k = data).
    { intros k Hk. unfold layer. destruct (Z.to_nat k) as [|[|m]] eqn:E; [reflexivity|reflexivity|lia]. }
    assert (Hk : (top_layer (gr_alts vertical_grid) h <= 0)%nat) by (unfold top_layer; cbn [length gr_alts vertical_grid]; lia).
    rewrite !EL by lia. unfold lerp. ring. }
  cbn [gr_lon gr_lat vertical_grid] in E1, E2. fold vertical_grid in E1, E2. rewrite L, A1 in E1. rewrite L, A2 in E2. subst. split; assumption.
Qed.
Lemma vertical_position : forall r c h, grid_position vertical_grid (Some r) (Some c) (fin h) = R3 (fin c) (fin r) (fin h).
Proof. intros. change (fin h) with (Some h). now rewrite (grid_position_ground _ _ _ _ _ _ vertical_proper (vertical_ground r c h)). Qed.
Lemma flat_interp : forall x y, interpolate flat_dtm x y = 50.
Proof. intros. unfold interpolate, interp, bilin_value. cbn. ring. Qed.

Lemma vertical_found : forall fuel, intersection_one flat_dtm fuel (map row_of_vec [V3 (1 / 2) (1 / 2) 200; V3 (1 / 2) (1 / 2) 100; V3 (1 / 2) (1 / 2) 49]) =
  Some (R3 (fin (1 / 2)) (fin (1 / 2)) (fin 50)).
Proof.
  intros fuel. rewrite one_finite. unfold intersect_dtm_cube, los_to_index, ters_to_indexs. cbn [map]. rewrite !flat_index.
  destruct flat_bounds as [Em EM].
  set (los := [V3 (1 / 2) (1 / 2) 200; V3 (1 / 2) (1 / 2) 100; V3 (1 / 2) (1 / 2) 49]).
  assert (E : all_crossings flat_dtm los = [Cr (1 / 2) (1 / 2) 50 (101 / 51); Cr (1 / 2) (1 / 2) 50 (101 / 51)]).
  { unfold all_crossings, los. cbn [seq flat_map plane_scan].
    unfold eq_plan, plane_coef_a, plane_coef_b, plane_coef_c, plane_coef_d. cbn [nth v0 v1 v2].
    rewrite Em, EM. unfold nb_rows, nb_columns. cbn [flat_dtm dt_data rs_rows rs_cols].
    rdec. unfold plane_crossing, plane_coef_d.
    cbn [Nat.ltb Nat.leb nth v0 v1 v2 andb Z.add Pos.add]. rewrite ?Em, ?EM. rdec. cbn [app].
    f_equal; [|f_equal]; f_equal; field. }
  unfold intersect_dtm_cube_index. rewrite E. cbn [length exchange_sort sort_pass cr_h]. rdec. cbn [exchange_sort sort_pass cr_h filter].
  unfold test_on_cube, plane_coef_d. cbn [nth cr_col cr_row cr_alt]. rewrite Em, EM.
  unfold nb_rows, nb_columns. cbn [flat_dtm dt_data rs_rows rs_cols]. rdec. cbn [cr_h cr_col cr_row cr_alt].
  fold flat_dtm. unfold intersection, intersection_index. cbn [v0 v1 v2]. rewrite flat_interp. rdec.
  replace (Rfloor (101 / 51)) with 1%Z by (symmetry; apply Rfloor_unique; lra).
  change (length los) with 3%nat.
  rewrite (vertex_step_vertical _ _ _ _ _ _ _ (V3 (1 / 2) (1 / 2) 100) (V3 (1 / 2) (1 / 2) 49)) by reflexivity.
  cbn [v0 v1 v2]. rewrite flat_interp. rdec. unfold index_to_ter, transform_index_to_physical_point, affine_apply. cbn. unfold row_of_vec. cbn. unfold fin. f_equal. f_equal; f_equal; field.
Qed.
Lemma vertical_missed : forall fuel, intersection_one flat_dtm fuel (map row_of_vec [V3 (1 / 2) (1 / 2) 200; V3 (1 / 2) (1 / 2) 100]) = Some nan3.
Proof.
  intros fuel. rewrite one_finite. unfold intersect_dtm_cube, los_to_index, ters_to_indexs. cbn [map]. rewrite !flat_index.
  destruct flat_bounds as [Em EM].
  assert (E : all_crossings flat_dtm [V3 (1 / 2) (1 / 2) 200; V3 (1 / 2) (1 / 2) 100] = []).
  { unfold all_crossings. cbn [seq flat_map plane_scan].
    unfold eq_plan, plane_coef_a, plane_coef_b, plane_coef_c, plane_coef_d. cbn [nth v0 v1 v2].
    rewrite Em, EM. unfold nb_rows, nb_columns. cbn [flat_dtm dt_data rs_rows rs_cols]. rdec. reflexivity. }
  unfold intersect_dtm_cube_index. rewrite E. reflexivity.
Qed.

(** The two ends of the line of sight of one pixel: its ground positions at the highest altitude, then
    at the lowest one. *)
Theorem C39_ends_of_the_line :
  forall g r c lo hi top_lon top_lat lon lat, proper_grid g ->
  grid_ground g r c hi top_lon top_lat -> in_range g top_lon top_lat ->
  grid_ground g r c lo lon lat -> in_range g lon lat ->
  grid_los_extrema g (fin r) (fin c) lo hi = Some [R3 (fin top_lon) (fin top_lat) (fin hi); R3 (fin lon) (fin lat) (fin lo)].
Proof.
  intros g r c lo hi top_lon top_lat lon lat HP G1 R1 G2 R2. unfold grid_los_extrema.
  assert (E : forall h x y, grid_ground g r c h x y -> in_range g x y -> grid_direct_loc_h g [fin r] [fin c] [fin h] = Some [R3 (fin x) (fin y) (fin h)]).
  { intros h x y HG HR. destruct (grid_direct_loc_h g [fin r] [fin c] [fin h]) as [out|] eqn:EO; [|discriminate].
    destruct (C37_direct_loc_h_interpolates g [fin r] [fin c] [fin h] out 0 r c h x y HP eq_refl eq_refl EO eq_refl eq_refl eq_refl HG) as [N _].
    specialize (N HR). unfold grid_direct_loc_h, fill_alt in EO. cbn [length Nat.eqb negb map3 zip3] in EO. rewrite check_geographic_map in EO. cbn [map] in EO. injection EO as <-.
    cbn [nth_error] in N. injection N as N. now rewrite N. }
  now rewrite (E hi _ _ G1 R1), (E lo _ _ G2 R2).
Qed.

Example C39_ends_of_the_line_ex :
  grid_los_extrema ex_grid (fin 100) (fin 150) 100 200 =
  Some [R3 (fin (1 / 10 * 3 + 1 / 100 * 0)) (fin (45 - 1 / 10 * 1 + 1 / 50 * 3)) (fin 200); R3 (fin (1 / 10 * 3 + 1 / 100 * 1)) (fin (45 - 1 / 10 * 1 + 1 / 50 * 3)) (fin 100)].
Proof.
  assert (E1 : node_row ex_grid 1 = 100) by (unfold node_row; cbn; lra). assert (E2 : node_col ex_grid 3 = 150) by (unfold node_col; cbn; lra).
  pose proof (C37_exact_on_the_layers ex_grid 0 200 (ex_lon 0) (ex_lat 0) 1 3 ex_proper eq_refl eq_refl eq_refl ltac:(cbn; lia) ltac:(cbn; lia)) as G1.
  pose proof (C37_exact_on_the_layers ex_grid 1 100 (ex_lon 1) (ex_lat 1) 1 3 ex_proper eq_refl eq_refl eq_refl ltac:(cbn; lia) ltac:(cbn; lia)) as G2.
  rewrite E1, E2 in G1, G2. cbn [rs_at ex_lon ex_lat INR] in G1, G2.
  apply C39_ends_of_the_line; [exact ex_proper|exact G1| |exact G2|]; intros _; split; apply Rabs_le; lra.
Qed.

(** C39: without altitudes (what [direct_loc_grid_dtm] uses) the lines have the altitudes of the layers
    only: they need not reach the DTM. *)
Theorem C39_default_altitudes_refuted :
  exists g d los hi, proper_grid g /\ big_enough (dt_data d) /\ highest d hi /\
    compute_los g [fin (1 / 2)] [fin (1 / 2)] (dt_epsg d) None = Some [los] /\
    forall p, In p los -> exists h, alt3 p = Some h /\ hi < h.
Proof.
  exists vertical_grid, flat_dtm. eexists. exists 50. split; [exact vertical_proper|]. split; [exact flat_big|]. split; [exact flat_highest|]. split; [reflexivity|].
  intros p Hp. cbn [In map gr_alts vertical_grid] in Hp.
  decompose [or] Hp; try contradiction; subst p; unfold grid_position; destruct (interpolator_lonlat _ _ _ _); cbn [alt3]; eexists; (split; [reflexivity|]); lra.
Qed.

Example C59_surface_point_ex :
  proper_grid vertical_grid /\ big_enough (dt_data flat_dtm) /\ invertible (dt_transform flat_dtm) /\ lowest flat_dtm 50 /\ highest flat_dtm 50 /\
  forall fuel, grid_direct_loc_dtm (fun _ _ l => l) fuel vertical_grid [fin (1 / 2); nan] [fin (1 / 2); fin 7] flat_dtm =
    Some [R3 (fin (1 / 2)) (fin (1 / 2)) (fin 50); nan3].
Proof.
  split; [exact vertical_proper|]. split; [exact flat_big|]. split; [exact flat_invertible|]. split; [exact flat_lowest|]. split; [exact flat_highest|].
  intros fuel. unfold grid_direct_loc_dtm. cbn [length Nat.eqb map2 map isnan nan fin orb negb existsb gather gr_epsg vertical_grid].
  rewrite (same_system_range (fun _ _ l => l) 4326 flat_dtm) by (auto using flat_big). destruct flat_bounds as [-> ->].
  unfold compute_los. cbn [length Nat.eqb negb gr_epsg vertical_grid dt_epsg flat_dtm Z.eqb Pos.eqb map2]. fold vertical_grid flat_dtm.
  assert (EA : los_altitudes vertical_grid (fin (50 - 1)) (fin (50 + 1)) = [200; 100; 49]).
  { unfold los_altitudes. cbn [gr_alts vertical_grid last hd fin]. rdec. cbn [app]. do 2 f_equal. f_equal. lra. }
  rewrite EA. cbn [map]. rewrite !vertical_position. unfold intersection_n_los_dtm. cbn [map seq_opt].
  change [R3 (fin (1 / 2)) (fin (1 / 2)) (fin 200); R3 (fin (1 / 2)) (fin (1 / 2)) (fin 100); R3 (fin (1 / 2)) (fin (1 / 2)) (fin 49)] with
    (map row_of_vec [V3 (1 / 2) (1 / 2) 200; V3 (1 / 2) (1 / 2) 100; V3 (1 / 2) (1 / 2) 49]).
  rewrite vertical_found. cbn [scatter map]. unfold check_geographic. cbn [Z.eqb Pos.eqb]. unfold check_lonlat. cbn [map].
  replace (lonlat_filtering (R3 (fin (1 / 2)) (fin (1 / 2)) (fin 50))) with false; [reflexivity|].
  symmetry. apply valid_lonlat_in. split; apply Rabs_le; lra.
Qed.
Example C59_batch_is_pointwise_ex :
  exists out, grid_direct_loc_dtm (fun _ _ l => l) 10 vertical_grid [fin (1 / 2); nan] [fin (1 / 2); fin 7] flat_dtm = Some out.
Proof. eexists. apply C59_surface_point_ex. Qed.
Example C59_other_system_ex : gr_epsg ex_grid = Some 4326%Z /\ 32631%Z <> 4326%Z.
Proof. split; [reflexivity|lia]. Qed.

(** ** C60 *)
Lemma seq_opt_len : forall A (l : list (option A)) r, seq_opt l = Some r -> length r = length l.
Proof.
  intros A l. induction l as [|o l IH]; intros r H; cbn in H; [injection H as <-; reflexivity|].
  destruct o; [|discriminate]. destruct (seq_opt l) as [r'|]; [|discriminate]. injection H as <-. cbn. f_equal. now apply IH.
Qed.
Lemma rows_of_nth : forall A n w (l : list A) i j, (i < n)%nat -> (j < w)%nat -> length l = (n * w)%nat ->
  exists rw, nth_error (rows_of n w l) i = Some rw /\ nth_error rw j = nth_error l (i * w + j).
Proof.
  intros A n w. induction n as [|n IH]; intros l i j Hi Hj HL; [lia|]. cbn [rows_of]. destruct i as [|i].
  - exists (firstn w l). split; [reflexivity|]. cbn. rewrite <- (firstn_skipn w l) at 2. symmetry. apply nth_error_app1. rewrite firstn_length. cbn in HL. lia.
  - destruct (IH (skipn w l) i j) as (rw & E1 & E2); [lia|exact Hj|rewrite skipn_length; cbn in HL; lia|]. exists rw. split; [exact E1|]. rewrite E2.
    rewrite <- (firstn_skipn w l) at 2. rewrite nth_error_app2 by (rewrite firstn_length; cbn in HL; lia).
    f_equal. rewrite firstn_length. cbn in HL. lia.
Qed.
Lemma flat_map_rect : forall A B (f : A -> list B) w xs i j x, (forall y, length (f y) = w) -> nth_error xs i = Some x -> (j < w)%nat ->
  nth_error (flat_map f xs) (i * w + j) = nth_error (f x) j.
Proof.
  intros A B f w xs. induction xs as [|y xs IH]; intros i j x Hw Hx Hj; [destruct i; discriminate|].
  destruct i as [|i]; cbn [flat_map nth_error] in *.
  - injection Hx as ->. apply nth_error_app1. rewrite Hw. exact Hj.
  - rewrite nth_error_app2 by (rewrite Hw; lia). rewrite Hw. replace (S i * w + j - w)%nat with (i * w + j)%nat by lia. now apply IH.
Qed.
Lemma flat_map_len : forall A B (f : A -> list B) w xs, (forall y, length (f y) = w) -> length (flat_map f xs) = (length xs * w)%nat.
Proof. intros A B f w xs Hw. induction xs as [|y xs IH]; [reflexivity|]. cbn. rewrite app_length, IH, Hw. reflexivity. Qed.
Lemma map3_nth : forall (f : num -> num -> num -> row3) a b c n x y z, nth_error a n = Some x -> nth_error b n = Some y -> nth_error c n = Some z ->
  nth_error (map3 f a b c) n = Some (f x y z).
Proof.
  intros f a. induction a as [|a0 a IH]; intros [|b0 b] [|c0 c] n x y z Ha Hb Hc; try (destruct n; discriminate).
  destruct n as [|n]; cbn in *; [congruence|now apply IH].
Qed.
Lemma map3_len : forall (f : num -> num -> num -> row3) a b c, length b = length a -> length c = length a -> length (map3 f a b c) = length a.
Proof. intros f a. induction a as [|x a IH]; intros [|y b] [|z c] H1 H2; try discriminate; [reflexivity|]. cbn. f_equal. apply IH; cbn in *; lia. Qed.

(** Every node of [direct_loc_grid_h] is the direct localization of its pixel. *)
Theorem C60_grid_h_nodes :
  forall g row0 col0 steprow stepcol nbrow nbcol alt out i j,
  grid_direct_loc_grid_h g row0 col0 steprow stepcol nbrow nbcol alt = Some out ->
  (i < nbrow)%nat -> (j < nbcol)%nat ->
  exists line p, nth_error out i = Some line /\ nth_error line j = Some p /\
    grid_direct_loc_h g [fin (row0 + INR i * steprow)] [fin (col0 + INR j * stepcol)] [fin alt] = Some [p].
Proof.
  intros g row0 col0 steprow stepcol nbrow nbcol alt out i j H Hi Hj. unfold grid_direct_loc_grid_h in H.
  destruct (Req_EM_T steprow 0) in H; [discriminate|]. destruct (Req_EM_T stepcol 0) in H; [discriminate|].
  set (rows := arange row0 steprow nbrow) in *. set (cols := arange col0 stepcol nbcol) in *.
  set (R2 := flat_map (fun r => map (fun _ => fin r) cols) rows) in *. set (C2 := flat_map (fun _ : R => map fin cols) rows) in *.
  assert (Lc : length cols = nbcol) by (unfold cols, arange; rewrite map_length, seq_length; reflexivity).
  assert (Lr : length rows = nbrow) by (unfold rows, arange; rewrite map_length, seq_length; reflexivity).
  assert (LR : length R2 = (nbrow * nbcol)%nat) by (unfold R2; rewrite (flat_map_len _ _ _ nbcol) by (intros; rewrite map_length; exact Lc); now rewrite Lr).
  assert (LC : length C2 = (nbrow * nbcol)%nat) by (unfold C2; rewrite (flat_map_len _ _ _ nbcol) by (intros; rewrite map_length; exact Lc); now rewrite Lr).
  assert (Ei : nth_error rows i = Some (row0 + INR i * steprow)).
  { unfold rows, arange. rewrite nth_error_map. rewrite (nth_error_nth' _ 0%nat) by (rewrite seq_length; lia). rewrite seq_nth by lia. reflexivity. }
  assert (Ej : nth_error cols j = Some (col0 + INR j * stepcol)).
  { unfold cols, arange. rewrite nth_error_map. rewrite (nth_error_nth' _ 0%nat) by (rewrite seq_length; lia). rewrite seq_nth by lia. reflexivity. }
  assert (NR : nth_error R2 (i * nbcol + j) = Some (fin (row0 + INR i * steprow))).
  { unfold R2. rewrite (flat_map_rect _ _ _ nbcol rows i j (row0 + INR i * steprow)); [rewrite nth_error_map, Ej; reflexivity|intros; rewrite map_length; exact Lc|exact Ei|exact Hj]. }
  assert (NC : nth_error C2 (i * nbcol + j) = Some (fin (col0 + INR j * stepcol))).
  { unfold C2. rewrite (flat_map_rect _ _ _ nbcol rows i j (row0 + INR i * steprow)); [rewrite nth_error_map, Ej; reflexivity|intros; rewrite map_length; exact Lc|exact Ei|exact Hj]. }
  unfold grid_direct_loc_h in H at 1. rewrite LR, <- LC, Nat.eqb_refl in H. cbn [negb] in H.
  assert (FA : exists al, fill_alt (length C2) [fin alt] = Some al /\ length al = length C2 /\ forall k, (k < length C2)%nat -> nth_error al k = Some (fin alt)).
  { unfold fill_alt. destruct (length [fin alt] =? length C2)%nat eqn:E.
    - apply Nat.eqb_eq in E. exists [fin alt]. split; [reflexivity|]. split; [exact E|]. intros k Hk. rewrite <- E in Hk. cbn in Hk. destruct k; [reflexivity|lia].
    - exists (repeat (fin alt) (length C2)). split; [reflexivity|]. split; [apply repeat_length|]. intros k Hk. now apply nth_error_repeat. }
  destruct FA as (al & FA1 & FA2 & FA3). rewrite FA1 in H.
  apply (f_equal (fun o => match o with Some x => x | None => [] end)) in H; cbv beta iota in H; subst out.
  set (K := (i * nbcol + j)%nat) in *. assert (HK : (K < length C2)%nat) by (rewrite LC; unfold K; nia).
  destruct (rows_of_nth _ nbrow nbcol (check_geographic (gr_epsg g) (map3 (grid_position g) R2 C2 al)) i j Hi Hj) as (line & E1 & E2).
  { rewrite check_geographic_map, map_length, map3_len by congruence. exact LR. }
  fold K in E2. rewrite check_geographic_map, nth_error_map in E2.
  rewrite (map3_nth _ R2 C2 al K _ _ _ NR NC (FA3 K HK)) in E2. cbn [option_map] in E2.
  exists line. eexists. split; [exact E1|]. split; [exact E2|]. unfold grid_direct_loc_h, fill_alt. cbn [length Nat.eqb negb map3 zip3].
  unfold check_geographic. destruct (gr_epsg g) as [e|]; [destruct (e =? 4326)%Z|]; reflexivity.
Qed.
Example C60_grid_h_nodes_ex : exists out, grid_direct_loc_grid_h ex_grid 0 10 5 7 4 3 120 = Some out.
Proof.
  unfold grid_direct_loc_grid_h. destruct (Req_EM_T 5 0); [exfalso; lra|]. destruct (Req_EM_T 7 0); [exfalso; lra|]. eexists. reflexivity.
Qed.

Lemma grid_dtm_nth : forall fuel g row0 col0 steprow stepcol nbrow nbcol d out i j,
  grid_direct_loc_grid_dtm fuel g row0 col0 steprow stepcol nbrow nbcol d = Some out -> (i < nbrow)%nat -> (j < nbcol)%nat ->
  exists line p, nth_error out i = Some line /\ nth_error line j = Some p /\ grid_dtm_node fuel g d (row0 + steprow * INR i) (col0 + stepcol * INR j) = Some p.
Proof.
  intros fuel g row0 col0 steprow stepcol nbrow nbcol d out i j H Hi Hj. unfold grid_direct_loc_grid_dtm in H.
  pose proof (seq_opt_len _ _ _ H) as HL. rewrite map_length, seq_length in HL.
  destruct (nth_error out i) as [line|] eqn:El; [|apply nth_error_None in El; lia].
  pose proof (seq_opt_nth_inv _ _ _ _ H El) as HN. rewrite nth_error_map in HN.
  rewrite (nth_error_nth' _ 0%nat) in HN by (rewrite seq_length; lia). rewrite seq_nth in HN by lia. cbn [option_map Nat.add] in HN. injection HN as HN.
  pose proof (seq_opt_len _ _ _ HN) as HL2. rewrite map_length, seq_length in HL2.
  destruct (nth_error line j) as [p|] eqn:Ep; [|apply nth_error_None in Ep; lia].
  pose proof (seq_opt_nth_inv _ _ _ _ HN Ep) as HN2. rewrite nth_error_map in HN2.
  rewrite (nth_error_nth' _ 0%nat) in HN2 by (rewrite seq_length; lia). rewrite seq_nth in HN2 by lia. cbn [option_map Nat.add] in HN2. injection HN2 as HN2.
  exists line, p. auto.
Qed.

(** When the layers enclose the altitudes of the DTM with the margin of 1, every node of
    [direct_loc_grid_dtm] is the direct localization of its pixel on the DTM; up to the range check,
    which is not made on the nodes. *)
Theorem C60_grid_dtm_nodes_partial :
  forall conv fuel g row0 col0 steprow stepcol nbrow nbcol d e out i j top bottom lo hi, proper_grid g -> big_enough (dt_data d) ->
  gr_epsg g = Some e -> dt_epsg d = e -> (forall l, conv e e l = l) -> lowest d lo -> highest d hi ->
  hd_error (gr_alts g) = Some top -> hi + 1 <= top -> hd_error (rev (gr_alts g)) = Some bottom -> bottom <= lo - 1 ->
  grid_direct_loc_grid_dtm fuel g row0 col0 steprow stepcol nbrow nbcol d = Some out ->
  (i < nbrow)%nat -> (j < nbcol)%nat ->
  exists line p q, nth_error out i = Some line /\ nth_error line j = Some p /\
    grid_direct_loc_dtm conv fuel g [fin (row0 + steprow * INR i)] [fin (col0 + stepcol * INR j)] d = Some [q] /\
    (e <> 4326%Z \/ valid_lonlat p -> q = p) /\ (q = p \/ q = nan3).
Proof.
  intros conv fuel g row0 col0 steprow stepcol nbrow nbcol d e out i j top bottom lo hi HP Hb He Hd Hcv Hlo Hhi Ht Hti Hbo Hbl H Hi Hj.
  rewrite <- (lowest_eq d lo Hb Hlo) in Hbl. rewrite <- (highest_eq d hi Hb Hhi) in Hti.
  destruct (grid_dtm_nth _ _ _ _ _ _ _ _ _ _ _ _ H Hi Hj) as (line & p & E1 & E2 & E3).
  unfold grid_dtm_node, compute_los in E3. cbn [length Nat.eqb negb] in E3. rewrite He, Hd, Z.eqb_refl in E3. cbn [map2] in E3.
  set (r := row0 + steprow * INR i) in *. set (c := col0 + stepcol * INR j) in *.
  exists line, p, (hd nan3 (check_geographic (gr_epsg g) [p])). split; [exact E1|]. split; [exact E2|]. split.
  - unfold grid_direct_loc_dtm. cbn [length Nat.eqb map2 map isnan fin orb negb existsb gather]. rewrite He, (same_system_range conv e d Hcv Hd Hb).
    unfold compute_los. cbn [length Nat.eqb negb]. rewrite He, Hd, Z.eqb_refl. cbn [map2].
    assert (EA : los_altitudes g (fin (alt_min d - 1)) (fin (alt_max d + 1)) = gr_alts g).
    { unfold los_altitudes, fin. assert (ET : hd 0 (gr_alts g) = top) by (destruct (gr_alts g); [discriminate|injection Ht as ->; reflexivity]).
      assert (EB : last (gr_alts g) 0 = bottom).
      { rewrite <- (rev_involutive (gr_alts g)). destruct (rev (gr_alts g)) as [|b l]; [discriminate|]. injection Hbo as ->. cbn [rev]. apply last_last. }
      rewrite ET, EB. rewrite (proj2 (Rltb_false _ _)) by lra. rewrite (proj2 (Rltb_false _ _)) by lra. reflexivity. }
    rewrite EA. unfold intersection_n_los_dtm. cbn [map seq_opt]. rewrite E3. cbn [scatter]. unfold check_geographic. destruct (e =? 4326)%Z; reflexivity.
  - rewrite He. unfold check_geographic. destruct (e =? 4326)%Z eqn:E; unfold check_lonlat; cbn [map hd]; [|auto]. split.
    + intros [N|V]; [apply Z.eqb_eq in E; contradiction|]. apply filtering_spec in V. rewrite V. reflexivity.
    + destruct (lonlat_filtering p); auto.
Qed.
Definition high_dtm : dtm := mkDtm (mkRaster 2 2 (fun _ _ => 150)) (G6 (- (1 / 2)) 1 0 (- (1 / 2)) 0 1) 4326.
Lemma high_index : forall x y z, ter_to_index (dt_trans_inv high_dtm) (V3 x y z) = V3 y x z.
Proof.
  intros. unfold ter_to_index, dt_trans_inv, transform_physical_point_to_index, affine_apply, affine_inv. cbn. f_equal; field.
Qed.
Lemma high_found : forall fuel, intersection_one high_dtm fuel (map row_of_vec [V3 (1 / 2) (1 / 2) 200; V3 (1 / 2) (1 / 2) 100]) =
  Some (R3 (fin (1 / 2)) (fin (1 / 2)) (fin 150)).
Proof.
  intros fuel. rewrite one_finite. unfold intersect_dtm_cube, los_to_index, ters_to_indexs. cbn [map]. rewrite !high_index.
  assert (BB : big_enough (dt_data high_dtm)) by (split; cbn; lia).
  assert (Em : alt_min high_dtm = 150) by (destruct (alt_min_node high_dtm BB) as (i & j & _ & <-); reflexivity).
  assert (EM : alt_max high_dtm = 150) by (destruct (alt_max_node high_dtm BB) as (i & j & _ & <-); reflexivity).
  assert (HI : forall x y, interpolate high_dtm x y = 150) by (intros; unfold interpolate, interp, bilin_value; cbn; ring).
  set (los := [V3 (1 / 2) (1 / 2) 200; V3 (1 / 2) (1 / 2) 100]).
  assert (E : all_crossings high_dtm los = [Cr (1 / 2) (1 / 2) 150 (1 / 2); Cr (1 / 2) (1 / 2) 150 (1 / 2)]).
  { unfold all_crossings, los. cbn [seq flat_map plane_scan].
    unfold eq_plan, plane_coef_a, plane_coef_b, plane_coef_c, plane_coef_d. cbn [nth v0 v1 v2].
    rewrite Em, EM. unfold nb_rows, nb_columns. cbn [high_dtm dt_data rs_rows rs_cols].
    rdec. unfold plane_crossing, plane_coef_d.
    cbn [Nat.ltb Nat.leb nth v0 v1 v2 andb Z.add Pos.add]. rewrite ?Em, ?EM. rdec. cbn [app].
    f_equal; [|f_equal]; f_equal; field. }
  unfold intersect_dtm_cube_index. rewrite E. cbn [length exchange_sort sort_pass cr_h]. rdec. cbn [exchange_sort sort_pass cr_h filter].
  unfold test_on_cube, plane_coef_d. cbn [nth cr_col cr_row cr_alt]. rewrite Em, EM.
  unfold nb_rows, nb_columns. cbn [high_dtm dt_data rs_rows rs_cols]. rdec. cbn [cr_h cr_col cr_row cr_alt].
  fold high_dtm. unfold intersection, intersection_index. cbn [v0 v1 v2]. rewrite HI. rdec.
  replace (Rfloor (1 / 2)) with 0%Z by (symmetry; apply Rfloor_unique; lra).
  change (length los) with 2%nat.
  rewrite (vertex_step_vertical _ _ _ _ _ _ _ (V3 (1 / 2) (1 / 2) 200) (V3 (1 / 2) (1 / 2) 100)) by reflexivity.
  cbn [v0 v1 v2]. rewrite HI. rdec. unfold index_to_ter, transform_index_to_physical_point, affine_apply. cbn. unfold row_of_vec. cbn. unfold fin. f_equal. f_equal; f_equal; field.
Qed.
Example C60_grid_dtm_nodes_ex :
  proper_grid vertical_grid /\ big_enough (dt_data high_dtm) /\ lowest high_dtm 150 /\ highest high_dtm 150 /\
  hd_error (gr_alts vertical_grid) = Some 200 /\ hd_error (rev (gr_alts vertical_grid)) = Some 100 /\ 150 + 1 <= 200 /\ 100 <= 150 - 1 /\
  forall fuel, grid_direct_loc_grid_dtm fuel vertical_grid (1 / 2) (1 / 2) 1 1 1 1 high_dtm = Some [[R3 (fin (1 / 2)) (fin (1 / 2)) (fin 150)]].
Proof.
  split; [exact vertical_proper|]. split; [split; cbn; lia|]. split; [|split].
  { split; [intros; cbn; lra|]. exists 0%Z, 0%Z. split; [split; cbn; lia|reflexivity]. }
  { split; [intros; cbn; lra|]. exists 0%Z, 0%Z. split; [split; cbn; lia|reflexivity]. }
  split; [reflexivity|]. split; [reflexivity|]. split; [lra|]. split; [lra|]. intros fuel.
  unfold grid_direct_loc_grid_dtm, grid_dtm_node, compute_los. cbn [length Nat.eqb negb seq map seq_opt gr_epsg vertical_grid dt_epsg high_dtm Z.eqb Pos.eqb map2 gr_alts]. fold vertical_grid high_dtm.
  replace (1 / 2 + 1 * INR 0) with (1 / 2) by (cbn; ring). unfold fin at 1 2 3 4. rewrite !vertical_position.
  change [R3 (fin (1 / 2)) (fin (1 / 2)) (fin 200); R3 (fin (1 / 2)) (fin (1 / 2)) (fin 100)] with (map row_of_vec [V3 (1 / 2) (1 / 2) 200; V3 (1 / 2) (1 / 2) 100]).
  rewrite high_found. reflexivity.
Qed.

(** Otherwise they may differ: over a DTM that is below the layers, the nodes are NaN whereas the direct
    localization finds the point. *)
Theorem C60_grid_dtm_nodes_refuted :
  exists g d p, proper_grid g /\ big_enough (dt_data d) /\ invertible (dt_transform d) /\ gr_epsg g = Some (dt_epsg d) /\ p <> nan3 /\
  forall fuel, grid_direct_loc_grid_dtm fuel g (1 / 2) (1 / 2) 1 1 1 1 d = Some [[nan3]] /\
    grid_direct_loc_dtm (fun _ _ l => l) fuel g [fin (1 / 2)] [fin (1 / 2)] d = Some [p].
Proof.
  exists vertical_grid, flat_dtm, (R3 (fin (1 / 2)) (fin (1 / 2)) (fin 50)).
  split; [exact vertical_proper|]. split; [exact flat_big|]. split; [exact flat_invertible|]. split; [reflexivity|]. split; [discriminate|].
  intros fuel. split.
  - unfold grid_direct_loc_grid_dtm, grid_dtm_node, compute_los. cbn [length Nat.eqb negb seq map seq_opt gr_epsg vertical_grid dt_epsg flat_dtm Z.eqb Pos.eqb map2 gr_alts]. fold vertical_grid flat_dtm.
    replace (1 / 2 + 1 * INR 0) with (1 / 2) by (cbn; ring). unfold fin at 1 2 3 4. rewrite !vertical_position.
    change [R3 (fin (1 / 2)) (fin (1 / 2)) (fin 200); R3 (fin (1 / 2)) (fin (1 / 2)) (fin 100)] with (map row_of_vec [V3 (1 / 2) (1 / 2) 200; V3 (1 / 2) (1 / 2) 100]).
    rewrite vertical_missed. reflexivity.
  - destruct C59_surface_point_ex as (_ & _ & _ & _ & _ & H). specialize (H fuel).
    destruct (C59_batch_is_pointwise (fun _ _ l => l) fuel vertical_grid [fin (1 / 2); nan] [fin (1 / 2); fin 7] flat_dtm 4326 _ 0 (fin (1 / 2)) (fin (1 / 2)) vertical_proper flat_big eq_refl eq_refl (fun _ => eq_refl) eq_refl H eq_refl eq_refl) as (p & E1 & E2 & _).
    cbn in E1. injection E1 as <-. exact E2.
Qed.
