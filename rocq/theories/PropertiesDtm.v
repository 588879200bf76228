(** C14-C19: the DTM, its cube, and the walk of a line of sight over it ([dtm_intersection.py]). *)
From Coq Require Import Reals ZArith List Bool Lra Lia Psatz.
From Verif Require Import Num NumLemmas InterpModel InterpSpec InterpProofs ProjModel ProjSpec PropertiesProj
  DtmModel DtmSpec DtmCube DtmWalk DtmIntersect CppDtmModel CppDtmProofs DtmProofs DtmWitness.
Import ListNotations.
Open Scope R_scope.

(** A 3x3 DTM with a peak in the middle, on a skewed grid. *)
Definition ex_dtm : dtm :=
  mkDtm (mkRaster 3 3 (fun i j => if ((i =? 1) && (j =? 1))%Z then 10 else 0)) ex_gdal 4326.
Example ex_dtm_big : big_enough (dt_data ex_dtm).
Proof. split; simpl; lia. Qed.
Lemma dt_invertible d : invertible6 (dt_gdal d) -> invertible (dt_transform d).
Proof. intros H. exact H. Qed.
Example ex_dtm_inv : invertible (dt_transform ex_dtm).
Proof. apply dt_invertible, ex_gdal_inv. Qed.
Lemma ex_dtm_nodes i j : 0 <= rs_at (dt_data ex_dtm) i j <= 10.
Proof. cbn [ex_dtm dt_data rs_at]. destruct ((i =? 1) && (j =? 1))%Z; lra. Qed.

(** A line of sight given in the index frame of a DTM, in ground coordinates. *)
Definition ground (d : dtm) (los : list vec3) : list vec3 := map (index_to_ter (dt_transform d)) los.
Lemma ground_index d los : invertible (dt_transform d) -> los_to_index d (ground d los) = los.
Proof.
  intros H. unfold los_to_index, ters_to_indexs, ground, dt_trans_inv. rewrite map_map.
  rewrite <- (map_id los) at 2. apply map_ext. intros p. now apply C05_dtm_index_ter_index.
Qed.

(** ** C14 *)
Theorem C14_cell_bounds_bracket_the_surface :
  forall d i j r c v, is_cell (dt_data d) i j -> in_cell i j r c ->
  interpol_bilin (dt_data d) (nb_rows d) (nb_columns d) r c = Some v ->
  v = bilinear_in_cell (dt_data d) i j r c /\
  alt_min_cell d i j <= v <= alt_max_cell d i j /\ alt_min d <= v <= alt_max d.
Proof.
  intros d i j r c v Hc Hin Hv. unfold nb_rows, nb_columns in Hv.
  rewrite interpol_bilin_some in Hv by (destruct Hc; split; lia). injection Hv as <-.
  split; [now apply interp_in_cell|].
  split; [now apply cell_bounds_interp|now apply (global_bounds_interp d i j)].
Qed.
(** The global bounds are altitudes of nodes, and every node is between them. *)
Theorem C14_global_bounds_attained :
  forall d, big_enough (dt_data d) ->
  (forall i j, is_node (dt_data d) i j -> alt_min d <= rs_at (dt_data d) i j <= alt_max d) /\
  (exists i j, is_node (dt_data d) i j /\ rs_at (dt_data d) i j = alt_min d) /\
  (exists i j, is_node (dt_data d) i j /\ rs_at (dt_data d) i j = alt_max d).
Proof.
  intros d Hb. split; [|split; [now apply alt_min_node|now apply alt_max_node]].
  intros i j Hn. split; [now apply alt_min_le|now apply alt_max_ge].
Qed.
(** The bounds of a cell are integers, less than one metre away from one of its corners. *)
Theorem C14_cell_bounds_close :
  forall d i j, is_cell (dt_data d) i j ->
  (exists k, alt_min_cell d i j = IZR k) /\ (exists k, alt_max_cell d i j = IZR k) /\
  (exists a b, (a = i \/ a = i + 1)%Z /\ (b = j \/ b = j + 1)%Z /\
     rs_at (dt_data d) a b < alt_min_cell d i j + 1) /\
  (exists a b, (a = i \/ a = i + 1)%Z /\ (b = j \/ b = j + 1)%Z /\
     alt_max_cell d i j - 1 < rs_at (dt_data d) a b).
Proof.
  intros d i j _. unfold alt_min_cell, alt_max_cell. cbv zeta.
  set (f := rs_at (dt_data d)).
  split; [now eexists|]. split; [now eexists|]. split.
  - match goal with |- context [IZR (Rfloor ?m)] => pose proof (Rfloor_bounds m) as HF; set (x := m) in * end.
    assert (HX : x = f i j \/ x = f i (j + 1)%Z \/ x = f (i + 1)%Z j \/ x = f (i + 1)%Z (j + 1)%Z).
    { unfold x, Rmin. repeat destruct Rle_dec; auto. }
    destruct HX as [E|[E|[E|E]]]; rewrite E in *;
      [exists i, j|exists i, (j + 1)%Z|exists (i + 1)%Z, j|exists (i + 1)%Z, (j + 1)%Z];
      (repeat split; auto; lra).
  - match goal with |- context [IZR (Rceil ?m)] => pose proof (Rceil_bounds m) as HF; set (x := m) in * end.
    assert (HX : x = f i j \/ x = f i (j + 1)%Z \/ x = f (i + 1)%Z j \/ x = f (i + 1)%Z (j + 1)%Z).
    { unfold x, Rmax. repeat destruct Rle_dec; auto. }
    destruct HX as [E|[E|[E|E]]]; rewrite E in *;
      [exists i, j|exists i, (j + 1)%Z|exists (i + 1)%Z, j|exists (i + 1)%Z, (j + 1)%Z];
      (repeat split; auto; lra).
Qed.
(** The C++ tables of bounds are the same. *)
Theorem C14_cpp_bounds_agree :
  forall d i j, is_cell (dt_data d) i j ->
  cpp_alt (cd_min_cell (cpp_of d)) (i * (cd_cols (cpp_of d) - 1) + j) = alt_min_cell d i j /\
  cpp_alt (cd_max_cell (cpp_of d)) (i * (cd_cols (cpp_of d) - 1) + j) = alt_max_cell d i j.
Proof. intros. split; [now apply cpp_min_cell|now apply cpp_max_cell]. Qed.
Example C14_case : is_cell (dt_data ex_dtm) 1 1 /\ in_cell 1 1 (3 / 2) 2 /\
  exists v, interpol_bilin (dt_data ex_dtm) 3 3 (3 / 2) 2 = Some v.
Proof.
  split; [split; simpl; lia|]. split; [split; lra|]. eexists. apply (interpol_bilin_some (dt_data ex_dtm)).
  apply ex_dtm_big.
Qed.

(** ** C15 *)
(** The returned point is on the line of sight at the returned index (or it is the first vertex,
    with the index -1: see C16) and on a face of the cube. *)
Theorem C15_point_on_line_and_face :
  forall d los p h, big_enough (dt_data d) -> intersect_dtm_cube d los = Some (p, h) ->
  on_face (dt_data d) p /\
  (on_los (los_to_index d los) h p \/ (h = -1 /\ nth_error (los_to_index d los) 0 = Some p)).
Proof.
  intros d los p h Hb H. unfold intersect_dtm_cube in H.
  destruct (cube_some d _ p h Hb H) as (c & Hc & -> & -> & Hin & _).
  destruct (crossing_on_los d _ c Hc) as (i & Hi & Hs & Ho).
  split; [apply on_face_slack; eauto|exact Ho].
Qed.
(** For a line of sight with two points that starts outside of the cube: it is the first of its
    points in the cube. *)
Theorem C15_first_point_of_the_cube :
  forall d a b p h, big_enough (dt_data d) ->
  let ia := ter_to_index (dt_trans_inv d) a in let ib := ter_to_index (dt_trans_inv d) b in
  ~ in_cube (dt_data d) ia -> intersect_dtm_cube d [a; b] = Some (p, h) ->
  0 < h <= 1 /\ p = along ia ib h /\ on_face (dt_data d) p /\
  forall t, 0 <= t < h -> ~ in_cube (dt_data d) (along ia ib t).
Proof.
  intros d a b p h Hb ia ib Ha H.
  pose proof (C15_point_on_line_and_face d _ p h Hb H) as [HF _].
  destruct (cube_first d ia ib p h Hb Ha H) as (H1 & H2 & _ & _ & H5). auto.
Qed.
(** It succeeds when a point of the segment is strictly inside of the cube. *)
Theorem C15_succeeds_when_the_segment_goes_inside :
  forall d a b t, big_enough (dt_data d) ->
  let ia := ter_to_index (dt_trans_inv d) a in let ib := ter_to_index (dt_trans_inv d) b in
  ~ in_cube (dt_data d) ia -> ~ in_cube (dt_data d) ib ->
  0 <= t <= 1 -> strictly_in_cube (dt_data d) (along ia ib t) ->
  exists p h, intersect_dtm_cube d [a; b] = Some (p, h).
Proof.
  intros d a b t Hb ia ib Ha Hbn Ht Hin.
  destruct (intersect_dtm_cube d [a; b]) as [[p h]|] eqn:E; [eauto|].
  exfalso. exact (cube_found_if_inside d ia ib t Hb Ht Ha Hbn Hin E).
Qed.
(** ... also when it goes from above all the nodes to below all of them (a flat DTM has a cube
    without inside); the entry is then on the top face. *)
Theorem C15_succeeds_through_the_dtm :
  forall d a b, big_enough (dt_data d) ->
  let ia := ter_to_index (dt_trans_inv d) a in let ib := ter_to_index (dt_trans_inv d) b in
  in_hull (dt_data d) (v0 ia) (v1 ia) -> in_hull (dt_data d) (v0 ib) (v1 ib) ->
  all_nodes_below (dt_data d) (v2 a) -> all_nodes_above (dt_data d) (v2 b) ->
  exists h, 0 < h < 1 /\ intersect_dtm_cube d [a; b] = Some (along ia ib h, h) /\
    v2 (along ia ib h) = alt_max d.
Proof.
  intros d a b Hb ia ib H1 H2 H3 H4.
  apply (cube_found_through d ia ib Hb); try assumption;
    [now apply nodes_below_iff in H3|now apply nodes_above_iff in H4].
Qed.
Example C15_case :
  let a := V3 (1 / 2) (1 / 2) 20 in let b := V3 (3 / 2) (5 / 4) (-5) in
  ~ in_cube (dt_data ex_dtm) a /\ ~ in_cube (dt_data ex_dtm) b /\
  strictly_in_cube (dt_data ex_dtm) (along a b (1 / 2)) /\
  los_to_index ex_dtm (ground ex_dtm [a; b]) = [a; b].
Proof.
  cbv zeta. split; [|split; [|split]].
  - intros (_ & _ & i & j & _ & H). pose proof (ex_dtm_nodes i j). cbn [v2] in H. lra.
  - intros (_ & (i & j & _ & H) & _). pose proof (ex_dtm_nodes i j). cbn [v2] in H. lra.
  - split; [cbn [along v0 v1 ex_dtm dt_data rs_rows rs_cols]; split; simpl; lra|].
    split; [exists 0%Z, 0%Z|exists 1%Z, 1%Z]; (split; [split; simpl; lia|]); simpl; lra.
  - apply ground_index, ex_dtm_inv.
Qed.

(** ** C16 *)
(** When the first vertex is not in the cube, the index is in the range of the vertices. *)
Theorem C16_index_in_range_partial :
  forall d los p h v, big_enough (dt_data d) -> intersect_dtm_cube d los = Some (p, h) ->
  nth_error (los_to_index d los) 0 = Some v -> ~ in_cube (dt_data d) v ->
  0 <= h <= INR (length los) - 1.
Proof.
  intros d los p h v Hb H Hv Hn. destruct (cube_start d _ p h Hb H) as [Hin [[_ E]|Ho]].
  - exfalso. apply Hn. congruence.
  - destruct Ho as (i & u & w & t & E1 & E2 & Ht & -> & _).
    assert (Hl : (S i < length (los_to_index d los))%nat) by (apply nth_error_Some; congruence).
    unfold los_to_index, ters_to_indexs in Hl. rewrite map_length in Hl.
    apply le_INR in Hl. rewrite !S_INR in Hl. pose proof (pos_INR i). lra.
Qed.
(** A first vertex in the cube and on one of its faces: the index is -1. *)
Theorem C16_first_vertex_on_a_face_gives_minus_one :
  forall d a b p h, big_enough (dt_data d) -> on_face (dt_data d) (ter_to_index (dt_trans_inv d) a) ->
  intersect_dtm_cube d [a; b] = Some (p, h) -> p = ter_to_index (dt_trans_inv d) a /\ h = -1.
Proof.
  intros d a b p h Hb HF H. set (ia := ter_to_index (dt_trans_inv d) a) in *.
  assert (HS : exists i, (i < 6)%nat /\ slack d i ia = 0).
  { destruct HF as [Hin HF]. apply in_cube_iff in Hin; [|assumption]. destruct Hin as [_ Hz].
    destruct HF as [E|[E|[E|[E|[E|E]]]]].
    - exists 0%nat. split; [lia|]. cbn [slack]. lra.
    - exists 1%nat. split; [lia|]. cbn [slack]. unfold nb_rows. rewrite minus_IZR in E. rewrite ?minus_IZR. lra.
    - exists 2%nat. split; [lia|]. cbn [slack]. lra.
    - exists 3%nat. split; [lia|]. cbn [slack]. unfold nb_columns. rewrite minus_IZR in E. rewrite ?minus_IZR. lra.
    - exists 4%nat. split; [lia|]. cbn [slack]. destruct (alt_min_node d Hb) as (i & j & Hn & EN).
      specialize (E i j Hn). lra.
    - exists 5%nat. split; [lia|]. cbn [slack]. destruct (alt_max_node d Hb) as (i & j & Hn & EN).
      specialize (E i j Hn). lra. }
  destruct HS as (i & Hi & Hs).
  change (intersect_dtm_cube_index d [ia; ter_to_index (dt_trans_inv d) b] = Some (p, h)) in H.
  destruct (cube_some d _ p h Hb H) as (c & Hc & -> & -> & Hin & Hmin).
  pose proof (Hmin _ (crossing_first d ia _ i Hi Hs) (proj1 HF)) as HM. cbn [cr_h] in HM.
  destruct (crossing_on_los d _ c Hc) as (k & _ & _ & [Ho|[E1 E2]]).
  - apply on_los2 in Ho. lra.
  - split; [|exact E1]. cbn [nth_error] in E2. congruence.
Qed.
(** A line of sight that starts on the side of the cube on row 0 and goes inside is never found,
    because the walk is started on the reversed segment. *)
Theorem C16_start_on_the_first_row_never_found :
  forall d fuel a b, v0 a = 0 -> 0 < v0 b ->
  intersection d fuel [a; b] a (-1) = Some (false, V3 0 0 0).
Proof.
  intros d fuel a b Ha Hb.
  assert (E : intersection_index d fuel [a; b] a (-1) = NotFound).
  { rewrite intersection2_minus by (left; unfold d0; lra). destruct Rltb; [reflexivity|]. cbv zeta.
    assert (EF : first_cell (v0 a) (d0 b a) = (-1)%Z).
    { unfold first_cell. cbv zeta. rewrite Ha. change 0 with (IZR 0). rewrite Rfloor_IZR.
      rewrite (proj2 (Reqb_true 0 0)) by reflexivity. rewrite (proj2 (Rltb_true _ _)) by (unfold d0; lra).
      reflexivity. }
    rewrite EF. unfold cell_guard. cbn [w_a w_c w_r]. change (-1 <? -1)%Z with false.
    cbn [andb]. rewrite andb_false_r. reflexivity. }
  unfold intersection. now rewrite E.
Qed.
(** C16 is false of the code: a line of sight that starts on the side of the cube, above the
    surface, and goes below the surface inside of the cube has the index -1 and is not found. *)
Lemma ex_dtm_bounds : alt_min ex_dtm = 0 /\ alt_max ex_dtm = 10.
Proof.
  split.
  - apply Rle_antisym.
    + apply (alt_min_le ex_dtm 0 0). split; simpl; lia.
    + destruct (alt_min_node ex_dtm ex_dtm_big) as (i & j & _ & <-). apply ex_dtm_nodes.
  - apply Rle_antisym.
    + destruct (alt_max_node ex_dtm ex_dtm_big) as (i & j & _ & <-). apply ex_dtm_nodes.
    + apply (alt_max_ge ex_dtm 1 1). split; simpl; lia.
Qed.
Lemma ex_dtm_in_cube p : in_cube (dt_data ex_dtm) p <-> (0 <= v0 p <= 2 /\ 0 <= v1 p <= 2) /\ 0 <= v2 p <= 10.
Proof.
  rewrite in_cube_iff by apply ex_dtm_big. destruct ex_dtm_bounds as [-> ->].
  unfold in_hull. cbn [ex_dtm dt_data rs_rows rs_cols]. simpl. reflexivity.
Qed.
Theorem C16_index_in_range_refuted :
  exists d a b, big_enough (dt_data d) /\ invertible (dt_transform d) /\
  above (dt_data d) a /\ below (dt_data d) (along a b (1 / 2)) /\ in_cube (dt_data d) a /\
  intersect_dtm_cube d (ground d [a; b]) = Some (a, -1) /\
  (forall fuel, intersection d fuel (los_to_index d (ground d [a; b])) a (-1) = Some (false, V3 0 0 0)).
Proof.
  exists ex_dtm, (V3 0 1 5), (V3 2 1 (-5)).
  split; [apply ex_dtm_big|]. split; [apply ex_dtm_inv|]. split; [|split; [|split; [|split]]].
  - exists 5. split; [|lra]. exists 0%Z, 0%Z. split; [split; simpl; lia|].
    split; [split; simpl; lra|]. unfold bilinear_in_cell, lerp. simpl. lra.
  - exists (-10). split; [|lra]. exists 0%Z, 0%Z. split; [split; simpl; lia|].
    split; [split; simpl; lra|]. unfold bilinear_in_cell, lerp. simpl. lra.
  - apply ex_dtm_in_cube. simpl. lra.
  - unfold intersect_dtm_cube. rewrite ground_index by apply ex_dtm_inv.
    apply (cube_from_face ex_dtm _ _ 0 4 (1 / 2)); try lia; try apply ex_dtm_big; try lra.
    + apply ex_dtm_in_cube. simpl. lra.
    + cbn [slack v0]. lra.
    + cbn [slack v2]. destruct ex_dtm_bounds as [-> _]. lra.
    + cbn [slack v2 along]. destruct ex_dtm_bounds as [-> _]. lra.
    + apply ex_dtm_in_cube. simpl. lra.
  - intros fuel. rewrite ground_index by apply ex_dtm_inv.
    apply C16_start_on_the_first_row_never_found; simpl; lra.
Qed.
Example C16_case : exists a b p h, ~ in_cube (dt_data ex_dtm) (ter_to_index (dt_trans_inv ex_dtm) a) /\
  intersect_dtm_cube ex_dtm [a; b] = Some (p, h).
Proof.
  destruct C15_case as (H1 & H2 & H3 & HG).
  set (a := V3 (1 / 2) (1 / 2) 20) in *. set (b := V3 (3 / 2) (5 / 4) (-5)) in *.
  exists (index_to_ter (dt_transform ex_dtm) a), (index_to_ter (dt_transform ex_dtm) b).
  pose proof (C15_succeeds_when_the_segment_goes_inside ex_dtm (index_to_ter (dt_transform ex_dtm) a)
    (index_to_ter (dt_transform ex_dtm) b) (1 / 2) ex_dtm_big) as HS. cbv zeta in HS.
  unfold dt_trans_inv in *. rewrite !C05_dtm_index_ter_index in HS by apply ex_dtm_inv.
  destruct (HS H1 H2 ltac:(lra) H3) as (p & h & E). exists p, h.
  rewrite C05_dtm_index_ter_index by apply ex_dtm_inv. auto.
Qed.

(** ** C17 *)
(** For every DTM and every line of sight with two points: a reported point is on the straight line
    of the two points, not before the entry in the cube, over the DTM, and at the altitude of the
    surface up to 1e-4. *)
Theorem C17_two_points :
  forall d fuel a b p h g, big_enough (dt_data d) -> invertible (dt_transform d) ->
  intersect_dtm_cube d [a; b] = Some (p, h) ->
  intersection d fuel (los_to_index d [a; b]) p h = Some (true, g) ->
  exists u, g = along a b u /\ (0 <= h -> h <= u) /\
    on_surface (dt_data d) (1 / 10000) (ter_to_index (dt_trans_inv d) g).
Proof.
  intros d fuel a b p h g Hb Hinv HC HI. unfold intersect_dtm_cube in HC.
  set (ia := ter_to_index (dt_trans_inv d) a). set (ib := ter_to_index (dt_trans_inv d) b).
  change (los_to_index d [a; b]) with [ia; ib] in *.
  destruct (cube_start2 d ia ib p h Hb HC) as [Hin Hp].
  apply in_cube_iff in Hin; [|assumption]. destruct Hin as [Hin _].
  unfold intersection in HI. destruct (intersection_index d fuel [ia; ib] p h) as [q| | |] eqn:EI; try discriminate.
  injection HI as <-.
  assert (HU : exists u, (0 <= h -> h <= u) /\ q = along ia ib u /\ on_surface (dt_data d) tol_z q).
  { destruct Hp as [[-> ->]|[Hh ->]].
    - destruct (found2_minus d fuel ia ib q Hb Hin EI) as (u & E & Hs). exists u. split; [lra|auto].
    - destruct (Req_dec h 1) as [->|Hn]; [rewrite intersection2_end in EI; discriminate|].
      destruct (found2 d fuel ia ib h q Hb ltac:(lra) Hin EI) as (u & E & Hs). exists u. auto. }
  destruct HU as (u & Hu & -> & Hs). exists u.
  assert (EG : index_to_ter (dt_transform d) (along ia ib u) = along a b u).
  { unfold ia, ib. rewrite <- ter_to_index_along. unfold dt_trans_inv. now apply C05_dtm_ter_index_ter. }
  rewrite EG. split; [reflexivity|]. split; [assumption|].
  rewrite ter_to_index_along. exact Hs.
Qed.
(** With more vertices: the same, when no segment is vertical (in the index frame) and no vertex
    is hidden below the surface inside of one cell.  Missing: vertical segments, for which the
    claim is false (below), and hidden vertices. *)
Theorem C17_polyline_partial :
  forall d fuel los p h g, big_enough (dt_data d) -> invertible (dt_transform d) ->
  let ilos := los_to_index d los in
  (forall k u w, nth_error ilos k = Some u -> nth_error ilos (S k) = Some w -> v0 u <> v0 w \/ v1 u <> v1 w) ->
  no_vertex_hidden_in_a_cell (dt_data d) ilos -> on_los ilos h p ->
  intersection d fuel ilos p h = Some (true, g) ->
  exists k u w t, nth_error los k = Some u /\ nth_error los (S k) = Some w /\ 0 <= t /\ h <= INR k + t /\
    g = along u w t /\ on_surface (dt_data d) (1 / 10000) (ter_to_index (dt_trans_inv d) g).
Proof.
  intros d fuel los p h g Hb Hinv ilos Hob Hdip Hon HI.
  assert (Hob' : oblique ilos).
  { intros k u w E1 E2. destruct (Hob k u w E1 E2); [left|right]; unfold d0, d1; lra. }
  pose proof (intersection_n d fuel ilos p h Hb Hob' (hidden_iff d ilos Hb Hdip) Hon) as HN.
  unfold intersection in HI. destruct (intersection_index d fuel ilos p h) as [q| | |]; try discriminate.
  injection HI as <-. destruct HN as (k & u & w & t & Ht & E1 & E2 & Ht0 & -> & Hs).
  unfold ilos, los_to_index, ters_to_indexs in E1, E2.
  rewrite nth_error_map in E1, E2.
  destruct (nth_error los k) as [u0|] eqn:Eu; [|discriminate]. injection E1 as <-.
  destruct (nth_error los (S k)) as [w0|] eqn:Ew; [|discriminate]. injection E2 as <-.
  exists k, u0, w0, t. rewrite Ew. do 4 (split; [auto|]). rewrite <- ter_to_index_along.
  assert (EG : index_to_ter (dt_transform d) (ter_to_index (dt_trans_inv d) (along u0 w0 t)) = along u0 w0 t)
    by now apply C05_dtm_ter_index_ter.
  rewrite EG. split; [reflexivity|]. now rewrite ter_to_index_along.
Qed.
Example C17_case : exists a b p h,
  intersect_dtm_cube ex_dtm [a; b] = Some (p, h) /\
  exists fuel g, intersection ex_dtm fuel (los_to_index ex_dtm [a; b]) p h = Some (true, g).
Proof.
  set (a := V3 (1 / 2) (1 / 2) 20). set (b := V3 (3 / 2) (5 / 4) (-5)).
  assert (Ha : alt_max ex_dtm < v2 a) by (destruct ex_dtm_bounds as [_ ->]; simpl; lra).
  assert (Hbz : v2 b < alt_min ex_dtm - tol_z) by (destruct ex_dtm_bounds as [-> _]; unfold tol_z; simpl; lra).
  destruct (through_found ex_dtm (fuel_bound ex_dtm) a b) as (h & Hh & EC & [EI|(u & _ & EI & _)]);
    try assumption; try apply ex_dtm_big; try apply le_n;
    try (split; cbn [a b v0 v1 ex_dtm dt_data rs_rows rs_cols]; simpl; lra).
  - intros [[H _]|[H _]]; unfold d0, d1 in H; simpl in H; lra.
  - exfalso. apply crash2 in EI; [|lra]. destruct EI as (e & i & j & (_ & Hc & Hin & _) & E & _).
    destruct (cube_found_through ex_dtm a b ex_dtm_big Ha) as (h' & Hh' & EC' & Hz);
      try (split; cbn [a b v0 v1 ex_dtm dt_data rs_rows rs_cols]; simpl; lra);
      [destruct ex_dtm_bounds as [-> _]; simpl; lra|].
    assert (E1 : h' = h) by congruence. subst h'. destruct ex_dtm_bounds as [_ HM]. rewrite HM in Hz.
    assert (h = 2 / 5) by (cbn [along v2 a b] in Hz; lra). subst h.
    assert (EF : clr ex_dtm a b (2 / 5) = 10 - bilinear_in_cell (dt_data ex_dtm) 0 0 (9 / 10) (8 / 10)).
    { unfold clr, interpolate. rewrite (interp_in_cell _ 0 0).
      - f_equal; [cbn [along v2 a b]; lra|]. f_equal; cbn [along v0 v1 a b]; lra.
      - split; simpl; lia.
      - split; cbn [along v0 v1 a b]; lra. }
    rewrite EF in E. unfold bilinear_in_cell, lerp in E. simpl in E. lra.
  - exists (index_to_ter (dt_transform ex_dtm) a), (index_to_ter (dt_transform ex_dtm) b), (along a b h), h.
    change [index_to_ter (dt_transform ex_dtm) a; index_to_ter (dt_transform ex_dtm) b] with (ground ex_dtm [a; b]).
    unfold intersect_dtm_cube. rewrite ground_index by apply ex_dtm_inv. split; [exact EC|].
    exists (fuel_bound ex_dtm). eexists. unfold intersection. rewrite EI. reflexivity.
Qed.
Example C17_polyline_case :
  let d := corner_dtm in let ilos := los_to_index d (ground d bent2) in
  ilos = bent2 /\
  (forall k u w, nth_error ilos k = Some u -> nth_error ilos (S k) = Some w -> v0 u <> v0 w \/ v1 u <> v1 w) /\
  no_vertex_hidden_in_a_cell (dt_data d) ilos /\ on_los ilos (13 / 12) (V3 (25 / 48) 0 10) /\
  intersection d 1 ilos (V3 (25 / 48) 0 10) (13 / 12) =
    Some (true, index_to_ter (dt_transform d) (V3 (35 / 48) 0 0)).
Proof.
  cbv zeta. rewrite ground_index by (apply dt_invertible, ex_gdal_inv). split; [reflexivity|].
  split; [|split; [|split]].
  - intros [|[|[|k]]] u w E1 E2; try discriminate; try (destruct k; discriminate);
      injection E1 as <-; injection E2 as <-; left; simpl; lra.
  - intros k u w s e i j Hl E1 E2 _ _ _ _ _ _ _ _. cbn [bent2 length] in Hl.
    assert (k = 0%nat) by lia. subst k. injection E1 as <-. injection E2 as <-.
    exists 11. split; [|lra]. exists 0%Z, 0%Z. split; [split; simpl; lia|].
    split; [split; simpl; lra|]. unfold bilinear_in_cell, lerp. simpl. lra.
  - exists 1%nat, (V3 (1 / 2) 0 11), (V3 (3 / 4) 0 (-1)), (1 / 12).
    do 2 (split; [reflexivity|]). split; [lra|]. split; [simpl; lra|]. unfold along. cbn [v0 v1 v2]. f_equal; lra.
  - unfold intersection. now rewrite bent2_walk by lia.
Qed.
(** A vertical segment followed by an oblique one: the walk goes on from the entry point instead of
    the vertex, and the reported point is 28 cm above the line of sight. *)
Theorem C17_vertical_segment_refuted :
  exists d los p h q, big_enough (dt_data d) /\ invertible (dt_transform d) /\
  intersect_dtm_cube d (ground d los) = Some (p, h) /\
  (forall fuel, (1 <= fuel)%nat ->
     intersection d fuel (los_to_index d (ground d los)) p h = Some (true, index_to_ter (dt_transform d) q)) /\
  (forall k u w t, nth_error los k = Some u -> nth_error los (S k) = Some w ->
     v0 (along u w t) = v0 q -> v1 (along u w t) = v1 q -> v2 (along u w t) < v2 q - 1 / 4).
Proof.
  exists corner_dtm, bent, (V3 (1 / 2) 0 10), (1 / 4), (V3 (41 / 42) 0 0).
  assert (HI : invertible (dt_transform corner_dtm)) by (apply dt_invertible, ex_gdal_inv).
  split; [apply corner_big|]. split; [assumption|].
  unfold intersect_dtm_cube. rewrite ground_index by assumption.
  split; [apply bent_cube|]. split.
  - intros fuel Hf. unfold intersection. now rewrite bent_walk.
  - intros [|[|[|k]]] u w t E1 E2; try discriminate; try (destruct k; discriminate);
      injection E1 as <-; injection E2 as <-; cbn [along v0 v1 v2]; intros H1 H2; lra.
Qed.

(** ** C18 *)
(** The number of iterations of each loop is bounded in advance: with at least
    rows + columns + 2 (max - min) / tol_z + 1 iterations allowed, none is missing, for every line
    of sight with two points. *)
Theorem C18_two_points_terminates :
  forall d fuel a b p h, big_enough (dt_data d) -> (fuel_bound d <= fuel)%nat ->
  intersect_dtm_cube d [a; b] = Some (p, h) ->
  intersection_index d fuel (los_to_index d [a; b]) p h <> NoFuel.
Proof.
  intros d fuel a b p h Hb HF HC. unfold intersect_dtm_cube in HC.
  set (ia := ter_to_index (dt_trans_inv d) a). set (ib := ter_to_index (dt_trans_inv d) b).
  change (los_to_index d [a; b]) with [ia; ib] in *. apply fuel_bound_ok in HF.
  destruct (cube_start2 d ia ib p h Hb HC) as [_ [[-> ->]|[Hh ->]]].
  - now apply fuel2_minus.
  - destruct (Req_dec h 1) as [->|Hn]; [rewrite intersection2_end; discriminate|].
    apply fuel2; auto. lra.
Qed.
(** The result does not depend on the bound. *)
Theorem C18_result_independent_of_the_bound :
  forall d fuel fuel' los p h, (fuel <= fuel')%nat ->
  intersection_index d fuel los p h <> NoFuel ->
  intersection_index d fuel' los p h = intersection_index d fuel los p h.
Proof. intros. now apply intersection_mono. Qed.
(** The two inner loops separately: a segment crosses at most rows + columns cells ([cells]) and a
    refinement has at most one iteration more than the twist of the cell divided by tol_z
    ([refinements]). *)
Theorem C18_cells_and_refinements_per_segment :
  forall d a b cells refinements k t w, big_enough (dt_data d) -> v0 a <> v0 b \/ v1 a <> v1 b -> 0 <= t ->
  w_p w = along a b t -> w_c w = first_cell (v0 (w_p w)) (v0 b - v0 a) ->
  w_r w = first_cell (v1 (w_p w)) (v1 b - v1 a) -> not_below (dt_data d) (along a b t) ->
  (Z.to_nat (nb_rows d + nb_columns d) <= cells)%nat -> (k < refinements)%nat ->
  (forall i j, is_cell (dt_data d) i j -> Rabs (twist (dt_data d) i j) <= INR k * tol_z) ->
  cell_loop d (segment_of a b) refinements cells w <> CDone NoFuel.
Proof.
  intros d a b n m k t w Hb Hd Ht Hp Hc Hr Hcl Hn Hkn Hk.
  assert (Hcl' : 0 <= clr d a b t).
  { destruct Hcl as (e & He & Hcl). apply clearance_iff in He; [|assumption]. destruct He as [_ ->]. exact Hcl. }
  assert (Hd' : d0 a b <> 0 \/ d1 a b <> 0) by (destruct Hd; [left|right]; unfold d0, d1; lra).
  destruct (cell_guard d w) eqn:EG.
  - apply guard_iff in EG.
    apply (cell_loop_fuel d a b m Hd' (ex_intro _ k (conj Hkn Hk)) n w t); auto.
    + split; [assumption|]. rewrite <- Hp, Hc, Hr. split; apply first_cell_heading.
    + pose proof (ahead_pos d w a b Hd' (proj2 EG)). lia.
  - destruct n; cbn [cell_loop]; rewrite EG; discriminate.
Qed.
(** More vertices, under the conditions of C17_polyline_partial (missing: vertical segments and
    hidden vertices). *)
Theorem C18_polyline_terminates_partial :
  forall d fuel los p h, big_enough (dt_data d) -> (fuel_bound d <= fuel)%nat ->
  let ilos := los_to_index d los in
  (forall k u w, nth_error ilos k = Some u -> nth_error ilos (S k) = Some w -> v0 u <> v0 w \/ v1 u <> v1 w) ->
  no_vertex_hidden_in_a_cell (dt_data d) ilos -> on_los ilos h p ->
  intersection_index d fuel ilos p h <> NoFuel.
Proof.
  intros d fuel los p h Hb HF ilos Hob Hdip Hon E.
  assert (Hob' : oblique ilos).
  { intros k u w E1 E2. destruct (Hob k u w E1 E2); [left|right]; unfold d0, d1; lra. }
  pose proof (intersection_n d fuel ilos p h Hb Hob' (hidden_iff d ilos Hb Hdip) Hon) as HN. rewrite E in HN. lia.
Qed.
Example C18_case : fuel_bound corner_dtm = Z.to_nat 200005.
Proof.
  unfold fuel_bound. destruct corner_bounds as [-> ->].
  replace (2 * (10 - 0) / tol_z) with (IZR 200000) by (unfold tol_z; field).
  rewrite Rceil_IZR. change (nb_rows corner_dtm + nb_columns corner_dtm)%Z with 4%Z.
  lia.
Qed.

(** ** C19 *)
(** One move of the walk on the segment a-b: from the abscissa t, in the cell (w_c, w_r) that the
    segment is entering or inside of, to the first border of a cell after t; the stretch in between
    is inside the cell, and the next cell shares an edge or a corner with it and is again the one the
    segment enters. *)
Theorem C19_move :
  forall a b w t, v0 a <> v0 b \/ v1 a <> v1 b ->
  w_p w = along a b t -> heading (v0 (along a b t)) (v0 b - v0 a) (w_c w) ->
  heading (v1 (along a b t)) (v1 b - v1 a) (w_r w) ->
  let w' := mesh_move (segment_of a b) w in let t' := w_a w' in
  t < t' /\ w_p w' = along a b t' /\ crosses_border a b t' /\
  (forall u, t < u < t' -> ~ crosses_border a b u) /\
  (forall u, t <= u <= t' -> in_cell (w_c w) (w_r w) (v0 (along a b u)) (v1 (along a b u))) /\
  (-1 <= w_c w' - w_c w <= 1)%Z /\ (-1 <= w_r w' - w_r w <= 1)%Z /\
  heading (v0 (along a b t')) (v0 b - v0 a) (w_c w') /\ heading (v1 (along a b t')) (v1 b - v1 a) (w_r w').
Proof.
  intros a b w t Hd Hp H0 H1. cbv zeta.
  assert (Hd' : d0 a b <> 0 \/ d1 a b <> 0) by (destruct Hd; [left|right]; unfold d0, d1; lra).
  destruct (move_spec ex_dtm a b w t (conj Hp (conj H0 H1)) Hd') as [M1 (M2 & M2' & M2'') M3 M4 M5 _ _ [M6 M6'] _].
  split; [assumption|]. split; [assumption|]. split; [now apply crosses_border_iff|].
  split; [intros u Hu HX; apply (M5 u Hu); now apply crosses_border_iff|].
  repeat (split; [assumption|]). assumption.
Qed.
(** The start of the walk is such a state. *)
Theorem C19_start :
  forall p dir, heading p dir (first_cell p dir).
Proof. apply first_cell_heading. Qed.
(** A cell passed over by the altitude test: the stretch is strictly above the cell. *)
Theorem C19_skipped_cells :
  forall d a b s e i j, big_enough (dt_data d) -> is_cell (dt_data d) i j -> 0 <= s < e ->
  in_cell i j (v0 (along a b s)) (v1 (along a b s)) -> in_cell i j (v0 (along a b e)) (v1 (along a b e)) ->
  not_below (dt_data d) (along a b s) ->
  may_intersect (alt_min_cell d i j) (alt_max_cell d i j) (v2 a) (v2 b) (v2 (along a b s)) (v2 (along a b e)) = false ->
  forall u, s <= u <= e -> u <= 1 -> above (dt_data d) (along a b u).
Proof.
  intros d a b s e i j Hb Hc Hse Hs He Hcl HM u Hu Hu1.
  apply (not_below_iff d a b s Hb (cell_hull _ _ _ _ _ Hc Hs)) in Hcl.
  pose proof (along_between a b s e u i j Hu Hs He) as Hin.
  pose proof (cell_bounds_interp d i j _ _ Hc Hs) as B0.
  pose proof (cell_bounds_interp d i j _ _ Hc Hin) as B1.
  pose proof (skip_sound _ _ a b s e HM Hse ltac:(unfold clr in Hcl; lra) u Hu Hu1) as HS.
  exists (v2 (along a b u) - bilinear_in_cell (dt_data d) i j (v0 (along a b u)) (v1 (along a b u))).
  split; [exists i, j; auto|]. unfold interpolate in B1. rewrite (interp_in_cell _ i j) in B1 by assumption. lra.
Qed.
(** A line of sight with two points is reported "not found" only if it enters the cube below the
    surface, or is above the surface at each border of a cell it crosses after the entry. *)
Theorem C19_not_found_above_the_borders :
  forall d fuel a b p h g, big_enough (dt_data d) ->
  let ia := ter_to_index (dt_trans_inv d) a in let ib := ter_to_index (dt_trans_inv d) b in
  v0 ia <> v0 ib \/ v1 ia <> v1 ib -> ~ runs_along_last_line (dt_data d) ia ib ->
  ~ in_cube (dt_data d) ia ->
  intersect_dtm_cube d [a; b] = Some (p, h) ->
  intersection d fuel (los_to_index d [a; b]) p h = Some (false, g) ->
  below (dt_data d) p \/
  (not_below (dt_data d) p /\
   forall t e, h < t < 1 -> crosses_border ia ib t -> clearance (dt_data d) (along ia ib t) e -> 0 < e).
Proof.
  intros d fuel a b p h g Hb ia ib Hd HL HN HC HI. unfold intersect_dtm_cube in HC.
  change (los_to_index d [a; b]) with [ia; ib] in *.
  destruct (cube_first d ia ib p h Hb HN HC) as (Hh & -> & Hin & _).
  apply in_cube_iff in Hin; [|assumption]. destruct Hin as [Hin _].
  assert (HP : clearance (dt_data d) (along ia ib h) (clr d ia ib h)) by now apply clearance_iff.
  assert (Hd' : d0 ia ib <> 0 \/ d1 ia ib <> 0) by (destruct Hd; [left|right]; unfold d0, d1; lra).
  destruct (Rlt_le_dec (clr d ia ib h) 0) as [Hc|Hc]; [left; eexists; eauto|].
  right. split; [eexists; eauto|].
  destruct (Req_dec h 1) as [->|Hn]; [intros; lra|].
  assert (EI : intersection_index d fuel [ia; ib] (along ia ib h) h = NotFound).
  { unfold intersection in HI. destruct intersection_index; congruence. }
  destruct (not_found2 d fuel ia ib h Hb ltac:(lra) Hd' ltac:(now rewrite <- last_line_iff) Hin EI)
    as [?|(_ & HM & _)]; [lra|].
  intros t e Ht HX HE. apply clearance_iff in HE; [|assumption]. destruct HE as [HE ->].
  apply (HM t Ht HE). now apply crosses_border_iff.
Qed.
(** Consequence, from end to end: a line of sight that comes from above all the nodes and goes below
    all of them over the DTM is found, between its ends, unless the entry point is exactly on the
    surface (C53). *)
Theorem C19_line_through_the_dtm_is_found :
  forall d fuel a b, big_enough (dt_data d) -> invertible (dt_transform d) -> (fuel_bound d <= fuel)%nat ->
  let ia := ter_to_index (dt_trans_inv d) a in let ib := ter_to_index (dt_trans_inv d) b in
  in_hull (dt_data d) (v0 ia) (v1 ia) -> in_hull (dt_data d) (v0 ib) (v1 ib) ->
  all_nodes_below (dt_data d) (v2 a) -> all_nodes_above (dt_data d) (v2 b + 1 / 10000) ->
  ~ runs_along_last_line (dt_data d) ia ib ->
  exists p h, intersect_dtm_cube d [a; b] = Some (p, h) /\
    (clearance (dt_data d) p 0 \/
     exists u, h <= u <= 1 /\
       intersection d fuel (los_to_index d [a; b]) p h = Some (true, along a b u) /\
       on_surface (dt_data d) (1 / 10000) (ter_to_index (dt_trans_inv d) (along a b u))).
Proof.
  intros d fuel a b Hb Hinv HF ia ib Ha Hbb HA HB HL.
  apply nodes_below_iff in HA; [|assumption]. apply nodes_above_iff in HB; [|assumption].
  assert (HL' : ~ along_last_border d ia ib) by now rewrite <- last_line_iff.
  destruct (through_found d fuel ia ib Hb HF HA ltac:(change (v2 ib) with (v2 b); unfold tol_z; lra) Ha Hbb HL')
    as (h & Hh & EC & HR).
  exists (along ia ib h), h. split; [exact EC|]. destruct HR as [EI|(u & Hu & EI & Hs)].
  - left. apply crash2 in EI; [|lra]. destruct EI as (e & i & j & HS & E & _).
    rewrite <- E. apply (stretch_hull d ia ib h e i j h Hb HS). destruct HS. lra.
  - right. exists u. split; [assumption|].
    change (los_to_index d [a; b]) with [ia; ib]. unfold intersection. rewrite EI. split.
    + unfold ia, ib. rewrite <- ter_to_index_along. unfold dt_trans_inv.
      now rewrite C05_dtm_ter_index_ter.
    + rewrite ter_to_index_along. exact Hs.
Qed.
Example C19_case :
  let a := V3 (1 / 2) (1 / 2) 20 in let b := V3 (3 / 2) (5 / 4) (-5) in
  in_hull (dt_data ex_dtm) (v0 a) (v1 a) /\ in_hull (dt_data ex_dtm) (v0 b) (v1 b) /\
  all_nodes_below (dt_data ex_dtm) (v2 a) /\ all_nodes_above (dt_data ex_dtm) (v2 b + 1 / 10000) /\
  ~ runs_along_last_line (dt_data ex_dtm) a b /\ los_to_index ex_dtm (ground ex_dtm [a; b]) = [a; b].
Proof.
  cbv zeta. cbn [v0 v1 v2]. unfold in_hull. cbn [ex_dtm dt_data rs_rows rs_cols]. simpl (3 - 1)%Z.
  split; [lra|]. split; [lra|]. split; [|split; [|split]].
  - intros i j _. pose proof (ex_dtm_nodes i j). cbn [ex_dtm dt_data] in H. lra.
  - intros i j _. pose proof (ex_dtm_nodes i j). cbn [ex_dtm dt_data] in H. lra.
  - intros [[H _]|[H _]]; simpl in H; lra.
  - apply ground_index, ex_dtm_inv.
Qed.
