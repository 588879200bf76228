(** Properties C17 and C18 for lines of sight with vertical segments and with hidden vertices. *)
From Coq Require Import Reals ZArith List Bool Lra Lia Psatz.
From Verif Require Import Num NumLemmas InterpModel InterpSpec InterpProofs ProjModel ProjSpec PropertiesProj
  DtmModel DtmSpec DtmCube DtmWalk DtmIntersect CppDtmModel CppDtmProofs DtmProofs DtmWitness DtmHeld DtmHidden PropertiesDtm.
Import ListNotations.
Open Scope R_scope.

Lemma hidden_spec d los : big_enough (dt_data d) ->
  no_hidden_vertex d los -> no_vertex_hidden_in_a_cell (dt_data d) los.
Proof.
  intros Hb H k u w s e i j Hl E1 E2 Hs Hs1 He Hc Is Ie Ns Ne.
  assert (I1 : in_cell i j (v0 (along u w 1)) (v1 (along u w 1))) by (apply (along_between u w s e); auto; lra).
  rewrite <- (along_at_1 u w).
  apply (not_below_iff d u w 1 Hb (cell_hull _ _ _ _ _ Hc I1)).
  apply (not_below_iff d u w s Hb (cell_hull _ _ _ _ _ Hc Is)) in Ns.
  apply (above_iff d u w e Hb (cell_hull _ _ _ _ _ Hc Ie)) in Ne.
  apply (H k u w s e i j); auto. split; [lra|]. auto.
Qed.

(** ** C17 *)
(** For every DTM and every line of sight, with vertical segments or not, none of whose vertices is
    hidden below the surface in a cell: the walk started at a point of the line of sight over the DTM
    reports only points that are over the DTM and at the altitude of the surface up to 1e-4.
    Missing: with vertical segments the point is not always on the line (C17_vertical_segment_refuted);
    hidden vertices, for which the claim is false (below). *)
Theorem C17_vertical_segments_partial :
  forall d fuel los p h g, big_enough (dt_data d) -> invertible (dt_transform d) ->
  let ilos := los_to_index d los in
  no_vertex_hidden_in_a_cell (dt_data d) ilos -> on_los ilos h p -> in_hull (dt_data d) (v0 p) (v1 p) ->
  intersection d fuel ilos p h = Some (true, g) ->
  on_surface (dt_data d) (1 / 10000) (ter_to_index (dt_trans_inv d) g).
Proof.
  intros d fuel los p h g Hb Hinv ilos Hdip Hon Hin HI.
  pose proof (intersection_any d fuel ilos p h Hb (hidden_iff d ilos Hb Hdip) Hon Hin) as HN.
  unfold intersection in HI. destruct (intersection_index d fuel ilos p h) as [q| | |]; try discriminate.
  injection HI as <-. unfold dt_trans_inv. now rewrite C05_dtm_index_ter_index.
Qed.
Lemma bent_no_hidden : no_vertex_hidden_in_a_cell (dt_data corner_dtm) bent.
Proof.
  intros k u w s e i j Hl E1 E2 _ _ _ _ _ _ _ _. cbn [bent length] in Hl.
  assert (k = 0%nat) by lia. subst k. injection E1 as <-. injection E2 as <-.
  exists 4. split; [|lra]. exists 0%Z, 0%Z. split; [split; simpl; lia|].
  split; [split; simpl; lra|]. unfold bilinear_in_cell, lerp. simpl. lra.
Qed.
Lemma bent_start : on_los bent (1 / 4) (V3 (1 / 2) 0 10) /\ in_hull (dt_data corner_dtm) (1 / 2) 0.
Proof.
  split.
  - exists 0%nat, (V3 (1 / 2) 0 12), (V3 (1 / 2) 0 4), (1 / 4).
    do 2 (split; [reflexivity|]). split; [lra|]. split; [simpl; lra|]. unfold along. cbn [v0 v1 v2]. f_equal; lra.
  - unfold in_hull. simpl. lra.
Qed.
(** The line of sight with a vertical first segment of C17_vertical_segment_refuted. *)
Example C17_vertical_case :
  let d := corner_dtm in let ilos := los_to_index d (ground d bent) in
  no_vertex_hidden_in_a_cell (dt_data d) ilos /\ on_los ilos (1 / 4) (V3 (1 / 2) 0 10) /\
  in_hull (dt_data d) (1 / 2) 0 /\
  intersection d 1 ilos (V3 (1 / 2) 0 10) (1 / 4) = Some (true, index_to_ter (dt_transform d) (V3 (41 / 42) 0 0)).
Proof.
  cbv zeta. rewrite ground_index by (apply dt_invertible, ex_gdal_inv).
  split; [apply bent_no_hidden|]. split; [apply bent_start|]. split; [apply bent_start|].
  unfold intersection. now rewrite bent_walk by lia.
Qed.

(** A vertex hidden in a cell.  The line of sight goes down from above the highest node to below the
    lowest one, the entry in the cube is over the surface, and the walk stops at a point that is
    outside of the DTM. *)
Theorem C17_hidden_vertex_refuted :
  exists d u v w p h q, let los := [u; v; w] in
  big_enough (dt_data d) /\ invertible (dt_transform d) /\
  v2 w < v2 v < v2 u /\ all_nodes_below (dt_data d) (v2 u) /\ all_nodes_above (dt_data d) (v2 w) /\
  below (dt_data d) v /\ above (dt_data d) p /\
  intersect_dtm_cube d (ground d los) = Some (p, h) /\
  (forall fuel, (2 <= fuel)%nat ->
     intersection d fuel (los_to_index d (ground d los)) p h = Some (true, index_to_ter (dt_transform d) q)) /\
  ~ in_hull (dt_data d) (v0 q) (v1 q).
Proof.
  exists ridge, (V3 (-21 / 2) (-19 / 2) 124), (V3 (1 / 2) (3 / 2) 36), (V3 (11 / 2) (-7 / 2) (-24)),
    (V3 0 1 40), (21 / 22), (V3 3 (-1) 6). cbv zeta. fold leaving.
  assert (HI : invertible (dt_transform ridge)) by (apply dt_invertible, ex_gdal_inv).
  destruct ridge_bounds as [Bm BM].
  split; [apply ridge_big|]. split; [assumption|]. split; [simpl; lra|].
  split; [apply (nodes_below_iff ridge _ ridge_big); rewrite BM; simpl; lra|].
  split; [apply (nodes_above_iff ridge _ ridge_big); rewrite Bm; simpl; lra|].
  split; [|split].
  - exists (-4). split; [|lra]. apply (clearance_iff ridge _ _ ridge_big). cbn [v0 v1 v2].
    rewrite ridge_01 by lra. split; [unfold in_hull; simpl; lra|lra].
  - exists 14. split; [|lra]. apply (clearance_iff ridge _ _ ridge_big). cbn [v0 v1 v2].
    rewrite ridge_01 by lra. split; [unfold in_hull; simpl; lra|lra].
  - unfold intersect_dtm_cube. rewrite ground_index by assumption. split; [apply leaving_cube|]. split.
    + intros fuel Hf. unfold intersection. now rewrite leaving_walk.
    + unfold in_hull. simpl. lra.
Qed.

(** ** C18 *)
(** For every DTM and every line of sight, with vertical segments or not, none of whose vertices is
    hidden below the surface in a cell.  Missing: hidden vertices, for which the claim is false
    (below). *)
Theorem C18_vertical_segments_partial :
  forall d fuel los p h, big_enough (dt_data d) -> (fuel_bound d <= fuel)%nat ->
  let ilos := los_to_index d los in
  no_vertex_hidden_in_a_cell (dt_data d) ilos -> on_los ilos h p -> in_hull (dt_data d) (v0 p) (v1 p) ->
  intersection_index d fuel ilos p h <> NoFuel.
Proof.
  intros d fuel los p h Hb HF ilos Hdip Hon Hin E.
  pose proof (intersection_any d fuel ilos p h Hb (hidden_iff d ilos Hb Hdip) Hon Hin) as HN. rewrite E in HN. lia.
Qed.
(** No vertex is hidden when the four corners of each cell are in a plane, nor when the line of sight
    goes down and its inner vertices are not between the lowest and the highest node. *)
Theorem C18_no_hidden_vertex_partial :
  forall d los, big_enough (dt_data d) ->
  (forall i j, is_cell (dt_data d) i j -> twist (dt_data d) i j = 0) \/
  ((forall k u w, nth_error los k = Some u -> nth_error los (S k) = Some w -> v2 w <= v2 u) /\
   (forall k w, (0 < k < pred (length los))%nat -> nth_error los k = Some w ->
      all_nodes_below (dt_data d) (v2 w) \/ all_nodes_above (dt_data d) (v2 w))) ->
  no_vertex_hidden_in_a_cell (dt_data d) los.
Proof.
  intros d los Hb [HT|[HD HO]]; apply hidden_spec; try assumption.
  - now apply flat_cells_no_hidden.
  - apply outside_no_hidden; auto. intros k w Hk E.
    destruct (HO k w Hk E) as [H|H].
    + apply (nodes_below_iff d _ Hb) in H. lra.
    + apply (nodes_above_iff d _ Hb) in H. lra.
Qed.
(** A vertex hidden in a cell.  The line of sight goes down from above the highest node to below the
    lowest one, the entry in the cube is over the surface, and no number of iterations is enough: the
    altitude refinement goes to and fro between the same two points. *)
Theorem C18_hidden_vertex_refuted :
  exists d u v w p h, let los := [u; v; w] in
  big_enough (dt_data d) /\ invertible (dt_transform d) /\
  v2 w < v2 v < v2 u /\ all_nodes_below (dt_data d) (v2 u) /\ all_nodes_above (dt_data d) (v2 w) /\
  below (dt_data d) v /\ above (dt_data d) p /\
  intersect_dtm_cube d (ground d los) = Some (p, h) /\
  (forall fuel, intersection_index d fuel (los_to_index d (ground d los)) p h = NoFuel).
Proof.
  exists saddle, (V3 (-21 / 2) (-19 / 2) 31), (V3 (1 / 2) (3 / 2) 9), (V3 (11 / 2) (-7 / 2) (-1)),
    (V3 0 1 10), (21 / 22). cbv zeta. fold dipping.
  assert (HI : invertible (dt_transform saddle)) by (apply dt_invertible, ex_gdal_inv).
  destruct saddle_bounds as [Bm BM].
  split; [apply saddle_big|]. split; [assumption|]. split; [simpl; lra|].
  split; [apply (nodes_below_iff saddle _ saddle_big); rewrite BM; simpl; lra|].
  split; [apply (nodes_above_iff saddle _ saddle_big); rewrite Bm; simpl; lra|].
  split; [|split].
  - exists (-1). split; [|lra]. apply (clearance_iff saddle _ _ saddle_big). cbn [v0 v1 v2].
    rewrite saddle_01 by lra. split; [unfold in_hull; simpl; lra|lra].
  - exists 7. split; [|lra]. apply (clearance_iff saddle _ _ saddle_big). cbn [v0 v1 v2].
    rewrite saddle_01 by lra. split; [unfold in_hull; simpl; lra|lra].
  - unfold intersect_dtm_cube. rewrite ground_index by assumption. split; [apply dipping_cube|].
    intros fuel. apply dipping_walk.
Qed.
Example C18_vertical_case :
  let d := corner_dtm in let ilos := los_to_index d (ground d bent) in
  no_vertex_hidden_in_a_cell (dt_data d) ilos /\ on_los ilos (1 / 4) (V3 (1 / 2) 0 10) /\
  in_hull (dt_data d) (1 / 2) 0.
Proof.
  cbv zeta. rewrite ground_index by (apply dt_invertible, ex_gdal_inv).
  split; [apply bent_no_hidden|]. split; apply bent_start.
Qed.
(** A line of sight with an inner vertex above the DTM of C17_case, which is not made of planes. *)
Example C18_outside_case :
  let los := [V3 0 0 40; V3 (1 / 2) (1 / 2) 20; V3 (3 / 2) (5 / 4) (-5)] in
  (forall k u w, nth_error los k = Some u -> nth_error los (S k) = Some w -> v2 w <= v2 u) /\
  (forall k w, (0 < k < pred (length los))%nat -> nth_error los k = Some w ->
      all_nodes_below (dt_data corner_dtm) (v2 w) \/ all_nodes_above (dt_data corner_dtm) (v2 w)) /\
  twist (dt_data corner_dtm) 0 0 <> 0.
Proof.
  cbv zeta. split; [|split].
  - intros [|[|[|k]]] u w E1 E2; try discriminate; try (destruct k; discriminate);
      injection E1 as <-; injection E2 as <-; simpl; lra.
  - intros k w Hk E. cbn [length pred] in Hk. assert (k = 1%nat) by lia. subst k. injection E as <-.
    left. apply (nodes_below_iff corner_dtm _ corner_big). destruct corner_bounds as [_ ->]. simpl. lra.
  - unfold twist. simpl. lra.
Qed.
