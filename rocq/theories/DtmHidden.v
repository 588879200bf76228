(** A vertex of a line of sight hidden below the surface: the altitude refinement never ends. *)
From Coq Require Import Reals ZArith List Bool Lra Lia Psatz.
From Verif Require Import Num NumLemmas InterpModel InterpSpec InterpProofs ProjModel ProjSpec PropertiesProj
  DtmModel DtmSpec DtmCube DtmWalk DtmIntersect CppDtmModel CppDtmProofs DtmProofs DtmWitness.
Import ListNotations.
Open Scope R_scope.

Definition saddle_node (i j : Z) : R :=
  match i, j with
  | 0%Z, 0%Z => 5 | 0%Z, 1%Z => 3 | 0%Z, 2%Z => 29
  | 1%Z, 0%Z => 4 | 1%Z, 1%Z => 7 | 1%Z, 2%Z => 1
  | 2%Z, 0%Z => 1 | 2%Z, 1%Z => 4 | _, _ => 5
  end.
Definition saddle : dtm := mkDtm (mkRaster 3 3 saddle_node) ex_gdal 4326.
Lemma saddle_big : big_enough (dt_data saddle).
Proof. split; simpl; lia. Qed.
Lemma saddle_nodes i j : 1 <= saddle_node i j <= 29.
Proof. unfold saddle_node. destruct i as [|[?|?|]|?], j as [|[?|?|]|?]; try destruct p; try destruct p0; try lra. Qed.
Lemma saddle_bounds : alt_min saddle = 1 /\ alt_max saddle = 29.
Proof.
  split.
  - apply Rle_antisym.
    + apply (alt_min_le saddle 2 0). split; simpl; lia.
    + destruct (alt_min_node saddle saddle_big) as (i & j & _ & <-). apply saddle_nodes.
  - apply Rle_antisym.
    + destruct (alt_max_node saddle saddle_big) as (i & j & _ & <-). apply saddle_nodes.
    + apply (alt_max_ge saddle 0 2). split; simpl; lia.
Qed.
Lemma saddle_01 x y : 0 <= x <= 1 -> 1 <= y <= 2 ->
  interpolate saddle x y = 3 * (1 - x) * (2 - y) + 29 * (1 - x) * (y - 1) + 7 * x * (2 - y) + x * (y - 1).
Proof.
  intros Hx Hy. unfold interpolate. rewrite (interp_in_cell _ 0 1).
  - unfold bilinear_in_cell, lerp. simpl. ring.
  - split; simpl; lia.
  - split; simpl; lra.
Qed.
Lemma saddle_10 x y : 1 <= x <= 2 -> 0 <= y <= 1 ->
  interpolate saddle x y = 4 * (2 - x) * (1 - y) + 7 * (2 - x) * y + (x - 1) * (1 - y) + 4 * (x - 1) * y.
Proof.
  intros Hx Hy. unfold interpolate. rewrite (interp_in_cell _ 1 0).
  - unfold bilinear_in_cell, lerp. simpl. ring.
  - split; simpl; lia.
  - split; simpl; lra.
Qed.

Definition dipping : list vec3 := [V3 (-21 / 2) (-19 / 2) 31; V3 (1 / 2) (3 / 2) 9; V3 (11 / 2) (-7 / 2) (-1)].

(** The two points between which the refinement goes to and fro. *)
Lemma refine_cycle n : 
  refine (interpolate saddle) n (V3 (3 / 4) (5 / 4) (17 / 2)) (13 / 2) (V3 1 1 8) 7 = NoFuel /\
  refine (interpolate saddle) n (V3 (5 / 4) (3 / 4) (15 / 2)) (11 / 2) (V3 1 1 8) 7 = NoFuel.
Proof.
  pose proof tol_pos as T. assert (T1 : tol_z < 1) by (unfold tol_z; lra).
  induction n as [|n [IH1 IH2]]; [split; reflexivity|]. split; cbn [refine v0 v1 v2].
  - rdec.
    replace ((17 / 2 - 13 / 2) / (7 - 13 / 2 - (8 - 17 / 2))) with 2 by field.
    replace (3 / 4 + 2 * (1 - 3 / 4)) with (5 / 4) by lra. replace (5 / 4 + 2 * (1 - 5 / 4)) with (3 / 4) by lra.
    replace (17 / 2 + 2 * (8 - 17 / 2)) with (15 / 2) by lra.
    rewrite (saddle_10 (5 / 4) (3 / 4)) by lra.
    match goal with |- context [Rabs ?x] => replace (Rabs x) with 2 by (rewrite Rabs_left by lra; lra) end.
    rdec. etransitivity; [|exact IH2]. f_equal. lra.
  - rdec.
    replace ((15 / 2 - 11 / 2) / (7 - 11 / 2 - (8 - 15 / 2))) with 2 by field.
    replace (5 / 4 + 2 * (1 - 5 / 4)) with (3 / 4) by lra. replace (3 / 4 + 2 * (1 - 3 / 4)) with (5 / 4) by lra.
    replace (15 / 2 + 2 * (8 - 15 / 2)) with (17 / 2) by lra.
    rewrite (saddle_01 (3 / 4) (5 / 4)) by lra.
    match goal with |- context [Rabs ?x] => replace (Rabs x) with 2 by (rewrite Rabs_left by lra; lra) end.
    rdec. etransitivity; [|exact IH1]. f_equal. lra.
Qed.
Lemma refine_dip n :
  refine (interpolate saddle) n (V3 (1 / 2) (3 / 2) 9) 10 (V3 1 1 8) 7 = NoFuel.
Proof.
  pose proof tol_pos as T. assert (T1 : tol_z < 1) by (unfold tol_z; lra).
  destruct n as [|n]; [reflexivity|]. cbn [refine v0 v1 v2]. rdec.
  replace ((9 - 10) / (7 - 10 - (8 - 9))) with (1 / 2) by field.
  replace (1 / 2 + 1 / 2 * (1 - 1 / 2)) with (3 / 4) by lra. replace (3 / 2 + 1 / 2 * (1 - 3 / 2)) with (5 / 4) by lra.
  replace (9 + 1 / 2 * (8 - 9)) with (17 / 2) by lra.
  rewrite (saddle_01 (3 / 4) (5 / 4)) by lra.
  match goal with |- context [Rabs ?x] => replace (Rabs x) with 2 by (rewrite Rabs_left by lra; lra) end.
  rdec. etransitivity; [|exact (proj1 (refine_cycle n))]. f_equal. lra.
Qed.

Lemma dipping_cube : intersect_dtm_cube_index saddle dipping = Some (V3 0 1 10, 21 / 22).
Proof.
  destruct saddle_bounds as [Em EM].
  unfold intersect_dtm_cube_index.
  assert (E : all_crossings saddle dipping =
    [Cr 0 1 10 (21 / 22); Cr 2 0 6 (13 / 10); Cr (-1) 0 12 (19 / 22); Cr (9 / 2) (-5 / 2) 1 (9 / 5);
     Cr (-19 / 2) (-17 / 2) 29 (1 / 11)]).
  { unfold all_crossings, dipping. cbn [seq flat_map plane_scan].
    unfold eq_plan, plane_coef_a, plane_coef_b, plane_coef_c, plane_coef_d. cbn [nth v0 v1 v2].
    rewrite Em, EM. unfold nb_rows, nb_columns. cbn [saddle dt_data rs_rows rs_cols].
    rdec. unfold plane_crossing, plane_coef_d.
    cbn [Nat.ltb Nat.leb nth v0 v1 v2 andb Z.add Pos.add]. rewrite ?Em, ?EM. unfold nb_rows, nb_columns. cbn [saddle dt_data rs_rows rs_cols].
    rdec. cbn [app]. repeat (f_equal; try lra; try (field; lra)). }
  rewrite E.
  cbn [length exchange_sort sort_pass cr_h]. rdec. cbn [exchange_sort sort_pass cr_h]. rdec.
  cbn [exchange_sort sort_pass cr_h]. rdec. cbn [exchange_sort sort_pass cr_h]. rdec. cbn [exchange_sort sort_pass cr_h]. rdec. cbn [exchange_sort sort_pass cr_h filter].
  unfold test_on_cube, plane_coef_d. cbn [nth cr_col cr_row cr_alt]. rewrite Em, EM.
  unfold nb_rows, nb_columns. cbn [saddle dt_data rs_rows rs_cols]. rdec. reflexivity.
Qed.

Lemma dipping_walk fuel : intersection_index saddle fuel dipping (V3 0 1 10) (21 / 22) = NoFuel.
Proof.
  destruct fuel as [|fuel].
  { unfold intersection_index. cbn [v0 v1 v2]. rewrite saddle_01 by lra. rdec.
    assert (F0 : Rfloor (21 / 22) = 0%Z) by (apply Rfloor_unique; lra). rewrite F0.
    change (length dipping) with 3%nat.
    rewrite (vertex_step_oblique _ _ _ _ _ _ _ (V3 (-21 / 2) (-19 / 2) 31) (V3 (1 / 2) (3 / 2) 9))
      by (try reflexivity; left; cbn [v0]; lra).
    cbv zeta. set (w0 := W _ _ _ _).
    assert (G : cell_guard saddle w0 = true).
    { unfold w0, cell_guard, first_cell. cbn [w_a w_c w_r v0 v1].
      rewrite (Rfloor_unique 0 0), (Rfloor_unique 1 1) by lra. rdec. reflexivity. }
    rewrite G. cbn [cell_loop]. rewrite G. reflexivity. }
  unfold intersection_index. cbn [v0 v1 v2]. rewrite saddle_01 by lra. rdec.
  assert (F0 : Rfloor (21 / 22) = 0%Z) by (apply Rfloor_unique; lra). rewrite F0.
  change (length dipping) with 3%nat.
  rewrite (vertex_step_oblique _ _ _ _ _ _ _ (V3 (-21 / 2) (-19 / 2) 31) (V3 (1 / 2) (3 / 2) 9))
    by (try reflexivity; left; cbn [v0]; lra).
  assert (B1 : alt_min_cell saddle 0 1 = 1).
  { unfold alt_min_cell. simpl. repeat match goal with |- context [Rmin ?a ?b] => (rewrite (Rmin_left a b) by lra) || (rewrite (Rmin_right a b) by lra) end. now rewrite (Rfloor_IZR 1). }
  assert (B2 : alt_max_cell saddle 0 1 = 29).
  { unfold alt_max_cell. simpl. repeat match goal with |- context [Rmax ?a ?b] => (rewrite (Rmax_left a b) by lra) || (rewrite (Rmax_right a b) by lra) end. now rewrite (Rceil_IZR 29). }
  cbv zeta. cbn [v0 v1 v2]. unfold first_cell. rewrite (Rfloor_unique 0 0), (Rfloor_unique 1 1) by lra. rdec.
  set (w0 := W _ 0 1 _).
  assert (G : cell_guard saddle w0 = true) by (unfold w0, cell_guard; cbn [w_a w_c w_r]; rdec; reflexivity).
  rewrite G. cbn [cell_loop]. rewrite G.
  assert (EM : mesh_move (segment_of (V3 (-21 / 2) (-19 / 2) 31) (V3 (1 / 2) (3 / 2) 9)) w0 = W (23 / 22) 1 2 (V3 1 2 8)).
  { unfold mesh_move, w0, segment_of. cbn [s_d0 s_d1 s_d2 s_col0 s_row0 s_z0 s_z1 w_c w_r w_p v0 v1 v2]. 
    replace ((1 + 1 - -19 / 2) / (3 / 2 - -19 / 2)) with (23 / 22) by field. rdec.
    cbn [Z.add Pos.add]. f_equal; try lra. f_equal; lra. }
  rewrite EM. cbn [w0 w_p w_c w_r segment_of s_z0 s_z1 v0 v1 v2].
  rewrite B1, B2, !saddle_01 by lra. unfold may_intersect. rdec.
  assert (G1 : cell_guard saddle (W (23 / 22) 1 2 (V3 1 2 8)) = false) by (unfold cell_guard; cbn [w_a w_c w_r]; rdec; reflexivity).
  assert (EC : cell_loop saddle (segment_of (V3 (-21 / 2) (-19 / 2) 31) (V3 (1 / 2) (3 / 2) 9)) (S fuel) fuel (W (23 / 22) 1 2 (V3 1 2 8)) = CEnd (23 / 22)).
  { destruct fuel; cbn [cell_loop]; rewrite G1; reflexivity. }
  rewrite EC. rdec. cbn [Z.add].
  rewrite (vertex_step_oblique _ _ _ _ _ _ _ (V3 (1 / 2) (3 / 2) 9) (V3 (11 / 2) (-7 / 2) (-1)))
    by (try reflexivity; left; cbn [v0]; lra).
  change (Z.of_nat (length dipping)) with 3%Z. cbv zeta. cbn [v0 v1 v2]. unfold first_cell.
  rewrite (Rfloor_unique (1 / 2) 0), (Rfloor_unique (3 / 2) 1) by lra. rdec.
  set (w1 := W _ 0 1 _).
  assert (G2 : cell_guard saddle w1 = true) by (unfold w1, cell_guard; cbn [w_a w_c w_r]; rdec; reflexivity).
  rewrite G2. cbn [cell_loop]. rewrite G2.
  assert (EM1 : mesh_move (segment_of (V3 (1 / 2) (3 / 2) 9) (V3 (11 / 2) (-7 / 2) (-1))) w1 = W (1 / 10) 1 0 (V3 1 1 8)).
  { unfold mesh_move, w1, segment_of. cbn [s_d0 s_d1 s_d2 s_col0 s_row0 s_z0 s_z1 w_c w_r w_p v0 v1 v2].
    replace ((0 + 1 - 1 / 2) / (11 / 2 - 1 / 2)) with (1 / 10) by field. rdec.
    cbn [Z.add Z.sub Z.opp Pos.add Z.pos_sub]. f_equal; try lra. f_equal; lra. }
  rewrite EM1. cbn [w1 w_p w_c w_r segment_of s_z0 s_z1 v0 v1 v2].
  rewrite B1, B2, !saddle_01 by lra. unfold may_intersect. rdec.
  replace (3 * (1 - 1 / 2) * (2 - 3 / 2) + 29 * (1 - 1 / 2) * (3 / 2 - 1) + 7 * (1 / 2) * (2 - 3 / 2) + 1 / 2 * (3 / 2 - 1)) with 10 by lra.
  replace (3 * (1 - 1) * (2 - 1) + 29 * (1 - 1) * (1 - 1) + 7 * 1 * (2 - 1) + 1 * (1 - 1)) with 7 by lra.
  rdec. rewrite refine_dip. reflexivity.
Qed.

(** ** The same line of sight over another DTM: the reported point is outside of the DTM *)
Definition ridge_node (i j : Z) : R :=
  match i, j with
  | 0%Z, 0%Z => 20 | 0%Z, 1%Z => 26 | 0%Z, 2%Z => 90
  | 1%Z, 0%Z => 21 | 1%Z, 1%Z => 26 | 1%Z, 2%Z => 18
  | 2%Z, 0%Z => 16 | 2%Z, 1%Z => 21 | _, _ => 20
  end.
Definition ridge : dtm := mkDtm (mkRaster 3 3 ridge_node) ex_gdal 4326.
Lemma ridge_big : big_enough (dt_data ridge).
Proof. split; simpl; lia. Qed.
Lemma ridge_nodes i j : 16 <= ridge_node i j <= 90.
Proof. unfold ridge_node. destruct i as [|[?|?|]|?], j as [|[?|?|]|?]; try destruct p; try destruct p0; try lra. Qed.
Lemma ridge_bounds : alt_min ridge = 16 /\ alt_max ridge = 90.
Proof.
  split.
  - apply Rle_antisym.
    + apply (alt_min_le ridge 2 0). split; simpl; lia.
    + destruct (alt_min_node ridge ridge_big) as (i & j & _ & <-). apply ridge_nodes.
  - apply Rle_antisym.
    + destruct (alt_max_node ridge ridge_big) as (i & j & _ & <-). apply ridge_nodes.
    + apply (alt_max_ge ridge 0 2). split; simpl; lia.
Qed.
Lemma ridge_01 x y : 0 <= x <= 1 -> 1 <= y <= 2 ->
  interpolate ridge x y = 26 * (1 - x) * (2 - y) + 90 * (1 - x) * (y - 1) + 26 * x * (2 - y) + 18 * x * (y - 1).
Proof.
  intros Hx Hy. unfold interpolate. rewrite (interp_in_cell _ 0 1).
  - unfold bilinear_in_cell, lerp. simpl. ring.
  - split; simpl; lia.
  - split; simpl; lra.
Qed.
Lemma ridge_beyond : interpolate ridge 3 (-1) = 6.
Proof.
  unfold interpolate, interp, lower_index. cbn [ridge dt_data rs_rows rs_cols rs_at].
  change (3 - 1)%Z with 2%Z.
  rdec. change (3 - 2)%Z with 1%Z. change (1 + 1)%Z with 2%Z. change (0 + 1)%Z with 1%Z. cbn [ridge_node]. unfold bilin_value. lra.
Qed.

Definition leaving : list vec3 := [V3 (-21 / 2) (-19 / 2) 124; V3 (1 / 2) (3 / 2) 36; V3 (11 / 2) (-7 / 2) (-24)].

Lemma leaving_cube : intersect_dtm_cube_index ridge leaving = Some (V3 0 1 40, 21 / 22).
Proof.
  destruct ridge_bounds as [Em EM].
  unfold intersect_dtm_cube_index.
  assert (E : all_crossings ridge leaving =
    [Cr 0 1 40 (21 / 22); Cr 2 0 18 (13 / 10); Cr (-1) 0 48 (19 / 22); Cr (13 / 6) (-1 / 6) 16 (4 / 3);
     Cr (-25 / 4) (-21 / 4) 90 (17 / 44)]).
  { unfold all_crossings, leaving. cbn [seq flat_map plane_scan].
    unfold eq_plan, plane_coef_a, plane_coef_b, plane_coef_c, plane_coef_d. cbn [nth v0 v1 v2].
    rewrite Em, EM. unfold nb_rows, nb_columns. cbn [ridge dt_data rs_rows rs_cols].
    rdec. unfold plane_crossing, plane_coef_d.
    cbn [Nat.ltb Nat.leb nth v0 v1 v2 andb Z.add Pos.add]. rewrite ?Em, ?EM. unfold nb_rows, nb_columns. cbn [ridge dt_data rs_rows rs_cols].
    rdec. cbn [app]. repeat (f_equal; try lra; try (field; lra)). }
  rewrite E.
  cbn [length exchange_sort sort_pass cr_h]. rdec. cbn [exchange_sort sort_pass cr_h]. rdec.
  cbn [exchange_sort sort_pass cr_h]. rdec. cbn [exchange_sort sort_pass cr_h]. rdec. cbn [exchange_sort sort_pass cr_h]. rdec. cbn [exchange_sort sort_pass cr_h filter].
  unfold test_on_cube, plane_coef_d. cbn [nth cr_col cr_row cr_alt]. rewrite Em, EM.
  unfold nb_rows, nb_columns. cbn [ridge dt_data rs_rows rs_cols]. rdec. reflexivity.
Qed.

Lemma leaving_walk fuel : (2 <= fuel)%nat ->
  intersection_index ridge fuel leaving (V3 0 1 40) (21 / 22) = Found (V3 3 (-1) 6).
Proof.
  intros Hf. destruct fuel as [|fuel]; [lia|].
  unfold intersection_index. cbn [v0 v1 v2]. rewrite ridge_01 by lra. rdec.
  assert (F0 : Rfloor (21 / 22) = 0%Z) by (apply Rfloor_unique; lra). rewrite F0.
  change (length leaving) with 3%nat.
  rewrite (vertex_step_oblique _ _ _ _ _ _ _ (V3 (-21 / 2) (-19 / 2) 124) (V3 (1 / 2) (3 / 2) 36))
    by (try reflexivity; left; cbn [v0]; lra).
  assert (B1 : alt_min_cell ridge 0 1 = 18).
  { unfold alt_min_cell. simpl. repeat match goal with |- context [Rmin ?a ?b] => (rewrite (Rmin_left a b) by lra) || (rewrite (Rmin_right a b) by lra) end. now rewrite (Rfloor_IZR 18). }
  assert (B2 : alt_max_cell ridge 0 1 = 90).
  { unfold alt_max_cell. simpl. repeat match goal with |- context [Rmax ?a ?b] => (rewrite (Rmax_left a b) by lra) || (rewrite (Rmax_right a b) by lra) end. now rewrite (Rceil_IZR 90). }
  cbv zeta. cbn [v0 v1 v2]. unfold first_cell. rewrite (Rfloor_unique 0 0), (Rfloor_unique 1 1) by lra. rdec.
  set (w0 := W _ 0 1 _).
  assert (G : cell_guard ridge w0 = true) by (unfold w0, cell_guard; cbn [w_a w_c w_r]; rdec; reflexivity).
  rewrite G. cbn [cell_loop]. rewrite G.
  assert (EM : mesh_move (segment_of (V3 (-21 / 2) (-19 / 2) 124) (V3 (1 / 2) (3 / 2) 36)) w0 = W (23 / 22) 1 2 (V3 1 2 32)).
  { unfold mesh_move, w0, segment_of. cbn [s_d0 s_d1 s_d2 s_col0 s_row0 s_z0 s_z1 w_c w_r w_p v0 v1 v2]. 
    replace ((1 + 1 - -19 / 2) / (3 / 2 - -19 / 2)) with (23 / 22) by field. rdec.
    cbn [Z.add Pos.add]. f_equal; try lra. f_equal; lra. }
  rewrite EM. cbn [w0 w_p w_c w_r segment_of s_z0 s_z1 v0 v1 v2].
  rewrite B1, B2, !ridge_01 by lra. unfold may_intersect. rdec.
  assert (G1 : cell_guard ridge (W (23 / 22) 1 2 (V3 1 2 32)) = false) by (unfold cell_guard; cbn [w_a w_c w_r]; rdec; reflexivity).
  assert (EC : cell_loop ridge (segment_of (V3 (-21 / 2) (-19 / 2) 124) (V3 (1 / 2) (3 / 2) 36)) (S fuel) fuel (W (23 / 22) 1 2 (V3 1 2 32)) = CEnd (23 / 22)).
  { destruct fuel; cbn [cell_loop]; rewrite G1; reflexivity. }
  rewrite EC. rdec. cbn [Z.add].
  rewrite (vertex_step_oblique _ _ _ _ _ _ _ (V3 (1 / 2) (3 / 2) 36) (V3 (11 / 2) (-7 / 2) (-24)))
    by (try reflexivity; left; cbn [v0]; lra).
  change (Z.of_nat (length leaving)) with 3%Z. cbv zeta. cbn [v0 v1 v2]. unfold first_cell.
  rewrite (Rfloor_unique (1 / 2) 0), (Rfloor_unique (3 / 2) 1) by lra. rdec.
  set (w1 := W _ 0 1 _).
  assert (G2 : cell_guard ridge w1 = true) by (unfold w1, cell_guard; cbn [w_a w_c w_r]; rdec; reflexivity).
  rewrite G2. cbn [cell_loop]. rewrite G2.
  assert (EM1 : mesh_move (segment_of (V3 (1 / 2) (3 / 2) 36) (V3 (11 / 2) (-7 / 2) (-24))) w1 = W (1 / 10) 1 0 (V3 1 1 30)).
  { unfold mesh_move, w1, segment_of. cbn [s_d0 s_d1 s_d2 s_col0 s_row0 s_z0 s_z1 w_c w_r w_p v0 v1 v2].
    replace ((0 + 1 - 1 / 2) / (11 / 2 - 1 / 2)) with (1 / 10) by field. rdec.
    cbn [Z.add Z.sub Z.opp Pos.add Z.pos_sub]. f_equal; try lra. f_equal; lra. }
  rewrite EM1. cbn [w1 w_p w_c w_r segment_of s_z0 s_z1 v0 v1 v2].
  rewrite B1, B2, !ridge_01 by lra. unfold may_intersect. rdec.
  match goal with |- context [refine _ _ _ ?x _ ?y] => replace x with 40 by lra; replace y with 26 by lra end.
  rdec. destruct fuel as [|fuel]; [lia|]. pose proof tol_pos as T. assert (T1 : tol_z < 1) by (unfold tol_z; lra).
  cbn [refine v0 v1 v2]. rdec.
  replace ((36 - 40) / (26 - 40 - (30 - 36))) with (1 / 2) by field.
  replace (1 / 2 + 1 / 2 * (1 - 1 / 2)) with (3 / 4) by lra. replace (3 / 2 + 1 / 2 * (1 - 3 / 2)) with (5 / 4) by lra.
  replace (36 + 1 / 2 * (30 - 36)) with 33 by lra.
  rewrite (ridge_01 (3 / 4) (5 / 4)) by lra.
  match goal with |- context [Rabs ?x] => replace (Rabs x) with (9 / 2) by (rewrite Rabs_left by lra; lra) end.
  rdec.
  match goal with |- context [V3 (3 / 4 + ?c * _)] => replace c with 9 by field end.
  replace (3 / 4 + 9 * (1 - 3 / 4)) with 3 by lra. replace (5 / 4 + 9 * (1 - 5 / 4)) with (-1) by lra.
  replace (33 + 9 * (30 - 33)) with 6 by lra. rewrite ridge_beyond.
  replace (6 - 6) with 0 by lra. rewrite Rabs_R0. rdec. reflexivity.
Qed.
