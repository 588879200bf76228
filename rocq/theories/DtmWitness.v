(** Witnesses: lines of sight evaluated by the model. *)
From Coq Require Import Reals ZArith List Bool Lra Lia Psatz.
From Verif Require Import Num NumLemmas InterpModel InterpSpec InterpProofs ProjModel ProjSpec PropertiesProj
  DtmModel DtmSpec DtmCube DtmWalk DtmIntersect CppDtmModel CppDtmProofs DtmProofs.
Import ListNotations.
Open Scope R_scope.
Ltac rdec := repeat match goal with
  | |- context [Rltb ?a ?b] =>
      first [rewrite (proj2 (Rltb_true a b)) by lra | rewrite (proj2 (Rltb_false a b)) by lra]
  | |- context [Rleb ?a ?b] =>
      first [rewrite (proj2 (Rleb_true a b)) by lra | rewrite (proj2 (Rleb_false a b)) by lra]
  | |- context [Reqb ?a ?b] =>
      first [rewrite (proj2 (Reqb_true a b)) by lra | rewrite (proj2 (Reqb_false a b)) by lra]
  end; cbn [andb orb negb]; cbv iota.
Definition corner_dtm : dtm :=
  mkDtm (mkRaster 2 2 (fun i j => if ((i =? 1) && (j =? 1))%Z then 10 else 0)) ex_gdal 4326.
Example corner_big : big_enough (dt_data corner_dtm).
Proof. split; simpl; lia. Qed.
Lemma corner_nodes i j : 0 <= rs_at (dt_data corner_dtm) i j <= 10.
Proof. cbn [corner_dtm dt_data rs_at]. destruct ((i =? 1) && (j =? 1))%Z; lra. Qed.
Lemma corner_bounds : alt_min corner_dtm = 0 /\ alt_max corner_dtm = 10.
Proof.
  split.
  - apply Rle_antisym.
    + apply (alt_min_le corner_dtm 0 0). split; simpl; lia.
    + destruct (alt_min_node corner_dtm corner_big) as (i & j & _ & <-). apply corner_nodes.
  - apply Rle_antisym.
    + destruct (alt_max_node corner_dtm corner_big) as (i & j & _ & <-). apply corner_nodes.
    + apply (alt_max_ge corner_dtm 1 1). split; simpl; lia.
Qed.
Lemma corner_interp x y : 0 <= x <= 1 -> 0 <= y <= 1 -> interpolate corner_dtm x y = 10 * x * y.
Proof.
  intros Hx Hy. unfold interpolate. rewrite (interp_in_cell _ 0 0).
  - unfold bilinear_in_cell, lerp. simpl. lra.
  - split; simpl; lia.
  - split; simpl; lra.
Qed.
Definition bent : list vec3 := [V3 (1 / 2) 0 12; V3 (1 / 2) 0 4; V3 (3 / 2) 0 (-5)].
Lemma bent_cube : intersect_dtm_cube_index corner_dtm bent = Some (V3 (1 / 2) 0 10, 1 / 4).
Proof.
  destruct corner_bounds as [Em EM].
  unfold intersect_dtm_cube_index.
  assert (E : all_crossings corner_dtm bent =
    [Cr 1 0 (-1 / 2) (3 / 2); Cr (1 / 2) 0 12 (-1); Cr (17 / 18) 0 0 (13 / 9); Cr (1 / 2) 0 10 (1 / 4)]).
  { unfold all_crossings, bent. cbn [seq flat_map plane_scan].
    unfold eq_plan, plane_coef_a, plane_coef_b, plane_coef_c, plane_coef_d. cbn [nth v0 v1 v2].
    rewrite Em, EM. unfold nb_rows, nb_columns. cbn [corner_dtm dt_data rs_rows rs_cols].
    rdec. unfold plane_crossing, plane_coef_d.
    cbn [Nat.ltb Nat.leb nth v0 v1 v2 andb Z.add Pos.add]. rewrite ?Em, ?EM. unfold nb_rows. cbn [corner_dtm dt_data rs_rows rs_cols].
    rdec. cbn [app]. repeat (f_equal; try lra; try (field; lra)). all: try (f_equal; lra || field; lra). }
  rewrite E. 
  cbn [length exchange_sort sort_pass cr_h]. rdec. cbn [exchange_sort sort_pass cr_h]. rdec.
  cbn [exchange_sort sort_pass cr_h]. rdec. cbn [exchange_sort sort_pass cr_h filter]. 
  unfold test_on_cube, plane_coef_d. cbn [nth cr_col cr_row cr_alt]. rewrite Em, EM.
  unfold nb_rows, nb_columns. cbn [corner_dtm dt_data rs_rows rs_cols]. rdec. reflexivity.
Qed.

Lemma vertex_step_vertical d los fuel steps i p h a b :
  (i <? Z.of_nat (length los) - 1)%Z = true -> py_get los i = Some a -> py_get los (i + 1) = Some b ->
  v0 a = v0 b -> v1 a = v1 b ->
  vertex_loop d los fuel (S steps) i p h =
  if Rleb (v2 b) (interpolate d (v0 a) (v1 a)) then Found (V3 (v0 a) (v1 a) (interpolate d (v0 a) (v1 a)))
  else vertex_loop d los fuel steps (i + 1) p h.
Proof.
  intros H1 H2 H3 H4 H5. cbn [vertex_loop]. rewrite H1, H2, H3. cbn [segment_of s_d0 s_d1 s_col0 s_row0 s_z1].
  rewrite !(proj2 (Reqb_true _ _)) by lra. reflexivity.
Qed.
Lemma vertex_step_oblique d los fuel steps i p h a b :
  (i <? Z.of_nat (length los) - 1)%Z = true -> py_get los i = Some a -> py_get los (i + 1) = Some b ->
  v0 a <> v0 b \/ v1 a <> v1 b ->
  vertex_loop d los fuel (S steps) i p h =
  let w := W (if Rleb 1 (h - IZR i) then 0 else h - IZR i) (first_cell (v0 p) (v0 b - v0 a))
             (first_cell (v1 p) (v1 b - v1 a)) p in
  if cell_guard d w then
    match cell_loop d (segment_of a b) fuel fuel w with
    | CDone o => o
    | CEnd a_2 => if Rleb 1 a_2
        then vertex_loop d los fuel steps (i + 1) b (IZR (Z.of_nat (length los)) - IZR (i + 1))
        else NotFound
    end
  else NotFound.
Proof.
  intros H1 H2 H3 H4. cbn [vertex_loop]. rewrite H1, H2, H3. cbn [segment_of s_d0 s_d1]. cbv zeta.
  replace (Reqb (v0 b - v0 a) 0 && Reqb (v1 b - v1 a) 0) with false; [reflexivity|].
  symmetry. apply andb_false_iff. rewrite !Reqb_false. destruct H4; [left|right]; lra.
Qed.
Lemma bent_walk fuel : (1 <= fuel)%nat ->
  intersection_index corner_dtm fuel bent (V3 (1 / 2) 0 10) (1 / 4) = Found (V3 (41 / 42) 0 0).
Proof.
  intros Hf. destruct fuel as [|fuel]; [lia|].
  assert (I1 : interpolate corner_dtm (1 / 2) 0 = 0) by (rewrite corner_interp by lra; ring).
  assert (I2 : interpolate corner_dtm 1 0 = 0) by (rewrite corner_interp by lra; ring).
  assert (F : forall x, 0 <= x < 1 -> Rfloor x = 0%Z) by (intros x Hx; apply Rfloor_unique; lra).
  unfold intersection_index. cbn [v0 v1 v2]. rewrite I1, F by lra. rdec.
  change (length bent) with 3%nat.
  rewrite (vertex_step_vertical _ _ _ _ _ _ _ (V3 (1 / 2) 0 12) (V3 (1 / 2) 0 4)) by reflexivity.
  cbn [v0 v1 v2]. rewrite I1. rdec. cbn [Z.add].
  rewrite (vertex_step_oblique _ _ _ _ _ _ _ (V3 (1 / 2) 0 4) (V3 (3 / 2) 0 (-5)))
    by (try reflexivity; left; cbn [v0]; lra).
  cbn [v0 v1 v2]. unfold first_cell. rewrite !F by lra. rdec. cbv zeta.
  set (w0 := W _ 0 0 _).
  assert (G : cell_guard corner_dtm w0 = true).
  { unfold w0, cell_guard. cbn [w_a w_c w_r]. rdec. reflexivity. }
  rewrite G. cbn [cell_loop]. rewrite G.
  assert (EM : mesh_move (segment_of (V3 (1 / 2) 0 4) (V3 (3 / 2) 0 (-5))) w0 = W (1 / 2) 1 0 (V3 1 0 (-1 / 2))).
  { unfold mesh_move, w0, segment_of. cbn [s_d0 s_d1 s_d2 s_col0 s_row0 s_z0 s_z1 w_c w_r w_p v0 v1 v2]. rdec.
    cbn [Z.add]. apply f_equal4 || f_equal; try lra; try reflexivity; try (f_equal; lra). }
  rewrite EM. cbn [w0 w_p w_c w_r segment_of s_z0 s_z1 v0 v1 v2].
  assert (B1 : alt_min_cell corner_dtm 0 0 = 0).
  { unfold alt_min_cell. simpl. unfold Rmin. repeat (destruct Rle_dec; try lra). all: now rewrite (Rfloor_IZR 0). }
  assert (B2 : alt_max_cell corner_dtm 0 0 = 10).
  { unfold alt_max_cell. simpl. unfold Rmax. repeat (destruct Rle_dec; try lra). all: now rewrite (Rceil_IZR 10). }
  rewrite B1, B2, I1, I2. unfold may_intersect. rdec.
  cbn [refine v0 v1 v2]. rdec.
  replace (10 - 0) with 10 by lra. replace (0 - 0 - (-1 / 2 - 10)) with (21 / 2) by lra.
  assert (E : 10 / (21 / 2) = 20 / 21) by field. rewrite E.
  replace (1 / 2 + 20 / 21 * (1 - 1 / 2)) with (41 / 42) by field.
  replace (0 + 20 / 21 * (0 - 0)) with 0 by field.
  replace (10 + 20 / 21 * (-1 / 2 - 10)) with 0 by field.
  rewrite corner_interp by lra. replace (10 * (41 / 42) * 0 - 0) with 0 by lra. rewrite Rabs_R0.
  pose proof tol_pos. rdec. reflexivity.
Qed.

(** A line of sight with three vertices, not vertical, over the same DTM. *)
Definition bent2 : list vec3 := [V3 (1 / 4) 0 12; V3 (1 / 2) 0 11; V3 (3 / 4) 0 (-1)].
Lemma bent2_walk fuel : (1 <= fuel)%nat ->
  intersection_index corner_dtm fuel bent2 (V3 (25 / 48) 0 10) (13 / 12) = Found (V3 (35 / 48) 0 0).
Proof.
  intros Hf. destruct fuel as [|fuel]; [lia|].
  assert (I1 : interpolate corner_dtm (25 / 48) 0 = 0) by (rewrite corner_interp by lra; ring).
  assert (I2 : interpolate corner_dtm 1 0 = 0) by (rewrite corner_interp by lra; ring).
  assert (F : forall x, 0 <= x < 1 -> Rfloor x = 0%Z) by (intros x Hx; apply Rfloor_unique; lra).
  unfold intersection_index. cbn [v0 v1 v2]. rewrite I1. rdec.
  assert (F1 : Rfloor (13 / 12) = 1%Z) by (apply Rfloor_unique; lra). rewrite F1.
  change (length bent2) with 3%nat.
  rewrite (vertex_step_oblique _ _ _ _ _ _ _ (V3 (1 / 2) 0 11) (V3 (3 / 4) 0 (-1)))
    by (try reflexivity; left; cbn [v0]; lra).
  cbn [v0 v1 v2]. unfold first_cell. rewrite !F by lra. rdec. cbv zeta.
  set (w0 := W _ 0 0 _).
  assert (G : cell_guard corner_dtm w0 = true).
  { unfold w0, cell_guard. cbn [w_a w_c w_r]. rdec. reflexivity. }
  rewrite G. cbn [cell_loop]. rewrite G.
  assert (EM : mesh_move (segment_of (V3 (1 / 2) 0 11) (V3 (3 / 4) 0 (-1))) w0 = W 2 1 0 (V3 1 0 (-13))).
  { unfold mesh_move, w0, segment_of. cbn [s_d0 s_d1 s_d2 s_col0 s_row0 s_z0 s_z1 w_c w_r w_p v0 v1 v2]. rdec.
    cbn [Z.add]. assert (E : (1 - 1 / 2) / (3 / 4 - 1 / 2) = 2) by field. rewrite E. f_equal. f_equal; lra. }
  rewrite EM. cbn [w0 w_p w_c w_r segment_of s_z0 s_z1 v0 v1 v2].
  assert (B1 : alt_min_cell corner_dtm 0 0 = 0).
  { unfold alt_min_cell. simpl. unfold Rmin. repeat (destruct Rle_dec; try lra). all: now rewrite (Rfloor_IZR 0). }
  assert (B2 : alt_max_cell corner_dtm 0 0 = 10).
  { unfold alt_max_cell. simpl. unfold Rmax. repeat (destruct Rle_dec; try lra). all: now rewrite (Rceil_IZR 10). }
  rewrite B1, B2, I1, I2. unfold may_intersect. rdec.
  cbn [refine v0 v1 v2]. rdec.
  replace (10 - 0) with 10 by lra. replace (0 - 0 - (-13 - 10)) with 23 by lra.
  replace (25 / 48 + 10 / 23 * (1 - 25 / 48)) with (35 / 48) by field.
  replace (0 + 10 / 23 * (0 - 0)) with 0 by field.
  replace (10 + 10 / 23 * (-13 - 10)) with 0 by field.
  rewrite corner_interp by lra. replace (10 * (35 / 48) * 0 - 0) with 0 by lra. rewrite Rabs_R0.
  pose proof tol_pos. rdec. reflexivity.
Qed.

(** A line of sight that enters the cube by an edge and ends inside of it, above the surface. *)
Definition short : list vec3 := [V3 (-1 / 10) (1 / 2) 20; V3 (1 / 20) (1 / 2) 5].
Lemma short_cube : intersect_dtm_cube_index corner_dtm short = Some (V3 0 (1 / 2) 10, 2 / 3).
Proof.
  destruct corner_bounds as [Em EM].
  unfold intersect_dtm_cube_index.
  assert (E : all_crossings corner_dtm short = [Cr 0 (1 / 2) 10 (2 / 3); Cr 0 (1 / 2) 10 (2 / 3)]).
  { unfold all_crossings, short. cbn [seq flat_map plane_scan].
    unfold eq_plan, plane_coef_a, plane_coef_b, plane_coef_c, plane_coef_d. cbn [nth v0 v1 v2].
    rewrite Em, EM. unfold nb_rows, nb_columns. cbn [corner_dtm dt_data rs_rows rs_cols].
    rdec. unfold plane_crossing, plane_coef_d.
    cbn [Nat.ltb Nat.leb nth v0 v1 v2 andb Z.add Pos.add]. rewrite ?Em, ?EM. unfold nb_rows. cbn [corner_dtm dt_data rs_rows rs_cols].
    rdec. cbn [app]. repeat (f_equal; try lra; try (field; lra)). all: try (f_equal; lra || field; lra). }
  rewrite E.
  cbn [length exchange_sort sort_pass cr_h]. rdec. cbn [exchange_sort sort_pass cr_h filter].
  unfold test_on_cube, plane_coef_d. cbn [nth cr_col cr_row cr_alt]. rewrite Em, EM.
  unfold nb_rows, nb_columns. cbn [corner_dtm dt_data rs_rows rs_cols]. rdec. reflexivity.
Qed.
Lemma corner_cell : alt_min_cell corner_dtm 0 0 = 0 /\ alt_max_cell corner_dtm 0 0 = 10.
Proof.
  split.
  - unfold alt_min_cell. simpl. unfold Rmin. repeat (destruct Rle_dec; try lra). all: now rewrite (Rfloor_IZR 0).
  - unfold alt_max_cell. simpl. unfold Rmax. repeat (destruct Rle_dec; try lra). all: now rewrite (Rceil_IZR 10).
Qed.
Lemma short_walk fuel : (1 <= fuel)%nat ->
  intersection_index corner_dtm fuel short (V3 0 (1 / 2) 10) (2 / 3) = Found (V3 (2 / 21) (1 / 2) (10 / 21)).
Proof.
  intros Hf. destruct fuel as [|fuel]; [lia|].
  assert (I1 : interpolate corner_dtm 0 (1 / 2) = 0) by (rewrite corner_interp by lra; ring).
  assert (I2 : interpolate corner_dtm 1 (1 / 2) = 5) by (rewrite corner_interp by lra; lra).
  assert (F : forall x, 0 <= x < 1 -> Rfloor x = 0%Z) by (intros x Hx; apply Rfloor_unique; lra).
  unfold intersection_index. cbn [v0 v1 v2]. rewrite I1, F by lra. rdec.
  change (length short) with 2%nat.
  rewrite (vertex_step_oblique _ _ _ _ _ _ _ (V3 (-1 / 10) (1 / 2) 20) (V3 (1 / 20) (1 / 2) 5))
    by (try reflexivity; left; cbn [v0]; lra).
  cbn [v0 v1 v2]. unfold first_cell. rewrite !F by lra. rdec. cbv zeta.
  set (w0 := W _ 0 0 _).
  assert (G : cell_guard corner_dtm w0 = true).
  { unfold w0, cell_guard. cbn [w_a w_c w_r]. rdec. reflexivity. }
  rewrite G. cbn [cell_loop]. rewrite G.
  assert (EM : mesh_move (segment_of (V3 (-1 / 10) (1 / 2) 20) (V3 (1 / 20) (1 / 2) 5)) w0
               = W (22 / 3) 1 0 (V3 1 (1 / 2) (-90))).
  { unfold mesh_move, w0, segment_of. cbn [s_d0 s_d1 s_d2 s_col0 s_row0 s_z0 s_z1 w_c w_r w_p v0 v1 v2]. rdec.
    cbn [Z.add]. assert (E : (1 - -1 / 10) / (1 / 20 - -1 / 10) = 22 / 3) by field. rewrite E. f_equal. f_equal; lra. }
  rewrite EM. cbn [w0 w_p w_c w_r segment_of s_z0 s_z1 v0 v1 v2].
  destruct corner_cell as [-> ->]. rewrite I1, I2. unfold may_intersect. rdec.
  cbn [refine v0 v1 v2]. rdec.
  replace (10 - 0) with 10 by lra. replace (5 - 0 - (-90 - 10)) with 105 by lra.
  replace (0 + 10 / 105 * (1 - 0)) with (2 / 21) by field.
  replace (1 / 2 + 10 / 105 * (1 / 2 - 1 / 2)) with (1 / 2) by field.
  replace (10 + 10 / 105 * (-90 - 10)) with (10 / 21) by field.
  rewrite corner_interp by lra. replace (10 * (2 / 21) * (1 / 2) - 10 / 21) with 0 by lra. rewrite Rabs_R0.
  pose proof tol_pos. rdec. reflexivity.
Qed.

(** A sloping plane, and a line of sight that lies in it. *)
Definition slope_dtm : dtm := mkDtm (mkRaster 3 2 (fun i _ => IZR (- i))) ex_gdal 4326.
Example slope_big : big_enough (dt_data slope_dtm).
Proof. split; simpl; lia. Qed.
Lemma slope_bounds : alt_min slope_dtm = -2 /\ alt_max slope_dtm = 0.
Proof.
  split.
  - apply Rle_antisym.
    + apply (alt_min_le slope_dtm 2 0). split; simpl; lia.
    + destruct (alt_min_node slope_dtm slope_big) as (i & j & [Hi _] & <-). simpl in *. apply IZR_le. lia.
  - apply Rle_antisym.
    + destruct (alt_max_node slope_dtm slope_big) as (i & j & [Hi _] & <-). simpl in *. apply IZR_le. lia.
    + apply (alt_max_ge slope_dtm 0 0). split; simpl; lia.
Qed.
Lemma slope_interp x y : 0 <= x <= 1 -> 0 <= y <= 1 -> interpolate slope_dtm x y = - x.
Proof.
  intros Hx Hy. unfold interpolate. rewrite (interp_in_cell _ 0 0).
  - unfold bilinear_in_cell, lerp. simpl. lra.
  - split; simpl; lia.
  - split; simpl; lra.
Qed.
Definition in_plane : list vec3 := [V3 (-1) (1 / 2) 1; V3 3 (1 / 2) (-3)].
Lemma in_plane_cube : intersect_dtm_cube_index slope_dtm in_plane = Some (V3 0 (1 / 2) 0, 1 / 4).
Proof.
  destruct slope_bounds as [Em EM].
  unfold intersect_dtm_cube_index.
  assert (E : all_crossings slope_dtm in_plane =
    [Cr 0 (1 / 2) 0 (1 / 4); Cr 2 (1 / 2) (-2) (3 / 4); Cr 2 (1 / 2) (-2) (3 / 4); Cr 0 (1 / 2) 0 (1 / 4)]).
  { unfold all_crossings, in_plane. cbn [seq flat_map plane_scan].
    unfold eq_plan, plane_coef_a, plane_coef_b, plane_coef_c, plane_coef_d. cbn [nth v0 v1 v2].
    rewrite Em, EM. unfold nb_rows, nb_columns. cbn [slope_dtm dt_data rs_rows rs_cols].
    rdec. unfold plane_crossing, plane_coef_d.
    cbn [Nat.ltb Nat.leb nth v0 v1 v2 andb Z.add Pos.add]. rewrite ?Em, ?EM. unfold nb_rows. cbn [slope_dtm dt_data rs_rows rs_cols].
    rdec. cbn [app]. repeat (f_equal; try lra; try (field; lra)). all: try (f_equal; lra || field; lra). }
  rewrite E.
  cbn [length exchange_sort sort_pass cr_h]. rdec. cbn [exchange_sort sort_pass cr_h]. rdec.
  cbn [exchange_sort sort_pass cr_h]. rdec. cbn [exchange_sort sort_pass cr_h filter].
  unfold test_on_cube, plane_coef_d. cbn [nth cr_col cr_row cr_alt]. rewrite Em, EM.
  unfold nb_rows, nb_columns. cbn [slope_dtm dt_data rs_rows rs_cols]. rdec. reflexivity.
Qed.
Lemma in_plane_walk fuel : (1 <= fuel)%nat ->
  intersection_index slope_dtm fuel in_plane (V3 0 (1 / 2) 0) (1 / 4) = Crash.
Proof.
  intros Hf. destruct fuel as [|fuel]; [lia|].
  assert (I1 : interpolate slope_dtm 0 (1 / 2) = 0) by (rewrite slope_interp by lra; ring).
  assert (I2 : interpolate slope_dtm 1 (1 / 2) = -1) by (rewrite slope_interp by lra; lra).
  assert (F : forall x, 0 <= x < 1 -> Rfloor x = 0%Z) by (intros x Hx; apply Rfloor_unique; lra).
  unfold intersection_index. cbn [v0 v1 v2]. rewrite I1, F by lra. rdec.
  change (length in_plane) with 2%nat.
  rewrite (vertex_step_oblique _ _ _ _ _ _ _ (V3 (-1) (1 / 2) 1) (V3 3 (1 / 2) (-3)))
    by (try reflexivity; left; cbn [v0]; lra).
  cbn [v0 v1 v2]. unfold first_cell. rewrite !F by lra. rdec. cbv zeta.
  set (w0 := W _ 0 0 _).
  assert (G : cell_guard slope_dtm w0 = true).
  { unfold w0, cell_guard. cbn [w_a w_c w_r]. rdec. reflexivity. }
  rewrite G. cbn [cell_loop]. rewrite G.
  assert (EM : mesh_move (segment_of (V3 (-1) (1 / 2) 1) (V3 3 (1 / 2) (-3))) w0
               = W (1 / 2) 1 0 (V3 1 (1 / 2) (-1))).
  { unfold mesh_move, w0, segment_of. cbn [s_d0 s_d1 s_d2 s_col0 s_row0 s_z0 s_z1 w_c w_r w_p v0 v1 v2]. rdec.
    cbn [Z.add]. assert (E : (1 - -1) / (3 - -1) = 1 / 2) by field. rewrite E. f_equal. f_equal; lra. }
  rewrite EM. cbn [w0 w_p w_c w_r segment_of s_z0 s_z1 v0 v1 v2].
  assert (B1 : alt_min_cell slope_dtm 0 0 = -1).
  { unfold alt_min_cell. simpl. unfold Rmin. repeat (destruct Rle_dec; try lra). all: now rewrite (Rfloor_IZR (-1)). }
  assert (B2 : alt_max_cell slope_dtm 0 0 = 0).
  { unfold alt_max_cell. simpl. unfold Rmax. repeat (destruct Rle_dec; try lra). all: now rewrite (Rceil_IZR 0). }
  rewrite B1, B2, I1, I2. unfold may_intersect. rdec.
  cbn [refine v0 v1 v2]. rdec. reflexivity.
Qed.
