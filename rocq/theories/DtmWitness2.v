(** Worked lines of sight for C20-C22. *)
From Coq Require Import Reals ZArith List Bool Lra Lia Psatz.
From Verif Require Import Num NumLemmas InterpModel InterpSpec InterpProofs ProjModel ProjSpec PropertiesProj
  DtmModel DtmSpec DtmCube DtmWalk DtmIntersect CppDtmModel CppDtmProofs DtmProofs DtmWitness.
Import ListNotations.
Open Scope R_scope.

(** ** [intersection_one] on finite lines of sight *)
Lemma finite_rows los : seq_opt (map finite_row (map row_of_vec los)) = Some los.
Proof.
  induction los as [|[x y z] los IH]; [reflexivity|].
  cbn [map]. unfold finite_row at 1, row_of_vec at 1. cbn [lon3 lat3 alt3 v0 v1 v2 seq_opt]. now rewrite IH.
Qed.
Lemma one_finite d fuel los :
  intersection_one d fuel (map row_of_vec los) =
  match intersect_dtm_cube d los with
  | Some (p, h) =>
      match intersection d fuel (los_to_index d los) p h with
      | Some (_, g) => Some (row_of_vec g)
      | None => None
      end
  | None => Some nan3
  end.
Proof. unfold intersection_one. now rewrite finite_rows. Qed.

(** ** Steps of the loop over the cells *)
Lemma cell_pass d s fuel n w w' : cell_guard d w = true -> mesh_move s w = w' ->
  0 < (v2 (w_p w) - interpolate d (v0 (w_p w)) (v1 (w_p w))) *
      (v2 (w_p w') - interpolate d (v0 (w_p w')) (v1 (w_p w'))) ->
  cell_loop d s fuel (S n) w = cell_loop d s fuel n w'.
Proof.
  intros HG <- HP. cbn [cell_loop]. rewrite HG. cbv zeta.
  destruct may_intersect; [|reflexivity]. now rewrite (proj2 (Rleb_false _ _)) by assumption.
Qed.
Lemma cell_stop d s fuel n w : cell_guard d w = false -> cell_loop d s fuel n w = CEnd (w_a w).
Proof. intros HG. destruct n; cbn [cell_loop]; now rewrite HG. Qed.

(** ** The entry in the cube *)
(** Two different positions on two face planes. *)
Lemma cube_two_faces d a b t i j s : big_enough (dt_data d) -> ~ in_cube (dt_data d) a ->
  (i < 6)%nat -> (j < 6)%nat -> slack d i a <> 0 -> slack d j a <> 0 ->
  slack d i (along a b t) = 0 -> slack d j (along a b s) = 0 -> 0 < t < s -> s <= 1 ->
  in_cube (dt_data d) (along a b t) -> in_cube (dt_data d) (along a b s) ->
  (forall u, 0 <= u < t -> ~ in_cube (dt_data d) (along a b u)) ->
  intersect_dtm_cube_index d [a; b] = Some (along a b t, t).
Proof.
  intros Hb Ha Hi Hj Si Sj Et Es Hts Hs1 Ct Cs HF.
  apply cube_entry; auto; [|lra]. intros HN.
  destruct (crossing_exists d a b i t Hi ltac:(lra) Si Et) as (c & Hc & Pc & Hhc).
  destruct (crossing_exists d a b j s Hj ltac:(lra) Sj Es) as (c' & Hc' & Pc' & Hhc').
  assert (E : c = c') by (apply (cube_none d _ Hb HN); auto; [now rewrite Pc|now rewrite Pc']).
  subst c'. lra.
Qed.

(** ** A step: found by the Python code, not by the C++ code *)
Definition step_dtm : dtm :=
  mkDtm (mkRaster 4 2 (fun i _ => if (i =? 2)%Z then 10 else if (i =? 3)%Z then 0 else -5)) ex_gdal 4326.
Example step_big : big_enough (dt_data step_dtm).
Proof. split; simpl; lia. Qed.
Lemma step_nodes i j : -5 <= rs_at (dt_data step_dtm) i j <= 10.
Proof. cbn [step_dtm dt_data rs_at]. destruct (i =? 2)%Z; [lra|]. destruct (i =? 3)%Z; lra. Qed.
Lemma step_bounds : alt_min step_dtm = -5 /\ alt_max step_dtm = 10.
Proof.
  split; apply Rle_antisym.
  - apply (alt_min_le step_dtm 0 0). split; simpl; lia.
  - destruct (alt_min_node step_dtm step_big) as (i & j & _ & <-). apply step_nodes.
  - destruct (alt_max_node step_dtm step_big) as (i & j & _ & <-). apply step_nodes.
  - apply (alt_max_ge step_dtm 2 0). split; simpl; lia.
Qed.
Lemma step_row x i : (0 <= i < 3)%Z -> x = IZR i \/ x = IZR i + 1 ->
  interpolate step_dtm x (1 / 2) = rs_at (dt_data step_dtm) (if Reqb x (IZR i) then i else i + 1)%Z 0.
Proof.
  intros Hi Hx. unfold interpolate. rewrite (interp_in_cell _ i 0).
  - unfold bilinear_in_cell, lerp. cbn [step_dtm dt_data rs_at].
    destruct (Reqb_spec x (IZR i)) as [E|E]; destruct Hx as [-> | ->]; try lra;
      repeat match goal with |- context [(?a =? ?b)%Z] => destruct (a =? b)%Z end; try lra; exfalso; apply E; lra.
  - split; cbn [step_dtm dt_data rs_rows rs_cols]; lia.
  - split; simpl; lra.
Qed.
Definition sa : vec3 := V3 13 (1 / 2) 11.
Definition sb : vec3 := V3 (-4) (1 / 2) (-6).
Lemma step_along u : along sa sb u = V3 (13 - 17 * u) (1 / 2) (11 - 17 * u).
Proof. unfold along, sa, sb. cbn [v0 v1 v2]. f_equal; lra. Qed.
Lemma step_in_cube p : in_cube (dt_data step_dtm) p <-> (0 <= v0 p <= 3 /\ 0 <= v1 p <= 1) /\ -5 <= v2 p <= 10.
Proof. rewrite in_cube_iff by apply step_big. destruct step_bounds as [-> ->]. reflexivity. Qed.
Lemma step_cube : intersect_dtm_cube_index step_dtm [sa; sb] = Some (V3 3 (1 / 2) 1, 10 / 17).
Proof.
  destruct step_bounds as [Em EM].
  rewrite (cube_two_faces step_dtm sa sb (10 / 17) 1 0 (13 / 17)).
  - rewrite step_along. do 2 f_equal. f_equal; lra.
  - apply step_big.
  - rewrite step_in_cube. cbn [sa v0 v1 v2]. lra.
  - lia.
  - lia.
  - cbn [slack sa v0]. unfold nb_rows. simpl. lra.
  - cbn [slack sa v0]. lra.
  - rewrite step_along. cbn [slack v0]. unfold nb_rows. simpl. lra.
  - rewrite step_along. cbn [slack v0]. lra.
  - lra.
  - lra.
  - rewrite step_along, step_in_cube. cbn [v0 v1 v2]. lra.
  - rewrite step_along, step_in_cube. cbn [v0 v1 v2]. lra.
  - intros u Hu. rewrite step_along, step_in_cube. cbn [v0 v1 v2]. lra.
Qed.
Lemma step_found fuel : (fuel_bound step_dtm <= fuel)%nat ->
  exists u, 10 / 17 <= u <= 1 /\
    intersection_index step_dtm fuel [sa; sb] (V3 3 (1 / 2) 1) (10 / 17) = Found (along sa sb u) /\
    on_surface (dt_data step_dtm) tol_z (along sa sb u).
Proof.
  intros HF. set (h := 10 / 17).
  assert (Ep : V3 3 (1 / 2) 1 = along sa sb h) by (rewrite step_along; unfold h; f_equal; lra).
  rewrite Ep. assert (Hh : 0 <= h < 1) by (unfold h; lra).
  assert (Hin : in_hull (dt_data step_dtm) (v0 (along sa sb h)) (v1 (along sa sb h))).
  { rewrite step_along. unfold in_hull, h. cbn [v0 v1 step_dtm dt_data rs_rows rs_cols]. simpl. lra. }
  assert (Hc : clr step_dtm sa sb h = 1).
  { unfold clr. rewrite step_along. cbn [v0 v1 v2]. rewrite (step_row _ 2) by (unfold h; lia || lra).
    destruct (Reqb_spec (13 - 17 * h) 2) as [E|E]; [unfold h in E; lra|]. cbn [step_dtm dt_data rs_at Z.add Z.eqb].
    simpl. unfold h. lra. }
  destruct (intersection_index step_dtm fuel [sa; sb] (along sa sb h) h) as [q| | |] eqn:EI.
  - destruct (found_not_beyond step_dtm fuel sa sb h q step_big Hh Hin) as (u & Hu & -> & Hs); auto.
    + destruct step_bounds as [-> ->]. rewrite step_along. unfold h. cbn [v2]. lra.
    + left. unfold in_hull, sb. cbn [v0 v1]. lra.
    + exists u. auto.
  - exfalso. destruct (not_found2 step_dtm fuel sa sb h step_big Hh) as [?|(_ & HM & _)]; auto; try lra.
    + left. unfold d0, sa, sb. cbn [v0]. lra.
    + unfold along_last_border, d0, d1, sa, sb. cbn [v0 v1]. simpl. lra.
    + assert (H2 : 0 < clr step_dtm sa sb (11 / 17)).
      { apply HM.
        - unfold h. lra.
        - rewrite step_along. unfold in_hull. cbn [v0 v1 step_dtm dt_data rs_rows rs_cols]. simpl. lra.
        - left. split; [unfold d0, sa, sb; cbn [v0]; lra|]. exists 2%Z. rewrite step_along. cbn [v0]. lra. }
      unfold clr in H2. rewrite step_along in H2. cbn [v0 v1 v2] in H2.
      rewrite (step_row _ 2) in H2 by (lia || lra).
      rewrite (proj2 (Reqb_true _ _)) in H2 by lra. cbn [step_dtm dt_data rs_at] in H2. simpl in H2. lra.
  - exfalso. apply crash2 in EI; [|assumption]. destruct EI as (e & i & j & _ & E & _). lra.
  - exfalso. revert EI. apply fuel2; auto; [apply step_big|now apply fuel_bound_ok].
Qed.
Lemma step_cpp fuel : (2 <= fuel)%nat ->
  cpp_intersection_index (cpp_of step_dtm) fuel [sa; sb] (V3 3 (1 / 2) 1) (10 / 17) = NotFound.
Proof.
  intros Hf. destruct fuel as [|[|fuel]]; try lia.
  assert (R3 : interpolate step_dtm 3 (1 / 2) = 0).
  { rewrite (step_row 3 2) by (lia || lra). now rewrite (proj2 (Reqb_false 3 2)) by lra. }
  assert (R1 : interpolate step_dtm 1 (1 / 2) = -5).
  { rewrite (step_row 1 1) by (lia || lra). now rewrite (proj2 (Reqb_true 1 1)) by lra. }
  assert (R0 : interpolate step_dtm 0 (1 / 2) = -5).
  { rewrite (step_row 0 0) by (lia || lra). now rewrite (proj2 (Reqb_true 0 0)) by lra. }
  unfold cpp_intersection_index. rewrite cpp_itp_eq by apply step_big. cbn [v0 v1 v2]. rewrite R3. rdec.
  assert (E : Rfloor (10 / 17) = 0%Z) by (apply Rfloor_unique; lra). rewrite E.
  cbn [cpp_vertex_loop length Z.to_nat Nat.sub Nat.ltb Nat.leb nth_error Nat.add INR].
  cbn [segment_of sa sb s_d0 s_d1 v0 v1 v2]. rdec. cbn [andb]. cbv zeta.
  assert (F0 : cpp_first_cell 3 (-4 - 13) = 1%Z).
  { unfold cpp_first_cell. rewrite (Rfloor_IZR 3). cbv zeta. rdec. reflexivity. }
  assert (F1 : cpp_first_cell (1 / 2) (1 / 2 - 1 / 2) = 0%Z).
  { unfold cpp_first_cell. rewrite (Rfloor_unique (1 / 2) 0) by lra. cbv zeta. rdec. reflexivity. }
  rewrite F0, F1. rdec.
  set (s := segment_of _ _). rewrite cpp_guard_eq.
  set (w0 := W _ 1 0 _).
  assert (G0 : cell_guard step_dtm w0 = true).
  { unfold w0, cell_guard. cbn [w_a w_c w_r]. rdec. reflexivity. }
  rewrite G0, cpp_cell_loop_eq by apply step_big.
  set (w1 := W (12 / 17) 0 0 (V3 1 (1 / 2) (-1))). set (w2 := W (13 / 17) (-1) 0 (V3 0 (1 / 2) (-2))).
  assert (M0 : mesh_move s w0 = w1).
  { unfold mesh_move, w0, w1, s, segment_of, sa, sb. cbn [s_d0 s_d1 s_d2 s_col0 s_row0 s_z0 s_z1 w_c w_r w_p v0 v1 v2]. rdec.
    cbn [Z.sub Z.add Z.opp Pos.sub Z.pos_sub]. assert (EA : (1 - 13) / (-4 - 13) = 12 / 17) by field. rewrite EA. f_equal. f_equal; lra. }
  assert (M1 : mesh_move s w1 = w2).
  { unfold mesh_move, w1, w2, s, segment_of, sa, sb. cbn [s_d0 s_d1 s_d2 s_col0 s_row0 s_z0 s_z1 w_c w_r w_p v0 v1 v2]. rdec.
    cbn [Z.sub Z.add Z.opp]. assert (EA : (0 - 13) / (-4 - 13) = 13 / 17) by field. rewrite EA. f_equal. f_equal; lra. }
  rewrite (cell_pass _ _ _ _ w0 w1 G0 M0).
  2:{ cbn [w0 w1 w_p v0 v1 v2]. rewrite R3, R1. lra. }
  assert (G1 : cell_guard step_dtm w1 = true).
  { unfold w1, cell_guard. cbn [w_a w_c w_r]. rdec. reflexivity. }
  rewrite (cell_pass _ _ _ _ w1 w2 G1 M1).
  2:{ cbn [w1 w2 w_p v0 v1 v2]. rewrite R1, R0. lra. }
  rewrite cell_stop. 2:{ unfold w2, cell_guard. cbn [w_a w_c w_r]. rdec. reflexivity. }
  cbn [w2 w_a]. rdec. reflexivity.
Qed.

(** ** Two crossings in one saddle-shaped cell *)
Definition saddle_dtm : dtm :=
  mkDtm (mkRaster 3 3 (fun i j =>
    if ((i =? 0) && (j =? 0) || (i =? 1) && (j =? 1))%Z%bool then 0 else 1)) ex_gdal 4326.
Example saddle_big : big_enough (dt_data saddle_dtm).
Proof. split; simpl; lia. Qed.
Lemma saddle_nodes i j : 0 <= rs_at (dt_data saddle_dtm) i j <= 1.
Proof. cbn [saddle_dtm dt_data rs_at]. destruct ((i =? 0) && (j =? 0) || (i =? 1) && (j =? 1))%Z; lra. Qed.
Lemma saddle_bounds : alt_min saddle_dtm = 0 /\ alt_max saddle_dtm = 1.
Proof.
  split; apply Rle_antisym.
  - apply (alt_min_le saddle_dtm 0 0). split; simpl; lia.
  - destruct (alt_min_node saddle_dtm saddle_big) as (i & j & _ & <-). apply saddle_nodes.
  - destruct (alt_max_node saddle_dtm saddle_big) as (i & j & _ & <-). apply saddle_nodes.
  - apply (alt_max_ge saddle_dtm 0 1). split; simpl; lia.
Qed.
Lemma saddle_diag x : 0 <= x <= 1 -> interpolate saddle_dtm x x = 2 * x * (1 - x).
Proof.
  intros Hx. unfold interpolate. rewrite (interp_in_cell _ 0 0).
  - unfold bilinear_in_cell, lerp. simpl. ring.
  - split; simpl; lia.
  - split; simpl; lra.
Qed.
Lemma saddle_end : interpolate saddle_dtm 2 2 = 1.
Proof.
  unfold interpolate. rewrite (interp_in_cell _ 1 1).
  - unfold bilinear_in_cell, lerp. simpl. ring.
  - split; simpl; lia.
  - split; simpl; lra.
Qed.
Definition da : vec3 := V3 (-1) (-1) (11 / 20).
Definition db : vec3 := V3 3 3 (3 / 20).
Lemma saddle_along u : along da db u = V3 (4 * u - 1) (4 * u - 1) (11 / 20 - 2 / 5 * u).
Proof. unfold along, da, db. cbn [v0 v1 v2]. f_equal; lra. Qed.
Lemma saddle_in_cube p : in_cube (dt_data saddle_dtm) p <-> (0 <= v0 p <= 2 /\ 0 <= v1 p <= 2) /\ 0 <= v2 p <= 1.
Proof. rewrite in_cube_iff by apply saddle_big. destruct saddle_bounds as [-> ->]. reflexivity. Qed.
Lemma saddle_cube : intersect_dtm_cube_index saddle_dtm [da; db] = Some (along da db (1 / 4), 1 / 4).
Proof.
  apply (cube_two_faces saddle_dtm da db (1 / 4) 0 1 (3 / 4)).
  - apply saddle_big.
  - rewrite saddle_in_cube. cbn [da v0 v1 v2]. lra.
  - lia.
  - lia.
  - cbn [slack da v0]. lra.
  - cbn [slack da v0]. unfold nb_rows. simpl. lra.
  - rewrite saddle_along. cbn [slack v0]. lra.
  - rewrite saddle_along. cbn [slack v0]. unfold nb_rows. simpl. lra.
  - lra.
  - lra.
  - rewrite saddle_along, saddle_in_cube. cbn [v0 v1 v2]. lra.
  - rewrite saddle_along, saddle_in_cube. cbn [v0 v1 v2]. lra.
  - intros u Hu. rewrite saddle_along, saddle_in_cube. cbn [v0 v1 v2]. lra.
Qed.
Lemma saddle_found fuel : (fuel_bound saddle_dtm <= fuel)%nat ->
  exists u, 1 / 2 <= u /\
    intersection_index saddle_dtm fuel [da; db] (along da db (1 / 4)) (1 / 4) = Found (along da db u).
Proof.
  intros HF.
  assert (Hin : in_hull (dt_data saddle_dtm) (v0 (along da db (1 / 4))) (v1 (along da db (1 / 4)))).
  { rewrite saddle_along. unfold in_hull. cbn [v0 v1 saddle_dtm dt_data rs_rows rs_cols]. simpl. lra. }
  assert (Hc : clr saddle_dtm da db (1 / 4) = 9 / 20).
  { unfold clr. rewrite saddle_along. cbn [v0 v1 v2]. rewrite saddle_diag by lra. lra. }
  assert (Hc2 : clr saddle_dtm da db (1 / 2) = 7 / 20).
  { unfold clr. rewrite saddle_along. cbn [v0 v1 v2]. rewrite saddle_diag by lra. lra. }
  assert (Hd : d0 da db <> 0 \/ d1 da db <> 0) by (left; unfold d0, da, db; cbn [v0]; lra).
  destruct (intersection_index saddle_dtm fuel [da; db] (along da db (1 / 4)) (1 / 4)) as [q| | |] eqn:EI.
  - destruct (found2_post saddle_dtm fuel da db (1 / 4) q ltac:(lra) Hd EI) as (_ & HP).
    destruct HP as (u & s & e & i & j & -> & H1 & _ & Hu & HS & _ & _ & HE & HX & _).
    exists u. split; [|reflexivity]. destruct (Rle_lt_dec (1 / 2) u) as [|Hlt]; [assumption|]. exfalso.
    destruct HS as (Hse & [Hi _] & [Hs0 _] & [He0 _]). rewrite saddle_along in Hs0, He0. cbn [v0] in Hs0, He0.
    cbn [saddle_dtm dt_data rs_rows] in Hi.
    assert (i = 0%Z).
    { assert (i < 1)%Z by (apply lt_IZR; lra). lia. }
    subst i. simpl in Hs0, He0.
    assert (e = 1 / 2).
    { assert (exists k, v0 (along da db e) = IZR k) as [k Hk].
      { destruct HX as [[_ HX]|[_ HX]]; [assumption|]. rewrite saddle_along in HX |- *. exact HX. }
      rewrite saddle_along in Hk. cbn [v0] in Hk.
      assert (0 < k)%Z by (apply lt_IZR; lra). assert (k <= 1)%Z by (apply le_IZR; lra).
      assert (k = 1%Z) by lia. subst k. lra. }
    subst e. destruct HE as [HE|(_ & _ & HE)]; lra.
  - exfalso. destruct (not_found2 saddle_dtm fuel da db (1 / 4) saddle_big ltac:(lra) Hd) as [?|(_ & HM & _)];
      auto; try lra.
    + unfold along_last_border, d0, d1, da, db. cbn [v0 v1]. lra.
    + assert (H2 : 0 < clr saddle_dtm da db (3 / 4)).
      { apply HM.
        - lra.
        - rewrite saddle_along. unfold in_hull. cbn [v0 v1 saddle_dtm dt_data rs_rows rs_cols]. simpl. lra.
        - left. split; [unfold d0, da, db; cbn [v0]; lra|]. exists 2%Z. rewrite saddle_along. cbn [v0]. lra. }
      unfold clr in H2. rewrite saddle_along in H2. cbn [v0 v1 v2] in H2.
      replace (4 * (3 / 4) - 1) with 2 in H2 by lra. rewrite saddle_end in H2. lra.
  - exfalso. apply crash2 in EI; [|lra]. destruct EI as (e & i & j & _ & E & _). lra.
  - exfalso. revert EI. apply fuel2; auto; [apply saddle_big|lra|now apply fuel_bound_ok].
Qed.
