(** C20-C22, C53, C54: lines of sight that miss the DTM, the two implementations, the first crossing,
    exceptions, and the ends of the line of sight. *)
From Coq Require Import Reals ZArith List Bool Lra Lia Psatz.
From Verif Require Import Num NumLemmas InterpModel InterpSpec InterpProofs ProjModel ProjSpec PropertiesProj
  DtmModel DtmSpec DtmCube DtmWalk DtmIntersect CppDtmModel CppDtmProofs DtmProofs DtmWitness PropertiesDtm
  DtmWitness2.
Import ListNotations.
Open Scope R_scope.

(** A line of sight of finite points, as the rows given to [intersection_n_los_dtm]. *)
Definition rows (los : list vec3) : list row3 := map row_of_vec los.

(** ** C20 *)
(** A line of sight that has no point in the box of the DTM gives NaN.  Missing: the lines of sight
    that cross the box without meeting the surface, for which the claim is false (below). *)
Theorem C20_outside_the_box_gives_nan_partial :
  forall d fuel a b, big_enough (dt_data d) ->
  let ia := ter_to_index (dt_trans_inv d) a in let ib := ter_to_index (dt_trans_inv d) b in
  (forall t, 0 <= t <= 1 -> ~ in_cube (dt_data d) (along ia ib t)) ->
  intersection_one d fuel (rows [a; b]) = Some nan3.
Proof.
  intros d fuel a b Hb ia ib HN. unfold rows. rewrite one_finite. unfold intersect_dtm_cube.
  change (los_to_index d [a; b]) with [ia; ib].
  destruct (intersect_dtm_cube_index d [ia; ib]) as [[p h]|] eqn:EC; [|reflexivity]. exfalso.
  destruct (cube_start2 d ia ib p h Hb EC) as [Hin [[_ ->]|[Hh ->]]].
  - apply (HN 0); [lra|]. now rewrite along_at_0.
  - now apply (HN h).
Qed.
(** Every line of sight that goes inside of the box, starts and ends outside of it, and stays above the
    surface by more than the tolerance, gives the point (0, 0, 0): not NaN. *)
Theorem C20_missed_surface_gives_zeros :
  forall d fuel a b t, big_enough (dt_data d) -> (fuel_bound d <= fuel)%nat ->
  let ia := ter_to_index (dt_trans_inv d) a in let ib := ter_to_index (dt_trans_inv d) b in
  ~ in_cube (dt_data d) ia -> ~ in_cube (dt_data d) ib ->
  0 <= t <= 1 -> strictly_in_cube (dt_data d) (along ia ib t) ->
  (forall u e, 0 <= u -> clearance (dt_data d) (along ia ib u) e -> 1 / 10000 < e) ->
  intersection_one d fuel (rows [a; b]) = Some (R3 (Some 0) (Some 0) (Some 0)).
Proof.
  intros d fuel a b t Hb HF ia ib Ha Hbb Ht Hin HE. unfold rows. rewrite one_finite. unfold intersect_dtm_cube.
  change (los_to_index d [a; b]) with [ia; ib].
  destruct (intersect_dtm_cube_index d [ia; ib]) as [[p h]|] eqn:EC.
  2:{ exfalso. exact (cube_found_if_inside d ia ib t Hb Ht Ha Hbb Hin EC). }
  destruct (cube_first d ia ib p h Hb Ha EC) as (Hh & -> & Hinp & _).
  apply in_cube_iff in Hinp; [|assumption]. destruct Hinp as [Hinp _].
  assert (EI : intersection_index d fuel [ia; ib] (along ia ib h) h = NotFound).
  { destruct (Req_dec h 1) as [->|Hn]; [apply intersection2_end|].
    destruct (intersection_index d fuel [ia; ib] (along ia ib h) h) as [q| | |] eqn:EI; [exfalso|reflexivity|exfalso|exfalso].
    - destruct (found2 d fuel ia ib h q Hb ltac:(lra) Hinp EI) as (u & Hu & -> & (e & He & Hte)).
      specialize (HE u e ltac:(lra) He). apply Rabs_le_between in Hte. unfold tol_z in Hte. lra.
    - apply crash2 in EI; [|lra]. destruct EI as (e & i & j & _ & E & _).
      specialize (HE h (clr d ia ib h) ltac:(lra)). rewrite E in HE. assert (1 / 10000 < 0); [|lra].
      apply HE. rewrite <- E. now apply clearance_iff.
    - revert EI. apply fuel2; auto; [lra|now apply fuel_bound_ok]. }
  unfold intersection. rewrite EI. reflexivity.
Qed.
Theorem C20_miss_gives_nan_refuted :
  exists d a b, big_enough (dt_data d) /\ invertible (dt_transform d) /\
  (forall u e, 0 <= u <= 1 ->
     clearance (dt_data d) (ter_to_index (dt_trans_inv d) (along a b u)) e -> 1 < e) /\
  forall fuel, (fuel_bound d <= fuel)%nat ->
    intersection_one d fuel (rows [a; b]) = Some (R3 (Some 0) (Some 0) (Some 0)).
Proof.
  set (d := corner_dtm). set (ia := V3 (3 / 2) (1 / 4) 6). set (ib := V3 (-1 / 2) (1 / 4) 4).
  assert (HI : invertible (dt_transform d)) by (apply dt_invertible, ex_gdal_inv).
  assert (EA : forall p, ter_to_index (dt_trans_inv d) (index_to_ter (dt_transform d) p) = p)
    by (intros p; now apply C05_dtm_index_ter_index).
  assert (HC : forall u e, clearance (dt_data d) (along ia ib u) e -> 1 < e).
  { intros u e He. apply clearance_iff in He; [|apply corner_big]. destruct He as [Hin ->].
    unfold in_hull in Hin. cbn [along ia ib v0 v1 v2 d corner_dtm dt_data rs_rows rs_cols] in *. simpl in Hin.
    unfold d. rewrite corner_interp by lra. lra. }
  exists d, (index_to_ter (dt_transform d) ia), (index_to_ter (dt_transform d) ib).
  split; [apply corner_big|]. split; [assumption|]. split.
  - intros u e _. rewrite ter_to_index_along, !EA. apply HC.
  - intros fuel HF.
    apply (C20_missed_surface_gives_zeros d fuel _ _ (1 / 2)); cbv zeta; rewrite ?EA; auto.
    + apply corner_big.
    + intros [[H _] _]. simpl in H. lra.
    + intros [[H _] _]. simpl in H. lra.
    + lra.
    + split; [cbn [along ia ib v0 v1 d corner_dtm dt_data rs_rows rs_cols]; simpl; lra|].
      split; [exists 0%Z, 0%Z|exists 1%Z, 1%Z]; (split; [split; simpl; lia|]); simpl; lra.
    + intros u e _ He. specialize (HC u e He). lra.
Qed.
Example C20_case : exists a b,
  let ia := ter_to_index (dt_trans_inv corner_dtm) a in let ib := ter_to_index (dt_trans_inv corner_dtm) b in
  forall t, 0 <= t <= 1 -> ~ in_cube (dt_data corner_dtm) (along ia ib t).
Proof.
  exists (index_to_ter (dt_transform corner_dtm) (V3 3 1 20)), (index_to_ter (dt_transform corner_dtm) (V3 2 0 (-20))).
  cbv zeta. unfold dt_trans_inv. rewrite !C05_dtm_index_ter_index by (apply dt_invertible, ex_gdal_inv).
  intros t Ht [[H _] _]. simpl in H. lra.
Qed.

(** ** C19, continued *)
(** A line of sight that runs exactly along the last row or column of nodes is never found, even
    when it goes from above all the nodes to below all of them. *)
Theorem C19_along_the_last_line_refuted :
  forall d fuel a b, big_enough (dt_data d) ->
  let ia := ter_to_index (dt_trans_inv d) a in let ib := ter_to_index (dt_trans_inv d) b in
  v0 ia <> v0 ib \/ v1 ia <> v1 ib ->
  in_hull (dt_data d) (v0 ia) (v1 ia) -> in_hull (dt_data d) (v0 ib) (v1 ib) ->
  all_nodes_below (dt_data d) (v2 a) -> all_nodes_above (dt_data d) (v2 b) ->
  runs_along_last_line (dt_data d) ia ib ->
  intersection_one d fuel (rows [a; b]) = Some (R3 (Some 0) (Some 0) (Some 0)).
Proof.
  intros d fuel a b Hb ia ib Hd Ha Hbb HA HB HL.
  destruct (C15_succeeds_through_the_dtm d a b Hb Ha Hbb HA HB) as (h & Hh & EC & Hz). fold ia ib in EC, Hz.
  apply nodes_below_iff in HA; [|assumption]. apply nodes_above_iff in HB; [|assumption].
  unfold rows. rewrite one_finite, EC. change (los_to_index d [a; b]) with [ia; ib].
  assert (Hd' : d0 ia ib <> 0 \/ d1 ia ib <> 0) by (destruct Hd; [left|right]; unfold d0, d1; lra).
  unfold intersection. rewrite intersection2_eq by (assumption || lra).
  destruct (Rltb (clr d ia ib h) 0); [reflexivity|].
  assert (G : cell_guard d (start_walk ia ib (along ia ib h) h) = false).
  { destruct (cell_guard d (start_walk ia ib (along ia ib h) h)) eqn:EG; [|reflexivity]. exfalso.
    apply guard_iff in EG. destruct EG as [_ [H0 H1]]. cbn [start_walk w_c w_r] in H0, H1.
    destruct HL as [[E1 E2]|[E1 E2]].
    - assert (E : d0 ia ib = 0) by (unfold d0; lra). rewrite along0, E, Rmult_0_r, Rplus_0_r, first_cell_0, E2, Rfloor_IZR in H0. lia.
    - assert (E : d1 ia ib = 0) by (unfold d1; lra). rewrite along1, E, Rmult_0_r, Rplus_0_r, first_cell_0, E2, Rfloor_IZR in H1. lia. }
  now rewrite G.
Qed.
Example C19_last_line_case :
  let d := ex_dtm in let ia := V3 2 (1 / 2) 20 in let ib := V3 2 (3 / 2) (-5) in
  (v0 ia <> v0 ib \/ v1 ia <> v1 ib) /\
  in_hull (dt_data d) (v0 ia) (v1 ia) /\ in_hull (dt_data d) (v0 ib) (v1 ib) /\
  all_nodes_below (dt_data d) (v2 ia) /\ all_nodes_above (dt_data d) (v2 ib) /\
  runs_along_last_line (dt_data d) ia ib /\ los_to_index d (ground d [ia; ib]) = [ia; ib].
Proof.
  cbv zeta. cbn [v0 v1 v2]. unfold in_hull. cbn [ex_dtm dt_data rs_rows rs_cols]. simpl (3 - 1)%Z.
  split; [right; lra|]. split; [lra|]. split; [lra|]. split; [|split; [|split]].
  - intros i j _. pose proof (ex_dtm_nodes i j). cbn [ex_dtm dt_data] in H. lra.
  - intros i j _. pose proof (ex_dtm_nodes i j). cbn [ex_dtm dt_data] in H. lra.
  - left. split; reflexivity.
  - apply ground_index, ex_dtm_inv.
Qed.

(** ** C21 *)
Lemma cpp_los d los : map (cpp_ter_to_index (cd_tr_inv (cpp_of d))) los = los_to_index d los.
Proof. unfold los_to_index, ters_to_indexs. apply map_ext. intros p. apply C05_cpp_ter_to_index. Qed.
Lemma cpp_one_eq d fuel a los :
  let ilos := los_to_index d (a :: los) in
  (forall i, (i < 6)%nat -> eq_plan d i (ter_to_index (dt_trans_inv d) a) <> 0) ->
  (forall p h, intersect_dtm_cube d (a :: los) = Some (p, h) ->
     cpp_intersection_index (cpp_of d) fuel ilos p h = intersection_index d fuel ilos p h) ->
  match cpp_intersection_one (cpp_of d) fuel (a :: los) with
  | Value r => intersection_one d fuel (rows (a :: los)) = Some r
  | Indeterminate => intersection_one d fuel (rows (a :: los)) = Some (R3 (Some 0) (Some 0) (Some 0))
  | Throws | Endless => intersection_one d fuel (rows (a :: los)) = None
  end.
Proof.
  intros ilos HP HI. unfold cpp_intersection_one. rewrite cpp_los. fold ilos.
  unfold rows. rewrite one_finite. unfold intersect_dtm_cube in *. fold ilos. fold ilos in HI.
  change ilos with (ter_to_index (dt_trans_inv d) a :: los_to_index d los) at 1.
  rewrite cpp_cube_some by assumption.
  change (ter_to_index (dt_trans_inv d) a :: los_to_index d los) with ilos.
  destruct (intersect_dtm_cube_index d ilos) as [[p h]|]; [|reflexivity].
  rewrite (HI p h eq_refl). unfold intersection.
  destruct (intersection_index d fuel ilos p h) as [q| | |]; reflexivity.
Qed.
Lemma planes_off d p : big_enough (dt_data d) ->
  v0 p <> 0 -> v0 p <> IZR (rs_rows (dt_data d) - 1) -> v1 p <> 0 -> v1 p <> IZR (rs_cols (dt_data d) - 1) ->
  v2 p <> alt_min d -> v2 p <> alt_max d -> forall i, (i < 6)%nat -> eq_plan d i p <> 0.
Proof.
  intros Hb H0 H1 H2 H3 H4 H5 i Hi. rewrite minus_IZR in H1, H3.
  assert (HS : slack d i p <> 0).
  { do 6 (destruct i as [|i]; [cbn [slack]; unfold nb_rows, nb_columns; lra|]). lia. }
  destruct (slack_eq_plan d i p Hi) as [->|E]; [assumption|]. rewrite E. lra.
Qed.

(** For a line of sight of two points: when its first point is on none of the six face planes and its
    entry point is not on a border of a cell along an axis that the line of sight goes down, the two
    implementations give the same point.  Where Python gives (0, 0, 0) for a missed surface, C++ gives
    an uninitialised point.  Missing: the excluded lines of sight, for which the claim is false. *)
Theorem C21_same_result_partial :
  forall d fuel a b, big_enough (dt_data d) ->
  let ia := ter_to_index (dt_trans_inv d) a in let ib := ter_to_index (dt_trans_inv d) b in
  v0 ia <> 0 -> v0 ia <> IZR (rs_rows (dt_data d) - 1) -> v1 ia <> 0 -> v1 ia <> IZR (rs_cols (dt_data d) - 1) ->
  v2 a <> alt_min d -> v2 a <> alt_max d -> ~ in_cube (dt_data d) ia ->
  (forall t, 0 < t < 1 -> on_face (dt_data d) (along ia ib t) ->
     ((exists i, v0 (along ia ib t) = IZR i) -> v0 ia <= v0 ib) /\
     ((exists j, v1 (along ia ib t) = IZR j) -> v1 ia <= v1 ib)) ->
  match cpp_intersection_one (cpp_of d) fuel [a; b] with
  | Value r => intersection_one d fuel (rows [a; b]) = Some r
  | Indeterminate => intersection_one d fuel (rows [a; b]) = Some (R3 (Some 0) (Some 0) (Some 0))
  | Throws | Endless => intersection_one d fuel (rows [a; b]) = None
  end.
Proof.
  intros d fuel a b Hb ia ib H0 H1 H2 H3 H4 H5 Ha HD. apply cpp_one_eq.
  - apply planes_off; assumption.
  - intros p h EC. change (los_to_index d [a; b]) with [ia; ib].
    destruct (C15_first_point_of_the_cube d a b p h Hb Ha EC) as (Hh & -> & HF & _). fold ia ib in HF |- *.
    destruct (Req_dec h 1) as [->|Hn].
    + rewrite intersection2_end. unfold cpp_intersection_index.
      assert (E : Rfloor 1 = 1%Z) by (apply (Rfloor_IZR 1)). rewrite E. destruct Rltb; reflexivity.
    + apply cpp_intersection2_eq; [assumption|lra|].
      destruct (HD h ltac:(lra) HF) as [D0 D1].
      intros [[HX HL]|[HX HL]]; [specialize (D0 HX)|specialize (D1 HX)]; lra.
Qed.
(** A line of sight with any number of points: the same, when no segment goes down an axis from a
    border of a cell. *)
Theorem C21_same_result_polyline_partial :
  forall d fuel a los, big_enough (dt_data d) ->
  let ia := ter_to_index (dt_trans_inv d) a in let ilos := los_to_index d (a :: los) in
  v0 ia <> 0 -> v0 ia <> IZR (rs_rows (dt_data d) - 1) -> v1 ia <> 0 -> v1 ia <> IZR (rs_cols (dt_data d) - 1) ->
  v2 a <> alt_min d -> v2 a <> alt_max d -> ~ in_cube (dt_data d) ia ->
  (forall k u w, nth_error ilos k = Some u -> nth_error ilos (S k) = Some w -> v0 u <= v0 w /\ v1 u <= v1 w) ->
  match cpp_intersection_one (cpp_of d) fuel (a :: los) with
  | Value r => intersection_one d fuel (rows (a :: los)) = Some r
  | Indeterminate => intersection_one d fuel (rows (a :: los)) = Some (R3 (Some 0) (Some 0) (Some 0))
  | Throws | Endless => intersection_one d fuel (rows (a :: los)) = None
  end.
Proof.
  intros d fuel a los Hb ia ilos H0 H1 H2 H3 H4 H5 Ha HD. apply cpp_one_eq.
  - apply planes_off; assumption.
  - intros p h EC. apply cpp_intersection_eq; [assumption| |].
    + eapply C16_index_in_range_partial; eauto. reflexivity.
    + intros k u w E1 E2. destruct (HD k u w E1 E2). unfold decreasing_on_border. lra.
Qed.
(** On a step, seen along decreasing rows: Python finds the surface, C++ misses it. *)
Theorem C21_found_by_python_only_refuted :
  exists d a b, big_enough (dt_data d) /\ invertible (dt_transform d) /\
  forall fuel, (fuel_bound d <= fuel)%nat ->
  (exists u, 0 <= u <= 1 /\ intersection_one d fuel (rows [a; b]) = Some (row_of_vec (along a b u)) /\
     on_surface (dt_data d) (1 / 10000) (ter_to_index (dt_trans_inv d) (along a b u))) /\
  cpp_intersection_one (cpp_of d) fuel [a; b] = Indeterminate.
Proof.
  set (d := step_dtm).
  assert (HI : invertible (dt_transform d)) by (apply dt_invertible, ex_gdal_inv).
  exists d, (index_to_ter (dt_transform d) sa), (index_to_ter (dt_transform d) sb).
  split; [apply step_big|]. split; [assumption|]. intros fuel HF.
  change [index_to_ter (dt_transform d) sa; index_to_ter (dt_transform d) sb] with (ground d [sa; sb]).
  split.
  - destruct (step_found fuel HF) as (u & Hu & EI & Hs). exists u. split; [lra|].
    unfold rows. rewrite one_finite. unfold intersect_dtm_cube. rewrite ground_index by assumption.
    unfold d at 1. rewrite step_cube. fold d in EI. unfold intersection. rewrite EI.
    rewrite ter_to_index_along. unfold dt_trans_inv. rewrite !C05_dtm_index_ter_index by assumption.
    split; [|assumption]. do 2 f_equal.
    assert (E : ter_to_index (dt_trans_inv d) (along (index_to_ter (dt_transform d) sa) (index_to_ter (dt_transform d) sb) u)
      = along sa sb u).
    { rewrite ter_to_index_along. unfold dt_trans_inv. now rewrite !C05_dtm_index_ter_index by assumption. }
    rewrite <- E. unfold dt_trans_inv. now rewrite C05_dtm_ter_index_ter.
  - unfold cpp_intersection_one. rewrite cpp_los, ground_index by assumption.
    rewrite cpp_cube_some.
    + unfold d. rewrite step_cube, step_cpp; [reflexivity|].
      unfold fuel_bound, nb_rows, nb_columns in HF. cbn [d step_dtm dt_data rs_rows rs_cols] in HF. simpl in HF. lia.
    + destruct step_bounds as [Em EM].
      apply planes_off; [apply step_big|..]; unfold d; rewrite ?Em, ?EM;
        cbn [sa v0 v1 v2 step_dtm dt_data rs_rows rs_cols]; simpl; lra.
Qed.
(** Whenever Python reports "not found" after a box entry, C++ returns whatever was in memory; the
    first vertex on a face plane makes C++ throw where Python gives a result. *)
Theorem C21_first_vertex_on_a_face_refuted :
  exists d a b, big_enough (dt_data d) /\ invertible (dt_transform d) /\
  forall fuel, (fuel_bound d <= fuel)%nat ->
  cpp_intersection_one (cpp_of d) fuel [a; b] = Throws /\
  exists r, intersection_one d fuel (rows [a; b]) = Some r.
Proof.
  set (d := corner_dtm). set (ia := V3 1 (1 / 4) 30). set (ib := V3 (1 / 2) (1 / 4) (-30)).
  assert (HI : invertible (dt_transform d)) by (apply dt_invertible, ex_gdal_inv).
  exists d, (index_to_ter (dt_transform d) ia), (index_to_ter (dt_transform d) ib).
  split; [apply corner_big|]. split; [assumption|]. intros fuel HF.
  change [index_to_ter (dt_transform d) ia; index_to_ter (dt_transform d) ib] with (ground d [ia; ib]).
  destruct corner_bounds as [Em EM].
  split.
  - unfold cpp_intersection_one. rewrite cpp_los, ground_index by assumption.
    rewrite (cpp_cube_throws d _ ia 1); [reflexivity|lia|reflexivity|].
    unfold eq_plan, plane_coef_a, plane_coef_b, plane_coef_c, plane_coef_d, nb_rows. simpl. lra.
  - unfold rows. rewrite one_finite. unfold intersect_dtm_cube. rewrite ground_index by assumption.
    destruct (intersect_dtm_cube_index d [ia; ib]) as [[p h]|] eqn:EC; [|eauto].
    assert (Ha : ~ in_cube (dt_data d) ia).
    { rewrite in_cube_iff by apply corner_big. unfold d. rewrite Em, EM. cbn [ia v2]. lra. }
    destruct (cube_first d ia ib p h corner_big Ha EC) as (Hh & -> & Hin & _ & Hfirst).
    destruct (Req_dec h 1) as [->|Hn].
    { unfold intersection. rewrite intersection2_end. eauto. }
    unfold intersection.
    destruct (intersection_index d fuel [ia; ib] (along ia ib h) h) as [q| | |] eqn:EI; eauto; exfalso.
    + apply crash2 in EI; [|lra]. destruct EI as (e & i & j & _ & E & _).
      assert (h <= 1 / 3).
      { destruct (Rle_lt_dec h (1 / 3)) as [|L]; [assumption|]. exfalso. apply (Hfirst (1 / 3)); [lra|].
        apply in_cube_iff; [apply corner_big|]. unfold d. rewrite Em, EM.
        unfold in_hull. cbn [along ia ib v0 v1 v2 corner_dtm dt_data rs_rows rs_cols]. simpl. lra. }
      unfold clr in E. cbn [along ia ib v0 v1 v2] in E. unfold d in E. rewrite corner_interp in E by lra. lra.
    + revert EI. apply fuel2; [apply corner_big|lra|now apply fuel_bound_ok].
Qed.
Example C21_case :
  let d := ex_dtm in let ia := V3 (1 / 2) (1 / 2) 20 in let ib := V3 (3 / 2) (5 / 4) (-5) in
  v0 ia <> 0 /\ v0 ia <> 2 /\ v1 ia <> 0 /\ v1 ia <> 2 /\ v2 ia <> alt_min d /\ v2 ia <> alt_max d /\
  ~ in_cube (dt_data d) ia /\ v0 ia <= v0 ib /\ v1 ia <= v1 ib /\
  los_to_index d (ground d [ia; ib]) = [ia; ib].
Proof.
  cbv zeta. destruct ex_dtm_bounds as [-> ->]. cbn [v0 v1 v2]. do 6 (split; [lra|]). split.
  - intros (_ & _ & i & j & _ & H). pose proof (ex_dtm_nodes i j). cbn [v2] in H. lra.
  - do 2 (split; [lra|]). apply ground_index, ex_dtm_inv.
Qed.

(** ** C22 *)
(** A descending line of sight that starts outside of the box is never below the surface before the
    returned point, when in every cell the surface bends up along it (or not at all: cells with coplanar
    corners, or a line of sight along a row or a column).  Missing: the other cells, for which the
    claim is false (below). *)
Theorem C22_not_below_before_the_result_partial :
  forall d fuel a b p h g, big_enough (dt_data d) -> invertible (dt_transform d) ->
  let ia := ter_to_index (dt_trans_inv d) a in let ib := ter_to_index (dt_trans_inv d) b in
  ~ in_cube (dt_data d) ia -> v2 b <= v2 a ->
  (forall i j, is_cell (dt_data d) i j -> 0 <= twist (dt_data d) i j * ((v0 ib - v0 ia) * (v1 ib - v1 ia))) ->
  intersect_dtm_cube d [a; b] = Some (p, h) ->
  intersection d fuel (los_to_index d [a; b]) p h = Some (true, g) ->
  exists u, 0 <= u /\ g = along a b u /\
    forall v e, 0 <= v <= u -> clearance (dt_data d) (along ia ib v) e -> 0 <= e.
Proof.
  intros d fuel a b p h g Hb Hinv ia ib Ha Hz HT EC HI. unfold intersect_dtm_cube in EC.
  change (los_to_index d [a; b]) with [ia; ib] in *.
  destruct (cube_first d ia ib p h Hb Ha EC) as (Hh & -> & Hin & _ & Hfirst).
  apply in_cube_iff in Hin; [|assumption]. destruct Hin as [Hin Hhz].
  destruct (Req_dec h 1) as [->|Hn]; [unfold intersection in HI; rewrite intersection2_end in HI; discriminate|].
  unfold intersection in HI. destruct (intersection_index d fuel [ia; ib] (along ia ib h) h) as [q| | |] eqn:EI; try discriminate.
  injection HI as <-.
  assert (HG : forall u, index_to_ter (dt_transform d) (along ia ib u) = along a b u).
  { intros u. unfold ia, ib. rewrite <- ter_to_index_along. unfold dt_trans_inv. now apply C05_dtm_ter_index_ter. }
  assert (Hz' : v2 ib <= v2 ia) by exact Hz.
  (* before the entry *)
  assert (HB : forall v e, 0 <= v < h -> clearance (dt_data d) (along ia ib v) e -> 0 <= e).
  { intros v e Hv He. apply clearance_iff in He; [|assumption]. destruct He as [Hinv' ->].
    pose proof (surface_between d _ _ Hb Hinv') as HS.
    destruct (Rle_lt_dec (v2 (along ia ib v)) (alt_max d)) as [HL|HL]; [|lra].
    exfalso. apply (Hfirst v Hv). apply in_cube_iff; [assumption|]. split; [assumption|]. split; [|assumption].
    eapply Rle_trans; [apply Hhz|]. cbn [along v2]. nra. }
  destruct (oblique_dec ia ib) as [[E0 E1]|Hd].
  - rewrite intersection2_vertical in EI by (assumption || lra).
    destruct (Rltb_spec (clr d ia ib h) 0) as [|Hc]; [discriminate|]. apply Rnot_lt_le in Hc.
    destruct (Rleb_spec (v2 ib) (interpolate d (v0 ia) (v1 ia))) as [Hzb|]; [|discriminate].
    injection EI as <-.
    assert (X0 : forall t, v0 (along ia ib t) = v0 ia) by (intros; rewrite along0, E0; ring).
    assert (X1 : forall t, v1 (along ia ib t) = v1 ia) by (intros; rewrite along1, E1; ring).
    unfold clr in Hc. rewrite X0, X1 in Hc. set (z := interpolate d (v0 ia) (v1 ia)) in *.
    cbn [along v2] in Hc.
    assert (HU : exists u, 0 <= u /\ v2 (along ia ib u) = z).
    { destruct (Req_dec (v2 ib) (v2 ia)) as [E|E].
      - exists 0. split; [lra|]. cbn [along v2]. rewrite E in *. lra.
      - destruct (level_crossing (v2 ia) (v2 ib) z) as (u & Hu & Eu); try nra.
        exists u. split; [lra|exact Eu]. }
    destruct HU as (u & Hu & Eu). exists u. split; [assumption|]. split.
    + rewrite <- HG. f_equal. assert (along ia ib u = V3 (v0 (along ia ib u)) (v1 (along ia ib u)) (v2 (along ia ib u))) as -> by reflexivity.
      now rewrite X0, X1, Eu.
    + intros v e Hv He. apply clearance_iff in He; [|assumption]. destruct He as [_ ->].
      rewrite X0, X1. fold z. rewrite <- Eu. cbn [along v2]. nra.
  - destruct (found2_post d fuel ia ib h q ltac:(lra) Hd EI) as (Hc & HP).
    destruct HP as (u & s & e & i & j & -> & H1 & _ & Hu & _ & _ & _ & _ & _ & _ & HC).
    assert (HCC : concave d ia ib).
    { intros i' j' Hc'. specialize (HT i' j' Hc'). unfold curvature, d0, d1. lra. }
    exists u. split; [lra|]. split; [apply HG|].
    intros v e' Hv He. destruct (Rlt_le_dec v h) as [L|L]; [apply (HB v); auto; lra|].
    apply clearance_iff in He; [|assumption]. destruct He as [_ ->]. apply (HC HCC v). lra.
Qed.
(** Without condition on the cells: strictly above the surface at every border of a cell between the
    entry and the returned point. *)
Theorem C22_above_at_the_borders_before_the_result :
  forall d fuel a b p h g, big_enough (dt_data d) -> invertible (dt_transform d) ->
  let ia := ter_to_index (dt_trans_inv d) a in let ib := ter_to_index (dt_trans_inv d) b in
  ~ in_cube (dt_data d) ia -> v0 ia <> v0 ib \/ v1 ia <> v1 ib ->
  intersect_dtm_cube d [a; b] = Some (p, h) ->
  intersection d fuel (los_to_index d [a; b]) p h = Some (true, g) ->
  exists u, h <= u /\ g = along a b u /\ not_below (dt_data d) p /\
    forall v e, h < v < u -> crosses_border ia ib v -> clearance (dt_data d) (along ia ib v) e -> 0 < e.
Proof.
  intros d fuel a b p h g Hb Hinv ia ib Ha Hd EC HI. unfold intersect_dtm_cube in EC.
  change (los_to_index d [a; b]) with [ia; ib] in *.
  destruct (cube_first d ia ib p h Hb Ha EC) as (Hh & -> & Hin & _).
  apply in_cube_iff in Hin; [|assumption]. destruct Hin as [Hin _].
  destruct (Req_dec h 1) as [->|Hn]; [unfold intersection in HI; rewrite intersection2_end in HI; discriminate|].
  unfold intersection in HI. destruct (intersection_index d fuel [ia; ib] (along ia ib h) h) as [q| | |] eqn:EI; try discriminate.
  injection HI as <-.
  assert (Hd' : d0 ia ib <> 0 \/ d1 ia ib <> 0) by (destruct Hd; [left|right]; unfold d0, d1; lra).
  destruct (found2_post d fuel ia ib h q ltac:(lra) Hd' EI) as (Hc & HP).
  destruct HP as (u & s & e & i & j & -> & H1 & _ & Hu & HS & _ & _ & _ & _ & HX & _).
  exists u. split; [lra|]. split; [|split].
  - unfold ia, ib. rewrite <- ter_to_index_along. unfold dt_trans_inv. now apply C05_dtm_ter_index_ter.
  - exists (clr d ia ib h). split; [now apply clearance_iff|assumption].
  - intros v e' Hv HV He. apply crosses_border_iff in HV. apply clearance_iff in He; [|assumption]. destruct He as [_ ->].
    destruct (Rle_lt_dec v s) as [L|L]; [apply (HX v); auto; lra|]. exfalso.
    destruct HS as (_ & _ & [S0 S1] & [E0 E1]). rewrite ?along0, ?along1 in *.
    destruct HV as [[HV [k Hk]]|[HV [k Hk]]]; rewrite ?along0, ?along1 in Hk.
    + assert (IZR i < IZR k < IZR i + 1) by (rewrite <- Hk; split; nra).
      assert (i < k)%Z by (apply lt_IZR; lra). assert (k < i + 1)%Z by (apply lt_IZR; rewrite plus_IZR; lra). lia.
    + assert (IZR j < IZR k < IZR j + 1) by (rewrite <- Hk; split; nra).
      assert (j < k)%Z by (apply lt_IZR; lra). assert (k < j + 1)%Z by (apply lt_IZR; rewrite plus_IZR; lra). lia.
Qed.
(** A descending line of sight that goes below a saddle-shaped cell and out again inside of it: it is at
    least 10 cm (of a 1 m relief) below the surface before the returned point. *)
Theorem C22_first_crossing_refuted :
  exists d a b, big_enough (dt_data d) /\ invertible (dt_transform d) /\ v2 b < v2 a /\
  exists s e, clearance (dt_data d) (ter_to_index (dt_trans_inv d) (along a b s)) e /\ e <= - (1 / 10) /\
  forall fuel, (fuel_bound d <= fuel)%nat ->
  exists u, s + 1 / 8 <= u /\ intersection_one d fuel (rows [a; b]) = Some (row_of_vec (along a b u)).
Proof.
  set (d := saddle_dtm).
  assert (HI : invertible (dt_transform d)) by (apply dt_invertible, ex_gdal_inv).
  exists d, (index_to_ter (dt_transform d) da), (index_to_ter (dt_transform d) db).
  split; [apply saddle_big|]. split; [assumption|].
  split; [simpl; lra|].
  assert (EA : forall u, ter_to_index (dt_trans_inv d) (along (index_to_ter (dt_transform d) da) (index_to_ter (dt_transform d) db) u)
      = along da db u).
  { intros u. rewrite ter_to_index_along. unfold dt_trans_inv. now rewrite !C05_dtm_index_ter_index by assumption. }
  exists (3 / 8), (- (1 / 10)). rewrite EA. split; [|split; [lra|]].
  - rewrite saddle_along. apply clearance_iff; [apply saddle_big|]. cbn [v0 v1 v2]. split.
    + unfold in_hull. cbn [d saddle_dtm dt_data rs_rows rs_cols]. simpl. lra.
    + unfold d. rewrite saddle_diag by lra. lra.
  - intros fuel HF. destruct (saddle_found fuel HF) as (u & Hu & EI). exists u. split; [lra|].
    change [index_to_ter (dt_transform d) da; index_to_ter (dt_transform d) db] with (ground d [da; db]).
    unfold rows. rewrite one_finite. unfold intersect_dtm_cube. rewrite ground_index by assumption.
    unfold d at 1. rewrite saddle_cube. fold d in EI. unfold intersection. rewrite EI.
    do 2 f_equal. rewrite <- EA. unfold dt_trans_inv. now rewrite C05_dtm_ter_index_ter.
Qed.
(** A case: the step of C21, seen along a column of nodes. *)
Example C22_case :
  let d := step_dtm in
  ~ in_cube (dt_data d) sa /\ v2 sb <= v2 sa /\
  (forall i j, is_cell (dt_data d) i j -> 0 <= twist (dt_data d) i j * ((v0 sb - v0 sa) * (v1 sb - v1 sa))) /\
  intersect_dtm_cube d (ground d [sa; sb]) = Some (V3 3 (1 / 2) 1, 10 / 17) /\
  exists fuel g, intersection d fuel (los_to_index d (ground d [sa; sb])) (V3 3 (1 / 2) 1) (10 / 17) = Some (true, g).
Proof.
  cbv zeta. split; [rewrite step_in_cube; cbn [sa v0 v1 v2]; lra|].
  split; [cbn [sa sb v2]; lra|]. split; [intros i j _; cbn [sa sb v0 v1]; lra|].
  unfold intersect_dtm_cube. rewrite ground_index by (apply dt_invertible, ex_gdal_inv).
  split; [apply step_cube|].
  destruct (step_found (fuel_bound step_dtm) (le_n _)) as (u & _ & EI & _).
  exists (fuel_bound step_dtm). eexists. unfold intersection. rewrite EI. reflexivity.
Qed.

(** ** C53 *)
Lemma seq_opt_none {A} (l : list (option A)) : In None l -> seq_opt l = None.
Proof.
  induction l as [|x l IH]; [easy|]. intros [->|H]; [reflexivity|]. cbn [seq_opt].
  destruct x; [|reflexivity]. now rewrite IH.
Qed.
(** One line of sight that lies in the surface of a slope makes the whole batch fail. *)
Theorem C53_batch_always_succeeds_refuted :
  exists d los, big_enough (dt_data d) /\ invertible (dt_transform d) /\
  forall fuel before after,
    intersection_n_los_dtm d fuel (before ++ rows los :: after) = None.
Proof.
  exists slope_dtm, (ground slope_dtm in_plane).
  assert (HI : invertible (dt_transform slope_dtm)) by (apply dt_invertible, ex_gdal_inv).
  split; [apply slope_big|]. split; [assumption|]. intros fuel before after.
  unfold intersection_n_los_dtm. apply seq_opt_none. apply in_map_iff.
  exists (rows (ground slope_dtm in_plane)). split; [|apply in_or_app; right; now left].
  unfold rows. rewrite one_finite. unfold intersect_dtm_cube. rewrite ground_index by assumption.
  rewrite in_plane_cube. unfold intersection. destruct fuel as [|fuel].
  - destruct (intersection_index slope_dtm 0 in_plane (V3 0 (1 / 2) 0) (1 / 4)) eqn:E; try reflexivity; exfalso.
    + rewrite <- (intersection_mono slope_dtm in_plane 0 1 _ _) in E by (lia || congruence).
      rewrite in_plane_walk in E by lia. discriminate.
    + rewrite <- (intersection_mono slope_dtm in_plane 0 1 _ _) in E by (lia || congruence).
      rewrite in_plane_walk in E by lia. discriminate.
  - now rewrite in_plane_walk by lia.
Qed.
(** A line of sight of two points that starts outside of the box fails only if it enters the box exactly
    on the surface. *)
Theorem C53_fails_only_on_the_surface_partial :
  forall d fuel a b, big_enough (dt_data d) -> (fuel_bound d <= fuel)%nat ->
  let ia := ter_to_index (dt_trans_inv d) a in
  ~ in_cube (dt_data d) ia -> intersection_one d fuel (rows [a; b]) = None ->
  exists p h, intersect_dtm_cube d [a; b] = Some (p, h) /\ clearance (dt_data d) p 0.
Proof.
  intros d fuel a b Hb HF ia Ha HN. set (ib := ter_to_index (dt_trans_inv d) b).
  unfold rows in HN. rewrite one_finite in HN.
  destruct (intersect_dtm_cube d [a; b]) as [[p h]|] eqn:EC; [|discriminate].
  exists p, h. split; [reflexivity|]. unfold intersect_dtm_cube in EC.
  change (los_to_index d [a; b]) with [ia; ib] in *.
  destruct (cube_first d ia ib p h Hb Ha EC) as (Hh & -> & Hin & _).
  apply in_cube_iff in Hin; [|assumption]. destruct Hin as [Hin _]. unfold intersection in HN.
  destruct (Req_dec h 1) as [->|Hn]; [rewrite intersection2_end in HN; discriminate|].
  destruct (intersection_index d fuel [ia; ib] (along ia ib h) h) as [q| | |] eqn:EI; try discriminate.
  - apply crash2 in EI; [|lra]. destruct EI as (e & i & j & _ & E & _).
    rewrite <- E. now apply clearance_iff.
  - exfalso. revert EI. apply fuel2; auto; [lra|now apply fuel_bound_ok].
Qed.
(** Hence a batch of such lines of sight, none of which enters the box exactly on the surface, succeeds. *)
Theorem C53_batch_succeeds_partial :
  forall d fuel (pairs : list (vec3 * vec3)), big_enough (dt_data d) -> (fuel_bound d <= fuel)%nat ->
  (forall a b, In (a, b) pairs -> ~ in_cube (dt_data d) (ter_to_index (dt_trans_inv d) a)) ->
  (forall a b p h, In (a, b) pairs -> intersect_dtm_cube d [a; b] = Some (p, h) -> ~ clearance (dt_data d) p 0) ->
  exists l, intersection_n_los_dtm d fuel (map (fun ab => rows [fst ab; snd ab]) pairs) = Some l /\
    length l = length pairs.
Proof.
  intros d fuel pairs Hb HF. induction pairs as [|[a b] pairs IH]; intros H1 H2; [now exists []|].
  destruct IH as (l & EL & HL); [intros; eapply H1; right; eauto|intros; eapply H2; eauto; now right|].
  unfold intersection_n_los_dtm in *. cbn [map fst snd].
  destruct (intersection_one d fuel (rows [a; b])) as [r|] eqn:EO.
  - exists (r :: l). cbn [seq_opt]. rewrite EL. cbn [length]. now rewrite HL.
  - exfalso. destruct (C53_fails_only_on_the_surface_partial d fuel a b Hb HF (H1 a b (or_introl eq_refl)) EO)
      as (p & h & EC & HC). exact (H2 a b p h (or_introl eq_refl) EC HC).
Qed.
Example C53_case : exists a b,
  ~ in_cube (dt_data step_dtm) (ter_to_index (dt_trans_inv step_dtm) a) /\
  exists p h, intersect_dtm_cube step_dtm [a; b] = Some (p, h) /\ ~ clearance (dt_data step_dtm) p 0.
Proof.
  exists (index_to_ter (dt_transform step_dtm) sa), (index_to_ter (dt_transform step_dtm) sb).
  assert (HI : invertible (dt_transform step_dtm)) by (apply dt_invertible, ex_gdal_inv).
  split.
  - unfold dt_trans_inv. rewrite C05_dtm_index_ter_index by assumption. rewrite step_in_cube. cbn [sa v0 v1 v2]. lra.
  - exists (V3 3 (1 / 2) 1), (10 / 17).
    change [index_to_ter (dt_transform step_dtm) sa; index_to_ter (dt_transform step_dtm) sb] with (ground step_dtm [sa; sb]).
    unfold intersect_dtm_cube. rewrite ground_index by assumption. split; [apply step_cube|].
    intros HC. apply clearance_iff in HC; [|apply step_big]. destruct HC as [_ HC]. cbn [v0 v1 v2] in HC.
    rewrite (step_row 3 2) in HC by (lia || lra). rewrite (proj2 (Reqb_false 3 2)) in HC by lra.
    cbn [step_dtm dt_data rs_at] in HC. simpl in HC. lra.
Qed.

(** ** C54 *)
(** A line of sight of two points that starts outside of the box, and ends outside of the footprint of the
    DTM, or below its lowest or above its highest node by more than the tolerance (what direct_loc_dtm
    builds): the returned point is between the two points. *)
Theorem C54_found_between_the_ends_partial :
  forall d fuel a b p h g, big_enough (dt_data d) -> invertible (dt_transform d) ->
  let ia := ter_to_index (dt_trans_inv d) a in let ib := ter_to_index (dt_trans_inv d) b in
  ~ in_cube (dt_data d) ia ->
  ~ in_hull (dt_data d) (v0 ib) (v1 ib) \/ all_nodes_above (dt_data d) (v2 b + 1 / 10000)
    \/ all_nodes_below (dt_data d) (v2 b - 1 / 10000) ->
  intersect_dtm_cube d [a; b] = Some (p, h) ->
  intersection d fuel (los_to_index d [a; b]) p h = Some (true, g) ->
  exists u, 0 <= u <= 1 /\ g = along a b u.
Proof.
  intros d fuel a b p h g Hb Hinv ia ib Ha Hend EC HI. unfold intersect_dtm_cube in EC.
  change (los_to_index d [a; b]) with [ia; ib] in *.
  destruct (cube_first d ia ib p h Hb Ha EC) as (Hh & -> & Hin & _).
  apply in_cube_iff in Hin; [|assumption]. destruct Hin as [Hin Hz].
  unfold intersection in HI.
  destruct (Req_dec h 1) as [->|Hn]; [rewrite intersection2_end in HI; discriminate|].
  destruct (intersection_index d fuel [ia; ib] (along ia ib h) h) as [q| | |] eqn:EI; try discriminate.
  injection HI as <-.
  destruct (found_not_beyond d fuel ia ib h q Hb ltac:(lra) Hin Hz) as (u & Hu & -> & _); auto.
  - change (v2 ib) with (v2 b). unfold tol_z. destruct Hend as [?|[HA|HA]]; [now left|right; left|right; right].
    + apply nodes_above_iff in HA; [|assumption]. lra.
    + apply nodes_below_iff in HA; [|assumption]. lra.
  - exists u. split; [lra|].
    unfold ia, ib. rewrite <- ter_to_index_along. unfold dt_trans_inv. now apply C05_dtm_ter_index_ter.
Qed.
(** A line of sight that ends inside of the box, above the surface: a point beyond its end is returned. *)
Theorem C54_found_between_the_ends_refuted :
  exists d a b, big_enough (dt_data d) /\ invertible (dt_transform d) /\
  forall fuel, (1 <= fuel)%nat -> exists g,
    intersection_one d fuel (rows [a; b]) = Some (row_of_vec g) /\ g = along a b (82 / 63).
Proof.
  set (d := corner_dtm).
  assert (HI : invertible (dt_transform d)) by (apply dt_invertible, ex_gdal_inv).
  set (ia := V3 (-1 / 10) (1 / 2) 20). set (ib := V3 (1 / 20) (1 / 2) 5).
  exists d, (index_to_ter (dt_transform d) ia), (index_to_ter (dt_transform d) ib).
  split; [apply corner_big|]. split; [assumption|]. intros fuel HF.
  exists (index_to_ter (dt_transform d) (V3 (2 / 21) (1 / 2) (10 / 21))).
  change [index_to_ter (dt_transform d) ia; index_to_ter (dt_transform d) ib] with (ground d [ia; ib]).
  unfold rows. rewrite one_finite. unfold intersect_dtm_cube. rewrite ground_index by assumption.
  change [ia; ib] with short. unfold d at 1. rewrite short_cube. unfold intersection. unfold d at 1. rewrite short_walk by assumption.
  split; [reflexivity|].
  assert (E : V3 (2 / 21) (1 / 2) (10 / 21) = along ia ib (82 / 63)).
  { unfold along, ia, ib. cbn [v0 v1 v2]. f_equal; lra. }
  rewrite E.
  assert (E2 : ter_to_index (dt_trans_inv d) (along (index_to_ter (dt_transform d) ia) (index_to_ter (dt_transform d) ib) (82 / 63))
      = along ia ib (82 / 63)).
  { rewrite ter_to_index_along. unfold dt_trans_inv. now rewrite !C05_dtm_index_ter_index by assumption. }
  rewrite <- E2. unfold dt_trans_inv. now rewrite C05_dtm_ter_index_ter.
Qed.
Example C54_case : exists a b,
  let ib := ter_to_index (dt_trans_inv step_dtm) b in
  ~ in_cube (dt_data step_dtm) (ter_to_index (dt_trans_inv step_dtm) a) /\
  ~ in_hull (dt_data step_dtm) (v0 ib) (v1 ib) /\
  exists p h fuel g, intersect_dtm_cube step_dtm [a; b] = Some (p, h) /\
    intersection step_dtm fuel (los_to_index step_dtm [a; b]) p h = Some (true, g).
Proof.
  exists (index_to_ter (dt_transform step_dtm) sa), (index_to_ter (dt_transform step_dtm) sb).
  assert (HI : invertible (dt_transform step_dtm)) by (apply dt_invertible, ex_gdal_inv).
  cbv zeta. unfold dt_trans_inv. rewrite !C05_dtm_index_ter_index by assumption.
  split; [rewrite step_in_cube; cbn [sa v0 v1 v2]; lra|].
  split; [unfold in_hull, sb; cbn [v0 v1]; lra|].
  destruct (step_found (fuel_bound step_dtm) (le_n _)) as (u & _ & EI & _).
  change [index_to_ter (dt_transform step_dtm) sa; index_to_ter (dt_transform step_dtm) sb] with (ground step_dtm [sa; sb]).
  exists (V3 3 (1 / 2) 1), (10 / 17), (fuel_bound step_dtm). eexists.
  unfold intersect_dtm_cube. rewrite ground_index by assumption. split; [apply step_cube|].
  unfold intersection. rewrite EI. reflexivity.
Qed.
