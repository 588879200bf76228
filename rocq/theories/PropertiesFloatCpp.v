(** C102: the two implementations of the DTM intersection, in binary64. *)
From Coq Require Import ZArith Reals Bool List Lia Lra Psatz.
From Flocq Require Import Core BinarySingleNaN.
From Verif Require Import FloatModel FloatInterpModel Float FloatErr FloatWalkModel FloatWalkSpec FloatWalk FloatLineSpec FloatLine FloatEntry FloatGeoModel FloatTerModel
  PropertiesFloatWalk PropertiesFloatLine FloatCppModel FloatCppSpec FloatCpp.
Import ListNotations.
Open Scope R_scope.

Lemma conversions_eq g v : c_ter_to_index (c_trans_inv g) v = fter_to_index (faffine_invert (python_transform g)) v.
Proof. reflexivity. Qed.
Lemma back_eq g p : c_index_to_ter g p = findex_to_ter (python_transform g) p.
Proof. reflexivity. Qed.

(** On a DTM of at most 2^18 rows and columns and less than 2^31 cells, for a line of sight whose first vertex is in none of the
    planes of the faces of the box and of which no segment goes down from a line between cells, C++ and Python compute the same
    longitude, latitude and altitude, bit for bit.  Where Python gives no answer (an exception, or a loop that has not ended),
    C++ has no defined result either; where Python gives (0, 0, 0) for a missed surface, C++ gives an uninitialised point. *)
Theorem C102_same_ground_position :
  forall m g fuel cells steps a los,
  usual_terrain m -> usual_altitudes m -> (fr_rows m * fr_cols m < 2 ^ 31)%Z -> (Z.of_nat (length (a :: los)) <= 2 ^ 18)%Z ->
  Forall usual_point (vertices g (a :: los)) -> (forall v, nth_error (vertices g (a :: los)) 0 = Some v -> off_the_faces m v) ->
  never_down_from_a_line m (vertices g (a :: los)) ->
  same_answer (fground_position m (python_transform g) fuel cells steps (a :: los)) (c_ground_position (cpp_object m g) fuel cells steps (a :: los)).
Proof.
  intros m g fuel cells steps a los UT UA CELLS SZ UP OF ND. unfold c_ground_position, fground_position.
  change (map (c_ter_to_index (cm_tr_inv (cpp_object m g))) (a :: los)) with (vertices g (a :: los)). fold (vertices g (a :: los)).
  assert (SZ' : (Z.of_nat (length (vertices g (a :: los))) <= 2 ^ 18)%Z) by (unfold vertices; now rewrite map_length).
  unfold vertices in *. cbn [map] in *. set (v := fter_to_index _ a) in *. set (rest := map _ los) in *. specialize (OF v eq_refl).
  rewrite (cube_eq m g UT UA v rest UP OF). unfold flocate. destruct (fintersect_dtm_cube m (v :: rest)) as [[p h]|] eqn:EC; [|reflexivity].
  destruct (entry_index m UT UA v rest p h UP OF SZ' EC) as (EN & FH & PP).
  rewrite (intersection_eq m g UT CELLS (v :: rest) fuel cells steps p h UP SZ' PP FH EN).
  - destruct (fintersection m fuel cells steps (v :: rest) p h); cbn [same_answer]; try reflexivity; tauto.
  - intros i x y S. destruct (ND i x y S) as [N1 N2]. split; [exact N1|]. exact (N2 p h EC).
Qed.

(** A line of sight over the slope of C96, in cells of one metre: the two implementations find the point. *)
Definition ex_gdal : fgdal := FG (fint 0) (fint 1) (fint 0) (fint 0) (fint 0) (fint (-1)).
Definition ex_index : list fvec3 := [FV3 (flit (-1) (-1)) (flit 1 (-2)) (fint 133); FV3 (flit 7 (-1)) (flit 7 (-2)) (fint 95)].
Definition ex_sight : list fter := map (findex_to_ter (python_transform ex_gdal)) ex_index.
Lemma ex_vertices : vertices ex_gdal ex_sight = ex_index.
Proof.
  assert (Q : match vertices ex_gdal ex_sight with [p; q] => v_eqb p (FV3 (flit (-1) (-1)) (flit 1 (-2)) (fint 133)) && v_eqb q (FV3 (flit 7 (-1)) (flit 7 (-2)) (fint 95)) | _ => false end = true)
    by (vm_compute; reflexivity).
  destruct (vertices ex_gdal ex_sight) as [|p [|q [|? ?]]]; try discriminate Q. apply andb_true_iff in Q as [A B]. apply v_eqb_eq in A, B. subst. reflexivity.
Qed.
Example C102_hypotheses :
  usual_terrain ex_slope /\ usual_altitudes ex_slope /\ (fr_rows ex_slope * fr_cols ex_slope < 2 ^ 31)%Z /\ (Z.of_nat (length ex_sight) <= 2 ^ 18)%Z /\
  Forall usual_point (vertices ex_gdal ex_sight) /\ (forall v, nth_error (vertices ex_gdal ex_sight) 0 = Some v -> off_the_faces ex_slope v) /\
  never_down_from_a_line ex_slope (vertices ex_gdal ex_sight) /\
  match c_ground_position (cpp_object ex_slope ex_gdal) 20 9 6 ex_sight with CPoint _ => True | _ => False end.
Proof.
  split; [exact (proj1 C96_regular)|]. split; [exact (proj1 (proj2 C98_hypotheses))|]. split; [reflexivity|]. split; [cbn; lia|]. rewrite ex_vertices.
  assert (V : forall a e, (Z.abs a < 2 ^ 53)%Z -> (-1074 <= e <= 900)%Z -> B2R (flit a e) = IZR a * bpow radix2 e) by (intros a e A E; apply flit_exact, fits_dyadic; lia).
  assert (I : forall n, (Z.abs n < 2 ^ 53)%Z -> B2R (fint n) = IZR n) by (intros n Hn; now apply fint_exact).
  split.
  { unfold ex_index, fint. repeat (apply Forall_cons; [(split; [|split]); apply usual_lit; lia|]). apply Forall_nil. }
  split.
  { intros v E. change (nth_error ex_index 0) with (Some (FV3 (flit (-1) (-1)) (flit 1 (-2)) (fint 133))) in E. assert (EV : v = (FV3 (flit (-1) (-1)) (flit 1 (-2)) (fint 133))) by congruence. rewrite EV. clear E EV. unfold off_the_faces. cbn [fv_row fv_col fv_alt ex_slope fr_rows fr_cols fr_at]. rewrite !V by lia. change (bpow radix2 (-1)) with (/ 2). change (bpow radix2 (-2)) with (/ 4).
    repeat (split; [cbn; lra|]). intros r c Hr Hc. rewrite !I by lia. apply IZR_neq. lia. }
  split; [|vm_compute; exact Logic.I].
  assert (UPW : forall i a b, segment_at ex_index i a b -> B2R (fv_row a) <= B2R (fv_row b) /\ B2R (fv_col a) <= B2R (fv_col b)).
  { intros i a b [A B]. destruct i as [|[|i]]; [|discriminate B|destruct i; discriminate A]. change (nth_error ex_index 0) with (Some (FV3 (flit (-1) (-1)) (flit 1 (-2)) (fint 133))) in A. change (nth_error ex_index 1) with (Some (FV3 (flit 7 (-1)) (flit 7 (-2)) (fint 95))) in B.
    assert (EA : a = (FV3 (flit (-1) (-1)) (flit 1 (-2)) (fint 133))) by congruence. assert (EB : b = (FV3 (flit 7 (-1)) (flit 7 (-2)) (fint 95))) by congruence. rewrite EA, EB. clear A B EA EB.
    cbn [fv_row fv_col]. rewrite !V by lia. change (bpow radix2 (-1)) with (/ 2). change (bpow radix2 (-2)) with (/ 4). lra. }
  intros i a b S. destruct (UPW i a b S) as [U1 U2]. unfold down_from_a_line. split; [|intros p h _]; intros [[_ L]|[_ L]]; lra.
Qed.
(** Without the last hypothesis the two implementations differ: on a line of sight that comes down through the last row of a DTM of
    four rows, C++ starts two cells too far and misses the ground that Python finds. *)
Definition ex_rise : fraster := mkFRaster 4 3 (fun r c => fint (148 - 16 * r)).
Definition ex_down : list fvec3 := [FV3 (flit 7 (-1)) (flit 1 (-2)) (fint 111); FV3 (flit (-1) (-1)) (flit 1 (-2)) (fint 103)].
Definition ex_back : list fter := map (findex_to_ter (python_transform ex_gdal)) ex_down.
Lemma ex_down_vertices : vertices ex_gdal ex_back = ex_down.
Proof.
  assert (Q : match vertices ex_gdal ex_back with [p; q] => v_eqb p (FV3 (flit 7 (-1)) (flit 1 (-2)) (fint 111)) && v_eqb q (FV3 (flit (-1) (-1)) (flit 1 (-2)) (fint 103)) | _ => false end = true)
    by (vm_compute; reflexivity).
  destruct (vertices ex_gdal ex_back) as [|p [|q [|? ?]]]; try discriminate Q. apply andb_true_iff in Q as [A B]. apply v_eqb_eq in A, B. subst. reflexivity.
Qed.
Lemma down_from_a_line_differs :
  (exists q, fground_position ex_rise (python_transform ex_gdal) 20 12 6 ex_back = GPoint q) /\
  c_ground_position (cpp_object ex_rise ex_gdal) 20 12 6 ex_back = CUninitialised.
Proof.
  split.
  - assert (Q : match fground_position ex_rise (python_transform ex_gdal) 20 12 6 ex_back with GPoint _ => true | _ => false end = true) by (vm_compute; reflexivity).
    destruct (fground_position ex_rise (python_transform ex_gdal) 20 12 6 ex_back) as [q| | |]; try discriminate Q. now exists q.
  - vm_compute. reflexivity.
Qed.
Theorem C102_same_ground_position_refuted :
  ~ forall m g fuel cells steps a los,
    usual_terrain m -> usual_altitudes m -> (fr_rows m * fr_cols m < 2 ^ 31)%Z -> (Z.of_nat (length (a :: los)) <= 2 ^ 18)%Z ->
    Forall usual_point (vertices g (a :: los)) -> (forall v, nth_error (vertices g (a :: los)) 0 = Some v -> off_the_faces m v) ->
    same_answer (fground_position m (python_transform g) fuel cells steps (a :: los)) (c_ground_position (cpp_object m g) fuel cells steps (a :: los)).
Proof.
  intros H.
  assert (L : exists a los, ex_back = a :: los /\ length los = 1%nat) by (eexists; eexists; split; [unfold ex_back, ex_down; cbn [map]; reflexivity|reflexivity]).
  destruct L as (a & los & EB & LEN). specialize (H ex_rise ex_gdal 20%nat 12%nat 6%nat a los).
  destruct down_from_a_line_differs as [[q P] C]. rewrite <- EB, P, C, ex_down_vertices in H. cbn [same_answer] in H.
  assert (V : forall a e, (Z.abs a < 2 ^ 53)%Z -> (-1074 <= e <= 900)%Z -> B2R (flit a e) = IZR a * bpow radix2 e) by (intros x e A E; apply flit_exact, fits_dyadic; lia).
  assert (I : forall n, (Z.abs n < 2 ^ 53)%Z -> B2R (fint n) = IZR n /\ is_finite (fint n) = true) by (intros n Hn; now apply fint_exact).
  assert (X : CUninitialised = CPoint q); [|discriminate X]. apply H; clear H.
  - unfold usual_terrain. cbn [ex_rise fr_rows fr_cols fr_at]. split; [lia|]. split; [lia|]. intros r c Hr Hc. destruct (I (148 - 16 * r)%Z) as [I1 I2]; [lia|].
    rewrite I1. split; [exact I2|]. rewrite <- abs_IZR. unfold top. apply IZR_le. lia.
  - intros r c Hr Hc. cbn [ex_rise fr_at fr_rows] in *. apply usual_int. lia.
  - reflexivity.
  - rewrite EB. cbn [length]. rewrite LEN. lia.
  - unfold ex_down, fint. repeat (apply Forall_cons; [(split; [|split]); apply usual_lit; lia|]). apply Forall_nil.
  - intros v E. change (nth_error ex_down 0) with (Some (FV3 (flit 7 (-1)) (flit 1 (-2)) (fint 111))) in E.
    assert (EV : v = FV3 (flit 7 (-1)) (flit 1 (-2)) (fint 111)) by congruence. rewrite EV. clear E EV. unfold off_the_faces. cbn [fv_row fv_col fv_alt ex_rise fr_rows fr_cols fr_at].
    rewrite !V by lia. change (bpow radix2 (-1)) with (/ 2). change (bpow radix2 (-2)) with (/ 4).
    repeat (split; [cbn; lra|]). intros r c Hr Hc. rewrite (proj1 (I 111%Z ltac:(lia))), (proj1 (I (148 - 16 * r)%Z ltac:(lia))). apply IZR_neq. lia.
Qed.
