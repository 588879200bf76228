(** What the C++ intersection returns is on the line of sight and at the altitude of the surface,
    wherever the walk started. *)
From Coq Require Import Reals ZArith List Bool Lra Lia.
From Verif Require Import Num NumLemmas InterpModel InterpSpec InterpProofs ProjModel ProjSpec PropertiesProj
  DtmModel DtmSpec DtmCube DtmWalk DtmIntersect CppDtmModel CppDtmProofs DtmProofs DtmWitness PropertiesDtm
  DtmWitness2 PropertiesDtm2.
Import ListNotations.
Open Scope R_scope.

Definition on_walk (a b : vec3) (w : walk) : Prop := exists t, w_p w = along a b t.

Lemma mesh_on_walk a b w : v0 b - v0 a <> 0 \/ v1 b - v1 a <> 0 -> on_walk a b w ->
  on_walk a b (mesh_move (segment_of a b) w).
Proof.
  intros Hd (t & Ht). destruct w as [wa c r p]. cbn [w_p] in Ht. subst p.
  unfold mesh_move. cbn [w_a w_c w_r w_p]. cbv zeta.
  unfold segment_of. cbn [s_d0 s_d1 s_d2 s_col0 s_row0 s_z0 s_z1].
  assert (F0 : v0 b - v0 a <> 0 -> forall x, v0 a + (x - v0 a) / (v0 b - v0 a) * (v0 b - v0 a) = x) by (intros; field; assumption).
  assert (F1 : v1 b - v1 a <> 0 -> forall x, v1 a + (x - v1 a) / (v1 b - v1 a) * (v1 b - v1 a) = x) by (intros; field; assumption).
  assert (G0 : v0 b - v0 a <> 0 -> forall x y z, y = v1 a + (x - v0 a) / (v0 b - v0 a) * (v1 b - v1 a) -> z = x ->
     on_walk a b (W ((x - v0 a) / (v0 b - v0 a)) c r (V3 z y (v2 a + (x - v0 a) / (v0 b - v0 a) * (v2 b - v2 a))))).
  { intros H x y z -> ->. exists ((x - v0 a) / (v0 b - v0 a)). cbn [w_p]. unfold along. f_equal. symmetry. now apply F0. }
  assert (G1 : v1 b - v1 a <> 0 -> forall x y z, y = v0 a + (x - v1 a) / (v1 b - v1 a) * (v0 b - v0 a) -> z = x ->
     on_walk a b (W ((x - v1 a) / (v1 b - v1 a)) c r (V3 y z (v2 a + (x - v1 a) / (v1 b - v1 a) * (v2 b - v2 a))))).
  { intros H x y z -> ->. exists ((x - v1 a) / (v1 b - v1 a)). cbn [w_p]. unfold along. f_equal. symmetry. now apply F1. }
  assert (HW : forall u q c1 r1 u' c2 r2, on_walk a b (W u c1 r1 q) -> on_walk a b (W u' c2 r2 q)).
  { intros u q c1 r1 u' c2 r2 (t' & Et). exists t'. exact Et. }
  destruct (Reqb_spec (v0 b - v0 a) 0) as [Z0|N0].
  { destruct Hd as [Hd|Hd]; [contradiction|]. cbn [along v0].
    replace (v0 a + t * (v0 b - v0 a)) with (v0 a) by (rewrite Z0; ring).
    destruct (Rltb_spec (v1 b - v1 a) 0); eapply HW; apply (G1 Hd); try reflexivity; rewrite Z0; ring. }
  destruct (Reqb_spec (v1 b - v1 a) 0) as [Z1|N1].
  { cbn [along v1].
    replace (v1 a + t * (v1 b - v1 a)) with (v1 a) by (rewrite Z1; ring).
    destruct (Rltb_spec (v0 b - v0 a) 0); eapply HW; apply (G0 N0); try reflexivity; rewrite Z1; ring. }
  repeat match goal with |- context [if ?x && ?y && ?z then _ else _] => destruct (x && y && z) end.
  - set (y := v1 a + (IZR c - v0 a) / (v0 b - v0 a) * (v1 b - v1 a)).
    destruct (Rltb (IZR r) y && Rltb y (IZR r + 1)) eqn:E1; [eapply HW; apply (G0 N0); reflexivity|].
    destruct (Rltb_spec y (IZR r)) as [L|L]; [eapply HW; apply (G1 N1); reflexivity|].
    destruct (Rltb_spec (IZR r + 1) y) as [L'|L']; [eapply HW; apply (G1 N1); reflexivity|].
    destruct (Reqb_spec y (IZR r)) as [E|E]; [eapply HW; apply (G0 N0); [symmetry; exact E|reflexivity]|].
    destruct (Reqb_spec y (IZR r + 1)) as [E'|E']; [eapply HW; apply (G0 N0); [rewrite plus_IZR; symmetry; exact E'|reflexivity]|].
    exfalso. apply andb_false_iff in E1. destruct E1 as [E1|E1]; apply Rltb_false in E1; lra.
  - set (x := v0 a + (IZR r + 1 - v1 a) / (v1 b - v1 a) * (v0 b - v0 a)).
    assert (PR : IZR (r + 1) = IZR r + 1) by apply plus_IZR. assert (PC : IZR (c + 1) = IZR c + 1) by apply plus_IZR.
    destruct (Rltb (IZR c) x && Rltb x (IZR c + 1)) eqn:E1; [eapply HW; apply (G1 N1); [reflexivity|exact PR]|].
    destruct (Rltb_spec x (IZR c)) as [L|L]; [eapply HW; apply (G0 N0); reflexivity|].
    destruct (Rltb_spec (IZR c + 1) x) as [L'|L']; [eapply HW; apply (G0 N0); reflexivity|].
    destruct (Reqb_spec x (IZR c)) as [E|E]; [eapply HW; apply (G1 N1); [symmetry; exact E|exact PR]|].
    destruct (Reqb_spec x (IZR c + 1)) as [E'|E']; [eapply HW; apply (G1 N1); [rewrite PC; symmetry; exact E'|exact PR]|].
    exfalso. apply andb_false_iff in E1. destruct E1 as [E1|E1]; apply Rltb_false in E1; lra.
  - set (y := v1 a + (IZR c + 1 - v0 a) / (v0 b - v0 a) * (v1 b - v1 a)).
    assert (PR : IZR (r + 1) = IZR r + 1) by apply plus_IZR. assert (PC : IZR (c + 1) = IZR c + 1) by apply plus_IZR.
    destruct (Rltb (IZR r) y && Rltb y (IZR r + 1)) eqn:E1; [eapply HW; apply (G0 N0); [reflexivity|exact PC]|].
    destruct (Rltb_spec y (IZR r)) as [L|L]; [eapply HW; apply (G1 N1); reflexivity|].
    destruct (Rltb_spec (IZR r + 1) y) as [L'|L']; [eapply HW; apply (G1 N1); reflexivity|].
    destruct (Reqb_spec y (IZR r)) as [E|E]; [eapply HW; apply (G0 N0); [symmetry; exact E|exact PC]|].
    destruct (Reqb_spec y (IZR r + 1)) as [E'|E']; [eapply HW; apply (G0 N0); [rewrite PR; symmetry; exact E'|exact PC]|].
    exfalso. apply andb_false_iff in E1. destruct E1 as [E1|E1]; apply Rltb_false in E1; lra.
  - set (x := v0 a + (IZR r - v1 a) / (v1 b - v1 a) * (v0 b - v0 a)).
    assert (PC : IZR (c + 1) = IZR c + 1) by apply plus_IZR.
    destruct (Rltb (IZR c) x && Rltb x (IZR c + 1)) eqn:E1; [eapply HW; apply (G1 N1); reflexivity|].
    destruct (Rltb_spec x (IZR c)) as [L|L]; [eapply HW; apply (G0 N0); reflexivity|].
    destruct (Rltb_spec (IZR c + 1) x) as [L'|L']; [eapply HW; apply (G0 N0); reflexivity|].
    destruct (Reqb_spec x (IZR c)) as [E|E]; [eapply HW; apply (G1 N1); [symmetry; exact E|reflexivity]|].
    destruct (Reqb_spec x (IZR c + 1)) as [E'|E']; [eapply HW; apply (G1 N1); [rewrite PC; symmetry; exact E'|reflexivity]|].
    exfalso. apply andb_false_iff in E1. destruct E1 as [E1|E1]; apply Rltb_false in E1; lra.
  - exists t. reflexivity.
Qed.

Lemma along_mix a b t1 t2 c :
  V3 (v0 (along a b t1) + c * (v0 (along a b t2) - v0 (along a b t1)))
     (v1 (along a b t1) + c * (v1 (along a b t2) - v1 (along a b t1)))
     (v2 (along a b t1) + c * (v2 (along a b t2) - v2 (along a b t1))) = along a b (t1 + c * (t2 - t1)).
Proof. unfold along. cbn [v0 v1 v2]. f_equal; ring. Qed.

Lemma refine_on_line itp a b n : forall p1 h1 p2 h2 q,
  (exists t, p1 = along a b t) -> (exists t, p2 = along a b t) ->
  refine itp n p1 h1 p2 h2 = Found q ->
  exists t, q = along a b t /\ Rabs (itp (v0 q) (v1 q) - v2 q) <= tol_z.
Proof.
  induction n as [|n IH]; intros p1 h1 p2 h2 q (t1 & ->) (t2 & ->) H; cbn [refine] in H; [discriminate|].
  cbv zeta in H. destruct (Reqb _ 0); [discriminate|].
  rewrite along_mix in H.
  match type of H with context [along a b (?x + ?c * ?d)] => set (t := x + c * d) in * end.
  destruct (Rltb_spec tol_z (Rabs (itp (v0 (along a b t)) (v1 (along a b t)) - v2 (along a b t)))) as [L|L].
  - destruct (Rltb _ 0); eapply IH in H; eauto.
  - injection H as <-. exists t. split; [reflexivity|lra].
Qed.

Lemma cell_loop_on_line d a b fuel n : v0 b - v0 a <> 0 \/ v1 b - v1 a <> 0 -> forall w q, on_walk a b w ->
  cell_loop d (segment_of a b) fuel n w = CDone (Found q) ->
  exists t, q = along a b t /\ Rabs (interpolate d (v0 q) (v1 q) - v2 q) <= tol_z.
Proof.
  intros Hd. induction n as [|n IH]; intros w q Hw H; cbn [cell_loop] in H; destruct (cell_guard d w); try discriminate.
  cbv zeta in H. assert (Hw' := mesh_on_walk a b w Hd Hw).
  destruct (may_intersect _ _ _ _ _ _); [|eapply IH; eauto].
  destruct (Rleb _ 0); [|eapply IH; eauto].
  injection H as H. eapply refine_on_line; [exact Hw|exact Hw'|exact H].
Qed.

(** A line of sight with two ends at different altitudes. *)
Lemma cpp_on_line d fuel a b p h q : big_enough (dt_data d) -> 0 <= h -> v2 a <> v2 b -> (exists t, p = along a b t) ->
  cpp_intersection_index (cpp_of d) fuel [a; b] p h = Found q ->
  exists t, q = along a b t /\ Rabs (interpolate d (v0 q) (v1 q) - v2 q) <= tol_z.
Proof.
  intros Hb Hh Hz Hp H. unfold cpp_intersection_index in H. destruct (Rltb _ 0); [discriminate|].
  destruct (Z.to_nat (Rfloor h)) as [|k]; cbn [length cpp_vertex_loop Nat.sub Nat.ltb Nat.leb] in H; [|discriminate].
  cbn [nth_error Nat.add] in H. cbv zeta in H.
  destruct (Reqb (s_d0 (segment_of a b)) 0 && Reqb (s_d1 (segment_of a b)) 0) eqn:EV.
  - apply andb_true_iff in EV. destruct EV as [E0 E1]. apply Reqb_true in E0, E1.
    cbn [segment_of s_d0 s_d1 s_col0 s_row0 s_z1] in *. rewrite cpp_itp_eq in H by assumption.
    destruct (Rleb (v2 b) _); [|discriminate]. injection H as <-. cbn [v0 v1 v2].
    exists ((interpolate d (v0 a) (v1 a) - v2 a) / (v2 b - v2 a)). split.
    + unfold along. f_equal; [rewrite E0; ring|rewrite E1; ring|field; lra].
    + replace (interpolate d (v0 a) (v1 a) - interpolate d (v0 a) (v1 a)) with 0 by ring.
      rewrite Rabs_R0. unfold tol_z. lra.
  - rewrite cpp_guard_eq in H.
    assert (Hd : v0 b - v0 a <> 0 \/ v1 b - v1 a <> 0).
    { apply andb_false_iff in EV. cbn [segment_of s_d0 s_d1] in EV.
      destruct EV as [E|E]; apply Reqb_false in E; auto. }
    destruct (cell_guard d _); [|discriminate]. rewrite cpp_cell_loop_eq in H by assumption.
    match type of H with context [cell_loop d ?s fuel fuel ?w] => destruct (cell_loop d s fuel fuel w) as [o|e] eqn:EC end.
    + subst o. eapply cell_loop_on_line; [exact Hd| |exact EC]; exact Hp.
    + destruct (Rleb 1 e); discriminate.
Qed.

Lemma cpp_value_on_line d fuel a b r : big_enough (dt_data d) -> invertible (dt_transform d) -> v2 a <> v2 b ->
  cpp_intersection_one (cpp_of d) fuel [a; b] = Value r ->
  r = nan3 \/
  exists t, r = row_of_vec (along a b t) /\
    let i := ter_to_index (dt_trans_inv d) (along a b t) in
    Rabs (interpolate d (v0 i) (v1 i) - v2 i) <= tol_z.
Proof.
  intros Hb Hi Hz H. unfold cpp_intersection_one in H. rewrite cpp_los in H.
  change (los_to_index d [a; b]) with [ter_to_index (dt_trans_inv d) a; ter_to_index (dt_trans_inv d) b] in H.
  set (ia := ter_to_index (dt_trans_inv d) a) in *. set (ib := ter_to_index (dt_trans_inv d) b) in *.
  destruct (cpp_intersect_dtm_cube_index (cpp_of d) [ia; ib]) as [[[p h]|]|] eqn:EC; [|left; congruence|discriminate].
  assert (HL := cpp_cube_index d _ p h Hb EC).
  assert (0 <= h /\ exists t, p = along ia ib t) as [Hh Hp].
  { destruct HL as (i & u & w & t & E1 & E2 & Ht & Eh & Ep).
    destruct i as [|[|i]]; cbn in E1, E2; try discriminate.
    injection E1 as <-. injection E2 as <-. cbn [INR] in Eh. split; [lra|eauto]. }
  destruct (cpp_intersection_index (cpp_of d) fuel [ia; ib] p h) as [q| | |] eqn:EI; try discriminate.
  injection H as <-. right.
  assert (Hz' : v2 ia <> v2 ib) by exact Hz.
  destruct (cpp_on_line d fuel ia ib p h q Hb Hh Hz' Hp EI) as (t & -> & Ht).
  assert (E : along ia ib t = ter_to_index (dt_trans_inv d) (along a b t)) by (symmetry; apply ter_to_index_along).
  exists t. rewrite E in Ht |- *. split; [|exact Ht].
  f_equal. change (cd_tr (cpp_of d)) with (dt_gdal d). rewrite C05_cpp_index_to_ter.
  change (affine_of_gdal (dt_gdal d)) with (dt_transform d). unfold dt_trans_inv. now apply C05_dtm_ter_index_ter.
Qed.
Lemma value_on_surface d p : big_enough (dt_data d) -> in_hull (dt_data d) (v0 p) (v1 p) ->
  Rabs (interpolate d (v0 p) (v1 p) - v2 p) <= tol_z -> on_surface (dt_data d) (1 / 10000) p.
Proof.
  intros Hb Hin H. exists (v2 p - interpolate d (v0 p) (v1 p)). split; [now apply clearance_iff|].
  rewrite Rabs_minus_sym. exact H.
Qed.
