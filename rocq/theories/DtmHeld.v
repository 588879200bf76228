(** Lemmas on [intersection] for lines of sight with vertical segments: after a vertical segment the
    walk goes on from the point above the vertex instead of the vertex. *)
From Coq Require Import Reals ZArith List Bool Lra Lia Psatz.
From Verif Require Import Num NumLemmas InterpModel InterpSpec InterpProofs ProjModel DtmModel DtmSpec
  DtmCube DtmWalk DtmIntersect CppDtmModel CppDtmProofs DtmProofs.
Import ListNotations.
Open Scope R_scope.

Lemma mesh_move_held a b x c r p : v0 p = v0 a -> v1 p = v1 a -> winv a b (W x c r a) 0 ->
  d0 a b <> 0 \/ d1 a b <> 0 ->
  mesh_move (segment_of a b) (W x c r p) = mesh_move (segment_of a b) (W x c r a).
Proof.
  intros E0 E1 HW Hd. rewrite (mesh_move_canonical a b (W x c r a) 0 HW Hd).
  destruct HW as (_ & H0 & H1). cbn [w_c w_r] in H0, H1.
  apply (mesh_move_position a b (W x c r p) 0); auto; cbn [w_p]; rewrite along_at_0; assumption.
Qed.

(** What the loop over the cells of a segment gives. *)
Definition loop_ok (d : dtm) (a b : vec3) (fuel : nat) (r : cell_result) : Prop :=
  match r with
  | CDone (Found q) => on_surface (dt_data d) tol_z q
  | CDone NotFound => False
  | CDone Crash => True
  | CDone NoFuel => ~ enough_fuel d fuel
  | CEnd e => 1 <= e -> exists s i j, 0 <= s < 1 /\ stretch d a b s e i j /\ 0 <= clr d a b s /\
      (0 < clr d a b 1 \/ 0 < clr d a b e)
  end.

Lemma loop_aligned d a b fuel w t : big_enough (dt_data d) -> d0 a b <> 0 \/ d1 a b <> 0 ->
  winv a b w t -> 0 <= t < 1 -> 0 <= clr d a b t -> cell_guard d w = true ->
  loop_ok d a b fuel (cell_loop d (segment_of a b) fuel fuel w).
Proof.
  intros Hb Hd HW Ht Hcl EG.
  pose proof (cell_loop_spec d a b fuel Hd fuel w t HW (conj (proj1 Ht) (Rlt_le _ _ (proj2 Ht))) Hcl) as HP.
  destruct (cell_loop d (segment_of a b) fuel fuel w) as [[q| | |]|e] eqn:EC; cbn [cell_loop_post loop_ok] in *.
  - destruct HP as (v & s & e & ci & cj & E1 & E2 & E3 & E4 & E5 & E6 & _).
    rewrite E1. eapply on_surface_intro; eauto.
  - exact HP.
  - exact I.
  - intros [HF1 HF2]. revert EC.
    apply (cell_loop_fuel d a b fuel Hd HF2 fuel w t HW (proj1 Ht) Hcl).
    apply guard_iff in EG. pose proof (ahead_pos d w a b Hd (proj2 EG)). lia.
  - intros He. destruct HP as [[HH _]|(_ & _ & (s & i & j & S1 & S2 & S3 & S4 & _ & S5) & _)]; [congruence|].
    exists s, i, j. split; [lra|]. auto.
Qed.

Definition clr_p (d : dtm) (p : vec3) : R := v2 p - interpolate d (v0 p) (v1 p).
Lemma clr_clr_p d a b u : clr d a b u = clr_p d (along a b u).
Proof. reflexivity. Qed.

(** The altitude test of the first cell, from a point [p] above the first vertex. *)
Lemma skip_held h_i h_s a b z e :
  may_intersect h_i h_s (v2 a) (v2 b) z (v2 (along a b e)) = false -> 0 < e -> h_i <= z ->
  (e < 1 -> h_s < v2 (along a b e)) /\ (1 <= e -> h_s < v2 b).
Proof.
  unfold may_intersect, along. cbn [v2]. set (dz := v2 b - v2 a). set (z0 := v2 a).
  replace (v2 b) with (z0 + dz) by (unfold z0, dz; ring). clearbody dz z0.
  intros H He Hi.
  destruct (Rltb_spec z0 (z0 + e * dz)) as [H1|H1]; [|destruct (Rltb_spec (z0 + e * dz) (z0 + dz)) as [H2|H2]].
  all: rewrite negb_false_iff, orb_true_iff, !andb_true_iff, !Rltb_true in H;
    destruct H as [[Ha Hb]|[Ha Hb]]; [|lra].
  - split; [lra|]. intros. nra.
  - split; intros He1.
    + exfalso. nra.
    + lra.
  - split; intros He1; [lra|]. destruct (Rle_lt_dec 0 dz); nra.
Qed.

Lemma loop_held d a b fuel x c r p : big_enough (dt_data d) -> d0 a b <> 0 \/ d1 a b <> 0 ->
  winv a b (W x c r a) 0 -> v0 p = v0 a -> v1 p = v1 a -> 0 <= clr_p d a -> 0 <= clr_p d p ->
  cell_guard d (W x c r p) = true ->
  loop_ok d a b fuel (cell_loop d (segment_of a b) fuel fuel (W x c r p)).
Proof.
  intros Hb Hd HW E0 E1 Ha Hp EG.
  destruct fuel as [|fuel].
  { cbn [cell_loop]. rewrite EG. cbn [loop_ok]. intros [HF (k & Hk & _)]. lia. }
  cbn [cell_loop]. rewrite EG. rewrite (mesh_move_held a b x c r p E0 E1 HW Hd). cbn [w_c w_r w_p].
  pose proof (move_spec d a b (W x c r a) 0 HW Hd) as HM.
  set (w' := mesh_move (segment_of a b) (W x c r a)) in *. set (e := w_a w') in *.
  apply guard_iff in EG. cbn [w_a w_c w_r] in EG. destruct EG as [_ Hcell].
  destruct HM as [Mlt MW Mcell Mmesh Mnone Ms0 Ms1 _ Mah]. cbn [w_c w_r] in *.
  fold e in Mlt, MW, Mcell, Mmesh, Mnone.
  pose proof (proj1 MW) as Hp'.
  assert (Hin : in_cell c r (v0 (along a b 0)) (v1 (along a b 0))) by (apply Mcell; lra).
  assert (Hine : in_cell c r (v0 (along a b e)) (v1 (along a b e))) by (apply Mcell; lra).
  assert (HSt : stretch d a b 0 e c r) by (exact (conj Mlt (conj Hcell (conj Hin Hine)))).
  assert (Hinp : in_cell c r (v0 p) (v1 p)) by (rewrite along_at_0 in Hin; now rewrite E0, E1).
  pose proof (cell_bounds_interp d _ _ _ _ Hcell Hinp) as HBp.
  pose proof (cell_bounds_interp d _ _ _ _ Hcell Hine) as HBe.
  assert (Ha' : 0 <= clr d a b 0) by (rewrite clr_clr_p, along_at_0; assumption).
  cbn [segment_of s_z0 s_z1]. rewrite Hp'.
  fold (clr_p d p). fold (clr_p d (along a b e)). rewrite <- clr_clr_p.
  assert (HPass : (e < 1 -> 0 <= clr d a b e) -> (1 <= e -> 0 < clr d a b 1 \/ 0 < clr d a b e) ->
     loop_ok d a b (S fuel) (cell_loop d (segment_of a b) (S fuel) fuel w')).
  { intros P1 P2. destruct (Rlt_le_dec e 1) as [He1|He1].
    - specialize (P1 He1).
      destruct (cell_guard d w') eqn:EG'.
      + pose proof (cell_loop_spec d a b (S fuel) Hd fuel w' e MW ltac:(lra) P1) as HP.
        destruct (cell_loop d (segment_of a b) (S fuel) fuel w') as [[q| | |]|e'] eqn:EC; cbn [cell_loop_post loop_ok] in *.
        * destruct HP as (v & s & e' & ci & cj & Q1 & Q2 & Q3 & Q4 & Q5 & Q6 & _).
          rewrite Q1. eapply on_surface_intro; eauto.
        * exact HP.
        * exact I.
        * intros [HF1 HF2]. revert EC.
          apply (cell_loop_fuel d a b (S fuel) Hd HF2 fuel w' e MW ltac:(lra) P1).
          pose proof (ahead_pos d (W x c r a) a b Hd Hcell) as HA. cbn [w_c w_r] in HA. lia.
        * intros He. destruct HP as [[HH _]|(_ & _ & (s & i & j & S1 & S2 & S3 & S4 & _ & S5) & _)]; [congruence|].
          exists s, i, j. split; [lra|]. auto.
      + assert (EC : cell_loop d (segment_of a b) (S fuel) fuel w' = CEnd e).
        { destruct fuel; cbn [cell_loop]; rewrite EG'; reflexivity. }
        rewrite EC. cbn [loop_ok]. lra.
    - assert (EG' : cell_guard d w' = false).
      { destruct (cell_guard d w') eqn:E; [|reflexivity]. apply guard_iff in E. fold e in E. lra. }
      assert (EC : cell_loop d (segment_of a b) (S fuel) fuel w' = CEnd e).
      { destruct fuel; cbn [cell_loop]; rewrite EG'; reflexivity. }
      rewrite EC. cbn [loop_ok]. intros He. exists 0, c, r. split; [lra|]. auto. }
  destruct may_intersect eqn:EM.
  - destruct (Rleb_spec (clr_p d p * clr d a b e) 0) as [Hle|Hgt].
    + set (P2 := along a b e) in *.
      assert (Z0 : along p P2 0 = p) by apply along_at_0. assert (Z1 : along p P2 1 = P2) by apply along_at_1.
      assert (C0 : clr d p P2 0 = clr_p d p) by (rewrite clr_clr_p, Z0; reflexivity).
      assert (C1 : clr d p P2 1 = clr d a b e) by (rewrite !clr_clr_p, Z1; reflexivity).
      assert (IN0 : in_cell c r (v0 (along p P2 0)) (v1 (along p P2 0))) by (rewrite Z0; assumption).
      assert (IN1 : in_cell c r (v0 (along p P2 1)) (v1 (along p P2 1))) by (rewrite Z1; assumption).
      assert (ER : forall m, refine (interpolate d) m p (interpolate d (v0 p) (v1 p)) P2 (interpolate d (v0 P2) (v1 P2)) =
        refine (interpolate d) m (along p P2 0) (interpolate d (v0 (along p P2 0)) (v1 (along p P2 0)))
          (along p P2 1) (interpolate d (v0 (along p P2 1)) (v1 (along p P2 1)))) by (intros; now rewrite Z0, Z1).
      rewrite ER.
      destruct (Rle_lt_dec (clr d a b e) 0) as [Hfe|Hfe].
      * pose proof (refine_found d p P2 c r Hcell (S fuel) 0 1 IN0 IN1 ltac:(lra) ltac:(lra) ltac:(lra)) as HR.
        destruct (refine (interpolate d) (S fuel) (along p P2 0) _ (along p P2 1) _) as [q| | |] eqn:EQ; cbn [loop_ok].
        -- destruct HR as (v & -> & Hv & Hz & _).
           apply (on_surface_intro d p P2 0 1 c r v Hb); auto.
           split; [lra|]. auto.
        -- exact HR.
        -- exact I.
        -- intros [_ (k & Hk & Htw)]. revert EQ.
           assert (E : refine (interpolate d) (S k) (along p P2 0)
                 (interpolate d (v0 (along p P2 0)) (v1 (along p P2 0))) (along p P2 1)
                 (interpolate d (v0 (along p P2 1)) (v1 (along p P2 1))) <> NoFuel).
           { apply (refine_fuel d p P2 c r (1 - 0)); auto; try lra.
             eapply Rle_trans; [|apply (Htw _ _ Hcell)]. apply curvature_bound; auto. lra. }
           rewrite (refine_mono _ (S k) (S fuel)) by (lia || assumption). assumption.
      * assert (Hz : clr d p P2 0 = 0) by (rewrite C0; nra).
        pose proof (refine_eq d p P2 fuel 0 1) as HR. cbv zeta in HR. rewrite HR. clear HR.
        rewrite (proj2 (Reqb_false (clr d p P2 0 - clr d p P2 1) 0)) by lra.
        rewrite Hz. unfold Rdiv. rewrite !Rmult_0_l, !Rplus_0_r. rewrite Hz, Rabs_R0.
        pose proof tol_pos. rewrite (proj2 (Rltb_false tol_z 0)) by lra. cbn [loop_ok].
        apply (on_surface_intro d p P2 0 1 c r 0 Hb); try lra; [|rewrite Hz, Rabs_R0; lra].
        split; [lra|]. auto.
    + assert (Hfe : 0 < clr d a b e) by nra. apply HPass; intros; lra.
  - apply skip_held in EM; [|lra|unfold clr_p in *; lra]. destruct EM as [S1 S2]. apply HPass.
    + intros He1. specialize (S1 He1). unfold clr. lra.
    + intros He1. left. specialize (S2 He1).
      assert (Hin1 : in_cell c r (v0 (along a b 1)) (v1 (along a b 1))) by (apply Mcell; lra).
      pose proof (cell_bounds_interp d _ _ _ _ Hcell Hin1). unfold clr. rewrite along_at_1 in *. lra.
Qed.

(** The loop over the vertices: the current point is on the segment, or above its first vertex. *)
Lemma vertex_loop_any d los fuel : big_enough (dt_data d) -> no_hidden_vertex d los ->
  forall steps i u w p h2, (0 <= i)%Z ->
  nth_error los (Z.to_nat i) = Some u -> nth_error los (S (Z.to_nat i)) = Some w ->
  in_hull (dt_data d) (v0 p) (v1 p) -> 0 <= clr_p d p ->
  (exists t, 0 <= t < 1 /\ p = along u w t) \/ (v0 p = v0 u /\ v1 p = v1 u /\ 0 <= clr_p d u) ->
  match vertex_loop d los fuel steps i p h2 with
  | Found q => on_surface (dt_data d) tol_z q
  | NoFuel => ~ (enough_fuel d fuel /\ (length los <= steps + Z.to_nat i)%nat)
  | NotFound | Crash => True
  end.
Proof.
  intros Hb Hdip steps. induction steps as [|steps IH]; intros i u w p h2 Hi Hu Hw Hin Hp Hst.
  { assert (Hlen : (S (Z.to_nat i) < length los)%nat) by (apply nth_error_Some; congruence).
    cbn [vertex_loop]. destruct (i <? _)%Z; [|exact I]. intros [_ ?]. lia. }
  assert (Hlen : (S (Z.to_nat i) < length los)%nat) by (apply nth_error_Some; congruence).
  cbn [vertex_loop]. rewrite (proj2 (Z.ltb_lt i _)) by lia.
  rewrite !py_get_nat by lia. replace (Z.to_nat (i + 1)) with (S (Z.to_nat i)) by lia.
  rewrite Hu, Hw. cbv zeta. cbn [segment_of s_d0 s_d1 s_col0 s_row0 s_z1]. fold (d0 u w) (d1 u w).
  destruct (oblique_dec u w) as [[Z0 Z1]|Hd].
  - rewrite (proj2 (Reqb_true _ _) Z0), (proj2 (Reqb_true _ _) Z1). cbn [andb].
    assert (EP : v0 p = v0 u /\ v1 p = v1 u).
    { destruct Hst as [(t & _ & ->)|(? & ? & _)]; [|auto]. rewrite along0, along1, Z0, Z1. split; ring. }
    destruct EP as [EP0 EP1].
    destruct (Rleb_spec (v2 w) (interpolate d (v0 u) (v1 u))) as [Hz|Hz].
    + exists 0. split; [|rewrite Rabs_R0; pose proof tol_pos; lra].
      apply clearance_iff; [assumption|]. cbn [v0 v1 v2]. rewrite <- EP0, <- EP1. split; [assumption|]. ring.
    + destruct (nth_error los (S (S (Z.to_nat i)))) as [w2|] eqn:Hw2.
      * unfold d0, d1 in Z0, Z1.
        assert (EW0 : v0 p = v0 w) by lra. assert (EW1 : v1 p = v1 w) by lra.
        assert (HN := IH (i + 1)%Z w w2 p h2 ltac:(lia)). replace (Z.to_nat (i + 1)) with (S (Z.to_nat i)) in HN by lia.
        specialize (HN Hw Hw2 Hin Hp).
        assert (HC : 0 <= clr_p d w).
        { unfold clr_p. rewrite <- EW0, <- EW1, EP0, EP1. lra. }
        specialize (HN (or_intror (conj EW0 (conj EW1 HC)))).
        destruct (vertex_loop d los fuel steps (i + 1) p h2); auto.
        intros [? ?]. apply HN. split; [assumption|lia].
      * apply nth_error_None in Hw2.
        destruct steps; cbn [vertex_loop]; rewrite (proj2 (Z.ltb_ge (i + 1) _)) by lia; exact I.
  - assert (ED : Reqb (d0 u w) 0 && Reqb (d1 u w) 0 = false)
      by (apply andb_false_iff; rewrite !Reqb_false; tauto).
    rewrite ED. set (a2 := if Rleb 1 (h2 - IZR i) then 0 else h2 - IZR i).
    destruct (cell_guard d _) eqn:EG; [|exact I].
    assert (HL : loop_ok d u w fuel (cell_loop d (segment_of u w) fuel fuel
                   (W a2 (first_cell (v0 p) (d0 u w)) (first_cell (v1 p) (d1 u w)) p))).
    { destruct Hst as [(t & Ht & ->)|(E0 & E1 & HC)].
      - apply (loop_aligned d u w fuel _ t); auto. split; [reflexivity|]. split; apply first_cell_heading.
      - apply (loop_held d u w fuel a2 _ _ p); auto.
        split; [cbn [w_p]; now rewrite along_at_0|]. rewrite along_at_0. cbn [w_c w_r]. rewrite E0, E1.
        split; apply first_cell_heading. }
    destruct (cell_loop d (segment_of u w) fuel fuel _) as [[q| | |]|e]; cbn [loop_ok] in HL; auto; [tauto|].
    destruct (Rleb_spec 1 e) as [He|He]; [|exact I].
    destruct (HL He) as (s & ci & cj & Hs & HSt & Fs & Fe).
    assert (H1 : 0 <= clr d u w 1 \/ (S (S (Z.to_nat i)) >= length los)%nat).
    { destruct (le_lt_dec (length los) (S (S (Z.to_nat i)))) as [?|Hl]; [right; lia|left].
      destruct Fe as [?|Fe]; [lra|]. eapply (Hdip (Z.to_nat i) u w s e ci cj); eauto; lra. }
    destruct (nth_error los (S (S (Z.to_nat i)))) as [w2|] eqn:Hw2.
    + assert (Hlen2 : (S (S (Z.to_nat i)) < length los)%nat) by (apply nth_error_Some; congruence).
      destruct H1 as [H1|H1]; [|lia]. rewrite clr_clr_p, along_at_1 in H1.
      assert (HinW : in_hull (dt_data d) (v0 w) (v1 w)).
      { destruct HSt as (_ & Hc & Is & Ie). apply (cell_hull _ ci cj); [assumption|].
        rewrite <- (along_at_1 u w). apply (along_between u w s e); auto. lra. }
      assert (HN := IH (i + 1)%Z w w2 w (IZR (Z.of_nat (length los)) - IZR (i + 1)) ltac:(lia)).
      replace (Z.to_nat (i + 1)) with (S (Z.to_nat i)) in HN by lia.
      specialize (HN Hw Hw2 HinW H1).
      assert (HA : exists t, 0 <= t < 1 /\ w = along w w2 t) by (exists 0; rewrite along_at_0; split; [lra|reflexivity]).
      specialize (HN (or_introl HA)).
      destruct (vertex_loop d los fuel steps (i + 1) w _); auto.
      intros [? ?]. apply HN. split; [assumption|lia].
    + apply nth_error_None in Hw2.
      destruct steps; cbn [vertex_loop]; rewrite (proj2 (Z.ltb_ge (i + 1) _)) by lia; exact I.
Qed.

Lemma intersection_any d fuel los p h : big_enough (dt_data d) -> no_hidden_vertex d los ->
  on_los los h p -> in_hull (dt_data d) (v0 p) (v1 p) ->
  match intersection_index d fuel los p h with
  | Found q => on_surface (dt_data d) tol_z q
  | NoFuel => (fuel < fuel_bound d)%nat
  | NotFound | Crash => True
  end.
Proof.
  intros Hb Hdip Hon Hin. destruct (on_los_segment los h p Hon) as (H0 & [H1|(u & w & E1 & E2 & Ep)]).
  - unfold intersection_index. destruct Rltb; [exact I|]. cbn [vertex_loop].
    rewrite (proj2 (Z.ltb_ge _ _)) by lia. exact I.
  - unfold intersection_index. destruct (Rfloor_bounds h) as [F1 F2].
    fold (clr_p d p). destruct (Rltb_spec (clr_p d p) 0) as [|Hc]; [exact I|]. apply Rnot_lt_le in Hc.
    assert (HA : exists t, 0 <= t < 1 /\ p = along u w t) by (exists (h - IZR (Rfloor h)); split; [lra|assumption]).
    pose proof (vertex_loop_any d los fuel Hb Hdip (S (length los)) (Rfloor h) u w p h H0 E1 E2 Hin Hc (or_introl HA)) as HV.
    destruct (vertex_loop d los fuel (S (length los)) (Rfloor h) p h); auto.
    destruct (le_lt_dec (fuel_bound d) fuel) as [HL|HL]; [|assumption]. exfalso.
    apply HV. split; [now apply fuel_bound_ok|lia].
Qed.

(** ** When is no vertex hidden *)
(** Cells whose four corners are in a plane. *)
Lemma flat_cells_no_hidden d los : (forall i j, is_cell (dt_data d) i j -> twist (dt_data d) i j = 0) ->
  no_hidden_vertex d los.
Proof.
  intros HT k u w s e i j _ _ _ Hs Hs1 He (Hse & Hc & Is & Ie) Fs Fe.
  pose proof (clr_chord d u w i j s e 1 Hc Is Ie ltac:(lra)) as H.
  unfold curvature in H. rewrite (HT i j Hc) in H. nra.
Qed.
(** Descending lines of sight whose inner vertices are outside of the altitudes of the DTM. *)
Lemma outside_no_hidden d los : big_enough (dt_data d) ->
  (forall k u w, nth_error los k = Some u -> nth_error los (S k) = Some w -> v2 w <= v2 u) ->
  (forall k w, (0 < k < pred (length los))%nat -> nth_error los k = Some w -> alt_max d <= v2 w \/ v2 w <= alt_min d) ->
  no_hidden_vertex d los.
Proof.
  intros Hb HD HO k u w s e i j Hl E1 E2 Hs Hs1 He (Hse & Hc & Is & Ie) Fs Fe.
  assert (I1 : in_cell i j (v0 (along u w 1)) (v1 (along u w 1))) by (apply (along_between u w s e); auto; lra).
  pose proof (global_bounds_interp d i j _ _ Hc I1) as B1. pose proof (global_bounds_interp d i j _ _ Hc Ie) as Be.
  assert (A1 : v2 (along u w 1) = v2 w) by now rewrite along_at_1.
  destruct (HO (S k) w ltac:(lia) E2) as [H|H]; [unfold clr in *; lra|].
  exfalso. pose proof (HD k u w E1 E2). unfold clr in *.
  assert (v2 (along u w e) <= v2 w) by (unfold along; cbn [v2]; nra). lra.
Qed.
