(** Lines of sight with two vertices, from the cube to the surface. *)
From Coq Require Import Reals ZArith List Bool Lra Lia Psatz.
From Verif Require Import Num NumLemmas InterpModel InterpSpec InterpProofs ProjModel DtmModel DtmSpec
  DtmCube DtmWalk DtmIntersect CppDtmModel CppDtmProofs.
Import ListNotations.
Open Scope R_scope.

Lemma on_los2 a b h p : on_los [a; b] h p -> 0 <= h <= 1 /\ p = along a b h.
Proof.
  intros (i & u & w & t & E1 & E2 & Ht & -> & ->).
  destruct i as [|i]; [|destruct i; discriminate].
  injection E1 as <-. injection E2 as <-. cbn [INR]. rewrite Rplus_0_l. auto.
Qed.

Lemma cube_start d los p h : big_enough (dt_data d) -> intersect_dtm_cube_index d los = Some (p, h) ->
  in_cube (dt_data d) p /\ ((h = -1 /\ nth_error los 0 = Some p) \/ on_los los h p).
Proof.
  intros Hb H. destruct (cube_some d los p h Hb H) as (c & Hc & -> & -> & Hin & _).
  split; [assumption|].
  destruct (crossing_on_los d los c Hc) as (i & _ & _ & [Ho|Hv]); [now right|now left].
Qed.
Lemma cube_start2 d a b p h : big_enough (dt_data d) -> intersect_dtm_cube_index d [a; b] = Some (p, h) ->
  in_cube (dt_data d) p /\ ((h = -1 /\ p = a) \/ (0 <= h <= 1 /\ p = along a b h)).
Proof.
  intros Hb H. destruct (cube_start d _ p h Hb H) as [H1 [[H2 H3]|H2]]; (split; [assumption|]).
  - left. injection H3 as <-. auto.
  - right. now apply on_los2.
Qed.

(** The position index -1: the code walks on the reversed segment first. *)
Lemma intersection2_minus d fuel a b : d0 a b <> 0 \/ d1 a b <> 0 ->
  intersection_index d fuel [a; b] a (-1) =
  if Rltb (v2 a - interpolate d (v0 a) (v1 a)) 0 then NotFound
  else
    let w0 := W 0 (first_cell (v0 a) (d0 b a)) (first_cell (v1 a) (d1 b a)) a in
    if cell_guard d w0 then
      match cell_loop d (segment_of b a) fuel fuel w0 with
      | CDone o => o
      | CEnd e => if Rleb 1 e then intersection_index d fuel [a; b] a 0 else NotFound
      end
    else NotFound.
Proof.
  intros Hd. unfold intersection_index.
  destruct (Rltb (v2 a - interpolate d (v0 a) (v1 a)) 0) eqn:EZ; [reflexivity|].
  assert (E : Rfloor (-1) = (-1)%Z) by (apply (Rfloor_IZR (-1))).
  assert (E0 : Rfloor 0 = 0%Z) by (apply (Rfloor_IZR 0)).
  rewrite E, E0. cbn [length].
  assert (ED : Reqb (d0 a b) 0 && Reqb (d1 a b) 0 = false)
    by (apply andb_false_iff; rewrite !Reqb_false; tauto).
  assert (ED' : Reqb (d0 b a) 0 && Reqb (d1 b a) 0 = false).
  { apply andb_false_iff; rewrite !Reqb_false; unfold d0, d1 in *; destruct Hd; [left|right]; lra. }
  assert (EQ : forall st h, (if Rleb 1 (h - 0) then 0 else h - 0) = 0 ->
    vertex_loop d [a; b] fuel (S (S st)) 0 a h =
    (let w := W 0 (first_cell (v0 a) (d0 a b)) (first_cell (v1 a) (d1 a b)) a in
     if cell_guard d w then
       match cell_loop d (segment_of a b) fuel fuel w with CDone o => o | CEnd _ => NotFound end
     else NotFound)).
  { intros st h Eh. cbn [vertex_loop length]. change (0 <? Z.of_nat 2 - 1)%Z with true. cbv iota.
    change (py_get [a; b] 0) with (Some a). change (py_get [a; b] (0 + 1)) with (Some b). cbv iota zeta.
    cbn [segment_of s_d0 s_d1]. fold (d0 a b) (d1 a b). rewrite ED. rewrite Eh.
    destruct cell_guard; [|reflexivity]. destruct cell_loop as [o|e]; [reflexivity|].
    destruct (Rleb 1 e); reflexivity. }
  rewrite (EQ 1%nat 0) by (destruct (Rleb_spec 1 (0 - 0)); lra).
  remember (S (S 0)) as st eqn:Est. cbn [vertex_loop length].
  change (-1 <? Z.of_nat 2 - 1)%Z with true. cbv iota.
  change (py_get [a; b] (-1)) with (Some b). change (py_get [a; b] (-1 + 1)) with (Some a). cbv iota zeta.
  cbn [segment_of s_d0 s_d1]. fold (d0 b a) (d1 b a). rewrite ED'.
  assert (EA : (if Rleb 1 (-1 - -1) then 0 else -1 - -1) = 0) by (destruct (Rleb_spec 1 (-1 - -1)); lra).
  rewrite EA. destruct cell_guard; [|reflexivity].
  destruct (cell_loop d (segment_of b a) fuel fuel _) as [o|e]; [reflexivity|].
  destruct (Rleb 1 e); [|reflexivity]. change (-1 + 1)%Z with 0%Z. subst st.
  rewrite EQ; [reflexivity|].
  destruct (Rleb_spec 1 (IZR (Z.of_nat 2) - 0 - 0)) as [?|HX]; [reflexivity|].
  exfalso. change (Z.of_nat 2) with 2%Z in HX. lra.
Qed.
Lemma intersection2_minus_vertical d fuel a b : d0 a b = 0 -> d1 a b = 0 ->
  intersection_index d fuel [a; b] a (-1) =
  if Rltb (v2 a - interpolate d (v0 a) (v1 a)) 0 then NotFound
  else if Rleb (v2 a) (interpolate d (v0 a) (v1 a)) then Found (V3 (v0 a) (v1 a) (interpolate d (v0 a) (v1 a)))
  else intersection_index d fuel [a; b] a 0.
Proof.
  intros H0 H1. unfold intersection_index.
  destruct (Rltb (v2 a - interpolate d (v0 a) (v1 a)) 0) eqn:EZ; [reflexivity|].
  assert (E : Rfloor (-1) = (-1)%Z) by (apply (Rfloor_IZR (-1))).
  assert (E0 : Rfloor 0 = 0%Z) by (apply (Rfloor_IZR 0)).
  rewrite E, E0. cbn [length].
  assert (ED : Reqb (d0 a b) 0 && Reqb (d1 a b) 0 = true)
    by (apply andb_true_iff; rewrite !Reqb_true; tauto).
  assert (ED' : Reqb (d0 b a) 0 && Reqb (d1 b a) 0 = true).
  { apply andb_true_iff; rewrite !Reqb_true; unfold d0, d1 in *; split; lra. }
  assert (F0 : v0 b = v0 a) by (unfold d0 in H0; lra). assert (F1 : v1 b = v1 a) by (unfold d1 in H1; lra).
  assert (EQ : forall st h, vertex_loop d [a; b] fuel (S (S st)) 0 a h =
    if Rleb (v2 b) (interpolate d (v0 a) (v1 a)) then Found (V3 (v0 a) (v1 a) (interpolate d (v0 a) (v1 a)))
    else NotFound).
  { intros st h. cbn [vertex_loop length]. change (0 <? Z.of_nat 2 - 1)%Z with true. cbv iota.
    change (py_get [a; b] 0) with (Some a). change (py_get [a; b] (0 + 1)) with (Some b). cbv iota zeta.
    cbn [segment_of s_d0 s_d1 s_col0 s_row0 s_z1]. fold (d0 a b) (d1 a b). rewrite ED.
    destruct (Rleb (v2 b) _); reflexivity. }
  rewrite (EQ 1%nat 0).
  remember (S (S 0)) as st eqn:Est. cbn [vertex_loop length].
  change (-1 <? Z.of_nat 2 - 1)%Z with true. cbv iota.
  change (py_get [a; b] (-1)) with (Some b). change (py_get [a; b] (-1 + 1)) with (Some a). cbv iota zeta.
  cbn [segment_of s_d0 s_d1 s_col0 s_row0 s_z1]. fold (d0 b a) (d1 b a). rewrite ED'. rewrite F0, F1.
  destruct (Rleb (v2 a) _); [reflexivity|]. change (-1 + 1)%Z with 0%Z. subst st. apply EQ.
Qed.

Lemma oblique_dec a b : (d0 a b = 0 /\ d1 a b = 0) \/ (d0 a b <> 0 \/ d1 a b <> 0).
Proof. destruct (Req_dec (d0 a b) 0), (Req_dec (d1 a b) 0); tauto. Qed.

(** The entry at the last vertex. *)
Lemma intersection2_end d fuel a b p : intersection_index d fuel [a; b] p 1 = NotFound.
Proof.
  unfold intersection_index. destruct Rltb; [reflexivity|].
  assert (E : Rfloor 1 = 1%Z) by (apply (Rfloor_IZR 1)). rewrite E. reflexivity.
Qed.

(** What is found from a start point of the segment (an index in [0, 1)). *)
Lemma found2 d fuel a b h q : big_enough (dt_data d) -> 0 <= h < 1 ->
  in_hull (dt_data d) (v0 (along a b h)) (v1 (along a b h)) ->
  intersection_index d fuel [a; b] (along a b h) h = Found q ->
  exists u, h <= u /\ q = along a b u /\ on_surface (dt_data d) tol_z q.
Proof.
  intros Hb Hh Hin H. destruct (oblique_dec a b) as [[H0 H1]|Hd].
  - rewrite intersection2_vertical in H by assumption.
    destruct (Rltb_spec (clr d a b h) 0) as [|Hc]; [discriminate|]. apply Rnot_lt_le in Hc.
    destruct (Rleb_spec (v2 b) (interpolate d (v0 a) (v1 a))) as [Hz|]; [|discriminate].
    injection H as <-.
    assert (E0 : v0 (along a b h) = v0 a) by (rewrite along0, H0; ring).
    assert (E1 : v1 (along a b h) = v1 a) by (rewrite along1, H1; ring).
    rewrite E0, E1 in Hin. unfold clr in Hc. rewrite E0, E1 in Hc. cbn [along v2] in Hc.
    set (z := interpolate d (v0 a) (v1 a)) in *.
    assert (HU : exists u, h <= u /\ z = v2 a + u * (v2 b - v2 a)).
    { destruct (Req_dec (v2 b - v2 a) 0) as [E|E].
      - exists h. split; [lra|]. rewrite E in *. nra.
      - exists ((z - v2 a) / (v2 b - v2 a)). split; [|field; assumption].
        assert (v2 b - v2 a < 0) by nra.
        apply Rmult_le_reg_r with (- (v2 b - v2 a)); [lra|].
        replace ((z - v2 a) / (v2 b - v2 a) * - (v2 b - v2 a)) with (- (z - v2 a)) by (field; assumption).
        lra. }
    destruct HU as (u & Hu & Eu). exists u. split; [assumption|]. split.
    + unfold along. fold (d0 a b) (d1 a b). rewrite H0, H1, Eu. f_equal; ring.
    + exists 0. split; [|rewrite Rabs_R0; pose proof tol_pos; lra].
      apply clearance_iff; [assumption|]. cbn [v0 v1 v2]. split; [assumption|]. fold z. ring.
  - rewrite intersection2_eq in H by assumption.
    destruct (Rltb_spec (clr d a b h) 0) as [|Hc]; [discriminate|]. apply Rnot_lt_le in Hc.
    set (w0 := start_walk a b (along a b h) h) in *.
    destruct (cell_guard d w0) eqn:EG; [|discriminate].
    pose proof (cell_loop_spec d a b fuel Hd fuel w0 h (start_winv a b h) ltac:(lra) Hc) as HP.
    destruct (cell_loop d (segment_of a b) fuel fuel w0) as [o|e]; [|discriminate].
    subst o. destruct HP as (u & s & e & i & j & E1 & E2 & E3 & E4 & E5 & E6 & _).
    exists u. split; [lra|]. split; [assumption|]. rewrite E1. eapply on_surface_intro; eauto.
Qed.

(** More about it when the line of sight is not vertical. *)
Lemma found2_post d fuel a b h q : 0 <= h < 1 -> d0 a b <> 0 \/ d1 a b <> 0 ->
  intersection_index d fuel [a; b] (along a b h) h = Found q ->
  0 <= clr d a b h /\ cell_loop_post d a b (start_walk a b (along a b h) h) h (CDone (Found q)).
Proof.
  intros Hh Hd H. rewrite intersection2_eq in H by assumption.
  destruct (Rltb_spec (clr d a b h) 0) as [|Hc]; [discriminate|]. apply Rnot_lt_le in Hc.
  split; [assumption|]. set (w0 := start_walk a b (along a b h) h) in *.
  destruct (cell_guard d w0) eqn:EG; [|discriminate].
  pose proof (cell_loop_spec d a b fuel Hd fuel w0 h (start_winv a b h) ltac:(lra) Hc) as HP.
  destruct (cell_loop d (segment_of a b) fuel fuel w0) as [o|e]; [|discriminate]. now subst o.
Qed.
(** The division 0/0 needs a start exactly on the surface. *)
Lemma crash2 d fuel a b h : 0 <= h < 1 ->
  intersection_index d fuel [a; b] (along a b h) h = Crash ->
  exists e i j, stretch d a b h e i j /\ clr d a b h = 0 /\ clr d a b e = 0 /\ crosses_mesh a b e.
Proof.
  intros Hh H. destruct (oblique_dec a b) as [[H0 H1]|Hd].
  - rewrite intersection2_vertical in H by assumption. destruct Rltb; [discriminate|]. destruct Rleb; discriminate.
  - rewrite intersection2_eq in H by assumption.
    destruct (Rltb_spec (clr d a b h) 0) as [|Hc]; [discriminate|]. apply Rnot_lt_le in Hc.
    set (w0 := start_walk a b (along a b h) h) in *.
    destruct (cell_guard d w0) eqn:EG; [|discriminate].
    pose proof (cell_loop_spec d a b fuel Hd fuel w0 h (start_winv a b h) ltac:(lra) Hc) as HP.
    destruct (cell_loop d (segment_of a b) fuel fuel w0) as [o|e]; [|discriminate]. now subst o.
Qed.

(** The same, from the first vertex with the index -1. *)
Lemma found2_minus d fuel a b q : big_enough (dt_data d) ->
  in_hull (dt_data d) (v0 a) (v1 a) ->
  intersection_index d fuel [a; b] a (-1) = Found q ->
  exists u, q = along a b u /\ on_surface (dt_data d) tol_z q.
Proof.
  intros Hb Hin H.
  assert (H0f : intersection_index d fuel [a; b] a 0 = Found q ->
      exists u, q = along a b u /\ on_surface (dt_data d) tol_z q).
  { intros H'. rewrite <- (along_at_0 a b) in H' at 2.
    destruct (found2 d fuel a b 0 q Hb ltac:(lra)) as (u & _ & E1 & E2); [rewrite along_at_0; assumption|assumption|].
    now exists u. }
  destruct (oblique_dec a b) as [[H0 H1]|Hd].
  - rewrite intersection2_minus_vertical in H by assumption.
    destruct (Rltb_spec (v2 a - interpolate d (v0 a) (v1 a)) 0) as [|Hc]; [discriminate|]. apply Rnot_lt_le in Hc.
    destruct (Rleb_spec (v2 a) (interpolate d (v0 a) (v1 a))) as [Hz|]; [|now apply H0f].
    injection H as <-. exists 0. rewrite along_at_0.
    assert (E : interpolate d (v0 a) (v1 a) = v2 a) by lra. split.
    + destruct a as [x y z]. cbn [v0 v1 v2] in *. now rewrite E.
    + exists 0. split; [|rewrite Rabs_R0; pose proof tol_pos; lra].
      apply clearance_iff; [assumption|]. cbn [v0 v1 v2]. split; [assumption|]. lra.
  - rewrite intersection2_minus in H by assumption.
    destruct (Rltb_spec (v2 a - interpolate d (v0 a) (v1 a)) 0) as [|Hc]; [discriminate|]. apply Rnot_lt_le in Hc. cbv zeta in H.
    set (w0 := W 0 _ _ a) in *. destruct (cell_guard d w0) eqn:EG; [|discriminate].
    assert (Hd' : d0 b a <> 0 \/ d1 b a <> 0) by (unfold d0, d1 in *; destruct Hd; [left|right]; lra).
    assert (HW : winv b a w0 1).
    { split; [symmetry; apply along_at_1|]. rewrite along_at_1. split; apply first_cell_heading. }
    assert (Hc' : 0 <= clr d b a 1) by (unfold clr; rewrite along_at_1; lra).
    pose proof (cell_loop_spec d b a fuel Hd' fuel w0 1 HW ltac:(lra) Hc') as HP.
    destruct (cell_loop d (segment_of b a) fuel fuel w0) as [o|e].
    + subst o. destruct HP as (u & s & e & i & j & E1 & E2 & E3 & E4 & E5 & E6 & _).
      exists (1 - u). rewrite <- (along_rev a b u).
      split; [assumption|]. rewrite E1. eapply on_surface_intro; eauto.
    + destruct (Rleb 1 e); [|discriminate]. now apply H0f.
Qed.

(** Termination. *)
Lemma fuel2 d fuel a b h : big_enough (dt_data d) -> 0 <= h < 1 -> enough_fuel d fuel ->
  intersection_index d fuel [a; b] (along a b h) h <> NoFuel.
Proof.
  intros Hb Hh HF. destruct (oblique_dec a b) as [[H0 H1]|Hd].
  - rewrite intersection2_vertical by assumption.
    destruct Rltb; [discriminate|]. destruct Rleb; discriminate.
  - rewrite intersection2_eq by assumption.
    destruct (Rltb_spec (clr d a b h) 0) as [|Hc]; [discriminate|]. apply Rnot_lt_le in Hc.
    set (w0 := start_walk a b (along a b h) h) in *.
    destruct (cell_guard d w0) eqn:EG; [|discriminate].
    assert (Hic : is_cell (dt_data d) (w_c w0) (w_r w0)) by (apply guard_iff in EG; apply EG).
    assert (HNF : cell_loop d (segment_of a b) fuel fuel w0 <> CDone NoFuel).
    { apply (cell_loop_fuel d a b fuel Hd (proj2 HF) fuel w0 h (start_winv a b h) (proj1 Hh) Hc).
      pose proof (ahead_pos d w0 a b Hd Hic). destruct HF as [HF _]. lia. }
    destruct cell_loop as [o|e]; [congruence|discriminate].
Qed.
Lemma fuel2_minus d fuel a b : big_enough (dt_data d) -> enough_fuel d fuel ->
  intersection_index d fuel [a; b] a (-1) <> NoFuel.
Proof.
  intros Hb HF.
  assert (H0f : intersection_index d fuel [a; b] a 0 <> NoFuel).
  { rewrite <- (along_at_0 a b) at 2. apply fuel2; auto; lra. }
  destruct (oblique_dec a b) as [[H0 H1]|Hd].
  - rewrite intersection2_minus_vertical by assumption.
    destruct Rltb; [discriminate|]. destruct Rleb; [discriminate|assumption].
  - rewrite intersection2_minus by assumption.
    destruct (Rltb_spec (v2 a - interpolate d (v0 a) (v1 a)) 0) as [|Hc]; [discriminate|]. apply Rnot_lt_le in Hc. cbv zeta.
    set (w0 := W 0 _ _ a) in *. destruct (cell_guard d w0) eqn:EG; [|discriminate].
    assert (Hd' : d0 b a <> 0 \/ d1 b a <> 0) by (unfold d0, d1 in *; destruct Hd; [left|right]; lra).
    assert (HW : winv b a w0 1).
    { split; [symmetry; apply along_at_1|]. rewrite along_at_1. split; apply first_cell_heading. }
    assert (Hc' : 0 <= clr d b a 1) by (unfold clr; rewrite along_at_1; lra).
    assert (Hic : is_cell (dt_data d) (w_c w0) (w_r w0)) by (apply guard_iff in EG; apply EG).
    assert (HNF : cell_loop d (segment_of b a) fuel fuel w0 <> CDone NoFuel).
    { apply (cell_loop_fuel d b a fuel Hd' (proj2 HF) fuel w0 1 HW ltac:(lra) Hc').
      pose proof (ahead_pos d w0 b a Hd' Hic). destruct HF as [HF _]. lia. }
    destruct cell_loop as [o|e]; [congruence|]. destruct (Rleb 1 e); [assumption|discriminate].
Qed.

Lemma tol_lt : tol_z <= 1 / 10000. Proof. unfold tol_z. lra. Qed.

(** The explicit bound. *)
Definition fuel_bound (d : dtm) : nat :=
  (Z.to_nat (nb_rows d + nb_columns d) + Z.to_nat (Rceil (2 * (alt_max d - alt_min d) / tol_z)) + 1)%nat.
Lemma fuel_bound_ok d fuel : (fuel_bound d <= fuel)%nat -> enough_fuel d fuel.
Proof.
  unfold fuel_bound. intros H. split; [lia|].
  set (K := Z.to_nat (Rceil (2 * (alt_max d - alt_min d) / tol_z))) in *.
  exists K. split; [lia|]. intros i j Hc.
  assert (HT : Rabs (twist (dt_data d) i j) <= 2 * (alt_max d - alt_min d)).
  { unfold twist.
    assert (HB : forall a b, (a = i \/ a = i + 1)%Z -> (b = j \/ b = j + 1)%Z ->
       alt_min d <= rs_at (dt_data d) a b <= alt_max d).
    { intros a b Ha Hb. pose proof (cell_nodes _ _ _ _ _ Hc Ha Hb).
      split; [now apply alt_min_le|now apply alt_max_ge]. }
    pose proof (HB i j ltac:(now left) ltac:(now left)).
    pose proof (HB i (j + 1)%Z ltac:(now left) ltac:(now right)).
    pose proof (HB (i + 1)%Z j ltac:(now right) ltac:(now left)).
    pose proof (HB (i + 1)%Z (j + 1)%Z ltac:(now right) ltac:(now right)).
    apply Rabs_le. lra. }
  eapply Rle_trans; [exact HT|]. pose proof tol_pos as Ht.
  assert (HK : 2 * (alt_max d - alt_min d) / tol_z <= INR K).
  { unfold K. set (x := 2 * (alt_max d - alt_min d) / tol_z).
    destruct (Rceil_bounds x) as [_ Hx]. eapply Rle_trans; [exact Hx|].
    rewrite INR_IZR_INZ. apply IZR_le. lia. }
  apply Rmult_le_reg_r with (/ tol_z); [now apply Rinv_0_lt_compat|].
  replace (INR K * tol_z * / tol_z) with (INR K) by (field; lra). exact HK.
Qed.

(** ** What "not found" means *)
Definition along_last_border (d : dtm) (a b : vec3) : Prop :=
  (d0 a b = 0 /\ v0 a = IZR (nb_rows d - 1)) \/ (d1 a b = 0 /\ v1 a = IZR (nb_columns d - 1)).

Lemma first_cell_0 p : first_cell p 0 = Rfloor p.
Proof. unfold first_cell. cbv zeta. rewrite (proj2 (Rltb_false 0 0)) by lra. now rewrite andb_false_r. Qed.

(** A start in the hull whose first cell is not a cell of the DTM leaves the hull at once. *)
Lemma start_out d a b h v : big_enough (dt_data d) -> ~ along_last_border d a b ->
  in_hull (dt_data d) (v0 (along a b h)) (v1 (along a b h)) ->
  ~ is_cell (dt_data d) (first_cell (v0 (along a b h)) (d0 a b)) (first_cell (v1 (along a b h)) (d1 a b)) ->
  h < v -> ~ in_hull (dt_data d) (v0 (along a b v)) (v1 (along a b v)).
Proof.
  intros Hb HB [Hx Hy] HC Hv [Vx Vy].
  assert (HA : forall x dx n, (2 <= n)%Z -> 0 <= x + h * dx <= IZR (n - 1) -> 0 <= x + v * dx <= IZR (n - 1) ->
    ~ (dx = 0 /\ x = IZR (n - 1)) -> (0 <= first_cell (x + h * dx) dx < n - 1)%Z).
  { clear - Hv. intros x dx n Hn H1 H2 H3. destruct (first_cell_heading (x + h * dx) dx) as (F1 & F2 & F3).
    set (c := first_cell (x + h * dx) dx) in *.
    destruct (Rtotal_order dx 0) as [L|[L|L]].
    - specialize (F1 L). assert (0 < x + h * dx) by nra.
      split; [|].
      + assert (HH : (0 < c + 1)%Z) by (apply lt_IZR; rewrite plus_IZR; lra). lia.
      + apply lt_IZR. lra.
    - clear F1 F2 F3. unfold c. clear c. rewrite L, first_cell_0. rewrite Rmult_0_r, Rplus_0_r.
      rewrite L, Rmult_0_r, Rplus_0_r in H1. assert (x <> IZR (n - 1)) by tauto.
      pose proof (Rfloor_bounds x). set (c := Rfloor x) in *.
      split.
      + assert (HH : (0 < c + 1)%Z) by (apply lt_IZR; rewrite plus_IZR; lra). lia.
      + apply lt_IZR. lra.
    - specialize (F2 L). assert (x + h * dx < IZR (n - 1)) by nra.
      split.
      + assert (HH : (0 < c + 1)%Z) by (apply lt_IZR; rewrite plus_IZR; lra). lia.
      + apply lt_IZR. lra. }
  apply HC. rewrite along0, along1 in *. destruct Hb as [Hb0 Hb1].
  unfold along_last_border, nb_rows, nb_columns in HB.
  split; apply HA; auto; tauto.
Qed.

Lemma not_found2 d fuel a b h : big_enough (dt_data d) -> 0 <= h < 1 ->
  d0 a b <> 0 \/ d1 a b <> 0 -> ~ along_last_border d a b ->
  in_hull (dt_data d) (v0 (along a b h)) (v1 (along a b h)) ->
  intersection_index d fuel [a; b] (along a b h) h = NotFound ->
  clr d a b h < 0 \/
  (0 <= clr d a b h /\
   (forall v, h < v < 1 -> in_hull (dt_data d) (v0 (along a b v)) (v1 (along a b v)) ->
      crosses_mesh a b v -> 0 < clr d a b v) /\
   (in_hull (dt_data d) (v0 (along a b 1)) (v1 (along a b 1)) ->
      0 < clr d a b 1 \/
      exists s e i j, h <= s /\ s < 1 /\ 1 <= e /\ stretch d a b s e i j /\ 0 <= clr d a b s /\ 0 < clr d a b e) /\
   (concave d a b -> forall v, h <= v <= 1 ->
      in_hull (dt_data d) (v0 (along a b v)) (v1 (along a b v)) -> 0 <= clr d a b v)).
Proof.
  intros Hb Hh Hd HB Hin H. rewrite intersection2_eq in H by assumption.
  destruct (Rltb_spec (clr d a b h) 0) as [Hc|Hc]; [now left|]. apply Rnot_lt_le in Hc. right. split; [lra|].
  set (w0 := start_walk a b (along a b h) h) in *.
  destruct (cell_guard d w0) eqn:EG.
  - pose proof (cell_loop_spec d a b fuel Hd fuel w0 h (start_winv a b h) ltac:(lra) Hc) as HP.
    destruct (cell_loop d (segment_of a b) fuel fuel w0) as [o|e].
    { subst o. destruct HP. }
    destruct HP as [[HP _]|(Hhe & _ & (s & i & j & S1 & S2 & S3 & S4 & S5 & S6) & Q1 & Q2 & Q3)]; [congruence|].
    destruct (Rlt_le_dec e 1) as [He|He].
    + split; [|split].
      * intros v Hv Hi HX. destruct (Rle_lt_dec v e); [apply Q1; lra || assumption|].
        exfalso. apply (Q2 He v); assumption.
      * intros Hi. exfalso. apply (Q2 He 1); assumption.
      * intros HC v Hv Hi. destruct (Rle_lt_dec v e); [apply Q3; lra || assumption|].
        exfalso. apply (Q2 He v); assumption.
    + split; [|split].
      * intros v Hv Hi HX. apply Q1; lra || assumption.
      * intros Hi. destruct (S6 He) as [?|?]; [now left|]. right.
        exists s, e, i, j. repeat (split; [assumption || lra|]). assumption.
      * intros HC v Hv Hi. apply Q3; lra || assumption.
  - assert (HC : ~ is_cell (dt_data d) (first_cell (v0 (along a b h)) (d0 a b)) (first_cell (v1 (along a b h)) (d1 a b))).
    { intros HC. assert (cell_guard d w0 = true); [|congruence].
      apply guard_iff. cbn [w0 start_walk w_a w_c w_r]. split; [lra|assumption]. }
    pose proof (fun v => start_out d a b h v Hb HB Hin HC) as HO.
    split; [|split].
    + intros v Hv Hi. exfalso. apply (HO v); [lra|assumption].
    + intros Hi. exfalso. apply (HO 1); [lra|assumption].
    + intros _ v Hv Hi. destruct (Req_dec v h) as [->|]; [assumption|].
      exfalso. apply (HO v); [lra|assumption].
Qed.

(** A line of sight that goes below the DTM while staying over it is never "not found". *)
Lemma descending_not_missed d fuel a b h : big_enough (dt_data d) -> 0 <= h < 1 ->
  ~ along_last_border d a b ->
  in_hull (dt_data d) (v0 (along a b h)) (v1 (along a b h)) ->
  in_hull (dt_data d) (v0 b) (v1 b) ->
  0 <= clr d a b h -> v2 b < v2 a -> v2 b < alt_min d ->
  intersection_index d fuel [a; b] (along a b h) h <> NotFound.
Proof.
  intros Hb Hh HB Hin Hinb Hc Hz Hzb H.
  assert (HAI : forall x y, in_hull (dt_data d) x y -> alt_min d <= interpolate d x y).
  { intros x y Hxy. destruct (hull_in_a_cell _ _ _ Hb Hxy) as (i & j & Hic & Hxi).
    apply (global_bounds_interp d i j); assumption. }
  destruct (oblique_dec a b) as [[H0 H1]|Hd].
  - rewrite intersection2_vertical in H by assumption.
    destruct (Rltb_spec (clr d a b h) 0) as [|_]; [lra|].
    rewrite (proj2 (Rleb_true _ _)) in H; [discriminate|].
    assert (E0 : v0 b = v0 a) by (unfold d0 in H0; lra).
    assert (E1 : v1 b = v1 a) by (unfold d1 in H1; lra).
    rewrite E0, E1 in Hinb. specialize (HAI _ _ Hinb). lra.
  - destruct (not_found2 d fuel a b h Hb Hh Hd HB Hin H) as [|(_ & _ & HE & _)]; [lra|].
    rewrite along_at_1 in HE. specialize (HE Hinb).
    assert (HN : forall v, 1 <= v -> in_hull (dt_data d) (v0 (along a b v)) (v1 (along a b v)) -> clr d a b v < 0).
    { intros v Hv Hi. specialize (HAI _ _ Hi). unfold clr.
      set (z := interpolate d _ _) in *. assert (v2 (along a b v) <= v2 b) by (cbn [along v2]; nra). lra. }
    destruct HE as [HE|(s & e & i & j & _ & _ & He & HS & _ & HE)].
    + specialize (HN 1 ltac:(lra)). rewrite along_at_1 in HN. specialize (HN Hinb). lra.
    + destruct HS as (HSe & Hic & _ & Hine).
      assert (HIe : in_hull (dt_data d) (v0 (along a b e)) (v1 (along a b e))).
      { apply (proj1 (clearance_iff d (along a b e) _ Hb)
                 (ex_intro _ i (ex_intro _ j (conj Hic (conj Hine eq_refl))))). }
      specialize (HN e He HIe). lra.
Qed.

(** ... and what is found is between its two ends. *)
Lemma found_before_end d a b u : big_enough (dt_data d) -> v2 b < v2 a ->
  v2 b < alt_min d - tol_z -> on_surface (dt_data d) tol_z (along a b u) -> u <= 1.
Proof.
  intros Hb Hz Hzb (e & (i & j & Hic & Hin & He) & Ht).
  destruct (Rle_lt_dec u 1) as [|Hu]; [assumption|]. exfalso.
  assert (alt_min d <= bilinear_in_cell (dt_data d) i j (v0 (along a b u)) (v1 (along a b u))).
  { pose proof (global_bounds_interp d i j _ _ Hic Hin) as HG. unfold interpolate in HG.
    rewrite (interp_in_cell _ i j) in HG by assumption. apply HG. }
  assert (v2 (along a b u) < alt_min d - tol_z) by (cbn [along v2]; nra).
  assert (e < - tol_z) by lra.
  pose proof (Rle_abs (- e)). rewrite Rabs_Ropp in *. lra.
Qed.

(** ** A line of sight from above the highest node to below the lowest one *)
Lemma filter_length {A} (f : A -> bool) l l' : Permutation.Permutation l l' ->
  length (filter f l) = length (filter f l').
Proof.
  induction 1; cbn [filter]; try congruence.
  - destruct (f x); cbn [length]; congruence.
  - destruct (f x), (f y); reflexivity.
Qed.

Lemma hull_convex m a b t : 0 <= t <= 1 -> in_hull m (v0 a) (v1 a) -> in_hull m (v0 b) (v1 b) ->
  in_hull m (v0 (along a b t)) (v1 (along a b t)).
Proof. intros Ht [A1 A2] [B1 B2]. unfold in_hull. cbn [along v0 v1]. repeat split; nra. Qed.

Lemma alt_min_max d : big_enough (dt_data d) -> alt_min d <= alt_max d.
Proof.
  intros Hb. destruct (alt_min_node d Hb) as (i & j & Hn & <-). now apply alt_max_ge.
Qed.

Lemma level_crossing (za zb z : R) : zb <= z -> z <= za -> zb < za ->
  exists t, 0 <= t <= 1 /\ za + t * (zb - za) = z.
Proof.
  intros H1 H2 H3. exists ((za - z) / (za - zb)). split.
  - split; apply Rmult_le_reg_r with (za - zb); try lra;
      unfold Rdiv; rewrite ?Rmult_assoc, ?Rinv_l by lra; lra.
  - field. lra.
Qed.

Lemma cube_found_through d a b : big_enough (dt_data d) ->
  alt_max d < v2 a -> v2 b < alt_min d ->
  in_hull (dt_data d) (v0 a) (v1 a) -> in_hull (dt_data d) (v0 b) (v1 b) ->
  exists h, 0 < h < 1 /\ intersect_dtm_cube_index d [a; b] = Some (along a b h, h) /\
    v2 (along a b h) = alt_max d.
Proof.
  intros Hb Ha Hbz HIa HIb. pose proof (alt_min_max d Hb) as Hmm.
  destruct (level_crossing (v2 a) (v2 b) (alt_min d)) as (t4 & Ht4 & E4); try lra.
  destruct (level_crossing (v2 a) (v2 b) (alt_max d)) as (t5 & Ht5 & E5); try lra.
  assert (t4 <> 0) by (intros E; rewrite E in E4; lra).
  assert (t5 <> 0) by (intros E; rewrite E in E5; lra).
  destruct (scan_exists d a b 4 t4) as (c4 & S4 & P4 & H4); [lia|lra|cbn [slack]; lra|cbn [slack along v2]; lra|].
  destruct (scan_exists d a b 5 t5) as (c5 & S5 & P5 & H5); [lia|lra|cbn [slack]; lra|cbn [slack along v2]; lra|].
  assert (C4 : in_cube (dt_data d) (cr_point c4)).
  { rewrite P4. apply in_cube_iff; [assumption|]. split; [now apply hull_convex|]. cbn [along v2]. lra. }
  assert (C5 : in_cube (dt_data d) (cr_point c5)).
  { rewrite P5. apply in_cube_iff; [assumption|]. split; [now apply hull_convex|]. cbn [along v2]. lra. }
  assert (HN : intersect_dtm_cube_index d [a; b] <> None).
  { unfold intersect_dtm_cube_index. set (cs := all_crossings d [a; b]).
    pose proof (filter_length (test_on_cube d) _ _ (exchange_sort_perm (length cs) cs)) as HL.
    assert (H2 : (2 <= length (filter (test_on_cube d) cs))%nat).
    { unfold cs, all_crossings. change (seq 0 6) with [0; 1; 2; 3; 4; 5]%nat.
      change [0; 1; 2; 3; 4; 5]%nat with ([0; 1; 2; 3]%nat ++ [4; 5]%nat).
      rewrite flat_map_app, filter_app, app_length.
      cbn [flat_map app]. rewrite S4, S5. cbn [app filter].
      rewrite !(proj2 (test_on_cube_iff d _ Hb)) by assumption. cbn [length]. lia. }
    rewrite <- HL in H2.
    destruct (filter (test_on_cube d) (exchange_sort (length cs) cs)) as [|x [|y l]]; cbn [length] in H2; try lia.
    discriminate. }
  destruct (intersect_dtm_cube_index d [a; b]) as [[p h]|] eqn:EC; [|congruence].
  assert (HNa : ~ in_cube (dt_data d) a).
  { intros HC. apply in_cube_iff in HC; [|assumption]. lra. }
  destruct (cube_first d a b p h Hb HNa EC) as (Hh & -> & Hin & _ & Hfirst).
  assert (Hz : v2 (along a b h) = alt_max d).
  { apply in_cube_iff in Hin; [|assumption]. destruct Hin as [_ Hz].
    destruct (Rlt_le_dec (v2 (along a b h)) (alt_max d)) as [L|L]; [|lra]. exfalso.
    assert (t5 < h) by (cbn [along v2] in L; nra).
    apply (Hfirst t5); [lra|]. rewrite <- P5. exact C5. }
  exists h. split; [|split; [reflexivity|assumption]].
  split; [lra|]. destruct (Req_dec h 1) as [->|]; [|lra]. rewrite along_at_1 in Hz. lra.
Qed.

Lemma through_found d fuel a b : big_enough (dt_data d) -> (fuel_bound d <= fuel)%nat ->
  alt_max d < v2 a -> v2 b < alt_min d - tol_z ->
  in_hull (dt_data d) (v0 a) (v1 a) -> in_hull (dt_data d) (v0 b) (v1 b) ->
  ~ along_last_border d a b ->
  exists h, 0 < h < 1 /\ intersect_dtm_cube_index d [a; b] = Some (along a b h, h) /\
    (intersection_index d fuel [a; b] (along a b h) h = Crash \/
     exists u, h <= u <= 1 /\ intersection_index d fuel [a; b] (along a b h) h = Found (along a b u) /\
       on_surface (dt_data d) tol_z (along a b u)).
Proof.
  intros Hb HF Ha Hbz HIa HIb HB. pose proof (alt_min_max d Hb) as Hmm. pose proof tol_pos as Ht.
  destruct (cube_found_through d a b Hb Ha ltac:(lra) HIa HIb) as (h & Hh & EC & Hz).
  exists h. split; [assumption|]. split; [assumption|].
  assert (Hin : in_hull (dt_data d) (v0 (along a b h)) (v1 (along a b h))) by (apply hull_convex; auto; lra).
  assert (Hc : 0 <= clr d a b h).
  { destruct (hull_in_a_cell _ _ _ Hb Hin) as (i & j & Hic & Hxi).
    pose proof (global_bounds_interp d i j _ _ Hic Hxi). unfold clr. lra. }
  pose proof (descending_not_missed d fuel a b h Hb ltac:(lra) HB Hin HIb Hc ltac:(lra) ltac:(lra)) as H1.
  pose proof (fuel2 d fuel a b h Hb ltac:(lra) (fuel_bound_ok d fuel HF)) as H2.
  destruct (intersection_index d fuel [a; b] (along a b h) h) as [q| | |] eqn:EI; try congruence; [|now left].
  right. destruct (found2 d fuel a b h q Hb ltac:(lra) Hin EI) as (u & Hu & -> & Hs).
  exists u. split; [|auto]. split; [assumption|]. apply (found_before_end d a b u); auto; lra.
Qed.

(** ** Lines of sight with more vertices *)
Lemma on_los_segment los h p : on_los los h p ->
  (0 <= Rfloor h)%Z /\
  ((Rfloor h = Z.of_nat (length los) - 1)%Z \/
   exists u w, nth_error los (Z.to_nat (Rfloor h)) = Some u /\ nth_error los (S (Z.to_nat (Rfloor h))) = Some w /\
     p = along u w (h - IZR (Rfloor h))).
Proof.
  intros (i & u & w & t & E1 & E2 & Ht & -> & ->).
  assert (Hl : (S i < length los)%nat) by (apply nth_error_Some; congruence).
  destruct (Req_dec t 1) as [->|Hn].
  - assert (E : Rfloor (INR i + 1) = Z.of_nat (S i)).
    { rewrite <- S_INR, INR_IZR_INZ. apply Rfloor_IZR. }
    rewrite E. split; [lia|]. rewrite Nat2Z.id.
    destruct (nth_error los (S (S i))) as [w2|] eqn:E3.
    + right. exists w, w2. split; [assumption|]. split; [reflexivity|].
      rewrite <- INR_IZR_INZ, S_INR. replace (INR i + 1 - (INR i + 1)) with 0 by lra.
      now rewrite along_at_0, along_at_1.
    + left. apply nth_error_None in E3. lia.
  - assert (E : Rfloor (INR i + t) = Z.of_nat i).
    { apply Rfloor_unique. rewrite INR_IZR_INZ. lra. }
    rewrite E. split; [lia|]. rewrite Nat2Z.id. right. exists u, w.
    repeat (split; [assumption|]). f_equal. rewrite <- INR_IZR_INZ. lra.
Qed.

Lemma intersection_n d fuel los p h : big_enough (dt_data d) -> oblique los -> no_hidden_vertex d los ->
  on_los los h p ->
  match intersection_index d fuel los p h with
  | Found q => exists k u w t, h <= INR k + t /\ nth_error los k = Some u /\ nth_error los (S k) = Some w /\
      0 <= t /\ q = along u w t /\ on_surface (dt_data d) tol_z q
  | NoFuel => (fuel < fuel_bound d)%nat
  | NotFound | Crash => True
  end.
Proof.
  intros Hb Hob Hdip Hon. destruct (on_los_segment los h p Hon) as (H0 & [H1|(u & w & E1 & E2 & ->)]).
  - unfold intersection_index. destruct Rltb; [exact I|]. cbn [vertex_loop].
    rewrite (proj2 (Z.ltb_ge _ _)) by lia. exact I.
  - unfold intersection_index. destruct (Rfloor_bounds h) as [F1 F2].
    set (t := h - IZR (Rfloor h)). assert (Ht : 0 <= t < 1) by (unfold t; lra).
    change (v2 (along u w t) - interpolate d (v0 (along u w t)) (v1 (along u w t))) with (clr d u w t).
    destruct (Rltb_spec (clr d u w t) 0) as [|Hc]; [exact I|]. apply Rnot_lt_le in Hc.
    pose proof (vertex_loop_spec d los fuel Hb Hob Hdip (S (length los)) (Rfloor h) u w t h H0 E1 E2 Ht (fun _ => Hc)) as HV.
    destruct (vertex_loop d los fuel (S (length los)) (Rfloor h) (along u w t) h) as [q| | |] eqn:EV; try exact I.
    + destruct HV as (k & u' & w' & t' & Q1 & Q2 & Q3 & Q4 & Q5 & Q6 & Q7).
      exists k, u', w', t'. split; [|auto 6].
      assert (EF : IZR (Rfloor h) = INR (Z.to_nat (Rfloor h))) by (rewrite INR_IZR_INZ; f_equal; lia).
      destruct (Nat.eq_dec k (Z.to_nat (Rfloor h))) as [Ek|Ek].
      * specialize (Q6 Ek). rewrite Ek, <- EF in *. unfold t in Q6. lra.
      * assert (S (Z.to_nat (Rfloor h)) <= k)%nat by lia.
        apply le_INR in H. rewrite S_INR, <- EF in H. lra.
    + destruct (le_lt_dec (fuel_bound d) fuel) as [HL|HL]; [|assumption]. exfalso.
      revert EV. apply (vertex_loop_fuel d los fuel Hb Hob Hdip (fuel_bound_ok d fuel HL)); auto; lia.
Qed.

(** ** From the specification to the lemmas *)
Lemma crosses_border_iff a b t : crosses_border a b t <-> crosses_mesh a b t.
Proof.
  unfold crosses_border, crosses_mesh, d0, d1.
  assert (E : forall x y, x <> y <-> y - x <> 0) by (intros; lra).
  now rewrite (E (v0 a)), (E (v1 a)).
Qed.
Lemma last_line_iff d a b : runs_along_last_line (dt_data d) a b <-> along_last_border d a b.
Proof.
  unfold runs_along_last_line, along_last_border, d0, d1, nb_rows, nb_columns.
  assert (E : forall x y, x = y <-> y - x = 0) by (intros; lra).
  rewrite (E (v0 a) (v0 b)), (E (v1 a) (v1 b)). reflexivity.
Qed.
Lemma nodes_below_iff d z : big_enough (dt_data d) -> all_nodes_below (dt_data d) z <-> alt_max d < z.
Proof.
  intros Hb. split.
  - intros H. destruct (alt_max_node d Hb) as (i & j & Hn & E). specialize (H i j Hn). lra.
  - intros H i j Hn. pose proof (alt_max_ge d i j Hn). lra.
Qed.
Lemma nodes_above_iff d z : big_enough (dt_data d) -> all_nodes_above (dt_data d) z <-> z < alt_min d.
Proof.
  intros Hb. split.
  - intros H. destruct (alt_min_node d Hb) as (i & j & Hn & E). specialize (H i j Hn). lra.
  - intros H i j Hn. pose proof (alt_min_le d i j Hn). lra.
Qed.
Lemma surface_between d x y : big_enough (dt_data d) -> in_hull (dt_data d) x y ->
  alt_min d <= interpolate d x y <= alt_max d.
Proof.
  intros Hb Hin. destruct (hull_in_a_cell _ _ _ Hb Hin) as (i & j & Hc & Hi).
  now apply (global_bounds_interp d i j).
Qed.

Lemma Rabs_le_between x y : Rabs x <= y -> - y <= x <= y.
Proof. unfold Rabs. destruct (Rcase_abs x); lra. Qed.

(** The found point is not beyond the end of a line of sight that ends away from the DTM. *)
Lemma found_not_beyond d fuel a b h q : big_enough (dt_data d) -> 0 <= h < 1 ->
  in_hull (dt_data d) (v0 (along a b h)) (v1 (along a b h)) ->
  alt_min d <= v2 (along a b h) <= alt_max d ->
  ~ in_hull (dt_data d) (v0 b) (v1 b) \/ v2 b < alt_min d - tol_z \/ alt_max d + tol_z < v2 b ->
  intersection_index d fuel [a; b] (along a b h) h = Found q ->
  exists u, h <= u <= 1 /\ q = along a b u /\ on_surface (dt_data d) tol_z q.
Proof.
  intros Hb Hh Hin Hz Hend H. destruct (found2 d fuel a b h q Hb Hh Hin H) as (u & Hu & -> & Hs).
  exists u. split; [|auto]. split; [assumption|].
  destruct (Rle_lt_dec u 1) as [|Hu1]; [assumption|]. exfalso.
  destruct Hs as (e & He & Ht). apply clearance_iff in He; [|assumption]. destruct He as [Hinu ->].
  pose proof (surface_between d _ _ Hb Hinu) as HS. pose proof tol_pos as Htol.
  assert (Hdz : (v2 (along a b u) - v2 b) * (1 - h) = (v2 b - v2 (along a b h)) * (u - 1)).
  { cbn [along v2]. ring. }
  set (zu := v2 (along a b u)) in *. set (s := interpolate d _ _) in *. apply Rabs_le_between in Ht.
  destruct Hend as [Hout|[Hlow|Hhigh]].
  - apply Hout. destruct Hin as [[A1 A2] [A3 A4]]. destruct Hinu as [[B1 B2] [B3 B4]].
    cbn [along v0 v1] in *. unfold in_hull. repeat split.
    all: match goal with |- ?l <= ?r => apply Rmult_le_reg_l with (u - h); [lra|] end; nra.
  - assert ((zu - v2 b) * (1 - h) <= 0) by (rewrite Hdz; nra). nra.
  - assert (0 <= (zu - v2 b) * (1 - h)) by (rewrite Hdz; nra). nra.
Qed.

(** The line of sight in ground coordinates. *)
Lemma ter_to_index_along t a b u :
  ter_to_index t (along a b u) = along (ter_to_index t a) (ter_to_index t b) u.
Proof.
  destruct a as [a0 a1 a2], b as [b0 b1 b2].
  unfold ter_to_index, transform_physical_point_to_index, affine_apply, along. cbn [v0 v1 v2]. f_equal; ring.
Qed.

(** ** Computing the entry in the cube *)
Lemma crossing_first d a b i : (i < 6)%nat -> slack d i a = 0 ->
  In (Cr (v0 a) (v1 a) (v2 a) (-1)) (all_crossings d [a; b]).
Proof.
  intros Hi Hs. unfold all_crossings. apply in_flat_map. exists i. split; [apply in_seq; lia|].
  assert (E : eq_plan d i a = 0).
  { destruct (slack_eq_plan d i a Hi) as [E|E]; rewrite E, Hs; ring. }
  cbn [plane_scan]. rewrite E, Rmult_0_l, (proj2 (Rleb_true 0 0)) by lra.
  unfold plane_crossing. rewrite (proj2 (Reqb_true 0 0)) by reflexivity. left. f_equal. lra.
Qed.

Lemma cube_from_face d a b i j t : big_enough (dt_data d) -> (i < 6)%nat -> (j < 6)%nat ->
  in_cube (dt_data d) a -> slack d i a = 0 -> slack d j a <> 0 -> slack d j (along a b t) = 0 ->
  0 < t <= 1 -> in_cube (dt_data d) (along a b t) ->
  intersect_dtm_cube_index d [a; b] = Some (a, -1).
Proof.
  intros Hb Hi Hj Ha H1 H2 H3 Ht Hin.
  pose proof (crossing_first d a b i Hi H1) as HC.
  assert (Pa : cr_point (Cr (v0 a) (v1 a) (v2 a) (-1)) = a) by now destruct a.
  destruct (crossing_exists d a b j t Hj Ht H2 H3) as (c & Hc & Pc & Hh).
  destruct (intersect_dtm_cube_index d [a; b]) as [[p h]|] eqn:E.
  - destruct (cube_some d _ p h Hb E) as (c' & Hc' & -> & -> & Hin' & Hmin).
    specialize (Hmin _ HC). rewrite Pa in Hmin. specialize (Hmin Ha). cbn [cr_h] in Hmin.
    destruct (crossing_on_los d _ c' Hc') as (k & _ & _ & [Ho|[E1 E2]]).
    + apply on_los2 in Ho. lra.
    + injection E2 as <-. rewrite E1. f_equal.
  - exfalso. assert (EE : Cr (v0 a) (v1 a) (v2 a) (-1) = c).
    { apply (cube_none d _ Hb E); try assumption; now rewrite Pc. }
    rewrite <- EE in Hh. cbn [cr_h] in Hh. lra.
Qed.

Lemma cube_entry d a b t : big_enough (dt_data d) -> ~ in_cube (dt_data d) a ->
  intersect_dtm_cube_index d [a; b] <> None -> 0 <= t -> in_cube (dt_data d) (along a b t) ->
  (forall s, 0 <= s < t -> ~ in_cube (dt_data d) (along a b s)) ->
  intersect_dtm_cube_index d [a; b] = Some (along a b t, t).
Proof.
  intros Hb Ha HN Ht Hin Hf.
  destruct (intersect_dtm_cube_index d [a; b]) as [[p h]|] eqn:E; [|congruence].
  destruct (cube_first d a b p h Hb Ha E) as (Hh & -> & Hinp & _ & Hfp).
  assert (h = t); [|now subst].
  destruct (Rtotal_order h t) as [L|[L|L]]; [|assumption|]; exfalso.
  - apply (Hf h); [lra|assumption].
  - apply (Hfp t); [lra|assumption].
Qed.

(** ** The two implementations on the cube *)
Lemma cpp_plane_scan_some d i rest : forall a layer, eq_plan d i a <> 0 ->
  cpp_plane_scan (cpp_of d) i a rest layer = Some (plane_scan d i a rest layer).
Proof.
  induction rest as [|b rest IH]; intros a layer Ha; cbn [cpp_plane_scan plane_scan]; [reflexivity|].
  rewrite !cpp_eq_plan_eq. destruct (Rleb_spec (eq_plan d i a * eq_plan d i b) 0) as [H|H].
  - rewrite (proj2 (Reqb_false (eq_plan d i a) 0)) by assumption. reflexivity.
  - apply IH. intros E. rewrite E in H. apply H. lra.
Qed.
Lemma cpp_cube_some d a los : (forall i, (i < 6)%nat -> eq_plan d i a <> 0) ->
  cpp_intersect_dtm_cube_index (cpp_of d) (a :: los) = Some (intersect_dtm_cube_index d (a :: los)).
Proof.
  intros H.
  assert (HS : forall planes, (forall i, In i planes -> (i < 6)%nat) ->
    exists l, cpp_scan_planes (cpp_of d) (a :: los) a planes = Some l).
  { induction planes as [|i planes IH]; intros HP; [now exists []|]. cbn [cpp_scan_planes].
    rewrite cpp_plane_scan_some by (apply H, HP; now left).
    destruct IH as [l ->]; [intros; apply HP; now right|]. eauto. }
  destruct (HS (seq 0 6)) as [l Hl]; [intros i Hi; apply in_seq in Hi; lia|].
  destruct (cpp_intersect_dtm_cube_index (cpp_of d) (a :: los)) as [r|] eqn:E.
  - now rewrite (cpp_cube_eq _ _ _ E).
  - exfalso. unfold cpp_intersect_dtm_cube_index in E. rewrite Hl in E. discriminate.
Qed.
