(** Lemmas on [intersection]. *)
From Coq Require Import Reals ZArith List Bool Lra Lia Psatz.
From Verif Require Import Num NumLemmas InterpModel InterpSpec InterpProofs ProjModel DtmModel DtmSpec
  DtmCube DtmWalk.
Import ListNotations.
Open Scope R_scope.

Lemma clearance_iff d p e : big_enough (dt_data d) ->
  clearance (dt_data d) p e <->
  in_hull (dt_data d) (v0 p) (v1 p) /\ e = v2 p - interpolate d (v0 p) (v1 p).
Proof.
  intros Hb. split.
  - intros (i & j & Hc & Hin & ->). split.
    + destruct Hc as [H0 H1], Hin as [X0 X1]. unfold in_hull.
      assert (0 <= IZR i) by (apply IZR_le; lia). assert (0 <= IZR j) by (apply IZR_le; lia).
      assert (IZR i + 1 <= IZR (rs_rows (dt_data d) - 1)) by (rewrite <- plus_IZR; apply IZR_le; lia).
      assert (IZR j + 1 <= IZR (rs_cols (dt_data d) - 1)) by (rewrite <- plus_IZR; apply IZR_le; lia).
      lra.
    + unfold interpolate. now rewrite (interp_in_cell _ i j).
  - intros [Hh ->]. destruct (hull_in_a_cell _ _ _ Hb Hh) as (i & j & Hc & Hin).
    exists i, j. repeat (split; [assumption|]). unfold interpolate. now rewrite (interp_in_cell _ i j).
Qed.

Lemma stretch_hull d a b s e i j u : big_enough (dt_data d) -> stretch d a b s e i j -> s <= u <= e ->
  clearance (dt_data d) (along a b u) (clr d a b u).
Proof.
  intros Hb (Hse & Hc & Hs & He) Hu.
  pose proof (along_between a b s e u i j Hu Hs He) as Hin.
  exists i, j. split; [assumption|]. split; [assumption|].
  unfold clr, interpolate. now rewrite (interp_in_cell _ i j).
Qed.

Lemma on_surface_intro d a b s e i j u : big_enough (dt_data d) -> stretch d a b s e i j -> s <= u <= e ->
  Rabs (clr d a b u) <= tol_z -> on_surface (dt_data d) tol_z (along a b u).
Proof. intros. exists (clr d a b u). split; [|assumption]. eapply stretch_hull; eauto. Qed.

(** ** A line of sight with two vertices, not vertical *)
Definition start_walk (a b p : vec3) (h : R) : walk :=
  W h (first_cell (v0 p) (d0 a b)) (first_cell (v1 p) (d1 a b)) p.

Lemma start_winv a b h : winv a b (start_walk a b (along a b h) h) h.
Proof.
  split; [reflexivity|]. unfold start_walk. cbn [w_c w_r]. split; apply first_cell_heading.
Qed.

Lemma intersection2_eq d fuel a b h : 0 <= h < 1 -> d0 a b <> 0 \/ d1 a b <> 0 ->
  intersection_index d fuel [a; b] (along a b h) h =
  if Rltb (clr d a b h) 0 then NotFound
  else if cell_guard d (start_walk a b (along a b h) h)
  then match cell_loop d (segment_of a b) fuel fuel (start_walk a b (along a b h) h) with
       | CDone o => o
       | CEnd _ => NotFound
       end
  else NotFound.
Proof.
  intros Hh Hd. unfold intersection_index.
  change (v2 (along a b h) - interpolate d (v0 (along a b h)) (v1 (along a b h))) with (clr d a b h).
  destruct (Rltb (clr d a b h) 0); [reflexivity|].
  assert (E : Rfloor h = 0%Z) by (apply Rfloor_unique; lra).
  rewrite E. cbn [vertex_loop length]. change (0 <? Z.of_nat 2 - 1)%Z with true. cbv iota.
  change (py_get [a; b] 0) with (Some a). change (py_get [a; b] (0 + 1)) with (Some b). cbv iota zeta.
  cbn [segment_of s_d0 s_d1]. fold (d0 a b) (d1 a b).
  assert (ED : Reqb (d0 a b) 0 && Reqb (d1 a b) 0 = false).
  { apply andb_false_iff. rewrite !Reqb_false. tauto. }
  rewrite ED. rewrite Rminus_0_r. rewrite (proj2 (Rleb_false 1 h)) by lra.
  fold (start_walk a b (along a b h) h).
  destruct (cell_guard d (start_walk a b (along a b h) h)); [|reflexivity].
  destruct (cell_loop d (segment_of a b) fuel fuel (start_walk a b (along a b h) h)) as [o|a2]; [reflexivity|].
  destruct (Rleb 1 a2); [|reflexivity]. reflexivity.
Qed.

(** A vertical line of sight. *)
Lemma intersection2_vertical d fuel a b h : 0 <= h < 1 -> d0 a b = 0 -> d1 a b = 0 ->
  intersection_index d fuel [a; b] (along a b h) h =
  if Rltb (clr d a b h) 0 then NotFound
  else if Rleb (v2 b) (interpolate d (v0 a) (v1 a)) then Found (V3 (v0 a) (v1 a) (interpolate d (v0 a) (v1 a)))
  else NotFound.
Proof.
  intros Hh H0 H1. unfold intersection_index.
  change (v2 (along a b h) - interpolate d (v0 (along a b h)) (v1 (along a b h))) with (clr d a b h).
  destruct (Rltb (clr d a b h) 0); [reflexivity|].
  assert (E : Rfloor h = 0%Z) by (apply Rfloor_unique; lra).
  rewrite E. cbn [vertex_loop length]. change (0 <? Z.of_nat 2 - 1)%Z with true. cbv iota.
  change (py_get [a; b] 0) with (Some a). change (py_get [a; b] (0 + 1)) with (Some b). cbv iota zeta.
  cbn [segment_of s_d0 s_d1 s_col0 s_row0 s_z1]. fold (d0 a b) (d1 a b).
  rewrite (proj2 (Reqb_true _ _) H0), (proj2 (Reqb_true _ _) H1). cbn [andb].
  destruct (Rleb (v2 b) (interpolate d (v0 a) (v1 a))); [reflexivity|].
  cbn [vertex_loop length]. reflexivity.
Qed.

(** ** More vertices *)
Definition oblique (los : list vec3) : Prop :=
  forall k u w, nth_error los k = Some u -> nth_error los (S k) = Some w -> d0 u w <> 0 \/ d1 u w <> 0.

(** No inner vertex is hidden below the surface between two points of its segment's line that are
    above the surface and in the same cell. *)
Definition no_hidden_vertex (d : dtm) (los : list vec3) : Prop :=
  forall k u w s e i j, (S (S k) < length los)%nat ->
    nth_error los k = Some u -> nth_error los (S k) = Some w ->
    0 <= s -> s < 1 -> 1 <= e -> stretch d u w s e i j ->
    0 <= clr d u w s -> 0 < clr d u w e -> 0 <= clr d u w 1.

Lemma py_get_nat l i : (0 <= i)%Z -> py_get l i = nth_error l (Z.to_nat i).
Proof. intros. unfold py_get. rewrite (proj2 (Z.ltb_ge i 0)) by lia. reflexivity. Qed.

Lemma along_at_0 a b : along a b 0 = a.
Proof. destruct a as [x y z]. unfold along. cbn [v0 v1 v2]. f_equal; ring. Qed.
Lemma along_at_1 a b : along a b 1 = b.
Proof. destruct b as [x y z]. unfold along. cbn [v0 v1 v2]. f_equal; ring. Qed.

Definition vertex_post (d : dtm) (los : list vec3) (i : Z) (t : R) (o : outcome) : Prop :=
  match o with
  | Found q => exists k u w t', (Z.to_nat i <= k)%nat /\ nth_error los k = Some u /\
      nth_error los (S k) = Some w /\ q = along u w t' /\ 0 <= t' /\
      (k = Z.to_nat i -> t <= t') /\ on_surface (dt_data d) tol_z q
  | Crash => exists k u w s e ci cj, nth_error los k = Some u /\ nth_error los (S k) = Some w /\
      stretch d u w s e ci cj /\ clr d u w s = 0 /\ clr d u w e = 0
  | NotFound | NoFuel => True
  end.

Lemma vertex_loop_spec d los fuel : big_enough (dt_data d) -> oblique los -> no_hidden_vertex d los ->
  forall steps i u w t h2, (0 <= i)%Z ->
  nth_error los (Z.to_nat i) = Some u -> nth_error los (S (Z.to_nat i)) = Some w ->
  0 <= t < 1 ->
  (in_hull (dt_data d) (v0 (along u w t)) (v1 (along u w t)) -> 0 <= clr d u w t) ->
  vertex_post d los i t (vertex_loop d los fuel steps i (along u w t) h2).
Proof.
  intros Hb Hob Hdip steps. induction steps as [|steps IH]; intros i u w t h2 Hi Hu Hw Ht Hf.
  { cbn [vertex_loop]. destruct (i <? _)%Z; exact I. }
  assert (Hlen : (S (Z.to_nat i) < length los)%nat) by (apply nth_error_Some; congruence).
  cbn [vertex_loop]. rewrite (proj2 (Z.ltb_lt i _)) by lia.
  rewrite !py_get_nat by lia. replace (Z.to_nat (i + 1)) with (S (Z.to_nat i)) by lia.
  rewrite Hu, Hw. cbv zeta. cbn [segment_of s_d0 s_d1]. fold (d0 u w) (d1 u w).
  pose proof (Hob _ _ _ Hu Hw) as Hd.
  assert (ED : Reqb (d0 u w) 0 && Reqb (d1 u w) 0 = false)
    by (apply andb_false_iff; rewrite !Reqb_false; tauto).
  rewrite ED.
  set (a2 := if Rleb 1 (h2 - IZR i) then 0 else h2 - IZR i).
  set (w0 := W a2 (first_cell (v0 (along u w t)) (d0 u w)) (first_cell (v1 (along u w t)) (d1 u w)) (along u w t)).
  destruct (cell_guard d w0) eqn:EG; [|exact I].
  assert (HW : winv u w w0 t) by (split; [reflexivity|]; split; apply first_cell_heading).
  assert (Hcl : 0 <= clr d u w t).
  { apply Hf. apply guard_iff in EG. destruct EG as [_ HC].
    destruct HW as (_ & X0 & X1). apply heading_cell in X0. apply heading_cell in X1.
    apply (clearance_iff d (along u w t) (clr d u w t) Hb). exists (w_c w0), (w_r w0).
    split; [assumption|]. split; [split; assumption|].
    unfold clr, interpolate. rewrite (interp_in_cell _ (w_c w0) (w_r w0)); [reflexivity|assumption|].
    split; assumption. }
  pose proof (cell_loop_spec d u w fuel Hd fuel w0 t HW (conj (proj1 Ht) (Rlt_le _ _ (proj2 Ht))) Hcl) as HP.
  destruct (cell_loop d (segment_of u w) fuel fuel w0) as [[q| | |]|e]; cbn [cell_loop_post] in HP.
  - destruct HP as (v & s & e & ci & cj & E1 & E2 & E3 & E4 & E5 & E6 & _).
    exists (Z.to_nat i), u, w, v. repeat (split; [assumption || lia || lra|]).
    rewrite E1. eapply on_surface_intro; eauto.
  - exact I.
  - destruct HP as (e & ci & cj & E1 & E2 & E3 & _).
    exists (Z.to_nat i), u, w, t, e, ci, cj. tauto.
  - exact I.
  - destruct (Rleb_spec 1 e) as [He|He]; [|exact I].
    destruct HP as [[HH _]|(Hte & _ & (s & ci & cj & S1 & S2 & S3 & S4 & _ & S5) & _)]; [congruence|].
    destruct (nth_error los (S (S (Z.to_nat i)))) as [w2|] eqn:Hw2.
    + assert (Hlen2 : (S (S (Z.to_nat i)) < length los)%nat) by (apply nth_error_Some; congruence).
      rewrite <- (along_at_0 w w2).
      assert (HN : vertex_post d los (i + 1) 0
               (vertex_loop d los fuel steps (i + 1) (along w w2 0)
                  (IZR (Z.of_nat (length los)) - IZR (i + 1)))).
      { apply IH; try (replace (Z.to_nat (i + 1)) with (S (Z.to_nat i)) by lia; assumption); try lia; try lra.
        intros _. unfold clr. rewrite along_at_0. rewrite <- (along_at_1 u w). change (0 <= clr d u w 1).
        destruct (S5 He) as [?|Hce]; [lra|].
        eapply (Hdip (Z.to_nat i) u w s e ci cj); eauto; lra. }
      destruct (vertex_loop d los fuel steps (i + 1) _ _) as [q| | |]; cbn [vertex_post] in *; try exact I.
      * destruct HN as (k & u' & w' & t' & Q1 & Q2 & Q3 & Q4 & Q5 & Q6 & Q7).
        exists k, u', w', t'. repeat (split; [assumption || lia|]). assumption.
      * exact HN.
    + apply nth_error_None in Hw2.
      destruct steps; cbn [vertex_loop]; rewrite (proj2 (Z.ltb_ge (i + 1) _)) by lia; exact I.
Qed.

(** Termination of the three nested loops. *)
Lemma vertex_loop_fuel d los fuel : big_enough (dt_data d) -> oblique los -> no_hidden_vertex d los ->
  enough_fuel d fuel ->
  forall steps i u w t h2, (0 <= i)%Z ->
  nth_error los (Z.to_nat i) = Some u -> nth_error los (S (Z.to_nat i)) = Some w ->
  0 <= t < 1 ->
  (in_hull (dt_data d) (v0 (along u w t)) (v1 (along u w t)) -> 0 <= clr d u w t) ->
  (length los <= steps + Z.to_nat i)%nat ->
  vertex_loop d los fuel steps i (along u w t) h2 <> NoFuel.
Proof.
  intros Hb Hob Hdip HF steps. induction steps as [|steps IH]; intros i u w t h2 Hi Hu Hw Ht Hf Hst.
  { assert (Hlen : (S (Z.to_nat i) < length los)%nat) by (apply nth_error_Some; congruence). lia. }
  assert (Hlen : (S (Z.to_nat i) < length los)%nat) by (apply nth_error_Some; congruence).
  cbn [vertex_loop]. rewrite (proj2 (Z.ltb_lt i _)) by lia.
  rewrite !py_get_nat by lia. replace (Z.to_nat (i + 1)) with (S (Z.to_nat i)) by lia.
  rewrite Hu, Hw. cbv zeta. cbn [segment_of s_d0 s_d1]. fold (d0 u w) (d1 u w).
  pose proof (Hob _ _ _ Hu Hw) as Hd.
  assert (ED : Reqb (d0 u w) 0 && Reqb (d1 u w) 0 = false)
    by (apply andb_false_iff; rewrite !Reqb_false; tauto).
  rewrite ED.
  set (a2 := if Rleb 1 (h2 - IZR i) then 0 else h2 - IZR i).
  set (w0 := W a2 (first_cell (v0 (along u w t)) (d0 u w)) (first_cell (v1 (along u w t)) (d1 u w)) (along u w t)).
  destruct (cell_guard d w0) eqn:EG; [|discriminate].
  assert (HW : winv u w w0 t) by (split; [reflexivity|]; split; apply first_cell_heading).
  assert (Hic : is_cell (dt_data d) (w_c w0) (w_r w0)) by (apply guard_iff in EG; apply EG).
  assert (Hcl : 0 <= clr d u w t).
  { apply Hf. destruct HW as (_ & X0 & X1). apply heading_cell in X0. apply heading_cell in X1.
    apply (clearance_iff d (along u w t) (clr d u w t) Hb). exists (w_c w0), (w_r w0).
    split; [assumption|]. split; [split; assumption|].
    unfold clr, interpolate. rewrite (interp_in_cell _ (w_c w0) (w_r w0)); [reflexivity|assumption|].
    split; assumption. }
  assert (HNF : cell_loop d (segment_of u w) fuel fuel w0 <> CDone NoFuel).
  { apply (cell_loop_fuel d u w fuel Hd (proj2 HF) fuel w0 t HW (proj1 Ht) Hcl).
    pose proof (ahead_pos d w0 u w Hd Hic). destruct HF as [HF _]. lia. }
  pose proof (cell_loop_spec d u w fuel Hd fuel w0 t HW (conj (proj1 Ht) (Rlt_le _ _ (proj2 Ht))) Hcl) as HP.
  destruct (cell_loop d (segment_of u w) fuel fuel w0) as [o|e]; [congruence|].
  cbn [cell_loop_post] in HP.
  destruct (Rleb_spec 1 e) as [He|He]; [|discriminate].
  destruct HP as [[HH _]|(Hte & _ & (s & ci & cj & S1 & S2 & S3 & S4 & _ & S5) & _)]; [congruence|].
  destruct (nth_error los (S (S (Z.to_nat i)))) as [w2|] eqn:Hw2.
  - assert (Hlen2 : (S (S (Z.to_nat i)) < length los)%nat) by (apply nth_error_Some; congruence).
    rewrite <- (along_at_0 w w2).
    apply IH; try (replace (Z.to_nat (i + 1)) with (S (Z.to_nat i)) by lia; assumption); try lia; try lra.
    intros _. unfold clr. rewrite along_at_0. rewrite <- (along_at_1 u w). change (0 <= clr d u w 1).
    destruct (S5 He) as [?|Hce]; [lra|].
    eapply (Hdip (Z.to_nat i) u w s e ci cj); eauto; lra.
  - apply nth_error_None in Hw2.
    destruct steps; cbn [vertex_loop]; rewrite (proj2 (Z.ltb_ge (i + 1) _)) by lia; discriminate.
Qed.

(** Fuel monotonicity. *)
Lemma cell_loop_mono d s f f' : (f <= f')%nat -> forall n n' w, (n <= n')%nat ->
  cell_loop d s f n w <> CDone NoFuel -> cell_loop d s f' n' w = cell_loop d s f n w.
Proof.
  intros Hf n. induction n as [|n IH]; intros n' w Hn H.
  - destruct n'; cbn [cell_loop] in *; destruct (cell_guard d w); congruence.
  - destruct n' as [|n']; [lia|]. cbn [cell_loop] in *.
    destruct (cell_guard d w); [|reflexivity].
    destruct may_intersect; [|apply IH; (lia || assumption)].
    destruct Rleb; [|apply IH; (lia || assumption)].
    rewrite (refine_mono _ f f'); [reflexivity|assumption|].
    intros E. rewrite E in H. now apply H.
Qed.
Lemma vertex_loop_mono d los f f' : (f <= f')%nat -> forall steps i p h,
  vertex_loop d los f steps i p h <> NoFuel ->
  vertex_loop d los f' steps i p h = vertex_loop d los f steps i p h.
Proof.
  intros Hf steps. induction steps as [|steps IH]; intros i p h H.
  - cbn [vertex_loop] in *. destruct (i <? _)%Z; congruence.
  - cbn [vertex_loop] in *. destruct (i <? _)%Z; [|reflexivity].
    destruct (py_get los i) as [a|]; [|reflexivity]. destruct (py_get los (i + 1)) as [b|]; [|reflexivity].
    cbv zeta in *. destruct (Reqb _ 0 && Reqb _ 0).
    + destruct Rleb; [reflexivity|]. now apply IH.
    + set (w0 := W _ _ _ p) in *. destruct (cell_guard d w0); [|reflexivity].
      rewrite (cell_loop_mono d _ f f' Hf f f').
      * destruct (cell_loop d _ f f w0) as [o|e]; [reflexivity|].
        destruct (Rleb 1 e); [|reflexivity]. now apply IH.
      * assumption.
      * intros E. rewrite E in H. now apply H.
Qed.
Lemma intersection_mono d los f f' p h : (f <= f')%nat ->
  intersection_index d f los p h <> NoFuel ->
  intersection_index d f' los p h = intersection_index d f los p h.
Proof.
  intros Hf. unfold intersection_index. destruct Rltb; [reflexivity|]. now apply vertex_loop_mono.
Qed.

(** Fuel exists. *)
Lemma twist_bound d : exists M, forall i j, is_cell (dt_data d) i j -> Rabs (twist (dt_data d) i j) <= M.
Proof.
  exists (2 * (alt_max d - alt_min d)). intros i j Hc. unfold twist.
  assert (H : forall a b, (a = i \/ a = i + 1)%Z -> (b = j \/ b = j + 1)%Z ->
     alt_min d <= rs_at (dt_data d) a b <= alt_max d).
  { intros a b Ha Hb. pose proof (cell_nodes _ _ _ _ _ Hc Ha Hb).
    split; [now apply alt_min_le|now apply alt_max_ge]. }
  pose proof (H i j ltac:(now left) ltac:(now left)). pose proof (H i (j + 1)%Z ltac:(now left) ltac:(now right)).
  pose proof (H (i + 1)%Z j ltac:(now right) ltac:(now left)).
  pose proof (H (i + 1)%Z (j + 1)%Z ltac:(now right) ltac:(now right)).
  apply Rabs_le. lra.
Qed.

(** The specification's conditions. *)
Lemma not_below_iff d a b u : big_enough (dt_data d) -> in_hull (dt_data d) (v0 (along a b u)) (v1 (along a b u)) ->
  not_below (dt_data d) (along a b u) <-> 0 <= clr d a b u.
Proof.
  intros Hb Hin. split.
  - intros (e & He & H). apply clearance_iff in He; [|assumption]. destruct He as [_ ->]. exact H.
  - intros H. exists (clr d a b u). split; [|assumption]. now apply clearance_iff.
Qed.
Lemma above_iff d a b u : big_enough (dt_data d) -> in_hull (dt_data d) (v0 (along a b u)) (v1 (along a b u)) ->
  above (dt_data d) (along a b u) <-> 0 < clr d a b u.
Proof.
  intros Hb Hin. split.
  - intros (e & He & H). apply clearance_iff in He; [|assumption]. destruct He as [_ ->]. exact H.
  - intros H. exists (clr d a b u). split; [|assumption]. now apply clearance_iff.
Qed.
Lemma cell_hull m i j x y : is_cell m i j -> in_cell i j x y -> in_hull m x y.
Proof.
  intros [H0 H1] [X0 X1]. unfold in_hull.
  assert (0 <= IZR i) by (apply IZR_le; lia). assert (0 <= IZR j) by (apply IZR_le; lia).
  assert (IZR i + 1 <= IZR (rs_rows m - 1)) by (rewrite <- plus_IZR; apply IZR_le; lia).
  assert (IZR j + 1 <= IZR (rs_cols m - 1)) by (rewrite <- plus_IZR; apply IZR_le; lia).
  lra.
Qed.
Lemma hidden_iff d los : big_enough (dt_data d) ->
  no_vertex_hidden_in_a_cell (dt_data d) los -> no_hidden_vertex d los.
Proof.
  intros Hb H k u w s e i j Hl E1 E2 Hs Hs1 He (_ & Hc & Hcs & Hce) Fs Fe.
  assert (Hs' := cell_hull _ _ _ _ _ Hc Hcs). assert (He' := cell_hull _ _ _ _ _ Hc Hce).
  assert (H1 : in_hull (dt_data d) (v0 (along u w 1)) (v1 (along u w 1))).
  { apply (cell_hull _ i j); [assumption|]. apply (along_between u w s e); auto. lra. }
  apply (not_below_iff d u w 1 Hb H1). rewrite along_at_1.
  apply (H k u w s e i j); auto; [now apply not_below_iff|now apply above_iff].
Qed.
