(** Lemmas on the DTM bounds and on [intersect_dtm_cube]. *)
From Coq Require Import Reals ZArith List Bool Lra Lia Psatz Permutation Sorting.Sorted.
From Verif Require Import Num NumLemmas InterpModel InterpSpec InterpProofs ProjModel DtmModel DtmSpec.
Import ListNotations.
Open Scope R_scope.

(** ** Minima and maxima *)
Lemma fold_min_le l a : fold_left Rmin l a <= a /\ forall x, In x l -> fold_left Rmin l a <= x.
Proof.
  revert a. induction l as [|y l IH]; intros a; simpl.
  - split; [lra|intros ? []].
  - destruct (IH (Rmin a y)) as [H1 H2]. pose proof (Rmin_l a y). pose proof (Rmin_r a y).
    split; [lra|]. intros x [->|Hx]; [lra|auto].
Qed.
Lemma fold_min_in l a : fold_left Rmin l a = a \/ In (fold_left Rmin l a) l.
Proof.
  revert a. induction l as [|y l IH]; intros a; simpl; [auto|].
  destruct (IH (Rmin a y)) as [H|H]; [|auto].
  rewrite H. unfold Rmin. destruct (Rle_dec a y); auto.
Qed.
Lemma fold_max_ge l a : a <= fold_left Rmax l a /\ forall x, In x l -> x <= fold_left Rmax l a.
Proof.
  revert a. induction l as [|y l IH]; intros a; simpl.
  - split; [lra|intros ? []].
  - destruct (IH (Rmax a y)) as [H1 H2]. pose proof (Rmax_l a y). pose proof (Rmax_r a y).
    split; [lra|]. intros x [->|Hx]; [lra|auto].
Qed.
Lemma fold_max_in l a : fold_left Rmax l a = a \/ In (fold_left Rmax l a) l.
Proof.
  revert a. induction l as [|y l IH]; intros a; simpl; [auto|].
  destruct (IH (Rmax a y)) as [H|H]; [|auto].
  rewrite H. unfold Rmax. destruct (Rle_dec a y); auto.
Qed.

Lemma flatten_in m x :
  In x (flatten_raster m) <-> exists i j, is_node m i j /\ x = rs_at m i j.
Proof.
  unfold flatten_raster. rewrite in_flat_map. split.
  - intros (r & Hr & Hx). apply in_map_iff in Hx. destruct Hx as (c & <- & Hc).
    apply in_seq in Hr. apply in_seq in Hc.
    exists (Z.of_nat r), (Z.of_nat c). split; [split; lia|reflexivity].
  - intros (i & j & [Hi Hj] & ->). exists (Z.to_nat i). split; [apply in_seq; lia|].
    apply in_map_iff. exists (Z.to_nat j). split; [|apply in_seq; lia].
    now rewrite !Z2Nat.id by lia.
Qed.

Lemma alt_min_le d i j : is_node (dt_data d) i j -> alt_min d <= rs_at (dt_data d) i j.
Proof.
  intros H. assert (Hi : In (rs_at (dt_data d) i j) (flatten_raster (dt_data d)))
    by (apply flatten_in; eauto).
  unfold alt_min, list_min. destruct (flatten_raster (dt_data d)) as [|x l]; [destruct Hi|].
  destruct (fold_min_le l x). destruct Hi as [<-|Hi]; auto.
Qed.
Lemma alt_max_ge d i j : is_node (dt_data d) i j -> rs_at (dt_data d) i j <= alt_max d.
Proof.
  intros H. assert (Hi : In (rs_at (dt_data d) i j) (flatten_raster (dt_data d)))
    by (apply flatten_in; eauto).
  unfold alt_max, list_max. destruct (flatten_raster (dt_data d)) as [|x l]; [destruct Hi|].
  destruct (fold_max_ge l x). destruct Hi as [<-|Hi]; auto.
Qed.
Lemma flatten_nonempty m : big_enough m -> flatten_raster m <> [].
Proof.
  intros [H1 H2] E. assert (In (rs_at m 0 0) (flatten_raster m)).
  { apply flatten_in. exists 0%Z, 0%Z. split; [split; lia|reflexivity]. }
  rewrite E in H. destruct H.
Qed.
Lemma alt_min_node d : big_enough (dt_data d) ->
  exists i j, is_node (dt_data d) i j /\ rs_at (dt_data d) i j = alt_min d.
Proof.
  intros H. pose proof (flatten_nonempty _ H) as Hn.
  assert (HI : In (alt_min d) (flatten_raster (dt_data d))).
  { unfold alt_min, list_min. destruct (flatten_raster (dt_data d)) as [|x l]; [congruence|].
    destruct (fold_min_in l x) as [E|E]; [rewrite E; now left|now right]. }
  apply flatten_in in HI. destruct HI as (i & j & ? & ?). eauto.
Qed.
Lemma alt_max_node d : big_enough (dt_data d) ->
  exists i j, is_node (dt_data d) i j /\ rs_at (dt_data d) i j = alt_max d.
Proof.
  intros H. pose proof (flatten_nonempty _ H) as Hn.
  assert (HI : In (alt_max d) (flatten_raster (dt_data d))).
  { unfold alt_max, list_max. destruct (flatten_raster (dt_data d)) as [|x l]; [congruence|].
    destruct (fold_max_in l x) as [E|E]; [rewrite E; now left|now right]. }
  apply flatten_in in HI. destruct HI as (i & j & ? & ?). eauto.
Qed.

Lemma cell_bounds_samples d i j :
  cell_samples_within (dt_data d) i j (alt_min_cell d i j) (alt_max_cell d i j).
Proof.
  intros a b Ha Hb. unfold alt_min_cell, alt_max_cell. cbv zeta.
  set (t := rs_at (dt_data d)).
  match goal with |- IZR (Rfloor ?m) <= _ <= IZR (Rceil ?M) =>
    pose proof (Rfloor_bounds m) as Hm; pose proof (Rceil_bounds M) as HM;
    assert (m <= t a b <= M) end.
  { clear Hm HM.
    destruct Ha as [->| ->], Hb as [->| ->];
    split; unfold Rmin, Rmax; repeat destruct Rle_dec; lra. }
  lra.
Qed.

Lemma cell_bounds_interp d i j r c : is_cell (dt_data d) i j -> in_cell i j r c ->
  alt_min_cell d i j <= interpolate d r c <= alt_max_cell d i j.
Proof.
  intros H1 H2. unfold interpolate. rewrite (interp_in_cell _ i j) by assumption.
  apply bilinear_bounds; [assumption|apply cell_bounds_samples].
Qed.

Lemma global_bounds_interp d i j r c : is_cell (dt_data d) i j -> in_cell i j r c ->
  alt_min d <= interpolate d r c <= alt_max d.
Proof.
  intros H1 H2. unfold interpolate. rewrite (interp_in_cell _ i j) by assumption.
  apply bilinear_bounds; [assumption|]. intros a b Ha Hb.
  pose proof (cell_nodes _ _ _ _ _ H1 Ha Hb).
  split; [now apply alt_min_le|now apply alt_max_ge].
Qed.

(** ** The box *)
Lemma in_cube_iff d p : big_enough (dt_data d) ->
  in_cube (dt_data d) p <->
  in_hull (dt_data d) (v0 p) (v1 p) /\ alt_min d <= v2 p <= alt_max d.
Proof.
  intros Hb. unfold in_cube. split.
  - intros (H & (i & j & Hn & Hl) & (i' & j' & Hn' & Hl')). split; [assumption|].
    pose proof (alt_min_le d i j Hn). pose proof (alt_max_ge d i' j' Hn'). lra.
  - intros (H & Hl). split; [assumption|].
    destruct (alt_min_node d Hb) as (i & j & Hn & E).
    destruct (alt_max_node d Hb) as (i' & j' & Hn' & E').
    split; [exists i, j|exists i', j']; (split; [assumption|lra]).
Qed.
Lemma strictly_in_cube_iff d p : big_enough (dt_data d) ->
  strictly_in_cube (dt_data d) p <->
  (0 < v0 p < IZR (nb_rows d - 1) /\ 0 < v1 p < IZR (nb_columns d - 1)) /\ alt_min d < v2 p < alt_max d.
Proof.
  intros Hb. unfold strictly_in_cube. split.
  - intros (H & (i & j & Hn & Hl) & (i' & j' & Hn' & Hl')). split; [assumption|].
    pose proof (alt_min_le d i j Hn). pose proof (alt_max_ge d i' j' Hn'). lra.
  - intros (H & Hl). split; [assumption|].
    destruct (alt_min_node d Hb) as (i & j & Hn & E).
    destruct (alt_max_node d Hb) as (i' & j' & Hn' & E').
    split; [exists i, j|exists i', j']; (split; [assumption|lra]).
Qed.

(** The six constraints of the box, as functions that are non-negative inside. *)
Definition slack (d : dtm) (i : nat) (p : vec3) : R :=
  match i with
  | 0%nat => v0 p | 1%nat => IZR (nb_rows d) - 1 - v0 p
  | 2%nat => v1 p | 3%nat => IZR (nb_columns d) - 1 - v1 p
  | 4%nat => v2 p - alt_min d | _ => alt_max d - v2 p
  end.

Lemma slack_eq_plan d i p : (i < 6)%nat -> eq_plan d i p = slack d i p \/ eq_plan d i p = - slack d i p.
Proof.
  intros H. unfold eq_plan, plane_coef_a, plane_coef_b, plane_coef_c, plane_coef_d.
  do 6 (destruct i as [|i]; [simpl; first [left; ring|right; ring]|]). lia.
Qed.

Lemma slack_along d i a b t : slack d i (along a b t) = slack d i a + t * (slack d i b - slack d i a).
Proof. do 5 (destruct i as [|i]; [simpl; ring|]). simpl. ring. Qed.

Definition cr_point (c : crossing) : vec3 := V3 (cr_col c) (cr_row c) (cr_alt c).

Lemma test_on_cube_iff d c : big_enough (dt_data d) ->
  test_on_cube d c = true <-> in_cube (dt_data d) (cr_point c).
Proof.
  intros Hb. rewrite in_cube_iff by assumption. unfold test_on_cube, plane_coef_d, in_hull. simpl.
  rewrite !andb_true_iff, !Rleb_true. unfold nb_rows, nb_columns. rewrite !minus_IZR. lra.
Qed.

Lemma in_cube_slack d p : big_enough (dt_data d) ->
  in_cube (dt_data d) p <-> forall i, (i < 6)%nat -> 0 <= slack d i p.
Proof.
  intros Hb. rewrite in_cube_iff by assumption. unfold in_hull. split.
  - intros H i Hi. rewrite !minus_IZR in H. unfold slack, nb_rows, nb_columns.
    do 6 (destruct i as [|i]; [lra|]). lia.
  - intros H.
    pose proof (H 0%nat ltac:(lia)). pose proof (H 1%nat ltac:(lia)). pose proof (H 2%nat ltac:(lia)).
    pose proof (H 3%nat ltac:(lia)). pose proof (H 4%nat ltac:(lia)). pose proof (H 5%nat ltac:(lia)).
    unfold slack, nb_rows, nb_columns in *. rewrite !minus_IZR. lra.
Qed.
Lemma strictly_in_cube_slack d p : big_enough (dt_data d) ->
  strictly_in_cube (dt_data d) p <-> forall i, (i < 6)%nat -> 0 < slack d i p.
Proof.
  intros Hb. rewrite strictly_in_cube_iff by assumption. split.
  - intros H i Hi. rewrite !minus_IZR in H. unfold slack.
    do 6 (destruct i as [|i]; [lra|]). lia.
  - intros H.
    pose proof (H 0%nat ltac:(lia)). pose proof (H 1%nat ltac:(lia)). pose proof (H 2%nat ltac:(lia)).
    pose proof (H 3%nat ltac:(lia)). pose proof (H 4%nat ltac:(lia)). pose proof (H 5%nat ltac:(lia)).
    unfold slack in *. rewrite !minus_IZR. lra.
Qed.

Lemma on_face_slack d p : big_enough (dt_data d) ->
  (exists i, (i < 6)%nat /\ slack d i p = 0) -> in_cube (dt_data d) p -> on_face (dt_data d) p.
Proof.
  intros Hb (i & Hi & H) Hc. split; [assumption|]. unfold slack in H.
  rewrite !minus_IZR. fold (nb_rows d) (nb_columns d).
  do 4 (destruct i as [|i]; [lra|]).
  destruct i as [|i]; [|destruct i as [|i]; [|lia]].
  - do 4 right. left. intros i j Hn. pose proof (alt_min_le d i j Hn). lra.
  - do 5 right. intros i j Hn. pose proof (alt_max_ge d i j Hn). lra.
Qed.

(** ** One crossing *)
Lemma plane_crossing_spec d i a b layer : (i < 6)%nat ->
  eq_plan d i a * eq_plan d i b <= 0 ->
  exists t, 0 <= t <= 1 /\
    let c := plane_crossing d i a b (eq_plan d i a) (eq_plan d i b) layer in
    cr_point c = along a b t /\ cr_h c = IZR layer - 1 + t /\ slack d i (along a b t) = 0 /\
    (slack d i a <> 0 -> t = slack d i a / (slack d i a - slack d i b)) /\ (slack d i a = 0 -> t = 0).
Proof.
  intros Hi H. unfold plane_crossing, cr_point. cbv zeta.
  assert (Hs : exists e, (e = 1 \/ e = -1) /\ forall p, eq_plan d i p = e * slack d i p).
  { unfold eq_plan, plane_coef_a, plane_coef_b, plane_coef_c, plane_coef_d.
    do 6 (destruct i as [|i];
      [first [exists 1; split; [now left|intros p; simpl; ring]
             |exists (-1); split; [now right|intros p; simpl; ring]]|]). lia. }
  destruct Hs as (e & He & Hs). rewrite !Hs in *.
  assert (He0 : e <> 0) by (destruct He; lra).
  assert (HH : slack d i a * slack d i b <= 0) by (destruct He; subst e; lra).
  rcase1; [|rcase1].
  - assert (slack d i a = 0) by nra. exists 0. repeat split; try lra; cbn [cr_col cr_row cr_alt cr_h]; try lra.
    + unfold along. f_equal; ring.
    + rewrite slack_along. lra.
  - assert (slack d i b = 0) by nra. assert (slack d i a <> 0) by (intros E; rewrite E in *; lra).
    exists 1. repeat split; try lra; cbn [cr_col cr_row cr_alt cr_h]; try lra.
    + unfold along. destruct b. simpl. f_equal; ring.
    + rewrite slack_along. lra.
    + intros _. rewrite H0. field. lra.
  - assert (slack d i a <> 0) by (intros E; rewrite E in *; lra).
    assert (slack d i b <> 0) by (intros E; rewrite E in *; lra).
    assert (HD : slack d i a - slack d i b <> 0).
    { intros E. assert (slack d i a = slack d i b) by lra. rewrite H2 in HH.
      assert (0 < slack d i b * slack d i b) by nra. lra. }
    set (x := slack d i a) in *. set (y := slack d i b) in *.
    exists (x / (x - y)).
    assert (Ht : 0 <= x / (x - y) <= 1).
    { destruct (Rlt_or_le 0 x).
      - assert (y < 0) by nra. split.
        + apply Rmult_le_pos; [lra|]. left. apply Rinv_0_lt_compat. lra.
        + apply Rmult_le_reg_r with (x - y); [lra|].
          unfold Rdiv. rewrite Rmult_assoc, Rinv_l; lra.
      - assert (0 < y) by nra.
        replace (x / (x - y)) with ((- x) / (y - x)) by (field; lra). split.
        + apply Rmult_le_pos; [lra|]. left. apply Rinv_0_lt_compat. lra.
        + apply Rmult_le_reg_r with (y - x); [lra|].
          unfold Rdiv. rewrite Rmult_assoc, Rinv_l; lra. }
    assert (Hz : slack d i (along a b (x / (x - y))) = 0).
    { rewrite slack_along. fold x y. field. assumption. }
    replace (e * y / (e * y - e * x)) with (1 - x / (x - y)) by (destruct He; subst e; field; repeat split; lra).
    replace (- (e * x) / (e * y - e * x)) with (x / (x - y)) by (destruct He; subst e; field; repeat split; lra).
    repeat split; cbn [cr_col cr_row cr_alt cr_h]; try lra.
    unfold along in *. simpl.
    assert (HA : forall u v, (1 - x / (x - y)) * u + x / (x - y) * v = u + x / (x - y) * (v - u))
      by (intros; ring).
    rewrite !HA. clear HA.
    do 6 (destruct i as [|i]; [simpl in *; f_equal; lra|]). lia.
Qed.

Lemma plane_scan_spec d i rest : (i < 6)%nat -> forall a layer c,
  plane_scan d i a rest layer = Some c ->
  exists k u w t, nth_error (a :: rest) k = Some u /\ nth_error rest k = Some w /\ 0 <= t <= 1 /\
    cr_h c = IZR layer - 1 + INR k + t /\ cr_point c = along u w t /\ slack d i (cr_point c) = 0.
Proof.
  intros Hi. induction rest as [|b rest IH]; intros a layer c H; [discriminate|].
  simpl in H. destruct (Rleb_spec (eq_plan d i a * eq_plan d i b) 0) as [Hle|Hgt].
  - injection H as <-. destruct (plane_crossing_spec d i a b layer Hi Hle) as (t & Ht & H1 & H2 & H3 & _).
    exists 0%nat, a, b, t. cbv zeta in *. rewrite H1.
    split; [reflexivity|]. split; [reflexivity|]. simpl. repeat split; try lra.
  - destruct (IH b (layer + 1)%Z c H) as (k & u & w & t & E1 & E2 & Ht & Eh & Ep & Es).
    exists (S k), u, w, t. repeat split; try assumption; try lra.
    rewrite Eh, plus_IZR, S_INR. ring.
Qed.

Lemma all_crossings_in d los c : In c (all_crossings d los) ->
  exists i v rest, (i < 6)%nat /\ los = v :: rest /\ plane_scan d i v los 0 = Some c.
Proof.
  unfold all_crossings. destruct los as [|v rest]; [intros []|].
  rewrite in_flat_map. intros (i & Hi & Hc). apply in_seq in Hi.
  exists i, v, rest. split; [lia|]. split; [reflexivity|].
  destruct (plane_scan d i v (v :: rest) 0); [|destruct Hc].
  destruct Hc as [->|[]]. reflexivity.
Qed.

Lemma crossing_on_los d los c : In c (all_crossings d los) ->
  exists i, (i < 6)%nat /\ slack d i (cr_point c) = 0 /\
  (on_los los (cr_h c) (cr_point c) \/ (cr_h c = -1 /\ nth_error los 0 = Some (cr_point c))).
Proof.
  intros H. destruct (all_crossings_in d los c H) as (i & v & rest & Hi & -> & Hs).
  destruct (plane_scan_spec d i (v :: rest) Hi v 0 c Hs) as (k & u & w & t & E1 & E2 & Ht & Eh & Ep & Es).
  exists i. split; [assumption|]. split; [assumption|].
  destruct k as [|k].
  - simpl in E1, E2. injection E1 as <-. injection E2 as <-.
    (* A = B = first vertex: its plane value is zero, so t = 0 *)
    simpl in Hs. destruct (Rleb_spec (eq_plan d i v * eq_plan d i v) 0) as [Hle|Hgt].
    + injection Hs as Hs.
      destruct (plane_crossing_spec d i v v 0 Hi Hle) as (t' & Ht' & H1 & H2 & H3 & _ & H5).
      cbv zeta in *.
      assert (slack d i v = 0).
      { rewrite slack_along in H3. lra. }
      specialize (H5 H0). subst t'. right. subst c. rewrite H1, H2. split; [simpl; lra|].
      simpl. f_equal. unfold along. destruct v. simpl. f_equal; ring.
    + (* the scan goes on from layer 1: its abscissa is at least 0 *)
      change (0 + 1)%Z with 1%Z in Hs.
      destruct (plane_scan_spec d i rest Hi v 1 c Hs) as (k & u & w & t' & F1 & F2 & Ht' & Fh & Fp & _).
      left. exists k, u, w, t'. repeat split; try assumption; try lra.
  - left. exists k, u, w, t. simpl in E1, E2. repeat split; try assumption; try lra.
    + rewrite Eh, S_INR. simpl. ring.
Qed.

(** ** Sorting *)
Lemma sort_pass_perm l : forall x m l', sort_pass x l = (m, l') -> Permutation (m :: l') (x :: l).
Proof.
  induction l as [|y l IH]; simpl; intros x m l' H.
  - injection H as <- <-. reflexivity.
  - destruct (Rltb (cr_h y) (cr_h x)).
    + destruct (sort_pass y l) as [m0 l0] eqn:E. injection H as <- <-. specialize (IH _ _ _ E).
      transitivity (x :: m0 :: l0); [apply perm_swap|]. constructor. exact IH.
    + destruct (sort_pass x l) as [m0 l0] eqn:E. injection H as <- <-. specialize (IH _ _ _ E).
      transitivity (y :: m0 :: l0); [apply perm_swap|].
      transitivity (y :: x :: l); [constructor; exact IH|apply perm_swap].
Qed.
Lemma sort_pass_min l : forall x m l', sort_pass x l = (m, l') ->
  cr_h m <= cr_h x /\ forall y, In y l' -> cr_h m <= cr_h y.
Proof.
  induction l as [|y l IH]; simpl; intros x m l' H.
  - injection H as <- <-. split; [lra|intros ? []].
  - destruct (Rltb_spec (cr_h y) (cr_h x)) as [Hlt|Hge].
    + destruct (sort_pass y l) as [m0 l0] eqn:E. injection H as <- <-. destruct (IH _ _ _ E).
      split; [lra|]. intros z [<-|Hz]; [lra|auto].
    + destruct (sort_pass x l) as [m0 l0] eqn:E. injection H as <- <-. destruct (IH _ _ _ E).
      split; [lra|]. intros z [<-|Hz]; [lra|auto].
Qed.
Lemma exchange_sort_perm n : forall l, Permutation (exchange_sort n l) l.
Proof.
  induction n as [|n IH]; intros l; simpl; [reflexivity|].
  destruct l as [|x l]; [reflexivity|]. destruct (sort_pass x l) as [m l'] eqn:E.
  transitivity (m :: l'); [constructor; apply IH|]. eapply sort_pass_perm; eauto.
Qed.
Lemma exchange_sort_sorted n : forall l, (length l <= n)%nat ->
  StronglySorted (fun a b => cr_h a <= cr_h b) (exchange_sort n l).
Proof.
  induction n as [|n IH]; intros l Hl; simpl.
  - destruct l; [constructor|simpl in Hl; lia].
  - destruct l as [|x l]; [constructor|]. destruct (sort_pass x l) as [m l'] eqn:E.
    pose proof (sort_pass_perm _ _ _ _ E) as HP. apply Permutation_length in HP. simpl in HP, Hl.
    constructor; [apply IH; lia|]. destruct (sort_pass_min _ _ _ _ E) as [_ Hm].
    apply Forall_forall. intros y Hy. apply Hm.
    apply Permutation_in with (exchange_sort n l'); [apply exchange_sort_perm|exact Hy].
Qed.
Lemma filter_sorted {A} (P : A -> A -> Prop) f l :
  StronglySorted P l -> StronglySorted P (filter f l).
Proof.
  induction 1 as [|x l Hs IH Hf]; simpl; [constructor|].
  destruct (f x); [|assumption]. constructor; [assumption|].
  rewrite Forall_forall in *. intros y Hy. apply filter_In in Hy. apply Hf, Hy.
Qed.

(** The result of the search: the least of the crossings that are on the box, when there are at
    least two of them. *)
Lemma cube_some d los p h : big_enough (dt_data d) ->
  intersect_dtm_cube_index d los = Some (p, h) ->
  exists c, In c (all_crossings d los) /\ p = cr_point c /\ h = cr_h c /\ in_cube (dt_data d) p /\
    forall c', In c' (all_crossings d los) -> in_cube (dt_data d) (cr_point c') -> h <= cr_h c'.
Proof.
  intros Hb. unfold intersect_dtm_cube_index. set (cs := all_crossings d los).
  pose proof (exchange_sort_perm (length cs) cs) as HP.
  pose proof (filter_sorted _ (test_on_cube d) _ (exchange_sort_sorted (length cs) cs (le_n _))) as HS.
  assert (HI : forall c, In c (filter (test_on_cube d) (exchange_sort (length cs) cs)) <->
               In c cs /\ in_cube (dt_data d) (cr_point c)).
  { intros c. rewrite filter_In, test_on_cube_iff by assumption.
    split; intros [H1 H2]; (split; [|assumption]).
    - eapply Permutation_in; eassumption.
    - eapply Permutation_in; [symmetry; exact HP|assumption]. }
  destruct (filter (test_on_cube d) (exchange_sort (length cs) cs)) as [|c [|c' l]]; try discriminate.
  intros H. injection H as <- <-. exists c.
  destruct (proj1 (HI c) (or_introl eq_refl)) as [H1 H2].
  repeat split; try assumption; try apply H2.
  intros c0 H3 H4. destruct (proj2 (HI c0) (conj H3 H4)) as [<-|H5]; [lra|].
  inversion HS as [|? ? _ HF]; subst. rewrite Forall_forall in HF. now apply HF.
Qed.

Lemma cube_none d los : big_enough (dt_data d) ->
  intersect_dtm_cube_index d los = None ->
  forall c c', In c (all_crossings d los) -> In c' (all_crossings d los) ->
    in_cube (dt_data d) (cr_point c) -> in_cube (dt_data d) (cr_point c') -> c = c'.
Proof.
  intros Hb. unfold intersect_dtm_cube_index. set (cs := all_crossings d los).
  pose proof (exchange_sort_perm (length cs) cs) as HP.
  assert (HI : forall c, In c (filter (test_on_cube d) (exchange_sort (length cs) cs)) <->
               In c cs /\ in_cube (dt_data d) (cr_point c)).
  { intros c. rewrite filter_In, test_on_cube_iff by assumption.
    split; intros [H1 H2]; (split; [|assumption]).
    - eapply Permutation_in; eassumption.
    - eapply Permutation_in; [symmetry; exact HP|assumption]. }
  destruct (filter (test_on_cube d) (exchange_sort (length cs) cs)) as [|c0 [|c1 l]] eqn:E;
    try discriminate; intros _ c c' H1 H2 H3 H4.
  - destruct (proj2 (HI c) (conj H1 H3)).
  - destruct (proj2 (HI c) (conj H1 H3)) as [<-|[]].
    destruct (proj2 (HI c') (conj H2 H4)) as [<-|[]]. reflexivity.
Qed.

(** ** Two-vertex lines of sight *)
Lemma scan_exists d a b i t : (i < 6)%nat -> 0 < t <= 1 ->
  slack d i a <> 0 -> slack d i (along a b t) = 0 ->
  exists c, plane_scan d i a [a; b] 0 = Some c /\ cr_point c = along a b t /\ cr_h c = t.
Proof.
  intros Hi Ht Ha H0. rewrite slack_along in H0.
  set (x := slack d i a) in *. set (y := slack d i b) in *.
  assert (HD : x - y <> 0) by (intros E; apply Ha; assert (y = x) by lra; rewrite H in H0; lra).
  assert (Et : t = x / (x - y)).
  { apply Rmult_eq_reg_r with (x - y); [|assumption]. unfold Rdiv.
    rewrite Rmult_assoc, Rinv_l by assumption. lra. }
  assert (Hxy : x * y <= 0).
  { assert (x * y = - ((1 - t) / t) * (x * x)).
    { assert (y = - ((1 - t) / t) * x).
      { apply Rmult_eq_reg_l with t; [|lra].
        replace (t * (- ((1 - t) / t) * x)) with (- (1 - t) * x) by (field; lra). lra. }
      rewrite H at 1. ring. }
    rewrite H. assert (0 <= (1 - t) / t) by (apply Rmult_le_pos; [lra|left; apply Rinv_0_lt_compat; lra]).
    assert (0 <= x * x) by nra. nra. }
  destruct (plane_scan d i a [a; b] 0) as [c|] eqn:Es.
  - exists c.
    split; [reflexivity|]. simpl in Es.
    assert (Hsq : forall p, eq_plan d i a * eq_plan d i p = slack d i a * slack d i p).
    { intros p. unfold eq_plan, plane_coef_a, plane_coef_b, plane_coef_c, plane_coef_d.
      clear - Hi. do 6 (destruct i as [|i]; [simpl; ring|]). lia. }
    destruct (Rleb_spec (eq_plan d i a * eq_plan d i a) 0) as [Hle|_].
    { rewrite Hsq in Hle. fold x in Hle. nra. }
    destruct (Rleb_spec (eq_plan d i a * eq_plan d i b) 0) as [Hle|Hgt]; [|discriminate].
    change (0 + 1)%Z with 1%Z in Es. injection Es as <-.
    destruct (plane_crossing_spec d i a b 1 Hi Hle) as (t' & Ht' & H1 & H2 & _ & H4 & _).
    cbv zeta in *. rewrite H1, H2.
    assert (t' = t) by (rewrite H4 by assumption; fold x y; congruence).
    subst t'. split; [reflexivity|]. simpl. lra.
  - exfalso. simpl in Es.
    assert (Hsq : forall p, eq_plan d i a * eq_plan d i p = slack d i a * slack d i p).
    { intros p. unfold eq_plan, plane_coef_a, plane_coef_b, plane_coef_c, plane_coef_d.
      clear - Hi. do 6 (destruct i as [|i]; [simpl; ring|]). lia. }
    destruct (Rleb (eq_plan d i a * eq_plan d i a) 0); [discriminate|].
    destruct (Rleb_spec (eq_plan d i a * eq_plan d i b) 0); [discriminate|].
    rewrite Hsq in n. fold x y in n. contradiction.
Qed.

Lemma crossing_exists d a b i t : (i < 6)%nat -> 0 < t <= 1 ->
  slack d i a <> 0 -> slack d i (along a b t) = 0 ->
  exists c, In c (all_crossings d [a; b]) /\ cr_point c = along a b t /\ cr_h c = t.
Proof.
  intros Hi Ht Ha H0. destruct (scan_exists d a b i t Hi Ht Ha H0) as (c & Es & H).
  exists c. split; [|assumption].
  unfold all_crossings. apply in_flat_map. exists i. split; [apply in_seq; lia|].
  rewrite Es. now left.
Qed.

(** The first point inside a finite set of affine constraints. *)
Lemma first_inside (g0 g1 : nat -> R) n t0 : 0 <= t0 ->
  (forall i, (i < n)%nat -> 0 <= g0 i + t0 * (g1 i - g0 i)) ->
  exists t, 0 <= t <= t0 /\ (forall i, (i < n)%nat -> 0 <= g0 i + t * (g1 i - g0 i)) /\
    (t = 0 \/ exists i, (i < n)%nat /\ g0 i < 0 /\ g0 i + t * (g1 i - g0 i) = 0).
Proof.
  intros H0. induction n as [|n IH]; intros H.
  - exists 0. split; [lra|]. split; [intros; lia|now left].
  - destruct IH as (t & Ht & Hall & Hw); [intros; apply H; lia|].
    pose proof (H n ltac:(lia)) as Hn. set (x := g0 n) in *. set (e := g1 n - x) in *.
    destruct (Rle_lt_dec 0 (x + t * e)) as [Hok|Hneg].
    + exists t. split; [assumption|]. split.
      * intros i Hi. destruct (Nat.eq_dec i n) as [->|]; [exact Hok|apply Hall; lia].
      * destruct Hw as [?|(i & ? & ? & ?)]; [now left|right; exists i; repeat split; auto; lia].
    + assert (He : 0 < e).
      { destruct (Rle_lt_dec e 0) as [Hle|]; [|assumption].
        assert (0 <= (t0 - t) * - e) by (apply Rmult_le_pos; lra). lra. }
      exists (- x / e).
      assert (Er : x + - x / e * e = 0) by (field; lra).
      assert (Hx : x < 0) by (assert (0 <= t * e) by (apply Rmult_le_pos; lra); lra).
      set (q := - x / e) in *.
      assert (t < q) by (apply Rmult_lt_reg_r with e; lra).
      assert (q <= t0) by (apply Rmult_le_reg_r with e; lra).
      split; [lra|]. split.
      * intros i Hi. destruct (Nat.eq_dec i n) as [->|]; [fold x e; lra|].
        pose proof (Hall i ltac:(lia)) as Ha. pose proof (H i ltac:(lia)) as Hc.
        destruct (Rle_lt_dec 0 (g1 i - g0 i)).
        -- assert (0 <= (q - t) * (g1 i - g0 i)) by (apply Rmult_le_pos; lra). lra.
        -- assert (0 <= (t0 - q) * - (g1 i - g0 i)) by (apply Rmult_le_pos; lra). lra.
      * right. exists n. repeat split; [lia|assumption|fold e; exact Er].
Qed.

Lemma first_entry d a b t0 : big_enough (dt_data d) -> 0 <= t0 <= 1 ->
  ~ in_cube (dt_data d) a -> in_cube (dt_data d) (along a b t0) ->
  exists t c, 0 < t <= t0 /\ In c (all_crossings d [a; b]) /\ cr_point c = along a b t /\
    cr_h c = t /\ in_cube (dt_data d) (along a b t) /\
    (exists i, (i < 6)%nat /\ slack d i a < 0 /\ slack d i (along a b t) = 0).
Proof.
  intros Hb Ht0 Ha Hin. rewrite in_cube_slack in Hin by assumption.
  destruct (first_inside (fun i => slack d i a) (fun i => slack d i b) 6 t0) as (t & Ht & Hall & Hw).
  - lra.
  - intros i Hi. rewrite <- slack_along. now apply Hin.
  - assert (Hc : in_cube (dt_data d) (along a b t)).
    { apply in_cube_slack; [assumption|]. intros i Hi. rewrite slack_along. now apply Hall. }
    destruct Hw as [->|(i & Hi & Hneg & Hz)].
    { exfalso. apply Ha. replace a with (along a b 0); [assumption|].
      unfold along. destruct a. simpl. f_equal; ring. }
    assert (0 < t). { destruct (Req_dec t 0) as [->|]; [rewrite Rmult_0_l in Hz; lra|lra]. }
    destruct (crossing_exists d a b i t Hi) as (c & H1 & H2 & H3); [lra|lra|now rewrite slack_along|].
    exists t, c. split; [lra|]. repeat (split; [assumption|]). exists i.
    rewrite slack_along. auto.
Qed.

(** Reversed line: the last point inside. *)
Lemma along_rev a b t : along b a t = along a b (1 - t).
Proof. unfold along. f_equal; ring. Qed.

Lemma last_exit d a b t0 : big_enough (dt_data d) -> 0 <= t0 < 1 ->
  (forall i, (i < 6)%nat -> 0 < slack d i (along a b t0)) -> ~ in_cube (dt_data d) a ->
  ~ in_cube (dt_data d) b ->
  exists t c, t0 < t <= 1 /\ In c (all_crossings d [a; b]) /\ cr_point c = along a b t /\
    cr_h c = t /\ in_cube (dt_data d) (along a b t).
Proof.
  intros Hb Ht0 Hin Ha Hbn.
  destruct (first_inside (fun i => slack d i b) (fun i => slack d i a) 6 (1 - t0)) as (t & Ht & Hall & Hw).
  - lra.
  - intros i Hi. rewrite <- slack_along, along_rev. replace (1 - (1 - t0)) with t0 by ring.
    left. now apply Hin.
  - assert (Hc : in_cube (dt_data d) (along a b (1 - t))).
    { apply in_cube_slack; [assumption|]. intros i Hi. rewrite <- along_rev, slack_along. now apply Hall. }
    destruct Hw as [->|(i & Hi & Hneg & Hz)].
    { exfalso. apply Hbn. replace b with (along a b (1 - 0)); [assumption|].
      unfold along. destruct b. simpl. f_equal; ring. }
    rewrite <- slack_along, along_rev in Hz.
    pose proof (Hin i Hi) as Hpos. rewrite slack_along in Hpos.
    pose proof Hz as Hz'. rewrite slack_along in Hz'.
    assert (t < 1 - t0).
    { destruct (Req_dec t (1 - t0)) as [->|]; [|lra].
      replace (1 - (1 - t0)) with t0 in Hz' by ring. lra. }
    assert (Hsa : slack d i a <> 0) by nra.
    destruct (crossing_exists d a b i (1 - t) Hi) as (c & H1 & H2 & H3); [lra|assumption|assumption|].
    exists (1 - t), c. split; [lra|]. repeat (split; [assumption|]). assumption.
Qed.

Lemma cube_found_if_inside d a b t0 : big_enough (dt_data d) -> 0 <= t0 <= 1 ->
  ~ in_cube (dt_data d) a -> ~ in_cube (dt_data d) b -> strictly_in_cube (dt_data d) (along a b t0) ->
  intersect_dtm_cube_index d [a; b] <> None.
Proof.
  intros Hb Ht0 Ha Hbn Hin HN.
  rewrite strictly_in_cube_slack in Hin by assumption.
  assert (Hcl : in_cube (dt_data d) (along a b t0)).
  { apply in_cube_slack; [assumption|]. intros; left; auto. }
  assert (t0 <> 1).
  { intros ->. apply Hbn. replace b with (along a b 1); [assumption|].
    unfold along. destruct b. simpl. f_equal; ring. }
  destruct (first_entry d a b t0 Hb Ht0 Ha Hcl) as (t & c & Ht & H1 & H2 & H3 & H4 & _).
  destruct (last_exit d a b t0 Hb ltac:(lra) Hin Ha Hbn) as (t' & c' & Ht' & H1' & H2' & H3' & H4').
  assert (c = c').
  { apply (cube_none d [a; b] Hb HN); try assumption; [rewrite H2|rewrite H2']; assumption. }
  subst c'. lra.
Qed.

Lemma cube_first d a b p h : big_enough (dt_data d) -> ~ in_cube (dt_data d) a ->
  intersect_dtm_cube_index d [a; b] = Some (p, h) ->
  0 < h <= 1 /\ p = along a b h /\ in_cube (dt_data d) p /\
  (exists i, (i < 6)%nat /\ slack d i p = 0) /\
  (forall t, 0 <= t < h -> ~ in_cube (dt_data d) (along a b t)).
Proof.
  intros Hb Ha H. destruct (cube_some d _ p h Hb H) as (c & Hc & Ep & Eh & Hin & Hmin).
  destruct (crossing_on_los d _ c Hc) as (i & Hi & Hs & [Hon|[E1 E2]]).
  - destruct Hon as (k & u & w & t & E1 & E2 & Ht & Eh' & Ep').
    destruct k as [|k]; [|destruct k; discriminate].
    simpl in E1, E2. injection E1 as <-. injection E2 as <-. simpl in Eh'.
    assert (h = t) by lra. subst t. rewrite Ep in *. rewrite Ep' in *.
    assert (h <> 0).
    { intros E. apply Ha. replace a with (along a b h); [assumption|].
      rewrite E. unfold along. destruct a. simpl. f_equal; ring. }
    split; [lra|]. split; [reflexivity|]. split; [assumption|]. split; [eauto|].
    intros t' Ht' Hin'.
    destruct (first_entry d a b t' Hb ltac:(lra) Ha Hin') as (t & c' & Ht2 & H1 & H2 & H3 & H4 & _).
    assert (h <= cr_h c') by (apply Hmin; [assumption|now rewrite H2]). lra.
  - exfalso. apply Ha. simpl in E2. injection E2 as ->. now rewrite <- Ep.
Qed.
