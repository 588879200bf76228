(** Properties of the lines of sight and of the triangulation (C23 - C28). *)
From Coq Require Import Reals ZArith List Bool Lra Lia.
From Verif Require Import Num NumLemmas ProjModel RpcModel TriModel TriSpec TriProofs TriBatch.
Import ListNotations.
Open Scope R_scope.

Lemma Forall2_map_r {A B} (P : A -> B -> Prop) l (f : A -> B) : Forall (fun x => P x (f x)) l -> Forall2 P l (map f l).
Proof. induction 1; constructor; auto. Qed.
Lemma vec_norm_row p : vec_norm (row_of_point p) = Some (sqrt (dot p p)).
Proof. reflexivity. Qed.
Lemma ncross_row a b : ncross (row_of_point a) (row_of_point b) = row_of_point (cross3 a b).
Proof. reflexivity. Qed.
Lemma row_sub_row a b : row_sub (row_of_point a) (row_of_point b) = row_of_point (minus3 a b).
Proof. reflexivity. Qed.
Lemma point_distances_eq ls p : Forall unit_dir ls ->
  point_distances (froms ls) (dirs ls) (row_of_point p) = map (fun l => Some (sqrt (sqd p l))) ls.
Proof.
  intros Hu. unfold point_distances, froms, dirs. rewrite map2_map_same.
  apply map_ext_in. intros l Hl. rewrite row_sub_row, ncross_row, vec_norm_row, sqd_cross; [reflexivity|].
  rewrite Forall_forall in Hu. auto.
Qed.
Lemma zip3r_eq batch points : length batch = length points -> Forall (Forall unit_dir) batch ->
  n_view_distance (map froms batch) (map dirs batch) (map row_of_point points)
  = map2 (fun ls p => map (fun l => Some (sqrt (sqd p l))) ls) batch points.
Proof.
  unfold n_view_distance. revert points. induction batch as [|ls batch IH]; intros [|p points] H Hu; try discriminate; [reflexivity|].
  inversion Hu; subst. cbn [map zip3r map2]. rewrite point_distances_eq by assumption. f_equal. apply IH; auto.
Qed.

(** C23.  Any number of points, any number of views of each: when the lines of sight of every point
    are concurrent at it and not all parallel, the triangulation returns exactly the points, and
    every residue is zero. *)
Theorem C23_concurrent_sights_give_their_point :
  forall (batch : list (list sight)) (points : list vec3),
    Forall2 (fun ls p => Forall unit_dir ls /\ two_directions ls /\ Forall (fun l => passes_through l p) ls) batch points ->
    n_view_triangulation (map froms batch) (map dirs batch) = Some points /\
    n_view_distance (map froms batch) (map dirs batch) (map row_of_point points)
    = map (fun ls => map (fun _ => Some 0) ls) batch.
Proof.
  intros batch points H. split.
  - unfold n_view_triangulation. rewrite map2_map_same. induction H as [|ls p batch points (Hu & H2 & HP) H IH]; [reflexivity|].
    cbn [map seq_opt]. destruct (triangulate_defined ls Hu H2) as [q Hq].
    assert (q = p) as ->.
    { rewrite triangulate_eq in Hq. destruct (inv3 (normal ls)) as [mi|] eqn:E; [|discriminate]. injection Hq as <-.
      symmetry. apply (inv3_unique (normal ls) mi); [assumption|]. apply common_point; [|assumption].
      now rewrite Forall_forall in HP. }
    now rewrite Hq, IH.
  - rewrite zip3r_eq.
    + induction H as [|ls p batch points (Hu & H2 & HP) H IH]; [reflexivity|]. cbn [map map2]. f_equal; [|assumption].
      apply map_ext_in. intros l Hl. rewrite Forall_forall in Hu, HP.
      replace (sqd p l) with 0 by (symmetry; apply sqd_zero; auto). now rewrite sqrt_0.
    + clear -H. induction H; simpl; congruence.
    + clear -H. induction H as [|ls p batch points (Hu & _) H IH]; constructor; auto.
Qed.
(** Three lines through (1, 2, 3) - two of them parallel - and a second point with two views. *)
Definition sx (p : vec3) : sight := Sight p (V3 1 0 0).
Definition sz (p : vec3) : sight := Sight p (V3 0 (3 / 5) (4 / 5)).
Example C23_case :
  let batch := [[sx (V3 0 2 3); sx (V3 5 2 3); sz (V3 1 2 3)]; [sz (V3 0 3 4); sx (V3 9 0 0)]] in
  Forall2 (fun ls p => Forall unit_dir ls /\ two_directions ls /\ Forall (fun l => passes_through l p) ls)
    batch [V3 1 2 3; V3 0 0 0].
Proof.
  assert (N : forall p q, ~ parallel (sx p) (sz q)).
  { intros p q [k E]. injection E as _ E1 _. lra. }
  assert (U1 : forall p, unit_dir (sx p)) by (intros p; unfold unit_dir, dot; cbn; lra).
  assert (U2 : forall p, unit_dir (sz p)) by (intros p; unfold unit_dir, dot; cbn; lra).
  cbv zeta. repeat constructor; try (apply U1); try (apply U2).
  - exists (sx (V3 0 2 3)), (sz (V3 1 2 3)). repeat split; [simpl; tauto|simpl; tauto|apply N].
  - exists 1. unfold point_at. cbn. f_equal; lra.
  - exists (-4). unfold point_at. cbn. f_equal; lra.
  - exists 0. unfold point_at. cbn. f_equal; lra.
  - exists (sx (V3 9 0 0)), (sz (V3 0 3 4)). repeat split; [simpl; tauto|simpl; tauto|apply N].
  - exists (-5). unfold point_at. cbn. f_equal; lra.
  - exists (-9). unfold point_at. cbn. f_equal; lra.
Qed.

(** C24.  Every returned point is the only minimiser of the sum of its squared distances to its
    lines of sight. *)
Theorem C24_least_squares_minimiser :
  forall batch : list (list sight),
    Forall (fun ls => Forall unit_dir ls /\ two_directions ls) batch ->
    exists points, n_view_triangulation (map froms batch) (map dirs batch) = Some points /\
      Forall2 (fun ls p => exists total, sum_sq_distances p ls total /\
                 forall x total', x <> p -> sum_sq_distances x ls total' -> total < total') batch points.
Proof.
  intros batch H. destruct (n_view_defined batch H) as [points Hp]. exists points. split; [assumption|].
  pose proof (n_view_nth _ _ Hp) as HF. clear Hp. induction HF as [|ls p batch points Hp HF IH]; constructor.
  - inversion H as [|? ? [Hu H2] H']; subst. exists (sqd_sum ls p). split; [now apply ssd_sqd|].
    intros x t' Hx Ht. apply ssd_sqd in Ht; [|assumption]. subst t'.
    rewrite (sqd_sum_min ls p x) by (now apply triangulate_some).
    assert (0 < qform (normal ls) (minus3 x p)); [|lra]. apply normal_posdef; [assumption..|].
    intros E. apply Hx. destruct x as [a b c], p as [a' b' c']. injection E as E1 E2 E3. cbn in *. f_equal; lra.
  - inversion H; subst. now apply IH.
Qed.
(** When the lines of sight of a point are all parallel, nothing is returned. *)
Theorem C24_parallel_sights_rejected :
  forall batch ls, In ls batch -> Forall unit_dir ls -> (forall l l', In l ls -> In l' ls -> parallel l l') ->
    n_view_triangulation (map froms batch) (map dirs batch) = None.
Proof.
  intros batch ls HI Hu HP. destruct (n_view_triangulation _ _) as [points|] eqn:E; [|reflexivity]. exfalso.
  pose proof (n_view_nth _ _ E) as HF. clear E. induction HF as [|ls' p batch points Hp HF IH]; [destruct HI|].
  destruct HI as [-> | HI]; [|auto]. rewrite triangulate_parallel in Hp by assumption. discriminate.
Qed.
Example C24_case :
  Forall (fun ls => Forall unit_dir ls /\ two_directions ls) [[sx (V3 0 0 0); sz (V3 7 (-4) 3); sx (V3 0 1 0)]] /\
  (Forall unit_dir [sx (V3 0 0 0); sx (V3 0 1 0)] /\
   forall l l', In l [sx (V3 0 0 0); sx (V3 0 1 0)] -> In l' [sx (V3 0 0 0); sx (V3 0 1 0)] -> parallel l l').
Proof.
  assert (N : forall p q, ~ parallel (sx p) (sz q)).
  { intros p q [k E]. injection E as _ E1 _. lra. }
  assert (U1 : forall p, unit_dir (sx p)) by (intros p; unfold unit_dir, dot; cbn; lra).
  assert (U2 : forall p, unit_dir (sz p)) by (intros p; unfold unit_dir, dot; cbn; lra).
  split; [|split].
  - repeat constructor; try (apply U1); try (apply U2).
    exists (sx (V3 0 0 0)), (sz (V3 7 (-4) 3)). repeat split; [simpl; tauto|simpl; tauto|apply N].
  - repeat constructor; apply U1.
  - intros l l' [<- | [<- | []]] [<- | [<- | []]]; exists 1; cbn; f_equal; lra.
Qed.

(** C25.  The residues are the distances to the lines, view by view; a residue is zero exactly when
    the line passes through the point. *)
Theorem C25_residues_are_distances :
  forall (batch : list (list sight)) (points : list vec3),
    length batch = length points -> Forall (Forall unit_dir) batch ->
    exists res : list (list R),
      n_view_distance (map froms batch) (map dirs batch) (map row_of_point points) = map (map Some) res /\
      length res = length batch /\
      forall i ls p ds, nth_error batch i = Some ls -> nth_error points i = Some p -> nth_error res i = Some ds ->
        Forall2 (fun l d => is_distance p l d /\ (d = 0 <-> passes_through l p)) ls ds.
Proof.
  intros batch points HL Hu. exists (map2 (fun ls p => map (fun l => sqrt (sqd p l)) ls) batch points). split; [|split].
  - rewrite zip3r_eq by assumption. clear. revert points. induction batch as [|ls batch IH]; intros [|p points]; try reflexivity.
    cbn [map map2]. rewrite map_map. f_equal. apply IH.
  - rewrite map2_length. lia.
  - intros i ls p ds E1 E2 E3. rewrite (map2_nth _ _ _ _ _ _ E1 E2) in E3. injection E3 as <-.
    assert (Hls : Forall unit_dir ls) by (rewrite Forall_forall in Hu; apply Hu; eapply nth_error_In, E1).
    apply Forall2_map_r. eapply Forall_impl; [|exact Hls]. intros l Hl. split; [now apply is_distance_sqd|].
    rewrite <- sqd_zero by assumption. split; intros H.
    + apply sqrt_eq_0; [now apply sqd_pos|assumption].
    + now rewrite H, sqrt_0.
Qed.
(** The residue reported with a triangulated match is computed with the left line only; for two
    views the point is at the same distance of both lines. *)
Theorem C25_two_view_residue :
  forall (l r : sight) (p : vec3), unit_dir l -> unit_dir r ->
    n_view_triangulation [froms [l; r]] [dirs [l; r]] = Some [p] ->
    exists d, n_view_distance [froms [l]] [dirs [l]] [row_of_point p] = [[Some d]] /\
      is_distance p l d /\ is_distance p r d.
Proof.
  intros l r p Hl Hr H. pose proof (n_view_nth [[l; r]] [p] H) as HF. inversion HF as [|? ? ? ? Hp _]; subst. clear HF H.
  apply triangulate_some in Hp. exists (sqrt (sqd p l)). split; [|split].
  - pose proof (zip3r_eq [[l]] [p] eq_refl) as E. cbn [map map2] in E. apply E. repeat constructor. assumption.
  - now apply is_distance_sqd.
  - replace (sqd p l) with (sqd p r); [now apply is_distance_sqd|].
    unfold unit_dir, sqd in *. destruct l as [[a b c] [x y z]], r as [[a' b' c'] [x' y' z']], p as [p q s].
    unfold dot, minus3 in *. cbn [s_from s_dir v0 v1 v2] in *.
    cbn [normal rhs] in Hp. unfold mdot, madd, proj_mat, vadd, vzero in Hp.
    cbn [normal rhs mdot madd proj_mat vadd vzero s_from s_dir v0 v1 v2 a00 a01 a02 a10 a11 a12 a20 a21 a22] in Hp.
    injection Hp as E1 E2 E3.
    set (u0 := p - a) in *. set (u1 := q - b) in *. set (u2 := s - c) in *.
    set (w0 := p - a') in *. set (w1 := q - b') in *. set (w2 := s - c') in *.
    (* P1 u + P2 w = 0 and |P1 u|^2 = sqd *)
    set (ku := u0 * x + u1 * y + u2 * z). set (kw := w0 * x' + w1 * y' + w2 * z').
    assert (F1 : u0 - x * ku = - (w0 - x' * kw)) by (unfold ku, kw, u0, u1, u2, w0, w1, w2; lra).
    assert (F2 : u1 - y * ku = - (w1 - y' * kw)) by (unfold ku, kw, u0, u1, u2, w0, w1, w2; lra).
    assert (F3 : u2 - z * ku = - (w2 - z' * kw)) by (unfold ku, kw, u0, u1, u2, w0, w1, w2; lra).
    assert (G1 : u0 * u0 + u1 * u1 + u2 * u2 - ku * ku
      = (u0 - x * ku) * (u0 - x * ku) + (u1 - y * ku) * (u1 - y * ku) + (u2 - z * ku) * (u2 - z * ku)).
    { replace ((u0 - x * ku) * (u0 - x * ku) + (u1 - y * ku) * (u1 - y * ku) + (u2 - z * ku) * (u2 - z * ku))
        with (u0 * u0 + u1 * u1 + u2 * u2 - 2 * ku * (u0 * x + u1 * y + u2 * z) + ku * ku * (x * x + y * y + z * z)) by ring.
      rewrite Hl. fold ku. ring. }
    assert (G2 : w0 * w0 + w1 * w1 + w2 * w2 - kw * kw
      = (w0 - x' * kw) * (w0 - x' * kw) + (w1 - y' * kw) * (w1 - y' * kw) + (w2 - z' * kw) * (w2 - z' * kw)).
    { replace ((w0 - x' * kw) * (w0 - x' * kw) + (w1 - y' * kw) * (w1 - y' * kw) + (w2 - z' * kw) * (w2 - z' * kw))
        with (w0 * w0 + w1 * w1 + w2 * w2 - 2 * kw * (w0 * x' + w1 * y' + w2 * z') + kw * kw * (x' * x' + y' * y' + z' * z')) by ring.
      rewrite Hr. fold kw. ring. }
    rewrite G1, G2, F1, F2, F3. ring.
Qed.
(** A triangulated match of residue 1: two skew lines at distance 2. *)
Example C25_case :
  n_view_triangulation [froms [sx (V3 0 0 0); Sight (V3 0 0 2) (V3 0 1 0)]]
                       [dirs [sx (V3 0 0 0); Sight (V3 0 0 2) (V3 0 1 0)]] = Some [V3 0 0 1] /\
  n_view_distance [froms [sx (V3 0 0 0)]] [dirs [sx (V3 0 0 0)]] [row_of_point (V3 0 0 1)] = [[Some 1]].
Proof.
  split.
  - unfold n_view_triangulation. cbn [map2 seq_opt]. rewrite triangulate_eq.
    assert (E : normal [sx (V3 0 0 0); Sight (V3 0 0 2) (V3 0 1 0)] = M33 1 0 0 0 1 0 0 0 2).
    { cbn. unfold madd, proj_mat. cbn. apply mat_eq; lra. }
    rewrite E. unfold inv3. destruct (Reqb_spec (det3 (M33 1 0 0 0 1 0 0 0 2)) 0) as [H|_];
      [unfold det3 in H; cbn in H; lra|]. do 2 f_equal. unfold mdot, det3, rhs, vadd, proj_mat, sx, vzero, mdot.
    cbn. f_equal; field.
  - unfold n_view_distance. cbn [zip3r]. rewrite point_distances_eq.
    + cbn [map]. replace (sqd (V3 0 0 1) (sx (V3 0 0 0))) with 1; [now rewrite sqrt_1|].
      unfold sqd, sx, dot, minus3. cbn. ring.
    + repeat constructor. unfold unit_dir, dot. cbn. lra.
Qed.

(** C26.  In a batch that is triangulated, the point of a match is the one obtained for that match
    alone; a match with a NaN gives NaN. *)
Definition one (l : los) (i : nat) : los :=
  let at_i (a : list row3) := match nth_error a i with Some x => [x] | None => [] end in
  Los (at_i (starting_points l)) (at_i (ending_points l)) (at_i (viewing_vectors l)).
Theorem C26_matches_are_independent :
  forall (l r : los) (n : nat) (out : list row3), same_length4 l r n ->
    los_triangulation l r = Some out ->
    length out = n /\
    forall i p, nth_error out i = Some p ->
      los_triangulation (one l i) (one r i) = Some [p] /\
      (forall x, In x (starting_points (one l i) ++ starting_points (one r i)
                       ++ viewing_vectors (one l i) ++ viewing_vectors (one r i)) -> finite3 x = false -> p = nan3).
Proof.
  intros l r n out Hn H. rewrite (los_triangulation_eq l r n Hn) in H. destruct Hn as (H1 & H2 & H3 & H4).
  set (q := rows4 _ _ _ _) in H.
  assert (Hq : length q = n /\ forall i sl sr vl vr, nth_error (starting_points l) i = Some sl ->
    nth_error (starting_points r) i = Some sr -> nth_error (viewing_vectors l) i = Some vl ->
    nth_error (viewing_vectors r) i = Some vr -> nth_error q i = Some (sl, sr, vl, vr)).
  { unfold q. clear -H1 H2 H3 H4. revert H1 H2 H3 H4.
    generalize (starting_points l) (starting_points r) (viewing_vectors l) (viewing_vectors r). clear l r.
    induction n as [|n IH]; intros [|a l0] [|b l1] [|c l2] [|d l3] H1 H2 H3 H4; try discriminate.
    - split; [reflexivity|]. intros [|i]; discriminate.
    - simpl in *. destruct (IH l0 l1 l2 l3) as [E F]; try lia. split; [lia|].
      intros [|i] sl sr vl vr; simpl; [congruence|apply F]. }
  destruct Hq as [Hq Hqn].
  assert (HL : length out = n).
  { rewrite (seq_opt_length _ _ H), map_length. assumption. }
  split; [assumption|]. intros i p Hp.
  assert (Hi : (i < n)%nat) by (rewrite <- HL; apply nth_error_Some; congruence).
  destruct (nth_error (starting_points l) i) as [sl|] eqn:E1; [|apply nth_error_None in E1; lia].
  destruct (nth_error (starting_points r) i) as [sr|] eqn:E2; [|apply nth_error_None in E2; lia].
  destruct (nth_error (viewing_vectors l) i) as [vl|] eqn:E3; [|apply nth_error_None in E3; lia].
  destruct (nth_error (viewing_vectors r) i) as [vr|] eqn:E4; [|apply nth_error_None in E4; lia].
  pose proof (Hqn i sl sr vl vr E1 E2 E3 E4) as Eq.
  assert (HT : tri_one sl sr vl vr = Some p).
  { pose proof (map_nth_error (fun q => let '(sl, sr, vl, vr) := q in tri_one sl sr vl vr) i q Eq) as E.
    clear -E H Hp. revert out i E H Hp. generalize (map (fun q => let '(sl, sr, vl, vr) := q in tri_one sl sr vl vr) q). clear.
    intros lo. induction lo as [|o lo IH]; intros out i E H Hp; [destruct i; discriminate|]. simpl in H. destruct o as [x|]; [|discriminate].
    destruct (seq_opt lo) as [o|] eqn:Eo; [|discriminate]. injection H as <-. destruct i as [|i]; simpl in *; [congruence|eauto]. }
  split.
  - rewrite (los_triangulation_eq _ _ 1); [|unfold one, same_length4; cbn; rewrite E1, E2, E3, E4; auto].
    unfold one. cbn [starting_points viewing_vectors]. rewrite E1, E2, E3, E4. cbn. now rewrite HT.
  - unfold one. cbn [starting_points viewing_vectors]. rewrite E1, E2, E3, E4. cbn [app In].
    intros x Hx Hf. unfold tri_one in HT. cbn [forallb] in HT.
    destruct Hx as [<- | [<- | [<- | [<- | []]]]]; rewrite Hf in HT; rewrite ?andb_false_r in HT; cbn in HT; congruence.
Qed.
(** The batch is triangulated as soon as the finite matches have non-parallel unit directions. *)
Theorem C26_batch_succeeds_partial :
  forall (l r : los) (n : nat), same_length4 l r n ->
    (forall i sl sr vl vr, nth_error (starting_points l) i = Some sl -> nth_error (starting_points r) i = Some sr ->
       nth_error (viewing_vectors l) i = Some vl -> nth_error (viewing_vectors r) i = Some vr ->
       In nan3 [sl; sr; vl; vr] \/
       exists a b, [sl; sr] = froms [a; b] /\ [vl; vr] = dirs [a; b] /\ unit_dir a /\ unit_dir b /\ ~ parallel a b) ->
    exists out, los_triangulation l r = Some out.
Proof.
  intros l r n Hn H. rewrite (los_triangulation_eq l r n Hn). clear Hn.
  revert H. generalize (starting_points l) (starting_points r) (viewing_vectors l) (viewing_vectors r). clear l r n.
  intros l0. induction l0 as [|sl l0 IH]; intros [|sr l1] [|vl l2] [|vr l3] H; try (now exists []).
  destruct (IH l1 l2 l3) as [out Ho].
  { intros i. exact (H (S i)). }
  cbn [rows4 map seq_opt]. rewrite Ho.
  assert (exists p, tri_one sl sr vl vr = Some p) as [p ->]; [|eauto].
  unfold tri_one. destruct (forallb finite3 [sl; sr] && forallb finite3 [vl; vr]) eqn:E; [|eauto].
  destruct (H 0%nat sl sr vl vr eq_refl eq_refl eq_refl eq_refl) as [HN|(a & b & -> & -> & Ha & Hb & Hp)].
  - exfalso. cbn [forallb] in E. rewrite !andb_true_r in E. apply andb_true_iff in E. destruct E as [E1 E2].
    apply andb_true_iff in E1, E2. destruct E1, E2.
    destruct HN as [-> | [-> | [-> | [-> | []]]]]; discriminate.
  - destruct (triangulate_defined [a; b]) as [p Ep].
    + repeat constructor; assumption.
    + exists a, b. simpl. tauto.
    + rewrite Ep. eauto.
Qed.
(** ... but one match with parallel lines of sight makes the triangulation of all the others fail. *)
Theorem C26_parallel_match_disturbs_others_refuted :
  exists (l r : los) (n i : nat) (p : row3), same_length4 l r n /\ (i < n)%nat /\
    los_triangulation (one l i) (one r i) = Some [p] /\ p <> nan3 /\
    los_triangulation l r = None.
Proof.
  pose (o := row_of_point (V3 0 0 0)). pose (x := row_of_point (V3 1 0 0)). pose (y := row_of_point (V3 0 1 0)).
  exists (Los [o; o] [o; o] [x; x]), (Los [o; o] [o; o] [y; x]), 2%nat, 0%nat, o.
  assert (Hu : forall v, dot v v = 1 -> unit_dir (Sight (V3 0 0 0) v)) by (intros v E; exact E).
  assert (H1 : tri_one o o x y = Some o).
  { unfold tri_one, o, x, y. cbn [forallb finite3 row_of_point isnan lon3 lat3 alt3 orb negb andb].
    change (finite3 (row_of_point (V3 0 0 0))) with true. cbn.
    destruct (C23_concurrent_sights_give_their_point [[Sight (V3 0 0 0) (V3 1 0 0); Sight (V3 0 0 0) (V3 0 1 0)]] [V3 0 0 0]) as [E _].
    - repeat constructor; try (apply Hu; unfold dot; cbn; lra).
      + eexists _, _. split; [left; reflexivity|]. split; [right; left; reflexivity|]. intros [k Ek]. injection Ek as _ Ek _. cbn in Ek. lra.
      + exists 0. cbv; f_equal; ring.
      + exists 0. cbv; f_equal; ring.
    - unfold n_view_triangulation in E. cbn [map froms dirs s_from s_dir map2 seq_opt] in E.
      destruct (triangulate _ _) as [p|] in E |- *; [|discriminate]. injection E as ->. reflexivity. }
  assert (H2 : tri_one o o x x = None).
  { unfold tri_one, o, x. cbn.
    pose proof (triangulate_parallel [Sight (V3 0 0 0) (V3 1 0 0); Sight (V3 0 0 0) (V3 1 0 0)]) as E.
    cbn [map froms dirs s_from s_dir] in E. rewrite E; [reflexivity|..].
    - repeat constructor; apply Hu; unfold dot; cbn; lra.
    - intros l l' [<- | [<- | []]] [<- | [<- | []]]; exists 1; cbn; f_equal; lra. }
  split; [repeat split|]. split; [lia|]. split; [|split; [discriminate|]].
  - rewrite (los_triangulation_eq _ _ 1) by (repeat split). unfold one.
    cbn [starting_points viewing_vectors nth_error rows4 map seq_opt]. now rewrite H1.
  - rewrite (los_triangulation_eq _ _ 2) by (repeat split).
    cbn [starting_points viewing_vectors nth_error rows4 map seq_opt]. now rewrite H1, H2.
Qed.
(** In [n_view_triangulation] a view with a NaN direction counts for nothing. *)
Theorem C26_nan_view_is_ignored :
  forall sis vis s v sis' vis', length sis = length vis ->
    lon3 v = nan -> lat3 v = nan -> alt3 v = nan ->
    n_view_triangulation [sis ++ s :: sis'] [vis ++ v :: vis'] = n_view_triangulation [sis ++ sis'] [vis ++ vis'].
Proof.
  intros sis vis s v sis' vis' HL E1 E2 E3. unfold n_view_triangulation. cbn [map2 seq_opt].
  replace (triangulate (sis ++ s :: sis') (vis ++ v :: vis')) with (triangulate (sis ++ sis') (vis ++ vis')); [reflexivity|].
  assert (S1 : sum_id_vivi (vis ++ v :: vis') = sum_id_vivi (vis ++ vis')).
  { unfold sum_id_vivi, nansum. destruct v as [x y z]. cbn [lon3 lat3 alt3] in *. subst.
    apply mat_eq; rewrite !map_app, !fold_right_app; cbn; f_equal; ring. }
  assert (S2 : sum_id_vivi_si (sis ++ s :: sis') (vis ++ v :: vis') = sum_id_vivi_si (sis ++ sis') (vis ++ vis')).
  { unfold sum_id_vivi_si.
    assert (M : forall a b, map2 id_vivi_si (sis ++ a) (vis ++ b) = map2 id_vivi_si sis vis ++ map2 id_vivi_si a b).
    { clear -HL. revert vis HL. induction sis as [|x sis IH]; intros [|w vis] HL a b; try discriminate; [reflexivity|].
      injection HL as HL. cbn [app map2]. now rewrite IH. }
    rewrite !M. cbn [map2]. rewrite !map_app, !fold_right_app. cbn [map fold_right].
    replace (id_vivi_si s v) with (V3 0 0 0); [cbn [v0 v1 v2]; rewrite !Rplus_0_l; reflexivity|].
    destruct v as [x y z]. cbn [lon3 lat3 alt3] in *. subst. unfold id_vivi_si, id_vivi. cbn. f_equal; ring. }
  unfold triangulate. now rewrite S1, S2.
Qed.
Example C26_case :
  let l := Los [row_of_point (V3 0 0 0); nan3] [nan3; nan3] [row_of_point (V3 1 0 0); nan3] in
  let r := Los [row_of_point (V3 0 0 0); nan3] [nan3; nan3] [row_of_point (V3 0 1 0); row_of_point (V3 0 1 0)] in
  same_length4 l r 2 /\ los_triangulation l r = Some [row_of_point (V3 0 0 0); nan3].
Proof.
  cbv zeta. split; [repeat split|].
  destruct (C23_concurrent_sights_give_their_point [[Sight (V3 0 0 0) (V3 1 0 0); Sight (V3 0 0 0) (V3 0 1 0)]] [V3 0 0 0]) as [E _].
  - repeat constructor; try (unfold unit_dir, dot; cbn; lra).
    + eexists _, _. split; [left; reflexivity|]. split; [right; left; reflexivity|]. intros [k Ek]. injection Ek as _ Ek _. cbn in Ek. lra.
    + exists 0. cbv; f_equal; ring.
    + exists 0. cbv; f_equal; ring.
  - rewrite (los_triangulation_eq _ _ 2) by (repeat split). unfold n_view_triangulation in E.
    cbn [map froms dirs s_from s_dir map2 seq_opt] in E.
    destruct (triangulate _ _) as [p|] eqn:Et in E; [|discriminate]. injection E as ->.
    cbn. unfold tri_one. cbn. unfold row_of_point in *. cbn in Et |- *. now rewrite Et.
Qed.
(** [sensor_triangulation]: with models and a conversion that treat the points one by one, so does
    the whole chain, residues included. *)
Theorem C26_sensor_triangulation_is_pointwise :
  forall conv gl gr matches lmm rmm fill ecef wgs res,
    pointwise_conv conv -> pointwise_model gl -> pointwise_model gr ->
    sensor_triangulation conv gl gr matches lmm rmm true fill = Some (ecef, wgs, Some res) ->
    length ecef = length matches /\ length wgs = length matches /\ length res = length matches /\
    forall i m e w d, nth_error matches i = Some m -> nth_error ecef i = Some e -> nth_error wgs i = Some w ->
      nth_error res i = Some d ->
      sensor_triangulation conv gl gr [m] lmm rmm true fill = Some ([e], [w], Some [d]).
Proof.
  intros conv gl gr matches lmm rmm fill ecef wgs res [f Hf] [hl Hl] [hr Hr] H.
  unfold sensor_triangulation in H |- *.
  rewrite (los_creation_pointwise conv f gl hl (map m_left matches) lmm fill Hf Hl) in H.
  rewrite (los_creation_pointwise conv f gr hr (map m_right matches) rmm fill Hf Hr) in H.
  set (lm := match lmm with None => lm_alt_min_max gl | Some mm => mm end) in *.
  set (rm := match rmm with None => lm_alt_min_max gr | Some mm => mm end) in *.
  destruct lm as [llo lhi] eqn:EL, rm as [rlo rhi] eqn:ER. cbv beta iota zeta in H.
  set (L := Los _ _ _) in H. set (R' := Los _ _ _) in H.
  destruct (los_triangulation L R') as [out|] eqn:ET; [|discriminate]. injection H as <- <- <-.
  assert (HS : same_length4 L R' (length matches)) by (unfold same_length4, L, R'; cbn; rewrite !map_length; auto).
  destruct (C26_matches_are_independent L R' _ _ HS ET) as [HL HI].
  split; [assumption|]. split; [rewrite Hf, map_length; assumption|]. split.
  { unfold distance_point_los, n_view_distance. rewrite zip3r_length. unfold L. cbn. rewrite !map_length. lia. }
  intros i m e w d Em Ee Ew Ed. destruct (HI i e Ee) as [H1 _].
  rewrite (los_creation_pointwise conv f gl hl (map m_left [m]) lmm fill Hf Hl).
  rewrite (los_creation_pointwise conv f gr hr (map m_right [m]) rmm fill Hf Hr).
  fold lm rm. rewrite EL, ER. cbv beta iota zeta.
  set (L1 := Los _ _ _). set (R1 := Los _ _ _).
  assert (E1 : one L i = L1).
  { unfold one, L, L1. cbn. rewrite !nth_error_map, Em. reflexivity. }
  assert (E2 : one R' i = R1).
  { unfold one, R', R1. cbn. rewrite !nth_error_map, Em. reflexivity. }
  rewrite <- E1, <- E2, H1. do 3 f_equal.
  - rewrite Hf in *. cbn. rewrite nth_error_map, Ee in Ew. cbn in Ew. congruence.
  - f_equal. rewrite E1.
    unfold distance_point_los, n_view_distance, L in Ed. cbn in Ed. rewrite !map_map in Ed.
    erewrite zip3r_nth in Ed; [|rewrite nth_error_map, Em; reflexivity|rewrite nth_error_map, Em; reflexivity|exact Ee].
    injection Ed as <-. reflexivity.
Qed.

(** C27.  Pixel (i, j) of a disparity map of [nr] lines and [nc] columns is at position i*nc + j. *)
Theorem C27_pixels_become_matches :
  forall rows cols disp mask left right ok,
    shaped (length rows) (length cols) disp ->
    match mask with Some m => shaped (length rows) (length cols) m | None => True end ->
    transform_disp_to_matches rows cols disp mask = (left, right, ok) ->
    length ok = (length rows * length cols)%nat /\ length left = count ok /\ length right = count ok /\
    forall i j r c line d, nth_error rows i = Some r -> nth_error cols j = Some c ->
      nth_error disp i = Some line -> nth_error line j = Some d ->
      let n := (i * length cols + j)%nat in
      (nth_error ok n = Some true <-> selected mask i j) /\
      (selected mask i j ->
         nth_error left (rank ok n) = Some (fin c, fin r) /\ nth_error right (rank ok n) = Some (nadd (fin c) d, fin r)).
Proof.
  intros rows cols disp mask left right ok HD HM H. unfold transform_disp_to_matches in H.
  pose proof (meshgrid_col_shaped rows cols) as HC. pose proof (meshgrid_row_shaped rows cols) as HR.
  pose proof (concat_length_shaped _ _ _ HD) as LD. pose proof (concat_length_shaped _ _ _ HC) as LC.
  pose proof (concat_length_shaped _ _ _ HR) as LR.
  assert (ND : forall i j r c line d, nth_error rows i = Some r -> nth_error cols j = Some c ->
      nth_error disp i = Some line -> nth_error line j = Some d ->
      nth_error (concat (meshgrid_col rows cols)) (i * length cols + j) = Some c /\
      nth_error (concat (meshgrid_row rows cols)) (i * length cols + j) = Some r /\
      nth_error (concat disp) (i * length cols + j) = Some d).
  { intros i j r c line d E1 E2 E3 E4. split; [|split].
    - apply (concat_nth _ _ _ i j cols c HC); [|exact E2]. unfold meshgrid_col. now rewrite nth_error_map, E1.
    - apply (concat_nth _ _ _ i j (map (fun _ => r) cols) r HR); [|now rewrite nth_error_map, E2].
      unfold meshgrid_row. now rewrite nth_error_map, E1.
    - now apply (concat_nth _ _ _ i j line d HD). }
  destruct mask as [m|]; injection H as <- <- <-.
  - set (ok := map (fun v => Rltb 0 v) (concat m)).
    pose proof (concat_length_shaped _ _ _ HM) as LM.
    assert (Lok : length ok = (length rows * length cols)%nat) by (unfold ok; now rewrite map_length).
    split; [assumption|].
    assert (G : forall A (a : list A), length a = (length rows * length cols)%nat -> length (gather ok a) = count ok).
    { intros A a Ha. apply gather_length. lia. }
    split; [rewrite map2_length, !G by assumption; lia|].
    split; [rewrite !map2_length, map_length, !G by assumption; lia|].
    intros i j r c line d E1 E2 E3 E4 n. destruct (ND i j r c line d E1 E2 E3 E4) as (N1 & N2 & N3). fold n in N1, N2, N3.
    assert (HS : nth_error ok n = Some true <-> selected (Some m) i j).
    { destruct HM as [HM1 HM2].
      assert (Hi : (i < length rows)%nat) by (apply nth_error_Some; congruence).
      assert (Hj : (j < length cols)%nat) by (apply nth_error_Some; congruence).
      destruct (nth_error m i) as [ml|] eqn:Em; [|apply nth_error_None in Em; lia].
      assert (Hml : length ml = length cols) by (rewrite Forall_forall in HM2; eapply HM2, nth_error_In, Em).
      destruct (nth_error ml j) as [v|] eqn:Ev; [|apply nth_error_None in Ev; lia].
      assert (Eo : nth_error ok n = Some (Rltb 0 v)).
      { unfold ok. rewrite nth_error_map. unfold n.
        rewrite (concat_nth (length rows) (length cols) m i j ml v); [reflexivity|split; assumption|assumption..]. }
      rewrite Eo. unfold selected. split.
      - intros [= E]. apply Rltb_true in E. eauto.
      - intros (l' & v' & F1 & F2 & F3). rewrite Em in F1. injection F1 as <-. rewrite Ev in F2. injection F2 as <-.
        f_equal. now apply Rltb_true. }
    split; [assumption|]. intros HSel. apply HS in HSel. split.
    + erewrite map2_nth; [reflexivity|apply gather_nth; eassumption|apply gather_nth; eassumption].
    + erewrite map2_nth; [reflexivity| |rewrite nth_error_map; erewrite gather_nth by eassumption; reflexivity].
      erewrite map2_nth; [reflexivity|apply gather_nth; eassumption|apply gather_nth; eassumption].
  - set (ok := map (fun _ : num => true) (concat disp)).
    assert (Hok : ok = repeat true (length (concat disp))).
    { unfold ok. clear. induction (concat disp) as [|x l IH]; [reflexivity|]. simpl. now f_equal. }
    assert (Hrk : forall k n, (n <= k)%nat -> rank (repeat true k) n = n).
    { unfold rank. induction k as [|k IH]; intros [|n] Hn; try lia; [reflexivity..|]. simpl. f_equal. apply IH. lia. }
    assert (Hct : count ok = (length rows * length cols)%nat).
    { rewrite Hok, <- LD. unfold count. clear. induction (length (concat disp)) as [|k IH]; [reflexivity|]. simpl. now rewrite IH. }
    split; [unfold ok; now rewrite map_length|].
    split; [rewrite map2_length; lia|]. split; [rewrite !map2_length, map_length; lia|].
    intros i j r c line d E1 E2 E3 E4 n. destruct (ND i j r c line d E1 E2 E3 E4) as (N1 & N2 & N3). fold n in N1, N2, N3.
    assert (Hn : (n < length (concat disp))%nat) by (apply nth_error_Some; congruence).
    split.
    + unfold ok. rewrite nth_error_map, N3. cbn. tauto.
    + intros _. rewrite Hok, Hrk by lia. split.
      * erewrite map2_nth; [reflexivity|eassumption..].
      * erewrite map2_nth; [reflexivity| |rewrite nth_error_map, N2; reflexivity].
        erewrite map2_nth; [reflexivity|eassumption..].
Qed.
Example C27_case :
  let disp := [[fin 5; nan]; [fin 6; fin 7]] in
  let mask := Some [[1; 0]; [0; 2]] in
  shaped 2 2 disp /\ shaped 2 2 [[1; 0]; [0; 2]] /\
  transform_disp_to_matches [10; 11] [20; 21] disp mask
  = ([(fin 20, fin 10); (fin 21, fin 11)], [(fin (20 + 5), fin 10); (fin (21 + 7), fin 11)], [true; false; false; true]).
Proof.
  cbv zeta. split; [repeat constructor|]. split; [repeat constructor|].
  unfold transform_disp_to_matches. cbn [concat app map].
  assert (E1 : Rltb 0 1 = true) by (apply Rltb_true; lra). assert (E0 : Rltb 0 0 = false) by (apply Rltb_false; lra).
  assert (E2 : Rltb 0 2 = true) by (apply Rltb_true; lra). rewrite E1, E0, E2. reflexivity.
Qed.
(** [epipolar_triangulation] of a disparity map puts the point of each selected pixel at the place of
    the pixel, and zeros at the masked pixels. *)
Theorem C27_points_return_to_their_pixels :
  forall conv gl gr il ir rows cols disp mask lmm rmm fill left right ok ecef wgs res e0 w0 r0,
    transform_disp_to_matches rows cols disp mask = (left, right, ok) ->
    sensor_triangulation conv gl gr (map2 Match (il left) (ir right)) lmm rmm true fill = Some (e0, w0, Some r0) ->
    epipolar_triangulation conv gl gr il ir (Disp rows cols disp mask) lmm rmm true fill = Some (ecef, wgs, res) ->
    length ecef = length ok /\ length wgs = length ok /\ length res = length ok /\
    (forall n, nth_error ok n = Some false ->
       nth_error ecef n = Some (R3 (fin 0) (fin 0) (fin 0)) /\ nth_error wgs n = Some (R3 (fin 0) (fin 0) (fin 0)) /\ nth_error res n = Some [fin 0]) /\
    (forall n e w r, nth_error ok n = Some true -> nth_error e0 (rank ok n) = Some e ->
       nth_error w0 (rank ok n) = Some w -> nth_error r0 (rank ok n) = Some r ->
       nth_error ecef n = Some e /\ nth_error wgs n = Some w /\ nth_error res n = Some r).
Proof.
  intros conv gl gr il ir rows cols disp mask lmm rmm fill left right ok ecef wgs res e0 w0 r0 HT HS H.
  unfold epipolar_triangulation in H. rewrite HT, HS in H. injection H as <- <- <-.
  rewrite !scatter_length, !map_length. split; [reflexivity|]. split; [reflexivity|]. split; [reflexivity|]. split.
  - intros n Hn.
    assert (Z1 : forall A (z : A), nth_error (map (fun _ : bool => z) ok) n = Some z) by (intros; now rewrite nth_error_map, Hn).
    repeat split; apply scatter_nth_false; auto.
  - intros n e w r Hn He Hw Hr.
    assert (Z1 : forall A (z : A), nth_error (map (fun _ : bool => z) ok) n = Some z) by (intros; now rewrite nth_error_map, Hn).
    repeat split; eapply scatter_nth_true; eauto.
Qed.

(** C28. *)
Theorem C28_unit_viewing_vectors :
  forall conv g positions amm fill L,
    pointwise_conv conv -> sized_model g ->
    los_creation conv g positions amm fill = Some L ->
    exists lo hi top bottom,
      (lo, hi) = match amm with None => lm_alt_min_max g | Some mm => mm end /\
      lm_direct g (map snd positions) (map fst positions) hi fill = Some top /\
      lm_direct g (map snd positions) (map fst positions) lo fill = Some bottom /\
      starting_points L = conv 4326%Z 4978%Z top /\ ending_points L = conv 4326%Z 4978%Z bottom /\
      length (starting_points L) = length positions /\ length (ending_points L) = length positions /\
      length (viewing_vectors L) = length positions /\
      forall i s e v, nth_error (starting_points L) i = Some s -> nth_error (ending_points L) i = Some e ->
        nth_error (viewing_vectors L) i = Some v ->
        (exists a b u t, s = row_of_point a /\ e = row_of_point b /\ v = row_of_point u /\
           unit_dir (Sight b u) /\ 0 < t /\ a = point_at (Sight b u) t) \/
        ((s = e \/ finite3 s = false \/ finite3 e = false) /\ v = nan3).
Proof.
  intros conv g positions amm fill L [f Hf] Hs H.
  destruct (match amm with None => lm_alt_min_max g | Some mm => mm end) as [lo hi] eqn:EA.
  destruct (lm_direct g (map snd positions) (map fst positions) hi fill) as [top|] eqn:ET.
  2: { unfold los_creation in H. rewrite EA, ET in H. discriminate. }
  destruct (lm_direct g (map snd positions) (map fst positions) lo fill) as [bottom|] eqn:EB.
  2: { unfold los_creation in H. rewrite EA, ET, EB in H. discriminate. }
  pose proof (Hs _ _ _ _ ET) as LT. pose proof (Hs _ _ _ _ EB) as LB.
  rewrite (los_creation_sized conv f g positions amm fill lo hi top bottom) in H; [|auto|exact EA|auto|auto|congruence].
  injection H as <-.
  exists lo, hi, top, bottom. split; [reflexivity|]. split; [assumption|]. split; [assumption|].
  cbn [starting_points ending_points viewing_vectors]. rewrite !Hf, map2_length, !map_length, LT, LB, Nat.min_id.
  do 5 (split; [reflexivity|]). intros i s e v E1 E2 E3.
  rewrite (map2_nth _ _ _ _ _ _ E1 E2) in E3. injection E3 as <-. clear.
  destruct s as [[s0|] [s1|] [s2|]], e as [[e0|] [e1|] [e2|]];
    try (right; split; [cbn; tauto|]; unfold viewing_vector; cbn; reflexivity).
  unfold viewing_vector. cbn [row_sub lon3 lat3 alt3 nsub nlift2].
  set (d := V3 (s0 - e0) (s1 - e1) (s2 - e2)).
  replace (vec_norm _) with (Some (sqrt (dot d d))) by reflexivity.
  destruct (Reqb_spec (sqrt (dot d d)) 0) as [Hz|Hz].
  - right. split; [left|reflexivity]. apply sqrt_eq_0 in Hz; [|apply dot_pos].
    apply sum_sq_zero in Hz. destruct Hz as (Z0 & Z1 & Z2). unfold d in *. cbn in Z0, Z1, Z2.
    f_equal; f_equal; lra.
  - left. set (t := sqrt (dot d d)) in *.
    assert (Ht : 0 < t) by (pose proof (sqrt_pos (dot d d)); unfold t in *; lra).
    exists (V3 s0 s1 s2), (V3 e0 e1 e2), (V3 ((s0 - e0) / t) ((s1 - e1) / t) ((s2 - e2) / t)), t.
    repeat split.
    + unfold row_of_point. cbn. unfold nsub, nlift2, ndiv. destruct (Req_EM_T t 0); [lra|reflexivity].
    + assert (Ett : t * t = dot d d) by (apply sqrt_sqrt, dot_pos).
      unfold unit_dir, dot. cbn [s_dir v0 v1 v2]. unfold dot, d in Ett. cbn in Ett.
      replace (_ + _ + _) with (((s0 - e0) * (s0 - e0) + (s1 - e1) * (s1 - e1) + (s2 - e2) * (s2 - e2)) / (t * t)) by (field; lra).
      rewrite <- Ett. field. lra.
    + assumption.
    + unfold point_at. cbn. f_equal; field; lra.
Qed.
(** A sensor looking straight down: the identity conversion, positions (col, row) above (row, col). *)
Definition nadir28 : loc_model :=
  LocModel (fun rows cols alt _ => Some (map2 (fun r c => R3 c r (fin alt)) rows cols)) (0, 10).
Lemma pointwise_sized g : pointwise_model g -> sized_model g.
Proof. intros [f Hf] pos alt fill out H. rewrite Hf in H. injection H as <-. apply map_length. Qed.
Example C28_case :
  pointwise_conv (fun _ _ l => l) /\ sized_model nadir28 /\
  los_creation (fun _ _ l => l) nadir28 [(fin 3, fin 4); (nan, fin 4)] None false
  = Some (Los [R3 (fin 3) (fin 4) (fin 10); R3 nan (fin 4) (fin 10)] [R3 (fin 3) (fin 4) (fin 0); R3 nan (fin 4) (fin 0)]
              [R3 (fin 0) (fin 0) (fin 1); nan3]).
Proof.
  split; [exists (fun _ _ p => p); intros; now rewrite map_id|]. split.
  - apply pointwise_sized.
    exists (fun r c alt _ => R3 c r (fin alt)). intros pos alt fill. cbn. now rewrite map2_map_same.
  - unfold los_creation. cbn. do 2 f_equal. unfold viewing_vector. cbn.
    replace ((3 - 3) * (3 - 3) + (4 - 4) * (4 - 4) + (10 - 0) * (10 - 0)) with (10 * 10) by ring.
    rewrite sqrt_square by lra. destruct (Reqb_spec 10 0) as [|_]; [lra|]. cbn.
    unfold ndiv, fin. destruct (Req_EM_T 10 0) as [|_]; [lra|]. repeat f_equal; lra.
Qed.

(** A vertical and an oblique sensor looking at (0, 0, 4): the match (0, 0), (-3, 0). *)
Definition oblique28 : loc_model :=
  LocModel (fun rows cols alt _ => Some (map2 (fun r c => R3 (nadd c (fin (3 / 4 * alt))) r (fin alt)) rows cols)) (0, 4).
Lemma pointwise_nadir : pointwise_model nadir28.
Proof. exists (fun r c alt _ => R3 c r (fin alt)). intros pos alt fill. cbn. now rewrite map2_map_same. Qed.
Lemma pointwise_oblique : pointwise_model oblique28.
Proof.
  exists (fun r c alt _ => R3 (nadd c (fin (3 / 4 * alt))) r (fin alt)). intros pos alt fill. cbn. now rewrite map2_map_same.
Qed.
Lemma sensor_case :
  sensor_triangulation (fun _ _ l => l) nadir28 oblique28 [Match (fin 0, fin 0) (fin (0 + -3), fin 0)]
    (Some (0, 4)) None true false
  = Some ([row_of_point (V3 0 0 4)], [row_of_point (V3 0 0 4)], Some [[fin 0]]).
Proof.
  pose (a := Sight (V3 0 0 4) (V3 0 0 1)). pose (b := Sight (V3 0 0 4) (V3 (3 / 5) 0 (4 / 5))).
  assert (EL : los_creation (fun _ _ l => l) nadir28 [(fin 0, fin 0)] (Some (0, 4)) false
    = Some (Los [row_of_point (s_from a)] [row_of_point (V3 0 0 0)] [row_of_point (s_dir a)])).
  { unfold los_creation, viewing_vector. cbn. unfold viewing_vector. cbn.
    replace ((0 - 0) * (0 - 0) + (0 - 0) * (0 - 0) + (4 - 0) * (4 - 0)) with (4 * 4) by ring.
    rewrite sqrt_square by lra. destruct (Reqb_spec 4 0) as [|_]; [lra|]. cbn. unfold row_of_point, ndiv, fin. cbn.
    destruct (Req_EM_T 4 0) as [|_]; [lra|]. repeat f_equal; lra. }
  assert (ER : los_creation (fun _ _ l => l) oblique28 [(fin (0 + -3), fin 0)] None false
    = Some (Los [row_of_point (s_from b)] [row_of_point (V3 (-3) 0 0)] [row_of_point (s_dir b)])).
  { unfold los_creation. cbn. unfold viewing_vector. cbn.
    replace ((0 + -3 + 3 / 4 * 4 - (0 + -3 + 3 / 4 * 0)) * (0 + -3 + 3 / 4 * 4 - (0 + -3 + 3 / 4 * 0))
      + (0 - 0) * (0 - 0) + (4 - 0) * (4 - 0)) with (5 * 5) by field.
    rewrite sqrt_square by lra. destruct (Reqb_spec 5 0) as [|_]; [lra|]. cbn. unfold row_of_point, ndiv, fin. cbn.
    destruct (Req_EM_T 5 0) as [|_]; [lra|]. repeat f_equal; lra. }
  assert (Ua : unit_dir a) by (unfold unit_dir, dot; cbn; lra).
  assert (Ub : unit_dir b) by (unfold unit_dir, dot; cbn; lra).
  destruct (C23_concurrent_sights_give_their_point [[a; b]] [V3 0 0 4]) as [E _].
  { repeat constructor; try assumption.
    - exists a, b. repeat split; [simpl; tauto|simpl; tauto|]. intros [k Ek]. injection Ek as Ek _. lra.
    - exists 0. cbv; f_equal; ring.
    - exists 0. cbv; f_equal; ring. }
  destruct (C23_concurrent_sights_give_their_point [[a; b]] [V3 0 0 4]) as [_ ED].
  { repeat constructor; try assumption.
    - exists a, b. repeat split; [simpl; tauto|simpl; tauto|]. intros [k Ek]. injection Ek as Ek _. lra.
    - exists 0. cbv; f_equal; ring.
    - exists 0. cbv; f_equal; ring. }
  unfold sensor_triangulation. cbn [map m_left m_right]. rewrite EL, ER, (los_triangulation_eq _ _ 1) by (repeat split).
  cbn [starting_points viewing_vectors rows4 map seq_opt].
  assert (HT : tri_one (row_of_point (s_from a)) (row_of_point (s_from b)) (row_of_point (s_dir a)) (row_of_point (s_dir b))
    = Some (row_of_point (V3 0 0 4))).
  { unfold n_view_triangulation in E. cbn [map map2 froms dirs seq_opt] in E. unfold tri_one.
    replace (forallb finite3 _ && forallb finite3 _) with true by reflexivity.
    destruct (triangulate _ _) as [p|] in E |- *; [|discriminate]. injection E as ->. reflexivity. }
  rewrite HT. do 3 f_equal. unfold distance_point_los. cbn [starting_points viewing_vectors map].
  unfold n_view_distance in *. cbn [map froms dirs zip3r point_distances map2] in ED |- *. injection ED as E1 _.
  unfold fin. transitivity [[Some (sqrt (((0 - 0) * 1 - (4 - 4) * 0) * ((0 - 0) * 1 - (4 - 4) * 0) +
        ((4 - 4) * 0 - (0 - 0) * 1) * ((4 - 4) * 0 - (0 - 0) * 1) +
        ((0 - 0) * 0 - (0 - 0) * 0) * ((0 - 0) * 0 - (0 - 0) * 0)))]]; [reflexivity|now rewrite E1].
Qed.
Example C26_sensor_case :
  pointwise_conv (fun _ _ l => l) /\ pointwise_model nadir28 /\ pointwise_model oblique28 /\
  exists ecef wgs res, sensor_triangulation (fun _ _ l => l) nadir28 oblique28 [Match (fin 0, fin 0) (fin (0 + -3), fin 0)]
    (Some (0, 4)) None true false = Some (ecef, wgs, Some res) /\ length ecef = 1%nat.
Proof.
  split; [exists (fun _ _ p => p); intros; now rewrite map_id|]. split; [apply pointwise_nadir|].
  split; [apply pointwise_oblique|]. rewrite sensor_case. eexists _, _, _. split; reflexivity.
Qed.
Example C27_epipolar_case :
  epipolar_triangulation (fun _ _ l => l) nadir28 oblique28 (fun l => l) (fun l => l)
    (Disp [0] [7; 0] [[nan; fin (-3)]] (Some [[0; 1]])) (Some (0, 4)) None true false
  = Some ([R3 (fin 0) (fin 0) (fin 0); row_of_point (V3 0 0 4)], [R3 (fin 0) (fin 0) (fin 0); row_of_point (V3 0 0 4)], [[fin 0]; [fin 0]]).
Proof.
  unfold epipolar_triangulation, transform_disp_to_matches. cbn [concat app map meshgrid_col meshgrid_row].
  assert (E1 : Rltb 0 1 = true) by (apply Rltb_true; lra). assert (E0 : Rltb 0 0 = false) by (apply Rltb_false; lra).
  rewrite E1, E0. cbn [gather map map2 nadd nlift2 fin]. fold (fin (0 + -3)). fold (fin 0). 
  pose proof sensor_case as S. unfold fin in S |- *. rewrite S. reflexivity.
Qed.
