(** The left image, the footprint and the grid in the epipolar frame. *)
From Coq Require Import Reals ZArith List Bool Lra Lia.
From Verif Require Import Num NumLemmas ProjModel RpcModel RpcDtmModel LocModel TriModel TriBatch RectModel RectSpec RectProofs RectStrip RectGrid.
Import ListNotations.
Open Scope R_scope.

Lemma lin_between : forall A X x, 0 <= x <= X -> Rmin (A * X) 0 <= A * x <= Rmax (A * X) 0.
Proof.
  intros A X x H. destruct (Rle_dec 0 A).
  - rewrite Rmin_right, Rmax_left by nra. nra.
  - rewrite Rmin_left, Rmax_right by nra. nra.
Qed.
Lemma lin_box : forall A B X Y x y, 0 <= x <= X -> 0 <= y <= Y ->
  min4 (A * X) (B * Y) (A * X + B * Y) 0 <= A * x + B * y <= max4 (A * X) (B * Y) (A * X + B * Y) 0.
Proof.
  intros A B X Y x y Hx Hy.
  pose proof (lin_between A X x Hx) as H1. pose proof (lin_between B Y y Hy) as H2.
  unfold min4, max4, Rmin, Rmax in *.
  repeat match goal with |- context [Rle_dec ?a ?b] => destruct (Rle_dec a b) | H : context [Rle_dec ?a ?b] |- _ => destruct (Rle_dec a b) end; lra.
Qed.

Definition upright (im : left_image) : Prop := af_b (li_transform im) = 0 /\ af_d (li_transform im) = 0.

Definition box_minx (b : R * R * R * R) : R := let '(a, _, _, _) := b in a.
Definition box_miny (b : R * R * R * R) : R := let '(_, a, _, _) := b in a.
Definition box_maxx (b : R * R * R * R) : R := let '(_, _, a, _) := b in a.
Definition box_maxy (b : R * R * R * R) : R := let '(_, _, _, a) := b in a.

Lemma box_contains : forall im alpha r c, upright im -> 0 <= r <= IZR (li_rows im) -> 0 <= c <= IZR (li_cols im) ->
  let o := transform_index_to_physical_point (li_transform im) 0 0 in
  let p := transform_index_to_physical_point (li_transform im) r c in
  let b := epipolar_box im alpha in
  box_minx b <= along alpha (fst o) (snd o) (fst p) (snd p) <= box_maxx b /\
  box_miny b <= across alpha (fst o) (snd o) (fst p) (snd p) <= box_maxy b.
Proof.
  intros im alpha r c [Hb Hd] Hr Hc. unfold transform_index_to_physical_point, affine_apply, along, across; cbn [fst snd].
  rewrite Hb, Hd. unfold epipolar_box, box_minx, box_miny, box_maxx, box_maxy.
  set (w := af_a (li_transform im)). set (h := af_e (li_transform im)).
  set (nc := IZR (li_cols im)) in *. set (nr := IZR (li_rows im)) in *.
  pose proof (lin_box (cos alpha * w) (sin alpha * h) nc nr c r Hc Hr) as B1.
  pose proof (lin_box (- sin alpha * w) (cos alpha * h) nc nr c r Hc Hr) as B2.
  replace (cos alpha * nc * w) with (cos alpha * w * nc) by ring.
  replace (sin alpha * nr * h) with (sin alpha * h * nr) by ring.
  replace (- sin alpha * nc * w) with (- sin alpha * w * nc) by ring.
  replace (cos alpha * nr * h) with (cos alpha * h * nr) by ring.
  split.
  - match goal with |- _ <= ?e <= _ => replace e with (cos alpha * w * c + sin alpha * h * r) by ring end. exact B1.
  - match goal with |- _ <= ?e <= _ => replace e with (- sin alpha * w * c + cos alpha * h * r) by ring end. exact B2.
Qed.

Lemma box_ordered : forall im alpha, (0 <= li_rows im)%Z -> (0 <= li_cols im)%Z ->
  let b := epipolar_box im alpha in box_minx b <= 0 <= box_maxx b /\ box_miny b <= 0 <= box_maxy b.
Proof.
  intros im alpha Hr Hc b. unfold b, epipolar_box, box_minx, box_miny, box_maxx, box_maxy, min4, max4.
  repeat split; auto using Rmin_r, Rmax_r.
Qed.

(** The number of nodes of a side. *)
Definition nodes_of (extent sp step : R) (margin : Z) : Z :=
  (Rtrunc (IZR (Rtrunc (extent / sp)) / step + 2) + 2 * margin)%Z.

Lemma grid_size_eq : forall im step margin alpha alt,
  let b := epipolar_box im alpha in
  pr_grid_size (prepare_at im step margin alpha alt)
  = (nodes_of (box_maxy b - box_miny b) (mean_spacing im) step margin, nodes_of (box_maxx b - box_minx b) (mean_spacing im) step margin).
Proof.
  intros. unfold prepare_at, b. destruct (transform_index_to_physical_point _ _ _) as [r c].
  destruct (epipolar_box im alpha) as [[[minx miny] maxx] maxy]. reflexivity.
Qed.

Lemma trunc_div : forall extent sp, 0 <= extent -> 0 < sp ->
  (0 <= Rtrunc (extent / sp))%Z /\ IZR (Rtrunc (extent / sp)) * sp <= extent < (IZR (Rtrunc (extent / sp)) + 1) * sp.
Proof.
  intros extent sp He Hs.
  assert (Hq : 0 <= extent / sp) by (apply Rle_mult_inv_pos; auto).
  rewrite Rtrunc_nonneg by auto. pose proof (Rfloor_bounds (extent / sp)) as B.
  split; [apply (le_floor 0); exact Hq|].
  assert (E : extent = extent / sp * sp) by (field; lra).
  set (q := extent / sp) in *. set (z := IZR (Rfloor q)) in *. nra.
Qed.

Lemma nodes_enough : forall extent sp step margin, 0 <= extent -> 0 < sp -> 0 < step ->
  let n := Rtrunc (extent / sp) in
  let N := nodes_of extent sp step margin in
  IZR n <= (IZR N - 1 - 2 * IZR margin) * step /\ (IZR N - 2 - 2 * IZR margin) * step <= IZR n.
Proof.
  intros extent sp step margin He Hs Hst n N.
  destruct (trunc_div extent sp He Hs) as [Hn _]. fold n in Hn.
  assert (Hq : 0 <= IZR n / step) by (apply Rle_mult_inv_pos; auto; apply IZR_le; auto).
  unfold N, nodes_of. fold n. rewrite Rtrunc_nonneg by lra. rewrite plus_IZR, mult_IZR.
  pose proof (Rfloor_bounds (IZR n / step + 2)) as B.
  set (F := IZR (Rfloor (IZR n / step + 2))) in *.
  assert (E : IZR n = IZR n / step * step) by (field; lra).
  set (q := IZR n / step) in *. nra.
Qed.

Lemma nodes_cover_int : forall extent sp k margin, 0 <= extent -> 0 < sp -> (0 < k)%Z ->
  extent <= (IZR (nodes_of extent sp (IZR k) margin) - 1 - 2 * IZR margin) * (IZR k * sp).
Proof.
  intros extent sp k margin He Hs Hk.
  destruct (trunc_div extent sp He Hs) as [Hn Hb]. set (n := Rtrunc (extent / sp)) in *.
  assert (Hkr : 0 < IZR k) by (apply IZR_lt; auto).
  assert (F : Rtrunc (IZR n / IZR k + 2) = (n / k + 2)%Z).
  { assert (Hq : 0 <= IZR n / IZR k) by (apply Rle_mult_inv_pos; auto; apply IZR_le; auto).
    rewrite Rtrunc_nonneg by lra. apply Rfloor_unique. rewrite plus_IZR.
    pose proof (Z.div_mod n k ltac:(lia)) as DM. pose proof (Z.mod_pos_bound n k Hk) as MB.
    assert (E : IZR n = IZR k * IZR (n / k) + IZR (n mod k)) by (rewrite <- mult_IZR, <- plus_IZR; f_equal; exact DM).
    assert (M0 : 0 <= IZR (n mod k)) by (apply (IZR_le 0); lia).
    assert (M1 : IZR (n mod k) < IZR k) by (apply IZR_lt; lia).
    assert (Q : IZR n / IZR k = IZR (n / k) + IZR (n mod k) / IZR k) by (rewrite E; field; lra).
    assert (Q0 : 0 <= IZR (n mod k) / IZR k) by (apply Rle_mult_inv_pos; auto).
    assert (Q1 : IZR (n mod k) / IZR k < 1).
    { apply Rmult_lt_reg_r with (IZR k); auto. unfold Rdiv. rewrite Rmult_assoc, Rinv_l; lra. }
    rewrite Q. lra. }
  unfold nodes_of. fold n. rewrite F. rewrite !plus_IZR, mult_IZR.
  assert (L : IZR n + 1 <= (IZR (n / k) + 1) * IZR k).
  { rewrite <- !plus_IZR, <- mult_IZR. apply IZR_le.
    pose proof (Z.div_mod n k ltac:(lia)). pose proof (Z.mod_pos_bound n k Hk). nia. }
  apply Rle_trans with ((IZR n + 1) * sp); [lra|].
  replace ((IZR (n / k) + 2 + 2 * IZR margin - 1 - 2 * IZR margin) * (IZR k * sp)) with ((IZR (n / k) + 1) * IZR k * sp) by ring.
  apply Rmult_le_compat_r; lra.
Qed.

(** Where the start and the footprint are. *)
Lemma start_eq : forall im step margin alpha alt,
  let b := epipolar_box im alpha in
  let o := transform_index_to_physical_point (li_transform im) 0 0 in
  let m := IZR margin * step * mean_spacing im in
  pr_start (prepare_at im step margin alpha alt)
  = R3 (fin (fst (from_frame alpha (fst o) (snd o) (box_minx b - m) (box_miny b - m))))
       (fin (snd (from_frame alpha (fst o) (snd o) (box_minx b - m) (box_miny b - m)))) alt.
Proof.
  intros. unfold prepare_at, b, o. destruct (transform_index_to_physical_point _ _ _) as [r c].
  destruct (epipolar_box im alpha) as [[[minx miny] maxx] maxy]. cbn [pr_start fst snd box_minx box_miny]. unfold from_frame, m; cbn [fst snd].
  f_equal; f_equal; ring.
Qed.

Lemma frame_coords : forall alpha r0 c0 x y,
  along alpha r0 c0 (fst (from_frame alpha r0 c0 x y)) (snd (from_frame alpha r0 c0 x y)) = x /\
  across alpha r0 c0 (fst (from_frame alpha r0 c0 x y)) (snd (from_frame alpha r0 c0 x y)) = y.
Proof.
  intros. unfold along, across, from_frame; cbn [fst snd]. pose proof (sin2_cos2 alpha) as E. unfold Rsqr in E.
  split.
  - transitivity (x * (sin alpha * sin alpha + cos alpha * cos alpha)); [ring|rewrite E; ring].
  - transitivity (y * (sin alpha * sin alpha + cos alpha * cos alpha)); [ring|rewrite E; ring].
Qed.
Lemma frame_shift : forall alpha r0 c0 x y row col,
  let q := from_frame alpha r0 c0 x y in
  along alpha (fst q) (snd q) row col = along alpha r0 c0 row col - x /\
  across alpha (fst q) (snd q) row col = across alpha r0 c0 row col - y.
Proof.
  intros alpha r0 c0 x y row col q.
  destruct (frame_coords alpha r0 c0 x y) as [E1 E2]. fold q in E1, E2. unfold along, across in *. lra.
Qed.

(** A grid of constant direction. *)
Section Regular.
  Context {D : Type} (pl pr : pmodel D) (s : surface D) (off : R) (alpha : R).
  Hypothesis (Hconst : forall p, angle_at pl pr s off p = alpha).

  Definition at_frame (p : vec3) (x y : R) : vec3 :=
    let q := from_frame alpha (v0 p) (v1 p) x y in V3 (fst q) (snd q) (v2 p).

  Lemma trail_regular1 : forall d n j p, (j < n)%nat ->
    nth_error (trail pl pr s off 1 d n (p, alpha)) j = Some (at_frame p (INR (S j) * d) 0, alpha).
  Proof.
    intros d n. induction n as [|n IH]; intros j p Hj; [lia|].
    destruct j as [|j].
    - cbn [trail nth_error]. replace (step1 pl pr s off 1 d (p, alpha)) with (moved 1 d p alpha, alpha) by (unfold step1; rewrite Hconst; reflexivity). f_equal. f_equal.
      unfold moved, at_frame, from_frame; cbn. f_equal; ring.
    - cbn [trail nth_error]. replace (step1 pl pr s off 1 d (p, alpha)) with (moved 1 d p alpha, alpha) by (unfold step1; rewrite Hconst; reflexivity). rewrite IH by lia. f_equal. f_equal.
      unfold moved, at_frame, from_frame. change (1 =? 1)%Z with true. cbv iota. cbn [fst snd v0 v1 v2]. rewrite !S_INR. f_equal; ring.
  Qed.
  Lemma trail_regular0 : forall d n j p, (j < n)%nat ->
    nth_error (trail pl pr s off 0 d n (p, alpha)) j = Some (at_frame p 0 (INR (S j) * d), alpha).
  Proof.
    intros d n. induction n as [|n IH]; intros j p Hj; [lia|].
    destruct j as [|j].
    - cbn [trail nth_error]. replace (step1 pl pr s off 0 d (p, alpha)) with (moved 0 d p alpha, alpha) by (unfold step1; rewrite Hconst; reflexivity). f_equal. f_equal.
      unfold moved, at_frame, from_frame; cbn. f_equal; ring.
    - cbn [trail nth_error]. replace (step1 pl pr s off 0 d (p, alpha)) with (moved 0 d p alpha, alpha) by (unfold step1; rewrite Hconst; reflexivity). rewrite IH by lia. f_equal. f_equal.
      unfold moved, at_frame, from_frame. change (0 =? 1)%Z with false. cbv iota. cbn [fst snd v0 v1 v2]. rewrite !S_INR. f_equal; ring.
  Qed.

  Lemma grid_regular : forall d g0 g1 p i j, (i < g0)%nat -> (j < g1)%nat ->
    entry (grid_nodes pl pr s off d g0 g1 p) i j = Some (at_frame p (INR j * d) (INR i * d), alpha).
  Proof.
    intros d g0 g1 p i j Hi Hj. unfold entry, grid_nodes. rewrite nth_error_map.
    assert (C : nth_error (grid_column pl pr s off d g0 p) i = Some (at_frame p 0 (INR i * d), alpha)).
    { unfold grid_column. rewrite Hconst. destruct i as [|i]; cbn [nth_error].
      - f_equal. f_equal. unfold at_frame, from_frame; cbn. destruct p; cbn. f_equal; ring.
      - apply trail_regular0. lia. }
    rewrite C. cbn [option_map]. destruct j as [|j]; cbn [nth_error].
    - cbn [INR]. rewrite Rmult_0_l. reflexivity.
    - rewrite trail_regular1 by lia. f_equal. f_equal.
      unfold at_frame, from_frame; cbn [fst snd v0 v1 v2]. f_equal; ring.
  Qed.
End Regular.
