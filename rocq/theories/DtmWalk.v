(** Lemmas on the walk of a line of sight over the DTM. *)
From Coq Require Import Reals ZArith List Bool Lra Lia Psatz.
From Verif Require Import Num NumLemmas InterpModel InterpSpec InterpProofs ProjModel DtmModel DtmSpec
  DtmCube.
Import ListNotations.
Open Scope R_scope.

(** ** One axis *)
Definition xexit (x0 d : R) (c : Z) : R :=
  if Rltb d 0 then (IZR c - x0) / d else (IZR (c + 1) - x0) / d.
Definition xnext (d : R) (c : Z) : Z := if Rltb d 0 then (c - 1)%Z else (c + 1)%Z.

Lemma heading_cell p d c : heading p d c -> IZR c <= p <= IZR c + 1.
Proof.
  intros (H1 & H2 & H3). destruct (Rtotal_order d 0) as [H|[H|H]];
  [specialize (H1 H)|specialize (H3 H)|specialize (H2 H)]; lra.
Qed.

Lemma first_cell_heading p d : heading p d (first_cell p d).
Proof.
  unfold first_cell, heading. pose proof (Rfloor_bounds p).
  destruct (Reqb_spec p (IZR (Rfloor p))) as [E|E]; simpl.
  - destruct (Rltb_spec d 0).
    + rewrite minus_IZR. repeat split; intros; lra.
    + repeat split; intros; lra.
  - repeat split; intros; lra.
Qed.

Lemma exit_neg x0 d c t : d < 0 -> heading (x0 + t * d) d c ->
  let e := xexit x0 d c in
  t < e /\ x0 + e * d = IZR c /\
  (forall u, t < u -> x0 + u * d < IZR c + 1) /\
  (forall u, u < e -> IZR c < x0 + u * d) /\ (forall u, e < u -> x0 + u * d < IZR c).
Proof.
  intros Hd (H & _ & _). specialize (H Hd). unfold xexit. rewrite (proj2 (Rltb_true d 0) Hd).
  set (e := (IZR c - x0) / d). assert (He : e * d = IZR c - x0) by (unfold e; field; lra).
  cbv zeta. repeat split; try intros u Hu; nra.
Qed.
Lemma exit_pos x0 d c t : 0 < d -> heading (x0 + t * d) d c ->
  let e := xexit x0 d c in
  t < e /\ x0 + e * d = IZR c + 1 /\
  (forall u, t < u -> IZR c < x0 + u * d) /\
  (forall u, u < e -> x0 + u * d < IZR c + 1) /\ (forall u, e < u -> IZR c + 1 < x0 + u * d).
Proof.
  intros Hd (_ & H & _). specialize (H Hd). unfold xexit.
  rewrite (proj2 (Rltb_false d 0)) by lra. rewrite plus_IZR.
  set (e := (IZR c + 1 - x0) / d). assert (He : e * d = IZR c + 1 - x0) by (unfold e; field; lra).
  cbv zeta. repeat split; try intros u Hu; nra.
Qed.

(** ** One move *)
Definition d0 (a b : vec3) : R := v0 b - v0 a.
Definition d1 (a b : vec3) : R := v1 b - v1 a.

Definition winv (a b : vec3) (w : walk) (t : R) : Prop :=
  w_p w = along a b t /\ heading (v0 (along a b t)) (d0 a b) (w_c w)
  /\ heading (v1 (along a b t)) (d1 a b) (w_r w).

Definition canonical (a b : vec3) (w : walk) : walk :=
  let e0 := xexit (v0 a) (d0 a b) (w_c w) in
  let e1 := xexit (v1 a) (d1 a b) (w_r w) in
  let c' := xnext (d0 a b) (w_c w) in
  let r' := xnext (d1 a b) (w_r w) in
  if Reqb (d0 a b) 0 then W e1 (w_c w) r' (along a b e1)
  else if Reqb (d1 a b) 0 then W e0 c' (w_r w) (along a b e0)
  else if Rltb e0 e1 then W e0 c' (w_r w) (along a b e0)
  else if Rltb e1 e0 then W e1 (w_c w) r' (along a b e1)
  else W e0 c' r' (along a b e0).

Lemma W_eq a a' c c' r r' x x' y y' z z' : a = a' -> c = c' -> r = r' -> x = x' -> y = y' -> z = z' ->
  W a c r (V3 x y z) = W a' c' r' (V3 x' y' z').
Proof. congruence. Qed.

(** Decide the first comparison of the goal. *)
Ltac decide1 :=
  match goal with
  | |- context [if ?c then _ else _] =>
      match c with
      | context [Rltb ?a ?b] =>
          first [rewrite (proj2 (Rltb_true a b)) by lra | rewrite (proj2 (Rltb_false a b)) by lra
                |destruct (Rltb_spec a b)]
      | context [Rleb ?a ?b] =>
          first [rewrite (proj2 (Rleb_true a b)) by lra | rewrite (proj2 (Rleb_false a b)) by lra
                |destruct (Rleb_spec a b)]
      | context [Reqb ?a ?b] =>
          first [rewrite (proj2 (Reqb_true a b)) by lra | rewrite (proj2 (Reqb_false a b)) by lra
                |destruct (Reqb_spec a b)]
      end
  end; cbn [andb]; cbv iota.
Ltac walk_case := repeat decide1; try (exfalso; lra); apply W_eq; try reflexivity; rewrite ?plus_IZR; lra.

(** The altitude of the current point has no influence on the move. *)
Lemma mesh_move_position a b w t : v0 (w_p w) = v0 (along a b t) -> v1 (w_p w) = v1 (along a b t) ->
  heading (v0 (along a b t)) (d0 a b) (w_c w) -> heading (v1 (along a b t)) (d1 a b) (w_r w) ->
  d0 a b <> 0 \/ d1 a b <> 0 ->
  mesh_move (segment_of a b) w = canonical a b w.
Proof.
  intros Hp0 Hp1 H0 H1 Hd. unfold mesh_move, canonical, segment_of.
  cbn [s_col0 s_row0 s_z0 s_z1 s_d0 s_d1 s_d2].
  rewrite Hp0, Hp1. clear Hp0 Hp1. set (pz := v2 (w_p w)). clearbody pz.
  fold (d0 a b) (d1 a b). unfold along in *. cbn [v0 v1 v2] in *.
  fold (d0 a b) in *. fold (d1 a b) in *.
  set (dx := d0 a b) in *. set (dy := d1 a b) in *. set (dz := v2 b - v2 a).
  set (x0 := v0 a) in *. set (y0 := v1 a) in *. set (z0 := v2 a).
  set (c := w_c w) in *. set (r := w_r w) in *.
  clearbody dx dy dz x0 y0 z0 c r. cbv zeta. rewrite ?plus_IZR.
  destruct (Rtotal_order dx 0) as [Hx|[Hx|Hx]];
  destruct (Rtotal_order dy 0) as [Hy|[Hy|Hy]]; try (exfalso; lra).
  - pose proof (exit_neg _ _ _ _ Hx H0) as (A1 & A2 & A3 & A4 & A5).
    pose proof (exit_neg _ _ _ _ Hy H1) as (B1 & B2 & B3 & B4 & B5).
    unfold xexit, xnext in *. rewrite (proj2 (Rltb_true dx 0) Hx) in *. rewrite (proj2 (Rltb_true dy 0) Hy) in *. rewrite ?plus_IZR in *.
    set (e0 := (IZR c - x0) / dx) in *. set (e1 := (IZR r - y0) / dy) in *. clearbody e0 e1.
    pose proof (A3 _ B1). pose proof (B3 _ A1).
    destruct (Rtotal_order e0 e1) as [He|[He|He]].
    + pose proof (B4 _ He). pose proof (A5 _ He). clear A3 A4 A5 B3 B4 B5 H0 H1. walk_case.
    + subst e1. clear A3 A4 A5 B3 B4 B5 H0 H1. walk_case.
    + pose proof (B5 _ He). pose proof (A4 _ He). clear A3 A4 A5 B3 B4 B5 H0 H1. walk_case.
  - pose proof (exit_neg _ _ _ _ Hx H0) as (A1 & A2 & _).
    subst dy. unfold xexit, xnext in *. rewrite (proj2 (Rltb_true dx 0) Hx) in *. rewrite ?plus_IZR in *.
    set (e0 := (IZR c - x0) / dx) in *. clearbody e0. clear H0 H1. repeat decide1; apply W_eq; try reflexivity; lra.
  - pose proof (exit_neg _ _ _ _ Hx H0) as (A1 & A2 & A3 & A4 & A5).
    pose proof (exit_pos _ _ _ _ Hy H1) as (B1 & B2 & B3 & B4 & B5).
    unfold xexit, xnext in *. rewrite (proj2 (Rltb_true dx 0) Hx) in *. rewrite (proj2 (Rltb_false dy 0) (Rlt_le _ _ Hy)) in *. rewrite ?plus_IZR in *.
    set (e0 := (IZR c - x0) / dx) in *. set (e1 := (IZR r + 1 - y0) / dy) in *. clearbody e0 e1.
    pose proof (A3 _ B1). pose proof (B3 _ A1).
    destruct (Rtotal_order e0 e1) as [He|[He|He]].
    + pose proof (B4 _ He). pose proof (A5 _ He). clear A3 A4 A5 B3 B4 B5 H0 H1. walk_case.
    + subst e1. clear A3 A4 A5 B3 B4 B5 H0 H1. walk_case.
    + pose proof (B5 _ He). pose proof (A4 _ He). clear A3 A4 A5 B3 B4 B5 H0 H1. walk_case.
  - pose proof (exit_neg _ _ _ _ Hy H1) as (A1 & A2 & _).
    subst dx. unfold xexit, xnext in *. rewrite (proj2 (Rltb_true dy 0) Hy) in *. rewrite ?plus_IZR in *.
    set (e0 := (IZR r - y0) / dy) in *. clearbody e0. clear H0 H1. repeat decide1; apply W_eq; try reflexivity; lra.
  - pose proof (exit_pos _ _ _ _ Hy H1) as (A1 & A2 & _).
    subst dx. unfold xexit, xnext in *. rewrite (proj2 (Rltb_false dy 0) (Rlt_le _ _ Hy)) in *. rewrite ?plus_IZR in *.
    set (e0 := (IZR r + 1 - y0) / dy) in *. clearbody e0. clear H0 H1. repeat decide1; apply W_eq; try reflexivity; lra.
  - pose proof (exit_pos _ _ _ _ Hx H0) as (A1 & A2 & A3 & A4 & A5).
    pose proof (exit_neg _ _ _ _ Hy H1) as (B1 & B2 & B3 & B4 & B5).
    unfold xexit, xnext in *. rewrite (proj2 (Rltb_false dx 0) (Rlt_le _ _ Hx)) in *. rewrite (proj2 (Rltb_true dy 0) Hy) in *. rewrite ?plus_IZR in *.
    set (e0 := (IZR c + 1 - x0) / dx) in *. set (e1 := (IZR r - y0) / dy) in *. clearbody e0 e1.
    pose proof (A3 _ B1). pose proof (B3 _ A1).
    destruct (Rtotal_order e0 e1) as [He|[He|He]].
    + pose proof (B4 _ He). pose proof (A5 _ He). clear A3 A4 A5 B3 B4 B5 H0 H1. walk_case.
    + subst e1. clear A3 A4 A5 B3 B4 B5 H0 H1. walk_case.
    + pose proof (B5 _ He). pose proof (A4 _ He). clear A3 A4 A5 B3 B4 B5 H0 H1. walk_case.
  - pose proof (exit_pos _ _ _ _ Hx H0) as (A1 & A2 & _).
    subst dy. unfold xexit, xnext in *. rewrite (proj2 (Rltb_false dx 0) (Rlt_le _ _ Hx)) in *. rewrite ?plus_IZR in *.
    set (e0 := (IZR c + 1 - x0) / dx) in *. clearbody e0. clear H0 H1. repeat decide1; apply W_eq; try reflexivity; lra.
  - pose proof (exit_pos _ _ _ _ Hx H0) as (A1 & A2 & A3 & A4 & A5).
    pose proof (exit_pos _ _ _ _ Hy H1) as (B1 & B2 & B3 & B4 & B5).
    unfold xexit, xnext in *. rewrite (proj2 (Rltb_false dx 0) (Rlt_le _ _ Hx)) in *. rewrite (proj2 (Rltb_false dy 0) (Rlt_le _ _ Hy)) in *. rewrite ?plus_IZR in *.
    set (e0 := (IZR c + 1 - x0) / dx) in *. set (e1 := (IZR r + 1 - y0) / dy) in *. clearbody e0 e1.
    pose proof (A3 _ B1). pose proof (B3 _ A1).
    destruct (Rtotal_order e0 e1) as [He|[He|He]].
    + pose proof (B4 _ He). pose proof (A5 _ He). clear A3 A4 A5 B3 B4 B5 H0 H1. walk_case.
    + subst e1. clear A3 A4 A5 B3 B4 B5 H0 H1. walk_case.
    + pose proof (B5 _ He). pose proof (A4 _ He). clear A3 A4 A5 B3 B4 B5 H0 H1. walk_case.
Qed.
Lemma mesh_move_canonical a b w t : winv a b w t -> d0 a b <> 0 \/ d1 a b <> 0 ->
  mesh_move (segment_of a b) w = canonical a b w.
Proof. intros (Hp & H0 & H1) Hd. apply (mesh_move_position a b w t); auto; now rewrite Hp. Qed.

(** The measure that decreases at each move: the number of cells left ahead. *)
Definition ahead (d : R) (n c : Z) : Z :=
  if Rltb d 0 then (c + 1)%Z else if Rltb 0 d then (n - 1 - c)%Z else 0%Z.

Definition crosses_mesh (a b : vec3) (t : R) : Prop :=
  (d0 a b <> 0 /\ exists i, v0 (along a b t) = IZR i) \/ (d1 a b <> 0 /\ exists j, v1 (along a b t) = IZR j).

Lemma along_between a b s e u i j : s <= u <= e ->
  in_cell i j (v0 (along a b s)) (v1 (along a b s)) -> in_cell i j (v0 (along a b e)) (v1 (along a b e)) ->
  in_cell i j (v0 (along a b u)) (v1 (along a b u)).
Proof.
  intros Hu. unfold in_cell, along. cbn [v0 v1].
  set (dx := v0 b - v0 a). set (dy := v1 b - v1 a). clearbody dx dy. intros H1 H2.
  assert (forall x0 d lo hi, lo <= x0 + s * d <= hi -> lo <= x0 + e * d <= hi -> lo <= x0 + u * d <= hi).
  { intros x0 d lo hi Ha Hb. destruct (Rle_lt_dec 0 d); split; nra. }
  split; eapply H; tauto.
Qed.

(** What one move achieves. *)
Lemma axis_stay x0 d c e u : heading (x0 + u * d) d c -> u <= e -> e < xexit x0 d c -> d <> 0 ->
  heading (x0 + e * d) d c.
Proof.
  intros H Hu He Hd. destruct (Rtotal_order d 0) as [Hx|[Hx|Hx]]; [|lra|].
  - pose proof (exit_neg _ _ _ _ Hx H) as (_ & _ & _ & A4 & _). specialize (A4 _ He).
    destruct H as (H & _). specialize (H Hx). unfold heading. repeat split; intros; try lra; nra.
  - pose proof (exit_pos _ _ _ _ Hx H) as (_ & _ & _ & A4 & _). specialize (A4 _ He).
    destruct H as (_ & H & _). specialize (H Hx). unfold heading. repeat split; intros; try lra; nra.
Qed.
Lemma axis_cross x0 d c u : heading (x0 + u * d) d c -> d <> 0 ->
  heading (x0 + xexit x0 d c * d) d (xnext d c) /\ (exists i, x0 + xexit x0 d c * d = IZR i) /\
  u < xexit x0 d c /\ IZR c <= x0 + xexit x0 d c * d <= IZR c + 1 /\
  (forall v, u < v < xexit x0 d c -> forall i, x0 + v * d <> IZR i).
Proof.
  intros H Hd. destruct (Rtotal_order d 0) as [Hx|[Hx|Hx]]; [|lra|].
  - pose proof (exit_neg _ _ _ _ Hx H) as (A1 & A2 & A3 & A4 & _).
    unfold xnext. rewrite (proj2 (Rltb_true _ _) Hx). rewrite A2. unfold heading. rewrite minus_IZR.
    repeat split; intros; try lra; [eauto|].
    intros E. pose proof (A3 v ltac:(lra)). pose proof (A4 v ltac:(lra)). rewrite E in *.
    rewrite <- plus_IZR in *. apply lt_IZR in H1. apply lt_IZR in H2. lia.
  - pose proof (exit_pos _ _ _ _ Hx H) as (A1 & A2 & A3 & A4 & _).
    unfold xnext. rewrite (proj2 (Rltb_false d 0)) by lra. rewrite A2. unfold heading. rewrite plus_IZR.
    repeat split; intros; try lra; [exists (c + 1)%Z; now rewrite plus_IZR|].
    intros E. pose proof (A3 v ltac:(lra)). pose proof (A4 v ltac:(lra)). rewrite E in *.
    rewrite <- plus_IZR in *. apply lt_IZR in H1. apply lt_IZR in H2. lia.
Qed.

Lemma ahead_next d n c : d <> 0 -> ahead d n (xnext d c) = (ahead d n c - 1)%Z.
Proof.
  intros H. unfold ahead, xnext. destruct (Rltb_spec d 0); [lia|].
  rewrite (proj2 (Rltb_true 0 d)) by lra. lia.
Qed.

Record moved (d : dtm) (a b : vec3) (w w' : walk) (t : R) : Prop := {
  mv_lt : t < w_a w';
  mv_inv : winv a b w' (w_a w');
  mv_cell : forall u, t <= u <= w_a w' -> in_cell (w_c w) (w_r w) (v0 (along a b u)) (v1 (along a b u));
  mv_mesh : crosses_mesh a b (w_a w');
  mv_none : forall u, t < u < w_a w' -> ~ crosses_mesh a b u;
  mv_same0 : d0 a b = 0 -> w_c w' = w_c w;
  mv_same1 : d1 a b = 0 -> w_r w' = w_r w;
  mv_adj : (-1 <= w_c w' - w_c w <= 1)%Z /\ (-1 <= w_r w' - w_r w <= 1)%Z;
  mv_ahead : (ahead (d0 a b) (nb_rows d) (w_c w') + ahead (d1 a b) (nb_columns d) (w_r w')
              <= ahead (d0 a b) (nb_rows d) (w_c w) + ahead (d1 a b) (nb_columns d) (w_r w) - 1)%Z }.

Lemma xnext_adj d c : (-1 <= xnext d c - c <= 1)%Z.
Proof. unfold xnext. destruct (Rltb d 0); lia. Qed.

Lemma along0 a b t : v0 (along a b t) = v0 a + t * d0 a b. Proof. reflexivity. Qed.
Lemma along1 a b t : v1 (along a b t) = v1 a + t * d1 a b. Proof. reflexivity. Qed.

Lemma move_spec d a b w t : winv a b w t -> d0 a b <> 0 \/ d1 a b <> 0 ->
  moved d a b w (mesh_move (segment_of a b) w) t.
Proof.
  intros HW Hd. rewrite (mesh_move_canonical a b w t HW Hd).
  destruct HW as (_ & H0 & H1). rewrite along0 in H0. rewrite along1 in H1.
  pose proof (heading_cell _ _ _ H0) as C0. pose proof (heading_cell _ _ _ H1) as C1.
  set (e0 := xexit (v0 a) (d0 a b) (w_c w)). set (e1 := xexit (v1 a) (d1 a b) (w_r w)).
  assert (HB : forall e, t <= e -> IZR (w_c w) <= v0 a + e * d0 a b <= IZR (w_c w) + 1 ->
     IZR (w_r w) <= v1 a + e * d1 a b <= IZR (w_r w) + 1 ->
     forall u, t <= u <= e -> in_cell (w_c w) (w_r w) (v0 (along a b u)) (v1 (along a b u))).
  { intros e He E0 E1 u Hu. apply (along_between a b t e); [assumption| |];
    (split; [rewrite along0|rewrite along1]; assumption). }
  pose proof (xnext_adj (d0 a b) (w_c w)). pose proof (xnext_adj (d1 a b) (w_r w)).
  unfold canonical. fold e0 e1. cbv zeta.
  destruct (Reqb_spec (d0 a b) 0) as [Z0|Z0]; [|destruct (Reqb_spec (d1 a b) 0) as [Z1|Z1]].
  - assert (Z1 : d1 a b <> 0) by tauto.
    destruct (axis_cross _ _ _ _ H1 Z1) as (X1 & X2 & X3 & X4 & X5). fold e1 in X1, X2, X3, X4, X5.
    assert (S0 : forall u, v0 a + u * d0 a b = v0 a + t * d0 a b) by (intros; rewrite Z0; ring).
    split; cbn [w_a w_c w_r w_p].
    + assumption.
    + split; [reflexivity|]. rewrite along0, along1, S0. auto.
    + apply HB; [lra|rewrite S0; assumption|assumption].
    + right. split; [assumption|]. rewrite along1. assumption.
    + intros u Hu [[? _]|[_ [j Hj]]]; [contradiction|]. rewrite along1 in Hj. now apply (X5 u Hu j).
    + intros; reflexivity || contradiction.
    + intros; reflexivity || contradiction.
    + lia.
    + rewrite ahead_next by assumption. lia.
  - destruct (axis_cross _ _ _ _ H0 Z0) as (X1 & X2 & X3 & X4 & X5). fold e0 in X1, X2, X3, X4, X5.
    assert (S1 : forall u, v1 a + u * d1 a b = v1 a + t * d1 a b) by (intros; rewrite Z1; ring).
    split; cbn [w_a w_c w_r w_p].
    + assumption.
    + split; [reflexivity|]. rewrite along0, along1, S1. auto.
    + apply HB; [lra|assumption|rewrite S1; assumption].
    + left. split; [assumption|]. rewrite along0. assumption.
    + intros u Hu [[_ [j Hj]]|[? _]]; [|contradiction]. rewrite along0 in Hj. now apply (X5 u Hu j).
    + intros; reflexivity || contradiction.
    + intros; reflexivity || contradiction.
    + lia.
    + rewrite ahead_next by assumption. lia.
  - destruct (axis_cross _ _ _ _ H0 Z0) as (X1 & X2 & X3 & X4 & X5). fold e0 in X1, X2, X3, X4, X5.
    destruct (axis_cross _ _ _ _ H1 Z1) as (Y1 & Y2 & Y3 & Y4 & Y5). fold e1 in Y1, Y2, Y3, Y4, Y5.
    destruct (Rltb_spec e0 e1) as [He|He]; [|destruct (Rltb_spec e1 e0) as [He'|He']].
    + assert (HS : heading (v1 a + e0 * d1 a b) (d1 a b) (w_r w))
        by (apply axis_stay with t; try assumption; lra).
      pose proof (heading_cell _ _ _ HS).
      split; cbn [w_a w_c w_r w_p].
      * assumption.
      * split; [reflexivity|]. rewrite along0, along1. auto.
      * apply HB; [lra|assumption|assumption].
      * left. split; [assumption|]. rewrite along0. assumption.
      * intros u Hu [[_ [j Hj]]|[_ [j Hj]]]; [rewrite along0 in Hj|rewrite along1 in Hj].
        -- now apply (X5 u Hu j).
        -- apply (Y5 u ltac:(lra) j Hj).
      * intros; reflexivity || contradiction.
      * intros; reflexivity || contradiction.
      * lia.
      * rewrite ahead_next by assumption. lia.
    + assert (HS : heading (v0 a + e1 * d0 a b) (d0 a b) (w_c w))
        by (apply axis_stay with t; try assumption; lra).
      pose proof (heading_cell _ _ _ HS).
      split; cbn [w_a w_c w_r w_p].
      * assumption.
      * split; [reflexivity|]. rewrite along0, along1. auto.
      * apply HB; [lra|assumption|assumption].
      * right. split; [assumption|]. rewrite along1. assumption.
      * intros u Hu [[_ [j Hj]]|[_ [j Hj]]]; [rewrite along0 in Hj|rewrite along1 in Hj].
        -- apply (X5 u ltac:(lra) j Hj).
        -- now apply (Y5 u Hu j).
      * intros; reflexivity || contradiction.
      * intros; reflexivity || contradiction.
      * lia.
      * rewrite ahead_next by assumption. lia.
    + assert (E : e1 = e0) by lra. rewrite E in Y1, Y2, Y3, Y4, Y5.
      split; cbn [w_a w_c w_r w_p].
      * assumption.
      * split; [reflexivity|]. rewrite along0, along1. auto.
      * apply HB; [lra|assumption|assumption].
      * left. split; [assumption|]. rewrite along0. assumption.
      * intros u Hu [[_ [j Hj]]|[_ [j Hj]]]; [rewrite along0 in Hj|rewrite along1 in Hj].
        -- now apply (X5 u Hu j).
        -- now apply (Y5 u Hu j).
      * intros; reflexivity || contradiction.
      * intros; reflexivity || contradiction.
      * lia.
      * rewrite !ahead_next by assumption. lia.
Qed.

(** ** Clearance along the line of sight *)
Definition clr (d : dtm) (a b : vec3) (u : R) : R :=
  v2 (along a b u) - interpolate d (v0 (along a b u)) (v1 (along a b u)).


Definition curvature (d : dtm) (a b : vec3) (i j : Z) : R :=
  - twist (dt_data d) i j * d0 a b * d1 a b.

Lemma clr_chord d a b i j s e c : is_cell (dt_data d) i j ->
  in_cell i j (v0 (along a b s)) (v1 (along a b s)) -> in_cell i j (v0 (along a b e)) (v1 (along a b e)) ->
  s <= c <= e ->
  (e - s) * clr d a b c
  = (e - c) * clr d a b s + (c - s) * clr d a b e + curvature d a b i j * (c - s) * (c - e) * (e - s).
Proof.
  intros Hc Hs He Hce.
  pose proof (along_between a b s e c i j Hce Hs He) as Hm.
  unfold clr, interpolate. rewrite !(interp_in_cell _ i j) by assumption.
  unfold bilinear_in_cell, lerp, curvature, twist, along, d0, d1. cbn [v0 v1 v2]. ring.
Qed.

(** ** The refinement *)
Lemma refine_eq d a b n s e :
  let f := clr d a b in
  let c := s + f s / (f s - f e) * (e - s) in
  refine (interpolate d) (S n) (along a b s) (interpolate d (v0 (along a b s)) (v1 (along a b s)))
         (along a b e) (interpolate d (v0 (along a b e)) (v1 (along a b e))) =
  if Reqb (f s - f e) 0 then Crash
  else if Rltb tol_z (Rabs (f c)) then
    if Rltb 0 (f c)
    then refine (interpolate d) n (along a b c) (interpolate d (v0 (along a b c)) (v1 (along a b c)))
           (along a b e) (interpolate d (v0 (along a b e)) (v1 (along a b e)))
    else refine (interpolate d) n (along a b s) (interpolate d (v0 (along a b s)) (v1 (along a b s)))
           (along a b c) (interpolate d (v0 (along a b c)) (v1 (along a b c)))
  else Found (along a b c).
Proof.
  intros f c. cbn [refine]. cbv zeta.
  set (A := interpolate d (v0 (along a b s)) (v1 (along a b s))).
  set (B := interpolate d (v0 (along a b e)) (v1 (along a b e))).
  replace (B - A - (v2 (along a b e) - v2 (along a b s))) with (f s - f e)
    by (unfold f, clr; fold A B; ring).
  change (v2 (along a b s) - A) with (f s).
  assert (EP : V3 (v0 (along a b s) + f s / (f s - f e) * (v0 (along a b e) - v0 (along a b s)))
                  (v1 (along a b s) + f s / (f s - f e) * (v1 (along a b e) - v1 (along a b s)))
                  (v2 (along a b s) + f s / (f s - f e) * (v2 (along a b e) - v2 (along a b s)))
               = along a b c).
  { unfold c. generalize (f s / (f s - f e)). intros k. unfold along. cbn [v0 v1 v2]. f_equal; ring. }
  rewrite EP. cbn [v0 v1 v2].
  destruct (Reqb (f s - f e) 0); [reflexivity|].
  assert (HX : v0 (along a b s) + f s / (f s - f e) * (v0 (along a b e) - v0 (along a b s)) = v0 (along a b c))
    by (rewrite <- EP; reflexivity).
  assert (HY : v1 (along a b s) + f s / (f s - f e) * (v1 (along a b e) - v1 (along a b s)) = v1 (along a b c))
    by (rewrite <- EP; reflexivity).
  assert (HZ : v2 (along a b s) + f s / (f s - f e) * (v2 (along a b e) - v2 (along a b s)) = v2 (along a b c))
    by (rewrite <- EP; reflexivity).
  rewrite ?HX, ?HY, ?HZ.
  set (C := interpolate d (v0 (along a b c)) (v1 (along a b c))).
  replace (C - v2 (along a b c)) with (- f c) by (unfold f, clr; fold C; ring).
  rewrite Rabs_Ropp.
  destruct (Rltb tol_z (Rabs (f c))); [|reflexivity].
  destruct (Rltb_spec (- f c) 0), (Rltb_spec 0 (f c)); try reflexivity; exfalso; lra.
Qed.

Lemma tol_pos : 0 < tol_z. Proof. unfold tol_z. lra. Qed.

(** The secant point of a bracket. *)
Lemma secant d a b i j s e : is_cell (dt_data d) i j ->
  in_cell i j (v0 (along a b s)) (v1 (along a b s)) -> in_cell i j (v0 (along a b e)) (v1 (along a b e)) ->
  s < e -> 0 <= clr d a b s -> clr d a b e <= 0 -> clr d a b s - clr d a b e <> 0 ->
  let c := s + clr d a b s / (clr d a b s - clr d a b e) * (e - s) in
  s <= c <= e /\ clr d a b c = curvature d a b i j * (c - s) * (c - e).
Proof.
  intros Hc Hs He Hse Hfs Hfe Hne c.
  set (x := clr d a b s) in *. set (y := clr d a b e) in *.
  assert (Hk : 0 <= x / (x - y) <= 1).
  { assert (0 < x - y) by lra. split.
    - apply Rmult_le_pos; [lra|]. left. now apply Rinv_0_lt_compat.
    - apply Rmult_le_reg_r with (x - y); [lra|]. unfold Rdiv. rewrite Rmult_assoc, Rinv_l by lra. lra. }
  assert (Hce : s <= c <= e) by (unfold c; nra).
  split; [assumption|].
  pose proof (clr_chord d a b i j s e c Hc Hs He Hce) as HC. fold x y in HC.
  assert (Hz : (e - c) * x + (c - s) * y = 0) by (unfold c; field; lra).
  apply Rmult_eq_reg_l with (e - s); [|lra]. rewrite HC. lra.
Qed.

Lemma refine_found d a b i j : is_cell (dt_data d) i j -> forall n s e,
  in_cell i j (v0 (along a b s)) (v1 (along a b s)) -> in_cell i j (v0 (along a b e)) (v1 (along a b e)) ->
  s < e -> 0 <= clr d a b s -> clr d a b e <= 0 ->
  match refine (interpolate d) n (along a b s) (interpolate d (v0 (along a b s)) (v1 (along a b s)))
         (along a b e) (interpolate d (v0 (along a b e)) (v1 (along a b e))) with
  | Found p => exists c, p = along a b c /\ s <= c <= e /\ Rabs (clr d a b c) <= tol_z /\
                 (curvature d a b i j <= 0 -> 0 <= clr d a b c)
  | NotFound => False
  | Crash => clr d a b s = 0 /\ clr d a b e = 0
  | NoFuel => True
  end.
Proof.
  intros Hc n. induction n as [|n IH]; intros s e Hs He Hse Hfs Hfe; [exact I|].
  pose proof (refine_eq d a b n s e) as HR. cbv zeta in HR. rewrite HR. clear HR.
  destruct (Reqb_spec (clr d a b s - clr d a b e) 0) as [E|E]; [lra|].
  destruct (secant d a b i j s e Hc Hs He Hse Hfs Hfe E) as [Hce Hval].
  set (c := s + clr d a b s / (clr d a b s - clr d a b e) * (e - s)) in *.
  pose proof (along_between a b s e c i j Hce Hs He) as Hm. pose proof tol_pos.
  assert (Hcv : curvature d a b i j <= 0 -> 0 <= clr d a b c).
  { intros HG. rewrite Hval. rewrite Rmult_assoc.
    assert ((c - s) * (c - e) <= 0) by nra. nra. }
  destruct (Rltb_spec tol_z (Rabs (clr d a b c))) as [Ht|Ht].
  - destruct (Rltb_spec 0 (clr d a b c)) as [Hp|Hn].
    + assert (c <> e) by (intros Ee; rewrite Ee in Hp; lra).
      specialize (IH c e Hm He ltac:(lra) ltac:(lra) Hfe).
      destruct refine; try assumption; [|exfalso; lra].
      destruct IH as (c' & ? & ? & ? & ?). exists c'. repeat split; auto; lra.
    + assert (clr d a b c <> 0) by (intros Ee; rewrite Ee, Rabs_R0 in Ht; lra).
      assert (c <> s) by (intros Ee; rewrite Ee in *; lra).
      specialize (IH s c Hs Hm ltac:(lra) Hfs ltac:(lra)).
      destruct refine; try assumption; [|exfalso; lra].
      destruct IH as (c' & ? & ? & ? & ?). exists c'. repeat split; auto; lra.
  - exists c. repeat split; auto; try lra.
Qed.

(** Termination of the refinement. *)
Lemma refine_fuel d a b i j L : is_cell (dt_data d) i j -> forall n s e,
  in_cell i j (v0 (along a b s)) (v1 (along a b s)) -> in_cell i j (v0 (along a b e)) (v1 (along a b e)) ->
  s < e -> e - s <= L -> 0 <= clr d a b s -> clr d a b e <= 0 ->
  Rabs (curvature d a b i j) * L * (e - s) <= INR n * tol_z ->
  refine (interpolate d) (S n) (along a b s) (interpolate d (v0 (along a b s)) (v1 (along a b s)))
         (along a b e) (interpolate d (v0 (along a b e)) (v1 (along a b e))) <> NoFuel.
Proof.
  intros Hc n. induction n as [|n IH]; intros s e Hs He Hse HL Hfs Hfe Hb.
  all: pose proof (refine_eq d a b) as HR; cbv zeta in HR; rewrite HR; clear HR.
  all: destruct (Reqb_spec (clr d a b s - clr d a b e) 0) as [E|E]; [discriminate|].
  all: destruct (secant d a b i j s e Hc Hs He Hse Hfs Hfe E) as [Hce Hval].
  all: set (c := s + clr d a b s / (clr d a b s - clr d a b e) * (e - s)) in *.
  all: pose proof (along_between a b s e c i j Hce Hs He) as Hm; pose proof tol_pos as Htol.
  all: set (G := curvature d a b i j) in *.
  all: assert (HA : Rabs (clr d a b c) = Rabs G * (c - s) * (e - c))
        by (rewrite Hval, !Rabs_mult, (Rabs_pos_eq (c - s)) by lra; rewrite (Rabs_left1 (c - e)) by lra; ring).
  all: pose proof (Rabs_pos G) as HG.
  - simpl in Hb. rewrite Rmult_0_l in Hb.
    assert (Rabs G * (c - s) * (e - c) <= Rabs G * L * (e - s)).
    { rewrite !Rmult_assoc. apply Rmult_le_compat_l; [assumption|].
      apply Rmult_le_compat; lra. }
    rewrite (proj2 (Rltb_false _ _)) by lra. discriminate.
  - destruct (Rltb_spec tol_z (Rabs (clr d a b c))) as [Ht|Ht]; [|discriminate].
    rewrite S_INR in Hb. rewrite HA in Ht.
    destruct (Rltb_spec 0 (clr d a b c)) as [Hp|Hn].
    + assert (c <> e) by (intros Ee; rewrite Ee in Hp; lra).
      apply IH; try assumption; try lra.
      assert (Rabs G * (c - s) * (e - c) <= Rabs G * (c - s) * L).
      { apply Rmult_le_compat_l; [apply Rmult_le_pos; lra|lra]. }
      replace (e - c) with ((e - s) - (c - s)) by ring. lra.
    + assert (clr d a b c <> 0) by (intros Ee; rewrite Ee, Rabs_R0 in HA; lra).
      assert (c <> s) by (intros Ee; rewrite Ee in *; lra).
      apply IH; try assumption; try lra.
      assert (Rabs G * (c - s) * (e - c) <= Rabs G * L * (e - c)).
      { apply Rmult_le_compat_r; [lra|]. apply Rmult_le_compat_l; lra. }
      replace (c - s) with ((e - s) - (e - c)) by ring. lra.
Qed.

(** More fuel changes nothing. *)
Lemma refine_mono itp n m p1 h1 p2 h2 : (n <= m)%nat ->
  refine itp n p1 h1 p2 h2 <> NoFuel -> refine itp m p1 h1 p2 h2 = refine itp n p1 h1 p2 h2.
Proof.
  revert m p1 h1 p2 h2. induction n as [|n IH]; intros m p1 h1 p2 h2 Hm H; [now elim H|].
  destruct m as [|m]; [lia|]. cbn [refine] in *.
  destruct (Reqb _ 0); [reflexivity|].
  destruct (Rltb tol_z _); [|reflexivity].
  destruct (Rltb _ 0); apply IH; (lia || assumption).
Qed.

(** In a cell the curvature times the squared length is at most the twist. *)
Lemma curvature_bound d a b i j s e :
  in_cell i j (v0 (along a b s)) (v1 (along a b s)) -> in_cell i j (v0 (along a b e)) (v1 (along a b e)) ->
  s < e ->
  Rabs (curvature d a b i j) * (e - s) * (e - s) <= Rabs (twist (dt_data d) i j).
Proof.
  intros [Hs0 Hs1] [He0 He1] Hse. rewrite along0 in *. rewrite along1 in *.
  unfold curvature. rewrite !Rabs_mult, Rabs_Ropp.
  assert (HX : Rabs (d0 a b) * (e - s) <= 1).
  { rewrite <- (Rabs_pos_eq (e - s)) by lra. rewrite <- Rabs_mult. apply Rabs_le. lra. }
  assert (HY : Rabs (d1 a b) * (e - s) <= 1).
  { rewrite <- (Rabs_pos_eq (e - s)) by lra. rewrite <- Rabs_mult. apply Rabs_le. lra. }
  pose proof (Rabs_pos (twist (dt_data d) i j)). pose proof (Rabs_pos (d0 a b)). pose proof (Rabs_pos (d1 a b)).
  replace (Rabs (twist (dt_data d) i j) * Rabs (d0 a b) * Rabs (d1 a b) * (e - s) * (e - s))
    with (Rabs (twist (dt_data d) i j) * ((Rabs (d0 a b) * (e - s)) * (Rabs (d1 a b) * (e - s)))) by ring.
  rewrite <- (Rmult_1_r (Rabs (twist (dt_data d) i j))) at 2.
  apply Rmult_le_compat_l; [assumption|].
  rewrite <- (Rmult_1_r 1). apply Rmult_le_compat; try assumption; apply Rmult_le_pos; lra.
Qed.

(** ** The altitude test *)
Lemma skip_sound h_i h_s a b s e :
  may_intersect h_i h_s (v2 a) (v2 b) (v2 (along a b s)) (v2 (along a b e)) = false ->
  0 <= s < e -> h_i <= v2 (along a b s) ->
  forall u, s <= u <= e -> u <= 1 -> h_s < v2 (along a b u).
Proof.
  unfold may_intersect, along. cbn [v2]. set (dz := v2 b - v2 a). set (z0 := v2 a).
  replace (v2 b) with (z0 + dz) by (unfold z0, dz; ring). clearbody dz z0.
  intros H Hse Hi u Hu Hu1.
  destruct (Rltb_spec z0 (z0 + e * dz)) as [H1|H1]; [|destruct (Rltb_spec (z0 + e * dz) (z0 + dz)) as [H2|H2]].
  - rewrite negb_false_iff, orb_true_iff, !andb_true_iff, !Rltb_true in H.
    destruct H as [[Ha Hb]|[Ha Hb]]; [|lra].
    destruct (Rle_lt_dec 0 dz); nra.
  - rewrite negb_false_iff, orb_true_iff, !andb_true_iff, !Rltb_true in H.
    destruct H as [[Ha Hb]|[Ha Hb]]; [|lra].
    assert (dz <= 0) by nra. nra.
  - rewrite negb_false_iff, orb_true_iff, !andb_true_iff, !Rltb_true in H.
    destruct H as [[Ha Hb]|[Ha Hb]]; [|lra].
    destruct (Rle_lt_dec 0 dz); nra.
Qed.

Lemma guard_iff d w : cell_guard d w = true <-> w_a w < 1 /\ is_cell (dt_data d) (w_c w) (w_r w).
Proof.
  unfold cell_guard, is_cell, nb_rows, nb_columns.
  rewrite !andb_true_iff, Rltb_true, !Z.ltb_lt. split; intros; (split; [tauto|lia]) || (repeat split; try tauto; lia).
Qed.

(** ** The loop over the cells *)
Definition concave (d : dtm) (a b : vec3) : Prop :=
  forall i j, is_cell (dt_data d) i j -> curvature d a b i j <= 0.

(** A stretch [s, e] of the line inside one cell of the DTM. *)
Definition stretch (d : dtm) (a b : vec3) (s e : R) (i j : Z) : Prop :=
  s < e /\ is_cell (dt_data d) i j /\
  in_cell i j (v0 (along a b s)) (v1 (along a b s)) /\ in_cell i j (v0 (along a b e)) (v1 (along a b e)).

Lemma concave_stretch d a b s e i j : stretch d a b s e i j -> curvature d a b i j <= 0 ->
  0 <= clr d a b s -> 0 <= clr d a b e -> forall u, s <= u <= e -> 0 <= clr d a b u.
Proof.
  intros (Hse & Hc & Hs & He) HG Hfs Hfe u Hu.
  pose proof (clr_chord d a b i j s e u Hc Hs He Hu) as H.
  assert (0 <= (e - u) * clr d a b s) by (apply Rmult_le_pos; lra).
  assert (0 <= (u - s) * clr d a b e) by (apply Rmult_le_pos; lra).
  assert (0 <= curvature d a b i j * (u - s) * (u - e) * (e - s)).
  { apply Rmult_le_pos; [|lra].
    replace (curvature d a b i j * (u - s) * (u - e)) with (- curvature d a b i j * (u - s) * (e - u)) by ring.
    repeat apply Rmult_le_pos; lra. }
  apply Rmult_le_reg_l with (e - s); [lra|]. lra.
Qed.

Definition cell_loop_post (d : dtm) (a b : vec3) (w : walk) (t : R) (r : cell_result) : Prop :=
  match r with
  | CDone (Found p) =>
      exists u s e i j, p = along a b u /\ t <= s /\ (s < 1 \/ s = t) /\ s <= u <= e /\ stretch d a b s e i j /\
        Rabs (clr d a b u) <= tol_z /\ 0 <= clr d a b s /\
        (clr d a b e <= 0 \/ (u = t /\ s = t /\ clr d a b t = 0)) /\ crosses_mesh a b e /\
        (forall v, t < v <= s -> crosses_mesh a b v -> 0 < clr d a b v) /\
        (concave d a b -> forall v, t <= v <= u -> 0 <= clr d a b v)
  | CDone NotFound => False
  | CDone Crash => exists e i j, stretch d a b t e i j /\
        clr d a b t = 0 /\ clr d a b e = 0 /\ crosses_mesh a b e
  | CDone NoFuel => True
  | CEnd a2 =>
      (cell_guard d w = false /\ a2 = w_a w) \/
      (t < a2 /\ cell_guard d w = true /\
       (exists s i j, t <= s /\ (s < 1 \/ s = t) /\ stretch d a b s a2 i j /\ 0 <= clr d a b s /\
         (a2 < 1 -> 0 < clr d a b a2) /\ (1 <= a2 -> 0 < clr d a b 1 \/ 0 < clr d a b a2)) /\
       (forall v, t < v <= a2 -> v < 1 -> crosses_mesh a b v -> 0 < clr d a b v) /\
       (a2 < 1 -> forall v, a2 < v -> ~ in_hull (dt_data d) (v0 (along a b v)) (v1 (along a b v))) /\
       (concave d a b -> forall v, t <= v <= a2 -> v <= 1 -> 0 <= clr d a b v))
  end.

Lemma heading_out x0 d c c' n t v : (0 <= c < n)%Z -> ~ (0 <= c' < n)%Z ->
  IZR c <= x0 + t * d <= IZR c + 1 -> heading (x0 + t * d) d c' -> (d = 0 -> c' = c) -> t < v ->
  x0 + v * d < 0 \/ IZR n < x0 + v * d.
Proof.
  intros Hc Hc' Hx (H1 & H2 & H3) Hs Hv.
  assert (0 <= IZR c) by (apply IZR_le; lia).
  assert (IZR c + 1 <= IZR n) by (rewrite <- plus_IZR; apply IZR_le; lia).
  destruct (Rtotal_order d 0) as [Hd|[Hd|Hd]].
  - specialize (H1 Hd). left.
    assert (c' < 0)%Z.
    { destruct (Z_lt_le_dec c' 0); [assumption|].
      assert (IZR n <= IZR c') by (apply IZR_le; lia). lra. }
    assert (IZR c' + 1 <= 0) by (rewrite <- plus_IZR; apply IZR_le; lia). nra.
  - exfalso. specialize (Hs Hd). lia.
  - specialize (H2 Hd). right.
    assert (n <= c')%Z.
    { destruct (Z_lt_le_dec c' n); [|assumption].
      assert (IZR c' + 1 <= 0) by (rewrite <- plus_IZR; apply IZR_le; lia). lra. }
    assert (IZR n <= IZR c') by (apply IZR_le; lia). nra.
Qed.

Lemma cell_loop_spec d a b fuel : d0 a b <> 0 \/ d1 a b <> 0 -> forall n w t,
  winv a b w t -> 0 <= t <= 1 -> 0 <= clr d a b t ->
  cell_loop_post d a b w t (cell_loop d (segment_of a b) fuel n w).
Proof.
  intros Hd n. induction n as [|n IH]; intros w t HW Ht Hf.
  { cbn [cell_loop]. destruct (cell_guard d w) eqn:EG; [exact I|]. left. auto. }
  cbn [cell_loop]. destruct (cell_guard d w) eqn:EG; [|left; auto].
  pose proof (move_spec d a b w t HW Hd) as HM.
  set (w' := mesh_move (segment_of a b) w) in *. set (e := w_a w') in *.
  pose proof EG as EG0. apply guard_iff in EG. destruct EG as [_ Hcell].
  destruct HW as (Hp & _ & _).
  destruct HM as [Mlt MW Mcell Mmesh Mnone Ms0 Ms1 _ _].
  fold e in Mlt, MW, Mcell, Mmesh, Mnone.
  pose proof (proj1 MW) as Hp'.
  assert (HSt : stretch d a b t e (w_c w) (w_r w)).
  { split; [assumption|]. split; [assumption|]. split; apply Mcell; lra. }
  destruct HSt as (_ & _ & Hin & Hine).
  assert (HSt : stretch d a b t e (w_c w) (w_r w)) by (exact (conj Mlt (conj Hcell (conj Hin Hine)))).
  pose proof (cell_bounds_interp d _ _ _ _ Hcell Hin) as HBt.
  cbn [segment_of s_z0 s_z1]. rewrite Hp, Hp'.
  (* what is known when the stretch is passed *)
  assert (HPass : (forall v, t < v <= e -> v < 1 -> crosses_mesh a b v -> 0 < clr d a b v) ->
     (e < 1 -> 0 < clr d a b e) -> (1 <= e -> 0 < clr d a b 1 \/ 0 < clr d a b e) ->
     (concave d a b -> forall v, t <= v <= e -> v <= 1 -> 0 <= clr d a b v) ->
     cell_loop_post d a b w t (cell_loop d (segment_of a b) fuel n w')).
  { intros P1 P2 P3 P4.
    destruct (Rlt_le_dec e 1) as [He1|He1].
    - assert (He : 0 <= e <= 1) by lra. pose proof (P2 He1) as Hfe.
      specialize (IH w' e MW He ltac:(lra)).
      destruct (cell_loop d (segment_of a b) fuel n w') as [[p| | |]|a2]; cbn [cell_loop_post] in *.
      + destruct IH as (u & s & e' & i & j & Q1 & Q2 & Q3 & Q4 & Q5 & Q6 & Q7 & Q8 & Q8' & Q9 & Q10).
        assert (Q8b : clr d a b e' <= 0) by (destruct Q8 as [?|(_ & _ & ?)]; lra).
        exists u, s, e', i, j. repeat (split; [assumption || lra || (left; assumption)|]). split.
        * intros v Hv HX. destruct (Rle_lt_dec v e); [apply P1; lra || assumption|].
          apply Q9; [lra|assumption].
        * intros HC v Hv. destruct (Rle_lt_dec v e); [apply P4; lra || assumption|].
          apply Q10; [assumption|lra].
      + exact IH.
      + destruct IH as (e' & i & j & _ & Q2 & _). lra.
      + exact I.
      + right. destruct IH as [[Q1 Q2]|(Q1 & _ & (s & i & j & Q2 & Q3 & Q4 & Q5 & Q6 & Q7) & Q8 & Q9 & Q10)].
        * fold e in Q2. subst a2.
          split; [assumption|]. split; [assumption|]. split.
          { exists t, (w_c w), (w_r w). repeat (split; [assumption || lra|]). assumption. }
          split; [assumption|]. split; [|assumption].
          intros _ v Hv [HH1 HH2].
          assert (Hnc : ~ is_cell (dt_data d) (w_c w') (w_r w')).
          { intros HC. assert (cell_guard d w' = true) by (apply guard_iff; split; assumption). congruence. }
          destruct MW as (_ & X0 & X1). rewrite along0 in X0, HH1. rewrite along1 in X1, HH2.
          destruct Hcell as [Hc0 Hc1]. destruct Hine as [Hx0 Hx1]. rewrite along0 in Hx0. rewrite along1 in Hx1.
          destruct (Z_lt_le_dec (w_c w') 0) as [L1|L1];
          [|destruct (Z_lt_le_dec (w_c w') (rs_rows (dt_data d) - 1)) as [L2|L2];
            [destruct (Z_lt_le_dec (w_r w') 0) as [L3|L3];
             [|destruct (Z_lt_le_dec (w_r w') (rs_cols (dt_data d) - 1)) as [L4|L4]]|]].
          -- destruct (heading_out _ _ _ (w_c w') (rs_rows (dt_data d) - 1) _ v Hc0 ltac:(lia) Hx0 X0 Ms0 Hv); lra.
          -- destruct (heading_out _ _ _ (w_r w') (rs_cols (dt_data d) - 1) _ v Hc1 ltac:(lia) Hx1 X1 Ms1 Hv); lra.
          -- apply Hnc. split; lia.
          -- destruct (heading_out _ _ _ (w_r w') (rs_cols (dt_data d) - 1) _ v Hc1 ltac:(lia) Hx1 X1 Ms1 Hv); lra.
          -- destruct (heading_out _ _ _ (w_c w') (rs_rows (dt_data d) - 1) _ v Hc0 ltac:(lia) Hx0 X0 Ms0 Hv); lra.
        * split; [lra|]. split; [assumption|]. split.
          { exists s, i, j. repeat (split; [assumption || lra|]). assumption. }
          split; [|split; [assumption|]].
          -- intros v Hv Hv1 HX. destruct (Rle_lt_dec v e); [apply P1; lra || assumption|].
             apply Q8; lra || assumption.
          -- intros HC v Hv Hv1. destruct (Rle_lt_dec v e); [apply P4; lra || assumption|].
             apply Q10; lra || assumption.
    - assert (EG' : cell_guard d w' = false).
      { destruct (cell_guard d w') eqn:E; [|reflexivity]. apply guard_iff in E. fold e in E. lra. }
      assert (EC : cell_loop d (segment_of a b) fuel n w' = CEnd e).
      { destruct n; cbn [cell_loop]; rewrite EG'; reflexivity. }
      rewrite EC. right. split; [assumption|]. split; [assumption|]. split.
      { exists t, (w_c w), (w_r w). repeat (split; [assumption || lra|]). assumption. }
      split; [assumption|]. split; [intros; lra|assumption]. }
  destruct (may_intersect (alt_min_cell d (w_c w) (w_r w)) (alt_max_cell d (w_c w) (w_r w)) (v2 a) (v2 b)
              (v2 (along a b t)) (v2 (along a b e))) eqn:EM.
  - change (v2 (along a b t) - interpolate d (v0 (along a b t)) (v1 (along a b t))) with (clr d a b t).
    change (v2 (along a b e) - interpolate d (v0 (along a b e)) (v1 (along a b e))) with (clr d a b e).
    destruct (Rleb_spec (clr d a b t * clr d a b e) 0) as [Hle|Hgt].
    + destruct (Rle_lt_dec (clr d a b e) 0) as [Hfe|Hfe].
      * pose proof (refine_found d a b _ _ Hcell fuel t e Hin Hine Mlt Hf Hfe) as HR.
        destruct refine as [p| | |]; cbn [cell_loop_post].
        -- destruct HR as (c & E1 & E2 & E3 & E4).
           exists c, t, e, (w_c w), (w_r w). repeat (split; [assumption || lra|]). split.
           ++ intros v Hv. lra.
           ++ intros HC. specialize (E4 (HC _ _ Hcell)).
              destruct (Req_dec t c) as [<-|Hne]; [intros v Hv; replace v with t by lra; assumption|].
              apply (concave_stretch d a b t c (w_c w) (w_r w)); auto.
              split; [lra|]. split; [assumption|]. split; [assumption|]. apply Mcell; lra.
        -- exact HR.
        -- exists e, (w_c w), (w_r w). exact (conj HSt (conj (proj1 HR) (conj (proj2 HR) Mmesh))).
        -- exact I.
      * assert (Hz : clr d a b t = 0) by nra.
        (* the start is on the surface and the exit above it *)
        destruct fuel as [|fuel]; [exact I|].
        pose proof (refine_eq d a b fuel t e) as HR. cbv zeta in HR. rewrite HR. clear HR.
        rewrite (proj2 (Reqb_false (clr d a b t - clr d a b e) 0)) by lra.
        rewrite Hz. unfold Rdiv. rewrite !Rmult_0_l, !Rplus_0_r. rewrite Hz, Rabs_R0.
        pose proof tol_pos. rewrite (proj2 (Rltb_false tol_z 0)) by lra. cbn [cell_loop_post].
        exists t, t, e, (w_c w), (w_r w). repeat (split; [reflexivity || assumption || lra|]).
        split; [rewrite Hz, Rabs_R0; lra|]. split; [lra|]. split; [right; auto|]. split; [assumption|]. split.
        -- intros v Hv. lra.
        -- intros _ v Hv. replace v with t by lra. lra.
    + assert (Hfe : 0 < clr d a b e) by nra.
      apply HPass; auto.
      * intros v Hv Hv1 HX. destruct (Req_dec v e) as [->|]; [assumption|].
        exfalso. apply (Mnone v); [lra|assumption].
      * intros HC v Hv Hv1. apply (concave_stretch d a b t e (w_c w) (w_r w)); auto. lra.
  - assert (HS : forall u, t <= u <= e -> u <= 1 -> 0 < clr d a b u).
    { intros u Hu Hu1. pose proof (cell_bounds_interp d _ _ _ _ Hcell (Mcell u Hu)).
      unfold clr in *. pose proof (skip_sound _ _ a b t e EM ltac:(lra) ltac:(lra) u Hu Hu1). lra. }
    apply HPass; intros; try (left; apply HS); try apply HS; try lra.
Qed.

(** Enough fuel. *)
Definition enough_fuel (d : dtm) (fuel : nat) : Prop :=
  (Z.to_nat (nb_rows d + nb_columns d) <= fuel)%nat /\
  exists k, (k < fuel)%nat /\ forall i j, is_cell (dt_data d) i j -> Rabs (twist (dt_data d) i j) <= INR k * tol_z.

Lemma ahead_pos d w a b : d0 a b <> 0 \/ d1 a b <> 0 -> is_cell (dt_data d) (w_c w) (w_r w) ->
  (1 <= ahead (d0 a b) (nb_rows d) (w_c w) + ahead (d1 a b) (nb_columns d) (w_r w)
     <= nb_rows d + nb_columns d - 2)%Z.
Proof.
  intros Hd [H0 H1]. unfold ahead, nb_rows, nb_columns.
  destruct (Rltb_spec (d0 a b) 0), (Rltb_spec (d1 a b) 0), (Rltb_spec 0 (d0 a b)), (Rltb_spec 0 (d1 a b));
    try lia; exfalso; lra.
Qed.

Lemma cell_loop_fuel d a b fuel : d0 a b <> 0 \/ d1 a b <> 0 ->
  (exists k, (k < fuel)%nat /\ forall i j, is_cell (dt_data d) i j -> Rabs (twist (dt_data d) i j) <= INR k * tol_z) ->
  forall n w t,
  winv a b w t -> 0 <= t -> 0 <= clr d a b t ->
  (ahead (d0 a b) (nb_rows d) (w_c w) + ahead (d1 a b) (nb_columns d) (w_r w) <= Z.of_nat n)%Z ->
  cell_loop d (segment_of a b) fuel n w <> CDone NoFuel.
Proof.
  intros Hd (k & Hk & Htw) n. induction n as [|n IH]; intros w t HW Ht Hf Hn.
  { cbn [cell_loop]. destruct (cell_guard d w) eqn:EG; [|discriminate].
    apply guard_iff in EG. destruct EG as [_ HC].
    pose proof (ahead_pos d w a b Hd HC). lia. }
  cbn [cell_loop]. destruct (cell_guard d w) eqn:EG; [|discriminate].
  pose proof (move_spec d a b w t HW Hd) as HM.
  set (w' := mesh_move (segment_of a b) w) in *. set (e := w_a w') in *.
  apply guard_iff in EG. destruct EG as [_ Hcell].
  destruct HW as (Hp & _ & _).
  destruct HM as [Mlt MW Mcell _ _ _ _ _ Mah].
  fold e in Mlt, MW, Mcell.
  pose proof (proj1 MW) as Hp'.
  assert (Hin : in_cell (w_c w) (w_r w) (v0 (along a b t)) (v1 (along a b t))) by (apply Mcell; lra).
  assert (Hine : in_cell (w_c w) (w_r w) (v0 (along a b e)) (v1 (along a b e))) by (apply Mcell; lra).
  pose proof (cell_bounds_interp d _ _ _ _ Hcell Hin) as HBt.
  cbn [segment_of s_z0 s_z1]. rewrite Hp, Hp'.
  assert (HPass : (e < 1 -> 0 <= clr d a b e) -> cell_loop d (segment_of a b) fuel n w' <> CDone NoFuel).
  { intros He. destruct (Rlt_le_dec e 1) as [He1|He1].
    - apply IH with e; auto; try lra. lia.
    - assert (EG' : cell_guard d w' = false).
      { destruct (cell_guard d w') eqn:E; [|reflexivity]. apply guard_iff in E. fold e in E. lra. }
      destruct n; cbn [cell_loop]; rewrite EG'; discriminate. }
  destruct (may_intersect (alt_min_cell d (w_c w) (w_r w)) (alt_max_cell d (w_c w) (w_r w)) (v2 a) (v2 b)
              (v2 (along a b t)) (v2 (along a b e))) eqn:EM.
  - change (v2 (along a b t) - interpolate d (v0 (along a b t)) (v1 (along a b t))) with (clr d a b t).
    change (v2 (along a b e) - interpolate d (v0 (along a b e)) (v1 (along a b e))) with (clr d a b e).
    destruct (Rleb_spec (clr d a b t * clr d a b e) 0) as [Hle|Hgt].
    + destruct (Rle_lt_dec (clr d a b e) 0) as [Hfe|Hfe].
      * intros HX. injection HX as HX. revert HX.
        assert (E : refine (interpolate d) (S k) (along a b t)
                 (interpolate d (v0 (along a b t)) (v1 (along a b t))) (along a b e)
                 (interpolate d (v0 (along a b e)) (v1 (along a b e))) <> NoFuel).
        { apply (refine_fuel d a b (w_c w) (w_r w) (e - t)); auto; try lra.
          eapply Rle_trans; [|apply (Htw _ _ Hcell)]. now apply curvature_bound. }
        rewrite (refine_mono _ (S k) fuel) by (lia || assumption). assumption.
      * assert (Hz : clr d a b t = 0) by nra.
        destruct fuel as [|fuel]; [lia|].
        pose proof (refine_eq d a b fuel t e) as HR. cbv zeta in HR. rewrite HR. clear HR.
        rewrite (proj2 (Reqb_false (clr d a b t - clr d a b e) 0)) by lra.
        rewrite Hz. unfold Rdiv. rewrite !Rmult_0_l, !Rplus_0_r. rewrite Hz, Rabs_R0.
        pose proof tol_pos. rewrite (proj2 (Rltb_false tol_z 0)) by lra. discriminate.
    + apply HPass. intros. nra.
  - apply HPass. intros He1.
    pose proof (cell_bounds_interp d _ _ _ _ Hcell Hine).
    unfold clr in *. pose proof (skip_sound _ _ a b t e EM ltac:(lra) ltac:(lra) e ltac:(lra) ltac:(lra)). lra.
Qed.
