(** C89: the epipolar grids where the ground is not found. *)
From Coq Require Import Reals ZArith List Bool Lra Lia.
From Verif Require Import Num NumLemmas ProjModel RpcModel LocModel TriModel RectModel RectSpec RectProofs RectHoleSpec RectHole.
Import ListNotations.
Open Scope R_scope.

Section C89.
  Context {D : Type} (dtm_epsg : D -> Z) (conv : Z -> Z -> list row3 -> list row3) (ml mr : geomodel D) (ql qr : qmodel D).

  Lemma departure_at e off lp rp known i p r : length rp = length lp ->
    match known with None => True | Some a => length a = length lp end ->
    nth_error lp i = Some p -> nth_error rp i = Some r ->
    exists x, nth_error (departures ql qr e off lp rp known) i = Some (Travel p r x (qground ql e p)) /\
      match known with None => x = qangle ql qr e off p | Some a => nth_error a i = Some x end.
  Proof.
    intros HR HK P Q. destruct (departures_left ql qr e off lp rp known HR HK) as (D1 & D2 & D3 & D4 & D5).
    set (dep := departures ql qr e off lp rp known) in *. destruct (nth_error dep i) as [t|] eqn:T.
    - assert (A1 : nth_error (map t_left dep) i = Some p) by (rewrite D1; exact P). assert (A2 : nth_error (map t_right dep) i = Some r) by (rewrite D2; exact Q).
      assert (A3 : nth_error (map t_ground dep) i = Some (qground ql e p)) by (rewrite D4, nth_error_map, P; reflexivity).
      rewrite nth_error_map, T in A1, A2, A3. cbn in A1, A2, A3. injection A1 as A1. injection A2 as A2. injection A3 as A3.
      exists (t_angle t). split; [destruct t; cbn in *; congruence|]. pose proof (f_equal (fun l => nth_error l i) D3) as A4. cbn beta in A4. rewrite nth_error_map, T in A4. cbn [option_map] in A4.
      destruct known as [a|]; [congruence|]. rewrite nth_error_map, P in A4. cbn [option_map] in A4. congruence.
    - exfalso. apply nth_error_None in T. assert (i < length lp)%nat by (apply nth_error_Some; congruence). lia.
  Qed.
  Lemma iter_S {A} (f : A -> A) k x : Nat.iter (S k) f x = f (Nat.iter k f x).
  Proof. reflexivity. Qed.

  (** Each node of a strip is computed as if it were alone: two strips that share the start of one
      line (left position, right position, known direction) share the whole line, whatever the other
      nodes are, localized or not. *)
  Theorem C89_nodes_are_independent :
    answers ml ql -> answers mr qr ->
    forall (sp : R) (axis : Z) (n : nat) (step : R) (e : elevation D) (off : R) lp rp known lp' rp' known' i i' p r,
      (axis = 0 \/ axis = 1)%Z -> (match e with Elev (Array _) => False | _ => True end) ->
      length rp = length lp -> length rp' = length lp' -> (2 <= n)%nat ->
      nth_error lp i = Some p -> nth_error rp i = Some r -> nth_error lp' i' = Some p -> nth_error rp' i' = Some r ->
      match known, known' with
      | None, None => True
      | Some a, Some a' => length a = length lp /\ length a' = length lp' /\ nth_error a i = nth_error a' i'
      | _, _ => False
      end ->
      exists st st',
        compute_strip_of_epipolar_grid dtm_epsg conv ml mr lp rp sp axis n step e off known None = Some st /\
        compute_strip_of_epipolar_grid dtm_epsg conv ml mr lp' rp' sp axis n step e off known' None = Some st' /\
        length (st_left st) = n /\ length (st_right st) = n /\
        forall k, (k < n)%nat ->
          entry (st_left st) k i <> None /\
          entry (st_left st) k i = entry (st_left st') k i' /\
          entry (st_right st) k i = entry (st_right st') k i' /\
          entry (st_angles st) k i = entry (st_angles st') k i'.
  Proof.
    intros Hl Hr sp axis n step e off lp rp known lp' rp' known' i i' p r Ha HE HR HR' Hn P Q P' Q' K.
    assert (AX : axis_ok axis = true) by (destruct Ha as [-> | ->]; reflexivity).
    assert (NE : lp <> []) by (intros ->; destruct i; discriminate). assert (NE' : lp' <> []) by (intros ->; destruct i'; discriminate).
    assert (K1 : match known with None => True | Some a => length a = length lp end) by (destruct known, known'; tauto).
    assert (K1' : match known' with None => True | Some a => length a = length lp' end) by (destruct known, known'; tauto).
    destruct (qstrip dtm_epsg conv ml mr ql qr Hl Hr axis step sp e off n lp rp known HE AX NE HR) as (st & E & A1 & A2 & A3); [destruct known; [split; assumption|lia]|].
    destruct (qstrip dtm_epsg conv ml mr ql qr Hl Hr axis step sp e off n lp' rp' known' HE AX NE' HR') as (st' & E' & B1 & B2 & B3); [destruct known'; [split; assumption|lia]|].
    destruct (departure_at e off lp rp known i p r HR K1 P Q) as (x & DX & X). destruct (departure_at e off lp' rp' known' i' p r HR' K1' P' Q') as (x' & DX' & X').
    assert (XX : x = x') by (destruct known, known'; try contradiction; [destruct K as (_ & _ & K); congruence|congruence]). subst x'.
    assert (LL : forall m l, length (laps m (map (advance ql qr axis step sp e off)) l) = m) by (induction m; intros; cbn [laps length]; auto).
    exists st, st'. split; [exact E|]. split; [exact E'|]. rewrite A1, A2, A3, B1, B2, B3, !map_length, !LL. split; [reflexivity|]. split; [reflexivity|].
    intros k Hk. rewrite !entry_laps by exact Hk. rewrite DX, DX'. cbn [option_map]. repeat split; discriminate.
  Qed.

  (** Where the left position of a node has no ground, the right position of the node is not a
      number (but for the positions given at the start); the grid keeps its size; and the node goes
      on along the columns, or along the rows, of the image. *)
  Theorem C89_node_without_ground :
    answers ml ql -> answers mr qr -> keeps_nan ql -> keeps_nan qr ->
    forall (sp : R) (axis : Z) (n : nat) (step : R) (d : D) (off : R) lp rp known st,
      (axis = 0 \/ axis = 1)%Z -> lp <> [] -> length rp = length lp -> (2 <= n)%nat ->
      match known with None => True | Some a => length a = length lp end ->
      compute_strip_of_epipolar_grid dtm_epsg conv ml mr lp rp sp axis n step (Dtm d) off known None = Some st ->
      length (st_left st) = n /\ length (st_right st) = n /\
      forall k i p, entry (st_left st) k i = Some p -> no_ground ql d p ->
        ((1 <= k)%nat -> entry (st_right st) k i = Some nowhere) /\
        ((1 <= k)%nat \/ known = None ->
           entry (st_angles st) k i = Some (fin 0) /\
           forall p', entry (st_left st) (S k) i = Some p' ->
             p' = if Z.eqb axis 1 then shifted 0 (step * sp) p else shifted (step * sp) 0 p).
  Proof.
    intros Hl Hr Kl Kr sp axis n step d off lp rp known st Ha NE HR Hn K1 E.
    assert (AX : axis_ok axis = true) by (destruct Ha as [-> | ->]; reflexivity).
    destruct (qstrip dtm_epsg conv ml mr ql qr Hl Hr axis step sp (Dtm d) off n lp rp known I AX NE HR) as (st0 & E0 & A1 & A2 & A3); [destruct known; [split; assumption|lia]|].
    rewrite E in E0. injection E0 as <-.
    assert (LL : forall m l, length (laps m (map (advance ql qr axis step sp (Dtm d) off)) l) = m) by (induction m; intros; cbn [laps length]; auto).
    rewrite A1, A2, A3, !map_length, !LL. split; [reflexivity|]. split; [reflexivity|]. intros k i p EP NG.
    assert (Hk : (k < n)%nat). { destruct (Nat.lt_ge_cases k n) as [|C]; [assumption|]. exfalso. unfold entry in EP. assert (N : nth_error (map (map t_left) (laps n (map (advance ql qr axis step sp (Dtm d) off)) (departures ql qr (Dtm d) off lp rp known))) k = None) by (apply nth_error_None; rewrite map_length, LL; lia). rewrite N in EP. discriminate. }
    rewrite entry_laps in EP by exact Hk. destruct (nth_error (departures ql qr (Dtm d) off lp rp known) i) as [t|] eqn:T; [|discriminate]. cbn [option_map] in EP. injection EP as EP.
    split.
    - intros K. rewrite entry_laps by exact Hk. rewrite T. cbn [option_map]. f_equal. destruct k as [|k]; [lia|]. rewrite iter_S in *. unfold advance at 1. cbn [t_right]. unfold advance at 1 in EP. cbn [t_left] in EP. rewrite EP. now apply hole_match.
    - intros KK. assert (AG : t_angle (Nat.iter k (advance ql qr axis step sp (Dtm d) off) t) = fin 0).
      { destruct k as [|k].
        - destruct KK as [|KN]; [lia|]. subst known. cbn in EP |- *. unfold departures in T. apply nth_error_In, in_map_iff in T as (((p0 & r0) & x0) & <- & I0). cbn in EP |- *. subst p0.
          replace x0 with (qangle ql qr (Dtm d) off p); [now apply hole_angle|]. clear -I0. revert rp I0. induction lp as [|q lp IH]; intros [|r rp] I0; cbn in I0; try contradiction. destruct I0 as [E|I0]; [now injection E as -> -> <-|now apply (IH rp)].
        - rewrite iter_S in *. unfold advance at 1. cbn [t_angle]. unfold advance at 1 in EP. cbn [t_left] in EP. rewrite EP. now apply hole_angle. }
      rewrite !entry_laps by exact Hk. rewrite T. cbn [option_map]. split; [now rewrite AG|]. intros p' EP'.
      assert (Hk' : (S k < n)%nat). { destruct (Nat.lt_ge_cases (S k) n) as [|C]; [assumption|]. exfalso. unfold entry in EP'. assert (N : nth_error (map (map t_left) (laps n (map (advance ql qr axis step sp (Dtm d) off)) (departures ql qr (Dtm d) off lp rp known))) (S k) = None) by (apply nth_error_None; rewrite map_length, LL; lia). rewrite N in EP'. discriminate. }
      rewrite entry_laps in EP' by exact Hk'. rewrite T in EP'. cbn [option_map] in EP'. assert (EQ : t_left (advance ql qr axis step sp (Dtm d) off (Nat.iter k (advance ql qr axis step sp (Dtm d) off) t)) = p') by (injection EP' as EP'; exact EP'). rewrite <- EQ. unfold advance at 1. cbn [t_left]. rewrite EP, AG. now apply move_zero.
  Qed.

  (** With adaptive steps, if the first step of each node leads where there is no ground, the strip
      has two columns whatever the size asked for, and the second one is not a number. *)
  Theorem C89_adaptive_step_stops :
    answers ml ql -> answers mr qr ->
    forall (sp : R) (axis : Z) (n : nat) (step : R) (d : D) (off : R) (ps : list vec3) rp (a : list R) ref mx sc,
      (axis = 0 \/ axis = 1)%Z -> ps <> [] -> length rp = length ps -> length a = length ps -> (2 <= n)%nat -> 1 <= mx -> 0 <= sc ->
      (forall p x, In (p, x) (combine ps a) -> no_ground ql d (node (moved axis (step * sp) p x))) ->
      exists st,
        compute_strip_of_epipolar_grid dtm_epsg conv ml mr (map node ps) rp sp axis n step (Dtm d) off (Some (map fin a)) (Some (ref, mx, sc)) = Some st /\
        length (st_left st) = 2%nat /\ nth_error (st_left st) 0 = Some (map node ps) /\
        nth_error (st_left st) 1 = Some (map (fun _ => nowhere) ps) /\ nth_error (st_right st) 1 = Some (map (fun _ => nowhere) ps).
  Proof.
    intros Hl Hr sp axis n step d off ps rp a ref mx sc Ha NE HR HA Hn Hm Hs HG.
    assert (AX : axis_ok axis = true) by (destruct Ha as [-> | ->]; reflexivity).
    destruct (adaptive_stop dtm_epsg conv ml mr ql qr d Hl Hr axis step sp off n (map node ps) rp (map fin a) ref mx sc) as (st & E & A & B & C & F); try assumption.
    - destruct ps; [congruence|discriminate].
    - now rewrite map_length.
    - now rewrite !map_length.
    - intros p x I. clear - HG I AX. assert (exists p0 x0, In (p0, x0) (combine ps a) /\ p = node p0 /\ x = fin x0) as (p0 & x0 & I0 & -> & ->).
      { revert a I HG. induction ps as [|q ps IH]; intros [|y a] I HG; cbn in I; try contradiction. destruct I as [E|I].
        - injection E as <- <-. exists q, y. cbn. auto.
        - destruct (IH a I) as (p0 & x0 & I0 & E); [intros; apply HG; now right|]. exists p0, x0. cbn. auto. }
      rewrite move_node_node by exact AX. now apply HG.
    - exists st. rewrite !map_map in C, F. auto.
  Qed.
End C89.

(** ** A terrain that stops at the row 3 *)
Definition hole_left : qmodel unit :=
  QModel (fun r c h => R3 r c h) (fun _ r c => match r, c with Some x, Some _ => if Rltb x 3 then R3 r c (fin 0) else nowhere | _, _ => nowhere end) (fun x y _ => (x, y)).
(** The right camera looks along the rows: row = longitude - altitude. *)
Definition hole_right : qmodel unit :=
  QModel (fun r c h => R3 (nadd r h) c h) (fun _ r c => R3 r c (fin 0)) (fun x y h => (nsub x h, y)).
Definition batch_of (q : qmodel unit) : geomodel unit :=
  GeoModel 4326%Z (fun r c h => Some (map (fun x => q_h q (fst (fst x)) (snd (fst x)) (snd x)) (combine (combine r c) h)))
           (fun r c d => Some (map (fun x => q_d q d (fst x) (snd x)) (combine r c)))
           (fun x y h => Some (map (fun p => q_inv q (fst (fst p)) (snd (fst p)) (snd p)) (combine (combine x y) h))) ((0, 0), (10, 10)).
Lemma batch_answers q : answers (batch_of q) q.
Proof.
  assert (C : forall l : list (num * num * num), combine (combine (map (fun p => fst (fst p)) l) (map (fun p => snd (fst p)) l)) (map snd l) = l).
  { induction l as [|[[x y] z] l IH]; [reflexivity|]. cbn. now rewrite IH. }
  repeat split; intros; cbn [batch_of gm_direct_h gm_direct_dtm gm_inverse]; [rewrite C; reflexivity| |rewrite C; reflexivity].
  f_equal. f_equal. induction l as [|[x y] l IH]; [reflexivity|]. cbn. now rewrite IH.
Qed.
Lemma hole_keeps : keeps_nan hole_left /\ keeps_nan hole_right.
Proof. repeat split. Qed.

Definition at_node (r c : R) : row3 := R3 (fin r) (fin c) (fin 0).
Lemma hole_turn r c : r < 3 -> qangle hole_left hole_right (Dtm tt) 1 (at_node r c) = fin (1 / 2 * PI).
Proof.
  intros H. unfold qangle, epipolar_angle, qend, qstart, qmatch, qseen, qground, at_node, hole_left, hole_right, p_row, p_col, p_alt. cbn [q_d q_h q_inv lon3 lat3 alt3 fin fst snd].
  destruct (Rltb_spec r 3) as [_|]; [|lra]. cbn.
  assert (E : Reqb c c = true) by (destruct (Reqb_spec c c); congruence). rewrite E. cbn.
  repeat match goal with |- context [Rltb ?u ?v] => destruct (Rltb_spec u v); try lra end; repeat match goal with |- context [Rleb ?u ?v] => destruct (Rleb_spec u v); try lra end; reflexivity.
Qed.

Lemma hole_step r c q g : r < 3 -> t_left (advance hole_left hole_right 1 1 1 (Dtm tt) 1 (Travel (at_node r c) q (fin (1 / 2 * PI)) g)) = at_node (r + 1) c.
Proof.
  intros H. unfold advance. cbn [t_left t_angle]. change (at_node r c) with (node (V3 r c 0)). rewrite move_node_node by reflexivity.
  unfold moved. change (Z.eqb 1 1) with true. cbv iota. cbn [v0 v1 v2]. replace (1 / 2 * PI) with (PI / 2) by field. rewrite cos_PI2, sin_PI2. unfold node, at_node. cbn [v0 v1 v2].
  unfold fin. f_equal; f_equal; ring.
Qed.
Lemma advance_keeps t : advance hole_left hole_right 1 1 1 (Dtm tt) 1 t = Travel (t_left (advance hole_left hole_right 1 1 1 (Dtm tt) 1 t)) (t_right (advance hole_left hole_right 1 1 1 (Dtm tt) 1 t))
  (qangle hole_left hole_right (Dtm tt) 1 (t_left (advance hole_left hole_right 1 1 1 (Dtm tt) 1 t))) (t_ground (advance hole_left hole_right 1 1 1 (Dtm tt) 1 t)).
Proof. reflexivity. Qed.
Lemma off_ground r c : 3 <= r -> no_ground hole_left tt (at_node r c).
Proof. intros H. unfold no_ground, at_node, hole_left. cbn [q_d lon3 lat3 fin]. destruct (Rltb_spec r 3); [lra|reflexivity]. Qed.

(** The strip from (0, 0) follows the epipolar line of the node, the column 0, as long as there is
    terrain.  From (3, 0) on there is no ground, yet the left positions are numbers: they leave the
    epipolar line and go on along the row 3. *)
Theorem C89_left_node_refuted :
  exists st,
    compute_strip_of_epipolar_grid (fun _ : unit => 4326%Z) (fun _ _ l => l) (batch_of hole_left) (batch_of hole_right)
      [at_node 0 0] [at_node 0 0] 1 1 6 1 (Dtm tt) 1 None None = Some st /\
    st_left st = [[at_node 0 0]; [at_node 1 0]; [at_node 2 0]; [at_node 3 0]; [at_node 3 1]; [at_node 3 2]] /\
    no_ground hole_left tt (at_node 3 0) /\ no_ground hole_left tt (at_node 3 1) /\ no_ground hole_left tt (at_node 3 2) /\
    nth_error (st_right st) 3 = Some [nowhere] /\ nth_error (st_right st) 4 = Some [nowhere] /\ nth_error (st_right st) 5 = Some [nowhere].
Proof.
  set (ml := batch_of hole_left). set (mr := batch_of hole_right). set (cv := fun (_ _ : Z) (l : list row3) => l).
  assert (Hl : answers ml hole_left) by apply batch_answers. assert (Hr : answers mr hole_right) by apply batch_answers. destruct hole_keeps as [Kl Kr].
  destruct (qstrip (fun _ : unit => 4326%Z) cv ml mr hole_left hole_right Hl Hr 1 1 1 (Dtm tt) 1 6 [at_node 0 0] [at_node 0 0] None I eq_refl ltac:(discriminate) eq_refl ltac:(cbv iota; lia)) as (st & E & A1 & A2 & A3).
  exists st. split; [exact E|].
  pose proof (C89_node_without_ground (fun _ : unit => 4326%Z) cv ml mr hole_left hole_right Hl Hr Kl Kr 1 1 6 1 tt 1 [at_node 0 0] [at_node 0 0] None st (or_intror eq_refl) ltac:(discriminate) eq_refl ltac:(lia) I E) as (L1 & _ & N).
  cbn [departures combine map fst snd] in A1. rewrite hole_turn in A1 by lra.
  set (f := advance hole_left hole_right 1 1 1 (Dtm tt) 1) in *. set (t0 := Travel (at_node 0 0) (at_node 0 0) (fin (1 / 2 * PI)) (qground hole_left (Dtm tt) (at_node 0 0))) in *.
  assert (T1 : t_left (f t0) = at_node 1 0) by (unfold f, t0; rewrite hole_step by lra; f_equal; lra).
  assert (S1 : f t0 = Travel (at_node 1 0) (t_right (f t0)) (fin (1 / 2 * PI)) (t_ground (f t0))) by (rewrite <- (hole_turn 1 0), <- T1 by lra; apply advance_keeps).
  assert (T2 : t_left (f (f t0)) = at_node 2 0) by (rewrite S1; unfold f at 1; rewrite hole_step by lra; f_equal; lra).
  assert (S2 : f (f t0) = Travel (at_node 2 0) (t_right (f (f t0))) (fin (1 / 2 * PI)) (t_ground (f (f t0)))) by (rewrite <- (hole_turn 2 0), <- T2 by lra; apply advance_keeps).
  assert (T3 : t_left (f (f (f t0))) = at_node 3 0) by (rewrite S2; unfold f at 1; rewrite hole_step by lra; f_equal; lra).
  cbn [laps map] in A1. rewrite T1, T2, T3 in A1. change (t_left t0) with (at_node 0 0) in A1.
  destruct (N 3%nat 0%nat (at_node 3 0)) as (R3_ & M3); [rewrite A1; reflexivity|apply off_ground; lra|]. destruct (M3 (or_intror eq_refl)) as (_ & M4).
  specialize (M4 (t_left (f (f (f (f t0)))))). rewrite A1 in M4. specialize (M4 eq_refl). change (Z.eqb 1 1) with true in M4. cbv iota in M4.
  assert (T4 : t_left (f (f (f (f t0)))) = at_node 3 1) by (rewrite M4; unfold shifted, at_node; cbn; unfold fin; f_equal; f_equal; ring).
  rewrite T4 in A1. destruct (N 4%nat 0%nat (at_node 3 1)) as (R4_ & M5); [rewrite A1; reflexivity|apply off_ground; lra|]. destruct (M5 (or_intror eq_refl)) as (_ & M6).
  specialize (M6 (t_left (f (f (f (f (f t0))))))). rewrite A1 in M6. specialize (M6 eq_refl). change (Z.eqb 1 1) with true in M6. cbv iota in M6.
  assert (T5 : t_left (f (f (f (f (f t0))))) = at_node 3 2) by (rewrite M6; unfold shifted, at_node; cbn; unfold fin; f_equal; f_equal; ring).
  rewrite T5 in A1. destruct (N 5%nat 0%nat (at_node 3 2)) as (R5_ & _); [rewrite A1; reflexivity|apply off_ground; lra|].
  split; [exact A1|]. split; [apply off_ground; lra|]. split; [apply off_ground; lra|]. split; [apply off_ground; lra|].
  assert (LN : forall k, entry (st_right st) k 0 = Some nowhere -> (exists l, nth_error (st_right st) k = Some l /\ length l = 1%nat) -> nth_error (st_right st) k = Some [nowhere]).
  { intros k H (l & HL & H1). unfold entry in H. rewrite HL in *. destruct l as [|x [|y l]]; try discriminate. cbn in H. congruence. }
  repeat split; (apply LN; [first [apply R3_; lia|apply R4_; lia|apply R5_; lia]|rewrite A2; cbn [departures combine map fst snd laps nth_error]; eexists; split; reflexivity]).
Qed.

(** With adaptive steps the same terrain ends the strip: from (2, 0) towards the rows, two columns
    instead of ten. *)
Theorem C89_adaptive_step_size_refuted :
  exists st,
    compute_strip_of_epipolar_grid (fun _ : unit => 4326%Z) (fun _ _ l => l) (batch_of hole_left) (batch_of hole_right)
      (map node [V3 2 0 0]) [at_node 2 0] 1 1 10 1 (Dtm tt) 1 (Some (map fin [PI / 2])) (Some (fin 1, 2, 1)) = Some st /\
    length (st_left st) = 2%nat /\ nth_error (st_left st) 1 = Some [nowhere].
Proof.
  destruct (C89_adaptive_step_stops (fun _ : unit => 4326%Z) (fun _ _ l => l) (batch_of hole_left) (batch_of hole_right) hole_left hole_right (batch_answers _) (batch_answers _)
    1 1 10 1 tt 1 [V3 2 0 0] [at_node 2 0] [PI / 2] (fin 1) 2 1) as (st & E & A & _ & B & _); auto; try lra; try lia; try discriminate.
  - intros p x [[= <- <-]|[]]. unfold moved. change (Z.eqb 1 1) with true. cbv iota. cbn [v0 v1 v2]. rewrite cos_PI2, sin_PI2. apply off_ground. cbv beta iota delta [v0]. lra.
  - exists st. auto.
Qed.

(** The hypotheses of the other two theorems: the strip above, beside another node. *)
Example C89_independent_ex : exists st st',
  compute_strip_of_epipolar_grid (fun _ : unit => 4326%Z) (fun _ _ l => l) (batch_of hole_left) (batch_of hole_right)
    [at_node 5 5; at_node 0 0] [at_node 5 5; at_node 0 0] 1 1 6 1 (Dtm tt) 1 None None = Some st /\
  compute_strip_of_epipolar_grid (fun _ : unit => 4326%Z) (fun _ _ l => l) (batch_of hole_left) (batch_of hole_right)
    [at_node 0 0] [at_node 0 0] 1 1 6 1 (Dtm tt) 1 None None = Some st' /\
  (forall k, (k < 6)%nat -> entry (st_left st) k 1 = entry (st_left st') k 0).
Proof.
  destruct (C89_nodes_are_independent (fun _ : unit => 4326%Z) (fun _ _ l => l) (batch_of hole_left) (batch_of hole_right) hole_left hole_right (batch_answers _) (batch_answers _)
    1 1 6 1 (Dtm tt) 1 [at_node 5 5; at_node 0 0] [at_node 5 5; at_node 0 0] None [at_node 0 0] [at_node 0 0] None 1 0 (at_node 0 0) (at_node 0 0)) as (st & st' & E & E' & _ & _ & H); auto; try lia.
  exists st, st'. split; [exact E|]. split; [exact E'|]. intros k Hk. apply H. exact Hk.
Qed.
