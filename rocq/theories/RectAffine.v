(** Affine sensors: the geometry of the epipolar grids. *)
From Coq Require Import Reals ZArith List Lra Lia.
From Verif Require Import Num NumLemmas ProjModel RpcModel LocModel RectModel RectSpec RectAffineSpec RectProofs RectDisp.
Import ListNotations.
Open Scope R_scope.

Lemma solve2 : forall a b c d x y u v, a * d - b * c <> 0 -> a * x + b * y = u -> c * x + d * y = v ->
  x = (d * u - b * v) / (a * d - b * c) /\ y = (a * v - c * u) / (a * d - b * c).
Proof. intros a b c d x y u v Hd E1 E2. subst u v. split; field; exact Hd. Qed.
Lemma null2 : forall a b c d x y, a * d - b * c <> 0 -> a * x + b * y = 0 -> c * x + d * y = 0 -> x = 0 /\ y = 0.
Proof.
  intros a b c d x y Hd E1 E2. destruct (solve2 a b c d x y 0 0 Hd E1 E2) as [-> ->]. split; field; exact Hd.
Qed.

Section Sensor.
  Context {D : Type}.

  Lemma affine_det : forall (pm : pmodel D) r0 r1 r2 r3 c0 c1 c2 c3,
    (forall lon lat alt, pm_inv pm lon lat alt = (r0 + r1 * lon + r2 * lat + r3 * alt, c0 + c1 * lon + c2 * lat + c3 * alt)) ->
    (forall row col alt, let g := pm_h pm row col alt in v2 g = alt /\ pm_inv pm (v0 g) (v1 g) (v2 g) = (row, col)) ->
    r1 * c2 - r2 * c1 <> 0.
  Proof.
    intros pm r0 r1 r2 r3 c0 c1 c2 c3 HI HD Hz.
    destruct (HD 0 0 0) as [A0 B0]. destruct (HD 1 0 0) as [A1 B1]. destruct (HD 0 1 0) as [A2 B2].
    rewrite HI in B0, B1, B2. rewrite A0 in B0. rewrite A1 in B1. rewrite A2 in B2.
    set (x0 := v0 (pm_h pm 0 0 0)) in *. set (y0 := v1 (pm_h pm 0 0 0)) in *.
    set (x1 := v0 (pm_h pm 1 0 0)) in *. set (y1 := v1 (pm_h pm 1 0 0)) in *.
    set (x2 := v0 (pm_h pm 0 1 0)) in *. set (y2 := v1 (pm_h pm 0 1 0)) in *.
    assert (P0 := f_equal fst B0). assert (Q0 := f_equal snd B0). assert (P1 := f_equal fst B1). assert (Q1 := f_equal snd B1).
    assert (P2 := f_equal fst B2). assert (Q2 := f_equal snd B2). cbn [fst snd] in *.
    assert (E1 : r1 * (x1 - x0) + r2 * (y1 - y0) = 1) by lra. assert (E2 : c1 * (x1 - x0) + c2 * (y1 - y0) = 0) by lra.
    assert (E3 : r1 * (x2 - x0) + r2 * (y2 - y0) = 0) by lra. assert (E4 : c1 * (x2 - x0) + c2 * (y2 - y0) = 1) by lra.
    set (a := x1 - x0) in *. set (b := y1 - y0) in *. set (c := x2 - x0) in *. set (d := y2 - y0) in *.
    assert (E : (r1 * c2 - r2 * c1) * (a * d - b * c) = 1).
    { replace ((r1 * c2 - r2 * c1) * (a * d - b * c)) with ((r1 * a + r2 * b) * (c1 * c + c2 * d) - (c1 * a + c2 * b) * (r1 * c + r2 * d)) by ring.
      rewrite E1, E2, E3, E4. ring. }
    rewrite Hz in E. lra.
  Qed.

  (** Direct localization inverts the projection at each altitude. *)
  Lemma affine_both : forall (pm : pmodel D), affine_sensor pm ->
    forall lon lat alt, pm_h pm (fst (pm_inv pm lon lat alt)) (snd (pm_inv pm lon lat alt)) alt = V3 lon lat alt.
  Proof.
    intros pm [(r0 & r1 & r2 & r3 & c0 & c1 & c2 & c3 & HI) HD] lon lat alt.
    pose proof (affine_det pm _ _ _ _ _ _ _ _ HI HD) as Hdet.
    destruct (HD (fst (pm_inv pm lon lat alt)) (snd (pm_inv pm lon lat alt)) alt) as [A B].
    set (g := pm_h pm _ _ _) in *. rewrite A, !HI in B. cbn [fst snd] in B.
    assert (P := f_equal fst B). assert (Q := f_equal snd B). cbn [fst snd] in P, Q.
    destruct (null2 r1 r2 c1 c2 (v0 g - lon) (v1 g - lat) Hdet) as [X Y]; [lra|lra|].
    destruct g as [g0 g1 g2]. cbn [v0 v1 v2] in *. f_equal; lra.
  Qed.

  Lemma matched_back : forall (p1 p2 : pmodel D) h q, affine_sensor p1 -> affine_sensor p2 ->
    matched p1 p2 (Plane h) (matched p2 p1 (Plane h) q) = V3 (v0 q) (v1 q) h.
  Proof.
    intros p1 p2 h q H1 H2. unfold matched, ground, seen. cbn [v0 v1].
    destruct (proj2 H2 (v0 q) (v1 q) h) as [A2 B2]. rewrite A2 in *.
    set (g := pm_h p2 (v0 q) (v1 q) h) in *.
    rewrite (affine_both p1 H1). cbn [v0 v1 v2]. rewrite B2. reflexivity.
  Qed.

  (** The transfer between the two images at an altitude. *)
  Lemma affine_transfer : forall (p1 p2 : pmodel D), affine_sensor p1 -> affine_sensor p2 ->
    exists k0 k1 a b c d e0 e1, a * d - b * c <> 0 /\
      forall h p, matched p1 p2 (Plane h) p = V3 (k0 + a * v0 p + b * v1 p + h * e0) (k1 + c * v0 p + d * v1 p + h * e1) h.
  Proof.
    intros p1 p2 H1 H2.
    destruct H1 as [(r0 & r1 & r2 & r3 & c0 & c1 & c2 & c3 & HI1) HD1].
    destruct H2 as [(s0 & s1 & s2 & s3 & d0 & d1 & d2 & d3 & HI2) HD2].
    pose proof (affine_det p1 _ _ _ _ _ _ _ _ HI1 HD1) as N1. pose proof (affine_det p2 _ _ _ _ _ _ _ _ HI2 HD2) as N2.
    set (n := r1 * c2 - r2 * c1) in *.
    assert (G : forall row col h, let g := pm_h p1 row col h in
      v0 g = (c2 * (row - r0 - r3 * h) - r2 * (col - c0 - c3 * h)) / n /\ v1 g = (r1 * (col - c0 - c3 * h) - c1 * (row - r0 - r3 * h)) / n /\ v2 g = h).
    { intros row col h g. destruct (HD1 row col h) as [A B]. fold g in A, B. rewrite HI1, A in B.
      assert (P := f_equal fst B). assert (Q := f_equal snd B). cbn [fst snd] in P, Q.
      destruct (solve2 r1 r2 c1 c2 (v0 g) (v1 g) (row - r0 - r3 * h) (col - c0 - c3 * h) N1) as [X Y]; [lra|lra|].
      fold n in X, Y. auto. }
    exists (s0 + (s1 * (- c2 * r0 + r2 * c0) + s2 * (- r1 * c0 + c1 * r0)) / n), (d0 + (d1 * (- c2 * r0 + r2 * c0) + d2 * (- r1 * c0 + c1 * r0)) / n),
      ((s1 * c2 - s2 * c1) / n), ((s2 * r1 - s1 * r2) / n), ((d1 * c2 - d2 * c1) / n), ((d2 * r1 - d1 * r2) / n),
      (s3 + (s1 * (- c2 * r3 + r2 * c3) + s2 * (- r1 * c3 + c1 * r3)) / n), (d3 + (d1 * (- c2 * r3 + r2 * c3) + d2 * (- r1 * c3 + c1 * r3)) / n).
    split.
    - replace ((s1 * c2 - s2 * c1) / n * ((d2 * r1 - d1 * r2) / n) - (s2 * r1 - s1 * r2) / n * ((d1 * c2 - d2 * c1) / n))
        with ((s1 * d2 - s2 * d1) / n) by (unfold n; field; exact N1).
      unfold Rdiv. apply Rmult_integral_contrapositive_currified; [exact N2|]. apply Rinv_neq_0_compat. exact N1.
    - intros h p. unfold matched, ground, seen. destruct (G (v0 p) (v1 p) h) as (A & B & C). cbv zeta in A, B, C.
      rewrite C, A, B, HI2. cbn [fst snd]. f_equal; field; exact N1.
  Qed.

  (** The ends of the local epipolar lines. *)
  Lemma affine_ends : forall (p1 p2 : pmodel D), affine_sensor p1 -> affine_sensor p2 ->
    exists k0 k1 a b c d w0 w1, a * d - b * c <> 0 /\
      (forall h p, matched p1 p2 (Plane h) p
                   = V3 (k0 + a * (v0 p + h * w0) + b * (v1 p + h * w1)) (k1 + c * (v0 p + h * w0) + d * (v1 p + h * w1)) h) /\
      (forall s dh p, epipolar_end p1 p2 (Plane s) dh p = V3 (v0 p - dh * w0) (v1 p - dh * w1) (s + dh)).
  Proof.
    intros p1 p2 H1 H2. destruct (affine_transfer p1 p2 H1 H2) as (k0 & k1 & a & b & c & d & e0 & e1 & N & T).
    set (w0 := (d * e0 - b * e1) / (a * d - b * c)). set (w1 := (a * e1 - c * e0) / (a * d - b * c)).
    assert (W0 : a * w0 + b * w1 = e0) by (unfold w0, w1; field; exact N).
    assert (W1 : c * w0 + d * w1 = e1) by (unfold w0, w1; field; exact N).
    exists k0, k1, a, b, c, d, w0, w1. split; [exact N|].
    assert (T' : forall h p, matched p1 p2 (Plane h) p
       = V3 (k0 + a * (v0 p + h * w0) + b * (v1 p + h * w1)) (k1 + c * (v0 p + h * w0) + d * (v1 p + h * w1)) h).
    { intros h p. rewrite T. rewrite <- W0, <- W1. f_equal; ring. }
    split; [exact T'|].
    intros s dh p. unfold epipolar_end.
    set (q := matched p1 p2 (Plane s) p).
    assert (Eq : q = V3 (k0 + a * (v0 p + s * w0) + b * (v1 p + s * w1)) (k1 + c * (v0 p + s * w0) + d * (v1 p + s * w1)) s) by apply T'.
    assert (V2q : v2 q = s) by (rewrite Eq; reflexivity). rewrite V2q.
    pose proof (matched_back p1 p2 (s + dh) q H1 H2) as B.
    assert (V2e : v2 (matched p2 p1 (Plane (s + dh)) q) = s + dh).
    { unfold matched, ground, seen. cbn [v2]. apply (proj2 H2). }
    set (e := matched p2 p1 (Plane (s + dh)) q) in *. rewrite T' in B.
    assert (X0 := f_equal v0 B). assert (X1 := f_equal v1 B). rewrite Eq in X0, X1. cbn [v0 v1] in X0, X1.
    destruct (null2 a b c d (v0 e - v0 p + dh * w0) (v1 e - v1 p + dh * w1) N) as [Y0 Y1]; [lra|lra|].
    destruct e as [x y z]. cbn [v0 v1 v2] in *. f_equal; lra.
  Qed.

  (** The local ratio and the direction. *)
  Lemma affine_ratio : forall off w0 w1 p q z z', off <> 0 ->
    image_distance (V3 (p - - off * w0) (q - - off * w1) z) (V3 (p - off * w0) (q - off * w1) z') / (2 * off)
    = (Rabs off / off) * sqrt (w1 * w1 + w0 * w0).
  Proof.
    intros off w0 w1 p q z z' Ho. unfold image_distance. cbn [v0 v1].
    replace ((q - off * w1 - (q - - off * w1)) * (q - off * w1 - (q - - off * w1)) + (p - off * w0 - (p - - off * w0)) * (p - off * w0 - (p - - off * w0)))
      with ((2 * off)² * (w1 * w1 + w0 * w0)) by (unfold Rsqr; ring).
    assert (0 <= w1 * w1) by apply Rle_0_sqr. assert (0 <= w0 * w0) by apply Rle_0_sqr.
    rewrite sqrt_mult by (try apply Rle_0_sqr; lra). rewrite sqrt_Rsqr_abs, Rabs_mult, (Rabs_pos_eq 2) by lra. field. exact Ho.
  Qed.
End Sensor.

(** ** The grid is a lattice *)
Lemma entry_before : forall {A} (L : list (list A)) i j x, entry L i (S j) = Some x -> exists y, entry L i j = Some y.
Proof.
  intros A L i j x H. unfold entry in *. destruct (nth_error L i) as [l|]; [|discriminate].
  destruct (nth_error l j) eqn:E; [eauto|]. apply nth_error_None in E. assert (S j < length l)%nat by (apply nth_error_Some; congruence). lia.
Qed.
Lemma entry_above : forall {A} (L : list (list A)) h w i x, shaped h w L -> entry L (S i) 0 = Some x -> exists y, entry L i 0 = Some y.
Proof.
  intros A L h w i x [HL HW] H. unfold entry in *. destruct (nth_error L (S i)) as [l|] eqn:E; [|discriminate].
  destruct (nth_error L i) as [l'|] eqn:E'.
  - assert (length l = w) by (apply HW; eapply nth_error_In; eauto). assert (length l' = w) by (apply HW; eapply nth_error_In; eauto).
    destruct (nth_error l' 0) eqn:E0; [eauto|]. apply nth_error_None in E0. assert (0 < length l)%nat by (apply nth_error_Some; congruence). lia.
  - apply nth_error_None in E'. assert (S i < length L)%nat by (apply nth_error_Some; congruence). lia.
Qed.

Section Lattice.
  Context {D : Type} (pl pr : pmodel D).
  Lemma grid_lattice : forall s off d start L h w dr dc, shaped h w L -> epipolar_grid pl pr s off d start L ->
    (forall p alpha, epipolar_direction pl pr s off p alpha -> sin alpha = dr /\ cos alpha = dc) ->
    lattice L (v0 start, v1 start) (d * dr, d * dc) (d * dc, - (d * dr)).
  Proof.
    intros s off d start L h w dr dc HS [E0 EG] HC.
    assert (C0 : forall i p, entry L i 0 = Some p -> v0 p = v0 start + INR i * (d * dc) /\ v1 p = v1 start - INR i * (d * dr)).
    { induction i as [|i IH]; intros p Hp.
      - assert (p = start) by congruence. subst p. cbn [INR]. split; ring.
      - destruct (entry_above L h w i p HS Hp) as [q Hq]. destruct (IH q Hq) as [I0 I1].
        destruct (EG i 0%nat q Hq) as (alpha & Ha & _ & Hm). specialize (Hm eq_refl p Hp). subst p.
        destruct (HC q alpha Ha) as [S1 S2].
        unfold moved. cbn [Z.eqb Pos.eqb v0 v1]. rewrite S1, S2, I0, I1, S_INR. split; ring. }
    intros i j. induction j as [|j IH]; intros p Hp; cbn [fst snd].
    - destruct (C0 i p Hp) as [I0 I1]. rewrite I0, I1. cbn [INR]. split; ring.
    - destruct (entry_before L i j p Hp) as [q Hq]. destruct (IH q Hq) as [I0 I1]. cbn [fst snd] in I0, I1.
      destruct (EG i j q Hq) as (alpha & Ha & Hm & _). specialize (Hm p Hp). subst p.
      destruct (HC q alpha Ha) as [S1 S2]. unfold moved. cbn [Z.eqb Pos.eqb v0 v1]. rewrite S1, S2, I0, I1, S_INR. split; ring.
  Qed.
End Lattice.

(** ** Interpolation in a lattice *)
Lemma interpolate_lattice : forall h w (L : list (list vec3)) step start u v X Y,
  shaped h w L -> (2 <= h)%nat -> (2 <= w)%nat -> 0 < step -> lattice L start u v ->
  let '(dcols, drows) := write_epipolar_grid (positions_to_displacement_grid (map (map node) L) step) true in
  interpolate_grid (read_rectification_grid (displacement_transform step) w h dcols drows true) X Y
  = (fin (snd start + X / step * snd u + Y / step * snd v), fin (fst start + X / step * fst u + Y / step * fst v)).
Proof.
  intros h w L step start u v X Y HG Hh Hw Hs HL.
  assert (HS : grid_of h w (map (map node) L)).
  { destruct HG as [HG1 HG2]. split; [rewrite map_length; auto|]. intros l Hl. apply in_map_iff in Hl. destruct Hl as (l0 & <- & Hl). rewrite map_length. auto. }
  pose proof (displacement_same h w (map (map node) L) step HS) as EQ. cbv zeta in EQ.
  destruct (write_epipolar_grid (positions_to_displacement_grid (map (map node) L) step) true) as [dcols drows].
  cbn [write_epipolar_grid] in EQ. rewrite EQ. clear EQ dcols drows.
  unfold read_rectification_grid.
  assert (Eo : affine_apply (displacement_transform step) (1 / 2, 1 / 2) = (0, 0)).
  { unfold displacement_transform, affine_apply; cbn. f_equal; field. }
  rewrite Eo. cbv iota.
  assert (IN : forall i j, (i < w)%nat -> (j < h)%nat -> exists p, entry L j i = Some p).
  { destruct HG as [HG1 HG2]. intros i j Hi Hj. unfold entry. destruct (nth_error L j) as [l|] eqn:El; [|apply nth_error_None in El; lia].
    specialize (HG2 l (nth_error_In _ _ El)). destruct (nth_error l i) eqn:Ei; [eauto|]. apply nth_error_None in Ei. lia. }
  assert (AT : forall (f : row3 -> num) (g : vec3 -> R), (forall p, f (node p) = Some (g p)) -> forall i j p, entry L j i = Some p -> (i < w)%nat ->
     at2 (transpose w (map (map f) (map (map node) L))) i j = Some (g p)).
  { intros f g Hfg i j p Ep Hi. apply at2_entry. rewrite transpose_entry.
    - rewrite !map_entry, Ep. cbn [option_map]. rewrite Hfg. reflexivity.
    - intros l Hl. destruct HS as [_ HS]. apply in_map_iff in Hl. destruct Hl as (l0 & <- & Hl). rewrite map_length. auto. }
  unfold interpolate_grid. cbn [rg_ori_col rg_ori_row rg_step_col rg_step_row rg_cols rg_rows rg_col_positions rg_row_positions].
  replace (af_a (displacement_transform step)) with step by reflexivity. replace (af_e (displacement_transform step)) with step by reflexivity.
  set (i := grid_cell 0 step w X). set (j := grid_cell 0 step h Y).
  assert (Hi : (S i < w)%nat) by (unfold i, grid_cell; lia). assert (Hj : (S j < h)%nat) by (unfold j, grid_cell; lia).
  assert (XE : (X - (0 + INR i * step)) / step = X / step - INR i) by (field; lra).
  assert (YE : (Y - (0 + INR j * step)) / step = Y / step - INR j) by (field; lra).
  rewrite XE, YE.
  rewrite (bilinear_fin _ (fun a b => snd start + INR a * snd u + INR b * snd v)), (bilinear_fin _ (fun a b => fst start + INR a * fst u + INR b * fst v)).
  - unfold blend, fin. rewrite !S_INR. apply f_equal2; apply f_equal; ring.
  - intros a b Ha Hb. destruct (IN a b) as [p Ep]; [lia|lia|]. destruct (HL b a p Ep) as [P Q]. rewrite <- P.
    apply (AT lon3 v0 (fun _ => eq_refl)); [exact Ep|lia].
  - intros a b Ha Hb. destruct (IN a b) as [p Ep]; [lia|lia|]. destruct (HL b a p Ep) as [P Q]. rewrite <- Q.
    apply (AT lat3 v1 (fun _ => eq_refl)); [exact Ep|lia].
Qed.
