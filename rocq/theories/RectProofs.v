(** Lemmas on the stereo-rectification: point by point evaluation. *)
From Coq Require Import Reals ZArith List Bool Lra Lia.
From Verif Require Import Num NumLemmas ProjModel RpcModel RpcDtmModel LocModel TriModel TriBatch RectModel RectSpec.
Import ListNotations.
Open Scope R_scope.

Lemma combine_map_same : forall {A B C} (f : A -> B) (g : A -> C) l, combine (map f l) (map g l) = map (fun x => (f x, g x)) l.
Proof. induction l; cbn; congruence. Qed.
Lemma map2_map_same2 : forall {A B C E} (h : B -> C -> E) (f : A -> B) (g : A -> C) l,
  map2 h (map f l) (map g l) = map (fun x => h (f x) (g x)) l.
Proof. induction l; cbn; congruence. Qed.
Lemma map_repeat_const : forall {A B} (b : B) (l : list A), map (fun _ => b) l = repeat b (length l).
Proof. induction l; cbn; congruence. Qed.

(** ** The angle *)
Definition direction (s e : vec3) : R :=
  if Reqb (v1 e) (v1 s) then (if Rltb (v0 s) (v0 e) then 1 / 2 * PI else - (1 / 2) * PI)
  else if Rltb (v1 s) (v1 e) then atan ((v0 e - v0 s) / (v1 e - v1 s))
  else PI + atan ((v0 e - v0 s) / (v1 e - v1 s)).

Ltac boo := repeat match goal with
  | |- context [Reqb ?a ?b] => destruct (Reqb_spec a b)
  | |- context [Rltb ?a ?b] => destruct (Rltb_spec a b)
  | |- context [Rleb ?a ?b] => destruct (Rleb_spec a b)
  end.

Lemma epipolar_angle_node : forall s e, epipolar_angle (node e) (node s) = fin (direction s e).
Proof.
  intros s e; unfold epipolar_angle, direction, node, p_col, p_row; cbn [lon3 lat3 neqb ngtb nleb nsub nlift2].
  unfold ndiv; destruct (Req_EM_T (v1 e - v1 s) 0);
  boo; cbn; try reflexivity; try lra.
Qed.
Lemma cpp_epipolar_angle_node : forall s e, cpp_epipolar_angle (node e) (node s) = fin (direction s e).
Proof.
  intros s e; unfold cpp_epipolar_angle, direction, node, p_col, p_row; cbn [lon3 lat3 neqb ngtb nleb nsub nlift2].
  unfold ndiv; destruct (Req_EM_T (v1 e - v1 s) 0);
  boo; cbn; try reflexivity; try lra.
Qed.

Lemma image_distance_sqr : forall s e,
  image_distance s e * image_distance s e = (v1 e - v1 s) * (v1 e - v1 s) + (v0 e - v0 s) * (v0 e - v0 s).
Proof. intros; unfold image_distance; apply sqrt_sqrt. pose proof (Rle_0_sqr (v1 e - v1 s)); pose proof (Rle_0_sqr (v0 e - v0 s)); unfold Rsqr in *; lra. Qed.
Lemma image_distance_pos : forall s e, 0 <= image_distance s e.
Proof. intros; apply sqrt_pos. Qed.

Lemma sqrt_ratio : forall x y, x <> 0 -> sqrt (x * x + y * y) = Rabs x * sqrt (1 + (y / x)²).
Proof.
  intros x y Hx. replace (x * x + y * y) with (x² * (1 + (y / x)²)) by (unfold Rsqr; field; auto).
  rewrite sqrt_mult_alt by apply Rle_0_sqr. rewrite sqrt_Rsqr_abs. reflexivity.
Qed.

Lemma direction_has_direction : forall s e, has_direction s e (direction s e).
Proof.
  intros s e; unfold has_direction, image_distance, direction.
  destruct (Reqb_spec (v1 e) (v1 s)) as [E|E].
  - rewrite E. replace ((v1 s - v1 s) * (v1 s - v1 s) + (v0 e - v0 s) * (v0 e - v0 s)) with ((v0 e - v0 s)²) by (unfold Rsqr; ring).
    rewrite sqrt_Rsqr_abs.
    destruct (Rltb_spec (v0 s) (v0 e)).
    + replace (1 / 2 * PI) with (PI / 2) by field. rewrite cos_PI2, sin_PI2, Rabs_pos_eq by lra. lra.
    + replace (- (1 / 2) * PI) with (- (PI / 2)) by field. rewrite cos_neg, sin_neg, cos_PI2, sin_PI2, Rabs_left1 by lra. lra.
  - rewrite sqrt_ratio by lra.
    set (x := v1 e - v1 s). set (y := v0 e - v0 s).
    assert (Hx : x <> 0) by (unfold x; lra).
    assert (Hq : 0 < sqrt (1 + (y / x)²)) by (apply sqrt_lt_R0; pose proof (Rle_0_sqr (y / x)); lra).
    destruct (Rltb_spec (v1 s) (v1 e)).
    + rewrite cos_atan, sin_atan, Rabs_pos_eq by (unfold x; lra). split; field; repeat split; lra.
    + rewrite (Rplus_comm PI), neg_cos, neg_sin, cos_atan, sin_atan, Rabs_left1 by (unfold x; lra). split; field; repeat split; lra.
Qed.

Lemma direction_range : forall s e, - PI / 2 <= direction s e < 3 * PI / 2.
Proof.
  intros s e; unfold direction. pose proof PI_RGT_0.
  pose proof (atan_bound ((v0 e - v0 s) / (v1 e - v1 s))).
  boo; lra.
Qed.

(** Two angles of the range with the same direction are equal. *)
Lemma angle_unique : forall a b, - PI / 2 <= a < 3 * PI / 2 -> - PI / 2 <= b < 3 * PI / 2 ->
  cos a = cos b -> sin a = sin b -> a = b.
Proof.
  intros a b Ha Hb Hc Hs.
  assert (C : cos (a - b) = 1) by (rewrite cos_minus, Hc, Hs; pose proof (sin2_cos2 b); unfold Rsqr in *; lra).
  assert (S0 : sin (a - b) = 0) by (rewrite sin_minus, Hc, Hs; ring).
  pose proof PI_RGT_0.
  destruct (sin_eq_0_0 _ S0) as [k Hk].
  assert (K : (-2 < k < 2)%Z).
  { split; apply lt_IZR; apply Rmult_lt_reg_r with PI; auto; rewrite <- Hk; cbn; lra. }
  destruct (Z.eq_dec k 0) as [->|Hn]. cbn in Hk; lra.
  exfalso. assert (K1 : (k = 1 \/ k = -1)%Z) by lia.
  destruct K1 as [ -> | -> ]; rewrite Hk in C.
  - rewrite Rmult_1_l, cos_PI in C; lra.
  - replace (-1 * PI) with (- PI) in C by ring. rewrite cos_neg, cos_PI in C; lra.
Qed.

(** ** Moving *)
Lemma move_node_node : forall axis step sp p a, axis_ok axis = true ->
  move_node axis step sp (node p) (fin a) = node (moved axis (step * sp) p a).
Proof.
  intros axis step sp p a H; unfold move_node, moved, node, p_row, p_col, p_alt; cbn [lon3 lat3 alt3 nadd nlift2 nlift1 nmul fin].
  unfold axis_ok in H. apply orb_prop in H. destruct H as [H|H]; apply Z.eqb_eq in H; subst axis.
  - change (0 =? 1)%Z with false; cbv iota; cbn [v0 v1 v2]. replace (IZR (1 - 0) * PI / 2) with (PI / 2) by (cbn; field).
    rewrite cos_plus, sin_plus, cos_PI2, sin_PI2. f_equal; f_equal; ring.
  - change (1 =? 1)%Z with true; cbv iota; cbn [v0 v1 v2]. replace (IZR (1 - 1) * PI / 2) with 0 by (cbn; field).
    rewrite Rplus_0_r. reflexivity.
Qed.

(** ** Colocation, point by point *)
Section Pointwise.
  Context {D : Type} (dtm_epsg : D -> Z) (conv : Z -> Z -> list row3 -> list row3).

  Lemma inverse_nodes : forall (m : geomodel D) (pm : pmodel D) (f : vec3 -> vec3) ps, behaves m pm ->
    gm_inverse m (map (fun x => lon3 (node (f x))) ps) (map (fun x => lat3 (node (f x))) ps) (map (fun x => alt3 (node (f x))) ps)
    = Some (map (fun x => (fin (v0 (seen pm (f x))), fin (v1 (seen pm (f x))))) ps).
  Proof.
    intros m pm f ps (_ & _ & I).
    specialize (I (map (fun x => (v0 (f x), v1 (f x), v2 (f x))) ps)).
    unfold fins, firsts, seconds, thirds in I. rewrite !map_map in I. exact I.
  Qed.
  Lemma direct_nodes : forall (m : geomodel D) (pm : pmodel D) (f : vec3 -> vec3) (h : vec3 -> R) ps, behaves m pm ->
    gm_direct_h m (map (fun x => p_row (node (f x))) ps) (map (fun x => p_col (node (f x))) ps) (map (fun x => fin (h x)) ps)
    = Some (map (fun x => node (pm_h pm (v0 (f x)) (v1 (f x)) (h x))) ps).
  Proof.
    intros m pm f h ps (I & _ & _).
    specialize (I (map (fun x => (v0 (f x), v1 (f x), h x)) ps)).
    unfold fins, firsts, seconds, thirds in I. rewrite !map_map in I. exact I.
  Qed.
  Lemma dtm_nodes : forall (m : geomodel D) (pm : pmodel D) (f : vec3 -> vec3) d ps, behaves m pm ->
    gm_direct_dtm m (map (fun x => p_row (node (f x))) ps) (map (fun x => p_col (node (f x))) ps) d
    = Some (map (fun x => node (pm_d pm d (v0 (f x)) (v1 (f x)))) ps).
  Proof.
    intros m pm f d ps (_ & I & _).
    specialize (I d (map (fun x => (v0 (f x), v1 (f x))) ps)).
    unfold fins in I. rewrite !map_map in I. exact I.
  Qed.

  Lemma coloc_surface : forall m1 m2 p1 p2 s ps, behaves m1 p1 -> behaves m2 p2 ->
    coloc_rows dtm_epsg conv m1 m2 (map node ps) (elev_of s)
    = Some (map (fun p => node (matched p1 p2 s p)) ps, map (fun p => node (ground p1 s p)) ps).
  Proof.
    intros m1 m2 p1 p2 s ps H1 H2.
    unfold coloc_rows, coloc. rewrite !map_map, !map_length, Nat.eqb_refl, combine_map_same.
    match goal with |- match ?x with _ => _ end = _ => assert (E : x = Some (map (fun p => node (ground p1 s p)) ps)) end.
    { unfold direct, to_physical. destruct s as [h|d]; cbn [make_localization elev_of lo_image lo_dtm lo_model lo_default lo_epsg broadcast].
      - rewrite !map_map, map_length; cbn [fst snd]. rewrite <- map_repeat_const.
        rewrite (direct_nodes m1 p1 (fun x => x) (fun _ => h)) by auto. reflexivity.
      - rewrite !map_map; cbn [fst snd]. rewrite (dtm_nodes m1 p1 (fun x => x)) by auto. reflexivity. }
    rewrite E. clear E.
    unfold inverse, to_index.
    replace (lo_epsg (make_localization m2 (elev_of s) None None)) with (@None Z) by (destruct s; reflexivity).
    replace (lo_image (make_localization m2 (elev_of s) None None)) with (@None image) by (destruct s; reflexivity).
    replace (lo_model (make_localization m2 (elev_of s) None None)) with m2 by (destruct s; reflexivity).
    cbv iota. cbn [broadcast]. rewrite !map_map; cbn [fst snd].
    rewrite (inverse_nodes m2 p2 (ground p1 s)) by auto. rewrite map2_map_same2. reflexivity.
  Qed.

  Lemma coloc_array : forall m1 m2 p1 p2 (f : vec3 -> vec3) (dh : vec3 -> R) ps, behaves m1 p1 -> behaves m2 p2 ->
    exists gs, coloc_rows dtm_epsg conv m1 m2 (map (fun p => node (f p)) ps) (Elev (Array (map (fun p => fin (dh p)) ps)))
    = Some (map (fun p => node (matched p1 p2 (Plane (dh p)) (f p))) ps, gs).
  Proof.
    intros m1 m2 p1 p2 f dh ps H1 H2.
    exists (map (fun p => node (ground p1 (Plane (dh p)) (f p))) ps).
    unfold coloc_rows, coloc. rewrite !map_map, !map_length, Nat.eqb_refl, combine_map_same.
    unfold direct, to_physical. cbn [make_localization lo_image lo_dtm lo_model lo_default lo_epsg broadcast].
    rewrite !map_map; cbn [fst snd].
    rewrite (direct_nodes m1 p1 f dh) by auto.
    unfold inverse, to_index. cbn [make_localization lo_image lo_dtm lo_model lo_default lo_epsg broadcast].
    rewrite !map_map; cbn [fst snd].
    rewrite (inverse_nodes m2 p2 (fun x => pm_h p1 (v0 (f x)) (v1 (f x)) (dh x))) by auto. rewrite map2_map_same2. reflexivity.
  Qed.

  Context (ml mr : geomodel D) (pl pr : pmodel D) (s : surface D) (off : R).
  Hypothesis (Hl : behaves ml pl) (Hr : behaves mr pr).
  Local Notation start_of := (epipolar_end pl pr s (- off)).
  Local Notation end_of := (epipolar_end pl pr s off).
  Definition angle_at (p : vec3) : R := direction (start_of p) (end_of p).

  Lemma local_line : forall ps,
    compute_local_epipolar_line dtm_epsg conv ml mr (map node ps) (elev_of s) off
    = Some (map (fun p => node (start_of p)) ps, map (fun p => node (end_of p)) ps, map (fun p => node (ground pl s p)) ps).
  Proof.
    intro ps. unfold compute_local_epipolar_line. rewrite (coloc_surface _ _ pl pr) by auto.
    rewrite !map_map. cbn [p_alt node alt3 nsub nadd nlift2 fin].
    destruct (coloc_array mr ml pr pl (matched pl pr s) (fun p => v2 (matched pl pr s p) - off) ps Hr Hl) as [g1 E1].
    destruct (coloc_array mr ml pr pl (matched pl pr s) (fun p => v2 (matched pl pr s p) + off) ps Hr Hl) as [g2 E2].
    unfold fin in E1, E2. rewrite E1, E2. unfold epipolar_end. reflexivity.
  Qed.

  Lemma angles_of_lines : forall ps,
    compute_epipolar_angle (map (fun p => node (end_of p)) ps) (map (fun p => node (start_of p)) ps) = map (fun p => fin (angle_at p)) ps.
  Proof. intros; unfold compute_epipolar_angle; rewrite map2_map_same2; apply map_ext; intro; apply epipolar_angle_node. Qed.

  Lemma ratio_node : forall a b, off <> 0 -> baseline_ratio off (node b) (node a) = fin (image_distance a b / (2 * off)).
  Proof.
    intros a b Ho; unfold baseline_ratio, node, p_col, p_row; cbn. unfold ndiv; cbn.
    destruct (Req_EM_T (2 * off) 0); [lra|]. reflexivity.
  Qed.
  Lemma ratios_of_lines : forall ps, off <> 0 ->
    map2 (baseline_ratio off) (map (fun p => node (end_of p)) ps) (map (fun p => node (start_of p)) ps)
    = map (fun p => fin (local_ratio pl pr s off p)) ps.
  Proof. intros; rewrite map2_map_same2; apply map_ext; intro; apply ratio_node; auto. Qed.

  Lemma moving : forall ps (angle : vec3 -> R) sp step axis, axis_ok axis = true ->
    moving_along_axis dtm_epsg conv ml mr (map node ps) sp (elev_of s) step (map (fun p => fin (angle p)) ps) axis
    = Some (map (fun p => node (moved axis (step * sp) p (angle p))) ps,
            map (fun p => node (matched pl pr s (moved axis (step * sp) p (angle p)))) ps,
            map (fun p => node (ground pl s (moved axis (step * sp) p (angle p)))) ps).
  Proof.
    intros ps angle sp step axis Ha. unfold moving_along_axis. rewrite Ha, map2_map_same2.
    rewrite (map_ext _ (fun p => node (moved axis (step * sp) p (angle p)))) by (intro; apply move_node_node; auto).
    rewrite <- (map_map (fun p => moved axis (step * sp) p (angle p)) node).
    rewrite (coloc_surface _ _ pl pr) by auto. rewrite !map_map. reflexivity.
  Qed.
End Pointwise.
