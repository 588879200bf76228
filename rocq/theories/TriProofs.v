(** Proofs on the triangulation. *)
From Coq Require Import Reals ZArith List Bool Lra Lia Psatz.
From Verif Require Import Num NumLemmas ProjModel RpcModel TriModel TriSpec.
Import ListNotations.
Open Scope R_scope.

Lemma sum_sq_zero x y z : x * x + y * y + z * z = 0 -> x = 0 /\ y = 0 /\ z = 0.
Proof.
  intros H. pose proof (Rle_0_sqr x) as Hx. pose proof (Rle_0_sqr y) as Hy. pose proof (Rle_0_sqr z) as Hz. unfold Rsqr in *.
  repeat split; apply Rsqr_0_uniq; unfold Rsqr; lra.
Qed.

(** ** One view *)
Definition cross3 (a b : vec3) : vec3 :=
  V3 (v1 a * v2 b - v2 a * v1 b) (v2 a * v0 b - v0 a * v2 b) (v0 a * v1 b - v1 a * v0 b).
Definition proj_mat (v : vec3) : mat3 R :=
  M33 (1 - v0 v * v0 v) (0 - v0 v * v1 v) (0 - v0 v * v2 v)
      (0 - v1 v * v0 v) (1 - v1 v * v1 v) (0 - v1 v * v2 v)
      (0 - v2 v * v0 v) (0 - v2 v * v1 v) (1 - v2 v * v2 v).

(** The squared distance to a line. *)
Definition sqd (p : vec3) (l : sight) : R :=
  let w := minus3 p (s_from l) in dot w w - dot w (s_dir l) * dot w (s_dir l).

Lemma sqd_cross p l : unit_dir l ->
  sqd p l = dot (cross3 (minus3 p (s_from l)) (s_dir l)) (cross3 (minus3 p (s_from l)) (s_dir l)).
Proof.
  unfold unit_dir, sqd. destruct l as [s v]. cbn [s_from s_dir]. set (w := minus3 p s). intros Hu.
  replace (dot w w) with (dot w w * dot v v) by (rewrite Hu; ring).
  unfold dot, cross3. destruct w as [a b c], v as [x y z]. cbn [v0 v1 v2]. ring.
Qed.
Lemma dot_pos u : 0 <= dot u u.
Proof. unfold dot. nra. Qed.
Lemma sqd_pos p l : unit_dir l -> 0 <= sqd p l.
Proof. intros H. rewrite sqd_cross by assumption. apply dot_pos. Qed.

Lemma sqd_at p l t : unit_dir l ->
  dot (minus3 p (point_at l t)) (minus3 p (point_at l t))
  = sqd p l + (t - dot (minus3 p (s_from l)) (s_dir l)) * (t - dot (minus3 p (s_from l)) (s_dir l)).
Proof.
  unfold unit_dir. destruct l as [[a b c] [x y z]], p as [p q r].
  unfold sqd, point_at, minus3, dot. cbn [s_from s_dir v0 v1 v2]. intros Hu.
  set (e := p - a). set (f := q - b). set (g := r - c).
  replace (p - (a + t * x)) with (e - t * x) by (unfold e; ring).
  replace (q - (b + t * y)) with (f - t * y) by (unfold f; ring).
  replace (r - (c + t * z)) with (g - t * z) by (unfold g; ring).
  assert (E : t * t * (x * x + y * y + z * z) = t * t) by (rewrite Hu; ring).
  nra.
Qed.

Lemma is_distance_sqd p l : unit_dir l -> is_distance p l (sqrt (sqd p l)).
Proof.
  intros Hu. split.
  - exists (dot (minus3 p (s_from l)) (s_dir l)). unfold dist3. f_equal. rewrite sqd_at by assumption. ring.
  - intros t. unfold dist3. apply sqrt_le_1_alt. rewrite sqd_at by assumption.
    set (x := t - _). assert (0 <= x * x) by apply Rle_0_sqr. lra.
Qed.
Lemma is_distance_unique p l d d' : is_distance p l d -> is_distance p l d' -> d = d'.
Proof. intros [[t ->] H1] [[t' ->] H2]. apply Rle_antisym; auto. Qed.
Lemma is_distance_sq p l d : unit_dir l -> is_distance p l d -> d * d = sqd p l.
Proof.
  intros Hu H. rewrite (is_distance_unique _ _ _ _ H (is_distance_sqd p l Hu)).
  apply sqrt_sqrt, sqd_pos, Hu.
Qed.
Lemma sqd_zero p l : unit_dir l -> sqd p l = 0 <-> passes_through l p.
Proof.
  intros Hu. split.
  - intros H. exists (dot (minus3 p (s_from l)) (s_dir l)).
    pose proof (sqd_at p l (dot (minus3 p (s_from l)) (s_dir l)) Hu) as E. rewrite H in E.
    set (t := dot (minus3 p (s_from l)) (s_dir l)) in *. replace (0 + (t - t) * (t - t)) with 0 in E by ring.
    destruct p as [a b c]. destruct (point_at l t) as [x y z]. unfold minus3, dot in E. cbn [v0 v1 v2] in E.
    apply sum_sq_zero in E. destruct E as (? & ? & ?). f_equal; lra.
  - intros [t E]. pose proof (sqd_at p l t Hu) as H. rewrite <- E in H.
    replace (dot (minus3 p p) (minus3 p p)) with 0 in H by (unfold dot, minus3; cbn [v0 v1 v2]; ring).
    pose proof (sqd_pos p l Hu). set (x := t - _) in H. assert (0 <= x * x) by apply Rle_0_sqr. lra.
Qed.

(** ** The normal matrix *)
Definition madd (a b : mat3 R) : mat3 R :=
  M33 (a00 a + a00 b) (a01 a + a01 b) (a02 a + a02 b) (a10 a + a10 b) (a11 a + a11 b) (a12 a + a12 b)
      (a20 a + a20 b) (a21 a + a21 b) (a22 a + a22 b).
Definition mzero : mat3 R := M33 0 0 0 0 0 0 0 0 0.
Definition vadd (a b : vec3) : vec3 := V3 (v0 a + v0 b) (v1 a + v1 b) (v2 a + v2 b).
Definition vzero : vec3 := V3 0 0 0.
Definition mdot (m : mat3 R) (v : vec3) : vec3 :=
  V3 (a00 m * v0 v + a01 m * v1 v + a02 m * v2 v) (a10 m * v0 v + a11 m * v1 v + a12 m * v2 v)
     (a20 m * v0 v + a21 m * v1 v + a22 m * v2 v).
Fixpoint normal (ls : list sight) : mat3 R :=
  match ls with [] => mzero | l :: ls => madd (proj_mat (s_dir l)) (normal ls) end.
Fixpoint rhs (ls : list sight) : vec3 :=
  match ls with [] => vzero | l :: ls => vadd (mdot (proj_mat (s_dir l)) (s_from l)) (rhs ls) end.


Lemma mat_eq a b c d e f g h i a' b' c' d' e' f' g' h' i' :
  a = a' -> b = b' -> c = c' -> d = d' -> e = e' -> f = f' -> g = g' -> h = h' -> i = i' ->
  M33 (A:=R) a b c d e f g h i = M33 a' b' c' d' e' f' g' h' i'.
Proof. congruence. Qed.

Lemma sum_is_normal ls : sum_id_vivi (dirs ls) = normal ls.
Proof.
  induction ls as [|[s [x y z]] ls IH]; [reflexivity|].
  cbn [normal]. rewrite <- IH. unfold sum_id_vivi, dirs. cbn [map nansum fold_right].
  unfold madd, proj_mat, row_of_point, id_vivi.
  cbn [a00 a01 a02 a10 a11 a12 a20 a21 a22 s_dir v0 v1 v2 lon3 lat3 alt3 nmul nsub nlift2 fin nan_to_0].
  reflexivity.
Qed.
Lemma map2_map_same {A B C D} (f : B -> C -> D) (g : A -> B) (h : A -> C) l :
  map2 f (map g l) (map h l) = map (fun x => f (g x) (h x)) l.
Proof. induction l as [|x l IH]; [reflexivity|]. simpl. now rewrite IH. Qed.
Lemma sum_is_rhs ls : sum_id_vivi_si (froms ls) (dirs ls) = rhs ls.
Proof.
  unfold sum_id_vivi_si, froms, dirs. rewrite map2_map_same.
  induction ls as [|[[a b c] [x y z]] ls IH]; [reflexivity|].
  cbn [rhs map fold_right]. rewrite <- IH. unfold vadd, mdot. cbn [v0 v1 v2].
  f_equal; f_equal; unfold id_vivi_si, id_vivi, proj_mat, row_of_point;
    cbn [a00 a01 a02 a10 a11 a12 a20 a21 a22 s_dir s_from v0 v1 v2 lon3 lat3 alt3 nmul nsub nlift2 fin nan_to_0 nansum fold_right];
    ring.
Qed.
Lemma mat_vec_mdot m v : mat_vec m v = mdot m v.
Proof. unfold mat_vec, mdot. f_equal; ring. Qed.

(** Symmetry and the quadratic form. *)
Definition symmetric (m : mat3 R) : Prop := a01 m = a10 m /\ a02 m = a20 m /\ a12 m = a21 m.
Lemma normal_sym ls : symmetric (normal ls).
Proof.
  induction ls as [|l ls (H1 & H2 & H3)]; [repeat split|].
  unfold symmetric in *. cbn [normal madd proj_mat a00 a01 a02 a10 a11 a12 a20 a21 a22].
  rewrite H1, H2, H3. repeat split; ring.
Qed.
Definition qform (m : mat3 R) (v : vec3) : R := dot v (mdot m v).
Fixpoint cross_sum (ls : list sight) (v : vec3) : R :=
  match ls with [] => 0 | l :: ls => dot (cross3 v (s_dir l)) (cross3 v (s_dir l)) + cross_sum ls v end.
Lemma qform_normal ls v : Forall unit_dir ls -> qform (normal ls) v = cross_sum ls v.
Proof.
  induction ls as [|l ls IH]; intros H; [unfold qform, dot, mdot; simpl; ring|].
  inversion H as [|? ? Hu Hls]; subst. cbn [cross_sum]. rewrite <- IH by assumption. clear IH.
  cbn [normal]. unfold qform, unit_dir in *. destruct l as [s [x y z]]. cbn [s_dir] in *.
  set (N := normal ls). destruct v as [a b c].
  unfold dot, mdot, madd, proj_mat, cross3 in *.
  cbn [a00 a01 a02 a10 a11 a12 a20 a21 a22 v0 v1 v2] in *.
  transitivity (((a * a + b * b + c * c) * (x * x + y * y + z * z) - (a * x + b * y + c * z) * (a * x + b * y + c * z))
    + (a * (a00 N * a + a01 N * b + a02 N * c) + b * (a10 N * a + a11 N * b + a12 N * c) + c * (a20 N * a + a21 N * b + a22 N * c))).
  - rewrite Hu. ring.
  - ring.
Qed.
Lemma cross_sum_pos ls v : 0 <= cross_sum ls v.
Proof. induction ls as [|l ls IH]; simpl; [lra|]. pose proof (dot_pos (cross3 v (s_dir l))). lra. Qed.
Lemma cross_sum_zero ls v l : cross_sum ls v = 0 -> In l ls -> cross3 v (s_dir l) = vzero.
Proof.
  induction ls as [|l' ls IH]; intros H HI; [destruct HI|]. simpl in H. destruct HI as [->|HI].
  - pose proof (dot_pos (cross3 v (s_dir l))). pose proof (cross_sum_pos ls v).
    assert (E : dot (cross3 v (s_dir l)) (cross3 v (s_dir l)) = 0) by lra.
    destruct (cross3 v (s_dir l)) as [a b c]. unfold dot in E. cbn [v0 v1 v2] in E.
    apply sum_sq_zero in E. destruct E as (-> & -> & ->). reflexivity.
  - apply IH; auto. pose proof (dot_pos (cross3 v (s_dir l'))). pose proof (cross_sum_pos ls v). lra.
Qed.

(** A vector parallel to two non-parallel unit directions is null. *)
Lemma parallel_two v l l' : unit_dir l -> unit_dir l' -> cross3 v (s_dir l) = vzero -> cross3 v (s_dir l') = vzero ->
  v = vzero \/ parallel l l'.
Proof.
  intros H1 H2 E1 E2. destruct v as [a b c].
  destruct (Req_dec a 0) as [Ha|Ha]; [destruct (Req_dec b 0) as [Hb|Hb]; [destruct (Req_dec c 0) as [Hc|Hc]|]|].
  - left. unfold vzero. congruence.
  - right. destruct l as [s [x y z]], l' as [s' [x' y' z']]. unfold unit_dir, dot, cross3, vzero in *.
    cbn [s_dir v0 v1 v2] in *. subst a b. injection E1 as A1 A2 A3. injection E2 as B1 B2 B3.
    assert (y = 0) by nra. assert (x = 0) by nra. assert (y' = 0) by nra. assert (x' = 0) by nra. subst.
    assert (z * z = 1) by lra. exists (z * z'). cbn [s_dir v0 v1 v2].
    f_equal; [ring|ring|]. replace (z * z' * z) with (z * z * z') by ring. rewrite H. ring.
  - right. destruct l as [s [x y z]], l' as [s' [x' y' z']]. unfold unit_dir, dot, cross3, vzero in *.
    cbn [s_dir v0 v1 v2] in *. subst a. injection E1 as A1 A2 A3. injection E2 as B1 B2 B3.
    assert (x = 0) by nra. assert (x' = 0) by nra. subst x x'.
    assert (Ez : z = c / b * y) by (field_simplify_eq; [lra|assumption]).
    assert (Ez' : z' = c / b * y') by (field_simplify_eq; [lra|assumption]).
    set (k := c / b) in *. exists (y' * y + z' * z). cbn [s_dir v0 v1 v2]. subst z z'.
    assert (Hk : (1 + k * k) * (y * y) = 1) by lra.
    f_equal; [ring| |].
    + replace ((y' * y + k * y' * (k * y)) * y) with (y' * ((1 + k * k) * (y * y))) by ring. rewrite Hk. ring.
    + replace ((y' * y + k * y' * (k * y)) * (k * y)) with (k * y' * ((1 + k * k) * (y * y))) by ring. rewrite Hk. ring.
  - right. destruct l as [s [x y z]], l' as [s' [x' y' z']]. unfold unit_dir, dot, cross3, vzero in *.
    cbn [s_dir v0 v1 v2] in *. injection E1 as A1 A2 A3. injection E2 as B1 B2 B3.
    assert (Ey : y = b / a * x) by (field_simplify_eq; [lra|assumption]).
    assert (Ey' : y' = b / a * x') by (field_simplify_eq; [lra|assumption]).
    assert (Ez : z = c / a * x) by (field_simplify_eq; [lra|assumption]).
    assert (Ez' : z' = c / a * x') by (field_simplify_eq; [lra|assumption]).
    set (k := b / a) in *. set (m := c / a) in *. exists (x' * x + y' * y + z' * z). cbn [s_dir v0 v1 v2]. subst y y' z z'.
    assert (Hk : (1 + k * k + m * m) * (x * x) = 1) by lra.
    f_equal.
    + replace ((x' * x + k * x' * (k * x) + m * x' * (m * x)) * x) with (x' * ((1 + k * k + m * m) * (x * x))) by ring. rewrite Hk. ring.
    + replace ((x' * x + k * x' * (k * x) + m * x' * (m * x)) * (k * x)) with (k * x' * ((1 + k * k + m * m) * (x * x))) by ring. rewrite Hk. ring.
    + replace ((x' * x + k * x' * (k * x) + m * x' * (m * x)) * (m * x)) with (m * x' * ((1 + k * k + m * m) * (x * x))) by ring. rewrite Hk. ring.
Qed.

Lemma normal_posdef ls v : Forall unit_dir ls -> two_directions ls -> v <> vzero -> 0 < qform (normal ls) v.
Proof.
  intros Hu (l & l' & H1 & H2 & Hn) Hv. rewrite qform_normal by assumption.
  destruct (Req_dec (cross_sum ls v) 0) as [E|E]; [|pose proof (cross_sum_pos ls v); lra].
  exfalso. rewrite Forall_forall in Hu.
  destruct (parallel_two v l l' (Hu l H1) (Hu l' H2)) as [?|?]; eauto using cross_sum_zero.
Qed.
Lemma posdef_det m : symmetric m -> (forall v, v <> vzero -> 0 < qform m v) -> 0 < det3 m.
Proof.
  intros (S1 & S2 & S3) H. destruct m as [a b c b' d e c' e' f]. cbn [a00 a01 a02 a10 a11 a12 a20 a21 a22] in *. subst b' c' e'.
  assert (Ha : 0 < a).
  { specialize (H (V3 1 0 0)). unfold qform, dot, mdot, vzero in H. cbn [a00 a01 a02 a10 a11 a12 a20 a21 a22 v0 v1 v2] in H.
    assert (N : V3 1 0 0 <> V3 0 0 0) by (intros [= ?]; lra). specialize (H N). lra. }
  assert (Hd : 0 < a * d - b * b).
  { specialize (H (V3 (- b) a 0)). unfold qform, dot, mdot, vzero in H. cbn [a00 a01 a02 a10 a11 a12 a20 a21 a22 v0 v1 v2] in H.
    assert (N : V3 (- b) a 0 <> V3 0 0 0) by (intros [= ? ?]; lra). specialize (H N).
    assert (E : 0 < a * (a * d - b * b)) by lra. apply (Rmult_lt_reg_l a); [assumption|]. lra. }
  unfold det3. cbn [a00 a01 a02 a10 a11 a12 a20 a21 a22].
  specialize (H (V3 (b * e - c * d) (b * c - a * e) (a * d - b * b))). unfold qform, dot, mdot, vzero in H.
  cbn [a00 a01 a02 a10 a11 a12 a20 a21 a22 v0 v1 v2] in H.
  assert (N : V3 (b * e - c * d) (b * c - a * e) (a * d - b * b) <> V3 0 0 0) by (intros [= ? ? ?]; lra). specialize (H N).
  set (D := a * (d * f - e * e) - b * (b * f - e * c) + c * (b * e - d * c)).
  assert (E : 0 < (a * d - b * b) * D) by (unfold D; lra). apply (Rmult_lt_reg_l (a * d - b * b)); [assumption|]. lra.
Qed.

(** [inv3] is the inverse. *)
Lemma inv3_solve m mi v : inv3 m = Some mi -> mdot m (mdot mi v) = v.
Proof.
  unfold inv3. destruct (Reqb_spec (det3 m) 0) as [|Hd]; [discriminate|]. intros [= <-].
  unfold mdot. cbn [a00 a01 a02 a10 a11 a12 a20 a21 a22 v0 v1 v2]. destruct v as [x y z]. cbn [v0 v1 v2].
  set (D := det3 m) in *. f_equal.
  - transitivity (x * det3 m / D); [|fold D; field; assumption]. unfold det3. field. assumption.
  - transitivity (y * det3 m / D); [|fold D; field; assumption]. unfold det3. field. assumption.
  - transitivity (z * det3 m / D); [|fold D; field; assumption]. unfold det3. field. assumption.
Qed.
Lemma inv3_unique m mi v w : inv3 m = Some mi -> mdot m v = w -> v = mdot mi w.
Proof.
  unfold inv3. destruct (Reqb_spec (det3 m) 0) as [|Hd]; [discriminate|]. intros [= <-] <-.
  unfold mdot. cbn [a00 a01 a02 a10 a11 a12 a20 a21 a22 v0 v1 v2]. destruct v as [x y z]. cbn [v0 v1 v2].
  set (D := det3 m) in *. f_equal.
  - transitivity (x * det3 m / D); [fold D; field; assumption|]. unfold det3. field. assumption.
  - transitivity (y * det3 m / D); [fold D; field; assumption|]. unfold det3. field. assumption.
  - transitivity (z * det3 m / D); [fold D; field; assumption|]. unfold det3. field. assumption.
Qed.
Lemma inv3_some m : det3 m <> 0 -> exists mi, inv3 m = Some mi.
Proof. intros H. unfold inv3. destruct (Reqb_spec (det3 m) 0); [contradiction|eauto]. Qed.
Lemma kernel_det m v : v <> vzero -> mdot m v = vzero -> det3 m = 0.
Proof.
  intros Hv H. destruct (Req_dec (det3 m) 0) as [|Hd]; [assumption|]. exfalso. apply Hv.
  destruct (inv3_some m Hd) as [mi Hi]. rewrite (inv3_unique m mi v vzero Hi H).
  unfold mdot, vzero. cbn [v0 v1 v2]. f_equal; ring.
Qed.

(** ** The least squares solution *)
Fixpoint sqd_sum (ls : list sight) (p : vec3) : R :=
  match ls with [] => 0 | l :: ls => sqd p l + sqd_sum ls p end.
Lemma ssd_sqd p ls total : Forall unit_dir ls -> sum_sq_distances p ls total <-> total = sqd_sum ls p.
Proof.
  intros Hu. split.
  - intros H. induction H as [|l ls d total Hd H IH]; [reflexivity|]. inversion Hu; subst.
    cbn [sqd_sum]. rewrite <- IH by assumption. now rewrite (is_distance_sq p l d).
  - intros ->. induction Hu as [|l ls Hl Hu IH]; [constructor|]. cbn [sqd_sum].
    rewrite <- (is_distance_sq p l (sqrt (sqd p l)) Hl (is_distance_sqd p l Hl)).
    constructor; [now apply is_distance_sqd|assumption].
Qed.
Fixpoint const_term (ls : list sight) : R :=
  match ls with [] => 0 | l :: ls => qform (proj_mat (s_dir l)) (s_from l) + const_term ls end.
Lemma sqd_sum_quad ls p : sqd_sum ls p = qform (normal ls) p - 2 * dot p (rhs ls) + const_term ls.
Proof.
  induction ls as [|l ls IH]; [unfold qform, dot, mdot; simpl; ring|].
  cbn [sqd_sum normal rhs const_term]. rewrite IH. destruct l as [[a b c] [x y z]], p as [p q r].
  set (N := normal ls). set (B := rhs ls). set (C := const_term ls).
  unfold sqd, qform, dot, minus3, mdot, madd, vadd, proj_mat.
  cbn [s_from s_dir v0 v1 v2 a00 a01 a02 a10 a11 a12 a20 a21 a22]. ring.
Qed.
Lemma sqd_sum_min ls p x : mdot (normal ls) p = rhs ls ->
  sqd_sum ls x = sqd_sum ls p + qform (normal ls) (minus3 x p).
Proof.
  intros H. rewrite !sqd_sum_quad, <- H. destruct (normal_sym ls) as (S1 & S2 & S3).
  destruct (normal ls) as [a b c b' d e c' e' f]. cbn [a00 a01 a02 a10 a11 a12 a20 a21 a22] in *. subst.
  unfold qform, dot, mdot, minus3. destruct x as [x y z], p as [p q r]. cbn [v0 v1 v2 a00 a01 a02 a10 a11 a12 a20 a21 a22]. ring.
Qed.

Lemma triangulate_eq ls : triangulate (froms ls) (dirs ls)
  = match inv3 (normal ls) with Some m => Some (mdot m (rhs ls)) | None => None end.
Proof.
  unfold triangulate. rewrite sum_is_normal, sum_is_rhs.
  destruct (inv3 (normal ls)); [now rewrite mat_vec_mdot|reflexivity].
Qed.
Lemma triangulate_some ls p : triangulate (froms ls) (dirs ls) = Some p -> mdot (normal ls) p = rhs ls.
Proof.
  rewrite triangulate_eq. destruct (inv3 (normal ls)) as [mi|] eqn:E; [|discriminate]. intros [= <-].
  now apply inv3_solve.
Qed.
Lemma triangulate_defined ls : Forall unit_dir ls -> two_directions ls ->
  exists p, triangulate (froms ls) (dirs ls) = Some p.
Proof.
  intros Hu H2. rewrite triangulate_eq.
  assert (Hd : det3 (normal ls) <> 0).
  { apply Rgt_not_eq, posdef_det; [apply normal_sym|]. intros v Hv. now apply normal_posdef. }
  destruct (inv3_some _ Hd) as [mi ->]. eauto.
Qed.
Lemma triangulate_parallel ls : Forall unit_dir ls -> (forall l l', In l ls -> In l' ls -> parallel l l') ->
  triangulate (froms ls) (dirs ls) = None.
Proof.
  intros Hu HP. rewrite triangulate_eq. unfold inv3.
  assert (Hd : det3 (normal ls) = 0).
  { destruct ls as [|l ls]; [simpl; unfold det3; simpl; ring|].
    apply kernel_det with (v := s_dir l).
    - intros E. inversion Hu as [|? ? H _]; subst. unfold unit_dir in H. rewrite E in H. unfold dot, vzero in H. simpl in H. lra.
    - assert (HL : forall ls', (forall l', In l' ls' -> parallel l l' /\ unit_dir l') -> mdot (normal ls') (s_dir l) = vzero).
      { induction ls' as [|l' ls' IH]; intros H; [unfold mdot, vzero; simpl; f_equal; ring|].
        destruct (H l' (or_introl eq_refl)) as [[k Hk] Hl'].
        assert (IH' := IH (fun l0 h => H l0 (or_intror h))). cbn [normal].
        set (N := normal ls') in *. destruct l as [s [x y z]], l' as [s' [x' y' z']]. cbn [s_dir v0 v1 v2] in *.
        unfold unit_dir, dot in Hl'. cbn [s_dir v0 v1 v2] in Hl'. injection Hk as -> -> ->.
        unfold mdot, vzero in IH'. cbn [v0 v1 v2] in IH'. injection IH' as I1 I2 I3.
        assert (Hl2 : k * k * (x * x + y * y + z * z) = 1) by lra.
        unfold mdot, madd, proj_mat, vzero. cbn [v0 v1 v2 a00 a01 a02 a10 a11 a12 a20 a21 a22]. f_equal.
        - transitivity ((a00 N * x + a01 N * y + a02 N * z) + x * (1 - k * k * (x * x + y * y + z * z))); [ring|rewrite I1, Hl2; ring].
        - transitivity ((a10 N * x + a11 N * y + a12 N * z) + y * (1 - k * k * (x * x + y * y + z * z))); [ring|rewrite I2, Hl2; ring].
        - transitivity ((a20 N * x + a21 N * y + a22 N * z) + z * (1 - k * k * (x * x + y * y + z * z))); [ring|rewrite I3, Hl2; ring]. }
      apply HL. intros l' Hl'. split; [apply HP; [now left|assumption]|]. rewrite Forall_forall in Hu. now apply Hu. }
  rewrite Hd. destruct (Reqb_spec 0 0); [reflexivity|lra].
Qed.

(** A common point solves the normal equations. *)
Lemma common_point ls p : (forall l, In l ls -> passes_through l p) -> Forall unit_dir ls -> mdot (normal ls) p = rhs ls.
Proof.
  induction ls as [|l ls IH]; intros HP Hu; [unfold mdot; simpl; unfold vzero; f_equal; ring|].
  inversion Hu as [|? ? Hl Hls]; subst. cbn [normal rhs]. rewrite <- IH; [|intros; apply HP; now right|assumption].
  destruct (HP l (or_introl eq_refl)) as [t ->]. set (N := normal ls).
  destruct l as [[a b c] [x y z]]. unfold unit_dir, dot in Hl. cbn [s_dir v0 v1 v2] in Hl.
  unfold point_at, mdot, madd, vadd, proj_mat. cbn [s_from s_dir v0 v1 v2 a00 a01 a02 a10 a11 a12 a20 a21 a22].
  f_equal.
  - transitivity (((1 - x * x) * a + (0 - x * y) * b + (0 - x * z) * c)
      + (a00 N * (a + t * x) + a01 N * (b + t * y) + a02 N * (c + t * z)) + t * x * (1 - (x * x + y * y + z * z)));
      [ring|rewrite Hl; ring].
  - transitivity (((0 - y * x) * a + (1 - y * y) * b + (0 - y * z) * c)
      + (a10 N * (a + t * x) + a11 N * (b + t * y) + a12 N * (c + t * z)) + t * y * (1 - (x * x + y * y + z * z)));
      [ring|rewrite Hl; ring].
  - transitivity (((0 - z * x) * a + (0 - z * y) * b + (1 - z * z) * c)
      + (a20 N * (a + t * x) + a21 N * (b + t * y) + a22 N * (c + t * z)) + t * z * (1 - (x * x + y * y + z * z)));
      [ring|rewrite Hl; ring].
Qed.
