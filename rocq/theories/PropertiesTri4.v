(** C84: precision of the triangulation. *)
From Coq Require Import Reals ZArith List Bool Lra Lia Psatz.
From Verif Require Import Num NumLemmas ProjModel RpcModel RpcSpec RpcRun TriModel TriSpec TriProofs TriBatch PropertiesRpc PropertiesTri PropertiesTri2.
Import ListNotations.
Open Scope R_scope.

Lemma cauchy u v : dot u v * dot u v <= dot u u * dot v v.
Proof.
  destruct u as [a b c], v as [x y z]. unfold dot. cbn [v0 v1 v2].
  pose proof (Rle_0_sqr (a * y - b * x)) as H1. pose proof (Rle_0_sqr (a * z - c * x)) as H2. pose proof (Rle_0_sqr (b * z - c * y)) as H3.
  unfold Rsqr in *. lra.
Qed.
(** Two unit directions whose scalar product is at most [c]: no vector is close to both. *)
Lemma two_projections u u' v c : dot u u = 1 -> dot u' u' = 1 -> Rabs (dot u u') <= c ->
  dot v u * dot v u + dot v u' * dot v u' <= (1 + c) * dot v v.
Proof.
  intros Hu Hu' Hc. set (p := dot v u). set (q := dot v u').
  set (w := V3 (p * v0 u + q * v0 u') (p * v1 u + q * v1 u') (p * v2 u + q * v2 u')).
  assert (E1 : dot w v = p * p + q * q) by (unfold w, p, q, dot; cbn [v0 v1 v2]; ring).
  assert (E2 : dot w w = p * p * dot u u + q * q * dot u' u' + 2 * (p * q) * dot u u') by (unfold w, dot; cbn [v0 v1 v2]; ring).
  rewrite Hu, Hu' in E2. pose proof (cauchy w v) as C. rewrite E1, E2 in C.
  assert (Hd : - c <= dot u u' <= c) by (revert Hc; unfold Rabs; destruct (Rcase_abs (dot u u')); lra).
  set (k := dot u u') in *. set (s := p * p + q * q) in *. pose proof (dot_pos v) as V. set (n := dot v v) in *.
  assert (S0 : 0 <= s) by (unfold s; nra).
  assert (B : p * p * 1 + q * q * 1 + 2 * (p * q) * k <= (1 + c) * s).
  { assert (2 * (p * q) * k <= c * s); [|unfold s in *; lra].
    pose proof (Rle_0_sqr (p - q)) as Q1. pose proof (Rle_0_sqr (p + q)) as Q2. unfold Rsqr in Q1, Q2.
    assert (A1 : - s <= 2 * (p * q) <= s) by (unfold s; lra).
    assert (0 <= (s - 2 * (p * q)) * (c + k)) by (apply Rmult_le_pos; lra). assert (0 <= (s + 2 * (p * q)) * (c - k)) by (apply Rmult_le_pos; lra). lra. }
  assert (B2 : s * s <= (1 + c) * s * n) by (eapply Rle_trans; [exact C|apply Rmult_le_compat_r; assumption]).
  destruct (Req_dec s 0) as [Z|Z]; [rewrite Z; nra|]. apply Rmult_le_reg_l with s; [lra|]. lra.
Qed.
Lemma cross_unit v u : dot u u = 1 -> dot (cross3 v u) (cross3 v u) = dot v v - dot v u * dot v u.
Proof.
  intros Hu. transitivity (dot v v * dot u u - dot v u * dot v u); [|rewrite Hu; ring].
  destruct u as [a b c], v as [x y z]. unfold dot, cross3. cbn [v0 v1 v2]. ring.
Qed.
Lemma cross_sum_one ls v l : In l ls -> dot (cross3 v (s_dir l)) (cross3 v (s_dir l)) <= cross_sum ls v.
Proof.
  induction ls as [|a ls IH]; [intros []|]. cbn [cross_sum]. pose proof (cross_sum_pos ls v) as P. pose proof (dot_pos (cross3 v (s_dir a))) as Q.
  intros [<-|H]; [lra|]. specialize (IH H). lra.
Qed.
Lemma cross_sum_two ls v l l' : In l ls -> In l' ls -> l <> l' ->
  dot (cross3 v (s_dir l)) (cross3 v (s_dir l)) + dot (cross3 v (s_dir l')) (cross3 v (s_dir l')) <= cross_sum ls v.
Proof.
  induction ls as [|a ls IH]; [intros []|]. cbn [cross_sum]. intros H H' N. pose proof (dot_pos (cross3 v (s_dir a))) as Q.
  destruct H as [<-|H]; destruct H' as [<-|H']; [contradiction| | |].
  - pose proof (cross_sum_one ls v l' H'). lra.
  - pose proof (cross_sum_one ls v l H). lra.
  - specialize (IH H H' N). lra.
Qed.
Lemma gap ls l l' c v : Forall unit_dir ls -> In l ls -> In l' ls -> Rabs (dot (s_dir l) (s_dir l')) <= c -> c < 1 ->
  (1 - c) * dot v v <= qform (normal ls) v.
Proof.
  intros Hu H H' Hc H1. rewrite qform_normal by assumption. rewrite Forall_forall in Hu.
  pose proof (Hu l H) as U. pose proof (Hu l' H') as U'. unfold unit_dir in U, U'.
  assert (N : l <> l').
  { intros <-. rewrite U, Rabs_R1 in Hc. lra. }
  pose proof (cross_sum_two ls v l l' H H' N) as L. rewrite !cross_unit in L by assumption.
  pose proof (two_projections _ _ v c U U' Hc). lra.
Qed.
Lemma angle_two_directions ls l l' c : Forall unit_dir ls -> In l ls -> In l' ls -> Rabs (dot (s_dir l) (s_dir l')) <= c -> c < 1 -> two_directions ls.
Proof.
  intros Hu H H' Hc H1. exists l, l'. split; [assumption|]. split; [assumption|]. intros [k E]. rewrite Forall_forall in Hu.
  pose proof (Hu l H) as U. pose proof (Hu l' H') as U'. unfold unit_dir in U, U'. rewrite E in U', Hc.
  assert (E1 : dot (s_dir l) (V3 (k * v0 (s_dir l)) (k * v1 (s_dir l)) (k * v2 (s_dir l))) = k * dot (s_dir l) (s_dir l)) by (unfold dot; cbn [v0 v1 v2]; ring).
  assert (E2 : dot (V3 (k * v0 (s_dir l)) (k * v1 (s_dir l)) (k * v2 (s_dir l))) (V3 (k * v0 (s_dir l)) (k * v1 (s_dir l)) (k * v2 (s_dir l))) = k * k * dot (s_dir l) (s_dir l)) by (unfold dot; cbn [v0 v1 v2]; ring).
  rewrite E1, U in Hc. rewrite E2, U in U'. assert (Hk : Rabs k = 1).
  { assert (A : k = 1 \/ k = -1) by (assert ((k - 1) * (k + 1) = 0) by lra; destruct (Rmult_integral _ _ H0); [left|right]; lra).
    destruct A as [-> | ->]; [apply Rabs_R1|]. rewrite Rabs_left; lra. }
  rewrite Rmult_1_r, Hk in Hc. lra.
Qed.
Lemma dist_sq x p : dist3 x p * dist3 x p = dot (minus3 x p) (minus3 x p).
Proof. unfold dist3. apply sqrt_sqrt, dot_pos. Qed.

(** The lines of sight of a point, of which two make an angle whose cosine is at most [c] in absolute
    value.  For every position x, the squared distance from x to the triangulated position, times 1 - c, is
    at most what the sum of the squared distances to the lines gains from x to the triangulated position. *)
Theorem C84_precision :
  forall ls l l' c x total, Forall unit_dir ls -> In l ls -> In l' ls ->
    Rabs (dot (s_dir l) (s_dir l')) <= c -> c < 1 -> sum_sq_distances x ls total ->
    exists p best, n_view_triangulation [froms ls] [dirs ls] = Some [p] /\ sum_sq_distances p ls best /\
      (1 - c) * (dist3 x p * dist3 x p) <= total - best.
Proof.
  intros ls l l' c x total Hu H H' Hc H1 HT. pose proof (angle_two_directions ls l l' c Hu H H' Hc H1) as H2.
  destruct (triangulate_defined ls Hu H2) as [p Hp]. exists p, (sqd_sum ls p). split; [|split].
  - unfold n_view_triangulation. cbn. now rewrite Hp.
  - now apply ssd_sqd.
  - apply ssd_sqd in HT; [|assumption]. subst total. rewrite (sqd_sum_min ls p x) by (now apply triangulate_some).
    rewrite dist_sq. pose proof (gap ls l l' c (minus3 x p) Hu H H' Hc H1). lra.
Qed.
(** When every line passes within [eps] of x, the triangulated position is within eps * sqrt (n / (1 - c)) of it. *)
Theorem C84_within :
  forall ls l l' c x eps, Forall unit_dir ls -> In l ls -> In l' ls ->
    Rabs (dot (s_dir l) (s_dir l')) <= c -> c < 1 -> 0 <= eps -> Forall (fun s => exists d, is_distance x s d /\ d <= eps) ls ->
    exists p, n_view_triangulation [froms ls] [dirs ls] = Some [p] /\ dist3 x p <= eps * sqrt (INR (length ls) / (1 - c)).
Proof.
  intros ls l l' c x eps Hu H H' Hc H1 He HE.
  assert (HT : exists total, sum_sq_distances x ls total /\ total <= INR (length ls) * (eps * eps)).
  { clear - HE He. induction HE as [|s ls (d & Hd & L) HE (t & Ht & Lt)]; [exists 0; split; [constructor|cbn; lra]|].
    exists (d * d + t). split; [now constructor|]. change (length (s :: ls)) with (S (length ls)). rewrite S_INR.
    destruct Hd as [(k & ->) _]. assert (0 <= dist3 x (point_at s k)) by apply sqrt_pos. nra. }
  destruct HT as (total & HT & LT). destruct (C84_precision ls l l' c x total Hu H H' Hc H1 HT) as (p & best & E & HB & G).
  exists p. split; [exact E|].
  assert (B0 : 0 <= best). { clear - HB. induction HB; [lra|]. nra. }
  assert (D0 : 0 <= dist3 x p) by apply sqrt_pos.
  rewrite <- (sqrt_pow2 (dist3 x p)) by assumption. rewrite <- (sqrt_pow2 eps) by assumption.
  rewrite <- sqrt_mult; [|nra|apply Rmult_le_pos; [apply pos_INR|apply Rlt_le, Rinv_0_lt_compat; lra]].
  apply sqrt_le_1_alt. apply Rmult_le_reg_l with (1 - c); [lra|].
  replace ((1 - c) * (eps ^ 2 * (INR (length ls) / (1 - c)))) with (INR (length ls) * (eps * eps)) by (field; lra). simpl. lra.
Qed.
(** The factor cannot be improved: for every c < 1 there are two lines with this angle, that meet, and a
    position for which the inequality is an equality. *)
Theorem C84_sharp :
  forall c, 0 <= c < 1 -> exists l l' x p total, unit_dir l /\ unit_dir l' /\ dot (s_dir l) (s_dir l') = c /\ x <> p /\
    n_view_triangulation [froms [l; l']] [dirs [l; l']] = Some [p] /\ sum_sq_distances x [l; l'] total /\
    (1 - c) * (dist3 x p * dist3 x p) = total.
Proof.
  intros c Hc. set (s := sqrt ((1 - c) / 2)). set (k := sqrt ((1 + c) / 2)).
  assert (S2 : s * s = (1 - c) / 2) by (apply sqrt_sqrt; lra). assert (K2 : k * k = (1 + c) / 2) by (apply sqrt_sqrt; lra).
  set (l := Sight (V3 0 0 1) (V3 s 0 k)). set (l' := Sight (V3 0 0 1) (V3 (- s) 0 k)).
  assert (U : unit_dir l) by (unfold unit_dir, l, dot; cbn [s_dir v0 v1 v2]; nra). assert (U' : unit_dir l') by (unfold unit_dir, l', dot; cbn [s_dir v0 v1 v2]; nra).
  assert (HU : Forall unit_dir [l; l']) by (constructor; [exact U|constructor; [exact U'|constructor]]).
  assert (DD : dot (s_dir l) (s_dir l') = c) by (unfold l, l', dot; cbn [s_dir v0 v1 v2]; nra).
  exists l, l', (V3 0 0 0), (V3 0 0 1), (sqd_sum [l; l'] (V3 0 0 0)).
  do 2 (split; [assumption|]). split; [exact DD|]. split; [intros E; injection E; lra|]. split; [|split].
  - destruct (C23_concurrent_sights_give_their_point [[l; l']] [V3 0 0 1]) as [T _]; [|exact T].
    constructor; [|constructor]. split; [exact HU|]. split.
    + apply (angle_two_directions [l; l'] l l' c HU); [now left|right; now left|rewrite DD, Rabs_pos_eq; lra|lra].
    + assert (P : forall z, passes_through (Sight (V3 0 0 1) z) (V3 0 0 1)) by (intros z; exists 0; unfold point_at; cbn; f_equal; ring).
      constructor; [apply P|constructor; [apply P|constructor]].
  - now apply ssd_sqd.
  - rewrite dist_sq. unfold l, l'. cbn [sqd_sum]. unfold sqd, dot, minus3. cbn [s_from s_dir v0 v1 v2]. nra.
Qed.

(** ** Through the sensors *)
Lemma line_points l a b : unit_dir l -> passes_through l a -> passes_through l b -> a <> b ->
  exists k, k <> 0 /\ k * k = dot (minus3 a b) (minus3 a b) /\ minus3 a b = V3 (k * v0 (s_dir l)) (k * v1 (s_dir l)) (k * v2 (s_dir l)) /\
    forall x d, is_distance x (Sight b (minus3 a b)) d -> is_distance x l d.
Proof.
  intros Hu [t ->] [t' ->] N. exists (t - t').
  assert (K : t - t' <> 0) by (intros Z; apply N; replace t with t' by lra; reflexivity).
  assert (E : minus3 (point_at l t) (point_at l t') = V3 ((t - t') * v0 (s_dir l)) ((t - t') * v1 (s_dir l)) ((t - t') * v2 (s_dir l)))
    by (unfold minus3, point_at; cbn [v0 v1 v2]; f_equal; ring).
  split; [exact K|]. split; [|split; [exact E|]].
  - rewrite E. unfold unit_dir in Hu. transitivity ((t - t') * (t - t') * dot (s_dir l) (s_dir l)); [rewrite Hu; ring|unfold dot; cbn [v0 v1 v2]; ring].
  - intros x d [(m & ->) Hm]. rewrite E in *.
    assert (P : forall m, point_at (Sight (point_at l t') (V3 ((t - t') * v0 (s_dir l)) ((t - t') * v1 (s_dir l)) ((t - t') * v2 (s_dir l)))) m = point_at l (t' + m * (t - t')))
      by (intros n; unfold point_at; cbn [s_from s_dir v0 v1 v2]; f_equal; ring).
    rewrite P in *. split; [eauto|]. intros n. specialize (Hm ((n - t') / (t - t'))). rewrite P in Hm.
    replace (t' + (n - t') / (t - t') * (t - t')) with n in Hm by (field; exact K). exact Hm.
Qed.
Lemma line_end (x p : vec3) : V3 (v0 p + 1 * (v0 x - v0 p)) (v1 p + 1 * (v1 x - v1 p)) (v2 p + 1 * (v2 x - v2 p)) = x.
Proof. destruct x as [a b c], p as [d e f]. cbn [v0 v1 v2]. f_equal; ring. Qed.
Lemma minimiser_gap ls p x : Forall unit_dir ls -> (forall y, y <> p -> sqd_sum ls p < sqd_sum ls y) ->
  sqd_sum ls x = sqd_sum ls p + qform (normal ls) (minus3 x p).
Proof.
  intros Hu Hm. set (N := normal ls). set (B := 2 * (dot (minus3 x p) (mdot N p) - dot (minus3 x p) (rhs ls))). set (A := qform N (minus3 x p)).
  assert (Q : forall t, sqd_sum ls (V3 (v0 p + t * (v0 x - v0 p)) (v1 p + t * (v1 x - v1 p)) (v2 p + t * (v2 x - v2 p))) = sqd_sum ls p + t * B + t * t * A).
  { intros t. rewrite !sqd_sum_quad. fold N. unfold B, A. destruct (normal_sym ls) as (S1 & S2 & S3). fold N in S1, S2, S3.
    destruct N as [a b c b' d e c' e' f]. cbn [a00 a01 a02 a10 a11 a12 a20 a21 a22] in *. subst.
    unfold qform, dot, mdot, minus3. destruct x as [x y z], p as [p q r]. cbn [v0 v1 v2 a00 a01 a02 a10 a11 a12 a20 a21 a22]. ring. }
  assert (P : forall t, 0 <= t * B + t * t * A).
  { intros t. pose proof (Q t) as E. set (y := V3 _ _ _) in E.
    assert (L : sqd_sum ls p <= sqd_sum ls y). 
    { destruct (Req_dec (sqd_sum ls y) (sqd_sum ls p)) as [E'|E']; [lra|]. apply Rlt_le, Hm. intros ->. now apply E'. }
    lra. }
  assert (AP : 0 <= A) by (unfold A, N; rewrite qform_normal by assumption; apply cross_sum_pos).
  assert (B0 : B = 0).
  { destruct (Req_dec A 0) as [Z|Z].
    - pose proof (P 1). pose proof (P (-1)). rewrite Z in *. lra.
    - pose proof (P (- B / (2 * A))) as H. replace (- B / (2 * A) * B + - B / (2 * A) * (- B / (2 * A)) * A) with (- (B * B) / (4 * A)) in H by (field; exact Z).
      assert (0 < 4 * A) by lra. assert (B * B <= 0); [|nra].
      assert (- (B * B) / (4 * A) * (4 * A) = - (B * B)) by (field; lra). nra. }
  pose proof (Q 1) as E. rewrite B0 in E. rewrite line_end in E.
  lra.
Qed.

(** A match triangulated by the sensors, whose lines of sight go through a, b and a', b' in ECEF and make an
    angle whose cosine is at most [c]: when they pass at the distances d and d' of a position x, the
    triangulated position is at a distance of at most sqrt ((d^2 + d'^2) / (1 - c)) of x. *)
Theorem C84_sensor_precision :
  forall conv gl gr (V : list seen) lmm rmm fill llo lhi rlo rhi ecef wgs res,
    pointwise_conv conv -> ends gl lmm llo lhi -> ends gr rmm rlo rhi ->
    let left_rows := map (fun v => snd (m_left (sn_match v))) V in
    let left_cols := map (fun v => fst (m_left (sn_match v))) V in
    let right_rows := map (fun v => snd (m_right (sn_match v))) V in
    let right_cols := map (fun v => fst (m_right (sn_match v))) V in
    lm_direct gl left_rows left_cols lhi fill = Some (map sn_ltop V) ->
    lm_direct gl left_rows left_cols llo fill = Some (map sn_lbot V) ->
    lm_direct gr right_rows right_cols rhi fill = Some (map sn_rtop V) ->
    lm_direct gr right_rows right_cols rlo fill = Some (map sn_rbot V) ->
    sensor_triangulation conv gl gr (map sn_match V) lmm rmm true fill = Some (ecef, wgs, Some res) ->
    forall i v a b a' b' c x d d', nth_error V i = Some v ->
      conv 4326%Z 4978%Z [sn_ltop v] = [row_of_point a] -> conv 4326%Z 4978%Z [sn_lbot v] = [row_of_point b] ->
      conv 4326%Z 4978%Z [sn_rtop v] = [row_of_point a'] -> conv 4326%Z 4978%Z [sn_rbot v] = [row_of_point b'] ->
      a <> b -> a' <> b' -> Rabs (dot (minus3 a b) (minus3 a' b')) <= c * (dist3 a b * dist3 a' b') -> c < 1 ->
      is_distance x (Sight b (minus3 a b)) d -> is_distance x (Sight b' (minus3 a' b')) d' ->
      exists p, nth_error ecef i = Some (row_of_point p) /\ (1 - c) * (dist3 x p * dist3 x p) <= d * d + d' * d'.
Proof.
  intros conv gl gr V lmm rmm fill llo lhi rlo rhi ecef wgs res HC El Er lr lc rr rc H1 H2 H3 H4 H.
  destruct (C71_least_squares conv gl gr V lmm rmm fill llo lhi rlo rhi ecef wgs res HC El Er H1 H2 H3 H4 H) as (_ & _ & _ & HL).
  intros i v a b a' b' c x d d' Ev E1 E2 E3 E4 Na Na' Hc Hc1 D D'.
  destruct (HL i v a b a' b' Ev E1 E2 E3 E4 Na Na') as (p & l & r & d0 & Ei & _ & Ul & Ur & Pa & Pb & Pa' & Pb' & _ & total & HT & Hmin).
  exists p. split; [exact Ei|].
  destruct (line_points l a b Ul Pa Pb Na) as (k & K & K2 & EK & KD). destruct (line_points r a' b' Ur Pa' Pb' Na') as (k' & K' & K2' & EK' & KD').
  assert (HU : Forall unit_dir [l; r]) by (constructor; [exact Ul|constructor; [exact Ur|constructor]]).
  assert (HA : Rabs (dot (s_dir l) (s_dir r)) <= c).
  { assert (EA : Rabs k = dist3 a b) by (unfold dist3; rewrite <- K2; symmetry; apply sqrt_Rsqr_abs).
    assert (EB : Rabs k' = dist3 a' b') by (unfold dist3; rewrite <- K2'; symmetry; apply sqrt_Rsqr_abs).
    rewrite EK, EK', <- EA, <- EB in Hc.
    assert (ED : dot (V3 (k * v0 (s_dir l)) (k * v1 (s_dir l)) (k * v2 (s_dir l))) (V3 (k' * v0 (s_dir r)) (k' * v1 (s_dir r)) (k' * v2 (s_dir r))) = k * k' * dot (s_dir l) (s_dir r))
      by (unfold dot; cbn [v0 v1 v2]; ring).
    rewrite ED, !Rabs_mult in Hc. pose proof (Rabs_pos_lt k K). pose proof (Rabs_pos_lt k' K').
    apply Rmult_le_reg_l with (Rabs k * Rabs k'); [now apply Rmult_lt_0_compat|]. lra. }
  apply KD in D. apply KD' in D'.
  assert (HX : sum_sq_distances x [l; r] (d * d + (d' * d' + 0))) by (constructor; [exact D|constructor; [exact D'|constructor]]).
  apply ssd_sqd in HX; [|exact HU]. apply ssd_sqd in HT; [|exact HU].
  pose proof (minimiser_gap [l; r] p x HU) as G.
  assert (M : forall y, y <> p -> sqd_sum [l; r] p < sqd_sum [l; r] y).
  { intros y Ny. rewrite <- HT. apply (Hmin y); [exact Ny|]. now apply ssd_sqd. }
  specialize (G M). rewrite dist_sq. pose proof (gap [l; r] l r c (minus3 x p) HU ltac:(now left) ltac:(right; now left) HA Hc1) as GG.
  assert (0 <= sqd_sum [l; r] p). { cbn [sqd_sum]. pose proof (sqd_pos p l Ul). pose proof (sqd_pos p r Ur). lra. }
  lra.
Qed.

(** Two skew lines, perpendicular, at the distance 2 from each other, and the midpoint: both theorems apply. *)
Definition skew1 := Sight (V3 0 0 1) (V3 1 0 0).
Definition skew2 := Sight (V3 0 0 (-1)) (V3 0 1 0).
Lemma skew_distance : is_distance (V3 0 0 0) skew1 1 /\ is_distance (V3 0 0 0) skew2 1.
Proof.
  assert (D : forall t s, dist3 (V3 0 0 0) (point_at skew1 t) = sqrt (t * t + 1) /\ dist3 (V3 0 0 0) (point_at skew2 s) = sqrt (s * s + 1)).
  { intros t s. unfold dist3, dot, minus3, point_at, skew1, skew2. cbn [s_from s_dir v0 v1 v2]. split; f_equal; ring. }
  assert (L : forall t, 1 <= sqrt (t * t + 1)) by (intros t; rewrite <- sqrt_1 at 1; apply sqrt_le_1_alt; nra).
  split; split; try (exists 0; rewrite ?(proj1 (D 0 0)), ?(proj2 (D 0 0)); replace (0 * 0 + 1) with 1 by ring; now rewrite sqrt_1);
    intros t; [rewrite (proj1 (D t t))|rewrite (proj2 (D t t))]; apply L.
Qed.
Example C84_case :
  Forall unit_dir [skew1; skew2] /\ Rabs (dot (s_dir skew1) (s_dir skew2)) <= 0 /\
  Forall (fun s => exists d, is_distance (V3 0 0 0) s d /\ d <= 1) [skew1; skew2] /\
  exists p, n_view_triangulation [froms [skew1; skew2]] [dirs [skew1; skew2]] = Some [p] /\ dist3 (V3 0 0 0) p <= 1 * sqrt (INR 2 / (1 - 0)).
Proof.
  assert (U : Forall unit_dir [skew1; skew2]) by (repeat constructor; unfold unit_dir, dot; cbn; lra).
  assert (A : Rabs (dot (s_dir skew1) (s_dir skew2)) <= 0) by (unfold dot; cbn [skew1 skew2 s_dir v0 v1 v2]; replace (1 * 0 + 0 * 1 + 0 * 0) with 0 by ring; rewrite Rabs_R0; lra).
  assert (F : Forall (fun s => exists d, is_distance (V3 0 0 0) s d /\ d <= 1) [skew1; skew2]).
  { destruct skew_distance. constructor; [exists 1; split; [assumption|lra]|]. constructor; [exists 1; split; [assumption|lra]|constructor]. }
  do 3 (split; [assumption|]).
  apply (C84_within [skew1; skew2] skew1 skew2 0 (V3 0 0 0) 1 U); [now left|right; now left|exact A|lra|lra|exact F].
Qed.
(** The sensors of C71_case, the first match, and the position one metre north of the ground point. *)
Example C84_sensor_case :
  let a := V3 (10 + 3 - 20) 5 20 in let b := V3 (10 + 3) 5 0 in let a' := V3 10 5 20 in let b' := V3 10 5 0 in
  let x := V3 10 6 3 in
  a <> b /\ a' <> b' /\ Rabs (dot (minus3 a b) (minus3 a' b')) <= 3 / 4 * (dist3 a b * dist3 a' b') /\
  is_distance x (Sight b (minus3 a b)) 1 /\ is_distance x (Sight b' (minus3 a' b')) 1 /\
  exists ecef wgs res p, sensor_triangulation (fun _ _ l => l) (rpc_sensor ex_rpc) (rpc_sensor rpc71)
    (map sn_match [seen71 10 5 3; seen71 20 1 4]) (Some (0, 20)) (Some (0, 20)) true false = Some (ecef, wgs, Some res) /\
    nth_error ecef 0 = Some (row_of_point p) /\ (1 - 3 / 4) * (dist3 x p * dist3 x p) <= 1 * 1 + 1 * 1.
Proof.
  intros a b a' b' x.
  assert (Na : a <> b) by (intros E; injection E; lra). assert (Na' : a' <> b') by (intros E; injection E; lra).
  assert (HA : Rabs (dot (minus3 a b) (minus3 a' b')) <= 3 / 4 * (dist3 a b * dist3 a' b')).
  { unfold dist3. rewrite <- sqrt_mult by apply dot_pos. unfold dot, minus3, a, b, a', b'. cbn [v0 v1 v2].
    rewrite Rabs_pos_eq by lra. apply Rsqr_incr_0_var; [|apply Rmult_le_pos; [lra|apply sqrt_pos]].
    rewrite Rsqr_mult, Rsqr_sqrt by lra. unfold Rsqr. lra. }
  assert (D : forall P t0, dist3 x (point_at P t0) = 1 -> (forall t, 1 <= dot (minus3 x (point_at P t)) (minus3 x (point_at P t))) -> is_distance x P 1).
  { intros P t0 E L. split; [exists t0; now rewrite E|]. intros t. unfold dist3. rewrite <- sqrt_1 at 1. apply sqrt_le_1_alt, L. }
  assert (D1 : is_distance x (Sight b (minus3 a b)) 1).
  { apply (D _ (3 / 20)).
    - unfold dist3. rewrite <- sqrt_1. f_equal. unfold dot, minus3, point_at, a, b, x. cbn [s_from s_dir v0 v1 v2]. field.
    - intros t. unfold dot, minus3, point_at, a, b, x. cbn [s_from s_dir v0 v1 v2]. pose proof (Rle_0_sqr (3 - 20 * t)) as Q. unfold Rsqr in Q. lra. }
  assert (D2 : is_distance x (Sight b' (minus3 a' b')) 1).
  { apply (D _ (3 / 20)).
    - unfold dist3. rewrite <- sqrt_1. f_equal. unfold dot, minus3, point_at, a', b', x. cbn [s_from s_dir v0 v1 v2]. field.
    - intros t. unfold dot, minus3, point_at, a', b', x. cbn [s_from s_dir v0 v1 v2]. pose proof (Rle_0_sqr (3 - 20 * t)) as Q. unfold Rsqr in Q. lra. }
  do 5 (split; [assumption|]).
  assert (Hc : pointwise_conv (fun _ _ l => l)) by (exists (fun _ _ p => p); intros; now rewrite map_id).
  assert (U : usable_inverse rpc71) by (repeat split; simpl; lra).
  set (V := [seen71 10 5 3; seen71 20 1 4]).
  assert (HV : Forall (fun v => newton_locates ex_rpc (m_left (sn_match v)) 20 (sn_ltop v) /\
                     newton_locates ex_rpc (m_left (sn_match v)) 0 (sn_lbot v) /\
                     newton_locates rpc71 (m_right (sn_match v)) 20 (sn_rtop v) /\
                     newton_locates rpc71 (m_right (sn_match v)) 0 (sn_rbot v) /\
                     seen_by_both (fun _ _ l => l) v) V)
    by (constructor; [apply seen71_ok; lra|]; constructor; [apply seen71_ok; lra|]; constructor).
  pose proof (C71_rpc_ground_points_are_recovered (fun _ _ l => l) ex_rpc rpc71 V
    (Some (0, 20)) (Some (0, 20)) false 0 20 0 20 Hc ex_rpc_usable U eq_refl eq_refl HV) as E.
  pose proof (rpc_sensor_locates ex_rpc V (fun v => m_left (sn_match v)) sn_ltop 20 false ex_rpc_usable) as L1.
  pose proof (rpc_sensor_locates ex_rpc V (fun v => m_left (sn_match v)) sn_lbot 0 false ex_rpc_usable) as L2.
  pose proof (rpc_sensor_locates rpc71 V (fun v => m_right (sn_match v)) sn_rtop 20 false U) as L3.
  pose proof (rpc_sensor_locates rpc71 V (fun v => m_right (sn_match v)) sn_rbot 0 false U) as L4.
  eexists _, _, _. 
  destruct (C84_sensor_precision _ (rpc_sensor ex_rpc) (rpc_sensor rpc71) V (Some (0, 20)) (Some (0, 20)) false 0 20 0 20 _ _ _ Hc eq_refl eq_refl
    (L1 ltac:(eapply Forall_impl; [|exact HV]; cbv beta; tauto)) (L2 ltac:(eapply Forall_impl; [|exact HV]; cbv beta; tauto))
    (L3 ltac:(eapply Forall_impl; [|exact HV]; cbv beta; tauto)) (L4 ltac:(eapply Forall_impl; [|exact HV]; cbv beta; tauto)) E
    0%nat (seen71 10 5 3) a b a' b' (3 / 4) x 1 1 eq_refl eq_refl eq_refl eq_refl eq_refl Na Na' HA ltac:(lra) D1 D2) as (p & P1 & P2).
  exists p. split; [exact E|]. split; [exact P1|exact P2].
Qed.
