(** The whole grids with an adaptive step, point by point. *)
From Coq Require Import Reals ZArith List Bool Lra Lia.
From Verif Require Import Num NumLemmas ProjModel RpcModel RpcDtmModel LocModel TriModel TriBatch RectModel RectSpec RectAdaptSpec
  RectProofs RectStrip RectGrid RectDisp RectAdapt.
Import ListNotations.
Open Scope R_scope.

(** ** Iterations of a step on each node of a line *)
Section Iter.
  Context {A : Type} (f : A -> A).
  Fixpoint aiter (n : nat) (x : A) : A := match n with O => x | S n => aiter n (f x) end.
  Fixpoint alines (n : nat) (l : list A) : list (list A) :=
    match n with O => [] | S n => map f l :: alines n (map f l) end.
  Fixpoint atrail (n : nat) (x : A) : list A := match n with O => [] | S n => f x :: atrail n (f x) end.

  Lemma aiter_S n x : aiter (S n) x = f (aiter n x).
  Proof. revert x; induction n; intros x; [ reflexivity | ]. cbn [aiter] in *. apply IHn. Qed.
  Lemma atrail_length n x : length (atrail n x) = n.
  Proof. revert x; induction n; intros; cbn; auto. Qed.
  Lemma alines_length n l : length (alines n l) = n.
  Proof. revert l; induction n; intros; cbn; auto. Qed.
  Lemma atrail_nth n x k : (k <= n)%nat -> nth_error (x :: atrail n x) k = Some (aiter k x).
  Proof.
    revert x k; induction n; intros x [ | k ] H; try reflexivity; [ lia | ].
    cbn [nth_error atrail]. rewrite IHn by lia. reflexivity.
  Qed.
  Lemma atrail_nth_inv n x k y : nth_error (x :: atrail n x) k = Some y -> (k <= n)%nat /\ y = aiter k x.
  Proof.
    intros H. assert (K : (k <= n)%nat).
    { assert (k < length (x :: atrail n x))%nat by (apply nth_error_Some; congruence). cbn in H0. rewrite atrail_length in H0. lia. }
    split; [ exact K | ]. rewrite atrail_nth in H by exact K. congruence.
  Qed.
  Lemma aheads {B} (g : A -> B) n x l :
    map (@hd_error B) (map (map g) (alines n (x :: l))) = map Some (map g (atrail n x)).
  Proof. revert x l; induction n; intros; cbn; [ reflexivity | ]. f_equal. apply IHn. Qed.
  Lemma atails {B} (g : A -> B) n x l :
    map (@tl B) (map (map g) (alines n (x :: l))) = map (map g) (alines n l).
  Proof. revert x l; induction n; intros; cbn; [ reflexivity | ]. f_equal. apply IHn. Qed.
  Lemma atranspose {B} (g : A -> B) n l :
    transpose (length l) (map g l :: map (map g) (alines n l)) = map (fun x => map g (x :: atrail n x)) l.
  Proof.
    induction l as [ | x l IH ]; [ reflexivity | ]. cbn [length transpose]. cbn [map]. cbn [hd_error tl].
    rewrite aheads, atails.
    change (Some (g x) :: map Some (map g (atrail n x))) with (map Some (g x :: map g (atrail n x))).
    rewrite (seq_opt_map_Some (fun x => x)), map_id, IH. reflexivity.
  Qed.
  Lemma acolumn {B} (g : A -> B) n x : concat (map (map g) (alines n [x])) = map g (atrail n x).
  Proof. revert x; induction n; intros; cbn; [ reflexivity | ]. f_equal. apply IHn. Qed.
End Iter.

Section Adapt2.
  Context {D : Type} (dtm_epsg : D -> Z) (conv : Z -> Z -> list row3 -> list row3)
    (ml mr : geomodel D) (pl pr : pmodel D) (s : surface D) (off : R) (ref mxr sc : R).
  Hypothesis (Hl : behaves ml pl) (Hr : behaves mr pr) (Href : 0 < ref) (Hm : 1 <= mxr) (Hsc : 0 <= sc).
  Local Notation ast := (astep pl pr s off ref mxr sc).
  Local Notation aw := (awalk pl s).

  Lemma awalk_sums : forall t l, existsb (fun x => nltb x (fin t)) (w_sum (aw l)) = existsb (fun x => Rltb (an_s x) t) l.
  Proof. intros t l. unfold awalk; cbn [w_sum]. induction l as [ | x l IH ]; [ reflexivity | ]. cbn [map existsb]. rewrite nltb_fin, IH. reflexivity. Qed.

  Lemma loop_adapt : forall slots target l sp axis step ws rs, axis_ok axis = true ->
    strip_loop dtm_epsg conv ml mr slots target sp axis step (elev_of s) off (Some (fin ref, mxr, sc)) (aw l) = Some (ws, rs) ->
    exists n, ws = map aw (alines (ast axis (step * sp)) n l)
      /\ (forall x, In x l -> target <= an_s (aiter (ast axis (step * sp)) n x))
      /\ (forall m, (m < n)%nat -> exists x, In x l /\ an_s (aiter (ast axis (step * sp)) m x) < target).
  Proof.
    induction slots as [ | slots IH ]; intros target l sp axis step ws rs Ha H; cbn [strip_loop] in H; rewrite awalk_sums in H;
      destruct (existsb (fun x => Rltb (an_s x) target) l) eqn:E.
    - discriminate.
    - injection H as <- <-. exists 0%nat. split; [ reflexivity | ]. split; [ | intros; lia ].
      intros x Hx. cbn. destruct (Rle_or_lt target (an_s x)) as [ | C ]; [ assumption | ].
      assert (existsb (fun x => Rltb (an_s x) target) l = true).
      { apply existsb_exists. exists x. split; [ exact Hx | ]. apply Rltb_true. exact C. } congruence.
    - destruct (astep_ok dtm_epsg conv ml mr pl pr s off ref mxr sc Hl Hr Href Hm Hsc l sp axis step Ha) as [ rs1 E1 ].
      rewrite E1 in H. destruct (strip_loop _ _ _ _ slots _ _ _ _ _ _ _ _) as [ [ ws' rs' ] | ] eqn:E2; [ | discriminate ].
      injection H as <- <-. destruct (IH _ _ _ _ _ _ _ Ha E2) as (n & -> & F & M).
      exists (S n). split; [ reflexivity | ]. split.
      + intros x Hx. apply (F (ast axis (step * sp) x)). apply in_map. exact Hx.
      + intros [ | m ] K.
        * apply existsb_exists in E. destruct E as (x & Hx & C). exists x. split; [ exact Hx | ]. apply Rltb_true. exact C.
        * destruct (M m) as (y & Hy & C); [ lia | ]. apply in_map_iff in Hy. destruct Hy as (x & <- & Hx). exists x. split; assumption.
    - injection H as <- <-. exists 0%nat. split; [ reflexivity | ]. split; [ | intros; lia ].
      intros x Hx. cbn. destruct (Rle_or_lt target (an_s x)) as [ | C ]; [ assumption | ].
      assert (existsb (fun x => Rltb (an_s x) target) l = true).
      { apply existsb_exists. exists x. split; [ exact Hx | ]. apply Rltb_true. exact C. } congruence.
  Qed.

  (** A strip: [l] are the first nodes, whose sums are 1. *)
  Definition first_angles (known : bool) (l : list anode) : option (list num) :=
    if known then Some (map (fun x => fin (an_a x)) l) else None.
  Lemma strip_adapt : forall (known : bool) l sp axis strip_size step st, axis_ok axis = true ->
    (known = false -> forall x, In x l -> an_a x = angle_at pl pr s off (an_p x)) -> (forall x, In x l -> an_s x = 1) ->
    compute_strip_of_epipolar_grid dtm_epsg conv ml mr (map (fun x => node (an_p x)) l) (map (fun x => node (an_q x)) l)
      sp axis strip_size step (elev_of s) off (first_angles known l) (Some (fin ref, mxr, sc)) = Some st ->
    exists n, let ls := alines (ast axis (step * sp)) n l in
      st_left st = map (fun x => node (an_p x)) l :: map (map (fun x => node (an_p x))) ls
      /\ st_right st = map (fun x => node (an_q x)) l :: map (map (fun x => node (an_q x))) ls
      /\ st_angles st = map (fun x => fin (an_a x)) l :: map (map (fun x => fin (an_a x))) ls
      /\ (forall x, In x l -> INR strip_size <= an_s (aiter (ast axis (step * sp)) n x))
      /\ (forall m, (m < n)%nat -> exists x, In x l /\ an_s (aiter (ast axis (step * sp)) m x) < INR strip_size).
  Proof.
    intros known l sp axis strip_size step st Ha HA HS H. unfold compute_strip_of_epipolar_grid in H. cbv zeta in H.
    assert (E : exists ratios0 already g, match first_angles known l with
        | Some a => match direct dtm_epsg conv (make_localization ml (elev_of s) None None)
                       (map (fun p => (p_row p, p_col p)) (map (fun x => node (an_p x)) l)) None false with
                    | Some ground => Some (a, ground, [], length a) | None => None end
        | None => match compute_local_epipolar_line dtm_epsg conv ml mr (map (fun x => node (an_p x)) l) (elev_of s) off with
                  | Some (line_start, line_end, ground) =>
                      Some (compute_epipolar_angle line_end line_start, ground, map2 (baseline_ratio off) line_end line_start, 0%nat)
                  | None => None end
        end = Some (map (fun x => fin (an_a x)) l, g, ratios0, already) /\ g = map (fun x => node (ground pl s (an_p x))) l).
    { destruct known; cbn [first_angles].
      - rewrite <- (map_map an_p node). rewrite (ground_known dtm_epsg conv ml mr pl pr s Hl Hr).
        eexists _, _, _. split; [ reflexivity | ]. rewrite map_map. reflexivity.
      - rewrite <- (map_map an_p node), (local_line _ _ _ _ pl pr) by auto. rewrite angles_of_lines.
        assert (EA : map (fun p => fin (angle_at pl pr s off p)) (map an_p l) = map (fun x => fin (an_a x)) l).
        { rewrite map_map. apply map_ext_in. intros x Hx. rewrite (HA eq_refl x Hx). reflexivity. }
        rewrite EA. eexists _, _, _. split; [ reflexivity | ]. rewrite map_map. reflexivity. }
    destruct E as (ratios0 & already & g & E & ->).
    rewrite E in H. clear E. destruct (Z.to_nat _) as [ | slots ]; [ discriminate | ].
    assert (W : Walk (map (fun x => node (an_p x)) l) (map (fun x => node (an_q x)) l) (map (fun x => fin (an_a x)) l)
                  (map (fun x => node (ground pl s (an_p x))) l) (map (fun _ => fin 1) (map (fun x => node (an_p x)) l)) = aw l).
    { unfold awalk. f_equal. rewrite map_map. apply map_ext_in. intros x Hx. rewrite (HS x Hx). reflexivity. }
    rewrite W in H.
    destruct (strip_loop _ _ _ _ _ _ _ _ _ _ _ _ _) as [ [ ws rs ] | ] eqn:EL; [ | discriminate ].
    destruct (loop_adapt _ _ _ _ _ _ _ _ Ha EL) as (n & -> & F & M). exists n. cbv zeta.
    assert (ST : exists m nc, st = Strip (map (fun x => node (an_p x)) l :: map w_left (map aw (alines (ast axis (step * sp)) n l)))
       (map (fun x => node (an_q x)) l :: map w_right (map aw (alines (ast axis (step * sp)) n l)))
       (map (fun x => fin (an_a x)) l :: map w_angles (map aw (alines (ast axis (step * sp)) n l))) m nc).
    { destruct (first_angles known l); [ destruct (map aw _); [ discriminate | ] | ]; injection H as <-; eauto. }
    destruct ST as (m & nc & ->). cbn [st_left st_right st_angles]. rewrite !map_map.
    split; [ | split; [ | split; [ | split; assumption ] ] ]; reflexivity.
  Qed.
End Adapt2.

(** ** The factors and the lengths *)
Lemma slope_factor_eq : forall ref mxr sc a b, effective_ratio ref mxr sc a b = slope_factor ref sc mxr (a - b).
Proof.
  intros. unfold effective_ratio, slope_factor, slope_ratio. rewrite <- Rabs_mult, (Rabs_pos_eq ((a - b) * (a - b))) by apply Rle_0_sqr.
  unfold Rmin. set (q := sqrt _ / ref). destruct (Rltb_spec mxr q), (Rle_dec mxr q); try (ring || lra).
  assert (q = mxr) by lra. subst mxr. ring.
Qed.
Lemma part_between : forall t c r, part t c r = between c t (/ r).
Proof. intros. unfold part, between. f_equal; unfold Rdiv; ring. Qed.

Lemma moved_distance : forall axis d p alpha r, axis_ok axis = true -> 0 <= d -> 0 < r ->
  image_distance p (between p (moved axis d p alpha) (/ r)) = d / r.
Proof.
  intros axis d p alpha r Ha Hd Hr. unfold image_distance, between.
  assert (E : forall x, x = (d / r) * (d / r) -> sqrt x = d / r).
  { intros x ->. apply sqrt_square. apply Rle_mult_inv_pos; lra. }
  pose proof (sin2_cos2 alpha) as SC. unfold Rsqr in SC.
  apply E. unfold moved. destruct (Z.eqb axis 1); cbn [v0 v1 v2].
  - replace (d / r * (d / r)) with (d / r * (d / r) * (sin alpha * sin alpha + cos alpha * cos alpha)) by (rewrite SC; ring).
    field. lra.
  - replace (d / r * (d / r)) with (d / r * (d / r) * (sin alpha * sin alpha + cos alpha * cos alpha)) by (rewrite SC; ring).
    field. lra.
Qed.

Section Lengths.
  Context {D : Type} (pl pr : pmodel D) (s : surface D) (off : R) (ref mxr sc : R).
  Hypothesis (Href : 0 < ref) (Hm : 1 <= mxr) (Hsc : 0 <= sc).
  Local Notation ast := (astep pl pr s off ref mxr sc).

  Lemma astep_distance : forall axis d x, axis_ok axis = true -> 0 <= d ->
    image_distance (an_p x) (an_p (ast axis d x)) = d * (an_s (ast axis d x) - an_s x).
  Proof.
    intros axis d x Ha Hd. unfold astep; cbn [an_p an_s]. pose proof (aratio_ge1 pl s ref mxr sc Href Hm Hsc axis d x) as G.
    rewrite part_between, moved_distance by (auto; lra). field. lra.
  Qed.
  Lemma trail_path : forall axis d n x, axis_ok axis = true -> 0 <= d ->
    path_length (map an_p (x :: atrail (ast axis d) n x)) = d * (an_s (aiter (ast axis d) n x) - an_s x).
  Proof.
    intros axis d n. induction n as [ | n IH ]; intros x Ha Hd.
    - cbn. ring.
    - cbn [atrail map path_length aiter]. rewrite astep_distance by auto.
      specialize (IH (ast axis d x) Ha Hd). cbn [map] in IH. cbn [path_length] in IH. rewrite IH. ring.
  Qed.
  Lemma trail_but_last : forall {A} (f : A -> A) n x, but_last (x :: atrail f (S n) x) = x :: atrail f n x.
  Proof.
    intros A f n x. unfold but_last. cbn [length]. rewrite atrail_length. replace (S (S n) - 1)%nat with (S n) by lia.
    revert x. induction n as [ | n IH ]; intros x; [ reflexivity | ].
    cbn [firstn]. f_equal. exact (IH (f x)).
  Qed.
  Lemma but_last_map : forall {A B} (g : A -> B) l, but_last (map g l) = map g (but_last l).
  Proof. intros. unfold but_last. rewrite map_length. apply firstn_map. Qed.

  Lemma bundle_reaches : forall axis d n (size : nat) l, axis_ok axis = true -> 0 < d -> (1 <= size)%nat ->
    (forall x, In x l -> an_s x = 1) ->
    (forall x, In x l -> INR size <= an_s (aiter (ast axis d) n x)) ->
    (forall m, (m < n)%nat -> exists x, In x l /\ an_s (aiter (ast axis d) m x) < INR size) -> l <> [] ->
    just_reaches ((INR size - 1) * d) (map (fun x => map an_p (x :: atrail (ast axis d) n x)) l).
  Proof.
    intros axis d n size l Ha Hd Hsz H1 HF HM Hne. split.
    - apply Forall_forall. intros y Hy. apply in_map_iff in Hy. destruct Hy as (x & <- & Hx).
      rewrite trail_path by (auto; lra). rewrite (H1 x Hx). specialize (HF x Hx). nra.
    - destruct n as [ | n ].
      + left. destruct l as [ | x l ]; [ congruence | ]. specialize (HF x (or_introl eq_refl)). cbn [aiter] in HF.
        rewrite (H1 x (or_introl eq_refl)) in HF. assert (INR size - 1 <= 0) by lra. nra.
      + right. destruct (HM n ltac:(lia)) as (x & Hx & HS). apply Exists_exists.
        exists (map an_p (x :: atrail (ast axis d) (S n) x)). split; [ apply (in_map (fun x => map an_p (x :: atrail (ast axis d) (S n) x))); exact Hx | ].
        rewrite but_last_map, trail_but_last, trail_path by (auto; lra). rewrite (H1 x Hx). nra.
  Qed.
End Lengths.

(** ** The whole grids *)
Lemma nth_error_map_Some : forall {A B} (f : A -> B) l k y, nth_error (map f l) k = Some y -> exists x, nth_error l k = Some x /\ f x = y.
Proof. intros A B f l k y H. rewrite nth_error_map in H. destruct (nth_error l k) as [ x | ]; [ | discriminate ]. exists x. split; [ reflexivity | ]. cbn in H. congruence. Qed.

Section Whole.
  Context {D : Type} (dtm_epsg : D -> Z) (conv : Z -> Z -> list row3 -> list row3)
    (ml mr : geomodel D) (pl pr : pmodel D) (s : surface D) (off : R) (mxr sc : R).
  Hypothesis (Hl : behaves ml pl) (Hr : behaves mr pr) (Hm : 1 <= mxr) (Hsc : 0 <= sc).

  Lemma gsd_plain : forall ecef p sp step, geocentric conv (gm_epsg ml) ecef ->
    compute_epipolar_gsd dtm_epsg conv ml mr (node p) sp (elev_of s) step off
    = Some (fin (ground_step pl ecef 0 (step * sp) p (angle_at pl pr s off p)), fin (ground_step pl ecef 1 (step * sp) p (angle_at pl pr s off p))).
  Proof.
    intros ecef p sp step HC. unfold compute_epipolar_gsd. change [node p] with (map node [p]).
    rewrite (local_line _ _ _ _ pl pr) by auto. cbn [map]. rewrite epipolar_angle_node.
    change (direction (epipolar_end pl pr s (- off) p) (epipolar_end pl pr s off p)) with (angle_at pl pr s off p).
    set (a := angle_at pl pr s off p). rewrite !move_node_node by reflexivity.
    set (p0 := moved 0 (step * sp) p a). set (p1 := moved 1 (step * sp) p a).
    assert (E : gm_direct_h ml (map p_row [node p; node p0; node p1]) (map p_col [node p; node p0; node p1]) (map p_alt [node p; node p0; node p1])
                = Some (map node (map (fun q => pm_h pl (v0 q) (v1 q) (v2 q)) [p; p0; p1]))).
    { destruct Hl as (H & _). specialize (H [(v0 p, v1 p, v2 p); (v0 p0, v1 p0, v2 p0); (v0 p1, v1 p1, v2 p1)]).
      exact H. }
    cbn [map] in E. rewrite E. clear E.
    change [node (pm_h pl (v0 p) (v1 p) (v2 p)); node (pm_h pl (v0 p0) (v1 p0) (v2 p0)); node (pm_h pl (v0 p1) (v1 p1) (v2 p1))]
      with (map node [pm_h pl (v0 p) (v1 p) (v2 p); pm_h pl (v0 p0) (v1 p0) (v2 p0); pm_h pl (v0 p1) (v1 p1) (v2 p1)]).
    rewrite HC. cbn [map]. reflexivity.
  Qed.

  Definition restart (x : anode) : anode := ANode (an_p x) (an_q x) (an_a x) 1.
  Definition acolumn_of (d0 d : R) (n0 : nat) (p : vec3) : list anode :=
    let x0 := ANode p (matched pl pr s p) (angle_at pl pr s off p) 1 in x0 :: atrail (astep pl pr s off d0 mxr sc 0 d) n0 x0.
  Definition agrid_of (d0 d1 d : R) (n0 n1 : nat) (p : vec3) : list (list anode) :=
    map (fun x => x :: atrail (astep pl pr s off d1 mxr sc 1 d) n1 x) (map restart (acolumn_of d0 d n0 p)).

  Lemma stereo_adapt : forall im step margin p d0 d1 L' R' size ratio,
    let P := prepare_at im step margin (start_angle pl pr s off im) (fin (start_alt pl pr s off im)) in
    let g0 := Z.to_nat (fst (pr_grid_size P)) in
    let g1 := Z.to_nat (snd (pr_grid_size P)) in
    let d := step * mean_spacing im in
    pr_start P = node p -> (1 <= g0)%nat -> (2 <= g1)%nat -> 0 < d ->
    compute_epipolar_gsd dtm_epsg conv ml mr (node p) (mean_spacing im) (elev_of s) step off = Some (fin d0, fin d1) ->
    0 < d0 -> 0 < d1 ->
    compute_stereorectification_epipolar_grids dtm_epsg conv ml mr im (elev_of s) step off margin (Some (sc, mxr)) = Some (L', R', size, ratio) ->
    exists n0 n1, let G := agrid_of d0 d1 d n0 n1 p in
      L' = map (map (fun x => node (an_p x))) G /\ R' = map (map (fun x => node (an_q x))) G
      /\ size = (Rtrunc (INR (S n0) * step - step / 2 - 2 * step * IZR margin), Rtrunc (INR (S n1) * step - step / 2 - 2 * step * IZR margin))
      /\ just_reaches ((INR g1 - 1) * d) (map (map an_p) G)
      /\ just_reaches ((INR g0 - 1) * d) [map an_p (acolumn_of d0 d n0 p)].
  Proof.
    intros im step margin p d0 d1 L' R' size ratio P g0 g1 d HP Hg0 Hg1 Hd Hgsd Hd0 Hd1 H.
    unfold compute_stereorectification_epipolar_grids in H. rewrite (prepare_plain _ _ _ _ pl pr) in H by auto.
    cbv zeta in H. fold P in H. rewrite HP in H.
    change [node p] with (map node [p]) in H. rewrite (coloc_surface _ _ _ _ pl pr) in H by auto. cbn [map] in H.
    rewrite Hgsd in H. fold g0 g1 in H.
    set (x0 := ANode p (matched pl pr s p) (angle_at pl pr s off p) 1).
    destruct (compute_strip_of_epipolar_grid _ _ _ _ [node p] _ _ _ _ _ _ _ _ _) as [ st | ] eqn:E1; [ | discriminate ].
    destruct (strip_adapt dtm_epsg conv ml mr pl pr s off d0 mxr sc Hl Hr Hd0 Hm Hsc false [x0] (mean_spacing im) 0 g0 step st eq_refl
                ltac:(intros _ x [ <- | [] ]; reflexivity) ltac:(intros x [ <- | [] ]; reflexivity) E1) as (n0 & K).
    cbv zeta in K. fold d in K. destruct K as (EL & ER & EA & F0 & M0).
    set (col := acolumn_of d0 d n0 p).
    assert (CL : concat (st_left st) = map (fun x => node (an_p x)) col).
    { rewrite EL. cbn [concat map app]. rewrite acolumn. reflexivity. }
    assert (CR : concat (st_right st) = map (fun x => node (an_q x)) col).
    { rewrite ER. cbn [concat map app]. rewrite acolumn. reflexivity. }
    assert (CA : concat (st_angles st) = map (fun x => fin (an_a x)) col).
    { rewrite EA. cbn [concat map app]. rewrite acolumn. reflexivity. }
    rewrite CL, CR, CA in H.
    assert (RL : map (fun x => node (an_p x)) col = map (fun x => node (an_p x)) (map restart col)) by (rewrite map_map; reflexivity).
    assert (RR : map (fun x => node (an_q x)) col = map (fun x => node (an_q x)) (map restart col)) by (rewrite map_map; reflexivity).
    assert (RA : map (fun x => fin (an_a x)) col = map (fun x => fin (an_a x)) (map restart col)) by (rewrite map_map; reflexivity).
    rewrite RL, RR, RA in H. clear RL RR RA CL CR CA.
    destruct (compute_strip_of_epipolar_grid _ _ _ _ _ _ _ 1 _ _ _ _ _ _) as [ st2 | ] eqn:E2; [ | discriminate ].
    destruct (strip_adapt dtm_epsg conv ml mr pl pr s off d1 mxr sc Hl Hr Hd1 Hm Hsc true (map restart col) (mean_spacing im) 1 g1 step st2 eq_refl
                ltac:(intros K; discriminate K) ltac:(intros x Hx; apply in_map_iff in Hx; destruct Hx as (y & <- & _); reflexivity) E2) as (n1 & K).
    cbv zeta in K. fold d in K. destruct K as (EL2 & ER2 & _ & F1 & M1).
    exists n0, n1. cbv zeta.
    assert (HH : L' = transpose (length (map restart col)) (st_left st2) /\ R' = transpose (length (map restart col)) (st_right st2)
                 /\ size = (Rtrunc (INR (length (map restart col)) * step - step / 2 - 2 * step * IZR margin),
                            Rtrunc (INR (length (st_left st2)) * step - step / 2 - 2 * step * IZR margin))).
    { rewrite map_length in H. repeat split; congruence. }
    destruct HH as (-> & -> & ->). rewrite EL2, ER2, !atranspose.
    split; [ | split; [ | split; [ | split ] ] ].
    - unfold agrid_of. rewrite !map_map. reflexivity.
    - unfold agrid_of. rewrite !map_map. reflexivity.
    - cbn [length]. rewrite !map_length, alines_length. unfold col, acolumn_of. cbn [length]. rewrite atrail_length. reflexivity.
    - unfold agrid_of. rewrite (map_map _ (map an_p)).
      apply bundle_reaches; auto; try lia; try lra.
      + intros x Hx; apply in_map_iff in Hx; destruct Hx as (y & <- & _); reflexivity.
      + unfold col, acolumn_of. discriminate.
    - apply (bundle_reaches pl pr s off d0 mxr sc Hd0 Hm Hsc 0 d n0 g0 [x0]); auto; try discriminate.
      intros x [ <- | [] ]; reflexivity.
  Qed.

  Definition acell (d0 d1 d : R) (p : vec3) (i j : nat) : anode :=
    aiter (astep pl pr s off d1 mxr sc 1 d) j (restart (aiter (astep pl pr s off d0 mxr sc 0 d) i
      (ANode p (matched pl pr s p) (angle_at pl pr s off p) 1))).
  Lemma agrid_entry : forall {B} (g : anode -> B) d0 d1 d n0 n1 p i j y,
    entry (map (map g) (agrid_of d0 d1 d n0 n1 p)) i j = Some y -> y = g (acell d0 d1 d p i j).
  Proof.
    intros B g d0 d1 d n0 n1 p i j y H. unfold entry, agrid_of in H.
    destruct (nth_error _ i) as [ line | ] eqn:E; [ | discriminate ].
    rewrite !map_map in E. apply nth_error_map_Some in E. destruct E as (x & E & <-).
    apply nth_error_map_Some in H. destruct H as (z & H & <-).
    apply atrail_nth_inv in E. destruct E as [ _ -> ]. apply atrail_nth_inv in H. destruct H as [ _ -> ]. reflexivity.
  Qed.
  Lemma aiter_angle : forall d0 d axis k x, an_a x = angle_at pl pr s off (an_p x) ->
    an_a (aiter (astep pl pr s off d0 mxr sc axis d) k x) = angle_at pl pr s off (an_p (aiter (astep pl pr s off d0 mxr sc axis d) k x)).
  Proof. intros d0 d axis k. induction k; intros x Hx; [ exact Hx | ]. cbn [aiter]. apply IHk. reflexivity. Qed.
  Lemma acell_angle : forall d0 d1 d p i j, an_a (acell d0 d1 d p i j) = angle_at pl pr s off (an_p (acell d0 d1 d p i j)).
  Proof. intros. unfold acell. apply aiter_angle. cbn [restart an_a an_p]. apply aiter_angle. reflexivity. Qed.

  Lemma astep_spec : forall ref axis d x,
    adaptive_step pl pr s ref sc mxr axis d (an_a x) (an_p x) (an_q x)
      (an_p (astep pl pr s off ref mxr sc axis d x)) (an_q (astep pl pr s off ref mxr sc axis d x)).
  Proof.
    intros. unfold adaptive_step, astep; cbn [an_p an_q]. rewrite !part_between. unfold aratio. rewrite slope_factor_eq. split; reflexivity.
  Qed.

  Lemma agrid_adaptive : forall d0 d1 d n0 n1 p, adaptive_grid pl pr s off d d0 d1 sc mxr p
    (map (map an_p) (agrid_of d0 d1 d n0 n1 p)) (map (map an_q) (agrid_of d0 d1 d n0 n1 p)).
  Proof.
    intros d0 d1 d n0 n1 p. split; [ reflexivity | split; [ reflexivity | ] ].
    intros i j pp qq HP HQ. apply agrid_entry in HP. apply agrid_entry in HQ. subst pp qq.
    exists (an_a (acell d0 d1 d p i j)). split; [ | split ].
    - rewrite acell_angle. split; [ apply direction_has_direction | apply direction_range ].
    - intros p' q' HP HQ. apply agrid_entry in HP. apply agrid_entry in HQ. subst p' q'.
      unfold acell at 4 5. rewrite aiter_S. apply astep_spec.
    - intros -> p' q' HP HQ. apply agrid_entry in HP. apply agrid_entry in HQ. subst p' q'.
      unfold acell. rewrite aiter_S. cbn [aiter]. cbn [restart an_p an_q an_a]. apply astep_spec.
  Qed.
  Lemma agrid_shaped : forall {B} (g : anode -> B) d0 d1 d n0 n1 p, shaped (S n0) (S n1) (map (map g) (agrid_of d0 d1 d n0 n1 p)).
  Proof.
    intros. split.
    - unfold agrid_of, acolumn_of. rewrite !map_length. cbn [length]. rewrite atrail_length. reflexivity.
    - intros l Hin. apply in_map_iff in Hin. destruct Hin as (x & <- & Hx). rewrite map_length. unfold agrid_of in Hx.
      apply in_map_iff in Hx. destruct Hx as (y & <- & _). cbn [length]. rewrite atrail_length. reflexivity.
  Qed.
  Lemma agrid_first : forall d0 d1 d n0 n1 p,
    first_column (map (map an_p) (agrid_of d0 d1 d n0 n1 p)) = map an_p (acolumn_of d0 d n0 p).
  Proof.
    intros. unfold first_column, agrid_of. rewrite !map_map. generalize (acolumn_of d0 d n0 p) as l.
    induction l as [ | x l IH ]; [ reflexivity | ]. cbn [map flat_map firstn app]. cbn [restart an_p]. f_equal. exact IH.
  Qed.
End Whole.

(** ** Flat ground *)
Section Flat.
  Context {D : Type} (dtm_epsg : D -> Z) (conv : Z -> Z -> list row3 -> list row3)
    (ml mr : geomodel D) (pl pr : pmodel D) (s : surface D) (off : R) (mxr sc : R).
  Hypothesis (Hl : behaves ml pl) (Hr : behaves mr pr) (Ho : off <> 0) (Hm : 1 <= mxr) (Hsc : 0 <= sc).
  Hypothesis (Hflat : forall p q, v2 (ground pl s p) = v2 (ground pl s q)).

  Lemma flat_ratio : forall ref a, 0 < ref -> effective_ratio ref mxr sc a a = 1.
  Proof.
    intros ref a H. unfold effective_ratio, slope_ratio. rewrite Rminus_diag_eq by reflexivity. rewrite Rabs_R0, Rmult_0_l, Rplus_0_l.
    rewrite sqrt_square by lra. unfold Rdiv. rewrite Rinv_r by lra. destruct (Rltb_spec mxr 1); [ lra | ring ].
  Qed.
  Lemma part_1 : forall t c, part t c 1 = t.
  Proof. intros [ a b c ] [ a' b' c' ]. unfold part; cbn [v0 v1 v2]. f_equal; field. Qed.

  Lemma step_flat : forall ref l sp axis step, 0 < ref -> axis_ok axis = true ->
    strip_step dtm_epsg conv ml mr sp axis step (elev_of s) off (Some (fin ref, mxr, sc)) (awalk pl s l)
    = strip_step dtm_epsg conv ml mr sp axis step (elev_of s) off None (awalk pl s l)
    /\ exists l' rs, strip_step dtm_epsg conv ml mr sp axis step (elev_of s) off None (awalk pl s l) = Some (awalk pl s l', rs).
  Proof.
    intros ref l sp axis step Href Ha.
    assert (E : strip_step dtm_epsg conv ml mr sp axis step (elev_of s) off (Some (fin ref, mxr, sc)) (awalk pl s l)
                = strip_step dtm_epsg conv ml mr sp axis step (elev_of s) off None (awalk pl s l)).
    { unfold strip_step, awalk. cbn [w_left w_angles]. set (d := step * sp).
      pose proof (moving2 dtm_epsg conv ml mr pl pr s off Hl Hr (map (fun x => (an_p x, an_a x)) l) sp step axis Ha) as M.
      rewrite !map_map in M. unfold as_left, as_angle, as_right, step1 in M. cbn [fst snd] in M. fold d in M. rewrite M. clear M.
      cbv beta iota zeta. cbn [w_left w_right w_ground w_sum].
      rewrite !map_map, map2_map_same2. cbn [node alt3].
      assert (E : map (fun x => step_ratio (fin ref) mxr sc (Some (v2 (ground pl s (moved axis d (an_p x) (an_a x))))) (Some (v2 (ground pl s (an_p x))))) l
                  = map (fun x => fin 1) l).
      { apply map_ext; intro x. rewrite (Hflat (moved axis d (an_p x) (an_a x)) (an_p x)).
        rewrite (step_ratio_fin ref mxr sc) by lra. rewrite flat_ratio by exact Href. reflexivity. }
      rewrite E. clear E. rewrite !rescale_all_map, map2_map_same2.
      assert (R1 : forall (f g : anode -> vec3), map (fun x => rescale (node (f x)) (node (g x)) (fin 1)) l = map (fun x => node (f x)) l).
      { intros f g. apply map_ext; intro x. rewrite rescale_node by lra. rewrite part_1. reflexivity. }
      assert (R2 : map (fun x => nadd (fin (an_s x)) (ndiv (fin 1) (fin 1))) l = map (fun x => nadd (fin (an_s x)) (fin 1)) l).
      { apply map_ext; intro x. unfold ndiv, nadd, nlift2, fin. destruct (Req_EM_T 1 0); [ lra | ]. f_equal. field. }
      rewrite (R1 (fun x => moved axis d (an_p x) (an_a x)) (fun x => an_p x)).
      rewrite (R1 (fun x => matched pl pr s (moved axis d (an_p x) (an_a x))) (fun x => an_q x)). rewrite R2. reflexivity. }
    split; [ exact E | ]. rewrite <- E.
    destruct (astep_ok dtm_epsg conv ml mr pl pr s off ref mxr sc Hl Hr Href Hm Hsc l sp axis step Ha) as [ rs E1 ].
    eauto.
  Qed.

  Lemma loop_flat : forall ref slots target l sp axis step r, 0 < ref -> axis_ok axis = true ->
    strip_loop dtm_epsg conv ml mr slots target sp axis step (elev_of s) off None (awalk pl s l) = Some r ->
    forall slots', (slots <= slots')%nat ->
    strip_loop dtm_epsg conv ml mr slots' target sp axis step (elev_of s) off (Some (fin ref, mxr, sc)) (awalk pl s l) = Some r.
  Proof.
    intros ref slots. induction slots as [ | slots IH ]; intros target l sp axis step r Href Ha H slots' Hs; cbn [strip_loop] in H.
    - destruct (existsb _ _) eqn:E; [ discriminate | ]. destruct slots'; cbn [strip_loop]; rewrite E; exact H.
    - destruct slots' as [ | slots' ]; [ lia | ]. cbn [strip_loop]. destruct (existsb _ _); [ | exact H ].
      destruct (step_flat ref l sp axis step Href Ha) as (E & l' & rs & E2). rewrite E. rewrite E2 in H |- *.
      destruct (strip_loop _ _ _ _ slots _ _ _ _ _ _ _ _) as [ [ ws rs' ] | ] eqn:E3; [ | discriminate ].
      rewrite (IH _ _ _ _ _ _ Href Ha E3) by lia. exact H.
  Qed.

  Lemma buffer_big : forall n, (n <= Z.to_nat (Rceil (INR n * ((mxr - 1) * sc + 1))))%nat.
  Proof.
    intros n. assert (H : INR n <= INR n * ((mxr - 1) * sc + 1)).
    { pose proof (pos_INR n). assert (0 <= (mxr - 1) * sc) by nra. nra. }
    pose proof (Rceil_bounds (INR n * ((mxr - 1) * sc + 1))) as [ _ B ].
    assert (Z.of_nat n <= Rceil (INR n * ((mxr - 1) * sc + 1)))%Z by (apply le_IZR; rewrite <- INR_IZR_INZ; lra). lia.
  Qed.

  Lemma strip_flat : forall ref known ps qs sp axis n step, 0 < ref -> axis_ok axis = true -> ps <> [] -> length qs = length ps -> known_ok known ps n ->
    compute_strip_of_epipolar_grid dtm_epsg conv ml mr (map node ps) (map node qs) sp axis n step (elev_of s) off
      (option_map (map fin) known) (Some (fin ref, mxr, sc))
    = compute_strip_of_epipolar_grid dtm_epsg conv ml mr (map node ps) (map node qs) sp axis n step (elev_of s) off
      (option_map (map fin) known) None.
  Proof.
    intros ref known ps qs sp axis n step Href Ha Hps Hq Hk.
    pose proof (strip_plain dtm_epsg conv ml mr pl pr s off Hl Hr Ho known ps (map node qs) sp axis n step Ha Hps Hk) as SP. cbv zeta in SP.
    rewrite SP. set (T := Strip _ _ _ _ _) in *.
    assert (NT : st_nan T = 0%nat) by reflexivity. clearbody T.
    unfold compute_strip_of_epipolar_grid in SP |- *. cbv zeta in SP |- *.
    assert (Hla : length (known_angles pl pr s off known ps) = length ps).
    { destruct known; cbn in *; [ lia | apply map_length ]. }
    assert (F : exists g r0 al, match option_map (map fin) known with
      | None => match compute_local_epipolar_line dtm_epsg conv ml mr (map node ps) (elev_of s) off with
                | Some (line_start, line_end, ground) =>
                    Some (compute_epipolar_angle line_end line_start, ground, map2 (baseline_ratio off) line_end line_start, 0%nat)
                | None => None end
      | Some a => match direct dtm_epsg conv (make_localization ml (elev_of s) None None)
                     (map (fun p => (p_row p, p_col p)) (map node ps)) None false with
                  | Some ground => Some (a, ground, [], length a) | None => None end
      end = Some (map fin (known_angles pl pr s off known ps), g, r0, al) /\ g = map (fun p => node (ground pl s p)) ps).
    { destruct known; cbn [option_map known_angles].
      - rewrite (ground_known dtm_epsg conv ml mr pl pr s Hl Hr). eexists _, _, _. split; reflexivity.
      - rewrite (local_line _ _ _ _ pl pr) by auto. rewrite angles_of_lines. rewrite <- (map_map (angle_at pl pr s off) fin ps).
        eexists _, _, _. split; reflexivity. }
    destruct F as (g & r0 & al & F & ->). rewrite F in SP |- *. clear F.
    set (l := map (fun pqa => ANode (fst (fst pqa)) (snd (fst pqa)) (snd pqa) 1) (combine (combine ps qs) (known_angles pl pr s off known ps))).
    assert (Hcl : length (combine ps qs) = length ps) by (rewrite combine_length; lia).
    assert (F1 : map fst (map fst (combine (combine ps qs) (known_angles pl pr s off known ps))) = ps).
    { rewrite combine_fst by lia. apply combine_fst; auto. }
    assert (F2 : map snd (map fst (combine (combine ps qs) (known_angles pl pr s off known ps))) = qs).
    { rewrite combine_fst by lia. apply combine_snd; auto. }
    assert (F3 : map snd (combine (combine ps qs) (known_angles pl pr s off known ps)) = known_angles pl pr s off known ps) by (apply combine_snd; lia).
    assert (P1 : map an_p l = ps) by (unfold l; rewrite map_map; cbn [an_p]; rewrite <- (map_map fst fst); exact F1).
    assert (P2 : map an_q l = qs) by (unfold l; rewrite map_map; cbn [an_q]; rewrite <- (map_map fst snd); exact F2).
    assert (P3 : map an_a l = known_angles pl pr s off known ps) by (unfold l; rewrite map_map; exact F3).
    assert (Hw : Walk (map node ps) (map node qs) (map fin (known_angles pl pr s off known ps)) (map (fun p => node (ground pl s p)) ps)
                   (map (fun _ => fin 1) (map node ps)) = awalk pl s l).
    { unfold awalk. rewrite <- P3, <- P2, <- P1. rewrite !map_map. f_equal. unfold l. rewrite !map_map. reflexivity. }
    rewrite Hw in SP |- *.
    pose proof (buffer_big n) as BB. destruct n as [ | n ]; [ discriminate SP | ].
    destruct (Z.to_nat _) as [ | slots' ] eqn:ES; [ lia | ].
    destruct (strip_loop _ _ _ _ n _ _ _ _ _ _ _ _) as [ [ ws rs ] | ] eqn:EL; [ | discriminate SP ].
    rewrite (loop_flat ref _ _ _ _ _ _ _ Href Ha EL) by lia.
    assert (Hlen : (0 < length (map node ps))%nat) by (rewrite map_length; destruct ps; cbn; [ congruence | lia ]).
    assert (NC : count_nan (r0 ++ rs) = 0%nat).
    { destruct (option_map (map fin) known); [ destruct ws; [ discriminate SP | ] | ]; injection SP as <-; exact NT. }
    rewrite NC in SP |- *.
    assert (N1 : Nat.eqb 0 (S slots' * length (map node ps)) = false) by (apply Nat.eqb_neq; lia).
    assert (N2 : Nat.eqb 0 (S n * length (map node ps)) = false) by (apply Nat.eqb_neq; lia).
    rewrite N1. rewrite N2 in SP. exact SP.
  Qed.

  (** The grids and the mean ratio are the plain ones; only the size is recomputed. *)
  Lemma stereo_flat : forall im step margin p d0 d1,
    let P := prepare_at im step margin (start_angle pl pr s off im) (fin (start_alt pl pr s off im)) in
    let g0 := Z.to_nat (fst (pr_grid_size P)) in
    let g1 := Z.to_nat (snd (pr_grid_size P)) in
    pr_start P = node p -> (1 <= g0)%nat -> (2 <= g1)%nat ->
    compute_epipolar_gsd dtm_epsg conv ml mr (node p) (mean_spacing im) (elev_of s) step off = Some (fin d0, fin d1) ->
    0 < d0 -> 0 < d1 ->
    exists L R0 size ratio,
      compute_stereorectification_epipolar_grids dtm_epsg conv ml mr im (elev_of s) step off margin None = Some (L, R0, size, ratio)
      /\ compute_stereorectification_epipolar_grids dtm_epsg conv ml mr im (elev_of s) step off margin (Some (sc, mxr))
         = Some (L, R0, (Rtrunc (INR g0 * step - step / 2 - 2 * step * IZR margin), Rtrunc (INR g1 * step - step / 2 - 2 * step * IZR margin)), ratio).
  Proof.
    intros im step margin p d0 d1 P g0 g1 HP Hg0 Hg1 Hgsd Hd0 Hd1.
    unfold compute_stereorectification_epipolar_grids. rewrite (prepare_plain _ _ _ _ pl pr) by auto.
    cbv zeta. fold P. rewrite HP.
    change [node p] with (map node [p]). rewrite (coloc_surface _ _ _ _ pl pr) by auto. cbn [map].
    rewrite Hgsd. fold g0 g1.
    pose proof (strip_flat d0 None [p] [matched pl pr s p] (mean_spacing im) 0 g0 step Hd0 eq_refl ltac:(discriminate) eq_refl Hg0) as F0.
    pose proof (strip_plain dtm_epsg conv ml mr pl pr s off Hl Hr Ho None [p] [node (matched pl pr s p)] (mean_spacing im) 0 g0 step
                  eq_refl ltac:(discriminate) Hg0) as S0. cbv zeta in S0. cbn [map option_map with_angles computed_nodes] in S0, F0.
    rewrite F0, S0. clear F0 S0. cbn [st_left st_right st_angles st_mean st_nan].
    set (d := step * mean_spacing im). set (a0 := angle_at pl pr s off p).
    set (col := grid_column pl pr s off d g0 p).
    replace (concat ([node p] :: map (map as_left) (lines pl pr s off 0 d (g0 - 1) [(p, a0)]))) with (map node (map fst col)).
    2: { unfold col, grid_column. cbn [concat map app]. rewrite column_lines, map_map. reflexivity. }
    replace (concat ([node (matched pl pr s p)] :: map (map (as_right pl pr s)) (lines pl pr s off 0 d (g0 - 1) [(p, a0)])))
      with (map node (map (fun pa => matched pl pr s (fst pa)) col)).
    2: { unfold col, grid_column. cbn [concat map app]. rewrite column_lines, map_map. reflexivity. }
    replace (concat ([as_angle (p, a0)] :: map (map as_angle) (lines pl pr s off 0 d (g0 - 1) [(p, a0)])))
      with (map fin (map snd col)).
    2: { unfold col, grid_column. cbn [concat map app]. rewrite column_lines, map_map. reflexivity. }
    assert (Hlc : length col = g0).
    { unfold col, grid_column. cbn [length]. rewrite trail_length. lia. }
    assert (Hne : map fst col <> []) by (unfold col, grid_column; discriminate).
    assert (Hko : known_ok (Some (map snd col)) (map fst col) g1) by (split; [ exact Hg1 | rewrite !map_length; reflexivity ]).
    pose proof (strip_flat d1 (Some (map snd col)) (map fst col) (map (fun pa => matched pl pr s (fst pa)) col) (mean_spacing im) 1 g1 step Hd1 eq_refl Hne
                  ltac:(rewrite !map_length; reflexivity) Hko) as F1.
    pose proof (strip_plain dtm_epsg conv ml mr pl pr s off Hl Hr Ho (Some (map snd col)) (map fst col) (map node (map (fun pa => matched pl pr s (fst pa)) col)) (mean_spacing im) 1 g1 step
                  eq_refl Hne Hko) as S1. cbv zeta in S1. cbn [option_map with_angles computed_nodes] in S1, F1.
    rewrite F1, S1. clear F1 S1. cbn [st_left st_right st_angles st_mean st_nan].
    eexists _, _, _, _. split; [ reflexivity | ].
    cbn [length]. rewrite !map_length, lines_length, Hlc. replace (S (g1 - 1)) with g1 by lia. reflexivity.
  Qed.
End Flat.

(** ** The number of nodes *)
Lemma aiter_sum_le : forall {D} (pl pr : pmodel D) s off ref mxr sc axis d n x, 0 < ref -> 1 <= mxr -> 0 <= sc ->
  an_s (aiter (astep pl pr s off ref mxr sc axis d) n x) <= an_s x + INR n.
Proof.
  intros D pl pr s off ref mxr sc axis d n. induction n as [ | n IH ]; intros x H1 H2 H3; [ cbn; lra | ].
  cbn [aiter]. specialize (IH (astep pl pr s off ref mxr sc axis d x) H1 H2 H3). rewrite S_INR.
  assert (an_s (astep pl pr s off ref mxr sc axis d x) <= an_s x + 1).
  { cbn [astep an_s]. pose proof (aratio_ge1 pl s ref mxr sc H1 H2 H3 axis d x).
    assert (1 / aratio pl s ref mxr sc axis d x <= 1).
    { apply Rmult_le_reg_r with (aratio pl s ref mxr sc axis d x); [ lra | ]. unfold Rdiv. rewrite Rmult_assoc, Rinv_l by lra. lra. }
    lra. }
  lra.
Qed.
