(** The whole epipolar grids, point by point. *)
From Coq Require Import Reals ZArith List Bool Lra Lia.
From Verif Require Import Num NumLemmas ProjModel RpcModel RpcDtmModel LocModel TriModel TriBatch RectModel RectSpec RectProofs RectStrip.
Import ListNotations.
Open Scope R_scope.

Section Grid.
  Context {D : Type} (dtm_epsg : D -> Z) (conv : Z -> Z -> list row3 -> list row3)
    (ml mr : geomodel D) (pl pr : pmodel D) (s : surface D) (off : R).
  Hypothesis (Hl : behaves ml pl) (Hr : behaves mr pr) (Ho : off <> 0).
  Local Notation angle := (angle_at pl pr s off).
  Local Notation trl := (trail pl pr s off).
  Local Notation lns := (lines pl pr s off).

  Lemma heads_of_lines : forall {B} (f : vec3 * R -> B) axis d n x st,
    map (@hd_error B) (map (map f) (lns axis d n (x :: st))) = map Some (map f (trl axis d n x)).
  Proof. intros B f axis d n. induction n; intros; cbn; [reflexivity|]. f_equal. apply IHn. Qed.
  Lemma tails_of_lines : forall {B} (f : vec3 * R -> B) axis d n x st,
    map (@tl B) (map (map f) (lns axis d n (x :: st))) = map (map f) (lns axis d n st).
  Proof. intros B f axis d n. induction n; intros; cbn; [reflexivity|]. f_equal. apply IHn. Qed.
  Lemma transpose_lines : forall {B} (f : vec3 * R -> B) (f0 : vec3 * R -> B) axis d n st,
    transpose (length st) (map f0 st :: map (map f) (lns axis d n st)) = map (fun pa => f0 pa :: map f (trl axis d n pa)) st.
  Proof.
    intros B f f0 axis d n. induction st as [|x st IH]; [reflexivity|].
    cbn [length transpose]. cbn [map]. cbn [hd_error tl].
    rewrite heads_of_lines, tails_of_lines. change (Some (f0 x) :: map Some (map f (trl axis d n x))) with (map Some (f0 x :: map f (trl axis d n x))).
    rewrite (seq_opt_map_Some (fun x => x)), map_id, IH. reflexivity.
  Qed.

  Lemma trail_length : forall axis d n pa, length (trl axis d n pa) = n.
  Proof. induction n; intros; cbn; auto. Qed.

  Lemma column_lines : forall {B} (f : vec3 * R -> B) axis d n pa,
    concat (map (map f) (lns axis d n [pa])) = map f (trl axis d n pa).
  Proof. induction n; intros; cbn; [reflexivity|]. f_equal. apply IHn. Qed.

  (** The grid of a start position. *)
  Definition grid_column (d : R) (g0 : nat) (p : vec3) : list (vec3 * R) :=
    (p, angle p) :: trl 0 d (g0 - 1) (p, angle p).
  Definition grid_nodes (d : R) (g0 g1 : nat) (p : vec3) : list (list (vec3 * R)) :=
    map (fun pa => pa :: trl 1 d (g1 - 1) pa) (grid_column d g0 p).

  Definition start_angle (im : left_image) : R :=
    let '(r, c) := transform_index_to_physical_point (li_transform im) 0 0 in angle (V3 r c 0).
  Definition start_alt (im : left_image) : R :=
    let '(r, c) := transform_index_to_physical_point (li_transform im) 0 0 in
    (v2 (epipolar_end pl pr s (- off) (V3 r c 0)) + v2 (epipolar_end pl pr s off (V3 r c 0))) / 2.

  Lemma epi_end_alt : forall dh p h, epipolar_end pl pr s dh (V3 (v0 p) (v1 p) h) = epipolar_end pl pr s dh p.
  Proof. intros; unfold epipolar_end, matched, ground; destruct s; reflexivity. Qed.
  Lemma angle_alt : forall p h, angle (V3 (v0 p) (v1 p) h) = angle p.
  Proof. intros; unfold angle_at; rewrite !epi_end_alt; reflexivity. Qed.

  Lemma coloc_rows_alt : forall (m1 m2 : geomodel D) r c h h' e,
    coloc_rows dtm_epsg conv m1 m2 [R3 r c h] e = coloc_rows dtm_epsg conv m1 m2 [R3 r c h'] e.
  Proof. reflexivity. Qed.

  Lemma prepare_plain : forall im step margin,
    prepare_rectification dtm_epsg conv ml mr im (elev_of s) step off margin
    = Some (prepare_at im step margin (start_angle im) (fin (start_alt im))).
  Proof.
    intros im step margin. unfold prepare_rectification, start_angle, start_alt.
    destruct (transform_index_to_physical_point (li_transform im) 0 0) as [r c].
    assert (E : compute_local_epipolar_line dtm_epsg conv ml mr [R3 (fin r) (fin c) nan] (elev_of s) off
                = compute_local_epipolar_line dtm_epsg conv ml mr (map node [V3 r c 0]) (elev_of s) off) by reflexivity.
    rewrite E, (local_line _ _ _ _ pl pr) by auto. cbn [map]. rewrite epipolar_angle_node.
    unfold fin at 1. cbv iota. f_equal. f_equal.
    unfold p_alt, node; cbn [alt3]. unfold ndiv, nadd, nlift2, fin. destruct (Req_EM_T 2 0); [lra|reflexivity].
  Qed.

  Definition start_of (pr0 : preparation) (p : vec3) : Prop := pr_start pr0 = node p.
  Lemma prepare_start : forall im step margin al alt, exists p, pr_start (prepare_at im step margin al (fin alt)) = node p.
  Proof.
    intros. unfold prepare_at. destruct (transform_index_to_physical_point _ _ _) as [r c].
    destruct (epipolar_box im al) as [[[minx miny] maxx] maxy]. cbn [pr_start].
    eexists (V3 _ _ _). reflexivity.
  Qed.

  Definition global_mean (g0 g1 : nat) (column rest : list R) : num :=
    ndiv (fin (mean rest * (INR g1 * (INR g0 - 1)) + mean column * INR g0)) (fin (INR g1 * INR g0)).

  Lemma stereo_plain : forall im step margin p,
    let P := prepare_at im step margin (start_angle im) (fin (start_alt im)) in
    let g0 := Z.to_nat (fst (pr_grid_size P)) in
    let g1 := Z.to_nat (snd (pr_grid_size P)) in
    let d := step * mean_spacing im in
    let G := grid_nodes d g0 g1 p in
    pr_start P = node p -> (1 <= g0)%nat -> (2 <= g1)%nat ->
    compute_stereorectification_epipolar_grids dtm_epsg conv ml mr im (elev_of s) step off margin None
    = Some (map (map as_left) G, map (map (as_right pl pr s)) G, pr_rectified_size P,
            global_mean g0 g1 (map (fun pa => local_ratio pl pr s off (fst pa)) (grid_column d g0 p))
              (map (fun pa => local_ratio pl pr s off (fst pa)) (concat (lns 1 d (g1 - 1) (grid_column d g0 p))))).
  Proof.
    intros im step margin p P g0 g1 d G Hstart Hg0 Hg1.
    unfold compute_stereorectification_epipolar_grids. rewrite prepare_plain. fold P. cbv zeta.
    rewrite Hstart. change [node p] with (map node [p]) at 1. rewrite (coloc_surface _ _ _ _ pl pr) by auto.
    cbn [map]. cbv beta iota. fold g0 g1.
    pose proof (strip_plain dtm_epsg conv ml mr pl pr s off Hl Hr Ho None [p] [node (matched pl pr s p)] (mean_spacing im) 0 g0 step
                  eq_refl ltac:(discriminate) Hg0) as S0. cbv zeta in S0. cbn [map option_map with_angles computed_nodes] in S0.
    fold d in S0. rewrite S0. clear S0.
    cbn [st_left st_right st_angles st_mean st_nan].
    set (a0 := angle p).
    replace (concat ([node p] :: map (map as_left) (lns 0 d (g0 - 1) [(p, a0)]))) with (map node (map fst (grid_column d g0 p))).
    2: { unfold grid_column. cbn [concat map app]. rewrite column_lines, map_map. reflexivity. }
    replace (concat ([node (matched pl pr s p)] :: map (map (as_right pl pr s)) (lns 0 d (g0 - 1) [(p, a0)])))
      with (map (as_right pl pr s) (grid_column d g0 p)).
    2: { unfold grid_column. cbn [concat map app]. rewrite column_lines. reflexivity. }
    replace (concat ([as_angle (p, a0)] :: map (map as_angle) (lns 0 d (g0 - 1) [(p, a0)])))
      with (map fin (map snd (grid_column d g0 p))).
    2: { unfold grid_column. cbn [concat map app]. rewrite column_lines, map_map. reflexivity. }
    set (col := grid_column d g0 p).
    assert (Hc : combine (map fst col) (map snd col) = col).
    { clear. induction col as [|[x y] l IH]; cbn; congruence. }
    pose proof (strip_plain dtm_epsg conv ml mr pl pr s off Hl Hr Ho (Some (map snd col)) (map fst col) (map (as_right pl pr s) col) (mean_spacing im) 1 g1 step
                  eq_refl) as S1.
    assert (Hne : map fst col <> []) by (unfold col, grid_column; discriminate).
    assert (Hko : known_ok (Some (map snd col)) (map fst col) g1) by (split; [exact Hg1|rewrite !map_length; reflexivity]).
    specialize (S1 Hne Hko). cbv zeta in S1. cbn [option_map with_angles computed_nodes] in S1. rewrite Hc in S1. fold d in S1.
    rewrite S1. clear S1. cbn [st_left st_right st_angles st_mean st_nan].
    rewrite !map_length, map_map. cbn [app].
    apply f_equal. apply f_equal2; [apply f_equal2; [apply f_equal2|reflexivity]|].
    - change (fun x : vec3 * R => node (fst x)) with as_left. rewrite transpose_lines. unfold G, grid_nodes. fold col. rewrite map_map. reflexivity.
    - rewrite transpose_lines. unfold G, grid_nodes. fold col. rewrite map_map. reflexivity.
    - unfold global_mean. cbn [INR]. rewrite !Rminus_0_r. cbn [nmul nadd nlift2 fin].
      apply f_equal2; [|reflexivity]. apply f_equal. apply f_equal2; apply f_equal2; try reflexivity; apply f_equal.
      + unfold computed_nodes; cbn [app]. rewrite <- concat_map, map_map. reflexivity.
      + unfold computed_nodes, col, grid_column. cbn [map]. f_equal. fold a0.
        rewrite <- (map_map fst). f_equal. rewrite column_lines. reflexivity.
  Qed.

  (** Sizes. *)
  Lemma grid_count_ge : forall n step margin, (0 <= n)%Z -> 0 < step -> (0 <= margin)%Z ->
    (2 <= Rtrunc (IZR n / step + 2) + 2 * margin)%Z.
  Proof.
    intros n step margin Hn Hs Hm.
    assert (0 <= IZR n / step). { apply Rle_mult_inv_pos; auto. apply IZR_le; auto. }
    rewrite Rtrunc_nonneg by lra.
    assert (2 <= Rfloor (IZR n / step + 2))%Z by (apply le_floor; cbn; lra). lia.
  Qed.
End Grid.
