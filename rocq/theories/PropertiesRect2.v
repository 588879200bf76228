(** Properties of the stereo-rectification: coverage (C34, C57, C58) and displacement grids (C35). *)
From Coq Require Import Reals ZArith List Bool Lra Lia.
From Verif Require Import Num NumLemmas ProjModel RpcModel DtmModel RpcDtmModel LocModel TriModel TriBatch
  RectModel RectSpec RectProofs RectStrip RectGrid RectBox RectDisp PropertiesRect.
Import ListNotations.
Open Scope R_scope.

Lemma first_of4 : forall {A B C E : Type} (a a' : A) (b b' : B) (c c' : C) (e e' : E), Some (a, b, c, e) = Some (a', b', c', e') -> a = a'.
Proof. intros. injection H. auto. Qed.

Lemma node_inj : forall a b, Some (node a) = Some (node b) -> a = b.
Proof. intros [a0 a1 a2] [b0 b1 b2] H. unfold node in H; cbn in H. injection H as -> -> ->. reflexivity. Qed.

(** ** C34: what the grid covers *)
Lemma min4_in : forall a b c d, min4 a b c d = a \/ min4 a b c d = b \/ min4 a b c d = c \/ min4 a b c d = d.
Proof. intros. unfold min4, Rmin. repeat destruct (Rle_dec _ _); auto. Qed.
Lemma max4_in : forall a b c d, max4 a b c d = a \/ max4 a b c d = b \/ max4 a b c d = c \/ max4 a b c d = d.
Proof. intros. unfold max4, Rmax. repeat destruct (Rle_dec _ _); auto. Qed.

Lemma corner_values : forall im alpha, upright im ->
  let o := transform_index_to_physical_point (li_transform im) 0 0 in
  let X r c := let p := transform_index_to_physical_point (li_transform im) r c in along alpha (fst o) (snd o) (fst p) (snd p) in
  let Y r c := let p := transform_index_to_physical_point (li_transform im) r c in across alpha (fst o) (snd o) (fst p) (snd p) in
  let w := af_a (li_transform im) in let h := af_e (li_transform im) in
  (forall r c, X r c = cos alpha * c * w + sin alpha * r * h) /\ (forall r c, Y r c = - sin alpha * c * w + cos alpha * r * h).
Proof.
  intros im alpha [Hb Hd] o X Y w h. split; intros r c; unfold X, Y, o, transform_index_to_physical_point, affine_apply, along, across;
  cbn [fst snd]; rewrite Hb, Hd; unfold w, h; ring.
Qed.

(** [corner im r c]: an image corner, in index coordinates counted from the centre of the first pixel. *)
Definition corner (im : left_image) (r c : R) : Prop := (r = 0 \/ r = IZR (li_rows im)) /\ (c = 0 \/ c = IZR (li_cols im)).
Lemma box_tight : forall im alpha, upright im ->
  let o := transform_index_to_physical_point (li_transform im) 0 0 in
  let X r c := let p := transform_index_to_physical_point (li_transform im) r c in along alpha (fst o) (snd o) (fst p) (snd p) in
  let Y r c := let p := transform_index_to_physical_point (li_transform im) r c in across alpha (fst o) (snd o) (fst p) (snd p) in
  let b := epipolar_box im alpha in
  (exists r c, corner im r c /\ X r c = box_minx b) /\ (exists r c, corner im r c /\ X r c = box_maxx b) /\
  (exists r c, corner im r c /\ Y r c = box_miny b) /\ (exists r c, corner im r c /\ Y r c = box_maxy b).
Proof.
  intros im alpha Hu o X Y b. destruct (corner_values im alpha Hu) as [HX HY].
  change (forall r c, X r c = cos alpha * c * af_a (li_transform im) + sin alpha * r * af_e (li_transform im)) in HX.
  change (forall r c, Y r c = - sin alpha * c * af_a (li_transform im) + cos alpha * r * af_e (li_transform im)) in HY.
  assert (Q : forall P : R -> R -> Prop, (P 0 (IZR (li_cols im)) \/ P (IZR (li_rows im)) 0 \/ P (IZR (li_rows im)) (IZR (li_cols im)) \/ P 0 0) ->
              exists r c, corner im r c /\ P r c).
  { intros P [H|[H|[H|H]]]; eexists _, _; (split; [|exact H]); split; auto. }
  unfold b, epipolar_box, box_minx, box_maxx, box_miny, box_maxy.
  split; [|split; [|split]]; apply Q; rewrite ?HX, ?HY;
  match goal with |- context [min4 ?a ?b ?c ?d] => destruct (min4_in a b c d) as [E|[E|[E|E]]]; rewrite E
                | |- context [max4 ?a ?b ?c ?d] => destruct (max4_in a b c d) as [E|[E|[E|E]]]; rewrite E end;
  solve [left; ring | right; left; ring | right; right; left; ring | right; right; right; ring].
Qed.

(** Any models.  In the frame of the epipolar direction [alpha] found at the centre of the first
    pixel, [x0, x1] x [y0, y1] is the bounding box of the image; the grid starts [margin] nodes
    before it; the rectified size is its size in pixels; the number of nodes is the least one that
    covers the rectified size. *)
Theorem C34_box_and_number_of_nodes :
  forall (D : Type) (dtm_epsg : D -> Z) conv (ml mr : geomodel D) im e step off margin P,
    af_b (li_transform im) = 0 -> af_d (li_transform im) = 0 ->
    (0 <= li_rows im)%Z -> (0 <= li_cols im)%Z -> 0 < mean_spacing im -> 0 < step ->
    prepare_rectification dtm_epsg conv ml mr im e step off margin = Some P ->
    let at_ r c := transform_index_to_physical_point (li_transform im) r c in
    exists alpha ls le g x0 x1 y0 y1,
      let X p := along alpha (fst (at_ 0 0)) (snd (at_ 0 0)) (fst p) (snd p) in
      let Y p := across alpha (fst (at_ 0 0)) (snd (at_ 0 0)) (fst p) (snd p) in
      compute_local_epipolar_line dtm_epsg conv ml mr [R3 (fin (fst (at_ 0 0))) (fin (snd (at_ 0 0))) nan] e off = Some ([ls], [le], g)
      /\ epipolar_angle le ls = fin alpha
      /\ (forall r c, 0 <= r <= IZR (li_rows im) -> 0 <= c <= IZR (li_cols im) ->
            x0 <= X (at_ r c) <= x1 /\ y0 <= Y (at_ r c) <= y1)
      /\ (forall x, In x [x0; x1] -> exists r c, corner im r c /\ X (at_ r c) = x)
      /\ (forall y, In y [y0; y1] -> exists r c, corner im r c /\ Y (at_ r c) = y)
      /\ (exists start, lon3 (pr_start P) = fin (fst start) /\ lat3 (pr_start P) = fin (snd start) /\
            X start = x0 - IZR margin * step * mean_spacing im /\ Y start = y0 - IZR margin * step * mean_spacing im)
      /\ pr_rectified_size P = (Rfloor ((y1 - y0) / mean_spacing im), Rfloor ((x1 - x0) / mean_spacing im))
      /\ (forall size nodes, In (size, nodes) [(fst (pr_rectified_size P), fst (pr_grid_size P)); (snd (pr_rectified_size P), snd (pr_grid_size P))] ->
            IZR size <= (IZR nodes - 1 - 2 * IZR margin) * step /\ (IZR nodes - 2 - 2 * IZR margin) * step <= IZR size).
Proof.
  intros D dtm_epsg conv ml mr im e step off margin P Hb Hd HR HC Hs Hst HP at_.
  assert (Hu : upright im) by (split; auto).
  unfold prepare_rectification in HP.
  assert (EO : transform_index_to_physical_point (li_transform im) 0 0 = (fst (at_ 0 0), snd (at_ 0 0))) by (unfold at_; destruct (transform_index_to_physical_point _ _ _); reflexivity).
  rewrite EO in HP.
  destruct (compute_local_epipolar_line _ _ _ _ _ _ _) as [[[ls le] g]|] eqn:EL; [|discriminate].
  destruct ls as [|ls [|]]; try discriminate. destruct le as [|le [|]]; try discriminate.
  destruct (epipolar_angle le ls) as [alpha|] eqn:EA; [|discriminate]. injection HP as <-.
  set (b := epipolar_box im alpha).
  exists alpha, ls, le, g, (box_minx b), (box_maxx b), (box_miny b), (box_maxy b). intros X Y.
  split; [reflexivity|]. split; [exact EA|].
  destruct (box_tight im alpha Hu) as (T1 & T2 & T3 & T4). cbv zeta in T1, T2, T3, T4. fold b in T1, T2, T3, T4.
  destruct (box_ordered im alpha HR HC) as [O1 O2]. cbv zeta in O1, O2. fold b in O1, O2.
  split. { intros r c Hr Hc. exact (box_contains im alpha r c Hu Hr Hc). }
  split. { intros x [<- | [<- | []]]; assumption. }
  split. { intros y [<- | [<- | []]]; assumption. }
  split. { rewrite start_eq. cbn [lon3 lat3]. eexists (_, _). cbn [fst snd]. split; [reflexivity|]. split; [reflexivity|].
    apply (frame_coords alpha). }
  assert (SZ : forall alt, pr_rectified_size (prepare_at im step margin alpha alt)
               = (Rtrunc ((box_maxy b - box_miny b) / mean_spacing im), Rtrunc ((box_maxx b - box_minx b) / mean_spacing im))).
  { intro alt. unfold prepare_at, b. destruct (transform_index_to_physical_point _ _ _).
    destruct (epipolar_box im alpha) as [[[? ?] ?] ?]. reflexivity. }
  split.
  { rewrite SZ. f_equal; apply Rtrunc_nonneg; apply Rmult_le_pos; try lra; left; apply Rinv_0_lt_compat; lra. }
  intros size nodes Hin. rewrite SZ, grid_size_eq in Hin. fold b in Hin. cbn [fst snd] in Hin.
  destruct Hin as [E|[E|[]]]; injection E as <- <-.
  - exact (nodes_enough (box_maxy b - box_miny b) (mean_spacing im) step margin ltac:(lra) Hs Hst).
  - exact (nodes_enough (box_maxx b - box_minx b) (mean_spacing im) step margin ltac:(lra) Hs Hst).
Qed.
Example C34_box_case : exists P, prepare_rectification (fun _ => 4326%Z) (fun _ _ g => g) (plain_model (cam_left 0)) (plain_model cam_right)
  tiny (Dtm tt) 2 50 1 = Some P.
Proof. eexists. apply (prepare_plain _ _ _ _ (cam_left 0) cam_right (Terrain tt)); apply plain_behaves. Qed.

(** A cell of a regular axis. *)
Lemma find_cell : forall (g : nat) d x, 0 < d -> (2 <= g)%nat -> 0 <= x <= (INR g - 1) * d ->
  exists j, (S j < g)%nat /\ INR j * d <= x <= (INR j + 1) * d.
Proof.
  intros g d x Hd Hg Hx.
  assert (B : forall n, (n + 2 <= g)%nat -> x <= (INR n + 1) * d -> exists j, (S j < g)%nat /\ INR j * d <= x <= (INR j + 1) * d).
  { induction n as [|n IH]; intros Hn H.
    - exists 0%nat. split; [lia|]. cbn in *. lra.
    - destruct (Rle_dec (INR (S n) * d) x) as [L|L].
      + exists (S n). split; [lia|]. lra.
      + apply IH; [lia|]. rewrite S_INR in L. lra. }
  apply (B (g - 2)%nat); [lia|]. rewrite minus_INR by lia. cbn. lra.
Qed.
Lemma frame_move : forall alpha row0 col0 x y row col,
  along alpha (fst (from_frame alpha row0 col0 x y)) (snd (from_frame alpha row0 col0 x y)) row col = along alpha row0 col0 row col - x /\
  across alpha (fst (from_frame alpha row0 col0 x y)) (snd (from_frame alpha row0 col0 x y)) row col = across alpha row0 col0 row col - y.
Proof. intros. apply frame_shift. Qed.

Lemma constant_angle : forall (D : Type) (pl pr : pmodel D) s off alpha,
  (forall p b, epipolar_direction pl pr s off p b -> b = alpha) -> forall p, angle_at pl pr s off p = alpha.
Proof. intros D pl pr s off alpha H p. apply (H p). apply angle_epi. Qed.

(** With an integer step and one epipolar direction, every pixel centre lies in a cell of the grid. *)
Theorem C34_grid_covers_the_image :
  forall (D : Type) (dtm_epsg : D -> Z) conv ml mr (pl pr : pmodel D) s off im k margin alpha L rights size ratio,
    behaves ml pl -> behaves mr pr -> off <> 0 ->
    af_b (li_transform im) = 0 -> af_d (li_transform im) = 0 ->
    (0 <= li_rows im)%Z -> (0 <= li_cols im)%Z -> 0 < mean_spacing im -> (0 < k)%Z -> (0 <= margin)%Z ->
    (forall p b, epipolar_direction pl pr s off p b -> b = alpha) ->
    compute_stereorectification_epipolar_grids dtm_epsg conv ml mr im (elev_of s) (IZR k) off margin None
      = Some (map (map node) L, rights, size, ratio) ->
    forall r c, 0 <= r <= IZR (li_rows im) -> 0 <= c <= IZR (li_cols im) ->
      let p := transform_index_to_physical_point (li_transform im) r c in
      let d := IZR k * mean_spacing im in
      exists i j q q', entry L i j = Some q /\ entry L (S i) (S j) = Some q'
        /\ 0 <= along alpha (v0 q) (v1 q) (fst p) (snd p) <= d /\ 0 <= across alpha (v0 q) (v1 q) (fst p) (snd p) <= d.
Proof.
  intros D dtm_epsg conv ml mr pl pr s off im k margin alpha L rights size ratio Hl Hr Ho Hb Hd HR HC Hs Hk Hm Hc H r c Hrr Hcc p d.
  assert (Hu : upright im) by (split; auto).
  assert (Hst : 0 < IZR k) by (apply IZR_lt; auto).
  pose proof (constant_angle _ pl pr s off alpha Hc) as HA.
  assert (SA : start_angle pl pr s off im = alpha).
  { unfold start_angle. destruct (transform_index_to_physical_point _ _ _). apply HA. }
  set (P := prepare_at im (IZR k) margin (start_angle pl pr s off im) (fin (start_alt pl pr s off im))).
  pose proof (start_eq im (IZR k) margin (start_angle pl pr s off im) (fin (start_alt pl pr s off im))) as ES. fold P in ES. rewrite SA in ES. cbv zeta in ES.
  set (b := epipolar_box im alpha) in *. set (o := transform_index_to_physical_point (li_transform im) 0 0) in *.
  set (mg := IZR margin * IZR k * mean_spacing im) in *.
  set (st := from_frame alpha (fst o) (snd o) (box_minx b - mg) (box_miny b - mg)) in *.
  set (p0 := V3 (fst st) (snd st) (start_alt pl pr s off im)).
  assert (ES' : pr_start P = node p0) by exact ES.
  destruct (grid_big im (IZR k) margin (start_angle pl pr s off im) (fin (start_alt pl pr s off im)) HR HC Hs Hst Hm) as [G0 G1]. fold P in G0, G1.
  pose proof (stereo_plain dtm_epsg conv ml mr pl pr s off Hl Hr Ho im (IZR k) margin p0) as E. cbv zeta in E. fold P in E.
  specialize (E ES' ltac:(lia) G1). rewrite E in H. pose proof (first_of4 _ _ _ _ _ _ _ _ H) as EL. clear H.
  set (g0 := Z.to_nat (fst (pr_grid_size P))) in *. set (g1 := Z.to_nat (snd (pr_grid_size P))) in *. fold d in EL.
  assert (EN : forall i j, (i < g0)%nat -> (j < g1)%nat -> entry L i j = Some (at_frame alpha p0 (INR j * d) (INR i * d))).
  { intros i j Hi Hj. pose proof (grid_regular pl pr s off alpha HA d g0 g1 p0 i j Hi Hj) as GR.
    apply (f_equal (fun m => entry m i j)) in EL. rewrite !map_entry, GR in EL. cbn [option_map as_left fst] in EL.
    destruct (entry L i j) as [[a0 a1 a2]|]; [|discriminate]. cbn [option_map] in EL. unfold as_left in EL; cbn [fst] in EL.
    destruct (at_frame alpha p0 (INR j * d) (INR i * d)) as [c0 c1 c2]. unfold node in EL; cbn in EL. injection EL as -> -> ->. reflexivity. }
  destruct (box_contains im alpha r c Hu Hrr Hcc) as [BX BY]. cbv zeta in BX, BY. fold b o p in BX, BY.
  destruct (box_ordered im alpha HR HC) as [O1 O2]. cbv zeta in O1, O2. fold b in O1, O2.
  destruct (frame_move alpha (fst o) (snd o) (box_minx b - mg) (box_miny b - mg) (fst p) (snd p)) as [MX MY]. fold st in MX, MY.
  assert (Hd0 : 0 < d) by (unfold d; nra).
  assert (MG : 0 <= mg) by (unfold mg; assert (0 <= IZR margin) by (apply IZR_le; auto); apply Rmult_le_pos; [apply Rmult_le_pos; lra|lra]).
  pose proof (grid_size_eq im (IZR k) margin alpha (fin (start_alt pl pr s off im))) as GS. cbv zeta in GS. fold b in GS.
  assert (SZ : forall ext g, 0 <= ext -> g = Z.to_nat (nodes_of ext (mean_spacing im) (IZR k) margin) -> (2 <= g)%nat ->
               ext + 2 * mg <= (INR g - 1) * d).
  { intros ext g He -> Hg. rewrite INR_IZR_INZ, Z2Nat.id by lia.
    pose proof (nodes_cover_int ext (mean_spacing im) k margin He Hs Hk). unfold mg, d. nra. }
  assert (E0 : g0 = Z.to_nat (nodes_of (box_maxy b - box_miny b) (mean_spacing im) (IZR k) margin)) by (unfold g0, P; rewrite SA, GS; reflexivity).
  assert (E1 : g1 = Z.to_nat (nodes_of (box_maxx b - box_minx b) (mean_spacing im) (IZR k) margin)) by (unfold g1, P; rewrite SA, GS; reflexivity).
  pose proof (SZ (box_maxy b - box_miny b) g0 ltac:(lra) E0 G0) as S0. pose proof (SZ (box_maxx b - box_minx b) g1 ltac:(lra) E1 G1) as S1.
  destruct (find_cell g1 d (along alpha (fst st) (snd st) (fst p) (snd p)) Hd0 G1) as (j & Hj & Bj); [lra|].
  destruct (find_cell g0 d (across alpha (fst st) (snd st) (fst p) (snd p)) Hd0 G0) as (i & Hi & Bi); [lra|].
  exists i, j. eexists _, _. split; [apply EN; lia|]. split; [apply EN; lia|].
  unfold at_frame; cbn [v0 v1 p0].
  destruct (frame_move alpha (fst st) (snd st) (INR j * d) (INR i * d) (fst p) (snd p)) as [NX NY]. rewrite NX, NY. lra.
Qed.
Lemma cam_direction : forall slope s off, 0 < off -> forall p b, epipolar_direction (cam_left slope) cam_right s off p b -> b = 0.
Proof.
  intros slope s off Ho p b [HD HR].
  assert (A0 : angle_at (cam_left slope) cam_right s off p = 0) by (apply cam_angle; auto).
  destruct (cam_end slope s off p) as [A B]. destruct (cam_end slope s (- off) p) as [A' B'].
  destruct HD as [H1 H2]. rewrite B, B' in H1. rewrite A, A' in H2. 
  set (D0 := image_distance (epipolar_end (cam_left slope) cam_right s (- off) p) (epipolar_end (cam_left slope) cam_right s off p)) in *.
  assert (DE : D0 = 2 * off).
  { unfold D0, image_distance. rewrite A, A', B, B'.
    replace ((v1 p + off - (v1 p + - off)) * (v1 p + off - (v1 p + - off)) + (v0 p - v0 p) * (v0 p - v0 p)) with ((2 * off)²) by (unfold Rsqr; ring).
    apply sqrt_Rsqr. lra. }
  rewrite DE in *. pose proof PI_RGT_0. apply angle_unique; try lra.
  - rewrite cos_0. apply Rmult_eq_reg_l with (2 * off); lra.
  - rewrite sin_0. apply Rmult_eq_reg_l with (2 * off); lra.
Qed.
Example C34_cover_case :
  exists L rights size ratio, compute_stereorectification_epipolar_grids (fun _ => 4326%Z) (fun _ _ g => g) (plain_model (cam_left 2)) (plain_model cam_right)
    tiny (Dtm tt) (IZR 2) 50 1 None = Some (map (map node) L, rights, size, ratio)
  /\ forall p b, epipolar_direction (cam_left 2) cam_right (Terrain tt) 50 p b -> b = 0.
Proof.
  destruct (C31_whole_grid unit (fun _ => 4326%Z) (fun _ _ g => g) _ _ _ _ (Terrain tt) 50 tiny 2 1
              (plain_behaves (cam_left 2)) (plain_behaves cam_right)) as (P & p & L & size & ratio & _ & _ & E & _);
    try lra; try (cbn; lia). { rewrite tiny_spacing; lra. }
  eexists _, _, _, _. split; [exact E|]. apply cam_direction. lra.
Qed.

(** Steps that are not integers: the last pixel centres may be outside of the grid. *)
Definition flat9 : left_image := LeftImage (mkAffine 1 0 0 0 9 0) 1 9.
Lemma flat9_spacing : mean_spacing flat9 = 5.
Proof. unfold mean_spacing, flat9; cbn. rewrite !Rabs_pos_eq by lra. lra. Qed.
Lemma cam_start_angle : forall slope s off im, 0 < off -> start_angle (cam_left slope) cam_right s off im = 0.
Proof. intros. unfold start_angle. destruct (transform_index_to_physical_point _ _ _). apply cam_angle; auto. Qed.
Lemma trunc_lit : forall x z, IZR z <= x < IZR z + 1 -> (0 <= z)%Z -> Rtrunc x = z.
Proof.
  intros x z Hx Hz. assert (0 <= IZR z) by (apply IZR_le; auto). rewrite Rtrunc_nonneg by lra. apply Rfloor_unique; auto.
Qed.
Lemma cam_regular : forall slope s off im step margin P p0 L,
  0 < off -> P = prepare_at im step margin 0 (fin (start_alt (cam_left slope) cam_right s off im)) ->
  pr_start P = node p0 -> (1 <= Z.to_nat (fst (pr_grid_size P)))%nat -> (2 <= Z.to_nat (snd (pr_grid_size P)))%nat ->
  forall rights size ratio,
  compute_stereorectification_epipolar_grids (fun _ => 4326%Z) (fun _ _ g => g) (plain_model (cam_left slope)) (plain_model cam_right)
    im (elev_of s) step off margin None = Some (map (map node) L, rights, size, ratio) ->
  forall i j q, entry L i j = Some q ->
    (i < Z.to_nat (fst (pr_grid_size P)))%nat /\ (j < Z.to_nat (snd (pr_grid_size P)))%nat /\
    v1 q = v1 p0 + INR j * (step * mean_spacing im) /\ v0 q = v0 p0 + INR i * (step * mean_spacing im).
Proof.
  intros slope s off im step margin P p0 L Ho HP Hp0 G0 G1 rights size ratio H i j q Hq.
  pose proof (stereo_plain (fun _ => 4326%Z) (fun _ _ g => g) _ _ _ _ s off (plain_behaves (cam_left slope)) (plain_behaves cam_right) ltac:(lra) im step margin p0) as E.
  cbv zeta in E. rewrite cam_start_angle in E by auto. rewrite <- HP in E. specialize (E Hp0 G0 G1). rewrite E in H. pose proof (first_of4 _ _ _ _ _ _ _ _ H) as EL. clear H.
  assert (LT : (i < Z.to_nat (fst (pr_grid_size P)))%nat /\ (j < Z.to_nat (snd (pr_grid_size P)))%nat).
  { assert (Q : entry (map (map node) L) i j <> None) by (rewrite map_entry, Hq; discriminate).
    rewrite <- EL, map_entry in Q. unfold entry, grid_nodes in Q. rewrite nth_error_map in Q.
    destruct (nth_error (grid_column _ _ _ _ _ _ _) i) as [pa|] eqn:Ei; [|cbn in Q; congruence]. cbn [option_map] in Q.
    destruct (nth_error (pa :: trail _ _ _ _ _ _ _ pa) j) as [x|] eqn:Ej; [|cbn in Q; congruence].
    assert (I1 : (i < length (grid_column (cam_left slope) cam_right s off (step * mean_spacing im) (Z.to_nat (fst (pr_grid_size P))) p0))%nat)
      by (apply nth_error_Some; rewrite Ei; discriminate).
    rewrite column_length in I1 by auto.
    assert (I2 : (j < length (pa :: trail (cam_left slope) cam_right s off 1 (step * mean_spacing im) (Z.to_nat (snd (pr_grid_size P)) - 1) pa))%nat)
      by (apply nth_error_Some; rewrite Ej; discriminate).
    cbn [length] in I2. rewrite trail_length in I2. lia. }
  destruct LT as [Li Lj]. split; [exact Li|]. split; [exact Lj|].
  pose proof (grid_regular (cam_left slope) cam_right s off 0 (fun p => cam_angle slope s off p Ho) (step * mean_spacing im) _ _ p0 i j Li Lj) as GR.
  apply (f_equal (fun m => entry m i j)) in EL. rewrite !map_entry, GR, Hq in EL. cbn [option_map as_left fst] in EL. unfold as_left in EL; cbn [fst] in EL.
  unfold at_frame, from_frame in EL; cbn [fst snd] in EL. rewrite cos_0, sin_0 in EL. destruct q as [q0 q1 q2]. unfold node in EL; cbn in EL. injection EL as E0 E1 E2.
  cbn [v0 v1]. split; [rewrite <- E1 | rewrite <- E0]; ring.
Qed.

Theorem C34_fractional_step_refuted :
  exists im (s : surface unit) L rights size ratio r c,
    (0 <= r <= li_rows im - 1)%Z /\ (0 <= c <= li_cols im - 1)%Z
    /\ af_b (li_transform im) = 0 /\ af_d (li_transform im) = 0
    /\ (forall p b, epipolar_direction (cam_left 0) cam_right s 50 p b -> b = 0)
    /\ compute_stereorectification_epipolar_grids (fun _ => 4326%Z) (fun _ _ g => g) (plain_model (cam_left 0)) (plain_model cam_right)
         im (elev_of s) (1 / 10) 50 0 None = Some (map (map node) L, rights, size, ratio)
    /\ forall i j q, entry L i j = Some q ->
         let p := transform_index_to_physical_point (li_transform im) (IZR r) (IZR c) in 0 < along 0 (v0 q) (v1 q) (fst p) (snd p).
Proof.
  destruct (C31_whole_grid unit (fun _ => 4326%Z) (fun _ _ g => g) _ _ _ _ (Plane 0) 50 flat9 (1 / 10) 0
              (plain_behaves (cam_left 0)) (plain_behaves cam_right)) as (P & p & L & size & ratio & EP & Hp & E & _);
    try lra; try (cbn; lia). { rewrite flat9_spacing; lra. }
  exists flat9, (Plane 0), L. eexists _, _, _. exists 0%Z, 8%Z.
  split; [cbn; lia|]. split; [cbn; lia|]. split; [reflexivity|]. split; [reflexivity|].
  split; [apply cam_direction; lra|]. split; [exact E|].
  rewrite (prepare_plain _ _ _ _ (cam_left 0) cam_right) in EP by apply plain_behaves. injection EP as EP. rewrite cam_start_angle in EP by lra.
  assert (BX : epipolar_box flat9 0 = (0, 0, 9, 9)).
  { unfold epipolar_box, flat9; cbn [li_transform li_rows li_cols af_a af_e]. rewrite cos_0, sin_0.
    unfold min4, max4. replace (1 * 9 * 1) with 9 by ring. replace (0 * 1 * 9) with 0 by ring. replace (- 0 * 9 * 1) with 0 by ring. replace (1 * 1 * 9) with 9 by ring.
    replace (9 + 0) with 9 by ring. replace (0 + 9) with 9 by ring. minmax. reflexivity. }
  assert (SZ : pr_grid_size P = (12, 12)%Z).
  { rewrite <- EP, grid_size_eq. cbv zeta. rewrite BX, flat9_spacing. cbn [box_maxy box_miny box_maxx box_minx]. unfold nodes_of.
    rewrite (trunc_lit ((9 - 0) / 5) 1) by (lia || lra). rewrite (trunc_lit (1 / (1 / 10) + 2) 12) by (lia || lra). reflexivity. }
  intros i j q Hq. cbv zeta.
  destruct (cam_regular 0 (Plane 0) 50 flat9 (1 / 10) 0 P p L ltac:(lra) (eq_sym EP) Hp ltac:(rewrite SZ; cbn; lia) ltac:(rewrite SZ; cbn; lia) _ _ _ E i j q Hq)
    as (_ & Hj & Q1 & Q0).
  rewrite SZ in Hj. cbn [snd] in Hj. replace (Z.to_nat 12) with 12%nat in Hj by reflexivity.
  assert (J : INR j <= 11) by (replace 11 with (INR 11) by (rewrite INR_IZR_INZ; reflexivity); apply le_INR; lia).
  assert (PV : v1 p = 1 / 2).
  { rewrite <- EP, start_eq in Hp. cbv zeta in Hp. rewrite BX in Hp. cbn [box_minx box_miny] in Hp. unfold from_frame in Hp; cbn [fst snd] in Hp.
    rewrite cos_0, sin_0 in Hp. unfold node in Hp. injection Hp as _ Hp _. rewrite <- Hp, flat9_spacing.
    unfold transform_index_to_physical_point, affine_apply, flat9; cbn. field. }
  unfold along. rewrite cos_0, sin_0, Q1, PV, flat9_spacing.
  unfold transform_index_to_physical_point, affine_apply, flat9; cbn [fst snd li_transform af_a af_b af_c af_d af_e af_f]. lra.
Qed.

(** A rotated geotransform: the rotation terms are not taken into account. *)
Definition rot9 : left_image := LeftImage (mkAffine 1 5 0 0 1 0) 3 1.
Lemma rot9_spacing : mean_spacing rot9 = 1.
Proof. unfold mean_spacing, rot9; cbn. rewrite !Rabs_pos_eq by lra. lra. Qed.
Theorem C34_rotated_image_refuted :
  exists im (s : surface unit) L rights size ratio r c,
    (0 <= r <= li_rows im - 1)%Z /\ (0 <= c <= li_cols im - 1)%Z
    /\ (forall p b, epipolar_direction (cam_left 0) cam_right s 50 p b -> b = 0)
    /\ compute_stereorectification_epipolar_grids (fun _ => 4326%Z) (fun _ _ g => g) (plain_model (cam_left 0)) (plain_model cam_right)
         im (elev_of s) (IZR 1) 50 0 None = Some (map (map node) L, rights, size, ratio)
    /\ forall i j q, entry L i j = Some q ->
         let p := transform_index_to_physical_point (li_transform im) (IZR r) (IZR c) in 0 < along 0 (v0 q) (v1 q) (fst p) (snd p).
Proof.
  destruct (C31_whole_grid unit (fun _ => 4326%Z) (fun _ _ g => g) _ _ _ _ (Plane 0) 50 rot9 1 0
              (plain_behaves (cam_left 0)) (plain_behaves cam_right)) as (P & p & L & size & ratio & EP & Hp & E & _);
    try lra; try (cbn; lia). { rewrite rot9_spacing; lra. }
  exists rot9, (Plane 0), L. eexists _, _, _. exists 2%Z, 0%Z.
  split; [cbn; lia|]. split; [cbn; lia|].
  split; [apply cam_direction; lra|]. split; [exact E|].
  rewrite (prepare_plain _ _ _ _ (cam_left 0) cam_right) in EP by apply plain_behaves. injection EP as EP. rewrite cam_start_angle in EP by lra.
  assert (BX : epipolar_box rot9 0 = (0, 0, 1, 3)).
  { unfold epipolar_box, rot9; cbn [li_transform li_rows li_cols af_a af_e]. rewrite cos_0, sin_0.
    unfold min4, max4. replace (1 * 1 * 1) with 1 by ring. replace (0 * 3 * 1) with 0 by ring. replace (- 0 * 1 * 1) with 0 by ring. replace (1 * 3 * 1) with 3 by ring.
    replace (1 + 0) with 1 by ring. replace (0 + 3) with 3 by ring. minmax. reflexivity. }
  assert (SZ : pr_grid_size P = (5, 3)%Z).
  { rewrite <- EP, grid_size_eq. cbv zeta. rewrite BX, rot9_spacing. cbn [box_maxy box_miny box_maxx box_minx]. unfold nodes_of.
    rewrite (trunc_lit ((3 - 0) / 1) 3), (trunc_lit ((1 - 0) / 1) 1) by (lia || lra).
    rewrite (trunc_lit (3 / 1 + 2) 5), (trunc_lit (1 / 1 + 2) 3) by (lia || lra). reflexivity. }
  intros i j q Hq. cbv zeta.
  destruct (cam_regular 0 (Plane 0) 50 rot9 1 0 P p L ltac:(lra) (eq_sym EP) Hp ltac:(rewrite SZ; cbn; lia) ltac:(rewrite SZ; cbn; lia) _ _ _ E i j q Hq)
    as (_ & Hj & Q1 & Q0).
  rewrite SZ in Hj. cbn [snd] in Hj. replace (Z.to_nat 3) with 3%nat in Hj by reflexivity.
  assert (J : INR j <= 2) by (replace 2 with (INR 2) by (rewrite INR_IZR_INZ; reflexivity); apply le_INR; lia).
  assert (PV : v1 p = 3).
  { rewrite <- EP, start_eq in Hp. cbv zeta in Hp. rewrite BX in Hp. cbn [box_minx box_miny] in Hp. unfold from_frame in Hp; cbn [fst snd] in Hp.
    rewrite cos_0, sin_0 in Hp. unfold node in Hp. injection Hp as _ Hp _. rewrite <- Hp, rot9_spacing.
    unfold transform_index_to_physical_point, affine_apply, rot9; cbn. field. }
  unfold along. rewrite cos_0, sin_0, Q1, PV, rot9_spacing.
  unfold transform_index_to_physical_point, affine_apply, rot9; cbn [fst snd li_transform af_a af_b af_c af_d af_e af_f]. lra.
Qed.

(** ** C58: the nodes lie in the footprint *)
(** The footprint, in the epipolar frame: from the start to the opposite corner.  It contains the
    grid when the pixel size is at most 1. *)
Definition in_footprint (alpha : R) (P : preparation) (q : vec3) : Prop :=
  exists ul ll lr ur, pr_footprint P = map node [ul; ll; lr; ur]
    /\ 0 <= along alpha (v0 ul) (v1 ul) (v0 q) (v1 q) <= along alpha (v0 ul) (v1 ul) (v0 lr) (v1 lr)
    /\ 0 <= across alpha (v0 ul) (v1 ul) (v0 q) (v1 q) <= across alpha (v0 ul) (v1 ul) (v0 lr) (v1 lr).
Lemma footprint_eq : forall im step margin alpha alt,
  let b := epipolar_box im alpha in
  let o := transform_index_to_physical_point (li_transform im) 0 0 in
  let m := IZR margin * step * mean_spacing im in
  let at_ x y := let rc := from_frame alpha (fst o) (snd o) x y in V3 (fst rc) (snd rc) alt in
  pr_footprint (prepare_at im step margin alpha (fin alt))
  = map node [at_ (box_minx b - m) (box_miny b - m); at_ (box_maxx b + m + step) (box_miny b - m);
              at_ (box_maxx b + m + step) (box_maxy b + m + step); at_ (box_minx b - m) (box_maxy b + m + step)].
Proof.
  intros. unfold prepare_at, b, at_, o. destruct (transform_index_to_physical_point _ _ _) as [r c].
  destruct (epipolar_box im alpha) as [[[minx miny] maxx] maxy]. cbn [pr_footprint fst snd box_minx box_miny box_maxx box_maxy]. unfold from_frame, m; cbn [fst snd].
  unfold node; cbn [map v0 v1 v2]. unfold fin. repeat (f_equal; try ring).
Qed.

Theorem C58_nodes_in_the_footprint_partial :
  forall (D : Type) (dtm_epsg : D -> Z) conv ml mr (pl pr : pmodel D) s off im step margin alpha P L rights size ratio,
    behaves ml pl -> behaves mr pr -> off <> 0 ->
    (0 <= li_rows im)%Z -> (0 <= li_cols im)%Z -> 0 < mean_spacing im <= 1 -> 0 < step -> (0 <= margin)%Z ->
    (forall p b, epipolar_direction pl pr s off p b -> b = alpha) ->
    prepare_rectification dtm_epsg conv ml mr im (elev_of s) step off margin = Some P ->
    compute_stereorectification_epipolar_grids dtm_epsg conv ml mr im (elev_of s) step off margin None
      = Some (map (map node) L, rights, size, ratio) ->
    forall i j q, entry L i j = Some q -> in_footprint alpha P q.
Proof.
  intros D dtm_epsg conv ml mr pl pr s off im step margin alpha P L rights size ratio Hl Hr Ho HR HC [Hs Hs1] Hst Hm Hc HP H i j q Hq.
  pose proof (constant_angle _ pl pr s off alpha Hc) as HA.
  assert (SA : start_angle pl pr s off im = alpha).
  { unfold start_angle. destruct (transform_index_to_physical_point _ _ _). apply HA. }
  rewrite (prepare_plain _ _ _ _ pl pr) in HP by auto. rewrite SA in HP. injection HP as <-.
  pose proof (start_eq im step margin alpha (fin (start_alt pl pr s off im))) as ES. cbv zeta in ES.
  pose proof (footprint_eq im step margin alpha (start_alt pl pr s off im)) as EF. cbv zeta in EF.
  destruct (grid_big im step margin alpha (fin (start_alt pl pr s off im)) HR HC Hs Hst Hm) as [G0 G1].
  pose proof (grid_size_eq im step margin alpha (fin (start_alt pl pr s off im))) as GS. cbv zeta in GS.
  set (P := prepare_at im step margin alpha (fin (start_alt pl pr s off im))) in *.
  set (b := epipolar_box im alpha) in *. set (o := transform_index_to_physical_point (li_transform im) 0 0) in *.
  set (mg := IZR margin * step * mean_spacing im) in *.
  set (st := from_frame alpha (fst o) (snd o) (box_minx b - mg) (box_miny b - mg)) in *.
  set (p0 := V3 (fst st) (snd st) (start_alt pl pr s off im)) in *.
  assert (ES' : pr_start P = node p0) by exact ES.
  pose proof (stereo_plain dtm_epsg conv ml mr pl pr s off Hl Hr Ho im step margin p0) as E. cbv zeta in E. rewrite SA in E. fold P in E.
  specialize (E ES' ltac:(lia) G1). rewrite E in H. pose proof (first_of4 _ _ _ _ _ _ _ _ H) as EL. clear H.
  set (g0 := Z.to_nat (fst (pr_grid_size P))) in *. set (g1 := Z.to_nat (snd (pr_grid_size P))) in *. set (d := step * mean_spacing im) in *.
  assert (LT : (i < g0)%nat /\ (j < g1)%nat).
  { assert (Q : entry (map (map node) L) i j <> None) by (rewrite map_entry, Hq; discriminate).
    rewrite <- EL, map_entry in Q. unfold entry, grid_nodes in Q. rewrite nth_error_map in Q.
    destruct (nth_error (grid_column _ _ _ _ _ _ _) i) as [pa|] eqn:Ei; [|cbn in Q; congruence]. cbn [option_map] in Q.
    destruct (nth_error (pa :: trail _ _ _ _ _ _ _ pa) j) as [x|] eqn:Ej; [|cbn in Q; congruence].
    assert (I1 : (i < length (grid_column pl pr s off d g0 p0))%nat) by (apply nth_error_Some; rewrite Ei; discriminate).
    rewrite column_length in I1 by lia.
    assert (I2 : (j < length (pa :: trail pl pr s off 1 d (g1 - 1) pa))%nat) by (apply nth_error_Some; rewrite Ej; discriminate).
    cbn [length] in I2. rewrite trail_length in I2. lia. }
  destruct LT as [Li Lj].
  pose proof (grid_regular pl pr s off alpha HA d g0 g1 p0 i j Li Lj) as GR.
  apply (f_equal (fun m => entry m i j)) in EL. rewrite !map_entry, GR, Hq in EL. cbn [option_map as_left fst] in EL. unfold as_left in EL; cbn [fst] in EL.
  assert (EQ : v0 q = v0 (at_frame alpha p0 (INR j * d) (INR i * d)) /\ v1 q = v1 (at_frame alpha p0 (INR j * d) (INR i * d))).
  { apply node_inj in EL. rewrite EL. auto. }
  destruct EQ as [Q0 Q1].
  eexists _, _, _, _. split; [exact EF|]. cbn [v0 v1]. fold st. rewrite Q0, Q1. unfold at_frame; cbn [v0 v1 p0].
  destruct (frame_coords alpha (fst st) (snd st) (INR j * d) (INR i * d)) as [C1 C2]. rewrite C1, C2.
  set (fr := from_frame alpha (fst o) (snd o) (box_maxx b + mg + step) (box_maxy b + mg + step)).
  destruct (frame_move alpha (fst o) (snd o) (box_minx b - mg) (box_miny b - mg) (fst fr) (snd fr)) as [MX MY]. fold st in MX, MY. rewrite MX, MY.
  destruct (frame_coords alpha (fst o) (snd o) (box_maxx b + mg + step) (box_maxy b + mg + step)) as [C3 C4]. fold fr in C3, C4. rewrite C3, C4.
  destruct (box_ordered im alpha HR HC) as [O1 O2]. cbv zeta in O1, O2. fold b in O1, O2.
  assert (Hd0 : 0 < d) by (unfold d; nra).
  assert (SZ : forall ext g n, 0 <= ext -> g = Z.to_nat (nodes_of ext (mean_spacing im) step margin) -> (2 <= g)%nat -> (n < g)%nat ->
               0 <= INR n * d <= ext + 2 * mg + step).
  { intros ext g n He Eg Hg Hn. split; [apply Rmult_le_pos; [apply pos_INR|lra]|].
    assert (N1 : INR n <= INR g - 1) by (assert (INR (S n) <= INR g) by (apply le_INR; lia); rewrite S_INR in *; lra).
    assert (EI : INR g = IZR (nodes_of ext (mean_spacing im) step margin)) by (rewrite Eg, INR_IZR_INZ, Z2Nat.id by lia; reflexivity).
    destruct (nodes_enough ext (mean_spacing im) step margin He Hs Hst) as [_ NE]. cbv zeta in NE. rewrite <- EI in NE.
    destruct (trunc_div ext (mean_spacing im) He Hs) as (_ & TD & _).
    assert ((INR g - 2 - 2 * IZR margin) * step * mean_spacing im <= ext) by nra.
    assert (INR n * d <= (INR g - 1) * d) by nra. unfold mg, d in *. nra. }
  pose proof (SZ (box_maxx b - box_minx b) g1 j ltac:(lra) ltac:(unfold g1; rewrite GS; reflexivity) G1 Lj).
  pose proof (SZ (box_maxy b - box_miny b) g0 i ltac:(lra) ltac:(unfold g0; rewrite GS; reflexivity) G0 Li). lra.
Qed.
Example C58_case :
  exists P L rights size ratio,
    prepare_rectification (fun _ => 4326%Z) (fun _ _ g => g) (plain_model (cam_left 2)) (plain_model cam_right) tiny (Dtm tt) 2 50 1 = Some P /\
    compute_stereorectification_epipolar_grids (fun _ => 4326%Z) (fun _ _ g => g) (plain_model (cam_left 2)) (plain_model cam_right)
    tiny (Dtm tt) 2 50 1 None = Some (map (map node) L, rights, size, ratio) /\ mean_spacing tiny <= 1.
Proof.
  destruct (C31_whole_grid unit (fun _ => 4326%Z) (fun _ _ g => g) _ _ _ _ (Terrain tt) 50 tiny 2 1
              (plain_behaves (cam_left 2)) (plain_behaves cam_right)) as (P & p & L & size & ratio & EP & _ & E & _);
    try lra; try (cbn; lia). { rewrite tiny_spacing; lra. }
  eexists _, _, _, _, _. split; [exact EP|]. split; [exact E|]. rewrite tiny_spacing; lra.
Qed.

(** Larger pixels: nodes of the grid outside of the footprint. *)
Definition big2 : left_image := LeftImage (mkAffine 2 0 0 0 2 0) 1 1.
Lemma big2_spacing : mean_spacing big2 = 2.
Proof. unfold mean_spacing, big2; cbn. rewrite !Rabs_pos_eq by lra. lra. Qed.
Theorem C58_nodes_in_the_footprint_refuted :
  exists im (s : surface unit) P L rights size ratio i j q,
    (forall p b, epipolar_direction (cam_left 0) cam_right s 50 p b -> b = 0)
    /\ prepare_rectification (fun _ => 4326%Z) (fun _ _ g => g) (plain_model (cam_left 0)) (plain_model cam_right)
         im (elev_of s) 1 50 0 = Some P
    /\ compute_stereorectification_epipolar_grids (fun _ => 4326%Z) (fun _ _ g => g) (plain_model (cam_left 0)) (plain_model cam_right)
         im (elev_of s) 1 50 0 None = Some (map (map node) L, rights, size, ratio)
    /\ entry L i j = Some q /\ ~ in_footprint 0 P q.
Proof.
  destruct (C31_whole_grid unit (fun _ => 4326%Z) (fun _ _ g => g) _ _ _ _ (Plane 0) 50 big2 1 0
              (plain_behaves (cam_left 0)) (plain_behaves cam_right)) as (P & p & L & size & ratio & EP & Hp & E & _ & [S0 S1] & _);
    try lra; try (cbn; lia). { rewrite big2_spacing; lra. }
  pose proof EP as EP'. rewrite (prepare_plain _ _ _ _ (cam_left 0) cam_right) in EP by apply plain_behaves. injection EP as EP. rewrite cam_start_angle in EP by lra.
  assert (BX : epipolar_box big2 0 = (0, 0, 2, 2)).
  { unfold epipolar_box, big2; cbn [li_transform li_rows li_cols af_a af_e]. rewrite cos_0, sin_0.
    unfold min4, max4. replace (1 * 1 * 2) with 2 by ring. replace (0 * 1 * 2) with 0 by ring. replace (- 0 * 1 * 2) with 0 by ring.
    replace (2 + 0) with 2 by ring. replace (0 + 2) with 2 by ring. minmax. reflexivity. }
  assert (SZ : pr_grid_size P = (3, 3)%Z).
  { rewrite <- EP, grid_size_eq. cbv zeta. rewrite BX, big2_spacing. cbn [box_maxy box_miny box_maxx box_minx]. unfold nodes_of.
    rewrite (trunc_lit ((2 - 0) / 2) 1) by (lia || lra). rewrite (trunc_lit (1 / 1 + 2) 3) by (lia || lra). reflexivity. }
  rewrite SZ in S0, S1. cbn [fst snd] in S0, S1. change (Z.to_nat 3) with 3%nat in S0, S1.
  assert (EQ : exists q, entry L 0 2 = Some q).
  { unfold entry. destruct L as [|l0 L']; [discriminate|]. cbn [nth_error]. specialize (S1 l0 (or_introl eq_refl)).
    destruct l0 as [|a [|b [|c l0]]]; try discriminate. eauto. }
  destruct EQ as [q Hq].
  exists big2, (Plane 0), P, L. eexists _, _, _. exists 0%nat, 2%nat, q.
  split; [apply cam_direction; lra|]. split; [exact EP'|]. split; [exact E|]. split; [exact Hq|].
  intros (ul & ll & lr & ur & EF & [_ B] & _).
  destruct (cam_regular 0 (Plane 0) 50 big2 1 0 P p L ltac:(lra) (eq_sym EP) Hp ltac:(rewrite SZ; cbn; lia) ltac:(rewrite SZ; cbn; lia) _ _ _ E 0 2 q Hq)
    as (_ & _ & Q1 & Q0).
  assert (PV : v1 p = 1 /\ v1 ul = 1 /\ v1 lr = 4).
  { pose proof (footprint_eq big2 1 0 0 (start_alt (cam_left 0) cam_right (Plane 0) 50 big2)) as FE. cbv zeta in FE. rewrite EP in FE.
    rewrite EF in FE. rewrite <- EP, start_eq in Hp. cbv zeta in FE, Hp. rewrite BX, big2_spacing in *.
    cbn [box_minx box_miny box_maxx box_maxy map fst snd] in *. unfold from_frame in *; cbn [fst snd] in *.
    rewrite cos_0, sin_0 in *. unfold node in FE, Hp; cbn [v0 v1 v2] in FE, Hp.
    injection Hp as _ Hp _. injection FE as _ F1 _ _ _ _ _ F2 _ _ _ _. rewrite <- Hp, F1, F2.
    unfold transform_index_to_physical_point, affine_apply, big2; cbn. repeat split; field. }
  destruct PV as (PV & U & LR). unfold along in B. rewrite cos_0, sin_0, Q1, PV, U, LR, big2_spacing in B. cbn in B. lra.
Qed.

(** ** C57: the extent on the ground *)
Lemma fold_min : forall l x, fold_left Rmin l x <= x /\ (forall y, In y l -> fold_left Rmin l x <= y) /\ In (fold_left Rmin l x) (x :: l).
Proof.
  induction l as [|a l IH]; intro x; cbn [fold_left]; [split; [lra|split; [intros y []|left; reflexivity]]|].
  destruct (IH (Rmin x a)) as (A & B & C). pose proof (Rmin_l x a). pose proof (Rmin_r x a). split; [lra|]. split.
  - intros y [<- | Hy]; [lra|auto].
  - destruct C as [C|C]; [|right; right; exact C]. rewrite <- C. unfold Rmin. destruct (Rle_dec x a); [left|right; left]; reflexivity.
Qed.
Lemma fold_max : forall l x, x <= fold_left Rmax l x /\ (forall y, In y l -> y <= fold_left Rmax l x) /\ In (fold_left Rmax l x) (x :: l).
Proof.
  induction l as [|a l IH]; intro x; cbn [fold_left]; [split; [lra|split; [intros y []|left; reflexivity]]|].
  destruct (IH (Rmax x a)) as (A & B & C). pose proof (Rmax_l x a). pose proof (Rmax_r x a). split; [lra|]. split.
  - intros y [<- | Hy]; [lra|auto].
  - destruct C as [C|C]; [|right; right; exact C]. rewrite <- C. unfold Rmax. destruct (Rle_dec x a); [right; left|left]; reflexivity.
Qed.
(** [lo, hi] is the interval of the values of [f] on a list, enlarged by [m]. *)
Definition tight_range {A} (f : A -> R) (l : list A) (m lo hi : R) : Prop :=
  (forall x, In x l -> lo + m <= f x <= hi - m) /\ (exists x, In x l /\ f x = lo + m) /\ (exists x, In x l /\ f x = hi - m).
Lemma np_range : forall {A} (f : A -> R) (l : list A) m, l <> [] ->
  exists lo hi, nsub (np_min (map (fun x => fin (f x)) l)) (fin m) = fin lo /\ nadd (np_max (map (fun x => fin (f x)) l)) (fin m) = fin hi
                /\ tight_range f l m lo hi.
Proof.
  intros A f l m Hl. unfold np_min, np_max.
  assert (E : seq_opt (map (fun x => fin (f x)) l) = Some (map f l)).
  { clear Hl. induction l as [|x l IH]; [reflexivity|]. cbn [map seq_opt]. rewrite IH. reflexivity. }
  rewrite E. destruct l as [|x l]; [congruence|]. unfold list_min, list_max. cbn [map].
  destruct (fold_min (map f l) (f x)) as (A1 & A2 & A3). destruct (fold_max (map f l) (f x)) as (B1 & B2 & B3).
  exists (fold_left Rmin (map f l) (f x) - m), (fold_left Rmax (map f l) (f x) + m). split; [reflexivity|]. split; [reflexivity|].
  split; [|split].
  - intros y [<- | Hy]; [lra|]. specialize (A2 (f y) (in_map f l y Hy)). specialize (B2 (f y) (in_map f l y Hy)). lra.
  - change (f x :: map f l) with (map f (x :: l)) in A3. apply in_map_iff in A3. destruct A3 as (y & Ey & Hy). exists y. split; [exact Hy|lra].
  - change (f x :: map f l) with (map f (x :: l)) in B3. apply in_map_iff in B3. destruct B3 as (y & Ey & Hy). exists y. split; [exact Hy|lra].
Qed.

Theorem C57_extent_of_the_footprint :
  forall (D : Type) (dtm_epsg : D -> Z) conv ml mr (pl pr : pmodel D) s off im step margin more,
    behaves ml pl -> behaves mr pr ->
    exists P corners lat_min lon_min lat_max lon_max,
      prepare_rectification dtm_epsg conv ml mr im (elev_of s) step off margin = Some P
      /\ pr_footprint P = map node corners /\ length corners = 4%nat
      /\ get_epipolar_extent dtm_epsg conv ml mr im (elev_of s) step off margin more
         = Some (fin lat_min, fin lon_min, fin lat_max, fin lon_max)
      /\ tight_range (fun p => v0 (ground pl (Plane 0) p)) corners more lon_min lon_max
      /\ tight_range (fun p => v1 (ground pl (Plane 0) p)) corners more lat_min lat_max.
Proof.
  intros D dtm_epsg conv ml mr pl pr s off im step margin more Hl Hr.
  set (P := prepare_at im step margin (start_angle pl pr s off im) (fin (start_alt pl pr s off im))).
  pose proof (footprint_eq im step margin (start_angle pl pr s off im) (start_alt pl pr s off im)) as EF. cbv zeta in EF. fold P in EF.
  match type of EF with _ = map node ?l => set (cs := l) in EF end.
  assert (Hcs : cs <> []) by discriminate.
  destruct (np_range (fun p => v0 (ground pl (Plane 0) p)) cs more Hcs) as (lon_min & lon_max & L1 & L2 & L3).
  destruct (np_range (fun p => v1 (ground pl (Plane 0) p)) cs more Hcs) as (lat_min & lat_max & T1 & T2 & T3).
  exists P, cs, lat_min, lon_min, lat_max, lon_max.
  split; [apply (prepare_plain _ _ _ _ pl pr); auto|]. split; [exact EF|]. split; [reflexivity|]. split; [|split; assumption].
  unfold get_epipolar_extent. rewrite (prepare_plain _ _ _ _ pl pr) by auto. fold P. rewrite EF.
  unfold direct. cbn [make_localization lo_image lo_model lo_epsg to_physical].
  assert (ED : gm_direct_h ml (map fst (map (fun p => (p_row p, p_col p)) (map node cs))) (map snd (map (fun p => (p_row p, p_col p)) (map node cs)))
                 (broadcast (length (map (fun p => (p_row p, p_col p)) (map node cs))) (Scalar (fin 0)))
               = Some (map (fun p => node (ground pl (Plane 0) p)) cs)).
  { pose proof (direct_nodes ml pl (fun x => x) (fun _ => 0) cs Hl) as E.
    rewrite !map_map, !map_length. cbn [broadcast fst snd].
    replace (repeat (fin 0) (length cs)) with (map (fun _ : vec3 => fin 0) cs) by (apply map_repeat_const). exact E. }
  rewrite ED. rewrite !map_map.
  change (map (fun x => lat3 (node (ground pl (Plane 0) x))) cs) with (map (fun p => fin (v1 (ground pl (Plane 0) p))) cs).
  change (map (fun x => lon3 (node (ground pl (Plane 0) x))) cs) with (map (fun p => fin (v0 (ground pl (Plane 0) p))) cs).
  rewrite L1, L2, T1, T2. reflexivity.
Qed.
Example C57_case : behaves (plain_model (cam_left 2)) (cam_left 2) /\ behaves (plain_model cam_right) cam_right.
Proof. split; apply plain_behaves. Qed.

(** With an affine camera the extent encloses the ground positions of the whole footprint. *)
Lemma affine_box : forall A B C x0 x1 y0 y1 lo hi x y,
  x0 <= x <= x1 -> y0 <= y <= y1 ->
  lo <= A * x0 + B * y0 + C <= hi -> lo <= A * x1 + B * y0 + C <= hi -> lo <= A * x1 + B * y1 + C <= hi -> lo <= A * x0 + B * y1 + C <= hi ->
  lo <= A * x + B * y + C <= hi.
Proof.
  intros A B C x0 x1 y0 y1 lo hi x y Hx Hy H1 H2 H3 H4.
  assert (LX : forall Y, lo <= A * x0 + Y <= hi -> lo <= A * x1 + Y <= hi -> lo <= A * x + Y <= hi).
  { intros Y U V. destruct (Rle_dec 0 A); nra. }
  assert (K0 : lo <= A * x + (B * y0 + C) <= hi) by (apply LX; lra).
  assert (K1 : lo <= A * x + (B * y1 + C) <= hi) by (apply LX; lra).
  destruct (Rle_dec 0 B); nra.
Qed.
Theorem C57_extent_of_an_affine_camera :
  forall (D : Type) (dtm_epsg : D -> Z) conv ml mr (pl pr : pmodel D) s off im step margin more alpha A B C A' B' C' P lat_min lon_min lat_max lon_max,
    behaves ml pl -> behaves mr pr -> 0 <= more ->
    (forall r c, v0 (pm_h pl r c 0) = A * r + B * c + C /\ v1 (pm_h pl r c 0) = A' * r + B' * c + C') ->
    epipolar_direction pl pr s off (let o := transform_index_to_physical_point (li_transform im) 0 0 in V3 (fst o) (snd o) 0) alpha ->
    (forall b, epipolar_direction pl pr s off (let o := transform_index_to_physical_point (li_transform im) 0 0 in V3 (fst o) (snd o) 0) b -> b = alpha) ->
    prepare_rectification dtm_epsg conv ml mr im (elev_of s) step off margin = Some P ->
    get_epipolar_extent dtm_epsg conv ml mr im (elev_of s) step off margin more
       = Some (fin lat_min, fin lon_min, fin lat_max, fin lon_max) ->
    forall q, in_footprint alpha P q ->
      lon_min <= v0 (pm_h pl (v0 q) (v1 q) 0) <= lon_max /\ lat_min <= v1 (pm_h pl (v0 q) (v1 q) 0) <= lat_max.
Proof.
  intros D dtm_epsg conv ml mr pl pr s off im step margin more alpha A B C A' B' C' P lat_min lon_min lat_max lon_max Hl Hr Hmo HA Hal Hun HP HE q Hq.
  destruct (C57_extent_of_the_footprint D dtm_epsg conv ml mr pl pr s off im step margin more Hl Hr)
    as (P' & cs & a & b & c & d & EP & EF & _ & EE & RL & RT).
  rewrite HP in EP. injection EP as <-. rewrite HE in EE. injection EE as <- <- <- <-.
  assert (SA : start_angle pl pr s off im = alpha).
  { unfold start_angle. destruct (transform_index_to_physical_point (li_transform im) 0 0) as [r0 c0]. apply Hun. apply angle_epi. }
  rewrite (prepare_plain _ _ _ _ pl pr) in HP by auto. rewrite SA in HP. injection HP as EP.
  pose proof (footprint_eq im step margin alpha (start_alt pl pr s off im)) as FE. cbv zeta in FE. rewrite EP in FE.
  destruct Hq as (ul & ll & lr & ur & EF2 & BX & BY).
  assert (INJ : forall l1 l2, map node l1 = map node l2 -> l1 = l2).
  { induction l1 as [|x l1 IH]; intros [|y l2] H; try discriminate; [reflexivity|]. cbn [map] in H.
    injection H as Hx0 Hx1 Hx2 H. f_equal; [|apply IH; exact H]. destruct x, y; cbn in *; congruence. }
  assert (ECS : cs = [ul; ll; lr; ur]) by (apply INJ; congruence).
  rewrite EF2 in FE. apply INJ in FE.
  set (bx := epipolar_box im alpha) in *. set (o := transform_index_to_physical_point (li_transform im) 0 0) in *.
  set (mg := IZR margin * step * mean_spacing im) in *. rewrite ECS in RL, RT.
  injection FE as E1 E2 E3 E4.
  set (x0 := box_minx bx - mg) in *. set (y0 := box_miny bx - mg) in *. set (x1 := box_maxx bx + mg + step) in *. set (y1 := box_maxy bx + mg + step) in *.
  assert (FR : forall x y p, p = (let rc := from_frame alpha (fst o) (snd o) x y in V3 (fst rc) (snd rc) (start_alt pl pr s off im)) ->
     along alpha (fst o) (snd o) (v0 p) (v1 p) = x /\ across alpha (fst o) (snd o) (v0 p) (v1 p) = y).
  { intros x y p ->. cbv zeta. cbn [v0 v1]. apply frame_coords. }
  assert (TO : forall row col, row = fst o + along alpha (fst o) (snd o) row col * sin alpha + across alpha (fst o) (snd o) row col * cos alpha /\
                               col = snd o + along alpha (fst o) (snd o) row col * cos alpha - across alpha (fst o) (snd o) row col * sin alpha).
  { intros row col. unfold along, across. pose proof (sin2_cos2 alpha) as T. unfold Rsqr in T.
    split.
    - transitivity (fst o + (row - fst o) * (sin alpha * sin alpha + cos alpha * cos alpha)); [rewrite T; ring|ring].
    - transitivity (snd o + (col - snd o) * (sin alpha * sin alpha + cos alpha * cos alpha)); [rewrite T; ring|ring]. }
  assert (QX : along alpha (v0 ul) (v1 ul) (v0 q) (v1 q) = along alpha (fst o) (snd o) (v0 q) (v1 q) - x0 /\
               across alpha (v0 ul) (v1 ul) (v0 q) (v1 q) = across alpha (fst o) (snd o) (v0 q) (v1 q) - y0).
  { rewrite E1. cbn [v0 v1]. apply frame_move. }
  assert (LX : along alpha (v0 ul) (v1 ul) (v0 lr) (v1 lr) = x1 - x0 /\ across alpha (v0 ul) (v1 ul) (v0 lr) (v1 lr) = y1 - y0).
  { destruct (FR x1 y1 lr E3) as [F1 F2]. rewrite <- F1, <- F2. rewrite E1. cbn [v0 v1]. apply frame_move. }
  destruct QX as [QX QY]. destruct LX as [LX LY]. rewrite QX, LX in BX. rewrite QY, LY in BY.
  set (xq := along alpha (fst o) (snd o) (v0 q) (v1 q)) in *. set (yq := across alpha (fst o) (snd o) (v0 q) (v1 q)) in *.
  assert (GEN : forall a b c (f : vec3 -> R) lo hi,
     (forall p, f (ground pl (Plane 0) p) = a * v0 p + b * v1 p + c) ->
     (forall p, In p [ul; ll; lr; ur] -> lo + more <= f (ground pl (Plane 0) p) <= hi - more) -> lo <= f (ground pl (Plane 0) q) <= hi).
  { intros a b c f lo hi Hf Hin.
    assert (FF : forall p, f (ground pl (Plane 0) p) = (a * sin alpha + b * cos alpha) * along alpha (fst o) (snd o) (v0 p) (v1 p)
                          + (a * cos alpha - b * sin alpha) * across alpha (fst o) (snd o) (v0 p) (v1 p) + (a * fst o + b * snd o + c)).
    { intro p. rewrite Hf. destruct (TO (v0 p) (v1 p)) as [T1 T2].
      rewrite (f_equal2 (fun r c1 => a * r + b * c1 + c) T1 T2). ring. }
    assert (I1 : lo <= f (ground pl (Plane 0) ul) <= hi) by (specialize (Hin ul ltac:(left; reflexivity)); lra).
    assert (I2 : lo <= f (ground pl (Plane 0) ll) <= hi) by (specialize (Hin ll ltac:(right; left; reflexivity)); lra).
    assert (I3 : lo <= f (ground pl (Plane 0) lr) <= hi) by (specialize (Hin lr ltac:(right; right; left; reflexivity)); lra).
    assert (I4 : lo <= f (ground pl (Plane 0) ur) <= hi) by (specialize (Hin ur ltac:(right; right; right; left; reflexivity)); lra).
    rewrite FF in *. fold xq yq.
    destruct (FR x0 y0 ul E1) as [U1 U2]. destruct (FR x1 y0 ll E2) as [V1 V2]. destruct (FR x1 y1 lr E3) as [W1 W2]. destruct (FR x0 y1 ur E4) as [Z1 Z2].
    rewrite U1, U2 in I1. rewrite V1, V2 in I2. rewrite W1, W2 in I3. rewrite Z1, Z2 in I4.
    apply affine_box with x0 x1 y0 y1; auto; lra. }
  split.
  - apply (GEN A B C v0 lon_min lon_max); [intro p; apply (proj1 (HA (v0 p) (v1 p)))|]. apply RL.
  - apply (GEN A' B' C' v1 lat_min lat_max); [intro p; apply (proj2 (HA (v0 p) (v1 p)))|]. apply RT.
Qed.
Example C57_affine_case : forall r c, v0 (pm_h (cam_left 2) r c 0) = 0 * r + 1 * c + 0 /\ v1 (pm_h (cam_left 2) r c 0) = 1 * r + 0 * c + 0.
Proof. intros; cbn; split; ring. Qed.

(** ** C35: displacement grids *)
Theorem C35_displacements_and_positions_read_the_same :
  forall h w (G : list (list row3)) step,
    shaped h w G ->
    let t := displacement_transform step in
    let '(cols, rows) := write_epipolar_grid G true in
    let '(dcols, drows) := write_epipolar_grid (positions_to_displacement_grid G step) true in
    read_rectification_grid t w h dcols drows true = read_rectification_grid t w h cols rows false.
Proof. intros h w G step HG. exact (displacement_same h w G step HG). Qed.

(** The bilinear interpolation of four values. *)
Definition mix (u v a00 a10 a01 a11 : R) : R := (1 - v) * ((1 - u) * a00 + u * a10) + v * ((1 - u) * a01 + u * a11).
Theorem C35_interpolation :
  forall h w (G : list (list vec3)) step r c u v p00 p10 p01 p11,
    shaped h w G -> 0 < step -> 0 <= u <= 1 -> 0 <= v <= 1 ->
    entry G r c = Some p00 -> entry G r (S c) = Some p10 -> entry G (S r) c = Some p01 -> entry G (S r) (S c) = Some p11 ->
    let '(dcols, drows) := write_epipolar_grid (positions_to_displacement_grid (map (map node) G) step) true in
    interpolate_grid (read_rectification_grid (displacement_transform step) w h dcols drows true) ((INR c + u) * step) ((INR r + v) * step)
    = (fin (mix u v (v1 p00) (v1 p10) (v1 p01) (v1 p11)), fin (mix u v (v0 p00) (v0 p10) (v0 p01) (v0 p11))).
Proof.
  intros h w G step r c u v p00 p10 p01 p11 [HG1 HG2] Hs Hu Hv E00 E10 E01 E11.
  assert (HS : shaped h w (map (map node) G)).
  { split; [rewrite map_length; auto|]. intros l Hl. apply in_map_iff in Hl. destruct Hl as (l0 & <- & Hl). rewrite map_length. auto. }
  pose proof (C35_displacements_and_positions_read_the_same h w (map (map node) G) step HS) as EQ. cbv zeta in EQ.
  destruct (write_epipolar_grid (positions_to_displacement_grid (map (map node) G) step) true) as [dcols drows].
  cbn [write_epipolar_grid] in EQ. rewrite EQ. clear EQ dcols drows.
  unfold read_rectification_grid.
  assert (Eo : affine_apply (displacement_transform step) (1 / 2, 1 / 2) = (0, 0)).
  { unfold displacement_transform, affine_apply; cbn. f_equal; field. }
  rewrite Eo. cbv iota.
  set (fc := fun i j => match entry G j i with Some p => v1 p | None => 0 end).
  set (fr := fun i j => match entry G j i with Some p => v0 p | None => 0 end).
  assert (IN : forall i j, (i < w)%nat -> (j < h)%nat -> exists p, entry G j i = Some p).
  { intros i j Hi Hj. unfold entry. destruct (nth_error G j) as [l|] eqn:El; [|apply nth_error_None in El; lia].
    specialize (HG2 l (nth_error_In _ _ El)). destruct (nth_error l i) eqn:Ei; [eauto|]. apply nth_error_None in Ei. lia. }
  assert (LT : (S r < h)%nat /\ (S c < w)%nat).
  { unfold entry in E11. destruct (nth_error G (S r)) as [l|] eqn:El; [|discriminate].
    split; [rewrite <- HG1; apply nth_error_Some; congruence|]. rewrite <- (HG2 l (nth_error_In _ _ El)). apply nth_error_Some; congruence. }
  assert (AT : forall (f : row3 -> num) (g : vec3 -> R), (forall p, f (node p) = Some (g p)) -> forall i j, (i < w)%nat -> (j < h)%nat ->
     at2 (transpose w (map (map f) (map (map node) G))) i j = Some (match entry G j i with Some p => g p | None => 0 end)).
  { intros f g Hfg i j Hi Hj. destruct (IN i j Hi Hj) as [p Ep]. apply at2_entry. rewrite transpose_entry.
    - rewrite !map_entry, Ep. cbn [option_map]. rewrite Hfg. reflexivity.
    - intros l Hl. destruct HS as [_ HS]. apply in_map_iff in Hl. destruct Hl as (l0 & <- & Hl). rewrite map_length. auto. }
  rewrite (interpolate_cell (RectGrid 0 0 (af_a (displacement_transform step)) (af_e (displacement_transform step)) w h _ _) step w h fc fr r c u v);
    try reflexivity; auto; try (apply LT).
  - unfold blend, mix, fc, fr. rewrite E00, E10, E01, E11. unfold fin. apply f_equal2; apply f_equal; ring.
  - intros i j Hi Hj. cbn [rg_col_positions]. exact (AT lat3 v1 (fun _ => eq_refl) i j Hi Hj).
  - intros i j Hi Hj. cbn [rg_row_positions]. exact (AT lon3 v0 (fun _ => eq_refl) i j Hi Hj).
Qed.
(** At every node of a grid of at least 2 x 2 nodes, the position of the node. *)
Theorem C35_exact_at_the_nodes :
  forall h w (G : list (list vec3)) step r c p,
    shaped h w G -> (2 <= h)%nat -> (2 <= w)%nat -> 0 < step -> entry G r c = Some p ->
    let '(dcols, drows) := write_epipolar_grid (positions_to_displacement_grid (map (map node) G) step) true in
    interpolate_grid (read_rectification_grid (displacement_transform step) w h dcols drows true) (INR c * step) (INR r * step)
    = (fin (v1 p), fin (v0 p)).
Proof.
  intros h w G step r c p HG Hh Hw Hs Hp.
  assert (IN : forall j i, (i < w)%nat -> (j < h)%nat -> exists p, entry G j i = Some p).
  { destruct HG as [HG1 HG2]. intros j i Hi Hj. unfold entry. destruct (nth_error G j) as [l|] eqn:El; [|apply nth_error_None in El; lia].
    specialize (HG2 l (nth_error_In _ _ El)). destruct (nth_error l i) eqn:Ei; [eauto|]. apply nth_error_None in Ei. lia. }
  assert (LT : (r < h)%nat /\ (c < w)%nat).
  { destruct HG as [HG1 HG2]. unfold entry in Hp. destruct (nth_error G r) as [l|] eqn:El; [|discriminate].
    split; [rewrite <- HG1; apply nth_error_Some; congruence|]. rewrite <- (HG2 l (nth_error_In _ _ El)). apply nth_error_Some; congruence. }
  assert (CH : forall n k, (2 <= n)%nat -> (k < n)%nat -> exists k0 t, (S k0 < n)%nat /\ ((t = 0 /\ k = k0) \/ (t = 1 /\ k = S k0))).
  { intros n k Hn Hk. destruct (Nat.eq_dec (S k) n) as [E|E].
    - exists (k - 1)%nat, 1. split; [lia|]. right. split; [reflexivity|lia].
    - exists k, 0. split; [lia|]. left. auto. }
  destruct (CH h r Hh (proj1 LT)) as (r0 & v & Hr0 & Hrv). destruct (CH w c Hw (proj2 LT)) as (c0 & u & Hc0 & Hcu).
  destruct (IN r0 c0) as [p00 E00]; try lia. destruct (IN r0 (S c0)) as [p10 E10]; try lia.
  destruct (IN (S r0) c0) as [p01 E01]; try lia. destruct (IN (S r0) (S c0)) as [p11 E11]; try lia.
  assert (Hu : 0 <= u <= 1) by (destruct Hcu as [[-> _]|[-> _]]; lra). assert (Hv : 0 <= v <= 1) by (destruct Hrv as [[-> _]|[-> _]]; lra).
  pose proof (C35_interpolation h w G step r0 c0 u v p00 p10 p01 p11 HG Hs Hu Hv E00 E10 E01 E11) as E.
  destruct (write_epipolar_grid (positions_to_displacement_grid (map (map node) G) step) true) as [dcols drows].
  assert (EX : INR c = INR c0 + u) by (destruct Hcu as [[-> ->]|[-> ->]]; [ring|apply S_INR]).
  assert (EY : INR r = INR r0 + v) by (destruct Hrv as [[-> ->]|[-> ->]]; [ring|apply S_INR]).
  rewrite EX, EY, E. unfold mix.
  destruct Hcu as [[-> ->]|[-> ->]], Hrv as [[-> ->]|[-> ->]]; rewrite Hp in *;
    (assert (EP : forall x, Some p = Some x -> x = p) by congruence);
    first [rewrite (EP _ E00) | rewrite (EP _ E10) | rewrite (EP _ E01) | rewrite (EP _ E11)]; unfold fin; apply f_equal2; apply f_equal; ring.
Qed.
Example C35_case : shaped 2 3 [[V3 0 1 0; V3 1 1 0; V3 2 5 0]; [V3 3 3 3; V3 2 2 2; V3 7 8 9]].
Proof. split; [reflexivity|]. intros l [<- | [<- | []]]; reflexivity. Qed.
