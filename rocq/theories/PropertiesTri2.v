(** Triangulation from the pixels of two sensors to ground positions (C71). *)
From Coq Require Import Reals ZArith List Bool Lra Lia.
From Verif Require Import Num NumLemmas ProjModel RpcModel RpcSpec RpcRun TriModel TriSpec TriProofs TriBatch PropertiesRpc PropertiesTri.
Import ListNotations.
Open Scope R_scope.

(** The unit sight from [b] to [a]. *)
Definition sight_to (a b : vec3) : sight :=
  let n := sqrt (dot (minus3 a b) (minus3 a b)) in
  Sight a (V3 ((v0 a - v0 b) / n) ((v1 a - v1 b) / n) ((v2 a - v2 b) / n)).
Lemma norm_pos a b : a <> b -> 0 < sqrt (dot (minus3 a b) (minus3 a b)).
Proof.
  intros H. apply sqrt_lt_R0. pose proof (dot_pos (minus3 a b)) as [P|P]; [assumption|]. exfalso.
  symmetry in P. apply sum_sq_zero in P. destruct a as [x y z], b as [x' y' z'], P as (A & B & C). cbn in *.
  apply H. f_equal; lra.
Qed.
Lemma sight_unit a b : a <> b -> unit_dir (sight_to a b).
Proof.
  intros H. pose proof (norm_pos a b H) as P. unfold unit_dir, sight_to.
  set (n := sqrt _) in *. assert (E : n * n = dot (minus3 a b) (minus3 a b)) by (apply sqrt_sqrt, dot_pos).
  unfold dot in *. cbn [s_dir v0 v1 v2 minus3] in *.
  replace (_ + _ + _) with (((v0 a - v0 b) * (v0 a - v0 b) + (v1 a - v1 b) * (v1 a - v1 b) + (v2 a - v2 b) * (v2 a - v2 b)) / (n * n)) by (field; lra).
  rewrite <- E. field. lra.
Qed.
Lemma sight_aligned a b p : a <> b -> aligned a b p -> passes_through (sight_to a b) p.
Proof.
  intros H [t ->]. pose proof (norm_pos a b H) as P. exists ((t - 1) * sqrt (dot (minus3 a b) (minus3 a b))).
  unfold point_at, sight_to. set (n := sqrt _) in *. cbn [s_from s_dir v0 v1 v2]. f_equal; field; lra.
Qed.
Lemma sight_parallel a b a' b' : a <> b -> a' <> b' -> ~ parallel (Sight b (minus3 a b)) (Sight b' (minus3 a' b')) ->
  ~ parallel (sight_to a b) (sight_to a' b').
Proof.
  intros H H' N [k E]. apply N. pose proof (norm_pos a b H) as P. pose proof (norm_pos a' b' H') as P'.
  unfold sight_to in E. set (n := sqrt (dot (minus3 a b) (minus3 a b))) in *. set (n' := sqrt (dot (minus3 a' b') (minus3 a' b'))) in *. cbn [s_dir v0 v1 v2] in E.
  exists (k * n' / n). cbn [s_dir minus3 v0 v1 v2].
  assert (E0 : (v0 a' - v0 b') / n' = k * ((v0 a - v0 b) / n)) by congruence.
  assert (E1 : (v1 a' - v1 b') / n' = k * ((v1 a - v1 b) / n)) by congruence.
  assert (E2 : (v2 a' - v2 b') / n' = k * ((v2 a - v2 b) / n)) by congruence.
  unfold minus3. f_equal.
  - replace (k * n' / n * (v0 a - v0 b)) with (k * ((v0 a - v0 b) / n) * n') by (field; lra). rewrite <- E0. field. lra.
  - replace (k * n' / n * (v1 a - v1 b)) with (k * ((v1 a - v1 b) / n) * n') by (field; lra). rewrite <- E1. field. lra.
  - replace (k * n' / n * (v2 a - v2 b)) with (k * ((v2 a - v2 b) / n) * n') by (field; lra). rewrite <- E2. field. lra.
Qed.
Lemma viewing_sight a b : a <> b -> viewing_vector (row_of_point a) (row_of_point b) = row_of_point (s_dir (sight_to a b)).
Proof.
  intros H. pose proof (norm_pos a b H) as P. unfold viewing_vector. rewrite row_sub_row, vec_norm_row.
  cbv zeta. unfold sight_to. set (n := sqrt _) in *. destruct (Reqb_spec n 0) as [Z|_]; [lra|].
  unfold row_of_point. cbn [lon3 lat3 alt3 minus3 s_dir v0 v1 v2]. unfold ndiv.
  destruct (Req_EM_T n 0) as [Z|_]; [lra|]. reflexivity.
Qed.

(** What [triangulate] gives for the two sights of a match. *)
Lemma tri_one_sights l r : unit_dir l -> unit_dir r ->
  tri_one (row_of_point (s_from l)) (row_of_point (s_from r)) (row_of_point (s_dir l)) (row_of_point (s_dir r))
  = match triangulate (froms [l; r]) (dirs [l; r]) with Some p => Some (row_of_point p) | None => None end.
Proof. reflexivity. Qed.
Lemma two_dirs l r : ~ parallel l r -> two_directions [l; r].
Proof. intros H. exists l, r. repeat split; simpl; auto. Qed.
Lemma tri_one_common l r p : unit_dir l -> unit_dir r -> ~ parallel l r -> passes_through l p -> passes_through r p ->
  tri_one (row_of_point (s_from l)) (row_of_point (s_from r)) (row_of_point (s_dir l)) (row_of_point (s_dir r))
  = Some (row_of_point p) /\
  point_distances [row_of_point (s_from l)] [row_of_point (s_dir l)] (row_of_point p) = [fin 0].
Proof.
  intros Ul Ur N Pl Pr. rewrite tri_one_sights by assumption. split.
  - destruct (C23_concurrent_sights_give_their_point [[l; r]] [p]) as [E _].
    { constructor; [|constructor]. split; [repeat constructor; assumption|]. split; [now apply two_dirs|].
      repeat constructor; assumption. }
    apply n_view_nth in E. inversion E as [|? ? ? ? H _]; subst. now rewrite H.
  - change [row_of_point (s_from l)] with (froms [l]). change [row_of_point (s_dir l)] with (dirs [l]).
    rewrite point_distances_eq by (repeat constructor; assumption). cbn [map].
    replace (sqd p l) with 0 by (symmetry; now apply sqd_zero). now rewrite sqrt_0.
Qed.

Section Sensor.
Context (conv : Z -> Z -> list row3 -> list row3) (f : Z -> Z -> row3 -> row3).
Context (Hf : forall e1 e2 l, conv e1 e2 l = map (f e1 e2) l).

(** [sensor_triangulation] in terms of the localizations of the two models. *)
Lemma sensor_eq gl gr (V : list seen) lmm rmm fill llo lhi rlo rhi :
  ends gl lmm llo lhi -> ends gr rmm rlo rhi ->
  lm_direct gl (map (fun v => snd (m_left (sn_match v))) V) (map (fun v => fst (m_left (sn_match v))) V) lhi fill = Some (map sn_ltop V) ->
  lm_direct gl (map (fun v => snd (m_left (sn_match v))) V) (map (fun v => fst (m_left (sn_match v))) V) llo fill = Some (map sn_lbot V) ->
  lm_direct gr (map (fun v => snd (m_right (sn_match v))) V) (map (fun v => fst (m_right (sn_match v))) V) rhi fill = Some (map sn_rtop V) ->
  lm_direct gr (map (fun v => snd (m_right (sn_match v))) V) (map (fun v => fst (m_right (sn_match v))) V) rlo fill = Some (map sn_rbot V) ->
  let e r := f 4326%Z 4978%Z r in
  let one v := tri_one (e (sn_ltop v)) (e (sn_rtop v)) (viewing_vector (e (sn_ltop v)) (e (sn_lbot v)))
                 (viewing_vector (e (sn_rtop v)) (e (sn_rbot v))) in
  sensor_triangulation conv gl gr (map sn_match V) lmm rmm true fill
  = match seq_opt (map one V) with
    | Some ecef => Some (ecef, map (f 4978%Z 4326%Z) ecef,
        Some (zip3r (map (fun v => [e (sn_ltop v)]) V) (map (fun v => [viewing_vector (e (sn_ltop v)) (e (sn_lbot v))]) V) ecef))
    | None => None
    end.
Proof.
  intros El Er H1 H2 H3 H4 e one. unfold sensor_triangulation.
  rewrite (los_creation_sized conv f gl (map m_left (map sn_match V)) lmm fill llo lhi (map sn_ltop V) (map sn_lbot V));
    [|assumption|assumption|rewrite !map_map; exact H1|rewrite !map_map; exact H2|now rewrite !map_length].
  rewrite (los_creation_sized conv f gr (map m_right (map sn_match V)) rmm fill rlo rhi (map sn_rtop V) (map sn_rbot V));
    [|assumption|assumption|rewrite !map_map; exact H3|rewrite !map_map; exact H4|now rewrite !map_length].
  rewrite !map_map, !map2_map_same.
  rewrite (los_triangulation_eq _ _ (length V)) by (repeat split; cbn [starting_points viewing_vectors]; now rewrite map_length).
  cbn [starting_points viewing_vectors]. rewrite rows4_map, map_map.
  change (seq_opt (map _ V)) with (seq_opt (map one V)) at 1.
  destruct (seq_opt (map one V)) as [ecef|]; [|reflexivity].
  rewrite Hf. unfold distance_point_los, n_view_distance. cbn [starting_points viewing_vectors]. rewrite !map_map. reflexivity.
Qed.
End Sensor.

(** C71.  Whatever the two models, when each ground position is on the line of sight of its pixel in
    both images and the two lines are not parallel, the triangulation returns the ground positions, in
    ECEF and in WGS84, with residues 0. *)
Theorem C71_ground_points_are_recovered :
  forall conv gl gr (V : list seen) lmm rmm fill llo lhi rlo rhi,
    pointwise_conv conv -> ends gl lmm llo lhi -> ends gr rmm rlo rhi ->
    let left_rows := map (fun v => snd (m_left (sn_match v))) V in
    let left_cols := map (fun v => fst (m_left (sn_match v))) V in
    let right_rows := map (fun v => snd (m_right (sn_match v))) V in
    let right_cols := map (fun v => fst (m_right (sn_match v))) V in
    lm_direct gl left_rows left_cols lhi fill = Some (map sn_ltop V) ->
    lm_direct gl left_rows left_cols llo fill = Some (map sn_lbot V) ->
    lm_direct gr right_rows right_cols rhi fill = Some (map sn_rtop V) ->
    lm_direct gr right_rows right_cols rlo fill = Some (map sn_rbot V) ->
    Forall (seen_by_both conv) V ->
    sensor_triangulation conv gl gr (map sn_match V) lmm rmm true fill
    = Some (conv 4326%Z 4978%Z (map sn_ground V), map sn_ground V, Some (map (fun _ => [fin 0]) V)).
Proof.
  intros conv gl gr V lmm rmm fill llo lhi rlo rhi [f Hf] El Er lr lc rr rc H1 H2 H3 H4 HV.
  rewrite (sensor_eq conv f Hf gl gr V lmm rmm fill llo lhi rlo rhi El Er H1 H2 H3 H4). clear - HV Hf.
  rewrite Hf, map_map.
  induction HV as [|v V (a & b & a' & b' & p & E1 & E2 & E3 & E4 & E5 & E6 & A & A' & Na & Na' & NP) HV IH]; [reflexivity|].
  rewrite Hf in E1, E2, E3, E4, E5, E6. cbn [map] in E1, E2, E3, E4, E5, E6.
  assert (F1 : f 4326%Z 4978%Z (sn_ltop v) = row_of_point a) by congruence.
  assert (F2 : f 4326%Z 4978%Z (sn_lbot v) = row_of_point b) by congruence.
  assert (F3 : f 4326%Z 4978%Z (sn_rtop v) = row_of_point a') by congruence.
  assert (F4 : f 4326%Z 4978%Z (sn_rbot v) = row_of_point b') by congruence.
  assert (F5 : f 4326%Z 4978%Z (sn_ground v) = row_of_point p) by congruence.
  assert (F6 : f 4978%Z 4326%Z (row_of_point p) = sn_ground v) by congruence.
  clear E1 E2 E3 E4 E5 E6. cbn [map seq_opt]. rewrite F1, F2, F3, F4, F5.
  rewrite !viewing_sight by assumption.
  destruct (tri_one_common (sight_to a b) (sight_to a' b') p) as [T D];
    [now apply sight_unit|now apply sight_unit|now apply sight_parallel|now apply sight_aligned|now apply sight_aligned|].
  change (s_from (sight_to a b)) with a in T, D. change (s_from (sight_to a' b')) with a' in T.
  rewrite T. destruct (seq_opt _) as [ecef|]; [|discriminate].
  assert (G : forall (x x' : list row3) (y y' : list row3) (z z' : list (list num)),
    Some (x, y, Some z) = Some (x', y', Some z') -> x = x' /\ y = y' /\ z = z') by (intros; repeat split; congruence).
  apply G in IH. destruct IH as (I1 & I2 & I3). cbn [map zip3r]. rewrite F6, I1, D. repeat f_equal.
  - rewrite <- I1. exact I2.
  - rewrite <- I1. exact I3.
Qed.

(** In general, the geographic positions are the conversion of the ECEF ones; the ECEF position of a
    match whose two lines of sight are known is the point that minimises the sum of the squared
    distances to both lines, and its residue is its distance to the left line. *)
Theorem C71_least_squares :
  forall conv gl gr (V : list seen) lmm rmm fill llo lhi rlo rhi ecef wgs res,
    pointwise_conv conv -> ends gl lmm llo lhi -> ends gr rmm rlo rhi ->
    let left_rows := map (fun v => snd (m_left (sn_match v))) V in
    let left_cols := map (fun v => fst (m_left (sn_match v))) V in
    let right_rows := map (fun v => snd (m_right (sn_match v))) V in
    let right_cols := map (fun v => fst (m_right (sn_match v))) V in
    lm_direct gl left_rows left_cols lhi fill = Some (map sn_ltop V) ->
    lm_direct gl left_rows left_cols llo fill = Some (map sn_lbot V) ->
    lm_direct gr right_rows right_cols rhi fill = Some (map sn_rtop V) ->
    lm_direct gr right_rows right_cols rlo fill = Some (map sn_rbot V) ->
    sensor_triangulation conv gl gr (map sn_match V) lmm rmm true fill = Some (ecef, wgs, Some res) ->
    wgs = conv 4978%Z 4326%Z ecef /\ length ecef = length V /\ length res = length V /\
    forall i v a b a' b', nth_error V i = Some v ->
      conv 4326%Z 4978%Z [sn_ltop v] = [row_of_point a] -> conv 4326%Z 4978%Z [sn_lbot v] = [row_of_point b] ->
      conv 4326%Z 4978%Z [sn_rtop v] = [row_of_point a'] -> conv 4326%Z 4978%Z [sn_rbot v] = [row_of_point b'] ->
      a <> b -> a' <> b' ->
      exists p l r d, nth_error ecef i = Some (row_of_point p) /\ nth_error res i = Some [Some d] /\
        unit_dir l /\ unit_dir r /\ passes_through l a /\ passes_through l b /\ passes_through r a' /\ passes_through r b' /\
        is_distance p l d /\
        exists total, sum_sq_distances p [l; r] total /\
          forall x total', x <> p -> sum_sq_distances x [l; r] total' -> total < total'.
Proof.
  intros conv gl gr V lmm rmm fill llo lhi rlo rhi ecef wgs res [f Hf] El Er lr lc rr rc H1 H2 H3 H4 H.
  rewrite (sensor_eq conv f Hf gl gr V lmm rmm fill llo lhi rlo rhi El Er H1 H2 H3 H4) in H.
  destruct (seq_opt _) as [out|] eqn:ES in H; [|discriminate].
  assert (G : forall (x x' : list row3) (y y' : list row3) (z z' : list (list num)),
    Some (x, y, Some z) = Some (x', y', Some z') -> x = x' /\ y = y' /\ z = z') by (intros; repeat split; congruence).
  apply G in H. clear G. destruct H as (-> & <- & <-). clear - ES Hf.
  assert (SL : forall (l : list (option row3)) o, seq_opt l = Some o -> length o = length l /\
     forall i x, nth_error l i = Some x -> exists y, x = Some y /\ nth_error o i = Some y).
  { intros l. induction l as [|[x|] l IH]; intros o E; cbn in E.
    - injection E as <-. split; [reflexivity|]. intros [|i] x Ex; discriminate.
    - destruct (seq_opt l) as [o'|]; [|discriminate]. injection E as <-. destruct (IH o' eq_refl) as [L I].
      split; [simpl; congruence|]. intros [|i] y Ey; cbn in Ey; [injection Ey as <-; eauto|]. apply I, Ey.
    - discriminate. }
  destruct (SL _ _ ES) as [HL HI]. rewrite map_length in HL. split; [now rewrite Hf|]. split; [assumption|].
  split; [rewrite zip3r_length, !map_length; lia|].
  intros i v a b a' b' Ev E1 E2 E3 E4 Na Na'. rewrite Hf in E1, E2, E3, E4. cbn [map] in E1, E2, E3, E4.
  assert (F1 : f 4326%Z 4978%Z (sn_ltop v) = row_of_point a) by congruence.
  assert (F2 : f 4326%Z 4978%Z (sn_lbot v) = row_of_point b) by congruence.
  assert (F3 : f 4326%Z 4978%Z (sn_rtop v) = row_of_point a') by congruence.
  assert (F4 : f 4326%Z 4978%Z (sn_rbot v) = row_of_point b') by congruence.
  clear E1 E2 E3 E4.
  destruct (HI i _ (map_nth_error _ _ _ Ev)) as (y & Ey & Ei). rewrite F1, F2, F3, F4 in Ey.
  rewrite !viewing_sight in Ey by assumption.
  pose proof (sight_unit a b Na) as Ul. pose proof (sight_unit a' b' Na') as Ur.
  set (l := sight_to a b) in *. set (r := sight_to a' b') in *.
  change (row_of_point a) with (row_of_point (s_from l)) in Ey at 1.
  change (row_of_point a') with (row_of_point (s_from r)) in Ey at 1.
  rewrite tri_one_sights in Ey by assumption.
  destruct (triangulate (froms [l; r]) (dirs [l; r])) as [p|] eqn:ET; [|discriminate]. injection Ey as <-.
  assert (Pa : forall x y, x <> y -> passes_through (sight_to x y) x /\ passes_through (sight_to x y) y).
  { intros x y N. split; apply sight_aligned; try assumption.
    - exists 1. destruct x; cbn; f_equal; ring.
    - exists 0. destruct y; cbn; f_equal; ring. }
  exists p, l, r, (sqrt (sqd p l)). split; [exact Ei|]. split.
  { erewrite zip3r_nth; [|apply (map_nth_error _ _ _ Ev)|apply (map_nth_error _ _ _ Ev)|exact Ei].
    rewrite F1, F2, viewing_sight by assumption. f_equal.
    change [row_of_point a] with (froms [l]). change [row_of_point (s_dir (sight_to a b))] with (dirs [l]).
    now rewrite point_distances_eq by (repeat constructor; assumption). }
  split; [assumption|]. split; [assumption|]. destruct (Pa a b Na) as [? ?]. destruct (Pa a' b' Na') as [? ?].
  do 4 (split; [assumption|]). split; [now apply is_distance_sqd|].
  assert (U2 : Forall unit_dir [l; r]) by (repeat constructor; assumption).
  assert (T2 : two_directions [l; r]).
  { (* parallel sights are rejected *)
    apply two_dirs. intros HP. rewrite triangulate_parallel in ET; [discriminate|assumption|].
    destruct HP as [k Ek].
    assert (Hk : k <> 0).
    { intros ->. unfold unit_dir in Ur. rewrite Ek in Ur. unfold dot in Ur. cbn in Ur. lra. }
    intros x y [<- | [<- | []]] [<- | [<- | []]].
    - exists 1. destruct (s_dir l); cbn; f_equal; ring.
    - exists k. exact Ek.
    - exists (/ k). rewrite Ek. cbn [v0 v1 v2]. rewrite <- !Rmult_assoc, Rinv_l, !Rmult_1_l by assumption. now destruct (s_dir l).
    - exists 1. destruct (s_dir r); cbn; f_equal; ring. }
  destruct (C24_least_squares_minimiser [[l; r]]) as (pts & Ep & HF); [constructor; [split; assumption|constructor]|].
  pose proof (n_view_nth _ _ Ep) as HN. inversion HN as [|? q ? ? Hq HN']; subst. inversion HN'; subst.
  inversion HF as [|? ? ? ? HF1 _]; subst. assert (q = p) as -> by congruence. exact HF1.
Qed.

(** Newton's method, run on the pixel alone, ends at the ground position [g]. *)
Definition newton_locates (m : rpc) (pos : num * num) (alt : R) (g : row3) : Prop :=
  exists row col lon lat, pos = (Some col, Some row) /\ g = R3 (Some lon) (Some lat) (Some alt) /\
    newton_run lonlat_ok m row col alt 10 (offset_x m) (offset_y m) lon lat.
Lemma rpc_sensor_locates m (V : list seen) (side : seen -> num * num) (g : seen -> row3) alt fill : usable_inverse m ->
  Forall (fun v => newton_locates m (side v) alt (g v)) V ->
  lm_direct (rpc_sensor m) (map (fun v => snd (side v)) V) (map (fun v => fst (side v)) V) alt fill = Some (map g V).
Proof.
  intros Hu H. cbn [rpc_sensor lm_direct].
  assert (HL : exists L : list located,
    map (fun v => snd (side v)) V = map (fun p => Some (l_row p)) L /\
    map (fun v => fst (side v)) V = map (fun p => Some (l_col p)) L /\
    map g V = map (fun p => R3 (Some (l_lon p)) (Some (l_lat p)) (Some alt)) L /\
    Forall (fun p => newton_run lonlat_ok m (l_row p) (l_col p) alt 10 (offset_x m) (offset_y m) (l_lon p) (l_lat p)) L).
  { induction H as [|v V (row & col & lon & lat & E1 & E2 & HN) H (L & I1 & I2 & I3 & I4)].
    - exists []. repeat split; constructor.
    - exists (Loc row col lon lat :: L). cbn [map l_row l_col l_lon l_lat]. rewrite E1, E2, I1, I2, I3.
      repeat split. constructor; assumption. }
  destruct HL as (L & -> & -> & -> & HF). now apply C12_iterative_value.
Qed.
(** With two RPC models: the localizations of the pixels at the two ends are the ones of Newton's
    method, pixel by pixel. *)
Theorem C71_rpc_ground_points_are_recovered :
  forall conv ml mr (V : list seen) lmm rmm fill llo lhi rlo rhi,
    pointwise_conv conv -> usable_inverse ml -> usable_inverse mr ->
    ends (rpc_sensor ml) lmm llo lhi -> ends (rpc_sensor mr) rmm rlo rhi ->
    Forall (fun v => newton_locates ml (m_left (sn_match v)) lhi (sn_ltop v) /\
                     newton_locates ml (m_left (sn_match v)) llo (sn_lbot v) /\
                     newton_locates mr (m_right (sn_match v)) rhi (sn_rtop v) /\
                     newton_locates mr (m_right (sn_match v)) rlo (sn_rbot v) /\
                     seen_by_both conv v) V ->
    sensor_triangulation conv (rpc_sensor ml) (rpc_sensor mr) (map sn_match V) lmm rmm true fill
    = Some (conv 4326%Z 4978%Z (map sn_ground V), map sn_ground V, Some (map (fun _ => [fin 0]) V)).
Proof.
  intros conv ml mr V lmm rmm fill llo lhi rlo rhi Hc Ul Ur El Er HV.
  eapply C71_ground_points_are_recovered; eauto.
  - apply (rpc_sensor_locates ml V (fun v => m_left (sn_match v))); [assumption|]. eapply Forall_impl; [|exact HV]. cbv beta. tauto.
  - apply (rpc_sensor_locates ml V (fun v => m_left (sn_match v))); [assumption|]. eapply Forall_impl; [|exact HV]. cbv beta. tauto.
  - apply (rpc_sensor_locates mr V (fun v => m_right (sn_match v))); [assumption|]. eapply Forall_impl; [|exact HV]. cbv beta. tauto.
  - apply (rpc_sensor_locates mr V (fun v => m_right (sn_match v))); [assumption|]. eapply Forall_impl; [|exact HV]. cbv beta. tauto.
  - eapply Forall_impl; [|exact HV]. cbv beta. tauto.
Qed.

(** Two models and the ground positions (10, 5, 3) and (20, 1, 4): the left image is the one of
    [ex_rpc] (column lon + alt), the right one has the column lon. *)
Definition rpc71 : rpc :=
  mkRpc (unit_at 1) (unit_at 0) (unit_at 2) (unit_at 0) (unit_at 1) (unit_at 0) (unit_at 2) (unit_at 0) true true
        0 1 0 1 0 1 0 1 0 1 4326.
Definition seen71 (x y z : R) : seen :=
  Seen (Match (Some (x + z), Some y) (Some x, Some y))
    (R3 (Some (x + z - 20)) (Some y) (Some 20)) (R3 (Some (x + z)) (Some y) (Some 0))
    (R3 (Some x) (Some y) (Some 20)) (R3 (Some x) (Some y) (Some 0)) (R3 (Some x) (Some y) (Some z)).
Lemma rpc71_affine alt : affine_at rpc71 alt 0 1 0 0 0 1.
Proof.
  intros lon lat. unfold regular_at, col_of, row_of, cubic, nx, ny, nz. simpl. repeat split; try lra; field.
Qed.
Lemma seen71_ok x y z : 5 <= x <= 100 -> 1 <= y <= 80 -> 0 <= z <= 20 ->
  newton_locates ex_rpc (m_left (sn_match (seen71 x y z))) 20 (sn_ltop (seen71 x y z)) /\
  newton_locates ex_rpc (m_left (sn_match (seen71 x y z))) 0 (sn_lbot (seen71 x y z)) /\
  newton_locates rpc71 (m_right (sn_match (seen71 x y z))) 20 (sn_rtop (seen71 x y z)) /\
  newton_locates rpc71 (m_right (sn_match (seen71 x y z))) 0 (sn_rbot (seen71 x y z)) /\
  seen_by_both (fun _ _ l => l) (seen71 x y z).
Proof.
  intros Hx Hy Hz.
  assert (HL : forall alt, 0 <= alt <= 20 -> newton_locates ex_rpc (Some (x + z), Some y) alt (R3 (Some (x + z - alt)) (Some y) (Some alt))).
  { intros alt Ha. exists y, (x + z), (x + z - alt), y. split; [reflexivity|]. split; [reflexivity|].
    apply (affine_newton_run ex_rpc y (x + z) alt alt 1 0 0 0 1); try (unfold lonlat_ok; simpl; lra); [apply ex_rpc_affine|].
    unfold reprojects. destruct (ex_rpc_affine alt (offset_x ex_rpc) (offset_y ex_rpc)) as (_ & -> & ->).
    intros [_ H]. revert H. simpl offset_x. simpl offset_y. rewrite Rabs_pos_eq; lra. }
  assert (HR : forall alt, newton_locates rpc71 (Some x, Some y) alt (R3 (Some x) (Some y) (Some alt))).
  { intros alt. exists y, x, x, y. split; [reflexivity|]. split; [reflexivity|].
    apply (affine_newton_run rpc71 y x alt 0 1 0 0 0 1); try (unfold lonlat_ok; simpl; lra); [apply rpc71_affine|].
    unfold reprojects. destruct (rpc71_affine alt (offset_x rpc71) (offset_y rpc71)) as (_ & -> & ->).
    intros [_ H]. revert H. simpl offset_x. simpl offset_y. rewrite Rabs_pos_eq; lra. }
  cbn [sn_match m_left m_right sn_ltop sn_lbot sn_rtop sn_rbot seen71].
  split; [apply HL; lra|]. split; [replace (x + z) with (x + z - 0) at 2 by ring; apply HL; lra|].
  split; [apply HR|]. split; [apply HR|].
  exists (V3 (x + z - 20) y 20), (V3 (x + z) y 0), (V3 x y 20), (V3 x y 0), (V3 x y z).
  do 6 (split; [reflexivity|]). split; [exists (z / 20); cbn; f_equal; field|]. split; [exists (z / 20); cbn; f_equal; field|].
  split; [intros E; injection E; lra|]. split; [intros E; injection E; lra|].
  intros [k E]. unfold minus3 in E. cbn [s_dir v0 v1 v2] in E. injection E as E1 _ E2. lra.
Qed.
Example C71_case :
  pointwise_conv (fun _ _ l => l) /\ usable_inverse ex_rpc /\ usable_inverse rpc71 /\
  ends (rpc_sensor ex_rpc) (Some (0, 20)) 0 20 /\ ends (rpc_sensor rpc71) (Some (0, 20)) 0 20 /\
  sensor_triangulation (fun _ _ l => l) (rpc_sensor ex_rpc) (rpc_sensor rpc71)
    [Match (Some (10 + 3), Some 5) (Some 10, Some 5); Match (Some (20 + 4), Some 1) (Some 20, Some 1)]
    (Some (0, 20)) (Some (0, 20)) true false
  = Some ([R3 (Some 10) (Some 5) (Some 3); R3 (Some 20) (Some 1) (Some 4)],
          [R3 (Some 10) (Some 5) (Some 3); R3 (Some 20) (Some 1) (Some 4)], Some [[fin 0]; [fin 0]]).
Proof.
  assert (Hc : pointwise_conv (fun _ _ l => l)) by (exists (fun _ _ p => p); intros; now rewrite map_id).
  assert (U : usable_inverse rpc71) by (repeat split; simpl; lra).
  split; [assumption|]. split; [apply ex_rpc_usable|]. split; [assumption|]. split; [reflexivity|]. split; [reflexivity|].
  apply (C71_rpc_ground_points_are_recovered (fun _ _ l => l) ex_rpc rpc71 [seen71 10 5 3; seen71 20 1 4]
    (Some (0, 20)) (Some (0, 20)) false 0 20 0 20 Hc ex_rpc_usable U eq_refl eq_refl).
  repeat (constructor; [apply seen71_ok; lra|]). constructor.
Qed.

(** The models of the library meet the hypothesis of C28: RPC answers once per position. *)
Lemma rpc_sensor_sized m : sized_model (rpc_sensor m).
Proof.
  intros pos alt fill out H. cbn [rpc_sensor lm_direct] in H. rewrite C12_scalar_altitude, map_length in H.
  pose (Q := map (fun p : num * num => NPix (snd p) (fst p) (Some alt)) pos).
  assert (E : direct_loc_h m (map n_row Q) (map n_col Q) (map n_alt Q) fill false = Some out).
  { unfold Q. rewrite !map_map. cbn [n_row n_col n_alt]. rewrite <- repeat_map. exact H. }
  destruct (inverse_coefficient m) eqn:EI.
  - destruct (C12_defined_and_shape m Q fill false EI) as (out' & E' & HL). rewrite E in E'.
    assert (out = out') as -> by congruence. rewrite HL. apply map_length.
  - rewrite (C12_missing_coefficients m Q fill false EI) in E. discriminate.
Qed.
Example C28_rpc_case :
  exists L, los_creation (fun _ _ l => l) (rpc_sensor rpc71) [(Some 10, Some 5); (nan, Some 3)] (Some (0, 20)) false = Some L /\
    length (viewing_vectors L) = 2%nat.
Proof.
  assert (Hc : pointwise_conv (fun _ _ l => l)) by (exists (fun _ _ p => p); intros; now rewrite map_id).
  assert (D : forall alt, exists out, lm_direct (rpc_sensor rpc71) [Some 5; Some 3] [Some 10; nan] alt false = Some out).
  { intros alt. destruct (C12_defined_and_shape rpc71 [NPix (Some 5) (Some 10) (Some alt); NPix (Some 3) nan (Some alt)] false false eq_refl)
      as (out & E & _). exists out. cbn [rpc_sensor lm_direct]. rewrite C12_scalar_altitude. exact E. }
  destruct (D 20) as [t Et], (D 0) as [b Eb].
  assert (EL : exists L, los_creation (fun _ _ l => l) (rpc_sensor rpc71) [(Some 10, Some 5); (nan, Some 3)] (Some (0, 20)) false = Some L).
  { eexists. apply (los_creation_sized _ (fun _ _ p => p) (rpc_sensor rpc71) [(Some 10, Some 5); (nan, Some 3)] (Some (0, 20)) false 0 20 t b);
      [intros; now rewrite map_id|reflexivity|exact Et|exact Eb|].
    rewrite (rpc_sensor_sized rpc71 [(Some 10, Some 5); (nan, Some 3)] 20 false t Et).
    now rewrite (rpc_sensor_sized rpc71 [(Some 10, Some 5); (nan, Some 3)] 0 false b Eb). }
  destruct EL as [L EL]. exists L. split; [assumption|].
  destruct (C28_unit_viewing_vectors _ _ _ _ _ _ Hc (rpc_sensor_sized rpc71) EL) as (? & ? & ? & ? & _ & _ & _ & _ & _ & _ & _ & HV & _).
  exact HV.
Qed.
