(** Properties of the stereo-rectification grids (C29 - C33). *)
From Coq Require Import Reals ZArith List Bool Lra Lia.
From Verif Require Import Num NumLemmas ProjModel RpcModel RpcDtmModel LocModel TriModel TriBatch
  RectModel RectSpec RectProofs RectStrip RectCpp RectGrid RectBox RectAdapt RectDisp.
Import ListNotations.
Open Scope R_scope.

(** ** C29: the epipolar angle *)
Theorem C29_angle_is_the_direction :
  forall (ss es : list vec3) k s e,
    nth_error ss k = Some s -> nth_error es k = Some e ->
    exists a,
      nth_error (compute_epipolar_angle (map node es) (map node ss)) k = Some (fin a)
      /\ cpp_epipolar_angle (node e) (node s) = fin a
      /\ has_direction s e a /\ - PI / 2 <= a < 3 * PI / 2
      /\ (v0 s <> v0 e \/ v1 s <> v1 e ->
          0 < image_distance s e /\ forall b, has_direction s e b -> - PI / 2 <= b < 3 * PI / 2 -> b = a).
Proof.
  intros ss es k s e Hs He. exists (direction s e). split.
  { revert ss es Hs He. induction k as [|k IH]; intros [|s0 ss] [|e0 es] Hs He; try discriminate.
    - injection Hs as ->. injection He as ->. unfold compute_epipolar_angle. cbn [map map2 nth_error]. rewrite epipolar_angle_node. reflexivity.
    - exact (IH ss es Hs He). }
  split; [apply cpp_epipolar_angle_node|]. split; [apply direction_has_direction|]. split; [apply direction_range|].
  intros Hd.
  assert (P : 0 < image_distance s e).
  { unfold image_distance. apply sqrt_lt_R0.
    assert (0 <= (v1 e - v1 s) * (v1 e - v1 s)) by apply Rle_0_sqr.
    assert (0 <= (v0 e - v0 s) * (v0 e - v0 s)) by apply Rle_0_sqr.
    destruct Hd as [Hd|Hd].
    - assert (0 < (v0 e - v0 s) * (v0 e - v0 s)) by (apply Rsqr_pos_lt; lra). lra.
    - assert (0 < (v1 e - v1 s) * (v1 e - v1 s)) by (apply Rsqr_pos_lt; lra). lra. }
  split; [exact P|]. intros b [B1 B2] HR. destruct (direction_has_direction s e) as [D1 D2].
  apply angle_unique; auto.
  - apply direction_range.
  - apply Rmult_eq_reg_l with (image_distance s e); lra.
  - apply Rmult_eq_reg_l with (image_distance s e); lra.
Qed.
Example C29_case : compute_epipolar_angle (map node [V3 1 3 0; V3 (-2) 3 0]) (map node [V3 1 5 0; V3 4 3 7]) = [fin PI; fin (- (1 / 2) * PI)].
Proof.
  unfold compute_epipolar_angle. cbn [map map2]. rewrite !epipolar_angle_node. unfold direction; cbn [v0 v1]. boo; try lra.
  repeat f_equal. replace ((1 - 1) / (3 - 5)) with 0 by field. rewrite atan_0. lra.
Qed.
(** The C++ twin differs from Python for failed points. *)
Theorem C29_same_angle_for_failed_points_refuted :
  exists e s, epipolar_angle e s = fin 0 /\ cpp_epipolar_angle e s = nan.
Proof. exists (R3 (fin 1) nan nan), (R3 (fin 0) (fin 0) (fin 0)). split; reflexivity. Qed.

(** ** C30: one step *)
Lemma moved_distance : forall axis d p a, axis_ok axis = true -> image_distance p (moved axis d p a) = Rabs d.
Proof.
  intros axis d p a Ha. unfold axis_ok in Ha. apply orb_true_iff in Ha. rewrite !Z.eqb_eq in Ha.
  unfold image_distance. rewrite <- sqrt_Rsqr_abs. f_equal. pose proof (sin2_cos2 a) as T. unfold Rsqr in *.
  destruct Ha as [-> | ->]; unfold moved; cbn [Z.eqb Pos.eqb v0 v1 v2]; nra.
Qed.

Theorem C30_step :
  forall (D : Type) (dtm_epsg : D -> Z) conv ml mr (ps : list vec3) (angles : list R) sp e step axis lefts rights g,
    moving_along_axis dtm_epsg conv ml mr (map node ps) sp e step (map fin angles) axis = Some (lefts, rights, g) ->
    (axis = 0 \/ axis = 1)%Z
    /\ coloc dtm_epsg conv ml mr (map lon3 lefts) (map lat3 lefts) e None None false = Some (rights, g)
    /\ forall k p a, nth_error ps k = Some p -> nth_error angles k = Some a ->
         exists q, nth_error lefts k = Some (node q)
           /\ image_distance p q = Rabs (step * sp) /\ v2 q = v2 p
           /\ (axis = 1%Z -> v1 q - v1 p = step * sp * cos a /\ v0 q - v0 p = step * sp * sin a)
           /\ (axis = 0%Z -> v1 q - v1 p = - (step * sp * sin a) /\ v0 q - v0 p = step * sp * cos a).
Proof.
  intros D dtm_epsg conv ml mr ps angles sp e step axis lefts rights g H.
  unfold moving_along_axis in H. destruct (axis_ok axis) eqn:Ha; [|discriminate].
  destruct (coloc_rows _ _ _ _ _ _) as [[r g']|] eqn:Ec; [|discriminate]. injection H as <- <- <-.
  split. { unfold axis_ok in Ha. apply orb_true_iff in Ha. rewrite !Z.eqb_eq in Ha. exact Ha. }
  split; [exact Ec|].
  intros k p a Hp Hk. exists (moved axis (step * sp) p a). split.
  { clear Ec. revert ps angles Hp Hk. induction k as [|k IH]; intros [|p0 ps] [|a0 angles] Hp Hk; try discriminate.
    - injection Hp as ->. injection Hk as ->. cbn [map map2 nth_error]. rewrite move_node_node by auto. reflexivity.
    - exact (IH ps angles Hp Hk). }
  split; [apply moved_distance; auto|]. split; [unfold moved; destruct (Z.eqb axis 1); reflexivity|].
  split; intros ->; unfold moved; cbn [Z.eqb Pos.eqb v0 v1]; split; ring.
Qed.

Theorem C30_other_axes_rejected :
  forall (D : Type) (dtm_epsg : D -> Z) conv (ml mr : geomodel D) ps p sp e step zstep angles a axis,
    axis <> 0%Z -> axis <> 1%Z ->
    moving_along_axis dtm_epsg conv ml mr ps sp e step angles axis = None
    /\ cpp_moving_along_axis ml mr p sp e zstep a axis = None.
Proof.
  intros D dtm_epsg conv ml mr ps p sp e step zstep angles a axis H0 H1.
  unfold moving_along_axis, axis_ok, cpp_moving_along_axis.
  rewrite (proj2 (Z.eqb_neq axis 0) H0), (proj2 (Z.eqb_neq axis 1) H1). split; reflexivity.
Qed.

Theorem C30_cpp_step :
  forall (D : Type) (ml mr : geomodel D) p sp e step a axis left_pt right_pt,
    cpp_moving_along_axis ml mr (node p) sp e step (fin a) axis = Some (left_pt, right_pt) ->
    (axis = 0 \/ axis = 1)%Z
    /\ cpp_coloc1 ml mr (lon3 left_pt) (lat3 left_pt) e = Some right_pt
    /\ exists q, left_pt = node q
         /\ image_distance p q = Rabs (IZR step * sp) /\ v2 q = v2 p
         /\ (axis = 1%Z -> v1 q - v1 p = IZR step * sp * cos a /\ v0 q - v0 p = IZR step * sp * sin a)
         /\ (axis = 0%Z -> v1 q - v1 p = - (IZR step * sp * sin a) /\ v0 q - v0 p = IZR step * sp * cos a).
Proof.
  intros D ml mr p sp e step a axis left_pt right_pt H.
  assert (Ha : axis_ok axis = true).
  { unfold cpp_moving_along_axis in H. unfold axis_ok. destruct (Z.eqb axis 0), (Z.eqb axis 1); try reflexivity. discriminate. }
  assert (Hx : (axis = 0 \/ axis = 1)%Z).
  { unfold axis_ok in Ha. apply orb_true_iff in Ha. rewrite !Z.eqb_eq in Ha. exact Ha. }
  split; [exact Hx|].
  pose proof (move_node_node axis (IZR step) sp p a Ha) as M. unfold move_node in M.
  unfold cpp_moving_along_axis in H.
  replace ((negb (axis =? 0) && negb (axis =? 1))%Z%bool) with false in H by (destruct Hx as [-> | ->]; reflexivity).
  cbv zeta in H. unfold move_node in M. rewrite M in H.
  destruct (cpp_coloc1 ml mr _ _ e) as [r|] eqn:Ec; [|discriminate]. injection H as <- <-. split; [exact Ec|].
  exists (moved axis (IZR step * sp) p a). split; [reflexivity|].
  split; [apply moved_distance; auto|]. split; [unfold moved; destruct (Z.eqb axis 1); reflexivity|].
  split; intros ->; unfold moved; cbn [Z.eqb Pos.eqb v0 v1]; split; ring.
Qed.

(** Geometric models made from functions on points; two flat cameras: the second one sees a point
    shifted by its altitude. *)
Definition plain_model {D} (pm : pmodel D) : geomodel D :=
  GeoModel 4326
    (fun r c h => Some (map2 (fun rc h => match rc, h with (Some r, Some c), Some h => node (pm_h pm r c h) | _, _ => nan3 end) (combine r c) h))
    (fun r c d => Some (map (fun rc => match rc with (Some r, Some c) => node (pm_d pm d r c) | _ => nan3 end) (combine r c)))
    (fun x y h => Some (map2 (fun xy h => match xy, h with
                                          | (Some x, Some y), Some h => let rc := pm_inv pm x y h in (fin (fst rc), fin (snd rc))
                                          | _, _ => (nan, nan) end) (combine x y) h))
    ((0, 0), (0, 0)).
Lemma plain_behaves : forall {D} (pm : pmodel D), behaves (plain_model pm) pm.
Proof.
  intros D pm. split; [|split].
  - intro l. cbn [plain_model gm_direct_h]. f_equal. induction l as [|[[a b] c] l IH]; [reflexivity|]. cbn. f_equal. exact IH.
  - intros d l. cbn [plain_model gm_direct_dtm]. f_equal. induction l as [|[a b] l IH]; [reflexivity|]. cbn. f_equal. exact IH.
  - intro l. cbn [plain_model gm_inverse]. f_equal. induction l as [|[[a b] c] l IH]; [reflexivity|]. cbn. f_equal. exact IH.
Qed.
(** [slope]: the terrain rises by [slope] for each row. *)
Definition cam_left (slope : R) : pmodel unit :=
  PModel (fun r c h => V3 c r h) (fun _ r c => V3 c r (slope * r)) (fun lon lat h => (lat, lon)).
Definition cam_right : pmodel unit :=
  PModel (fun r c h => V3 (c + h) r h) (fun _ r c => V3 c r 0) (fun lon lat h => (lat, lon - h)).
Lemma cam_end : forall slope sf dh p,
  v0 (epipolar_end (cam_left slope) cam_right sf dh p) = v0 p /\ v1 (epipolar_end (cam_left slope) cam_right sf dh p) = v1 p + dh.
Proof. intros slope [h|[]] dh p; cbn; split; ring. Qed.
Lemma cam_angle : forall slope sf off p, 0 < off -> angle_at (cam_left slope) cam_right sf off p = 0.
Proof.
  intros slope sf off p Ho. unfold angle_at, direction.
  destruct (cam_end slope sf off p) as [A B]. destruct (cam_end slope sf (- off) p) as [A' B']. rewrite A, B, A', B'.
  destruct (Reqb_spec (v1 p + off) (v1 p + - off)); [lra|]. destruct (Rltb_spec (v1 p + - off) (v1 p + off)); [|lra].
  replace ((v0 p - v0 p) / (v1 p + off - (v1 p + - off))) with 0 by (field; lra). apply atan_0.
Qed.
Lemma cam_ratio : forall slope sf off p, 0 < off -> local_ratio (cam_left slope) cam_right sf off p = 1.
Proof.
  intros slope sf off p Ho. unfold local_ratio, image_distance.
  destruct (cam_end slope sf off p) as [A B]. destruct (cam_end slope sf (- off) p) as [A' B']. rewrite A, B, A', B'.
  replace ((v1 p + off - (v1 p + - off)) * (v1 p + off - (v1 p + - off)) + (v0 p - v0 p) * (v0 p - v0 p)) with ((2 * off)²) by (unfold Rsqr; ring).
  rewrite sqrt_Rsqr by lra. field. lra.
Qed.

Example C30_case :
  let m := plain_model (cam_left 0) in
  exists l r g, moving_along_axis (fun _ => 4326%Z) (fun _ _ g => g) m (plain_model cam_right) (map node [V3 3 4 1]) 2
    (Elev (Scalar (fin 5))) 3 (map fin [0]) 0 = Some (l, r, g) /\ length l = 1%nat.
Proof.
  intro m. change (map node [V3 3 4 1]) with (map node [V3 3 4 1]).
  pose proof (moving (fun _ : unit => 4326%Z) (fun _ _ g => g) m (plain_model cam_right) (cam_left 0) cam_right (Plane 5)
                (plain_behaves _) (plain_behaves _) [V3 3 4 1] (fun _ => 0) 2 3 0 eq_refl) as E.
  eexists _, _, _. split; [exact E|reflexivity].
Qed.

(** ** C31: strips *)
(** Any models: the size, and the first nodes. *)
Theorem C31_strip_size :
  forall (D : Type) (dtm_epsg : D -> Z) conv ml mr left_pts right_pts sp axis n step e off known st,
    left_pts <> [] ->
    compute_strip_of_epipolar_grid dtm_epsg conv ml mr left_pts right_pts sp axis n step e off known None = Some st ->
    length (st_left st) = n /\ length (st_right st) = n /\ length (st_angles st) = n
    /\ nth_error (st_left st) 0 = Some left_pts /\ nth_error (st_right st) 0 = Some right_pts.
Proof. intros. eapply strip_size_exact; eauto. Qed.

Lemma axis_ok_of : forall axis, (axis = 0 \/ axis = 1)%Z -> axis_ok axis = true.
Proof. intros axis [-> | ->]; reflexivity. Qed.

Lemma angle_epi : forall (D : Type) (pl pr : pmodel D) s off p, epipolar_direction pl pr s off p (angle_at pl pr s off p).
Proof. intros. split; [apply direction_has_direction|apply direction_range]. Qed.

Lemma lines_next : forall (D : Type) (pl pr : pmodel D) s off axis d n st k line,
  nth_error (st :: lines pl pr s off axis d n st) (S k) = Some line ->
  exists prev, nth_error (st :: lines pl pr s off axis d n st) k = Some prev /\ line = map (step1 pl pr s off axis d) prev.
Proof.
  intros D pl pr s off axis d n. induction n as [|n IH]; intros st k line H.
  - destruct k; discriminate.
  - destruct k as [|k].
    + cbn in H. injection H as <-. exists st. split; reflexivity.
    + destruct (IH (map (step1 pl pr s off axis d) st) k line H) as (prev & E & ->). exists prev. split; [exact E|reflexivity].
Qed.

Lemma combine_split : forall {A B} (l : list (A * B)), combine (map fst l) (map snd l) = l.
Proof. induction l as [|[a b] l IH]; cbn; congruence. Qed.
Lemma hd_map_map : forall {A B} (f : A -> B) x ls, map (map f) (x :: ls) = map f x :: map (map f) ls.
Proof. reflexivity. Qed.

Theorem C31_strip_follows_the_epipolar_directions :
  forall (D : Type) (dtm_epsg : D -> Z) conv ml mr (pl pr : pmodel D) s off known ps right_pts sp axis n step,
    behaves ml pl -> behaves mr pr -> off <> 0 -> (axis = 0 \/ axis = 1)%Z -> ps <> [] ->
    match known with None => (1 <= n)%nat | Some a => (2 <= n)%nat /\ length a = length ps end ->
    exists st L A first,
      compute_strip_of_epipolar_grid dtm_epsg conv ml mr (map node ps) right_pts sp axis n step (elev_of s) off
        (option_map (map fin) known) None = Some st
      /\ length L = n /\ nth_error L 0 = Some ps
      /\ st_left st = map (map node) L
      /\ st_right st = right_pts :: map (map (fun p => node (matched pl pr s p))) (tl L)
      /\ st_angles st = map (map fin) A
      /\ match known with None => Forall2 (epipolar_direction pl pr s off) ps first | Some a => first = a end
      /\ steps pl pr s off axis (step * sp) first L A.
Proof.
  intros D dtm_epsg conv ml mr pl pr s off known ps right_pts sp axis n step Hl Hr Ho Hx Hps Hk.
  pose proof (strip_plain dtm_epsg conv ml mr pl pr s off Hl Hr Ho known ps right_pts sp axis n step (axis_ok_of _ Hx) Hps) as E.
  assert (Hk' : known_ok known ps n) by exact Hk. specialize (E Hk'). cbv zeta in E.
  set (st0 := with_angles pl pr s off known ps) in *.
  set (rest := lines pl pr s off axis (step * sp) (n - 1) st0) in *.
  assert (F0 : map fst st0 = ps).
  { unfold st0, with_angles. destruct known as [a|]; [apply combine_fst; apply Hk|]. rewrite map_map. cbn [fst]. apply map_id. }
  eexists. exists (map (map fst) (st0 :: rest)), (map (map snd) (st0 :: rest)), (map snd st0).
  split; [exact E|].
  split. { rewrite map_length. cbn [length]. unfold rest. rewrite lines_length. destruct known; lia. }
  split. { cbn [map nth_error]. rewrite F0. reflexivity. }
  cbn [st_left st_right st_angles].
  split. { rewrite <- F0. cbn [map]. f_equal. rewrite map_map. apply map_ext. intro l. rewrite map_map. reflexivity. }
  split. { cbn [map tl]. f_equal. rewrite map_map. apply map_ext. intro l. rewrite map_map. reflexivity. }
  split. { cbn [map]. rewrite !map_map. f_equal. apply map_ext. intro l. rewrite map_map. reflexivity. }
  split.
  { unfold st0, with_angles. destruct known as [a|]; [apply combine_snd; apply Hk|].
    rewrite map_map. cbn [snd]. clear. induction ps; constructor; auto. apply angle_epi. }
  assert (NX : forall k line, nth_error (map (map fst) (st0 :: rest)) (S k) = Some line ->
     exists prev, nth_error (st0 :: rest) k = Some prev /\ nth_error (st0 :: rest) (S k) = Some (map (step1 pl pr s off axis (step * sp)) prev)
                  /\ line = map fst (map (step1 pl pr s off axis (step * sp)) prev)).
  { intros k line H. rewrite nth_error_map in H. destruct (nth_error (st0 :: rest) (S k)) as [l|] eqn:El; [|discriminate].
    cbn in H. injection H as <-. destruct (lines_next _ _ _ _ _ _ _ _ _ _ _ El) as (prev & E1 & ->). exists prev. auto. }
  split; [reflexivity|]. split; [|split].
  - intros k line a H1 H2. rewrite nth_error_map in H1, H2. destruct (nth_error (st0 :: rest) k); [|discriminate].
    cbn in H1, H2. injection H1 as <-. injection H2 as <-. rewrite !map_length. reflexivity.
  - intros k line next a H1 H2 H3. destruct (NX k next H2) as (prev & E1 & E2 & ->).
    rewrite nth_error_map, E1 in H1, H3. cbn in H1, H3. injection H1 as <-. injection H3 as <-. rewrite combine_split.
    rewrite map_map. reflexivity.
  - intros k line a H1 H2. destruct (NX k line H1) as (prev & E1 & E2 & ->).
    rewrite nth_error_map, E2 in H2. cbn in H2. injection H2 as <-. rewrite combine_split.
    apply Forall_forall. intros [p b] Hin. apply in_map_iff in Hin. destruct Hin as ([p0 b0] & Heq & _). unfold step1 in Heq.
    injection Heq as <- <-. cbn [fst snd]. destruct (angle_epi _ pl pr s off (moved axis (step * sp) p0 b0)) as [Q1 Q2]. auto.
Qed.
Example C31_case :
  exists st, compute_strip_of_epipolar_grid (fun _ => 4326%Z) (fun _ _ g => g) (plain_model (cam_left 2)) (plain_model cam_right)
    (map node [V3 3 4 1; V3 7 8 0]) [nan3; nan3] 2 0 5 3 (Dtm tt) 50 None None = Some st /\ length (st_left st) = 5%nat.
Proof.
  destruct (C31_strip_follows_the_epipolar_directions unit (fun _ => 4326%Z) (fun _ _ g => g) _ _ _ _ (Terrain tt) 50 None
              [V3 3 4 1; V3 7 8 0] [nan3; nan3] 2 0 5 3 (plain_behaves (cam_left 2)) (plain_behaves cam_right))
    as (st & L & A & f & E & HL & _ & EL & _); try lra; auto; try discriminate.
  exists st. split; [exact E|]. rewrite EL, map_length. exact HL.
Qed.

(** The C++ twin gives the same nodes, angles and mean ratio. *)
Lemma nth_map2 : forall {A B C} (f : A -> B -> C) a b i,
  nth_error (map2 f a b) i = match nth_error a i, nth_error b i with Some x, Some y => Some (f x y) | _, _ => None end.
Proof.
  intros A B C f. induction a as [|x a IH]; intros b i; [destruct i; reflexivity|].
  destruct b as [|y b]; [destruct i; cbn; [reflexivity|destruct (nth_error a i); reflexivity]|].
  destruct i; [reflexivity|exact (IH b i)].
Qed.
Lemma map2_length2 : forall {A B C} (f : A -> B -> C) a b, length a = length b -> length (map2 f a b) = length b.
Proof. intros A B C f. induction a as [|x a IH]; intros [|y b] H; try discriminate; [reflexivity|]. cbn [map2 length] in *. f_equal. apply IH. lia. Qed.
Theorem C31_cpp_gives_the_same_strip :
  forall (D : Type) (dtm_epsg : D -> Z) conv ml mr (pl pr : pmodel D) s off known ps right_pts sp axis n step,
    behaves ml pl -> behaves mr pr -> off <> 0 -> (axis = 0 \/ axis = 1)%Z -> ps <> [] -> length right_pts = length ps ->
    match known with None => (1 <= n)%nat | Some a => (2 <= n)%nat /\ length a = length ps end ->
    exists st nodes,
      compute_strip_of_epipolar_grid dtm_epsg conv ml mr (map node ps) right_pts sp axis n (IZR step) (elev_of s) off
        (option_map (map fin) known) None = Some st
      /\ cpp_compute_strip ml mr (map node ps) right_pts sp axis n step (elev_of s) off
           match known with None => [nan] | Some a => map fin a end = Some (nodes, st_mean st, st_nan st)
      /\ length nodes = length ps
      /\ forall i k, entry nodes i k
           = match entry (st_left st) k i, entry (st_right st) k i, entry (st_angles st) k i with
             | Some l, Some r, Some a => Some (l, r, a) | _, _, _ => None end.
Proof.
  intros D dtm_epsg conv ml mr pl pr s off known ps right_pts sp axis n step Hl Hr Ho Hx Hps Hrl Hk.
  pose proof (strip_plain dtm_epsg conv ml mr pl pr s off Hl Hr Ho known ps right_pts sp axis n (IZR step) (axis_ok_of _ Hx) Hps Hk) as E.
  pose proof (cpp_strip_plain ml mr pl pr s off Hl Hr Ho known ps right_pts sp axis n step (axis_ok_of _ Hx) Hps Hrl Hk) as E2.
  cbv zeta in E, E2.
  set (st0 := with_angles pl pr s off known ps) in *. 
  assert (F0 : map fst st0 = ps).
  { unfold st0, with_angles. destruct known as [a|]; [apply combine_fst; apply Hk|]. rewrite map_map. cbn [fst]. apply map_id. }
  eexists _, _. split; [exact E|]. split; [exact E2|]. cbn [st_left st_right st_angles].
  assert (L0 : length st0 = length ps) by (rewrite <- F0; rewrite map_length; reflexivity).
  split. { rewrite map2_length2; lia. }
  intros i k. unfold entry at 1. rewrite nth_map2. rewrite <- F0 at 1. destruct k as [|k].
  - unfold entry. cbn [nth_error]. rewrite map_map, !nth_error_map.
    destruct (nth_error st0 i) as [pa|] eqn:Ei.
    + cbn [option_map]. destruct (nth_error right_pts i); reflexivity.
    + cbn [option_map]. destruct (nth_error right_pts i); reflexivity.
  - assert (En : forall {B} (f : vec3 * R -> B) (x : list B), entry (x :: map (map f) (lines pl pr s off axis (IZR step * sp) (n - 1) st0)) (S k) i
                 = option_map f (match nth_error st0 i with Some pa => nth_error (trail pl pr s off axis (IZR step * sp) (n - 1) pa) k | None => None end)).
    { intros B f x. unfold entry at 1. cbn [nth_error]. rewrite nth_error_map.
      pose proof (lines_trail pl pr s off axis (IZR step * sp) (n - 1) st0 i k) as LT. unfold entry in LT. rewrite nth_error_map in LT.
      destruct (nth_error (lines pl pr s off axis (IZR step * sp) (n - 1) st0) k) as [l|]; cbn [option_map] in *.
      - rewrite nth_error_map, LT. destruct (nth_error st0 i); reflexivity.
      - destruct (nth_error st0 i); cbn [option_map] in *; [rewrite <- LT|]; reflexivity. }
    rewrite !En. destruct (nth_error st0 i) as [pa|] eqn:Ei.
    + assert (Hi : (i < length right_pts)%nat) by (rewrite Hrl, <- L0; apply nth_error_Some; congruence).
      destruct (nth_error right_pts i) as [q|] eqn:Eq; [|apply nth_error_None in Eq; lia].
      unfold cpp_node. cbn [nth_error]. rewrite nth_error_map. destruct (nth_error (trail _ _ _ _ _ _ _ _) k); reflexivity.
    + cbn [option_map]. destruct (nth_error right_pts i); reflexivity.
Qed.

(** The whole grids. *)
Lemma trail_next : forall (D : Type) (pl pr : pmodel D) s off axis d n pa j y,
  nth_error (pa :: trail pl pr s off axis d n pa) (S j) = Some y ->
  exists x, nth_error (pa :: trail pl pr s off axis d n pa) j = Some x /\ y = step1 pl pr s off axis d x.
Proof.
  intros D pl pr s off axis d n. induction n as [|n IH]; intros pa j y H.
  - destruct j; discriminate.
  - destruct j as [|j].
    + cbn in H. injection H as <-. exists pa. split; reflexivity.
    + destruct (IH (step1 pl pr s off axis d pa) j y H) as (x & E & ->). exists x. split; [exact E|reflexivity].
Qed.
Lemma trail_angle : forall (D : Type) (pl pr : pmodel D) s off axis d n pa x,
  snd pa = angle_at pl pr s off (fst pa) -> In x (pa :: trail pl pr s off axis d n pa) -> snd x = angle_at pl pr s off (fst x).
Proof.
  intros D pl pr s off axis d n. induction n as [|n IH]; intros pa x Hpa [<- | H]; auto; try contradiction.
  cbn [trail] in H. apply IH in H; auto.
Qed.
Lemma grid_ok : forall (D : Type) (pl pr : pmodel D) s off d g0 g1 p, (1 <= g0)%nat -> (1 <= g1)%nat ->
  let L := map (map fst) (grid_nodes pl pr s off d g0 g1 p) in
  shaped g0 g1 L /\ epipolar_grid pl pr s off d p L.
Proof.
  intros D pl pr s off d g0 g1 p H0 H1 L.
  set (col := grid_column pl pr s off d g0 p) in *.
  assert (HE : forall i j, entry L i j
            = match nth_error col i with Some pa => option_map fst (nth_error (pa :: trail pl pr s off 1 d (g1 - 1) pa) j) | None => None end).
  { intros i j. unfold L, grid_nodes. rewrite map_entry. unfold entry. rewrite nth_error_map. fold col.
    destruct (nth_error col i); reflexivity. }
  assert (HA : forall i x, nth_error col i = Some x -> snd x = angle_at pl pr s off (fst x)).
  { intros i x Hx. apply nth_error_In in Hx. unfold col, grid_column in Hx. eapply trail_angle; [|exact Hx]. reflexivity. }
  split.
  - split.
    + unfold L, grid_nodes. rewrite !map_length. unfold grid_column. cbn [length]. rewrite trail_length. lia.
    + intros l Hl. unfold L, grid_nodes in Hl. rewrite map_map in Hl. apply in_map_iff in Hl. destruct Hl as (pa & <- & _).
      rewrite map_length. cbn [length]. rewrite trail_length. lia.
  - split.
    + rewrite HE. unfold col, grid_column. reflexivity.
    + intros i j q Hq. rewrite HE in Hq. destruct (nth_error col i) as [pa|] eqn:Ei; [|discriminate].
      destruct (nth_error (pa :: _) j) as [x|] eqn:Ej; [|discriminate]. cbn in Hq. injection Hq as <-.
      assert (HX : snd x = angle_at pl pr s off (fst x)).
      { eapply trail_angle; [exact (HA _ _ Ei)|]. eapply nth_error_In; exact Ej. }
      exists (snd x). split; [rewrite HX; apply angle_epi|]. split.
      * intros q Hq. rewrite HE, Ei in Hq. destruct (nth_error (pa :: _) (S j)) as [y|] eqn:Ey; [|discriminate].
        cbn in Hq. injection Hq as <-. destruct (trail_next _ _ _ _ _ _ _ _ _ _ _ Ey) as (x' & E' & ->).
        rewrite Ej in E'. injection E' as <-. reflexivity.
      * intros -> q Hq. cbn in Ej. injection Ej as ->. rewrite HE in Hq. destruct (nth_error col (S i)) as [y|] eqn:Ey; [|discriminate].
        cbn in Hq. injection Hq as <-. unfold col, grid_column in Ey, Ei.
        destruct (trail_next _ _ _ _ _ _ _ _ _ _ _ Ey) as (x' & E' & ->). rewrite Ei in E'. injection E' as <-. reflexivity.
Qed.

(** Sizes of the grids of an image. *)
Lemma grid_big : forall im step margin alpha alt, (0 <= li_rows im)%Z -> (0 <= li_cols im)%Z -> 0 < mean_spacing im -> 0 < step -> (0 <= margin)%Z ->
  (2 <= Z.to_nat (fst (pr_grid_size (prepare_at im step margin alpha alt))))%nat
  /\ (2 <= Z.to_nat (snd (pr_grid_size (prepare_at im step margin alpha alt))))%nat.
Proof.
  intros im step margin alpha alt HR HC Hs Hst Hm. rewrite grid_size_eq. cbn [fst snd].
  destruct (box_ordered im alpha HR HC) as [B1 B2].
  assert (N : forall ext, 0 <= ext -> (2 <= nodes_of ext (mean_spacing im) step margin)%Z).
  { intros ext He. unfold nodes_of. apply grid_count_ge; auto. apply trunc_div; auto. }
  pose proof (N (box_maxy (epipolar_box im alpha) - box_miny (epipolar_box im alpha)) ltac:(lra)).
  pose proof (N (box_maxx (epipolar_box im alpha) - box_minx (epipolar_box im alpha)) ltac:(lra)). lia.
Qed.

Theorem C31_whole_grid :
  forall (D : Type) (dtm_epsg : D -> Z) conv ml mr (pl pr : pmodel D) s off im step margin,
    behaves ml pl -> behaves mr pr -> off <> 0 ->
    (0 <= li_rows im)%Z -> (0 <= li_cols im)%Z -> 0 < mean_spacing im -> 0 < step -> (0 <= margin)%Z ->
    exists P p L size ratio,
      prepare_rectification dtm_epsg conv ml mr im (elev_of s) step off margin = Some P /\ pr_start P = node p
      /\ compute_stereorectification_epipolar_grids dtm_epsg conv ml mr im (elev_of s) step off margin None
         = Some (map (map node) L, map (map (fun q => node (matched pl pr s q))) L, size, ratio)
      /\ size = pr_rectified_size P
      /\ shaped (Z.to_nat (fst (pr_grid_size P))) (Z.to_nat (snd (pr_grid_size P))) L
      /\ epipolar_grid pl pr s off (step * mean_spacing im) p L.
Proof.
  intros D dtm_epsg conv ml mr pl pr s off im step margin Hl Hr Ho HR HC Hs Hst Hm.
  set (P := prepare_at im step margin (start_angle pl pr s off im) (fin (start_alt pl pr s off im))).
  destruct (prepare_start im step margin (start_angle pl pr s off im) (start_alt pl pr s off im)) as [p Hp].
  destruct (grid_big im step margin (start_angle pl pr s off im) (fin (start_alt pl pr s off im)) HR HC Hs Hst Hm) as [G0 G1].
  fold P in Hp, G0, G1.
  pose proof (stereo_plain dtm_epsg conv ml mr pl pr s off Hl Hr Ho im step margin p) as E. cbv zeta in E. fold P in E.
  specialize (E Hp ltac:(lia) G1).
  exists P, p, (map (map fst) (grid_nodes pl pr s off (step * mean_spacing im) (Z.to_nat (fst (pr_grid_size P))) (Z.to_nat (snd (pr_grid_size P))) p)).
  eexists _, _. split; [apply (prepare_plain _ _ _ _ pl pr); auto|]. split; [exact Hp|]. split.
  { rewrite E. f_equal. f_equal. f_equal. f_equal.
    - rewrite map_map. apply map_ext. intro l. rewrite map_map. reflexivity.
    - rewrite map_map. apply map_ext. intro l. rewrite map_map. reflexivity. }
  split; [reflexivity|]. apply grid_ok; lia.
Qed.
Definition tiny : left_image := LeftImage (mkAffine 1 0 0 0 1 0) 1 3.
Lemma tiny_spacing : mean_spacing tiny = 1.
Proof. unfold mean_spacing, tiny; cbn. rewrite Rabs_pos_eq by lra. lra. Qed.
Example C31_whole_grid_case :
  exists l r size ratio, compute_stereorectification_epipolar_grids (fun _ => 4326%Z) (fun _ _ g => g) (plain_model (cam_left 2)) (plain_model cam_right)
    tiny (Dtm tt) 1 50 0 None = Some (l, r, size, ratio).
Proof.
  destruct (C31_whole_grid unit (fun _ => 4326%Z) (fun _ _ g => g) _ _ _ _ (Terrain tt) 50 tiny 1 0
              (plain_behaves (cam_left 2)) (plain_behaves cam_right)) as (P & p & L & size & ratio & _ & _ & E & _);
    try lra; try (cbn; lia). { rewrite tiny_spacing; lra. }
  eexists _, _, _, _. exact E.
Qed.

(** ** C32: the mean baseline ratio *)
(** Of a strip: the mean of the local ratios of its nodes (of the nodes after the first ones, if
    their angles are given). *)
Theorem C32_strip_mean :
  forall (D : Type) (dtm_epsg : D -> Z) conv ml mr (pl pr : pmodel D) s off known ps right_pts sp axis n step st L,
    behaves ml pl -> behaves mr pr -> off <> 0 -> (axis = 0 \/ axis = 1)%Z -> ps <> [] ->
    match known with None => (1 <= n)%nat | Some a => (2 <= n)%nat /\ length a = length ps end ->
    compute_strip_of_epipolar_grid dtm_epsg conv ml mr (map node ps) right_pts sp axis n step (elev_of s) off
        (option_map (map fin) known) None = Some st ->
    st_left st = map (map node) L ->
    st_mean st = fin (mean (map (local_ratio pl pr s off) (concat (match known with None => L | Some _ => tl L end)))).
Proof.
  intros D dtm_epsg conv ml mr pl pr s off known ps right_pts sp axis n step st L Hl Hr Ho Hx Hps Hk H EL.
  rewrite (strip_plain dtm_epsg conv ml mr pl pr s off Hl Hr Ho known ps right_pts sp axis n step (axis_ok_of _ Hx) Hps Hk) in H.
  cbv zeta in H. injection H as <-. cbn [st_left st_mean] in *.
  set (st0 := with_angles pl pr s off known ps) in *.
  set (rest := lines pl pr s off axis (step * sp) (n - 1) st0) in *.
  assert (Inj : forall a b : vec3, node a = node b -> a = b).
  { intros [a0 a1 a2] [b0 b1 b2] Hn. unfold node in Hn; cbn in Hn. injection Hn as -> -> ->. reflexivity. }
  assert (Inj1 : forall a b, map node a = map node b -> a = b).
  { induction a as [|x a IH]; intros [|y b] Hn; try discriminate; [reflexivity|]. cbn in Hn. 
    f_equal; [apply Inj; congruence|apply IH; congruence]. }
  assert (Inj2 : forall a b, map (map node) a = map (map node) b -> a = b).
  { induction a as [|x a IH]; intros [|y b] Hn; try discriminate; [reflexivity|]. cbn [map] in Hn.
    f_equal; [apply Inj1; congruence|apply IH; congruence]. }
  assert (EL' : L = ps :: map (map fst) rest).
  { apply Inj2. rewrite <- EL. cbn [map]. f_equal. rewrite map_map. apply map_ext. intro l. rewrite map_map. reflexivity. }
  rewrite EL'. unfold computed_nodes. destruct known; reflexivity.
Qed.

(** Of the whole grids: the value returned, when all the local ratios are the same. *)
Lemma mean_const : forall (l : list R) r, l <> [] -> (forall x, In x l -> x = r) -> mean l = r.
Proof.
  intros l r Hne H. unfold mean.
  assert (S : sum l = INR (length l) * r).
  { clear Hne. induction l as [|x l IH]; [cbn; ring|]. cbn [sum fold_right length]. rewrite S_INR. fold (sum l).
    rewrite IH by (intros; apply H; right; auto). rewrite (H x (or_introl eq_refl)). ring. }
  rewrite S. field. destruct l; [congruence|]. apply not_0_INR. discriminate.
Qed.
Lemma stereo_value : forall (D : Type) (dtm_epsg : D -> Z) conv ml mr (pl pr : pmodel D) s off im step margin l r size ratio,
    behaves ml pl -> behaves mr pr -> off <> 0 ->
    (0 <= li_rows im)%Z -> (0 <= li_cols im)%Z -> 0 < mean_spacing im -> 0 < step -> (0 <= margin)%Z ->
    compute_stereorectification_epipolar_grids dtm_epsg conv ml mr im (elev_of s) step off margin None = Some (l, r, size, ratio) ->
    exists g0 g1 p, (2 <= g0)%nat /\ (2 <= g1)%nat /\
      l = map (map as_left) (grid_nodes pl pr s off (step * mean_spacing im) g0 g1 p) /\
      ratio = global_mean g0 g1 (map (fun pa => local_ratio pl pr s off (fst pa)) (grid_column pl pr s off (step * mean_spacing im) g0 p))
              (map (fun pa => local_ratio pl pr s off (fst pa)) (concat (lines pl pr s off 1 (step * mean_spacing im) (g1 - 1) (grid_column pl pr s off (step * mean_spacing im) g0 p))))
      /\ g0 = Z.to_nat (fst (pr_grid_size (prepare_at im step margin (start_angle pl pr s off im) (fin (start_alt pl pr s off im)))))
      /\ g1 = Z.to_nat (snd (pr_grid_size (prepare_at im step margin (start_angle pl pr s off im) (fin (start_alt pl pr s off im))))).
Proof.
  intros D dtm_epsg conv ml mr pl pr s off im step margin l r size ratio Hl Hr Ho HR HC Hs Hst Hm H.
  set (P := prepare_at im step margin (start_angle pl pr s off im) (fin (start_alt pl pr s off im))).
  destruct (prepare_start im step margin (start_angle pl pr s off im) (start_alt pl pr s off im)) as [p Hp].
  destruct (grid_big im step margin (start_angle pl pr s off im) (fin (start_alt pl pr s off im)) HR HC Hs Hst Hm) as [G0 G1].
  fold P in Hp, G0, G1.
  pose proof (stereo_plain dtm_epsg conv ml mr pl pr s off Hl Hr Ho im step margin p) as E. cbv zeta in E. fold P in E.
  specialize (E Hp ltac:(lia) G1). rewrite E in H. injection H as <- <- <- <-.
  exists (Z.to_nat (fst (pr_grid_size P))), (Z.to_nat (snd (pr_grid_size P))), p.
  split; [exact G0|]. split; [exact G1|]. split; [reflexivity|]. split; [reflexivity|]. split; reflexivity.
Qed.
Lemma rest_length : forall (D : Type) (pl pr : pmodel D) s off d n st,
  length (concat (lines pl pr s off 1 d n st)) = (n * length st)%nat.
Proof.
  intros. rewrite (concat_const (length st)). rewrite lines_length. reflexivity. intros l Hl. eapply lines_inner; eauto.
Qed.
Lemma column_length : forall (D : Type) (pl pr : pmodel D) s off d g0 p, (1 <= g0)%nat -> length (grid_column pl pr s off d g0 p) = g0.
Proof. intros. unfold grid_column. cbn [length]. rewrite trail_length. lia. Qed.

Theorem C32_value_for_a_constant_ratio :
  forall (D : Type) (dtm_epsg : D -> Z) conv ml mr (pl pr : pmodel D) s off im step margin rho l r size ratio g0 g1,
    behaves ml pl -> behaves mr pr -> off <> 0 ->
    (0 <= li_rows im)%Z -> (0 <= li_cols im)%Z -> 0 < mean_spacing im -> 0 < step -> (0 <= margin)%Z ->
    (forall p, local_ratio pl pr s off p = rho) ->
    compute_stereorectification_epipolar_grids dtm_epsg conv ml mr im (elev_of s) step off margin None = Some (l, r, size, ratio) ->
    shaped g0 g1 l ->
    ratio = fin (rho * (INR g1 * (INR g0 - 1) + INR g0) / (INR g0 * INR g1)).
Proof.
  intros D dtm_epsg conv ml mr pl pr s off im step margin rho l r size ratio g0 g1 Hl Hr Ho HR HC Hs Hst Hm Hrho H HS.
  destruct (stereo_value _ _ _ _ _ _ _ _ _ _ _ _ _ _ _ _ Hl Hr Ho HR HC Hs Hst Hm H) as (h0 & h1 & p & G0 & G1 & -> & -> & _ & _).
  assert (E0 : h0 = g0).
  { destruct HS as [HS _]. rewrite map_length in HS. unfold grid_nodes in HS. rewrite map_length, column_length in HS by lia. exact HS. }
  assert (E1 : h1 = g1).
  { destruct HS as [_ HS]. unfold grid_nodes, grid_column in HS. cbn [map] in HS. specialize (HS _ (or_introl eq_refl)).
    cbn [map length] in HS. rewrite map_length, trail_length in HS. lia. }
  subst h0 h1. unfold global_mean.
  rewrite (mean_const (map _ (concat _)) rho), (mean_const (map _ (grid_column _ _ _ _ _ _ _)) rho).
  - assert (0 < INR g0) by (apply lt_0_INR; lia). assert (0 < INR g1) by (apply lt_0_INR; lia).
    unfold ndiv, fin. destruct (Req_EM_T (INR g1 * INR g0) 0) as [E|E]; [nra|]. f_equal. field. lra.
  - unfold grid_column. discriminate.
  - intros x Hx. apply in_map_iff in Hx. destruct Hx as (pa & <- & _). auto.
  - intro E. apply (f_equal (@length R)) in E. rewrite map_length, rest_length, column_length in E by lia. cbn in E. nia.
  - intros x Hx. apply in_map_iff in Hx. destruct Hx as (pa & <- & _). auto.
Qed.

Ltac minmax := repeat match goal with
  | |- context [Rmax ?a ?b] => first [rewrite (Rmax_left a b) by lra | rewrite (Rmax_right a b) by lra]
  | |- context [Rmin ?a ?b] => first [rewrite (Rmin_left a b) by lra | rewrite (Rmin_right a b) by lra]
  end.
Lemma tiny_size : forall s off alt margin, 0 < off ->
  pr_grid_size (prepare_at tiny 1 margin (start_angle (cam_left 0) cam_right s off tiny) alt) = (3 + 2 * margin, 5 + 2 * margin)%Z.
Proof.
  intros s off alt margin Ho. rewrite grid_size_eq. unfold start_angle.
  destruct (transform_index_to_physical_point (li_transform tiny) 0 0) as [r c]. rewrite cam_angle by auto.
  rewrite tiny_spacing. unfold epipolar_box, tiny; cbn [li_transform li_rows li_cols af_a af_e]. rewrite cos_0, sin_0.
  unfold box_maxy, box_miny, box_maxx, box_minx, min4, max4, nodes_of.
  replace (1 * 3 * 1) with 3 by ring. replace (0 * 1 * 1) with 0 by ring. replace (- 0 * 3 * 1) with 0 by ring. replace (1 * 1 * 1) with 1 by ring.
  replace (3 + 0) with 3 by ring. replace (0 + 1) with 1 by ring.
  minmax.
  assert (T : forall x z, x = IZR z -> (0 <= z)%Z -> Rtrunc x = z).
  { intros x z -> Hz. rewrite Rtrunc_nonneg by (apply IZR_le; auto). apply Rfloor_unique. lra. }
  rewrite (T ((1 - 0) / 1) 1%Z) by (lia || field). rewrite (T ((3 - 0) / 1) 3%Z) by (lia || field).
  rewrite (T (1 / 1 + 2) 3%Z) by (lia || field). rewrite (T (3 / 1 + 2) 5%Z) by (lia || field). reflexivity.
Qed.
Theorem C32_mean_of_the_grid_refuted :
  exists im ml mr pl pr (s : surface unit) off l r size ratio,
    behaves ml pl /\ behaves mr pr /\ 0 < off
    /\ (forall p, local_ratio pl pr s off p = 1)
    /\ compute_stereorectification_epipolar_grids (fun _ => 4326%Z) (fun _ _ g => g) ml mr im (elev_of s) 1 off 0 None
       = Some (l, r, size, ratio)
    /\ ratio = fin (13 / 15).
Proof.
  destruct (C31_whole_grid unit (fun _ => 4326%Z) (fun _ _ g => g) _ _ _ _ (Plane 0) 50 tiny 1 0
              (plain_behaves (cam_left 0)) (plain_behaves cam_right)) as (P & p & L & size & ratio & EP & _ & E & _ & HS & _);
    try lra; try (cbn; lia). { rewrite tiny_spacing; lra. }
  exists tiny, (plain_model (cam_left 0)), (plain_model cam_right), (cam_left 0), cam_right, (Plane 0), 50.
  eexists _, _, _, _. split; [apply plain_behaves|]. split; [apply plain_behaves|]. split; [lra|].
  split; [intro; apply cam_ratio; lra|]. split; [exact E|].
  assert (S3 : shaped 3 5 (map (map node) L)).
  { rewrite (prepare_plain _ _ _ _ (cam_left 0) cam_right) in EP by apply plain_behaves. injection EP as <-.
    rewrite tiny_size in HS by lra. destruct HS as [H1 H2]. cbn in H1, H2. split; [rewrite map_length; exact H1|].
    intros l Hl. apply in_map_iff in Hl. destruct Hl as (l0 & <- & Hl). rewrite map_length. auto. }
  rewrite (C32_value_for_a_constant_ratio unit (fun _ => 4326%Z) (fun _ _ g => g) _ _ _ _ (Plane 0) 50 tiny 1 0 1 _ _ _ _ 3 5 (plain_behaves (cam_left 0)) (plain_behaves cam_right)
             ltac:(lra) ltac:(cbn; lia) ltac:(cbn; lia) ltac:(rewrite tiny_spacing; lra) ltac:(lra) ltac:(lia)
             ltac:(intro; apply cam_ratio; lra) E S3).
  f_equal. cbn. field.
Qed.

(** What holds: on a square grid the value is the mean over the nodes.  Missing: other grids. *)
Theorem C32_mean_of_a_square_grid_partial :
  forall (D : Type) (dtm_epsg : D -> Z) conv ml mr (pl pr : pmodel D) s off im step margin L r size ratio g,
    behaves ml pl -> behaves mr pr -> off <> 0 ->
    (0 <= li_rows im)%Z -> (0 <= li_cols im)%Z -> 0 < mean_spacing im -> 0 < step -> (0 <= margin)%Z ->
    compute_stereorectification_epipolar_grids dtm_epsg conv ml mr im (elev_of s) step off margin None
      = Some (map (map node) L, r, size, ratio) ->
    shaped g g L ->
    ratio = fin (mean (map (local_ratio pl pr s off) (concat L))).
Proof.
  intros D dtm_epsg conv ml mr pl pr s off im step margin L r size ratio g Hl Hr Ho HR HC Hs Hst Hm H HS.
  destruct (stereo_value _ _ _ _ _ _ _ _ _ _ _ _ _ _ _ _ Hl Hr Ho HR HC Hs Hst Hm H) as (h0 & h1 & p & G0 & G1 & EL & -> & _ & _).
  set (d := step * mean_spacing im) in *.
  assert (Inj : forall a b : vec3, node a = node b -> a = b).
  { intros [a0 a1 a2] [b0 b1 b2] Hn. unfold node in Hn; cbn in Hn. injection Hn as -> -> ->. reflexivity. }
  assert (EL' : L = map (map fst) (grid_nodes pl pr s off d h0 h1 p)).
  { apply grid_ext.
    - apply (f_equal (@length _)) in EL. rewrite !map_length in *. exact EL.
    - intros i j. apply (f_equal (fun m => entry m i j)) in EL. rewrite !map_entry in *.
      destruct (entry L i j), (entry (grid_nodes pl pr s off d h0 h1 p) i j); cbn in *; try discriminate; auto.
      f_equal. apply Inj. unfold as_left in EL. congruence. }
  assert (E0 : h0 = g).
  { destruct HS as [HS _]. rewrite EL', map_length in HS. unfold grid_nodes in HS. rewrite map_length, column_length in HS by lia. exact HS. }
  assert (E1 : h1 = g).
  { destruct HS as [_ HS]. rewrite EL' in HS. unfold grid_nodes, grid_column in HS. cbn [map] in HS. specialize (HS _ (or_introl eq_refl)).
    cbn [map length] in HS. rewrite map_length, trail_length in HS. lia. }
  subst h0 h1. unfold global_mean, mean.
  rewrite !map_length, rest_length, column_length by lia.
  assert (Ng : 0 < INR g) by (apply lt_0_INR; lia).
  assert (Ng1 : INR (g - 1) = INR g - 1) by (rewrite minus_INR by lia; reflexivity).
  assert (Ng2 : 0 < INR g - 1) by (rewrite <- Ng1; apply lt_0_INR; lia).
  assert (SL : sum (map (local_ratio pl pr s off) (concat L))
               = sum (map (fun pa => local_ratio pl pr s off (fst pa)) (grid_column pl pr s off d g p))
                 + sum (map (fun pa => local_ratio pl pr s off (fst pa)) (concat (lines pl pr s off 1 d (g - 1) (grid_column pl pr s off d g p))))).
  { rewrite sum_lines. rewrite EL'. unfold grid_nodes. generalize (grid_column pl pr s off d g p). intro col.
    induction col as [|pa col IH]; [cbn; ring|]. cbn [map concat]. rewrite !map_app, !sum_app, IH. cbn [map sum fold_right].
    rewrite !map_map. fold (sum (map (fun pa0 => local_ratio pl pr s off (fst pa0)) (trail pl pr s off 1 d (g - 1) pa))).
    fold (sum (map (fun pa0 => local_ratio pl pr s off (fst pa0)) col)). ring. }
  assert (LL : length (concat L) = (g * g)%nat).
  { destruct HS as [HS1 HS2]. rewrite (concat_const g) by auto. rewrite HS1. reflexivity. }
  rewrite SL, LL, !mult_INR, Ng1.
  unfold ndiv, fin. destruct (Req_EM_T (INR g * INR g) 0) as [E|E]; [nra|]. f_equal. field. lra.
Qed.
(** A square grid: one row and one column of pixels. *)
Definition dot1 : left_image := LeftImage (mkAffine 1 0 0 0 1 0) 1 1.
Lemma dot1_spacing : mean_spacing dot1 = 1.
Proof. unfold mean_spacing, dot1; cbn. rewrite Rabs_pos_eq by lra. lra. Qed.
Example C32_square_case :
  exists L r size ratio, compute_stereorectification_epipolar_grids (fun _ => 4326%Z) (fun _ _ g => g) (plain_model (cam_left 2)) (plain_model cam_right)
    dot1 (Dtm tt) 1 50 0 None = Some (map (map node) L, r, size, ratio) /\ shaped 3 3 L.
Proof.
  destruct (C31_whole_grid unit (fun _ => 4326%Z) (fun _ _ g => g) _ _ _ _ (Terrain tt) 50 dot1 1 0
              (plain_behaves (cam_left 2)) (plain_behaves cam_right)) as (P & p & L & size & ratio & EP & _ & E & _ & S & _);
    try lra; try (cbn; lia). { rewrite dot1_spacing; lra. }
  eexists _, _, _, _. split; [exact E|].
  rewrite (prepare_plain _ _ _ _ (cam_left 2) cam_right) in EP by apply plain_behaves. injection EP as <-.
  rewrite grid_size_eq in S. unfold start_angle in S.
  destruct (transform_index_to_physical_point (li_transform dot1) 0 0) as [r c]. rewrite cam_angle in S by lra.
  rewrite dot1_spacing in S. unfold epipolar_box, dot1 in S; cbn [li_transform li_rows li_cols af_a af_e] in S. rewrite cos_0, sin_0 in S.
  unfold box_maxy, box_miny, box_maxx, box_minx, min4, max4, nodes_of in S.
  replace (1 * 1 * 1) with 1 in S by ring. replace (0 * 1 * 1) with 0 in S by ring. replace (- 0 * 1 * 1) with 0 in S by ring.
  replace (1 + 0) with 1 in S by ring. replace (0 + 1) with 1 in S by ring.
  revert S. minmax. intro S.
  assert (T : forall x z, x = IZR z -> (0 <= z)%Z -> Rtrunc x = z).
  { intros x z -> Hz. rewrite Rtrunc_nonneg by (apply IZR_le; auto). apply Rfloor_unique. lra. }
  rewrite (T ((1 - 0) / 1) 1%Z) in S by (lia || field).
  rewrite (T (1 / 1 + 2) 3%Z) in S by (lia || field). exact S.
Qed.

(** ** C33: adaptive steps *)
(** With the default parameters (scale 1, maximum ratio 3) on a steep terrain, the strip does not
    fit its buffer: the adaptive grids fail although the plain ones exist. *)
Lemma steep_ratio : forall x, an_a x = 0 ->
  aratio (cam_left 1000) (Terrain tt) 1 3 1 0 1 x = 5.
Proof.
  intros x Ha. unfold aratio. rewrite Ha. unfold moved; cbn [Z.eqb ground cam_left pm_d v0 v1 v2]. rewrite cos_0.
  unfold effective_ratio, slope_ratio.
  replace (1000 * (v0 (an_p x) + 1 * 1) - 1000 * v0 (an_p x)) with 1000 by ring. rewrite Rabs_pos_eq by lra.
  assert (Q : 1000 <= sqrt (1000 * 1000 + 1 * 1)).
  { rewrite <- (sqrt_square 1000) at 1 by lra. apply sqrt_le_1; lra. }
  unfold Rdiv. rewrite Rinv_1, Rmult_1_r. destruct (Rltb_spec 3 (sqrt (1000 * 1000 + 1 * 1))); lra.
Qed.
Lemma steep_overflow : forall slots k x target sp step, step * sp = 1 -> an_a x = 0 -> an_s x = 1 + INR k / 5 ->
  1 + INR (k + slots) / 5 < target ->
  strip_loop (fun _ => 4326%Z) (fun _ _ g => g) (plain_model (cam_left 1000)) (plain_model cam_right) slots target sp 0 step (Dtm tt) 50
    (Some (fin 1, 3, 1)) (awalk (cam_left 1000) (Terrain tt) [x]) = None.
Proof.
  induction slots as [|slots IH]; intros k x target sp step Hd Ha Hs Ht; cbn [strip_loop].
  - cbn [awalk w_sum map existsb]. rewrite nltb_fin, orb_false_r. rewrite Nat.add_0_r in Ht. destruct (Rltb_spec (an_s x) target); [reflexivity|lra].
  - destruct (existsb _ _) eqn:Eb.
    + destruct (astep_ok (fun _ : unit => 4326%Z) (fun _ _ g => g) _ _ _ _ (Terrain tt) 50 1 3 1 (plain_behaves (cam_left 1000)) (plain_behaves cam_right)
                  ltac:(lra) ltac:(lra) ltac:(lra) [x] sp 0 step eq_refl) as [rs E].
      cbn [elev_of] in E. rewrite E. cbn [map]. rewrite Hd.
      rewrite (IH (S k)); auto.
      * cbn [astep an_a]. apply cam_angle. lra.
      * cbn [astep an_s]. rewrite steep_ratio by auto. rewrite Hs, S_INR. field.
      * replace (S k + slots)%nat with (k + S slots)%nat by lia. exact Ht.
    + exfalso. cbn [awalk w_sum map existsb] in Eb. rewrite nltb_fin, orb_false_r in Eb.
      destruct (Rltb_spec (an_s x) target); [discriminate|].
      assert (INR k <= INR (k + S slots)) by (apply le_INR; lia). lra.
Qed.
Lemma steep_start : forall alt, exists p, pr_start (prepare_at tiny 1 0 0 alt) = R3 (fin (v0 p)) (fin (v1 p)) alt.
Proof.
  intro alt. rewrite start_eq. eexists (V3 _ _ 0). reflexivity.
Qed.
Lemma cam_gsd : forall slope p,
  compute_epipolar_gsd (fun _ => 4326%Z) (fun _ _ g => g) (plain_model (cam_left slope)) (plain_model cam_right) (node p)
    (mean_spacing tiny) (Dtm tt) 1 50 = Some (fin 1, fin 1).
Proof.
  intros slope p. set (pl := cam_left slope). set (ml := plain_model pl).
    unfold compute_epipolar_gsd. change [node p] with (map node [p]).
    change (Dtm tt) with (elev_of (Terrain tt)).
    rewrite (local_line _ _ _ _ pl cam_right) by apply plain_behaves. cbn [map].
    rewrite epipolar_angle_node.
    change (direction (epipolar_end pl cam_right (Terrain tt) (- (50)) p) (epipolar_end pl cam_right (Terrain tt) 50 p))
      with (angle_at pl cam_right (Terrain tt) 50 p).
    assert (A0 : angle_at pl cam_right (Terrain tt) 50 p = 0) by (apply cam_angle; lra). rewrite A0, tiny_spacing, !move_node_node by reflexivity.
    unfold ml, plain_model; cbn [gm_direct_h gm_epsg map p_row p_col p_alt node lon3 lat3 alt3 combine map2].
    unfold dist_ecef, vec_norm, row_sub. unfold moved; cbn [Z.eqb Pos.eqb v0 v1 v2 pl cam_left pm_h node lon3 lat3 alt3 nsub nmul nadd nlift1 nlift2].
    rewrite cos_0, sin_0. cbv [fin nlift2 nlift1 nsqr nmul nadd].
    apply f_equal. apply f_equal2; apply f_equal; (transitivity (sqrt 1); [apply f_equal; ring|apply sqrt_1]). 
Qed.
Theorem C33_adaptive_strip_fits_refuted :
  exists im ml mr pl pr (s : surface unit) off,
    behaves ml pl /\ behaves mr pr /\ 0 < off
    /\ compute_stereorectification_epipolar_grids (fun _ => 4326%Z) (fun _ _ g => g) ml mr im (elev_of s) 1 off 0 None <> None
    /\ compute_stereorectification_epipolar_grids (fun _ => 4326%Z) (fun _ _ g => g) ml mr im (elev_of s) 1 off 0 (Some (1, 3)) = None.
Proof.
  set (pl := cam_left 1000). set (ml := plain_model pl). set (mr := plain_model cam_right).
  exists tiny, ml, mr, pl, cam_right, (Terrain tt), 50.
  split; [apply plain_behaves|]. split; [apply plain_behaves|]. split; [lra|]. split.
  { destruct (C31_whole_grid unit (fun _ => 4326%Z) (fun _ _ g => g) ml mr pl cam_right (Terrain tt) 50 tiny 1 0
              (plain_behaves _) (plain_behaves cam_right)) as (P & p & L & size & ratio & EP & _ & E & _);
      try lra; try (cbn; lia). { rewrite tiny_spacing; lra. } rewrite E. discriminate. }
  unfold compute_stereorectification_epipolar_grids.
  rewrite (prepare_plain _ _ _ _ pl cam_right) by apply plain_behaves. cbv zeta.
  destruct (prepare_start tiny 1 0 (start_angle pl cam_right (Terrain tt) 50 tiny) (start_alt pl cam_right (Terrain tt) 50 tiny)) as [p Hp].
  rewrite Hp.
  change [node p] with (map node [p]). rewrite (coloc_surface _ _ _ _ pl cam_right) by apply plain_behaves. cbn [map].
  cbn [elev_of]. unfold ml at 1, mr at 1, pl at 1. rewrite cam_gsd.
  assert (SZ : Z.to_nat (fst (pr_grid_size (prepare_at tiny 1 0 (start_angle pl cam_right (Terrain tt) 50 tiny) (fin (start_alt pl cam_right (Terrain tt) 50 tiny))))) = 3%nat).
  { unfold start_angle. destruct (transform_index_to_physical_point (li_transform tiny) 0 0) as [r c] eqn:ET.
    unfold pl. rewrite cam_angle by lra. pose proof (tiny_size (Plane 0) 50 (fin (start_alt (cam_left 1000) cam_right (Terrain tt) 50 tiny)) 0 ltac:(lra)) as T.
    unfold start_angle in T. rewrite ET in T. rewrite cam_angle in T by lra. rewrite T. reflexivity. }
  rewrite SZ.
  unfold compute_strip_of_epipolar_grid at 1. change [node p] with (map node [p]). change (Dtm tt) with (elev_of (Terrain tt)) at 1.
  rewrite (local_line _ _ _ _ pl cam_right) by apply plain_behaves. cbn [map].
  assert (BZ : Z.to_nat (Rceil (INR 3 * ((3 - 1) * 1 + 1))) = 9%nat).
  { replace (INR 3 * ((3 - 1) * 1 + 1)) with (IZR 9) by (cbn; ring). rewrite Rceil_IZR. reflexivity. }
  cbv zeta. rewrite BZ.
  pose proof (steep_overflow 8 0 (ANode p (matched pl cam_right (Terrain tt) p) 0 1) (INR 3) (mean_spacing tiny) 1) as OV.
  rewrite tiny_spacing in *. specialize (OV ltac:(lra) eq_refl ltac:(cbn; lra) ltac:(cbn; lra)).
  unfold awalk in OV. cbn [map an_p an_q an_a an_s] in OV.
  unfold compute_epipolar_angle. cbn [map2]. rewrite epipolar_angle_node.
  change (direction (epipolar_end pl cam_right (Terrain tt) (- (50)) p) (epipolar_end pl cam_right (Terrain tt) 50 p))
      with (angle_at pl cam_right (Terrain tt) 50 p).
  assert (A0 : angle_at pl cam_right (Terrain tt) 50 p = 0) by (apply cam_angle; lra). rewrite A0. unfold ml, mr. unfold pl in *. cbn [elev_of]. rewrite OV. reflexivity.
Qed.

(** What holds: the strips fit when the slope is limited.  Missing: steep terrains. *)
Theorem C33_adaptive_strip_fits_partial :
  forall (D : Type) (dtm_epsg : D -> Z) conv ml mr (pl pr : pmodel D) s off im step margin scale max_ratio p d0 d1 P,
    behaves ml pl -> behaves mr pr -> 1 <= max_ratio -> 0 <= scale ->
    (0 <= li_rows im)%Z -> (0 <= li_cols im)%Z -> 0 < mean_spacing im -> 0 < step -> (0 <= margin)%Z ->
    prepare_rectification dtm_epsg conv ml mr im (elev_of s) step off margin = Some P -> pr_start P = node p ->
    compute_epipolar_gsd dtm_epsg conv ml mr (node p) (mean_spacing im) (elev_of s) step off = Some (fin d0, fin d1) ->
    0 < d0 -> 0 < d1 ->
    (forall axis gsd q alpha, In (axis, gsd) [(0, d0); (1, d1)]%Z ->
       let dh := v2 (ground pl s (moved axis (step * mean_spacing im) q alpha)) - v2 (ground pl s q) in
       sqrt (dh * dh + gsd * gsd) / gsd <= 1 + (max_ratio - 1) * scale / (1 + scale)) ->
    compute_stereorectification_epipolar_grids dtm_epsg conv ml mr im (elev_of s) step off margin (Some (scale, max_ratio)) <> None.
Proof.
  intros D dtm_epsg conv ml mr pl pr s off im step margin scale max_ratio p d0 d1 P Hl Hr Hm Hsc HR HC Hs Hst Hmg HP Hp Hgsd Hd0 Hd1 G.
  rewrite (prepare_plain _ _ _ _ pl pr) in HP by auto. injection HP as <-.
  destruct (grid_big im step margin (start_angle pl pr s off im) (fin (start_alt pl pr s off im)) HR HC Hs Hst Hmg) as [G0 G1].
  assert (GG : forall axis gsd, In (axis, gsd) [(0, d0); (1, d1)]%Z -> gentle pl s gsd max_ratio scale axis (step * mean_spacing im)).
  { intros axis gsd Hin q alpha. specialize (G axis gsd q alpha Hin). cbv zeta in G. unfold slope_ratio.
    rewrite <- Rabs_mult, Rabs_pos_eq by apply Rle_0_sqr. exact G. }
  apply (stereo_fits dtm_epsg conv ml mr pl pr s off max_ratio scale Hl Hr Hm Hsc im step margin p d0 d1); auto; try lia.
  - apply GG. left; reflexivity.
  - apply GG. right; left; reflexivity.
Qed.
(** A terrain that meets the hypotheses with the default parameters: slope 1/2. *)
Example C33_gentle_case :
  compute_stereorectification_epipolar_grids (fun _ => 4326%Z) (fun _ _ g => g) (plain_model (cam_left (1 / 2))) (plain_model cam_right)
    tiny (Dtm tt) 1 50 0 (Some (1, 3)) <> None.
Proof.
  destruct (C31_whole_grid unit (fun _ => 4326%Z) (fun _ _ g => g) _ _ _ _ (Terrain tt) 50 tiny 1 0
              (plain_behaves (cam_left (1 / 2))) (plain_behaves cam_right)) as (P & p & L & size & ratio & EP & Hp & _);
      try lra; try (cbn; lia). { rewrite tiny_spacing; lra. }
  apply (C33_adaptive_strip_fits_partial unit (fun _ => 4326%Z) (fun _ _ g => g) _ _ _ _ (Terrain tt) 50 tiny 1 0 1 3 p 1 1 P
              (plain_behaves (cam_left (1 / 2))) (plain_behaves cam_right)); try lra; try (cbn; lia); auto.
  - rewrite tiny_spacing; lra.
  - apply cam_gsd.
  - intros axis gsd q alpha Hin dh.
    assert (Hg : gsd = 1) by (destruct Hin as [E|[E|[]]]; congruence). rewrite Hg.
    assert (Hdh : dh * dh <= 1).
    { unfold dh, moved. rewrite tiny_spacing. pose proof (SIN_bound alpha). pose proof (COS_bound alpha).
      destruct (Z.eqb axis 1); cbn [ground cam_left pm_d v2 v0]; nra. }
    assert (sqrt (dh * dh + 1 * 1) <= 2).
    { rewrite <- (sqrt_square 2) by lra. apply sqrt_le_1; pose proof (Rle_0_sqr dh); unfold Rsqr in *; lra. }
    lra.
Qed.
