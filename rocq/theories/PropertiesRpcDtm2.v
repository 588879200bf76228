(** C87: direct localization on a DTM whose altitudes are in another vertical system than the model. *)
From Coq Require Import Reals ZArith List Bool Lra Lia.
From Verif Require Import Num NumLemmas InterpModel InterpSpec InterpProofs ProjModel ProjSpec PropertiesProj
  RpcModel CppRpcModel RpcSpec RpcProofs RpcNewton RpcDeriv RpcRun RpcBatch PropertiesRpc
  DtmModel DtmSpec DtmCube DtmWalk DtmIntersect DtmProofs DtmWitness PropertiesDtm DtmWitness2 PropertiesDtm2
  RpcDtmModel RpcDtmSpec PropertiesRpcDtm CppDtmModel CppDtmProofs OptimModel OptimProofs CppLine PropertiesOptim PropertiesOptim2.
Import ListNotations.
Open Scope R_scope.

(** ** Specification *)
(** Converting from [e1] to [e2] treats the points one by one; it adds a height to the altitude of each
    point, which depends on the point, or fails (NaN). *)
Definition adds_height (conv : Z -> Z -> list row3 -> list row3) (e1 e2 : Z) (height : row3 -> R) : Prop :=
  exists f, (forall l, conv e1 e2 l = map f l) /\
  forall p, f p = nan3 \/ alt3 (f p) = nadd (alt3 p) (Some (height p)).
(** The four outer corners of the DTM, at the altitude [z]. *)
Definition corner (d : dtm) (z : R) (p : row3) : Prop :=
  exists i j, (i = - (1 / 2) \/ i = IZR (rs_rows (dt_data d)) - 1 / 2) /\ (j = - (1 / 2) \/ j = IZR (rs_cols (dt_data d)) - 1 / 2) /\
    p = row_of_vec (index_to_ter (dt_transform d) (V3 i j z)).
(** The least and the greatest height at the corners. *)
Definition least_height (d : dtm) (z : R) (height : row3 -> R) (s : R) : Prop :=
  (forall p, corner d z p -> s <= height p) /\ exists p, corner d z p /\ height p = s.
Definition greatest_height (d : dtm) (z : R) (height : row3 -> R) (s : R) : Prop :=
  (forall p, corner d z p -> height p <= s) /\ exists p, corner d z p /\ height p = s.

(** ** Proofs *)
Lemma list_min_eq x l s : (forall y, In y (x :: l) -> s <= y) -> In s (x :: l) -> list_min (x :: l) = s.
Proof.
  unfold list_min. revert x. induction l as [|y l IH]; intros x H Hs; cbn [fold_left].
  - destruct Hs as [->|[]]. reflexivity.
  - apply IH.
    + intros z [<-|Hz]; [|apply H; cbn; auto]. apply Rmin_glb; apply H; cbn; auto.
    + destruct Hs as [->|[->|Hs]]; [left|left|right; exact Hs]; unfold Rmin; destruct (Rle_dec _ _); try reflexivity.
      * assert (s <= y) by (apply H; cbn; auto). lra.
      * assert (s <= x) by (apply H; cbn; auto). lra.
Qed.
Lemma list_max_eq x l s : (forall y, In y (x :: l) -> y <= s) -> In s (x :: l) -> list_max (x :: l) = s.
Proof.
  unfold list_max. revert x. induction l as [|y l IH]; intros x H Hs; cbn [fold_left].
  - destruct Hs as [->|[]]. reflexivity.
  - apply IH.
    + intros z [<-|Hz]; [|apply H; cbn; auto]. apply Rmax_lub; apply H; cbn; auto.
    + destruct Hs as [->|[->|Hs]]; [left|left|right; exact Hs]; unfold Rmax; destruct (Rle_dec _ _); try reflexivity.
      * assert (y <= s) by (apply H; cbn; auto). lra.
      * assert (x <= s) by (apply H; cbn; auto). lra.
Qed.
(** The offsets the code computes: the least and greatest heights at the corners, or both NaN. *)
Lemma offsets conv e d up smin smax : adds_height conv (dt_epsg d) e up ->
  let z := (alt_min d + alt_max d) / 2 in least_height d z up smin -> greatest_height d z up smax ->
  get_dtm_alt_offset conv e d = (Some smin, Some smax) \/ get_dtm_alt_offset conv e d = (None, None).
Proof.
  intros (f & Hf & Ha) z [Hmin (p1 & C1 & E1)] [Hmax (p2 & C2 & E2)]. unfold get_dtm_alt_offset. fold z. rewrite Hf.
  set (T := dt_transform d) in *. unfold get_footprint_corners. cbn [map fst snd].
  assert (HC : forall i j, (i = - (1 / 2) \/ i = IZR (rs_rows (dt_data d)) - 1 / 2) -> (j = - (1 / 2) \/ j = IZR (rs_cols (dt_data d)) - 1 / 2) ->
    corner d z (row_of_vec (index_to_ter T (V3 i j z)))) by (intros i j Hi Hj; exists i, j; auto).
  assert (HE : forall i j i' j', i = i' -> j = j' -> (let '(y, x) := transform_index_to_physical_point T i j in R3 (fin x) (fin y) (fin z)) = row_of_vec (index_to_ter T (V3 i' j' z))).
  { intros i j ? ? <- <-. unfold index_to_ter. cbn [v0 v1 v2]. destruct (transform_index_to_physical_point T i j). reflexivity. }
  unfold nb_rows, nb_columns in *.
  set (R := IZR (rs_rows (dt_data d))) in *. set (K := IZR (rs_cols (dt_data d))) in *.
  rewrite (HE (0 - 1 / 2) (0 - 1 / 2) (- (1 / 2)) (- (1 / 2))) by lra.
  rewrite (HE (0 - 1 / 2) (K - 1 / 2) (- (1 / 2)) (K - 1 / 2)) by lra.
  rewrite (HE (R - 1 / 2) (K - 1 / 2) (R - 1 / 2) (K - 1 / 2)) by lra.
  rewrite (HE (R - 1 / 2) (0 - 1 / 2) (R - 1 / 2) (- (1 / 2))) by lra.
  set (q1 := row_of_vec (index_to_ter T (V3 (- (1 / 2)) (- (1 / 2)) z))).
  set (q2 := row_of_vec (index_to_ter T (V3 (- (1 / 2)) (K - 1 / 2) z))).
  set (q3 := row_of_vec (index_to_ter T (V3 (R - 1 / 2) (K - 1 / 2) z))).
  set (q4 := row_of_vec (index_to_ter T (V3 (R - 1 / 2) (- (1 / 2)) z))).
  assert (K1 : corner d z q1) by (apply HC; auto). assert (K2 : corner d z q2) by (apply HC; auto).
  assert (K3 : corner d z q3) by (apply HC; auto). assert (K4 : corner d z q4) by (apply HC; auto).
  assert (HQ : forall p, corner d z p -> p = q1 \/ p = q2 \/ p = q3 \/ p = q4).
  { intros p (i & j & [->| ->] & [->| ->] & ->); fold R K T; auto. }
  assert (HA : forall q, corner d z q -> alt3 (f q) = None \/ alt3 (f q) = Some (z + up q)).
  { intros q (i & j & _ & _ & ->). destruct (Ha (row_of_vec (index_to_ter (dt_transform d) (V3 i j z)))) as [->|E]; [left; reflexivity|right].
    rewrite E. unfold index_to_ter. cbn [v0 v1 v2]. destruct (transform_index_to_physical_point _ i j). reflexivity. }
  unfold np_min, np_max. cbn [seq_opt].
  destruct (HA q1 K1) as [A1|A1]; rewrite A1; cbn [seq_opt]; [right; reflexivity|].
  destruct (HA q2 K2) as [A2|A2]; rewrite A2; cbn [seq_opt]; [right; reflexivity|].
  destruct (HA q3 K3) as [A3|A3]; rewrite A3; cbn [seq_opt]; [right; reflexivity|].
  destruct (HA q4 K4) as [A4|A4]; rewrite A4; cbn [seq_opt]; [right; reflexivity|].
  left.
  pose proof (Hmin _ K1). pose proof (Hmin _ K2). pose proof (Hmin _ K3). pose proof (Hmin _ K4).
  pose proof (Hmax _ K1). pose proof (Hmax _ K2). pose proof (Hmax _ K3). pose proof (Hmax _ K4).
  rewrite (list_min_eq _ _ (z + smin)), (list_max_eq _ _ (z + smax)).
  - cbn [nsub nlift2 fin]. f_equal; f_equal; ring.
  - intros y Hy. cbn [In] in Hy. destruct Hy as [<-|[<-|[<-|[<-|[]]]]]; lra.
  - rewrite <- E2. destruct (HQ p2 C2) as [->|[->|[->| ->]]]; cbn; auto.
  - intros y Hy. cbn [In] in Hy. destruct Hy as [<-|[<-|[<-|[<-|[]]]]]; lra.
  - rewrite <- E1. destruct (HQ p1 C1) as [->|[->|[->| ->]]]; cbn; auto.
Qed.

(** One line of sight from above the DTM to below it. *)
Lemma one_through d fuel p q r : big_enough (dt_data d) -> invertible (dt_transform d) ->
  (forall z, alt3 p = Some z -> alt_max d < z) -> (forall z, alt3 q = Some z -> z + 1 / 10000 < alt_min d) ->
  intersection_one d fuel [p; q] = Some r ->
  r = nan3 \/ r = R3 (Some 0) (Some 0) (Some 0) \/
  exists a b u, p = row_of_vec a /\ q = row_of_vec b /\ alt_max d < v2 a /\ v2 b < alt_min d /\
    0 <= u <= 1 /\ r = row_of_vec (along a b u) /\
    on_surface (dt_data d) (1 / 10000) (ter_to_index (dt_trans_inv d) (along a b u)).
Proof.
  intros Hb Hi Hp Hq H.
  destruct (finite_row p) as [a|] eqn:Ea.
  2:{ left. unfold intersection_one in H. cbn [map] in H. rewrite Ea in H. cbn [seq_opt] in H. congruence. }
  destruct (finite_row q) as [b|] eqn:Eb.
  2:{ left. unfold intersection_one in H. cbn [map] in H. rewrite Ea, Eb in H. cbn [seq_opt] in H. congruence. }
  apply finite_row_inv in Ea. apply finite_row_inv in Eb. subst p q.
  specialize (Hp (v2 a) eq_refl). specialize (Hq (v2 b) eq_refl).
  change [row_of_vec a; row_of_vec b] with (map row_of_vec [a; b]) in H. rewrite one_finite in H.
  destruct (intersect_dtm_cube d [a; b]) as [[c h]|] eqn:EC; [|left; congruence].
  destruct (intersection d fuel (los_to_index d [a; b]) c h) as [[[|] g]|] eqn:EI; [| |discriminate].
  - right; right. injection H as <-.
    assert (Hva : forall v, v2 (ter_to_index (dt_trans_inv d) v) = v2 v).
    { intros v. unfold ter_to_index. destruct (transform_physical_point_to_index _ _ _). reflexivity. }
    assert (Ha : ~ in_cube (dt_data d) (ter_to_index (dt_trans_inv d) a)).
    { intros (_ & _ & i & j & Hn & Hz). rewrite Hva in Hz. pose proof (alt_max_ge d i j Hn). lra. }
    destruct (C17_two_points d fuel a b c h g Hb Hi EC EI) as (u0 & Eg & _ & HS).
    destruct (C54_found_between_the_ends_partial d fuel a b c h g Hb Hi Ha) as (u & Hu & Eg'); auto.
    { right. left. apply nodes_above_iff; [assumption|]. lra. }
    exists a, b, u. rewrite Eg' in HS. rewrite Eg'. do 2 (split; [reflexivity|]). split; [assumption|]. split; [lra|]. split; [assumption|]. split; [reflexivity|exact HS].
  - right; left. injection H as <-. unfold intersection in EI.
    destruct (intersection_index d fuel (los_to_index d [a; b]) c h); try discriminate. injection EI as <-. reflexivity.
Qed.

(** The heights at the four corners bound the ones at the ends of the lines of sight, within less than a
    metre: then each position is NaN, or (0, 0, 0) (see C20), or a point of the surface, on the line of
    sight of its pixel, whose ends are above and below all the DTM once converted. *)
Theorem C87_surface_point_partial :
  forall conv fuel m row col d up down smin smax lo hi out,
  big_enough (dt_data d) -> invertible (dt_transform d) -> scale_alt m <> 0 -> length row = length col ->
  dt_epsg d <> rpc_epsg m ->
  adds_height conv (dt_epsg d) (rpc_epsg m) up -> adds_height conv (rpc_epsg m) (dt_epsg d) (fun p => - down p) ->
  lowest d lo -> highest d hi ->
  least_height d ((lo + hi) / 2) up smin -> greatest_height d ((lo + hi) / 2) up smax ->
  (forall los p, los_extrema conv m row col (Some (lo - 1 + smin)) (Some (hi + 1 + smax)) false None = Some los ->
     In p los -> smin - 1 + 1 / 10000 < down p < smax + 1) ->
  direct_loc_dtm conv fuel m row col d = Some out ->
  length out = length row /\
  forall i r, nth_error out i = Some r ->
    r = nan3 \/ r = R3 (Some 0) (Some 0) (Some 0) \/
    exists los p q a b u,
      los_extrema conv m row col (Some (lo - 1 + smin)) (Some (hi + 1 + smax)) false None = Some los /\
      nth_error los (2 * i) = Some p /\ nth_error los (2 * i + 1) = Some q /\
      alt3 p = Some (hi + 1 + smax) /\ alt3 q = Some (lo - 1 + smin) /\
      conv (rpc_epsg m) (dt_epsg d) [p] = [row_of_vec a] /\ conv (rpc_epsg m) (dt_epsg d) [q] = [row_of_vec b] /\
      hi < v2 a /\ v2 b < lo /\ 0 <= u <= 1 /\ r = row_of_vec (along a b u) /\
      on_surface (dt_data d) (1 / 10000) (ter_to_index (dt_trans_inv d) (along a b u)) /\
      (dt_epsg d = 4326%Z -> valid_lonlat r).
Proof.
  intros conv fuel m row col d up down smin smax lo hi out Hb Hi Hs HL He Hc1 (g & Hg & Hga) Hlo Hhi Hmin Hmax Hdown H.
  apply lowest_eq in Hlo; [|assumption]. apply highest_eq in Hhi; [|assumption]. subst lo hi.
  unfold direct_loc_dtm in H. assert (EE : (dt_epsg d =? rpc_epsg m)%Z = false) by now apply Z.eqb_neq.
  assert (exists los0 los : list row3, length los0 = (2 * length row)%nat /\ length los = length los0 /\
    match intersection_n_los_dtm d fuel (los_of_edges los) with
    | None => None
    | Some res => Some (if (dt_epsg d =? 4326)%Z then check_lonlat res else res)
    end = Some out /\
    ((forall p, In p los -> p = nan3) \/
     (los_extrema conv m row col (Some (alt_min d - 1 + smin)) (Some (alt_max d + 1 + smax)) false None = Some los0 /\ los = map g los0)))
    as (los0 & los & HL0 & HLl & HO & HC).
  { destruct (offsets conv (rpc_epsg m) d up smin smax Hc1 Hmin Hmax) as [E|E]; rewrite E in H.
    - destruct (los_extrema conv m row col (Some (alt_min d - 1 + smin)) (Some (alt_max d + 1 + smax)) false None) as [los0|] eqn:E0.
      + pose proof (C13_epsg conv m row col _ _ false (dt_epsg d) los0 E0) as E1. rewrite E1, EE, Hg in H.
        destruct (los_alts _ _ _ _ _ _ _ HL Hs E0) as [Hl0 HB].
        exists los0, (map g los0). split; [assumption|]. split; [apply map_length|]. split; [exact H|]. right. auto.
      + rewrite (los_fail _ _ _ _ _ _ _ (dt_epsg d) E0) in H. discriminate.
    - destruct (los_extrema conv m row col None None false None) as [own|] eqn:EO; [|discriminate].
      destruct (C13_no_bounds conv m row col None None false own HL (or_introl eq_refl) EO) as [HLo _].
      exists own, (map (fun _ => nan3) own). split; [easy|]. split; [apply map_length|]. split; [easy|].
      left. intros p Hp. apply in_map_iff in Hp. destruct Hp as (x & <- & _). reflexivity. }
  assert (HP : length (pairs_of los) = length row) by (apply pairs_length; lia).
  destruct (intersection_n_los_dtm d fuel (los_of_edges los)) as [res|] eqn:ER; [|discriminate].
  assert (HLr : length res = length row).
  { unfold intersection_n_los_dtm in ER. apply seq_opt_length in ER. rewrite ER, map_length. unfold los_of_edges.
    now rewrite map_length. }
  assert (HR : forall i r, nth_error res i = Some r -> r = nan3 \/ r = R3 (Some 0) (Some 0) (Some 0) \/
    exists los p q a b u,
      los_extrema conv m row col (Some (alt_min d - 1 + smin)) (Some (alt_max d + 1 + smax)) false None = Some los /\
      nth_error los (2 * i) = Some p /\ nth_error los (2 * i + 1) = Some q /\
      alt3 p = Some (alt_max d + 1 + smax) /\ alt3 q = Some (alt_min d - 1 + smin) /\
      conv (rpc_epsg m) (dt_epsg d) [p] = [row_of_vec a] /\ conv (rpc_epsg m) (dt_epsg d) [q] = [row_of_vec b] /\
      alt_max d < v2 a /\ v2 b < alt_min d /\ 0 <= u <= 1 /\ r = row_of_vec (along a b u) /\
      on_surface (dt_data d) (1 / 10000) (ter_to_index (dt_trans_inv d) (along a b u))).
  { intros i r Hr. unfold intersection_n_los_dtm in ER. pose proof (seq_opt_nth_inv _ _ _ _ ER Hr) as E1.
    rewrite nth_error_map in E1. unfold los_of_edges in E1. rewrite nth_error_map in E1.
    destruct (nth_error (pairs_of los) i) as [[p q]|] eqn:EP; [|discriminate]. cbn [option_map fst snd] in E1.
    injection E1 as E1. destruct (pairs_nth _ _ _ _ EP) as [Ep Eq].
    destruct HC as [HN|[EL ->]].
    - left. assert (p = nan3) by (eapply HN, nth_error_In; eauto). assert (q = nan3) by (eapply HN, nth_error_In; eauto).
      subst. cbn in E1. congruence.
    - rewrite nth_error_map in Ep, Eq.
      destruct (nth_error los0 (2 * i)) as [p0|] eqn:Ep0; [|discriminate]. destruct (nth_error los0 (2 * i + 1)) as [q0|] eqn:Eq0; [|discriminate].
      injection Ep as <-. injection Eq as <-.
      destruct (los_alts _ _ _ _ _ _ _ HL Hs EL) as [_ HB]. destruct (HB i p0 q0 Ep0 Eq0) as [Bp Bq].
      pose proof (Hdown los0 p0 EL (nth_error_In _ _ Ep0)) as Dp. pose proof (Hdown los0 q0 EL (nth_error_In _ _ Eq0)) as Dq.
      assert (Ap : forall z, alt3 (g p0) = Some z -> alt3 p0 = Some (alt_max d + 1 + smax) /\ alt_max d < z).
      { intros z Hz. destruct (Hga p0) as [E|E]; [rewrite E in Hz; discriminate|]. rewrite E in Hz.
        destruct Bp as [-> |Bp]; [discriminate|]. split; [exact Bp|]. rewrite Bp in Hz. cbn [nadd nlift2] in Hz. injection Hz as <-. lra. }
      assert (Aq : forall z, alt3 (g q0) = Some z -> alt3 q0 = Some (alt_min d - 1 + smin) /\ z + 1 / 10000 < alt_min d).
      { intros z Hz. destruct (Hga q0) as [E|E]; [rewrite E in Hz; discriminate|]. rewrite E in Hz.
        destruct Bq as [-> |Bq]; [discriminate|]. split; [exact Bq|]. rewrite Bq in Hz. cbn [nadd nlift2] in Hz. injection Hz as <-. lra. }
      destruct (one_through d fuel (g p0) (g q0) r Hb Hi) as [?|[?|(a & b & u & E2 & E3 & ?)]]; auto.
      { intros z Hz. now apply Ap. } { intros z Hz. now apply Aq. }
      right; right. exists los0, p0, q0, a, b, u. rewrite !Hg. cbn [map]. rewrite E2, E3.
      destruct (Ap (v2 a)) as [Ap1 _]; [now rewrite E2|]. destruct (Aq (v2 b)) as [Aq1 _]; [now rewrite E3|]. intuition auto. }
  injection HO as <-. split; [destruct (dt_epsg d =? 4326)%Z; [unfold check_lonlat; rewrite map_length|]; assumption|].
  intros i r Hr. destruct (dt_epsg d =? 4326)%Z eqn:E4.
  - destruct (check_lonlat_nth _ _ _ Hr) as (p & Hp & [-> | [-> HV]]); [now left|].
    destruct (HR i p Hp) as [?|[?|(l & p' & q' & a & b & u & HH)]]; auto. right; right.
    exists l, p', q', a, b, u. intuition auto.
  - destruct (HR i r Hr) as [?|[?|(l & p' & q' & a & b & u & HH)]]; auto. right; right.
    exists l, p', q', a, b, u. apply Z.eqb_neq in E4. intuition auto.
Qed.

(** A pixel whose line of sight is over the DTM at both ends, once converted, and goes from above all of it
    to below all of it, is localized on the surface. *)
Theorem C87_line_over_the_dtm_is_localized_partial :
  forall conv fuel m row col d up smin smax lo hi out los i a b,
  big_enough (dt_data d) -> invertible (dt_transform d) -> (fuel_bound d <= fuel)%nat -> dt_epsg d <> 4326%Z ->
  adds_height conv (dt_epsg d) (rpc_epsg m) up -> (forall p, corner d ((lo + hi) / 2) p -> forall q, In q (conv (dt_epsg d) (rpc_epsg m) [p]) -> alt3 q <> None) ->
  lowest d lo -> highest d hi ->
  least_height d ((lo + hi) / 2) up smin -> greatest_height d ((lo + hi) / 2) up smax ->
  los_extrema conv m row col (Some (lo - 1 + smin)) (Some (hi + 1 + smax)) false (Some (dt_epsg d)) = Some los ->
  nth_error (pairs_of los) i = Some (row_of_vec a, row_of_vec b) ->
  hi < v2 a -> v2 b + 1 / 10000 < lo ->
  let ia := ter_to_index (dt_trans_inv d) a in let ib := ter_to_index (dt_trans_inv d) b in
  in_hull (dt_data d) (v0 ia) (v1 ia) -> in_hull (dt_data d) (v0 ib) (v1 ib) ->
  ~ runs_along_last_line (dt_data d) ia ib ->
  (forall t, v2 (along ia ib t) = hi -> ~ clearance (dt_data d) (along ia ib t) 0) ->
  direct_loc_dtm conv fuel m row col d = Some out ->
  exists u, 0 <= u <= 1 /\ nth_error out i = Some (row_of_vec (along a b u)) /\
    on_surface (dt_data d) (1 / 10000) (ter_to_index (dt_trans_inv d) (along a b u)).
Proof.
  intros conv fuel m row col d up smin smax lo hi out los i a b Hb Hinv HF H4 Hup Hfin Hlo Hhi Hmin Hmax EL EP Ha Hbz ia ib Hia Hib HLL HE H.
  pose proof (lowest_eq d lo Hb Hlo) as E1. pose proof (highest_eq d hi Hb Hhi) as E2. clear Hlo Hhi. subst lo hi.
  assert (Hoff : get_dtm_alt_offset conv (rpc_epsg m) d = (Some smin, Some smax)).
  { destruct (offsets conv (rpc_epsg m) d up smin smax Hup Hmin Hmax) as [E|E]; [exact E|]. exfalso.
    destruct Hup as (f & Hf & _). unfold get_dtm_alt_offset in E. rewrite Hf in E.
    set (z := (alt_min d + alt_max d) / 2) in *.
    set (l := map alt3 (map f _)) in E.
    assert (HN : forall x, In x l -> x <> None).
    { intros x Hx. apply in_map_iff in Hx. destruct Hx as (q & <- & Hq). apply in_map_iff in Hq. destruct Hq as (p & <- & Hp).
      apply in_map_iff in Hp. destruct Hp as (rc & <- & Hrc).
      apply (Hfin (let '(y, x) := transform_index_to_physical_point (dt_transform d) (fst rc) (snd rc) in R3 (fin x) (fin y) (fin z))); [|rewrite Hf; left; reflexivity].
      exists (fst rc), (snd rc).
      assert (HE' : (let '(y, x) := transform_index_to_physical_point (dt_transform d) (fst rc) (snd rc) in R3 (fin x) (fin y) (fin z)) = row_of_vec (index_to_ter (dt_transform d) (V3 (fst rc) (snd rc) z))).
      { unfold index_to_ter. cbn [v0 v1 v2]. destruct (transform_index_to_physical_point _ (fst rc) (snd rc)). reflexivity. }
      rewrite HE'. unfold get_footprint_corners, nb_rows, nb_columns in Hrc. cbn [map fst snd In] in Hrc.
      split; [|split; [|reflexivity]]; destruct Hrc as [<-|[<-|[<-|[<-|[]]]]]; cbn [fst snd]; first [left; lra|right; lra]. }
    assert (EN : exists v, seq_opt l = Some v).
    { clear - HN. induction l as [|x l IH]; [exists []; reflexivity|]. destruct IH as [v Ev]; [intros y Hy; apply HN; now right|].
      cbn [seq_opt]. destruct x as [x|]; [rewrite Ev; eauto|]. exfalso. apply (HN None); [now left|reflexivity]. }
    destruct EN as [v Ev]. unfold np_min, np_max in E. rewrite Ev in E. discriminate. }
  unfold direct_loc_dtm in H. rewrite Hoff, EL in H.
  destruct (intersection_n_los_dtm d fuel (los_of_edges los)) as [res|] eqn:ER; [|discriminate].
  assert (EE : (dt_epsg d =? 4326)%Z = false) by now apply Z.eqb_neq. rewrite EE in H. injection H as <-.
  assert (HA : all_nodes_below (dt_data d) (v2 a)) by (apply nodes_below_iff; [assumption|lra]).
  assert (HB : all_nodes_above (dt_data d) (v2 b + 1 / 10000)) by (apply nodes_above_iff; [assumption|lra]).
  assert (HB' : all_nodes_above (dt_data d) (v2 b)) by (apply nodes_above_iff; [assumption|lra]).
  destruct (C15_succeeds_through_the_dtm d a b Hb Hia Hib HA HB') as (h0 & Hh0 & EC0 & Hz0).
  destruct (C19_line_through_the_dtm_is_found d fuel a b Hb Hinv HF Hia Hib HA HB HLL) as (p & h & EC & HC).
  rewrite EC in EC0. injection EC0 as -> ->.
  destruct HC as [HC|(u & Hu & EI & HS)]; [exfalso; apply (HE h0); [unfold ia, ib; exact Hz0|exact HC]|].
  exists u. split; [lra|]. split; [|exact HS].
  unfold intersection_n_los_dtm in ER.
  assert (EN : nth_error (map (intersection_one d fuel) (los_of_edges los)) i = Some (Some (row_of_vec (along a b u)))).
  { rewrite nth_error_map. unfold los_of_edges. rewrite nth_error_map, EP. cbn [option_map fst snd].
    change [row_of_vec a; row_of_vec b] with (map row_of_vec [a; b]). rewrite one_finite, EC, EI. reflexivity. }
  revert EN. generalize (map (intersection_one d fuel) (los_of_edges los)) res ER. clear. intros l. revert i.
  induction l as [|o l IH]; intros i res ER EN; [destruct i; discriminate|].
  simpl in ER. destruct o as [x|]; [|discriminate]. destruct (seq_opt l) as [r|] eqn:E; [|discriminate].
  injection ER as <-. destruct i as [|i]; simpl in *; [congruence|]. now apply IH.
Qed.

(** ** The class RPCoptim *)
(** One line of sight per pixel; its ends are, in the system of the model, one metre and the least height
    below the lowest altitude, one metre and the greatest height above the highest one. *)
Theorem C87_optim_surface_point_partial :
  forall conv fuel m row col d up down smin smax lo hi out,
  inverse_coefficient m = true -> scale_alt m <> 0 -> big_enough (dt_data d) -> invertible (dt_transform d) -> length row = length col ->
  dt_epsg d <> 4326%Z ->
  adds_height conv (dt_epsg d) 4326 up -> adds_height conv 4326 (dt_epsg d) (fun p => - down p) ->
  lowest d lo -> highest d hi ->
  least_height d ((lo + hi) / 2) up smin -> greatest_height d ((lo + hi) / 2) up smax ->
  (forall r c p q, cpp_los_extrema m r c (Some (lo - 1 + smin)) (Some (hi + 1 + smax)) false = Some [p; q] ->
     down p < smax + 1 /\ smin - 1 < down q) ->
  optim_direct_loc_dtm conv fuel m row col d = Some out ->
  length out = length row /\
  forall i r c, nth_error row i = Some r -> nth_error col i = Some c ->
    exists res, nth_error out i = Some res /\
    (res = Value nan3 \/ res = Indeterminate \/
     exists p q a b u,
       cpp_los_extrema m r c (Some (lo - 1 + smin)) (Some (hi + 1 + smax)) false = Some [p; q] /\
       alt3 p = Some (hi + 1 + smax) /\ alt3 q = Some (lo - 1 + smin) /\
       conv 4326%Z (dt_epsg d) [p] = [row_of_vec a] /\ conv 4326%Z (dt_epsg d) [q] = [row_of_vec b] /\
       hi < v2 a /\ v2 b < lo /\ res = Value (row_of_vec (along a b u)) /\
       let i := ter_to_index (dt_trans_inv d) (along a b u) in
       in_hull (dt_data d) (v0 i) (v1 i) -> on_surface (dt_data d) (1 / 10000) i).
Proof.
  intros conv fuel m row col d up down smin smax lo hi out Hinv Hs Hb Hi HL He Hup (g & Hg & Hga) Hlo Hhi Hmin Hmax Hdown H.
  assert (Hlh : lo <= hi).
  { destruct Hlo as [Hlo _], Hhi as [_ (i & j & Hn & <-)]. now apply Hlo. }
  apply lowest_eq in Hlo; [|assumption]. apply highest_eq in Hhi; [|assumption]. subst lo hi.
  unfold optim_direct_loc_dtm in H. rewrite (proj2 (Z.eqb_neq _ _) He) in H.
  assert (EQ : exists Q, row = map fst Q /\ col = map snd Q).
  { exists (combine row col). clear - HL. revert col HL. induction row as [|r row IH]; intros [|c col] HL; try discriminate; [split; reflexivity|].
    destruct (IH col) as [E1 E2]; [injection HL; auto|]. cbn [combine map fst snd]. now rewrite <- E1, <- E2. }
  destruct EQ as (Q & -> & ->).
  destruct (offsets conv 4326 d up smin smax Hup Hmin Hmax) as [E|E]; rewrite E in H.
  2:{ destruct (optim_edges_rows m Q None None false Hinv) as (L & EL & HF). rewrite EL in H.
      apply all_results_some in H. destruct H as [-> HN].
      assert (EV : map (cpp_intersection_num (cpp_of d) fuel) (los_of_edges (map (fun _ => nan3) (ends L))) = map (fun _ => Value nan3) Q).
      { clear - HF. induction HF as [|q e Q L _ HF IH]; [reflexivity|]. cbn [ends flat_map app map los_of_edges pairs_of fst snd] in *.
        f_equal. exact IH. }
      rewrite EV, !map_length. split; [reflexivity|]. intros i r c Hr Hc. rewrite nth_error_map in Hr |- *. destruct (nth_error Q i); [|discriminate].
      eexists. split; [reflexivity|]. now left. }
  unfold optim_los_extrema in H. rewrite (proj2 (Z.eqb_neq _ _) He) in H.
  destruct (optim_edges_rows m Q (Some (alt_min d - 1 + smin)) (Some (alt_max d + 1 + smax)) false Hinv) as (L & EL & HF). rewrite EL, Hg in H.
  apply all_results_some in H. destruct H as [-> HN].
  assert (EV : los_of_edges (map g (ends L)) = map (fun e => [g (fst e); g (snd e)]) L).
  { clear. unfold los_of_edges. induction L as [|e L IH]; [reflexivity|]. cbn [ends flat_map app map pairs_of fst snd] in *. f_equal. exact IH. }
  rewrite EV in *. assert (LL : length L = length Q) by (symmetry; clear - HF; induction HF; cbn; congruence).
  rewrite !map_length. split; [exact LL|]. intros i r c Hr Hc. rewrite nth_error_map in Hr, Hc.
  destruct (nth_error Q i) as [q|] eqn:Eq; [|discriminate]. injection Hr as <-. injection Hc as <-.
  assert (exists e, nth_error L i = Some e /\ cpp_los_extrema m (fst q) (snd q) (Some (alt_min d - 1 + smin)) (Some (alt_max d + 1 + smax)) false = Some [fst e; snd e]) as (e & Ee & EC).
  { clear - HF Eq. revert i Eq. induction HF as [|q0 e0 Q L H HF IH]; intros [|i] Eq; try discriminate.
    - injection Eq as ->. exists e0. auto.
    - apply (IH i Eq). }
  assert (ER : nth_error (map (cpp_intersection_num (cpp_of d) fuel) (map (fun e => [g (fst e); g (snd e)]) L)) i = Some (cpp_intersection_num (cpp_of d) fuel [g (fst e); g (snd e)]))
    by now rewrite !nth_error_map, Ee.
  eexists. split; [exact ER|]. destruct (HN _ (nth_error_In _ _ ER)) as [HT HE]. revert HT HE.
  destruct (C69_bounds m (fst q) (snd q) (alt_min d - 1 + smin) (alt_max d + 1 + smax) false Hinv Hs) as (p' & q' & E1 & A1 & A2 & _).
  rewrite EC in E1. injection E1 as <- <-. destruct (Hdown _ _ _ _ EC) as [D1 D2].
  unfold cpp_intersection_num. cbn [map seq_opt].
  destruct (finite_row (g (fst e))) as [a|] eqn:Fa; [|left; reflexivity].
  destruct (finite_row (g (snd e))) as [b|] eqn:Fb; [|left; reflexivity].
  apply finite_row_inv in Fa. apply finite_row_inv in Fb. intros HT HE.
  assert (Va : v2 a = alt_max d + 1 + smax - down (fst e)).
  { destruct (Hga (fst e)) as [G|G]; rewrite Fa in G; [discriminate|]. rewrite A1 in G. cbn [alt3 row_of_vec nadd nlift2] in G. injection G as G. lra. }
  assert (Vb : v2 b = alt_min d - 1 + smin - down (snd e)).
  { destruct (Hga (snd e)) as [G|G]; rewrite Fb in G; [discriminate|]. rewrite A2 in G. cbn [alt3 row_of_vec nadd nlift2] in G. injection G as G. lra. }
  destruct (cpp_intersection_one (cpp_of d) fuel [a; b]) as [res| | |] eqn:EI; try contradiction; [|right; left; reflexivity].
  destruct (cpp_value_on_line d fuel a b res Hb Hi ltac:(lra) EI) as [->|(u & -> & HS)]; [left; reflexivity|].
  right. right. exists (fst e), (snd e), a, b, u. rewrite !Hg. cbn [map]. rewrite Fa, Fb.
  split; [exact EC|]. split; [exact A1|]. split; [exact A2|]. split; [reflexivity|]. split; [reflexivity|]. split; [lra|]. split; [lra|].
  split; [reflexivity|]. cbv zeta in *. intros Hin. now apply value_on_surface.
Qed.

(** ** Cases *)
(** A DTM of 2 x 2 nodes over [100, 104] x [46, 50]; heights that depend on the longitude. *)
Definition dtm87 (z : Z -> Z -> R) : dtm := mkDtm (mkRaster 2 2 z) (G6 100 2 0 50 0 (-2)) 5773.
Definition conv87 (height : R -> R) (e1 e2 : Z) (l : list row3) : list row3 :=
  map (fun p => match lon3 p, alt3 p with
                | Some x, Some z => R3 (Some x) (lat3 p) (Some (z + (if (e1 =? 5773)%Z then height x else - height x)))
                | _, _ => nan3 end) l.
Definition height87 (height : R -> R) (p : row3) : R := match lon3 p with Some x => height x | None => 0 end.
Lemma dtm87_index z x y alt : ter_to_index (dt_trans_inv (dtm87 z)) (V3 x y alt) = V3 ((50 - y) / 2 - 1 / 2) ((x - 100) / 2 - 1 / 2) alt.
Proof.
  assert (HI : invertible (dt_transform (dtm87 z))) by (apply dt_invertible; unfold invertible6; simpl; lra).
  rewrite <- (C05_dtm_index_ter_index (dt_transform (dtm87 z)) (V3 ((50 - y) / 2 - 1 / 2) ((x - 100) / 2 - 1 / 2) alt)) by assumption.
  unfold dt_trans_inv. f_equal. unfold index_to_ter, transform_index_to_physical_point, affine_apply.
  unfold dt_transform, affine_of_gdal, from_gdal, dtm87.
  cbn [dt_gdal af_a af_b af_c af_d af_e af_f v0 v1 v2 g0 g1 g2 g3 g4 g5]. f_equal; field.
Qed.
Lemma dtm87_corner z alt p : corner (dtm87 z) alt p -> lon3 p = Some 100 \/ lon3 p = Some 104.
Proof.
  intros (i & j & Hi & Hj & ->). unfold index_to_ter, transform_index_to_physical_point, affine_apply.
  unfold dt_transform, affine_of_gdal, from_gdal, dtm87.
  cbn [dt_gdal af_a af_b af_c af_d af_e af_f v0 v1 v2 g0 g1 g2 g3 g4 g5 row_of_vec lon3 dt_data rs_cols] in *.
  cbn in Hj. destruct Hj as [->| ->]; [left|right]; f_equal; lra.
Qed.
Lemma dtm87_corners z alt : exists p q, corner (dtm87 z) alt p /\ lon3 p = Some 100 /\ corner (dtm87 z) alt q /\ lon3 q = Some 104.
Proof.
  exists (row_of_vec (index_to_ter (dt_transform (dtm87 z)) (V3 (- (1 / 2)) (- (1 / 2)) alt))),
         (row_of_vec (index_to_ter (dt_transform (dtm87 z)) (V3 (- (1 / 2)) (2 - 1 / 2) alt))).
  split; [exists (- (1 / 2)), (- (1 / 2)); auto|]. split; [|split; [exists (- (1 / 2)), (2 - 1 / 2); auto|]];
  unfold index_to_ter, transform_index_to_physical_point, affine_apply, dt_transform, affine_of_gdal, from_gdal, dtm87;
  cbn [dt_gdal af_a af_b af_c af_d af_e af_f v0 v1 v2 g0 g1 g2 g3 g4 g5 row_of_vec lon3]; f_equal; lra.
Qed.
Lemma conv87_adds h e2 : adds_height (conv87 h) 5773 e2 (height87 h).
Proof.
  eexists. split; [intros l; reflexivity|]. intros [[x|] y [z|]]; cbn [lon3 lat3 alt3]; [right|left; reflexivity..].
  unfold height87. cbn. reflexivity.
Qed.
Lemma conv87_removes h e1 e2 : e1 <> 5773%Z -> adds_height (conv87 h) e1 e2 (fun p => - height87 h p).
Proof.
  intros He. apply Z.eqb_neq in He.
  eexists. split; [intros l; reflexivity|]. intros [[x|] y [z|]]; cbn [lon3 lat3 alt3]; [right|left; reflexivity..].
  unfold height87. cbn. now rewrite He.
Qed.
Lemma rpc55_own conv lo hi : -100 <= lo -> hi <= 100 ->
  los_extrema conv rpc55 [Some 0] [Some 0] (Some lo) (Some hi) false None
  = Some [row_of_vec (V3 (815 / 8) (195 / 4) hi); row_of_vec (V3 (815 / 8) (195 / 4) lo)].
Proof.
  intros Hlo Hhi. pose proof (rpc55_los lo hi Hlo Hhi) as E.
  change (los_extrema conv rpc55 [Some 0] [Some 0] (Some lo) (Some hi) false None)
    with (los_extrema (fun _ _ l => l) rpc55 [Some 0] [Some 0] (Some lo) (Some hi) false None).
  destruct (los_extrema (fun _ _ l => l) rpc55 [Some 0] [Some 0] (Some lo) (Some hi) false None) as [l|] eqn:E0.
  - rewrite (C13_epsg _ _ _ _ _ _ _ 32631%Z l E0) in E. exact E.
  - rewrite (los_fail _ _ _ _ _ _ _ 32631%Z E0) in E. discriminate.
Qed.
(** A line of sight below all the DTM: NaN. *)
Lemma one_below d fuel a b : big_enough (dt_data d) -> v2 a < alt_min d -> v2 b < alt_min d ->
  intersection_one d fuel [row_of_vec a; row_of_vec b] = Some nan3.
Proof.
  intros Hb Ha Hbz. change [row_of_vec a; row_of_vec b] with (map row_of_vec [a; b]). rewrite one_finite.
  destruct (intersect_dtm_cube d [a; b]) as [[c h]|] eqn:EC; [|reflexivity]. exfalso.
  assert (Hva : forall v, v2 (ter_to_index (dt_trans_inv d) v) = v2 v).
  { intros v. unfold ter_to_index. destruct (transform_physical_point_to_index _ _ _). reflexivity. }
  destruct (C15_first_point_of_the_cube d a b c h Hb) as (Hh & -> & ((_ & (i & j & Hn & Hz) & _) & _) & _); [|exact EC|].
  - intros (_ & (i & j & Hn & Hz) & _). rewrite Hva in Hz. pose proof (alt_min_le d i j Hn). lra.
  - pose proof (alt_min_le d i j Hn). unfold along in Hz. cbn [v2] in Hz. rewrite !Hva in Hz.
    assert (v2 a + h * (v2 b - v2 a) < alt_min d) by nra. nra.
Qed.

(** The heights of the corners do not bound the ones between them: on a flat DTM at altitude 0 whose
    heights are 0 at the four corners and 19 metres inside, the line of sight is looked for between -1 and 1
    metre, under the DTM.  The pixel sees a point of the DTM and is not localized. *)
Theorem C87_height_between_the_corners_refuted :
  let d := dtm87 (fun _ _ => 0) in let height := fun x => 5 * (x - 100) * (104 - x) in
  adds_height (conv87 height) 5773 32631 (height87 height) /\ adds_height (conv87 height) 32631 5773 (fun p => - height87 height p) /\
  rpc_epsg rpc55 = 32631%Z /\ lowest d 0 /\ highest d 0 /\
  least_height d 0 (height87 height) 0 /\ greatest_height d 0 (height87 height) 0 /\
  (forall fuel, direct_loc_dtm (conv87 height) fuel rpc55 [Some 0] [Some 0] d = Some [nan3]) /\
  exists z, regular_at rpc55 (815 / 8) (195 / 4) z /\ col_of rpc55 (815 / 8) (195 / 4) z = 0 /\ row_of rpc55 (815 / 8) (195 / 4) z = 0 /\
    conv87 height 32631 5773 [R3 (Some (815 / 8)) (Some (195 / 4)) (Some z)] = [row_of_vec (V3 (815 / 8) (195 / 4) 0)] /\
    on_surface (dt_data d) 0 (ter_to_index (dt_trans_inv d) (V3 (815 / 8) (195 / 4) 0)).
Proof.
  intros d height.
  assert (HB : big_enough (dt_data d)) by (split; simpl; lia).
  assert (HL : lowest d 0) by (split; [intros; simpl; lra|]; exists 0%Z, 0%Z; split; [split; simpl; lia|reflexivity]).
  assert (HH : highest d 0) by (split; [intros; simpl; lra|]; exists 0%Z, 0%Z; split; [split; simpl; lia|reflexivity]).
  assert (HC : forall p, corner d 0 p -> height87 height p = 0).
  { intros p Hp. unfold height87. destruct (dtm87_corner _ _ _ Hp) as [->| ->]; unfold height; lra. }
  destruct (dtm87_corners (fun _ _ => 0) 0) as (p1 & p2 & K1 & _).
  assert (Hmin : least_height d 0 (height87 height) 0) by (split; [intros p Hp; rewrite (HC p Hp); lra|exists p1; auto]).
  assert (Hmax : greatest_height d 0 (height87 height) 0) by (split; [intros p Hp; rewrite (HC p Hp); lra|exists p1; auto]).
  split; [apply conv87_adds|]. split; [now apply conv87_removes|]. split; [reflexivity|]. do 4 (split; [assumption|]).
  assert (E1 : alt_min d = 0) by now apply lowest_eq. assert (E2 : alt_max d = 0) by now apply highest_eq.
  split.
  - intros fuel. unfold direct_loc_dtm.
    assert (Hz : (alt_min d + alt_max d) / 2 = 0) by lra.
    destruct (offsets (conv87 height) 32631 d (height87 height) 0 0 (conv87_adds height 32631)) as [E|E]; [now rewrite Hz|now rewrite Hz| |]; change (rpc_epsg rpc55) with 32631%Z; rewrite E.
    + rewrite (C13_epsg _ _ _ _ _ _ _ (dt_epsg d) _ (rpc55_own _ (alt_min d - 1 + 0) (alt_max d + 1 + 0) ltac:(lra) ltac:(lra))).
      change ((dt_epsg d =? rpc_epsg rpc55)%Z) with false. cbv iota. cbn [conv87 map row_of_vec lon3 lat3 alt3 v0 v1 v2].
      change ((rpc_epsg rpc55 =? 5773)%Z) with false. cbv iota.
      unfold los_of_edges. cbn [pairs_of map fst snd]. unfold intersection_n_los_dtm. cbn [map].
      match goal with |- context [intersection_one d fuel ?l] => assert (HO : intersection_one d fuel l = Some nan3) end.
      { apply (one_below d fuel (V3 (815 / 8) (195 / 4) (alt_max d + 1 + 0 + - height (815 / 8))) (V3 (815 / 8) (195 / 4) (alt_min d - 1 + 0 + - height (815 / 8))) HB); cbn [v2]; unfold height; lra. }
      rewrite HO. reflexivity.
    + exfalso. unfold get_dtm_alt_offset in E. unfold get_footprint_corners in E. cbn [map fst snd] in E.
      repeat match type of E with context [let '(_, _) := ?t in _] => destruct t end.
      discriminate.
  - exists (0 + height (815 / 8)). destruct (rpc55_sees (0 + height (815 / 8)) (815 / 8) (195 / 4)) as (A & B & C).
    split; [exact A|]. split; [rewrite B; lra|]. split; [rewrite C; lra|]. split.
    + cbn [conv87 map row_of_vec lon3 lat3 alt3 v0 v1 v2]. change ((32631 =? 5773)%Z) with false. cbv iota. unfold row_of_vec. cbn [v0 v1 v2]. replace (0 + height (815 / 8) + - height (815 / 8)) with 0 by ring. reflexivity.
    + pose proof (dtm87_index (fun _ _ => 0) (815 / 8) (195 / 4) 0) as EI. fold d in EI. rewrite EI. exists 0. split; [|rewrite Rabs_R0; lra]. apply clearance_iff; [assumption|]. split; [unfold in_hull; simpl; lra|].
      unfold clr, interpolate. rewrite (interp_in_cell _ 0 0); [|split; simpl; lia|unfold in_cell; simpl; lra].
      unfold bilinear_in_cell, lerp. cbn [v0 v1 v2]. simpl. lra.
Qed.

(** Heights that grow with the longitude, from 0 to 4 metres: the line of sight goes from -1 to 15 metres in
    the system of the model, from -23/8 to 105/8 in the one of the DTM, and the pixel is localized. *)
Definition z87 (i j : Z) : R := if ((i =? 1) && (j =? 1))%Z then 10 else 0.
Example C87_case : let d := dtm87 z87 in let height := fun x => x - 100 in
  big_enough (dt_data d) /\ invertible (dt_transform d) /\ scale_alt rpc55 <> 0 /\ dt_epsg d <> rpc_epsg rpc55 /\
  adds_height (conv87 height) (dt_epsg d) (rpc_epsg rpc55) (height87 height) /\
  adds_height (conv87 height) (rpc_epsg rpc55) (dt_epsg d) (fun p => - height87 height p) /\
  lowest d 0 /\ highest d 10 /\ least_height d ((0 + 10) / 2) (height87 height) 0 /\ greatest_height d ((0 + 10) / 2) (height87 height) 4 /\
  (forall los p, los_extrema (conv87 height) rpc55 [Some 0] [Some 0] (Some (0 - 1 + 0)) (Some (10 + 1 + 4)) false None = Some los ->
     In p los -> 0 - 1 + 1 / 10000 < height87 height p < 4 + 1) /\
  forall fuel, (fuel_bound d <= fuel)%nat ->
  exists z, direct_loc_dtm (conv87 height) fuel rpc55 [Some 0] [Some 0] d
              = Some [R3 (Some (815 / 8)) (Some (195 / 4)) (Some z)] /\ Rabs (z - 35 / 64) <= 1 / 10000.
Proof.
  intros d height.
  assert (HN : forall i j, 0 <= z87 i j <= 10) by (intros i j; unfold z87; destruct ((i =? 1) && (j =? 1))%Z; lra).
  assert (HB : big_enough (dt_data d)) by (split; simpl; lia).
  assert (HI : invertible (dt_transform d)) by (apply dt_invertible; unfold invertible6; simpl; lra).
  assert (HL : lowest d 0) by (split; [intros i j _; apply HN|]; exists 0%Z, 0%Z; split; [split; simpl; lia|reflexivity]).
  assert (HH : highest d 10) by (split; [intros i j _; apply HN|]; exists 1%Z, 1%Z; split; [split; simpl; lia|reflexivity]).
  assert (HC : forall p, corner d ((0 + 10) / 2) p -> height87 height p = 0 \/ height87 height p = 4).
  { intros p Hp. unfold height87. destruct (dtm87_corner _ _ _ Hp) as [->| ->]; unfold height; [left|right]; lra. }
  destruct (dtm87_corners z87 ((0 + 10) / 2)) as (p1 & p2 & K1 & X1 & K2 & X2).
  assert (Hmin : least_height d ((0 + 10) / 2) (height87 height) 0).
  { split; [intros p Hp; destruct (HC p Hp); lra|exists p1; split; [exact K1|]; unfold height87; rewrite X1; unfold height; lra]. }
  assert (Hmax : greatest_height d ((0 + 10) / 2) (height87 height) 4).
  { split; [intros p Hp; destruct (HC p Hp); lra|exists p2; split; [exact K2|]; unfold height87; rewrite X2; unfold height; lra]. }
  assert (Hup : adds_height (conv87 height) (dt_epsg d) (rpc_epsg rpc55) (height87 height)) by apply conv87_adds.
  assert (Hdn : adds_height (conv87 height) (rpc_epsg rpc55) (dt_epsg d) (fun p => - height87 height p)) by now apply conv87_removes.
  pose proof (rpc55_own (conv87 height) (0 - 1 + 0) (10 + 1 + 4) ltac:(lra) ltac:(lra)) as EO.
  assert (Hdown : forall los p, los_extrema (conv87 height) rpc55 [Some 0] [Some 0] (Some (0 - 1 + 0)) (Some (10 + 1 + 4)) false None = Some los ->
     In p los -> 0 - 1 + 1 / 10000 < height87 height p < 4 + 1).
  { intros los p E Hp. rewrite EO in E. injection E as <-. cbn [In] in Hp. destruct Hp as [<-|[<-|[]]]; unfold height87; cbn [row_of_vec lon3 v0]; unfold height; lra. }
  assert (NE : dt_epsg d <> rpc_epsg rpc55) by discriminate.
  assert (Hs : scale_alt rpc55 <> 0) by (simpl; lra).
  do 11 (split; [assumption|]). intros fuel HF.
  set (a := V3 (815 / 8) (195 / 4) (105 / 8)). set (b := V3 (815 / 8) (195 / 4) (- (23 / 8))).
  assert (EI : forall z, ter_to_index (dt_trans_inv d) (V3 (815 / 8) (195 / 4) z) = V3 (1 / 8) (7 / 16) z).
  { intros z. unfold d. rewrite dtm87_index. f_equal; lra. }
  assert (Hin : in_hull (dt_data d) (1 / 8) (7 / 16)) by (unfold in_hull; simpl; lra).
  assert (Hcl : forall z e, clearance (dt_data d) (V3 (1 / 8) (7 / 16) z) e -> e = z - 35 / 64).
  { intros z e He. apply clearance_iff in He; [|assumption]. destruct He as [_ ->]. unfold clr.
    unfold interpolate. rewrite (interp_in_cell _ 0 0); [|split; simpl; lia|unfold in_cell; simpl; lra].
    unfold bilinear_in_cell, lerp. cbn [v0 v1 v2]. unfold d, z87. simpl. lra. }
  assert (ELos : los_extrema (conv87 height) rpc55 [Some 0] [Some 0] (Some (0 - 1 + 0)) (Some (10 + 1 + 4)) false (Some (dt_epsg d)) = Some [row_of_vec a; row_of_vec b]).
  { rewrite (C13_epsg _ _ _ _ _ _ _ (dt_epsg d) _ EO). change ((dt_epsg d =? rpc_epsg rpc55)%Z) with false. cbv iota.
    cbn [conv87 map row_of_vec lon3 lat3 alt3 v0 v1 v2]. change ((rpc_epsg rpc55 =? 5773)%Z) with false. cbv iota.
    unfold a, b, row_of_vec. cbn [v0 v1 v2]. unfold height.
    replace (10 + 1 + 4 + - (815 / 8 - 100)) with (105 / 8) by lra. replace (0 - 1 + 0 + - (815 / 8 - 100)) with (- (23 / 8)) by lra. reflexivity. }
  assert (Hal : forall t, along (V3 (1 / 8) (7 / 16) (105 / 8)) (V3 (1 / 8) (7 / 16) (- (23 / 8))) t = V3 (1 / 8) (7 / 16) (105 / 8 - 16 * t)).
  { intros t. unfold along. cbn [v0 v1 v2]. f_equal; lra. }
  assert (Ein : intersection_one d fuel [row_of_vec a; row_of_vec b] <> None).
  { intros EN.
    destruct (C53_fails_only_on_the_surface_partial d fuel a b HB HF) as (p & h & EC & HCl).
    - unfold a. rewrite EI. intros (_ & _ & i & j & _ & Hz). pose proof (HN i j). cbn [v2] in Hz. cbn [d dtm87 dt_data rs_at] in Hz. lra.
    - exact EN.
    - destruct (C15_succeeds_through_the_dtm d a b HB) as (h' & Hh' & EC' & Hz').
      + unfold a. rewrite EI. exact Hin.
      + unfold b. rewrite EI. exact Hin.
      + apply nodes_below_iff; [assumption|]. rewrite (highest_eq _ _ HB HH). unfold a. cbn [v2]. lra.
      + apply nodes_above_iff; [assumption|]. rewrite (lowest_eq _ _ HB HL). unfold b. cbn [v2]. lra.
      + rewrite EC' in EC. injection EC as <- <-. rewrite (highest_eq _ _ HB HH) in Hz'.
        unfold a, b in Hz', HCl. rewrite !EI, Hal in Hz', HCl. apply Hcl in HCl. cbn [v2] in Hz'. lra. }
  assert (exists out, direct_loc_dtm (conv87 height) fuel rpc55 [Some 0] [Some 0] d = Some out) as [out Eout].
  { unfold direct_loc_dtm. pose proof (lowest_eq _ _ HB HL) as L1. pose proof (highest_eq _ _ HB HH) as L2.
    destruct (offsets (conv87 height) (rpc_epsg rpc55) d (height87 height) 0 4 Hup) as [E|E]; [now rewrite L1, L2|now rewrite L1, L2| |]; rewrite E.
    - rewrite L1, L2. rewrite ELos. unfold los_of_edges. cbn [pairs_of map fst snd]. unfold intersection_n_los_dtm.
      cbn [map seq_opt]. destruct (intersection_one d fuel [row_of_vec a; row_of_vec b]); [eauto|contradiction].
    - exfalso. unfold get_dtm_alt_offset in E. unfold get_footprint_corners in E. cbn [map fst snd] in E.
      repeat match type of E with context [let '(_, _) := ?t in _] => destruct t end.
      discriminate. }
  destruct (C87_line_over_the_dtm_is_localized_partial (conv87 height) fuel rpc55 [Some 0] [Some 0] d (height87 height) 0 4 0 10 out
    [row_of_vec a; row_of_vec b] 0 a b) as (u & Hu & EN & HSu); auto.
  - discriminate.
  - intros p Hp q Hq. cbn [conv87 map In] in Hq. destruct Hq as [<-|[]]. destruct Hp as (i & j & _ & _ & ->). discriminate.
  - unfold a. cbn [v2]. lra.
  - unfold b. cbn [v2]. lra.
  - unfold a. rewrite EI. exact Hin.
  - unfold b. rewrite EI. exact Hin.
  - unfold a, b. rewrite !EI. intros [[_ H]|[_ H]]; simpl in H; lra.
  - intros t Ht HCl. unfold a, b in Ht, HCl. rewrite !EI, Hal in Ht, HCl. apply Hcl in HCl. cbn [v2] in Ht. lra.
  - exists (105 / 8 - 16 * u). split.
    + destruct (C87_surface_point_partial (conv87 height) fuel rpc55 [Some 0] [Some 0] d (height87 height) (height87 height) 0 4 0 10 out) as [HLen _]; auto.
      destruct out as [|r [|r' out]]; try discriminate. rewrite Eout. simpl in EN. injection EN as ->.
      unfold row_of_vec. do 2 f_equal. unfold a, b, along. cbn [v0 v1 v2]. f_equal; f_equal; lra.
    + destruct HSu as (e & He & Ha). replace (along a b u) with (V3 (815 / 8) (195 / 4) (105 / 8 - 16 * u)) in He.
      * rewrite EI in He. apply Hcl in He. now rewrite <- He.
      * unfold a, b, along. cbn [v0 v1 v2]. f_equal; lra.
Qed.

(** RPCoptim: a line of sight over the DTM that goes from above all of it to below all of it is found, under
    the conditions of C21. *)
Lemma cpp_line_found d fuel a b : big_enough (dt_data d) -> invertible (dt_transform d) -> (fuel_bound d <= fuel)%nat ->
  alt_max d < v2 a -> v2 b + 1 / 10000 < alt_min d ->
  let ia := ter_to_index (dt_trans_inv d) a in let ib := ter_to_index (dt_trans_inv d) b in
  in_hull (dt_data d) (v0 ia) (v1 ia) -> in_hull (dt_data d) (v0 ib) (v1 ib) ->
  v0 ia <> 0 -> v0 ia <> IZR (rs_rows (dt_data d) - 1) -> v1 ia <> 0 -> v1 ia <> IZR (rs_cols (dt_data d) - 1) ->
  (forall t, 0 < t < 1 -> on_face (dt_data d) (along ia ib t) ->
     ((exists i, v0 (along ia ib t) = IZR i) -> v0 ia <= v0 ib) /\
     ((exists j, v1 (along ia ib t) = IZR j) -> v1 ia <= v1 ib)) ->
  (forall t, v2 (along ia ib t) = alt_max d -> ~ clearance (dt_data d) (along ia ib t) 0) ->
  exists u, 0 <= u <= 1 /\ cpp_intersection_one (cpp_of d) fuel [a; b] = Value (row_of_vec (along a b u)) /\
    on_surface (dt_data d) (1 / 10000) (ter_to_index (dt_trans_inv d) (along a b u)).
Proof.
  intros Hb Hinv HF Ha Hbz ia ib Hia Hib N0 N1 N2 N3 HD HE.
  assert (Hv : forall v, v2 (ter_to_index (dt_trans_inv d) v) = v2 v).
  { intros v. unfold ter_to_index. destruct (transform_physical_point_to_index _ _ _). reflexivity. }
  assert (Hlh : alt_min d <= alt_max d).
  { destruct (alt_min_node d Hb) as (i & j & Hn & <-). now apply alt_max_ge. }
  assert (HA : all_nodes_below (dt_data d) (v2 a)) by (apply nodes_below_iff; [assumption|lra]).
  assert (HB : all_nodes_above (dt_data d) (v2 b + 1 / 10000)) by (apply nodes_above_iff; [assumption|lra]).
  assert (HB' : all_nodes_above (dt_data d) (v2 b)) by (apply nodes_above_iff; [assumption|lra]).
  assert (HLL : ~ runs_along_last_line (dt_data d) ia ib) by (intros [[_ ?]|[_ ?]]; contradiction).
  destruct (C15_succeeds_through_the_dtm d a b Hb Hia Hib HA HB') as (h0 & Hh0 & EC0 & Hz0).
  destruct (C19_line_through_the_dtm_is_found d fuel a b Hb Hinv HF Hia Hib HA HB HLL) as (p & h & EC & HC).
  rewrite EC in EC0. injection EC0 as -> ->.
  destruct HC as [HC|(u & Hu & EI & HS)]; [exfalso; apply (HE h0); [exact Hz0|exact HC]|].
  exists u. split; [lra|]. split; [|exact HS].
  assert (Hout : ~ in_cube (dt_data d) ia).
  { intros (_ & _ & i & j & Hn & Hz). pose proof (HA i j Hn). unfold ia in Hz. rewrite Hv in Hz. lra. }
  destruct (C15_first_point_of_the_cube d a b _ h0 Hb Hout EC) as (Hh & _ & HFace & _). fold ia ib in HFace, EC, EI.
  unfold cpp_intersection_one. rewrite cpp_los. change (los_to_index d [a; b]) with [ia; ib] in *.
  rewrite cpp_cube_some by (apply planes_off; auto; unfold ia; rewrite Hv; lra).
  unfold intersect_dtm_cube in EC. change (los_to_index d [a; b]) with [ia; ib] in EC. rewrite EC.
  assert (ECI : cpp_intersection_index (cpp_of d) fuel [ia; ib] (along ia ib h0) h0 = intersection_index d fuel [ia; ib] (along ia ib h0) h0).
  { destruct (Req_dec h0 1) as [->|Hn1].
    - rewrite intersection2_end. unfold cpp_intersection_index.
      assert (E : Rfloor 1 = 1%Z) by (apply (Rfloor_IZR 1)). rewrite E. destruct Rltb; reflexivity.
    - apply cpp_intersection2_eq; [assumption|lra|].
      destruct (HD h0 ltac:(lra) HFace) as [D0 D1].
      intros [[HX HLt]|[HX HLt]]; [specialize (D0 HX)|specialize (D1 HX)]; lra. }
  rewrite ECI. unfold intersection in EI.
  destruct (intersection_index d fuel [ia; ib] (along ia ib h0) h0) as [x| | |]; try discriminate.
  assert (EI' : index_to_ter (dt_transform d) x = along a b u) by congruence. rewrite <- EI'. do 2 f_equal.
Qed.
(** The same heights with RPCoptim: the pixel (0, 0) of rpc69 is localized. *)
Definition clamped87 (x : R) : R := Rmin 4 (Rmax 0 (x - 100)).
Example C87_optim_case : let d := dtm87 z87 in let height := clamped87 in
  inverse_coefficient rpc69 = true /\ scale_alt rpc69 <> 0 /\ dt_epsg d <> 4326%Z /\
  adds_height (conv87 height) (dt_epsg d) 4326 (height87 height) /\
  adds_height (conv87 height) 4326 (dt_epsg d) (fun p => - height87 height p) /\
  least_height d ((0 + 10) / 2) (height87 height) 0 /\ greatest_height d ((0 + 10) / 2) (height87 height) 4 /\
  (forall r c p q, cpp_los_extrema rpc69 r c (Some (0 - 1 + 0)) (Some (10 + 1 + 4)) false = Some [p; q] ->
     height87 height p < 4 + 1 /\ 0 - 1 < height87 height q) /\
  forall fuel, (fuel_bound d <= fuel)%nat ->
  exists z, optim_direct_loc_dtm (conv87 height) fuel rpc69 [Some 0] [Some 0] d
              = Some [Value (R3 (Some (815 / 8)) (Some (195 / 4)) (Some z))] /\ Rabs (z - 35 / 64) <= 1 / 10000.
Proof.
  intros d height.
  assert (HN : forall i j, 0 <= z87 i j <= 10) by (intros i j; unfold z87; destruct ((i =? 1) && (j =? 1))%Z; lra).
  assert (HB : big_enough (dt_data d)) by (split; simpl; lia).
  assert (HI : invertible (dt_transform d)) by (apply dt_invertible; unfold invertible6; simpl; lra).
  assert (HL : lowest d 0) by (split; [intros i j _; apply HN|]; exists 0%Z, 0%Z; split; [split; simpl; lia|reflexivity]).
  assert (HH : highest d 10) by (split; [intros i j _; apply HN|]; exists 1%Z, 1%Z; split; [split; simpl; lia|reflexivity]).
  assert (Hrange : forall x, 0 <= height x <= 4).
  { intros x. unfold height, clamped87, Rmin, Rmax. destruct (Rle_dec 0 (x - 100)); destruct (Rle_dec 4 _); lra. }
  assert (Hr : forall p, 0 <= height87 height p <= 4) by (intros p; unfold height87; destruct (lon3 p); [apply Hrange|lra]).
  assert (H0 : height 100 = 0) by (unfold height, clamped87; rewrite Rmax_left, Rmin_right; lra).
  assert (H4 : height 104 = 4) by (unfold height, clamped87; rewrite Rmax_right, Rmin_left; lra).
  assert (HX : height (815 / 8) = 15 / 8) by (unfold height, clamped87; rewrite Rmax_right, Rmin_right; lra).
  destruct (dtm87_corners z87 ((0 + 10) / 2)) as (p1 & p2 & K1 & X1 & K2 & X2).
  assert (Hmin : least_height d ((0 + 10) / 2) (height87 height) 0).
  { split; [intros p Hp; apply Hr|exists p1; split; [exact K1|]; unfold height87; now rewrite X1]. }
  assert (Hmax : greatest_height d ((0 + 10) / 2) (height87 height) 4).
  { split; [intros p Hp; apply Hr|exists p2; split; [exact K2|]; unfold height87; now rewrite X2]. }
  assert (Hup : adds_height (conv87 height) (dt_epsg d) 4326 (height87 height)) by apply conv87_adds.
  assert (Hdn : adds_height (conv87 height) 4326 (dt_epsg d) (fun p => - height87 height p)) by now apply conv87_removes.
  split; [reflexivity|]. split; [simpl; lra|]. split; [discriminate|]. do 4 (split; [assumption|]).
  split; [intros r c p q _; pose proof (Hr p); pose proof (Hr q); lra|]. intros fuel HF.
  set (a := V3 (815 / 8) (195 / 4) (105 / 8)). set (b := V3 (815 / 8) (195 / 4) (- (23 / 8))).
  assert (EI : forall z, ter_to_index (dt_trans_inv d) (V3 (815 / 8) (195 / 4) z) = V3 (1 / 8) (7 / 16) z).
  { intros z. unfold d. rewrite dtm87_index. f_equal; lra. }
  assert (Hin : in_hull (dt_data d) (1 / 8) (7 / 16)) by (unfold in_hull; simpl; lra).
  assert (Hcl : forall z e, clearance (dt_data d) (V3 (1 / 8) (7 / 16) z) e -> e = z - 35 / 64).
  { intros z e He. apply clearance_iff in He; [|assumption]. destruct He as [_ ->]. unfold clr.
    unfold interpolate. rewrite (interp_in_cell _ 0 0); [|split; simpl; lia|unfold in_cell; simpl; lra].
    unfold bilinear_in_cell, lerp. cbn [v0 v1 v2]. unfold d, z87. simpl. lra. }
  assert (Hal : forall t, along (V3 (1 / 8) (7 / 16) (105 / 8)) (V3 (1 / 8) (7 / 16) (- (23 / 8))) t = V3 (1 / 8) (7 / 16) (105 / 8 - 16 * t)).
  { intros t. unfold along. cbn [v0 v1 v2]. f_equal; lra. }
  pose proof (lowest_eq _ _ HB HL) as L1. pose proof (highest_eq _ _ HB HH) as L2.
  destruct (cpp_line_found d fuel a b HB HI HF) as (u & Hu & EN & HS).
  - rewrite L2. unfold a. cbn [v2]. lra.
  - rewrite L1. unfold b. cbn [v2]. lra.
  - unfold a. rewrite EI. exact Hin.
  - unfold b. rewrite EI. exact Hin.
  - unfold a. rewrite EI. cbn [v0]. lra.
  - unfold a. rewrite EI. simpl. lra.
  - unfold a. rewrite EI. cbn [v1]. lra.
  - unfold a. rewrite EI. simpl. lra.
  - intros t _ _. unfold a, b. rewrite !EI. cbn [v0 v1]. split; intros; lra.
  - intros t Ht HCl. rewrite L2 in Ht. unfold a, b in Ht, HCl. rewrite !EI, Hal in Ht, HCl. apply Hcl in HCl. cbn [v2] in Ht. lra.
  - exists (105 / 8 - 16 * u). split.
    + unfold optim_direct_loc_dtm. change ((dt_epsg d =? 4326)%Z) with false. cbv iota.
      destruct (offsets (conv87 height) 4326 d (height87 height) 0 4 Hup) as [E|E]; [now rewrite L1, L2|now rewrite L1, L2| |]; rewrite E.
      * rewrite L1, L2. unfold optim_los_extrema. change ((dt_epsg d =? 4326)%Z) with false. cbv iota.
        destruct (optim_edges_rows rpc69 [(Some 0, Some 0)] (Some (0 - 1 + 0)) (Some (10 + 1 + 4)) false eq_refl) as (L & EL & HFo).
        cbn [map fst snd] in EL.
        match goal with |- context [optim_los_edges ?a ?b ?c ?d ?e ?f] => replace (optim_los_edges a b c d e f) with (Some (ends L)) by (symmetry; exact EL) end. inversion HFo as [|? e ? ? EC HFo' E1 E2]; subst. inversion HFo'; subst. cbn [fst snd] in EC.
        rewrite cpp_los_pix in EC by reflexivity. cbn [alt_minmax fst snd] in EC.
        destruct (Rleb_spec (offset_alt rpc69 - scale_alt rpc69) (0 - 1 + 0)) as [_|H]; [|exfalso; simpl in H; lra].
        destruct (Rleb_spec (10 + 1 + 4) (offset_alt rpc69 + scale_alt rpc69)) as [_|H]; [|exfalso; simpl in H; lra].
        cbn [andb fst snd] in EC. unfold fin in EC. rewrite !rpc69_pixel in EC.
        assert (EC' : e = (R3 (Some (815 / 8)) (Some (195 / 4)) (Some (10 + 1 + 4)), R3 (Some (815 / 8)) (Some (195 / 4)) (Some (0 - 1 + 0)))).
        { destruct e as [e1 e2]. cbn [fst snd] in EC. congruence. }
        subst e. unfold ends, los_of_edges, conv87. cbn [flat_map app map pairs_of fst snd lon3 lat3 alt3]. change ((4326 =? 5773)%Z) with false. cbv iota.
        rewrite HX. replace (10 + 1 + 4 + - (15 / 8)) with (105 / 8) by lra. replace (0 - 1 + 0 + - (15 / 8)) with (- (23 / 8)) by lra.
        change (R3 (Some (815 / 8)) (Some (195 / 4)) (Some (105 / 8))) with (row_of_vec a).
        change (R3 (Some (815 / 8)) (Some (195 / 4)) (Some (- (23 / 8)))) with (row_of_vec b).
        assert (FR : forall v, finite_row (row_of_vec v) = Some v) by (intros [? ? ?]; reflexivity).
        unfold cpp_intersection_num. cbn [map seq_opt]. rewrite !FR, EN. unfold all_results. cbn [existsb orb].
        unfold row_of_vec. do 3 f_equal. unfold a, b, along. cbn [v0 v1 v2]. f_equal; f_equal; lra.
      * exfalso. unfold get_dtm_alt_offset in E. unfold get_footprint_corners in E. cbn [map fst snd] in E.
        repeat match type of E with context [let '(_, _) := ?t in _] => destruct t end.
        discriminate.
    + destruct HS as (e & He & Ha). replace (along a b u) with (V3 (815 / 8) (195 / 4) (105 / 8 - 16 * u)) in He.
      * rewrite EI in He. apply Hcl in He. now rewrite <- He.
      * unfold a, b, along. cbn [v0 v1 v2]. f_equal; lra.
Qed.
