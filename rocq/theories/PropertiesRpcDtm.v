(** C55: RPC direct localization on a DTM. *)
From Coq Require Import Reals ZArith List Bool Lra Lia.
From Verif Require Import Num NumLemmas InterpModel InterpSpec InterpProofs ProjModel ProjSpec PropertiesProj
  RpcModel RpcSpec RpcProofs RpcNewton RpcDeriv RpcRun RpcBatch PropertiesRpc
  DtmModel DtmSpec DtmCube DtmWalk DtmIntersect DtmProofs DtmWitness PropertiesDtm DtmWitness2 PropertiesDtm2
  RpcDtmModel RpcDtmSpec.
Import ListNotations.
Open Scope R_scope.

(** The lowest and highest altitudes of the DTM. *)
Definition lowest (d : dtm) (z : R) : Prop :=
  (forall i j, is_node (dt_data d) i j -> z <= rs_at (dt_data d) i j) /\
  exists i j, is_node (dt_data d) i j /\ rs_at (dt_data d) i j = z.
Definition highest (d : dtm) (z : R) : Prop :=
  (forall i j, is_node (dt_data d) i j -> rs_at (dt_data d) i j <= z) /\
  exists i j, is_node (dt_data d) i j /\ rs_at (dt_data d) i j = z.

Lemma lowest_eq d z : big_enough (dt_data d) -> lowest d z -> alt_min d = z.
Proof.
  intros Hb [H (i & j & Hn & E)]. destruct (alt_min_node d Hb) as (i' & j' & Hn' & E').
  pose proof (alt_min_le d i j Hn). pose proof (H i' j' Hn'). lra.
Qed.
Lemma highest_eq d z : big_enough (dt_data d) -> highest d z -> alt_max d = z.
Proof.
  intros Hb [H (i & j & Hn & E)]. destruct (alt_max_node d Hb) as (i' & j' & Hn' & E').
  pose proof (alt_max_ge d i j Hn). pose proof (H i' j' Hn'). lra.
Qed.

Lemma los_alts conv m rw cl lo hi out : length rw = length cl -> scale_alt m <> 0 ->
  los_extrema conv m rw cl (Some lo) (Some hi) false None = Some out ->
  length out = (2 * length rw)%nat /\
  forall i p q, nth_error out (2 * i) = Some p -> nth_error out (2 * i + 1) = Some q ->
    (p = nan3 \/ alt3 p = Some hi) /\ (q = nan3 \/ alt3 q = Some lo).
Proof.
  intros HL Hs H.
  destruct (Rle_lt_dec (fst (alt_minmax m)) lo) as [H1|H1]; [destruct (Rle_lt_dec hi (snd (alt_minmax m))) as [H2|H2]|].
  - destruct (C13_bounds_inside_domain _ _ _ _ _ _ _ _ HL H1 H2 H) as [HL' HB]. split; [assumption|].
    intros i p q Hp Hq. destruct (HB i p q Hp Hq) as [[?|[_ ?]] [?|[_ ?]]]; auto.
  - destruct (C13_extrapolation conv m rw cl lo hi false out HL Hs (or_intror H2) H) as (HL' & own & EO & HB).
    destruct (C13_no_bounds conv m rw cl None None false own HL (or_introl eq_refl) EO) as [HLo _].
    split; [assumption|]. intros i p q Hp Hq.
    assert (Hi : (2 * i + 1 < length own)%nat) by (assert (nth_error out (2 * i + 1) <> None) as N by congruence; apply nth_error_Some in N; lia).
    destruct (nth_error own (2 * i)) as [t|] eqn:Et; [|apply nth_error_None in Et; lia].
    destruct (nth_error own (2 * i + 1)) as [b|] eqn:Eb; [|apply nth_error_None in Eb; lia].
    destruct (HB i t b p q Et Eb Hp Hq) as [HV HN].
    assert (D : forall r : row3, r = nan3 \/ r <> nan3).
    { intros [[x|] [y|] [z|]]; (left; reflexivity) || (right; discriminate). }
    destruct (D t) as [->|Nt]; [destruct HN; auto|]. destruct (D b) as [->|Nb]; [destruct HN; auto|].
    destruct (HV Nt Nb) as (_ & _ & ? & ?). auto.
  - destruct (C13_extrapolation conv m rw cl lo hi false out HL Hs (or_introl H1) H) as (HL' & own & EO & HB).
    destruct (C13_no_bounds conv m rw cl None None false own HL (or_introl eq_refl) EO) as [HLo _].
    split; [assumption|]. intros i p q Hp Hq.
    assert (Hi : (2 * i + 1 < length own)%nat) by (assert (nth_error out (2 * i + 1) <> None) as N by congruence; apply nth_error_Some in N; lia).
    destruct (nth_error own (2 * i)) as [t|] eqn:Et; [|apply nth_error_None in Et; lia].
    destruct (nth_error own (2 * i + 1)) as [b|] eqn:Eb; [|apply nth_error_None in Eb; lia].
    destruct (HB i t b p q Et Eb Hp Hq) as [HV HN].
    assert (D : forall r : row3, r = nan3 \/ r <> nan3).
    { intros [[x|] [y|] [z|]]; (left; reflexivity) || (right; discriminate). }
    destruct (D t) as [->|Nt]; [destruct HN; auto|]. destruct (D b) as [->|Nb]; [destruct HN; auto|].
    destruct (HV Nt Nb) as (_ & _ & ? & ?). auto.
Qed.

Lemma los_fail conv m rw cl lo hi fill e :
  los_extrema conv m rw cl lo hi fill None = None -> los_extrema conv m rw cl lo hi fill (Some e) = None.
Proof.
  intros H. unfold los_extrema in *.
  match goal with |- context [let '(_, _) := ?x in _] => destruct x as [[ex l] h] end.
  destruct (direct_loc_h _ _ _ _ _ _); [discriminate|reflexivity].
Qed.

Lemma conv_offset conv m d k : shifts_altitudes conv (dt_epsg d) (rpc_epsg m) (- k) ->
  get_dtm_alt_offset conv (rpc_epsg m) d = (Some (- k), Some (- k)) \/
  get_dtm_alt_offset conv (rpc_epsg m) d = (None, None).
Proof.
  intros (f & Hf & Ha). unfold get_dtm_alt_offset. rewrite Hf.
  set (z := (alt_min d + alt_max d) / 2).
  assert (HA : forall x y, alt3 (f (R3 x y (fin z))) = None \/ alt3 (f (R3 x y (fin z))) = Some (z + - k)).
  { intros x y. destruct (Ha (R3 x y (fin z))) as [->|E]; [left; reflexivity|right; exact E]. }
  unfold get_footprint_corners.
  cbn [map fst snd].
  repeat match goal with |- context [let '(_, _) := ?t in _] => destruct t end.
  unfold np_min, np_max. cbn [seq_opt].
  repeat match goal with |- context [alt3 (f (R3 ?x ?y (fin z)))] =>
    let E := fresh in destruct (HA x y) as [E|E]; rewrite E; cbn [seq_opt]; [right; reflexivity|] end.
  left. unfold list_min, list_max. cbn [fold_left]. cbn [nsub nlift2 fin].
  assert (E1 : forall x, Rmin x x = x) by (intros; apply Rmin_left; lra).
  assert (E2 : forall x, Rmax x x = x) by (intros; apply Rmax_left; lra). rewrite !E1, !E2.
  f_equal; f_equal; ring.
Qed.

Lemma seq_opt_nth_inv {A} (l : list (option A)) r i x : seq_opt l = Some r ->
  nth_error r i = Some x -> nth_error l i = Some (Some x).
Proof.
  revert r i. induction l as [|o l IH]; intros r i H Hn; simpl in H.
  - injection H as <-. destruct i; discriminate.
  - destruct o as [a|]; [|discriminate]. destruct (seq_opt l) as [r'|] eqn:E; [|discriminate].
    injection H as <-. destruct i as [|i]; simpl in *; [congruence|]. now apply (IH r').
Qed.
Lemma finite_row_inv p v : finite_row p = Some v -> p = row_of_vec v.
Proof. destruct p as [[x|] [y|] [z|]]; try discriminate. intros [= <-]. reflexivity. Qed.

(** One line of sight from above the DTM to below it. *)
Lemma one_between d fuel p q r : big_enough (dt_data d) -> invertible (dt_transform d) ->
  (alt3 p = None \/ alt3 p = Some (alt_max d + 1)) -> (alt3 q = None \/ alt3 q = Some (alt_min d - 1)) ->
  intersection_one d fuel [p; q] = Some r ->
  r = nan3 \/ r = R3 (Some 0) (Some 0) (Some 0) \/
  exists a b u, p = row_of_vec a /\ q = row_of_vec b /\ v2 a = alt_max d + 1 /\ v2 b = alt_min d - 1 /\
    0 <= u <= 1 /\ r = row_of_vec (along a b u) /\
    on_surface (dt_data d) (1 / 10000) (ter_to_index (dt_trans_inv d) (along a b u)).
Proof.
  intros Hb Hi Hp Hq H.
  destruct (finite_row p) as [a|] eqn:Ea.
  2:{ left. unfold intersection_one in H. cbn [map] in H. rewrite Ea in H. cbn [seq_opt] in H. congruence. }
  destruct (finite_row q) as [b|] eqn:Eb.
  2:{ left. unfold intersection_one in H. cbn [map] in H. rewrite Ea, Eb in H. cbn [seq_opt] in H. congruence. }
  apply finite_row_inv in Ea. apply finite_row_inv in Eb. subst p q.
  cbn [row_of_vec alt3] in Hp, Hq. destruct Hp as [?|Hp]; [discriminate|]. destruct Hq as [?|Hq]; [discriminate|].
  injection Hp as Hp. injection Hq as Hq.
  change [row_of_vec a; row_of_vec b] with (map row_of_vec [a; b]) in H. rewrite one_finite in H.
  destruct (intersect_dtm_cube d [a; b]) as [[c h]|] eqn:EC; [|left; congruence].
  destruct (intersection d fuel (los_to_index d [a; b]) c h) as [[[|] g]|] eqn:EI; [| |discriminate].
  - right; right. injection H as <-.
    assert (Hva : forall v, v2 (ter_to_index (dt_trans_inv d) v) = v2 v).
    { intros v. unfold ter_to_index. destruct (transform_physical_point_to_index _ _ _). reflexivity. }
    assert (Ha : ~ in_cube (dt_data d) (ter_to_index (dt_trans_inv d) a)).
    { intros (_ & _ & i & j & Hn & Hz). rewrite Hva in Hz. pose proof (alt_max_ge d i j Hn). lra. }
    destruct (C17_two_points d fuel a b c h g Hb Hi EC EI) as (u0 & Eg & _ & HS).
    destruct (C54_found_between_the_ends_partial d fuel a b c h g Hb Hi Ha) as (u & Hu & Eg'); auto.
    { right. left. apply nodes_above_iff; [assumption|]. lra. }
    exists a, b, u. rewrite Eg' in HS. rewrite Eg'. auto 8.
  - right; left. injection H as <-. unfold intersection in EI.
    destruct (intersection_index d fuel (los_to_index d [a; b]) c h); try discriminate. injection EI as <-. reflexivity.
Qed.

Lemma check_lonlat_nth l i r : nth_error (check_lonlat l) i = Some r ->
  exists p, nth_error l i = Some p /\ (r = nan3 \/ (r = p /\ valid_lonlat p)).
Proof.
  unfold check_lonlat. rewrite nth_error_map. destruct (nth_error l i) as [p|] eqn:E; [|discriminate].
  intros [= <-]. exists p. split; [reflexivity|]. destruct (lonlat_filtering p) eqn:F; [left; reflexivity|right].
  split; [reflexivity|]. now apply filtering_spec.
Qed.

(** Each position is NaN, or a point of the DTM surface on the line of sight of its pixel (the one
    [los_extrema] gives between the altitudes 1 above the highest node and 1 below the lowest one),
    valid when the DTM is geographic.  Missing: the claim is false for the lines of sight that
    cross the box of the DTM without meeting its surface, see C20: they give (0, 0, 0). *)
Theorem C55_surface_point_partial :
  forall conv fuel m row col d k lo hi out,
  big_enough (dt_data d) -> invertible (dt_transform d) -> scale_alt m <> 0 -> length row = length col ->
  shifts_altitudes conv (dt_epsg d) (rpc_epsg m) (- k) -> shifts_altitudes conv (rpc_epsg m) (dt_epsg d) k ->
  (dt_epsg d = rpc_epsg m -> k = 0) -> lowest d lo -> highest d hi ->
  direct_loc_dtm conv fuel m row col d = Some out ->
  length out = length row /\
  forall i r, nth_error out i = Some r ->
    r = nan3 \/ r = R3 (Some 0) (Some 0) (Some 0) \/
    exists los a b u,
      los_extrema conv m row col (Some (lo - 1 - k)) (Some (hi + 1 - k)) false (Some (dt_epsg d)) = Some los /\
      nth_error los (2 * i) = Some (row_of_vec a) /\ nth_error los (2 * i + 1) = Some (row_of_vec b) /\
      v2 a = hi + 1 /\ v2 b = lo - 1 /\ 0 <= u <= 1 /\ r = row_of_vec (along a b u) /\
      on_surface (dt_data d) (1 / 10000) (ter_to_index (dt_trans_inv d) (along a b u)) /\
      (dt_epsg d = 4326%Z -> valid_lonlat r).
Proof.
  intros conv fuel m row col d k lo hi out Hb Hi Hs HL Hc1 Hc2 Hk Hlo Hhi H.
  apply lowest_eq in Hlo; [|assumption]. apply highest_eq in Hhi; [|assumption]. subst lo hi.
  unfold direct_loc_dtm in H.
  assert (exists los0 los : list row3, length los0 = (2 * length row)%nat /\ length los = length los0 /\
    match intersection_n_los_dtm d fuel (los_of_edges los) with
    | None => None
    | Some res => Some (if (dt_epsg d =? 4326)%Z then check_lonlat res else res)
    end = Some out /\
    ((forall p, In p los -> p = nan3) \/
     (los_extrema conv m row col (Some (alt_min d - 1 - k)) (Some (alt_max d + 1 - k)) false (Some (dt_epsg d)) = Some los /\
      forall i p q, nth_error los (2 * i) = Some p -> nth_error los (2 * i + 1) = Some q ->
        (alt3 p = None \/ alt3 p = Some (alt_max d + 1)) /\ (alt3 q = None \/ alt3 q = Some (alt_min d - 1)))))
    as (los0 & los & HL0 & HLl & HO & HC).
  { destruct (conv_offset conv m d k Hc1) as [E|E]; rewrite E in H.
    - replace (alt_min d - 1 + - k) with (alt_min d - 1 - k) in H by ring.
      replace (alt_max d + 1 + - k) with (alt_max d + 1 - k) in H by ring.
      destruct (los_extrema conv m row col (Some (alt_min d - 1 - k)) (Some (alt_max d + 1 - k)) false None) as [los0|] eqn:E0.
      + pose proof (C13_epsg conv m row col _ _ false (dt_epsg d) los0 E0) as E1. rewrite E1 in H.
        destruct (los_alts _ _ _ _ _ _ _ HL Hs E0) as [Hl0 HB]. rewrite E1.
        destruct (dt_epsg d =? rpc_epsg m)%Z eqn:EE.
        * exists los0, los0. repeat (split; [easy|]). right. split; [reflexivity|].
          apply Z.eqb_eq in EE. rewrite (Hk EE) in HB.
          replace (alt_max d + 1 - 0) with (alt_max d + 1) in HB by ring. replace (alt_min d - 1 - 0) with (alt_min d - 1) in HB by ring.
          intros i p q Hp Hq. destruct (HB i p q Hp Hq) as [[->|?] [->|?]]; auto.
        * destruct Hc2 as (f & Hf & Ha). rewrite Hf in *.
          exists los0, (map f los0). split; [easy|]. split; [now rewrite map_length|]. split; [easy|].
          right. split; [reflexivity|]. intros i p q Hp Hq. rewrite nth_error_map in Hp, Hq.
          destruct (nth_error los0 (2 * i)) as [p0|] eqn:Ep; [|discriminate].
          destruct (nth_error los0 (2 * i + 1)) as [q0|] eqn:Eq; [|discriminate].
          injection Hp as <-. injection Hq as <-.
          destruct (HB i p0 q0 Ep Eq) as [Bp Bq]. split.
          -- destruct (Ha p0) as [->|E2]; [left; reflexivity|]. rewrite E2.
             destruct Bp as [-> | ->]; [left; reflexivity|right]. cbn [nadd nlift2]. f_equal. ring.
          -- destruct (Ha q0) as [->|E2]; [left; reflexivity|]. rewrite E2.
             destruct Bq as [-> | ->]; [left; reflexivity|right]. cbn [nadd nlift2]. f_equal. ring.
      + rewrite (los_fail _ _ _ _ _ _ _ (dt_epsg d) E0) in H. discriminate.
    - destruct (los_extrema conv m row col None None false None) as [own|] eqn:EO; [|discriminate].
      destruct (C13_no_bounds conv m row col None None false own HL (or_introl eq_refl) EO) as [HLo _].
      exists own, (map (fun _ => nan3) own). split; [easy|]. split; [apply map_length|]. split; [easy|].
      left. intros p Hp. apply in_map_iff in Hp. destruct Hp as (x & <- & _). reflexivity. }
  assert (HP : length (pairs_of los) = length row) by (apply pairs_length; lia).
  destruct (intersection_n_los_dtm d fuel (los_of_edges los)) as [res|] eqn:ER; [|discriminate].
  assert (HLr : length res = length row).
  { unfold intersection_n_los_dtm in ER. apply seq_opt_length in ER. rewrite ER, map_length. unfold los_of_edges.
    now rewrite map_length. }
  assert (HR : forall i r, nth_error res i = Some r -> r = nan3 \/ r = R3 (Some 0) (Some 0) (Some 0) \/
    exists a b u, los_extrema conv m row col (Some (alt_min d - 1 - k)) (Some (alt_max d + 1 - k)) false (Some (dt_epsg d)) = Some los /\
      nth_error los (2 * i) = Some (row_of_vec a) /\ nth_error los (2 * i + 1) = Some (row_of_vec b) /\
      v2 a = alt_max d + 1 /\ v2 b = alt_min d - 1 /\ 0 <= u <= 1 /\ r = row_of_vec (along a b u) /\
      on_surface (dt_data d) (1 / 10000) (ter_to_index (dt_trans_inv d) (along a b u))).
  { intros i r Hr. unfold intersection_n_los_dtm in ER. pose proof (seq_opt_nth_inv _ _ _ _ ER Hr) as E1.
    rewrite nth_error_map in E1. unfold los_of_edges in E1. rewrite nth_error_map in E1.
    destruct (nth_error (pairs_of los) i) as [[p q]|] eqn:EP; [|discriminate]. cbn [option_map fst snd] in E1.
    injection E1 as E1. destruct (pairs_nth _ _ _ _ EP) as [Ep Eq].
    destruct HC as [HN|[EL HC]].
    - left. assert (p = nan3) by (eapply HN, nth_error_In; eauto). assert (q = nan3) by (eapply HN, nth_error_In; eauto).
      subst. cbn in E1. congruence.
    - destruct (HC i p q Ep Eq) as [Cp Cq].
      destruct (one_between d fuel p q r Hb Hi Cp Cq E1) as [?|[?|(a & b & u & -> & -> & ?)]]; auto.
      right; right. exists a, b, u. intuition auto. }
  injection HO as <-. split; [destruct (dt_epsg d =? 4326)%Z; [unfold check_lonlat; rewrite map_length|]; assumption|].
  intros i r Hr. destruct (dt_epsg d =? 4326)%Z eqn:EE.
  - destruct (check_lonlat_nth _ _ _ Hr) as (p & Hp & [-> | [-> HV]]); [now left|].
    destruct (HR i p Hp) as [?|[?|(a & b & u & HH)]]; auto. right; right.
    exists los, a, b, u. intuition auto.
  - destruct (HR i r Hr) as [?|[?|(a & b & u & HH)]]; auto. right; right.
    exists los, a, b, u. apply Z.eqb_neq in EE. intuition auto.
Qed.

(** A pixel whose line of sight is over the DTM at both ends gives a surface point, when the batch
    succeeds (C53): the point where the line of sight comes down to the highest altitude must not
    already be on the surface. *)
Theorem C55_line_over_the_dtm_is_localized_partial :
  forall conv fuel m row col d k lo hi out los i a b,
  big_enough (dt_data d) -> invertible (dt_transform d) -> scale_alt m <> 0 -> length row = length col ->
  (fuel_bound d <= fuel)%nat -> dt_epsg d <> 4326%Z ->
  get_dtm_alt_offset conv (rpc_epsg m) d = (Some (- k), Some (- k)) -> lowest d lo -> highest d hi ->
  los_extrema conv m row col (Some (lo - 1 - k)) (Some (hi + 1 - k)) false (Some (dt_epsg d)) = Some los ->
  nth_error (pairs_of los) i = Some (row_of_vec a, row_of_vec b) ->
  v2 a = hi + 1 -> v2 b = lo - 1 ->
  let ia := ter_to_index (dt_trans_inv d) a in let ib := ter_to_index (dt_trans_inv d) b in
  in_hull (dt_data d) (v0 ia) (v1 ia) -> in_hull (dt_data d) (v0 ib) (v1 ib) ->
  ~ runs_along_last_line (dt_data d) ia ib ->
  (forall t, v2 (along ia ib t) = hi -> ~ clearance (dt_data d) (along ia ib t) 0) ->
  direct_loc_dtm conv fuel m row col d = Some out ->
  exists u, 0 <= u <= 1 /\ nth_error out i = Some (row_of_vec (along a b u)) /\
    on_surface (dt_data d) (1 / 10000) (ter_to_index (dt_trans_inv d) (along a b u)).
Proof.
  intros conv fuel m row col d k lo hi out los i a b Hb Hinv Hs HL HF H4 Hoff Hlo Hhi EL EP Ha Hbz ia ib Hia Hib HLL HE H.
  pose proof (lowest_eq d lo Hb Hlo) as E1. pose proof (highest_eq d hi Hb Hhi) as E2.
  unfold direct_loc_dtm in H. rewrite Hoff in H.
  replace (alt_min d - 1 + - k) with (lo - 1 - k) in H by (rewrite E1; ring).
  replace (alt_max d + 1 + - k) with (hi + 1 - k) in H by (rewrite E2; ring). rewrite EL in H.
  destruct (intersection_n_los_dtm d fuel (los_of_edges los)) as [res|] eqn:ER; [|discriminate].
  assert (EE : (dt_epsg d =? 4326)%Z = false) by now apply Z.eqb_neq. rewrite EE in H. injection H as <-.
  assert (HA : all_nodes_below (dt_data d) (v2 a)) by (apply nodes_below_iff; [assumption|lra]).
  assert (HB : all_nodes_above (dt_data d) (v2 b + 1 / 10000)) by (apply nodes_above_iff; [assumption|lra]).
  assert (HB' : all_nodes_above (dt_data d) (v2 b)) by (apply nodes_above_iff; [assumption|lra]).
  destruct (C15_succeeds_through_the_dtm d a b Hb Hia Hib HA HB') as (h0 & Hh0 & EC0 & Hz0).
  destruct (C19_line_through_the_dtm_is_found d fuel a b Hb Hinv HF Hia Hib HA HB HLL) as (p & h & EC & HC).
  rewrite EC in EC0. injection EC0 as -> ->.
  destruct HC as [HC|(u & Hu & EI & HS)]; [exfalso; apply (HE h0); [unfold ia, ib; rewrite Hz0; exact E2|exact HC]|].
  exists u. split; [lra|]. split; [|exact HS].
  unfold intersection_n_los_dtm in ER.
  assert (EN : nth_error (map (intersection_one d fuel) (los_of_edges los)) i = Some (Some (row_of_vec (along a b u)))).
  { rewrite nth_error_map. unfold los_of_edges. rewrite nth_error_map, EP. cbn [option_map fst snd].
    change [row_of_vec a; row_of_vec b] with (map row_of_vec [a; b]). rewrite one_finite, EC, EI. reflexivity. }
  revert EN. generalize (map (intersection_one d fuel) (los_of_edges los)) res ER. clear. intros l. revert i.
  induction l as [|o l IH]; intros i res ER EN; [destruct i; discriminate|].
  simpl in ER. destruct o as [x|]; [|discriminate]. destruct (seq_opt l) as [r|] eqn:E; [|discriminate].
  injection ER as <-. destruct i as [|i]; simpl in *; [congruence|]. now apply IH.
Qed.

(** [direct_loc_grid_h] of an RPC model fails as soon as the grid has a point. *)
Theorem C55_grid_at_constant_altitude_refuted :
  forall m row0 col0 steprow stepcol nbrow nbcol alt,
  direct_loc_grid_h m row0 col0 steprow stepcol (S nbrow) (S nbcol) alt = None.
Proof.
  intros. unfold direct_loc_grid_h. cbn [seq flat_map map app seq_opt].
  set (q := NPix (fin (row0 + INR 0 * steprow)) (fin (col0 + INR 0 * stepcol)) (fin alt)).
  assert (E : match direct_loc_h m [fin (row0 + INR 0 * steprow)] [fin (col0 + INR 0 * stepcol)] [fin alt] false false with
              | Some res => unpack3 res | None => None end = None); [|rewrite E; reflexivity].
  destruct (direct_loc_h m [fin (row0 + INR 0 * steprow)] [fin (col0 + INR 0 * stepcol)] [fin alt] false false) as [out|] eqn:ED; [|reflexivity].
  destruct (direct_loc_h_shape m [q] false false out ED) as (lon & lat & rs & _ & -> & _ & _ & EA).
  destruct rs as [|r [|r' rs]]; try discriminate. cbn [check_lonlat map]. reflexivity.
Qed.

(** A model that sees the ground point (815/8, 195/4) at the pixel (0, 0) for all altitudes; the DTM
    is the one of C20.  The hypotheses of C55 hold, and the position found is on the surface of the
    DTM, below that ground point. *)
Definition rpc55 : rpc :=
  mkRpc (unit_at 1) (unit_at 0) (unit_at 2) (unit_at 0) [] [] [] [] true false
        (815 / 8) 1 (195 / 4) 1 0 100 0 1 0 1 32631.
Definition dtm55 : dtm := mkDtm (dt_data corner_dtm) ex_gdal 32631.

Lemma rpc55_usable : usable_inverse rpc55.
Proof. repeat split; simpl; lra. Qed.
Lemma rpc55_sees alt lon lat : regular_at rpc55 lon lat alt /\
  col_of rpc55 lon lat alt = lon - 815 / 8 /\ row_of rpc55 lon lat alt = lat - 195 / 4.
Proof.
  unfold regular_at, col_of, row_of, cubic, nx, ny, nz. simpl. repeat split; try lra; field.
Qed.
Lemma rpc55_centre alt : inv_pt rpc55 (R3 (Some (815 / 8)) (Some (195 / 4)) (Some alt)) = R3 (Some 0) (Some 0) (Some alt).
Proof.
  destruct (rpc55_sees alt (815 / 8) (195 / 4)) as (Hr & Hc & Hw).
  rewrite inv_pt_finite by (auto using rpc55_usable; unfold lonlat_ok; lra).
  rewrite Hc, Hw. repeat f_equal; ring.
Qed.
Lemma rpc55_los lo hi : -100 <= lo -> hi <= 100 ->
  los_extrema (fun _ _ l => l) rpc55 [Some 0] [Some 0] (Some lo) (Some hi) false (Some 32631%Z)
  = Some [row_of_vec (V3 (815 / 8) (195 / 4) hi); row_of_vec (V3 (815 / 8) (195 / 4) lo)].
Proof.
  intros Hlo Hhi.
  rewrite (C13_epsg (fun _ _ l => l) rpc55 [Some 0] [Some 0] (Some lo) (Some hi) false 32631%Z
    [row_of_vec (V3 (815 / 8) (195 / 4) hi); row_of_vec (V3 (815 / 8) (195 / 4) lo)]).
  { destruct (32631 =? rpc_epsg rpc55)%Z; reflexivity. }
  rewrite los_inside by (simpl; lra). unfold edges. cbn [flat_map app].
  set (Q := [NPix (Some 0) (Some 0) (Some hi); NPix (Some 0) (Some 0) (Some lo)]).
  pose proof (direct_loc_h_core rpc55 Q false false) as H. etransitivity; [exact H|]. clear H.
  unfold usable_core. cbn [negb andb]. change (inverse_coefficient rpc55) with true. cbv iota.
  pose proof (iterative_batch rpc55 (Inp 0 0 (Some hi)) [Inp 0 0 (Some lo)] 10 false eq_refl) as H.
  cbv zeta in H. cbn [i_alt] in H.
  change (offset_x rpc55) with (815 / 8) in H. change (offset_y rpc55) with (195 / 4) in H. unfold fin in H.
  rewrite !rpc55_centre in H. cbn [lon3 lat3 map i_row i_col i_alt] in H.
  assert (EC : batch_cond [init_pt rpc55 (Some 0) (Some 0) (Inp 0 0 (Some hi));
    init_pt rpc55 (Some 0) (Some 0) (Inp 0 0 (Some lo))] = false).
  { unfold batch_cond, max_abs_gt_eps, init_pt. cbn [map p_dc p_dr i_row i_col existsb isnan nsub nlift2].
    replace (0 - 0) with 0 by ring. rewrite ngtb_zero. reflexivity. }
  assert (EB : forall n, batch_loop rpc55 n [init_pt rpc55 (Some 0) (Some 0) (Inp 0 0 (Some hi));
    init_pt rpc55 (Some 0) (Some 0) (Inp 0 0 (Some lo))]
    = ([init_pt rpc55 (Some 0) (Some 0) (Inp 0 0 (Some hi));
    init_pt rpc55 (Some 0) (Some 0) (Inp 0 0 (Some lo))], 0%nat)).
  { intros [|n]; cbn [batch_loop]; rewrite EC; reflexivity. }
  rewrite EB in H. cbn [fst snd map p_lon p_lat init_pt] in H.
  cbn [Q map filter okpix n_row n_col n_alt isnan orb negb].
  match goal with |- context [direct_loc_inverse_iterative ?a ?b ?c ?d ?e ?f] =>
    replace (direct_loc_inverse_iterative a b c d e f) with
      (Some ([fin (815 / 8); fin (815 / 8)], [fin (195 / 4); fin (195 / 4)], [Some hi; Some lo], 0%nat)) by (symmetry; exact H) end.
  assert (HV : forall a, lonlat_filtering (R3 (Some (815 / 8)) (Some (195 / 4)) (Some a)) = false).
  { intros a. apply filtering_spec. exists (815 / 8), (195 / 4), a. repeat split; lra. }
  cbv beta iota. cbn [scatter zip3 check_lonlat map]. unfold fin. rewrite !HV. reflexivity.
Qed.
Example C55_case : let conv := fun (_ _ : Z) (l : list row3) => l in
  big_enough (dt_data dtm55) /\ invertible (dt_transform dtm55) /\ scale_alt rpc55 <> 0 /\
  shifts_altitudes conv (dt_epsg dtm55) (rpc_epsg rpc55) (- 0) /\ shifts_altitudes conv (rpc_epsg rpc55) (dt_epsg dtm55) 0 /\
  lowest dtm55 0 /\ highest dtm55 10 /\
  forall fuel, (fuel_bound dtm55 <= fuel)%nat ->
  exists z, direct_loc_dtm conv fuel rpc55 [Some 0] [Some 0] dtm55
              = Some [R3 (Some (815 / 8)) (Some (195 / 4)) (Some z)] /\ Rabs (z - 5 / 8) <= 1 / 10000.
Proof.
  intros conv.
  assert (HI : invertible (dt_transform dtm55)) by (apply dt_invertible, ex_gdal_inv).
  assert (HB : big_enough (dt_data dtm55)) by apply corner_big.
  assert (HS : forall e1 e2, shifts_altitudes conv e1 e2 0).
  { intros e1 e2. exists (fun p => p). split; [intros l; symmetry; apply map_id|].
    intros [x y [z|]]; right; cbn [alt3 nadd nlift2]; [f_equal; ring|reflexivity]. }
  assert (HS' : shifts_altitudes conv (dt_epsg dtm55) (rpc_epsg rpc55) (- 0)).
  { replace (- 0) with 0 by ring. apply HS. }
  assert (HL : lowest dtm55 0).
  { split; [intros i j _; apply corner_nodes|]. exists 0%Z, 0%Z. split; [split; simpl; lia|reflexivity]. }
  assert (HH : highest dtm55 10).
  { split; [intros i j _; apply corner_nodes|]. exists 1%Z, 1%Z. split; [split; simpl; lia|reflexivity]. }
  split; [assumption|]. split; [assumption|]. split; [simpl; lra|]. split; [assumption|]. split; [apply HS|].
  split; [assumption|]. split; [assumption|]. intros fuel HF.
  set (a := V3 (815 / 8) (195 / 4) (10 + 1 - 0)). set (b := V3 (815 / 8) (195 / 4) (0 - 1 - 0)).
  assert (EI : forall z, ter_to_index (dt_trans_inv dtm55) (V3 (815 / 8) (195 / 4) z) = V3 (1 / 4) (1 / 4) z).
  { intros z. rewrite <- (C05_dtm_index_ter_index (dt_transform dtm55) (V3 (1 / 4) (1 / 4) z)) by assumption.
    unfold dt_trans_inv. f_equal. unfold index_to_ter, transform_index_to_physical_point, affine_apply.
    unfold dt_transform, affine_of_gdal, from_gdal, dtm55, ex_gdal.
    cbn [dt_gdal af_a af_b af_c af_d af_e af_f v0 v1 v2 g0 g1 g2 g3 g4 g5]. f_equal; lra. }
  assert (Hoff : get_dtm_alt_offset conv (rpc_epsg rpc55) dtm55 = (Some (- 0), Some (- 0))).
  { destruct (conv_offset conv rpc55 dtm55 0 HS') as [E|E]; [exact E|]. exfalso.
    unfold get_dtm_alt_offset, conv in E. unfold get_footprint_corners in E. cbn [map fst snd] in E.
    repeat match type of E with context [let '(_, _) := ?t in _] => destruct t end.
    discriminate. }
  assert (Hin : in_hull (dt_data dtm55) (1 / 4) (1 / 4)).
  { unfold in_hull. simpl. lra. }
  assert (Hcl : forall z e, clearance (dt_data dtm55) (V3 (1 / 4) (1 / 4) z) e -> e = z - 5 / 8).
  { intros z e He. apply clearance_iff in He; [|assumption]. destruct He as [_ ->]. unfold clr.
    unfold interpolate. rewrite (interp_in_cell _ 0 0); [|split; simpl; lia|unfold in_cell; simpl; lra].
    unfold bilinear_in_cell, lerp. cbn [v0 v1 v2]. simpl. lra. }
  assert (HLl : ~ runs_along_last_line (dt_data dtm55) (V3 (1 / 4) (1 / 4) (10 + 1 - 0)) (V3 (1 / 4) (1 / 4) (0 - 1 - 0))).
  { intros [[_ H]|[_ H]]; simpl in H; lra. }
  assert (Hal : forall t, along (V3 (1 / 4) (1 / 4) (10 + 1 - 0)) (V3 (1 / 4) (1 / 4) (0 - 1 - 0)) t = V3 (1 / 4) (1 / 4) (11 - 12 * t)).
  { intros t. unfold along. cbn [v0 v1 v2]. f_equal; ring. }
  assert (Ein : intersection_one dtm55 fuel [row_of_vec a; row_of_vec b] <> None).
  { intros EN.
    destruct (C53_fails_only_on_the_surface_partial dtm55 fuel a b HB HF) as (p & h & EC & HC).
    - unfold a. rewrite EI. intros (_ & _ & i & j & _ & Hz). pose proof (corner_nodes i j).
      cbn [v2] in Hz. change (dt_data dtm55) with (dt_data corner_dtm) in Hz. lra.
    - exact EN.
    - destruct (C15_succeeds_through_the_dtm dtm55 a b HB) as (h' & Hh' & EC' & Hz').
      + unfold a. rewrite EI. exact Hin.
      + unfold b. rewrite EI. exact Hin.
      + apply nodes_below_iff; [assumption|]. rewrite (highest_eq _ _ HB HH). unfold a. cbn [v2]. lra.
      + apply nodes_above_iff; [assumption|]. rewrite (lowest_eq _ _ HB HL). unfold b. cbn [v2]. lra.
      + rewrite EC' in EC. injection EC as <- <-. rewrite (highest_eq _ _ HB HH) in Hz'.
        unfold a, b in Hz', HC. rewrite !EI, Hal in Hz', HC. apply Hcl in HC. cbn [v2] in Hz'. lra. }
  pose proof (rpc55_los (0 - 1 - 0) (10 + 1 - 0) ltac:(lra) ltac:(lra)) as ELos. fold conv in ELos.
  assert (exists out, direct_loc_dtm conv fuel rpc55 [Some 0] [Some 0] dtm55 = Some out) as [out Eout].
  { unfold direct_loc_dtm. rewrite Hoff. change (dt_epsg dtm55) with 32631%Z.
    rewrite (lowest_eq _ _ HB HL), (highest_eq _ _ HB HH).
    replace (0 - 1 + - 0) with (0 - 1 - 0) by ring. replace (10 + 1 + - 0) with (10 + 1 - 0) by ring.
    rewrite ELos. fold a b. unfold los_of_edges. cbn [pairs_of map fst snd]. unfold intersection_n_los_dtm.
    cbn [map seq_opt]. destruct (intersection_one dtm55 fuel [row_of_vec a; row_of_vec b]); [eauto|contradiction]. }
  destruct (C55_line_over_the_dtm_is_localized_partial conv fuel rpc55 [Some 0] [Some 0] dtm55 0 0 10 out
    [row_of_vec a; row_of_vec b] 0 a b) as (u & Hu & EN & HSu); auto.
  - simpl; lra.
  - simpl; lia.
  - unfold a. cbn [v2]. lra.
  - unfold b. cbn [v2]. lra.
  - unfold a. rewrite EI. exact Hin.
  - unfold b. rewrite EI. exact Hin.
  - unfold a, b. rewrite !EI. exact HLl.
  - intros t Ht HC. unfold a, b in Ht, HC. rewrite !EI, Hal in Ht, HC. apply Hcl in HC. cbn [v2] in Ht. lra.
  - exists (11 - 12 * u). split.
    + destruct (C55_surface_point_partial conv fuel rpc55 [Some 0] [Some 0] dtm55 0 0 10 out) as [HLen _]; auto.
      { simpl; lra. }
      destruct out as [|r [|r' out]]; try discriminate. rewrite Eout. simpl in EN. injection EN as ->.
      unfold row_of_vec. do 2 f_equal. unfold a, b, along. cbn [v0 v1 v2]. f_equal; f_equal; ring.
    + destruct HSu as (e & He & Ha). replace (along a b u) with (V3 (815 / 8) (195 / 4) (11 - 12 * u)) in He.
      * rewrite EI in He. apply Hcl in He. now rewrite <- He.
      * unfold a, b, along. cbn [v0 v1 v2]. f_equal; ring.
Qed.
