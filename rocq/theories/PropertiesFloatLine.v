(** C98: the positions of the DTM intersection are on the line of sight, in binary64. *)
From Coq Require Import ZArith Reals Bool List Lia Lra.
From Flocq Require Import Core BinarySingleNaN.
From Verif Require Import FloatModel FloatInterpModel Float FloatErr FloatInterp FloatWalkModel FloatWalkSpec FloatWalk FloatRefine FloatLineSpec FloatLine FloatEntry FloatOnLine PropertiesFloatWalk.
Import ListNotations.
Open Scope R_scope.

(** ** The entry in the box *)
Lemma leb_le (x y : b64) : is_finite x = true -> Bleb x y = true -> is_finite y = true -> B2R x <= B2R y.
Proof. intros Fx L Fy. rewrite Bleb_correct in L by assumption. revert L. case Rle_bool_spec; [easy|discriminate]. Qed.
Lemma leb_between (x y z : b64) : is_finite x = true -> is_finite z = true -> Bleb x y = true -> Bleb y z = true -> is_finite y = true /\ B2R x <= B2R y <= B2R z.
Proof.
  intros Fx Fz L1 L2. assert (Fy : is_finite y = true).
  { destruct x as [| [] | |[]]; destruct y as [| [] | |[]]; destruct z as [| [] | |[]]; try reflexivity; discriminate. }
  split; [exact Fy|]. split; now apply leb_le.
Qed.
Definition a_node (m : fraster) (x : b64) : Prop := exists r c, (0 <= r < fr_rows m)%Z /\ (0 <= c < fr_cols m)%Z /\ x = fr_at m r c.
Lemma flatten_not_nil m : (2 <= fr_rows m)%Z -> (2 <= fr_cols m)%Z -> fflatten m <> [].
Proof.
  intros R C E. assert (I : In (fr_at m 0 0) (fflatten m)); [|rewrite E in I; exact I].
  unfold fflatten. apply in_flat_map. exists 0%nat. split; [apply in_seq; lia|]. apply in_map_iff. exists 0%nat. split; [reflexivity|apply in_seq; lia].
Qed.
Lemma extremes m : usual_terrain m -> a_node m (falt_min m) /\ a_node m (falt_max m).
Proof.
  intros ((R1 & _) & (C1 & _) & _). pose proof (flatten_not_nil m R1 C1) as NN.
  assert (FL : Forall (a_node m) (fflatten m)) by (apply fflatten_all; intros r c Hr Hc; exists r, c; auto).
  unfold falt_min, falt_max. destruct (fflatten m) as [|x l]; [congruence|]. inversion FL; subst.
  split; (apply fold_pick; [|assumption|assumption]); intros u v; [unfold fmin2; destruct (Bltb v u); tauto|unfold fmax2; destruct (Bltb u v); tauto].
Qed.
Lemma last_index n : (2 <= n <= 2 ^ 18)%Z -> is_finite (fsub (fint n) fone) = true /\ B2R (fsub (fint n) fone) = IZR (n - 1).
Proof.
  intros Hn. destruct (fint_exact n) as [E1 F1]; [lia|]. destruct (fint_exact 1) as [E2 F2]; [lia|].
  destruct (fsub_fits (fint n) fone (IZR (n - 1)) F1 F2) as [E F]; [unfold fone; rewrite E1, E2; now rewrite minus_IZR|apply fits_int; lia|]. tauto.
Qed.
Lemma entry_in_box m los p h : usual_terrain m -> fintersect_dtm_cube m los = Some (p, h) -> in_the_box m p.
Proof.
  intros UT H. destruct (cube_crossing m los p h H) as (v & rest & i & c & _ & _ & _ & -> & _ & T).
  destruct (extremes m UT) as [(r1 & c1 & R1 & C1 & E1) (r2 & c2 & R2 & C2 & E2)]. pose proof UT as (SR & SC & UA).
  destruct (UA r1 c1 R1 C1) as [F1 _]. destruct (UA r2 c2 R2 C2) as [F2 _].
  destruct (last_index _ SR) as [FR VR]. destruct (last_index _ SC) as [FC VC]. destruct (fint_exact 0) as [Z0 FZ]; [lia|].
  unfold ftest_on_cube in T. cbn [nth fplane_coef_d] in T. rewrite !andb_true_iff in T. destruct T as (((((T1 & T2) & T3) & T4) & T5) & T6).
  rewrite E1 in T5. rewrite E2 in T6. clear E1 E2.
  destruct (leb_between _ _ _ FZ FR T1 T2) as (A1 & A2). destruct (leb_between _ _ _ FZ FC T3 T4) as (A3 & A4). destruct (leb_between _ _ _ F1 F2 T5 T6) as (A5 & A6 & A7).
  unfold fzero in *. rewrite Z0, VR in A2. rewrite Z0, VC in A4. unfold in_the_box, cross_point. cbn [fv_row fv_col fv_alt].
  split; [tauto|]. split; [tauto|]. split; [exact A5|]. split; [exists r1, c1; tauto|exists r2, c2; tauto].
Qed.
(** The entry of the line of sight in the box of the DTM is exactly in the box.  It is on a segment up to 1e-9 along each axis,
    and the number that goes with it is the index of the segment plus the part of it that is behind; or it is the first vertex,
    with the number -1. *)
Theorem C98_entry :
  forall m los p h,
  usual_terrain m -> usual_altitudes m -> Forall usual_point los -> (Z.of_nat (length los) <= 2 ^ 18)%Z ->
  fintersect_dtm_cube m los = Some (p, h) ->
  in_the_box m p /\
  ((exists i a b t, segment_at los i a b /\ 0 <= t <= 1 /\ line_at a b t nano p /\ Rabs (B2R h - (INR i + t)) <= nano) \/
   (nth_error los 0 = Some p /\ B2R h = -1)).
Proof.
  intros m los p h UT UL UP SZ H. split; [exact (entry_in_box m los p h UT H)|].
  destruct (entry_line m los p h UT UL UP SZ H) as (i_0 & _ & _ & D). exact D.
Qed.

(** ** The walk *)
Lemma not_vertical a b : usual_point a -> usual_point b -> B2R (fv_row a) <> B2R (fv_row b) \/ B2R (fv_col a) <> B2R (fv_col b) ->
  Beqb (f_d0 (fsegment_of a b)) fzero && Beqb (f_d1 (fsegment_of a b)) fzero = false.
Proof.
  intros UA UB NV. destruct (Beqb (f_d0 (fsegment_of a b)) fzero && Beqb (f_d1 (fsegment_of a b)) fzero) eqn:V; [exfalso|reflexivity].
  apply andb_true_iff in V as [V0 V1]. apply eqb_zero_true in V0, V1. cbn [f_d0 f_d1 fsegment_of] in V0, V1.
  destruct UA as (A1 & A2 & _). destruct UB as (B1 & B2 & _).
  destruct NV as [N|N]; apply N; symmetry; [apply (usual_sub_zero (fv_row b) (fv_row a))|apply (usual_sub_zero (fv_col b) (fv_col a))]; assumption.
Qed.
(** Every position of the walk over the cells is on the segment's line, up to the error of the first one (1e-9 at least), as
    long as its coordinates are between -2^18 and 2^18. *)
Theorem C98_walk :
  forall m a b t e w k,
  (fr_rows m <= 2 ^ 18)%Z -> (fr_cols m <= 2 ^ 18)%Z -> usual_point a -> usual_point b ->
  B2R (fv_row a) <> B2R (fv_row b) \/ B2R (fv_col a) <> B2R (fv_col b) ->
  nano <= e -> line_at a b t e (fw_p w) ->
  (forall j, (j < k)%nat -> fcell_guard m (Nat.iter j (fmesh_move (fsegment_of a b)) w) = true) ->
  in_reach (fw_p (Nat.iter k (fmesh_move (fsegment_of a b)) w)) ->
  exists t', line_at a b t' e (fw_p (Nat.iter k (fmesh_move (fsegment_of a b)) w)).
Proof.
  intros m a b t e w k S1 S2 UA UB NV He L G. pose proof (not_vertical a b UA UB NV) as V.
  set (s := fsegment_of a b) in *.
  assert (K : keeps a b e (Nat.iter k (fmesh_move s) w) /\ (in_reach (fw_p (Nat.iter k (fmesh_move s) w)) -> exists t', line_at a b t' e (fw_p (Nat.iter k (fmesh_move s) w)))).
  { induction k as [|k IH].
    - cbn [Nat.iter nat_rect]. split; [|intros _; exists t; exact L]. destruct w as [v c r p]. exact (start_keeps a b e p v c r t UA UB L).
    - destruct IH as [IH _]; [intros j Hj; apply G; lia|]. cbn [Nat.iter nat_rect]. apply (move_on_line m a b UA UB (conj S1 S2) e He); [apply G; lia|exact V|exact IH]. }
  exact (proj2 K).
Qed.

(** ** The point *)
(** The point that the refinement returns, after at most [n] iterations between two positions of a line that are on either side
    of the surface, is on this line up to their error and 1e-9 for each iteration. *)
Theorem C98_refined_point :
  forall m a b e n p_1 alti_1 p_2 h_2 p,
  usual_terrain m -> in_raster m p_1 -> in_raster m p_2 -> one_cell p_1 p_2 ->
  finterpolate m (fv_row p_1) (fv_col p_1) = Some alti_1 -> finterpolate m (fv_row p_2) (fv_col p_2) = Some h_2 ->
  goes_down p_1 alti_1 p_2 h_2 ->
  0 <= e -> (exists t, line_at a b t e p_1) -> (exists t, line_at a b t e p_2) ->
  frefine (finterpolate m) n p_1 alti_1 p_2 h_2 = FFound p ->
  exists t, line_at a b t (101 / 100 * e + INR n * nano) p.
Proof.
  intros m a b e n p_1 a_1 p_2 h_2 p U I1 I2 O E1 E2 G He W1 W2 H. exact (regular_line m a b e n p_1 a_1 p_2 h_2 p U I1 I2 O He E1 E2 G W1 W2 H).
Qed.
Lemma joined_follows los a b : joined los a b -> follows los a b.
Proof.
  intros (i & A & B). destruct (Z.lt_trichotomy i (-1)) as [L|[->|L]].
  - left. pose proof (py_get_range _ _ _ A) as R. exists (Z.to_nat (i + Z.of_nat (length los))). unfold fpy_get in A, B.
    rewrite (proj2 (Z.ltb_lt i 0)) in A by lia. rewrite (proj2 (Z.leb_le 0 (i + Z.of_nat (length los)))) in A by lia.
    rewrite (proj2 (Z.ltb_lt (i + 1) 0)) in B by lia. rewrite (proj2 (Z.leb_le 0 (i + 1 + Z.of_nat (length los)))) in B by lia.
    split; [exact A|]. replace (S (Z.to_nat (i + Z.of_nat (length los)))) with (Z.to_nat (i + 1 + Z.of_nat (length los))) by lia. exact B.
  - right. pose proof (py_get_range _ _ _ A) as R. unfold fpy_get in A, B. cbn [Z.ltb Z.compare] in A. change (-1 + 1)%Z with 0%Z in B. cbn [Z.ltb Z.compare Z.to_nat] in B.
    rewrite (proj2 (Z.leb_le 0 (-1 + Z.of_nat (length los)))) in A by lia. split; [|exact B].
    replace (length los - 1)%nat with (Z.to_nat (-1 + Z.of_nat (length los))) by lia. exact A.
  - left. exists (Z.to_nat i). unfold fpy_get in A, B. rewrite (proj2 (Z.ltb_ge i 0)) in A by lia. rewrite (proj2 (Z.ltb_ge (i + 1) 0)) in B by lia.
    split; [exact A|]. replace (S (Z.to_nat i)) with (Z.to_nat (i + 1)) by lia. exact B.
Qed.
(** All together, on a usual terrain and for a line of sight without vertical segments: the point comes from the refinement
    between two positions on either side of the surface, both on the line of one segment up to 1e-9 for each vertex; where the
    line goes down through the surface in the cell, the point is on the same line, up to this error and 1e-9 for each iteration
    of the refinement.  Missing: the cells that the line enters below the surface, or in which it only touches it (false in
    general, C97_infinite_point_refuted), the positions that the walk computes outside of the DTM, and the vertical segments
    (false in general, C17_vertical_segment_refuted). *)
Theorem C98_on_the_line_partial :
  forall m los fuel cells steps p,
  usual_terrain m -> usual_altitudes m -> Forall usual_point los -> (Z.of_nat (length los) <= 2 ^ 18)%Z -> no_vertical los ->
  flocate m fuel cells steps los = Some (FFound p) ->
  exists a b p_1 alti_1 p_2 h_2,
    let e := nano * INR (length los) in
    follows los a b /\
    finterpolate m (fv_row p_1) (fv_col p_1) = Some alti_1 /\ finterpolate m (fv_row p_2) (fv_col p_2) = Some h_2 /\
    Bleb (fmul (fsub (fv_alt p_1) alti_1) (fsub (fv_alt p_2) h_2)) fzero = true /\
    (in_reach p_1 -> exists t, line_at a b t e p_1) /\ (in_reach p_2 -> exists t, line_at a b t e p_2) /\
    (in_raster m p_1 -> in_raster m p_2 -> one_cell p_1 p_2 -> goes_down p_1 alti_1 p_2 h_2 ->
     exists t, line_at a b t (101 / 100 * e + INR fuel * nano) p).
Proof.
  intros m los fuel cells steps p UT UL UP SZ NV H. cbv zeta.
  destruct (locate_line m fuel cells steps los p UT UL UP SZ (fun a b J => NV a b (joined_follows los a b J)) H) as (a & b & p_1 & a_1 & p_2 & h_2 & J & (E1 & E2 & S & R) & L1 & L2).
  exists a, b, p_1, a_1, p_2, h_2. split; [exact (joined_follows los a b J)|]. do 3 (split; [assumption|]). split; [exact L1|]. split; [exact L2|].
  intros I1 I2 O G. assert (E0 : 0 <= nano * INR (length los)) by (pose proof (pos_INR (length los)); unfold nano; apply Rmult_le_pos; lra).
  exact (C98_refined_point m a b _ fuel p_1 a_1 p_2 h_2 p UT I1 I2 O E1 E2 G E0 (L1 (raster_reach m p_1 UT I1)) (L2 (raster_reach m p_2 UT I2)) R).
Qed.

(** ** A case *)
Lemma usual_lit a e : (Z.abs a <= 2 ^ 18)%Z -> (-400 <= e <= 0)%Z -> usual_number (flit a e).
Proof.
  intros A E. destruct (flit_exact a e) as [V F]; [apply fits_dyadic; lia|]. split; [exact F|]. rewrite V.
  assert (B : bpow radix2 e <= 1) by (apply (bpow_le radix2 e 0); lia). pose proof (bpow_ge_0 radix2 e) as B0. rewrite Rabs_mult, (Rabs_pos_eq (bpow radix2 e)), <- abs_IZR by exact B0. split.
  - unfold reach. apply Rle_trans with (IZR (Z.abs a) * 1); [apply Rmult_le_compat_l; [apply IZR_le; lia|exact B]|]. rewrite Rmult_1_r. apply IZR_le. lia.
  - destruct (Z.eq_dec a 0) as [->|N]; [left; ring|right]. apply Rle_trans with (1 * bpow radix2 e); [rewrite Rmult_1_l; apply bpow_le; lia|].
    apply Rmult_le_compat_r; [exact B0|]. apply IZR_le. lia.
Qed.
(** A slope, and a line of sight in two segments that comes into the DTM in the first one and meets the ground in the
    second one. *)
Definition ex_turn : list fvec3 := [FV3 (flit (-1) (-1)) half (fint 120); FV3 half (flit 3 (-2)) (fint 119); FV3 (flit 7 (-1)) (flit 3 (-1)) (fint 99)].
Example C98_hypotheses :
  usual_terrain ex_slope /\ usual_altitudes ex_slope /\ Forall usual_point ex_turn /\ (Z.of_nat (length ex_turn) <= 2 ^ 18)%Z /\ no_vertical ex_turn /\
  match flocate ex_slope 20 9 6 ex_turn with Some (FFound p) => True | _ => False end.
Proof.
  split; [exact (proj1 C96_regular)|]. split.
  { intros r c Hr Hc. cbn [ex_slope fr_at fr_rows] in *. apply usual_int. lia. }
  split.
  { unfold ex_turn, half, fint. repeat (apply Forall_cons; [(split; [|split]); apply usual_lit; lia|]). apply Forall_nil. }
  split; [cbn; lia|]. split; [|vm_compute; exact I].
  assert (V : forall a e, (Z.abs a < 2 ^ 53)%Z -> (-1074 <= e <= 900)%Z -> B2R (flit a e) = IZR a * bpow radix2 e) by (intros a e A E; apply flit_exact, fits_dyadic; lia).
  intros a b F. left.
  assert (C : (a = FV3 (flit (-1) (-1)) half (fint 120) /\ b = FV3 half (flit 3 (-2)) (fint 119)) \/ (a = FV3 half (flit 3 (-2)) (fint 119) /\ b = FV3 (flit 7 (-1)) (flit 3 (-1)) (fint 99)) \/
    (a = FV3 (flit 7 (-1)) (flit 3 (-1)) (fint 99) /\ b = FV3 (flit (-1) (-1)) half (fint 120))).
  { destruct F as [[i [A B]]|[A B]].
    - destruct i as [|[|[|i]]].
      + left. change (nth_error ex_turn 0) with (Some (FV3 (flit (-1) (-1)) half (fint 120))) in A. change (nth_error ex_turn 1) with (Some (FV3 half (flit 3 (-2)) (fint 119))) in B. split; congruence.
      + right; left. change (nth_error ex_turn 1) with (Some (FV3 half (flit 3 (-2)) (fint 119))) in A. change (nth_error ex_turn 2) with (Some (FV3 (flit 7 (-1)) (flit 3 (-1)) (fint 99))) in B. split; congruence.
      + change (nth_error ex_turn 3) with (@None fvec3) in B. discriminate.
      + change (nth_error ex_turn (S (S (S i)))) with (nth_error (@nil fvec3) i) in A. destruct i; discriminate.
    - right; right. change (nth_error ex_turn (length ex_turn - 1)) with (Some (FV3 (flit 7 (-1)) (flit 3 (-1)) (fint 99))) in A. change (nth_error ex_turn 0) with (Some (FV3 (flit (-1) (-1)) half (fint 120))) in B. split; congruence. }
  destruct C as [[-> ->]|[[-> ->]|[-> ->]]]; cbn [fv_row]; unfold half; rewrite !V by lia; cbn; lra.
Qed.
(** The first cell: the line goes down through the surface there. *)
Example C98_first_cell :
  let p_1 := FV3 fzero half (fint 102) in let p_2 := FV3 fone half (fint 98) in
  (exists t, line_at (FV3 fzero half (fint 102)) (FV3 fone half (fint 98)) t nano p_1) /\
  (exists t, line_at (FV3 fzero half (fint 102)) (FV3 fone half (fint 98)) t nano p_2) /\
  match frefine (finterpolate ex_slope) 20 p_1 (fint 100) p_2 (fint 116) with FFound p => True | _ => False end.
Proof.
  cbv zeta. assert (N : 0 <= nano) by (unfold nano; lra). split; [exists 0; eapply line_weaken; [apply line_start|exact N]|]. split; [exists 1; eapply line_weaken; [apply line_end|exact N]|].
  vm_compute. exact I.
Qed.
