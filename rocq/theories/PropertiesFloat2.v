(** C85: the rounding errors of the interpolation.  C86: the first test of the DTM intersection. *)
From Coq Require Import ZArith Reals Bool Lia Lra.
From Flocq Require Import Core BinarySingleNaN.
From Verif Require Import Num NumLemmas InterpModel InterpSpec InterpProofs FloatModel Float FloatErr FloatInterpModel FloatInterp PropertiesInterp.
Open Scope R_scope.

(** The numbers that an array of binary64 numbers holds. *)
Definition real_raster (m : fraster) : raster := mkRaster (fr_rows m) (fr_cols m) (fun i j => B2R (fr_at m i j)).
(** An array of at least 2 x 2 finite numbers. *)
Definition finite_raster (m : fraster) : Prop :=
  (2 <= fr_rows m < 2 ^ 53)%Z /\ (2 <= fr_cols m < 2 ^ 53)%Z /\
  forall i j, is_node (real_raster m) i j -> is_finite (fr_at m i j) = true.
Definition bounded_by (M : R) (m : fraster) : Prop :=
  forall i j, is_node (real_raster m) i j -> Rabs (B2R (fr_at m i j)) <= M.
(** The interpolation of the library, with the array's own sizes. *)
Definition library_interp (m : fraster) (row col : b64) : option b64 := finterpol_bilin m (fr_rows m) (fr_cols m) row col.

Lemma real_big m : finite_raster m -> big_enough (real_raster m).
Proof. intros (H1 & H2 & _). split; cbn; lia. Qed.
Lemma fr_get_node m i j : is_node (real_raster m) i j -> fr_get m i j = Some (fr_at m i j).
Proof.
  intros [Hi Hj]. cbn in Hi, Hj. unfold fr_get. replace (0 <=? i)%Z with true by (symmetry; apply Z.leb_le; lia).
  replace (i <? fr_rows m)%Z with true by (symmetry; apply Z.ltb_lt; lia). replace (0 <=? j)%Z with true by (symmetry; apply Z.leb_le; lia).
  replace (j <? fr_cols m)%Z with true by (symmetry; apply Z.ltb_lt; lia). reflexivity.
Qed.
(** The library's value in terms of the exact cell and shifts. *)
Lemma library_value m row col : finite_raster m -> is_finite row = true -> is_finite col = true ->
  in_hull (real_raster m) (B2R row) (B2R col) ->
  exists i j s t, is_cell (real_raster m) i j /\ is_finite s = true /\ is_finite t = true /\
    B2R s = B2R col - IZR j /\ B2R t = B2R row - IZR i /\ 0 <= B2R s <= 1 /\ 0 <= B2R t <= 1 /\
    i = lower_index (fr_rows m) (B2R row) /\ j = lower_index (fr_cols m) (B2R col) /\
    library_interp m row col = Some (fbilin s t (fr_at m i j) (fr_at m i (j + 1)) (fr_at m (i + 1) j) (fr_at m (i + 1) (j + 1))).
Proof.
  intros (Nr & Nc & FR) Fr Fc [Hr Hc]. cbn in Hr, Hc.
  destruct (shift_exact (fr_rows m) row Fr Nr Hr) as (R1 & R2 & R3 & R4). destruct (shift_exact (fr_cols m) col Fc Nc Hc) as (C1 & C2 & C3 & C4).
  exists (lower_index (fr_rows m) (B2R row)), (lower_index (fr_cols m) (B2R col)), (fsub col (fint (lower_index (fr_cols m) (B2R col)))), (fsub row (fint (lower_index (fr_rows m) (B2R row)))).
  split; [split; cbn; lia|]. split; [assumption|]. split; [assumption|]. split; [assumption|]. split; [assumption|].
  split; [rewrite C2; assumption|]. split; [rewrite R2; assumption|]. split; [reflexivity|]. split; [reflexivity|].
  unfold library_interp, finterpol_bilin. rewrite !flower_eq by assumption.
  rewrite !fr_get_node by (split; cbn; lia). reflexivity.
Qed.

(** The value interpolated in binary64, in any cell that contains the position, is finite and within
    2^-48 M of the exact bilinear interpolation of the samples, [M] being a bound of the samples. *)
Theorem C85_rounding_error :
  forall m M row col i j, finite_raster m -> bounded_by M m -> bpow radix2 (-900) <= M <= bpow radix2 1000 ->
    is_finite row = true -> is_finite col = true -> is_cell (real_raster m) i j -> in_cell i j (B2R row) (B2R col) ->
    exists v, library_interp m row col = Some v /\ is_finite v = true /\
      Rabs (B2R v - bilinear_in_cell (real_raster m) i j (B2R row) (B2R col)) <= bpow radix2 (-48) * M.
Proof.
  intros m M row col i j HF HB HM Fr Fc Hc Hin. pose proof HF as (Nr & Nc & FR).
  assert (HH : in_hull (real_raster m) (B2R row) (B2R col)).
  { destruct Hin as [I1 I2]. destruct Hc as [C1 C2]. cbn in C1, C2.
    assert (0 <= IZR i) by (apply IZR_le; lia). assert (0 <= IZR j) by (apply IZR_le; lia).
    assert (IZR i + 1 <= IZR (fr_rows m - 1)) by (rewrite <- plus_IZR; apply IZR_le; lia).
    assert (IZR j + 1 <= IZR (fr_cols m - 1)) by (rewrite <- plus_IZR; apply IZR_le; lia). split; cbn; lra. }
  destruct (library_value m row col HF Fr Fc HH) as (i' & j' & s & t & Hc' & Fs & Ft & Es & Et & Bs & Bt & Ei & Ej & EV).
  assert (ND : forall a b, (a = i' \/ a = i' + 1)%Z -> (b = j' \/ b = j' + 1)%Z -> is_node (real_raster m) a b).
  { intros a b Ha Hb. destruct Hc' as [C1 C2]. cbn in C1, C2. split; cbn; lia. }
  eexists. split; [exact EV|]. rewrite <- (interp_in_cell _ _ _ _ _ Hc Hin). unfold interp. cbn [rs_rows rs_cols rs_at real_raster].
  rewrite <- Ei, <- Ej, <- Es, <- Et.
  apply fbilin_near; try assumption; try (apply FR, ND; lia); apply HB, ND; lia.
Qed.
(** So it exceeds the samples of the cell by at most this. *)
Theorem C85_nearly_between_samples :
  forall m M row col i j lo hi, finite_raster m -> bounded_by M m -> bpow radix2 (-900) <= M <= bpow radix2 1000 ->
    is_finite row = true -> is_finite col = true -> is_cell (real_raster m) i j -> in_cell i j (B2R row) (B2R col) ->
    cell_samples_within (real_raster m) i j lo hi ->
    exists v, library_interp m row col = Some v /\ lo - bpow radix2 (-48) * M <= B2R v <= hi + bpow radix2 (-48) * M.
Proof.
  intros m M row col i j lo hi HF HB HM Fr Fc Hc Hin HS.
  destruct (C85_rounding_error m M row col i j HF HB HM Fr Fc Hc Hin) as (v & E & _ & D). exists v. split; [exact E|].
  pose proof (bilinear_bounds _ _ _ _ _ _ _ Hin HS) as B. apply Rabs_le_inv in D. lra.
Qed.
(** At a node, the value is the sample, without any error. *)
Theorem C85_exact_at_nodes :
  forall m row col i j, finite_raster m -> is_finite row = true -> is_finite col = true ->
    is_node (real_raster m) i j -> B2R row = IZR i -> B2R col = IZR j ->
    exists v, library_interp m row col = Some v /\ B2R v = B2R (fr_at m i j).
Proof.
  intros m row col i j HF Fr Fc [Hi Hj] Er Ec. cbn in Hi, Hj. pose proof HF as (Nr & Nc & FR).
  assert (HH : in_hull (real_raster m) (B2R row) (B2R col)) by (rewrite Er, Ec; split; split; cbn; apply IZR_le; lia).
  destruct (library_value m row col HF Fr Fc HH) as (i' & j' & s & t & Hc' & Fs & Ft & Es & Et & Bs & Bt & Ei & Ej & EV).
  assert (ND : forall a b, (a = i' \/ a = i' + 1)%Z -> (b = j' \/ b = j' + 1)%Z -> is_node (real_raster m) a b).
  { intros a b Ha Hb. destruct Hc' as [C1 C2]. cbn in C1, C2. split; cbn; lia. }
  eexists. split; [exact EV|].
  assert (Z1 : forall x k l, x = IZR k - IZR l -> 0 <= x <= 1 -> x = 0 \/ x = 1).
  { intros x k l -> B. rewrite <- minus_IZR in *. destruct B as [B1 B2]. apply le_IZR in B1. apply le_IZR in B2.
    assert (k - l = 0 \/ k - l = 1)%Z as [-> | ->] by lia; auto. }
  rewrite fbilin_corner; try assumption; try (apply FR, ND; lia);
    [|apply (Z1 _ j j'); [rewrite Es, Ec; reflexivity|assumption]|apply (Z1 _ i i'); [rewrite Et, Er; reflexivity|assumption]].
  pose proof (interp_node (real_raster m) i j (real_big m HF) ltac:(split; cbn; lia)) as E. rewrite <- Er, <- Ec in E. cbn [rs_at real_raster] in E. rewrite <- E.
  unfold interp. cbn [rs_rows rs_cols rs_at real_raster]. now rewrite <- Ei, <- Ej, <- Es, <- Et.
Qed.

(** ** The case of a flat terrain, 3 x 3 cells at 100 m *)
Definition flat : fraster := mkFRaster 3 3 (fun _ _ => fint 100).
Lemma flat_value i j : B2R (fr_at flat i j) = 100.
Proof. cbn [flat fr_at]. apply fint_exact. lia. Qed.
Lemma flat_finite : finite_raster flat.
Proof. split; [cbn; lia|]. split; [cbn; lia|]. intros i j _. apply fint_exact. lia. Qed.
Lemma flat_bounded : bounded_by 100 flat.
Proof. intros i j _. rewrite flat_value. rewrite Rabs_pos_eq; lra. Qed.
Lemma hundred_range : bpow radix2 (-900) <= 100 <= bpow radix2 1000.
Proof.
  split; [apply Rle_trans with (bpow radix2 0); [apply bpow_le; lia|cbn; lra]|].
  apply Rle_trans with (bpow radix2 7); [cbn; lra|apply bpow_le; lia].
Qed.
Lemma flat_hull r c : in_cell 1 1 r c -> in_hull (real_raster flat) r c.
Proof. intros [H1 H2]. split; cbn; lra. Qed.
(** The line of sight from (0, 0, 103) to (2, 2, 98) in index coordinates. *)
Definition above : fvec3 := FV3 (fint 0) (fint 0) (fint 103).
Definition below : fvec3 := FV3 (fint 2) (fint 2) (fint 98).
Definition entry : fvec3 := fcross_top (fint 100) above below.
Lemma le_by_test (x y : b64) : is_finite x = true -> is_finite y = true -> Bleb x y = true -> B2R x <= B2R y.
Proof. intros F G H. rewrite Bleb_correct in H by assumption. destruct (Rle_bool_spec (B2R x) (B2R y)); [assumption|discriminate]. Qed.
Lemma lt_by_test (x y : b64) : is_finite x = true -> is_finite y = true -> Bltb x y = true -> B2R x < B2R y.
Proof. intros F G H. rewrite Bltb_correct in H by assumption. destruct (Rlt_bool_spec (B2R x) (B2R y)); [assumption|discriminate]. Qed.
Lemma entry_cell : is_finite (fv_row entry) = true /\ is_finite (fv_col entry) = true /\ in_cell 1 1 (B2R (fv_row entry)) (B2R (fv_col entry)).
Proof.
  assert (F1 : is_finite (fv_row entry) = true) by (vm_compute; reflexivity). assert (F2 : is_finite (fv_col entry) = true) by (vm_compute; reflexivity).
  assert (I : forall n, (Z.abs n < 2 ^ 53)%Z -> B2R (fint n) = IZR n /\ is_finite (fint n) = true) by (intros; now apply fint_exact).
  destruct (I 1%Z) as [O1 O2]; [lia|]. destruct (I 2%Z) as [T1 T2]; [lia|].
  split; [exact F1|]. split; [exact F2|].
  pose proof (le_by_test (fint 1) (fv_row entry) O2 F1 ltac:(vm_compute; reflexivity)). pose proof (le_by_test (fv_row entry) (fint 2) F1 T2 ltac:(vm_compute; reflexivity)).
  pose proof (le_by_test (fint 1) (fv_col entry) O2 F2 ltac:(vm_compute; reflexivity)). pose proof (le_by_test (fv_col entry) (fint 2) F2 T2 ltac:(vm_compute; reflexivity)).
  rewrite O1, T1 in *. split; lra.
Qed.
(** The hypotheses of the theorems hold there. *)
Example C85_case : finite_raster flat /\ bounded_by 100 flat /\ is_cell (real_raster flat) 1 1 /\
  exists v, library_interp flat (fv_row entry) (fv_col entry) = Some v /\ 100 - bpow radix2 (-48) * 100 <= B2R v <= 100 + bpow radix2 (-48) * 100.
Proof.
  split; [exact flat_finite|]. split; [exact flat_bounded|]. assert (C : is_cell (real_raster flat) 1 1) by (split; cbn; lia). split; [exact C|].
  destruct entry_cell as (F1 & F2 & HI).
  apply (C85_nearly_between_samples flat 100 _ _ 1 1 100 100 flat_finite flat_bounded hundred_range F1 F2 C HI).
  intros a b _ _. change (rs_at (real_raster flat) a b) with (B2R (fr_at flat a b)). rewrite flat_value. lra.
Qed.
Example C85_node_case : exists v, library_interp flat (fint 2) (fint 1) = Some v /\ B2R v = 100.
Proof.
  destruct (C85_exact_at_nodes flat (fint 2) (fint 1) 2 1 flat_finite) as (v & E & V); try (apply fint_exact; lia); [split; cbn; lia|].
  exists v. split; [exact E|]. now rewrite V, flat_value.
Qed.
(** But it does exceed the samples: 100.00000000000001 on this terrain at 100 m. *)
Theorem C85_between_samples_refuted :
  exists m row col v, finite_raster m /\ (forall i j, B2R (fr_at m i j) = 100) /\ in_hull (real_raster m) (B2R row) (B2R col) /\
    library_interp m row col = Some v /\ 100 < B2R v.
Proof.
  exists flat, (fv_row entry), (fv_col entry). destruct entry_cell as (F1 & F2 & HI).
  assert (T : match library_interp flat (fv_row entry) (fv_col entry) with Some v => is_finite v && Bltb (fint 100) v | None => false end = true)
    by (vm_compute; reflexivity).
  destruct (library_interp flat (fv_row entry) (fv_col entry)) as [v|]; [|discriminate]. apply andb_prop in T. destruct T as [T1 T2].
  exists v. split; [exact flat_finite|]. split; [apply flat_value|]. split; [now apply flat_hull|]. split; [reflexivity|].
  assert (I : B2R (fint 100) = 100 /\ is_finite (fint 100) = true) by (apply fint_exact; lia). destruct I as [I1 I2].
  rewrite <- I1. now apply lt_by_test.
Qed.

(** ** C86 *)
(** A line of sight that enters the DTM cube by its top face, from above to below, inside the terrain, is
    taken for one that comes from below the terrain, and the answer is "no intersection": the entry
    position is at the altitude of the face, 100, and the interpolated altitude exceeds it. *)
Theorem C86_top_entry_refuted :
  exists m a b, finite_raster m /\ (forall i j, B2R (fr_at m i j) = 100) /\
    is_finite (fv_alt a) = true /\ is_finite (fv_alt b) = true /\ 100 < B2R (fv_alt a) /\ B2R (fv_alt b) < 100 /\
    let p := fcross_top (fint 100) a b in
    in_hull (real_raster m) (B2R (fv_row p)) (B2R (fv_col p)) /\ B2R (fv_alt p) = 100 /\
    fentry_accepted m (fv_row p) (fv_col p) (fv_alt p) = Some false.
Proof.
  exists flat, above, below. split; [exact flat_finite|]. split; [apply flat_value|].
  assert (I : forall n, (Z.abs n < 2 ^ 53)%Z -> B2R (fint n) = IZR n /\ is_finite (fint n) = true) by (intros; now apply fint_exact).
  split; [apply I; lia|]. split; [apply I; lia|]. cbn [above below fv_alt]. destruct (I 103%Z) as [-> _]; [lia|]. destruct (I 98%Z) as [-> _]; [lia|].
  split; [lra|]. split; [lra|]. cbv zeta. fold entry. destruct entry_cell as (_ & _ & HI).
  split; [now apply flat_hull|]. split; [apply I; lia|]. vm_compute. reflexivity.
Qed.
(** The test is the expected one up to 2^-47 M: no position above the surface by more than 2^-48 M is
    refused, and no position below it by more than 2^-47 M is accepted. *)
Theorem C86_entry_test_partial :
  forall m M row col alt i j, finite_raster m -> bounded_by M m -> bpow radix2 (-900) <= M <= bpow radix2 1000 ->
    is_finite row = true -> is_finite col = true -> is_finite alt = true -> Rabs (B2R alt) <= bpow radix2 1001 ->
    is_cell (real_raster m) i j -> in_cell i j (B2R row) (B2R col) ->
    let surface := bilinear_in_cell (real_raster m) i j (B2R row) (B2R col) in
    exists b, fentry_accepted m row col alt = Some b /\
      (surface + bpow radix2 (-48) * M <= B2R alt -> b = true) /\
      (b = true -> surface - bpow radix2 (-47) * M <= B2R alt).
Proof.
  intros m M row col alt i j HF HB HM Fr Fc Fa Ba Hc Hin surface.
  destruct (C85_rounding_error m M row col i j HF HB HM Fr Fc Hc Hin) as (v & E & Fv & D). fold surface in D. apply Rabs_le_inv in D.
  unfold fentry_accepted. fold (library_interp m row col). rewrite E. eexists. split; [reflexivity|].
  assert (BV : Rabs (B2R alt - B2R v) <= huge).
  { assert (SB : cell_samples_within (real_raster m) i j (- M) M).
    { intros a b Ha Hb. cbn [rs_at real_raster]. assert (N : is_node (real_raster m) a b) by (destruct Hc as [C1 C2]; cbn in C1, C2; split; cbn; lia).
      pose proof (HB a b N) as Q. apply Rabs_le_inv in Q. exact Q. }
    pose proof (bilinear_bounds _ _ _ _ _ _ _ Hin SB) as B. fold surface in B. apply Rabs_le_inv in Ba.
    assert (MP : 0 < M) by (eapply Rlt_le_trans; [apply bpow_gt_0|apply HM]).
    assert (X : bpow radix2 (-48) * M <= 1 * M) by (apply Rmult_le_compat_r; [lra|change 1 with (bpow radix2 0); apply bpow_le; lia]).
    assert (H1 : bpow radix2 1001 = 2 * bpow radix2 1000) by (change 1001%Z with (1 + 1000)%Z; rewrite bpow_plus; reflexivity).
    assert (H2 : 8 * bpow radix2 1000 <= huge) by (change 8 with (bpow radix2 3); rewrite <- bpow_plus; apply bpow_le; lia).
    apply Rabs_le. lra. }
  destruct (fsub_round alt v Fa Fv) as [S1 S2]; [now apply huge_lt|]. destruct (fint_exact 0) as [Z1 Z2]; [lia|].
  rewrite Bltb_correct by assumption. rewrite S1, Z1. destruct (Rlt_bool_spec (rnd (B2R alt - B2R v)) 0) as [L|L]; cbn [negb].
  - split; [|discriminate]. intros H. exfalso. assert (0 <= rnd (B2R alt - B2R v)) by (rewrite <- rnd_0; apply rnd_le; lra). lra.
  - split; [reflexivity|]. intros _. apply Rnot_lt_le. intros HL.
    pose proof (rnd_error (B2R alt - B2R v)) as R0. apply Rabs_le_inv in R0.
    assert (MP : 0 < M) by (eapply Rlt_le_trans; [apply bpow_gt_0|apply HM]).
    assert (E47 : bpow radix2 (-47) = 2 * bpow radix2 (-48)) by (change (-47)%Z with (1 + -48)%Z; rewrite bpow_plus; reflexivity).
    set (z := B2R alt - B2R v) in *. set (q := bpow radix2 (-48) * M) in *.
    assert (Q : bpow radix2 (-47) * M = 2 * q) by (unfold q; rewrite E47; ring). rewrite Q in HL.
    assert (QT : 2 * tiny < q).
    { unfold q. apply Rlt_le_trans with (bpow radix2 (-48) * bpow radix2 (-900)); [|apply Rmult_le_compat_l; [apply bpow_ge_0|apply HM]].
      change 2 with (bpow radix2 1). unfold tiny. rewrite <- !bpow_plus. apply bpow_lt. lia. }
    assert (ZN : z < - q) by (unfold z; lra). rewrite Rabs_left in R0 by (pose proof tiny_pos; lra).
    pose proof ulp1_small. pose proof ulp1_pos. assert (ulp1 * - z <= / 1000000 * - z) by (apply Rmult_le_compat_r; [pose proof tiny_pos; lra|lra]). lra.
Qed.
Example C86_case : exists b, fentry_accepted flat (fv_row entry) (fv_col entry) (fint 101) = Some b /\ b = true.
Proof.
  destruct entry_cell as (F1 & F2 & HI). destruct (fint_exact 101) as [A1 A2]; [lia|].
  assert (C : is_cell (real_raster flat) 1 1) by (split; cbn; lia).
  destruct (C86_entry_test_partial flat 100 (fv_row entry) (fv_col entry) (fint 101) 1 1 flat_finite flat_bounded hundred_range F1 F2 A2) as (b & E & H & _); [|exact C|exact HI|].
  - rewrite A1, Rabs_pos_eq by lra. apply Rle_trans with (bpow radix2 7); [cbn; lra|apply bpow_le; lia].
  - exists b. split; [exact E|]. apply H. rewrite A1.
    assert (S : bilinear_in_cell (real_raster flat) 1 1 (B2R (fv_row entry)) (B2R (fv_col entry)) = 100).
    { unfold bilinear_in_cell, lerp. cbn [rs_at real_raster]. rewrite !flat_value. ring. }
    rewrite S. assert (bpow radix2 (-48) <= / 100) by (cbn; lra). lra.
Qed.
