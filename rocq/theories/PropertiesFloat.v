(** C77: a grid can be opened again: its reader finds one coordinate per node. *)
From Coq Require Import ZArith Reals Bool Lia Lra.
From Flocq Require Import Core BinarySingleNaN Relative.
From Verif Require Import FloatModel Float.
Open Scope R_scope.

(** The numbers that are whole multiples of 2 ^ [e]: whole numbers for [e] = 0, halves for -1... *)
Definition multiple_of (e k : Z) (x : b64) : Prop :=
  is_finite x = true /\ B2R x = IZR k * bpow radix2 e.

Lemma whole_product step b n e : multiple_of e b step -> (-1074 <= e <= 970)%Z ->
  (0 <= n < 2 ^ 53)%Z -> (Z.abs (n * b) < 2 ^ 53)%Z -> multiple_of e (n * b) (fmul step (fint n)).
Proof.
  intros [F S] E N NB. destruct (fint_exact n) as [I1 I2]; [ lia | ].
  assert (P : B2R step * B2R (fint n) = IZR (n * b) * bpow radix2 e) by (rewrite S, I1, mult_IZR; ring).
  destruct (rnd_fits (IZR (n * b) * bpow radix2 e)) as [D1 D2]; [ apply fits_dyadic; assumption | ].
  destruct (fmul_round step (fint n)) as [M1 M2]; [ assumption | assumption | rewrite P; exact D2 | ].
  split; [ exact M2 | ]. rewrite M1, P. exact D1.
Qed.
Lemma whole_sum x y a b e : multiple_of e a x -> multiple_of e b y -> (-1074 <= e <= 970)%Z ->
  (Z.abs (a + b) < 2 ^ 53)%Z -> multiple_of e (a + b) (fadd x y).
Proof.
  intros [F S] [G T] E N.
  assert (P : B2R x + B2R y = IZR (a + b) * bpow radix2 e) by (rewrite S, T, plus_IZR; ring).
  destruct (rnd_fits (IZR (a + b) * bpow radix2 e)) as [D1 D2]; [ apply fits_dyadic; assumption | ].
  destruct (fadd_round x y) as [M1 M2]; [ assumption | assumption | rewrite P; exact D2 | ].
  split; [ exact M2 | ]. rewrite M1, P. exact D1.
Qed.

Lemma whole_rect step b n e : multiple_of e b step -> (-1074 <= e <= 970)%Z -> (b <> 0)%Z ->
  (Z.of_nat n < 2 ^ 53)%Z -> (Z.abs (Z.of_nat n * b) < 2 ^ 53)%Z ->
  rect_coordinates step (grid_origin step) n = Some n.
Proof.
  intros S E B N NB. unfold rect_coordinates.
  destruct (centre_origin step) as [C1 C2]; [ apply S | ].
  assert (C : multiple_of e 0 (centre step (grid_origin step))) by (split; [ exact C2 | rewrite C1; lra ]).
  assert (P := whole_product step b (Z.of_nat n) e S E ltac:(lia) NB).
  assert (T := whole_sum _ _ _ _ e C P E NB).
  rewrite (coordinates_exact _ _ _ 0 b (Z.of_nat n) e); try apply C; try apply T; try apply S; try assumption; try lia.
  rewrite Nat2Z.id. reflexivity.
Qed.

(** Part that holds: a grid of displacements whose step is a whole number of 2 ^ [e] (a whole number
    of pixels, of half pixels...) is opened by the reader, whatever its size. *)
Theorem C77_whole_steps_partial : forall (e b : Z) (step : b64) (width height : nat),
  multiple_of e b step -> (-1074 <= e <= 970)%Z -> (b <> 0)%Z ->
  (Z.of_nat width < 2 ^ 53)%Z -> (Z.of_nat height < 2 ^ 53)%Z ->
  (Z.abs (Z.of_nat width * b) < 2 ^ 53)%Z -> (Z.abs (Z.of_nat height * b) < 2 ^ 53)%Z ->
  rect_grid_opens step step (grid_origin step) (grid_origin step) width height = true.
Proof.
  intros e b step w h S E B W H WB HB. unfold rect_grid_opens.
  rewrite (whole_rect step b w e), (whole_rect step b h e), !PeanoNat.Nat.eqb_refl; auto.
Qed.
(** A step of zero is refused, whatever the origin and the size. *)
Theorem C77_zero_step : forall (step_row origin_col origin_row step : b64) (width height : nat),
  is_finite step = true -> B2R step = 0 ->
  rect_grid_opens step step_row origin_col origin_row width height = false /\
  rect_grid_opens step_row step origin_col origin_row width height = false.
Proof.
  intros step_row origin_col origin_row step w h F Z.
  assert (N : forall o n, rect_coordinates step o n = None).
  { intros o n. unfold rect_coordinates, arange_length. set (x := fsub _ _). clearbody x.
    destruct step as [s|s| |s m e H]; try discriminate F; [destruct x; reflexivity|].
    exfalso. cbn [B2R] in Z. apply eq_0_F2R in Z. destruct s; discriminate Z. }
  unfold rect_grid_opens. rewrite !N. split; [reflexivity|]. now destruct (rect_coordinates step_row origin_col w).
Qed.
Example C77_zero_case : rect_grid_opens (fint 0) (fint 30) (fint 7) (fint 0) 0 4 = false.
Proof. apply (C77_zero_step (fint 30) (fint 7) (fint 0) (fint 0)); apply (fint_exact 0); lia. Qed.
(** Steps of 30 pixels and of 2.5 pixels. *)
Example C77_whole_case :
  multiple_of 0 30 (flit 30 0) /\ multiple_of (-1) 5 (flit 5 (-1)) /\
  rect_grid_opens (flit 5 (-1)) (flit 5 (-1)) (grid_origin (flit 5 (-1))) (grid_origin (flit 5 (-1))) 23 4000 = true.
Proof.
  assert (P : forall k e, (Z.abs k < 2 ^ 53)%Z -> (-1074 <= e <= 970)%Z -> multiple_of e k (flit k e)).
  { intros k e K E. destruct (flit_exact k e) as [A B]; [ apply fits_dyadic; assumption | ]. split; assumption. }
  split; [ apply P; lia | ]. split; [ apply P; lia | ].
  apply (C77_whole_steps_partial (-1) 5); try lia. apply P; lia.
Qed.

(** The same for a multi-altitude grid model, with any origin. *)
Theorem C77_whole_model_grids_partial : forall (e a b : Z) (origin step : b64) (n : nat),
  multiple_of e a origin -> multiple_of e b step -> (-1074 <= e <= 970)%Z -> (b <> 0)%Z ->
  (Z.of_nat n < 2 ^ 53)%Z -> (Z.abs (Z.of_nat n * b) < 2 ^ 53)%Z -> (Z.abs (a + Z.of_nat n * b) < 2 ^ 53)%Z ->
  grid_coordinates origin step n = Some n.
Proof.
  intros e a b origin step n A S E B N NB AB. unfold grid_coordinates.
  assert (P : multiple_of e (Z.of_nat n * b) (fmul (fint (Z.of_nat n)) step)).
  { destruct S as [F S]. destruct (fint_exact (Z.of_nat n)) as [I1 I2]; [ lia | ].
    assert (P : B2R (fint (Z.of_nat n)) * B2R step = IZR (Z.of_nat n * b) * bpow radix2 e)
      by (rewrite S, I1, mult_IZR; ring).
    destruct (rnd_fits (IZR (Z.of_nat n * b) * bpow radix2 e)) as [D1 D2]; [ apply fits_dyadic; assumption | ].
    destruct (fmul_round (fint (Z.of_nat n)) step) as [M1 M2]; [ assumption | assumption | rewrite P; exact D2 | ].
    split; [ exact M2 | ]. rewrite M1, P. exact D1. }
  assert (T := whole_sum _ _ _ _ e A P E AB).
  rewrite (coordinates_exact _ _ _ a b (Z.of_nat n) e);
    try apply A; try apply T; try apply S; try assumption; try lia.
  rewrite Nat2Z.id. reflexivity.
Qed.
Example C77_model_case : grid_coordinates (flit 25 (-1)) (flit (-100) 0) 17 = Some 17%nat.
Proof. vm_compute. reflexivity. Qed.

(** For any other step the reader never finds fewer coordinates than nodes, and at most one more. *)
Theorem C77_at_most_one_more : forall (step : b64) (n : nat),
  is_finite step = true -> bpow radix2 (-1000) <= B2R step ->
  (0 < Z.of_nat n < 2 ^ 52)%Z -> B2R step * IZR (Z.of_nat n) <= bpow radix2 1023 ->
  rect_coordinates step (grid_origin step) n = Some n \/
  rect_coordinates step (grid_origin step) n = Some (S n).
Proof.
  intros step n F SB N OV. unfold rect_coordinates, arange_length.
  destruct (centre_origin step F) as [C1 C2]. set (ori := centre step (grid_origin step)) in *.
  destruct (fint_exact (Z.of_nat n)) as [I1 I2]; [ lia | ].
  set (x := B2R step * IZR (Z.of_nat n)) in *. set (k := Z.of_nat n) in *.
  assert (BS := bpow_gt_0 radix2 (-1000)).
  assert (K1 : 1 <= IZR k) by (apply IZR_le; lia).
  assert (K2 : IZR k <= IZR (2 ^ 52 - 1)) by (apply IZR_le; lia).
  assert (XP : bpow radix2 (-1000) <= x).
  { unfold x. apply Rle_trans with (B2R step * 1); [ lra | apply Rmult_le_compat_l; lra ]. }
  assert (RE : Rabs (rnd x - x) <= /2 * bpow radix2 (- 53 + 1) * Rabs x).
  { apply (relative_error_N_FLT radix2 (-1074) 53); [ lia | ]. rewrite Rabs_pos_eq by lra.
    apply Rle_trans with (bpow radix2 (-1000)); [ apply bpow_le; lia | exact XP ]. }
  rewrite (Rabs_pos_eq x) in RE by lra.
  assert (U : /2 * bpow radix2 (-53 + 1) = / IZR (2 ^ 53)) by (cbn; lra).
  rewrite U in RE. apply Rabs_le_inv in RE.
  assert (F1 : fits (bpow radix2 1023)) by (replace (bpow radix2 1023) with (IZR (2 ^ 52) * bpow radix2 971);
    [ | change (IZR (2 ^ 52)) with (bpow radix2 52); rewrite <- bpow_plus; reflexivity ];
    split; [ apply (generic_format_FLT radix2 (-1074) 53); exists (Float radix2 (2 ^ 52) 971); cbn; [ reflexivity | lia | lia ]
           | change (IZR (2 ^ 52)) with (bpow radix2 52); rewrite <- bpow_plus, Rabs_pos_eq by apply bpow_ge_0; apply bpow_lt; lia ]).
  assert (RX0 : 0 <= rnd x) by (rewrite <- rnd_0; apply rnd_le; lra).
  assert (RX1 : rnd x <= bpow radix2 1023) by (rewrite <- (proj1 (rnd_fits _ F1)); apply rnd_le; exact OV).
  assert (B10 : bpow radix2 1023 < bpow radix2 1024) by (apply bpow_lt; lia).
  assert (RXB : Rabs (rnd x) < bpow radix2 1024) by (rewrite Rabs_pos_eq by exact RX0; lra).
  assert (GR : forall y, rnd (rnd y) = rnd y).
  { intros y. apply round_generic; [ apply valid_rnd_N | ].
    apply generic_format_round; [ apply (fexp_correct 53 1024); reflexivity | apply valid_rnd_N ]. }
  destruct (fmul_round step (fint k)) as [M1 M2]; [ assumption | assumption | rewrite I1; exact RXB | ].
  rewrite I1 in M1. fold x in M1.
  destruct (fadd_round ori (fmul step (fint k))) as [A1 A2];
    [ assumption | assumption | rewrite C1, M1, Rplus_0_l, GR; exact RXB | ].
  rewrite C1, M1, Rplus_0_l, GR in A1.
  destruct (fsub_round (fadd ori (fmul step (fint k))) ori) as [D1 D2];
    [ assumption | assumption | rewrite A1, C1, Rminus_0_r, GR; exact RXB | ].
  rewrite A1, C1, Rminus_0_r, GR in D1.
  set (q := rnd x / B2R step).
  assert (SP : 0 < B2R step) by lra.
  assert (Q : IZR k - /2 <= q <= IZR k + /2).
  { assert (XK : x / B2R step = IZR k) by (unfold x; field; lra).
    assert (QD : q = IZR k + (rnd x - x) / B2R step) by (rewrite <- XK; unfold q; field; lra).
    assert (EK : / IZR (2 ^ 53) * x / B2R step = / IZR (2 ^ 53) * IZR k) by (rewrite <- XK; field; lra).
    assert (HK : / IZR (2 ^ 53) * IZR k <= / 2).
    { apply Rmult_le_reg_l with (IZR (2 ^ 53)); [ apply IZR_lt; lia | ].
      rewrite <- Rmult_assoc, Rinv_r, Rmult_1_l by (apply not_0_IZR; lia).
      eapply Rle_trans; [ exact K2 | ]. change (IZR (2 ^ 52 - 1)) with 4503599627370495.
      change (IZR (2 ^ 53)) with 9007199254740992. lra. }
    assert (L : - (/ IZR (2 ^ 53) * x) / B2R step <= (rnd x - x) / B2R step <= / IZR (2 ^ 53) * x / B2R step).
    { split; apply Rmult_le_compat_r; try (left; apply Rinv_0_lt_compat; exact SP); lra. }
    unfold Rdiv in L, EK. rewrite Ropp_mult_distr_l_reverse in L. unfold Rdiv in QD. lra. }
  assert (HI : fits (IZR k + /2)).
  { replace (IZR k + /2) with (IZR (2 * k + 1) * bpow radix2 (-1)) by (rewrite plus_IZR, mult_IZR; cbn; lra).
    apply fits_dyadic; lia. }
  assert (LO : fits (IZR k - /2)).
  { replace (IZR k - /2) with (IZR (2 * k - 1) * bpow radix2 (-1)) by (rewrite minus_IZR, mult_IZR; cbn; lra).
    apply fits_dyadic; lia. }
  assert (RQ : IZR k - /2 <= rnd q <= IZR k + /2).
  { rewrite <- (proj1 (rnd_fits _ HI)), <- (proj1 (rnd_fits _ LO)). split; apply rnd_le; apply Q. }
  destruct (fdiv_round (fsub (fadd ori (fmul step (fint k))) ori) step) as [V1 V2].
  - exact D2.
  - lra.
  - rewrite D1. fold q. rewrite Rabs_pos_eq by lra.
    eapply Rle_lt_trans; [ apply RQ | ]. rewrite <- (Rabs_pos_eq (IZR k + /2)) by lra. apply HI.
  - rewrite (fceil_finite _ V2), V1, D1. fold q.
    assert (ZC : (Zceil (rnd q) = k \/ Zceil (rnd q) = k + 1)%Z).
    { destruct (Rle_lt_dec (rnd q) (IZR k)) as [C | C].
      - left. apply Zceil_imp. rewrite minus_IZR. lra.
      - right. apply Zceil_imp. rewrite minus_IZR, plus_IZR. lra. }
    destruct ZC as [ -> | -> ].
    + left. unfold k. rewrite Nat2Z.id. reflexivity.
    + right. unfold k. f_equal. lia.
Qed.

(** Refuted for the other steps: 15 nodes every 2.3 pixels (the binary64 number nearest to 2.3) give
    16 coordinates, so the reader raises an exception on a grid that the library has written; 14 nodes
    give 14. *)
Definition step_2_3 : b64 := flit 5179139571476070 (-51).
Theorem C77_fractional_step_refuted :
  rect_coordinates step_2_3 (grid_origin step_2_3) 15 = Some 16%nat /\
  rect_coordinates step_2_3 (grid_origin step_2_3) 14 = Some 14%nat /\
  rect_grid_opens step_2_3 step_2_3 (grid_origin step_2_3) (grid_origin step_2_3) 15 14 = false.
Proof. vm_compute. repeat split. Qed.
(** The same for a multi-altitude grid with nodes every tenth of a pixel. *)
Definition step_0_1 : b64 := flit 7205759403792794 (-56).
Theorem C77_fractional_model_refuted : grid_coordinates (fint 0) step_0_1 3 = Some 4%nat.
Proof. vm_compute. reflexivity. Qed.
Example C77_more_case :
  is_finite step_2_3 = true /\ bpow radix2 (-1000) <= B2R step_2_3 /\
  B2R step_2_3 * IZR (Z.of_nat 15) <= bpow radix2 1023.
Proof.
  destruct (flit_exact 5179139571476070 (-51)) as [A B]; [ apply fits_dyadic; lia | ].
  fold step_2_3 in A, B. split; [ exact B | ]. rewrite A.
  assert (S1 : 1 <= 5179139571476070 * bpow radix2 (-51) <= 4) by (cbn; lra).
  assert (L : bpow radix2 (-1000) <= bpow radix2 0) by (apply bpow_le; lia).
  assert (H : bpow radix2 6 <= bpow radix2 1023) by (apply bpow_le; lia).
  change (bpow radix2 0) with 1 in L. change (bpow radix2 6) with 64 in H.
  change (IZR (Z.of_nat 15)) with 15. lra.
Qed.
