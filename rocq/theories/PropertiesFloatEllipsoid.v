(** C109: the altitudes of a DTM read with a geoid, in binary64. *)
From Coq Require Import ZArith Reals Bool List Lia Lra Psatz.
From Flocq Require Import Core BinarySingleNaN.
From Verif Require Import InterpModel InterpSpec InterpProofs FloatModel FloatInterpModel Float FloatErr FloatRpc FloatInterp FloatGeoModel FloatGeoSpec FloatGeo PropertiesFloatGeo PropertiesFloat2 FloatWalk FloatGeoidModel FloatGeoidSpec PropertiesFloatGeoid FloatEllipsoidModel FloatEllipsoidSpec.
Import ListNotations.
Open Scope R_scope.

Lemma positions_nth t rows cols r c : (r < rows)%nat -> (c < cols)%nat ->
  nth_error (f_cell_positions t rows cols) (r * cols + c) = Some (let '(lat, lon) := findex_to_physical t (fint (Z.of_nat r)) (fint (Z.of_nat c)) in (lon, lat)).
Proof.
  intros Hr Hc. unfold f_cell_positions. apply (flat_map_nth _ cols rows 0 r c); auto.
  - intros k. now rewrite map_length, seq_length.
  - cbn [Nat.add]. rewrite nth_error_map, (nth_error_nth' _ 0%nat) by now rewrite seq_length. rewrite seq_nth by exact Hc. reflexivity.
Qed.
Lemma positions_length t rows cols : length (f_cell_positions t rows cols) = (rows * cols)%nat.
Proof.
  unfold f_cell_positions. generalize 0%nat at 2. induction rows as [|rows IH]; intros k; [reflexivity|]. cbn [seq flat_map]. rewrite app_length, IH, map_length, seq_length. reflexivity.
Qed.
Lemma positions_in t rows cols p : In p (f_cell_positions t rows cols) ->
  exists r c, (r < rows)%nat /\ (c < cols)%nat /\ p = (let '(lat, lon) := findex_to_physical t (fint (Z.of_nat r)) (fint (Z.of_nat c)) in (lon, lat)).
Proof.
  intros P. apply in_flat_map in P. destruct P as (r & R & P). apply in_map_iff in P. destruct P as (c & <- & C). apply in_seq in R, C. exists r, c. repeat split; lia.
Qed.
Lemma cell_centre t rows cols m r c : dtm_in_degrees t rows cols m -> (r < rows)%nat -> (c < cols)%nat ->
  let '(lat, lon) := findex_to_physical t (fint (Z.of_nat r)) (fint (Z.of_nat c)) in
  within lon (cell_longitude t c) (rounding 3 * m * Rabs (B2R (fa_a t))) /\ within lat (cell_latitude t r) (rounding 3 * m * Rabs (B2R (fa_e t))).
Proof.
  intros (NU & CA & MA & ME & HR & HC) Lr Lc. pose proof (proj1 CA) as HM.
  assert (IX : forall k n, (k < n)%nat -> INR n <= m -> B2R (fint (Z.of_nat k)) = INR k /\ index_up_to m (fint (Z.of_nat k))).
  { intros k n K N. assert (KN : INR k + 1 <= INR n) by (rewrite <- S_INR; apply le_INR; lia). pose proof (pos_INR k) as K0.
    assert (S : (Z.abs (Z.of_nat k) < 2 ^ 53)%Z) by (rewrite INR_IZR_INZ in KN, K0; assert (Z.of_nat k <= 1000000000)%Z by (apply le_IZR; lra); lia).
    destruct (fint_exact _ S) as [V F]. rewrite <- INR_IZR_INZ in V. split; [exact V|]. split; [exact F|]. rewrite V. apply Rabs_le; lra. }
  destruct (IX r rows Lr HR) as [VR IR]. destruct (IX c cols Lc HC) as [VC IC].
  pose proof (C100_index_to_physical t m _ _ NU CA IR IC) as K. destruct (findex_to_physical t (fint (Z.of_nat r)) (fint (Z.of_nat c))) as [lat lon]. rewrite VR, VC in K. tauto.
Qed.
Lemma centre_rounding t rows cols m : dtm_in_degrees t rows cols m -> rounding 3 * m * Rabs (B2R (fa_a t)) <= / 10000000000 /\ rounding 3 * m * Rabs (B2R (fa_e t)) <= / 10000000000.
Proof.
  intros (_ & _ & MA & ME & _). pose proof q_value as QV. pose proof ulp1_pos as Q0. rewrite rounding_3.
  assert (8 * ulp1 * (m * Rabs (B2R (fa_a t))) <= 8 * ulp1 * 1000) by (apply Rmult_le_compat_l; lra). assert (8 * ulp1 * (m * Rabs (B2R (fa_e t))) <= 8 * ulp1 * 1000) by (apply Rmult_le_compat_l; lra). lra.
Qed.
Lemma cell_position g t rows cols m r c : dtm_of_the_earth g t rows cols m -> (r < rows)%nat -> (c < cols)%nat ->
  let '(lat, lon) := findex_to_physical t (fint (Z.of_nat r)) (fint (Z.of_nat c)) in
  within lon (cell_longitude t c) (rounding 3 * m * Rabs (B2R (fa_a t))) /\ within lat (cell_latitude t r) (rounding 3 * m * Rabs (B2R (fa_e t))) /\ on_the_earth g lon lat.
Proof.
  intros (HD & HX & HY) Lr Lc. pose proof (cell_centre t rows cols m r c HD Lr Lc) as K. destruct (centre_rounding t rows cols m HD) as [RA RE]. pose proof (HX c Lc) as BX. pose proof (HY r Lr) as BY.
  destruct (findex_to_physical t (fint (Z.of_nat r)) (fint (Z.of_nat c))) as [lat lon]. destruct K as [[FX KX] [FY KY]]. split; [split; assumption|]. split; [split; assumption|].
  apply Rabs_le_inv in KX, KY, BY. repeat split; try assumption; try lra. apply Rabs_le; lra.
Qed.
Lemma Forall2_nth {A B} (P : A -> B -> Prop) l l' k x : Forall2 P l l' -> nth_error l k = Some x -> exists y, nth_error l' k = Some y /\ P x y.
Proof. intros H. revert k. induction H as [|a b l l' P1 H IH]; intros [|k] E; try discriminate E; cbn in *; [injection E as <-; eauto|apply IH; exact E]. Qed.
Lemma combine_nth_error {A B} (l : list A) (l' : list B) k x y : nth_error l k = Some x -> nth_error l' k = Some y -> nth_error (combine l l') k = Some (x, y).
Proof. revert l' k. induction l as [|a l IH]; intros [|b l'] [|k] E E'; try discriminate; cbn in *; [congruence|apply IH; assumption]. Qed.
Lemma Forall2_same_length {A B} (P : A -> B -> Prop) l l' : Forall2 P l l' -> length l = length l'. Proof. induction 1; cbn; congruence. Qed.
Lemma rounding_1 : rounding 1 = 2 * ulp1. Proof. unfold rounding, ulp1. change (1 - 53)%Z with (1 + -53)%Z. rewrite bpow_plus. reflexivity. Qed.

(** Each cell has the altitude of the file plus the height of the geoid at its own centre. *)
Theorem C109_altitudes :
  forall evaluate g mg b d t rows cols m alt_data, global_heights g mg -> heights_up_to b g -> interpolates evaluate b d ->
  dtm_of_the_earth g t rows cols m -> length alt_data = (rows * cols)%nat ->
  exists altitudes, f_ellipsoid_altitudes evaluate g t rows cols alt_data = Some altitudes /\ length altitudes = (rows * cols)%nat /\
  forall row col a, (row < rows)%nat -> (col < cols)%nat -> nth_error alt_data (row * cols + col) = Some a ->
    exists alt, nth_error altitudes (row * cols + col) = Some alt /\ ellipsoid_altitude g t mg m d row col a alt.
Proof.
  intros evaluate g mg b d t rows cols m data HG HB HI HD LD. unfold f_ellipsoid_altitudes.
  assert (HP : forall lon lat, In (lon, lat) (f_cell_positions t rows cols) -> on_the_earth g lon lat).
  { intros lon lat P. destruct (positions_in _ _ _ _ P) as (r & c & R & C & E). pose proof (cell_position g t rows cols m r c HD R C) as K.
    destruct (findex_to_physical t (fint (Z.of_nat r)) (fint (Z.of_nat c))) as [y x]. injection E as -> ->. tauto. }
  destruct (C108_heights_partial evaluate g mg b d _ HG HB HI HP) as (hs & EH & F2). rewrite EH. eexists. split; [reflexivity|].
  split; [rewrite map_length, combine_length, <- (Forall2_same_length _ _ _ F2), positions_length, LD; lia|].
  intros row col a Lr Lc Ha. pose proof (cell_position g t rows cols m row col HD Lr Lc) as K. pose proof (positions_nth t rows cols row col Lr Lc) as E.
  destruct (findex_to_physical t (fint (Z.of_nat row)) (fint (Z.of_nat col))) as [lat lon]. destruct K as (K1 & K2 & _).
  destruct (Forall2_nth _ _ _ _ _ F2 E) as (h & Eh & HF). cbn [fst snd] in HF. exists (fadd a h). split; [rewrite nth_error_map, (combine_nth_error _ _ _ _ _ Ha Eh); reflexivity|].
  exists lon, lat, h. split; [exact K1|]. split; [exact K2|]. split; [exact HF|]. split.
  - intros Fa Fh Ba Bh. rewrite rounding_1. pose proof ulp1_pos. pose proof tiny_ulp.
    assert (HH : 4 * bpow radix2 1000 <= huge) by (unfold huge; change 4 with (bpow radix2 2); rewrite <- bpow_plus; apply bpow_le; lia).
    assert (1 <= bpow radix2 1000) by (change 1 with (bpow radix2 0); apply bpow_le; lia). pose proof (Rabs_pos (B2R a)). pose proof (Rabs_pos (B2R h)).
    assert (0 <= ulp1 * Rabs (B2R a)) by (apply Rmult_le_pos; lra). assert (0 <= ulp1 * Rabs (B2R h)) by (apply Rmult_le_pos; lra).
    apply (near_add a h (B2R a) (B2R h) 0 0 (1 + Rabs (B2R a) + Rabs (B2R h))); [apply near_exact; exact Fa|apply near_exact; exact Fh| |lra|lra].
    eapply Rle_trans; [apply Rabs_triang|lra].
  - intros [N|N]; [destruct a; try discriminate N|destruct h; try discriminate N; destruct a]; reflexivity.
Qed.

(** A DTM with a row beyond a pole is refused. *)
Theorem C109_beyond_a_pole :
  forall evaluate g t rows cols m alt_data row, dtm_in_degrees t rows cols m -> (row < rows)%nat -> (0 < cols)%nat -> 90 + / 1000000000 <= Rabs (cell_latitude t row) ->
  f_ellipsoid_altitudes evaluate g t rows cols alt_data = None.
Proof.
  intros evaluate g t rows cols m data row HD Lr Lc HB. unfold f_ellipsoid_altitudes. destruct (centre_rounding t rows cols m HD) as [_ RE].
  replace (f_geoid_heights evaluate g (f_cell_positions t rows cols)) with (@None (list b64)); [reflexivity|]. symmetry. apply C108_beyond_a_pole.
  - intros p P. destruct (positions_in _ _ _ _ P) as (r & c & R & C & ->). pose proof (cell_centre t rows cols m r c HD R C) as K. destruct (findex_to_physical _ _ _) as [lat lon]. apply K.
  - pose proof (cell_centre t rows cols m row 0 HD Lr Lc) as K. pose proof (positions_nth t rows cols row 0 Lr Lc) as P. destruct (findex_to_physical _ _ _) as [lat lon]. exists (lon, lat). split; [exact (nth_error_In _ _ P)|]. cbn [snd].
    destruct K as [_ [_ K]]. pose proof (Rabs_triang_inv (cell_latitude t row) (cell_latitude t row - B2R lat)) as T. replace (cell_latitude t row - (cell_latitude t row - B2R lat)) with (B2R lat) in T by ring.
    rewrite (Rabs_minus_sym (cell_latitude t row)) in T. lra.
Qed.

(** A DTM of 2 x 3 cells of a quarter of a degree, with an invalid cell. *)
Example C109_case :
  let evaluate := fun m row col => match library_interp m row col with Some v => v | None => B754_nan end in
  let t := FAff (flit 1 (-2)) (fint 0) (fint 5) (fint 0) (flit (-1) (-2)) (fint 43) in
  global_heights ex_heights 3000 /\ heights_up_to 2000 ex_heights /\ interpolates evaluate 2000 (bpow radix2 (-48) * 2000) /\ dtm_of_the_earth ex_heights t 2 3 200 /\
  option_map (map ffloor) (f_ellipsoid_altitudes evaluate ex_heights t 2 3 [fint 100; fint 200; fint 300; fint 400; B754_nan; fint 600]) =
    Some [Some 274; Some 375; Some 475; Some 575; None; Some 776]%Z /\
  (let far := FAff (flit 1 (-2)) (fint 0) (fint 5) (fint 0) (flit (-1) (-2)) (fint 91) in f_ellipsoid_altitudes evaluate ex_heights far 2 3 [fint 100; fint 200; fint 300; fint 400; B754_nan; fint 600] = None).
Proof.
  intros evaluate t. destruct C108_case as (G1 & G2 & G3 & _). split; [exact G1|]. split; [exact G2|]. split; [exact G3|].
  destruct ex_heights_values as (VA & VC & _). destruct (fint_exact 0 ltac:(lia)) as [V0 F0]. destruct (fint_exact 5 ltac:(lia)) as [V5 F5]. destruct (fint_exact 43 ltac:(lia)) as [V4 F4].
  assert (B : bpow radix2 (-2) = / 4) by exact (ex_pow 2 ltac:(lia)).
  destruct (flit_exact 1 (-2)) as [W1 H1]; [apply fits_dyadic; lia|]. destruct (flit_exact (-1) (-2)) as [W2 H2]; [apply fits_dyadic; lia|]. rewrite B in W1, W2.
  assert (P1 : Rabs (B2R (flit 1 (-2))) = / 4) by (rewrite W1, Rabs_pos_eq; lra). assert (P2 : Rabs (B2R (flit (-1) (-2))) = / 4) by (rewrite W2; replace (-1 * / 4) with (- / 4) by ring; rewrite Rabs_Ropp, Rabs_pos_eq; lra).
  split; [|split; vm_compute; reflexivity].
  unfold dtm_of_the_earth, dtm_in_degrees, north_up, cells_away, cell_longitude, cell_latitude, physical_of, first_meridian. cbn [t fa_a fa_b fa_c fa_d fa_e fa_f]. rewrite P1, P2, VA, VC, V0, V5, V4, W1, W2, (Rabs_pos_eq 5), (Rabs_pos_eq 43) by lra.
  split; [split; [repeat split; try assumption; lra|]; split; [lra|]; split; [lra|]; split; [lra|]; split; cbn; lra|]. split.
  - intros [|[|[|col]]] L; [cbn; lra|cbn; lra|cbn; lra|lia].
  - intros [|[|row]] L; [cbn; apply Rabs_le; lra|cbn; apply Rabs_le; lra|lia].
Qed.
