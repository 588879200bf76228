(** C108: the heights of a geoid, in binary64. *)
From Coq Require Import ZArith Reals Bool List Lia Lra Psatz.
From Flocq Require Import Core BinarySingleNaN.
From Verif Require Import InterpModel InterpSpec FloatModel FloatInterpModel Float FloatErr FloatRpc FloatInterp FloatGeoModel FloatGeoSpec FloatGeo PropertiesFloatGeo PropertiesFloat2 FloatWalk FloatGeoidModel FloatGeoidSpec.
Import ListNotations.
Open Scope R_scope.

Lemma q_value : ulp1 <= 1111 / 10000000000000000000. Proof. rewrite ulp1_val. change (IZR (2 ^ 53)) with 9007199254740992. lra. Qed.
Lemma tiny_ulp : tiny <= / 1000 * ulp1.
Proof. pose proof tiny_q. pose proof ulp1_pos. pose proof q_value. assert (ulp1 * ulp1 <= ulp1 * 1) by (apply Rmult_le_compat_l; lra). lra. Qed.
Lemma ltb_value (x y : b64) : is_finite x = true -> is_finite y = true -> if Bltb x y then B2R x < B2R y else B2R y <= B2R x.
Proof. intros Fx Fy. rewrite Bltb_correct by assumption. destruct (Rlt_bool_spec (B2R x) (B2R y)); assumption. Qed.
(** Sums and differences of angles, within some units of the last place of the numbers below 1. *)
Lemma sum_angle (x y : b64) a b i j c k : near x a (i * ulp1) -> near y b (j * ulp1) -> 0 <= i -> 0 <= j -> i + j + 1 <= 1000000 -> Rabs (a + b) <= c -> c <= 1000000 -> i + j + c + 1 <= k ->
  near (fadd x y) (a + b) (k * ulp1).
Proof.
  intros X Y I J IJ C C' K. pose proof ulp1_pos. pose proof q_value. pose proof tiny_ulp. pose proof big_huge.
  assert (ulp1 * ((i + j) * ulp1) <= ulp1 * (1 / 10)) by (apply Rmult_le_compat_l; [lra|]; assert ((i + j) * ulp1 <= 1000000 * ulp1) by (apply Rmult_le_compat_r; lra); lra).
  assert ((i + j + c + 1) * ulp1 <= k * ulp1) by (apply Rmult_le_compat_r; lra).
  assert (0 <= i * ulp1 <= 1000000 * ulp1) by (split; [apply Rmult_le_pos; lra|apply Rmult_le_compat_r; lra]). assert (0 <= j * ulp1 <= 1000000 * ulp1) by (split; [apply Rmult_le_pos; lra|apply Rmult_le_compat_r; lra]).
  eapply near_add with (c := c); [exact X|exact Y|exact C| |]; lra.
Qed.
Lemma difference_angle (x y : b64) a b i j c k : near x a (i * ulp1) -> near y b (j * ulp1) -> 0 <= i -> 0 <= j -> i + j + 1 <= 1000000 -> Rabs (a - b) <= c -> c <= 1000000 -> i + j + c + 1 <= k ->
  near (fsub x y) (a - b) (k * ulp1).
Proof.
  intros X Y I J IJ C C' K. pose proof ulp1_pos. pose proof q_value. pose proof tiny_ulp. pose proof big_huge.
  assert (ulp1 * ((i + j) * ulp1) <= ulp1 * (1 / 10)) by (apply Rmult_le_compat_l; [lra|]; assert ((i + j) * ulp1 <= 1000000 * ulp1) by (apply Rmult_le_compat_r; lra); lra).
  assert ((i + j + c + 1) * ulp1 <= k * ulp1) by (apply Rmult_le_compat_r; lra).
  assert (0 <= i * ulp1 <= 1000000 * ulp1) by (split; [apply Rmult_le_pos; lra|apply Rmult_le_compat_r; lra]). assert (0 <= j * ulp1 <= 1000000 * ulp1) by (split; [apply Rmult_le_pos; lra|apply Rmult_le_compat_r; lra]).
  eapply near_sub with (c := c); [exact X|exact Y|exact C| |]; lra.
Qed.
Lemma product_angle (n : Z) (y : b64) c : (Z.abs n < 2 ^ 53)%Z -> is_finite y = true -> Rabs (IZR n * B2R y) <= c -> c <= 1000000 -> near (fmul (fint n) y) (IZR n * B2R y) ((c + 1) * ulp1).
Proof.
  intros N F C C'. pose proof ulp1_pos. pose proof tiny_ulp. pose proof big_huge. destruct (fint_exact n N) as [V G].
  assert (X : near (fint n) (IZR n) 0) by (rewrite <- V; apply near_exact; exact G).
  eapply near_mul with (A := Rabs (IZR n)) (B := Rabs (B2R y)) (c := c) (d := 0); [exact X|apply near_exact; exact F|lra|lra|rewrite <- Rabs_mult; exact C|lra|lra|lra].
Qed.
Lemma exact_angle (x : b64) : is_finite x = true -> near x (B2R x) (0 * ulp1). Proof. intros F. rewrite Rmult_0_l. apply near_exact. exact F. Qed.

Section Global.
Variables (g : fgeoid) (M : R).
Hypothesis H : global_heights g M.
Local Notation t := (fg_transform g).
Local Notation n := (fr_cols (fg_data g)).
Local Notation A := (B2R (fa_a t)).
Local Notation C := (B2R (fa_c t)).

Lemma columns_small : (1 <= n < 2 ^ 52)%Z /\ 359 <= IZR n * A <= 361 /\ A <= 361.
Proof.
  destruct H as (N & (HM & _) & PA & MA & _ & HN & _ & N1 & _). apply Rabs_def2b in HN || apply Rabs_le_inv in HN.
  assert (1 <= IZR n) by (apply (IZR_le 1); lia). assert (AS : / 1000000000 <= A). { destruct N as (_ & _ & _ & NA & _). rewrite (Rabs_pos_eq A) in NA by lra. lra. }
  split; [|split; [lra|]]; [|assert (1 * A <= IZR n * A) by (apply Rmult_le_compat_r; lra); lra].
  split; [lia|]. apply lt_IZR. assert (IZR n * / 1000000000 <= IZR n * A) by (apply Rmult_le_compat_l; lra). change (IZR (2 ^ 52)) with 4503599627370496. lra.
Qed.
Lemma one_column_more : f_overlap g = mkFRaster (fr_rows (fg_data g)) (n + 1) (fun r c => if (c =? n)%Z then fr_at (fg_data g) r 0 else fr_at (fg_data g) r c).
Proof.
  destruct columns_small as (N1 & N2 & N3). destruct H as (((Fa & _) & _) & (HM & _) & PA & MA & _ & HN & _). apply Rabs_le_inv in HN.
  unfold f_overlap. destruct (fint_exact 360 ltac:(lia)) as [V3 F3]. destruct (flit_exact 6044629098073146 (-79)) as [V8 F8]; [apply fits_dyadic; lia|].
  pose proof (product_angle n (fa_a t) 361 ltac:(lia) Fa ltac:(apply Rabs_le; lra) ltac:(lra)) as P.
  assert (X3 : near (fint 360) 360 (0 * ulp1)) by (rewrite <- V3; apply exact_angle; exact F3).
  pose proof (difference_angle _ _ _ _ _ _ 1 1000 P X3 ltac:(lra) ltac:(lra) ltac:(lra) ltac:(apply Rabs_le; lra) ltac:(lra) ltac:(lra)) as [FD D]. apply Rabs_le_inv in D.
  pose proof q_value. pose proof ulp1_pos.
  unfold f_1e_8. pose proof (ltb_value _ _ FD F8) as L. destruct (Bltb _ _); [reflexivity|]. exfalso. rewrite V8 in L.
  assert (B : bpow radix2 (-79) = / 604462909807314587353088) by exact (ex_pow 79 ltac:(lia)). rewrite B in L. lra.
Qed.
Lemma longitude_in_range (lon : b64) : is_finite lon = true -> first_meridian g - 360 <= B2R lon <= first_meridian g + 720 ->
  exists turn : Z, near (f_geoid_longitude g lon) (B2R lon + 360 * IZR turn) (2200 * ulp1) /\
    first_meridian g - 15 / 10000000000 <= B2R lon + 360 * IZR turn <= first_meridian g + 360 + 15 / 10000000000.
Proof.
  intros FL HL. destruct columns_small as (N1 & N2 & N3). pose proof H as (((Fa & _ & Fc & _) & _) & (HM & _) & PA & MA & _ & HN & HF & _). apply Rabs_le_inv in HN.
  unfold f_geoid_longitude. rewrite one_column_more. cbn [fr_cols]. unfold first_meridian in *.
  set (l := B2R lon) in *. pose proof q_value as QV. pose proof ulp1_pos as Q0. pose proof tiny_ulp as QT. pose proof big_huge as BH.
  destruct (fint_exact 360 ltac:(lia)) as [V3 F3]. destruct (fint_exact 0 ltac:(lia)) as [V0 F0]. destruct (fint_exact 2 ltac:(lia)) as [V2 F2].
  assert (HH : near (fdiv (fa_a t) (fint 2)) (A / 2) (200 * ulp1)).
  { rewrite <- V2. eapply near_div with (c := 185) (d := 0); [apply near_exact; exact Fa|exact F2|rewrite V2; lra|rewrite V2; apply Rabs_le; lra|lra|lra|lra]. }
  assert (MN : near (fadd (fa_c t) (fdiv (fa_a t) (fint 2))) (C + A / 2) (400 * ulp1)).
  { apply (sum_angle _ _ _ _ 0 200 181); [apply exact_angle; exact Fc|exact HH| | | | | |]; try lra. apply Rabs_le; lra. }
  assert (P : near (fmul (fint (n + 1)) (fa_a t)) (IZR (n + 1) * A) (724 * ulp1)).
  { eapply near_weaken; [apply (product_angle (n + 1) (fa_a t) 723); [lia|exact Fa| |lra]|lra]. rewrite plus_IZR. apply Rabs_le; lra. }
  rewrite plus_IZR in P.
  assert (T : near (fadd (fa_c t) (fmul (fint (n + 1)) (fa_a t))) (C + (IZR n + 1) * A) (1600 * ulp1)).
  { apply (sum_angle _ _ _ _ 0 724 800); [apply exact_angle; exact Fc|exact P| | | | | |]; try lra. apply Rabs_le; lra. }
  assert (MX : near (fsub (fadd (fa_c t) (fmul (fint (n + 1)) (fa_a t))) (fdiv (fa_a t) (fint 2))) (C + (IZR n + 1) * A - A / 2) (2600 * ulp1)).
  { apply (difference_angle _ _ _ _ 1600 200 700); [exact T|exact HH| | | | | |]; try lra. apply Rabs_le; lra. }
  set (mn := fadd (fa_c t) (fdiv (fa_a t) (fint 2))) in *. set (mx := fsub (fadd (fa_c t) (fmul (fint (n + 1)) (fa_a t))) (fdiv (fa_a t) (fint 2))) in *. clearbody mn mx. clear T P HH.
  assert (S1 : near (fadd lon mn) (l + (C + A / 2)) (1500 * ulp1)).
  { apply (sum_angle _ _ _ _ 0 400 1000); [apply exact_angle; exact FL|exact MN| | | | | |]; try lra. apply Rabs_le; lra. }
  pose proof (ltb_value _ _ (proj1 S1) F0) as L1. destruct S1 as [_ S1]. apply Rabs_le_inv in S1. rewrite V0 in L1.
  assert (TN : forall b : bool, near (if b then fint 360 else fint 0) (360 * (if b then 1 else 0)) (0 * ulp1)).
  { intros [|]; [replace (360 * 1) with (B2R (fint 360)) by lra|replace (360 * 0) with (B2R (fint 0)) by lra]; apply exact_angle; assumption. }
  set (b1 := Bltb (fadd lon mn) (fint 0)) in *. clearbody b1.
  assert (X1 : near (fadd lon (if b1 then fint 360 else fint 0)) (l + 360 * (if b1 then 1 else 0)) (1081 * ulp1)).
  { apply (sum_angle _ _ _ _ 0 0 1080); [apply exact_angle; exact FL|apply TN| | | | | |]; try lra. apply Rabs_le. destruct b1; lra. }
  set (l1 := fadd lon (if b1 then fint 360 else fint 0)) in *. clearbody l1.
  assert (D : near (fsub l1 mx) (l + 360 * (if b1 then 1 else 0) - (C + (IZR n + 1) * A - A / 2)) (6000 * ulp1)).
  { apply (difference_angle _ _ _ _ 1081 2600 2000); [exact X1|exact MX| | | | | |]; try lra. apply Rabs_le. destruct b1; lra. }
  pose proof (ltb_value _ _ F0 (proj1 D)) as L2. destruct D as [_ D]. apply Rabs_le_inv in D. rewrite V0 in L2. set (b2 := Bltb (fint 0) (fsub l1 mx)) in *. clearbody b2.
  exists ((if b1 then 1 else 0) - (if b2 then 1 else 0))%Z. rewrite minus_IZR.
  split.
  - replace (l + 360 * (IZR (if b1 then 1 else 0) - IZR (if b2 then 1 else 0))) with (l + 360 * (if b1 then 1 else 0) - 360 * (if b2 then 1 else 0)) by (destruct b1, b2; ring).
    apply (difference_angle _ _ _ _ 1081 0 1081); [exact X1|apply TN| | | | | |]; try lra. apply Rabs_le. destruct b1, b2; lra.
  - destruct b1, b2; lra.
Qed.

Lemma overlap_rows : fr_rows (f_overlap g) = fr_rows (fg_data g) /\ fr_cols (f_overlap g) = (n + 1)%Z. Proof. rewrite one_column_more. split; reflexivity. Qed.
Lemma overlap_cell i j : (0 <= i < fr_rows (fg_data g))%Z -> (0 <= j < n + 1)%Z -> fr_at (f_overlap g) i j = fr_at (fg_data g) i (j mod n) /\ (0 <= j mod n < n)%Z.
Proof.
  intros I J. destruct columns_small as (N1 & _). rewrite one_column_more. cbn [fr_at]. split; [|apply Z.mod_pos_bound; lia].
  destruct (Z.eqb_spec j n) as [->|E]; [rewrite Z.mod_same by lia|rewrite Z.mod_small by lia]; reflexivity.
Qed.
Lemma overlap_finite b : heights_up_to b g -> finite_raster (f_overlap g) /\ bounded_by b (f_overlap g).
Proof.
  intros HB. destruct overlap_rows as [R1 R2]. destruct columns_small as (N1 & _). pose proof H as (_ & _ & _ & _ & _ & _ & _ & _ & HR & HFin).
  split; [unfold finite_raster; rewrite R1, R2; split; [lia|split; [lia|]]|]; intros i j [I J]; cbn [real_raster rs_rows rs_cols] in I, J; rewrite R1 in I; rewrite R2 in J; destruct (overlap_cell i j I J) as [E K]; rewrite E; [apply HFin|apply HB]; assumption.
Qed.
Lemma overlap_bilinear i j r c : is_cell (all_around g) i j ->
  is_cell (real_raster (f_overlap g)) i j /\ bilinear_in_cell (real_raster (f_overlap g)) i j r c = bilinear_in_cell (all_around g) i j r c.
Proof.
  intros [I J]. cbn [all_around rs_rows rs_cols] in I, J. destruct overlap_rows as [R1 R2]. split; [split; cbn [real_raster rs_rows rs_cols]; rewrite ?R1, ?R2; assumption|].
  unfold bilinear_in_cell. cbn [real_raster all_around rs_at]. rewrite !(fun a b P Q => proj1 (overlap_cell a b P Q)) by lia. reflexivity.
Qed.
Lemma some_cell r c : in_hull (all_around g) r c -> exists i j, is_cell (all_around g) i j /\ in_cell i j r c.
Proof.
  intros [I J]. cbn [all_around rs_rows rs_cols] in I, J. pose proof H as (_ & _ & _ & _ & _ & _ & _ & N1 & HR & _).
  assert (K : forall (k : Z) x, (2 <= k)%Z -> 0 <= x <= IZR (k - 1) -> exists i, (0 <= i < k - 1)%Z /\ IZR i <= x <= IZR i + 1).
  { intros k x K X. destruct (Rlt_or_le x (IZR (k - 1))) as [L|L].
    - exists (Zfloor x). pose proof (Zfloor_lb x). pose proof (Zfloor_ub x). split; [|lra]. split; [apply Zfloor_lub; lra|]. apply lt_IZR. lra.
    - exists (k - 2)%Z. split; [lia|]. rewrite minus_IZR in *. lra. }
  destruct (K _ _ (proj1 HR) I) as (i & I1 & I2). destruct (K (n + 1)%Z _ ltac:(lia) J) as (j & J1 & J2). exists i, j. repeat split; cbn [all_around rs_rows rs_cols]; tauto || lia.
Qed.
Lemma one_height (evaluate : fraster -> b64 -> b64 -> b64) (b d : R) (lon lat : b64) : heights_up_to b g -> interpolates evaluate b d -> on_the_earth g lon lat ->
  let '(row, col) := fphysical_to_index (faffine_invert t) lat (f_geoid_longitude g lon) in height_found g M d lon lat (f_interpn evaluate (f_overlap g) row col).
Proof.
  intros HB HI (FL & FT & HL & HT). destruct (longitude_in_range lon FL HL) as (turn & [FX X] & BX). destruct columns_small as (N1 & N2 & N3).
  pose proof H as (NU & CA & PA & MA & HF & HN & HM & _ & HR & _). pose proof q_value as QV. pose proof ulp1_pos as Q0.
  set (l := B2R lon + 360 * IZR turn) in *. set (x := f_geoid_longitude g lon) in *. clearbody x. apply Rabs_le_inv in X, HT, HN.
  assert (UL : physical_up_to M (B2R (fa_e t)) (B2R (fa_f t)) lat). { split; [exact FT|]. pose proof (Rle_abs (B2R (fa_f t))). pose proof (Rle_abs (- B2R (fa_f t))) as K. rewrite Rabs_Ropp in K. apply Rabs_le; lra. }
  assert (UX : physical_up_to M A C x). { split; [exact FX|]. rewrite (Rabs_pos_eq A) by lra. unfold first_meridian in *. apply Rabs_le; lra. }
  pose proof (C100_physical_to_index t M lat x NU CA UL UX) as K. destruct (fphysical_to_index (faffine_invert t) lat x) as [row col]. destruct K as [[FR KR] [FC KC]].
  rewrite rounding_4 in KR, KC.
  assert (Mp : 1 <= M) by (destruct CA as [[? ?] _]; lra).
  assert (KC' : Rabs (B2R col - index_of A C l) <= 32 * ulp1 * M).
  { replace (B2R col - index_of A C l) with ((B2R col - index_of A C (B2R x)) + (B2R x - l) / A) by (unfold index_of; field; lra). eapply Rle_trans; [apply Rabs_triang|].
    assert (Rabs ((B2R x - l) / A) <= 4 * ulp1 * M).
    { unfold Rdiv. rewrite Rabs_mult, (Rabs_pos_eq (/ A)) by (left; apply Rinv_0_lt_compat; lra). apply Rmult_le_reg_r with A; [lra|]. rewrite Rmult_assoc, Rinv_l by lra. rewrite Rmult_1_r.
      assert (4 * ulp1 * 720 <= 4 * ulp1 * (M * A)) by (apply Rmult_le_compat_l; lra). apply Rabs_le; lra. }
    assert (0 <= ulp1 * M) by (apply Rmult_le_pos; lra). lra. }
  exists turn, (B2R row), (B2R col). cbv zeta. fold l. rewrite rounding_4, rounding_5.
  split; [lra|]. split; [exact KR|]. split; [exact KC'|].
  assert (CL : (index_of A C l + / 2) * A = l - C) by (unfold index_of; field; lra).
  assert (UA : 32 * ulp1 * M * A <= 4 / 1000000000000) by (assert (32 * ulp1 * (M * A) <= 32 * ulp1 * 1000) by (apply Rmult_le_compat_l; lra); lra).
  apply Rabs_le_inv in KC', KR. destruct overlap_rows as [R1 R2]. unfold f_interpn. rewrite R1, R2. replace (n + 1 - 1)%Z with n by lia.
  destruct (fint_exact 0 ltac:(lia)) as [V0 F0]. destruct (fint_exact (fr_rows (fg_data g) - 1) ltac:(lia)) as [V1 F1]. destruct (fint_exact n ltac:(lia)) as [V2 F2].
  pose proof (ltb_value _ _ FR F0) as T1. pose proof (ltb_value _ _ F1 FR) as T2. pose proof (ltb_value _ _ FC F0) as T3. pose proof (ltb_value _ _ F2 FC) as T4. rewrite V0, ?V1, ?V2 in *.
  destruct (Bltb row (fint 0)); [right; split; [reflexivity|right; left; lra]|]. destruct (Bltb (fint (fr_rows (fg_data g) - 1)) row); [right; split; [reflexivity|right; right; lra]|].
  destruct (Bltb col (fint 0)).
  { right. split; [reflexivity|]. left. left. unfold first_meridian in *. assert ((index_of A C l + / 2) * A <= (32 * ulp1 * M + / 2) * A) by (apply Rmult_le_compat_r; lra). apply Rabs_le. lra. }
  destruct (Bltb (fint n) col).
  { right. split; [reflexivity|]. left. right. unfold first_meridian in *. assert ((IZR n - 32 * ulp1 * M + / 2) * A <= (index_of A C l + / 2) * A) by (apply Rmult_le_compat_r; lra). apply Rabs_le. lra. }
  left. cbn [orb]. assert (IH : in_hull (all_around g) (B2R row) (B2R col)) by (split; cbn [all_around rs_rows rs_cols]; [lra|replace (n + 1 - 1)%Z with n by lia; lra]).
  destruct (overlap_finite b HB) as [OF OB].
  assert (E : forall i j, is_cell (all_around g) i j -> in_cell i j (B2R row) (B2R col) -> is_finite (evaluate (f_overlap g) row col) = true /\
    Rabs (B2R (evaluate (f_overlap g) row col) - bilinear_in_cell (all_around g) i j (B2R row) (B2R col)) <= d).
  { intros i j Ic In. destruct (overlap_bilinear i j (B2R row) (B2R col) Ic) as [Ic' <-]. apply HI; assumption. }
  destruct (some_cell _ _ IH) as (i & j & Ic & In). split; [apply (E i j Ic In)|]. split; [exact IH|]. intros i' j' Ic' In'. apply (E i' j' Ic' In').
Qed.
End Global.

Lemma beyond_a_pole (lat : b64) : is_finite lat = true -> Bltb (fint 90) (Babs lat) = true <-> 90 < Rabs (B2R lat).
Proof.
  intros F. destruct (fint_exact 90 ltac:(lia)) as [V G]. rewrite Bltb_correct by (try rewrite is_finite_Babs; assumption). rewrite V, B2R_Babs. destruct (Rlt_bool_spec 90 (Rabs (B2R lat))); split; try easy; lra.
Qed.
(** Each position of the Earth has its own height, the bilinear one at its longitude modulo 360 degrees; the positions without a height are on the
    first meridian, or on the limits of the rows. *)
Theorem C108_heights_partial :
  forall evaluate g m b d positions, global_heights g m -> heights_up_to b g -> interpolates evaluate b d ->
  (forall lon lat, In (lon, lat) positions -> on_the_earth g lon lat) ->
  exists heights, f_geoid_heights evaluate g positions = Some heights /\
    Forall2 (fun p h => height_found g m d (fst p) (snd p) h) positions heights.
Proof.
  intros evaluate g m b d ps HG HB HI HP. unfold f_geoid_heights. cbv zeta. replace (existsb _ _) with false.
  2:{ symmetry. apply not_true_iff_false. intros EX. apply existsb_exists in EX. destruct EX as (q & Hq & HX). apply in_map_iff in Hq. destruct Hq as ([lon lat] & <- & Hin). cbn [fst snd] in HX.
      destruct (HP lon lat Hin) as (_ & F & _ & B). apply (beyond_a_pole lat F) in HX. lra. }
  eexists. split; [reflexivity|]. rewrite map_map. cbn [fst snd]. induction ps as [|[lon lat] ps IH]; constructor.
  - pose proof (one_height g m HG evaluate b d lon lat HB HI (HP lon lat (or_introl eq_refl))) as K. cbn [fst snd]. destruct (fphysical_to_index _ _ _) as [row col]. exact K.
  - apply IH. intros lon' lat' Hin. apply HP. right. exact Hin.
Qed.
(** Out of the first meridian and of the limits of the rows, there is a height. *)
Theorem C108_has_a_height :
  forall evaluate g m b d positions, global_heights g m -> heights_up_to b g -> interpolates evaluate b d ->
  (forall lon lat, In (lon, lat) positions -> on_the_earth g lon lat) ->
  exists heights, f_geoid_heights evaluate g positions = Some heights /\ length heights = length positions /\
    forall k lon lat, nth_error positions k = Some (lon, lat) ->
      (forall turn : Z, 2 / 1000000000 < Rabs (B2R lon + 360 * IZR turn - first_meridian g)) ->
      rounding 4 * m < index_of (B2R (fa_e (fg_transform g))) (B2R (fa_f (fg_transform g))) (B2R lat) < IZR (fr_rows (fg_data g) - 1) - rounding 4 * m ->
      exists h, nth_error heights k = Some h /\ is_finite h = true.
Proof.
  intros evaluate g m b d ps HG HB HI HP. destruct (C108_heights_partial evaluate g m b d ps HG HB HI HP) as (hs & E & F). exists hs. split; [exact E|]. clear - F.
  split; [induction F as [|p h l l' P F IH]; cbn; congruence|]. intros k lon lat N HL HR.
  assert (K : exists h, nth_error hs k = Some h /\ height_found g m d lon lat h).
  { revert k N. induction F as [|p h l l' P F IH]; intros [|k] N; cbn in N; try discriminate N; [injection N as ->; exists h; split; [reflexivity|exact P]|apply IH; exact N]. }
  destruct K as (h & Eh & turn & row & col & _ & _ & _ & [K|[_ [[K|K]|[K|K]]]]); exists h; (split; [exact Eh|]).
  - apply K.
  - specialize (HL turn). lra.
  - specialize (HL (turn - 1)%Z). rewrite minus_IZR in HL. replace (B2R lon + 360 * (IZR turn - 1) - first_meridian g) with (B2R lon + 360 * IZR turn - (first_meridian g + 360)) in HL by ring. lra.
  - lra.
  - lra.
Qed.
(** A latitude beyond a pole is refused, for the whole array, and only that. *)
Theorem C108_beyond_a_pole :
  forall evaluate g positions, (forall p, In p positions -> is_finite (snd p) = true) ->
  f_geoid_heights evaluate g positions = None <-> exists p, In p positions /\ 90 < Rabs (B2R (snd p)).
Proof.
  intros evaluate g ps HF. unfold f_geoid_heights. cbv zeta. destruct (existsb _ _) eqn:EX.
  - split; [|reflexivity]. intros _. apply existsb_exists in EX. destruct EX as (q & Hq & HX). apply in_map_iff in Hq. destruct Hq as (p & <- & Hin). exists p. split; [exact Hin|]. apply (beyond_a_pole (snd p) (HF p Hin)); exact HX.
  - split; [discriminate|]. intros (p & Hin & HX). exfalso. apply not_true_iff_false in EX. apply EX. apply existsb_exists. exists (f_geoid_longitude g (fst p), snd p). split; [apply in_map_iff; exists p; auto|]. apply (beyond_a_pole (snd p) (HF p Hin)); exact HX.
Qed.

(** A geoid of 601 x 1200 cells of 0.3 degree, whose first column is at the longitude 0. *)
Definition ex_heights : fgeoid :=
  FGeoid (FAff (flit 5404319552844595 (-54)) (fint 0) (flit (-5404319552844595) (-55)) (fint 0) (flit (-5404319552844595) (-54)) (flit 3171871143808205 (-45)))
         (mkFRaster 601 1200 (fun i j => fint (i + j))).
Lemma ex_heights_values : let t := fg_transform ex_heights in
  B2R (fa_a t) = 5404319552844595 / 18014398509481984 /\ B2R (fa_c t) = - (5404319552844595 / 36028797018963968) /\
  B2R (fa_e t) = - (5404319552844595 / 18014398509481984) /\ B2R (fa_f t) = 3171871143808205 / 35184372088832.
Proof.
  cbn [ex_heights fg_transform fa_a fa_c fa_e fa_f]. rewrite !(fun a e P => proj1 (flit_exact a e P)) by (apply fits_dyadic; lia).
  assert (B1 : bpow radix2 (-54) = / 18014398509481984) by exact (ex_pow 54 ltac:(lia)). assert (B2 : bpow radix2 (-55) = / 36028797018963968) by exact (ex_pow 55 ltac:(lia)). assert (B3 : bpow radix2 (-45) = / 35184372088832) by exact (ex_pow 45 ltac:(lia)).
  rewrite B1, B2, B3. repeat split; lra.
Qed.
Lemma ex_heights_global : global_heights ex_heights 3000 /\ heights_up_to 2000 ex_heights.
Proof.
  destruct ex_heights_values as (VA & VC & VE & VF). destruct (fint_exact 0 ltac:(lia)) as [V0 F0].
  assert (FI : forall i j, (0 <= i < 601)%Z -> (0 <= j < 1200)%Z -> B2R (fint (i + j)) = IZR (i + j) /\ is_finite (fint (i + j)) = true) by (intros i j I J; apply fint_exact; lia).
  assert (PA : Rabs (B2R (fa_a (fg_transform ex_heights))) = 5404319552844595 / 18014398509481984) by (rewrite VA; apply Rabs_pos_eq; lra).
  assert (PE : Rabs (B2R (fa_e (fg_transform ex_heights))) = 5404319552844595 / 18014398509481984) by (rewrite VE, Rabs_Ropp; apply Rabs_pos_eq; lra).
  assert (PC : Rabs (B2R (fa_c (fg_transform ex_heights))) <= 1) by (rewrite VC; apply Rabs_le; lra). assert (PF : Rabs (B2R (fa_f (fg_transform ex_heights))) <= 91) by (rewrite VF; apply Rabs_le; lra).
  split.
  - unfold global_heights, north_up, cells_away, first_meridian. cbv zeta. rewrite VC in PC. rewrite PA, PE, VA, VC. split; [|split; [lra|split; [lra|split; [lra|split; [lra|split; [|split; [lra|split; [cbn; lia|split; [cbn; lia|]]]]]]]]].
    + split; [repeat split; vm_compute; reflexivity|]. cbn [ex_heights fg_transform fa_b fa_d]. rewrite V0. lra.
    + cbn [ex_heights fg_data fr_cols]. apply Rabs_le; lra.
    + intros i j I J. apply FI; assumption.
  - intros i j I J. cbn [ex_heights fg_data fr_at]. rewrite (proj1 (FI i j I J)). cbn in I, J. apply Rabs_le. split; [apply (IZR_le (-2000))|apply IZR_le]; lia.
Qed.
(** The positions of its first meridian have no height, although their column is exactly the first one. *)
Theorem C108_first_meridian_refuted :
  exists g m lon lat, global_heights g m /\ on_the_earth g lon lat /\ let t := fg_transform g in
    index_of (B2R (fa_a t)) (B2R (fa_c t)) (B2R lon) = 0 /\ 100 <= index_of (B2R (fa_e t)) (B2R (fa_f t)) (B2R lat) <= IZR (fr_rows (fg_data g)) - 100 /\
    forall evaluate, f_geoid_heights evaluate g [(lon, lat)] = Some [B754_nan].
Proof.
  exists ex_heights, 3000, (fint 0), (fint 43). destruct ex_heights_values as (VA & VC & VE & VF). destruct (fint_exact 0 ltac:(lia)) as [V0 F0]. destruct (fint_exact 43 ltac:(lia)) as [V4 F4].
  split; [apply ex_heights_global|]. split; [unfold on_the_earth, first_meridian; rewrite VA, VC, V0, V4; repeat split; try assumption; try lra; apply Rabs_le; lra|].
  cbv zeta. rewrite VA, VC, VE, VF, V0, V4. split; [unfold index_of; lra|]. split; [unfold index_of; cbn [ex_heights fg_data fr_rows]; replace ((43 - 3171871143808205 / 35184372088832) / - (5404319552844595 / 18014398509481984)) with ((3171871143808205 / 35184372088832 - 43) * (18014398509481984 / 5404319552844595)) by field; lra|]. intros evaluate. vm_compute. reflexivity.
Qed.
(** A geoid of 1081 x 2160 cells of ten minutes, whose size is written with sixteen digits; its first row is on the pole within 1e-12 cell. *)
Definition ten_minutes : fgeoid :=
  FGeoid (FAff (flit 6004799503160663 (-55)) (fint 0) (flit (-6336119006997163) (-45)) (fint 0) (flit (-6004799503160663) (-55)) (flit 6339051038004565 (-46)))
         (mkFRaster 1081 2160 (fun i j => fint (i + j))).
Lemma ten_minutes_values : let t := fg_transform ten_minutes in
  B2R (fa_a t) = 6004799503160663 / 36028797018963968 /\ B2R (fa_c t) = - (6336119006997163 / 35184372088832) /\ B2R (fa_e t) = - (6004799503160663 / 36028797018963968) /\ B2R (fa_f t) = 6339051038004565 / 70368744177664.
Proof.
  cbn [ten_minutes fg_transform fa_a fa_c fa_e fa_f]. rewrite !(fun a e P => proj1 (flit_exact a e P)) by (apply fits_dyadic; lia).
  assert (B1 : bpow radix2 (-55) = / 36028797018963968) by exact (ex_pow 55 ltac:(lia)). assert (B2 : bpow radix2 (-45) = / 35184372088832) by exact (ex_pow 45 ltac:(lia)). assert (B3 : bpow radix2 (-46) = / 70368744177664) by exact (ex_pow 46 ltac:(lia)).
  rewrite B1, ?B2, ?B3. repeat split; lra.
Qed.
(** The pole has no height, at any of these longitudes. *)
Theorem C108_pole_refuted :
  exists g m lat, global_heights g m /\ (forall k, (0 <= k < 360)%Z -> on_the_earth g (fint k) lat) /\ B2R lat = 90 /\ let t := fg_transform g in
    Rabs (index_of (B2R (fa_e t)) (B2R (fa_f t)) (B2R lat)) <= / 1000000000000 /\
    forall evaluate, f_geoid_heights evaluate g [(fint 0, lat); (fint 5, lat); (fint 90, lat); (fint 180, lat); (fint 270, lat)] = Some [B754_nan; B754_nan; B754_nan; B754_nan; B754_nan].
Proof.
  exists ten_minutes, 5000, (fint 90). destruct ten_minutes_values as (VA & VC & VE & VF). destruct (fint_exact 0 ltac:(lia)) as [V0 F0]. destruct (fint_exact 90 ltac:(lia)) as [V9 F9].
  split; [|split; [|split; [exact V9|]]].
  - assert (FI : forall i j, (0 <= i < 1081)%Z -> (0 <= j < 2160)%Z -> is_finite (fint (i + j)) = true) by (intros i j I J; apply fint_exact; lia).
    assert (PA : Rabs (B2R (fa_a (fg_transform ten_minutes))) = 6004799503160663 / 36028797018963968) by (rewrite VA; apply Rabs_pos_eq; lra).
    assert (PE : Rabs (B2R (fa_e (fg_transform ten_minutes))) = 6004799503160663 / 36028797018963968) by (rewrite VE, Rabs_Ropp; apply Rabs_pos_eq; lra).
    assert (PC : Rabs (B2R (fa_c (fg_transform ten_minutes))) <= 181) by (rewrite VC; apply Rabs_le; lra). assert (PF : Rabs (B2R (fa_f (fg_transform ten_minutes))) <= 91) by (rewrite VF; apply Rabs_le; lra).
    unfold global_heights, north_up, cells_away, first_meridian. cbv zeta. rewrite VC in PC. rewrite PA, PE, VA, VC. split; [|split; [lra|split; [lra|split; [lra|split; [lra|split; [|split; [lra|split; [cbn; lia|split; [cbn; lia|]]]]]]]]].
    + split; [repeat split; vm_compute; reflexivity|]. cbn [ten_minutes fg_transform fa_b fa_d]. rewrite V0. lra.
    + cbn [ten_minutes fg_data fr_cols]. apply Rabs_le; lra.
    + intros i j I J. apply FI; assumption.
  - intros k K. destruct (fint_exact k ltac:(lia)) as [VK FK]. assert (0 <= IZR k <= 360) by (split; apply IZR_le; lia).
    unfold on_the_earth, first_meridian. rewrite VA, VC, VK, V9. repeat split; try assumption; try lra; apply Rabs_le; lra.
  - cbv zeta. rewrite VE, VF, V9. split; [|intros evaluate; vm_compute; reflexivity].
    unfold index_of. replace ((90 - 6339051038004565 / 70368744177664) / - (6004799503160663 / 36028797018963968)) with ((6339051038004565 / 70368744177664 - 90) * (36028797018963968 / 6004799503160663)) by field. apply Rabs_le; lra.
Qed.
Example C108_case :
  let evaluate := fun m row col => match library_interp m row col with Some v => v | None => B754_nan end in
  global_heights ex_heights 3000 /\ heights_up_to 2000 ex_heights /\ interpolates evaluate 2000 (bpow radix2 (-48) * 2000) /\
  on_the_earth ex_heights (fint 5) (fint 43) /\ on_the_earth ex_heights (fint (-355)) (fint 43) /\
  exists h, f_geoid_heights evaluate ex_heights [(fint 5, fint 43); (fint (-355), fint 43); (fint 365, fint 43)] = Some [h; h; h] /\ 173 < B2R h < 174 /\
  f_geoid_heights evaluate ex_heights [(fint 5, fint 43); (fint 5, fint 91)] = None.
Proof.
  intros evaluate. destruct ex_heights_values as (VA & VC & VE & VF). destruct (fint_exact 5 ltac:(lia)) as [V5 F5]. destruct (fint_exact 43 ltac:(lia)) as [V4 F4]. destruct (fint_exact (-355) ltac:(lia)) as [V3 F3].
  split; [apply ex_heights_global|]. split; [apply ex_heights_global|]. split; [|split; [|split]].
  - intros m row col i j HF HB Fr Fc Ic In. assert (B2 : bpow radix2 (-900) <= 2000 <= bpow radix2 1000).
    { split; [apply Rle_trans with (bpow radix2 0); [apply bpow_le; lia|cbn; lra]|apply Rle_trans with (bpow radix2 11); [cbn; lra|apply bpow_le; lia]]. }
    destruct (C85_rounding_error m 2000 row col i j HF HB B2 Fr Fc Ic In) as (v & E & Fv & D). unfold evaluate. rewrite E. split; assumption.
  - unfold on_the_earth, first_meridian. rewrite VA, VC, V5, V4. repeat split; try assumption; try lra; apply Rabs_le; lra.
  - unfold on_the_earth, first_meridian. rewrite VA, VC, V3, V4. repeat split; try assumption; try lra; apply Rabs_le; lra.
  - destruct (fint_exact 173 ltac:(lia)) as [W1 G1]. destruct (fint_exact 174 ltac:(lia)) as [W2 G2].
    assert (K : match f_geoid_heights evaluate ex_heights [(fint 5, fint 43); (fint (-355), fint 43); (fint 365, fint 43)] with
                | Some [h; h'; h''] => is_finite h && Bltb (fint 173) h && Bltb h (fint 174) && b_eqb h h' && b_eqb h h'' | _ => false end = true) by (vm_compute; reflexivity).
    destruct (f_geoid_heights evaluate ex_heights [(fint 5, fint 43); (fint (-355), fint 43); (fint 365, fint 43)]) as [[|h [|h' [|h'' [|]]]]|]; try discriminate K.
    apply andb_prop in K. destruct K as [K E2]. apply andb_prop in K. destruct K as [K E1]. apply andb_prop in K. destruct K as [K L2]. apply andb_prop in K. destruct K as [Fh L1].
    apply b_eqb_eq in E1, E2. subst h' h''. exists h. split; [reflexivity|]. pose proof (ltb_value _ _ G1 Fh) as K1. pose proof (ltb_value _ _ Fh G2) as K2. rewrite L1 in K1. rewrite L2 in K2. split; [lra|]. vm_compute. reflexivity.
Qed.
Example C108_has_a_height_case :
  (forall turn : Z, 2 / 1000000000 < Rabs (B2R (fint 5) + 360 * IZR turn - first_meridian ex_heights)) /\
  let t := fg_transform ex_heights in rounding 4 * 3000 < index_of (B2R (fa_e t)) (B2R (fa_f t)) (B2R (fint 43)) < IZR (fr_rows (fg_data ex_heights) - 1) - rounding 4 * 3000.
Proof.
  destruct ex_heights_values as (VA & VC & VE & VF). destruct (fint_exact 5 ltac:(lia)) as [V5 F5]. destruct (fint_exact 43 ltac:(lia)) as [V4 F4]. split.
  - intros turn. unfold first_meridian. rewrite VA, VC, V5. replace (5 + 360 * IZR turn - _) with (IZR (5 + 360 * turn)) by (rewrite plus_IZR, mult_IZR; lra).
    rewrite <- abs_IZR. assert (1 <= IZR (Z.abs (5 + 360 * turn))) by (apply (IZR_le 1); lia). lra.
  - cbv zeta. rewrite VE, VF, V4, rounding_4. pose proof q_value. pose proof ulp1_pos. unfold index_of. cbn [ex_heights fg_data fr_rows].
    replace ((43 - 3171871143808205 / 35184372088832) / - (5404319552844595 / 18014398509481984)) with ((3171871143808205 / 35184372088832 - 43) * (18014398509481984 / 5404319552844595)) by field.
    change (601 - 1)%Z with 600%Z. lra.
Qed.
