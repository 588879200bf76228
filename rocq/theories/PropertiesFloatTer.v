(** C101: ground positions in physical coordinates, in binary64. *)
From Coq Require Import ZArith Reals Bool List Lia Lra Psatz.
From Flocq Require Import Core BinarySingleNaN.
From Verif Require Import Num InterpModel InterpSpec InterpProofs FloatModel FloatInterpModel Float FloatErr FloatRpc FloatInterp FloatWalkModel FloatWalkSpec FloatWalk FloatRefine
  PropertiesFloat2 PropertiesFloatWalk PropertiesFloatPoint FloatGeoModel FloatGeoSpec FloatGeo PropertiesFloatGeo FloatTerModel FloatTerSpec FloatTer.
Import ListNotations.
Open Scope R_scope.

(** A position returned inside of the DTM comes from an index that is its exact index up to 2^-48 times the number of cells to
    the origin. *)
Lemma behind (t : faffine) (M : R) (p : fvec3) : north_up t -> cells_away t M -> M <= 250000000 ->
  let q := findex_to_ter t p in finite_position q ->
  Rabs (exact_row t q + / 2) <= M -> Rabs (exact_col t q + / 2) <= M ->
  is_finite (fv_row p) = true /\ is_finite (fv_col p) = true /\
  Rabs (exact_row t q - B2R (fv_row p)) <= rounding 5 * M /\ Rabs (exact_col t q - B2R (fv_col p)) <= rounding 5 * M.
Proof.
  intros N H HM4 q (FX & FY & FZ) HR HC. pose proof N as ((Fa & Fb & Fc & Fd & Fe & Ff) & B & D & A & E). pose proof H as (HM & C & F).
  assert (X0 : forall s o v : R, / 1000000000 <= Rabs s -> Rabs (index_of s o v + / 2) <= M -> Rabs (v - o) <= M * Rabs s).
  { intros s o v S I. unfold index_of in I. assert (NZ : s <> 0) by (intros ->; rewrite Rabs_R0 in S; lra).
    replace (v - o) with (((v - o) / s - / 2 + / 2) * s) by (field; exact NZ). rewrite Rabs_mult. apply Rmult_le_compat_r; [apply Rabs_pos|exact I]. }
  pose proof (X0 _ _ _ (proj1 E) HR) as BY. pose proof (X0 _ _ _ (proj1 A) HC) as BX. clear X0.
  assert (QE : q = let '(lat, lon) := findex_to_physical t (fv_row p) (fv_col p) in FTer lon lat (fv_alt p)) by reflexivity.
  unfold findex_to_physical, faffine_apply in QE. rewrite QE in FX, FY. cbn [ft_lon ft_lat] in FX, FY.
  set (u := fadd (fv_col p) half) in *. set (v := fadd (fv_row p) half) in *.
  destruct (fadd_args _ _ FX) as [FX1 _]. destruct (fadd_args _ _ FX1) as [FX2 FX3]. destruct (fmul_args _ _ FX2) as [FU _]. destruct (fmul_args _ _ FX3) as [FV _].
  destruct (fadd_args _ _ FY) as [FY1 _]. destruct (fadd_args _ _ FY1) as [FY2 FY3].
  destruct (add_zero_term (fmul u (fa_a t)) v (fa_b t) FX2 FV Fb B) as [V1 _]. destruct (add_zero_term_l (fmul v (fa_e t)) u (fa_d t) FY3 FU Fd D) as [V2 _].
  assert (EX : B2R (ft_lon q) = B2R (fadd (fmul u (fa_a t)) (fa_c t)) /\ is_finite (fadd (fmul u (fa_a t)) (fa_c t)) = true).
  { rewrite QE. cbn [ft_lon]. rewrite (fadd_value _ _ FX), V1. destruct (fadd_round (fmul u (fa_a t)) (fa_c t) FX2 Fc) as [Z1 Z2].
    - rewrite <- V1, <- (fadd_value _ _ FX). apply abs_B2R_lt_emax.
    - split; [symmetry; exact Z1|exact Z2]. }
  assert (EY : B2R (ft_lat q) = B2R (fadd (fmul v (fa_e t)) (fa_f t)) /\ is_finite (fadd (fmul v (fa_e t)) (fa_f t)) = true).
  { rewrite QE. cbn [ft_lat]. rewrite (fadd_value _ _ FY), V2. destruct (fadd_round (fmul v (fa_e t)) (fa_f t) FY3 Ff) as [Z1 Z2].
    - rewrite <- V2, <- (fadd_value _ _ FY). apply abs_B2R_lt_emax.
    - split; [symmetry; exact Z1|exact Z2]. }
  destruct EX as [EX EX']. destruct EY as [EY EY'].
  destruct (index_behind M (fv_row p) (fa_e t) (fa_f t) (ft_lat q) (conj (proj1 HM) HM4) E F ltac:(rewrite QE; exact FY) EY EY' BY) as [FR BR].
  destruct (index_behind M (fv_col p) (fa_a t) (fa_c t) (ft_lon q) (conj (proj1 HM) HM4) A C ltac:(rewrite QE; exact FX) EX EX' BX) as [FC BC].
  split; [exact FR|]. split; [exact FC|].
  assert (H4 : cells_away t (4 * M)).
  { split; [lra|]. split; [eapply Rle_trans; [exact C|]|eapply Rle_trans; [exact F|]]; apply Rmult_le_compat_r; try apply Rabs_pos; lra. }
  pose proof (C100_index_to_physical t (4 * M) (fv_row p) (fv_col p) N H4 (conj FR BR) (conj FC BC)) as PH.
  assert (QQ : findex_to_physical t (fv_row p) (fv_col p) = (ft_lat q, ft_lon q)) by (rewrite QE; reflexivity). rewrite QQ in PH. clear QQ QE.
  destruct PH as [[_ PY] [_ PX]]. rewrite rounding_3 in PY, PX. rewrite rounding_5. unfold physical_of in *.
  assert (W : forall s o i x : R, / 1000000000 <= Rabs s -> Rabs (x - (o + s * (i + / 2))) <= 8 * ulp1 * (4 * M) * Rabs s -> Rabs (index_of s o x - i) <= 32 * ulp1 * M).
  { intros s o i x S L. assert (NZ : s <> 0) by (intros ->; rewrite Rabs_R0 in S; lra). unfold index_of.
    replace ((x - o) / s - / 2 - i) with ((x - (o + s * (i + / 2))) / s) by (field; exact NZ). unfold Rdiv. rewrite Rabs_mult, Rabs_inv.
    apply Rmult_le_reg_r with (Rabs s); [lra|]. rewrite Rmult_assoc, Rinv_l by lra. lra. }
  split; [exact (W _ _ _ _ (proj1 E) PY)|exact (W _ _ _ _ (proj1 A) PX)].
Qed.

(** The altitude of the ground position is the one of the DTM at its own longitude and latitude: the exact bilinear surface at
    the exact index of the position, up to the tolerance of 0.1 mm and to the rounding of the conversions.  98304 m per cell
    bounds the slope of the terrains between -16384 m and 16384 m. *)
Theorem C101_ground_on_the_surface :
  forall m t M fuel cells steps los q i j,
  usual_terrain m -> north_up t -> cells_away t M -> cells_across m M -> M <= 250000000 ->
  fground_position m t fuel cells steps los = GPoint q -> finite_position q ->
  is_cell (real_raster m) i j -> in_cell i j (exact_row t q) (exact_col t q) ->
  Rabs (bilinear_in_cell (real_raster m) i j (exact_row t q) (exact_col t q) - B2R (ft_alt q)) <= / 10000 + 2 / 1000000000 + 98304 * (2 * rounding 5 * M).
Proof.
  intros m t M fuel cells steps los q i j U N H [CR CC] HM4 G FQ [C1 C2] I. pose proof I as [I1 I2]. cbn in C1, C2. pose proof (proj1 H) as HM.
  unfold fground_position in G. destruct (flocate m fuel cells steps _) as [[p| | |]|] eqn:EL; try discriminate G. injection G as G.
  assert (P : forall k n, (0 <= k < n - 1)%Z -> 0 <= IZR k /\ IZR k + 2 <= IZR n).
  { intros k n Hk. split; [apply IZR_le; lia|]. rewrite <- plus_IZR. apply IZR_le. lia. }
  destruct (P _ _ C1) as [P1 P2]. destruct (P _ _ C2) as [P3 P4].
  destruct (behind t M p N H HM4) as (FR & FC & DR & DC); rewrite ?G; try assumption; try (apply Rabs_le; lra). rewrite G in DR, DC.
  assert (FZ : is_finite (fv_alt p) = true /\ fv_alt p = ft_alt q).
  { assert (Z : fv_alt p = ft_alt q) by (rewrite <- G; unfold findex_to_ter; destruct (findex_to_physical t _ _); reflexivity). split; [rewrite Z; apply FQ|exact Z]. }
  destruct FZ as [FZ EZ]. rewrite <- EZ. clear EZ.
  set (d := rounding 5 * M) in *. assert (D1 : 0 <= d <= / 1000).
  { unfold d. rewrite rounding_5. pose proof ulp1_pos. pose proof ulp1_tiny. split; [apply Rmult_le_pos; lra|nra]. }
  apply Rabs_le_inv in DR, DC.
  destruct (C97_on_the_surface _ _ _ _ _ _ EL) as (z & E & Z).
  destruct (interp_near m (fv_row p) (fv_col p) U FR FC) as (z' & E' & [Fz NZ]); [lra|lra|]. rewrite E in E'. injection E' as <-. specialize (Z Fz FZ).
  assert (S : surf m (exact_row t q) (exact_col t q) = bilinear_in_cell (real_raster m) i j (exact_row t q) (exact_col t q)).
  { rewrite <- (interp_in_cell (real_raster m) i j) by (assumption || now split). reflexivity. }
  rewrite <- S. pose proof (surf_lipschitz m U (exact_row t q) (exact_col t q) (B2R (fv_row p)) (B2R (fv_col p)) ltac:(lra) ltac:(lra) ltac:(lra) ltac:(lra)) as L.
  assert (L2 : slope * (Rabs (exact_row t q - B2R (fv_row p)) + Rabs (exact_col t q - B2R (fv_col p))) <= 98304 * (2 * d)).
  { unfold slope, top. replace (6 * 16384) with 98304 by lra. apply Rmult_le_compat_l; [lra|].
    assert (Rabs (exact_row t q - B2R (fv_row p)) <= d) by (apply Rabs_le; lra). assert (Rabs (exact_col t q - B2R (fv_col p)) <= d) by (apply Rabs_le; lra). lra. }
  replace (2 * rounding 5 * M) with (2 * d) by (unfold d; ring).
  apply Rabs_le_inv in Z, NZ. assert (L3 := Rle_trans _ _ _ L L2). apply Rabs_le_inv in L3. apply Rabs_le. lra.
Qed.

(** The line that is intersected is the one that is given, and the position that is found is given back. *)
Theorem C101_intersection :
  forall m t M fuel cells steps los, north_up t -> cells_away t M -> Forall (near_the_raster t M) los ->
  intersection_of m t M fuel cells steps los (fground_position m t fuel cells steps los).
Proof.
  intros m t M fuel cells steps los N H F. exists (map (fter_to_index (faffine_invert t)) los). split.
  - induction F as [|v los [V1 V2] F IH]; cbn [map]; constructor; [|exact IH]. pose proof (C100_physical_to_index t M (ft_lat v) (ft_lon v) N H V1 V2) as C. unfold fter_to_index.
    destruct (fphysical_to_index _ _ _) as [row col]. destruct C as [C1 C2]. split; [exact C1|]. split; [exact C2|reflexivity].
  - unfold fground_position. destruct (flocate m fuel cells steps _) as [[p| | |]|]; try reflexivity. exists (findex_to_ter t p). split; [reflexivity|]. unfold findex_to_ter, ground_of.
    split; [destruct (findex_to_physical _ _ _); reflexivity|]. intros I1 I2. pose proof (C100_index_to_physical t M _ _ N H I1 I2) as C. destruct (findex_to_physical _ _ _) as [y x]. exact C.
Qed.

(** The line of sight of C96 over the slope, in cells of a third of a metre: a point is found, its coordinates are finite and
    it is over the first cell. *)
Definition ex_ter : list fter := map (findex_to_ter ex_geo) ex_los.
Definition ex_position : option fter := match fground_position ex_slope ex_geo 20 9 4 ex_ter with GPoint q => Some q | _ => None end.
Definition ex_in (lo hi x : b64) : bool := is_finite x && Bleb lo x && Bleb x hi.
Lemma ex_in_spec (lo hi x : b64) : is_finite lo = true -> is_finite hi = true -> ex_in lo hi x = true -> is_finite x = true /\ B2R lo <= B2R x <= B2R hi.
Proof.
  unfold ex_in. rewrite !andb_true_iff. intros L H ((F & A) & B). split; [exact F|]. rewrite Bleb_correct in A, B by assumption.
  destruct (Rle_bool_spec (B2R lo) (B2R x)); [|discriminate]. destruct (Rle_bool_spec (B2R x) (B2R hi)); [|discriminate]. split; assumption.
Qed.
Example C101_found :
  exists q, fground_position ex_slope ex_geo 20 9 4 ex_ter = GPoint q /\ finite_position q /\
    usual_terrain ex_slope /\ north_up ex_geo /\ cells_away ex_geo 200 /\ cells_across ex_slope 200 /\
    is_cell (real_raster ex_slope) 0 0 /\ in_cell 0 0 (exact_row ex_geo q) (exact_col ex_geo q).
Proof.
  assert (K : match ex_position with
              | Some q => ex_in (flit 7578 (-10)) (flit 7680 (-10)) (ft_lon q) && ex_in (flit 1393 (-5)) (flit 5609 (-7)) (ft_lat q) && ex_in (fint 99) (fint 102) (ft_alt q)
              | None => false end = true) by (vm_compute; reflexivity).
  unfold ex_position in K. destruct (fground_position ex_slope ex_geo 20 9 4 ex_ter) as [q| | |]; try discriminate K. exists q. split; [reflexivity|].
  rewrite !andb_true_iff in K. destruct K as [[K1 K2] K3].
  destruct (flit_exact 7578 (-10)) as [A1 A2]; [apply fits_dyadic; [reflexivity|lia]|]. destruct (flit_exact 7680 (-10)) as [B1 B2]; [apply fits_dyadic; [reflexivity|lia]|].
  destruct (flit_exact 1393 (-5)) as [C1 C2]; [apply fits_dyadic; [reflexivity|lia]|]. destruct (flit_exact 5609 (-7)) as [D1 D2]; [apply fits_dyadic; [reflexivity|lia]|].
  apply ex_in_spec in K1; [|assumption|assumption]. apply ex_in_spec in K2; [|assumption|assumption]. apply ex_in_spec in K3; [|reflexivity|reflexivity].
  destruct K1 as [K1 K4]. destruct K2 as [K2 K5]. destruct K3 as [K3 _]. rewrite A1, B1 in K4. rewrite C1, D1 in K5.
  change (bpow radix2 (-10)) with (/ 1024) in K4. change (bpow radix2 (-5)) with (/ 32) in K5. change (bpow radix2 (-7)) with (/ 128) in K5.
  split; [exact (conj K1 (conj K2 K3))|]. split; [exact (proj1 C96_regular)|]. destruct C100_hypotheses as (N & AW & _). split; [exact N|]. split; [exact AW|].
  split; [split; cbn; lra|]. split; [split; cbn; lia|]. destruct ex_values as (VA & VE & VC & VF & _).
  unfold in_cell, exact_row, exact_col, index_of. rewrite VA, VE, VC, VF. change (IZR 0) with 0.
  assert (Q1 : forall v, v / (6004799503160661 / 18014398509481984) = v * (18014398509481984 / 6004799503160661)) by (intros v; field).
  assert (Q2 : forall v, v / - (6004799503160661 / 18014398509481984) = - v * (18014398509481984 / 6004799503160661)) by (intros v; field).
  rewrite Q1, Q2. split; lra.
Qed.
Example C101_near : north_up ex_geo /\ cells_away ex_geo 200 /\ Forall (near_the_raster ex_geo 200) [FTer (fint 7) (fint 44) (fint 133); FTer (fint 8) (fint 43) (fint 99)].
Proof.
  destruct C100_hypotheses as (N & AW & _). split; [exact N|]. split; [exact AW|]. destruct ex_values as (VA & VE & VC & VF & _).
  destruct (fint_exact 7 ltac:(lia)) as [A1 B1]. destruct (fint_exact 8 ltac:(lia)) as [A2 B2]. destruct (fint_exact 43 ltac:(lia)) as [A3 B3]. destruct (fint_exact 44 ltac:(lia)) as [A4 B4].
  assert (P : Rabs (6004799503160661 / 18014398509481984) = 6004799503160661 / 18014398509481984) by (apply Rabs_pos_eq; lra).
  apply Forall_cons; [|apply Forall_cons; [|apply Forall_nil]]; unfold near_the_raster, physical_up_to; rewrite VA, VE, VC, VF, Rabs_Ropp, P; cbn [ft_lat ft_lon]; rewrite ?A1, ?A2, ?A3, ?A4; (split; (split; [assumption|apply Rabs_le; lra])).
Qed.
