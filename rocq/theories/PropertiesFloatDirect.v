(** C106: the direct localization of an RPC model on a DTM in binary64. *)
From Coq Require Import ZArith Reals List Bool Lia Lra.
From Flocq Require Import Core BinarySingleNaN.
From Verif Require Import Num InterpModel InterpSpec RpcModel RpcSpec FloatModel FloatInterpModel Float FloatErr FloatWalkModel FloatWalkSpec FloatWalk FloatLineSpec FloatEntry FloatGeoModel FloatGeoSpec FloatTerModel FloatTerSpec
  PropertiesFloat2 PropertiesFloatWalk PropertiesFloatPoint PropertiesFloatGeo PropertiesFloatTer FloatCppModel FloatCppSpec FloatCpp PropertiesFloatCpp
  FloatRpcModel FloatRpcSpec FloatNewtonModel FloatNewtonSpec FloatNewton FloatConvModel FloatSolve FloatConvSpec FloatLosModel FloatLosSpec FloatLos PropertiesFloatRpc PropertiesFloatConv PropertiesFloatLos FloatDirectModel FloatDirectSpec.
Import ListNotations.
Open Scope R_scope.

(** ** The altitudes of the ends *)
Lemma fold_extremum (pick : b64 -> b64 -> b64) (le : R -> R -> Prop) : (forall x, le x x) -> (forall x y z, le x y -> le y z -> le x z) ->
  (forall x y, is_finite x = true -> is_finite y = true -> (pick x y = x \/ pick x y = y) /\ le (B2R (pick x y)) (B2R x) /\ le (B2R (pick x y)) (B2R y)) ->
  forall l x, Forall (fun y : b64 => is_finite y = true) (x :: l) -> In (fold_left pick l x) (x :: l) /\ forall y, In y (x :: l) -> le (B2R (fold_left pick l x)) (B2R y).
Proof.
  intros RF TR P. induction l as [|a l IH]; intros x F; [split; [now left|intros y [<-|[]]; apply RF]|].
  inversion F as [|? ? F1 F']; subst. inversion F' as [|? ? F2 F'']; subst. destruct (P x a F1 F2) as (C & L1 & L2). cbn [fold_left].
  assert (FP : is_finite (pick x a) = true) by (destruct C as [->| ->]; assumption). destruct (IH (pick x a)) as [I M]; [now constructor|]. split.
  - destruct I as [<-|I]; [destruct C as [->| ->]; [now left|right; now left]|right; now right].
  - intros y [<-|[<-|Iy]]; [apply TR with (B2R (pick x a)); [apply M; now left|exact L1]|apply TR with (B2R (pick x a)); [apply M; now left|exact L2]|apply M; now right].
Qed.
Lemma dtm_altitudes r : usual_terrain r ->
  (is_finite (falt_min r) = true /\ Rabs (B2R (falt_min r)) <= 16384 /\ is_finite (falt_max r) = true /\ Rabs (B2R (falt_max r)) <= 16384) /\
  forall i j, (0 <= i < fr_rows r)%Z -> (0 <= j < fr_cols r)%Z -> B2R (falt_min r) <= B2R (fr_at r i j) <= B2R (falt_max r).
Proof.
  intros ((R1 & R2) & (C1 & C2) & A).
  assert (FL : Forall (fun y : b64 => is_finite y = true /\ Rabs (B2R y) <= 16384) (fflatten r)) by (apply fflatten_all; exact A).
  assert (IN : forall i j, (0 <= i < fr_rows r)%Z -> (0 <= j < fr_cols r)%Z -> In (fr_at r i j) (fflatten r)) by (intros i j Hi Hj; exact (nth_error_In _ _ (flat_at r i j Hi Hj))).
  assert (NE : fflatten r <> []) by (intros E; specialize (IN 0%Z 0%Z ltac:(lia) ltac:(lia)); rewrite E in IN; exact IN).
  unfold falt_min, falt_max. destruct (fflatten r) as [|x l] eqn:E; [easy|]. assert (FF : Forall (fun y : b64 => is_finite y = true) (x :: l)) by (eapply Forall_impl; [|exact FL]; intros y [Y _]; exact Y).
  destruct (fold_extremum fmin2 Rle Rle_refl Rle_trans) with (l := l) (x := x) as [I1 M1]; [|exact FF|].
  { intros u v Fu Fv. unfold fmin2. rewrite Bltb_correct by assumption. case Rlt_bool_spec; intros; split; auto; split; lra. }
  destruct (fold_extremum fmax2 Rge Rge_refl Rge_trans) with (l := l) (x := x) as [I2 M2]; [|exact FF|].
  { intros u v Fu Fv. unfold fmax2. rewrite Bltb_correct by assumption. case Rlt_bool_spec; intros; split; auto; split; lra. }
  rewrite Forall_forall in FL. destruct (FL _ I1) as [G1 B1]. destruct (FL _ I2) as [G2 B2]. split; [auto|]. intros i j Hi Hj. specialize (IN i j Hi Hj). split; [exact (M1 _ IN)|apply Rge_le; exact (M2 _ IN)].
Qed.
Lemma one_metre r : usual_terrain r -> let p := c_dtm_bounds r in
  is_finite (fst p) = true /\ is_finite (snd p) = true /\ Rabs (B2R (fst p)) <= 16386 /\ Rabs (B2R (snd p)) <= 16386 /\
  forall i j, (0 <= i < fr_rows r)%Z -> (0 <= j < fr_cols r)%Z -> B2R (fst p) <= B2R (fr_at r i j) - (1 - 1 / 10000000000) /\ B2R (fr_at r i j) + (1 - 1 / 10000000000) <= B2R (snd p).
Proof.
  intros U p. destruct (dtm_altitudes r U) as ((F1 & B1 & F2 & B2) & A). destruct (fint_exact 1 ltac:(lia)) as [V1 G1]. fold fone in V1, G1.
  pose proof ulp1_fine. pose proof tiny_fine. pose proof ulp1_pos. pose proof tiny_pos. apply Rabs_le_inv in B1, B2.
  assert (D1 : Rabs (B2R (falt_min r) - B2R fone) <= 16385) by (rewrite V1; apply Rabs_le; lra). assert (D2 : Rabs (B2R (falt_max r) + B2R fone) <= 16385) by (rewrite V1; apply Rabs_le; lra).
  destruct (difference _ _ 16385 F1 G1 D1 ltac:(lra)) as [K1 E1]. destruct (altitude_sum _ _ 16385 F2 G1 D2 ltac:(lra)) as [K2 E2]. unfold p, c_dtm_bounds. cbn [fst snd].
  assert (ulp1 * Rabs (B2R (falt_min r) - B2R fone) <= ulp1 * 16385) by (apply Rmult_le_compat_l; lra). assert (ulp1 * Rabs (B2R (falt_max r) + B2R fone) <= ulp1 * 16385) by (apply Rmult_le_compat_l; lra).
  rewrite V1 in *. change (IZR 1) with 1 in *. apply Rabs_le_inv in E1, E2. split; [exact K1|]. split; [exact K2|]. split; [apply Rabs_le; lra|]. split; [apply Rabs_le; lra|].
  intros i j Hi Hj. specialize (A i j Hi Hj). lra.
Qed.
Lemma compiled_around r : usual_terrain r -> around_the_dtm r (fst (c_dtm_bounds r)) (snd (c_dtm_bounds r)).
Proof. intros U. destruct (one_metre r U) as (F1 & F2 & _ & _ & A). split; [exact F1|]. split; [exact F2|]. intros i j Hi Hj. specialize (A i j Hi Hj). lra. Qed.
Lemma python_around r : usual_terrain r -> around_the_dtm r (fst (f_dtm_bounds r)) (snd (f_dtm_bounds r)).
Proof.
  intros U. destruct (one_metre r U) as (F1 & F2 & B1 & B2 & A). destruct (dtm_altitudes r U) as ((G1 & C1 & G2 & C2) & _). unfold c_dtm_bounds in *. cbn [fst snd] in *.
  pose proof ulp1_fine. pose proof tiny_fine. pose proof ulp1_pos. pose proof tiny_pos. destruct fint2 as [V2 W2].
  apply Rabs_le_inv in C1, C2, B1, B2.
  destruct (altitude_sum _ _ 32768 G1 G2 ltac:(apply Rabs_le; lra) ltac:(lra)) as [FS ES].
  assert (BS : Rabs (B2R (falt_min r) + B2R (falt_max r)) <= 32768) by (apply Rabs_le; lra). assert (ulp1 * Rabs (B2R (falt_min r) + B2R (falt_max r)) <= ulp1 * 32768) by (apply Rmult_le_compat_l; lra).
  apply Rabs_le_inv in ES, BS. set (sm := fadd (falt_min r) (falt_max r)) in *.
  destruct (round_value (B2R sm / B2R (fint 2))) as [_ O]; [rewrite V2; apply Rabs_le; lra|]. destruct (fdiv_round sm (fint 2) FS ltac:(rewrite V2; lra) O) as [_ FM].
  unfold f_dtm_bounds. fold sm. set (mean := fdiv sm (fint 2)) in *.
  assert (D0 : is_finite (fsub mean mean) = true /\ B2R (fsub mean mean) = 0).
  { destruct (round_value (B2R mean - B2R mean)) as [_ O']; [rewrite Rminus_eq_0, Rabs_R0; lra|]. destruct (fsub_round mean mean FM FM O') as [V F]. rewrite Rminus_eq_0, rnd_0 in V. auto. }
  destruct D0 as [FD VD]. cbn [fst snd]. set (d := fsub mean mean) in *.
  assert (K : forall x : b64, is_finite x = true -> Rabs (B2R x) <= 16386 -> is_finite (fadd x d) = true /\ B2R (fadd x d) = B2R x).
  { intros x Fx Bx. destruct (round_value (B2R x + B2R d)) as [_ O']; [rewrite VD, Rplus_0_r; lra|]. destruct (fadd_round x d Fx FD O') as [V F]. split; [exact F|]. rewrite V, VD, Rplus_0_r. exact (proj1 (rnd_fits _ (fits_b64 x Fx))). }
  destruct (K _ F1 ltac:(apply Rabs_le; lra)) as [K1 K2]. destruct (K _ F2 ltac:(apply Rabs_le; lra)) as [K3 K4].
  split; [exact K1|]. split; [exact K3|]. intros i j Hi Hj. rewrite K2, K4. specialize (A i j Hi Hj). lra.
Qed.

Lemma lines_nth los i t b : nth_error los (2 * i) = Some t -> nth_error los (2 * i + 1) = Some b -> nth_error (f_lines los) i = Some (f_line t b).
Proof.
  revert los. induction i as [|i IH]; intros los E1 E2.
  - destruct los as [|x [|y l]]; cbn in E1, E2; try discriminate. injection E1 as ->. injection E2 as ->. reflexivity.
  - replace (2 * S i)%nat with (S (S (2 * i))) in * by lia. replace (S (S (2 * i)) + 1)%nat with (S (S (2 * i + 1))) in E2 by lia. destruct los as [|x [|y l]]; [discriminate E1|exfalso; cbn [nth_error] in E1; destruct (2 * i)%nat; discriminate E1|]. cbn [nth_error] in E1, E2. cbn [f_lines nth_error]. now apply IH.
Qed.
Lemma kept_valid g q : f_kept g = GPoint q -> g = GPoint q /\ valid_position q.
Proof.
  destruct g as [p| | |]; cbn [f_kept]; try discriminate. destruct (f_lonlat_ok _ _ _) eqn:E; [|discriminate]. intros H. injection H as ->. split; [reflexivity|].
  unfold f_lonlat_ok in E. apply negb_true_iff, orb_false_iff in E as [E E3]. apply orb_false_iff in E as [E1 E2]. apply orb_false_iff in E3 as [E3 N3]. apply orb_false_iff in E3 as [N1 N2].
  destruct (fint_exact 180 ltac:(lia)) as [V1 W1]. destruct (fint_exact 90 ltac:(lia)) as [V2 W2].
  destruct (not_more _ _ W1 N1 E1) as [F1 L1]. destruct (not_more _ _ W2 N2 E2) as [F2 L2]. rewrite V1 in L1. rewrite V2 in L2. repeat split; assumption.
Qed.

Lemma kept_given g : given g (f_kept g).
Proof.
  destruct g as [q| | |]; cbn [f_kept given]; try reflexivity. destruct (f_lonlat_ok (ft_lon q) (ft_lat q) (ft_alt q)) eqn:E.
  - left. split; [|reflexivity]. apply (kept_valid (GPoint q) q). cbn [f_kept]. rewrite E. reflexivity.
  - right. split; [|reflexivity]. intros (F1 & F2 & F3 & B1 & B2). unfold f_lonlat_ok in E. apply negb_false_iff in E.
    destruct (fint_exact 180 ltac:(lia)) as [V1 W1]. destruct (fint_exact 90 ltac:(lia)) as [V2 W2].
    assert (L : forall x y : b64, is_finite x = true -> is_finite y = true -> Rabs (B2R x) <= B2R y -> Bltb y (Babs x) = false).
    { intros x y Fx Fy B. rewrite Bltb_correct; [|exact Fy|now rewrite is_finite_Babs]. rewrite B2R_Babs. apply Rlt_bool_false. exact B. }
    unfold fabs in E. rewrite (L _ _ F1 W1), (L _ _ F2 W2), F3, (finite_not_nan _ F1), (finite_not_nan _ F2) in E by (rewrite ?V1, ?V2; assumption). discriminate E.
Qed.

(** Each position of the result is a valid one, and it is on the ground: at its longitude and latitude, the altitude of the DTM is its
    altitude.  It comes from a line of sight whose ends are above and below the DTM, and which the model sees in the pixel. *)
Theorem C106_on_the_ground :
  forall m M r t N fuel cells steps px out bottom top (w gsd bend steep lon0 lat0 lon1 lat1 : b64 * b64 -> R),
  same_model m M -> image_model M -> usual_model_altitudes m M ->
  usual_terrain r -> north_up t -> cells_away t N -> cells_across r N -> N <= 250000000 ->
  localized_at m M (fst (f_dtm_bounds r)) (snd (f_dtm_bounds r)) bottom top ->
  (forall p, In p px -> is_nan (fst p) = false -> is_nan (snd p) = false -> has_ground_points m M (fst p) (snd p) bottom top (w p) (gsd p) (bend p) (steep p) (lon0 p) (lat0 p) (lon1 p) (lat1 p)) ->
  f_direct_loc_dtm M r t fuel cells steps px out ->
  forall i row col, nth_error px i = Some (row, col) -> is_nan row = false -> is_nan col = false ->
  exists a b lo hi g, nth_error out i = Some g /\
    around_the_dtm r lo hi /\ sight_line m (fun q => seen_end m row col bottom q \/ start_stays m M row col bottom top q) row col lo hi bottom top a b /\
    (forall los, end_to_end a b los -> exists g0, given g0 g /\ (Forall (near_the_raster t N) los -> intersection_of r t N fuel cells steps los g0)) /\
    forall q, g = GPoint q -> valid_position q /\
      forall x y, is_finite (ft_alt q) = true -> is_cell (real_raster r) x y -> in_cell x y (exact_row t q) (exact_col t q) ->
        Rabs (bilinear_in_cell (real_raster r) x y (exact_row t q) (exact_col t q) - B2R (ft_alt q)) <= / 10000 + 2 / 1000000000 + 98304 * (2 * rounding 5 * N).
Proof.
  intros m M r t N fuel cells steps px out bottom top w gsd bend steep lon0 lat0 lon1 lat1 S IM UM UT NU CA CR NN LA A (e & los & H & ->) i row col E N1 N2.
  set (lo := fst (f_dtm_bounds r)) in *. set (hi := snd (f_dtm_bounds r)) in *. replace (f_dtm_bounds r) with (lo, hi) in H by (unfold lo, hi; now destruct (f_dtm_bounds r)).
  assert (X : exists a b, nth_error los (2 * i) = Some a /\ nth_error los (2 * i + 1) = Some b /\ sight_line m (fun q => seen_end m row col bottom q \/ start_stays m M row col bottom top q) row col lo hi bottom top a b).
  { destruct LA as [UA|(FA & -> & ->)].
    - destruct (C105_in_range m M px (Some (lo, hi)) bottom top false e los w gsd bend steep lon0 lat0 lon1 lat1 S IM UM UA A H) as [_ R]. destruct (R i row col E N1 N2) as (a & b & Ea & Eb & Sa & Sb).
      destruct UA as (E1 & E2 & _). exists a, b. split; [exact Ea|]. split; [exact Eb|]. left. rewrite <- E1, <- E2 in *. auto.
    - destruct (C105_prolonged m M px lo hi false e los w gsd bend steep lon0 lat0 lon1 lat1 S IM UM FA A H) as (_ & _ & _ & R). destruct (R i row col E N1 N2) as (a0 & b0 & Sa & Sb & a & b & Ea & Eb & La & Lb).
      exists a, b. split; [exact Ea|]. split; [exact Eb|]. right. exists a0, b0. auto. }
  destruct X as (a & b & Ea & Eb & SL). exists a, b, lo, hi. eexists. rewrite nth_error_map, (lines_nth _ _ _ _ Ea Eb). cbn [option_map]. split; [reflexivity|]. split; [exact (python_around r UT)|]. split; [exact SL|].
  split; [intros l ->; eexists; split; [apply kept_given|intros F; exact (C101_intersection r t N fuel cells steps _ NU CA F)]|].
  intros q G. apply kept_valid in G as [G VP]. split; [exact VP|]. intros x y FZ IC INC. destruct VP as (F1 & F2 & _).
  apply (C101_ground_on_the_surface r t N fuel cells steps _ q x y UT NU CA CR NN G (conj F1 (conj F2 FZ)) IC INC).
Qed.

(** The compiled version, for the lines of sight of C102. *)
Theorem C106_compiled :
  forall m M r g N fuel cells steps row col out bottom top w gsd bend steep lon0 lat0 lon1 lat1,
  let t := python_transform g in
  same_model m M -> image_model M -> usual_model_altitudes m M ->
  usual_terrain r -> usual_altitudes r -> (fr_rows r * fr_cols r < 2 ^ 31)%Z -> north_up t -> cells_away t N -> cells_across r N -> N <= 250000000 ->
  localized_at m M (fst (c_dtm_bounds r)) (snd (c_dtm_bounds r)) bottom top ->
  has_ground_points m M row col bottom top w gsd bend steep lon0 lat0 lon1 lat1 ->
  c_direct_loc_dtm M r (cpp_object r g) fuel cells steps row col out ->
  exists a b lo hi, around_the_dtm r lo hi /\ sight_line m (seen_end m row col bottom) row col lo hi bottom top a b /\
    out = c_ground_position (cpp_object r g) fuel cells steps [FTer (fg_lon a) (fg_lat a) (fg_alt a); FTer (fg_lon b) (fg_lat b) (fg_alt b)] /\
    (Forall usual_point (vertices g (f_line a b)) -> (forall v, nth_error (vertices g (f_line a b)) 0 = Some v -> off_the_faces r v) -> never_down_from_a_line r (vertices g (f_line a b)) ->
     forall q x y, out = CPoint q -> finite_position q -> is_cell (real_raster r) x y -> in_cell x y (exact_row t q) (exact_col t q) ->
       Rabs (bilinear_in_cell (real_raster r) x y (exact_row t q) (exact_col t q) - B2R (ft_alt q)) <= / 10000 + 2 / 1000000000 + 98304 * (2 * rounding 5 * N)).
Proof.
  intros m M r g N fuel cells steps row col out bottom top w gsd bend steep lon0 lat0 lon1 lat1 t S IM UM UT UA CE NU CA CR NN LA A (a & b & H & ->).
  pose proof (compiled_around r UT) as AR. set (lo := fst (c_dtm_bounds r)) in *. set (hi := snd (c_dtm_bounds r)) in *. destruct (AR) as (Flo & Fhi & _).
  exists a, b, lo, hi. split; [exact AR|]. split; [|split; [reflexivity|]].
  - destruct LA as [LA|(FA & -> & ->)].
    + assert (NB : (if is_nan lo || is_nan hi then None else Some (lo, hi)) = Some (lo, hi)) by (rewrite (finite_not_nan _ Flo), (finite_not_nan _ Fhi); reflexivity).
      destruct (C105_compiled_in_range m M row col lo hi bottom top false a b w gsd bend steep lon0 lat0 lon1 lat1 S IM UM) as [S1 S2]; [exact (eq_rect_r (fun z => used_altitudes m M z bottom top) LA NB)|exact A|exact H|].
      destruct LA as (E1 & E2 & _). left. rewrite <- E1, <- E2 in *. auto.
    + destruct (C105_compiled_prolonged m M row col lo hi false a b w gsd bend steep lon0 lat0 lon1 lat1 S IM UM FA A H) as (a0 & b0 & R). right. exists a0, b0. exact R.
  - intros UP OF ND q x y EO FQ IC INC. assert (SZ : (Z.of_nat (length (f_line a b)) <= 2 ^ 18)%Z) by (cbn; lia).
    pose proof (C102_same_ground_position r g fuel cells steps _ _ UT UA CE SZ UP OF ND) as SA. fold (f_line a b) in SA. rewrite EO in SA. fold t in SA.
    destruct (fground_position r t fuel cells steps (f_line a b)) as [q'| | |] eqn:EG; cbn [same_answer] in SA; try discriminate SA; [|destruct SA; discriminate]. injection SA as ->.
    exact (C101_ground_on_the_surface r t N fuel cells steps _ q' x y UT NU CA CR NN EG FQ IC INC).
Qed.

(** A pixel without a row or a column gives no position. *)
Lemma nan_altitude m p : is_nan (fv_alt p) = true -> forall i, feq_plan m i p = B754_nan.
Proof.
  intros N i. unfold feq_plan. destruct (fv_alt p) as [| | |]; try discriminate N. generalize (nth i fplane_coef_c fzero) (fadd (fmul (nth i fplane_coef_a fzero) (fv_row p)) (fmul (nth i fplane_coef_b fzero) (fv_col p))) (nth i (fplane_coef_d m) fzero).
  intros x y z. assert (fmul x B754_nan = B754_nan) as -> by (destruct x; reflexivity). assert (fadd y B754_nan = B754_nan) as -> by (destruct y; reflexivity). destruct z; reflexivity.
Qed.
Lemma nan_line m los : (forall p, In p los -> is_nan (fv_alt p) = true) -> fintersect_dtm_cube m los = None.
Proof.
  intros N. assert (SC : forall i rest a n, (forall p, In p rest -> is_nan (fv_alt p) = true) -> is_nan (fv_alt a) = true -> fplane_scan m i a rest n = None).
  { intros i rest. induction rest as [|b rest IH]; intros a n NR NA; [reflexivity|]. cbn [fplane_scan]. rewrite (nan_altitude m a NA), (nan_altitude m b) by (apply NR; now left). cbv zeta. change (Bleb (fmul B754_nan B754_nan) fzero) with false. cbn iota. apply IH; [intros p Hp; apply NR; now right|apply NR; now left]. }
  unfold fintersect_dtm_cube. replace (fall_crossings m los) with (@nil fcrossing); [reflexivity|]. destruct los as [|v los]; [reflexivity|]. unfold fall_crossings. cbn [seq flat_map].
  rewrite !SC by (try exact N; apply N; now left). reflexivity.
Qed.
Theorem C106_no_pixel :
  forall M r t fuel cells steps px out i row col, f_direct_loc_dtm M r t fuel cells steps px out -> nth_error px i = Some (row, col) -> is_nan row = true \/ is_nan col = true ->
  nth_error out i = Some GNaN.
Proof.
  intros M r t fuel cells steps px out i row col (e & los & H & ->) E N. destruct (C105_no_pixel M px _ e los i row col H E N) as (a & b & Ea & Eb & (_ & _ & Na) & (_ & _ & Nb)).
  rewrite nth_error_map, (lines_nth _ _ _ _ Ea Eb). cbn [option_map]. unfold fground_position, flocate. rewrite nan_line; [reflexivity|].
  intros p [<-|[<-|[]]]; unfold fter_to_index; destruct (fphysical_to_index _ _ _); cbn [fv_alt ft_alt]; assumption.
Qed.
Lemma lines_length l n : length l = (2 * n)%nat -> length (f_lines l) = n.
Proof.
  revert l. induction n as [|n IH]; intros l L; [destruct l; [reflexivity|discriminate L]|]. destruct l as [|a [|b l]]; cbn [length] in L; try lia. cbn [f_lines length]. f_equal. apply IH. lia.
Qed.
(** There is one result for each pixel, whatever they are. *)
Theorem C106_results :
  forall M, length (fm_num_col M) = 20%nat -> length (fm_den_col M) = 20%nat -> length (fm_num_row M) = 20%nat -> length (fm_den_row M) = 20%nat ->
  forall r t c fuel cells steps, (forall px, exists out, f_direct_loc_dtm M r t fuel cells steps px out /\ length out = length px) /\ (forall row col, exists out, c_direct_loc_dtm M r c fuel cells steps row col out).
Proof.
  intros M L1 L2 L3 L4 r t c fuel cells steps. destruct (C105_results M false L1 L2 L3 L4) as [RP RC]. split.
  - intros px. destruct (RP px (Some (f_dtm_bounds r))) as (e & los & H & L). eexists. split; [exists e, los; split; [exact H|reflexivity]|]. rewrite map_length. exact (lines_length _ _ L).
  - intros row col. destruct (RC row col (fst (c_dtm_bounds r)) (snd (c_dtm_bounds r))) as (a & b & H). eexists. exists a, b. split; [exact H|reflexivity].
Qed.

(** The model of C104, over the slope of C96 with cells of one degree from 14.25 E and 11 N.  The bounds are 99 and 133 metres. *)
Definition exd_gdal : fgdal := FG (flit 57 (-2)) (fint 1) (fint 0) (fint 11) (fint 0) (fint (-1)).
(** What the pixel sees at 133 and 99 metres (C104): 16 E and 9.543 N, 9.676 N. *)
Definition exd_line : list fter := f_line (FPlace (fint 16) (flit 2443 (-8)) (fint 133)) (FPlace (fint 16) (flit 2477 (-8)) (fint 99)).
Example C106_case :
  same_model exc_m exc_M /\ image_model exc_M /\ usual_model_altitudes exc_m exc_M /\ usual_terrain ex_slope /\ usual_altitudes ex_slope /\ (fr_rows ex_slope * fr_cols ex_slope < 2 ^ 31)%Z /\
  north_up (python_transform exd_gdal) /\ cells_away (python_transform exd_gdal) 200 /\ cells_across ex_slope 200 /\
  localized_at exc_m exc_M (fst (f_dtm_bounds ex_slope)) (snd (f_dtm_bounds ex_slope)) (fint 99) (fint 133) /\
  localized_at exc_m exc_M (fst (c_dtm_bounds ex_slope)) (snd (c_dtm_bounds ex_slope)) (fint 99) (fint 133) /\
  has_ground_points exc_m exc_M (fint 161) (fint 129) (fint 99) (fint 133) 24 (1 / 7) (1 / 128) 16 16 ((161 - 99 / 16) / 16) 16 ((161 - 133 / 16) / 16) /\
  (exists out, f_direct_loc_dtm exc_M ex_slope (python_transform exd_gdal) 20 9 6 [(B754_nan, fint 3); (fint 161, fint 129)] out) /\
  (exists out, c_direct_loc_dtm exc_M ex_slope (cpp_object ex_slope exd_gdal) 20 9 6 (fint 161) (fint 129) out) /\
  Forall (near_the_raster (python_transform exd_gdal) 200) exd_line /\
  match f_kept (fground_position ex_slope (python_transform exd_gdal) 20 9 6 exd_line), c_ground_position (cpp_object ex_slope exd_gdal) 20 9 6 exd_line with GPoint q, CPoint q' => v_eqb (FV3 (ft_lon q) (ft_lat q) (ft_alt q)) (FV3 (ft_lon q') (ft_lat q') (ft_alt q')) = true | _, _ => False end.
Proof.
  destruct C105_case as (S & IM & UM & _). destruct C102_hypotheses as (UT & UA & CE & _).
  assert (E1 : fst (f_dtm_bounds ex_slope) = fint 99) by (apply FloatWalk.b_eqb_eq; vm_compute; reflexivity). assert (E2 : snd (f_dtm_bounds ex_slope) = fint 133) by (apply FloatWalk.b_eqb_eq; vm_compute; reflexivity).
  assert (E3 : fst (c_dtm_bounds ex_slope) = fint 99) by (apply FloatWalk.b_eqb_eq; vm_compute; reflexivity). assert (E4 : snd (c_dtm_bounds ex_slope) = fint 133) by (apply FloatWalk.b_eqb_eq; vm_compute; reflexivity).
  rewrite E1, E2, E3, E4. destruct (fint_small 99 ltac:(lia)) as [A1 G1]. destruct (fint_small 133 ltac:(lia)) as [A2 G2]. destruct (fint_small 1 ltac:(lia)) as [A3 G3]. destruct (fint_small 0 ltac:(lia)) as [A4 G4]. destruct (fint_small 11 ltac:(lia)) as [A5 G5]. destruct (fint_small (-1) ltac:(lia)) as [A6 G6].
  destruct (flit_exact 57 (-2)) as [A7 G7]; [apply fits_dyadic; [reflexivity|lia]|]. change (bpow radix2 (-2)) with (/ 4) in A7.
  assert (LA : localized_at exc_m exc_M (fint 99) (fint 133) (fint 99) (fint 133)) by (left; cbn [used_altitudes exc_m offset_alt scale_alt]; rewrite A1, A2; repeat split; try assumption; lra).
  split; [exact S|]. split; [exact IM|]. split; [exact UM|]. split; [exact UT|]. split; [exact UA|]. split; [exact CE|].
  split. { unfold north_up, python_transform, exd_gdal. cbn [fa_a fa_b fa_c fa_d fa_e fa_f fg0 fg1 fg2 fg3 fg4 fg5]. rewrite A3, A4, A6. change (IZR (-1)) with (-1). rewrite (Rabs_left (-1)), Rabs_R1 by lra. repeat split; try assumption; lra. }
  split. { unfold cells_away, python_transform, exd_gdal. cbn [fa_a fa_c fa_e fa_f fg0 fg1 fg3 fg5]. rewrite A3, A5, A6, A7. change (IZR (-1)) with (-1). rewrite (Rabs_left (-1)), Rabs_R1 by lra. repeat split; try lra; apply Rabs_le; lra. }
  split; [split; cbn; lra|]. split; [exact LA|]. split; [exact LA|]. split; [apply (exl_points 99 133); lia|].
  destruct (C106_results exc_M eq_refl eq_refl eq_refl eq_refl ex_slope (python_transform exd_gdal) (cpp_object ex_slope exd_gdal) 20 9 6) as [RP RC].
  split; [destruct (RP [(B754_nan, fint 3); (fint 161, fint 129)]) as (out & H & _); exists out; exact H|]. split; [apply RC|].
  split; [|vm_compute; reflexivity]. destruct (fint_small 16 ltac:(lia)) as [A8 G8]. destruct (flit_exact 2443 (-8)) as [A9 G9]; [apply fits_dyadic; [reflexivity|lia]|]. destruct (flit_exact 2477 (-8)) as [A10 G10]; [apply fits_dyadic; [reflexivity|lia]|].
  change (bpow radix2 (-8)) with (/ 256) in A9, A10. unfold exd_line, f_line. cbn [fg_lon fg_lat fg_alt].
  assert (R1 : Rabs (-1) = 1) by (rewrite Rabs_left; lra).
  apply Forall_cons; [|apply Forall_cons; [|apply Forall_nil]]; unfold near_the_raster, physical_up_to, python_transform, exd_gdal; cbn [ft_lat ft_lon fa_a fa_c fa_e fa_f fg0 fg1 fg3 fg5]; rewrite A3, A5, A6, A7, A8, ?A9, ?A10; change (IZR (-1)) with (-1); rewrite R1, Rabs_R1; (split; (split; [assumption|apply Rabs_le; lra])).
Qed.
