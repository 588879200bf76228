(** Proofs: the iterative direct localization of an RPC model converges in binary64. *)
From Coq Require Import ZArith Reals List Bool Lia Lra.
From Flocq Require Import Core BinarySingleNaN.
From Verif Require Import FloatModel Float FloatErr FloatLine FloatEval FloatRpcModel FloatRpcSpec FloatRpc FloatRpcOut FloatMiss PropertiesFloatRpc RpcModel RpcSpec RpcConvSpec RpcConv RpcProofs RpcDeriv FloatNewtonModel FloatNewtonSpec FloatNewton FloatConvModel FloatConvSpec FloatConv FloatSolve.
Import ListNotations.
Open Scope R_scope.

(** ** The true derivatives *)
Definition quotient_slope (so si : R) (N D N' D' : R) : R := so / si * (N' * D - D' * N) / (D * D).
Lemma cubic_poly x y z c : length c = 20%nat -> cubic c x y z = polynomial_equation x y z c. Proof. intros H. symmetry. now apply poly_cubic. Qed.
Lemma slope_x num den o s S O y z lon : length num = 20%nat -> length den = 20%nat -> s <> 0 -> cubic den ((lon - o) / s) y z <> 0 ->
  derivable_pt_lim (fun x => cubic num ((x - o) / s) y z / cubic den ((x - o) / s) y z * S + O) lon
    (quotient_slope S s (cubic num ((lon - o) / s) y z) (cubic den ((lon - o) / s) y z) (derivative_polynomial_longitude ((lon - o) / s) y z num) (derivative_polynomial_longitude ((lon - o) / s) y z den)).
Proof.
  intros LN LD Hs HD. rewrite !cubic_poly in * by assumption.
  apply dpl_ext with (g := fun x => polynomial_equation ((x - o) / s) y z num / polynomial_equation ((x - o) / s) y z den * S + O); [intros t; now rewrite !cubic_poly by assumption|].
  pose proof (dpl_rational (fun t => polynomial_equation t y z num) (fun t => polynomial_equation t y z den) _ _ o s S O lon Hs HD (dpl_poly_x num y z _) (dpl_poly_x den y z _)) as H.
  cbv beta in H. unfold quotient_slope. cbn [pow] in H. rewrite Rmult_1_r in H. exact H.
Qed.
Lemma slope_y num den o s S O x z lat : length num = 20%nat -> length den = 20%nat -> s <> 0 -> cubic den x ((lat - o) / s) z <> 0 ->
  derivable_pt_lim (fun y => cubic num x ((y - o) / s) z / cubic den x ((y - o) / s) z * S + O) lat
    (quotient_slope S s (cubic num x ((lat - o) / s) z) (cubic den x ((lat - o) / s) z) (derivative_polynomial_latitude x ((lat - o) / s) z num) (derivative_polynomial_latitude x ((lat - o) / s) z den)).
Proof.
  intros LN LD Hs HD. rewrite !cubic_poly in * by assumption.
  apply dpl_ext with (g := fun y => polynomial_equation x ((y - o) / s) z num / polynomial_equation x ((y - o) / s) z den * S + O); [intros t; now rewrite !cubic_poly by assumption|].
  pose proof (dpl_rational (fun t => polynomial_equation x t z num) (fun t => polynomial_equation x t z den) _ _ o s S O lat Hs HD (dpl_poly_y num x z _) (dpl_poly_y den x z _)) as H.
  cbv beta in H. unfold quotient_slope. cbn [pow] in H. rewrite Rmult_1_r in H. exact H.
Qed.

(** The computed slopes of one output. *)
Lemma axis_nonzero a : finite_axis a -> B2R (fa_scale a) <> 0.
Proof. intros (_ & _ & H) E. rewrite E, Rabs_R0 in H. lra. Qed.
Lemma slopes_near M out num den lon lat alt a b S : ordinary (fm_x M) (fm_y M) (fm_alt M) out num den lon lat alt ->
  1 / 10000000 <= S <= 10000000 -> Rabs (B2R (fa_scale out) / B2R (fa_scale (fm_x M))) <= S -> Rabs (B2R (fa_scale out) / B2R (fa_scale (fm_y M))) <= S ->
  slopes M out num den lon lat alt a b ->
  let x := normal lon (fm_x M) in let y := normal lat (fm_y M) in let z := normal alt (fm_alt M) in
  let N := map B2R num in let D := map B2R den in
  near a (quotient_slope (B2R (fa_scale out)) (B2R (fa_scale (fm_x M))) (cubic N x y z) (cubic D x y z) (derivative_polynomial_longitude x y z N) (derivative_polynomial_longitude x y z D)) (S / 10000000000) /\
  near b (quotient_slope (B2R (fa_scale out)) (B2R (fa_scale (fm_y M))) (cubic N x y z) (cubic D x y z) (derivative_polynomial_latitude x y z N) (derivative_polynomial_latitude x y z D)) (S / 10000000000).
Proof.
  intros (CN & CD & AX & AY & AZ & IX & IY & IZ & Sn & Sd & Fo & Fs & HD) HS KX KY (n & d & nx & dx & ny & dy & Pn & Pd & Enx & Edx & Eny & Edy & SA & SB) x y z N D.
  pose proof ulp1_pos as U0. pose proof ulp1_fine as U1. pose proof (abs_sum_pos (map B2R num)). pose proof (abs_sum_pos (map B2R den)).
  destruct (point_near _ _ _ num lon lat alt n (proj1 CN) (proj2 CN) AX AY AZ IX IY IZ ltac:(lra) Pn) as [Nn Bn].
  destruct (point_near _ _ _ den lon lat alt d (proj1 CD) (proj2 CD) AX AY AZ IX IY IZ ltac:(lra) Pd) as [Nd Bd].
  destruct (derivative_near _ _ _ num lon lat alt nx ny CN Sn AX AY AZ IX IY IZ Enx Eny) as ((Nnx & Bnx) & (Nny & Bny)).
  destruct (derivative_near _ _ _ den lon lat alt dx dy CD Sd AX AY AZ IX IY IZ Edx Edy) as ((Ndx & Bdx) & (Ndy & Bdy)).
  fold x y z in Nn, Bn, Nd, Bd, Nnx, Bnx, Nny, Bny, Ndx, Bdx, Ndy, Bdy, HD. fold N in Nn, Bn, Nnx, Bnx, Nny, Bny, Sn. fold D in Nd, Bd, Ndx, Bdx, Ndy, Bdy, HD, Sd.
  assert (W : forall s, 0 <= s <= 2 -> ulp1 * (31 * s + 1 / 1000) <= 1 / 100000000000000) by (intros s Hs; apply Rle_trans with (ulp1 * 63); [apply Rmult_le_compat_l; lra|lra]).
  assert (SN0 : 0 <= abs_sum N <= 2) by (split; [apply abs_sum_pos|exact Sn]). assert (SD0 : 0 <= abs_sum D <= 2) by (split; [apply abs_sum_pos|exact Sd]).
  pose proof (near_weaken _ _ _ _ Nn (W _ SN0)) as Nn'. pose proof (near_weaken _ _ _ _ Nd (W _ SD0)) as Nd'.
  unfold quotient_slope. split.
  - apply (slope_near _ _ n d nx dx _ _ _ _ a S Nn' Nd' Nnx Ndx); try assumption; try lra; [apply AX|now apply axis_nonzero].
  - apply (slope_near _ _ n d ny dy _ _ _ _ b S Nn' Nd' Nny Ndy); try assumption; try lra; [apply AY|now apply axis_nonzero].
Qed.

Lemma feps_low : 9 / 10000000 <= B2R feps.
Proof.
  destruct (flit_exact 4722366482869645 (-72)) as [V F]; [apply fits_dyadic; lia|]. fold feps in V, F. rewrite V.
  change (bpow radix2 (-72)) with (/ IZR (2 ^ 72)). change (2 ^ 72)%Z with 4722366482869645213696%Z. lra.
Qed.
Lemma babs_finite (x : b64) : is_finite x = true -> is_finite (Babs x) = true. Proof. now destruct x. Qed.
(** The test of the loop on finite residues. *)
Lemma again_size s : is_finite (fs_dcol s) = true -> is_finite (fs_drow s) = true -> f_again s = true -> 9 / 10000000 <= size (B2R (fs_dcol s)) (B2R (fs_drow s)).
Proof.
  intros F1 F2 H. pose proof feps_low as L. destruct feps_val as [FE _]. unfold f_again in H. apply orb_prop in H as [H|H].
  - apply ltb_lt in H; [|exact FE|now apply babs_finite]. rewrite B2R_Babs in H. pose proof (size_l (B2R (fs_dcol s)) (B2R (fs_drow s))). lra.
  - apply ltb_lt in H; [|exact FE|now apply babs_finite]. rewrite B2R_Babs in H. pose proof (size_r (B2R (fs_dcol s)) (B2R (fs_drow s))). lra.
Qed.
Lemma not_again s : is_finite (fs_dcol s) = true -> is_finite (fs_drow s) = true -> Rabs (B2R (fs_dcol s)) <= 9 / 10000000 -> Rabs (B2R (fs_drow s)) <= 9 / 10000000 -> f_again s = false.
Proof.
  intros F1 F2 H1 H2. pose proof feps_low as L. destruct feps_val as [FE _]. unfold f_again. apply orb_false_intro.
  - rewrite Bltb_correct, B2R_Babs by (assumption || now apply babs_finite). apply Rlt_bool_false. lra.
  - rewrite Bltb_correct, B2R_Babs by (assumption || now apply babs_finite). apply Rlt_bool_false. lra.
Qed.

Section Run.
Variables (m : rpc) (M : fmodel) (p : fpixel) (r gsd bend steep lon0 lat0 : R).
Hypothesis Hmodel : same_model m M.
Hypothesis Himage : image_model M.
Hypothesis Hpixel : finite_pixel p.
Hypothesis HC : col_of m lon0 lat0 (B2R (fp_alt p)) = B2R (fp_col p).
Hypothesis HR : row_of m lon0 lat0 (B2R (fp_alt p)) = B2R (fp_row p).
Hypothesis Hgentle : gentle m r gsd bend steep.
Variables a b c d : R -> R -> R.
Hypothesis HW : forall lon lat, within r lon0 lat0 lon lat ->
    regular_at m lon lat (B2R (fp_alt p)) /\ lonlat_ok lon lat /\
    partial_derivatives m (B2R (fp_alt p)) lon lat (a lon lat) (b lon lat) (c lon lat) (d lon lat) /\
    (forall u v, size u v <= gsd * size (a lon lat * u + b lon lat * v) (c lon lat * u + d lon lat * v)) /\
    (forall f, In f [a; b; c; d] -> Rabs (f lon lat) <= steep /\
       forall lon' lat', within r lon0 lat0 lon' lat' ->
         Rabs (f lon lat - f lon' lat') <= bend * size (lon - lon') (lat - lat')).
Hypothesis Hdomain : square_in_domain M (fp_alt p) r lon0 lat0.
Notation alt := (B2R (fp_alt p)).
Notation row := (B2R (fp_row p)).
Notation col := (B2R (fp_col p)).
Notation reach := (reach r gsd).

(** The state of the loop after [k] iterations. *)
Definition residue_of (s : fstate) : Prop :=
  is_finite (fs_dcol s) = true /\ is_finite (fs_drow s) = true /\
  Rabs (B2R (fs_dcol s) - (col - col_of m (B2R (fs_lon s)) (B2R (fs_lat s)) alt)) <= 13 / 1000000000 /\
  Rabs (B2R (fs_drow s) - (row - row_of m (B2R (fs_lon s)) (B2R (fs_lat s)) alt)) <= 13 / 1000000000.
Definition level (k : nat) (s : fstate) : Prop :=
  is_finite (fs_lon s) = true /\ is_finite (fs_lat s) = true /\ size (B2R (fs_lon s) - lon0) (B2R (fs_lat s) - lat0) <= reach k /\ residue_of s /\
  (k = 6%nat -> f_again s = false).

Lemma steep_pos : 0 <= steep.
Proof. destruct Hgentle as (_ & _ & _ & _ & _ & _ & _ & _ & K & _). pose proof (Rabs_pos (scale_col m / scale_x m)). lra. Qed.
Lemma centre_in : within r lon0 lat0 lon0 lat0.
Proof. destruct Hgentle as (_ & _ & R0 & _). unfold RpcConvSpec.within. rewrite !Rminus_eq_0, size_0. lra. Qed.
Lemma r_small : r <= 90.
Proof.
  destruct Hgentle as (_ & _ & R0 & _).
  assert (I1 : within r lon0 lat0 lon0 (lat0 + r)) by (apply size_le; [rewrite Rminus_eq_0, Rabs_R0; lra|replace (lat0 + r - lat0) with r by ring; rewrite Rabs_pos_eq; lra]).
  assert (I2 : within r lon0 lat0 lon0 (lat0 - r)) by (apply size_le; [rewrite Rminus_eq_0, Rabs_R0; lra|replace (lat0 - r - lat0) with (- r) by ring; rewrite Rabs_Ropp, Rabs_pos_eq; lra]).
  destruct (HW _ _ I1) as (_ & [_ L1] & _). destruct (HW _ _ I2) as (_ & [_ L2] & _). lra.
Qed.
Lemma sizes : 1 <= gsd * steep /\ gsd <= 180000 /\ 1 / 1000000 <= steep.
Proof.
  destruct Hgentle as (G0 & B0 & R0 & Hq & Hc & Hs & Hr & Hl & _). pose proof steep_pos as S0. pose proof r_small as RS.
  assert (G1 : 1 <= gsd * steep) by exact (gsd_steep m alt r gsd bend steep lon0 lat0 G0 R0 a b c d HW).
  split; [exact G1|]. assert (G2 : gsd <= 180000) by lra. split; [exact G2|].
  apply Rmult_le_reg_l with 180000; [lra|]. assert (gsd * steep <= 180000 * steep) by (apply Rmult_le_compat_r; lra). lra.
Qed.

(** The residues of a position of the square. *)
Lemma sensor_residue lon lat srow scol : is_finite lon = true -> is_finite lat = true -> within r lon0 lat0 (B2R lon) (B2R lat) ->
  f_sensor M lon lat (fp_alt p) srow scol -> residue_of (FSt lon lat (fsub (fp_col p) scol) (fsub (fp_row p) srow)).
Proof.
  intros F1 F2 I S. destruct Hgentle as (G0 & B0 & R0 & Hq & Hc & Hs & Hr & Hl & _). pose proof steep_pos as S0. destruct Hpixel as [PR PC].
  destruct (sensor_error m M lon lat (fp_alt p) srow scol Hmodel Himage (Hdomain lon lat F1 F2 I) S) as (FR & FC & ER & EC).
  destruct (col_remainder m alt r gsd bend steep col lon0 lat0 B0 HC a b c d HW _ _ r I I) as [_ BC].
  destruct (row_remainder m alt r gsd bend steep row lon0 lat0 B0 HR a b c d HW _ _ r I I) as [_ BR].
  pose proof ulp1_pos as U0. pose proof ulp1_fine as U1. pose proof tiny_pos as T0. pose proof tiny_fine as T1. pose proof large_huge as HH.
  assert (T : forall (x y : b64) v, is_finite x = true -> is_finite y = true -> Rabs (B2R y - v) <= 12 / 1000000000 -> Rabs (v - B2R x) <= 2 * steep * r ->
     is_finite (fsub x y) = true /\ Rabs (B2R (fsub x y) - (B2R x - v)) <= 13 / 1000000000).
  { intros x y v Fx Fy E B. 
    assert (D : Rabs (B2R x - B2R y - (B2R x - v)) <= 12 / 1000000000) by (replace (B2R x - B2R y - (B2R x - v)) with (- (B2R y - v)) by ring; now rewrite Rabs_Ropp).
    assert (C : Rabs (B2R x - v) <= 2000000) by (rewrite Rabs_minus_sym; lra).
    destruct (fsub_round x y Fx Fy) as [EV FV]; [apply huge_lt; pose proof (near_bound _ _ _ _ D C); lra|]. split; [exact FV|].
    refine (proj2 (near_round _ _ _ _ _ _ FV EV D C _)). lra. }
  destruct (T (fp_col p) scol _ PC FC EC BC) as [K1 K2]. destruct (T (fp_row p) srow _ PR FR ER BR) as [K3 K4]. unfold residue_of. cbn [fs_lon fs_lat fs_dcol fs_drow]. tauto.
Qed.

(** The corrections are accurate. *)
Lemma slopes_true s ca cb cc cd : is_finite (fs_lon s) = true -> is_finite (fs_lat s) = true -> within r lon0 lat0 (B2R (fs_lon s)) (B2R (fs_lat s)) ->
  slopes M (fm_col M) (fm_num_col M) (fm_den_col M) (fs_lon s) (fs_lat s) (fp_alt p) ca cb -> slopes M (fm_row M) (fm_num_row M) (fm_den_row M) (fs_lon s) (fs_lat s) (fp_alt p) cc cd ->
  let x := B2R (fs_lon s) in let y := B2R (fs_lat s) in
  near ca (a x y) (steep / 10000000000) /\ near cb (b x y) (steep / 10000000000) /\ near cc (c x y) (steep / 10000000000) /\ near cd (d x y) (steep / 10000000000).
Proof.
  intros F1 F2 I S1 S2 x y. destruct Hgentle as (_ & _ & _ & _ & _ & Hs & _ & _ & K1 & K2 & K3 & K4). destruct sizes as (_ & _ & SL).
  destruct (Hdomain _ _ F1 F2 I) as (_ & _ & OR & OC). destruct (HW _ _ I) as ((RC & RR) & _ & (P1 & P2 & P3 & P4) & _). fold x y in P1, P2, P3, P4, RC, RR.
  destruct Hmodel as (E1 & E2 & E3 & E4 & E5 & E6 & E7 & E8 & E9 & E10 & E11 & E12 & E13 & E14).
  rewrite E12, E6 in K1. rewrite E12, E8 in K2. rewrite E14, E6 in K3. rewrite E14, E8 in K4.
  assert (NX : normal (fs_lon s) (fm_x M) = nx m x) by (unfold normal, nx, x; now rewrite E5, E6). assert (NY : normal (fs_lat s) (fm_y M) = ny m y) by (unfold normal, ny, y; now rewrite E7, E8).
  assert (NZ : normal (fp_alt p) (fm_alt M) = nz m alt) by (unfold normal, nz; now rewrite E9, E10).
  assert (SX : scale_x m <> 0) by (rewrite E6; apply axis_nonzero; apply OR). assert (SY : scale_y m <> 0) by (rewrite E8; apply axis_nonzero; apply OR).
  destruct (slopes_near M (fm_col M) _ _ _ _ _ ca cb steep OC ltac:(lra) K1 K2 S1) as [A1 A2]. destruct (slopes_near M (fm_row M) _ _ _ _ _ cc cd steep OR ltac:(lra) K3 K4 S2) as [A3 A4].
  rewrite NX, NY, NZ, <- E1, <- E2, <- E12, <- E6 in A1. rewrite NX, NY, NZ, <- E1, <- E2, <- E12, <- E8 in A2. rewrite NX, NY, NZ, <- E3, <- E4, <- E14, <- E6 in A3. rewrite NX, NY, NZ, <- E3, <- E4, <- E14, <- E8 in A4.
  assert (LNC : length (num_col m) = 20%nat) by (rewrite E1, map_length; apply OC). assert (LDC : length (den_col m) = 20%nat) by (rewrite E2, map_length; apply OC).
  assert (LNR : length (num_row m) = 20%nat) by (rewrite E3, map_length; apply OR). assert (LDR : length (den_row m) = 20%nat) by (rewrite E4, map_length; apply OR).
  pose proof (slope_x (num_col m) (den_col m) (offset_x m) (scale_x m) (scale_col m) (offset_col m) (ny m y) (nz m alt) x LNC LDC SX RC) as D1.
  pose proof (slope_y (num_col m) (den_col m) (offset_y m) (scale_y m) (scale_col m) (offset_col m) (nx m x) (nz m alt) y LNC LDC SY RC) as D2.
  pose proof (slope_x (num_row m) (den_row m) (offset_x m) (scale_x m) (scale_row m) (offset_row m) (ny m y) (nz m alt) x LNR LDR SX RR) as D3.
  pose proof (slope_y (num_row m) (den_row m) (offset_y m) (scale_y m) (scale_row m) (offset_row m) (nx m x) (nz m alt) y LNR LDR SY RR) as D4.
  pose proof (uniqueness_limite _ _ _ _ P1 D1) as U1. pose proof (uniqueness_limite _ _ _ _ P2 D2) as U2. pose proof (uniqueness_limite _ _ _ _ P3 D3) as U3. pose proof (uniqueness_limite _ _ _ _ P4 D4) as U4.
  unfold nx, ny in *. rewrite U1, U2, U3, U4. auto.
Qed.
Lemma correction_sized s dlon dlat : is_finite (fs_lon s) = true -> is_finite (fs_lat s) = true -> within r lon0 lat0 (B2R (fs_lon s)) (B2R (fs_lat s)) -> is_finite (fs_dcol s) = true -> is_finite (fs_drow s) = true ->
  size (B2R (fs_dcol s)) (B2R (fs_drow s)) <= 10000000 -> f_again s = true -> correction M (fp_alt p) s dlon dlat ->
  let x := B2R (fs_lon s) in let y := B2R (fs_lat s) in
  is_finite dlon = true /\ is_finite dlat = true /\
  Rabs (a x y * B2R dlon + b x y * B2R dlat - B2R (fs_dcol s)) <= size (B2R (fs_dcol s)) (B2R (fs_drow s)) / 1000000 /\
  Rabs (c x y * B2R dlon + d x y * B2R dlat - B2R (fs_drow s)) <= size (B2R (fs_dcol s)) (B2R (fs_drow s)) / 1000000.
Proof.
  intros F1 F2 I FC FR ZU AG (ca & cb & cc & cd & S1 & S2 & SOL) x y.
  destruct (slopes_true s ca cb cc cd F1 F2 I S1 S2) as ([Fa Ea] & [Fb Eb] & [Fc Ec] & [Fd Ed]). fold x y in Ea, Eb, Ec, Ed.
  destruct Hgentle as (G0 & B0 & R0 & Hq & Hc & Hs & Hr & Hl & _). pose proof steep_pos as S0. destruct sizes as (GS & G2 & SL).
  destruct (HW _ _ I) as (_ & _ & _ & HG & HF). fold x y in HG, HF.
  assert (SA : Rabs (a x y) <= steep) by (apply HF; simpl; auto). assert (SB : Rabs (b x y) <= steep) by (apply HF; simpl; auto).
  assert (SC : Rabs (c x y) <= steep) by (apply HF; simpl; auto). assert (SD : Rabs (d x y) <= steep) by (apply HF; simpl; auto).
  pose proof (near_bound _ _ _ _ Ea SA) as Ta. pose proof (near_bound _ _ _ _ Eb SB) as Tb. pose proof (near_bound _ _ _ _ Ec SC) as Tc. pose proof (near_bound _ _ _ _ Ed SD) as Td.
  (* the size of the residues *)
  pose proof (again_size s FC FR AG) as ZL.
  set (z := size (B2R (fs_dcol s)) (B2R (fs_drow s))) in *.
  (* the computed system is well conditioned *)
  assert (HG' : forall u v, size u v <= 1001 / 1000 * gsd * size (B2R ca * u + B2R cb * v) (B2R cc * u + B2R cd * v)).
  { intros u v. specialize (HG u v). pose proof (size_l u v) as Lu. pose proof (size_r u v) as Lv. pose proof (size_pos u v) as P0. set (t := size u v) in *.
    set (q := size (B2R ca * u + B2R cb * v) (B2R cc * u + B2R cd * v)) in *.
    assert (V : forall f g F G, Rabs (F - f) <= steep / 10000000000 -> Rabs (G - g) <= steep / 10000000000 -> Rabs (F * u + G * v) <= q -> Rabs (f * u + g * v) <= q + 2 * (steep / 10000000000 * t)).
    { intros f g F G HF1 HG1 HQ. replace (f * u + g * v) with ((F * u + G * v) + - ((F - f) * u) + - ((G - g) * v)) by ring.
      pose proof (abs_mul _ _ _ _ HF1 Lu) as V1. pose proof (abs_mul _ _ _ _ HG1 Lv) as V2. rewrite <- Rabs_Ropp in V1, V2.
      match goal with |- Rabs (?i + ?j + ?k) <= _ => pose proof (Rabs_triang (i + j) k); pose proof (Rabs_triang i j) end. lra. }
    assert (size (a x y * u + b x y * v) (c x y * u + d x y * v) <= q + 2 * (steep / 10000000000 * t)).
    { apply size_le; [apply (V _ _ (B2R ca) (B2R cb) Ea Eb); apply size_l|apply (V _ _ (B2R cc) (B2R cd) Ec Ed); apply size_r]. }
    assert (H1 : gsd * size (a x y * u + b x y * v) (c x y * u + d x y * v) <= gsd * (q + 2 * (steep / 10000000000 * t))) by (apply Rmult_le_compat_l; lra).
    assert (H2 : gsd * steep * t <= 500 * t) by (apply Rmult_le_compat_r; lra).
    replace (gsd * (q + 2 * (steep / 10000000000 * t))) with (gsd * q + 2 / 10000000000 * (gsd * steep * t)) in H1 by field.
    assert (0 <= gsd * q) by (apply Rmult_le_pos; [exact G0|apply size_pos]). lra. }
  set (S := 1001 / 1000 * steep).
  destruct (solve_near ca cb cc cd (fs_dcol s) (fs_drow s) dlon dlat S (1001 / 1000 * gsd) Fa Fb Fc Fd FC FR) as (Fl & Ft & R1 & R2 & SZ); try (unfold S; lra); try exact HG'; try exact SOL; try (fold z; lra).
  fold z in R1, R2, SZ. split; [exact Fl|]. split; [exact Ft|].
  pose proof (Rle_trans _ _ _ (size_l (B2R dlon) (B2R dlat)) SZ) as BL. pose proof (Rle_trans _ _ _ (size_r (B2R dlon) (B2R dlat)) SZ) as BT.
  assert (GSZ : steep / 10000000000 * (1001 / 1000 * (1001 / 1000 * gsd) * z) <= 6 / 100000000 * z).
  { replace (steep / 10000000000 * (1001 / 1000 * (1001 / 1000 * gsd) * z)) with (1002001 / 1000000 / 10000000000 * (gsd * steep * z)) by field.
    assert (gsd * steep * z <= 500 * z) by (apply Rmult_le_compat_r; lra). lra. }
  assert (V : forall f g F G v, Rabs (F - f) <= steep / 10000000000 -> Rabs (G - g) <= steep / 10000000000 -> Rabs (F * B2R dlon + G * B2R dlat - v) <= 3 / 10000000 * z -> Rabs (f * B2R dlon + g * B2R dlat - v) <= z / 1000000).
  { intros f g F G v HF1 HG1 HQ. replace (f * B2R dlon + g * B2R dlat - v) with ((F * B2R dlon + G * B2R dlat - v) + - ((F - f) * B2R dlon) + - ((G - g) * B2R dlat)) by ring.
    pose proof (abs_mul _ _ _ _ HF1 BL) as V1. pose proof (abs_mul _ _ _ _ HG1 BT) as V2. rewrite <- Rabs_Ropp in V1, V2.
    match goal with |- Rabs (?i + ?j + ?k) <= _ => pose proof (Rabs_triang (i + j) k); pose proof (Rabs_triang i j) end. lra. }
  split; [exact (V _ _ _ _ _ Ea Eb R1)|exact (V _ _ _ _ _ Ec Ed R2)].
Qed.

Lemma correction_good s dlon dlat : is_finite (fs_lon s) = true -> is_finite (fs_lat s) = true -> within r lon0 lat0 (B2R (fs_lon s)) (B2R (fs_lat s)) -> residue_of s ->
  f_again s = true -> correction M (fp_alt p) s dlon dlat ->
  let x := B2R (fs_lon s) in let y := B2R (fs_lat s) in
  is_finite dlon = true /\ is_finite dlat = true /\
  Rabs (a x y * B2R dlon + b x y * B2R dlat - B2R (fs_dcol s)) <= size (B2R (fs_dcol s)) (B2R (fs_drow s)) / 1000000 /\
  Rabs (c x y * B2R dlon + d x y * B2R dlat - B2R (fs_drow s)) <= size (B2R (fs_dcol s)) (B2R (fs_drow s)) / 1000000.
Proof.
  intros F1 F2 I (FC & FR & EC & ER) AG CO. destruct Hgentle as (G0 & B0 & R0 & Hq & Hc & Hs & Hr & Hl & _).
  destruct (col_remainder m alt r gsd bend steep col lon0 lat0 B0 HC a b c d HW _ _ r I I) as [_ BC]. destruct (row_remainder m alt r gsd bend steep row lon0 lat0 B0 HR a b c d HW _ _ r I I) as [_ BR].
  apply correction_sized; try assumption. apply size_le; (eapply Rle_trans; [eapply near_bound; [eassumption|rewrite Rabs_minus_sym; eassumption]|]); lra.
Qed.

(** An iteration. *)
Lemma iteration k s dlon dlat : (k < 6)%nat -> level k s -> f_again s = true -> correction M (fp_alt p) s dlon dlat ->
  is_finite (fadd (fs_lon s) dlon) = true /\ is_finite (fadd (fs_lat s) dlat) = true /\
  size (B2R (fadd (fs_lon s) dlon) - lon0) (B2R (fadd (fs_lat s) dlat) - lat0) <= reach (S k) /\
  (forall srow scol, f_sensor M (fadd (fs_lon s) dlon) (fadd (fs_lat s) dlat) (fp_alt p) srow scol ->
     level (S k) (FSt (fadd (fs_lon s) dlon) (fadd (fs_lat s) dlat) (fsub (fp_col p) scol) (fsub (fp_row p) srow))).
Proof.
  intros Hk (F1 & F2 & SZ & RES & _) AG CO. destruct Hgentle as (G0 & B0 & R0 & Hq & Hc & Hs & Hr & Hl & _). pose proof steep_pos as S0. pose proof r_small as RS.
  pose proof (reach_range r gsd G0 R0 Hl k) as [_ RK]. pose proof (reach_range r gsd G0 R0 Hl (S k)) as [_ RK'].
  assert (I : within r lon0 lat0 (B2R (fs_lon s)) (B2R (fs_lat s))) by (unfold RpcConvSpec.within; lra).
  destruct (correction_good s dlon dlat F1 F2 I RES AG CO) as (Fl & Ft & C1 & C2). pose proof RES as (_ & _ & E1 & E2).
  set (x := B2R (fs_lon s)) in *. set (y := B2R (fs_lat s)) in *. set (dx := B2R dlon) in *. set (dy := B2R dlat) in *.
  assert (Z : forall t, Rabs (t - t) <= 21 / 1000000000000000) by (intros t; rewrite Rminus_eq_0, Rabs_R0; lra).
  pose proof (inexact_step m alt r gsd bend steep row col lon0 lat0 G0 B0 (conj S0 Hs) HC HR a b c d HW x y dx dy) as STEP.
  destruct (STEP (x + dx) (y + dy) _ _ _ SZ RK E1 E2 C1 C2 (Z _) (Z _)) as (_ & _ & T).
  pose proof (after_reach r gsd bend steep G0 R0 Hq Hc Hl k Hk) as AR.
  assert (I' : within r lon0 lat0 (x + dx) (y + dy)) by (unfold RpcConvSpec.within; lra).
  destruct (HW _ _ I') as (_ & (L1 & L2) & _). assert (A1 : Rabs (x + dx) <= 180) by (apply Rabs_le; lra). assert (A2 : Rabs (y + dy) <= 90) by (apply Rabs_le; lra).
  pose proof ulp1_pos as U0. pose proof ulp1_fine as U1. pose proof tiny_pos as T0. pose proof tiny_fine as T1. pose proof large_huge as HH.
  destruct (fadd_round (fs_lon s) dlon F1 Fl) as [V1 W1]; [apply huge_lt; fold x dx; lra|]. destruct (fadd_round (fs_lat s) dlat F2 Ft) as [V2 W2]; [apply huge_lt; fold y dy; lra|]. fold x dx in V1. fold y dy in V2.
  assert (U2 : ulp1 <= 1111 / 10000000000000000000) by (rewrite ulp1_val; change (IZR (2 ^ 53)) with 9007199254740992; lra).
  assert (X1 : Rabs (B2R (fadd (fs_lon s) dlon) - (x + dx)) <= 21 / 1000000000000000) by (rewrite V1; eapply Rle_trans; [apply (rnd_near _ 180 A1)|lra]).
  assert (X2 : Rabs (B2R (fadd (fs_lat s) dlat) - (y + dy)) <= 21 / 1000000000000000) by (rewrite V2; eapply Rle_trans; [apply (rnd_near _ 90 A2)|lra]).
  destruct (STEP _ _ _ _ _ SZ RK E1 E2 C1 C2 X1 X2) as (Y1 & Y2 & Y3). pose proof (Rle_trans _ _ _ Y3 AR) as SZ'.
  split; [exact W1|]. split; [exact W2|]. split; [exact SZ'|]. intros srow scol SE.
  assert (J : within r lon0 lat0 (B2R (fadd (fs_lon s) dlon)) (B2R (fadd (fs_lat s) dlat))) by (unfold RpcConvSpec.within; lra).
  pose proof (sensor_residue _ _ _ _ W1 W2 J SE) as RS'. unfold level. cbn [fs_lon fs_lat]. split; [exact W1|]. split; [exact W2|]. split; [exact SZ'|]. split; [exact RS'|].
  intros E6. injection E6 as ->. destruct RS' as (FC & FR & EC & ER). cbn [fs_lon fs_lat fs_dcol fs_drow] in FC, FR, EC, ER.
  assert (R56 : reach 6 <= reach 5) by (unfold FloatConv.reach; cbn [part multiple]; lra).
  destruct (last_residue m alt r gsd bend steep row col lon0 lat0 G0 B0 R0 Hq Hc Hr Hl HC HR a b c d HW x y _ _ SZ (Rle_trans _ _ _ SZ' R56) Y1 Y2) as [Q1 Q2].
  apply not_again; cbn [fs_dcol fs_drow]; [exact FC|exact FR| |].
  - pose proof (near_bound _ _ _ _ EC (Rle_trans _ _ _ (Req_le _ _ (Rabs_minus_sym _ _)) Q1)). lra.
  - pose proof (near_bound _ _ _ _ ER (Rle_trans _ _ _ (Req_le _ _ (Rabs_minus_sym _ _)) Q2)). lra.
Qed.

(** The first iteration, with residues of another altitude: a larger error [E]. *)
Lemma first_iteration s dlon dlat E : is_finite (fs_lon s) = true -> is_finite (fs_lat s) = true -> within r lon0 lat0 (B2R (fs_lon s)) (B2R (fs_lat s)) ->
  is_finite (fs_dcol s) = true -> is_finite (fs_drow s) = true ->
  Rabs (B2R (fs_dcol s) - (col - col_of m (B2R (fs_lon s)) (B2R (fs_lat s)) alt)) <= E -> Rabs (B2R (fs_drow s) - (row - row_of m (B2R (fs_lon s)) (B2R (fs_lat s)) alt)) <= E ->
  gsd * E <= 45 / 100 * r -> f_again s = true -> correction M (fp_alt p) s dlon dlat ->
  is_finite (fadd (fs_lon s) dlon) = true /\ is_finite (fadd (fs_lat s) dlat) = true /\ within r lon0 lat0 (B2R (fadd (fs_lon s) dlon)) (B2R (fadd (fs_lat s) dlat)) /\
  (forall srow scol, f_sensor M (fadd (fs_lon s) dlon) (fadd (fs_lat s) dlat) (fp_alt p) srow scol ->
     level 0 (FSt (fadd (fs_lon s) dlon) (fadd (fs_lat s) dlat) (fsub (fp_col p) scol) (fsub (fp_row p) srow))).
Proof.
  intros F1 F2 I FC FR E1 E2 GE AG CO. destruct Hgentle as (G0 & B0 & R0 & Hq & Hc & Hs & Hr & Hl & _). pose proof steep_pos as S0. destruct sizes as (GS & _ & _).
  assert (P0 : 0 <= E) by (eapply Rle_trans; [apply Rabs_pos|exact E1]).
  assert (EU : E <= 450000).
  { assert (1 * E <= gsd * steep * E) by (apply Rmult_le_compat_r; lra). assert (steep * (gsd * E) <= steep * (45 / 100 * r)) by (apply Rmult_le_compat_l; lra). lra. }
  destruct (col_remainder m alt r gsd bend steep col lon0 lat0 B0 HC a b c d HW _ _ r I I) as [RC BC]. destruct (row_remainder m alt r gsd bend steep row lon0 lat0 B0 HR a b c d HW _ _ r I I) as [RR BR].
  assert (Z : size (B2R (fs_dcol s)) (B2R (fs_drow s)) <= 2 * steep * r + E).
  { apply size_le; (eapply Rle_trans; [eapply near_bound; [eassumption|rewrite Rabs_minus_sym; eassumption]|]); lra. }
  destruct (correction_sized s dlon dlat F1 F2 I FC FR ltac:(lra) AG CO) as (Fl & Ft & C1 & C2).
  destruct (HW _ _ I) as (_ & _ & _ & HG & HF).
  set (x := B2R (fs_lon s)) in *. set (y := B2R (fs_lat s)) in *. set (dx := B2R dlon) in *. set (dy := B2R dlat) in *. set (z := size (B2R (fs_dcol s)) (B2R (fs_drow s))) in *.
  set (T := 2 * bend * r * r + z / 1000000 + E + steep * (21 / 1000000000000000) + steep * (21 / 1000000000000000)).
  assert (GT : gsd * T <= r).
  { assert (H1 : 2 * gsd * bend * r * r <= 1 / 2 * r) by (apply Rmult_le_compat_r; lra).
    assert (H2 : gsd * z <= gsd * (2 * steep * r + E)) by (apply Rmult_le_compat_l; assumption).
    assert (H3 : gsd * steep * r <= 500 * r) by (apply Rmult_le_compat_r; lra).
    assert (H4 : gsd * steep <= gsd * 10000000) by (apply Rmult_le_compat_l; assumption).
    unfold T. replace (gsd * (2 * bend * r * r + z / 1000000 + E + steep * (21 / 1000000000000000) + steep * (21 / 1000000000000000)))
      with (2 * gsd * bend * r * r + gsd * z / 1000000 + gsd * E + gsd * steep * (42 / 1000000000000000)) by field. lra. }
  assert (STEP : forall x' y', Rabs (x' - (x + dx)) <= 21 / 1000000000000000 -> Rabs (y' - (y + dy)) <= 21 / 1000000000000000 -> within r lon0 lat0 x' y').
  { intros x' y' X Y. unfold RpcConvSpec.within. eapply Rle_trans; [apply HG|]. eapply Rle_trans; [|exact GT]. apply Rmult_le_compat_l; [exact G0|].
    assert (ONE : forall f g q (v t : R), In f [a; b; c; d] -> In g [a; b; c; d] -> Rabs (f x y * (x - lon0) + g x y * (y - lat0) - (q - t)) <= 2 * bend * r * r ->
      Rabs (f x y * dx + g x y * dy - v) <= z / 1000000 -> Rabs (v - (t - q)) <= E -> Rabs (f x y * (x' - lon0) + g x y * (y' - lat0)) <= T).
    { intros f g q v t Hf Hg K1 K2 K3. destruct (HF f Hf) as [SF _]. destruct (HF g Hg) as [SG _].
      replace (f x y * (x' - lon0) + g x y * (y' - lat0)) with ((f x y * (x - lon0) + g x y * (y - lat0) - (q - t)) + (f x y * dx + g x y * dy - v) + (v - (t - q)) + f x y * (x' - (x + dx)) + g x y * (y' - (y + dy))) by ring.
      apply abs_sum5; try assumption; now apply abs_mul. }
    apply size_le; [apply (ONE a b (col_of m x y alt) (B2R (fs_dcol s)) col)|apply (ONE c d (row_of m x y alt) (B2R (fs_drow s)) row)]; simpl; auto. }
  assert (Z0 : forall t, Rabs (t - t) <= 21 / 1000000000000000) by (intros t; rewrite Rminus_eq_0, Rabs_R0; lra).
  destruct (HW _ _ (STEP _ _ (Z0 _) (Z0 _))) as (_ & (L1 & L2) & _). assert (A1 : Rabs (x + dx) <= 180) by (apply Rabs_le; lra). assert (A2 : Rabs (y + dy) <= 90) by (apply Rabs_le; lra).
  pose proof ulp1_pos as U0. pose proof ulp1_fine as U1. pose proof tiny_pos as T0. pose proof tiny_fine as T1. pose proof large_huge as HH.
  destruct (fadd_round (fs_lon s) dlon F1 Fl) as [V1 W1]; [apply huge_lt; fold x dx; lra|]. destruct (fadd_round (fs_lat s) dlat F2 Ft) as [V2 W2]; [apply huge_lt; fold y dy; lra|]. fold x dx in V1. fold y dy in V2.
  assert (U2 : ulp1 <= 1111 / 10000000000000000000) by (rewrite ulp1_val; change (IZR (2 ^ 53)) with 9007199254740992; lra).
  assert (X1 : Rabs (B2R (fadd (fs_lon s) dlon) - (x + dx)) <= 21 / 1000000000000000) by (rewrite V1; eapply Rle_trans; [apply (rnd_near _ 180 A1)|lra]).
  assert (X2 : Rabs (B2R (fadd (fs_lat s) dlat) - (y + dy)) <= 21 / 1000000000000000) by (rewrite V2; eapply Rle_trans; [apply (rnd_near _ 90 A2)|lra]).
  pose proof (STEP _ _ X1 X2) as J. split; [exact W1|]. split; [exact W2|]. split; [exact J|]. intros srow scol SE.
  unfold level. cbn [fs_lon fs_lat]. split; [exact W1|]. split; [exact W2|]. split; [unfold FloatConv.reach; cbn [part multiple]; unfold RpcConvSpec.within in J; lra|]. split; [now apply sensor_residue|discriminate].
Qed.

(** The start. *)
Lemma start_level srow scol : within r lon0 lat0 (offset_x m) (offset_y m) -> f_sensor M (fa_offset (fm_x M)) (fa_offset (fm_y M)) (fp_alt p) srow scol ->
  is_finite (fa_offset (fm_x M)) = true -> is_finite (fa_offset (fm_y M)) = true ->
  level 0 (FSt (fa_offset (fm_x M)) (fa_offset (fm_y M)) (fsub (fp_col p) scol) (fsub (fp_row p) srow)).
Proof.
  intros I SE FX FY. destruct Hgentle as (G0 & B0 & R0 & _). destruct Hmodel as (_ & _ & _ & _ & E5 & _ & E7 & _). rewrite E5, E7 in I.
  unfold level. cbn [fs_lon fs_lat]. split; [exact FX|]. split; [exact FY|]. split; [unfold FloatConv.reach; cbn [part multiple]; unfold RpcConvSpec.within in I; lra|]. split; [now apply sensor_residue|discriminate].
Qed.
(** The positions of the states are in the square; the ones that need no more iteration are seen in the pixel. *)
Definition ended (s : fstate) : Prop := f_again s = false /\ exists j, level j s.
Lemma level_in k s : level k s -> is_finite (fs_lon s) = true /\ is_finite (fs_lat s) = true /\ within r lon0 lat0 (B2R (fs_lon s)) (B2R (fs_lat s)).
Proof.
  intros (F1 & F2 & SZ & _). destruct Hgentle as (G0 & B0 & R0 & _ & _ & _ & _ & Hl & _). pose proof (reach_range r gsd G0 R0 Hl k) as [_ RK'].
  split; [exact F1|]. split; [exact F2|]. unfold RpcConvSpec.within. lra.
Qed.
Lemma ended_seen s : ended s -> seen_at m (fp_row p) (fp_col p) (fs_lon s) (fs_lat s) (fp_alt p).
Proof.
  intros [G (k & _ & _ & _ & (FC & FR & EC & ER) & _)]. unfold f_again in G. apply orb_false_iff in G as [G1 G2]. destruct feps_val as [FE [E0 E1]].
  destruct (not_more feps _ FE (finite_not_nan _ FC) G1) as [_ B1]. destruct (not_more feps _ FE (finite_not_nan _ FR) G2) as [_ B2].
  apply Rabs_le_inv in EC, ER, B1, B2. split; apply Rabs_le; lra.
Qed.
(** The compiled loop. *)
Lemma compiled_run k n s e out : cn_loop M p n s e out -> level k s -> (k <= 6)%nat -> (6 - k <= n)%nat -> e = FPrecise /\ ended out.
Proof.
  intros L. revert k. induction L as [n s G|s G|n s e out dlon dlat srow scol G CO IN L IH]; intros k LV K N; [split; [reflexivity|split; [exact G|now exists k]]| |].
  - assert (k = 6)%nat as -> by lia. destruct LV as (_ & _ & _ & _ & H). rewrite (H eq_refl) in G. discriminate.
  - destruct (Nat.eq_dec k 6) as [->|K6]; [destruct LV as (_ & _ & _ & _ & H); rewrite (H eq_refl) in G; discriminate|].
    destruct (iteration k s dlon dlat ltac:(lia) LV G CO) as (F1 & F2 & SZ & LV').
    unfold c_inverse_loc in IN. rewrite (finite_not_nan _ F1), (finite_not_nan _ F2) in IN. cbn [orb] in IN. apply (IH (S k)); [now apply LV'|lia|lia].
Qed.
(** An iteration of the batch, for this pixel. *)
Lemma batch_step k s s' : n_iterate M p s s' -> level k s \/ ended s -> (k <= 6)%nat -> (level (S k) s' /\ (k < 6)%nat) \/ ended s'.
Proof.
  intros IT LV K. unfold n_iterate in IT. destruct (f_again s) eqn:G.
  - destruct LV as [LV|[H _]]; [|congruence]. destruct (Nat.eq_dec k 6) as [->|K6]; [destruct LV as (_ & _ & _ & _ & H); rewrite (H eq_refl) in G; discriminate|].
    destruct IT as (dlon & dlat & srow & scol & CO & IN & ->). destruct (iteration k s dlon dlat ltac:(lia) LV G CO) as (F1 & F2 & SZ & LV').
    destruct Hgentle as (G0 & B0 & R0 & _ & _ & _ & _ & Hl & _). pose proof (reach_range r gsd G0 R0 Hl (S k)) as [_ RK'].
    assert (J : within r lon0 lat0 (B2R (fadd (fs_lon s) dlon)) (B2R (fadd (fs_lat s) dlat))) by (unfold RpcConvSpec.within; lra).
    left. split; [|lia]. apply LV'. apply IN. now apply (domain_ok M _ _ (fp_alt p)), Hdomain.
  - subst s'. right. destruct LV as [LV|H]; [split; [exact G|now exists k]|exact H].
Qed.
End Run.

(** * The batch *)
Lemma max_in l : l <> [] -> In (f_max l) l.
Proof.
  destruct l as [|x l]; [easy|]. intros _. cbn [f_max]. revert x. induction l as [|y l IH]; intros x; [now left|]. cbn [fold_left].
  destruct (IH (f_maximum x y)) as [E|H]; [|right; now right]. rewrite <- E. unfold f_maximum. destruct (is_nan x); [now left|]. destruct (is_nan y); [right; now left|]. destruct (Bltb x y); [right; now left|now left].
Qed.
Lemma guard_none ss : (forall s, In s ss -> f_again s = false) -> f_guard ss = false.
Proof.
  intros H. destruct ss as [|s0 ss]; [reflexivity|]. unfold f_guard. apply orb_false_iff. split.
  - assert (I : In (f_max (map (fun s => Babs (fs_dcol s)) (s0 :: ss))) (map (fun s => Babs (fs_dcol s)) (s0 :: ss))) by (apply max_in; discriminate).
    apply in_map_iff in I as (s & <- & I). specialize (H s I). unfold f_again in H. now apply orb_false_iff in H.
  - assert (I : In (f_max (map (fun s => Babs (fs_drow s)) (s0 :: ss))) (map (fun s => Babs (fs_drow s)) (s0 :: ss))) by (apply max_in; discriminate).
    apply in_map_iff in I as (s & <- & I). specialize (H s I). unfold f_again in H. now apply orb_false_iff in H.
Qed.
(** A pixel with its own numbers, and its state after [k] iterations. *)
Definition numbers := (R * R * R * R * R * R)%type.
Definition near_start m M p (N : numbers) : Prop := let '(r, gsd, bend, steep, lon0, lat0) := N in starts_near m M p r gsd bend steep lon0 lat0.
Definition at_level m p (N : numbers) k s : Prop := let '(r, gsd, bend, steep, lon0, lat0) := N in level m p r gsd lon0 lat0 k s.
Definition at_end m p (N : numbers) s : Prop := let '(r, gsd, bend, steep, lon0, lat0) := N in ended m p r gsd lon0 lat0 s.
Definition following m M (N : fpixel -> numbers) k p s : Prop := near_start m M p (N p) /\ finite_pixel p /\ (at_level m p (N p) k s \/ at_end m p (N p) s).
Definition finished m M (N : fpixel -> numbers) p s : Prop := near_start m M p (N p) /\ finite_pixel p /\ at_end m p (N p) s.
Lemma following_6 m M N p s : following m M N 6 p s -> finished m M N p s.
Proof.
  unfold following, finished. destruct (N p) as [[[[[r gsd] bend] steep] lon0] lat0]. cbn [near_start at_level at_end]. intros (A & F & [L|E]); split; [exact A|split; [exact F|]|exact A|now split].
  split; [apply L; reflexivity|now exists 6%nat].
Qed.
Lemma finished_again m M N p s : finished m M N p s -> f_again s = false.
Proof. unfold finished. destruct (N p) as [[[[[r gsd] bend] steep] lon0] lat0]. cbn [at_end]. intros (_ & _ & H & _). exact H. Qed.
Lemma following_step m M N k p s s' : same_model m M -> image_model M -> n_iterate M p s s' -> following m M N k p s -> (k <= 6)%nat ->
  (following m M N (S k) p s' /\ (k < 6)%nat) \/ finished m M N p s'.
Proof.
  unfold following, finished. destruct (N p) as [[[[[r gsd] bend] steep] lon0] lat0]. cbn [near_start at_level at_end]. intros S IM IT (A & F & H) K.
  pose proof A as (HC & HR & HI & HG & (a & b & c & d & HW) & HD).
  destruct (batch_step m M p r gsd bend steep lon0 lat0 S IM F HC HR HG a b c d HW HD k s s' IT H K) as [[L K6]|E]; [left|right]; auto.
Qed.
Lemma following_finite m M N k p s : following m M N k p s -> is_finite (fs_dcol s) = true /\ is_finite (fs_drow s) = true.
Proof. unfold following. destruct (N p) as [[[[[r gsd] bend] steep] lon0] lat0]. cbn [at_level at_end]. intros (_ & _ & H). destruct H as [L|[_ [j L]]]; destruct L as (_ & _ & _ & (F1 & F2 & _) & _); auto. Qed.
Lemma guarded_finished m M N k ps ss : Forall2 (following m M N k) ps ss -> f_guard ss = false -> Forall2 (finished m M N) ps ss.
Proof.
  intros F G.
  assert (NN : Forall (fun s => is_nan (fs_dcol s) = false /\ is_nan (fs_drow s) = false) ss).
  { clear G. induction F as [|p s ps ss H F IH]; constructor; [|exact IH]. destruct (following_finite _ _ _ _ _ _ H). split; now apply finite_not_nan. }
  assert (A : forall s, In s ss -> f_again s = false).
  { intros s I. destruct (guard_false ss s NN I G) as [B1 B2]. unfold f_again. now rewrite B1, B2. }
  clear NN G. induction F as [|p s ps ss H F IH]; constructor; [|apply IH; intros t I; apply A; now right].
  specialize (A s (or_introl eq_refl)). clear - H A. revert H. unfold following, finished. destruct (N p) as [[[[[r gsd] bend] steep] lon0] lat0]. cbn [at_level at_end]. intros (A1 & A2 & H). split; [exact A1|]. split; [exact A2|].
  destruct H as [L|E]; [|exact E]. split; [exact A|now exists k].
Qed.
Lemma batch_run m M N ps n ss e out k : same_model m M -> image_model M -> n_loop M ps n ss e out -> Forall2 (following m M N k) ps ss -> (k <= 6)%nat -> (6 - k <= n)%nat ->
  e = FPrecise /\ Forall2 (finished m M N) ps out.
Proof.
  intros S IM L. revert k. induction L as [n ss G|ss G|n ss ss' e out G IT LEN L IH]; intros k F K KN.
  - split; [reflexivity|]. exact (guarded_finished m M N k ps ss F G).
  - exfalso. assert (k = 6)%nat as -> by lia. rewrite guard_none in G; [discriminate|]. clear - F. induction F as [|p s ps ss H F IH]; [easy|]. intros t [<-|I]; [|now apply IH].
    exact (finished_again _ _ _ _ _ (following_6 _ _ _ _ _ H)).
  - destruct (Nat.eq_dec k 6) as [->|K6].
    + exfalso. rewrite guard_none in G; [discriminate|]. clear - F. induction F as [|p s ps ss H F IH]; [easy|]. intros t [<-|I]; [|now apply IH].
      exact (finished_again _ _ _ _ _ (following_6 _ _ _ _ _ H)).
    + apply (IH (Datatypes.S k)); [|lia|lia]. clear - F IT K S IM. revert ss' IT. induction F as [|p s ps ss H F IH]; cbn [combine]; intros ss' IT; inversion IT as [|x1 s' x3 ss'' H1 H2 X1 X2]; subst; constructor; [|now apply IH].
      cbn [fst snd] in H1. destruct (following_step m M N k p s s' S IM H1 H K) as [[H3 _]|(A & B & C)]; [exact H3|]. unfold following. auto.
Qed.

(** ** A batch with several altitudes *)
(** The pixel with the altitude of the first one. *)
Definition with_alt (alt0 : b64) (p : fpixel) : fpixel := FPix (fp_row p) (fp_col p) alt0.
(** The state of the start, and the one of a pixel that never moves. *)
Definition at_offsets m M alt0 p s : Prop := fs_lon s = fa_offset (fm_x M) /\ fs_lat s = fa_offset (fm_y M) /\ residue_of m (with_alt alt0 p) s.
Definition unmoved m M alt0 p s : Prop := f_again s = false /\ at_offsets m M alt0 p s.
Definition going m M N alt0 k p s : Prop := following m M N k p s \/ unmoved m M alt0 p s.
Definition arrived m M N alt0 p s : Prop := finished m M N p s \/ unmoved m M alt0 p s.
Lemma going_6 m M N alt0 p s : going m M N alt0 6 p s -> f_again s = false.
Proof. intros [H|[H _]]; [exact (finished_again _ _ _ _ _ (following_6 _ _ _ _ _ H))|exact H]. Qed.
Lemma going_finite m M N alt0 k p s : going m M N alt0 k p s -> is_finite (fs_dcol s) = true /\ is_finite (fs_drow s) = true.
Proof. intros [H|(_ & _ & _ & F1 & F2 & _)]; [exact (following_finite _ _ _ _ _ _ H)|auto]. Qed.
Lemma guarded_arrived m M N alt0 k ps ss : Forall2 (going m M N alt0 k) ps ss -> f_guard ss = false -> Forall2 (arrived m M N alt0) ps ss.
Proof.
  intros F G.
  assert (NN : Forall (fun s => is_nan (fs_dcol s) = false /\ is_nan (fs_drow s) = false) ss).
  { clear G. induction F as [|p s ps ss H F IH]; constructor; [|exact IH]. destruct (going_finite _ _ _ _ _ _ _ H). split; now apply finite_not_nan. }
  assert (A : forall s, In s ss -> f_again s = false).
  { intros s I. destruct (guard_false ss s NN I G) as [B1 B2]. unfold f_again. now rewrite B1, B2. }
  clear NN G. induction F as [|p s ps ss H F IH]; constructor; [|apply IH; intros t I; apply A; now right].
  specialize (A s (or_introl eq_refl)). clear - H A. destruct H as [H|H]; [left|right; exact H]. revert H. unfold following, finished. destruct (N p) as [[[[[r gsd] bend] steep] lon0] lat0]. cbn [at_level at_end]. intros (A1 & A2 & H). split; [exact A1|]. split; [exact A2|].
  destruct H as [L|E]; [|exact E]. split; [exact A|now exists k].
Qed.
Lemma going_step m M N alt0 k p s s' : same_model m M -> image_model M -> n_iterate M p s s' -> going m M N alt0 k p s -> (k <= 6)%nat -> going m M N alt0 (S k) p s'.
Proof.
  intros S IM IT [H|H] K.
  - left. destruct (following_step m M N k p s s' S IM IT H K) as [[H3 _]|(A & B & C)]; [exact H3|]. unfold following. auto.
  - right. unfold n_iterate in IT. rewrite (proj1 H) in IT. now subst s'.
Qed.
Lemma batch_run_altitudes m M N alt0 ps n ss e out k : same_model m M -> image_model M -> n_loop M ps n ss e out -> Forall2 (going m M N alt0 k) ps ss -> (k <= 6)%nat -> (6 - k <= n)%nat ->
  e = FPrecise /\ Forall2 (arrived m M N alt0) ps out.
Proof.
  intros S IM L. revert k. induction L as [n ss G|ss G|n ss ss' e out G IT LEN L IH]; intros k F K KN.
  - split; [reflexivity|]. exact (guarded_arrived m M N alt0 k ps ss F G).
  - exfalso. assert (k = 6)%nat as -> by lia. rewrite guard_none in G; [discriminate|]. clear - F. induction F as [|p s ps ss H F IH]; [easy|]. intros t [<-|I]; [exact (going_6 _ _ _ _ _ _ H)|now apply IH].
  - destruct (Nat.eq_dec k 6) as [->|K6].
    + exfalso. rewrite guard_none in G; [discriminate|]. clear - F. induction F as [|p s ps ss H F IH]; [easy|]. intros t [<-|I]; [exact (going_6 _ _ _ _ _ _ H)|now apply IH].
    + apply (IH (Datatypes.S k)); [|lia|lia]. clear - F IT K S IM. revert ss' IT. induction F as [|p s ps ss H F IH]; cbn [combine]; intros ss' IT; inversion IT as [|x1 s' x3 ss'' H1 H2 X1 X2]; subst; constructor; [|now apply IH].
      cbn [fst snd] in H1. exact (going_step m M N alt0 k p s s' S IM H1 H K).
Qed.
(** The start: the residues are the ones of the altitude of the first pixel. *)
Definition small_shift m p (N : numbers) alt0 : Prop := let '(r, gsd, bend, steep, lon0, lat0) := N in near_altitude m p alt0 r gsd.
Definition begun m M N alt0 p s : Prop := near_start m M p (N p) /\ finite_pixel p /\ at_offsets m M alt0 p s /\ small_shift m p (N p) alt0.
Lemma difference_near_value (x y : b64) v : is_finite x = true -> is_finite y = true -> Rabs (B2R y - v) <= 12 / 1000000000 -> Rabs (v - B2R x) <= 3000000 ->
  is_finite (fsub x y) = true /\ Rabs (B2R (fsub x y) - (B2R x - v)) <= 13 / 1000000000.
Proof.
  intros Fx Fy E B. pose proof ulp1_pos as U0. pose proof ulp1_fine as U1. pose proof tiny_pos as T0. pose proof tiny_fine as T1. pose proof large_huge as HH.
  assert (D : Rabs (B2R x - B2R y - (B2R x - v)) <= 12 / 1000000000) by (replace (B2R x - B2R y - (B2R x - v)) with (- (B2R y - v)) by ring; now rewrite Rabs_Ropp).
  assert (C : Rabs (B2R x - v) <= 3000000) by (rewrite Rabs_minus_sym; lra).
  destruct (fsub_round x y Fx Fy) as [EV FV]; [apply huge_lt; pose proof (near_bound _ _ _ _ D C); lra|]. split; [exact FV|].
  refine (proj2 (near_round _ _ _ _ _ _ FV EV D C _)). lra.
Qed.
Lemma begin m M (N : fpixel -> numbers) alt0 p row col : same_model m M -> image_model M -> near_start m M p (N p) -> finite_pixel p -> small_shift m p (N p) alt0 ->
  in_domain M (fa_offset (fm_x M)) (fa_offset (fm_y M)) alt0 -> f_sensor M (fa_offset (fm_x M)) (fa_offset (fm_y M)) alt0 row col ->
  begun m M N alt0 p (FSt (fa_offset (fm_x M)) (fa_offset (fm_y M)) (fsub (fp_col p) col) (fsub (fp_row p) row)).
Proof.
  intros S IM A F SH D SE. split; [exact A|]. split; [exact F|]. split; [|exact SH]. split; [reflexivity|]. split; [reflexivity|].
  destruct (sensor_error m M _ _ _ row col S IM D SE) as (FR & FC & ER & EC). revert A SH. destruct (N p) as [[[[[r gsd] bend] steep] lon0] lat0]. cbn [near_start small_shift]. intros (HC & HR & HI & HG & (a & b & c & d & HW) & _) SH.
  unfold near_altitude in SH. pose proof S as (_ & _ & _ & _ & E5 & _ & E7 & _). rewrite E5, E7 in HI, SH. cbv zeta in SH.
  match type of SH with gsd * size ?u ?v <= _ => pose proof (size_l u v) as SL; pose proof (size_r u v) as SR; pose proof (size_pos u v) as P0; set (t := size u v) in * end.
  destruct (sizes m p r gsd bend steep lon0 lat0 HG a b c d HW) as (GS & _ & _). pose proof (steep_pos m r gsd bend steep HG) as S0. pose proof HG as (G0 & B0 & R0 & _ & _ & _ & Hr & _).
  assert (TU : t <= 450000).
  { assert (1 * t <= gsd * steep * t) by (apply Rmult_le_compat_r; lra). assert (steep * (gsd * t) <= steep * (4 / 10 * r)) by (apply Rmult_le_compat_l; lra). lra. }
  destruct (col_remainder m (B2R (fp_alt p)) r gsd bend steep _ lon0 lat0 B0 HC a b c d HW _ _ r HI HI) as [_ BC]. destruct (row_remainder m (B2R (fp_alt p)) r gsd bend steep _ lon0 lat0 B0 HR a b c d HW _ _ r HI HI) as [_ BR].
  destruct F as [F1 F2]. apply Rabs_le_inv in SL, SR, BC, BR.
  destruct (difference_near_value (fp_col p) col _ F2 FC EC) as [K1 K2]; [apply Rabs_le; lra|]. destruct (difference_near_value (fp_row p) row _ F1 FR ER) as [K3 K4]; [apply Rabs_le; lra|].
  unfold residue_of. cbn [fs_lon fs_lat fs_dcol fs_drow with_alt fp_row fp_col fp_alt]. auto.
Qed.
Lemma begun_step m M N alt0 p s s' : same_model m M -> image_model M -> is_finite (fa_offset (fm_x M)) = true -> is_finite (fa_offset (fm_y M)) = true ->
  n_iterate M p s s' -> begun m M N alt0 p s -> going m M N alt0 0 p s'.
Proof.
  intros S IM Fx Fy IT (A & F & (P1 & P2 & RES) & SH). unfold n_iterate in IT. destruct (f_again s) eqn:AG; [|subst s'; right; split; [exact AG|split; [exact P1|split; [exact P2|exact RES]]]].
  destruct IT as (dlon & dlat & row & col & CO & IN & ->). left. unfold following. revert A SH. destruct (N p) as [[[[[r gsd] bend] steep] lon0] lat0]. cbn [near_start at_level at_end small_shift]. intros A SH. split; [exact A|]. split; [exact F|]. left.
  pose proof A as (HC & HR & HI & HG & (a & b & c & d & HW) & HD). pose proof S as (_ & _ & _ & _ & E5 & _ & E7 & _). unfold near_altitude in SH. rewrite E5, E7 in HI, SH. rewrite <- P1, <- P2 in HI, SH. rewrite <- P1 in Fx. rewrite <- P2 in Fy.
  destruct RES as (FC & FR & EC & ER). cbn [with_alt fp_row fp_col fp_alt] in EC, ER. cbv zeta in SH.
  match type of SH with gsd * size ?u ?v <= _ => pose proof (size_l u v) as SL; pose proof (size_r u v) as SR; set (t := size u v) in * end.
  pose proof HG as (G0 & _ & R0 & _ & _ & _ & _ & Hl & _).
  destruct (first_iteration m M p r gsd bend steep lon0 lat0 S IM F HC HR HG a b c d HW HD s dlon dlat (t + 13 / 1000000000) Fx Fy HI FC FR) as (W1 & W2 & J & LV); try assumption; try lra.
  - apply Rabs_le_inv in EC, SL. apply Rabs_le. lra.
  - apply Rabs_le_inv in ER, SR. apply Rabs_le. lra.
  - apply LV, IN, (domain_ok M _ _ (fp_alt p)), HD; assumption.
Qed.
Lemma begun_guarded m M N alt0 ps ss : Forall2 (begun m M N alt0) ps ss -> f_guard ss = false -> Forall2 (arrived m M N alt0) ps ss.
Proof.
  intros F G.
  assert (NN : Forall (fun s => is_nan (fs_dcol s) = false /\ is_nan (fs_drow s) = false) ss).
  { clear G. induction F as [|p s ps ss H F IH]; constructor; [|exact IH]. destruct H as (_ & _ & (_ & _ & F1 & F2 & _) & _). split; now apply finite_not_nan. }
  assert (A : forall s, In s ss -> f_again s = false).
  { intros s I. destruct (guard_false ss s NN I G) as [B1 B2]. unfold f_again. now rewrite B1, B2. }
  clear NN G. induction F as [|p s ps ss H F IH]; constructor; [|apply IH; intros t I; apply A; now right].
  right. split; [apply A; now left|]. apply H.
Qed.
Lemma altitudes_run m M N alt0 ps n ss e out : same_model m M -> image_model M -> is_finite (fa_offset (fm_x M)) = true -> is_finite (fa_offset (fm_y M)) = true ->
  n_loop M ps n ss e out -> Forall2 (begun m M N alt0) ps ss -> (7 <= n)%nat -> e = FPrecise /\ Forall2 (arrived m M N alt0) ps out.
Proof.
  intros S IM Fx Fy L F K. destruct L as [n ss G|ss G|n ss ss' e out G IT LEN L].
  - split; [reflexivity|now apply begun_guarded].
  - lia.
  - apply (batch_run_altitudes m M N alt0 ps n ss' e out 0 S IM L); [|lia|lia]. clear - F IT S IM Fx Fy. revert ss' IT. induction F as [|p s ps ss H F IH]; cbn [combine]; intros ss' IT; inversion IT as [|x1 s' x3 ss'' H1 H2 X1 X2]; subst; constructor; [|now apply IH].
    cbn [fst snd] in H1. exact (begun_step m M N alt0 p s s' S IM Fx Fy H1 H).
Qed.
Lemma unmoved_seen m M alt0 p s : unmoved m M alt0 p s -> seen_at m (fp_row p) (fp_col p) (fs_lon s) (fs_lat s) alt0.
Proof.
  intros [G (_ & _ & FC & FR & EC & ER)]. cbn [with_alt fp_row fp_col fp_alt] in EC, ER. unfold f_again in G. apply orb_false_iff in G as [G1 G2]. destruct feps_val as [FE [E0 E1]].
  destruct (not_more feps _ FE (finite_not_nan _ FC) G1) as [_ B1]. destruct (not_more feps _ FE (finite_not_nan _ FR) G2) as [_ B2].
  apply Rabs_le_inv in EC, ER, B1, B2. split; apply Rabs_le; lra.
Qed.

(** * Every call has a result *)
Lemma term_evaluates l : l <> [] -> exists v, evaluates [l] v.
Proof.
  destruct l as [|x l]; [easy|]. intros _. revert x. induction l as [|y l IH]; intros x; [exists x; constructor|].
  destruct (IH y) as [v Hv]. exists (fmul x v). exact (ev_mul [[x]] [y :: l] x v (ev_factor x) Hv).
Qed.
Lemma poly_evaluates t : t <> [] -> Forall (fun l => l <> []) t -> exists v, evaluates t v.
Proof.
  destruct t as [|l t]; [easy|]. intros _ F. inversion F as [|x y H1 H2]; subst. clear F. revert l H1. induction H2 as [|k t Hk Ht IH]; intros l Hl; [now apply term_evaluates|].
  destruct (term_evaluates l Hl) as [v Hv]. destruct (IH k Hk) as [w Hw]. exists (fadd v w). exact (ev_add [l] (k :: t) v w Hv Hw).
Qed.
Definition twenty (M : fmodel) : Prop := length (fm_num_col M) = 20%nat /\ length (fm_den_col M) = 20%nat /\ length (fm_num_row M) = 20%nat /\ length (fm_den_row M) = 20%nat.
Lemma sensor_total M lon lat alt : twenty M -> exists row col, f_sensor M lon lat alt row col.
Proof.
  intros (L1 & L2 & L3 & L4). eexists _, _. split; [exact (proj1 (C88_source_orders (fm_x M) (fm_y M) (fm_alt M) (fm_row M) _ _ lon lat alt L3 L4))|].
  exact (proj1 (C88_source_orders (fm_x M) (fm_y M) (fm_alt M) (fm_col M) _ _ lon lat alt L1 L2)).
Qed.
Lemma slopes_total M out num den lon lat alt : length num = 20%nat -> length den = 20%nat -> exists a b, slopes M out num den lon lat alt a b.
Proof.
  intros L1 L2. unfold slopes. set (x := fnormalise lon _ _). set (y := fnormalise lat _ _). set (z := fnormalise alt _ _).
  assert (NE : forall c, (exists v, evaluates (longitude_terms x y z c) v) /\ (exists v, evaluates (latitude_terms x y z c) v)).
  { intros c. split; (apply poly_evaluates; [discriminate|repeat (apply Forall_cons; [discriminate|]); apply Forall_nil]). }
  destruct (NE num) as [[nx Hnx] [ny Hny]]. destruct (NE den) as [[dx Hdx] [dy Hdy]].
  eexists _, _, (source_polynomial x y z num), (source_polynomial x y z den), nx, dx, ny, dy.
  split; [now apply cp_python, source_evaluates|]. split; [now apply cp_python, source_evaluates|]. do 4 (split; [assumption|]). split; apply sl_source, dp_source.
Qed.
Lemma correction_total M alt s : twenty M -> exists dlon dlat, correction M alt s dlon dlat.
Proof.
  intros (L1 & L2 & L3 & L4). destruct (slopes_total M (fm_col M) _ _ (fs_lon s) (fs_lat s) alt L1 L2) as (a & b & H1). destruct (slopes_total M (fm_row M) _ _ (fs_lon s) (fs_lat s) alt L3 L4) as (c & d & H2).
  eexists _, _, a, b, c, d. split; [exact H1|]. split; [exact H2|]. eexists _, _, _. split; [apply dp_source|]. split; [apply dp_source|]. split; [apply sp_source|]. split; reflexivity.
Qed.
Lemma c_inverse_total M lon lat alt : twenty M -> exists row col, c_inverse_loc M lon lat alt row col.
Proof. intros T. unfold c_inverse_loc. destruct (is_nan lon || is_nan lat); [eauto|now apply sensor_total]. Qed.
Lemma compiled_total M p n s : twenty M -> exists e out, cn_loop M p n s e out.
Proof.
  intros T. revert s. induction n as [|n IH]; intros s; (destruct (f_again s) eqn:G; [|exists FPrecise, s; now constructor]); [exists FLimit, s; now constructor|].
  destruct (correction_total M (fp_alt p) s T) as (dlon & dlat & CO). destruct (c_inverse_total M (fadd (fs_lon s) dlon) (fadd (fs_lat s) dlat) (fp_alt p) T) as (row & col & I).
  destruct (IH (FSt (fadd (fs_lon s) dlon) (fadd (fs_lat s) dlat) (fsub (fp_col p) col) (fsub (fp_row p) row))) as (e & out & L). exists e, out. eapply cnl_iterate; eassumption.
Qed.
Lemma step_total M p s : twenty M -> exists s', n_iterate M p s s'.
Proof.
  intros T. unfold n_iterate. destruct (f_again s); [|eauto]. destruct (correction_total M (fp_alt p) s T) as (dlon & dlat & CO).
  destruct (sensor_total M (fadd (fs_lon s) dlon) (fadd (fs_lat s) dlat) (fp_alt p) T) as (row & col & I). eexists _, dlon, dlat, row, col. split; [exact CO|]. split; [intros _; exact I|reflexivity].
Qed.
Lemma batch_total M ps n ss : twenty M -> length ss = length ps -> exists e out, n_loop M ps n ss e out.
Proof.
  intros T. revert ss. induction n as [|n IH]; intros ss LN; (destruct (f_guard ss) eqn:G; [|exists FPrecise, ss; now constructor]); [exists FLimit, ss; now constructor|].
  assert (ST : exists ss', Forall2 (fun ps s' => n_iterate M (fst ps) (snd ps) s') (combine ps ss) ss' /\ length ss' = length ps).
  { clear G IH. revert ss LN. induction ps as [|p ps IH]; intros [|s ss] LN; try discriminate LN; [exists []; split; [constructor|reflexivity]|].
    injection LN as LN. destruct (IH ss LN) as (ss' & F & L). destruct (step_total M p s T) as [s' Hs]. exists (s' :: ss'). split; [now constructor|cbn; now rewrite L]. }
  destruct ST as (ss' & F & L). destruct (IH ss' L) as (e & out & LP). exists e, out. eapply nl_iterate; eassumption.
Qed.
