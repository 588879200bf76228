(** C104: the iterative direct localization of an RPC model ends with its precision, in binary64. *)
From Coq Require Import ZArith Reals List Bool Lia Lra.
From Flocq Require Import Core BinarySingleNaN.
From Verif Require Import RpcModel RpcSpec RpcConv FloatModel Float FloatErr FloatRpcModel FloatRpcSpec FloatNewtonModel FloatNewtonSpec FloatNewton FloatConvModel FloatConvSpec FloatConvRun PropertiesFloatRpc PropertiesFloatNewton RpcConvSpec.
Import ListNotations.
Open Scope R_scope.

(** The centre of the square makes the model ordinary. *)
Lemma start_ordinary m M p r gsd bend steep lon0 lat0 : same_model m M -> starts_near m M p r gsd bend steep lon0 lat0 ->
  is_finite (fa_offset (fm_x M)) = true /\ is_finite (fa_offset (fm_y M)) = true /\ in_domain M (fa_offset (fm_x M)) (fa_offset (fm_y M)) (fp_alt p).
Proof.
  intros (_ & _ & _ & _ & E5 & _ & E7 & _) (_ & _ & HI & _ & _ & HD). rewrite E5, E7 in HI.
  assert (F : forall x : b64, exists y : b64, is_finite y = true /\ B2R y = B2R x) by (intros x; destruct (is_finite x) eqn:Fx; [exists x; auto|exists (fint 0); destruct x; try discriminate Fx; split; reflexivity]).
  destruct (F (fa_offset (fm_x M))) as (x & Fx & Vx). destruct (F (fa_offset (fm_y M))) as (y & Fy & Vy). rewrite <- Vx, <- Vy in HI.
  destruct (HD x y Fx Fy HI) as (_ & _ & O & _). destruct O as (_ & _ & (A1 & _) & (A2 & _) & _). split; [exact A1|]. split; [exact A2|]. rewrite Vx, Vy in HI. exact (HD _ _ A1 A2 HI).
Qed.

(** The compiled version: with at least six iterations allowed, the loop ends with the precision; the position is seen in the pixel
    and it is near the ground point. *)
Theorem C104_compiled :
  forall m M p n fill e lon lat r gsd bend steep lon0 lat0, same_model m M -> image_model M -> finite_pixel p ->
  starts_near m M p r gsd bend steep lon0 lat0 -> (6 <= n)%nat -> cn_direct M p n fill e (lon, lat) ->
  e = FPrecise /\ is_finite lon = true /\ is_finite lat = true /\ seen_at m (fp_row p) (fp_col p) lon lat (fp_alt p) /\
  Rabs (B2R lon - lon0) <= 204 / 100000000 * gsd /\ Rabs (B2R lat - lat0) <= 204 / 100000000 * gsd.
Proof.
  intros m M p n fill e lon lat r gsd bend steep lon0 lat0 S IM F A N H. destruct (start_ordinary m M p r gsd bend steep lon0 lat0 S A) as (Fx & Fy & D).
  destruct A as (HC & HR & HI & HG & HW & HD). destruct (HW) as (a & b & c & d & HW').
  unfold cn_direct in H. destruct F as [F1 F2]. unfold f_valid in H. rewrite (finite_not_nan _ F1), (finite_not_nan _ F2) in H. cbn [orb negb] in H.
  destruct H as (row & col & s & I & L & EO). unfold c_inverse_loc in I. rewrite (finite_not_nan _ Fx), (finite_not_nan _ Fy) in I. cbn [orb] in I.
  pose proof (start_level m M p r gsd bend steep lon0 lat0 S IM (conj F1 F2) HC HR HG a b c d HW' HD row col HI I Fx Fy) as L0.
  destruct (compiled_run m M p r gsd bend steep lon0 lat0 S IM (conj F1 F2) HC HR HG a b c d HW' HD 0 n _ e s L L0 ltac:(lia) ltac:(lia)) as [-> EN].
  injection EO as -> ->. split; [reflexivity|]. pose proof (ended_seen m p r gsd lon0 lat0 s EN) as SE.
  destruct EN as [_ [j LV]]. destruct (level_in m p r gsd bend steep lon0 lat0 HG j s LV) as (F3 & F4 & W). split; [exact F3|]. split; [exact F4|]. split; [exact SE|]. pose proof HG as (G0 & B0 & _ & Hq & _).
  exact (C103_near_the_ground_position m (fp_alt p) r gsd bend steep lon0 lat0 _ _ _ _ G0 B0 Hq HW HR HC W SE).
Qed.

(** The Python version, for a batch with one altitude; each pixel has its own square. *)
Theorem C104_one_altitude :
  forall m M ps n fill e out alt (r gsd bend steep lon0 lat0 : fpixel -> R), same_model m M -> image_model M ->
  (forall p, In p ps -> fp_alt p = alt) ->
  (forall p, In p ps -> f_valid p = true -> finite_pixel p /\ starts_near m M p (r p) (gsd p) (bend p) (steep p) (lon0 p) (lat0 p)) ->
  (6 <= n)%nat -> n_direct M ps n fill e out ->
  e = FPrecise /\
  forall i p, nth_error ps i = Some p -> f_valid p = true ->
  exists lon lat, nth_error out i = Some (lon, lat) /\ is_finite lon = true /\ is_finite lat = true /\ seen_at m (fp_row p) (fp_col p) lon lat alt /\
    Rabs (B2R lon - lon0 p) <= 204 / 100000000 * gsd p /\ Rabs (B2R lat - lat0 p) <= 204 / 100000000 * gsd p.
Proof.
  intros m M ps n fill e out alt r gsd bend steep lon0 lat0 S IM EA A N H. unfold n_direct in H.
  set (none := if fill then _ else _) in H. set (K := fun p => (r p, gsd p, bend p, steep p, lon0 p, lat0 p)).
  destruct (filter f_valid ps) as [|p0 l] eqn:EF.
  { destruct H as [-> _]. split; [reflexivity|]. intros i p E V. assert (I : In p (filter f_valid ps)) by (apply filter_In; split; [exact (nth_error_In _ _ E)|exact V]). rewrite EF in I. easy. }
  destruct H as (ss & ss' & ST & L & EO). rewrite <- EF in *.
  assert (AV : forall p, In p (filter f_valid ps) -> finite_pixel p /\ starts_near m M p (r p) (gsd p) (bend p) (steep p) (lon0 p) (lat0 p) /\ fp_alt p = alt).
  { intros p I. apply filter_In in I as [I V]. destruct (A p I V) as [A1 A2]. auto. }
  assert (FO : Forall2 (following m M K 0) (filter f_valid ps) ss).
  { rewrite EF in ST at 1. cbn [f_start] in ST. destruct ST as (row & col & I & ->). rewrite <- EF in *.
    destruct (AV p0) as (Q1 & Q2 & Q3); [rewrite EF; now left|]. destruct (start_ordinary _ _ _ _ _ _ _ _ _ S Q2) as (Fx & Fy & D).
    specialize (I (proj1 (domain_ok M _ _ _ D))). rewrite Q3 in I. clear - S IM AV I Fx Fy K. induction (filter f_valid ps) as [|p q IH]; cbn [map]; constructor; [|apply IH; intros t T; apply AV; now right].
    destruct (AV p (or_introl eq_refl)) as (F & SN & E). unfold following, K. cbn [near_start at_level at_end]. split; [exact SN|]. split; [exact F|]. left.
    destruct SN as (HC & HR & HI & HG & (a & b & c & d & HW) & HD). rewrite <- E in I. exact (start_level m M p _ _ _ _ _ _ S IM F HC HR HG a b c d HW HD row col HI I Fx Fy). }
  destruct (batch_run m M K _ n ss e ss' 0 S IM L FO ltac:(lia) ltac:(lia)) as [-> FI]. split; [reflexivity|]. intros i p E V.
  destruct (scatter_nth none ps ss' _ FI i p E V) as (s & O & (SN & F & EN) & _). rewrite <- EO in O. exists (fs_lon s), (fs_lat s). split; [exact O|].
  unfold K in SN, EN. cbn [near_start at_end] in SN, EN. pose proof (ended_seen m p _ _ _ _ s EN) as SE. rewrite (EA p (nth_error_In _ _ E)) in SE.
  destruct SN as (HC & HR & HI & HG & HW & HD). rewrite (EA p (nth_error_In _ _ E)) in HC, HR, HW.
  destruct EN as [_ [j LV]]. destruct (level_in m p _ _ _ _ _ _ HG j s LV) as (F3 & F4 & W). split; [exact F3|]. split; [exact F4|]. split; [exact SE|]. pose proof HG as (G0 & B0 & _ & Hq & _).
  exact (C103_near_the_ground_position m alt _ _ _ _ _ _ _ _ _ _ G0 B0 Hq HW HR HC W SE).
Qed.

(** The Python version, for a batch with several altitudes: with at least seven iterations allowed the loop ends with the precision.
    The first residues are the ones of the altitude of the first valid pixel: a pixel that they satisfy keeps the start (see C103). *)
Theorem C104_batch :
  forall m M ps n fill e out p0 l (r gsd bend steep lon0 lat0 : fpixel -> R), same_model m M -> image_model M -> filter f_valid ps = p0 :: l ->
  (forall p, In p ps -> f_valid p = true -> finite_pixel p /\ starts_near m M p (r p) (gsd p) (bend p) (steep p) (lon0 p) (lat0 p) /\ near_altitude m p (fp_alt p0) (r p) (gsd p)) ->
  (7 <= n)%nat -> n_direct M ps n fill e out ->
  e = FPrecise /\
  forall i p, nth_error ps i = Some p -> f_valid p = true ->
  exists lon lat, nth_error out i = Some (lon, lat) /\ is_finite lon = true /\ is_finite lat = true /\
    (seen_at m (fp_row p) (fp_col p) lon lat (fp_alt p) /\ Rabs (B2R lon - lon0 p) <= 204 / 100000000 * gsd p /\ Rabs (B2R lat - lat0 p) <= 204 / 100000000 * gsd p \/
     lon = fa_offset (fm_x M) /\ lat = fa_offset (fm_y M) /\ seen_at m (fp_row p) (fp_col p) lon lat (fp_alt p0)).
Proof.
  intros m M ps n fill e out p0 l r gsd bend steep lon0 lat0 S IM EF A N H. unfold n_direct in H.
  set (none := if fill then _ else _) in H. set (K := fun p => (r p, gsd p, bend p, steep p, lon0 p, lat0 p)). rewrite EF in H.
  destruct H as (ss & ss' & ST & L & EO).
  assert (AV : forall p, In p (p0 :: l) -> finite_pixel p /\ starts_near m M p (r p) (gsd p) (bend p) (steep p) (lon0 p) (lat0 p) /\ near_altitude m p (fp_alt p0) (r p) (gsd p)).
  { intros p I. rewrite <- EF in I. apply filter_In in I as [I V]. exact (A p I V). }
  destruct (AV p0 (or_introl eq_refl)) as (Q1 & Q2 & Q3). destruct (start_ordinary _ _ _ _ _ _ _ _ _ S Q2) as (Fx & Fy & D).
  assert (FO : Forall2 (begun m M K (fp_alt p0)) (p0 :: l) ss).
  { cbn [f_start] in ST. destruct ST as (row & col & I & ->). specialize (I (proj1 (domain_ok M _ _ _ D))).
    clear - S IM AV I D K. induction (p0 :: l) as [|p q IH]; cbn [map]; constructor; [|apply IH; intros t T; apply AV; now right].
    destruct (AV p (or_introl eq_refl)) as (F & SN & NA). exact (begin m M K (fp_alt p0) p row col S IM SN F NA D I). }
  destruct (altitudes_run m M K (fp_alt p0) _ n ss e ss' S IM Fx Fy L FO N) as [-> FI]. split; [reflexivity|]. intros i p E V. rewrite <- EF in FI.
  destruct (scatter_nth none ps ss' _ FI i p E V) as (s & O & AR & _). rewrite <- EO in O. exists (fs_lon s), (fs_lat s). split; [exact O|].
  destruct AR as [(SN & F & EN)|U].
  2:{ pose proof (unmoved_seen _ _ _ _ _ U) as SE. destruct U as (_ & U1 & U2 & _). rewrite U1, U2 in *. split; [exact Fx|]. split; [exact Fy|]. right. auto. }
  unfold K in SN, EN. cbn [near_start at_end] in SN, EN. pose proof (ended_seen m p _ _ _ _ s EN) as SE.
  destruct SN as (HC & HR & HI & HG & HW & HD).
  destruct EN as [_ [j LV]]. destruct (level_in m p _ _ _ _ _ _ HG j s LV) as (F3 & F4 & W). split; [exact F3|]. split; [exact F4|]. left. split; [exact SE|]. pose proof HG as (G0 & B0 & _ & Hq & _).
  exact (C103_near_the_ground_position m (fp_alt p) _ _ _ _ _ _ _ _ _ _ G0 B0 Hq HW HR HC W SE).
Qed.

(** The calls have results: the theorems above are about at least one of them. *)
Theorem C104_results :
  forall M n fill, length (fm_num_col M) = 20%nat -> length (fm_den_col M) = 20%nat -> length (fm_num_row M) = 20%nat -> length (fm_den_row M) = 20%nat ->
  (forall p, exists e out, cn_direct M p n fill e out) /\ (forall ps, exists e out, n_direct M ps n fill e out).
Proof.
  intros M n fill L1 L2 L3 L4. assert (T : twenty M) by (repeat split; assumption). split.
  - intros p. unfold cn_direct. destruct (f_valid p); [|eauto]. destruct (c_inverse_total M (fa_offset (fm_x M)) (fa_offset (fm_y M)) (fp_alt p) T) as (row & col & I).
    destruct (compiled_total M p n (FSt (fa_offset (fm_x M)) (fa_offset (fm_y M)) (fsub (fp_col p) col) (fsub (fp_row p) row)) T) as (e & s & L). eexists e, _, row, col, s. split; [exact I|]. split; [exact L|reflexivity].
  - intros ps. unfold n_direct. destruct (filter f_valid ps) as [|p0 l] eqn:EF; [eauto|].
    destruct (sensor_total M (fa_offset (fm_x M)) (fa_offset (fm_y M)) (fp_alt p0) T) as (row & col & I).
    set (ss := map (fun q => FSt (fa_offset (fm_x M)) (fa_offset (fm_y M)) (fsub (fp_col q) col) (fsub (fp_row q) row)) (p0 :: l)).
    destruct (batch_total M (p0 :: l) n ss T) as (e & ss' & L); [apply map_length|]. eexists e, _, ss, ss'. split; [exists row, col; split; [intros _; exact I|reflexivity]|]. split; [exact L|reflexivity].
Qed.

(** ** A case *)
(** The column 8 lon + lon^2 / 256 and the row 16 lat + alt / 16; the ground point (16, 10) is seen in the pixel (161, 129) at the
    altitude 16 and in the pixel (162, 129) at the altitude 32.  The squares of half width 24 satisfy all the hypotheses. *)
Definition exc_coeffs : list b64 := [fint 0; fint 1; fint 0] ++ repeat (fint 0) 4 ++ [fdiv (fint 1) (fint 16)] ++ repeat (fint 0) 12.
Definition exc_rows : list b64 := [fint 0; fint 0; fint 1; fdiv (fint 1) (fint 16)] ++ repeat (fint 0) 16.
Definition exc_M : fmodel :=
  FMod (FAxis (fint 0) (fint 128)) (FAxis (fint 0) (fint 64)) (FAxis (fint 0) (fint 1024)) (FAxis (fint 0) (fint 1024)) (FAxis (fint 0) (fint 1024))
       exc_coeffs ex_ones exc_rows ex_ones.
Definition exc_m : rpc := mkRpc (0 :: 1 :: repeat 0 5 ++ (1 / 16) :: repeat 0 12) (1 :: repeat 0 19) (0 :: 0 :: 1 :: 1 / 16 :: repeat 0 16) (1 :: repeat 0 19) [] [] [] [] true false 0 128 0 64 0 1024 0 1024 0 1024 4326.
Definition exc_p : fpixel := FPix (fint 161) (fint 129) (fint 16).
Definition exc_q : fpixel := FPix (fint 162) (fint 129) (fint 32).
Lemma sixteenth : B2R (fdiv (fint 1) (fint 16)) = 1 / 16 /\ is_finite (fdiv (fint 1) (fint 16)) = true.
Proof.
  split; [|vm_compute; reflexivity]. assert (E : fdiv (fint 1) (fint 16) = (@B754_finite 53 1024 false 4503599627370496 (-56) eq_refl : b64)) by (apply FloatWalk.b_eqb_eq; vm_compute; reflexivity).
  rewrite E. unfold B2R, F2R, cond_Zopp. cbn [Fnum Fexp]. change (-56)%Z with (- (56))%Z. rewrite bpow_opp. change (bpow radix2 56) with (IZR (2 ^ 56)). change (2 ^ 56)%Z with 72057594037927936%Z. lra.
Qed.
Lemma exc_same : same_model exc_m exc_M.
Proof.
  destruct (fint_small 0 ltac:(lia)) as [A0 _]. destruct (fint_small 1 ltac:(lia)) as [A1 _]. destruct (fint_small 128 ltac:(lia)) as [A2 _]. destruct (fint_small 64 ltac:(lia)) as [A3 _]. destruct (fint_small 1024 ltac:(lia)) as [A4 _]. destruct sixteenth as [A5 _].
  unfold same_model, made_of, exc_m, exc_M, exc_coeffs, exc_rows, ex_ones. cbn [num_col den_col num_row den_row offset_x scale_x offset_y scale_y offset_alt scale_alt offset_col scale_col offset_row scale_row
    fm_x fm_y fm_alt fm_col fm_row fm_num_col fm_den_col fm_num_row fm_den_row fa_offset fa_scale map app repeat]. rewrite A0, A1, A2, A3, A4, A5. repeat split.
Qed.
Lemma exc_domain lon lat alt : is_finite lon = true -> is_finite lat = true -> is_finite alt = true -> Rabs (B2R lon) <= 100 -> Rabs (B2R lat) <= 60 -> Rabs (B2R alt) <= 1000 -> in_domain exc_M lon lat alt.
Proof.
  intros F1 F2 F3 L1 L2 L3. apply Rabs_le_inv in L1, L2, L3. destruct sixteenth as [A5 F5].
  destruct (fint_small 0 ltac:(lia)) as [A0 G0]. destruct (fint_small 1 ltac:(lia)) as [A1 G1]. destruct (fint_small 128 ltac:(lia)) as [A2 G2]. destruct (fint_small 64 ltac:(lia)) as [A3 G3]. destruct (fint_small 1024 ltac:(lia)) as [A4 G4].
  split; [apply Rabs_le; lra|]. split; [apply Rabs_le; lra|].
  assert (O : forall num out, coefficients num -> abs_sum (map B2R num) <= 2 -> is_finite (fa_offset out) = true -> is_finite (fa_scale out) = true ->
    ordinary (fm_x exc_M) (fm_y exc_M) (fm_alt exc_M) out num ex_ones lon lat alt).
  { intros num out CO SU Fo Fs. unfold ordinary, finite_axis, inside, normal, exc_M. cbn [fm_x fm_y fm_alt fa_offset fa_scale]. split; [exact CO|].
    split; [split; [reflexivity|unfold ex_ones; cbn [app repeat]; repeat (apply Forall_cons; [assumption|]); apply Forall_nil]|].
    rewrite A0, A2, A3, A4, !(Rabs_pos_eq 128), !(Rabs_pos_eq 64), !(Rabs_pos_eq 1024) by lra.
    do 3 (split; [repeat split; try assumption; lra|]). do 3 (split; [split; [assumption|apply Rabs_le; lra]|]). split; [exact SU|].
    unfold ex_ones, abs_sum. cbn [app repeat map fold_right]. rewrite A0, A1, Rabs_R0, Rabs_R1.
    split; [lra|]. split; [exact Fo|]. split; [exact Fs|].
    unfold cubic, rpc_exponents. cbn [cubic_sum pow]. rewrite Rabs_pos_eq; lra. }
  split; apply O; try assumption.
  - split; [reflexivity|unfold exc_M, exc_rows; cbn [fm_num_row app repeat]; repeat (apply Forall_cons; [assumption|]); apply Forall_nil].
  - unfold exc_M, exc_rows, abs_sum. cbn [fm_num_row app repeat map fold_right]. rewrite A0, A1, A5, Rabs_R0, Rabs_R1, Rabs_pos_eq by lra. lra.
  - split; [reflexivity|unfold exc_M, exc_coeffs; cbn [fm_num_col app repeat]; repeat (apply Forall_cons; [assumption|]); apply Forall_nil].
  - unfold exc_M, exc_coeffs, abs_sum. cbn [fm_num_col app repeat map fold_right]. rewrite A0, A1, A5, Rabs_R0, Rabs_R1, Rabs_pos_eq by lra. lra.
Qed.
Lemma exc_col lon lat alt : col_of exc_m lon lat alt = 8 * lon + lon * lon / 256.
Proof. unfold col_of, cubic, nx, ny, nz; simpl; field. Qed.
Lemma exc_row lon lat alt : row_of exc_m lon lat alt = 16 * lat + alt / 16.
Proof. unfold row_of, cubic, nx, ny, nz; simpl; field. Qed.
Lemma exc_conditioned alt lat0 : -30 <= lat0 <= 30 -> well_conditioned exc_m alt 24 (1 / 7) (1 / 128) 16 16 lat0.
Proof.
  intros HL.
  exists (fun x _ => 8 + x / 128), (fun _ _ => 0), (fun _ _ => 0), (fun _ _ => 16). intros lon lat Hin. unfold within in Hin.
  pose proof (size_l (lon - 16) (lat - lat0)) as SL. pose proof (size_r (lon - 16) (lat - lat0)) as SR.
  assert (HX : -24 <= lon - 16 <= 24) by (apply Rabs_le_inv; lra). assert (HY : -24 <= lat - lat0 <= 24) by (apply Rabs_le_inv; lra).
  split; [unfold regular_at, cubic; simpl; lra|]. split; [unfold lonlat_ok; lra|].
  assert (QUA : derivable_pt_lim (fun x => col_of exc_m x lat alt) lon (8 + lon / 128)).
  { intros e He. assert (P : 0 < 256 * e) by lra. exists (mkposreal _ P). intros h Hh Hd. cbn [pos] in Hd. rewrite !exc_col.
    replace ((8 * (lon + h) + (lon + h) * (lon + h) / 256 - (8 * lon + lon * lon / 256)) / h - (8 + lon / 128)) with (h / 256) by (field; exact Hh).
    unfold Rdiv. rewrite Rabs_mult, (Rabs_pos_eq (/ 256)) by lra. lra. }
  assert (LIN : forall (f : R -> R) k j x, (forall t, f t = k * t + j) -> derivable_pt_lim f x k).
  { intros f k j x E e He. exists (mkposreal 1 Rlt_0_1). intros h Hh _. rewrite !E. replace ((k * (x + h) + j - (k * x + j)) / h - k) with 0 by (field; exact Hh). now rewrite Rabs_R0. }
  assert (CST : forall (f : R -> R) k x, (forall t, f t = k) -> derivable_pt_lim f x 0).
  { intros f k x E e He. exists (mkposreal 1 Rlt_0_1). intros h Hh _. rewrite !E. replace ((k - k) / h - 0) with 0 by (field; exact Hh). now rewrite Rabs_R0. }
  split.
  { repeat split; [exact QUA|apply (CST _ (8 * lon + lon * lon / 256)); intros; apply exc_col|apply (CST _ (16 * lat + alt / 16)); intros; apply exc_row|apply (LIN _ _ (alt / 16)); intros; apply exc_row]. }
  split.
  - intros u v. pose proof (size_l ((8 + lon / 128) * u + 0 * v) (0 * u + 16 * v)) as S1. pose proof (size_r ((8 + lon / 128) * u + 0 * v) (0 * u + 16 * v)) as S2.
    set (s := size ((8 + lon / 128) * u + 0 * v) (0 * u + 16 * v)) in *. replace ((8 + lon / 128) * u + 0 * v) with ((8 + lon / 128) * u) in S1 by ring. replace (0 * u + 16 * v) with (16 * v) in S2 by ring.
    rewrite Rabs_mult, (Rabs_pos_eq (8 + lon / 128)) in S1 by lra. rewrite Rabs_mult, (Rabs_pos_eq 16) in S2 by lra. pose proof (Rabs_pos v). pose proof (Rabs_pos u).
    assert (7 * Rabs u <= (8 + lon / 128) * Rabs u) by (apply Rmult_le_compat_r; lra). apply size_le; lra.
  - intros f Hf. assert (Z0 : forall (k : R) x y, Rabs (k - k) <= 1 / 128 * size x y) by (intros; rewrite Rminus_eq_0, Rabs_R0; pose proof (size_pos x y); lra).
    destruct Hf as [<-|[<-|[<-|[<-|[]]]]]; (split; [rewrite Rabs_pos_eq; lra|intros; try apply Z0]).
    replace (8 + lon / 128 - (8 + lon' / 128)) with ((lon - lon') * (1 / 128)) by field. rewrite Rabs_mult, (Rabs_pos_eq (1 / 128)) by lra. pose proof (size_l (lon - lon') (lat - lat')). lra.
Qed.
Lemma exc_near p : (p = exc_p \/ p = exc_q) -> finite_pixel p /\ f_valid p = true /\ starts_near exc_m exc_M p 24 (1 / 7) (1 / 128) 16 16 10 /\ near_altitude exc_m p (fint 16) 24 (1 / 7).
Proof.
  intros H.
  assert (Q : exists a b, (Z.abs a <= 1000 /\ Z.abs b <= 1000)%Z /\ p = FPix (fint a) (fint 129) (fint b) /\ f_valid p = true /\ IZR a = 160 + IZR b / 16 /\ -24 <= IZR b - 16 <= 24).
  { destruct H as [->| ->]; [exists 161%Z, 16%Z|exists 162%Z, 32%Z]; (split; [lia|]; split; [reflexivity|]; split; [reflexivity|]; lra). }
  destruct Q as (a & b & [Ha Hb] & -> & V & E & B). destruct (fint_small a ltac:(lia)) as [V1 F1]. destruct (fint_small b ltac:(lia)) as [V2 F2]. destruct (fint_small 129 ltac:(lia)) as [V3 F3]. destruct (fint_small 16 ltac:(lia)) as [V4 F4].
  split; [split; assumption|]. split; [exact V|]. unfold starts_near, near_altitude. cbn [fp_row fp_col fp_alt]. rewrite V1, V2, V3, V4. split.
  - split; [rewrite exc_col; lra|]. split; [rewrite exc_row; lra|].
    split; [unfold within, exc_m; cbn [offset_x offset_y]; apply size_le; apply Rabs_le; lra|].
    split; [unfold gentle, exc_m; cbn [scale_col scale_row scale_x scale_y]; repeat split; try lra; apply Rabs_le; lra|]. split; [apply exc_conditioned; lra|].
    intros lon lat G1 G2 W. unfold within in W. pose proof (size_l (B2R lon - 16) (B2R lat - 10)) as SL. pose proof (size_r (B2R lon - 16) (B2R lat - 10)) as SR.
    assert (HX : -24 <= B2R lon - 16 <= 24) by (apply Rabs_le_inv; lra). assert (HY : -24 <= B2R lat - 10 <= 24) by (apply Rabs_le_inv; lra).
    apply exc_domain; try assumption; apply Rabs_le; lra.
  - cbv zeta. rewrite !exc_col, !exc_row. apply Rle_trans with (1 / 7 * 2); [apply Rmult_le_compat_l; [lra|]; apply size_le; apply Rabs_le; lra|lra].
Qed.
Example C104_case :
  same_model exc_m exc_M /\ image_model exc_M /\ filter f_valid [FPix B754_nan (fint 3) (fint 5); exc_p; exc_q] = [exc_p; exc_q] /\
  (forall p, (p = exc_p \/ p = exc_q) -> finite_pixel p /\ f_valid p = true /\ starts_near exc_m exc_M p 24 (1 / 7) (1 / 128) 16 16 10 /\ near_altitude exc_m p (fp_alt exc_p) 24 (1 / 7)) /\
  (exists e out, cn_direct exc_M exc_p 10 false e out) /\ (exists e out, n_direct exc_M [FPix B754_nan (fint 3) (fint 5); exc_p; exc_q] 10 false e out).
Proof.
  split; [exact exc_same|]. split; [exact ex_image|]. split; [reflexivity|]. split; [exact exc_near|]. split; apply C104_results; reflexivity.
Qed.
