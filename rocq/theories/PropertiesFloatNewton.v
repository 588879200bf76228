(** C103: the ground positions of the iterative direct localization of an RPC model, in binary64. *)
From Coq Require Import ZArith Reals List Bool Lia Lra.
From Flocq Require Import Core BinarySingleNaN.
From Verif Require Import RpcModel RpcSpec RpcConvSpec RpcConv FloatModel Float FloatErr FloatRpcModel FloatRpcSpec PropertiesFloatRpc FloatNewtonModel FloatNewtonSpec FloatNewton.
Import ListNotations.
Open Scope R_scope.

(** When the loop ends with the precision and the positions of the valid pixels are in the domain of the model, each one is seen in its
    pixel; or it is the start of the loop, seen in its pixel at the altitude of the first valid pixel. *)
Theorem C103_batch :
  forall m M ps n fill out p0 l, same_model m M -> image_model M -> f_direct M ps n fill FPrecise out -> filter f_valid ps = p0 :: l ->
  (forall p, In p ps -> f_valid p = true -> finite_pixel p) ->
  (forall i p lon lat, nth_error ps i = Some p -> f_valid p = true -> nth_error out i = Some (lon, lat) -> in_domain M lon lat (fp_alt p) /\ in_domain M lon lat (fp_alt p0)) ->
  forall i p, nth_error ps i = Some p -> f_valid p = true ->
  exists lon lat, nth_error out i = Some (lon, lat) /\
    (seen_at m (fp_row p) (fp_col p) lon lat (fp_alt p) \/
     lon = fa_offset (fm_x M) /\ lat = fa_offset (fm_y M) /\ seen_at m (fp_row p) (fp_col p) lon lat (fp_alt p0)).
Proof.
  intros m M ps n fill out p0 l S IM H EF FP DOM i p E V. unfold f_direct in H. rewrite EF in H. destruct H as (ss & ss' & ST & L & EO). rewrite <- EF in *.
  destruct (start_kept M _ ss ST) as (q0 & Q0 & K0). rewrite EF in Q0. cbn [nth_error] in Q0. injection Q0 as <-.
  destruct (loop_kept M _ (fp_alt p0) n ss FPrecise ss' L K0) as [K G]. specialize (G eq_refl).
  set (none := if fill then _ else _) in EO.
  assert (LK : forall q s, kept M (fp_alt p0) q s -> finite_pixel q -> in_domain M (fs_lon s) (fs_lat s) (fp_alt q) -> in_domain M (fs_lon s) (fs_lat s) (fp_alt p0) ->
    (is_nan (fs_dcol s) = false /\ is_nan (fs_drow s) = false) /\
    (Bltb feps (Babs (fs_dcol s)) = false -> Bltb feps (Babs (fs_drow s)) = false ->
     seen_at m (fp_row q) (fp_col q) (fs_lon s) (fs_lat s) (fp_alt q) \/
     fs_lon s = fa_offset (fm_x M) /\ fs_lat s = fa_offset (fm_y M) /\ seen_at m (fp_row q) (fp_col q) (fs_lon s) (fs_lat s) (fp_alt p0))).
  { intros q s [(row & col & I & C1 & C2)|(A1 & A2 & row & col & I & C1 & C2)] FQ D1 D0; rewrite C1, C2.
    - destruct (residue_seen m M q _ _ _ row col S IM D1 FQ (I (proj1 (domain_ok M _ _ _ D1)))) as [N R]. split; [exact N|]. intros B1 B2. left. now apply R.
    - destruct (residue_seen m M q _ _ _ row col S IM D0 FQ (I (proj1 (domain_ok M _ _ _ D0)))) as [N R]. split; [exact N|]. intros B1 B2. right. auto. }
  assert (NN : Forall (fun s => is_nan (fs_dcol s) = false /\ is_nan (fs_drow s) = false) ss').
  { apply Forall_forall. intros s Is. destruct (scatter_in none ps ss' _ s K Is) as (j & q & J1 & J2 & J3 & J4). rewrite <- EO in J3.
    destruct (DOM j q _ _ J1 J2 J3) as [D1 D0]. apply (LK q s J4); [|assumption..]. apply FP; [|exact J2]. exact (nth_error_In _ _ J1). }
  destruct (scatter_nth none ps ss' _ K i p E V) as (s & O & Ks & Is). rewrite <- EO in O. exists (fs_lon s), (fs_lat s). split; [exact O|].
  destruct (DOM i p _ _ E V O) as [D1 D0]. destruct (guard_false ss' s NN Is G) as [B1 B2].
  apply (LK p s Ks (FP p (nth_error_In _ _ E) V) D1 D0); assumption.
Qed.

(** With one altitude for all the pixels: each position is seen in its pixel. *)
Theorem C103_one_altitude :
  forall m M ps n fill out alt, same_model m M -> image_model M -> f_direct M ps n fill FPrecise out ->
  (forall p, In p ps -> fp_alt p = alt) -> (forall p, In p ps -> f_valid p = true -> finite_pixel p) ->
  (forall i p lon lat, nth_error ps i = Some p -> f_valid p = true -> nth_error out i = Some (lon, lat) -> in_domain M lon lat alt) ->
  forall i p, nth_error ps i = Some p -> f_valid p = true ->
  exists lon lat, nth_error out i = Some (lon, lat) /\ seen_at m (fp_row p) (fp_col p) lon lat alt.
Proof.
  intros m M ps n fill out alt S IM H EA FP DOM i p E V. pose proof (nth_error_In _ _ E) as Ip.
  assert (I0 : In p (filter f_valid ps)) by now apply filter_In. destruct (filter f_valid ps) as [|p0 l] eqn:EF; [easy|].
  assert (E0 : fp_alt p0 = alt). { apply EA. assert (In p0 (filter f_valid ps)) as J by (rewrite EF; now left). now apply filter_In in J. }
  destruct (C103_batch m M ps n fill out p0 l S IM H EF FP) with (i := i) (p := p) as (lon & lat & O & [X|(_ & _ & X)]); try assumption.
  - intros j q lon lat J1 J2 J3. rewrite E0, (EA q (nth_error_In _ _ J1)). split; exact (DOM j q lon lat J1 J2 J3).
  - exists lon, lat. rewrite (EA p Ip) in X. auto.
  - exists lon, lat. rewrite E0 in X. auto.
Qed.

(** The compiled version, for each pixel and its own altitude. *)
Theorem C103_compiled :
  forall m M p n fill lon lat, same_model m M -> image_model M -> c_direct M p n fill FPrecise (lon, lat) -> f_valid p = true -> finite_pixel p ->
  in_domain M lon lat (fp_alt p) -> seen_at m (fp_row p) (fp_col p) lon lat (fp_alt p).
Proof.
  intros m M p n fill lon lat S IM H V FP D. unfold c_direct in H. rewrite V in H. destruct H as (row & col & s & I & L & EO).
  destruct (c_loop_linked M p n _ _ _ L) as [(row' & col' & I' & C1 & C2) G]; [exists row, col; cbn [fs_lon fs_lat fs_dcol fs_drow]; auto|]. specialize (G eq_refl).
  injection EO as -> ->. destruct (domain_ok M _ _ _ D) as (_ & N1 & N2). unfold c_inverse_loc in I'. rewrite N1, N2 in I'. cbn [orb] in I'.
  unfold f_again in G. apply orb_false_iff in G as [G1 G2]. rewrite C1 in G1. rewrite C2 in G2.
  apply (residue_seen m M p _ _ _ row' col' S IM D FP I'); assumption.
Qed.

(** A position that is seen in the pixel is near the ground position that the pixel sees exactly, when both are in a square where
    the model is well conditioned (C82). *)
Theorem C103_near_the_ground_position :
  forall m alt r gsd bend steep lon0 lat0 row col lon lat,
  0 <= gsd -> 0 <= bend -> 2 * gsd * bend * r <= 1 / 2 -> well_conditioned m (B2R alt) r gsd bend steep lon0 lat0 ->
  row_of m lon0 lat0 (B2R alt) = B2R row -> col_of m lon0 lat0 (B2R alt) = B2R col ->
  within r lon0 lat0 (B2R lon) (B2R lat) -> seen_at m row col lon lat alt ->
  Rabs (B2R lon - lon0) <= 204 / 100000000 * gsd /\ Rabs (B2R lat - lat0) <= 204 / 100000000 * gsd.
Proof.
  intros m alt r gsd bend steep lon0 lat0 row col lon lat Hg Hb Hq (a & b & c & d & HW) HR HC Hin [SR SC]. set (x := B2R lon) in *. set (y := B2R lat) in *.
  destruct (HW x y Hin) as (_ & _ & _ & HG & _). set (s := size (x - lon0) (y - lat0)).
  assert (Hs : size (x - lon0) (y - lat0) <= s) by apply Rle_refl. assert (Hs0 : 0 <= s) by apply size_pos. assert (Hsr : s <= r) by exact Hin.
  destruct (col_remainder m (B2R alt) r gsd bend steep (B2R col) lon0 lat0 Hb HC a b c d HW x y s Hin Hs) as [RC _].
  destruct (row_remainder m (B2R alt) r gsd bend steep (B2R row) lon0 lat0 Hb HR a b c d HW x y s Hin Hs) as [RR _].
  rewrite Rabs_minus_sym in SC, SR.
  assert (H : s <= gsd * (2 * bend * s * s + 102 / 100000000)).
  { eapply Rle_trans; [apply HG|]. apply Rmult_le_compat_l; [assumption|]. apply size_le.
    - replace (a x y * (x - lon0) + b x y * (y - lat0)) with ((a x y * (x - lon0) + b x y * (y - lat0) - (col_of m x y (B2R alt) - B2R col)) + (col_of m x y (B2R alt) - B2R col)) by ring.
      eapply Rle_trans; [apply Rabs_triang|]. lra.
    - replace (c x y * (x - lon0) + d x y * (y - lat0)) with ((c x y * (x - lon0) + d x y * (y - lat0) - (row_of m x y (B2R alt) - B2R row)) + (row_of m x y (B2R alt) - B2R row)) by ring.
      eapply Rle_trans; [apply Rabs_triang|]. lra. }
  assert (2 * gsd * bend * s <= 1 / 2) by (eapply Rle_trans; [|exact Hq]; apply Rmult_le_compat_l; [repeat apply Rmult_le_pos; lra|assumption]).
  assert (gsd * (2 * bend * s * s) <= s / 2) by (replace (gsd * (2 * bend * s * s)) with (2 * gsd * bend * s * s) by ring; replace (s / 2) with (1 / 2 * s) by field; now apply Rmult_le_compat_r).
  pose proof (size_l (x - lon0) (y - lat0)). pose proof (size_r (x - lon0) (y - lat0)). fold s in H2, H3. lra.
Qed.
(** So the Python and the compiled versions are as near to each other. *)
Theorem C103_two_versions :
  forall m M p n k fill fill' lon lat lon' lat' r gsd bend steep lon0 lat0, same_model m M -> image_model M ->
  f_direct M [p] n fill FPrecise [(lon, lat)] -> c_direct M p k fill' FPrecise (lon', lat') -> f_valid p = true -> finite_pixel p ->
  in_domain M lon lat (fp_alt p) -> in_domain M lon' lat' (fp_alt p) ->
  0 <= gsd -> 0 <= bend -> 2 * gsd * bend * r <= 1 / 2 -> well_conditioned m (B2R (fp_alt p)) r gsd bend steep lon0 lat0 ->
  row_of m lon0 lat0 (B2R (fp_alt p)) = B2R (fp_row p) -> col_of m lon0 lat0 (B2R (fp_alt p)) = B2R (fp_col p) ->
  within r lon0 lat0 (B2R lon) (B2R lat) -> within r lon0 lat0 (B2R lon') (B2R lat') ->
  Rabs (B2R lon - B2R lon') <= 408 / 100000000 * gsd /\ Rabs (B2R lat - B2R lat') <= 408 / 100000000 * gsd.
Proof.
  intros m M p n k fill fill' lon lat lon' lat' r gsd bend steep lon0 lat0 S IM H C V FP D D' Hg Hb Hq HW HR HC W W'.
  destruct (C103_one_altitude m M [p] n fill [(lon, lat)] (fp_alt p) S IM H) with (i := 0%nat) (p := p) as (x & y & E & X); try assumption; try reflexivity.
  - intros t [<-|[]]; reflexivity.
  - intros t [<-|[]] _. exact FP.
  - intros [|i] t x y E1 _ E2; [|destruct i; discriminate E1]. cbn [nth_error] in E2. injection E2 as <- <-. exact D.
  - cbn [nth_error] in E. injection E as <- <-. pose proof (C103_compiled m M p k fill' lon' lat' S IM C V FP D') as X'.
    destruct (C103_near_the_ground_position m _ r gsd bend steep lon0 lat0 _ _ lon lat Hg Hb Hq HW HR HC W X) as [A1 A2].
    destruct (C103_near_the_ground_position m _ r gsd bend steep lon0 lat0 _ _ lon' lat' Hg Hb Hq HW HR HC W' X') as [B1 B2].
    apply Rabs_le_inv in A1, A2, B1, B2. split; apply Rabs_le; lra.
Qed.

(** ** A case *)
(** A model of 8 columns and 16 rows per degree, the pixel (160, 80) and a NaN pixel at the altitude 5: the loop ends after one
    iteration at the longitude and latitude 10, and all the hypotheses hold. *)
Definition ex_coeffs (a b : Z) : list b64 := [fint 0; fint a; fint b] ++ repeat (fint 0) 17.
Definition ex_ones : list b64 := fint 1 :: repeat (fint 0) 19.
Definition ex_M : fmodel :=
  FMod (FAxis (fint 0) (fint 128)) (FAxis (fint 0) (fint 64)) (FAxis (fint 0) (fint 1024)) (FAxis (fint 0) (fint 1024)) (FAxis (fint 0) (fint 1024))
       (ex_coeffs 1 0) ex_ones (ex_coeffs 0 1) ex_ones.
Definition ex_m : rpc := mkRpc (0 :: 1 :: 0 :: repeat 0 17) (1 :: repeat 0 19) (0 :: 0 :: 1 :: repeat 0 17) (1 :: repeat 0 19) [] [] [] [] true false 0 128 0 64 0 1024 0 1024 0 1024 4326.
Lemma ex_same : same_model ex_m ex_M.
Proof.
  destruct (fint_small 0 ltac:(lia)) as [A0 _]. destruct (fint_small 1 ltac:(lia)) as [A1 _]. destruct (fint_small 128 ltac:(lia)) as [A2 _]. destruct (fint_small 64 ltac:(lia)) as [A3 _]. destruct (fint_small 1024 ltac:(lia)) as [A4 _].
  unfold same_model, made_of, ex_m, ex_M, ex_coeffs, ex_ones. cbn [num_col den_col num_row den_row offset_x scale_x offset_y scale_y offset_alt scale_alt offset_col scale_col offset_row scale_row
    fm_x fm_y fm_alt fm_col fm_row fm_num_col fm_den_col fm_num_row fm_den_row fa_offset fa_scale map app repeat]. rewrite A0, A1, A2, A3, A4. repeat split.
Qed.
Lemma ex_image : image_model ex_M.
Proof.
  destruct (fint_small 0 ltac:(lia)) as [A0 _]. destruct (fint_small 1024 ltac:(lia)) as [A4 _].
  unfold image_model, image_axis, ex_M. cbn [fm_col fm_row fa_offset fa_scale]. rewrite A0, A4, Rabs_R0, (Rabs_pos_eq 1024) by lra. lra.
Qed.
Lemma ex_domain lon lat alt : (Z.abs lon <= 100)%Z -> (Z.abs lat <= 60)%Z -> (Z.abs alt <= 1000)%Z -> in_domain ex_M (fint lon) (fint lat) (fint alt).
Proof.
  intros H1 H2 H3. destruct (fint_small lon ltac:(lia)) as [V1 F1]. destruct (fint_small lat ltac:(lia)) as [V2 F2]. destruct (fint_small alt ltac:(lia)) as [V3 F3].
  assert (L1 : -100 <= IZR lon <= 100) by (split; apply IZR_le; lia). assert (L2 : -60 <= IZR lat <= 60) by (split; apply IZR_le; lia). assert (L3 : -1000 <= IZR alt <= 1000) by (split; apply IZR_le; lia).
  destruct (fint_small 0 ltac:(lia)) as [A0 G0]. destruct (fint_small 1 ltac:(lia)) as [A1 G1]. destruct (fint_small 128 ltac:(lia)) as [A2 G2]. destruct (fint_small 64 ltac:(lia)) as [A3 G3]. destruct (fint_small 1024 ltac:(lia)) as [A4 G4].
  split; [rewrite V1; apply Rabs_le; lra|]. split; [rewrite V2; apply Rabs_le; lra|].
  assert (O : forall a b out, (a = 0 /\ b = 1)%Z \/ (a = 1 /\ b = 0)%Z -> is_finite (fa_offset out) = true -> is_finite (fa_scale out) = true ->
    ordinary (fm_x ex_M) (fm_y ex_M) (fm_alt ex_M) out (ex_coeffs a b) ex_ones (fint lon) (fint lat) (fint alt)).
  { intros a b out AB Fo Fs.
    assert (FA : B2R (fint a) = IZR a /\ is_finite (fint a) = true) by (apply fint_small; lia). assert (FB : B2R (fint b) = IZR b /\ is_finite (fint b) = true) by (apply fint_small; lia).
    destruct FA as [VA FA], FB as [VB FB]. unfold ordinary, finite_axis, inside, normal, ex_M. cbn [fm_x fm_y fm_alt fa_offset fa_scale].
    split; [split; [reflexivity|unfold ex_coeffs; cbn [app repeat]; repeat (apply Forall_cons; [assumption|]); apply Forall_nil]|].
    split; [split; [reflexivity|unfold ex_ones; cbn [app repeat]; repeat (apply Forall_cons; [assumption|]); apply Forall_nil]|].
    rewrite A0, A2, A3, A4, V1, V2, V3, !(Rabs_pos_eq 128), !(Rabs_pos_eq 64), !(Rabs_pos_eq 1024) by lra.
    do 3 (split; [repeat split; try assumption; lra|]). do 3 (split; [split; [assumption|apply Rabs_le; lra]|]).
    unfold ex_coeffs, ex_ones, abs_sum. cbn [app repeat map fold_right]. rewrite VA, VB, A0, A1, Rabs_R0, Rabs_R1.
    split; [destruct AB as [[-> ->]|[-> ->]]; rewrite ?Rabs_R0, ?Rabs_R1; lra|]. split; [lra|]. split; [exact Fo|]. split; [exact Fs|].
    unfold cubic, rpc_exponents. cbn [cubic_sum pow]. rewrite Rabs_pos_eq; lra. }
  split; apply O; auto.
Qed.
(** The evaluation in the order of the Python source. *)
Definition ex_value (out : faxis) (num : list b64) (lon lat alt : b64) : b64 :=
  let xn := fnormalise lon (fint 0) (fint 128) in let yn := fnormalise lat (fint 0) (fint 64) in let zn := fnormalise alt (fint 0) (fint 1024) in
  fadd (fmul (fdiv (source_polynomial xn yn zn num) (source_polynomial xn yn zn ex_ones)) (fa_scale out)) (fa_offset out).
Lemma ex_sensor lon lat alt : f_sensor ex_M lon lat alt (ex_value (fm_row ex_M) (ex_coeffs 0 1) lon lat alt) (ex_value (fm_col ex_M) (ex_coeffs 1 0) lon lat alt).
Proof.
  split; [exact (proj1 (C88_source_orders (fm_x ex_M) (fm_y ex_M) (fm_alt ex_M) (fm_row ex_M) (fm_num_row ex_M) (fm_den_row ex_M) lon lat alt eq_refl eq_refl))|].
  exact (proj1 (C88_source_orders (fm_x ex_M) (fm_y ex_M) (fm_alt ex_M) (fm_col ex_M) (fm_num_col ex_M) (fm_den_col ex_M) lon lat alt eq_refl eq_refl)).
Qed.
Definition ex_pixels : list fpixel := [FPix B754_nan (fint 3) (fint 5); FPix (fint 160) (fint 80) (fint 5)].
Definition ex_ten : b64 := fadd (fint 0) (fint 10).
Lemma ex_ten_eq : ex_ten = fint 10.
Proof. apply FloatWalk.b_eqb_eq. vm_compute. reflexivity. Qed.
Lemma ex_f_direct : f_direct ex_M ex_pixels 10 false FPrecise [(B754_nan, B754_nan); (ex_ten, ex_ten)].
Proof.
  unfold f_direct. assert (EF : filter f_valid ex_pixels = [FPix (fint 160) (fint 80) (fint 5)]) by reflexivity. rewrite EF.
  set (p := FPix (fint 160) (fint 80) (fint 5)).
  set (st lon lat := FSt lon lat (fsub (fp_col p) (ex_value (fm_col ex_M) (ex_coeffs 1 0) lon lat (fp_alt p))) (fsub (fp_row p) (ex_value (fm_row ex_M) (ex_coeffs 0 1) lon lat (fp_alt p)))).
  exists [st (fint 0) (fint 0)], [st ex_ten ex_ten]. split; [|split].
  - cbn [f_start]. exists (ex_value (fm_row ex_M) (ex_coeffs 0 1) (fint 0) (fint 0) (fp_alt p)), (ex_value (fm_col ex_M) (ex_coeffs 1 0) (fint 0) (fint 0) (fp_alt p)).
    split; [intros _; apply ex_sensor|reflexivity].
  - apply fl_iterate with (ss' := [st ex_ten ex_ten]); [vm_compute; reflexivity| |reflexivity|apply fl_precise; vm_compute; reflexivity].
    cbn [combine]. constructor; [|constructor]. unfold f_iterate. cbn [fst snd].
    assert (AG : f_again (st (fint 0) (fint 0)) = true) by (vm_compute; reflexivity). rewrite AG. exists (fint 10), (fint 10).
    exists (ex_value (fm_row ex_M) (ex_coeffs 0 1) ex_ten ex_ten (fp_alt p)), (ex_value (fm_col ex_M) (ex_coeffs 1 0) ex_ten ex_ten (fp_alt p)).
    split; [intros _; apply ex_sensor|reflexivity].
  - reflexivity.
Qed.
Example C103_case :
  same_model ex_m ex_M /\ image_model ex_M /\ f_direct ex_M ex_pixels 10 false FPrecise [(B754_nan, B754_nan); (ex_ten, ex_ten)] /\
  filter f_valid ex_pixels = [FPix (fint 160) (fint 80) (fint 5)] /\
  (forall p, In p ex_pixels -> fp_alt p = fint 5) /\ (forall p, In p ex_pixels -> f_valid p = true -> finite_pixel p) /\
  (forall i p lon lat, nth_error ex_pixels i = Some p -> f_valid p = true -> nth_error [(B754_nan, B754_nan); (ex_ten, ex_ten)] i = Some (lon, lat) -> in_domain ex_M lon lat (fint 5)) /\
  c_direct ex_M (FPix (fint 160) (fint 80) (fint 5)) 10 false FPrecise (ex_ten, ex_ten).
Proof.
  split; [exact ex_same|]. split; [exact ex_image|]. split; [exact ex_f_direct|]. split; [reflexivity|].
  split; [intros p [<-|[<-|[]]]; reflexivity|]. split; [intros p [<-|[<-|[]]] V; [discriminate V|split; apply fint_exact; lia]|]. split.
  - intros i p lon lat E V O. destruct i as [|[|i]]; [cbn [nth_error ex_pixels] in E; injection E as <-; discriminate V| |destruct i; discriminate E].
    cbn [nth_error] in O. assert (lon = ex_ten /\ lat = ex_ten) as [-> ->] by (split; congruence). rewrite ex_ten_eq. apply ex_domain; lia.
  - unfold c_direct. change (f_valid (FPix (fint 160) (fint 80) (fint 5))) with true. cbv iota. set (p := FPix (fint 160) (fint 80) (fint 5)).
    set (st lon lat := FSt lon lat (fsub (fp_col p) (ex_value (fm_col ex_M) (ex_coeffs 1 0) lon lat (fp_alt p))) (fsub (fp_row p) (ex_value (fm_row ex_M) (ex_coeffs 0 1) lon lat (fp_alt p)))).
    exists (ex_value (fm_row ex_M) (ex_coeffs 0 1) (fint 0) (fint 0) (fp_alt p)), (ex_value (fm_col ex_M) (ex_coeffs 1 0) (fint 0) (fint 0) (fp_alt p)), (st ex_ten ex_ten).
    split; [change (fa_offset (fm_x ex_M)) with (fint 0); change (fa_offset (fm_y ex_M)) with (fint 0); unfold c_inverse_loc; change (is_nan (fint 0) || is_nan (fint 0)) with false; cbv iota; apply ex_sensor|].
    split; [|reflexivity]. change (c_loop ex_M p 10 (st (fint 0) (fint 0)) FPrecise (st ex_ten ex_ten)).
    apply cl_iterate with (dlon := fint 10) (dlat := fint 10) (row := ex_value (fm_row ex_M) (ex_coeffs 0 1) ex_ten ex_ten (fp_alt p)) (col := ex_value (fm_col ex_M) (ex_coeffs 1 0) ex_ten ex_ten (fp_alt p)).
    + vm_compute; reflexivity.
    + change (fadd (fs_lon (st (fint 0) (fint 0))) (fint 10)) with ex_ten. change (fadd (fs_lat (st (fint 0) (fint 0))) (fint 10)) with ex_ten. unfold c_inverse_loc. rewrite ex_ten_eq.
      change (is_nan (fint 10) || is_nan (fint 10)) with false. cbv iota. apply ex_sensor.
    + apply cl_precise. vm_compute; reflexivity.
Qed.
(** The same model is well conditioned: 1/8 degree per pixel at most. *)
Example C103_square :
  well_conditioned ex_m 5 20 (1 / 8) 0 16 10 10 /\ row_of ex_m 10 10 5 = 160 /\ col_of ex_m 10 10 5 = 80 /\ within 20 10 10 10 10 /\ 2 * (1 / 8) * 0 * 20 <= 1 / 2.
Proof.
  assert (C : forall lon lat alt, col_of ex_m lon lat alt = 8 * lon) by (intros; unfold col_of, cubic, nx, ny, nz; simpl; field).
  assert (W : forall lon lat alt, row_of ex_m lon lat alt = 16 * lat) by (intros; unfold row_of, cubic, nx, ny, nz; simpl; field).
  split; [|rewrite C, W; split; [lra|split; [lra|split; [|lra]]]; unfold within; apply size_le; rewrite Rminus_eq_0, Rabs_R0; lra].
  exists (fun _ _ => 8), (fun _ _ => 0), (fun _ _ => 0), (fun _ _ => 16). intros lon lat Hin. unfold within in Hin.
  pose proof (size_l (lon - 10) (lat - 10)) as SL. pose proof (size_r (lon - 10) (lat - 10)) as SR.
  assert (HX : -20 <= lon - 10 <= 20) by (apply Rabs_le_inv; lra). assert (HY : -20 <= lat - 10 <= 20) by (apply Rabs_le_inv; lra).
  split; [unfold regular_at, cubic; simpl; lra|]. split; [unfold lonlat_ok; lra|].
  assert (LIN : forall (f : R -> R) k x, (forall t, f t = k * t) -> derivable_pt_lim f x k).
  { intros f k x E e He. exists (mkposreal 1 Rlt_0_1). intros h Hh _. rewrite !E. replace ((k * (x + h) - k * x) / h - k) with 0 by (field; exact Hh). now rewrite Rabs_R0. }
  assert (CST : forall (f : R -> R) k x, (forall t, f t = k) -> derivable_pt_lim f x 0).
  { intros f k x E e He. exists (mkposreal 1 Rlt_0_1). intros h Hh _. rewrite !E. replace ((k - k) / h - 0) with 0 by (field; exact Hh). now rewrite Rabs_R0. }
  split.
  { repeat split; [apply LIN; intros; apply C|apply (CST _ (8 * lon)); intros; apply C|apply (CST _ (16 * lat)); intros; apply W|apply LIN; intros; apply W]. }
  split.
  - intros u v. pose proof (size_l (8 * u + 0 * v) (0 * u + 16 * v)) as S1. pose proof (size_r (8 * u + 0 * v) (0 * u + 16 * v)) as S2.
    set (s := size (8 * u + 0 * v) (0 * u + 16 * v)) in *. replace (8 * u + 0 * v) with (8 * u) in S1 by ring. replace (0 * u + 16 * v) with (16 * v) in S2 by ring.
    rewrite Rabs_mult, (Rabs_pos_eq 8) in S1 by lra. rewrite Rabs_mult, (Rabs_pos_eq 16) in S2 by lra. pose proof (Rabs_pos v). apply size_le; lra.
  - intros f Hf. assert (Z0 : forall k : R, Rabs (k - k) <= 0) by (intros; rewrite Rminus_eq_0, Rabs_R0; lra).
    destruct Hf as [<-|[<-|[<-|[<-|[]]]]]; (split; [rewrite Rabs_pos_eq; lra|intros; rewrite Rmult_0_l; apply Z0]).
Qed.
