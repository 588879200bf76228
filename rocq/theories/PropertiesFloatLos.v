(** C105: the lines of sight of an RPC model in binary64. *)
From Coq Require Import ZArith Reals List Bool Lia Lra.
From Flocq Require Import Core BinarySingleNaN.
From Verif Require Import RpcModel RpcSpec RpcConv FloatModel Float FloatErr FloatRpcModel FloatRpcSpec FloatNewtonModel FloatNewtonSpec FloatNewton FloatConvModel FloatConvSpec FloatConvRun FloatLosModel FloatLosSpec FloatLos PropertiesFloatRpc PropertiesFloatNewton PropertiesFloatConv RpcConvSpec.
Import ListNotations.
Open Scope R_scope.

(** A position near the ground point is in the domain. *)
Lemma near_domain m M p r gsd bend steep lon0 lat0 lon lat : starts_near m M p r gsd bend steep lon0 lat0 -> is_finite lon = true -> is_finite lat = true ->
  Rabs (B2R lon - lon0) <= 204 / 100000000 * gsd -> Rabs (B2R lat - lat0) <= 204 / 100000000 * gsd -> in_domain M lon lat (fp_alt p).
Proof.
  intros (_ & _ & _ & HG & _ & HD) F1 F2 H1 H2. destruct HG as (G0 & _ & R0 & _ & _ & _ & _ & Hl & _). apply HD; try assumption. unfold RpcConvSpec.within. apply size_le; lra.
Qed.
Lemma checked_domain M lon lat alt : in_domain M lon lat alt -> f_checked (FPlace lon lat alt) = FPlace lon lat alt.
Proof. intros D. unfold f_checked. cbn [fg_lon fg_lat fg_alt]. now rewrite (proj1 (domain_ok M _ _ _ D)). Qed.

(** The localizations of the two ends of the pixels. *)
Lemma ends_seen m M px lo hi fill e edges (r gsd bend steep lon0 lat0 lon1 lat1 : b64 * b64 -> R) : same_model m M -> image_model M ->
  (forall p, In p px -> is_nan (fst p) = false -> is_nan (snd p) = false -> has_ground_points m M (fst p) (snd p) lo hi (r p) (gsd p) (bend p) (steep p) (lon0 p) (lat0 p) (lon1 p) (lat1 p)) ->
  f_direct_loc_h M (f_ends px lo hi) fill e edges ->
  e = FPrecise /\
  forall i row col, nth_error px i = Some (row, col) -> is_nan row = false -> is_nan col = false ->
  exists t b, nth_error edges (2 * i) = Some t /\ nth_error edges (2 * i + 1) = Some b /\ seen_end m row col hi t /\ (seen_end m row col lo b \/ start_stays m M row col lo hi b) /\
    is_finite (fg_lon b) = true /\ is_finite (fg_lat b) = true /\ Rabs (B2R (fg_lon b)) <= 180 /\ Rabs (B2R (fg_lat b)) <= 90 /\ fg_alt b = lo.
Proof.
  intros S IM A (ll & H & ->). destruct (filter f_valid (f_ends px lo hi)) as [|p0 l] eqn:EF.
  { unfold n_direct in H. rewrite EF in H. destruct H as [-> _]. split; [reflexivity|]. intros i row col E N1 N2. exfalso. destruct (ends_nth px lo hi i row col E) as [E1 _].
    assert (I : In (FPix row col hi) (filter f_valid (f_ends px lo hi))) by (apply filter_In; split; [exact (nth_error_In _ _ E1)|unfold f_valid; cbn [fp_row fp_col]; rewrite N1, N2; reflexivity]). rewrite EF in I. easy. }
  pose proof (ends_first _ _ _ _ _ EF) as E0. set (q := fun p : fpixel => (fp_row p, fp_col p)). set (top := fun p : fpixel => FloatWalk.b_eqb (fp_alt p) hi).
  set (cx := fun p => if top p then lon1 (q p) else lon0 (q p)). set (cy := fun p => if top p then lat1 (q p) else lat0 (q p)).
  assert (GP : forall p, In p (f_ends px lo hi) -> f_valid p = true -> has_ground_points m M (fp_row p) (fp_col p) lo hi (r (q p)) (gsd (q p)) (bend (q p)) (steep (q p)) (lon0 (q p)) (lat0 (q p)) (lon1 (q p)) (lat1 (q p))).
  { intros p I V. destruct (ends_in _ _ _ _ I) as [J _]. unfold f_valid in V. apply negb_true_iff, orb_false_iff in V as [V1 V2]. exact (A (q p) J V1 V2). }
  assert (SN : forall p, In p (f_ends px lo hi) -> f_valid p = true -> starts_near m M p (r (q p)) (gsd (q p)) (bend (q p)) (steep (q p)) (cx p) (cy p)).
  { intros p I V. destruct (GP p I V) as (_ & _ & G1 & G2 & _). destruct (ends_in _ _ _ _ I) as [_ J]. unfold cx, cy, top. destruct (FloatWalk.b_eqb (fp_alt p) hi) eqn:B.
    - apply FloatWalk.b_eqb_eq in B. destruct p as [pr pc pa]. cbn [fp_row fp_col fp_alt] in *. now subst pa.
    - destruct J as [J|J]; [rewrite J, same_sf in B; discriminate|]. destruct p as [pr pc pa]. cbn [fp_row fp_col fp_alt] in *. now subst pa. }
  destruct (C104_batch m M (f_ends px lo hi) 10 fill e ll p0 l (fun p => r (q p)) (fun p => gsd (q p)) (fun p => bend (q p)) (fun p => steep (q p)) cx cy S IM EF) as [-> R]; [|lia|exact H|].
  { intros p I V. destruct (GP p I V) as (F1 & F2 & G1 & G2 & G3). split; [split; assumption|]. split; [exact (SN p I V)|]. rewrite E0. destruct (ends_in _ _ _ _ I) as [_ [J|J]].
    - unfold near_altitude. rewrite J. cbv zeta. rewrite !Rminus_eq_0. replace (size 0 0) with 0 by (unfold size; rewrite Rabs_R0, Rmax_left; lra). destruct G1 as (_ & _ & _ & (_ & _ & R0 & _) & _). lra.
    - destruct p as [pr pc pa]. cbn [fp_row fp_col fp_alt] in *. now subst pa. }
  split; [reflexivity|]. intros i row col E N1 N2. destruct (ends_nth px lo hi i row col E) as [E1 E2].
  assert (V : forall a, f_valid (FPix row col a) = true) by (intros a; unfold f_valid; cbn [fp_row fp_col]; rewrite N1, N2; reflexivity).
  destruct (R _ _ E1 (V hi)) as (x1 & y1 & O1 & F1 & F2 & C1). destruct (R _ _ E2 (V lo)) as (x2 & y2 & O2 & F3 & F4 & C2).
  pose proof (SN _ (nth_error_In _ _ E1) (V hi)) as S1. pose proof (SN _ (nth_error_In _ _ E2) (V lo)) as S2. rewrite E0 in C1, C2. cbn [fp_row fp_col fp_alt] in C1, C2.
  assert (D1 : in_domain M x1 y1 hi /\ seen_at m row col x1 y1 hi).
  { destruct C1 as [(C & L1 & L2)|(-> & -> & C)]; [split; [exact (near_domain m M _ _ _ _ _ _ _ _ _ S1 F1 F2 L1 L2)|exact C]|]. split; [exact (proj2 (proj2 (start_ordinary _ _ _ _ _ _ _ _ _ S S1)))|exact C]. }
  assert (D2 : in_domain M x2 y2 lo). { destruct C2 as [(C & L1 & L2)|(-> & -> & C)]; [exact (near_domain m M _ _ _ _ _ _ _ _ _ S2 F3 F4 L1 L2)|exact (proj2 (proj2 (start_ordinary _ _ _ _ _ _ _ _ _ S S2)))]. }
  destruct D1 as [D1 C1']. exists (FPlace x1 y1 hi), (FPlace x2 y2 lo).
  rewrite (combine_nth _ _ _ _ _ _ O1 E1), (combine_nth _ _ _ _ _ _ O2 E2). cbn [fst snd fp_alt]. rewrite (checked_domain M _ _ _ D1), (checked_domain M _ _ _ D2). split; [reflexivity|]. split; [reflexivity|].
  destruct D1 as (B1 & B2 & _). destruct D2 as (B3 & B4 & _). cbn [fg_lon fg_lat fg_alt]. split; [split; [reflexivity|]; auto|]. split; [|auto].
  destruct C2 as [(C & _)|(-> & -> & C)]; [left; split; [reflexivity|]; auto|right; split; [reflexivity|exact C]].
Qed.
Lemma compiled_ends m M row col lo hi fill t b r gsd bend steep lon0 lat0 lon1 lat1 : same_model m M -> image_model M ->
  has_ground_points m M row col lo hi r gsd bend steep lon0 lat0 lon1 lat1 -> c_direct_loc_h2 M (FPix row col hi) (FPix row col lo) fill t b -> seen_end m row col hi t /\ seen_end m row col lo b.
Proof.
  intros S IM (F1 & F2 & G1 & G2 & _) (e1 & e2 & x1 & y1 & x2 & y2 & H1 & H2 & -> & ->).
  assert (FP : forall a, finite_pixel (FPix row col a)) by (intros; split; assumption).
  destruct (C104_compiled _ _ _ 10%nat _ _ _ _ _ _ _ _ _ _ S IM (FP hi) G1 ltac:(lia) H1) as (_ & X1 & X2 & X3 & X4 & X5). destruct (C104_compiled _ _ _ 10%nat _ _ _ _ _ _ _ _ _ _ S IM (FP lo) G2 ltac:(lia) H2) as (_ & Y1 & Y2 & Y3 & Y4 & Y5).
  destruct (near_domain _ _ _ _ _ _ _ _ _ _ _ G1 X1 X2 X4 X5) as (B1 & B2 & _). destruct (near_domain _ _ _ _ _ _ _ _ _ _ _ G2 Y1 Y2 Y4 Y5) as (B3 & B4 & _).
  cbn [fp_row fp_col fp_alt] in *. split; (split; [reflexivity|]; auto).
Qed.

(** The ends of the line of sight, for altitudes in the range of the model: the two positions have the altitudes asked for, and the
    exact model sees them in the pixel. *)
Theorem C105_in_range :
  forall m M px bounds lo hi fill e out (r gsd bend steep lon0 lat0 lon1 lat1 : b64 * b64 -> R), same_model m M -> image_model M -> usual_model_altitudes m M -> used_altitudes m M bounds lo hi ->
  (forall p, In p px -> is_nan (fst p) = false -> is_nan (snd p) = false -> has_ground_points m M (fst p) (snd p) lo hi (r p) (gsd p) (bend p) (steep p) (lon0 p) (lat0 p) (lon1 p) (lat1 p)) ->
  f_los_extrema M px bounds fill e out ->
  e = FPrecise /\
  forall i row col, nth_error px i = Some (row, col) -> is_nan row = false -> is_nan col = false ->
  exists t b, nth_error out (2 * i) = Some t /\ nth_error out (2 * i + 1) = Some b /\ seen_end m row col hi t /\ (seen_end m row col lo b \/ start_stays m M row col lo hi b).
Proof.
  intros m M px bounds lo hi fill e out r gsd bend steep lon0 lat0 lon1 lat1 S IM U UA A H. unfold f_los_extrema in H. rewrite (used_range m M S U _ _ _ UA) in H. destruct H as (edges & H & ->).
  destruct (ends_seen _ _ _ _ _ _ _ _ _ _ _ _ _ _ _ _ S IM A H) as [-> R]. split; [reflexivity|]. intros i row col E N1 N2. destruct (R i row col E N1 N2) as (t & b & T & B & S1 & S2 & _). exists t, b. auto.
Qed.
(** For other altitudes: the two positions are on the line of the ones of the middle half of the range, at the altitudes asked for. *)
Theorem C105_prolonged :
  forall m M px a b fill e out (r gsd bend steep lon0 lat0 lon1 lat1 : b64 * b64 -> R), same_model m M -> image_model M -> usual_model_altitudes m M -> far_altitudes m M a b ->
  (forall p, In p px -> is_nan (fst p) = false -> is_nan (snd p) = false ->
     has_ground_points m M (fst p) (snd p) (middle_lowest M) (middle_highest M) (r p) (gsd p) (bend p) (steep p) (lon0 p) (lat0 p) (lon1 p) (lat1 p)) ->
  f_los_extrema M px (Some (a, b)) fill e out ->
  Rabs (B2R (middle_lowest M) - (offset_alt m - scale_alt m / 2)) <= 1 / 1000000000 /\ Rabs (B2R (middle_highest M) - (offset_alt m + scale_alt m / 2)) <= 1 / 1000000000 /\
  e = FPrecise /\
  forall i row col, nth_error px i = Some (row, col) -> is_nan row = false -> is_nan col = false ->
  exists t q, seen_end m row col (middle_highest M) t /\ (seen_end m row col (middle_lowest M) q \/ start_stays m M row col (middle_lowest M) (middle_highest M) q) /\
  exists t' q', nth_error out (2 * i) = Some t' /\ nth_error out (2 * i + 1) = Some q' /\ on_the_line t q (B2R b) t' /\ on_the_line t q (B2R a) q'.
Proof.
  intros m M px a b fill e out r gsd bend steep lon0 lat0 lon1 lat1 S IM U FA A H. unfold f_los_extrema in H. rewrite (far_range m M S U _ _ FA) in H. destruct H as (edges & H & P).
  destruct (ends_seen _ _ _ _ _ _ _ _ _ _ _ _ _ _ _ _ S IM A H) as [-> R]. destruct (middle_values m M S U) as (_ & _ & V1 & V2). split; [exact V1|]. split; [exact V2|]. split; [reflexivity|].
  intros i row col E N1 N2. destruct (R i row col E N1 N2) as (t & q & T & Q & S1 & S2 & F1 & F2 & B1 & B2 & EQ). exists t, q. split; [exact S1|]. split; [exact S2|].
  destruct (prolonged_nth _ _ _ _ _ _ _ P T Q) as (t' & q' & T' & Q' & P1 & P2). exists t', q'. split; [exact T'|]. split; [exact Q'|]. destruct S1 as (ET & F3 & F4 & B3 & B4 & _).
  split; [apply (prolonged_end m M S U a b b)|apply (prolonged_end m M S U a b a)]; auto.
Qed.
(** A pixel without a row or a column has no line of sight: its two rows are NaN. *)
Theorem C105_no_pixel :
  forall M px bounds e out i row col, f_los_extrema M px bounds false e out -> nth_error px i = Some (row, col) -> is_nan row = true \/ is_nan col = true ->
  exists t b, nth_error out (2 * i) = Some t /\ nth_error out (2 * i + 1) = Some b /\ nowhere t /\ nowhere b.
Proof.
  intros M px bounds e out i row col H E N. unfold f_los_extrema in H. destruct (f_range M bounds) as [[lo hi] prolong]. destruct H as (edges & (ll & H & ->) & P).
  destruct (ends_nth px lo hi i row col E) as [E1 E2].
  assert (V : forall a, f_valid (FPix row col a) = false) by (intros a; unfold f_valid; cbn [fp_row fp_col]; destruct N as [-> | ->]; [reflexivity|rewrite orb_true_r; reflexivity]).
  assert (O : forall k a, nth_error (f_ends px lo hi) k = Some (FPix row col a) -> nth_error ll k = Some (B754_nan, B754_nan)).
  { clear P. intros k a EK. unfold n_direct in H. destruct (filter f_valid (f_ends px lo hi)) as [|p0 l].
    - destruct H as [_ ->]. now rewrite nth_error_map, EK.
    - destruct H as (ss & ss' & _ & _ & ->). revert ss' k EK. generalize (f_ends px lo hi) as ps. induction ps as [|p ps IH]; intros ss' k EK; [destruct k; discriminate|]. destruct k as [|k]; cbn [nth_error] in EK.
      + injection EK as ->. cbn [f_scatter]. now rewrite V.
      + cbn [f_scatter]. destruct (f_valid p); [destruct ss'|]; cbn [nth_error]; apply IH; exact EK. }
  set (ed := map _ (combine ll _)) in P.
  assert (T : nth_error ed (2 * i) = Some (FPlace B754_nan B754_nan B754_nan)) by exact (combine_nth _ _ _ _ _ _ (O _ _ E1) E1).
  assert (B : nth_error ed (2 * i + 1) = Some (FPlace B754_nan B754_nan B754_nan)) by exact (combine_nth _ _ _ _ _ _ (O _ _ E2) E2).
  destruct prolong as [[lo' hi']|]; [|subst out; eexists _, _; split; [exact T|]; split; [exact B|]; repeat split].
  destruct (prolonged_nth _ _ _ _ _ _ _ P T B) as (t' & b' & T' & B' & P1 & P2). exists t', b'. split; [exact T'|]. split; [exact B'|].
  assert (NN : forall x y v, plus_product B754_nan x y v -> is_nan v = true).
  { intros x y v X. inversion X; subst; [reflexivity|]. unfold ffma, Bfma. destruct x, y; reflexivity. }
  destruct P1 as (P1 & P1' & P1''). destruct P2 as (P2 & P2' & P2''). cbn [fg_lon fg_lat fg_alt] in *. repeat split; eapply NN; eassumption.
Qed.

(** The compiled version; it starts each pixel from its own altitude. *)
Theorem C105_compiled_in_range :
  forall m M row col a b lo hi fill t q r gsd bend steep lon0 lat0 lon1 lat1, same_model m M -> image_model M -> usual_model_altitudes m M ->
  used_altitudes m M (if is_nan a || is_nan b then None else Some (a, b)) lo hi -> has_ground_points m M row col lo hi r gsd bend steep lon0 lat0 lon1 lat1 ->
  c_los_extrema M row col a b fill t q -> seen_end m row col hi t /\ seen_end m row col lo q.
Proof.
  intros m M row col a b lo hi fill t q r gsd bend steep lon0 lat0 lon1 lat1 S IM U UA A H. unfold c_los_extrema in H. pose proof (used_range m M S U _ _ _ UA) as Q. unfold b64 in *. rewrite Q in H. destruct H as (t0 & q0 & H & -> & ->).
  exact (compiled_ends _ _ _ _ _ _ _ _ _ _ _ _ _ _ _ _ _ S IM A H).
Qed.
Theorem C105_compiled_prolonged :
  forall m M row col a b fill t' q' r gsd bend steep lon0 lat0 lon1 lat1, same_model m M -> image_model M -> usual_model_altitudes m M -> far_altitudes m M a b ->
  has_ground_points m M row col (middle_lowest M) (middle_highest M) r gsd bend steep lon0 lat0 lon1 lat1 -> c_los_extrema M row col a b fill t' q' ->
  exists t q, seen_end m row col (middle_highest M) t /\ seen_end m row col (middle_lowest M) q /\ on_the_line t q (B2R b) t' /\ on_the_line t q (B2R a) q'.
Proof.
  intros m M row col a b fill t' q' r gsd bend steep lon0 lat0 lon1 lat1 S IM U FA A H. unfold c_los_extrema in H. destruct (FA) as (Fa & Fb & _).
  rewrite (finite_not_nan _ Fa), (finite_not_nan _ Fb) in H. cbn [orb] in H. rewrite (far_range m M S U _ _ FA) in H. destruct H as (t & q & H & P1 & P2).
  destruct (compiled_ends _ _ _ _ _ _ _ _ _ _ _ _ _ _ _ _ _ S IM A H) as [S1 S2]. exists t, q. split; [exact S1|]. split; [exact S2|].
  destruct S1 as (ET & F3 & F4 & B3 & B4 & _). destruct S2 as (EQ & F5 & F6 & B5 & B6 & _). split; [apply (prolonged_end m M S U a b b)|apply (prolonged_end m M S U a b a)]; auto.
Qed.

(** The calls have results. *)
Theorem C105_results :
  forall M fill, length (fm_num_col M) = 20%nat -> length (fm_den_col M) = 20%nat -> length (fm_num_row M) = 20%nat -> length (fm_den_row M) = 20%nat ->
  (forall px bounds, exists e out, f_los_extrema M px bounds fill e out /\ length out = (2 * length px)%nat) /\ (forall row col a b, exists t q, c_los_extrema M row col a b fill t q).
Proof.
  intros M fill L1 L2 L3 L4. destruct (C104_results M 10 fill L1 L2 L3 L4) as [RC RP].
  assert (PR : forall alt t b, exists q, f_prolonged alt t b q) by (intros alt t b; eexists (FPlace _ _ _); unfold f_prolonged; cbn [fg_lon fg_lat fg_alt]; repeat split; apply pp_source).
  split.
  - intros px bounds. unfold f_los_extrema. destruct (f_range M bounds) as [[lo hi] prolong]. destruct (RP (f_ends px lo hi)) as (e & ll & H).
    assert (LL : length ll = (2 * length px)%nat).
    { assert (LE : length (f_ends px lo hi) = (2 * length px)%nat) by (clear; induction px as [|p px IH]; [reflexivity|]; cbn [f_ends flat_map app length] in *; change (flat_map _ px) with (f_ends px lo hi); lia).
      rewrite <- LE. unfold n_direct in H. destruct (filter f_valid (f_ends px lo hi)) as [|p0 l]; [destruct H as [_ ->]; apply map_length|]. destruct H as (ss & ss' & _ & _ & ->). generalize (f_ends px lo hi) as ps. clear.
      intros ps. revert ss'. induction ps as [|p ps IH]; intros ss'; [reflexivity|]. cbn [f_scatter]. destruct (f_valid p); [destruct ss'|]; cbn [length]; now rewrite IH. }
    assert (LE : length (combine ll (f_ends px lo hi)) = (2 * length px)%nat).
    { rewrite combine_length, LL. replace (length (f_ends px lo hi)) with (2 * length px)%nat; [lia|]. clear. induction px as [|p px IH]; [reflexivity|]; cbn [f_ends flat_map app length] in *; change (flat_map _ px) with (f_ends px lo hi); lia. }
    set (ed := map (fun q => f_checked (FPlace (fst (fst q)) (snd (fst q)) (fp_alt (snd q)))) (combine ll (f_ends px lo hi))). assert (LD : length ed = (2 * length px)%nat) by (unfold ed; now rewrite map_length).
    destruct prolong as [[lo' hi']|]; [|exists e, ed; split; [exists ed; split; [exists ll; auto|reflexivity]|exact LD]].
    assert (X : exists out, f_prolonged_rows lo' hi' ed out /\ length out = (2 * length px)%nat).
    { clearbody ed. revert ed LD. clear - PR. induction (length px) as [|n IH]; intros ed LD; [destruct ed; [|discriminate]; exists []; split; [constructor|reflexivity]|].
      destruct ed as [|t [|b ed]]; cbn [length] in LD; try lia. destruct (IH ed ltac:(lia)) as (out & O & LO). destruct (PR hi' t b) as (t' & P1). destruct (PR lo' t b) as (b' & P2). exists (t' :: b' :: out). split; [now constructor|cbn [length]; lia]. }
    destruct X as (out & O & LO). exists e, out. split; [exists ed; split; [exists ll; auto|exact O]|exact LO].
  - intros row col a b. unfold c_los_extrema. destruct (f_range M _) as [[lo hi] prolong]. destruct (RC (FPix row col hi)) as (e1 & [x1 y1] & H1). destruct (RC (FPix row col lo)) as (e2 & [x2 y2] & H2).
    set (t := FPlace x1 y1 hi). set (q := FPlace x2 y2 lo). assert (H : c_direct_loc_h2 M (FPix row col hi) (FPix row col lo) fill t q) by (exists e1, e2, x1, y1, x2, y2; auto).
    destruct prolong as [[lo' hi']|]; [|exists t, q, t, q; auto]. destruct (PR hi' t q) as (t' & P1). destruct (PR lo' t q) as (q' & P2). exists t', q', t, q. auto.
Qed.

(** ** A case: the model and the pixel (161, 129) of C104.  The altitudes 0 and 16 are in its range; the altitudes -2000 and 3000 are
    not, and the ends at -512 and 512 are prolonged. *)
Lemma exl_near b : (Z.abs b <= 1000)%Z -> starts_near exc_m exc_M (FPix (fint 161) (fint 129) (fint b)) 24 (1 / 7) (1 / 128) 16 16 ((161 - IZR b / 16) / 16).
Proof.
  intros Hb. assert (HB : -1000 <= IZR b <= 1000) by (split; apply IZR_le; lia). assert (HL : -30 <= (161 - IZR b / 16) / 16 <= 30) by lra. set (lat0 := (161 - IZR b / 16) / 16) in *.
  destruct (fint_small 161 ltac:(lia)) as [V1 F1]. destruct (fint_small b ltac:(lia)) as [V2 F2]. destruct (fint_small 129 ltac:(lia)) as [V3 F3].
  unfold starts_near. cbn [fp_row fp_col fp_alt]. rewrite V1, V2, V3. split; [rewrite exc_col; lra|]. split; [rewrite exc_row; unfold lat0; lra|].
  assert (HL' : 6 <= lat0 <= 14.1) by (unfold lat0; lra).
  split; [unfold within, exc_m; cbn [offset_x offset_y]; apply size_le; apply Rabs_le; lra|].
  split; [unfold gentle, exc_m; cbn [scale_col scale_row scale_x scale_y]; repeat split; try lra; apply Rabs_le; lra|]. split; [apply exc_conditioned; lra|].
  intros lon lat G1 G2 W. unfold within in W. pose proof (size_l (B2R lon - 16) (B2R lat - lat0)) as SL. pose proof (size_r (B2R lon - 16) (B2R lat - lat0)) as SR.
  assert (HX : -24 <= B2R lon - 16 <= 24) by (apply Rabs_le_inv; lra). assert (HY : -24 <= B2R lat - lat0 <= 24) by (apply Rabs_le_inv; lra).
  apply exc_domain; try assumption; apply Rabs_le; lra.
Qed.
Lemma exl_points a b : (Z.abs a <= 512)%Z -> (Z.abs b <= 512)%Z ->
  has_ground_points exc_m exc_M (fint 161) (fint 129) (fint a) (fint b) 24 (1 / 7) (1 / 128) 16 16 ((161 - IZR a / 16) / 16) 16 ((161 - IZR b / 16) / 16).
Proof.
  intros Ha Hb. destruct (fint_small 161 ltac:(lia)) as [V1 F1]. destruct (fint_small 129 ltac:(lia)) as [V3 F3]. split; [exact F1|]. split; [exact F3|]. split; [apply (exl_near b); lia|]. split; [apply (exl_near a); lia|].
  destruct (fint_small a ltac:(lia)) as [V4 F4]. destruct (fint_small b ltac:(lia)) as [V5 F5]. unfold near_altitude. cbn [fp_alt]. cbv zeta. rewrite !exc_col, !exc_row, V4, V5.
  assert (HA : -512 <= IZR a <= 512) by (split; apply IZR_le; lia). assert (HB : -512 <= IZR b <= 512) by (split; apply IZR_le; lia).
  apply Rle_trans with (1 / 7 * 64); [apply Rmult_le_compat_l; [lra|]; apply size_le; apply Rabs_le; lra|lra].
Qed.
Example C105_case :
  same_model exc_m exc_M /\ image_model exc_M /\ usual_model_altitudes exc_m exc_M /\
  used_altitudes exc_m exc_M (Some (fint 0, fint 16)) (fint 0) (fint 16) /\ far_altitudes exc_m exc_M (fint (-2000)) (fint 3000) /\
  middle_lowest exc_M = fint (-512) /\ middle_highest exc_M = fint 512 /\
  has_ground_points exc_m exc_M (fint 161) (fint 129) (fint 0) (fint 16) 24 (1 / 7) (1 / 128) 16 16 ((161 - 0 / 16) / 16) 16 ((161 - 16 / 16) / 16) /\
  has_ground_points exc_m exc_M (fint 161) (fint 129) (fint (-512)) (fint 512) 24 (1 / 7) (1 / 128) 16 16 ((161 - -512 / 16) / 16) 16 ((161 - 512 / 16) / 16) /\
  (exists e out, f_los_extrema exc_M [(B754_nan, fint 3); (fint 161, fint 129)] (Some (fint (-2000), fint 3000)) false e out) /\
  (exists t q, c_los_extrema exc_M (fint 161) (fint 129) (fint 0) (fint 16) false t q).
Proof.
  destruct (fint_small 0 ltac:(lia)) as [A0 G0]. destruct (fint_small 16 ltac:(lia)) as [A1 G1]. destruct (fint_small 1024 ltac:(lia)) as [A2 G2]. destruct (fint_small (-2000) ltac:(lia)) as [A3 G3]. destruct (fint_small 3000 ltac:(lia)) as [A4 G4].
  assert (E1 : middle_lowest exc_M = fint (-512)) by (apply FloatWalk.b_eqb_eq; vm_compute; reflexivity). assert (E2 : middle_highest exc_M = fint 512) by (apply FloatWalk.b_eqb_eq; vm_compute; reflexivity).
  assert (E3 : model_lowest exc_M = fint (-1024)) by (apply FloatWalk.b_eqb_eq; vm_compute; reflexivity). destruct (fint_small (-1024) ltac:(lia)) as [A5 G5].
  split; [exact exc_same|]. split; [exact ex_image|].
  split; [unfold usual_model_altitudes; split; [exact G0|]; split; [exact G2|]; cbn [exc_m offset_alt scale_alt]; rewrite Rabs_R0; lra|].
  split; [cbn [used_altitudes exc_m offset_alt scale_alt]; rewrite A0, A1; repeat split; try assumption; lra|].
  split; [unfold far_altitudes; rewrite E3, A3, A4, A5; cbn [exc_m offset_alt scale_alt]; repeat split; try assumption; try (apply Rabs_le; lra); left; lra|].
  split; [exact E1|]. split; [exact E2|]. split; [apply (exl_points 0 16); lia|]. split; [apply (exl_points (-512) 512); lia|].
  destruct (C105_results exc_M false eq_refl eq_refl eq_refl eq_refl) as [RP RC]. split; [destruct (RP [(B754_nan, fint 3); (fint 161, fint 129)] (Some (fint (-2000), fint 3000))) as (e & out & H & _); exists e, out; exact H|apply RC].
Qed.
