(** Properties of the DTM reader: nodata filling (C49), geoid heights (C50, C61). *)
From Coq Require Import Reals ZArith List Bool Lra Lia Sorted Permutation Arith.
From Verif Require Import Num NumLemmas InterpModel InterpSpec InterpProofs ProjModel ProjSpec RpcModel DtmModel ImageModel ImageSpec DtmReadModel DtmReadSpec DtmReadProofs.
Import ListNotations.
Open Scope R_scope.

(** ** C49 *)
(** The valid cells keep their value, whatever the strategy. *)
Theorem C49_valid_cells_kept :
  forall ty rio_fill conv t rows cols epsg nodata file_mask data s fill_value out k v,
    fills_only_masked rio_fill -> length file_mask = length data -> mask_of_nodata nodata file_mask data ->
    read_dtm ty rio_fill conv t rows cols epsg nodata file_mask data None s fill_value = Some out ->
    valid_cell nodata file_mask data k v ->
    nth_error out k = Some (Some v).
Proof.
  intros ty rio conv t rows cols epsg nodata fm data s fv out k v HF HL HM H HV. unfold read_dtm in H. destruct (_ || _)%bool; [discriminate|].
  destruct (compute_stats _ _) as [st|]; [|discriminate]. destruct s as [s|]; [|injection H as <-; apply HV].
  destruct (fill_nodata _ _ _ _ _ _ _ _) as [o|] eqn:E; [|discriminate]. injection H as <-. eapply fill_keeps; eauto.
Qed.

(** With a geoid, each valid cell is increased by the height of the geoid at its own centre. *)
Theorem C49_geoid_height_added :
  forall ty rio_fill conv t rows cols epsg nodata file_mask data g s fill_value out i j v,
    fills_only_masked rio_fill -> length file_mask = length data -> mask_of_nodata nodata file_mask data ->
    length data = (rows * cols)%nat -> (forall f l, length (conv f l) = length l) ->
    (forall f l k p, nth_error l k = Some p -> exists q, conv f [p] = [q] /\ nth_error (conv f l) k = Some q) ->
    read_dtm ty rio_fill conv t rows cols epsg nodata file_mask data (Some g) s fill_value = Some out ->
    (i < rows)%nat -> (j < cols)%nat -> valid_cell nodata file_mask data (i * cols + j) v ->
    let '(y, x) := transform_index_to_physical_point t (INR i) (INR j) in
    let centre := if (epsg =? 4326)%Z then [(x, y)] else conv epsg [(x, y)] in
    exists h rest, interpolate_geoid_height g centre = Some ([h], rest) /\
      nth_error out (i * cols + j) = Some (nadd (Some v) h).
Proof.
  intros ty rio conv t rows cols epsg nodata fm data g s fv out i j v HF HL HM HD HC1 HC2 H Hi Hj HV.
  pose proof (cell_positions_nth t rows cols i j Hi Hj) as HP.
  destruct (transform_index_to_physical_point t (INR i) (INR j)) as [y x].
  unfold read_dtm in H. destruct (_ || _)%bool; [discriminate|]. destruct (compute_stats _ _) as [st|]; [|discriminate].
  destruct (match s with Some s => _ | None => Some data end) as [filled|] eqn:EF in H; [|discriminate].
  assert (HV2 : nth_error filled (i * cols + j) = Some (Some v)).
  { destruct s as [s|]; [eapply fill_keeps; eauto|injection EF as <-; apply HV]. }
  set (ps := if (epsg =? 4326)%Z then cell_positions t rows cols else conv epsg (cell_positions t rows cols)) in H.
  set (centre := if (epsg =? 4326)%Z then [(x, y)] else conv epsg [(x, y)]). cbv zeta.
  assert (HQ : exists q, centre = [q] /\ nth_error ps (i * cols + j) = Some q).
  { unfold centre, ps. destruct (epsg =? 4326)%Z; [exists (x, y); auto|now apply HC2]. }
  destruct HQ as (q & -> & Eq). unfold interpolate_geoid_height in H |- *. cbv zeta in H |- *.
  destruct (existsb _ _) eqn:EX in H; [discriminate|]. injection H as <-.
  cbn [map existsb].
  assert (Rltb 90 (Rabs (snd q)) = false) as EQ.
  { destruct (Rltb 90 (Rabs (snd q))) eqn:Eb; [|reflexivity]. rewrite <- EX. symmetry. apply existsb_exists. exists (geoid_longitude g (fst q), snd q).
    split; [|exact Eb]. apply in_map_iff. exists q. split; [reflexivity|]. eapply nth_error_In; exact Eq. }
  cbn [fst snd]. rewrite EQ. cbn [orb]. eexists. eexists. split; [reflexivity|].
  rewrite map2_nth_error, HV2, !nth_error_map, Eq. reflexivity.
Qed.

(** The cells that are not valid take the announced statistic of the valid cells, as a cell of the file
    can hold it. *)
Theorem C49_statistic_fills :
  forall ty rio_fill conv t rows cols epsg nodata file_mask data s fill_value out k,
    length file_mask = length data ->
    read_dtm ty rio_fill conv t rows cols epsg nodata file_mask data None (Some s) fill_value = Some out ->
    (k < length data)%nat -> (forall v, ~ valid_cell nodata file_mask data k v) ->
    let l := valid_values nodata file_mask data in
    match s with
    | Smin => exists m w, is_min l m /\ held ty m w /\ nth_error out k = Some (Some w)
    | Smax => exists m w, is_max l m /\ held ty m w /\ nth_error out k = Some (Some w)
    | Smean => exists m w, is_mean l m /\ l <> [] /\ held ty m w /\ nth_error out k = Some (Some w)
    | Smedian => exists m w, is_median l m /\ held ty m w /\ nth_error out k = Some (Some w)
    | Sconstant => forall c, fill_value = Some c -> exists w, held ty c w /\ nth_error out k = Some (Some w)
    | Srio | Sunknown => True
    end.
Proof.
  intros ty rio conv t rows cols epsg nodata fm data s fv out k HL H Hk HN. unfold read_dtm in H. destruct (_ || _)%bool; [discriminate|].
  pose proof (compute_stats_spec nodata fm data HL) as HS. destruct (compute_stats _ _) as [st|]; [|discriminate].
  destruct (fill_nodata _ _ _ _ _ _ _ _) as [o|] eqn:EF; [|discriminate]. injection H as <-.
  cbv zeta in HS |- *. destruct HS as (H0 & H1 & H2 & H3 & H4).
  destruct (nth_error data k) as [x|] eqn:Ex; [|apply nth_error_None in Ex; lia].
  destruct (valid_mask_nth nodata fm data k x HL Ex) as (b & Hb & Hbt).
  assert (b = false). { destruct b; [|reflexivity]. destruct (proj1 Hbt eq_refl) as (v & _ & Hv). exfalso. exact (HN v Hv). }
  subst b.
  assert (HF : forall v, fill_masked ty data (valid_mask nodata fm data) (fin v) = Some o -> exists w, held ty v w /\ nth_error o k = Some (Some w)).
  { intros v Hv. destruct (fill_masked_nth _ _ _ _ _ _ _ _ Hv Ex Hb) as (w & E1 & E2). destruct (store_held _ _ _ E1) as (w' & -> & E3). eauto. }
  destruct s; cbn [fill_nodata] in EF; auto.
  - destruct (HF _ EF) as (w & W1 & W2). exists (st_min st), w. auto.
  - destruct (HF _ EF) as (w & W1 & W2). exists (st_max st), w. auto.
  - destruct (HF _ EF) as (w & W1 & W2). exists (st_mean st), w. auto.
  - destruct (HF _ EF) as (w & W1 & W2). exists (st_median st), w. auto.
  - intros c ->. exact (HF _ EF).
Qed.

(** The values of [l] are the ones of the valid cells, each as many times as it occurs. *)
Theorem C49_values_of_the_valid_cells :
  forall nodata file_mask data v, length file_mask = length data ->
  (In v (valid_values nodata file_mask data) <-> exists k, valid_cell nodata file_mask data k v).
Proof. exact valid_values_In. Qed.

Lemma sum_bounds : forall l lo hi, (forall x, In x l -> lo <= x <= hi) -> lo * INR (length l) <= fold_right Rplus 0 l <= hi * INR (length l).
Proof.
  induction l as [|x l IH]; intros lo hi H; [cbn; lra|]. specialize (IH lo hi (fun y Hy => H y (or_intror Hy))). pose proof (H x (or_introl eq_refl)).
  cbn [fold_right length]. rewrite S_INR. lra.
Qed.
Lemma held_within : forall ty nodata fm data lo hi m w, length fm = length data -> typed_cells ty data ->
  is_min (valid_values nodata fm data) lo -> is_max (valid_values nodata fm data) hi -> lo <= m <= hi -> held ty m w -> lo <= w <= hi.
Proof.
  intros [|a b] nodata fm data lo hi m w HL HT [L _] [U _] HM HW; cbn [held typed_cells] in *; [subst w; exact HM|].
  apply valid_values_In in L; [|exact HL]. apply valid_values_In in U; [|exact HL]. destruct L as (k1 & L & _). destruct U as (k2 & U & _).
  destruct (HT k1 _ L) as (z1 & E1 & _). destruct (HT k2 _ U) as (z2 & E2 & _). injection E1 as ->. injection E2 as ->.
  destruct HW as (z & [A B] & _ & ->).
  assert (z1 <= z <= z2)%Z; [|split; apply IZR_le; lia].
  destruct (Rle_dec 0 m) as [P|P].
  - rewrite (Rabs_right m) in A by lra. assert (0 <= IZR z \/ m = 0) as [Z|Z].
    { destruct (Rle_dec 0 (IZR z)); [auto|]. right. nra. }
    + rewrite Rabs_right in A by lra. split; [|apply le_IZR; lra]. assert (IZR z1 < IZR (z + 1)) by (rewrite plus_IZR; lra). apply lt_IZR in H. lia.
    + subst m. pose proof (Rabs_pos (IZR z)). assert (IZR z = 0). { destruct (Req_dec (IZR z) 0) as [E|E]; [exact E|]. apply Rabs_pos_lt in E. lra. }
      split; apply le_IZR; lra.
  - rewrite (Rabs_left m) in A by lra. assert (IZR z <= 0) by (destruct (Rle_dec (IZR z) 0); [assumption|nra]).
    rewrite Rabs_left1 in A by lra. split; [apply le_IZR; lra|]. assert (IZR (z - 1) < IZR z2) by (rewrite minus_IZR; lra). apply lt_IZR in H0. lia.
Qed.
(** Whatever the statistic, the value is between the lowest and the highest valid cell ... *)
Theorem C49_statistics_within :
  forall l lo hi m, is_min l lo -> is_max l hi -> is_mean l m \/ is_median l m -> lo <= m <= hi.
Proof.
  intros l lo hi m [Hlo1 Hlo] [Hhi1 Hhi] H. assert (HB : forall x, In x l -> lo <= x <= hi) by (intros x Hx; split; auto).
  assert (HN : 0 < INR (length l)). { apply lt_0_INR. destruct l; [contradiction|cbn; lia]. }
  destruct H as [H|H].
  - unfold is_mean in H. pose proof (sum_bounds l lo hi HB). rewrite <- H in H0. destruct H0. split; eapply Rmult_le_reg_r; eauto.
  - destruct H as (s & P & _ & [(a & b & -> & _)|(a & x & y & b & -> & _ & E)]).
    + apply HB. apply (Permutation_in _ P). apply in_or_app. right. left. reflexivity.
    + assert (lo <= x <= hi) by (apply HB, (Permutation_in _ P), in_or_app; right; left; reflexivity).
      assert (lo <= y <= hi) by (apply HB, (Permutation_in _ P), in_or_app; right; right; left; reflexivity). lra.
Qed.

(** ... and so is what the cell holds, in a file of integers too. *)
Theorem C49_held_within :
  forall ty nodata file_mask data lo hi m w, length file_mask = length data -> typed_cells ty data ->
  is_min (valid_values nodata file_mask data) lo -> is_max (valid_values nodata file_mask data) hi ->
  is_mean (valid_values nodata file_mask data) m \/ is_median (valid_values nodata file_mask data) m ->
  held ty m w -> lo <= w <= hi.
Proof. intros ty nodata fm data lo hi m w HL HT H1 H2 H3 HW. eapply held_within; eauto. eapply C49_statistics_within; eauto. Qed.

(** With the default strategy, no cell is left at the nodata value, when what the cells hold of the fill
    value is not the nodata value itself. *)
Theorem C49_default_leaves_no_nodata :
  forall ty rio_fill conv t rows cols epsg n file_mask data fill_value out k,
    length file_mask = length data -> typed_cells ty data -> fills_only_masked rio_fill -> mask_of_nodata (Some (Some n)) file_mask data ->
    (forall c, fill_value = Some c -> ~ held ty c n) ->
    read_dtm ty rio_fill conv t rows cols epsg (Some (Some n)) file_mask data None (Some Srio) fill_value = Some out ->
    nth_error out k <> Some (Some n).
Proof.
  intros ty rio conv t rows cols epsg n fm data fv out k HL HT HF HM HC H. unfold read_dtm in H. destruct (_ || _)%bool; [discriminate|].
  pose proof (compute_stats_spec (Some (Some n)) fm data HL) as HS. destruct (compute_stats _ _) as [st|]; [|discriminate].
  destruct (fill_nodata _ _ _ _ _ _ _ _) as [o|] eqn:EF; [|discriminate]. injection H as <-.
  cbv zeta in HS. destruct HS as (_ & (H1 & H1') & (H2 & H2') & _).
  assert (Hmin : forall w, held ty (st_min st) w -> w <> n).
  { intros w Hw. pose proof H1 as HX. apply valid_values_In in HX; [|exact HL]. destruct HX as (k0 & HV). pose proof HV as [Hx _].
    assert (w = st_min st).
    { destruct ty as [|a b]; cbn [held typed_cells] in *; [exact Hw|]. destruct (HT k0 _ Hx) as (z & Ez & _). injection Ez as Ez. rewrite Ez in Hw |- *.
      destruct Hw as (y & [[A1 A2] B] & _ & ->). f_equal. rewrite <- !abs_IZR in A1, A2. apply le_IZR in A1. rewrite <- (plus_IZR _ 1) in A2. apply lt_IZR in A2.
      rewrite <- mult_IZR in B. apply le_IZR in B. nia. }
    subst w. intros E. destruct HV as [_ [Hm|Hm]]; [discriminate|]. rewrite E in Hx. destruct (HM k0 n Hx) as [_ HH]. rewrite HH in Hm by reflexivity. discriminate. }
  unfold fill_nodata in EF. cbv zeta in EF. set (mask := valid_mask (Some (Some n)) fm data) in *. destruct (HF data mask (valid_mask_length _ _ _ HL)) as [HK1 HK2].
  assert (Hgo : forall z, is_nodata (Some (Some n)) (Some z) = true <-> z = n) by (intros z; cbn; apply Reqb_true).
  destruct (existsb _ _) eqn:EX.
  - destruct (store ty _) as [w|] eqn:ES; [|discriminate]. injection EF as <-. destruct (store_held _ _ _ ES) as (w' & -> & HW).
    rewrite nth_error_map. destruct (nth_error (rio data mask) k) as [[x|]|]; cbn [option_map]; try discriminate.
    destruct (is_nodata (Some (Some n)) (Some x)) eqn:EN.
    + intros E. injection E as E. cbn [is_nodata] in EN. rewrite EN in E. injection E as E. subst w'. destruct fv as [c|]; [exact (HC c eq_refl HW)|exact (Hmin n HW eq_refl)].
    + intros E. injection E as E. cbn [is_nodata] in EN. rewrite EN in E. injection E as E. apply Hgo in E. cbn [is_nodata] in E. congruence.
  - injection EF as <-. intros E. assert (Hk : (k < length data)%nat) by (rewrite <- HK1; apply nth_error_Some; congruence).
    destruct (nth_error data k) as [x|] eqn:Ex; [|apply nth_error_None in Ex; lia].
    destruct (valid_mask_nth (Some (Some n)) fm data k x HL Ex) as (b & Hb & Hbt). fold mask in Hb. destruct b.
    + rewrite (HK2 k Hb), Ex in E. injection E as E. destruct (proj1 Hbt eq_refl) as (v & -> & _ & [Hm|Hm]); [discriminate|].
      injection E as ->. destruct (HM k n Ex) as [_ HH]. rewrite HH in Hm by reflexivity. discriminate.
    + assert (existsb (is_nodata (Some (Some n))) (gather (map negb mask) (rio data mask)) = true); [|congruence].
      apply existsb_exists. exists (Some n). split; [|now apply Hgo].
      clear -E Hb. clearbody mask. revert E Hb. generalize (rio data mask) as l. clear. intros l. revert k mask.
      induction l as [|x l IH]; intros [|k] [|m mask] E Hb; try discriminate; cbn [map gather nth_error] in *.
      * injection Hb as ->. injection E as ->. cbn. left. reflexivity.
      * specialize (IH k mask E Hb). destruct (negb m); [right|]; exact IH.
Qed.

(** A file of floats with two rows and two columns is refused when it has no valid cell, and only then. *)
Theorem C49_no_valid_cell_raises :
  forall rio_fill conv t rows cols epsg nodata file_mask data s fill_value, length file_mask = length data -> rows <> 1%nat -> cols <> 1%nat ->
  (read_dtm Floats rio_fill conv t rows cols epsg nodata file_mask data None s fill_value = None <->
   forall k v, ~ valid_cell nodata file_mask data k v).
Proof.
  intros rio conv t rows cols epsg nodata fm data s fv HL Hr Hc. unfold read_dtm. apply Nat.eqb_neq in Hr, Hc. rewrite Hr, Hc. cbn [orb].
  pose proof (compute_stats_spec nodata fm data HL) as HS. pose proof (fun v => valid_values_In nodata fm data v HL) as HI.
  destruct (compute_stats _ _) as [st|]; cbv zeta in *.
  - split.
    + intros H. exfalso. destruct s as [[]|]; cbn in H; try discriminate. destruct (existsb _ _); discriminate.
    + intros HN. destruct HS as (_ & (H1 & _) & _). apply HI in H1. destruct H1 as (k & H1). exfalso. exact (HN _ _ H1).
  - split; [|reflexivity]. intros _ k v HV. assert (In v (valid_values nodata fm data)) by (apply HI; eauto). rewrite HS in H. destruct H.
Qed.
(** So is a file of integers, unless a fill value is given. *)
Theorem C49_no_valid_cell_raises_integers :
  forall lo hi rio_fill conv t rows cols epsg nodata file_mask data s, length file_mask = length data -> rows <> 1%nat -> cols <> 1%nat ->
  typed_cells (Ints lo hi) data -> s <> Some Sconstant ->
  (read_dtm (Ints lo hi) rio_fill conv t rows cols epsg nodata file_mask data None s None = None <->
   forall k v, ~ valid_cell nodata file_mask data k v).
Proof.
  intros lo hi rio conv t rows cols epsg nodata fm data s HL Hr Hc HT Hs. unfold read_dtm. apply Nat.eqb_neq in Hr, Hc. rewrite Hr, Hc. cbn [orb].
  pose proof (compute_stats_spec nodata fm data HL) as HS. pose proof (fun v => valid_values_In nodata fm data v HL) as HI.
  destruct (compute_stats _ _) as [st|]; cbv zeta in *.
  - destruct HS as (_ & H1 & H2 & H3 & H4). split.
    + intros H. exfalso.
      assert (K : forall m, st_min st <= m <= st_max st -> store (Ints lo hi) (fin m) <> None).
      { intros m Hm. cbn [store fin]. assert (HW : held (Ints (Rtrunc m) (Rtrunc m)) m (IZR (Rtrunc m))) by (exists (Rtrunc m); split; [apply trunc_spec|split; [lia|reflexivity]]).
        assert (HT2 : exists a b, (lo <= a)%Z /\ (b <= hi)%Z /\ st_min st = IZR a /\ st_max st = IZR b).
        { destruct H1 as [L _]. destruct H2 as [U _]. apply HI in L, U. destruct L as (k1 & L & _). destruct U as (k2 & U & _).
          destruct (HT k1 _ L) as (z1 & E1 & Z1). destruct (HT k2 _ U) as (z2 & E2 & Z2). injection E1 as E1. injection E2 as E2. exists z1, z2. repeat split; auto; lia. }
        assert (HB : st_min st <= IZR (Rtrunc m) <= st_max st).
        { destruct HW as (z & W & _ & E). apply eq_IZR in E. subst z. apply (held_within (Ints lo hi) nodata fm data _ _ m); auto.
          exists (Rtrunc m). split; [exact W|]. split; [|reflexivity]. destruct HT2 as (a & b & A & B & Ea & Eb). destruct W as [[A1 A2] S]. rewrite Ea, Eb in Hm.
          unfold Rtrunc in *. destruct (Rltb m 0) eqn:Em.
          - apply Rltb_true in Em. pose proof (Rceil_bounds m). split; [apply le_IZR; apply IZR_le in A; lra|]. apply Z.le_trans with b; [|exact B]. apply ceil_le. lra.
          - apply Rltb_false in Em. pose proof (Rfloor_bounds m). split; [apply Z.le_trans with a; [exact A|]; apply le_floor; lra|]. apply le_IZR. apply IZR_le in B. lra. }
        destruct HT2 as (a & b & A & B & Ea & Eb). rewrite Ea, Eb in HB. destruct HB as [B1 B2]. apply le_IZR in B1, B2.
        replace ((lo <=? Rtrunc m) && (Rtrunc m <=? hi))%Z%bool with true; [discriminate|]. symmetry. apply andb_true_iff. rewrite !Z.leb_le. lia. }
      pose proof (C49_statistics_within _ _ _ _ H1 H2 (or_introl H3)) as W3. pose proof (C49_statistics_within _ _ _ _ H1 H2 (or_intror H4)) as W4.
      assert (W1 : st_min st <= st_min st <= st_max st) by lra. assert (W2 : st_min st <= st_max st <= st_max st) by lra.
      apply K in W1, W2, W3, W4.
      destruct s as [[]|]; cbn [fill_nodata] in H; unfold fill_masked in H; try discriminate; try contradiction;
        try (destruct (store _ _); [discriminate|contradiction]).
      destruct (existsb _ _); [destruct (store _ _); [discriminate|contradiction]|discriminate].
    + intros HN. destruct H1 as (H1 & _). apply HI in H1. destruct H1 as (k & H1). exfalso. exact (HN _ _ H1).
  - split; [|reflexivity]. intros _ k v HV. assert (In v (valid_values nodata fm data)) by (apply HI; eauto). rewrite HS in H. destruct H.
Qed.

(** A file (or a region) of a single row or of a single column is refused, whatever it holds. *)
Theorem C49_single_row_refuted :
  forall ty rio_fill conv t rows cols epsg nodata file_mask data g s fill_value, rows = 1%nat \/ cols = 1%nat ->
  read_dtm ty rio_fill conv t rows cols epsg nodata file_mask data g s fill_value = None.
Proof. intros ty rio conv t rows cols epsg nodata fm data g s fv [-> | ->]; unfold read_dtm; [reflexivity|]. rewrite orb_true_r. reflexivity. Qed.

(** "The nodata cells get the mean" fails for a file of integers: 1, 2, 2 have the mean 5 / 3, the cell
    gets 1. *)
Theorem C49_integer_mean_refuted :
  exists rio_fill conv t epsg nodata file_mask data out,
    fills_only_masked rio_fill /\ typed_cells (Ints (-32768) 32767) data /\ mask_of_nodata nodata file_mask data /\
    read_dtm (Ints (-32768) 32767) rio_fill conv t 2 2 epsg nodata file_mask data None (Some Smean) None = Some out /\
    is_mean (valid_values nodata file_mask data) (5 / 3) /\ nth_error out 3 = Some (Some 1).
Proof.
  exists (fun d _ => d), (fun _ l => l), (mkAffine 1 0 0 0 (-1) 0), 4326%Z, (Some (Some (-1))), [true; true; true; false], [Some 1; Some 2; Some 2; Some (-1)], [Some 1; Some 2; Some 2; Some 1].
  split; [intros d m _; split; auto|]. split.
  { intros [|[|[|[|[|k]]]]] x H; cbn in H; try discriminate; injection H as <-; [exists 1%Z|exists 2%Z|exists 2%Z|exists (-1)%Z]; split; try reflexivity; lia. }
  split. { intros [|[|[|[|[|k]]]]] x H; cbn in H |- *; try discriminate; injection H as <-; split; intros H; try discriminate; try reflexivity; injection H as H; lra. }
  split; [|split; [unfold is_mean; cbn; lra|reflexivity]].
  unfold read_dtm. cbn [Nat.eqb orb valid_mask map2 isnan negb andb compute_stats finite_values gather flat_map app].
  cbn [fill_nodata st_mean]. unfold fill_masked, store, fin. unfold np_mean. cbn [fold_right length INR].
  assert (E : Rtrunc ((1 + (2 + (2 + 0))) / (1 + 1 + 1)) = 1%Z). { rewrite Rtrunc_nonneg by lra. apply Rfloor_unique. lra. }
  rewrite E. reflexivity.
Qed.
(** A file of integers that is filled with a constant holds its integer part, and refuses the default
    fill value. *)
Theorem C49_integer_constant_refuted :
  (exists rio_fill conv t epsg nodata file_mask data out,
    fills_only_masked rio_fill /\ typed_cells (Ints (-32768) 32767) data /\ mask_of_nodata nodata file_mask data /\
    read_dtm (Ints (-32768) 32767) rio_fill conv t 2 2 epsg nodata file_mask data None (Some Sconstant) (Some (1 / 2)) = Some out /\
    nth_error out 3 = Some (Some 0)) /\
  forall lo hi rio_fill conv t rows cols epsg nodata file_mask data g,
    read_dtm (Ints lo hi) rio_fill conv t rows cols epsg nodata file_mask data g (Some Sconstant) None = None.
Proof.
  split.
  - exists (fun d _ => d), (fun _ l => l), (mkAffine 1 0 0 0 (-1) 0), 4326%Z, (Some (Some (-1))), [true; true; true; false], [Some 1; Some 2; Some 2; Some (-1)], [Some 1; Some 2; Some 2; Some 0].
    split; [intros d m _; split; auto|]. split.
    { intros [|[|[|[|[|k]]]]] x H; cbn in H; try discriminate; injection H as <-; [exists 1%Z|exists 2%Z|exists 2%Z|exists (-1)%Z]; split; try reflexivity; lia. }
    split. { intros [|[|[|[|[|k]]]]] x H; cbn in H |- *; try discriminate; injection H as <-; split; intros H; try discriminate; try reflexivity; injection H as H; lra. }
    split; [|reflexivity].
    unfold read_dtm. cbn [Nat.eqb orb valid_mask map2 isnan negb andb compute_stats finite_values gather flat_map app].
    cbn [fill_nodata]. unfold fill_masked, store, fin.
    assert (E : Rtrunc (1 / 2) = 0%Z). { rewrite Rtrunc_nonneg by lra. apply Rfloor_unique. lra. }
    rewrite E. reflexivity.
  - intros lo hi rio conv t rows cols epsg nodata fm data g. unfold read_dtm. destruct (_ || _)%bool; [reflexivity|]. destruct (compute_stats _ _); reflexivity.
Qed.

(** "No NaN is left" fails for the default strategy when the file has no nodata value: the NaN cells
    that rasterio does not reach stay, since they are compared with the absent nodata value. *)
Theorem C49_default_leaves_nan_refuted :
  exists rio_fill conv t rows cols epsg file_mask data fill_value out k,
    fills_only_masked rio_fill /\ length file_mask = length data /\ length data = (rows * cols)%nat /\
    read_dtm Floats rio_fill conv t rows cols epsg None file_mask data None (Some Srio) (Some fill_value) = Some out /\
    nth_error out k = Some nan.
Proof.
  exists (fun d _ => d), (fun _ l => l), (mkAffine 1 0 0 0 (-1) 0), 2%nat, 2%nat, 4326%Z, [true; true; true; true], [Some 5; nan; Some 6; Some 6], 7, [Some 5; nan; Some 6; Some 6], 1%nat.
  split; [intros d m _; split; auto|]. repeat (split; [reflexivity|]). reflexivity.
Qed.
(** The same with the constant strategy, and its default fill value. *)
Theorem C49_constant_default_leaves_nan_refuted :
  exists rio_fill conv t rows cols epsg nodata file_mask data out k,
    fills_only_masked rio_fill /\ length file_mask = length data /\ length data = (rows * cols)%nat /\ mask_of_nodata nodata file_mask data /\
    read_dtm Floats rio_fill conv t rows cols epsg nodata file_mask data None (Some Sconstant) None = Some out /\
    nth_error out k = Some nan.
Proof.
  exists (fun d _ => d), (fun _ l => l), (mkAffine 1 0 0 0 (-1) 0), 2%nat, 2%nat, 4326%Z, (Some (Some (-1))), [true; false; true; true], [Some 5; Some (-1); Some 6; Some 6], [Some 5; nan; Some 6; Some 6], 1%nat.
  split; [intros d m _; split; auto|]. split; [reflexivity|]. split; [reflexivity|]. split; [|split; reflexivity].
  intros [|[|[|[|[|k]]]]] x H; cbn in H |- *; try discriminate; injection H as <-; split; intros H; try discriminate; try reflexivity; injection H as H; lra.
Qed.

(** A file of four cells, one of them masked and one of them NaN. *)
Definition ex_data : list num := [Some 4; Some (-1); nan; Some 10].
Definition ex_mask : list bool := [true; false; true; true].
Example C49_example :
  fills_only_masked (fun d _ => d) /\ length ex_mask = length ex_data /\ mask_of_nodata (Some (Some (-1))) ex_mask ex_data /\
  valid_cell (Some (Some (-1))) ex_mask ex_data 3 10 /\ valid_values (Some (Some (-1))) ex_mask ex_data = [4; 10] /\
  is_min [4; 10] 4 /\ is_max [4; 10] 10 /\ is_mean [4; 10] 7 /\ is_median [4; 10] 7 /\
  forall st, exists out, read_dtm Floats (fun d _ => d) (fun _ l => l) (mkAffine 1 0 0 0 (-1) 0) 2 2 4326 (Some (Some (-1))) ex_mask ex_data None (Some st) None = Some out.
Proof.
  split; [intros d m _; split; auto|]. split; [reflexivity|]. split.
  { intros [|[|[|[|[|k]]]]] x H; cbn in H |- *; try discriminate; injection H as <-; split; intros H; try discriminate; try reflexivity; injection H as H; lra. }
  split; [split; [reflexivity|right; reflexivity]|]. split; [reflexivity|].
  split; [split; [left; reflexivity|intros x [<-|[<-|[]]]; lra]|]. split; [split; [right; left; reflexivity|intros x [<-|[<-|[]]]; lra]|].
  split; [unfold is_mean; cbn; lra|]. split.
  { exists [4; 10]. split; [reflexivity|]. split; [repeat constructor; lra|]. right. exists [], 4, 10, []. repeat split; try reflexivity. lra. }
  intros st. unfold read_dtm. cbn [valid_mask ex_mask ex_data map2 isnan negb andb compute_stats finite_values gather flat_map app]. destruct st; cbn [fill_nodata fill_masked store Nat.eqb orb]; try (eexists; reflexivity). cbv zeta. destruct (existsb _ _); eexists; reflexivity.
Qed.

(** ** C50 *)
(** A geoid that covers all the longitudes: each height is the one at the longitude modulo 360, and the
    longitudes given by the caller are replaced by equivalent ones. *)
Theorem C50_height_modulo_360 :
  forall g positions, global_geoid g -> -180 <= first_longitude g <= 0 ->
    (forall lon lat, In (lon, lat) positions ->
       first_longitude g - 360 <= lon <= first_longitude g + 720 /\ Rabs lat <= 90 /\ latitude_covered g lat) ->
    exists heights after, interpolate_geoid_height g positions = Some (heights, after) /\
      length heights = length positions /\ length after = length positions /\
      forall k lon lat, nth_error positions k = Some (lon, lat) ->
        (exists h, nth_error heights k = Some (Some h) /\ geoid_height_at g lon lat h) /\
        (exists n, nth_error after k = Some (lon + 360 * IZR n, lat)).
Proof.
  intros g ps HG HM HP. unfold interpolate_geoid_height. cbv zeta.
  replace (existsb _ _) with false.
  2:{ symmetry. apply not_true_iff_false. intros EX. apply existsb_exists in EX. destruct EX as (q & Hq & HB).
      apply in_map_iff in Hq. destruct Hq as ([lon lat] & <- & Hin). cbn [fst snd] in HB. apply Rltb_true in HB. destruct (HP lon lat Hin) as (_ & H & _). lra. }
  eexists. eexists. split; [reflexivity|]. split; [now rewrite !map_length|]. split; [now rewrite map_length|].
  intros k lon lat Hk. destruct (HP lon lat (nth_error_In _ _ Hk)) as (H1 & H2 & H3).
  rewrite !nth_error_map, Hk. cbn [option_map fst snd]. split.
  - pose proof HG as (HU & HI & HPX & HQ & HN & HC & HR).
    rewrite geoid_index by (try assumption; lra).
    destruct (geoid_lookup g (geoid_longitude g lon) lat HG H3 (geoid_longitude_range g lon HG HM H1)) as (h & E & Hh).
    exists h. rewrite E. split; [reflexivity|]. destruct (geoid_longitude_shift g lon) as (n & En). rewrite En in Hh.
    eapply geoid_height_periodic; eassumption.
  - destruct (geoid_longitude_shift g lon) as (n & ->). exists n. reflexivity.
Qed.

(** The height is the same for two longitudes that are the same modulo 360. *)
Theorem C50_same_height_modulo_360 :
  forall g lon lat k, global_geoid g -> -180 <= first_longitude g <= 0 ->
    first_longitude g - 360 <= lon <= first_longitude g + 720 -> first_longitude g - 360 <= lon + 360 * IZR k <= first_longitude g + 720 ->
    Rabs lat <= 90 -> latitude_covered g lat ->
    exists h a b, interpolate_geoid_height g [(lon, lat)] = Some ([Some h], a) /\ interpolate_geoid_height g [(lon + 360 * IZR k, lat)] = Some ([Some h], b).
Proof.
  intros g lon lat k HG HM H1 H2 H3 H4.
  destruct (C50_height_modulo_360 g [(lon, lat)] HG HM) as (hs & a & E & L & _ & HH).
  { intros x y [Ei|[]]. injection Ei as <- <-. auto. }
  destruct (C50_height_modulo_360 g [(lon + 360 * IZR k, lat)] HG HM) as (hs' & b & E' & L' & _ & HH').
  { intros x y [Ei|[]]. injection Ei as <- <-. auto. }
  destruct (HH 0%nat _ _ eq_refl) as ((h & Eh & Hh) & _). destruct (HH' 0%nat _ _ eq_refl) as ((h' & Eh' & Hh') & _).
  destruct HG as (HU & HI & HPX & HQ & HN & HC & HR).
  apply (geoid_height_periodic g lon lat h' k HN HC) in Hh'.
  assert (h = h') by (eapply geoid_height_unique; [| |exact Hh|exact Hh']; lra). subst h'.
  destruct hs as [|x [|]]; try discriminate. destruct hs' as [|x' [|]]; try discriminate. cbn in Eh, Eh'. injection Eh as ->. injection Eh' as ->.
  exists h, a, b. split; assumption.
Qed.

(** There is only one such height. *)
Theorem C50_height_is_unique :
  forall g lon lat h h', global_geoid g -> geoid_height_at g lon lat h -> geoid_height_at g lon lat h' -> h = h'.
Proof. intros g lon lat h h' (_ & _ & HP & HQ & _). apply geoid_height_unique; lra. Qed.

(** A latitude beyond a pole is refused, for the whole array. *)
Theorem C50_latitude_beyond_a_pole :
  forall g positions, (exists lon lat, In (lon, lat) positions /\ 90 < Rabs lat) <-> interpolate_geoid_height g positions = None.
Proof.
  intros g ps. unfold interpolate_geoid_height. cbv zeta. destruct (existsb _ _) eqn:EX.
  - split; [reflexivity|]. intros _. apply existsb_exists in EX. destruct EX as (q & Hq & HB). apply in_map_iff in Hq. destruct Hq as ([lon lat] & <- & Hin).
    cbn [snd] in HB. apply Rltb_true in HB. exists lon, lat. auto.
  - split; [|discriminate]. intros (lon & lat & Hin & HB). exfalso. apply not_true_iff_false in EX. apply EX. apply existsb_exists.
    exists (geoid_longitude g lon, lat). split; [apply in_map_iff; exists (lon, lat); auto|]. cbn [snd]. now apply Rltb_true.
Qed.

(** A geoid of 4 x 3 cells of 90 degrees. *)
Definition ex_geoid (first : R) : image :=
  let t := mkAffine 90 0 (first - 45) 0 (-90) 135 in
  mkImage t (affine_inv t) (mkRaster 3 4 (fun r c => 10 * IZR r + IZR c)).
Example C50_example :
  global_geoid (ex_geoid (-180)) /\ -180 <= first_longitude (ex_geoid (-180)) <= 0 /\ latitude_covered (ex_geoid (-180)) 45 /\
  geoid_height_at (ex_geoid (-180)) 135 45 (13 / 2) /\ geoid_height_at (ex_geoid (-180)) (-225) 45 (13 / 2).
Proof.
  unfold ex_geoid. split.
  { unfold global_geoid, unrotated, im_pixel_size_col, im_pixel_size_row. cbn [im_transform im_trans_inv im_data rs_rows rs_cols af_a af_b af_d af_e]. repeat split; try lra; lia. }
  split; [unfold first_longitude, im_origin_col, im_pixel_size_col; cbn; lra|].
  split; [exists (1/2); unfold im_origin_row, im_pixel_size_row; cbn; lra|].
  split; [exists 0%Z, 3%Z, (1/2), (1/2)|exists 0%Z, (-1)%Z, (1/2), (1/2)];
  unfold im_origin_col, im_origin_row, im_pixel_size_col, im_pixel_size_row, lerp; cbn; repeat split; try lia; try lra.
Qed.

(** The wrap fails when the first column is at a positive longitude, as for a file whose columns start
    at longitude 0 and whose heights are the ones of the centres of the cells: the code compares the sum
    of the longitude and of the first longitude with 0, and not their difference. *)
Theorem C50_positive_first_longitude_refuted :
  exists g lon lat a b h, global_geoid g /\ 0 < first_longitude g <= 180 /\ latitude_covered g lat /\ Rabs lat <= 90 /\ - 180 <= lon <= 180 /\
    interpolate_geoid_height g [(lon, lat)] = Some ([nan], a) /\
    interpolate_geoid_height g [(lon + 360, lat)] = Some ([Some h], b).
Proof.
  set (g := ex_geoid 45).
  assert (HG : global_geoid g).
  { unfold g, ex_geoid, global_geoid, unrotated, im_pixel_size_col, im_pixel_size_row. cbn [im_transform im_trans_inv im_data rs_rows rs_cols af_a af_b af_d af_e]. repeat split; try lra; lia. }
  pose proof HG as (HU & HI & HP & HQ & HN & _).
  assert (HF : first_longitude g = 45) by (unfold g, ex_geoid, first_longitude, im_origin_col, im_pixel_size_col; cbn; lra).
  assert (HL : latitude_covered g 45) by (exists (1/2); unfold im_origin_row, im_pixel_size_row; cbn; lra).
  destruct (geoid_lookup g 360 45 HG HL) as (h & Eh & _); [lra|].
  assert (G0 : geoid_longitude g 0 = 0).
  { unfold geoid_longitude. cbv zeta. rewrite overlap_on by lra. unfold g, ex_geoid, im_origin_col, im_pixel_size_col. cbn [im_transform im_data rs_cols af_a af_c].
    rewrite plus_IZR. destruct (Rltb_spec (0 + (45 - 45 + 90 / 2)) 0) as [A|A]; [lra|]. destruct (Rltb_spec 0 (0 - (45 - 45 + (4 + 1) * 90 - 90 / 2))) as [B|B]; lra. }
  assert (G1 : geoid_longitude g (0 + 360) = 360).
  { unfold geoid_longitude. cbv zeta. rewrite overlap_on by lra. unfold g, ex_geoid, im_origin_col, im_pixel_size_col. cbn [im_transform im_data rs_cols af_a af_c].
    rewrite plus_IZR. destruct (Rltb_spec (0 + 360 + (45 - 45 + 90 / 2)) 0) as [A|A]; [lra|]. destruct (Rltb_spec 0 (0 + 360 - (45 - 45 + (4 + 1) * 90 - 90 / 2))) as [B|B]; lra. }
  assert (EL : Rltb 90 (Rabs 45) = false) by (apply Rltb_false; rewrite Rabs_right; lra).
  exists g, 0, 45, [(0, 45)], [(360, 45)], h.
  split; [exact HG|]. split; [lra|]. split; [exact HL|]. split; [rewrite Rabs_right; lra|]. split; [lra|]. split.
  - unfold interpolate_geoid_height. cbn [map existsb fst snd]. rewrite EL. cbn [orb]. rewrite G0.
    rewrite geoid_index by (try assumption; lra). f_equal. f_equal. f_equal.
    unfold interpn. replace (Rleb 0 ((0 - im_origin_col g) / im_pixel_size_col g - 1 / 2)) with false; [now rewrite andb_false_r|].
    symmetry. apply Rleb_false. unfold g, ex_geoid, im_origin_col, im_pixel_size_col. cbn. lra.
  - unfold interpolate_geoid_height. cbn [map existsb fst snd]. rewrite EL. cbn [orb]. rewrite G1.
    rewrite geoid_index by (try assumption; lra). rewrite Eh. reflexivity.
Qed.

(** ** C61 *)
(** The raster covers a position: it is between the centres of its first and last rows and of its first
    column and its column [last], for the longitude or an equivalent one. *)
Definition covered_up_to (last : Z) (g : image) (lon lat : R) : Prop :=
  latitude_covered g lat /\
  exists c n, 0 <= c <= IZR last /\ lon + 360 * IZR n = im_origin_col g + im_pixel_size_col g * (c + 1 / 2).

(** The height is a number only where the raster covers the position, up to one pixel after its last
    column; and exactly there when the raster spans more than 360 degrees.  The claim without this pixel
    is refuted below. *)
Theorem C61_number_only_where_covered_partial :
  forall g lon lat a h, unrotated (im_transform g) -> im_trans_inv g = affine_inv (im_transform g) ->
    im_pixel_size_col g <> 0 -> im_pixel_size_row g <> 0 ->
    interpolate_geoid_height g [(lon, lat)] = Some ([Some h], a) ->
    covered_up_to (rs_cols (im_data g)) g lon lat /\
    (1 / 10 ^ 8 <= IZR (rs_cols (im_data g)) * im_pixel_size_col g - 360 -> covered_up_to (rs_cols (im_data g) - 1) g lon lat).
Proof.
  intros g lon lat a h HU HI HP HQ H. unfold interpolate_geoid_height in H. cbn [map existsb fst snd] in H.
  destruct (Rltb 90 (Rabs lat)); [discriminate|]. cbn [orb] in H. rewrite geoid_index in H by assumption.
  apply (f_equal (fun o => match o with Some ([x], _) => x | _ => None end)) in H. cbv beta iota in H.
  destruct (geoid_longitude_shift g lon) as (n & En). rewrite En in H. unfold interpn in H.
  set (r := (lat - im_origin_row g) / im_pixel_size_row g - 1 / 2) in *. set (c := (lon + 360 * IZR n - im_origin_col g) / im_pixel_size_col g - 1 / 2) in *.
  destruct (_ && _ && _ && _) eqn:EB; [|discriminate]. rewrite !andb_true_iff, !Rleb_true in EB. destruct EB as [[[B1 B2] B3] B4].
  assert (HR : rs_rows (overlap g) = rs_rows (im_data g)) by (unfold overlap; cbv zeta; destruct (Rltb _ _); reflexivity). rewrite HR in B2.
  assert (LC : latitude_covered g lat) by (exists r; split; [lra|unfold r; field; exact HQ]).
  assert (EC : lon + 360 * IZR n = im_origin_col g + im_pixel_size_col g * (c + 1 / 2)) by (unfold c; field; exact HP).
  split.
  - split; [exact LC|]. exists c, n. split; [|exact EC]. split; [exact B3|]. eapply Rle_trans; [exact B4|]. apply IZR_le.
    unfold overlap. cbv zeta. destruct (Rltb _ _); cbn [rs_cols]; lia.
  - intros HO. rewrite overlap_off in B4 by exact HO. split; [exact LC|]. exists c, n. auto.
Qed.

(** A regional raster: the first column is copied after the last one as if the raster were a global
    one, so that the heights between the last column and one pixel after it are interpolated from both
    ends of the raster instead of being NaN. *)
Definition ex_regional : image :=
  let t := mkAffine 10 0 (-5) 0 (-10) 5 in
  mkImage t (affine_inv t) (mkRaster 2 3 (fun r c => IZR c)).
Theorem C61_outside_is_nan_refuted :
  exists g lon lat a h, unrotated (im_transform g) /\ im_trans_inv g = affine_inv (im_transform g) /\ 0 < im_pixel_size_col g /\ im_pixel_size_row g < 0 /\
    IZR (rs_cols (im_data g)) * im_pixel_size_col g < 360 /\ ~ covered_up_to (rs_cols (im_data g) - 1) g lon lat /\
    interpolate_geoid_height g [(lon, lat)] = Some ([Some h], a).
Proof.
  set (g := ex_regional). exists g, 25, 0, [(25, 0)], 1.
  assert (HU : unrotated (im_transform g)) by (split; reflexivity).
  assert (P : im_pixel_size_col g = 10) by reflexivity. assert (Q : im_pixel_size_row g = -10) by reflexivity. assert (O : im_origin_col g = -5) by reflexivity.
  assert (OR : im_origin_row g = 5) by reflexivity.
  split; [exact HU|]. split; [reflexivity|]. split; [rewrite P; lra|]. split; [rewrite Q; lra|]. split; [rewrite P; cbn; lra|]. split.
  - intros (_ & c & n & Hc & E). rewrite P, O in E. cbn in Hc. assert (IZR (-1) < IZR n < IZR 0) by lra. destruct H as [H1 H2]. apply lt_IZR in H1. apply lt_IZR in H2. lia.
  - unfold interpolate_geoid_height. cbn [map existsb fst snd]. replace (Rltb 90 (Rabs 0)) with false by (symmetry; apply Rltb_false; rewrite Rabs_R0; lra). cbn [orb].
    assert (OV : overlap g = mkRaster 2 4 (fun r c => if (c =? 3)%Z then 0 else IZR c)) by (rewrite overlap_on by (rewrite P; cbn; lra); reflexivity).
    assert (G : geoid_longitude g 25 = 25).
    { unfold geoid_longitude. cbv zeta. rewrite OV, P, O. cbn [rs_cols]. destruct (Rltb_spec (25 + (-5 + 10 / 2)) 0) as [A|A]; [lra|].
      destruct (Rltb_spec 0 (25 - (-5 + 4 * 10 - 10 / 2))) as [B|B]; lra. }
    rewrite G, geoid_index by (try assumption; try reflexivity; rewrite ?P, ?Q; lra). rewrite P, Q, O, OR, OV.
    replace ((0 - 5) / -10 - 1 / 2) with 0 by field. replace ((25 - -5) / 10 - 1 / 2) with (5 / 2) by field.
    f_equal. f_equal. f_equal. unfold interpn. cbn [rs_rows rs_cols]. 
    replace (Rleb 0 0) with true by (symmetry; apply Rleb_true; lra). replace (Rleb 0 (IZR (2 - 1))) with true by (symmetry; apply Rleb_true; cbn; lra).
    replace (Rleb 0 (5 / 2)) with true by (symmetry; apply Rleb_true; lra). replace (Rleb (5 / 2) (IZR (4 - 1))) with true by (symmetry; apply Rleb_true; cbn; lra).
    cbn [andb]. unfold fin. f_equal. rewrite (interp_in_cell _ 0 2) by (split; cbn; lia || lra). unfold bilinear_in_cell, lerp. cbn. lra.
Qed.

(** The hypotheses of the partial theorem are met, inside of a regional raster. *)
Example C61_example :
  unrotated (im_transform ex_regional) /\ im_pixel_size_col ex_regional <> 0 /\ im_pixel_size_row ex_regional <> 0 /\
  exists a h, interpolate_geoid_height ex_regional [(25, 0)] = Some ([Some h], a).
Proof.
  split; [split; reflexivity|]. split; [unfold im_pixel_size_col; cbn; lra|]. split; [unfold im_pixel_size_row; cbn; lra|].
  assert (OV : overlap ex_regional = mkRaster 2 4 (fun r c => if (c =? 3)%Z then 0 else IZR c)) by (rewrite overlap_on by (unfold im_pixel_size_col; cbn; lra); reflexivity).
  unfold interpolate_geoid_height. cbn [map existsb fst snd]. replace (Rltb 90 (Rabs 0)) with false by (symmetry; apply Rltb_false; rewrite Rabs_R0; lra). cbn [orb].
  assert (G : geoid_longitude ex_regional 25 = 25).
  { unfold geoid_longitude. cbv zeta. rewrite OV. unfold im_origin_col, im_pixel_size_col. cbn [ex_regional im_transform af_a af_c rs_cols].
    destruct (Rltb_spec (25 + (-5 + 10 / 2)) 0) as [A|A]; [lra|]. destruct (Rltb_spec 0 (25 - (-5 + 4 * 10 - 10 / 2))) as [B|B]; lra. }
  rewrite G, geoid_index by (try (split; reflexivity); try reflexivity; unfold im_pixel_size_col, im_pixel_size_row; cbn; lra).
  unfold interpn. rewrite OV. unfold im_origin_col, im_origin_row, im_pixel_size_col, im_pixel_size_row. cbn [ex_regional im_transform af_a af_c af_e af_f rs_rows rs_cols].
  replace ((0 - 5) / -10 - 1 / 2) with 0 by field. replace ((25 - -5) / 10 - 1 / 2) with (5 / 2) by field.
  replace (Rleb 0 0) with true by (symmetry; apply Rleb_true; lra). replace (Rleb 0 (IZR (2 - 1))) with true by (symmetry; apply Rleb_true; cbn; lra).
  replace (Rleb 0 (5 / 2)) with true by (symmetry; apply Rleb_true; lra). replace (Rleb (5 / 2) (IZR (4 - 1))) with true by (symmetry; apply Rleb_true; cbn; lra).
  cbn [andb]. eexists. eexists. reflexivity.
Qed.
