(** Lemmas on the DTM reader. *)
From Coq Require Import Reals ZArith List Bool Lra Lia Sorted Permutation Arith.
From Verif Require Import Num NumLemmas InterpModel InterpSpec InterpProofs ProjModel ProjSpec RpcModel DtmModel ImageModel ImageSpec DtmReadModel DtmReadSpec.
Import ListNotations.
Open Scope R_scope.

Lemma map2_nth_error : forall A B C (f : A -> B -> C) a b k, nth_error (map2 f a b) k =
  match nth_error a k, nth_error b k with Some x, Some y => Some (f x y) | _, _ => None end.
Proof.
  intros A B C f a. induction a as [|x a IH]; intros [|y b] [|k]; cbn; try reflexivity.
  - destruct (nth_error a k); reflexivity.
  - apply IH.
Qed.
Lemma map2_len : forall A B C (f : A -> B -> C) a b, length a = length b -> length (map2 f a b) = length a.
Proof. intros A B C f a. induction a as [|x a IH]; intros [|y b] H; try discriminate; [reflexivity|]. cbn. f_equal. apply IH. cbn in H. lia. Qed.

Lemma valid_mask_length : forall nodata fm data, length fm = length data -> length (valid_mask nodata fm data) = length data.
Proof. intros [n|] fm data H; cbn; [rewrite map2_len by exact H; exact H|apply map_length]. Qed.
Lemma valid_mask_nth : forall nodata fm data k x, length fm = length data -> nth_error data k = Some x ->
  exists b, nth_error (valid_mask nodata fm data) k = Some b /\ (b = true <-> exists v, x = Some v /\ valid_cell nodata fm data k v).
Proof.
  intros nodata fm data k x HL Hx. unfold valid_mask, valid_cell. destruct nodata as [n|].
  - destruct (nth_error fm k) as [m|] eqn:Em.
    2:{ apply nth_error_None in Em. assert (k < length data)%nat by (apply nth_error_Some; congruence). lia. }
    exists (m && negb (isnan x)). rewrite map2_nth_error, Em, Hx. split; [reflexivity|]. split.
    + intros H. apply andb_true_iff in H. destruct H as [-> H]. destruct x as [v|]; [|discriminate]. exists v. auto.
    + intros (v & -> & _ & [H|H]); [discriminate|]. injection H as ->. reflexivity.
  - exists (negb (isnan x)). rewrite nth_error_map, Hx. split; [reflexivity|]. split.
    + intros H. destruct x as [v|]; [|discriminate]. exists v. auto.
    + intros (v & -> & _). reflexivity.
Qed.

Lemma valid_values_eq : forall nodata fm data, length fm = length data ->
  finite_values (gather (valid_mask nodata fm data) data) = valid_values nodata fm data.
Proof.
  intros nodata fm. induction fm as [|m fm IH]; intros [|x data] H; try discriminate; [destruct nodata; reflexivity|].
  assert (HL : length fm = length data) by (cbn in H; lia). specialize (IH data HL).
  destruct nodata as [n|]; cbn [valid_mask map2 map] in *.
  - destruct x as [v|]; cbn [isnan negb valid_values].
    + destruct m; cbn [andb gather finite_values flat_map app]; [f_equal; exact IH|exact IH].
    + rewrite andb_false_r. exact IH.
  - destruct x as [v|]; cbn [isnan negb valid_values gather finite_values flat_map app]; [f_equal; exact IH|exact IH].
Qed.

Lemma valid_values_In : forall nodata fm data v, length fm = length data ->
  (In v (valid_values nodata fm data) <-> exists k, valid_cell nodata fm data k v).
Proof.
  intros nodata fm. induction fm as [|m fm IH]; intros [|x data] v H; try discriminate.
  - cbn. split; [contradiction|]. intros (k & H1 & _). destruct k; discriminate.
  - assert (HL : length fm = length data) by (cbn in H; lia). specialize (IH data v HL).
    assert (ST : (exists k, valid_cell nodata (m :: fm) (x :: data) k v) <-> (x = Some v /\ (nodata = None \/ m = true)) \/ exists k, valid_cell nodata fm data k v).
    { split.
      - intros ([|k] & H1 & H2); cbn in *; [left; split; [congruence|destruct H2; [auto|right; congruence]]|right; exists k; split; auto].
      - intros [[-> H1]|(k & H1 & H2)]; [exists 0%nat; split; [reflexivity|destruct H1 as [ -> | -> ]; auto]|exists (S k); split; auto]. }
    rewrite ST, <- IH. destruct x as [w|]; cbn [valid_values].
    + destruct nodata as [n|].
      * destruct m; cbn [In].
        -- split; [intros [ -> |?]; auto|intros [[E _]|?]; [left; congruence|auto]].
        -- split; [auto|intros [[_ [E|E]]|?]; [discriminate|discriminate|auto]].
      * cbn [In]. split; [intros [ -> |?]; auto|intros [[E _]|?]; [left; congruence|auto]].
    + split; [auto|intros [[E _]|?]; [discriminate|auto]].
Qed.

Lemma fold_min_spec : forall l x, (In (fold_left Rmin l x) (x :: l)) /\ forall y, In y (x :: l) -> fold_left Rmin l x <= y.
Proof.
  induction l as [|a l IH]; intros x; cbn [fold_left]; [split; [left; reflexivity|intros y [ -> |[]]; lra]|].
  destruct (IH (Rmin x a)) as [H1 H2]. split.
  - destruct H1 as [H1|H1]; [|right; right; exact H1]. unfold Rmin in H1 at 1. destruct (Rle_dec x a); [left; exact H1|right; left; exact H1].
  - intros y Hy. assert (HM : fold_left Rmin l (Rmin x a) <= Rmin x a) by (apply H2; left; reflexivity).
    pose proof (Rmin_l x a). pose proof (Rmin_r x a). destruct Hy as [ -> |[ -> |Hy]]; [lra|lra|apply H2; right; exact Hy].
Qed.
Lemma fold_max_spec : forall l x, (In (fold_left Rmax l x) (x :: l)) /\ forall y, In y (x :: l) -> y <= fold_left Rmax l x.
Proof.
  induction l as [|a l IH]; intros x; cbn [fold_left]; [split; [left; reflexivity|intros y [ -> |[]]; lra]|].
  destruct (IH (Rmax x a)) as [H1 H2]. split.
  - destruct H1 as [H1|H1]; [|right; right; exact H1]. unfold Rmax in H1 at 1. destruct (Rle_dec x a); [right; left; exact H1|left; exact H1].
  - intros y Hy. assert (HM : Rmax x a <= fold_left Rmax l (Rmax x a)) by (apply H2; left; reflexivity).
    pose proof (Rmax_l x a). pose proof (Rmax_r x a). destruct Hy as [ -> |[ -> |Hy]]; [lra|lra|apply H2; right; exact Hy].
Qed.

Lemma insert_perm : forall x l, Permutation (insert_sorted x l) (x :: l).
Proof.
  intros x l. induction l as [|y l IH]; cbn; [reflexivity|]. destruct (Rleb x y); [reflexivity|]. rewrite IH. apply perm_swap.
Qed.
Lemma insert_sorted_ok : forall x l, Sorted Rle l -> Sorted Rle (insert_sorted x l).
Proof.
  intros x l H. induction H as [|y l H IH HD]; cbn; [repeat constructor|]. destruct (Rleb_spec x y) as [L|L].
  - constructor; [constructor; assumption|constructor; exact L].
  - constructor; [exact IH|]. destruct l as [|z l]; cbn; [constructor; lra|]. destruct (Rleb x z); constructor; [lra|]. inversion HD; assumption.
Qed.
Lemma np_sort_ok : forall l, Permutation (np_sort l) l /\ Sorted Rle (np_sort l).
Proof.
  induction l as [|x l [IH1 IH2]]; cbn; [split; [reflexivity|constructor]|]. split; [rewrite insert_perm, IH1; reflexivity|now apply insert_sorted_ok].
Qed.
Lemma split_at : forall (s : list R) k, (k < length s)%nat -> s = firstn k s ++ nth k s 0 :: skipn (S k) s.
Proof.
  induction s as [|x s IH]; intros k H; [cbn in H; lia|]. destruct k as [|k]; [reflexivity|]. cbn [firstn nth skipn app]. f_equal. apply IH. cbn in H. lia.
Qed.
Lemma np_median_ok : forall l, l <> [] -> is_median l (np_median l).
Proof.
  intros l Hl. destruct (np_sort_ok l) as [P S]. exists (np_sort l). split; [exact P|]. split; [exact S|]. unfold np_median.
  set (s := np_sort l) in *. set (n := length s). assert (Hn : (n <> 0)%nat).
  { unfold n. intros E. apply length_zero_iff_nil in E. rewrite E in P. apply Permutation_nil in P. contradiction. }
  destruct (Nat.even n) eqn:Ev.
  - right. apply Nat.even_spec in Ev. destruct Ev as [k Ek]. replace (n / 2)%nat with k by (rewrite Ek, Nat.mul_comm, Nat.div_mul; lia).
    assert (Hk : (1 <= k)%nat) by lia.
    exists (firstn (k - 1) s), (nth (k - 1) s 0), (nth k s 0), (skipn (k + 1) s).
    split; [|split; [rewrite firstn_length, skipn_length; fold n; lia|lra]].
    rewrite (split_at s (k - 1)) at 1 by (fold n; lia). f_equal. f_equal.
    replace (Datatypes.S (k - 1)) with k by lia. rewrite (split_at s k) at 1 by (fold n; lia).
    rewrite skipn_app, skipn_all2 by (rewrite firstn_length; lia). rewrite firstn_length. replace (k - Nat.min k (length s))%nat with 0%nat by (fold n; lia).
    cbn [skipn app]. replace (k + 1)%nat with (Datatypes.S k) by lia. reflexivity.
  - left. assert (Od : Nat.odd n = true) by (unfold Nat.odd; rewrite Ev; reflexivity). apply Nat.odd_spec in Od. destruct Od as [k Ek].
    replace (n / 2)%nat with k by (apply (Nat.div_unique n 2 k 1); lia).
    exists (firstn k s), (skipn (Datatypes.S k) s). split; [apply split_at; fold n; lia|]. rewrite firstn_length, skipn_length. fold n. lia.
Qed.
Lemma np_mean_ok : forall l, l <> [] -> is_mean l (np_mean l).
Proof.
  intros l H. unfold is_mean, np_mean. field. apply not_0_INR. destruct l; [contradiction|discriminate].
Qed.

Lemma compute_stats_spec : forall nodata fm data, length fm = length data ->
  match compute_stats data (valid_mask nodata fm data) with
  | Some st => let l := valid_values nodata fm data in
      l <> [] /\ is_min l (st_min st) /\ is_max l (st_max st) /\ is_mean l (st_mean st) /\ is_median l (st_median st)
  | None => valid_values nodata fm data = []
  end.
Proof.
  intros nodata fm data H. unfold compute_stats. rewrite valid_values_eq by exact H.
  destruct (valid_values nodata fm data) as [|x l] eqn:E; [reflexivity|]. cbn [st_min st_max st_mean st_median].
  assert (NE : x :: l <> []) by discriminate.
  split; [exact NE|]. split; [apply fold_min_spec|]. split; [apply fold_max_spec|]. split; [now apply np_mean_ok|now apply np_median_ok].
Qed.

Lemma trunc_spec : forall x, without_fraction x (Rtrunc x).
Proof.
  intros x. unfold without_fraction, Rtrunc. destruct (Rltb x 0) eqn:E.
  - apply Rltb_true in E. pose proof (Rceil_bounds x) as [B1 B2]. assert (IZR (Rceil x) <= 0) by (apply IZR_le, ceil_le; lra).
    rewrite !Rabs_left1 by lra. split; [lra|]. replace (x * IZR (Rceil x)) with ((- x) * (- IZR (Rceil x))) by ring. apply Rmult_le_pos; lra.
  - apply Rltb_false in E. pose proof (Rfloor_bounds x) as [B1 B2]. assert (0 <= IZR (Rfloor x)) by (apply IZR_le, le_floor; lra).
    rewrite !Rabs_right by lra. split; [lra|]. apply Rmult_le_pos; lra.
Qed.
Lemma store_held : forall ty x w, store ty (Some x) = Some w -> exists v, w = Some v /\ held ty x v.
Proof.
  intros [|lo hi] x w H; cbn [store] in H.
  - injection H as <-. exists x. split; reflexivity.
  - destruct ((lo <=? Rtrunc x) && (Rtrunc x <=? hi))%Z%bool eqn:E; [|discriminate]. injection H as <-. apply andb_true_iff in E. rewrite !Z.leb_le in E.
    exists (IZR (Rtrunc x)). split; [reflexivity|]. exists (Rtrunc x). split; [apply trunc_spec|]. split; [exact E|reflexivity].
Qed.
Lemma fill_masked_nth : forall ty data mask v out k x m, fill_masked ty data mask v = Some out -> nth_error data k = Some x -> nth_error mask k = Some m ->
  exists w, store ty v = Some w /\ nth_error out k = Some (if m then x else w).
Proof.
  intros ty data mask v out k x m H Hx Hm. unfold fill_masked in H. destruct (store ty v) as [w|]; [|discriminate]. injection H as <-.
  exists w. split; [reflexivity|]. rewrite map2_nth_error, Hx, Hm. reflexivity.
Qed.

(** A cell that is valid is kept by every strategy. *)
Lemma fill_keeps : forall ty rio nodata st s fv fm data out k v, fills_only_masked rio -> length fm = length data -> mask_of_nodata nodata fm data ->
  valid_cell nodata fm data k v -> fill_nodata ty rio nodata st s fv data (valid_mask nodata fm data) = Some out -> nth_error out k = Some (Some v).
Proof.
  intros ty rio nodata st s fv fm data out k v HF HL HM HV H. pose proof HV as [Hx Hm].
  destruct (valid_mask_nth nodata fm data k _ HL Hx) as (b & Hb & Hbt).
  assert (b = true) by (apply Hbt; exists v; auto). subst b. clear Hbt.
  destruct s; cbn [fill_nodata] in H; try (destruct (fill_masked_nth _ _ _ _ _ _ _ _ H Hx Hb) as (w & _ & E); exact E); [|injection H as <-; exact Hx].
  destruct (HF data (valid_mask nodata fm data) (valid_mask_length _ _ _ HL)) as [_ HK].
  specialize (HK k Hb). rewrite Hx in HK. destruct (existsb _ _); [|injection H as <-; exact HK].
  destruct (store ty _) as [w|]; [|discriminate]. injection H as <-.
  rewrite nth_error_map, HK. cbn [option_map]. replace (is_nodata nodata (Some v)) with false; [reflexivity|].
  symmetry. unfold is_nodata. destruct nodata as [[n|]|]; try reflexivity. apply Reqb_false. intros ->.
  destruct Hm as [Hm|Hm]; [discriminate|]. destruct (HM k n Hx) as [_ H]. rewrite H in Hm by reflexivity. discriminate.
Qed.
Lemma fill_length : forall ty rio nodata st s fv fm data out, fills_only_masked rio -> length fm = length data ->
  fill_nodata ty rio nodata st s fv data (valid_mask nodata fm data) = Some out -> length out = length data.
Proof.
  intros ty rio nodata st s fv fm data out HF HL H. pose proof (valid_mask_length nodata fm data HL) as HV.
  destruct s; cbn [fill_nodata] in H; unfold fill_masked in H; try (destruct (store ty _) as [w|]; [|discriminate]; injection H as <-; rewrite map2_len; auto); [|injection H as <-; reflexivity].
  destruct (HF data _ HV) as [HK _]. destruct (existsb _ _); [destruct (store ty _) as [w|]; [|discriminate]|]; injection H as <-; rewrite ?map_length; exact HK.
Qed.

(** ** Geoid *)
Lemma cell_positions_nth : forall t rows cols i j, (i < rows)%nat -> (j < cols)%nat ->
  nth_error (cell_positions t rows cols) (i * cols + j) =
  Some (let '(y, x) := transform_index_to_physical_point t (INR i) (INR j) in (x, y)).
Proof.
  intros t rows cols i j Hi Hj. unfold cell_positions.
  apply (flat_map_nth _ cols rows 0 i j); auto.
  - intros r. now rewrite map_length, seq_length.
  - cbn [Nat.add]. rewrite nth_error_map. rewrite (nth_error_nth' _ 0%nat) by now rewrite seq_length. rewrite seq_nth by exact Hj. reflexivity.
Qed.

Lemma geoid_index : forall g lon lat, unrotated (im_transform g) -> im_trans_inv g = affine_inv (im_transform g) ->
  im_pixel_size_col g <> 0 -> im_pixel_size_row g <> 0 ->
  transform_physical_point_to_index (im_trans_inv g) lat lon =
  ((lat - im_origin_row g) / im_pixel_size_row g - 1 / 2, (lon - im_origin_col g) / im_pixel_size_col g - 1 / 2).
Proof.
  intros g lon lat [HB HD] HI HP HQ. rewrite HI. unfold im_pixel_size_col, im_pixel_size_row, im_origin_row, im_origin_col in *.
  unfold transform_physical_point_to_index, affine_apply, affine_inv. cbn [af_a af_b af_c af_d af_e af_f]. rewrite HB, HD.
  f_equal; field; auto.
Qed.
Lemma overlap_on : forall g, IZR (rs_cols (im_data g)) * im_pixel_size_col g <= 360 ->
  overlap g = mkRaster (rs_rows (im_data g)) (rs_cols (im_data g) + 1)
    (fun r c => if (c =? rs_cols (im_data g))%Z then rs_at (im_data g) r 0 else rs_at (im_data g) r c).
Proof.
  intros g H. unfold overlap. cbv zeta. replace (Rltb _ _) with true; [reflexivity|]. symmetry. apply Rltb_true.
  assert (0 < 1 / 10 ^ 8) by (apply Rdiv_lt_0_compat; [lra|apply pow_lt; lra]). lra.
Qed.
Lemma overlap_off : forall g, 1 / 10 ^ 8 <= IZR (rs_cols (im_data g)) * im_pixel_size_col g - 360 -> overlap g = im_data g.
Proof. intros g H. unfold overlap. cbv zeta. replace (Rltb _ _) with false; [reflexivity|]. symmetry. apply Rltb_false. exact H. Qed.

(** The longitude is moved by a multiple of 360 degrees, to the range of the raster. *)
Lemma geoid_longitude_shift : forall g lon, exists k, geoid_longitude g lon = lon + 360 * IZR k.
Proof.
  intros g lon. unfold geoid_longitude. cbv zeta. destruct (Rltb (lon + _) 0); destruct (Rltb 0 _).
  - exists 0%Z. lra.
  - exists 1%Z. lra.
  - exists (-1)%Z. lra.
  - exists 0%Z. lra.
Qed.
Lemma geoid_longitude_range : forall g lon, global_geoid g -> -180 <= first_longitude g <= 0 ->
  first_longitude g - 360 <= lon <= first_longitude g + 720 ->
  first_longitude g <= geoid_longitude g lon <= first_longitude g + 360.
Proof.
  intros g lon (_ & _ & HP & _ & HN & _) HM HL. unfold geoid_longitude. cbv zeta. rewrite overlap_on by lra. cbn [rs_cols]. rewrite plus_IZR.
  unfold first_longitude in *. set (p := im_pixel_size_col g) in *. set (o := im_origin_col g) in *.
  replace (o + (IZR (rs_cols (im_data g)) + 1) * p - p / 2) with (o + p / 2 + 360) by (rewrite <- HN; field).
  destruct (Rltb_spec (lon + (o + p / 2)) 0) as [A|A].
  - destruct (Rltb_spec 0 (lon + 360 - (o + p / 2 + 360))) as [B|B]; lra.
  - destruct (Rltb_spec 0 (lon - (o + p / 2 + 360))) as [B|B]; lra.
Qed.

Lemma lerp_unique : forall (F : Z -> R) i u i' u', 0 <= u <= 1 -> 0 <= u' <= 1 -> IZR i + u = IZR i' + u' ->
  lerp (F i) (F (i + 1)%Z) u = lerp (F i') (F (i' + 1)%Z) u'.
Proof.
  assert (M : forall (F : Z -> R) i u i' u', 0 <= u <= 1 -> 0 <= u' <= 1 -> IZR i + u = IZR i' + u' -> (i <= i')%Z ->
     lerp (F i) (F (i + 1)%Z) u = lerp (F i') (F (i' + 1)%Z) u').
  { intros F i u i' u' Hu Hu' E L. destruct (Z.eq_dec i i') as [ -> | N].
    - replace u' with u by lra. reflexivity.
    - assert (i' = (i + 1)%Z). { assert (IZR i' <= IZR (i + 1)) by (rewrite plus_IZR; lra). apply le_IZR in H. lia. }
      subst i'. rewrite plus_IZR in E. replace u with 1 by lra. replace u' with 0 by lra. unfold lerp. ring. }
  intros F i u i' u' Hu Hu' E. destruct (Z.le_ge_cases i i'); [now apply M|symmetry; apply M; auto].
Qed.

Lemma geoid_height_unique : forall g lon lat h h', im_pixel_size_col g <> 0 -> im_pixel_size_row g <> 0 ->
  geoid_height_at g lon lat h -> geoid_height_at g lon lat h' -> h = h'.
Proof.
  intros g lon lat h h' HP HQ (i & j & u & v & _ & Hu & Hv & E1 & E2 & E) (i' & j' & u' & v' & _ & Hu' & Hv' & E1' & E2' & E').
  cbv zeta in E, E'.
  assert (EV : IZR j + v = IZR j' + v'). { rewrite E1 in E1'. apply Rplus_eq_reg_l in E1'. apply Rmult_eq_reg_l in E1'; lra. }
  assert (EU : IZR i + u = IZR i' + u'). { rewrite E2 in E2'. apply Rplus_eq_reg_l in E2'. apply Rmult_eq_reg_l in E2'; lra. }
  set (a := fun r c => rs_at (im_data g) r (c mod rs_cols (im_data g))) in *.
  change (h = lerp (lerp (a i j) (a i (j + 1)%Z) v) (lerp (a (i + 1)%Z j) (a (i + 1)%Z (j + 1)%Z) v) u) in E.
  change (h' = lerp (lerp (a i' j') (a i' (j' + 1)%Z) v') (lerp (a (i' + 1)%Z j') (a (i' + 1)%Z (j' + 1)%Z) v') u') in E'.
  rewrite E, E'.
  pose proof (lerp_unique (fun i => lerp (a i j) (a i (j + 1)%Z) v) i u i' u' Hu Hu' EU) as HL. cbv beta in HL. rewrite HL.
  rewrite (lerp_unique (a i') j v j' v'), (lerp_unique (a (i' + 1)%Z) j v j' v') by assumption. reflexivity.
Qed.

Lemma geoid_height_periodic : forall g lon lat h k, IZR (rs_cols (im_data g)) * im_pixel_size_col g = 360 -> (1 <= rs_cols (im_data g))%Z ->
  geoid_height_at g (lon + 360 * IZR k) lat h -> geoid_height_at g lon lat h.
Proof.
  intros g lon lat h k HN HC (i & j & u & v & Hi & Hu & Hv & E1 & E2 & E). set (n := rs_cols (im_data g)) in *.
  exists i, (j - k * n)%Z, u, v. split; [exact Hi|]. split; [exact Hu|]. split; [exact Hv|]. split; [|split; [exact E2|]].
  - rewrite minus_IZR, mult_IZR. rewrite <- HN in E1. set (a := IZR n) in *. set (kk := IZR k) in *. set (p := im_pixel_size_col g) in *.
    replace lon with (lon + a * p * kk - a * p * kk) by ring. rewrite E1. ring.
  - cbv zeta in *. fold n in E |- *. assert (M : forall c, ((c - k * n) mod n = c mod n)%Z) by (intros c; replace (c - k * n)%Z with (c + (- k) * n)%Z by ring; apply Z_mod_plus_full).
    replace (j - k * n + 1)%Z with (j + 1 - k * n)%Z by ring. rewrite !M. exact E.
Qed.

Lemma geoid_lookup : forall g lon lat, global_geoid g -> latitude_covered g lat ->
  first_longitude g <= lon <= first_longitude g + 360 ->
  exists h, interpn (overlap g) ((lat - im_origin_row g) / im_pixel_size_row g - 1 / 2) ((lon - im_origin_col g) / im_pixel_size_col g - 1 / 2) = Some h /\
            geoid_height_at g lon lat h.
Proof.
  intros g lon lat (HU & HI & HP & HQ & HN & HC & HR) (r & Hr & Elat) HL. unfold first_longitude in HL.
  rewrite overlap_on by lra. set (m := mkRaster _ _ _). set (p := im_pixel_size_col g) in *. set (o := im_origin_col g) in *. set (q := im_pixel_size_row g) in *.
  replace ((lat - im_origin_row g) / q - 1 / 2) with r by (rewrite Elat; field; exact HQ).
  set (c := (lon - o) / p - 1 / 2). assert (Ec : lon = o + p * (c + 1 / 2)) by (unfold c; field; lra).
  assert (Hc : 0 <= c <= IZR (rs_cols (im_data g))).
  { rewrite Ec in HL. rewrite <- HN in HL. split; apply (Rmult_le_reg_l p); try lra. }
  assert (HH : in_hull m r c). { split; cbn [m rs_rows rs_cols]; [exact Hr|]. replace (rs_cols (im_data g) + 1 - 1)%Z with (rs_cols (im_data g)) by ring. exact Hc. }
  assert (HB : big_enough m) by (split; cbn [m rs_rows rs_cols]; lia).
  exists (interp m r c). split.
  - unfold interpn. destruct HH as [[A1 A2] [B1 B2]]. apply Rleb_true in A1. apply Rleb_true in A2. apply Rleb_true in B1. apply Rleb_true in B2. rewrite A1, A2, B1, B2. reflexivity.
  - destruct (hull_in_a_cell m r c HB HH) as (i & j & Hcell & Hin). rewrite (interp_in_cell m i j) by assumption.
    destruct Hcell as [Hi Hj]. destruct Hin as [Hri Hcj]. cbn [m rs_rows rs_cols] in Hi, Hj.
    exists i, j, (r - IZR i), (c - IZR j). split; [exact Hi|]. split; [lra|]. split; [lra|]. split; [|split].
    + fold o p. rewrite Ec at 1. ring.
    + fold q. rewrite Elat. ring.
    + cbv zeta. unfold bilinear_in_cell. set (n := rs_cols (im_data g)) in *.
      assert (M : forall a b, (0 <= b <= n)%Z -> rs_at m a b = rs_at (im_data g) a (b mod n)).
      { intros a b Hb. cbn [m rs_at]. fold n. destruct (Z.eqb_spec b n) as [ -> | N]; [rewrite Z_mod_same_full; reflexivity|]. rewrite Z.mod_small by lia. reflexivity. }
      rewrite !M by lia. reflexivity.
Qed.
