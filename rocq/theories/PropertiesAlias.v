(** C92: what the calls do to the arrays of their caller. *)
From Coq Require Import Reals ZArith List Bool Lra Lia.
From Verif Require Import Num NumLemmas InterpModel ProjModel RpcModel ImageModel ImageSpec DtmReadModel DtmReadSpec DtmReadProofs PropertiesDtmRead
  RectModel AliasModel.
Import ListNotations.
Open Scope R_scope.

Lemma assign_same {A} (s : store A) k v : assign s k v k = v.
Proof. unfold assign. now rewrite Nat.eqb_refl. Qed.
Lemma assign_other {A} (s : store A) k v n : n <> k -> assign s k v n = s n.
Proof. intros H. unfold assign. destruct (Nat.eqb_spec n k); [contradiction|reflexivity]. Qed.

Lemma lists_equal {A} (a b : list A) : (forall i, nth_error a i = nth_error b i) -> a = b.
Proof.
  revert b. induction a as [|x a IH]; intros [|y b] H; [reflexivity|discriminate (H 0%nat)|discriminate (H 0%nat)|].
  pose proof (H 0%nat) as H0. injection H0 as ->. f_equal. apply IH. intros i. exact (H (S i)).
Qed.

(** ** Geoid heights *)
(** [q] is the position [p], the longitude being given in another turn. *)
Definition same_place (p q : R * R) : Prop := exists n : Z, q = (fst p + 360 * IZR n, snd p).
Lemma geoid_call_array g s k : fst (geoid_call g s k) k = map (fun p => (geoid_longitude g (fst p), snd p)) (s k).
Proof.
  unfold geoid_call. cbv zeta. rewrite !assign_same. destruct (existsb _ _); cbn [fst]; rewrite assign_same, map_map; apply map_ext; intros [x y]; reflexivity.
Qed.
Lemma geoid_call_other g s k n : n <> k -> fst (geoid_call g s k) n = s n.
Proof. intros H. unfold geoid_call. cbv zeta. destruct (existsb _ _); cbn [fst]; now rewrite !assign_other. Qed.
Lemma same_place_refl l : Forall2 same_place l l.
Proof. induction l as [|[x y] l IH]; constructor; auto. exists 0%Z. cbn. f_equal. ring. Qed.
Lemma same_place_trans a b c : Forall2 same_place a b -> Forall2 same_place b c -> Forall2 same_place a c.
Proof.
  intros H. revert c. induction H as [|p q a b [n ->] H IH]; intros c K; inversion K as [|q' r b' c' [m ->] K']; subst; constructor; auto.
  exists (n + m)%Z. cbn [fst snd]. rewrite plus_IZR. f_equal. ring.
Qed.

(** The call computes what C50 says, and no other array changes. *)
Theorem C92_geoid_call : forall g s k,
  snd (geoid_call g s k) = match interpolate_geoid_height g (s k) with Some (h, _) => Some h | None => None end /\
  (forall h after, interpolate_geoid_height g (s k) = Some (h, after) -> fst (geoid_call g s k) k = after) /\
  forall n, n <> k -> fst (geoid_call g s k) n = s n.
Proof.
  intros g s k. split; [|split; [|intros n; apply geoid_call_other]].
  - pose proof (geoid_call_array g s k) as E. unfold interpolate_geoid_height. cbv zeta. rewrite <- E. unfold geoid_call. cbv zeta.
    destruct (existsb _ _) eqn:X; cbn [fst snd]; rewrite ?X; reflexivity.
  - intros h after. rewrite geoid_call_array. unfold interpolate_geoid_height. cbv zeta. destruct (existsb _ _); [discriminate|]. intros H. now injection H as _ <-.
Qed.

(** After any calls, on any geoids, whatever exceptions they raise, every array of positions designates the same
    places as at the beginning: the latitudes are unchanged and the longitudes differ by whole turns. *)
Theorem C92_geoid_same_places : forall l s k, Forall2 same_place (s k) (geoid_calls l s k).
Proof.
  induction l as [|[g j] l IH]; intros s k; [apply same_place_refl|]. cbn [geoid_calls]. eapply same_place_trans; [|apply IH].
  destruct (Nat.eq_dec k j) as [->|N].
  - rewrite geoid_call_array. induction (s j) as [|[x y] a IHa]; constructor; auto. destruct (geoid_longitude_shift g x) as [n E]. exists n. cbn [fst snd]. now rewrite E.
  - rewrite geoid_call_other by assumption. apply same_place_refl.
Qed.
(** Asking again for the heights at the array that a call has changed gives the same heights. *)
Theorem C92_geoid_again : forall g s k, global_geoid g -> -180 <= first_longitude g <= 0 ->
  (forall lon lat, In (lon, lat) (s k) -> first_longitude g - 360 <= lon <= first_longitude g + 720 /\ Rabs lat <= 90 /\ latitude_covered g lat) ->
  exists heights, snd (geoid_call g s k) = Some heights /\ snd (geoid_call g (fst (geoid_call g s k)) k) = Some heights.
Proof.
  intros g s k HG HM HP. destruct (C50_height_modulo_360 g (s k) HG HM HP) as (hs & a & E & L & LA & HH).
  destruct (C92_geoid_call g s k) as (R1 & R2 & _). rewrite E in R1. specialize (R2 _ _ E).
  assert (AP : forall lon lat, In (lon, lat) a -> first_longitude g - 360 <= lon <= first_longitude g + 720 /\ Rabs lat <= 90 /\ latitude_covered g lat).
  { rewrite <- R2, geoid_call_array. intros x y H. apply in_map_iff in H. destruct H as ([lon lat] & E1 & H). cbn [fst snd] in E1. injection E1 as <- <-.
    destruct (HP _ _ H) as (A & B & C). pose proof (geoid_longitude_range g lon HG HM A). split; [lra|auto]. }
  destruct (C50_height_modulo_360 g a HG HM AP) as (hs' & a' & E' & L' & _ & HH').
  destruct (C92_geoid_call g (fst (geoid_call g s k)) k) as (S1 & _ & _). rewrite R2, E' in S1.
  exists hs. split; [exact R1|]. rewrite S1. f_equal. symmetry. apply lists_equal. intros i.
  destruct (nth_error (s k) i) as [[lon lat]|] eqn:Ei.
  - destruct (HH i lon lat Ei) as ((h & E1 & H1) & (n & E2)). destruct (HH' i _ _ E2) as ((h' & E3 & H3) & _). rewrite E1, E3. do 2 f_equal.
    pose proof HG as (HU & HI & HPX & HQ & HN & HC & HR). apply (geoid_height_periodic g lon lat h' n HN HC) in H3.
    symmetry. eapply (C50_height_is_unique g); eassumption.
  - apply nth_error_None in Ei. rewrite (proj2 (nth_error_None hs i)), (proj2 (nth_error_None hs' i)) by lia. reflexivity.
Qed.
(** But the array of the caller is not left as it was: the longitude -5 becomes 355. *)
Theorem C92_geoid_untouched_refuted : exists g s k, global_geoid g /\ s k = [(-5, 45)] /\ fst (geoid_call g s k) k = [(355, 45)] /\
  snd (geoid_call g s k) <> None.
Proof.
  exists (ex_geoid 0), (fun _ => [(-5, 45)]), 0%nat. split.
  { unfold ex_geoid, global_geoid, unrotated, im_pixel_size_col, im_pixel_size_row. cbn [im_transform im_trans_inv im_data rs_rows rs_cols af_a af_b af_d af_e]. repeat split; try lra; lia. }
  split; [reflexivity|]. split.
  - rewrite geoid_call_array. cbn [map fst snd]. do 2 f_equal.
    assert (W : rs_cols (overlap (ex_geoid 0)) = 5%Z).
    { unfold overlap, ex_geoid, im_pixel_size_col. cbn [im_transform im_data rs_cols af_a]. cbv zeta.
      replace (Rltb (4 * 90 - 360) (1 / 10 ^ 8)) with true; [reflexivity|]. symmetry. apply Rltb_true. lra. }
    unfold geoid_longitude. rewrite W. cbv zeta. unfold ex_geoid, im_origin_col, im_pixel_size_col. cbn [im_transform af_a af_c].
    replace (Rltb _ 0) with true by (symmetry; apply Rltb_true; lra). replace (Rltb 0 _) with false by (symmetry; apply Rltb_false; lra). lra.
  - destruct (C92_geoid_call (ex_geoid 0) (fun _ => [(-5, 45)]) 0) as (-> & _ & _).
    destruct (interpolate_geoid_height (ex_geoid 0) [(-5, 45)]) as [[h a]|] eqn:E; [discriminate|].
    apply C50_latitude_beyond_a_pole in E. destruct E as (lon & lat & [H|[]] & B). injection H as <- <-. rewrite Rabs_pos_eq in B; lra.
Qed.
Example C92_geoid_case : global_geoid (ex_geoid (-180)) /\ -180 <= first_longitude (ex_geoid (-180)) <= 0 /\
  first_longitude (ex_geoid (-180)) - 360 <= 200 <= first_longitude (ex_geoid (-180)) + 720 /\ Rabs 45 <= 90 /\ latitude_covered (ex_geoid (-180)) 45.
Proof.
  destruct C50_example as (A & B & C & _). split; [exact A|]. split; [exact B|].
  split; [unfold first_longitude, ex_geoid, im_origin_col, im_pixel_size_col; cbn; lra|]. split; [rewrite Rabs_pos_eq; lra|exact C].
Qed.

(** ** Displacement grids *)
Lemma nth_mapi {A B} (f : nat -> A -> B) l k i : nth_error (mapi f k l) i = option_map (f (k + i)%nat) (nth_error l i).
Proof.
  revert k i. induction l as [|x l IH]; intros k [|i]; cbn [mapi nth_error option_map]; try reflexivity; [now rewrite Nat.add_0_r|].
  rewrite IH. now replace (S k + i)%nat with (k + S i)%nat by lia.
Qed.
(** The node (i, j) of a grid is [p]. *)
Definition node_is (grid : list (list row3)) (i j : nat) (p : row3) : Prop := exists line, nth_error grid i = Some line /\ nth_error line j = Some p.
(** [p] moved back by [k] times the nominal position (i step, j step) of its node. *)
Definition moved (step : R) (k i j : nat) (p : row3) : row3 :=
  R3 (nsub (lon3 p) (fin (INR k * (INR i * step)))) (nsub (lat3 p) (fin (INR k * (INR j * step)))) (alt3 p).
Lemma nominal step i j : transform_index_to_physical_point (displacement_transform step) (INR j) (INR i) = (INR j * step, INR i * step).
Proof. unfold transform_index_to_physical_point, displacement_transform, affine_apply. cbn. f_equal; field. Qed.
Lemma minus_node step grid i j p : node_is grid i j p -> node_is (minus_cols step (minus_rows step grid)) i j (moved step 1 i j p).
Proof.
  intros (line & H1 & H2). unfold minus_cols, minus_rows. eexists. rewrite !nth_mapi, H1. cbn [option_map]. split; [reflexivity|].
  rewrite !nth_mapi, H2. cbn [option_map lon3 lat3 alt3 Nat.add]. rewrite nominal. cbn [fst snd]. unfold moved. cbn [INR]. now rewrite !Rmult_1_l.
Qed.
(** For two arrays, what is returned is the two arrays of the caller, where every node has become its
    displacement; the other arrays are as they were. *)
Theorem C92_displacement_call : forall step s l r, l <> r ->
  let '(s', (l', r')) := displacement_call step s l r in
  l' = l /\ r' = r /\
  (forall i j p, node_is (s l) i j p -> node_is (s' l') i j (moved step 1 i j p)) /\
  (forall i j p, node_is (s r) i j p -> node_is (s' r') i j (moved step 1 i j p)) /\
  forall n, n <> l -> n <> r -> s' n = s n.
Proof.
  intros step s l r N. unfold displacement_call. cbv zeta. split; [reflexivity|]. split; [reflexivity|].
  split; [|split].
  - intros i j p H. rewrite !(assign_other _ r _ l) by assumption. rewrite !assign_same. now apply minus_node.
  - intros i j p H. rewrite !assign_same. rewrite !(assign_other _ l _ r) by auto. now apply minus_node.
  - intros n N1 N2. now rewrite !assign_other.
Qed.
(** The positions of the caller are lost: the node (0, 1) of a grid of positions is changed. *)
Theorem C92_displacement_untouched_refuted : exists step s l r p, l <> r /\ node_is (s l) 0 1 p /\
  ~ node_is (fst (displacement_call step s l r) l) 0 1 p.
Proof.
  exists 30, (fun _ => [[R3 (fin 0) (fin 0) (fin 0); R3 (fin 2) (fin 31) (fin 0)]]), 0%nat, 1%nat, (R3 (fin 2) (fin 31) (fin 0)).
  split; [discriminate|]. assert (H : node_is [[R3 (fin 0) (fin 0) (fin 0); R3 (fin 2) (fin 31) (fin 0)]] 0 1 (R3 (fin 2) (fin 31) (fin 0))) by (eexists; split; reflexivity).
  split; [exact H|]. intros K.
  pose proof (C92_displacement_call 30 (fun _ => [[R3 (fin 0) (fin 0) (fin 0); R3 (fin 2) (fin 31) (fin 0)]]) 0 1 ltac:(discriminate)) as C.
  destruct (displacement_call _ _ _ _) as [s' [l' r']]. destruct C as (-> & -> & C & _). specialize (C 0%nat 1%nat _ H). cbn [fst] in K.
  destruct K as (line & K1 & K2). destruct C as (line' & C1 & C2). rewrite K1 in C1. injection C1 as <-. rewrite K2 in C2. injection C2 as _ C2. revert C2. unfold nlift2. cbn. intros C2. lra.
Qed.
(** And with one array for both grids (an image rectified with itself), the nominal positions are subtracted
    twice. *)
Theorem C92_displacement_same_array_refuted : forall step s l i j p, node_is (s l) i j p ->
  node_is (fst (displacement_call step s l l) l) i j (moved step 2 i j p).
Proof.
  intros step s l i j p H. unfold displacement_call. cbv zeta. cbn [fst]. rewrite !assign_same.
  assert (E : moved step 2 i j p = moved step 1 i j (moved step 1 i j p)).
  { unfold moved. cbn [lon3 lat3 alt3]. f_equal; [destruct (lon3 p)|destruct (lat3 p)]; unfold nsub, nlift2, fin; try reflexivity; f_equal; cbn [INR]; ring. }
  rewrite E. now apply minus_node, minus_node.
Qed.
Example C92_displacement_case : node_is [[R3 (fin 0) (fin 0) (fin 0); R3 (fin 2) (fin 31) (fin 0)]] 0 1 (R3 (fin 2) (fin 31) (fin 0)) /\
  moved 30 1 0 1 (R3 (fin 2) (fin 31) (fin 0)) = R3 (fin 2) (fin 1) (fin 0) /\ moved 30 2 0 1 (R3 (fin 2) (fin 31) (fin 0)) = R3 (fin 2) (fin (-29)) (fin 0).
Proof.
  split; [eexists; split; reflexivity|]. unfold moved, nsub, nlift2, fin. cbn [INR lon3 lat3 alt3]. split; f_equal; f_equal; ring.
Qed.

(** ** The filter of the positions *)
(** The position is on the Earth. *)
Definition on_earth (p : row3) : Prop := exists x y z, p = R3 (fin x) (fin y) (fin z) /\ Rabs x <= 180 /\ Rabs y <= 90.
Lemma filtering_ok p : (on_earth p <-> lonlat_filtering p = false).
Proof.
  destruct p as [[x|] [y|] [z|]]; unfold lonlat_filtering; cbn [lon3 lat3 alt3 isnan nabs ngtb fin].
  all: try (split; [intros (? & ? & ? & E & _); unfold fin in E; discriminate|intros H; rewrite ?orb_true_r in H; discriminate]).
  split.
  - intros (a & b & c & E & H1 & H2). unfold fin in E. injection E as -> -> _. cbn. rewrite (proj2 (Rltb_false 180 (Rabs a)) H1), (proj2 (Rltb_false 90 (Rabs b)) H2). reflexivity.
  - intros H. cbn in H. rewrite orb_false_r in H. apply orb_false_iff in H as [H1 H2]. exists x, y, z. split; [reflexivity|]. split; [now apply Rltb_false in H1|now apply Rltb_false in H2].
Qed.
(** [check_lonlat] overwrites the array that it is given and returns it; the positions that are on the Earth stay, the
    other ones are NaN. *)
Theorem C92_check_lonlat : forall s k, let '(s', k') := check_lonlat_call s k in
  k' = k /\ length (s' k) = length (s k) /\ (forall n, n <> k -> s' n = s n) /\
  forall i p, nth_error (s k) i = Some p -> (on_earth p -> nth_error (s' k) i = Some p) /\ (~ on_earth p -> nth_error (s' k) i = Some (R3 nan nan nan)).
Proof.
  intros s k. unfold check_lonlat_call. rewrite !assign_same. split; [reflexivity|]. split; [apply map_length|]. split; [intros n N; now apply assign_other|].
  intros i p H. unfold check_lonlat. rewrite (map_nth_error _ _ _ H). split; intros E.
  - apply filtering_ok in E. now rewrite E.
  - destruct (lonlat_filtering p) eqn:F; [reflexivity|]. elim E. now apply filtering_ok.
Qed.
(** The inverse localizations filter a new array: the arrays that existed are as they were. *)
Theorem C92_inverse_inputs : forall s new lon lat alt, let '(s', k) := filtered_inputs s new lon lat alt in
  k = new /\ (forall n, n <> new -> s' n = s n) /\
  forall i x y z, nth_error lon i = Some x -> nth_error lat i = Some y -> nth_error alt i = Some z ->
    (on_earth (R3 x y z) -> nth_error (s' k) i = Some (R3 x y z)) /\ (~ on_earth (R3 x y z) -> nth_error (s' k) i = Some (R3 nan nan nan)).
Proof.
  intros s new lon lat alt. unfold filtered_inputs. set (a := map _ _).
  pose proof (C92_check_lonlat (assign s new a) new) as C. destruct (check_lonlat_call (assign s new a) new) as [s' k]. destruct C as (-> & _ & O & C).
  split; [reflexivity|]. split; [intros n N; rewrite (O n N); now apply assign_other|]. intros i x y z X Y Z. apply C. rewrite assign_same. unfold a.
  assert (P : nth_error (combine (combine lon lat) alt) i = Some ((x, y), z)).
  { clear - X Y Z. revert lon lat alt X Y Z. induction i as [|i IH]; intros [|x' lon] [|y' lat] [|z' alt]; cbn; intros X Y Z; try discriminate; [congruence|]. now apply IH. }
  rewrite (map_nth_error _ _ _ P). reflexivity.
Qed.
Example C92_filter_case : on_earth (R3 (fin 5) (fin 45) (fin 100)) /\ ~ on_earth (R3 (fin 185) (fin 45) (fin 100)) /\ ~ on_earth (R3 nan (fin 45) (fin 100)).
Proof.
  split; [exists 5, 45, 100; split; [reflexivity|split; rewrite Rabs_pos_eq; lra]|]. split.
  - intros (x & y & z & E & H & _). unfold fin in E. injection E as <- _ _. rewrite Rabs_pos_eq in H; lra.
  - intros (x & y & z & E & _). discriminate E.
Qed.
