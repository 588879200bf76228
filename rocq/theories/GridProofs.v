(** Lemmas on the localization grids. *)
From Coq Require Import Reals ZArith List Bool Lra Lia.
From Verif Require Import Num NumLemmas InterpModel InterpSpec InterpProofs ProjModel RpcModel DtmModel RpcDtmModel GridModel GridSpec.
Import ListNotations.
Open Scope R_scope.

Lemma decreasing_lt : forall l i j a b, decreasing l -> (i < j)%nat -> nth_error l i = Some a -> nth_error l j = Some b -> b < a.
Proof.
  intros l i j a b HD Hij Ha. revert b. induction Hij as [|j Hij IH]; intros b Hb; [eapply HD; eauto|].
  destruct (nth_error l j) as [c|] eqn:Ec.
  - specialize (IH c eq_refl). specialize (HD j c b Ec Hb). lra.
  - apply nth_error_None in Ec. assert (S j < length l)%nat by (apply nth_error_Some; congruence). lia.
Qed.
Lemma decreasing_tl : forall x l, decreasing (x :: l) -> decreasing l.
Proof. intros x l H i a b Ha Hb. exact (H (S i) a b Ha Hb). Qed.

(** The number of altitudes that are at least [alt]. *)
Definition above_count (alts : list R) (alt : R) : nat := count_while (fun a => Rleb alt a) alts.
Lemma above_count_le : forall alts alt, (above_count alts alt <= length alts)%nat.
Proof. intros alts alt. unfold above_count. induction alts as [|x l IH]; cbn; [lia|]. destruct (Rleb alt x); lia. Qed.
Lemma above_count_ge : forall alts alt i a, (i < above_count alts alt)%nat -> nth_error alts i = Some a -> alt <= a.
Proof.
  intros alts alt. unfold above_count. induction alts as [|x l IH]; intros i a Hi Ha; cbn in Hi; [lia|].
  destruct (Rleb alt x) eqn:E; [|lia]. apply Rleb_true in E. destruct i as [|i]; cbn in Ha; [congruence|]. apply (IH i a); [lia|assumption].
Qed.
Lemma above_count_lt : forall alts alt i a, decreasing alts -> (above_count alts alt <= i)%nat -> nth_error alts i = Some a -> a < alt.
Proof.
  intros alts alt. unfold above_count. induction alts as [|x l IH]; intros i a HD Hi Ha; cbn in Hi; [destruct i; discriminate|].
  destruct (Rleb alt x) eqn:E.
  - destruct i as [|i]; [lia|]. apply (IH i a); [eapply decreasing_tl; eauto|lia|exact Ha].
  - assert (x < alt). { destruct (Rle_dec alt x) as [L|L]; [|lra]. apply Rleb_true in L. congruence. }
    destruct i as [|i]; cbn in Ha; [congruence|].
    assert (a < x) by (apply (decreasing_lt (x :: l) 0 (S i) x a); auto; lia). lra.
Qed.
Lemma searchsorted_rev : forall alts alt, decreasing alts ->
  searchsorted (rev alts) alt = (length alts - above_count alts alt)%nat.
Proof.
  intros alts alt HD. unfold searchsorted.
  assert (EL : forall l, length (filter (fun y => Rltb y alt) (rev l)) = length (filter (fun y => Rltb y alt) l)).
  { induction l as [|x l IH]; [reflexivity|]. cbn [rev]. rewrite filter_app, app_length, IH. cbn. destruct (Rltb x alt); cbn; lia. }
  rewrite EL. clear EL. unfold above_count. induction alts as [|x l IH]; [reflexivity|]. cbn [filter count_while length].
  specialize (IH (decreasing_tl _ _ HD)).
  destruct (Rleb alt x) eqn:E.
  - apply Rleb_true in E. rewrite (proj2 (Rltb_false x alt)) by lra. rewrite IH. pose proof (above_count_le l alt). unfold above_count in *. lia.
  - assert (x < alt). { destruct (Rle_dec alt x) as [L|L]; [|lra]. apply Rleb_true in L. congruence. }
    rewrite (proj2 (Rltb_true x alt)) by lra. cbn [length]. rewrite IH.
    assert (C0 : count_while (fun a => Rleb alt a) l = 0%nat).
    { destruct l as [|y l]; [reflexivity|]. cbn. assert (y < x) by (apply (HD 0%nat x y); reflexivity).
      destruct (Rleb alt y) eqn:E2; [apply Rleb_true in E2; lra|reflexivity]. }
    rewrite C0. lia.
Qed.

(** The index of the layer above, used by the two lookups. *)
Definition top_layer (alts : list R) (alt : R) : nat := Nat.min (length alts - 2) (above_count alts alt - 1).
Lemma top_layer_nearest : forall alts alt, (2 <= length alts)%nat -> decreasing alts ->
  exists a b, nearest_layers alts alt (top_layer alts alt) a b /\ b < a.
Proof.
  intros alts alt HL HD. set (k := top_layer alts alt). assert (Hk : (S k < length alts)%nat) by (unfold k, top_layer; lia).
  destruct (nth_error alts k) as [a|] eqn:Ea; [|apply nth_error_None in Ea; lia].
  destruct (nth_error alts (S k)) as [b|] eqn:Eb; [|apply nth_error_None in Eb; lia].
  exists a, b. split; [|exact (HD k a b Ea Eb)]. split; [exact Ea|]. split; [exact Eb|]. pose proof (above_count_le alts alt) as LE. split.
  - destruct (le_lt_dec (above_count alts alt) k) as [L|L]; [right; unfold k, top_layer in *; lia|left; exact (above_count_ge alts alt k a L Ea)].
  - destruct (le_lt_dec (above_count alts alt) (S k)) as [L|L].
    + left. left. exact (above_count_lt alts alt (S k) b HD L Eb).
    + right. unfold k, top_layer in *. lia.
Qed.
Lemma nth_rev_d : forall (l : list R) k, (k < length l)%nat -> nth (length l - 1 - k) (rev l) 0 = nth k l 0.
Proof. intros l k Hk. rewrite rev_nth by lia. f_equal. lia. Qed.
Lemma nth_seq_INR : forall n k, (k < n)%nat -> nth k (map INR (seq 0 n)) 0 = INR k.
Proof. intros n k Hk. rewrite (nth_indep _ 0 (INR 0)) by (rewrite map_length, seq_length; lia). rewrite map_nth, seq_nth by lia. f_equal. Qed.
Lemma nearest_value : forall alts alt k a b k' a' b', decreasing alts -> nearest_layers alts alt k a b -> nearest_layers alts alt k' a' b' ->
  (k = k' \/ (S k = k' /\ b = alt /\ a' = alt) \/ (S k' = k /\ b' = alt /\ a = alt)).
Proof.
  intros alts alt k a b k' a' b' HD (A1 & A2 & A3 & A4) (B1 & B2 & B3 & B4).
  assert (Lk : (S k < length alts)%nat) by (apply nth_error_Some; congruence). assert (Lk' : (S k' < length alts)%nat) by (apply nth_error_Some; congruence).
  assert (G : forall k a b k' a' b', nth_error alts k = Some a -> nth_error alts (S k) = Some b -> nth_error alts k' = Some a' -> nth_error alts (S k') = Some b' ->
    (S k' < length alts)%nat -> (b <= alt \/ S (S k) = length alts) -> (alt <= a' \/ k' = 0%nat) -> (k < k')%nat -> S k = k' /\ b = alt /\ a' = alt).
  { clear - HD. intros. destruct H4 as [H4|H4]; [|lia]. destruct H5 as [H5|H5]; [|lia].
    destruct (Nat.eq_dec (S k) k') as [<-|N].
    - rewrite H0 in H1. injection H1 as <-. repeat split; lra.
    - exfalso. assert (a' < b); [|lra]. assert (LK : (S k < k')%nat) by lia. exact (decreasing_lt alts (S k) k' b a' HD LK H0 H1). }
  destruct (lt_eq_lt_dec k k') as [[L|L]|L]; [right; left|left; exact L|right; right].
  - exact (G k a b k' a' b' A1 A2 B1 B2 Lk' A4 B3 L).
  - exact (G k' a' b' k a b B1 B2 A1 A2 Lk B4 A3 L).
Qed.

Lemma nth_of_error : forall (l : list R) k a, nth_error l k = Some a -> nth k l 0 = a.
Proof. intros l k a H. exact (nth_error_nth l k 0 H). Qed.
Lemma last_nth : forall (l : list R), last l 0 = nth (length l - 1) l 0.
Proof.
  induction l as [|x l IH]; [reflexivity|]. destruct l as [|y l]; [reflexivity|].
  cbn [length]. replace (S (S (length l)) - 1)%nat with (S (S (length l) - 1)) by lia. cbn [nth]. exact IH.
Qed.

Lemma alt_normalise_top : forall alts alt a b, (2 <= length alts)%nat -> decreasing alts ->
  nth_error alts (top_layer alts alt) = Some a -> nth_error alts (S (top_layer alts alt)) = Some b ->
  alt_normalise alts alt = Some (INR (top_layer alts alt) + (a - alt) / (a - b)).
Proof.
  intros alts alt a b HL HD Ha Hb. unfold alt_normalise. rewrite searchsorted_rev by exact HD.
  pose proof (above_count_le alts alt) as LE.
  set (k := top_layer alts alt) in *.
  assert (Hk : (S k < length alts)%nat) by (apply nth_error_Some; congruence).
  assert (EH : Nat.max 1 (Nat.min (length alts - above_count alts alt) (length alts - 1)) = (length alts - 1 - k)%nat)
    by (unfold k, top_layer; lia).
  rewrite EH. replace (length alts - 1 - k - 1)%nat with (length alts - 1 - S k)%nat by lia.
  rewrite !nth_rev_d by lia.
  assert (EM : length (map INR (seq 0 (length alts))) = length alts) by (rewrite map_length, seq_length; reflexivity).
  pose proof (nth_rev_d (map INR (seq 0 (length alts))) k) as R1. pose proof (nth_rev_d (map INR (seq 0 (length alts))) (S k)) as R2.
  rewrite EM in R1, R2. rewrite R1, R2 by lia. rewrite !nth_seq_INR by lia.
  rewrite (nth_of_error _ _ _ Ha), (nth_of_error _ _ _ Hb).
  pose proof (HD k a b Ha Hb) as LT. unfold ndiv, fin. cbn. destruct (Req_EM_T (a - b) 0) as [E|E]; [lra|]. cbn. f_equal.
  change (match k with 0%nat => 1 | S _ => INR k + 1 end) with (INR (S k)). rewrite S_INR. field. lra.
Qed.

Lemma return_grid_index_top : forall alts alt, (2 <= length alts)%nat -> decreasing alts ->
  return_grid_index alts alt = (Z.of_nat (top_layer alts alt), Z.of_nat (S (top_layer alts alt))).
Proof.
  intros alts alt HL HD. unfold return_grid_index. pose proof (above_count_le alts alt) as LE.
  destruct alts as [|x l]; [cbn in HL; lia|].
  destruct (Rltb (hd 0 (x :: l)) alt) eqn:E1.
  - apply Rltb_true in E1. cbn in E1. assert (above_count (x :: l) alt = 0%nat).
    { unfold above_count. cbn. rewrite (proj2 (Rleb_false alt x)) by lra. reflexivity. }
    unfold top_layer. rewrite H. replace (0 - 1)%nat with 0%nat by lia. rewrite Nat.min_0_r. reflexivity.
  - apply Rltb_false in E1. cbn in E1. destruct (Rltb alt (last (x :: l) 0)) eqn:E2.
    + apply Rltb_true in E2. rewrite last_nth in E2. assert (above_count (x :: l) alt = length (x :: l)).
      { destruct (le_lt_dec (length (x :: l)) (above_count (x :: l) alt)) as [L|L]; [lia|]. exfalso.
        destruct (nth_error (x :: l) (length (x :: l) - 1)) as [z|] eqn:Ez; [|apply nth_error_None in Ez; lia].
        pose proof (above_count_lt (x :: l) alt (length (x :: l) - 1)%nat z HD ltac:(lia) Ez). rewrite (nth_of_error _ _ _ Ez) in E2. lra. }
      unfold top_layer. rewrite H. f_equal; lia.
    + fold (above_count (x :: l) alt).
      assert (1 <= above_count (x :: l) alt)%nat. { unfold above_count. cbn. rewrite (proj2 (Rleb_true alt x)) by lra. lia. }
      unfold top_layer. destruct (Z.of_nat (above_count (x :: l) alt) =? Z.of_nat (length (x :: l)))%Z eqn:E3.
      * apply Z.eqb_eq in E3. f_equal; lia.
      * apply Z.eqb_neq in E3. f_equal; lia.
Qed.

(** ** Cells *)
Lemma nearest_lower : forall nb p, (2 <= nb)%Z -> nearest_cell nb p (lower_index nb p).
Proof.
  intros nb p H. split; [now apply lower_index_range|]. unfold lower_index. rcase1; [split; [right; reflexivity|left; simpl; lra]|].
  rcase1; [split; [left; rewrite minus_IZR in *; lra|right; reflexivity]|].
  pose proof (Rfloor_bounds p). split; left; lra.
Qed.
Lemma nearest_cases : forall nb p i, nearest_cell nb p i ->
  lower_index nb p = i \/ (p = IZR i + 1 /\ lower_index nb p = (i + 1)%Z).
Proof.
  intros nb p i (Hi & H1 & H2).
  assert (0 <= IZR i) by (apply IZR_le; lia).
  destruct (Rlt_dec p (IZR i)) as [L|L].
  - destruct H1 as [H1|H1]; [lra|]. subst i. left. unfold lower_index. rcase1; [reflexivity|lra].
  - destruct (Rlt_dec (IZR i + 1) p) as [M|M].
    + destruct H2 as [H2|H2]; [lra|]. left. unfold lower_index. rcase1; [lra|]. rcase1; [lia|]. exfalso. subst i. rewrite !minus_IZR in *. lra.
    + apply lower_index_in_cell; [exact Hi|lra].
Qed.
Lemma lerp_nearest : forall nb p i (v : Z -> R), nearest_cell nb p i ->
  (1 - (p - IZR (lower_index nb p))) * v (lower_index nb p) + (p - IZR (lower_index nb p)) * v (lower_index nb p + 1)%Z
  = (1 - (p - IZR i)) * v i + (p - IZR i) * v (i + 1)%Z.
Proof.
  intros nb p i v H. destruct (nearest_cases nb p i H) as [E|[E1 E2]]; [rewrite E; reflexivity|].
  rewrite E2, E1, plus_IZR. ring.
Qed.
Lemma interp_nearest : forall m r c i j, nearest_cell (rs_rows m) r i -> nearest_cell (rs_cols m) c j ->
  interp m r c = bilinear_in_cell m i j r c.
Proof.
  intros m r c i j Hi Hj.
  transitivity ((1 - (r - IZR (lower_index (rs_rows m) r))) *
      ((1 - (c - IZR (lower_index (rs_cols m) c))) * rs_at m (lower_index (rs_rows m) r) (lower_index (rs_cols m) c)
       + (c - IZR (lower_index (rs_cols m) c)) * rs_at m (lower_index (rs_rows m) r) (lower_index (rs_cols m) c + 1))
    + (r - IZR (lower_index (rs_rows m) r)) *
      ((1 - (c - IZR (lower_index (rs_cols m) c))) * rs_at m (lower_index (rs_rows m) r + 1) (lower_index (rs_cols m) c)
       + (c - IZR (lower_index (rs_cols m) c)) * rs_at m (lower_index (rs_rows m) r + 1) (lower_index (rs_cols m) c + 1))).
  { unfold interp, bilin_value. ring. }
  rewrite (lerp_nearest (rs_cols m) c j (fun z => rs_at m (lower_index (rs_rows m) r) z) Hj).
  rewrite (lerp_nearest (rs_cols m) c j (fun z => rs_at m (lower_index (rs_rows m) r + 1) z) Hj).
  rewrite (lerp_nearest (rs_rows m) r i (fun y => (1 - (c - IZR j)) * rs_at m y j + (c - IZR j) * rs_at m y (j + 1)) Hi).
  unfold bilinear_in_cell, lerp. ring.
Qed.

(** ** The interpolator *)
Lemma layer_nth : forall data k m, nth_error data k = Some m -> layer data (Z.of_nat k) = m.
Proof. intros data k m H. unfold layer. rewrite Nat2Z.id. exact (nth_error_nth data k no_layer H). Qed.
Lemma layer_nth_S : forall data k m, nth_error data (S k) = Some m -> layer data (Z.of_nat k + 1) = m.
Proof. intros data k m H. rewrite <- (layer_nth data (S k) m H). f_equal. lia. Qed.

Definition good_cube (g : grid) (data : list raster) : Prop :=
  length data = length (gr_alts g) /\ (forall m, In m data -> rs_rows m = gr_nbrow g /\ rs_cols m = gr_nbcol g).
Lemma proper_lon : forall g, proper_grid g -> good_cube g (gr_lon g).
Proof. intros g (A & B & C & D & E & F). split; [exact C|]. intros m Hm. apply E. now left. Qed.
Lemma proper_lat : forall g, proper_grid g -> good_cube g (gr_lat g).
Proof. intros g (A & B & C & D & E & F). split; [exact D|]. intros m Hm. apply E. now right. Qed.

(** The value of a cube at an altitude, with the layers chosen by the code. *)
Definition at_layers (g : grid) (data : list raster) (alt : R) (f : raster -> R) : R :=
  let k := top_layer (gr_alts g) alt in
  let a := nth k (gr_alts g) 0 in
  let b := nth (S k) (gr_alts g) 0 in
  lerp (f (layer data (Z.of_nat k + 1))) (f (layer data (Z.of_nat k))) ((alt - b) / (a - b)).
Lemma at_layers_nearest : forall g data alt f k a b top bottom, decreasing (gr_alts g) -> (2 <= length (gr_alts g))%nat ->
  nearest_layers (gr_alts g) alt k a b -> nth_error data k = Some top -> nth_error data (S k) = Some bottom ->
  at_layers g data alt f = lerp (f bottom) (f top) ((alt - b) / (a - b)).
Proof.
  intros g data alt f k a b top bottom HD HL HN Ht Hb. unfold at_layers.
  destruct (top_layer_nearest (gr_alts g) alt HL HD) as (a0 & b0 & HN0 & L0).
  pose proof HN0 as (N1 & N2 & _). rewrite (nth_of_error _ _ _ N1), (nth_of_error _ _ _ N2).
  pose proof HN as (M1 & M2 & _). pose proof (HD _ _ _ M1 M2) as L.
  destruct (nearest_value _ _ _ _ _ _ _ _ HD HN0 HN) as [E|[(E1 & E2 & E3)|(E1 & E2 & E3)]].
  - rewrite E in *. rewrite N1 in M1. rewrite N2 in M2. injection M1 as ->. injection M2 as ->.
    rewrite (layer_nth _ _ _ Ht), (layer_nth_S _ _ _ Hb). reflexivity.
  - rewrite <- E1 in Ht. rewrite (layer_nth_S _ _ _ Ht). rewrite E2, E3.
    unfold lerp, Rdiv. rewrite Rminus_diag_eq by reflexivity. rewrite Rmult_0_l. replace ((alt - b) * / (alt - b)) with 1 by (field; lra). ring.
  - rewrite <- E1. rewrite <- E1 in *. rewrite (layer_nth _ _ _ Hb). rewrite E2, E3.
    unfold lerp, Rdiv. rewrite (Rminus_diag_eq alt alt) by reflexivity. rewrite Rmult_0_l. replace ((alt - b0) * / (alt - b0)) with 1 by (field; lra). ring.
Qed.

Lemma interpolator_at_layers : forall g data alt, proper_grid g -> exists z, alt_normalise (gr_alts g) alt = Some z /\
  forall row col, interpolator g data z row col = at_layers g data alt (fun m => interp m (grid_pos_row g row) (grid_pos_col g col)).
Proof.
  intros g data alt (HL & HD & _). destruct (top_layer_nearest (gr_alts g) alt HL HD) as (a & b & HN & L).
  pose proof HN as (N1 & N2 & N3 & N4). eexists. split; [apply alt_normalise_top; eassumption|]. intros row col.
  set (k := top_layer (gr_alts g) alt) in *. unfold interpolator, gr_nbalt.
  assert (Hk : (S k < length (gr_alts g))%nat) by (apply nth_error_Some; congruence).
  rewrite (lerp_nearest (Z.of_nat (length (gr_alts g))) (INR k + (a - alt) / (a - b)) (Z.of_nat k)
    (fun i => interp (layer data i) (grid_pos_row g row) (grid_pos_col g col))).
  - unfold at_layers. fold k. rewrite (nth_of_error _ _ _ N1), (nth_of_error _ _ _ N2). rewrite <- INR_IZR_INZ. unfold lerp. field. lra.
  - split; [lia|]. rewrite <- INR_IZR_INZ. split.
    + destruct N3 as [N3|N3]; [left|right; lia]. assert (0 <= (a - alt) / (a - b)); [|lra]. apply Rmult_le_pos; [lra|]. left. apply Rinv_0_lt_compat. lra.
    + destruct N4 as [N4|N4]; [left|right; lia]. assert ((a - alt) / (a - b) <= 1); [|lra]. apply (Rmult_le_reg_r (a - b)); [lra|]. unfold Rdiv. rewrite Rmult_assoc, Rinv_l by lra. lra.
Qed.

Lemma cube_value_layers : forall g data row col alt v, proper_grid g -> good_cube g data -> cube_value g data row col alt v ->
  v = at_layers g data alt (fun m => interp m (grid_pos_row g row) (grid_pos_col g col)).
Proof.
  intros g data row col alt v HP [GC1 GC2] (k & a & b & top & bottom & i & j & HN & Ht & Hb & Hi & Hj & ->).
  pose proof HP as (HL & HD & _).
  rewrite (at_layers_nearest g data alt _ k a b top bottom HD HL HN Ht Hb).
  destruct (GC2 top (nth_error_In _ _ Ht)) as [T1 T2]. destruct (GC2 bottom (nth_error_In _ _ Hb)) as [B1 B2].
  unfold grid_pos_row, grid_pos_col.
  rewrite (interp_nearest top _ _ i j), (interp_nearest bottom _ _ i j); [reflexivity|..]; rewrite ?T1, ?T2, ?B1, ?B2; assumption.
Qed.
Lemma cube_value_exists : forall g data row col alt, proper_grid g -> good_cube g data ->
  cube_value g data row col alt (at_layers g data alt (fun m => interp m (grid_pos_row g row) (grid_pos_col g col))).
Proof.
  intros g data row col alt HP GC. pose proof HP as (HL & HD & _ & _ & _ & HR & HC & _). pose proof GC as [GC1 GC2].
  destruct (top_layer_nearest (gr_alts g) alt HL HD) as (a & b & HN & L). pose proof HN as (N1 & N2 & _).
  assert (Hk : (S (top_layer (gr_alts g) alt) < length (gr_alts g))%nat) by (apply nth_error_Some; congruence).
  destruct (nth_error data (top_layer (gr_alts g) alt)) as [top|] eqn:Et; [|apply nth_error_None in Et; lia].
  destruct (nth_error data (S (top_layer (gr_alts g) alt))) as [bottom|] eqn:Eb; [|apply nth_error_None in Eb; lia].
  exists (top_layer (gr_alts g) alt), a, b, top, bottom, (lower_index (gr_nbrow g) (grid_pos_row g row)), (lower_index (gr_nbcol g) (grid_pos_col g col)).
  repeat (split; [first [assumption | apply nearest_lower; assumption]|]).
  rewrite (at_layers_nearest g data alt _ _ a b top bottom HD HL HN Et Eb).
  destruct (GC2 top (nth_error_In _ _ Et)) as [T1 T2]. destruct (GC2 bottom (nth_error_In _ _ Eb)) as [B1 B2].
  unfold grid_pos_row, grid_pos_col.
  rewrite (interp_nearest top _ _ (lower_index (gr_nbrow g) ((row - gr_row0 g) / gr_steprow g)) (lower_index (gr_nbcol g) ((col - gr_col0 g) / gr_stepcol g))),
   (interp_nearest bottom _ _ (lower_index (gr_nbrow g) ((row - gr_row0 g) / gr_steprow g)) (lower_index (gr_nbcol g) ((col - gr_col0 g) / gr_stepcol g)));
   [reflexivity|..]; rewrite ?T1, ?T2, ?B1, ?B2; apply nearest_lower; assumption.
Qed.

Lemma grid_position_ground : forall g row col alt lon lat, proper_grid g -> grid_ground g row col alt lon lat ->
  grid_position g (Some row) (Some col) (Some alt) = R3 (fin lon) (fin lat) (fin alt).
Proof.
  intros g row col alt lon lat HP [G1 G2]. unfold grid_position, interpolator_lonlat.
  destruct (interpolator_at_layers g (gr_lon g) alt HP) as (z & Ez & E1).
  destruct (interpolator_at_layers g (gr_lat g) alt HP) as (z' & Ez' & E2).
  rewrite Ez in Ez'. injection Ez' as <-. rewrite Ez, E1, E2.
  rewrite <- (cube_value_layers g (gr_lon g) row col alt lon HP (proper_lon g HP) G1), <- (cube_value_layers g (gr_lat g) row col alt lat HP (proper_lat g HP) G2).
  reflexivity.
Qed.
Lemma grid_ground_exists : forall g row col alt, proper_grid g -> exists lon lat, grid_ground g row col alt lon lat.
Proof.
  intros g row col alt HP. eexists. eexists. split; [apply cube_value_exists; [exact HP|now apply proper_lon]|apply cube_value_exists; [exact HP|now apply proper_lat]].
Qed.
Lemma grid_ground_unique : forall g row col alt lon lat lon' lat', proper_grid g -> grid_ground g row col alt lon lat ->
  grid_ground g row col alt lon' lat' -> lon' = lon /\ lat' = lat.
Proof.
  intros g row col alt lon lat lon' lat' HP H H'. pose proof (grid_position_ground _ _ _ _ _ _ HP H) as E. rewrite (grid_position_ground _ _ _ _ _ _ HP H') in E.
  unfold fin in E. injection E as -> ->. auto.
Qed.
