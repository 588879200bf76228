(** Proofs about the binary64 model of the C++ DTM intersection: it computes what the Python one computes. *)
From Coq Require Import ZArith Reals Bool List Lia Lra Psatz.
From Flocq Require Import Core BinarySingleNaN.
From Verif Require Import InterpProofs FloatModel FloatInterpModel Float FloatErr FloatInterp FloatRpc FloatWalkModel FloatWalkSpec FloatWalk FloatRefine FloatLineSpec FloatLine FloatEntry FloatMiss
  FloatGeoModel FloatTerModel CppDtmModel FloatCppModel FloatCppSpec.
Import ListNotations.
Open Scope Z_scope.

(** ** Integers in doubles *)
Lemma sub_fint a b : 0 <= b <= a -> a < 2 ^ 53 -> fsub (fint a) (fint b) = fint (a - b).
Proof.
  intros H A. destruct (fint_exact a) as [Ea Fa]; [lia|]. destruct (fint_exact b) as [Eb Fb]; [lia|]. destruct (fint_exact (a - b)) as [Ed Fd]; [lia|].
  destruct (Z.eq_dec a b) as [->|N].
  - replace (b - b) with 0 by lia. change (fint 0) with (B754_zero false : b64). unfold fsub.
    pose proof (Bminus_correct 53 1024 _ _ mode_NE (fint b) (fint b) Fb Fb) as C. rewrite Rminus_eq_0, round_0, Rabs_R0 in C by apply valid_rnd_N.
    rewrite (Rlt_bool_true _ _ (bpow_gt_0 radix2 1024)) in C. destruct C as (C1 & C2 & C3). rewrite Rcompare_Eq in C3 by reflexivity.
    apply B2R_Bsign_inj; [exact C2|reflexivity|exact C1|]. rewrite C3. cbn [Bsign]. now destruct (Bsign (fint b)).
  - destruct (fsub_fits (fint a) (fint b) (IZR (a - b)) Fa Fb) as [E F]; [rewrite Ea, Eb; symmetry; apply minus_IZR|apply fits_int; lia|].
    assert (P : IZR (a - b) <> 0%R) by (apply IZR_neq; lia).
    assert (ST : forall x : b64, is_finite x = true -> B2R x <> 0%R -> is_finite_strict x = true) by (intros [[]|[]| |]; cbn; try discriminate; try reflexivity; intros _ Q; now destruct Q).
    apply B2R_inj; [apply ST; [exact F|now rewrite E]|apply ST; [exact Fd|now rewrite Ed]|]. now rewrite E, Ed.
Qed.
Definition is_int (x : b64) (n : Z) : Prop := is_finite x = true /\ B2R x = IZR n.
Lemma is_int_fint n : Z.abs n < 2 ^ 53 -> is_int (fint n) n.
Proof. intros H. destruct (fint_exact n H). now split. Qed.
Lemma is_int_add x y a b : is_int x a -> is_int y b -> Z.abs (a + b) < 2 ^ 53 -> is_int (fadd x y) (a + b).
Proof. intros [F1 E1] [F2 E2] H. destruct (fadd_fits x y (IZR (a + b)) F1 F2); [rewrite E1, E2; symmetry; apply plus_IZR|now apply fits_int|now split]. Qed.
Lemma is_int_mul x y a b : is_int x a -> is_int y b -> Z.abs (a * b) < 2 ^ 53 -> is_int (fmul x y) (a * b).
Proof. intros [F1 E1] [F2 E2] H. destruct (fmul_fits x y (IZR (a * b)) F1 F2); [rewrite E1, E2; symmetry; apply mult_IZR|now apply fits_int|now split]. Qed.
Lemma floor_int x n : is_int x n -> ffloor x = Some n.
Proof. intros [F E]. rewrite (ffloor_finite _ F), E. now rewrite Zfloor_IZR. Qed.
Lemma c_int_some n : - 2 ^ 31 <= n < 2 ^ 31 -> c_int n = Some n.
Proof. intros H. unfold c_int. destruct (Z.leb_spec (- 2 ^ 31) n); [|lia]. destruct (Z.ltb_spec n (2 ^ 31)); [reflexivity|lia]. Qed.

(** ** The data of the object *)
Lemma flat_at m r c : 0 <= r < fr_rows m -> 0 <= c < fr_cols m -> nth_error (fflatten m) (Z.to_nat (r * fr_cols m + c)) = Some (fr_at m r c).
Proof.
  intros Hr Hc. unfold fflatten. assert (0 <= r * fr_cols m) by nia.
  replace (Z.to_nat (r * fr_cols m + c)) with (Z.to_nat r * Z.to_nat (fr_cols m) + Z.to_nat c)%nat by (rewrite Z2Nat.inj_add, Z2Nat.inj_mul; lia).
  apply flat_map_nth with (k0 := 0%nat).
  - intros. now rewrite map_length, seq_length.
  - lia.
  - lia.
  - cbn [Nat.add]. erewrite map_nth_error; [|apply nth_error_nth' with (d := 0%nat); rewrite seq_length; lia].
    rewrite seq_nth by lia. cbn [Nat.add]. f_equal. now rewrite !Z2Nat.id by lia.
Qed.
Lemma cells_at {A} (f : Z -> Z -> A) nr nc i j : 0 <= i < nr - 1 -> 0 <= j < nc - 1 -> nth_error (cpp_cells f nr nc) (Z.to_nat (i * (nc - 1) + j)) = Some (f i j).
Proof.
  intros Hi Hj. unfold cpp_cells. assert (0 <= i * (nc - 1)) by nia.
  replace (Z.to_nat (i * (nc - 1) + j)) with (Z.to_nat i * Z.to_nat (nc - 1) + Z.to_nat j)%nat by (rewrite Z2Nat.inj_add, Z2Nat.inj_mul; lia).
  apply flat_map_nth with (k0 := 0%nat).
  - intros. now rewrite map_length, seq_length.
  - lia.
  - lia.
  - cbn [Nat.add]. erewrite map_nth_error; [|apply nth_error_nth' with (d := 0%nat); rewrite seq_length; lia].
    rewrite seq_nth by lia. cbn [Nat.add]. f_equal. now rewrite !Z2Nat.id by lia.
Qed.

Section Object.
Context (m : fraster) (g : fgdal) (UT : usual_terrain m) (UA : usual_altitudes m) (CELLS : fr_rows m * fr_cols m < 2 ^ 31).
Let c := cpp_object m g.

Lemma sizes : 2 <= fr_rows m <= 2 ^ 18 /\ 2 <= fr_cols m <= 2 ^ 18. Proof. destruct UT as (A & B & _). split; assumption. Qed.
Lemma planes_eq : cm_d c = fplane_coef_d m.
Proof. unfold c, cpp_object, c_make, fplane_coef_d, falt_min, falt_max. cbn [cm_d]. destruct (fflatten m); reflexivity. Qed.
Lemma eq_plan_eq i p : c_eq_plan c i p = feq_plan m i p.
Proof. unfold c_eq_plan. rewrite planes_eq. reflexivity. Qed.

(** *** The interpolation *)
Lemma lower_eq nb d : 2 <= nb <= 2 ^ 18 ->
  (flower_index nb d = None /\ c_lower nb d = None) \/ exists l, flower_index nb d = Some l /\ c_lower nb d = Some (fint l) /\ 0 <= l <= nb - 2.
Proof.
  intros Hn. unfold flower_index, c_lower, fone. rewrite (sub_fint nb 1) by lia. rewrite (sub_fint nb 2) by lia. change (fint 0) with fzero.
  destruct (Bltb d fzero) eqn:L; [right; exists 0; repeat split; lia|].
  destruct (Bleb (fint (nb - 1)) d) eqn:G; [right; exists (nb - 2); repeat split; lia|].
  destruct (is_finite d) eqn:F.
  - destruct (fint_exact (nb - 1)) as [E1 F1]; [lia|]. right. exists (Zfloor (B2R d)). rewrite (ffloor_finite d F).
    rewrite Bltb_correct in L by (assumption || reflexivity). rewrite Bleb_correct in G by assumption. change (B2R fzero) with 0%R in L. rewrite E1 in G.
    destruct (Rlt_bool_spec (B2R d) 0) as [|L']; [discriminate|]. destruct (Rle_bool_spec (IZR (nb - 1)) (B2R d)) as [|G']; [discriminate|].
    assert (B : 0 <= Zfloor (B2R d) <= nb - 2).
    { split; [apply Zfloor_lub; exact L'|]. assert (Zfloor (B2R d) < nb - 1); [|lia]. apply lt_IZR. eapply Rle_lt_trans; [apply Zfloor_lb|exact G']. }
    rewrite c_int_some by lia. repeat split; lia.
  - left. destruct d as [| | |]; cbn in F |- *; try discriminate; split; reflexivity.
Qed.
Lemma get_double r k x y : is_int x r -> is_int y k -> 0 <= r < fr_rows m -> 0 <= k < fr_cols m ->
  c_get_double (cm_alt c) (fadd (fmul x (fint (cm_cols c))) y) = Some (fr_at m r k).
Proof.
  intros Hx Hy Hr Hk. destruct sizes as [S1 S2]. unfold c_get_double. change (cm_cols c) with (fr_cols m). change (cm_alt c) with (fflatten m).
  assert (B : 0 <= r * fr_cols m <= 2 ^ 36) by (change (2 ^ 36) with (2 ^ 18 * 2 ^ 18); nia).
  rewrite (floor_int _ (r * fr_cols m + k)).
  - destruct (Z.ltb_spec (r * fr_cols m + k) 0); [lia|]. now apply flat_at.
  - apply is_int_add; [|exact Hy|lia]. apply is_int_mul; [exact Hx|apply is_int_fint; lia|lia].
Qed.
Lemma interpolate_eq x y : c_interpolate c x y = finterpolate m x y.
Proof.
  destruct sizes as [S1 S2]. unfold c_interpolate, finterpolate, finterpol_bilin. change (cm_rows c) with (fr_rows m). change (cm_cols c) with (fr_cols m) at 1.
  destruct (lower_eq (fr_rows m) x S1) as [[-> ->]|(r & -> & -> & Hr)]; [reflexivity|].
  destruct (lower_eq (fr_cols m) y S2) as [[-> ->]|(k & -> & -> & Hk)]; [reflexivity|]. cbv zeta.
  assert (R0 : is_int (fint r) r) by (apply is_int_fint; lia). assert (K0 : is_int (fint k) k) by (apply is_int_fint; lia).
  assert (ONE : is_int fone 1) by (apply is_int_fint; lia).
  assert (R1 : is_int (fadd (fint r) fone) (r + 1)) by (apply is_int_add; [exact R0|exact ONE|lia]).
  assert (K1 : is_int (fadd (fint k) fone) (k + 1)) by (apply is_int_add; [exact K0|exact ONE|lia]).
  rewrite (get_double r k _ _ R0 K0), (get_double r (k + 1) _ _ R0 K1), (get_double (r + 1) k _ _ R1 K0), (get_double (r + 1) (k + 1) _ _ R1 K1) by lia.
  assert (GET : forall a b, 0 <= a < fr_rows m -> 0 <= b < fr_cols m -> fr_get m a b = Some (fr_at m a b)).
  { intros a b Ha Hb. unfold fr_get. destruct (Z.leb_spec 0 a); [|lia]. destruct (Z.ltb_spec a (fr_rows m)); [|lia].
    destruct (Z.leb_spec 0 b); [|lia]. destruct (Z.ltb_spec b (fr_cols m)); [reflexivity|lia]. }
  rewrite !GET by lia. reflexivity.
Qed.

(** *** The extreme altitudes of the cells *)
Lemma c_alt_eq i j : 0 <= i < fr_rows m -> 0 <= j < fr_cols m -> c_alt (fflatten m) (fr_cols m * i + j) = fr_at m i j.
Proof.
  intros Hi Hj. unfold c_alt, c_get. assert (0 <= fr_cols m * i) by nia. assert (fr_cols m * i + j < fr_rows m * fr_cols m) by nia.
  rewrite c_int_some by lia. destruct (Z.ltb_spec (fr_cols m * i + j) 0); [lia|]. rewrite (Z.mul_comm (fr_cols m) i). now rewrite flat_at.
Qed.
Lemma floor_value x y : is_finite x = true -> is_finite y = true -> B2R x = B2R y -> np_floor x = np_floor y.
Proof. intros Fx Fy E. unfold np_floor. now rewrite (ffloor_finite x Fx), (ffloor_finite y Fy), E. Qed.
Lemma ceil_value x y : is_finite x = true -> is_finite y = true -> B2R x = B2R y -> np_ceil x = np_ceil y.
Proof. intros Fx Fy E. unfold np_ceil. now rewrite (fceil_finite x Fx), (fceil_finite y Fy), E. Qed.
Lemma min_value x y : is_finite x = true -> is_finite y = true -> is_finite (fmin2 x y) = true /\ B2R (fmin2 x y) = Rmin (B2R x) (B2R y).
Proof.
  intros Fx Fy. unfold fmin2. rewrite Bltb_correct by assumption. destruct (Rlt_bool_spec (B2R y) (B2R x)) as [L|L]; split; try assumption; [rewrite Rmin_right|rewrite Rmin_left]; lra.
Qed.
Lemma max_value x y : is_finite x = true -> is_finite y = true -> is_finite (fmax2 x y) = true /\ B2R (fmax2 x y) = Rmax (B2R x) (B2R y).
Proof.
  intros Fx Fy. unfold fmax2. rewrite Bltb_correct by assumption. destruct (Rlt_bool_spec (B2R x) (B2R y)) as [L|L]; split; try assumption; [rewrite Rmax_right|rewrite Rmax_left]; lra.
Qed.
Lemma at_finite i j : 0 <= i < fr_rows m -> 0 <= j < fr_cols m -> is_finite (fr_at m i j) = true.
Proof. intros Hi Hj. exact (proj1 (proj2 (proj2 UT) i j Hi Hj)). Qed.
Lemma min_cell_eq i j : 0 <= i < fr_rows m - 1 -> 0 <= j < fr_cols m - 1 -> c_get (cm_min_cell c) (i * (cm_cols c - 1) + j) = Some (falt_min_cell m i j).
Proof.
  intros Hi Hj. unfold c_get. change (cm_cols c) with (fr_cols m). assert (0 <= i * (fr_cols m - 1)) by nia. assert (i * (fr_cols m - 1) + j < fr_rows m * fr_cols m) by nia.
  rewrite c_int_some by lia. destruct (Z.ltb_spec (i * (fr_cols m - 1) + j) 0); [lia|].
  change (cm_min_cell c) with (c_alt_min_cell (fflatten m) (fr_rows m) (fr_cols m)). unfold c_alt_min_cell. rewrite cells_at by assumption.
  rewrite !c_alt_eq by lia. f_equal. unfold falt_min_cell. cbv zeta.
  pose proof (at_finite i j ltac:(lia) ltac:(lia)) as F1. pose proof (at_finite i (j + 1) ltac:(lia) ltac:(lia)) as F2.
  pose proof (at_finite (i + 1) j ltac:(lia) ltac:(lia)) as F3. pose proof (at_finite (i + 1) (j + 1) ltac:(lia) ltac:(lia)) as F4.
  destruct (min_value _ _ F1 F2) as [G1 E1]. destruct (min_value _ _ G1 F3) as [G2 E2]. destruct (min_value _ _ G2 F4) as [G3 E3].
  destruct (min_value _ _ F1 F3) as [K1 L1]. destruct (min_value _ _ K1 F2) as [K2 L2]. destruct (min_value _ _ K2 F4) as [K3 L3].
  apply floor_value; [assumption|assumption|]. rewrite E3, E2, E1, L3, L2, L1. f_equal. rewrite <- !Rmin_assoc. f_equal. apply Rmin_comm.
Qed.
Lemma max_cell_eq i j : 0 <= i < fr_rows m - 1 -> 0 <= j < fr_cols m - 1 -> c_get (cm_max_cell c) (i * (cm_cols c - 1) + j) = Some (falt_max_cell m i j).
Proof.
  intros Hi Hj. unfold c_get. change (cm_cols c) with (fr_cols m). assert (0 <= i * (fr_cols m - 1)) by nia. assert (i * (fr_cols m - 1) + j < fr_rows m * fr_cols m) by nia.
  rewrite c_int_some by lia. destruct (Z.ltb_spec (i * (fr_cols m - 1) + j) 0); [lia|].
  change (cm_max_cell c) with (c_alt_max_cell (fflatten m) (fr_rows m) (fr_cols m)). unfold c_alt_max_cell. rewrite cells_at by assumption.
  rewrite !c_alt_eq by lia. f_equal. unfold falt_max_cell. cbv zeta.
  pose proof (at_finite i j ltac:(lia) ltac:(lia)) as F1. pose proof (at_finite i (j + 1) ltac:(lia) ltac:(lia)) as F2.
  pose proof (at_finite (i + 1) j ltac:(lia) ltac:(lia)) as F3. pose proof (at_finite (i + 1) (j + 1) ltac:(lia) ltac:(lia)) as F4.
  destruct (max_value _ _ F1 F2) as [G1 E1]. destruct (max_value _ _ G1 F3) as [G2 E2]. destruct (max_value _ _ G2 F4) as [G3 E3].
  destruct (max_value _ _ F1 F3) as [K1 L1]. destruct (max_value _ _ K1 F2) as [K2 L2]. destruct (max_value _ _ K2 F4) as [K3 L3].
  apply ceil_value; [assumption|assumption|]. rewrite E3, E2, E1, L3, L2, L1. f_equal. rewrite <- !Rmax_assoc. f_equal. apply Rmax_comm.
Qed.

(** *** The box *)
Lemma not_on_plane i p : (i < 6)%nat -> usual_point p -> off_the_faces m p -> Beqb (feq_plan m i p) fzero = false.
Proof.
  intros Hi UP (O1 & O2 & O3 & O4 & O5). pose proof (usual_planes m UT UA i) as UM. destruct (plane_distance m i p Hi UM UP) as (F & _ & _ & _ & _ & Z0).
  destruct (Beqb (feq_plan m i p) fzero) eqn:Q; [exfalso|reflexivity]. apply eqb_zero_true in Q. specialize (Z0 Q). clear Q F UM. destruct sizes as [S1 S2].
  assert (SUB : forall n, 2 <= n <= 2 ^ 18 -> B2R (fsub (fint n) fone) = IZR (n - 1)).
  { intros n Hn. unfold fone. rewrite sub_fint by lia. apply fint_exact. lia. }
  assert (ALT : forall x, In x (fflatten m) -> B2R (fv_alt p) <> B2R x).
  { apply Forall_forall. apply fflatten_all. exact O5. }
  assert (NE : exists x l, fflatten m = x :: l).
  { pose proof (flat_at m 0 0 ltac:(lia) ltac:(lia)) as E. destruct (fflatten m) as [|x l]; [cbn in E; discriminate|eauto]. }
  assert (PICK : forall (f : b64 -> b64 -> b64) x l, (forall u v, f u v = u \/ f u v = v) -> In (fold_left f l x) (x :: l)).
  { intros f x l H. apply (fold_pick f (fun y => In y (x :: l)) H l x); [left; reflexivity|]. apply Forall_forall. intros y I. right. exact I. }
  destruct NE as (x & l & NE).
  unfold plane_at, fplane_coef_d, plane_coord, falt_min, falt_max in Z0. rewrite NE in Z0, ALT.
  destruct i as [|[|[|[|[|[|i]]]]]]; [| | | | | |lia]; cbn [nth Nat.ltb Nat.leb] in Z0.
  - apply O1. exact Z0.
  - apply O2. rewrite Z0. now apply SUB.
  - apply O3. exact Z0.
  - apply O4. rewrite Z0. now apply SUB.
  - apply (ALT _ (PICK fmin2 x l ltac:(intros u v; unfold fmin2; destruct (Bltb v u); tauto))). exact Z0.
  - apply (ALT _ (PICK fmax2 x l ltac:(intros u v; unfold fmax2; destruct (Bltb u v); tauto))). exact Z0.
Qed.
Lemma scan_eq i : (i < 6)%nat -> forall rest a layer, usual_point a -> Forall usual_point rest -> Beqb (feq_plan m i a) fzero = false ->
  c_plane_scan c i a rest layer = Some (fplane_scan m i a rest layer).
Proof.
  intros Hi. induction rest as [|b rest IH]; intros a layer Pa Pr Na; cbn [c_plane_scan fplane_scan]; [reflexivity|]. cbv zeta. rewrite !eq_plan_eq.
  inversion Pr as [|? ? Pb Pr']. subst. rewrite Na. cbn [andb].
  destruct (Bleb (fmul (feq_plan m i a) (feq_plan m i b)) fzero) eqn:OP.
  - f_equal. f_equal. unfold c_plane_crossing, fplane_crossing. rewrite Na, planes_eq. reflexivity.
  - apply IH; try assumption. destruct (Beqb (feq_plan m i b) fzero) eqn:Q; [exfalso|reflexivity].
    destruct (plane_distance m i a Hi (usual_planes m UT UA i) Pa) as (Fa & _). destruct (plane_distance m i b Hi (usual_planes m UT UA i) Pb) as (Fb & _).
    apply eqb_zero_true in Q. destruct (fmul_round (feq_plan m i a) (feq_plan m i b) Fa Fb) as [E F]; rewrite Q, Rmult_0_r, rnd_0 in *.
    + rewrite Rabs_R0. apply bpow_gt_0.
    + rewrite Bleb_correct in OP by (assumption || reflexivity). rewrite E in OP. change (B2R fzero) with 0%R in OP. rewrite Rle_bool_true in OP by lra. discriminate.
Qed.
Lemma cube_eq v rest : Forall usual_point (v :: rest) -> off_the_faces m v -> c_intersect_dtm_cube c (v :: rest) = Some (fintersect_dtm_cube m (v :: rest)).
Proof.
  intros UP OF. unfold c_intersect_dtm_cube, fintersect_dtm_cube, fall_crossings. set (los := v :: rest) in *.
  assert (PV : usual_point v) by (inversion UP; assumption).
  assert (E : forall planes, (forall i, In i planes -> (i < 6)%nat) ->
    c_scan_planes c los v planes = Some (flat_map (fun i => match fplane_scan m i v los 0 with Some c => [c] | None => [] end) planes)).
  { induction planes as [|i planes IH]; intros H; [reflexivity|]. cbn [c_scan_planes flat_map].
    rewrite (scan_eq i (H i (or_introl eq_refl)) los v 0 PV UP) by (apply not_on_plane; [apply H; left; reflexivity|assumption|assumption]).
    rewrite IH by (intros k K; apply H; right; exact K). destruct (fplane_scan m i v los 0); reflexivity. }
  rewrite E by (intros i I; apply in_seq in I; lia). cbv zeta. f_equal.
  set (cs := flat_map _ _). assert (EF : forall l, filter (c_test_on_cube c) l = filter (ftest_on_cube m) l).
  { induction l as [|x l IH]; [reflexivity|]. cbn [filter]. rewrite IH. unfold c_test_on_cube, ftest_on_cube. rewrite planes_eq. reflexivity. }
  rewrite EF. reflexivity.
Qed.
(** The entry position is in the box, and its index is not negative. *)
Lemma entry_index v rest p h : Forall usual_point (v :: rest) -> off_the_faces m v -> (Z.of_nat (length (v :: rest)) <= 2 ^ 18) ->
  fintersect_dtm_cube m (v :: rest) = Some (p, h) ->
  (exists n, ffloor h = Some n /\ 0 <= n) /\ is_finite h = true /\ (is_finite (fv_row p) = true /\ (Rabs (B2R (fv_row p)) <= reach)%R) /\ (is_finite (fv_col p) = true /\ (Rabs (B2R (fv_col p)) <= reach)%R).
Proof.
  intros UP OF SZ H. destruct (cube_crossing m _ p h H) as (v' & rest' & i & x & EL & Hi & SC & -> & -> & ON). injection EL as <- <-.
  assert (PV : usual_point v) by (inversion UP; assumption). pose proof (not_on_plane i v Hi PV OF) as NV.
  assert (FH : is_finite (fx_h x) = true /\ (0 <= B2R (fx_h x))%R).
  { destruct (scan_spec m i _ _ _ _ SC) as (k & b & a & N1 & N2 & OP & EC). rewrite Z.add_0_l in EC.
    assert (UB : usual_point b) by (rewrite Forall_forall in UP; apply UP; exact (nth_error_In _ _ N1)).
    assert (KL : (k < length (v :: rest))%nat) by (apply nth_error_Some; congruence).
    assert (AV : usual_point a).
    { rewrite Forall_forall in UP. apply nth_error_In in N2. destruct N2 as [<-|N2]; [assumption|now apply UP]. }
    pose proof (usual_planes m UT UA i) as UM.
    destruct (plane_distance m i a Hi UM AV) as (Fa & _ & _ & Ba & Ga & _). destruct (plane_distance m i b Hi UM UB) as (Fb & _ & _ & Bb & Gb & _).
    destruct k as [|k].
    - exfalso. cbn in N1, N2. injection N1 as <-. injection N2 as <-. pose proof (eqb_zero_false _ Fa NV) as Q. specialize (Ga Q).
      pose proof (opposite_signs _ _ Fa Fa Ba Ba Ga Ga OP) as S. pose proof (Rle_0_sqr (B2R (feq_plan m i v))) as S'. unfold Rsqr in S'. lra.
    - destruct (Beqb (feq_plan m i a) fzero) eqn:Q1; [|destruct (Beqb (feq_plan m i b) fzero) eqn:Q2].
      + subst x. unfold fplane_crossing. rewrite Q1. cbn [fx_h]. destruct (fint_exact (Z.of_nat (S k) - 1)) as [E F]; [lia|]. split; [exact F|]. rewrite E. apply IZR_le. lia.
      + subst x. unfold fplane_crossing. rewrite Q1, Q2. cbn [fx_h]. destruct (fint_exact (Z.of_nat (S k))) as [E F]; [lia|]. split; [exact F|]. rewrite E. apply IZR_le. lia.
      + apply (eqb_zero_false _ Fa) in Q1. apply (eqb_zero_false _ Fb) in Q2.
        destruct (crossing_line m i a b (Z.of_nat (S k)) UT UA Hi AV UB Q1 Q2 OP) as (t & ca & _ & _ & EH & [FC _] & CA). rewrite <- EC in EH. rewrite EH.
        destruct (fint_exact (Z.of_nat (S k))) as [E F]; [lia|]. assert (K1 : (1 <= IZR (Z.of_nat (S k)) <= 262144)%R) by (split; [apply (IZR_le 1)|apply (IZR_le _ 262144)]; lia).
        destruct (fsub_round (fint (Z.of_nat (S k))) ca F FC) as [E1 F1].
        * rewrite E. pose proof huge_num. apply huge_lt. apply Rabs_le. lra.
        * split; [exact F1|]. rewrite E1, E. rewrite <- rnd_0. apply rnd_le. lra. }
  destruct FH as [FH PH]. split; [|split; [exact FH|]].
  { exists (Zfloor (B2R (fx_h x))). split; [now apply ffloor_finite|apply Zfloor_lub; exact PH]. }
  destruct sizes as [S1 S2]. unfold ftest_on_cube, fplane_coef_d, fone in ON. cbv zeta in ON. cbn [nth] in ON. rewrite !sub_fint in ON by lia.
  rewrite !andb_true_iff in ON. destruct ON as (((((O1 & O2) & O3) & O4) & _) & _). unfold cross_point. cbn [fv_row fv_col].
  assert (K : forall n y, 2 <= n <= 2 ^ 18 -> Bleb fzero y = true -> Bleb y (fint (n - 1)) = true -> is_finite y = true /\ (Rabs (B2R y) <= reach)%R).
  { intros n y Hn L1 L2. destruct (fint_exact (n - 1)) as [E F]; [lia|].
    assert (FY : is_finite y = true).
    { destruct y as [s|s| |s mm e HH]; try reflexivity.
      - destruct s; [discriminate L1|]. destruct (fint (n - 1)) as [s2|s2| |s2 m2 e2 H2]; try discriminate F; discriminate L2.
      - discriminate L1. }
    split; [exact FY|]. rewrite Bleb_correct in L1, L2 by (assumption || reflexivity). change (B2R fzero) with 0%R in L1. rewrite E in L2.
    destruct (Rle_bool_spec 0 (B2R y)); [|discriminate]. destruct (Rle_bool_spec (B2R y) (IZR (n - 1))); [|discriminate]. unfold reach.
    assert (IZR (n - 1) <= 262144)%R by (apply (IZR_le _ 262144); lia). apply Rabs_le. lra. }
  split; [exact (K _ _ S1 O1 O2)|exact (K _ _ S2 O3 O4)].
Qed.

(** *** The walk *)
Lemma frefine_ext f f' n : (forall x y, f x y = f' x y) -> forall p1 h1 p2 h2, frefine f n p1 h1 p2 h2 = frefine f' n p1 h1 p2 h2.
Proof.
  intros H. induction n as [|n IH]; intros; cbn [frefine]; [reflexivity|]. cbv zeta. rewrite H. destruct (f' _ _); [|reflexivity].
  destruct (Bltb _ _); [|reflexivity]. destruct (Bltb _ _); apply IH.
Qed.
Lemma cell_loop_eq s fuel : forall n w, c_cell_loop c s fuel n w = fcell_loop m s fuel n w.
Proof.
  induction n as [|n IH]; intros w; cbn [c_cell_loop fcell_loop]; change (c_guard c w) with (fcell_guard m w); destruct (fcell_guard m w) eqn:G; try reflexivity.
  destruct (guard_cells m w G) as [Hc Hr]. cbv zeta. rewrite min_cell_eq, max_cell_eq by assumption. rewrite !interpolate_eq, IH. destruct (fmay_intersect _ _ _ _ _ _); [|reflexivity].
  destruct (finterpolate m _ _); [|reflexivity]. destruct (finterpolate m _ _); [|reflexivity]. rewrite ?IH.
  rewrite (frefine_ext (c_interpolate c) (finterpolate m)) by (intros; apply interpolate_eq). reflexivity.
Qed.
(** The abscissa stored with the first cell does not matter, as long as it is before the end. *)
Lemma mesh_move_abscissa s a a' k r p : finite_segment s -> Beqb (f_d0 s) fzero && Beqb (f_d1 s) fzero = false -> fmesh_move s (FW a k r p) = fmesh_move s (FW a' k r p).
Proof.
  intros FS NV. unfold fmesh_move. cbn [fw_a fw_c fw_r fw_p]. cbv zeta.
  destruct (Beqb (f_d0 s) fzero) eqn:E0; [reflexivity|]. destruct (Beqb (f_d1 s) fzero) eqn:E1; [reflexivity|].
  destruct (Bltb (f_d0 s) fzero && Bleb (f_d0 s) (f_d1 s) && Bleb (f_d0 s) (fopp (f_d1 s))) eqn:Q1; [reflexivity|].
  destruct (Bltb fzero (f_d1 s) && Bleb (f_d0 s) (f_d1 s) && Bleb (fopp (f_d0 s)) (f_d1 s)) eqn:Q2; [reflexivity|].
  destruct (Bltb fzero (f_d0 s) && Bleb (f_d1 s) (f_d0 s) && Bleb (fopp (f_d1 s)) (f_d0 s)) eqn:Q3; [reflexivity|].
  rewrite (orientation s FS E0 E1 Q1 Q2 Q3). reflexivity.
Qed.
Lemma cell_loop_abscissa s fuel n a a' k r p : finite_segment s -> Beqb (f_d0 s) fzero && Beqb (f_d1 s) fzero = false ->
  Bltb a fone = true -> Bltb a' fone = true -> fcell_guard m (FW a k r p) = true -> fcell_loop m s fuel n (FW a k r p) = fcell_loop m s fuel n (FW a' k r p).
Proof.
  intros FS NV A A' G. assert (G' : fcell_guard m (FW a' k r p) = true) by (unfold fcell_guard in *; cbn [fw_a fw_c fw_r] in *; rewrite A'; rewrite A in G; exact G).
  destruct n; cbn [fcell_loop]; rewrite G, G'; [reflexivity|]. cbn [fw_c fw_r fw_p]. cbv zeta. rewrite (mesh_move_abscissa s a a' k r p FS NV). reflexivity.
Qed.
Lemma reset_before_end h i : is_finite h = true -> Z.abs i < 2 ^ 53 ->
  Bltb (if Bleb fone (fsub h (fint i)) then fzero else fsub h (fint i)) fone = true.
Proof.
  intros FH Hi. destruct (fint_exact i Hi) as [_ FI]. pose proof (fsub_not_nan h (fint i) FH FI) as N. destruct (fint_val 1) as [V1 F1]; [lia|]. change (fint 1) with fone in V1, F1.
  destruct (Bleb fone (fsub h (fint i))) eqn:E; [reflexivity|]. apply ltb_val; [exact N|now apply finite_not_nan|].
  destruct (Rlt_or_le (val (fsub h (fint i))) (val fone)) as [L|L]; [exact L|exfalso].
  apply leb_val in L; [congruence|now apply finite_not_nan|exact N].
Qed.
Definition place (q : fvec3) : Prop := (is_finite (fv_row q) = true /\ (Rabs (B2R (fv_row q)) <= reach)%R) /\ (is_finite (fv_col q) = true /\ (Rabs (B2R (fv_col q)) <= reach)%R).
Definition same_place (q p : fvec3) : Prop := B2R (fv_row q) = B2R (fv_row p) /\ B2R (fv_col q) = B2R (fv_col p).
Lemma first_cell_eq (x : b64) (u w : b64) : is_finite x = true -> (Rabs (B2R x) <= reach)%R -> usual_number u -> usual_number w ->
  ~ ((exists k, B2R x = IZR k) /\ (B2R w < B2R u)%R) -> c_first_cell x (fsub w u) = ffirst_cell x (fsub w u).
Proof.
  intros F B U W N. unfold c_first_cell, ffirst_cell. rewrite (ffloor_finite x F). unfold reach in B.
  assert (R : - 2 ^ 31 <= Zfloor (B2R x) < 2 ^ 31).
  { apply Rabs_le_inv in B. split; [apply Zfloor_lub; eapply Rle_trans; [apply (IZR_le (- 2 ^ 31) (-262144)); lia|apply B]|].
    apply lt_IZR. eapply Rle_lt_trans; [apply Zfloor_lb|]. eapply Rle_lt_trans; [apply B|]. apply (IZR_lt 262144). lia. }
  rewrite c_int_some by exact R. destruct (Beqb x (fint (Zfloor (B2R x)))) eqn:E; [|reflexivity]. destruct (Bltb (fsub w u) fzero) eqn:L; [exfalso|reflexivity].
  destruct (fint_exact (Zfloor (B2R x))) as [EF FF]; [lia|]. apply (eqb_finite _ _ FF) in E as [_ E]. rewrite EF in E. apply N. split; [exists (Zfloor (B2R x)); exact E|].
  destruct (usual_sub w u W U) as (FS & ES & _). apply ltb_lt in L; [|exact FS|reflexivity]. change (B2R fzero) with 0%R in L. rewrite ES in L.
  destruct (Rlt_or_le (B2R w) (B2R u)) as [Q|Q]; [exact Q|exfalso]. assert (0 <= B2R w - B2R u)%R as Q' by lra. apply rnd_le in Q'. rewrite rnd_0 in Q'. lra.
Qed.

Lemma vertex_loop_eq los fuel cells p : Forall usual_point los -> Z.of_nat (length los) <= 2 ^ 18 -> place p ->
  (forall i a b, segment_at los i a b -> ~ down_from_a_line a a b /\ ~ down_from_a_line p a b) ->
  forall steps i q h h', is_finite h = true -> is_finite h' = true -> place q -> (same_place q p \/ exists u, nth_error los i = Some u /\ same_place q u) ->
  c_vertex_loop c los fuel cells steps i q h = fvertex_loop m los fuel cells steps (Z.of_nat i) q h'.
Proof.
  intros UP SZ PP HD steps. induction steps as [|steps IH]; intros i q h h' Fh Fh' PQ Hq; cbn [c_vertex_loop fvertex_loop]; cbv zeta.
  { destruct (Nat.ltb_spec i (length los - 1)) as [H|H]; [rewrite (proj2 (Z.ltb_lt _ _)) by lia|rewrite (proj2 (Z.ltb_ge _ _)) by lia]; reflexivity. }
  destruct (Nat.ltb_spec i (length los - 1)) as [H|H]; [rewrite (proj2 (Z.ltb_lt _ _)) by lia|rewrite (proj2 (Z.ltb_ge _ _)) by lia; reflexivity].
  replace (Z.of_nat i + 1) with (Z.of_nat (i + 1)) by lia. rewrite !py_get_nat.
  destruct (nth_error los i) as [u|] eqn:Eu; [|reflexivity]. destruct (nth_error los (i + 1)) as [w|] eqn:Ew; [|reflexivity].
  assert (SEG : segment_at los i u w) by (split; [exact Eu|replace (S i) with (i + 1)%nat by lia; exact Ew]). destruct (HD i u w SEG) as [Du Dp].
  pose proof (proj1 (Forall_forall _ _) UP) as UP'. pose proof (UP' _ (nth_error_In _ _ Eu)) as Pu. pose proof (UP' _ (nth_error_In _ _ Ew)) as Pw.
  assert (Dq : ~ down_from_a_line q u w).
  { destruct Hq as [[Q1 Q2]|(u' & E & Q1 & Q2)]; [|injection E as <-]; unfold down_from_a_line in *; rewrite Q1, Q2; assumption. }
  assert (FIN : finite_segment (fsegment_of u w)).
  { destruct Pu as (U1 & U2 & U3). destruct Pw as (W1 & W2 & W3). unfold finite_segment, fsegment_of. cbn [f_col0 f_row0 f_d0 f_d1].
    split; [apply U1|]. split; [apply U2|]. split; [exact (proj1 (usual_sub _ _ W1 U1))|exact (proj1 (usual_sub _ _ W2 U2))]. }
  assert (PLW : place w) by (destruct Pw as ((F1 & B1 & _) & (F2 & B2 & _) & _); exact (conj (conj F1 B1) (conj F2 B2))).
  destruct (Beqb (f_d0 (fsegment_of u w)) fzero && Beqb (f_d1 (fsegment_of u w)) fzero) eqn:EV.
  - rewrite interpolate_eq. destruct (finterpolate m _ _) as [z|]; [|reflexivity]. destruct (Bleb _ _); [reflexivity|].
    apply IH; try assumption. destruct Hq as [Hq|(u' & E & Q1 & Q2)]; [now left|]. injection E as <-. right. exists w. split; [exact Ew|].
    apply andb_true_iff in EV as [V1 V2]. apply eqb_zero_true in V1, V2. cbn [fsegment_of f_d0 f_d1] in V1, V2.
    destruct Pu as (U1 & U2 & _). destruct Pw as (W1 & W2 & _). apply (usual_sub_zero _ _ W1 U1) in V1. apply (usual_sub_zero _ _ W2 U2) in V2. split; congruence.
  - assert (FC : c_first_cell (fv_row q) (f_d0 (fsegment_of u w)) = ffirst_cell (fv_row q) (f_d0 (fsegment_of u w)) /\
                 c_first_cell (fv_col q) (f_d1 (fsegment_of u w)) = ffirst_cell (fv_col q) (f_d1 (fsegment_of u w))).
    { destruct PQ as [[F1 B1] [F2 B2]]. destruct Pu as (U1 & U2 & _). destruct Pw as (W1 & W2 & _). cbn [fsegment_of f_d0 f_d1].
      split; apply first_cell_eq; try assumption; intros N; apply Dq; [left|right]; exact N. }
    destruct FC as [-> ->]. destruct (ffirst_cell (fv_row q) _) as [c0|]; [|reflexivity]. destruct (ffirst_cell (fv_col q) _) as [c1|]; [|reflexivity].
    assert (I53 : Z.abs (Z.of_nat i) < 2 ^ 53) by lia.
    pose proof (reset_before_end h (Z.of_nat i) Fh I53) as A. pose proof (reset_before_end h' (Z.of_nat i) Fh' I53) as A'.
    set (a := if Bleb fone (fsub h _) then _ else _) in *. set (a' := if Bleb fone (fsub h' _) then _ else _) in *.
    change (c_guard c (FW a c0 c1 q)) with (fcell_guard m (FW a c0 c1 q)).
    assert (EG : fcell_guard m (FW a' c0 c1 q) = fcell_guard m (FW a c0 c1 q)) by (unfold fcell_guard; cbn [fw_a fw_c fw_r]; now rewrite A, A').
    rewrite EG. destruct (fcell_guard m (FW a c0 c1 q)) eqn:G; [|reflexivity]. rewrite cell_loop_eq.
    rewrite (cell_loop_abscissa _ fuel cells a a' c0 c1 q FIN EV A A' G).
    destruct (fcell_loop m (fsegment_of u w) fuel cells (FW a' c0 c1 q)) as [o|e]; [reflexivity|]. destruct (Bleb fone e); [|reflexivity].
    apply IH; [apply fint_exact; lia|apply fint_exact; lia|exact PLW|]. right. exists w. split; [exact Ew|]. split; reflexivity.
Qed.
Lemma intersection_eq los fuel cells steps p h : Forall usual_point los -> Z.of_nat (length los) <= 2 ^ 18 -> place p -> is_finite h = true ->
  (exists n, ffloor h = Some n /\ 0 <= n) -> (forall i a b, segment_at los i a b -> ~ down_from_a_line a a b /\ ~ down_from_a_line p a b) ->
  c_intersection c fuel cells steps los p h = fintersection m fuel cells steps los p h.
Proof.
  intros UP SZ PP FH (n & EN & Hn) HD. unfold c_intersection, fintersection. rewrite interpolate_eq. destruct (finterpolate m _ _); [|reflexivity].
  destruct (Bltb _ _); [reflexivity|]. rewrite EN. destruct (Z.ltb_spec n 0); [lia|]. rewrite <- (Z2Nat.id n Hn) at 2.
  apply (vertex_loop_eq los fuel cells p UP SZ PP HD); try assumption. left. split; reflexivity.
Qed.
End Object.
