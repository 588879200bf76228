(** Convergence of the inverse localization of the grids. *)
From Coq Require Import Reals ZArith List Bool Lra Lia Psatz.
From Verif Require Import Num NumLemmas InterpModel InterpSpec InterpProofs ProjModel ProjSpec RpcModel GridModel GridSpec GridProofs GridNewton RpcConvSpec RpcConv GridConvSpec.
Import ListNotations.
Open Scope R_scope.

Lemma Rabs_bounds x b : Rabs x <= b -> - b <= x <= b.
Proof. unfold Rabs. destruct (Rcase_abs x); lra. Qed.

(** The interpolation along one axis. *)
Definition seg (nb : Z) (W : Z -> R) (x : R) : R :=
  let k := lower_index nb x in W k + (x - IZR k) * (W (k + 1)%Z - W k).

Lemma lower_mono nb x y : (2 <= nb)%Z -> x <= y -> (lower_index nb x <= lower_index nb y)%Z.
Proof.
  intros H L. rewrite <- !clip_lower by assumption. 
  assert (Rfloor x <= Rfloor y)%Z.
  { pose proof (Rfloor_bounds x). pose proof (Rfloor_bounds y). apply Z.lt_succ_r. apply lt_IZR. rewrite succ_IZR. lra. }
  lia.
Qed.
Lemma chain_bound (W : Z -> R) a delta nb k : (0 <= k)%Z -> (forall k, (0 <= k < nb - 1)%Z -> Rabs (W (k + 1)%Z - W k - a) <= delta) ->
  forall m : nat, (k + Z.of_nat m < nb)%Z ->
  Rabs (W (k + Z.of_nat m)%Z - W k - a * INR m) <= delta * INR m.
Proof.
  intros Hk H. induction m as [|m IH]; intros Hm.
  - rewrite Z.add_0_r. cbn [INR]. replace (W k - W k - a * 0) with 0 by ring. rewrite Rabs_R0. lra.
  - pose proof (H (k + Z.of_nat m)%Z ltac:(lia)) as B. specialize (IH ltac:(lia)). rewrite S_INR.
    replace (k + Z.of_nat (S m))%Z with (k + Z.of_nat m + 1)%Z by lia. apply Rabs_bounds in B. apply Rabs_bounds in IH. apply Rabs_le. lra.
Qed.
Lemma seg_lip_le nb (W : Z -> R) a delta x y : (2 <= nb)%Z ->
  (forall k, (0 <= k < nb - 1)%Z -> Rabs (W (k + 1)%Z - W k - a) <= delta) -> x <= y ->
  Rabs (seg nb W y - seg nb W x - a * (y - x)) <= delta * (y - x).
Proof.
  intros Hn H L. unfold seg.
  pose proof (lower_mono nb x y Hn L) as M. pose proof (lower_index_range nb x Hn) as Rx. pose proof (lower_index_range nb y Hn) as Ry.
  pose proof (nearest_lower nb x Hn) as (_ & X1 & X2). pose proof (nearest_lower nb y Hn) as (_ & Y1 & Y2).
  set (k := lower_index nb x) in *. set (l := lower_index nb y) in *.
  destruct (Z.eq_dec k l) as [E|E].
  - rewrite <- E in *. pose proof (H k ltac:(lia)) as B.
    replace (W k + (y - IZR k) * (W (k + 1)%Z - W k) - (W k + (x - IZR k) * (W (k + 1)%Z - W k)) - a * (y - x))
      with ((W (k + 1)%Z - W k - a) * (y - x)) by ring.
    rewrite Rabs_mult, (Rabs_pos_eq (y - x)) by lra. apply Rmult_le_compat_r; lra.
  - destruct X2 as [X2|X2]; [|lia]. destruct Y1 as [Y1|Y1]; [|lia].
    pose proof (H k ltac:(lia)) as Bk. pose proof (H l ltac:(lia)) as Bl.
    pose proof (chain_bound W a delta nb (k + 1) ltac:(lia) H (Z.to_nat (l - (k + 1))) ltac:(lia)) as C.
    replace (k + 1 + Z.of_nat (Z.to_nat (l - (k + 1))))%Z with l in C by lia.
    rewrite INR_IZR_INZ, Z2Nat.id in C by lia. rewrite minus_IZR, plus_IZR in C.
    set (q := W (k + 1)%Z - W k - a) in *. set (q' := W (l + 1)%Z - W l - a) in *. set (z := W l - W (k + 1)%Z - a * (IZR l - (IZR k + 1))) in *.
    replace (W l + (y - IZR l) * (W (l + 1)%Z - W l) - (W k + (x - IZR k) * (W (k + 1)%Z - W k)) - a * (y - x))
      with (z + q' * (y - IZR l) + q * (IZR k + 1 - x)) by (unfold z, q, q'; ring).
    eapply Rle_trans; [apply Rabs_triang|]. eapply Rle_trans; [apply Rplus_le_compat_r, Rabs_triang|].
    rewrite !Rabs_mult, (Rabs_pos_eq (y - IZR l)), (Rabs_pos_eq (IZR k + 1 - x)) by lra.
    assert (Rabs q' * (y - IZR l) <= delta * (y - IZR l)) by (apply Rmult_le_compat_r; lra).
    assert (Rabs q * (IZR k + 1 - x) <= delta * (IZR k + 1 - x)) by (apply Rmult_le_compat_r; lra).
    lra.
Qed.
Lemma seg_lip nb (W : Z -> R) a delta x y : (2 <= nb)%Z ->
  (forall k, (0 <= k < nb - 1)%Z -> Rabs (W (k + 1)%Z - W k - a) <= delta) ->
  Rabs (seg nb W y - seg nb W x - a * (y - x)) <= delta * Rabs (y - x).
Proof.
  intros Hn H. destruct (Rle_dec x y) as [L|L].
  - rewrite (Rabs_pos_eq (y - x)) by lra. now apply seg_lip_le.
  - pose proof (seg_lip_le nb W a delta y x Hn H ltac:(lra)) as B. rewrite (Rabs_left1 (y - x)) by lra.
    rewrite <- Rabs_Ropp. replace (- (seg nb W y - seg nb W x - a * (y - x))) with (seg nb W x - seg nb W y - a * (x - y)) by ring.
    replace (- (y - x)) with (x - y) by ring. exact B.
Qed.

(** A position in the hull of the nodes lies in its cell. *)
Lemma hull_cell nb x : (2 <= nb)%Z -> 0 <= x <= IZR (nb - 1) -> 0 <= x - IZR (lower_index nb x) <= 1.
Proof.
  intros Hn [H1 H2]. pose proof (nearest_lower nb x Hn) as (_ & X1 & X2). set (k := lower_index nb x) in *. rewrite minus_IZR in H2. split.
  - destruct X1 as [X1|X1]; [lra|]. rewrite X1. lra.
  - destruct X2 as [X2|X2]; [lra|]. rewrite X2, minus_IZR. lra.
Qed.

Lemma blend_bound s p q delta : 0 <= s <= 1 -> Rabs p <= delta -> Rabs q <= delta -> Rabs ((1 - s) * p + s * q) <= delta.
Proof. intros Hs Hp Hq. apply Rabs_bounds in Hp. apply Rabs_bounds in Hq. apply Rabs_le. nra. Qed.

Section Grid.
Variable g : grid.
Variable alt : R.
Hypothesis HP : proper_grid g.

(** The value of a cube at a pixel, from its values at the four nodes of the cell. *)
Lemma value_bilin data r c v : good_cube g data -> cube_value g data r c alt v ->
  let pr := grid_pos_row g r in let pc := grid_pos_col g c in
  let i := lower_index (gr_nbrow g) pr in let j := lower_index (gr_nbcol g) pc in
  let N := at_node g data alt in
  v = bilin_value (pc - IZR j) (pr - IZR i) (N i j) (N i (j + 1)%Z) (N (i + 1)%Z j) (N (i + 1)%Z (j + 1)%Z).
Proof.
  intros GC HV. cbv zeta. rewrite (cube_value_layers g data r c alt v HP GC HV).
  rewrite (at_layers_ext g data alt _ (fun m =>
    let i := lower_index (gr_nbrow g) (grid_pos_row g r) in let j := lower_index (gr_nbcol g) (grid_pos_col g c) in
    bilin_value (grid_pos_col g c - IZR j) (grid_pos_row g r - IZR i) (rs_at m i j) (rs_at m i (j + 1)) (rs_at m (i + 1) j) (rs_at m (i + 1) (j + 1))) HP GC).
  - unfold at_node, at_layers, lerp, bilin_value. cbv zeta. ring.
  - intros m Hm. destruct GC as [_ GC]. destruct (GC m Hm) as [R1 C1]. unfold interp. rewrite R1, C1. reflexivity.
Qed.

(** Differences of values of one coordinate over the hull. *)
Lemma value_lip data a b delta r c r' c' v v' : good_cube g data ->
  (forall i j, (0 <= i < gr_nbrow g)%Z -> (0 <= j < gr_nbcol g - 1)%Z -> Rabs (at_node g data alt i (j + 1) - at_node g data alt i j - a) <= delta) ->
  (forall i j, (0 <= i < gr_nbrow g - 1)%Z -> (0 <= j < gr_nbcol g)%Z -> Rabs (at_node g data alt (i + 1) j - at_node g data alt i j - b) <= delta) ->
  inside g r c -> inside g r' c' -> cube_value g data r c alt v -> cube_value g data r' c' alt v' ->
  Rabs (v' - v - (a * ((c' - c) / gr_stepcol g) + b * ((r' - r) / gr_steprow g))) <=
  delta * (Rabs ((c' - c) / gr_stepcol g) + Rabs ((r' - r) / gr_steprow g)).
Proof.
  intros GC Ha Hb [Ir Ic] [Ir' Ic'] HV HV'. pose proof HP as (_ & _ & _ & _ & _ & HR & HC & SR & SC).
  apply value_bilin in HV; [|assumption]. apply value_bilin in HV'; [|assumption]. cbv zeta in HV, HV'.
  fold (grid_pos_row g r) in Ir. fold (grid_pos_row g r') in Ir'. fold (grid_pos_col g c) in Ic. fold (grid_pos_col g c') in Ic'.
  replace ((c' - c) / gr_stepcol g) with (grid_pos_col g c' - grid_pos_col g c) by (unfold grid_pos_col; field; auto).
  replace ((r' - r) / gr_steprow g) with (grid_pos_row g r' - grid_pos_row g r) by (unfold grid_pos_row; field; auto).
  set (x := grid_pos_col g c) in *. set (x' := grid_pos_col g c') in *. set (y := grid_pos_row g r) in *. set (y' := grid_pos_row g r') in *.
  pose proof (hull_cell _ _ HC Ic) as Sc. pose proof (hull_cell _ _ HR Ir') as Sr'.
  pose proof (lower_index_range (gr_nbcol g) x HC) as Rx. pose proof (lower_index_range (gr_nbrow g) y' HR) as Ry'.
  set (N := at_node g data alt) in *.
  set (s := y' - IZR (lower_index (gr_nbrow g) y')) in *. set (t := x - IZR (lower_index (gr_nbcol g) x)) in *.
  set (i := lower_index (gr_nbrow g) y') in *. set (j := lower_index (gr_nbcol g) x) in *.
  set (W := fun k => (1 - s) * N i k + s * N (i + 1)%Z k). set (U := fun k => (1 - t) * N k j + t * N k (j + 1)%Z).
  pose proof (seg_lip (gr_nbcol g) W a delta x x' HC) as B1. pose proof (seg_lip (gr_nbrow g) U b delta y y' HR) as B2.
  assert (E1 : v' = seg (gr_nbcol g) W x') by (rewrite HV'; unfold seg, W, bilin_value; cbv zeta; ring).
  assert (E2 : v = seg (gr_nbrow g) U y) by (rewrite HV; unfold seg, U, bilin_value; cbv zeta; ring).
  assert (E3 : seg (gr_nbcol g) W x = seg (gr_nbrow g) U y') by (unfold seg, W, U; cbv zeta; fold i j s t; ring).
  assert (H1 : forall k, (0 <= k < gr_nbcol g - 1)%Z -> Rabs (W (k + 1)%Z - W k - a) <= delta).
  { intros k Hk. unfold W.
    replace ((1 - s) * N i (k + 1)%Z + s * N (i + 1)%Z (k + 1)%Z - ((1 - s) * N i k + s * N (i + 1)%Z k) - a)
      with ((1 - s) * (N i (k + 1)%Z - N i k - a) + s * (N (i + 1)%Z (k + 1)%Z - N (i + 1)%Z k - a)) by ring.
    apply blend_bound; [exact Sr'|apply Ha; lia|apply Ha; lia]. }
  assert (H2 : forall k, (0 <= k < gr_nbrow g - 1)%Z -> Rabs (U (k + 1)%Z - U k - b) <= delta).
  { intros k Hk. unfold U.
    replace ((1 - t) * N (k + 1)%Z j + t * N (k + 1)%Z (j + 1)%Z - ((1 - t) * N k j + t * N k (j + 1)%Z) - b)
      with ((1 - t) * (N (k + 1)%Z j - N k j - b) + t * (N (k + 1)%Z (j + 1)%Z - N k (j + 1)%Z - b)) by ring.
    apply blend_bound; [exact Sc|apply Hb; lia|apply Hb; lia]. }
  specialize (B1 H1). specialize (B2 H2). rewrite E1, E2. rewrite E3 in B1.
  apply Rabs_bounds in B1. apply Rabs_bounds in B2. apply Rabs_le. lra.
Qed.

Variables a b c d bend density : R.
Hypothesis HB : nearly_regular g alt a b c d bend.
Hypothesis HN : not_flat a b c d density.
Hypothesis HS : 10 * density * bend <= 1.

Lemma node_ground i j : (0 <= i < gr_nbrow g)%Z -> (0 <= j < gr_nbcol g)%Z ->
  grid_ground g (node_row g i) (node_col g j) alt (at_node g (gr_lon g) alt i j) (at_node g (gr_lat g) alt i j).
Proof.
  intros Hi Hj. destruct (grid_ground_exists g (node_row g i) (node_col g j) alt HP) as (lon & lat & G). pose proof G as [G1 G2].
  apply node_value in G1; auto using proper_lon. apply node_value in G2; auto using proper_lat. now rewrite <- G1, <- G2.
Qed.
Lemma edge_col i j : (0 <= i < gr_nbrow g)%Z -> (0 <= j < gr_nbcol g - 1)%Z ->
  Rabs (at_node g (gr_lon g) alt i (j + 1) - at_node g (gr_lon g) alt i j - a) <= bend /\
  Rabs (at_node g (gr_lat g) alt i (j + 1) - at_node g (gr_lat g) alt i j - c) <= bend.
Proof.
  intros Hi Hj. destruct (HB i j _ _ (at_node g (gr_lon g) alt i (j + 1)) (at_node g (gr_lat g) alt i (j + 1)) Hi ltac:(lia) (node_ground i j Hi ltac:(lia))) as [H _].
  specialize (H ltac:(lia) (node_ground i (j + 1) Hi ltac:(lia))).
  split; [eapply Rle_trans; [apply size_l|exact H]|eapply Rle_trans; [apply size_r|exact H]].
Qed.
Lemma edge_row i j : (0 <= i < gr_nbrow g - 1)%Z -> (0 <= j < gr_nbcol g)%Z ->
  Rabs (at_node g (gr_lon g) alt (i + 1) j - at_node g (gr_lon g) alt i j - b) <= bend /\
  Rabs (at_node g (gr_lat g) alt (i + 1) j - at_node g (gr_lat g) alt i j - d) <= bend.
Proof.
  intros Hi Hj. destruct (HB i j _ _ (at_node g (gr_lon g) alt (i + 1) j) (at_node g (gr_lat g) alt (i + 1) j) ltac:(lia) Hj (node_ground i j ltac:(lia) Hj)) as [_ H].
  specialize (H ltac:(lia) (node_ground (i + 1) j ltac:(lia) Hj)).
  split; [eapply Rle_trans; [apply size_l|exact H]|eapply Rle_trans; [apply size_r|exact H]].
Qed.
Lemma bend_pos : 0 <= bend.
Proof.
  pose proof HP as (_ & _ & _ & _ & _ & HR & HC & SR & SC). destruct (edge_col 0 0 ltac:(lia) ltac:(lia)) as [H _].
  eapply Rle_trans; [apply Rabs_pos|exact H].
Qed.
Lemma density_pos : 0 <= density.
Proof.
  destruct (Rle_dec 0 density) as [L|L]; [exact L|exfalso]. specialize (HN 1 0). pose proof (size_l 1 0) as S1. rewrite Rabs_R1 in S1.
  pose proof (size_pos (a * 1 + b * 0) (c * 1 + d * 0)). nra.
Qed.

(** The ground displacement between two pixels of the hull is nearly the one of the mesh. *)
Lemma ground_lip r q r' q' lon lat lon' lat' : inside g r q -> inside g r' q' -> grid_ground g r q alt lon lat -> grid_ground g r' q' alt lon' lat' ->
  let u := (q' - q) / gr_stepcol g in let v := (r' - r) / gr_steprow g in
  Rabs (lon' - lon - (a * u + b * v)) <= 2 * bend * size u v /\ Rabs (lat' - lat - (c * u + d * v)) <= 2 * bend * size u v.
Proof.
  intros I I' [G1 G2] [G1' G2'] u v. pose proof bend_pos as BP. pose proof (size_l u v) as S1. pose proof (size_r u v) as S2.
  assert (B : bend * (Rabs u + Rabs v) <= 2 * bend * size u v) by nra.
  split; (eapply Rle_trans; [|exact B]).
  - apply (value_lip (gr_lon g) a b bend r q r' q' lon lon'); auto using proper_lon; intros i j Hi Hj; [now apply edge_col|now apply edge_row].
  - apply (value_lip (gr_lat g) c d bend r q r' q' lat lat'); auto using proper_lat; intros i j Hi Hj; [now apply edge_col|now apply edge_row].
Qed.

(** A displacement is bounded by any ground displacement that is nearly the one of the mesh. *)
Lemma displacement u v x y : Rabs (x - (a * u + b * v)) <= 2 * bend * size u v -> Rabs (y - (c * u + d * v)) <= 2 * bend * size u v ->
  size u v <= 5 / 4 * density * size x y.
Proof.
  intros Hx Hy. pose proof density_pos as DP. pose proof bend_pos as BP. pose proof (size_pos u v) as SP. pose proof (HN u v) as H.
  assert (L : size (a * u + b * v) (c * u + d * v) <= size x y + 2 * bend * size u v).
  { pose proof (size_l x y) as S1. pose proof (size_r x y) as S2. apply size_le.
    - replace (a * u + b * v) with (x + - (x - (a * u + b * v))) by ring. eapply Rle_trans; [apply Rabs_triang|]. rewrite Rabs_Ropp. lra.
    - replace (c * u + d * v) with (y + - (y - (c * u + d * v))) by ring. eapply Rle_trans; [apply Rabs_triang|]. rewrite Rabs_Ropp. lra. }
  assert (L2 : density * size (a * u + b * v) (c * u + d * v) <= density * (size x y + 2 * bend * size u v)) by (now apply Rmult_le_compat_l).
  assert (L3 : 10 * density * bend * size u v <= 1 * size u v) by (apply Rmult_le_compat_r; lra).
  lra.
Qed.
(** Two edges of a cell are nearly those of the mesh. *)
Lemma edge_bound x y p q u v : Rabs (x - p) <= bend -> Rabs (y - q) <= bend ->
  Rabs (x * u + y * v - (p * u + q * v)) <= 2 * bend * size u v.
Proof.
  intros Hx Hy. replace (x * u + y * v - (p * u + q * v)) with ((x - p) * u + (y - q) * v) by ring.
  eapply Rle_trans; [apply Rabs_triang|]. rewrite !Rabs_mult.
  assert (Rabs (x - p) * Rabs u <= bend * size u v) by (apply Rmult_le_compat; auto using Rabs_pos, size_l).
  assert (Rabs (y - q) * Rabs v <= bend * size u v) by (apply Rmult_le_compat; auto using Rabs_pos, size_r).
  lra.
Qed.
Lemma matrix_exists r q : exists M, inverse_partial_derivative g r q alt = Some (Some M).
Proof.
  pose proof HP as (_ & _ & _ & _ & _ & HR & HC & SR & SC).
  rewrite inverse_partial_derivative_eq by exact HP. unfold cell_matrix.
  pose proof (lower_index_range (gr_nbrow g) (grid_pos_row g r) HR) as RI. pose proof (lower_index_range (gr_nbcol g) (grid_pos_col g q) HC) as RJ.
  set (i := lower_index (gr_nbrow g) (grid_pos_row g r)) in *. set (j := lower_index (gr_nbcol g) (grid_pos_col g q)) in *.
  destruct (edge_col i j ltac:(lia) ltac:(lia)) as [C1 C2]. destruct (edge_row i j ltac:(lia) ltac:(lia)) as [R1 R2].
  set (la := at_node g (gr_lon g) alt i (j + 1) - at_node g (gr_lon g) alt i j) in *.
  set (pa := at_node g (gr_lat g) alt i (j + 1) - at_node g (gr_lat g) alt i j) in *.
  set (lb := at_node g (gr_lon g) alt (i + 1) j - at_node g (gr_lon g) alt i j) in *.
  set (pb := at_node g (gr_lat g) alt (i + 1) j - at_node g (gr_lat g) alt i j) in *.
  assert (D : la * pb - lb * pa <> 0).
  { apply (conditioned_det la lb pa pb (5 / 4 * density)). intros u v. apply displacement; now apply edge_bound. }
  match goal with |- context [Req_EM_T ?x 0] => destruct (Req_EM_T x 0) as [Z|Z] end; [exfalso|eauto].
  apply D. unfold microrad in Z.
  assert (K : PI / 180 * 1000000 <> 0) by (pose proof PI_RGT_0; lra).
  set (k := PI / 180 * 1000000) in *.
  assert (E : k * k * (la * pb - lb * pa) / (gr_stepcol g * gr_steprow g) = 0) by (rewrite <- Z; unfold k; field; auto).
  assert (E2 : k * k * (la * pb - lb * pa) = 0) by (replace (k * k * (la * pb - lb * pa)) with (k * k * (la * pb - lb * pa) / (gr_stepcol g * gr_steprow g) * (gr_stepcol g * gr_steprow g)) by (field; auto); rewrite E; ring).
  apply Rmult_integral in E2. destruct E2 as [E2|E2]; [|exact E2]. apply Rmult_integral in E2. tauto.
Qed.

(** One correction brings the pixel closer. *)
Lemma contract row col lon lat p p' : inside g row col -> grid_ground g row col alt lon lat -> inside g (fst p) (snd p) ->
  newton_correction g lon lat alt p p' ->
  apart g (fst p') (snd p') row col <= 5 * density * bend * apart g (fst p) (snd p) row col.
Proof.
  intros I0 G0 I (i & j & lon' & lat' & l00 & b00 & l01 & b01 & l10 & b10 & (Hi & _) & (Hj & _) & G & _ & G00 & G01 & G10 & E1 & E2).
  pose proof HP as (_ & _ & _ & _ & _ & HR & HC & SR & SC). unfold apart.
  destruct (HB i j l00 b00 l01 b01 ltac:(lia) ltac:(lia) G00) as [HE _]. specialize (HE ltac:(lia) G01).
  destruct (HB i j l00 b00 l10 b10 ltac:(lia) ltac:(lia) G00) as [_ HF]. specialize (HF ltac:(lia) G10).
  destruct (ground_lip _ _ _ _ _ _ _ _ I0 I G0 G) as [L1 L2].
  set (u := (snd p - col) / gr_stepcol g) in *. set (v := (fst p - row) / gr_steprow g) in *.
  set (u' := (snd p' - col) / gr_stepcol g). set (v' := (fst p' - row) / gr_steprow g).
  replace ((snd p - snd p') / gr_stepcol g) with (u - u') in * by (unfold u, u'; field; auto).
  replace ((fst p - fst p') / gr_steprow g) with (v - v') in * by (unfold v, v'; field; auto).
  pose proof (Rle_trans _ _ _ (size_l _ _) HE) as A1. pose proof (Rle_trans _ _ _ (size_r _ _) HE) as A2.
  pose proof (Rle_trans _ _ _ (size_l _ _) HF) as A3. pose proof (Rle_trans _ _ _ (size_r _ _) HF) as A4.
  set (x := (l01 - l00) * u' + (l10 - l00) * v'). set (y := (b01 - b00) * u' + (b10 - b00) * v').
  pose proof (displacement u' v' x y (edge_bound _ _ _ _ u' v' A1 A3) (edge_bound _ _ _ _ u' v' A2 A4)) as D.
  pose proof (edge_bound _ _ _ _ u v A1 A3) as B1. pose proof (edge_bound _ _ _ _ u v A2 A4) as B2.
  assert (X : size x y <= 4 * bend * size u v).
  { apply Rabs_bounds in L1. apply Rabs_bounds in L2. apply Rabs_bounds in B1. apply Rabs_bounds in B2.
    apply size_le; apply Rabs_le; unfold x, y; lra. }
  assert (5 / 4 * density * size x y <= 5 / 4 * density * (4 * bend * size u v)) by (apply Rmult_le_compat_l; [pose proof density_pos; lra|exact X]).
  lra.
Qed.

(** A pixel whose ground error is below the tolerance is close. *)
Lemma millimetre_close row col lon lat r q lon' lat' : inside g row col -> inside g r q -> grid_ground g row col alt lon lat ->
  grid_ground g r q alt lon' lat' -> Rabs lat < 90 -> square_error lon lat lon' lat' <= tol_m2 ->
  apart g r q row col <= 5 / 4 * density * (millimetre / cos (lat * PI / 180)).
Proof.
  intros I0 I G0 G HL HE. destruct (ground_lip _ _ _ _ _ _ _ _ I0 I G0 G) as [L1 L2]. 
  pose proof (displacement _ _ _ _ L1 L2) as D. unfold apart. eapply Rle_trans; [exact D|].
  apply Rmult_le_compat_l; [pose proof density_pos; lra|].
  pose proof PI_RGT_0 as PP. 
  assert (C : 0 < cos (lat * PI / 180)).
  { apply Rabs_def2 in HL. apply cos_gt_0; nra. }
  pose proof (COS_bound (lat * PI / 180)) as [_ C1].
  set (k := cos (lat * PI / 180)) in *. unfold square_error, tol_m2 in HE. fold k in HE.
  set (x := 6378 * microrad (lat' - lat)). set (y := 6378 * (microrad (lon' - lon) * k)).
  assert (HX : x * x + y * y <= 1) by (unfold x, y; lra).
  assert (AX : Rabs x <= 1) by (apply Rabs_le; nra). assert (AY : Rabs y <= 1) by (apply Rabs_le; nra).
  assert (MP : 0 < millimetre) by (unfold millimetre; apply Rdiv_lt_0_compat; lra).
  assert (E1 : lat' - lat = x * millimetre) by (unfold x, millimetre, microrad; field; lra).
  assert (E2 : lon' - lon = y * (millimetre / k)) by (unfold y, millimetre, microrad; field; lra).
  assert (MK : millimetre <= millimetre / k).
  { unfold Rdiv. rewrite <- (Rmult_1_r millimetre) at 1. apply Rmult_le_compat_l; [lra|]. rewrite <- Rinv_1. apply Rinv_le_contravar; lra. }
  apply size_le.
  - rewrite E2, Rabs_mult, (Rabs_pos_eq (millimetre / k)) by lra. rewrite <- (Rmult_1_l (millimetre / k)) at 2. apply Rmult_le_compat_r; lra.
  - rewrite E1, Rabs_mult, (Rabs_pos_eq millimetre) by lra. eapply Rle_trans; [|exact MK]. rewrite <- (Rmult_1_l millimetre) at 2. apply Rmult_le_compat_r; lra.
Qed.

(** Two pixels of the hull with the same ground position are the same. *)
Lemma one_pixel r q r' q' lon lat : inside g r q -> inside g r' q' -> grid_ground g r q alt lon lat -> grid_ground g r' q' alt lon lat -> r' = r /\ q' = q.
Proof.
  intros I I' G G'. pose proof HP as (_ & _ & _ & _ & _ & HR & HC & SR & SC). destruct (ground_lip _ _ _ _ _ _ _ _ I I' G G') as [L1 L2].
  pose proof (displacement _ _ _ _ L1 L2) as D. replace (lon - lon) with 0 in D by ring. replace (lat - lat) with 0 in D by ring. rewrite size_0 in D.
  destruct (size_zero ((q' - q) / gr_stepcol g) ((r' - r) / gr_steprow g)) as [E1 E2]; [lra|].
  assert (Q : forall t w, w <> 0 -> t / w = 0 -> t = 0) by (intros t w Hw E; replace t with (t / w * w) by (field; exact Hw); rewrite E; ring).
  apply Q in E1; auto. apply Q in E2; auto. split; lra.
Qed.
End Grid.
