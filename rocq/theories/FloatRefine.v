(** Proofs about the binary64 model of the DTM intersection: the end of the refinement inside of a cell. *)
From Coq Require Import ZArith Reals Bool List Lia Lra Psatz.
From Flocq Require Import Core BinarySingleNaN.
From Verif Require Import Num NumLemmas InterpModel InterpProofs GridConv FloatModel FloatInterpModel Float FloatErr FloatInterp FloatWalkModel FloatWalkSpec FloatWalk.
Open Scope R_scope.

(** ** The surface *)
(** Along one axis. *)
Definition line1 (nb : Z) (g : Z -> R) (x : R) : R :=
  let l := lower_index nb x in (1 - (x - IZR l)) * g l + (x - IZR l) * g (l + 1)%Z.
Lemma lower_sides nb x : (2 <= nb)%Z ->
  ((0 < lower_index nb x)%Z -> IZR (lower_index nb x) <= x) /\ ((lower_index nb x < nb - 2)%Z -> x <= IZR (lower_index nb x) + 1).
Proof.
  intros N. unfold lower_index. destruct (Rltb x 0) eqn:E1.
  - apply Rltb_true in E1. split; intros; [lia|]. change (IZR 0) with 0. lra.
  - apply Rltb_false in E1. destruct (Rleb (IZR (nb - 1)) x) eqn:E2.
    + apply Rleb_true in E2. split; intros; [|lia]. apply Rle_trans with (IZR (nb - 1)); [apply IZR_le; lia|exact E2].
    + destruct (Rfloor_bounds x). split; intros; lra.
Qed.
Lemma steps_bound (g : Z -> R) K l : forall n, (forall i, (l <= i < l + Z.of_nat n)%Z -> Rabs (g (i + 1)%Z - g i) <= K) ->
  Rabs (g (l + Z.of_nat n)%Z - g l) <= K * IZR (Z.of_nat n).
Proof.
  induction n as [|n IH]; intros H.
  - replace (l + Z.of_nat 0)%Z with l by lia. rewrite Rminus_eq_0, Rabs_R0. cbn. lra.
  - replace (g (l + Z.of_nat (S n))%Z - g l) with ((g ((l + Z.of_nat n) + 1)%Z - g (l + Z.of_nat n)%Z) + (g (l + Z.of_nat n)%Z - g l)).
    + eapply Rle_trans; [apply Rabs_triang|]. rewrite Nat2Z.inj_succ, succ_IZR.
      assert (A : Rabs (g (l + Z.of_nat n + 1)%Z - g (l + Z.of_nat n)%Z) <= K) by (apply H; lia).
      assert (B := IH ltac:(intros i Hi; apply H; lia)). lra.
    + replace (l + Z.of_nat (S n))%Z with (l + Z.of_nat n + 1)%Z by lia. ring.
Qed.
Lemma line1_lipschitz nb g K x y : (2 <= nb)%Z -> (forall i, (0 <= i < nb - 1)%Z -> Rabs (g (i + 1)%Z - g i) <= K) ->
  Rabs (line1 nb g x - line1 nb g y) <= K * Rabs (x - y).
Proof.
  intros N H.
  assert (W : forall x y, x <= y -> Rabs (line1 nb g x - line1 nb g y) <= K * Rabs (x - y)).
  { clear x y. intros x y L. rewrite (Rabs_left1 (x - y)) by lra.
    pose proof (lower_index_range nb x N) as RX. pose proof (lower_index_range nb y N) as RY.
    pose proof (lower_mono nb x y N L) as LM. destruct (lower_sides nb x N) as [_ SX]. destruct (lower_sides nb y N) as [SY _].
    unfold line1. set (i := lower_index nb x) in *. set (j := lower_index nb y) in *.
    assert (K0 : 0 <= K) by (eapply Rle_trans; [apply Rabs_pos|apply (H 0%Z); lia]).
    destruct (Z.eq_dec i j) as [E|E].
    - rewrite <- E. replace ((1 - (x - IZR i)) * g i + (x - IZR i) * g (i + 1)%Z - ((1 - (y - IZR i)) * g i + (y - IZR i) * g (i + 1)%Z)) with ((x - y) * (g (i + 1)%Z - g i)) by ring.
      rewrite Rabs_mult, (Rabs_left1 (x - y)) by lra. rewrite (Rmult_comm K). apply Rmult_le_compat_l; [lra|]. apply H; lia.
    - assert (X1 : x <= IZR i + 1) by (apply SX; lia). assert (Y1 : IZR j <= y) by (apply SY; lia).
      replace ((1 - (x - IZR i)) * g i + (x - IZR i) * g (i + 1)%Z - ((1 - (y - IZR j)) * g j + (y - IZR j) * g (j + 1)%Z))
        with (- ((IZR i + 1 - x) * (g (i + 1)%Z - g i) + ((y - IZR j) * (g (j + 1)%Z - g j) + (g j - g (i + 1)%Z)))) by ring.
      rewrite Rabs_Ropp. eapply Rle_trans; [apply Rabs_triang|]. eapply Rle_trans; [apply Rplus_le_compat_l; apply Rabs_triang|].
      rewrite !Rabs_mult, (Rabs_pos_eq (IZR i + 1 - x)), (Rabs_pos_eq (y - IZR j)) by lra.
      assert (A : (IZR i + 1 - x) * Rabs (g (i + 1)%Z - g i) <= (IZR i + 1 - x) * K) by (apply Rmult_le_compat_l; [lra|apply H; lia]).
      assert (B : (y - IZR j) * Rabs (g (j + 1)%Z - g j) <= (y - IZR j) * K) by (apply Rmult_le_compat_l; [lra|apply H; lia]).
      assert (C : Rabs (g j - g (i + 1)%Z) <= K * (IZR j - IZR i - 1)).
      { pose proof (steps_bound g K (i + 1) (Z.to_nat (j - i - 1))) as S. rewrite Z2Nat.id in S by lia.
        replace (i + 1 + (j - i - 1))%Z with j in S by lia. replace (IZR j - IZR i - 1) with (IZR (j - i - 1)) by (rewrite !minus_IZR; lra).
        apply S. intros k Hk. apply H. lia. }
      lra. }
  destruct (Rle_lt_dec x y) as [L|L]; [now apply W|]. rewrite Rabs_minus_sym, (Rabs_minus_sym x y). apply W. lra.
Qed.

Definition surf (m : fraster) (r c : R) : R :=
  let lr := lower_index (fr_rows m) r in let lc := lower_index (fr_cols m) c in
  bilin_value (c - IZR lc) (r - IZR lr) (B2R (fr_at m lr lc)) (B2R (fr_at m lr (lc + 1))) (B2R (fr_at m (lr + 1) lc)) (B2R (fr_at m (lr + 1) (lc + 1))).
Lemma shift_range nb x : (2 <= nb)%Z -> -1 <= x <= IZR nb -> -1 <= x - IZR (lower_index nb x) <= 2.
Proof.
  intros N [A B]. pose proof (lower_index_range nb x N) as RX. destruct (lower_sides nb x N) as [S1 S2]. set (l := lower_index nb x) in *. split.
  - destruct (Z.eq_dec l 0) as [->|E]; [change (IZR 0) with 0; lra|]. assert (IZR l <= x) by (apply S1; lia). lra.
  - destruct (Z.eq_dec l (nb - 2)) as [->|E]; [rewrite minus_IZR; lra|]. assert (x <= IZR l + 1) by (apply S2; lia). lra.
Qed.
Lemma abs_le a b : - b <= a <= b -> Rabs a <= b. Proof. intros. now apply Rabs_le. Qed.
Lemma abs_inv a b : Rabs a <= b -> - b <= a <= b. Proof. apply Rabs_le_inv. Qed.
Lemma mix_diff t a b c d K : -1 <= t <= 2 -> Rabs (b - a) <= K -> Rabs (d - c) <= K -> Rabs (((1 - t) * b + t * d) - ((1 - t) * a + t * c)) <= 3 * K.
Proof.
  intros T A B. replace ((1 - t) * b + t * d - ((1 - t) * a + t * c)) with ((1 - t) * (b - a) + t * (d - c)) by ring.
  eapply Rle_trans; [apply Rabs_triang|]. rewrite !Rabs_mult.
  pose proof (Rabs_pos (b - a)). pose proof (Rabs_pos (d - c)).
  assert (T1 : Rabs (1 - t) + Rabs t <= 3) by (unfold Rabs; destruct (Rcase_abs (1 - t)), (Rcase_abs t); lra).
  pose proof (Rabs_pos (1 - t)). pose proof (Rabs_pos t).
  assert (Rabs (1 - t) * Rabs (b - a) <= Rabs (1 - t) * K) by (apply Rmult_le_compat_l; lra).
  assert (Rabs t * Rabs (d - c) <= Rabs t * K) by (apply Rmult_le_compat_l; lra).
  assert ((Rabs (1 - t) + Rabs t) * K <= 3 * K) by (apply Rmult_le_compat_r; lra). lra.
Qed.
Lemma mix_bound t a c K : -1 <= t <= 2 -> Rabs a <= K -> Rabs c <= K -> Rabs ((1 - t) * a + t * c) <= 3 * K.
Proof.
  intros T A B. pose proof (mix_diff t 0 a 0 c K T) as H. replace ((1 - t) * a + t * c) with ((1 - t) * a + t * c - ((1 - t) * 0 + t * 0)) by ring.
  apply H; now rewrite Rminus_0_r.
Qed.
Definition slope : R := 6 * top.
Section Surface.
  Variable m : fraster.
  Hypothesis U : usual_terrain m.
  Let alt_bound r c : (0 <= r < fr_rows m)%Z -> (0 <= c < fr_cols m)%Z -> Rabs (B2R (fr_at m r c)) <= top.
  Proof. intros A B. now apply U. Qed.
  Let diff_bound a b : Rabs a <= top -> Rabs b <= top -> Rabs (a - b) <= 2 * top.
  Proof. intros A B. eapply Rle_trans; [apply Rabs_triang|]. rewrite Rabs_Ropp. lra. Qed.
  Lemma surf_lipschitz r c r' c' :
    -1 <= r <= IZR (fr_rows m) -> -1 <= c <= IZR (fr_cols m) -> -1 <= r' <= IZR (fr_rows m) -> -1 <= c' <= IZR (fr_cols m) ->
    Rabs (surf m r c - surf m r' c') <= slope * (Rabs (r - r') + Rabs (c - c')).
  Proof.
    intros HR HC HR' HC'. destruct U as ((R1 & _) & (C1 & _) & _).
    pose proof (shift_range _ _ R1 HR) as TR. pose proof (shift_range _ _ C1 HC') as TC.
    pose proof (lower_index_range (fr_rows m) r R1) as LR. pose proof (lower_index_range (fr_cols m) c' C1) as LC.
    replace (surf m r c - surf m r' c') with ((surf m r c - surf m r c') + (surf m r c' - surf m r' c')) by ring.
    eapply Rle_trans; [apply Rabs_triang|].
    assert (A : Rabs (surf m r c - surf m r c') <= slope * Rabs (c - c')).
    { set (lr := lower_index (fr_rows m) r) in *. set (g := fun j => (1 - (r - IZR lr)) * B2R (fr_at m lr j) + (r - IZR lr) * B2R (fr_at m (lr + 1) j)).
      replace (surf m r c) with (line1 (fr_cols m) g c) by (unfold line1, surf, g, bilin_value; fold lr; ring).
      replace (surf m r c') with (line1 (fr_cols m) g c') by (unfold line1, surf, g, bilin_value; fold lr; ring).
      apply line1_lipschitz; [exact C1|]. intros i Hi. unfold g, slope. replace (6 * top) with (3 * (2 * top)) by ring.
      apply mix_diff; [exact TR| |]; apply diff_bound; apply alt_bound; lia. }
    assert (B : Rabs (surf m r c' - surf m r' c') <= slope * Rabs (r - r')).
    { set (lc := lower_index (fr_cols m) c') in *. set (g := fun i => (1 - (c' - IZR lc)) * B2R (fr_at m i lc) + (c' - IZR lc) * B2R (fr_at m i (lc + 1))).
      replace (surf m r c') with (line1 (fr_rows m) g r) by (unfold line1, surf, g, bilin_value; fold lc; ring).
      replace (surf m r' c') with (line1 (fr_rows m) g r') by (unfold line1, surf, g, bilin_value; fold lc; ring).
      apply line1_lipschitz; [exact R1|]. intros i Hi. unfold g, slope. replace (6 * top) with (3 * (2 * top)) by ring.
      apply mix_diff; [exact TC| |]; apply diff_bound; apply alt_bound; lia. }
    lra.
  Qed.
  Lemma surf_bound r c : -1 <= r <= IZR (fr_rows m) -> -1 <= c <= IZR (fr_cols m) -> Rabs (surf m r c) <= 9 * top.
  Proof.
    intros HR HC. destruct U as ((R1 & _) & (C1 & _) & _).
    pose proof (shift_range _ _ R1 HR) as TR. pose proof (shift_range _ _ C1 HC) as TC.
    pose proof (lower_index_range (fr_rows m) r R1) as LR. pose proof (lower_index_range (fr_cols m) c C1) as LC.
    unfold surf, bilin_value. set (lr := lower_index (fr_rows m) r) in *. set (lc := lower_index (fr_cols m) c) in *.
    set (s := c - IZR lc) in *. set (t := r - IZR lr) in *.
    replace (_ + _) with ((1 - s) * ((1 - t) * B2R (fr_at m lr lc) + t * B2R (fr_at m (lr + 1) lc)) + s * ((1 - t) * B2R (fr_at m lr (lc + 1)) + t * B2R (fr_at m (lr + 1) (lc + 1)))) by ring.
    replace (9 * top) with (3 * (3 * top)) by ring. apply mix_bound; [exact TC| |]; (apply mix_bound; [exact TR| |]; apply alt_bound; lia).
  Qed.
End Surface.

(** ** The interpolation in binary64 *)
Lemma ulp1_num : 0 < ulp1 <= 1111 / 10000000000000000000.
Proof. split; [apply ulp1_pos|]. rewrite ulp1_val. change (IZR (2 ^ 53)) with 9007199254740992. apply Rmult_le_reg_l with 9007199254740992; [lra|]. rewrite Rinv_r by lra. lra. Qed.
Lemma tiny_num : 0 < tiny <= / 1000000000000000000000.
Proof. pose proof tiny_pos. pose proof tiny_small. pose proof ulp1_num. lra. Qed.
Lemma huge_num : 1000000000 <= huge.
Proof. apply Rle_trans with (bpow radix2 30); [cbn; lra|]. unfold huge. apply bpow_le. lia. Qed.

Lemma two_abs x : -1 <= x <= 2 -> Rabs x <= 2. Proof. intros. apply Rabs_le. lra. Qed.
Lemma fbilin_near_out (s t v00 v01 v10 v11 : b64) S T :
  near s S (3 * ulp1) -> near t T (3 * ulp1) -> -1 <= S <= 2 -> -1 <= T <= 2 ->
  is_finite v00 = true -> is_finite v01 = true -> is_finite v10 = true -> is_finite v11 = true ->
  Rabs (B2R v00) <= top -> Rabs (B2R v01) <= top -> Rabs (B2R v10) <= top -> Rabs (B2R v11) <= top ->
  near (fbilin s t v00 v01 v10 v11) (bilin_value S T (B2R v00) (B2R v01) (B2R v10) (B2R v11)) (/ 1000000000).
Proof.
  intros Ns Nt HS HT F00 F01 F10 F11 B00 B01 B10 B11. unfold top in *.
  destruct ulp1_num as [U0 U1]. destruct tiny_num as [T0 T1]. pose proof huge_num as HG.
  destruct (fint_exact 1) as [O1 O2]; [lia|].
  assert (N1 : near (fint 1) 1 0) by (split; [exact O2|rewrite O1; replace (1 - 1) with 0 by ring; rewrite Rabs_R0; lra]).
  set (e := / 1000000000000000).
  assert (Ee : e = / 1000000000000000) by reflexivity.
  assert (NS : near (fsub (fint 1) s) (1 - S) e).
  { apply (near_sub _ _ _ _ 0 (3 * ulp1) 2); [exact N1|exact Ns|apply two_abs; lra| |]; nra. }
  assert (NT : near (fsub (fint 1) t) (1 - T) e).
  { apply (near_sub _ _ _ _ 0 (3 * ulp1) 2); [exact N1|exact Nt|apply two_abs; lra| |]; nra. }
  assert (Ns' : near s S e) by (eapply near_weaken; [exact Ns|lra]).
  assert (Nt' : near t T e) by (eapply near_weaken; [exact Nt|lra]).
  assert (W : forall x y a b, near x a e -> near y b e -> -1 <= a <= 2 -> -1 <= b <= 2 -> near (fmul x y) (a * b) (5 * e)).
  { intros x y a b Hx Hy Ha Hb. apply (near_mul x y a b e e 2 2 4 (401 / 100 * e)); [exact Hx|exact Hy|now apply two_abs|now apply two_abs|lra| | |]; rewrite Ee; lra. }
  assert (P4 : forall a b, -1 <= a <= 2 -> -1 <= b <= 2 -> Rabs (a * b) <= 4).
  { intros a b Ha Hb. rewrite Rabs_mult. replace 4 with (2 * 2) by ring. apply Rmult_le_compat; try apply Rabs_pos; now apply two_abs. }
  assert (P : forall w v a, near w a (5 * e) -> Rabs a <= 4 -> is_finite v = true -> Rabs (B2R v) <= 16384 -> near (fmul w v) (a * B2R v) (/ 10000000000)).
  { intros w v a Hw Ha Fv Bv.
    apply (near_mul w v a (B2R v) (5 * e) 0 4 16384 65536 (81921 * e)); [exact Hw|now apply near_exact|exact Ha|exact Bv|lra|lra| |]; rewrite Ee; lra. }
  assert (S1 : -1 <= 1 - S <= 2) by lra. assert (T1' : -1 <= 1 - T <= 2) by lra.
  pose proof (P _ v00 _ (W _ _ _ _ NS NT S1 T1') (P4 _ _ S1 T1') F00 B00) as P00.
  pose proof (P _ v01 _ (W _ _ _ _ Ns' NT HS T1') (P4 _ _ HS T1') F01 B01) as P01.
  pose proof (P _ v10 _ (W _ _ _ _ NS Nt' S1 HT) (P4 _ _ S1 HT) F10 B10) as P10.
  pose proof (P _ v11 _ (W _ _ _ _ Ns' Nt' HS HT) (P4 _ _ HS HT) F11 B11) as P11.
  assert (BD : forall a v, Rabs a <= 4 -> Rabs v <= 16384 -> Rabs (a * v) <= 65536).
  { intros a v Ha Hv. rewrite Rabs_mult. replace 65536 with (4 * 16384) by ring. apply Rmult_le_compat; [apply Rabs_pos|apply Rabs_pos|exact Ha|exact Hv]. }
  pose proof (BD _ _ (P4 _ _ S1 T1') B00) as D00. pose proof (BD _ _ (P4 _ _ HS T1') B01) as D01.
  pose proof (BD _ _ (P4 _ _ S1 HT) B10) as D10. pose proof (BD _ _ (P4 _ _ HS HT) B11) as D11.
  unfold fbilin, bilin_value.
  assert (TR : forall a b x y, Rabs a <= x -> Rabs b <= y -> Rabs (a + b) <= x + y) by (intros; eapply Rle_trans; [apply Rabs_triang|lra]).
  pose proof (TR _ _ _ _ D00 D01) as E2. pose proof (TR _ _ _ _ E2 D10) as E3. pose proof (TR _ _ _ _ E3 D11) as E4.
  eapply (near_add _ _ _ _ (4 / 10000000000) _ _); [|exact P11|exact E4|lra|lra].
  eapply (near_add _ _ _ _ (25 / 100000000000) _ _); [|exact P10|exact E3|lra|lra].
  eapply (near_add _ _ _ _ _ _ _); [exact P00|exact P01|exact E2|lra|lra].
Qed.
Lemma shift_near nb (d : b64) : is_finite d = true -> (2 <= nb <= 2 ^ 18)%Z -> -1 <= B2R d <= IZR nb ->
  near (fsub d (fint (lower_index nb (B2R d)))) (B2R d - IZR (lower_index nb (B2R d))) (3 * ulp1).
Proof.
  intros F N H. destruct ulp1_num as [U0 U1]. destruct tiny_num as [T0 T1]. pose proof huge_num as HG.
  pose proof (lower_index_range nb (B2R d) ltac:(lia)) as L. pose proof (shift_range nb (B2R d) ltac:(lia) H) as SR.
  destruct (fint_exact (lower_index nb (B2R d))) as [I1 I2]; [lia|].
  apply (near_sub _ _ _ _ 0 0 2); [now apply near_exact| |now apply two_abs| |lra].
  - split; [exact I2|]. rewrite I1, Rminus_eq_0, Rabs_R0. lra.
  - pose proof tiny_small. lra.
Qed.
Lemma interp_near m (r c : b64) : usual_terrain m -> is_finite r = true -> is_finite c = true ->
  -1 <= B2R r <= IZR (fr_rows m) -> -1 <= B2R c <= IZR (fr_cols m) ->
  exists z, finterpolate m r c = Some z /\ near z (surf m (B2R r) (B2R c)) (/ 1000000000).
Proof.
  intros U Fr Fc HR HC. destruct U as ((R1 & R2) & (C1 & C2) & A).
  pose proof (lower_index_range (fr_rows m) (B2R r) R1) as LR. pose proof (lower_index_range (fr_cols m) (B2R c) C1) as LC.
  unfold finterpolate, finterpol_bilin. rewrite !flower_eq by (assumption || lia).
  set (lr := lower_index (fr_rows m) (B2R r)) in *. set (lc := lower_index (fr_cols m) (B2R c)) in *.
  assert (G : forall i j, (0 <= i < fr_rows m)%Z -> (0 <= j < fr_cols m)%Z -> fr_get m i j = Some (fr_at m i j)).
  { intros i j Hi Hj. unfold fr_get. replace (_ && _)%bool with true; [reflexivity|]. symmetry. rewrite !andb_true_iff, !Z.leb_le, !Z.ltb_lt. lia. }
  rewrite !G by lia. eexists. split; [reflexivity|]. unfold surf. fold lr lc.
  destruct (A lr lc) as [F00 B00]; [lia|lia|]. destruct (A lr (lc + 1)%Z) as [F01 B01]; [lia|lia|].
  destruct (A (lr + 1)%Z lc) as [F10 B10]; [lia|lia|]. destruct (A (lr + 1)%Z (lc + 1)%Z) as [F11 B11]; [lia|lia|].
  apply fbilin_near_out; try assumption.
  - apply shift_near; [exact Fc|lia|exact HC].
  - apply shift_near; [exact Fr|lia|exact HR].
  - now apply shift_range.
  - now apply shift_range.
Qed.

(** ** One iteration, in real numbers *)
Definition tol : R := B2R ftol_z.
Lemma tol_num : 99 / 1000000 <= tol <= 101 / 1000000 /\ is_finite ftol_z = true.
Proof.
  unfold tol, ftol_z. destruct (flit_exact 0x1a36e2eb1c432d (-66)) as [E F]; [apply fits_dyadic; lia|]. split; [|exact F]. rewrite E.
  change (bpow radix2 (-66)) with (/ 73786976294838206464). lra.
Qed.
(** An end is far when it is more than the tolerance away from the surface. *)
Definition weight (u : R) : R := if Rlt_dec tol u then 1 else 5 / 4.
Definition small (u : R) : R := if Rlt_dec tol u then 0 else tol.
Definition mu (D u v : R) : R := D * (weight u * weight v) + (small u + small v).
Definition eta : R := 9 / 10000000000.
Definition del : R := 2 / 1000000000.
Definition er : R := 65 / 10000000.
Section Progress.
  Variables D u v c : R.
  Hypotheses (D0 : 0 <= D) (D1 : D <= 1000000) (u0 : 0 <= u) (v0 : 0 <= v) (W0 : / 1048576 <= u + v) (WD : u + v <= D + del) (c0 : 0 <= c)
    (cu : Rabs (c * (u + v) - u) <= eta).
  Lemma over : c - 1 <= / 1000.
  Proof.
    apply Rabs_le_inv in cu. unfold eta in cu. destruct (Rle_lt_dec (c - 1) (/ 1000)) as [L|L]; [exact L|exfalso].
    assert (/ 1000 * / 1048576 <= (c - 1) * (u + v)) by (apply Rmult_le_compat; lra). lra.
  Qed.
  Lemma over_small : 1 < c -> v <= eta.
  Proof.
    intros L. apply Rabs_le_inv in cu. assert (0 <= (c - 1) * (u + v)) by (apply Rmult_le_pos; lra). lra.
  Qed.
  (** The end that is above the surface is replaced. *)
  Lemma replace_above D' u' : D' <= Rabs (1 - c) * D + er -> tol < u' ->
    mu D' u' v <= mu D u v - / 20000 /\ Rmax 0 (c - 1) * D + er <= / 8 * (mu D u v - mu D' u' v).
  Proof.
    intros HD HU. pose proof over as O. pose proof over_small as V. destruct tol_num as [TN _]. apply Rabs_le_inv in cu. unfold eta, del, er in *.
    unfold mu. assert (E' : weight u' = 1) by (unfold weight; destruct (Rlt_dec tol u'); [reflexivity|lra]).
    assert (S' : small u' = 0) by (unfold small; destruct (Rlt_dec tol u'); [reflexivity|lra]). rewrite E', S'.
    destruct (Rle_lt_dec c 1) as [C|C].
    - rewrite (Rabs_pos_eq (1 - c)) in HD by lra. rewrite (Rmax_left 0 (c - 1)) by lra.
      assert (CD : c * (u + v - 2 / 1000000000) <= c * D) by (apply Rmult_le_compat_l; lra).
      assert (0 <= c * D) by (apply Rmult_le_pos; lra).
      unfold weight, small. destruct (Rlt_dec tol u), (Rlt_dec tol v); split; lra.
    - rewrite (Rabs_left1 (1 - c)) in HD by lra. rewrite (Rmax_right 0 (c - 1)) by lra.
      assert (CD : (c - 1) * D <= / 1000 * D) by (apply Rmult_le_compat_r; lra).
      specialize (V C).
      unfold weight, small. destruct (Rlt_dec tol u), (Rlt_dec tol v); split; lra.
  Qed.
  (** The end that is below is replaced. *)
  Lemma replace_below D' v' : D' <= c * D + er -> tol < v' ->
    mu D' u v' <= mu D u v - / 20000 /\ Rmax 0 (c - 1) * D + er <= / 8 * (mu D u v - mu D' u v').
  Proof.
    intros HD HV. pose proof over as O. pose proof over_small as V. destruct tol_num as [TN _]. apply Rabs_le_inv in cu. unfold eta, del, er in *.
    unfold mu. assert (E' : weight v' = 1) by (unfold weight; destruct (Rlt_dec tol v'); [reflexivity|lra]).
    assert (S' : small v' = 0) by (unfold small; destruct (Rlt_dec tol v'); [reflexivity|lra]). rewrite E', S'.
    destruct (Rle_lt_dec c 1) as [C|C].
    - rewrite (Rmax_left 0 (c - 1)) by lra.
      assert (CD : (1 - c) * (u + v - 2 / 1000000000) <= (1 - c) * D) by (apply Rmult_le_compat_l; lra).
      assert (0 <= (1 - c) * D) by (apply Rmult_le_pos; lra).
      unfold weight, small. destruct (Rlt_dec tol u), (Rlt_dec tol v); split; lra.
    - rewrite (Rmax_right 0 (c - 1)) by lra.
      assert (CD : (c - 1) * D <= / 1000 * D) by (apply Rmult_le_compat_r; lra).
      specialize (V C).
      unfold weight, small. destruct (Rlt_dec tol u), (Rlt_dec tol v); split; lra.
  Qed.
End Progress.

(** ** One iteration, in binary64 *)
(** The coefficient. *)
Lemma coef_near (z1 a1 z2 h2 : b64) :
  is_finite z1 = true -> is_finite a1 = true -> is_finite z2 = true -> is_finite h2 = true ->
  Rabs (B2R z1) <= 98304 -> Rabs (B2R a1) <= 147457 -> Rabs (B2R z2) <= 98304 -> Rabs (B2R h2) <= 147457 ->
  let u := B2R z1 - B2R a1 in let v := B2R h2 - B2R z2 in
  0 <= u -> 0 <= v -> / 1048576 <= u + v ->
  let c := fdiv (fsub z1 a1) (fsub (fsub h2 a1) (fsub z2 z1)) in
  is_finite c = true /\ 0 <= B2R c /\ Rabs (B2R c * (u + v) - u) <= eta.
Proof.
  intros F1 F2 F3 F4 B1 B2 B3 B4 u v Hu Hv HW c. assert (Eu : B2R z1 - B2R a1 = u) by reflexivity. assert (Ev : B2R h2 - B2R z2 = v) by reflexivity. clearbody u v.
  destruct ulp1_num as [U0 U1]. destruct tiny_num as [T0 T1]. pose proof huge_num as HG.
  apply Rabs_le_inv in B1, B2, B3, B4.
  assert (NX : near (fsub z1 a1) u (3 / 100000000000)).
  { rewrite <- Eu. apply (near_sub _ _ _ _ 0 0 245761); [now apply near_exact|now apply near_exact|apply Rabs_le; lra|lra|lra]. }
  assert (NA : near (fsub h2 a1) (B2R h2 - B2R a1) (4 / 100000000000)).
  { apply (near_sub _ _ _ _ 0 0 294914); [now apply near_exact|now apply near_exact|apply Rabs_le; lra|lra|lra]. }
  assert (NB : near (fsub z2 z1) (B2R z2 - B2R z1) (3 / 100000000000)).
  { apply (near_sub _ _ _ _ 0 0 196608); [now apply near_exact|now apply near_exact|apply Rabs_le; lra|lra|lra]. }
  assert (NY : near (fsub (fsub h2 a1) (fsub z2 z1)) (u + v) (13 / 100000000000)).
  { replace (u + v) with ((B2R h2 - B2R a1) - (B2R z2 - B2R z1)) by lra.
    eapply (near_sub _ _ _ _ _ _ 491522); [exact NA|exact NB|apply Rabs_le; lra|lra|lra]. }
  assert (UB : u <= 245761) by lra. assert (VB : v <= 245761) by lra.
  set (num := fsub z1 a1) in *. set (den := fsub (fsub h2 a1) (fsub z2 z1)) in *.
  assert (NP : 0 <= B2R num).
  { destruct (fsub_round z1 a1 F1 F2) as [E _]; [apply huge_lt; rewrite Eu, Rabs_pos_eq by lra; lra|]. fold num in E. rewrite E, Eu.
    rewrite <- rnd_0. apply rnd_le. exact Hu. }
  destruct NX as [FX HX]. destruct NY as [FY HY]. clear NA NB. apply Rabs_le_inv in HX, HY.
  set (x := B2R num) in *. set (y := B2R den) in *. set (W := u + v) in *. assert (EW : W = u + v) by reflexivity. clearbody W.
  assert (YP : W * / 2 <= y) by lra. assert (Y0 : 0 < y) by lra.
  assert (IY : 0 < / y) by now apply Rinv_0_lt_compat.
  assert (Q : x / y * y = x) by (field; lra). set (q := x / y) in *.
  assert (Q0 : 0 <= q) by (apply Rmult_le_pos; lra).
  assert (Q2 : q <= 2).
  { destruct (Rle_lt_dec q 2) as [L|L]; [exact L|exfalso]. assert (2 * y <= q * y) by (apply Rmult_le_compat_r; lra). lra. }
  destruct (fdiv_round num den FX) as [E F]; [fold y; lra|fold x; fold y; fold q; apply huge_lt; rewrite Rabs_pos_eq; lra|].
  fold c in E, F. fold x in E. fold y in E. fold q in E. split; [exact F|]. rewrite E. split; [rewrite <- rnd_0; now apply rnd_le|].
  pose proof (rnd_error q) as ER. rewrite (Rabs_pos_eq q) in ER by exact Q0.
  assert (ER' : Rabs (rnd q - q) <= 3 * ulp1).
  { eapply Rle_trans; [exact ER|]. assert (ulp1 * q <= ulp1 * 2) by (apply Rmult_le_compat_l; lra). pose proof tiny_small. lra. }
  replace (rnd q * W - u) with ((rnd q - q) * W + (q * (W - y) + (x - u))) by (rewrite <- Q; ring).
  eapply Rle_trans; [apply Rabs_triang|]. rewrite Rabs_mult, (Rabs_pos_eq W) by lra.
  assert (A : Rabs (rnd q - q) * W <= 3 * ulp1 * 491522) by (apply Rmult_le_compat; [apply Rabs_pos|lra|exact ER'|lra]).
  assert (B : Rabs (q * (W - y) + (x - u)) <= 30 / 100000000000).
  { eapply Rle_trans; [apply Rabs_triang|]. rewrite Rabs_mult, (Rabs_pos_eq q) by lra.
    assert (Rabs (W - y) <= 13 / 100000000000) by (apply Rabs_le; lra). assert (Rabs (x - u) <= 3 / 100000000000) by (apply Rabs_le; lra).
    assert (q * Rabs (W - y) <= 2 * (13 / 100000000000)) by (apply Rmult_le_compat; [lra|apply Rabs_pos|lra|lra]). lra. }
  unfold eta. lra.
Qed.
(** The point on the line. *)
Lemma mix_near (x y c : b64) B P e : is_finite x = true -> is_finite y = true -> is_finite c = true ->
  Rabs (B2R x) <= B -> Rabs (B2R y - B2R x) <= P -> 0 <= B2R c <= 1001 / 1000 -> 0 <= B <= 300000 -> 1 <= P <= 200000 ->
  ulp1 * (B + 4 * P) <= e -> near (fadd x (fmul c (fsub y x))) (B2R x + B2R c * (B2R y - B2R x)) e.
Proof.
  intros Fx Fy Fc Bx BP C HB HP He. destruct ulp1_num as [U0 U1]. destruct tiny_num as [T0 T1]. pose proof huge_num as HG. pose proof tiny_small as TS.
  assert (UP : ulp1 * 1 <= ulp1 * P) by (apply Rmult_le_compat_l; lra).
  assert (UB : 0 <= ulp1 * B) by (apply Rmult_le_pos; lra).
  assert (UUP : 0 <= ulp1 * (ulp1 * P) <= / 1000000 * (ulp1 * P)) by (split; [apply Rmult_le_pos; lra|apply Rmult_le_compat_r; lra]).
  assert (UPn : ulp1 * P <= / 1000000) by (apply Rle_trans with (ulp1 * 200000); [apply Rmult_le_compat_l; lra|lra]).
  assert (ND : near (fsub y x) (B2R y - B2R x) (101 / 100 * (ulp1 * P))).
  { apply (near_sub _ _ _ _ 0 0 P); [now apply near_exact|now apply near_exact|exact BP|lra|lra]. }
  assert (CA : Rabs (B2R c) <= 1001 / 1000) by (rewrite Rabs_pos_eq; lra).
  assert (NM : near (fmul c (fsub y x)) (B2R c * (B2R y - B2R x)) (203 / 100 * (ulp1 * P))).
  { apply (near_mul c (fsub y x) _ _ 0 (101 / 100 * (ulp1 * P)) (1001 / 1000) P (1001 / 1000 * P) (102 / 100 * (ulp1 * P))); [now apply near_exact|exact ND|exact CA|exact BP|lra|lra|lra|lra]. }
  assert (S : Rabs (B2R x + B2R c * (B2R y - B2R x)) <= B + 1001 / 1000 * P).
  { eapply Rle_trans; [apply Rabs_triang|]. apply Rplus_le_compat; [exact Bx|]. rewrite Rabs_mult. apply Rmult_le_compat; [apply Rabs_pos|apply Rabs_pos|exact CA|exact BP]. }
  apply (near_add _ _ _ _ 0 (203 / 100 * (ulp1 * P)) (B + 1001 / 1000 * P)); [now apply near_exact|exact NM|exact S|lra|lra].
Qed.
(** Between the two ends, up to a small distance. *)
Lemma between x y c lo hi th : lo <= x <= hi -> lo <= y <= hi -> 0 <= c -> c <= 1 \/ c - 1 <= th -> 0 <= th ->
  lo - th * Rabs (y - x) <= x + c * (y - x) <= hi + th * Rabs (y - x).
Proof.
  intros Hx Hy C0 C T0. pose proof (Rabs_pos (y - x)) as AP. assert (0 <= th * Rabs (y - x)) by (apply Rmult_le_pos; lra).
  destruct (Rle_lt_dec c 1) as [L|L].
  - assert (lo <= x + c * (y - x) <= hi); [|lra]. replace (x + c * (y - x)) with ((1 - c) * x + c * y) by ring.
    assert ((1 - c) * lo <= (1 - c) * x <= (1 - c) * hi) by (split; apply Rmult_le_compat_l; lra).
    assert (c * lo <= c * y <= c * hi) by (split; apply Rmult_le_compat_l; lra). lra.
  - destruct C as [C|C]; [lra|]. replace (x + c * (y - x)) with (y + (c - 1) * (y - x)) by ring.
    assert (Rabs ((c - 1) * (y - x)) <= th * Rabs (y - x)).
    { rewrite Rabs_mult, (Rabs_pos_eq (c - 1)) by lra. apply Rmult_le_compat_r; lra. }
    apply Rabs_le_inv in H0. lra.
Qed.

(** ** The iterations *)
Definition apart (p q : fvec3) : R :=
  slope * (Rabs (B2R (fv_row q) - B2R (fv_row p)) + Rabs (B2R (fv_col q) - B2R (fv_col p))) + Rabs (B2R (fv_alt q) - B2R (fv_alt p)).
Definition box (m : fraster) (x : R) (p : fvec3) : Prop :=
  is_finite (fv_row p) = true /\ is_finite (fv_col p) = true /\ is_finite (fv_alt p) = true /\
  - x <= slope * B2R (fv_row p) <= slope * IZR (fr_rows m - 1) + x /\
  - x <= slope * B2R (fv_col p) <= slope * IZR (fr_cols m - 1) + x /\
  - (2 * top + x) <= B2R (fv_alt p) <= 2 * top + x.
Definition above (p : fvec3) (a : b64) : R := B2R (fv_alt p) - B2R a.
Definition measured (t : state) : R :=
  let '(p_1, alti_1, p_2, h_2) := t in mu (apart p_1 p_2) (above p_1 alti_1) (- above p_2 h_2).
Definition on_surface (m : fraster) (p : fvec3) (a : b64) : Prop := near a (surf m (B2R (fv_row p)) (B2R (fv_col p))) (/ 1000000000).
Definition good (m : fraster) (x : R) (t : state) : Prop :=
  let '(p_1, alti_1, p_2, h_2) := t in
  box m x p_1 /\ box m x p_2 /\ on_surface m p_1 alti_1 /\ on_surface m p_2 h_2 /\
  0 <= above p_1 alti_1 /\ 0 <= - above p_2 h_2 /\ / 1048576 <= above p_1 alti_1 + - above p_2 h_2 /\
  0 <= x /\ x + / 8 * measured t <= 4 * top.
Lemma mu_ge D u v : 0 <= D -> D <= mu D u v.
Proof.
  intros H. destruct tol_num as [TN _]. unfold mu, weight, small. destruct (Rlt_dec tol u), (Rlt_dec tol v); lra.
Qed.
Lemma apart_pos p q : 0 <= apart p q.
Proof.
  unfold apart, slope, top. pose proof (Rabs_pos (B2R (fv_row q) - B2R (fv_row p))). pose proof (Rabs_pos (B2R (fv_col q) - B2R (fv_col p))).
  pose proof (Rabs_pos (B2R (fv_alt q) - B2R (fv_alt p))). lra.
Qed.
Lemma box_range m x p : box m x p -> 0 <= x <= 4 * top ->
  -1 <= B2R (fv_row p) <= IZR (fr_rows m) /\ -1 <= B2R (fv_col p) <= IZR (fr_cols m) /\ Rabs (B2R (fv_alt p)) <= 98304.
Proof.
  intros (_ & _ & _ & A & B & C) X. unfold slope, top in *. rewrite minus_IZR in A, B. repeat split; try lra. apply Rabs_le. lra.
Qed.
Lemma surface_range m x p a : usual_terrain m -> box m x p -> 0 <= x <= 4 * top -> on_surface m p a -> Rabs (B2R a) <= 147457.
Proof.
  intros U B X [F H]. destruct (box_range m x p B X) as (R1 & C1 & _). pose proof (surf_bound m U _ _ R1 C1) as S. unfold top in S.
  apply Rabs_le_inv in H, S. apply Rabs_le. lra.
Qed.
Lemma far_of_tol (f : R) (d : b64) : B2R d = rnd f -> is_finite d = true -> Bltb ftol_z (fabs d) = true ->
  if Bltb d fzero then tol < - f else tol < f.
Proof.
  intros E F H. destruct tol_num as [TN FT].
  assert (FA : is_finite (fabs d) = true) by (unfold fabs; now rewrite is_finite_Babs).
  rewrite Bltb_correct in H by assumption. fold tol in H.
  assert (VA : B2R (fabs d) = Rabs (rnd f)) by (unfold fabs; rewrite B2R_Babs, E; reflexivity). rewrite VA in H.
  assert (RT : rnd tol = tol) by (apply rnd_fits; unfold tol; now apply fits_b64).
  assert (H' : tol < Rabs (rnd f)) by (destruct (Rlt_bool_spec tol (Rabs (rnd f))); [assumption|discriminate]).
  rewrite Bltb_correct by (assumption || reflexivity). rewrite E. change (B2R fzero) with 0.
  destruct (Rlt_bool_spec (rnd f) 0) as [N|N].
  - rewrite Rabs_left in H' by exact N. destruct (Rlt_le_dec tol (- f)) as [L|L]; [exact L|exfalso].
    assert (K : rnd (- tol) <= rnd f) by (apply rnd_le; lra). assert (O : rnd (- tol) = - rnd tol) by (unfold rnd; apply round_NE_opp). lra.
  - rewrite Rabs_pos_eq in H' by exact N. destruct (Rlt_le_dec tol f) as [L|L]; [exact L|exfalso].
    assert (rnd f <= rnd tol) by (apply rnd_le; lra). lra.
Qed.
Definition mixed (c x y : b64) : b64 := fadd x (fmul c (fsub y x)).
(** The end that is below the surface is the same, or is farther than the tolerance from it. *)
Definition later (t t' : state) : Prop :=
  let '(_, _, p_2, h_2) := t in let '(_, _, q_2, k_2) := t' in (q_2 = p_2 /\ k_2 = h_2) \/ tol < - above q_2 k_2.
Lemma step_good m x t : usual_terrain m -> good m x t ->
  (exists p, (box m (5 * top) p) /\ forall n, refine_from (finterpolate m) (S n) t = FFound p) \/
  (exists t' x', refine_step (finterpolate m) t = Some t' /\ good m x' t' /\ measured t' <= measured t - / 20000 /\ later t t').
Proof.
  intros U. destruct t as [[[p_1 a_1] p_2] h_2]. intros (BX1 & BX2 & S1 & S2 & U0 & V0 & W0 & X0 & XM).
  unfold measured in XM. set (D := apart p_1 p_2) in *. set (u := above p_1 a_1) in *. set (v := - above p_2 h_2) in *.
  assert (D0 : 0 <= D) by apply apart_pos. pose proof (mu_ge D u v D0) as MD. set (MU := mu D u v) in *.
  assert (XB : 0 <= x <= 4 * top) by lra.
  destruct (box_range m x p_1 BX1 XB) as (R1 & C1 & Z1). destruct (box_range m x p_2 BX2 XB) as (R2 & C2 & Z2).
  pose proof (surface_range m x p_1 a_1 U BX1 XB S1) as A1. pose proof (surface_range m x p_2 h_2 U BX2 XB S2) as A2.
  pose proof BX1 as (FR1 & FC1 & FZ1 & IR1 & IC1 & IZ1). pose proof BX2 as (FR2 & FC2 & FZ2 & IR2 & IC2 & IZ2).
  destruct S1 as [FA1 S1]. destruct S2 as [FA2 S2].
  set (c := fdiv (fsub (fv_alt p_1) a_1) (fsub (fsub h_2 a_1) (fsub (fv_alt p_2) (fv_alt p_1)))).
  assert (CN : is_finite c = true /\ 0 <= B2R c /\ Rabs (B2R c * (u + v) - u) <= eta).
  { replace v with (B2R h_2 - B2R (fv_alt p_2)) in * by (unfold v, above; ring). apply coef_near; assumption. }
  destruct CN as (Fc & C0 & CU).
  assert (WD : u + v <= D + del).
  { pose proof (surf_lipschitz m U _ _ _ _ R2 C2 R1 C1) as L. fold slope in L. unfold u, v, above, D, apart.
    pose proof (Rle_abs (B2R (fv_alt p_1) - B2R (fv_alt p_2))) as LZ. rewrite Rabs_minus_sym in LZ.
    apply Rabs_le_inv in S1, S2, L. unfold del. lra. }
  assert (DB : D <= 1000000) by (unfold top in XB, XM; lra).
  pose proof (over u v (B2R c) V0 W0 CU) as OV.
  set (th := Rmax 0 (B2R c - 1)) in *.
  assert (TH0 : 0 <= th) by apply Rmax_l. assert (TH1 : B2R c - 1 <= th) by apply Rmax_r. assert (TH2 : th <= / 1000) by (apply Rmax_lub; lra).
  set (dr := Rabs (B2R (fv_row p_2) - B2R (fv_row p_1))) in *. set (dc := Rabs (B2R (fv_col p_2) - B2R (fv_col p_1))) in *. set (dz := Rabs (B2R (fv_alt p_2) - B2R (fv_alt p_1))) in *.
  assert (DE : D = slope * (dr + dc) + dz) by reflexivity.
  assert (dr0 : 0 <= dr) by apply Rabs_pos. assert (dc0 : 0 <= dc) by apply Rabs_pos. assert (dz0 : 0 <= dz) by apply Rabs_pos.
  assert (N18 : IZR (fr_rows m) <= 262144 /\ IZR (fr_cols m) <= 262144).
  { destruct U as ((_ & A) & (_ & B) & _). split; [apply (IZR_le _ (2 ^ 18)) in A|apply (IZR_le _ (2 ^ 18)) in B]; assumption. }
  destruct ulp1_num as [UL0 UL1].
  set (r := mixed c (fv_row p_1) (fv_row p_2)). set (k := mixed c (fv_col p_1) (fv_col p_2)). set (z := mixed c (fv_alt p_1) (fv_alt p_2)).
  assert (NR : near r (B2R (fv_row p_1) + B2R c * (B2R (fv_row p_2) - B2R (fv_row p_1))) (3 / 100000000000)).
  { apply (mix_near _ _ _ 262144 6); try assumption; try lra; [apply Rabs_le; lra|fold dr; unfold slope, top in *; lra]. }
  assert (NC : near k (B2R (fv_col p_1) + B2R c * (B2R (fv_col p_2) - B2R (fv_col p_1))) (3 / 100000000000)).
  { apply (mix_near _ _ _ 262144 6); try assumption; try lra; [apply Rabs_le; lra|fold dc; unfold slope, top in *; lra]. }
  assert (NZ : near z (B2R (fv_alt p_1) + B2R c * (B2R (fv_alt p_2) - B2R (fv_alt p_1))) (/ 1000000000)).
  { apply (mix_near _ _ _ 98304 196608); try assumption; try lra. apply Rabs_le. apply Rabs_le_inv in Z1, Z2. lra. }
  destruct NR as [Fr NR]. destruct NC as [Fk NC]. destruct NZ as [Fz NZ].
  set (p_a := FV3 r k z).
  set (x' := x + (th * D + er)).
  assert (BXA : box m x' p_a).
  { pose proof (between (B2R (fv_row p_1)) (B2R (fv_row p_2)) (B2R c) (- x / slope) (IZR (fr_rows m - 1) + x / slope) th) as BR.
    pose proof (between (B2R (fv_col p_1)) (B2R (fv_col p_2)) (B2R c) (- x / slope) (IZR (fr_cols m - 1) + x / slope) th) as BC.
    pose proof (between (B2R (fv_alt p_1)) (B2R (fv_alt p_2)) (B2R c) (- (2 * top + x)) (2 * top + x) th) as BZ.
    fold dr in BR. fold dc in BC. fold dz in BZ. unfold box, p_a. cbn [fv_row fv_col fv_alt].
    assert (TD : th * D = slope * (th * dr) + slope * (th * dc) + th * dz) by (rewrite DE; ring).
    assert (0 <= th * dr) by now apply Rmult_le_pos. assert (0 <= th * dc) by now apply Rmult_le_pos. assert (0 <= th * dz) by now apply Rmult_le_pos.
    unfold x', slope, top, er in *. apply Rabs_le_inv in NR, NC, NZ.
    destruct BR as [BR1 BR2]; [lra|lra|assumption|right; assumption|assumption|].
    destruct BC as [BC1 BC2]; [lra|lra|assumption|right; assumption|assumption|].
    destruct BZ as [BZ1 BZ2]; [lra|lra|assumption|right; assumption|assumption|].
    repeat split; try assumption; lra. }
  assert (X1 : x <= x') by (assert (0 <= th * D) by (now apply Rmult_le_pos); unfold x', er; lra).
  assert (BOX_W : forall q, box m x q -> box m x' q) by (intros q (Q1 & Q2 & Q3 & Q4 & Q5 & Q6); repeat split; try assumption; lra).
  assert (AP1 : apart p_1 p_a <= B2R c * D + er).
  { unfold apart, p_a. cbn [fv_row fv_col fv_alt].
    assert (H : forall a b y e, 0 <= e -> Rabs (y - (a + B2R c * (b - a))) <= e -> Rabs (y - a) <= B2R c * Rabs (b - a) + e).
    { intros a b y e He H. replace (y - a) with ((y - (a + B2R c * (b - a))) + B2R c * (b - a)) by ring. eapply Rle_trans; [apply Rabs_triang|].
      rewrite Rabs_mult, (Rabs_pos_eq (B2R c)) by exact C0. lra. }
    apply H in NR; [|lra]. apply H in NC; [|lra]. apply H in NZ; [|lra]. fold dr in NR. fold dc in NC. fold dz in NZ.
    rewrite DE. unfold slope, top, er in *. lra. }
  assert (AP2 : apart p_a p_2 <= Rabs (1 - B2R c) * D + er).
  { unfold apart, p_a. cbn [fv_row fv_col fv_alt].
    assert (H : forall a b y e, 0 <= e -> Rabs (y - (a + B2R c * (b - a))) <= e -> Rabs (b - y) <= Rabs (1 - B2R c) * Rabs (b - a) + e).
    { intros a b y e He H. replace (b - y) with (- (y - (a + B2R c * (b - a))) + (1 - B2R c) * (b - a)) by ring. eapply Rle_trans; [apply Rabs_triang|].
      rewrite Rabs_Ropp, Rabs_mult. lra. }
    apply H in NR; [|lra]. apply H in NC; [|lra]. apply H in NZ; [|lra]. fold dr in NR. fold dc in NC. fold dz in NZ.
    rewrite DE. unfold slope, top, er in *. lra. }
  assert (AP1' : 0 <= apart p_1 p_a) by apply apart_pos. assert (AP2' : 0 <= apart p_a p_2) by apply apart_pos.
  assert (XA : x' <= 5 * top).
  { unfold x', er. assert (th * D <= / 1000 * D) by (apply Rmult_le_compat_r; lra). unfold top in *. lra. }
  assert (RA : -1 <= B2R r <= IZR (fr_rows m) /\ -1 <= B2R k <= IZR (fr_cols m)).
  { destruct BXA as (_ & _ & _ & A & B & _). unfold p_a in A, B. cbn [fv_row fv_col] in A, B. unfold slope, top in *. rewrite minus_IZR in A, B. lra. }
  destruct RA as [RA CA]. destruct (interp_near m r k U Fr Fk RA CA) as (z_v & EI & NV).
  assert (BZA : Rabs (B2R z) <= 147456).
  { destruct BXA as (_ & _ & _ & _ & _ & A). unfold p_a in A. cbn [fv_alt] in A. unfold top in *. apply Rabs_le. lra. }
  pose proof (surf_bound m U _ _ RA CA) as SB. destruct NV as [FV NV].
  assert (BVA : Rabs (B2R z_v) <= 147457) by (apply Rabs_le_inv in NV, SB; unfold top in SB; apply Rabs_le; lra).
  destruct (fsub_round z_v z FV Fz) as [ED FD].
  { apply huge_lt. pose proof huge_num. apply Rabs_le_inv in BZA, BVA. apply Rle_trans with 300000; [apply Rabs_le; lra|lra]. }
  set (d_2 := fsub z_v z) in *.
  assert (ST : refine_step (finterpolate m) (p_1, a_1, p_2, h_2) =
    if Bltb ftol_z (fabs d_2) then Some (if Bltb d_2 fzero then (p_a, z_v, p_2, h_2) else (p_1, a_1, p_a, z_v)) else None).
  { unfold refine_step. fold c. fold (mixed c (fv_row p_1) (fv_row p_2)). fold (mixed c (fv_col p_1) (fv_col p_2)). fold (mixed c (fv_alt p_1) (fv_alt p_2)).
    fold r. fold k. fold z. cbn [fv_row fv_col fv_alt]. rewrite EI. reflexivity. }
  destruct (Bltb ftol_z (fabs d_2)) eqn:T.
  - right. pose proof (far_of_tol _ d_2 ED FD T) as FT. rewrite ST. destruct (Bltb d_2 fzero).
    + eexists. exists x'. split; [reflexivity|]. set (u' := above p_a z_v). assert (HU' : tol < u') by (unfold u', above, p_a; cbn [fv_alt]; lra).
      destruct (replace_above D u v (B2R c)) with (D' := apart p_a p_2) (u' := u') as [M1 M2]; try assumption. fold th in M2.
      split; [|split; [exact M1|left; split; reflexivity]]. unfold good, measured. fold v u'. fold MU in M1, M2. destruct tol_num as [TN _].
      split; [exact BXA|]. split; [now apply BOX_W|]. split; [split; assumption|]. split; [split; assumption|]. unfold x', top in *. repeat split; lra.
    + eexists. exists x'. split; [reflexivity|]. set (v' := - above p_a z_v). assert (HV' : tol < v') by (unfold v', above, p_a; cbn [fv_alt]; lra).
      destruct (replace_below D u v (B2R c)) with (D' := apart p_1 p_a) (v' := v') as [M1 M2]; try assumption. fold th in M2.
      split; [|split; [exact M1|right; exact HV']]. unfold good, measured. fold v' u. fold MU in M1, M2. destruct tol_num as [TN _].
      split; [now apply BOX_W|]. split; [exact BXA|]. split; [split; assumption|]. split; [split; assumption|]. unfold x', top in *. repeat split; lra.
  - left. exists p_a. split.
    { destruct BXA as (Q1 & Q2 & Q3 & Q4 & Q5 & Q6). repeat split; try assumption; lra. }
    intros n. unfold refine_from. cbn [frefine]. fold c. fold (mixed c (fv_row p_1) (fv_row p_2)). fold (mixed c (fv_col p_1) (fv_col p_2)). fold (mixed c (fv_alt p_1) (fv_alt p_2)).
    fold r. fold k. fold z. cbn [fv_row fv_col fv_alt]. rewrite EI. fold d_2. rewrite T. reflexivity.
Qed.
Lemma measured_pos t : 0 <= measured t.
Proof. destruct t as [[[p_1 a_1] p_2] h_2]. unfold measured. pose proof (apart_pos p_1 p_2). pose proof (mu_ge (apart p_1 p_2) (above p_1 a_1) (- above p_2 h_2) H). lra. Qed.
Lemma good_ends m : usual_terrain m -> forall n x t, good m x t -> measured t < INR n * / 20000 ->
  exists k p, (k <= n)%nat /\ (box m (5 * top) p) /\ forall j, refine_from (finterpolate m) (k + j) t = FFound p.
Proof.
  intros U. induction n as [|n IH]; intros x t G M; [cbn in M; pose proof (measured_pos t); lra|].
  destruct (step_good m x t U G) as [(p & B & H)|(t' & x' & E & G' & M' & _)].
  - exists 1%nat, p. split; [lia|]. split; [exact B|]. intros j. apply H.
  - rewrite S_INR in M. destruct (IH x' t' G') as (k & p & K & B & H); [lra|]. exists (S k), p. split; [lia|]. split; [exact B|].
    intros j. cbn [plus]. now rewrite (refine_unfold _ _ _ _ E).
Qed.

(** The two ends in the raster. *)
Lemma regular_good m p_1 a_1 p_2 h_2 : usual_terrain m -> in_raster m p_1 -> in_raster m p_2 -> one_cell p_1 p_2 ->
  finterpolate m (fv_row p_1) (fv_col p_1) = Some a_1 -> finterpolate m (fv_row p_2) (fv_col p_2) = Some h_2 -> goes_down p_1 a_1 p_2 h_2 ->
  good m 0 (p_1, a_1, p_2, h_2) /\ measured (p_1, a_1, p_2, h_2) <= 409601.
Proof.
  intros U I1 I2 [O1 O2] E1 E2 (G1 & G2 & G3). change (bpow radix2 (-20)) with (/ 1048576) in G3. destruct tol_num as [TN _].
  assert (BX : forall p, in_raster m p -> box m 0 p).
  { intros p (F1 & F2 & F3 & A & B & C). apply Rabs_le_inv in C. unfold box, slope, top in *. repeat split; try assumption; lra. }
  assert (ON : forall p a, in_raster m p -> finterpolate m (fv_row p) (fv_col p) = Some a -> on_surface m p a).
  { intros p a (F1 & F2 & F3 & A & B & C) E. destruct (interp_near m (fv_row p) (fv_col p) U F1 F2) as (z & E' & N).
    - rewrite minus_IZR in A. lra.
    - rewrite minus_IZR in B. lra.
    - rewrite E in E'. injection E' as <-. exact N. }
  assert (Z1 := proj2 (proj2 (proj2 (proj2 (proj2 I1))))). assert (Z2 := proj2 (proj2 (proj2 (proj2 (proj2 I2))))).
  assert (DZ : Rabs (B2R (fv_alt p_2) - B2R (fv_alt p_1)) <= 65536) by (apply Rabs_le_inv in Z1, Z2; unfold top in *; apply Rabs_le; lra).
  assert (M : measured (p_1, a_1, p_2, h_2) <= 409601).
  { unfold measured, mu, apart, slope, top, weight, small. destruct (Rlt_dec tol (above p_1 a_1)), (Rlt_dec tol (- above p_2 h_2)); lra. }
  split; [|exact M]. cbv [good]. repeat match goal with |- _ /\ _ => split end; try (now apply BX); try (now apply ON); unfold above, top in *; try lra.
Qed.
Lemma regular_ends m p_1 a_1 p_2 h_2 : usual_terrain m -> in_raster m p_1 -> in_raster m p_2 -> one_cell p_1 p_2 ->
  finterpolate m (fv_row p_1) (fv_col p_1) = Some a_1 -> finterpolate m (fv_row p_2) (fv_col p_2) = Some h_2 -> goes_down p_1 a_1 p_2 h_2 ->
  exists k p, (Z.of_nat k <= 2 ^ 33)%Z /\ (box m (5 * top) p) /\ forall j, frefine (finterpolate m) (k + j) p_1 a_1 p_2 h_2 = FFound p.
Proof.
  intros U I1 I2 O E1 E2 G. destruct (regular_good m p_1 a_1 p_2 h_2 U I1 I2 O E1 E2 G) as [GG M].
  destruct (good_ends m U (Z.to_nat (2 ^ 33)) 0 _ GG) as (k & p & K & B & H).
  - rewrite INR_IZR_INZ, Z2Nat.id by lia. change (IZR (2 ^ 33)) with 8589934592. lra.
  - exists k, p. split; [lia|]. split; [exact B|exact H].
Qed.

(** ** The point that is returned *)
Lemma tol_exact : tol <= / 10000 + / 100000000000000000000.
Proof.
  unfold tol, ftol_z. destruct (flit_exact 0x1a36e2eb1c432d (-66)) as [E F]; [apply fits_dyadic; lia|]. rewrite E.
  change (bpow radix2 (-66)) with (/ 73786976294838206464). lra.
Qed.
Lemma accepted_close m p : accepted m p ->
  exists z, finterpolate m (fv_row p) (fv_col p) = Some z /\
    (is_finite z = true -> is_finite (fv_alt p) = true -> Rabs (B2R z - B2R (fv_alt p)) <= / 10000 + / 1000000000000000000).
Proof.
  intros (z & E & T). exists z. split; [exact E|]. intros Fz Fp. destruct tol_num as [TN FT]. pose proof tol_exact as TE.
  pose proof (Bminus_correct 53 1024 eq_refl eq_refl mode_NE z (fv_alt p) Fz Fp) as H. cbv zeta in H.
  change (round radix2 (SpecFloat.fexp 53 1024) (round_mode mode_NE) (B2R z - B2R (fv_alt p))) with (rnd (B2R z - B2R (fv_alt p))) in H.
  change (Bminus mode_NE z (fv_alt p)) with (fsub z (fv_alt p)) in H. set (f := B2R z - B2R (fv_alt p)) in *. set (d := fsub z (fv_alt p)) in *.
  destruct (Rlt_bool_spec (Rabs (rnd f)) (bpow radix2 1024)) as [L|L].
  - destruct H as (V & F & _). rewrite Bltb_correct in T; [|exact FT|unfold fabs; now rewrite is_finite_Babs].
    unfold fabs in T. rewrite B2R_Babs, V in T. fold tol in T. destruct (Rlt_bool_spec tol (Rabs (rnd f))) as [Q|Q]; [discriminate|].
    pose proof (rnd_error f) as ER. destruct ulp1_num as [U0 U1]. assert (TS : tiny <= / 1000000 * ulp1) by (pose proof tiny_small; lra).
    pose proof (Rabs_pos f) as FP.
    assert (TT : tiny <= / 100000000000000000000).
    { apply Rle_trans with (bpow radix2 (-100)); [unfold tiny; apply bpow_le; lia|]. cbn. lra. }
    assert (B : Rabs f <= Rabs (rnd f) + Rabs (rnd f - f)).
    { replace f with (rnd f + - (rnd f - f)) at 1 by ring. eapply Rle_trans; [apply Rabs_triang|]. rewrite Rabs_Ropp. lra. }
    assert (S : Rabs f <= 1 / 1000).
    { assert (ulp1 * Rabs f <= / 1000 * Rabs f) by (apply Rmult_le_compat_r; lra). lra. }
    assert (ulp1 * Rabs f <= ulp1 * (1 / 1000)) by (apply Rmult_le_compat_l; lra). lra.
  - exfalso. destruct H as (V & _). destruct d as [s|s| |s n e He]; cbn in V; try discriminate V; try discriminate T; destruct (Bsign z); discriminate.
Qed.
