(** Rounding error of the rational functions of the RPC models. *)
From Coq Require Import ZArith Reals List Bool Permutation Lia Lra Psatz.
From Flocq Require Import Core BinarySingleNaN.
From Verif Require Import FloatModel Float FloatErr FloatRpcModel FloatEval RpcSpec FloatRpcSpec.
Import ListNotations.
Open Scope R_scope.

(** ** The terms of the polynomials *)
Lemma poly_rounds x y z c : length c = 20%nat -> rounds (poly_terms x y z c) = 22%nat /\ rounds (cpp_poly_terms x y z c) = 22%nat.
Proof. intros H. do 20 (destruct c as [|? c]; [discriminate|]). destruct c; [|discriminate]. split; reflexivity. Qed.
Lemma poly_value x y z c : length c = 20%nat -> value (poly_terms x y z c) = cubic (map B2R c) (B2R x) (B2R y) (B2R z).
Proof.
  intros H. do 20 (destruct c as [|? c]; [discriminate|]). destruct c; [|discriminate].
  unfold value, poly_terms, cubic, monomials, rpc_exponents. cbn [combine map fst snd sumf prodf cubic_sum pow]. ring.
Qed.
Lemma cpp_first x y z c : length c = 20%nat -> exists t u, poly_terms x y z c = t :: u /\ cpp_poly_terms x y z c = (fint 1 :: t) :: u.
Proof. intros H. destruct c as [|c0 c]; [discriminate|]. eexists _, _. split; reflexivity. Qed.
Lemma fint1 : B2R (fint 1) = 1 /\ is_finite (fint 1) = true.
Proof. destruct (fint_exact 1 ltac:(lia)) as [A B]. split; [exact A|exact B]. Qed.
Lemma cpp_sums x y z c : length c = 20%nat -> value (cpp_poly_terms x y z c) = value (poly_terms x y z c) /\
  magnitude (cpp_poly_terms x y z c) = magnitude (poly_terms x y z c) /\ weight (cpp_poly_terms x y z c) = weight (poly_terms x y z c).
Proof.
  intros H. destruct (cpp_first x y z c H) as (t & u & E1 & E2). rewrite E1, E2. unfold value, magnitude, weight. cbn [sumf prodf]. destruct fint1 as [-> _].
  rewrite Rabs_R1, Rmax_left by lra. rewrite !Rmult_1_l. auto.
Qed.
Lemma poly_finite x y z c : is_finite x = true -> is_finite y = true -> is_finite z = true -> Forall (fun a : b64 => is_finite a = true) c -> length c = 20%nat ->
  finite_poly (poly_terms x y z c) /\ finite_poly (cpp_poly_terms x y z c).
Proof.
  intros X Y Z F H.
  assert (A : finite_poly (poly_terms x y z c)).
  { apply Forall_forall. intros l I. unfold poly_terms in I. apply in_map_iff in I as ((a & m) & <- & I). cbn [fst snd]. pose proof (in_combine_l _ _ _ _ I) as Ia. pose proof (in_combine_r _ _ _ _ I) as Im.
    constructor; [exact (proj1 (Forall_forall _ _) F a Ia)|]. unfold monomials in Im. cbn in Im. repeat (destruct Im as [<-|Im]; [repeat constructor; assumption|]). destruct Im. }
  split; [exact A|]. destruct (cpp_first x y z c H) as (t & u & E1 & E2). rewrite E1 in A. rewrite E2. inversion A as [|? ? B C]; subst. constructor; [|exact C]. constructor; [apply fint1|exact B].
Qed.
Lemma monomials_prod f x y z b m : (forall a, 0 <= f a) -> f x <= b -> f y <= b -> f z <= b -> 1 <= b -> In m (monomials x y z) -> 0 <= prodf f m <= b * b * b.
Proof.
  intros P X Y Z B I. pose proof (P x) as P1. pose proof (P y) as P2. pose proof (P z) as P3.
  assert (Q : forall a b', 0 <= a <= b -> 0 <= b' <= b * b -> 0 <= a * b' <= b * b * b).
  { intros a b' A1 A2. split; [apply Rmult_le_pos; lra|]. replace (b * b * b) with (b * (b * b)) by ring. apply Rmult_le_compat; lra. }
  assert (Q2 : forall a b', 0 <= a <= b -> 0 <= b' <= b -> 0 <= a * b' <= b * b).
  { intros a b' A1 A2. split; [apply Rmult_le_pos; lra|]. apply Rmult_le_compat; lra. }
  assert (BB : b <= b * b) by nra. assert (BBB : b * b <= b * b * b) by (pose proof (Rle_0_sqr b) as S; unfold Rsqr in S; nra).
  assert (O : 0 <= 1 <= b * b) by lra. assert (O1 : 0 <= 1 <= b) by lra.
  unfold monomials in I. cbn in I.
  repeat (destruct I as [<-|I]; [cbn [prodf]; first [lra | (apply Q; [lra|]; apply Q2; [lra|lra]) | (apply Q; [lra|]; apply Q2; [lra|]; rewrite Rmult_1_r; lra) | (apply Q; [lra|lra])]|]). destruct I.
Qed.
Lemma terms_sum f g x y z b c : (forall a, 0 <= f a) -> (forall a, f a <= g a) -> f x <= b -> f y <= b -> f z <= b -> 1 <= b ->
  0 <= sumf f (poly_terms x y z c) <= b * b * b * fold_right (fun a s => g a + s) 0 c.
Proof.
  intros P G X Y Z B. pose proof (fun m => monomials_prod f x y z b m P X Y Z B) as M. unfold poly_terms. revert M. generalize (monomials x y z) as ms. assert (B3 : 0 <= b * b * b) by (repeat apply Rmult_le_pos; lra). assert (GP : forall a, 0 <= g a) by (intros a; eapply Rle_trans; [apply P|apply G]).
  induction c as [|c0 c IH]; intros ms M; cbn [combine map sumf fold_right]; [lra|].
  assert (FP : 0 <= fold_right (fun a s => g a + s) 0 c) by (clear -GP; induction c; cbn; [lra|]; pose proof (GP a); lra).
  destruct ms as [|m ms]; cbn [combine map sumf]; [split; [lra|]; pose proof (GP c0); apply Rmult_le_pos; lra|]. cbn [fst snd prodf]. destruct (IH ms ltac:(intros m' I; apply M; now right)) as [I1 I2].
  destruct (M m ltac:(now left)) as [M1 M2]. pose proof (P c0). pose proof (G c0). split; [assert (0 <= f c0 * prodf f m) by (apply Rmult_le_pos; lra); lra|].
  rewrite Rmult_plus_distr_l. apply Rplus_le_compat; [|exact I2]. rewrite (Rmult_comm (b * b * b)). apply Rmult_le_compat; lra.
Qed.
Lemma abs_sum_map c : abs_sum (map B2R c) = fold_right (fun (a : b64) s => Rabs (B2R a) + s) 0 c.
Proof. induction c as [|a c IH]; cbn; [reflexivity|]. now rewrite <- IH. Qed.
Lemma abs_sum_pos l : 0 <= abs_sum l.
Proof. induction l as [|a l IH]; cbn; [lra|]. pose proof (Rabs_pos a). unfold abs_sum in IH. lra. Qed.
Lemma poly_sizes x y z b c : Rabs (B2R x) <= b -> Rabs (B2R y) <= b -> Rabs (B2R z) <= b -> 1 <= b -> length c = 20%nat ->
  magnitude (poly_terms x y z c) <= b * b * b * abs_sum (map B2R c) /\ weight (poly_terms x y z c) <= b * b * b * (20 + abs_sum (map B2R c)).
Proof.
  intros X Y Z B L. split.
  - rewrite abs_sum_map. apply (terms_sum (fun x : b64 => Rabs (B2R x)) (fun x : b64 => Rabs (B2R x))); try assumption; intros; try apply Rabs_pos; lra.
  - eapply Rle_trans; [apply (terms_sum (fun x : b64 => Rmax 1 (Rabs (B2R x))) (fun x : b64 => 1 + Rabs (B2R x)) x y z b)|].
    + intros. pose proof (Rmax_l 1 (Rabs (B2R a))). lra.
    + intros. pose proof (Rabs_pos (B2R a)). apply Rmax_lub; lra.
    + apply Rmax_lub; lra.
    + apply Rmax_lub; lra.
    + apply Rmax_lub; lra.
    + exact B.
    + apply Rmult_le_compat_l; [repeat apply Rmult_le_pos; lra|]. rewrite abs_sum_map. apply Req_le. replace 20 with (INR (length c)) by (rewrite L; cbn; ring).
      clear. induction c as [|a c IH]; [cbn; lra|]. cbn [fold_right length]. rewrite IH, S_INR. ring.
Qed.

(** ** The error of the polynomials *)
Lemma ulp1_tiny : ulp1 <= / 1000000000000000.
Proof. rewrite ulp1_val. change (IZR (2 ^ 53)) with 9007199254740992. apply Rinv_le; lra. Qed.
Lemma grow_22 : grow 22 <= 1 + 2201 / 100 * ulp1.
Proof.
  assert (H : forall k : nat, INR k <= 22 -> grow k <= 1 + INR k * ulp1 * (1 + 100 * ulp1)).
  { induction k as [|k IH]; intros HK; [cbn; lra|]. rewrite S_INR in *. pose proof (pos_INR k). rewrite grow_S. specialize (IH ltac:(lra)). pose proof ulp1_pos. pose proof ulp1_small.
    eapply Rle_trans; [apply Rmult_le_compat_l; [lra|exact IH]|].
    assert (INR k * ulp1 <= 22 * ulp1) by (apply Rmult_le_compat_r; lra). set (q := INR k * ulp1) in *. assert (0 <= q) by (apply Rmult_le_pos; lra).
    assert (ulp1 * (q * (1 + 100 * ulp1)) <= ulp1 * (22 * ulp1 * 2)) by (apply Rmult_le_compat_l; [lra|]; apply Rmult_le_compat; lra).
    replace ((1 + ulp1) * (1 + q * (1 + 100 * ulp1))) with (1 + ulp1 + q * (1 + 100 * ulp1) + ulp1 * (q * (1 + 100 * ulp1))) by ring.
    replace ((INR k + 1) * ulp1 * (1 + 100 * ulp1)) with (q * (1 + 100 * ulp1) + ulp1 + 100 * (ulp1 * ulp1)) by (unfold q; ring). 
    replace (22 * ulp1 * 2) with (44 * ulp1) in * by ring. assert (0 <= ulp1 * ulp1) by (apply Rmult_le_pos; lra). lra. }
  replace (INR 22) with 22 in H by (cbn; ring). pose proof (H 22%nat) as H2. replace (INR 22) with 22 in H2 by (cbn; ring). specialize (H2 ltac:(lra)). pose proof ulp1_pos. pose proof ulp1_small.
  eapply Rle_trans; [exact H2|]. assert (22 * ulp1 * (1 + 100 * ulp1) <= 22 * ulp1 * (1 + 1 / 10000)) by (apply Rmult_le_compat_l; lra). lra.
Qed.
Lemma big_tiny : 1000000000000000000000000000000000000000000000000000000000000 * tiny <= ulp1 * ulp1.
Proof.
  apply Rle_trans with (bpow radix2 200 * tiny); [apply Rmult_le_compat_r; [apply Rlt_le, tiny_pos|]|].
  - change (bpow radix2 200) with (IZR (2 ^ 200)). apply IZR_le. vm_compute. discriminate.
  - unfold tiny, ulp1. rewrite <- !bpow_plus. apply bpow_le. lia.
Qed.
Lemma big_huge : 1000000000000000000000000000000000000000000000000000000000000 <= huge.
Proof.
  apply Rle_trans with (bpow radix2 200); [change (bpow radix2 200) with (IZR (2 ^ 200)); apply IZR_le; vm_compute; discriminate|].
  unfold huge. apply bpow_le. lia.
Qed.
Lemma polynomial_near x y z c v : length c = 20%nat -> Forall (fun a : b64 => is_finite a = true) c ->
  is_finite x = true -> is_finite y = true -> is_finite z = true ->
  Rabs (B2R x) <= 10002 / 10000 -> Rabs (B2R y) <= 10002 / 10000 -> Rabs (B2R z) <= 10002 / 10000 ->
  abs_sum (map B2R c) <= 1000000000 -> compiled_polynomial x y z c v ->
  near v (cubic (map B2R c) (B2R x) (B2R y) (B2R z)) (ulp1 * (2204 / 100 * abs_sum (map B2R c) + 1 / 1000)).
Proof.
  intros L F FX FY FZ X Y Z S HV. destruct (poly_rounds x y z c L) as [R1 R2]. destruct (cpp_sums x y z c L) as (V1 & M1 & W1). destruct (poly_finite x y z c FX FY FZ F L) as [P1 P2].
  destruct (poly_sizes x y z _ c X Y Z ltac:(lra) L) as [SM SW]. pose proof (poly_value x y z c L) as EV. set (s := abs_sum (map B2R c)) in *. assert (S0 : 0 <= s) by apply abs_sum_pos.
  pose proof (magnitude_weight (poly_terms x y z c)) as MW. set (m := magnitude (poly_terms x y z c)) in *. set (w := weight (poly_terms x y z c)) in *.
  pose proof grow_22 as G. pose proof (grow_1 22) as G1. pose proof ulp1_pos as U0. pose proof ulp1_small as U1. pose proof tiny_pos as T0. pose proof big_tiny as T1. pose proof big_huge as HH.
  assert (P22 : 2 ^ 22 - 1 = 4194303) by (cbn; ring).
  assert (Wb : w <= 2 * (20 + s)) by nra. assert (Mb : m <= 10007 / 10000 * s) by nra.
  assert (Wt : 10000000 * tiny * w <= ulp1 / 2000).
  { assert (tiny * w <= tiny * 10000000000) by (apply Rmult_le_compat_l; lra). nra. }
  assert (HU : bound 22 w w <= huge).
  { unfold bound. rewrite P22. assert (tiny * w <= w) by (pose proof tiny_1; nra). eapply Rle_trans; [apply Rmult_le_compat; [lra| |apply Rle_trans with (r2 := 2); [lra|apply Rle_refl]|apply Rle_trans with (r2 := 4194304 * w); [nra|apply Rle_refl]]|]; [nra|]. lra. }
  assert (BD : bound 22 m w - m <= ulp1 * (2204 / 100 * s + 1 / 1000)).
  { unfold bound. rewrite P22. assert (0 <= tiny * w) by (apply Rmult_le_pos; lra). 
    assert (grow 22 * (4194303 * tiny * w) <= 2 * (4194303 * tiny * w)) by (apply Rmult_le_compat_r; lra).
    assert (grow 22 * m <= (1 + 2201 / 100 * ulp1) * m) by (apply Rmult_le_compat_r; lra).
    assert (ulp1 * m <= ulp1 * (10007 / 10000 * s)) by (apply Rmult_le_compat_l; lra).
    assert (0 <= ulp1 * s) by (apply Rmult_le_pos; lra). lra. }
  destruct HV as [HV|HV]; apply evaluates_within in HV; try assumption.
  - rewrite R1 in HV. destruct HV as (A & B & _). rewrite EV in B. fold m w in B. split; [exact A|lra].
  - rewrite R1. exact HU.
  - rewrite R2, M1, W1, V1, EV in HV. fold m w in HV. destruct HV as (A & B & _). split; [exact A|lra].
  - rewrite R2, W1. exact HU.
Qed.

(** ** The normalised coordinates *)
Lemma near_div x y a e1 c d e : near x a e1 -> is_finite y = true -> B2R y <> 0 -> Rabs (a / B2R y) <= c -> e1 * Rabs (/ B2R y) <= d ->
  d + ulp1 * (c + d) + tiny <= e -> c + d <= huge -> near (fdiv x y) (a / B2R y) e.
Proof.
  intros [F1 H1] F2 NZ C D L HU.
  assert (DD : Rabs (B2R x / B2R y - a / B2R y) <= d).
  { replace (B2R x / B2R y - a / B2R y) with ((B2R x - a) * / B2R y) by (field; exact NZ). rewrite Rabs_mult. eapply Rle_trans; [apply Rmult_le_compat_r; [apply Rabs_pos|exact H1]|exact D]. }
  destruct (fdiv_round x y F1 NZ) as [E F]; [apply huge_lt; pose proof (near_bound _ _ _ _ DD C); lra|].
  eapply near_round; eassumption.
Qed.
Lemma normalise_near v a : is_finite v = true -> is_finite (fa_offset a) = true -> is_finite (fa_scale a) = true -> / 1000 <= Rabs (B2R (fa_scale a)) <= 1000000000 ->
  Rabs ((B2R v - B2R (fa_offset a)) / B2R (fa_scale a)) <= 10001 / 10000 ->
  near (fnormalise v (fa_offset a) (fa_scale a)) ((B2R v - B2R (fa_offset a)) / B2R (fa_scale a)) (2001 / 1000 * ulp1).
Proof.
  intros F1 F2 F3 HS HN. set (s := B2R (fa_scale a)) in *. set (o := B2R (fa_offset a)) in *.
  assert (NZ : s <> 0) by (intros E; rewrite E, Rabs_R0 in HS; lra). assert (AP : 0 < Rabs s) by lra.
  assert (AI : Rabs (/ s) = / Rabs s) by (apply Rabs_inv). pose proof ulp1_pos as U0. pose proof ulp1_small as U1. pose proof tiny_pos as T0. pose proof big_tiny as T1. pose proof big_huge as HH.
  assert (IS : / Rabs s <= 1000) by (rewrite <- (Rinv_inv 1000); apply Rinv_le; lra). assert (IP : 0 < / Rabs s) by (apply Rinv_0_lt_compat; lra).
  assert (DV : Rabs (B2R v - o) <= 10001 / 10000 * Rabs s).
  { replace (B2R v - o) with ((B2R v - o) / s * s) by (field; exact NZ). rewrite Rabs_mult. apply Rmult_le_compat_r; lra. }
  assert (TU : 1000000 * tiny <= ulp1 / 10000000) by nra.
  assert (N1 : near (fsub v (fa_offset a)) (B2R v - o) (ulp1 * (10001 / 10000 * Rabs s) + tiny)).
  { eapply near_sub; [apply near_exact, F1|apply near_exact, F2|exact DV| |]; lra. }
  eapply near_div; [exact N1|exact F3|exact NZ|exact HN| | |].
  - fold s. rewrite AI. rewrite Rmult_plus_distr_r. replace (ulp1 * (10001 / 10000 * Rabs s) * / Rabs s) with (ulp1 * (10001 / 10000)) by (field; lra).
    apply Rplus_le_compat_l. apply Rmult_le_compat_l; [lra|exact IS].
  - nra.
  - nra.
Qed.
Lemma cubic_move cs es x y z x' y' z' b e : Forall (fun t => let '(i, j, k) := t in (i + j + k <= 3)%nat) es -> 1 <= b -> 0 <= e ->
  Rabs x <= b -> Rabs y <= b -> Rabs z <= b -> Rabs (x' - x) <= e -> Rabs (y' - y) <= e -> Rabs (z' - z) <= e ->
  Rabs (cubic_sum cs es x' y' z' - cubic_sum cs es x y z) <= ((b + e) ^ 3 - b ^ 3) * abs_sum cs /\ Rabs (cubic_sum cs es x y z) <= b ^ 3 * abs_sum cs.
Proof.
  intros F B E X Y Z DX DY DZ.
  assert (PW : forall u u', Rabs u <= b -> Rabs (u' - u) <= e -> forall n, Rabs (u' ^ n - u ^ n) <= (b + e) ^ n - b ^ n /\ Rabs (u ^ n) <= b ^ n).
  { intros u u' HU DU. induction n as [|n [I1 I2]]; [cbn; rewrite Rminus_eq_0, Rabs_R0, Rabs_R1; lra|]. cbn [pow].
    destruct (product_error u' (u' ^ n) u (u ^ n) b (b ^ n) (b + e) ((b + e) ^ n)) as (A & C & _); try assumption; [lra|]. split; [exact A|exact C]. }
  assert (P1 : forall n, 1 <= b ^ n) by (intros; now apply pow_R1_Rle).
  assert (P2 : forall n, 1 <= (b + e) ^ n) by (intros; apply pow_R1_Rle; lra).
  assert (PD : forall i j, (i <= j)%nat -> (b + e) ^ i - b ^ i <= (b + e) ^ j - b ^ j).
  { induction 1 as [|j H IH]; [lra|]. eapply Rle_trans; [exact IH|]. cbn [pow]. pose proof (P1 j). pose proof (P2 j). assert (b ^ j <= (b + e) ^ j) by (apply pow_incr; lra). nra. }
  assert (PM : forall i j, (i <= j)%nat -> b ^ i <= b ^ j) by (intros; now apply Rle_pow).
  revert es F. induction cs as [|c cs IH]; intros es F.
  - cbn. rewrite Rminus_eq_0, Rabs_R0. split; lra.
  - destruct es as [|[[i j] k] es].
    + cbn [cubic_sum]. rewrite Rminus_eq_0, Rabs_R0. pose proof (abs_sum_pos (c :: cs)). split; apply Rmult_le_pos; try assumption; [pose proof (PD 0%nat 3%nat ltac:(lia)); cbn in *; lra|pose proof (P1 3%nat); lra].
    + inversion F as [|? ? H3 F']; subst. destruct (IH es F') as [I1 I2]. cbn [cubic_sum]. change (abs_sum (c :: cs)) with (Rabs c + abs_sum cs).
      destruct (PW x x' X DX i) as [A1 A2]. destruct (PW y y' Y DY j) as [B1 B2]. destruct (PW z z' Z DZ k) as [C1 C2].
      destruct (product_error _ _ _ _ _ _ _ _ A1 A2 B1 B2) as (D1 & D2 & _). destruct (product_error _ _ _ _ _ _ _ _ D1 D2 C1 C2) as (E1 & E2 & _).
      assert (G1 : Rabs (x' ^ i * y' ^ j * z' ^ k - x ^ i * y ^ j * z ^ k) <= (b + e) ^ 3 - b ^ 3).
      { eapply Rle_trans; [exact E1|]. rewrite <- !pow_add. apply PD. exact H3. }
      assert (G2 : Rabs (x ^ i * y ^ j * z ^ k) <= b ^ 3) by (eapply Rle_trans; [exact E2|]; rewrite <- !pow_add; now apply PM).
      split.
      * replace (c * x' ^ i * y' ^ j * z' ^ k + cubic_sum cs es x' y' z' - (c * x ^ i * y ^ j * z ^ k + cubic_sum cs es x y z))
          with (c * (x' ^ i * y' ^ j * z' ^ k - x ^ i * y ^ j * z ^ k) + (cubic_sum cs es x' y' z' - cubic_sum cs es x y z)) by ring.
        eapply Rle_trans; [apply Rabs_triang|]. rewrite Rabs_mult, Rmult_plus_distr_l. apply Rplus_le_compat; [|exact I1]. rewrite Rmult_comm. apply Rmult_le_compat_r; [apply Rabs_pos|exact G1].
      * replace (c * x ^ i * y ^ j * z ^ k) with (c * (x ^ i * y ^ j * z ^ k)) by ring. eapply Rle_trans; [apply Rabs_triang|]. rewrite Rabs_mult, Rmult_plus_distr_l. apply Rplus_le_compat; [|exact I2].
        rewrite Rmult_comm. apply Rmult_le_compat_r; [apply Rabs_pos|exact G2].
Qed.
Lemma exponents_3 : Forall (fun t => let '(i, j, k) := t in (i + j + k <= 3)%nat) rpc_exponents.
Proof. unfold rpc_exponents. repeat (apply Forall_cons; [lia|]). apply Forall_nil. Qed.

(** ** The polynomials of the points *)
Lemma point_near ax ay az c x y z v : length c = 20%nat -> Forall (fun a : b64 => is_finite a = true) c -> finite_axis ax -> finite_axis ay -> finite_axis az ->
  inside x ax -> inside y ay -> inside z az -> abs_sum (map B2R c) <= 1000000000 ->
  compiled_polynomial (fnormalise x (fa_offset ax) (fa_scale ax)) (fnormalise y (fa_offset ay) (fa_scale ay)) (fnormalise z (fa_offset az) (fa_scale az)) c v ->
  near v (cubic (map B2R c) (normal x ax) (normal y ay) (normal z az)) (ulp1 * (31 * abs_sum (map B2R c) + 1 / 1000)) /\
  Rabs (cubic (map B2R c) (normal x ax) (normal y ay) (normal z az)) <= 1001 / 1000 * abs_sum (map B2R c).
Proof.
  intros L F (X1 & X2 & X3) (Y1 & Y2 & Y3) (Z1 & Z2 & Z3) (IX & NX) (IY & NY) (IZ & NZ) S HV. unfold normal in *.
  destruct (normalise_near _ _ IX X1 X2 X3 NX) as [FX EX]. destruct (normalise_near _ _ IY Y1 Y2 Y3 NY) as [FY EY]. destruct (normalise_near _ _ IZ Z1 Z2 Z3 NZ) as [FZ EZ].
  set (xn := (B2R x - B2R (fa_offset ax)) / B2R (fa_scale ax)) in *. set (yn := (B2R y - B2R (fa_offset ay)) / B2R (fa_scale ay)) in *. set (zn := (B2R z - B2R (fa_offset az)) / B2R (fa_scale az)) in *.
  pose proof ulp1_pos as U0. pose proof ulp1_small as U1.
  apply polynomial_near in HV; try assumption; try (eapply Rle_trans; [eapply near_bound; eassumption|]; lra).
  destruct HV as [FV EV]. pose proof (abs_sum_pos (map B2R c)) as S0. set (s := abs_sum (map B2R c)) in *.
  destruct (cubic_move (map B2R c) rpc_exponents xn yn zn _ _ _ (10001 / 10000) (2001 / 1000 * ulp1) exponents_3 ltac:(lra) ltac:(lra) NX NY NZ EX EY EZ) as [M1 M2]. fold s in M1, M2.
  fold (cubic (map B2R c)) in M1, M2. unfold cubic in *. split.
  - split; [exact FV|]. match goal with |- Rabs (?a - ?b) <= _ => match type of EV with Rabs (_ - ?m) <= _ => replace (a - b) with ((a - m) + (m - b)) by ring end end.
    eapply Rle_trans; [apply Rabs_triang|]. eapply Rle_trans; [apply Rplus_le_compat; [exact EV|exact M1]|].
    assert (K : (10001 / 10000 + 2001 / 1000 * ulp1) ^ 3 - (10001 / 10000) ^ 3 <= 61 / 10 * ulp1).
    { cbn [pow]. assert (ulp1 * ulp1 <= ulp1 * / 1000000) by (apply Rmult_le_compat_l; lra). assert (ulp1 * (ulp1 * ulp1) <= ulp1 * (ulp1 * / 1000000)) by (apply Rmult_le_compat_l; lra). nra. }
    assert (((10001 / 10000 + 2001 / 1000 * ulp1) ^ 3 - (10001 / 10000) ^ 3) * s <= 61 / 10 * ulp1 * s) by (apply Rmult_le_compat_r; lra).
    assert (0 <= ulp1 * s) by (apply Rmult_le_pos; lra). lra.
  - eapply Rle_trans; [exact M2|]. apply Rmult_le_compat_r; [lra|]. cbn [pow]. lra.
Qed.
