(** Rounding error of the rational functions of the RPC models: the quotient, the scale and the offset. *)
From Coq Require Import ZArith Reals List Bool Permutation Lia Lra Psatz.
From Flocq Require Import Core BinarySingleNaN.
From Verif Require Import FloatModel Float FloatErr FloatRpcModel FloatEval RpcSpec FloatRpcSpec FloatRpc.
Import ListNotations.
Open Scope R_scope.

Definition large : R := 10000000000000000000.
(** [x] is [a] up to [k] relative roundings and [t] underflows. *)
Definition rel (x : b64) (a k t : R) : Prop := near x a (k * ulp1 * Rabs a + t * tiny) /\ 0 <= k <= 3 /\ 0 <= t <= 10 * large.
Lemma rel_exact x : is_finite x = true -> rel x (B2R x) 0 0.
Proof. intros F. split; [|unfold large; lra]. eapply near_weaken; [now apply near_exact|]. lra. Qed.
Lemma big_ulp : 1000000000000000 * ulp1 <= 1. Proof. pose proof ulp1_tiny. lra. Qed.
Lemma rel_product x y a b k1 k2 t1 t2 : rel x a k1 t1 -> rel y b k2 t2 -> Rabs a <= large -> Rabs b <= large ->
  Rabs (B2R x * B2R y - a * b) <= (k1 + k2 + / 2000) * ulp1 * Rabs (a * b) + (t1 + t2) * (2 * large) * tiny.
Proof.
  intros ([_ H1] & K1 & T1) ([_ H2] & K2 & T2) A B. pose proof ulp1_pos as U0. pose proof ulp1_small as U1. pose proof tiny_pos as T0. pose proof big_tiny as TT.
  pose proof (Rabs_pos a) as A0. pose proof (Rabs_pos b) as B0. pose proof (Rabs_pos (B2R x - a)). pose proof (Rabs_pos (B2R y - b)).
  replace (B2R x * B2R y - a * b) with ((B2R x - a) * b + a * (B2R y - b) + (B2R x - a) * (B2R y - b)) by ring.
  eapply Rle_trans; [apply Rabs_triang|]. eapply Rle_trans; [apply Rplus_le_compat; [apply Rabs_triang|apply Rle_refl]|]. rewrite !Rabs_mult.
  set (p := Rabs a) in *. set (q := Rabs b) in *. set (e := Rabs (B2R x - a)) in *. set (f := Rabs (B2R y - b)) in *.
  assert (E1 : e * q <= (k1 * ulp1 * p + t1 * tiny) * q) by (apply Rmult_le_compat_r; lra).
  assert (E2 : p * f <= p * (k2 * ulp1 * q + t2 * tiny)) by (apply Rmult_le_compat_l; lra).
  assert (E3 : e * f <= (k1 * ulp1 * p + t1 * tiny) * (k2 * ulp1 * q + t2 * tiny)) by (apply Rmult_le_compat; lra).
  assert (PQ : 0 <= p * q) by (apply Rmult_le_pos; lra).
  assert (X1 : t1 * tiny * q <= t1 * tiny * large) by (apply Rmult_le_compat_l; [apply Rmult_le_pos; lra|lra]).
  assert (X2 : p * (t2 * tiny) <= large * (t2 * tiny)) by (apply Rmult_le_compat_r; [apply Rmult_le_pos; lra|lra]).
  assert (KK : k1 * ulp1 * p * (k2 * ulp1 * q) <= / 2000 * ulp1 * (p * q)).
  { replace (k1 * ulp1 * p * (k2 * ulp1 * q)) with (k1 * k2 * ulp1 * (ulp1 * (p * q))) by ring. replace (/ 2000 * ulp1 * (p * q)) with (/ 2000 * (ulp1 * (p * q))) by ring.
    apply Rmult_le_compat_r; [apply Rmult_le_pos; lra|]. assert (k1 * k2 <= 9) by nra. assert (k1 * k2 * ulp1 <= 9 * ulp1) by (apply Rmult_le_compat_r; lra). lra. }
  assert (T1t : t1 * tiny <= 1) by (unfold large in *; nra).
  assert (Y1 : k1 * ulp1 * p * (t2 * tiny) <= / 2 * large * (t2 * tiny)).
  { apply Rmult_le_compat_r; [apply Rmult_le_pos; lra|]. assert (k1 * ulp1 <= 3 * ulp1) by (apply Rmult_le_compat_r; lra). replace (k1 * ulp1 * p) with (p * (k1 * ulp1)) by ring.
    assert (p * (k1 * ulp1) <= large * (k1 * ulp1)) by (apply Rmult_le_compat_r; [apply Rmult_le_pos; lra|lra]). unfold large in *. nra. }
  assert (Y2 : t1 * tiny * (k2 * ulp1 * q) <= t1 * tiny * (/ 2 * large)).
  { apply Rmult_le_compat_l; [apply Rmult_le_pos; lra|]. assert (k2 * ulp1 <= 3 * ulp1) by (apply Rmult_le_compat_r; lra).
    assert (k2 * ulp1 * q <= k2 * ulp1 * large) by (apply Rmult_le_compat_l; [apply Rmult_le_pos; lra|lra]). unfold large in *. nra. }
  assert (Y3 : t1 * tiny * (t2 * tiny) <= 1 * (t2 * tiny)) by (apply Rmult_le_compat_r; [apply Rmult_le_pos; lra|lra]).
  assert (0 <= t2 * tiny) by (apply Rmult_le_pos; lra). assert (0 <= t1 * tiny) by (apply Rmult_le_pos; lra).
  assert (Y4 : 1 * (t2 * tiny) <= / 2 * large * (t2 * tiny)) by (apply Rmult_le_compat_r; [lra|unfold large; lra]).
  replace ((k1 * ulp1 * p + t1 * tiny) * (k2 * ulp1 * q + t2 * tiny)) with (k1 * ulp1 * p * (k2 * ulp1 * q) + k1 * ulp1 * p * (t2 * tiny) + t1 * tiny * (k2 * ulp1 * q) + t1 * tiny * (t2 * tiny)) in E3 by ring.
  replace ((k1 * ulp1 * p + t1 * tiny) * q) with (k1 * ulp1 * (p * q) + t1 * tiny * q) in E1 by ring.
  replace (p * (k2 * ulp1 * q + t2 * tiny)) with (k2 * ulp1 * (p * q) + p * (t2 * tiny)) in E2 by ring.
  assert (0 <= large * (t1 * tiny)) by (apply Rmult_le_pos; [unfold large; lra|assumption]).
  replace ((k1 + k2 + / 2000) * ulp1 * (p * q) + (t1 + t2) * (2 * large) * tiny) with (k1 * ulp1 * (p * q) + k2 * ulp1 * (p * q) + / 2000 * ulp1 * (p * q) + 2 * (large * (t1 * tiny)) + 2 * (large * (t2 * tiny))) by ring.
  lra.
Qed.
(** One more rounding. *)
Lemma rounding_error w z v k t : is_finite w = true -> B2R w = rnd z -> Rabs (z - v) <= k * ulp1 * Rabs v + t * tiny -> 0 <= k <= 7 -> 0 <= t ->
  near w v ((k + 1 + / 2000) * ulp1 * Rabs v + (2 * t + 1) * tiny).
Proof.
  intros F E H K T. eapply near_round; [exact F|exact E|exact H|apply Rle_refl|]. pose proof ulp1_pos as U0. pose proof ulp1_small as U1. pose proof tiny_pos as T0. pose proof (Rabs_pos v) as V0.
  assert (0 <= ulp1 * Rabs v) by (apply Rmult_le_pos; lra). assert (0 <= t * tiny) by (apply Rmult_le_pos; lra).
  assert (k * (ulp1 * Rabs v) <= 7 * (ulp1 * Rabs v)) by (apply Rmult_le_compat_r; lra).
  assert (ulp1 * (k * (ulp1 * Rabs v)) <= / 1000000 * (7 * (ulp1 * Rabs v))) by (apply Rmult_le_compat; try lra; apply Rmult_le_pos; lra).
  assert (ulp1 * (t * tiny) <= 1 * (t * tiny)) by (apply Rmult_le_compat_r; lra). lra.
Qed.
Lemma rel_mul x y a b k1 k2 t1 t2 : rel x a k1 t1 -> rel y b k2 t2 -> Rabs a <= large -> Rabs b <= large ->
  near (fmul x y) (a * b) ((k1 + k2 + 1 + / 1000) * ulp1 * Rabs (a * b) + (2 * ((t1 + t2) * (2 * large)) + 1) * tiny).
Proof.
  intros RX RY A B. pose proof (rel_product _ _ _ _ _ _ _ _ RX RY A B) as P. destruct RX as ([F1 _] & K1 & T1). destruct RY as ([F2 _] & K2 & T2).
  pose proof ulp1_pos as U0. pose proof ulp1_small as U1. pose proof tiny_pos as T0. pose proof big_tiny as TT. pose proof big_huge as HH. pose proof (Rabs_pos (a * b)) as V0.
  assert (AB : Rabs (a * b) <= large * large) by (rewrite Rabs_mult; apply Rmult_le_compat; try assumption; apply Rabs_pos).
  assert (TT2 : (t1 + t2) * (2 * large) * tiny <= 1).
  { assert ((t1 + t2) * (2 * large) <= 20 * large * (2 * large)) by (apply Rmult_le_compat; unfold large in *; lra).
    assert ((t1 + t2) * (2 * large) * tiny <= 20 * large * (2 * large) * tiny) by (apply Rmult_le_compat_r; lra). unfold large in *. nra. }
  assert (S1 : (k1 + k2 + / 2000) * ulp1 * Rabs (a * b) <= 1 * Rabs (a * b)) by (apply Rmult_le_compat_r; [exact V0|nra]).
  destruct (fmul_round x y F1 F2) as [E F].
  { apply huge_lt. replace (B2R x * B2R y) with ((B2R x * B2R y - a * b) + a * b) by ring. eapply Rle_trans; [apply Rabs_triang|]. unfold large in *. lra. }
  eapply near_weaken; [eapply rounding_error; [exact F|exact E|exact P|lra|apply Rmult_le_pos; unfold large; lra]|]. 
  assert (0 <= ulp1 * Rabs (a * b)) by (apply Rmult_le_pos; lra). apply Rplus_le_compat_r. apply Rmult_le_compat_r; [exact V0|]. apply Rmult_le_compat_r; lra.
Qed.
Lemma rel_div x y a k t : rel x a k t -> is_finite y = true -> / 2000 <= Rabs (B2R y) -> Rabs a <= large -> k <= 2 ->
  near (fdiv x y) (a / B2R y) ((k + 1 + / 1000) * ulp1 * Rabs (a / B2R y) + (2 * (2000 * t) + 1) * tiny).
Proof.
  intros ([F1 H1] & K1 & T1) F2 Y A K2. assert (NZ : B2R y <> 0) by (intros E; rewrite E, Rabs_R0 in Y; lra).
  pose proof ulp1_pos as U0. pose proof ulp1_small as U1. pose proof tiny_pos as T0. pose proof big_tiny as TT. pose proof big_huge as HH.
  assert (IY : 0 < / Rabs (B2R y) <= 2000) by (split; [apply Rinv_0_lt_compat; lra|rewrite <- (Rinv_inv 2000); apply Rinv_le; lra]).
  assert (AI : Rabs (/ B2R y) = / Rabs (B2R y)) by apply Rabs_inv.
  assert (AD : Rabs (a / B2R y) = Rabs a * / Rabs (B2R y)) by (unfold Rdiv; now rewrite Rabs_mult, AI).
  assert (P : Rabs (B2R x / B2R y - a / B2R y) <= k * ulp1 * Rabs (a / B2R y) + 2000 * t * tiny).
  { replace (B2R x / B2R y - a / B2R y) with ((B2R x - a) * / B2R y) by (field; exact NZ). rewrite Rabs_mult, AI. eapply Rle_trans; [apply Rmult_le_compat_r; [lra|exact H1]|].
    rewrite AD. rewrite Rmult_plus_distr_r, <- Rmult_assoc. apply Rplus_le_compat_l. rewrite (Rmult_assoc 2000), (Rmult_comm 2000). apply Rmult_le_compat_l; [apply Rmult_le_pos; lra|lra]. }
  pose proof (Rabs_pos a) as A0. assert (AB : Rabs (a / B2R y) <= large * 2000) by (rewrite AD; apply Rmult_le_compat; lra).
  pose proof (Rabs_pos (a / B2R y)) as V0.
  assert (TT2 : 2000 * t * tiny <= 1) by (unfold large in *; nra).
  assert (S1 : k * ulp1 * Rabs (a / B2R y) <= 1 * Rabs (a / B2R y)) by (apply Rmult_le_compat_r; [exact V0|nra]).
  destruct (fdiv_round x y F1 NZ) as [E F].
  { apply huge_lt. replace (B2R x / B2R y) with ((B2R x / B2R y - a / B2R y) + a / B2R y) by ring. eapply Rle_trans; [apply Rabs_triang|]. unfold large in *. lra. }
  eapply near_weaken; [eapply rounding_error; [exact F|exact E|exact P|lra|lra]|]. apply Rplus_le_compat_r. apply Rmult_le_compat_r; [exact V0|]. apply Rmult_le_compat_r; lra.
Qed.
Lemma rel_of x a k t k' t' : near x a (k * ulp1 * Rabs a + t * tiny) -> k <= k' -> t <= t' -> 0 <= k' <= 3 -> 0 <= t' <= 10 * large -> rel x a k' t'.
Proof.
  intros N K T K3 TL. split; [|tauto]. eapply near_weaken; [exact N|]. pose proof ulp1_pos. pose proof tiny_pos. pose proof (Rabs_pos a). apply Rplus_le_compat; [|apply Rmult_le_compat_r; lra].
  apply Rmult_le_compat_r; [lra|]. apply Rmult_le_compat_r; lra.
Qed.
Lemma abs_mul_le a b A B : Rabs a <= A -> Rabs b <= B -> Rabs (a * b) <= A * B.
Proof. intros. rewrite Rabs_mult. apply Rmult_le_compat; try assumption; apply Rabs_pos. Qed.

Lemma factors_rel n d s a b : is_finite n = true -> is_finite d = true -> is_finite s = true -> Rabs (B2R n) <= 2000000000 -> / 2000 <= Rabs (B2R d) -> Rabs (B2R s) <= 1000000000 ->
  fast_factors n d s a b -> exists p q k1 k2, p * q = B2R n / B2R d * B2R s /\ Rabs p <= large /\ Rabs q <= large /\
    rel a p k1 (5 * large) /\ rel b q k2 (5 * large) /\ k1 + k2 <= 21 / 10.
Proof.
  intros Fn Fd Fs Hn Hd Hs H. assert (NZ : B2R d <> 0) by (intros E; rewrite E, Rabs_R0 in Hd; lra).
  assert (ID : Rabs (/ B2R d) <= 2000) by (rewrite Rabs_inv, <- (Rinv_inv 2000); apply Rinv_le; lra).
  assert (L1 : 1 <= large) by (unfold large; lra).
  pose proof (rel_exact n Fn) as Rn. pose proof (rel_exact s Fs) as Rs. pose proof (rel_exact (fint 1) (proj2 fint1)) as R1. rewrite (proj1 fint1) in R1.
  assert (Rn5 : rel n (B2R n) 0 (5 * large)) by (eapply rel_of; [apply Rn| | | |]; unfold large; lra).
  assert (Rs5 : rel s (B2R s) 0 (5 * large)) by (eapply rel_of; [apply Rs| | | |]; unfold large; lra).
  assert (Ri : rel (fdiv (fint 1) d) (1 / B2R d) (1002 / 1000) 1).
  { eapply rel_of; [apply (rel_div _ _ _ _ _ R1 Fd Hd)| | | |]; unfold large; try rewrite Rabs_R1; lra. }
  assert (Ai : Rabs (1 / B2R d) <= 2000) by (unfold Rdiv; now rewrite Rmult_1_l).
  destruct H.
  - exists (B2R n / B2R d), (B2R s), (1002 / 1000), 0. split; [reflexivity|]. split; [apply Rle_trans with (2000000000 * 2000); [now apply abs_mul_le|unfold large; lra]|]. split; [unfold large; lra|]. split; [|split; [exact Rs5|lra]].
    eapply rel_of; [apply (rel_div _ _ _ _ _ Rn Fd Hd)| | | |]; unfold large; lra.
  - exists (B2R n), (B2R s / B2R d), 0, (1002 / 1000). split; [field; exact NZ|]. split; [unfold large; lra|]. split; [apply Rle_trans with (1000000000 * 2000); [now apply abs_mul_le|unfold large; lra]|]. split; [exact Rn5|split; [|lra]].
    eapply rel_of; [apply (rel_div _ _ _ _ _ Rs Fd Hd)| | | |]; unfold large; lra.
  - exists (B2R n * (1 / B2R d)), (B2R s), (2004 / 1000), 0. split; [field; exact NZ|]. split; [apply Rle_trans with (2000000000 * 2000); [now apply abs_mul_le|unfold large; lra]|]. split; [unfold large; lra|]. split; [|split; [exact Rs5|lra]].
    eapply rel_of; [apply (rel_mul _ _ _ _ _ _ _ _ Rn Ri)| | | |]; unfold large; lra.
  - exists (B2R n), (1 / B2R d * B2R s), 0, (2004 / 1000). split; [field; exact NZ|]. split; [unfold large; lra|]. split; [apply Rle_trans with (2000 * 1000000000); [now apply abs_mul_le|unfold large; lra]|]. split; [exact Rn5|split; [|lra]].
    eapply rel_of; [apply (rel_mul _ _ _ _ _ _ _ _ Ri Rs)| | | |]; unfold large; lra.
  - exists (B2R n * B2R s), (1 / B2R d), (1002 / 1000), (1002 / 1000). split; [field; exact NZ|]. split; [apply Rle_trans with (2000000000 * 1000000000); [now apply abs_mul_le|unfold large; lra]|]. split; [unfold large; lra|]. split; [|split; [|lra]].
    + eapply rel_of; [apply (rel_mul _ _ _ _ _ _ _ _ Rn Rs)| | | |]; unfold large; lra.
    + eapply rel_of; [apply Ri| | | |]; unfold large; lra.
Qed.
Lemma add_offset w v e o c k : near w v e -> is_finite o = true -> Rabs (B2R o) <= 1000000000 -> Rabs v <= c -> c <= 10000000000000000000000 -> e <= k * ulp1 * c + / 10000 * ulp1 -> 0 <= k <= 7 ->
  near (fadd w o) (v + B2R o) (ulp1 * ((k + 1 + / 1000) * c + Rabs (B2R o) + / 1000)).
Proof.
  intros N F O V C E K. pose proof ulp1_pos as U0. pose proof ulp1_small as U1. pose proof tiny_pos as T0. pose proof big_tiny as TT. pose proof big_huge as HH. pose proof (Rabs_pos v) as V0. pose proof (Rabs_pos (B2R o)) as O0.
  assert (E0 : 0 <= e) by (destruct N as [_ N]; eapply Rle_trans; [apply Rabs_pos|exact N]).
  assert (0 <= ulp1 * c) by (apply Rmult_le_pos; lra). assert (k * (ulp1 * c) <= 7 * (ulp1 * c)) by (apply Rmult_le_compat_r; lra).
  assert (E7 : e <= 7 * (ulp1 * c) + ulp1) by lra. assert (UE : ulp1 * e <= / 1000000 * (7 * (ulp1 * c) + ulp1)) by (apply Rmult_le_compat; lra).
  assert (UC : ulp1 * c <= 1 * c) by (apply Rmult_le_compat_r; lra).
  assert (TU : tiny <= ulp1 / 100000) by nra.
  eapply near_add with (c := c + Rabs (B2R o)); [exact N|apply near_exact, F| | |].
  - eapply Rle_trans; [apply Rabs_triang|lra].
  - lra.
  - lra.
Qed.
Lemma output_near n d s o v : is_finite n = true -> is_finite d = true -> is_finite s = true -> is_finite o = true ->
  Rabs (B2R n) <= 2000000000 -> / 2000 <= Rabs (B2R d) -> Rabs (B2R s) <= 1000000000 -> Rabs (B2R o) <= 1000000000 -> fast_output n d s o v ->
  near v (B2R n / B2R d * B2R s + B2R o) (ulp1 * (42 / 10 * Rabs (B2R n / B2R d * B2R s) + Rabs (B2R o) + / 1000)).
Proof.
  intros Fn Fd Fs Fo Hn Hd Hs Ho H. assert (NZ : B2R d <> 0) by (intros E; rewrite E, Rabs_R0 in Hd; lra).
  assert (ID : Rabs (/ B2R d) <= 2000) by (rewrite Rabs_inv, <- (Rinv_inv 2000); apply Rinv_le; lra).
  pose proof ulp1_pos as U0. pose proof ulp1_small as U1. pose proof tiny_pos as T0. pose proof big_tiny as TT. pose proof big_huge as HH.
  set (r := B2R n / B2R d * B2R s). assert (Hr : Rabs r <= 10000000000000000000000).
  { apply Rle_trans with (2000000000 * 2000 * 1000000000); [|lra]. apply abs_mul_le; [now apply abs_mul_le|exact Hs]. }
  assert (T2 : (20 * large * (2 * large) * 2 + 1) * tiny <= / 10000 * ulp1) by (unfold large; nra).
  destruct H as [a b HF|a b HF|].
  - destruct (factors_rel n d s a b Fn Fd Fs Hn Hd Hs HF) as (p & q & k1 & k2 & E & P & Q & R1 & R2 & K). fold r in E. rewrite <- E in *.
    pose proof (rel_mul _ _ _ _ _ _ _ _ R1 R2 P Q) as M. destruct R1 as (_ & K1 & _). destruct R2 as (_ & K2 & _).
    pose proof (Rabs_pos (p * q)) as V0. assert (UV : 0 <= ulp1 * Rabs (p * q)) by (apply Rmult_le_pos; lra).
    eapply near_weaken; [eapply add_offset with (k := 3102 / 1000); [exact M|exact Fo|exact Ho|apply Rle_refl|exact Hr| |lra]|].
    + apply Rplus_le_compat; [apply Rmult_le_compat_r; [exact V0|]; apply Rmult_le_compat_r; lra|]. eapply Rle_trans; [|exact T2]. apply Rmult_le_compat_r; [lra|]. unfold large. lra.
    + apply Rmult_le_compat_l; lra.
  - destruct (factors_rel n d s a b Fn Fd Fs Hn Hd Hs HF) as (p & q & k1 & k2 & E & P & Q & R1 & R2 & K). fold r in E. rewrite <- E in *.
    pose proof (rel_product _ _ _ _ _ _ _ _ R1 R2 P Q) as M. destruct R1 as ([Fa _] & K1 & _). destruct R2 as ([Fb _] & K2 & _).
    pose proof (Rabs_pos (p * q)) as V0. assert (UV : 0 <= ulp1 * Rabs (p * q)) by (apply Rmult_le_pos; lra). pose proof (Rabs_pos (B2R o)) as O0.
    set (e := (k1 + k2 + / 2000) * ulp1 * Rabs (p * q) + (5 * large + 5 * large) * (2 * large) * tiny) in *.
    assert (E3 : e <= 2101 / 1000 * (ulp1 * Rabs (p * q)) + / 10000 * ulp1).
    { unfold e. apply Rplus_le_compat; [rewrite Rmult_assoc; apply Rmult_le_compat_r; lra|]. eapply Rle_trans; [|exact T2]. apply Rmult_le_compat_r; [lra|]. unfold large. lra. }
    assert (E0 : 0 <= e) by (eapply Rle_trans; [apply Rabs_pos|exact M]).
    assert (UC : ulp1 * Rabs (p * q) <= 1 * Rabs (p * q)) by (apply Rmult_le_compat_r; lra).
    assert (Z : Rabs (B2R a * B2R b + B2R o - (p * q + B2R o)) <= e) by (replace (B2R a * B2R b + B2R o - (p * q + B2R o)) with (B2R a * B2R b - p * q) by ring; exact M).
    assert (V : Rabs (p * q + B2R o) <= Rabs (p * q) + Rabs (B2R o)) by apply Rabs_triang.
    destruct (ffma_round a b o Fa Fb Fo) as [E' F'].
    { apply huge_lt. eapply Rle_trans; [eapply near_bound; [exact Z|exact V]|]. lra. }
    eapply near_round; [exact F'|exact E'|exact Z|exact V|].
    assert (UE : ulp1 * e <= / 1000000 * (2101 / 1000 * (ulp1 * Rabs (p * q)) + / 10000 * ulp1)) by (apply Rmult_le_compat; lra). assert (TU : tiny <= ulp1 / 100000) by nra. lra.
  - assert (Rm : rel (fmul n s) (B2R n * B2R s) (1002 / 1000) 1).
    { eapply rel_of; [apply (rel_mul _ _ _ _ _ _ _ _ (rel_exact n Fn) (rel_exact s Fs))| | | |]; unfold large; lra. }
    assert (An : Rabs (B2R n * B2R s) <= large) by (apply Rle_trans with (2000000000 * 1000000000); [now apply abs_mul_le|unfold large; lra]).
    pose proof (rel_div _ _ _ _ _ Rm Fd Hd An ltac:(lra)) as M. assert (Er : B2R n * B2R s / B2R d = r) by (unfold r; field; exact NZ). rewrite Er in M.
    pose proof (Rabs_pos r) as V0. assert (UV : 0 <= ulp1 * Rabs r) by (apply Rmult_le_pos; lra).
    eapply near_weaken; [eapply add_offset with (k := 21 / 10); [exact M|exact Fo|exact Ho|apply Rle_refl|exact Hr| |lra]|].
    + apply Rplus_le_compat; [apply Rmult_le_compat_r; [exact V0|]; apply Rmult_le_compat_r; lra|]. eapply Rle_trans; [|exact T2]. apply Rmult_le_compat_r; [lra|]. unfold large. lra.
    + apply Rmult_le_compat_l; lra.
Qed.

(** ** The rational function *)
Lemma quotient_error n d N D en ed delta : 0 < delta <= Rabs D -> Rabs (n - N) <= en -> Rabs (d - D) <= ed -> ed <= delta / 100 ->
  99 / 100 * delta <= Rabs d /\ Rabs (n / d - N / D) <= (en + Rabs (N / D) * ed) / (99 / 100 * delta).
Proof.
  intros HD HN Hd E. assert (A : 99 / 100 * delta <= Rabs d).
  { pose proof (Rabs_triang_inv D (D - d)) as T. replace (D - (D - d)) with d in T by ring. rewrite (Rabs_minus_sym D d) in T. lra. }
  split; [exact A|]. assert (D0 : D <> 0) by (intros Z; rewrite Z, Rabs_R0 in HD; lra). assert (d0 : d <> 0) by (intros Z; rewrite Z, Rabs_R0 in A; lra).
  replace (n / d - N / D) with (((n - N) - N / D * (d - D)) * / d) by (field; auto). rewrite Rabs_mult, Rabs_inv. pose proof (Rabs_pos (N / D)).
  assert (0 <= en) by (eapply Rle_trans; [apply Rabs_pos|exact HN]). assert (0 <= ed) by (eapply Rle_trans; [apply Rabs_pos|exact Hd]).
  apply Rmult_le_compat; [apply Rabs_pos|apply Rlt_le, Rinv_0_lt_compat; lra| |apply Rinv_le; lra].
  unfold Rminus at 1. eapply Rle_trans; [apply Rabs_triang|]. rewrite Rabs_Ropp, Rabs_mult. apply Rplus_le_compat; [exact HN|]. apply Rmult_le_compat_l; assumption.
Qed.
Lemma rational_near ax ay az out num den x y z v delta :
  coefficients num -> coefficients den -> finite_axis ax -> finite_axis ay -> finite_axis az -> inside x ax -> inside y ay -> inside z az ->
  abs_sum (map B2R num) <= 1000000000 -> abs_sum (map B2R den) <= 1000000000 ->
  is_finite (fa_offset out) = true -> is_finite (fa_scale out) = true -> Rabs (B2R (fa_offset out)) <= 1000000000 -> Rabs (B2R (fa_scale out)) <= 1000000000 ->
  / 1000 <= delta <= Rabs (cubic (map B2R den) (normal x ax) (normal y ay) (normal z az)) -> ulp1 * (31 * abs_sum (map B2R den) + 1) <= delta / 100 ->
  compiled_rational ax ay az out num den x y z v ->
  let q := cubic (map B2R num) (normal x ax) (normal y ay) (normal z az) / cubic (map B2R den) (normal x ax) (normal y ay) (normal z az) in
  near v (q * B2R (fa_scale out) + B2R (fa_offset out))
    (ulp1 * (Rabs (B2R (fa_scale out)) * (32 * (abs_sum (map B2R num) + 1 + Rabs q * (abs_sum (map B2R den) + 1)) / delta + 5 * Rabs q) + Rabs (B2R (fa_offset out)) + 1)).
Proof.
  intros [Ln Fn] [Ld Fd] AX AY AZ IX IY IZ Sn Sd Fo Fs Ho Hs HD HE (n & d & Hn & Hd & HV) q.
  destruct (point_near _ _ _ _ _ _ _ _ Ln Fn AX AY AZ IX IY IZ Sn Hn) as [[n1 n2] n3]. destruct (point_near _ _ _ _ _ _ _ _ Ld Fd AX AY AZ IX IY IZ Sd Hd) as [[d1 d2] d3].
  pose proof (abs_sum_pos (map B2R num)) as Sn0. pose proof (abs_sum_pos (map B2R den)) as Sd0.
  set (sn := abs_sum (map B2R num)) in *. set (sd := abs_sum (map B2R den)) in *. set (N := cubic (map B2R num) _ _ _) in *. set (D := cubic (map B2R den) _ _ _) in *.
  pose proof ulp1_pos as U0. pose proof ulp1_small as U1. pose proof ulp1_tiny as U2.
  assert (USd : ulp1 * (31 * sd + 1 / 1000) <= ulp1 * (31 * sd + 1)) by (apply Rmult_le_compat_l; lra).
  assert (DP : 0 < delta <= Rabs D) by lra. assert (ED : ulp1 * (31 * sd + 1 / 1000) <= delta / 100) by lra.
  destruct (quotient_error _ _ _ _ _ _ delta DP n2 d2 ED) as [Q1 Q2]. fold q in Q2.
  assert (Bn : Rabs (B2R n) <= 2000000000).
  { eapply Rle_trans; [eapply near_bound; [exact n2|exact n3]|]. assert (ulp1 * (31 * sn + 1 / 1000) <= / 1000000 * (31 * sn + 1 / 1000)) by (apply Rmult_le_compat_r; lra). lra. }
  pose proof (output_near n d _ _ v n1 d1 Fs Fo Bn ltac:(lra) Hs Ho HV) as [v1 v2]. split; [exact v1|].
  pose proof (Rabs_pos q) as q0. set (t := sn + 1 + Rabs q * (sd + 1)). assert (T1 : 1 <= t) by (unfold t; assert (0 <= Rabs q * (sd + 1)) by (apply Rmult_le_pos; lra); lra).
  set (s := B2R (fa_scale out)) in *. set (o := B2R (fa_offset out)) in *. pose proof (Rabs_pos s) as s0. pose proof (Rabs_pos o) as o0.
  assert (K1 : ulp1 * (31 * sn + 1 / 1000) + Rabs q * (ulp1 * (31 * sd + 1 / 1000)) <= ulp1 * (31 * t)).
  { replace (Rabs q * (ulp1 * (31 * sd + 1 / 1000))) with (ulp1 * (Rabs q * (31 * sd + 1 / 1000))) by ring. rewrite <- Rmult_plus_distr_l. apply Rmult_le_compat_l; [lra|].
    unfold t. assert (Rabs q * (31 * sd + 1 / 1000) <= Rabs q * (31 * (sd + 1))) by (apply Rmult_le_compat_l; lra). lra. }
  set (g := t / delta). assert (D0 : 0 < / delta) by (apply Rinv_0_lt_compat; lra). assert (g0 : 0 <= g) by (unfold g, Rdiv; apply Rmult_le_pos; lra).
  assert (K2 : Rabs (B2R n / B2R d - q) <= 3132 / 100 * (ulp1 * g)).
  { eapply Rle_trans; [exact Q2|]. unfold Rdiv at 1. rewrite Rinv_mult. eapply Rle_trans; [apply Rmult_le_compat_r; [apply Rmult_le_pos; lra|exact K1]|]. unfold g. unfold Rdiv.
    assert (0 <= ulp1 * t * / delta) by (repeat apply Rmult_le_pos; lra). replace (ulp1 * (31 * t) * (/ (99 * / 100) * / delta)) with (3100 / 99 * (ulp1 * t * / delta)) by (field; lra).
    replace (3132 * / 100 * (ulp1 * (t * / delta))) with (3132 / 100 * (ulp1 * t * / delta)) by (field; lra). apply Rmult_le_compat_r; lra. }
  set (w := B2R n / B2R d) in *. replace (32 * t / delta) with (32 * g) by (unfold g; field; lra).
  assert (K3 : Rabs (w * s - q * s) <= 3132 / 100 * (ulp1 * g) * Rabs s) by (replace (w * s - q * s) with ((w - q) * s) by ring; rewrite Rabs_mult; apply Rmult_le_compat_r; assumption).
  assert (K4 : Rabs (w * s) <= Rabs q * Rabs s + 3132 / 100 * (ulp1 * g) * Rabs s) by (replace (w * s) with (q * s + (w * s - q * s)) by ring; eapply Rle_trans; [apply Rabs_triang|]; rewrite Rabs_mult; lra).
  replace (B2R v - (q * s + o)) with ((B2R v - (w * s + o)) + (w * s - q * s)) by ring. eapply Rle_trans; [apply Rabs_triang|]. eapply Rle_trans; [apply Rplus_le_compat; [exact v2|exact K3]|].
  assert (GS : 0 <= g * Rabs s) by (apply Rmult_le_pos; lra). assert (QS : 0 <= Rabs q * Rabs s) by (apply Rmult_le_pos; lra).
  assert (UG : 0 <= ulp1 * (g * Rabs s)) by (apply Rmult_le_pos; lra).
  assert (UU : ulp1 * (ulp1 * (g * Rabs s)) <= / 1000000 * (ulp1 * (g * Rabs s))) by (apply Rmult_le_compat_r; lra).
  assert (K5 : ulp1 * (42 / 10 * Rabs (w * s) + Rabs o + / 1000) <= ulp1 * (42 / 10 * (Rabs q * Rabs s + 3132 / 100 * (ulp1 * g) * Rabs s) + Rabs o + / 1000)) by (apply Rmult_le_compat_l; lra).
  assert (UQ : 0 <= ulp1 * (Rabs q * Rabs s)) by (apply Rmult_le_pos; lra). lra.
Qed.

(** ** The orders of the sources *)
Lemma same_refl t : same_poly t t.
Proof. exists t. split; [apply Permutation_refl|]. induction t; constructor; auto. Qed.
Lemma same_terms t u : Forall2 (@Permutation b64) t u -> same_poly t u.
Proof. intros H. exists t. split; [apply Permutation_refl|exact H]. Qed.
(** Products and sums of single terms. *)
Lemma ev_term_mul l m x y : evaluates [l] x -> evaluates [m] y -> evaluates [l ++ m] (fmul x y).
Proof. intros A B. exact (ev_mul _ _ _ _ A B). Qed.
Lemma ev_perm l m x : Permutation l m -> evaluates [l] x -> evaluates [m] x.
Proof. intros P. apply ev_same, same_terms. now constructor. Qed.
Lemma ev_snoc t m x y : evaluates t x -> evaluates [m] y -> evaluates (t ++ [m]) (fadd x y).
Proof. intros A B. exact (ev_add _ _ _ _ A B). Qed.
(** A permutation of at most four factors. *)
Lemma perm_21 (a b : b64) : Permutation [a; b] [b; a]. Proof. apply perm_swap. Qed.
Lemma perm_rot (l : fterm) a : Permutation (l ++ [a]) (a :: l).
Proof. symmetry. apply Permutation_cons_append. Qed.
Lemma source_evaluates x y z c : length c = 20%nat -> evaluates (poly_terms x y z c) (source_polynomial x y z c).
Proof.
  intros H. do 20 (destruct c as [|? c]; [discriminate|]). destruct c; [|discriminate].
  unfold source_polynomial, poly_terms, monomials, fco. cbn [combine map fst snd nth]. cbv zeta.
  repeat match goal with |- evaluates ?t (fadd ?x ?y) => let u := eval cbn in (removelast t) in let m := eval cbn in (last t []) in change t with (u ++ [m]); apply ev_snoc end;
  try apply ev_factor.
  all: repeat match goal with
  | |- evaluates [[?a]] ?a => apply ev_factor
  | |- evaluates [[?a; ?b]] (fmul ?a ?b) => apply (ev_term_mul [a] [b])
  | |- evaluates [[?a; ?b; ?c]] (fmul (fmul ?a ?b) ?c) => apply (ev_term_mul [a; b] [c])
  | |- evaluates [[?a; ?b; ?c; ?d]] (fmul (fmul (fmul ?a ?b) ?c) ?d) => apply (ev_term_mul [a; b; c] [d])
  | |- evaluates [[?a; ?b; ?c]] (fmul ?a (fmul ?b ?c)) => apply (ev_term_mul [a] [b; c])
  | |- evaluates [[?a; ?b; ?c; ?d]] (fmul ?a (fmul (fmul ?b ?c) ?d)) => apply (ev_term_mul [a] [b; c; d])
  | |- evaluates [[?a; ?b; ?c; ?d]] (fmul (fmul ?a ?b) (fmul ?c ?d)) => apply (ev_term_mul [a; b] [c; d])
  | |- evaluates [[?a; ?b; ?c; ?d]] (fmul (fmul ?a (fmul ?b ?c)) ?d) => apply (ev_term_mul [a; b; c] [d])
  end.
Qed.
Lemma cpp_source_evaluates x y z c : length c = 20%nat -> evaluates (cpp_poly_terms x y z c) (cpp_source_polynomial x y z c).
Proof.
  intros H. do 20 (destruct c as [|? c]; [discriminate|]). destruct c; [|discriminate].
  unfold cpp_source_polynomial, cpp_poly_terms, poly_terms, monomials, fco. cbn [combine map fst snd nth]. cbv zeta.
  repeat match goal with |- evaluates ?t (fadd ?x ?y) => let u := eval cbn in (removelast t) in let m := eval cbn in (last t []) in change t with (u ++ [m]); apply ev_snoc end.
  apply (ev_term_mul [fint 1]); apply ev_factor.
  all: match goal with |- evaluates [?c :: ?l] _ => apply (ev_perm (l ++ [c]) (c :: l)); [apply perm_rot|]; apply (ev_term_mul l [c]); [|apply ev_factor] end.
  all: repeat match goal with
  | |- evaluates [[?a]] ?a => apply ev_factor
  | |- evaluates [[?a; ?b]] (fmul ?a ?b) => apply (ev_term_mul [a] [b])
  | |- evaluates [[?a; ?b; ?c]] (fmul (fmul ?a ?b) ?c) => apply (ev_term_mul [a; b] [c])
  end.
Qed.
