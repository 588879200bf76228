(** Proofs about the binary64 interpolation. *)
From Coq Require Import ZArith Reals Bool Lia Lra Psatz.
From Flocq Require Import Core BinarySingleNaN Relative.
From Verif Require Import Num NumLemmas InterpModel InterpSpec FloatModel Float FloatErr FloatInterpModel.
Open Scope R_scope.

Lemma ffloor_finite (x : b64) : is_finite x = true -> ffloor x = Some (Zfloor (B2R x)).
Proof.
  destruct x as [ s | s | | s m e H ]; try discriminate; intros _; cbn [ffloor B2R].
  - f_equal. symmetry. change 0 with (IZR 0). apply Zfloor_IZR.
  - f_equal. unfold F2R. cbn [Fnum Fexp].
    replace (IZR (cond_Zopp s (Z.pos m))) with (IZR (if s then Z.neg m else Z.pos m)) by (destruct s; reflexivity).
    set (v := if s then Z.neg m else Z.pos m). destruct (0 <=? e)%Z eqn:E.
    + apply Z.leb_le in E. rewrite <- (IZR_Zpower radix2) by exact E. rewrite <- mult_IZR, Zfloor_IZR. reflexivity.
    + apply Z.leb_gt in E.
      assert (P : IZR (radix2 ^ (- e)) = / bpow radix2 e)
        by (rewrite (IZR_Zpower radix2) by lia; apply bpow_opp).
      replace (IZR v * bpow radix2 e) with (IZR v / IZR (radix2 ^ (- e))).
      * symmetry. apply Zfloor_div. change (radix_val radix2) with 2%Z. generalize (Z.pow_pos_nonneg 2 (- e)). lia.
      * rewrite P. unfold Rdiv. now rewrite Rinv_inv.
Qed.
Lemma Zfloor_Rfloor x : Zfloor x = Rfloor x.
Proof. symmetry. apply Rfloor_unique. split; [apply Zfloor_lb|apply Zfloor_ub]. Qed.
(** The fractional part is computed exactly. *)
Lemma fraction_exact (x : b64) : is_finite x = true -> 0 <= B2R x -> (Rfloor (B2R x) < 2 ^ 53)%Z ->
  B2R (fsub x (fint (Rfloor (B2R x)))) = B2R x - IZR (Rfloor (B2R x)) /\ is_finite (fsub x (fint (Rfloor (B2R x)))) = true.
Proof.
  intros F P L. set (l := Rfloor (B2R x)) in *. destruct (Rfloor_bounds (B2R x)) as [F1 F2]. fold l in F1, F2.
  assert (L0 : (0 <= l)%Z) by (apply le_floor; exact P).
  destruct (fint_exact l) as [I1 I2]; [lia|]. apply fsub_fits; [exact F|exact I2|now rewrite I1|].
  destruct (FLT_format_generic radix2 (-1074) 53 (B2R x) (generic_format_B2R 53 1024 x)) as [f Ef Hf He].
  destruct f as [m e]. unfold F2R in Ef. cbn [Fnum Fexp] in *. change (Zpower radix2 53) with (2 ^ 53)%Z in Hf.
  destruct (Z_lt_le_dec e 0) as [N|N].
  - replace (B2R x - IZR l) with (IZR (m - l * 2 ^ (- e)) * bpow radix2 e).
    + apply fits_dyadic; [|lia].
      assert (B : bpow radix2 e * bpow radix2 (- e) = 1) by (rewrite <- bpow_plus; replace (e + - e)%Z with 0%Z by lia; reflexivity).
      assert (E2 : IZR (2 ^ (- e)) = bpow radix2 (- e)) by (rewrite <- (IZR_Zpower radix2) by lia; reflexivity).
      assert (G0 : 0 < bpow radix2 (- e)) by apply bpow_gt_0.
      assert (M : IZR m = B2R x * bpow radix2 (- e)) by (rewrite Ef, Rmult_assoc, B; ring).
      assert (0 <= m - l * 2 ^ (- e) <= m)%Z; [|lia]. split.
      * apply le_IZR. rewrite minus_IZR, mult_IZR, E2, M. assert (0 <= (B2R x - IZR l) * bpow radix2 (- e)) by (apply Rmult_le_pos; lra). lra.
      * apply le_IZR. rewrite minus_IZR, mult_IZR, E2. assert (0 <= IZR l * bpow radix2 (- e)) by (apply Rmult_le_pos; [apply IZR_le; lia|lra]). lra.
    + rewrite minus_IZR, mult_IZR, Ef. replace (IZR (2 ^ (- e))) with (bpow radix2 (- e)) by (rewrite <- (IZR_Zpower radix2) by lia; reflexivity).
      assert (B : bpow radix2 (- e) * bpow radix2 e = 1) by (rewrite <- bpow_plus; replace (- e + e)%Z with 0%Z by lia; reflexivity).
      rewrite Rmult_minus_distr_r, Rmult_assoc, B. ring.
  - assert (X : B2R x = IZR (m * 2 ^ e)) by (rewrite Ef, mult_IZR; f_equal; rewrite <- (IZR_Zpower radix2) by lia; reflexivity).
    assert (El : l = (m * 2 ^ e)%Z) by (unfold l; rewrite X; apply Rfloor_IZR). rewrite X, El.
    replace (IZR (m * 2 ^ e) - IZR (m * 2 ^ e)) with (IZR 0) by ring. apply fits_int. lia.
Qed.
Lemma flower_eq nb (d : b64) : is_finite d = true -> (2 <= nb < 2 ^ 53)%Z -> flower_index nb d = Some (lower_index nb (B2R d)).
Proof.
  intros F N. unfold flower_index, lower_index.
  destruct (fint_exact 0) as [Z1 Z2]; [lia|]. destruct (fint_exact (nb - 1)) as [N1 N2]; [lia|].
  rewrite Bltb_correct, Bleb_correct by assumption. rewrite Z1, N1.
  destruct (Rlt_bool_spec (B2R d) 0) as [H|H].
  - replace (Rltb (B2R d) 0) with true by (symmetry; now apply Rltb_true). reflexivity.
  - replace (Rltb (B2R d) 0) with false by (symmetry; apply Rltb_false; lra).
    destruct (Rle_bool_spec (IZR (nb - 1)) (B2R d)) as [H'|H'].
    + replace (Rleb (IZR (nb - 1)) (B2R d)) with true by (symmetry; now apply Rleb_true). reflexivity.
    + replace (Rleb (IZR (nb - 1)) (B2R d)) with false by (symmetry; apply Rleb_false; lra).
      rewrite ffloor_finite by exact F. now rewrite Zfloor_Rfloor.
Qed.
Lemma shift_exact nb (d : b64) : is_finite d = true -> (2 <= nb < 2 ^ 53)%Z -> 0 <= B2R d <= IZR (nb - 1) ->
  let l := lower_index nb (B2R d) in
  (0 <= l < nb - 1)%Z /\ B2R (fsub d (fint l)) = B2R d - IZR l /\ is_finite (fsub d (fint l)) = true /\ 0 <= B2R d - IZR l <= 1.
Proof.
  intros F N H. unfold lower_index. replace (Rltb (B2R d) 0) with false by (symmetry; apply Rltb_false; lra).
  destruct (Rleb (IZR (nb - 1)) (B2R d)) eqn:E; cbv zeta.
  - apply Rleb_true in E. assert (D : B2R d = IZR (nb - 1)) by lra.
    destruct (fint_exact (nb - 2)) as [N1 N2]; [lia|].
    assert (D1 : B2R d - IZR (nb - 2) = IZR 1) by (rewrite D, <- minus_IZR; f_equal; lia).
    destruct (fsub_fits d (fint (nb - 2)) (IZR 1) F N2) as [S1 S2]; [now rewrite N1|apply fits_int; lia|].
    rewrite S1, D1. repeat split; try assumption; try lia; lra.
  - apply Rleb_false in E. destruct (Rfloor_bounds (B2R d)) as [F1 F2].
    assert (L0 : (0 <= Rfloor (B2R d))%Z) by (apply le_floor; lra). assert (L1 : (Rfloor (B2R d) < nb - 1)%Z) by (apply floor_lt; lra).
    destruct (fraction_exact d F) as [S1 S2]; [lra|lia|]. repeat split; try assumption; try lia; lra.
Qed.

Lemma unit_mul (x y : R) : 0 <= x <= 1 -> 0 <= y <= 1 -> 0 <= x * y <= 1.
Proof. intros. split; [apply Rmult_le_pos; lra|]. rewrite <- (Rmult_1_r 1). apply Rmult_le_compat; lra. Qed.
Lemma unit_abs x : 0 <= x <= 1 -> Rabs x <= 1.
Proof. intros. rewrite Rabs_pos_eq; lra. Qed.
(** The formula with exact shifts. *)
Lemma fbilin_near (s t v00 v01 v10 v11 : b64) M :
  is_finite s = true -> is_finite t = true -> 0 <= B2R s <= 1 -> 0 <= B2R t <= 1 ->
  is_finite v00 = true -> is_finite v01 = true -> is_finite v10 = true -> is_finite v11 = true ->
  Rabs (B2R v00) <= M -> Rabs (B2R v01) <= M -> Rabs (B2R v10) <= M -> Rabs (B2R v11) <= M ->
  bpow radix2 (-900) <= M <= bpow radix2 1000 ->
  near (fbilin s t v00 v01 v10 v11) (bilin_value (B2R s) (B2R t) (B2R v00) (B2R v01) (B2R v10) (B2R v11)) (bpow radix2 (-48) * M).
Proof.
  intros Fs Ft Hs Ht F00 F01 F10 F11 B00 B01 B10 B11 [M0 M1].
  pose proof ulp1_pos as U0. pose proof ulp1_small as U1. pose proof tiny_pos as T0. pose proof tiny_small as T1.
  set (u := ulp1) in *. set (k := u * M).
  assert (MP : 0 < M) by (eapply Rlt_le_trans; [apply bpow_gt_0|exact M0]).
  assert (KP : 0 < k) by (apply Rmult_lt_0_compat; assumption).
  assert (UU : 0 < u * u <= u * / 1000000) by (split; [apply Rmult_lt_0_compat; assumption|apply Rmult_le_compat_l; lra]).
  assert (UK : 0 < u * k <= k * / 1000000) by (split; [apply Rmult_lt_0_compat; assumption|rewrite Rmult_comm; apply Rmult_le_compat_l; lra]).
  assert (TK : tiny <= k * / 1000000).
  { apply Rle_trans with (bpow radix2 (-20) * (u * bpow radix2 (-900))).
    - unfold tiny, u, ulp1. rewrite <- !bpow_plus. apply bpow_le. lia.
    - apply Rle_trans with (/ 1000000 * k); [|lra]. apply Rmult_le_compat.
      + apply bpow_ge_0.
      + apply Rmult_le_pos; [lra|apply bpow_ge_0].
      + cbn. lra.
      + apply Rmult_le_compat_l; lra. }
  assert (KM : k <= M * / 1000000) by (unfold k; rewrite Rmult_comm; apply Rmult_le_compat_l; lra).
  assert (HG : 100 * (1 + M) <= huge).
  { apply Rle_trans with (bpow radix2 8 * bpow radix2 1000); [|unfold huge; rewrite <- bpow_plus; apply bpow_le; lia].
    assert (1 <= bpow radix2 1000) by (change 1 with (bpow radix2 0); apply bpow_le; lia). change (bpow radix2 8) with 256. lra. }
  destruct (fint_exact 1) as [O1 O2]; [lia|].
  assert (N1 : near (fint 1) 1 0) by (split; [exact O2|rewrite O1; replace (1 - 1) with 0 by ring; rewrite Rabs_R0; lra]).
  pose proof (near_exact s Fs) as Ns. pose proof (near_exact t Ft) as Nt.
  set (S := B2R s) in *. set (T := B2R t) in *.
  assert (NS : near (fsub (fint 1) s) (1 - S) (101 / 100 * u)).
  { apply (near_sub _ _ _ _ 0 0 1); [exact N1|exact Ns|apply unit_abs; lra|fold u; lra|lra]. }
  assert (NT : near (fsub (fint 1) t) (1 - T) (101 / 100 * u)).
  { apply (near_sub _ _ _ _ 0 0 1); [exact N1|exact Nt|apply unit_abs; lra|fold u; lra|lra]. }
  assert (W : forall x y a b, near x a (101 / 100 * u) -> near y b (101 / 100 * u) -> 0 <= a <= 1 -> 0 <= b <= 1 -> near (fmul x y) (a * b) (31 / 10 * u)).
  { intros x y a b Hx Hy Ha Hb.
    apply (near_mul x y a b (101 / 100 * u) (101 / 100 * u) 1 1 1 (203 / 100 * u)); [exact Hx|exact Hy|now apply unit_abs|now apply unit_abs|lra| | |]; fold u; lra. }
  assert (Ns' : near s S (101 / 100 * u)) by (eapply near_weaken; [exact Ns|lra]).
  assert (Nt' : near t T (101 / 100 * u)) by (eapply near_weaken; [exact Nt|lra]).
  assert (P : forall w v a, near w a (31 / 10 * u) -> 0 <= a <= 1 -> is_finite v = true -> Rabs (B2R v) <= M -> near (fmul w v) (a * B2R v) (42 / 10 * k)).
  { intros w v a Hw Ha Fv Bv.
    apply (near_mul w v a (B2R v) (31 / 10 * u) 0 1 M M (31 / 10 * k)); [exact Hw|now apply near_exact|now apply unit_abs|exact Bv|lra|unfold k; lra| |lra]; fold u.
    replace (u * (M + 31 / 10 * k)) with (k + 31 / 10 * (u * k)) by (unfold k; ring). lra. }
  assert (S1 : 0 <= 1 - S <= 1) by lra. assert (T1' : 0 <= 1 - T <= 1) by lra.
  pose proof (P _ v00 _ (W _ _ _ _ NS NT S1 T1') (unit_mul _ _ S1 T1') F00 B00) as P00.
  pose proof (P _ v01 _ (W _ _ _ _ Ns' NT Hs T1') (unit_mul _ _ Hs T1') F01 B01) as P01.
  pose proof (P _ v10 _ (W _ _ _ _ NS Nt' S1 Ht) (unit_mul _ _ S1 Ht) F10 B10) as P10.
  pose proof (P _ v11 _ (W _ _ _ _ Ns' Nt' Hs Ht) (unit_mul _ _ Hs Ht) F11 B11) as P11.
  assert (BD : forall a v, 0 <= a <= 1 -> Rabs v <= M -> Rabs (a * v) <= M).
  { intros a v Ha Hv. rewrite Rabs_mult. rewrite <- (Rmult_1_l M). apply Rmult_le_compat; [apply Rabs_pos|apply Rabs_pos|now apply unit_abs|exact Hv]. }
  pose proof (BD _ _ (unit_mul _ _ S1 T1') B00) as D00. pose proof (BD _ _ (unit_mul _ _ Hs T1') B01) as D01.
  pose proof (BD _ _ (unit_mul _ _ S1 Ht) B10) as D10. pose proof (BD _ _ (unit_mul _ _ Hs Ht) B11) as D11.
  unfold fbilin, bilin_value.
  assert (K : forall x y a b c1 c2 n c3, near x a (c1 * k) -> near y b (c2 * k) -> Rabs (a + b) <= n * M -> 0 <= n <= 4 -> 0 <= c1 + c2 <= 100 ->
    c1 + c2 + n + / 100 <= c3 -> near (fadd x y) (a + b) (c3 * k)).
  { intros x y a b c1 c2 n c3 Hx Hy Hn Hn4 Hc HL.
    apply (near_add x y a b (c1 * k) (c2 * k) (n * M)); [exact Hx|exact Hy|exact Hn| |].
    - fold u. replace (u * (n * M + (c1 * k + c2 * k))) with (n * k + (c1 + c2) * (u * k)) by (unfold k; ring).
      assert ((c1 + c2) * (u * k) <= 100 * (u * k)) by (apply Rmult_le_compat_r; lra).
      assert ((c1 + c2 + n + / 100) * k <= c3 * k) by (apply Rmult_le_compat_r; lra). lra.
    - assert (n * M <= 4 * M) by (apply Rmult_le_compat_r; lra). assert ((c1 + c2) * k <= 100 * k) by (apply Rmult_le_compat_r; lra). lra. }
  assert (TR : forall a b x y, Rabs a <= x -> Rabs b <= y -> Rabs (a + b) <= x + y) by (intros; eapply Rle_trans; [apply Rabs_triang|lra]).
  assert (E2 : Rabs ((1 - S) * (1 - T) * B2R v00 + S * (1 - T) * B2R v01) <= 2 * M) by (replace (2 * M) with (M + M) by ring; now apply TR).
  assert (E3 : Rabs ((1 - S) * (1 - T) * B2R v00 + S * (1 - T) * B2R v01 + (1 - S) * T * B2R v10) <= 3 * M) by (replace (3 * M) with (2 * M + M) by ring; now apply TR).
  assert (E4 : Rabs ((1 - S) * (1 - T) * B2R v00 + S * (1 - T) * B2R v01 + (1 - S) * T * B2R v10 + S * T * B2R v11) <= 4 * M) by (replace (4 * M) with (3 * M + M) by ring; now apply TR).
  eapply near_weaken.
  - eapply (K _ _ _ _ (179 / 10) (42 / 10) 4 27); [|exact P11|exact E4|lra|lra|lra].
    eapply (K _ _ _ _ (105 / 10) (42 / 10) 3 (179 / 10)); [|exact P10|exact E3|lra|lra|lra].
    eapply (K _ _ _ _ (42 / 10) (42 / 10) 2 (105 / 10)); [exact P00|exact P01|exact E2|lra|lra|lra].
  - replace (bpow radix2 (-48)) with (32 * u); [unfold k; nra|].
    unfold u, ulp1. change (-48)%Z with (5 + -53)%Z. rewrite bpow_plus. reflexivity.
Qed.
(** At the corners. *)
Lemma fbilin_corner (s t v00 v01 v10 v11 : b64) :
  is_finite s = true -> is_finite t = true -> (B2R s = 0 \/ B2R s = 1) -> (B2R t = 0 \/ B2R t = 1) ->
  is_finite v00 = true -> is_finite v01 = true -> is_finite v10 = true -> is_finite v11 = true ->
  B2R (fbilin s t v00 v01 v10 v11) = bilin_value (B2R s) (B2R t) (B2R v00) (B2R v01) (B2R v10) (B2R v11).
Proof.
  intros Fs Ft Hs Ht F00 F01 F10 F11. destruct (fint_exact 1) as [O1 O2]; [lia|].
  assert (FZ : fits 0) by (apply (fits_int 0); lia). assert (FO : fits 1) by (apply (fits_int 1); lia).
  assert (NG : forall x, is_finite x = true -> (B2R x = 0 \/ B2R x = 1) -> B2R (fsub (fint 1) x) = 1 - B2R x /\ is_finite (fsub (fint 1) x) = true /\ (1 - B2R x = 0 \/ 1 - B2R x = 1)).
  { intros x Fx Hx. destruct (fsub_fits (fint 1) x (1 - B2R x) O2 Fx) as [A B]; [now rewrite O1| |].
    - destruct Hx as [-> | ->]; [replace (1 - 0) with 1 by ring; exact FO|replace (1 - 1) with 0 by ring; exact FZ].
    - repeat split; try assumption. destruct Hx as [-> | ->]; [right|left]; lra. }
  destruct (NG s Fs Hs) as (S1 & S2 & S3). destruct (NG t Ft Ht) as (T1 & T2 & T3).
  assert (W : forall x y, is_finite x = true -> is_finite y = true -> (B2R x = 0 \/ B2R x = 1) -> (B2R y = 0 \/ B2R y = 1) ->
    B2R (fmul x y) = B2R x * B2R y /\ is_finite (fmul x y) = true /\ (B2R x * B2R y = 0 \/ B2R x * B2R y = 1)).
  { intros x y Fx Fy Hx Hy. assert (E : B2R x * B2R y = 0 \/ B2R x * B2R y = 1) by (destruct Hx as [-> | ->], Hy as [-> | ->]; [left|left|left|right]; ring).
    destruct (fmul_fits x y (B2R x * B2R y) Fx Fy eq_refl) as [A B]; [destruct E as [-> | ->]; assumption|]. tauto. }
  assert (P : forall w v, is_finite w = true -> is_finite v = true -> (B2R w = 0 \/ B2R w = 1) -> B2R (fmul w v) = B2R w * B2R v /\ is_finite (fmul w v) = true).
  { intros w v Fw Fv Hw. apply fmul_fits; try assumption; [reflexivity|]. destruct Hw as [-> | ->]; [rewrite Rmult_0_l; exact FZ|rewrite Rmult_1_l; now apply fits_b64]. }
  rewrite <- S1 in S3. rewrite <- T1 in T3.
  destruct (W _ _ S2 T2 S3 T3) as (A1 & A2 & A3). destruct (W _ _ Fs T2 Hs T3) as (B1 & B2 & B3).
  destruct (W _ _ S2 Ft S3 Ht) as (C1 & C2 & C3). destruct (W _ _ Fs Ft Hs Ht) as (D1 & D2 & D3).
  rewrite <- A1 in A3. rewrite <- B1 in B3. rewrite <- C1 in C3. rewrite <- D1 in D3.
  destruct (P _ v00 A2 F00 A3) as [P1 P2]. destruct (P _ v01 B2 F01 B3) as [Q1 Q2]. destruct (P _ v10 C2 F10 C3) as [X1 X2]. destruct (P _ v11 D2 F11 D3) as [Y1 Y2].
  unfold fbilin, bilin_value. rewrite A1, S1, T1 in P1. rewrite B1, T1 in Q1. rewrite C1, S1 in X1. rewrite D1 in Y1.
  assert (FV : forall x, is_finite x = true -> fits (B2R x)) by (intros; now apply fits_b64).
  set (p := fmul (fmul (fsub (fint 1) s) (fsub (fint 1) t)) v00) in *. set (q := fmul (fmul s (fsub (fint 1) t)) v01) in *.
  set (x := fmul (fmul (fsub (fint 1) s) t) v10) in *. set (y := fmul (fmul s t) v11) in *.
  clear A1 A2 A3 B1 B2 B3 C1 C2 C3 D1 D2 D3 P W NG S1 S2 S3 T1 T2 T3.
  assert (AD : forall a b, is_finite a = true -> is_finite b = true -> B2R a = 0 \/ B2R b = 0 -> B2R (fadd a b) = B2R a + B2R b /\ is_finite (fadd a b) = true).
  { intros a b Fa Fb Z. apply fadd_fits; try assumption; [reflexivity|]. destruct Z as [-> | ->]; [rewrite Rplus_0_l|rewrite Rplus_0_r]; now apply FV. }
  assert (Z : (B2R p = 0 \/ B2R q = 0) /\ (B2R p + B2R q = 0 \/ B2R x = 0) /\ (B2R p + B2R q + B2R x = 0 \/ B2R y = 0)).
  { rewrite P1, Q1, X1, Y1. destruct Hs as [-> | ->], Ht as [-> | ->]; repeat split; first [left; ring|right; ring]. }
  destruct Z as (Z1 & Z2 & Z3). destruct (AD p q P2 Q2 Z1) as [G1 G2]. rewrite <- G1 in Z2, Z3.
  destruct (AD _ x G2 X2 Z2) as [H1 H2]. rewrite <- H1 in Z3. destruct (AD _ y H2 Y2 Z3) as [I1 _]. rewrite I1, H1, G1, P1, Q1, X1, Y1. reflexivity.
Qed.
