(** Proofs: the rounding errors of the derivatives and of the corrections of the iterative localization. *)
From Coq Require Import ZArith Reals List Bool Lia Lra Psatz.
From Flocq Require Import Core BinarySingleNaN.
From Verif Require Import RpcModel RpcSpec RpcConvSpec RpcConv FloatModel Float FloatErr FloatRpcModel FloatEval FloatRpcSpec FloatRpc FloatRpcOut FloatNewtonModel FloatConvModel FloatConv.
Import ListNotations.
Open Scope R_scope.

Lemma ulp1_fine : ulp1 <= 12 / 100000000000000000.
Proof. rewrite ulp1_val. change (IZR (2 ^ 53)) with 9007199254740992. lra. Qed.
Lemma tiny_fine : tiny <= 1 / 100000000000000000000000000000000000000000000000000.
Proof. pose proof big_tiny. pose proof ulp1_fine. pose proof ulp1_pos. assert (ulp1 * ulp1 <= 1 * 1) by (apply Rmult_le_compat; lra). pose proof tiny_pos. lra. Qed.
Lemma large_huge : 10000000000000000000000000000000000000000 <= huge. Proof. pose proof big_huge. lra. Qed.

(** ** The derivatives of the polynomials *)
(** Their coefficients, in the order of [rpc_exponents]. *)
Definition along_x (c : list R) : list R :=
  [co c 1; 2 * co c 7; co c 4; co c 5; 2 * co c 14; 2 * co c 17; co c 10; 3 * co c 11; co c 12; co c 13].
Definition along_y (c : list R) : list R :=
  [co c 2; co c 4; 2 * co c 8; co c 6; 2 * co c 12; co c 10; 2 * co c 18; co c 14; 3 * co c 15; co c 16].
Lemma along_x_eq x y z c : derivative_polynomial_longitude x y z c = cubic (along_x c) x y z.
Proof. unfold derivative_polynomial_longitude, cubic, along_x, rpc_exponents. cbn [cubic_sum pow]. ring. Qed.
Lemma along_y_eq x y z c : derivative_polynomial_latitude x y z c = cubic (along_y c) x y z.
Proof. unfold derivative_polynomial_latitude, cubic, along_y, rpc_exponents. cbn [cubic_sum pow]. ring. Qed.
Lemma along_sums c : length c = 20%nat -> abs_sum (along_x c) <= 3 * abs_sum c /\ abs_sum (along_y c) <= 3 * abs_sum c.
Proof.
  intros H. do 20 (destruct c as [|? c]; [discriminate|]). destruct c; [|discriminate]. unfold along_x, along_y, abs_sum, co. cbn [fold_right nth].
  rewrite !Rabs_mult, !(Rabs_pos_eq 2), !(Rabs_pos_eq 3) by lra.
  repeat match goal with |- context [Rabs ?r] => lazymatch goal with H : 0 <= Rabs r |- _ => fail | _ => pose proof (Rabs_pos r); generalize dependent (Rabs r); intros end end.
  lra.
Qed.
Lemma co_map c k : (k < 20)%nat -> length c = 20%nat -> co (map B2R c) k = B2R (fco c k).
Proof. intros K L. unfold co, fco. rewrite (nth_indep _ 0 (B2R (fint 0))) by (rewrite map_length; lia). apply map_nth. Qed.
Lemma fint2 : B2R (fint 2) = 2 /\ is_finite (fint 2) = true. Proof. destruct (fint_exact 2 ltac:(lia)) as [A B]. split; [exact A|exact B]. Qed.
Lemma fint3 : B2R (fint 3) = 3 /\ is_finite (fint 3) = true. Proof. destruct (fint_exact 3 ltac:(lia)) as [A B]. split; [exact A|exact B]. Qed.
Lemma terms_values x y z c : length c = 20%nat -> value (longitude_terms x y z c) = cubic (along_x (map B2R c)) (B2R x) (B2R y) (B2R z) /\
  value (latitude_terms x y z c) = cubic (along_y (map B2R c)) (B2R x) (B2R y) (B2R z).
Proof.
  intros L. destruct fint2 as [E2 _]. destruct fint3 as [E3 _]. unfold value, longitude_terms, latitude_terms, cubic, along_x, along_y, rpc_exponents.
  cbn [sumf prodf cubic_sum pow]. rewrite !co_map by (assumption || lia). rewrite E2, E3. split; ring.
Qed.
Lemma coefficient_in c k : coefficients c -> (k < 20)%nat -> is_finite (fco c k) = true /\ Rabs (B2R (fco c k)) <= abs_sum (map B2R c).
Proof.
  intros [L F] K. assert (I : In (fco c k) c) by (apply nth_In; lia). split; [exact (proj1 (Forall_forall _ _) F _ I)|].
  clear F L. revert I. generalize (fco c k). intros v I. rewrite abs_sum_map. induction c as [|a c IH]; [destruct I|]. cbn [fold_right].
  pose proof (abs_sum_pos (map B2R c)) as P. rewrite abs_sum_map in P. pose proof (Rabs_pos (B2R a)). destruct I as [->|I]; [lra|]. specialize (IH I). lra.
Qed.
(** Ten terms of at most four factors of at most 3. *)
Definition moderate (t : fpoly) : Prop := Forall (fun l => (length l <= 4)%nat /\ Forall (fun x : b64 => Rabs (B2R x) <= 3 /\ is_finite x = true) l) t.
Lemma moderate_weight t : moderate t -> weight t <= 81 * INR (length t) /\ finite_poly t.
Proof.
  assert (P : forall l : fterm, Forall (fun x : b64 => Rabs (B2R x) <= 3 /\ is_finite x = true) l -> 0 <= prodf (fun x : b64 => Rmax 1 (Rabs (B2R x))) l <= 3 ^ length l).
  { induction 1 as [|x l [Hx _] _ IH]; cbn [prodf length pow]; [lra|]. assert (1 <= Rmax 1 (Rabs (B2R x)) <= 3) by (split; [apply Rmax_l|apply Rmax_lub; lra]).
    split; [apply Rmult_le_pos; lra|apply Rmult_le_compat; lra]. }
  induction 1 as [|l t [L F] _ [IH1 IH2]]; [split; [unfold weight; cbn; lra|constructor]|]. split.
  - unfold weight in *. cbn [sumf length]. rewrite S_INR. specialize (P l F). assert (3 ^ length l <= 3 ^ 4) by (apply Rle_pow; [lra|exact L]). cbn [pow] in *. lra.
  - constructor; [|exact IH2]. eapply Forall_impl; [|exact F]. intros x Hx. exact (proj2 Hx).
Qed.
Lemma terms_moderate x y z c : coefficients c -> abs_sum (map B2R c) <= 2 -> is_finite x = true -> is_finite y = true -> is_finite z = true ->
  Rabs (B2R x) <= 10002 / 10000 -> Rabs (B2R y) <= 10002 / 10000 -> Rabs (B2R z) <= 10002 / 10000 -> moderate (longitude_terms x y z c) /\ moderate (latitude_terms x y z c).
Proof.
  intros C S FX FY FZ X Y Z. destruct fint2 as [E2 F2]. destruct fint3 as [E3 F3].
  assert (K : forall k, (k < 20)%nat -> Rabs (B2R (fco c k)) <= 3 /\ is_finite (fco c k) = true).
  { intros k Hk. destruct (coefficient_in c k C Hk) as [H1 H2]. split; [lra|exact H1]. }
  assert (X3 : Rabs (B2R x) <= 3 /\ is_finite x = true) by (split; [lra|exact FX]). assert (Y3 : Rabs (B2R y) <= 3 /\ is_finite y = true) by (split; [lra|exact FY]).
  assert (Z3 : Rabs (B2R z) <= 3 /\ is_finite z = true) by (split; [lra|exact FZ]).
  assert (T2 : Rabs (B2R (fint 2)) <= 3 /\ is_finite (fint 2) = true) by (rewrite E2, Rabs_pos_eq by lra; split; [lra|exact F2]).
  assert (T3 : Rabs (B2R (fint 3)) <= 3 /\ is_finite (fint 3) = true) by (rewrite E3, Rabs_pos_eq by lra; split; [lra|exact F3]).
  unfold moderate, longitude_terms, latitude_terms.
  split; (repeat (apply Forall_cons; [split; [cbn [length]; lia|repeat (apply Forall_cons; [first [exact X3|exact Y3|exact Z3|exact T2|exact T3|apply K; lia]|]); apply Forall_nil]|]); apply Forall_nil).
Qed.
Lemma grow_12 : grow 12 <= 1 + 1201 / 100 * ulp1.
Proof.
  assert (H : forall k : nat, INR k <= 12 -> grow k <= 1 + INR k * ulp1 * (1 + 100 * ulp1)).
  { induction k as [|k IH]; intros HK; [cbn; lra|]. rewrite S_INR in *. pose proof (pos_INR k). rewrite grow_S. specialize (IH ltac:(lra)). pose proof ulp1_pos. pose proof ulp1_small.
    eapply Rle_trans; [apply Rmult_le_compat_l; [lra|exact IH]|].
    assert (INR k * ulp1 <= 12 * ulp1) by (apply Rmult_le_compat_r; lra). set (q := INR k * ulp1) in *. assert (0 <= q) by (apply Rmult_le_pos; lra).
    assert (ulp1 * (q * (1 + 100 * ulp1)) <= ulp1 * (12 * ulp1 * 2)) by (apply Rmult_le_compat_l; [lra|]; apply Rmult_le_compat; lra).
    replace ((1 + ulp1) * (1 + q * (1 + 100 * ulp1))) with (1 + ulp1 + q * (1 + 100 * ulp1) + ulp1 * (q * (1 + 100 * ulp1))) by ring.
    replace ((INR k + 1) * ulp1 * (1 + 100 * ulp1)) with (q * (1 + 100 * ulp1) + ulp1 + 100 * (ulp1 * ulp1)) by (unfold q; ring). 
    replace (12 * ulp1 * 2) with (24 * ulp1) in * by ring. assert (0 <= ulp1 * ulp1) by (apply Rmult_le_pos; lra). lra. }
  replace (INR 12) with 12 in H by (cbn; ring). pose proof (H 12%nat) as H2. replace (INR 12) with 12 in H2 by (cbn; ring). specialize (H2 ltac:(lra)). pose proof ulp1_pos. pose proof ulp1_small.
  eapply Rle_trans; [exact H2|]. assert (12 * ulp1 * (1 + 100 * ulp1) <= 12 * ulp1 * (1 + 1 / 10000)) by (apply Rmult_le_compat_l; lra). lra.
Qed.
Lemma terms_near t v : evaluates t v -> moderate t -> length t = 10%nat -> longest t = 4%nat -> near v (value t) (12 / 10000000000000).
Proof.
  intros E M L LO. destruct (moderate_weight t M) as [W F]. rewrite L in W. cbn [INR] in W. pose proof (magnitude_weight t) as MW. pose proof grow_12 as G. pose proof (grow_1 12) as G1.
  pose proof ulp1_pos as U0. pose proof ulp1_fine as U1. pose proof tiny_pos as T0. pose proof tiny_fine as T1. pose proof large_huge as HH.
  assert (R12 : rounds t = 12%nat) by (unfold rounds; rewrite L, LO; reflexivity). assert (P12 : 2 ^ 12 - 1 = 4095) by (cbn; ring).
  assert (TW : 0 <= tiny * weight t <= tiny * 810) by (split; [apply Rmult_le_pos; lra|apply Rmult_le_compat_l; lra]).
  assert (HU : bound (rounds t) (weight t) (weight t) <= huge).
  { rewrite R12. unfold bound. rewrite P12. apply Rle_trans with (2 * 1000); [apply Rmult_le_compat; lra|lra]. }
  destruct (evaluates_within t v E F HU) as (FV & EV & _). split; [exact FV|]. eapply Rle_trans; [exact EV|]. rewrite R12. unfold bound. rewrite P12.
  assert (grow 12 * (magnitude t + 4095 * tiny * weight t) <= (1 + 1201 / 100 * ulp1) * (magnitude t + 4095 * tiny * weight t)) by (apply Rmult_le_compat_r; lra).
  assert (ulp1 * (magnitude t + 4095 * tiny * weight t) <= ulp1 * 811) by (apply Rmult_le_compat_l; lra). lra.
Qed.
(** The derivatives at the normalised coordinates of a point. *)
Lemma derivative_near ax ay az c x y z u v : coefficients c -> abs_sum (map B2R c) <= 2 -> finite_axis ax -> finite_axis ay -> finite_axis az ->
  inside x ax -> inside y ay -> inside z az ->
  evaluates (longitude_terms (fnormalise x (fa_offset ax) (fa_scale ax)) (fnormalise y (fa_offset ay) (fa_scale ay)) (fnormalise z (fa_offset az) (fa_scale az)) c) u ->
  evaluates (latitude_terms (fnormalise x (fa_offset ax) (fa_scale ax)) (fnormalise y (fa_offset ay) (fa_scale ay)) (fnormalise z (fa_offset az) (fa_scale az)) c) v ->
  (near u (derivative_polynomial_longitude (normal x ax) (normal y ay) (normal z az) (map B2R c)) (2 / 1000000000000) /\
   Rabs (derivative_polynomial_longitude (normal x ax) (normal y ay) (normal z az) (map B2R c)) <= 601 / 100) /\
  (near v (derivative_polynomial_latitude (normal x ax) (normal y ay) (normal z az) (map B2R c)) (2 / 1000000000000) /\
   Rabs (derivative_polynomial_latitude (normal x ax) (normal y ay) (normal z az) (map B2R c)) <= 601 / 100).
Proof.
  intros C S (X1 & X2 & X3) (Y1 & Y2 & Y3) (Z1 & Z2 & Z3) (IX & NX) (IY & NY) (IZ & NZ) EU EV. unfold normal in *.
  destruct (normalise_near _ _ IX X1 X2 X3 NX) as [FX EX]. destruct (normalise_near _ _ IY Y1 Y2 Y3 NY) as [FY EY]. destruct (normalise_near _ _ IZ Z1 Z2 Z3 NZ) as [FZ EZ].
  set (xn := (B2R x - B2R (fa_offset ax)) / B2R (fa_scale ax)) in *. set (yn := (B2R y - B2R (fa_offset ay)) / B2R (fa_scale ay)) in *. set (zn := (B2R z - B2R (fa_offset az)) / B2R (fa_scale az)) in *.
  set (xf := fnormalise x (fa_offset ax) (fa_scale ax)) in *. set (yf := fnormalise y (fa_offset ay) (fa_scale ay)) in *. set (zf := fnormalise z (fa_offset az) (fa_scale az)) in *.
  pose proof ulp1_pos as U0. pose proof ulp1_fine as U1. pose proof (proj1 C) as L.
  assert (BX : Rabs (B2R xf) <= 10002 / 10000) by (eapply Rle_trans; [eapply near_bound; eassumption|]; lra).
  assert (BY : Rabs (B2R yf) <= 10002 / 10000) by (eapply Rle_trans; [eapply near_bound; eassumption|]; lra).
  assert (BZ : Rabs (B2R zf) <= 10002 / 10000) by (eapply Rle_trans; [eapply near_bound; eassumption|]; lra).
  destruct (terms_moderate xf yf zf c C S FX FY FZ BX BY BZ) as [M1 M2]. destruct (terms_values xf yf zf c L) as [V1 V2].
  apply terms_near in EU; [|exact M1|reflexivity|reflexivity]. apply terms_near in EV; [|exact M2|reflexivity|reflexivity]. rewrite V1 in EU. rewrite V2 in EV.
  rewrite along_x_eq, along_y_eq. destruct (along_sums (map B2R c) ltac:(now rewrite map_length)) as [SX SY].
  assert (K : (10001 / 10000 + 2001 / 1000 * ulp1) ^ 3 - (10001 / 10000) ^ 3 <= 1 / 10000000000000).
  { cbn [pow]. assert (ulp1 * ulp1 <= ulp1 * 1) by (apply Rmult_le_compat_l; lra). assert (ulp1 * (ulp1 * ulp1) <= ulp1 * (1 * 1)) by (apply Rmult_le_compat_l; [lra|]; apply Rmult_le_compat; lra). lra. }
  assert (T : forall cs w, near w (cubic cs (B2R xf) (B2R yf) (B2R zf)) (12 / 10000000000000) -> abs_sum cs <= 3 * abs_sum (map B2R c) ->
    near w (cubic cs xn yn zn) (2 / 1000000000000) /\ Rabs (cubic cs xn yn zn) <= 601 / 100).
  { intros cs w [FW EW] SC.
    destruct (cubic_move cs rpc_exponents xn yn zn _ _ _ (10001 / 10000) (2001 / 1000 * ulp1) exponents_3 ltac:(lra) ltac:(lra) NX NY NZ EX EY EZ) as [D1 D2].
    fold (cubic cs) in D1, D2. unfold cubic in *. pose proof (abs_sum_pos cs) as S0. split.
    - split; [exact FW|]. match goal with |- Rabs (?a - ?b) <= _ => match type of EW with Rabs (_ - ?m) <= _ => replace (a - b) with ((a - m) + (m - b)) by ring end end.
      eapply Rle_trans; [apply Rabs_triang|]. eapply Rle_trans; [apply Rplus_le_compat; [exact EW|exact D1]|].
      assert (((10001 / 10000 + 2001 / 1000 * ulp1) ^ 3 - (10001 / 10000) ^ 3) * abs_sum cs <= 1 / 10000000000000 * 6).
      { apply Rle_trans with (1 / 10000000000000 * abs_sum cs); [apply Rmult_le_compat_r; lra|lra]. }
      lra.
    - eapply Rle_trans; [exact D2|]. cbn [pow]. lra. }
  split; apply T; assumption.
Qed.

(** ** Sums of two products *)
Lemma rnd_near z c : Rabs z <= c -> Rabs (rnd z - z) <= ulp1 * c + tiny.
Proof. intros H. eapply Rle_trans; [apply rnd_error|]. apply Rplus_le_compat_r. apply Rmult_le_compat_l; [apply Rlt_le, ulp1_pos|exact H]. Qed.
Lemma product_round x y A : is_finite x = true -> is_finite y = true -> Rabs (B2R x * B2R y) <= A -> A <= 1000000000000000000000000000000 ->
  near (fmul x y) (B2R x * B2R y) (ulp1 * A + tiny).
Proof.
  intros FX FY HA LA. pose proof large_huge as HH. destruct (fmul_round x y FX FY) as [E F]; [apply huge_lt; lra|]. split; [exact F|]. rewrite E. now apply rnd_near.
Qed.
Lemma fused_near x y w z A B : is_finite x = true -> is_finite y = true -> near w z (ulp1 * B + tiny) -> Rabs (B2R x * B2R y) <= A -> Rabs z <= B ->
  A + B <= 1000000000000000000000000000000 -> near (ffma x y w) (B2R x * B2R y + z) (3 * ulp1 * (A + B) + 4 * tiny).
Proof.
  intros FX FY [FW EW] HA HB L. pose proof large_huge as HH. pose proof ulp1_pos as U0. pose proof ulp1_fine as U1. pose proof tiny_pos as T0. pose proof tiny_fine as T1.
  assert (A0 : 0 <= A) by (pose proof (Rabs_pos (B2R x * B2R y)); lra). assert (B0 : 0 <= B) by (pose proof (Rabs_pos z); lra).
  assert (UA : 0 <= ulp1 * A) by (apply Rmult_le_pos; lra). assert (UB : 0 <= ulp1 * B <= 1 * B) by (split; [apply Rmult_le_pos; lra|apply Rmult_le_compat_r; lra]).
  assert (D : Rabs (B2R x * B2R y + B2R w - (B2R x * B2R y + z)) <= ulp1 * B + tiny) by (replace (B2R x * B2R y + B2R w - (B2R x * B2R y + z)) with (B2R w - z) by ring; exact EW).
  assert (C : Rabs (B2R x * B2R y + z) <= A + B) by (eapply Rle_trans; [apply Rabs_triang|]; lra).
  destruct (ffma_round x y w FX FY FW) as [E F]; [apply huge_lt; pose proof (near_bound _ _ _ _ D C); lra|].
  eapply near_round; [exact F|exact E|exact D|exact C|].
  assert (ulp1 * (ulp1 * B) <= ulp1 * (1 * B)) by (apply Rmult_le_compat_l; lra). assert (ulp1 * tiny <= 1 * tiny) by (apply Rmult_le_compat_r; lra). lra.
Qed.
Lemma sum_near x y z t v A B : is_finite x = true -> is_finite y = true -> is_finite z = true -> is_finite t = true ->
  Rabs (B2R x * B2R y) <= A -> Rabs (B2R z * B2R t) <= B -> A + B <= 1000000000000000000000000000000 -> sum_of_products x y z t v ->
  near v (B2R x * B2R y + B2R z * B2R t) (3 * ulp1 * (A + B) + 4 * tiny).
Proof.
  intros FX FY FZ FT HA HB L H. pose proof large_huge as HH. pose proof ulp1_pos as U0. pose proof ulp1_fine as U1. pose proof tiny_pos as T0. pose proof tiny_fine as T1.
  assert (A0 : 0 <= A) by (pose proof (Rabs_pos (B2R x * B2R y)); lra). assert (B0 : 0 <= B) by (pose proof (Rabs_pos (B2R z * B2R t)); lra).
  pose proof (product_round x y A FX FY HA ltac:(lra)) as P1. pose proof (product_round z t B FZ FT HB ltac:(lra)) as P2.
  destruct H.
  - assert (UAB : 0 <= ulp1 * (A + B) <= 1 * (A + B)) by (split; [apply Rmult_le_pos; lra|apply Rmult_le_compat_r; lra]).
    eapply near_add; [exact P1|exact P2|eapply Rle_trans; [apply Rabs_triang|]; apply Rplus_le_compat; eassumption| |lra].
    assert (ulp1 * (ulp1 * (A + B)) <= ulp1 * (1 / 2 * (A + B))) by (apply Rmult_le_compat_l; [lra|]; apply Rmult_le_compat_r; lra).
    assert (ulp1 * tiny <= 1 / 2 * tiny) by (apply Rmult_le_compat_r; lra). lra.
  - exact (fused_near x y _ _ A B FX FY P2 HA HB L).
  - rewrite (Rplus_comm (B2R x * B2R y)), (Rplus_comm A). exact (fused_near z t _ _ B A FZ FT P1 HB HA ltac:(lra)).
Qed.
Lemma opp_near x v e : near x v e -> near (Bopp x) (- v) e.
Proof. intros [F H]. split; [now rewrite is_finite_Bopp|]. rewrite B2R_Bopp. replace (- B2R x - - v) with (- (B2R x - v)) by ring. now rewrite Rabs_Ropp. Qed.
Lemma difference_near x y z t v A B : is_finite x = true -> is_finite y = true -> is_finite z = true -> is_finite t = true ->
  Rabs (B2R x * B2R y) <= A -> Rabs (B2R z * B2R t) <= B -> A + B <= 1000000000000000000000000000000 -> difference_of_products x y z t v ->
  near v (B2R x * B2R y - B2R z * B2R t) (3 * ulp1 * (A + B) + 4 * tiny).
Proof.
  intros FX FY FZ FT HA HB L H. pose proof large_huge as HH. pose proof ulp1_pos as U0. pose proof ulp1_fine as U1. pose proof tiny_pos as T0. pose proof tiny_fine as T1.
  assert (A0 : 0 <= A) by (pose proof (Rabs_pos (B2R x * B2R y)); lra). assert (B0 : 0 <= B) by (pose proof (Rabs_pos (B2R z * B2R t)); lra).
  pose proof (product_round x y A FX FY HA ltac:(lra)) as P1. pose proof (product_round z t B FZ FT HB ltac:(lra)) as P2.
  destruct H.
  - assert (UAB : 0 <= ulp1 * (A + B) <= 1 * (A + B)) by (split; [apply Rmult_le_pos; lra|apply Rmult_le_compat_r; lra]).
    eapply near_sub; [exact P1|exact P2|unfold Rminus; eapply Rle_trans; [apply Rabs_triang|]; rewrite Rabs_Ropp; apply Rplus_le_compat; eassumption| |lra].
    assert (ulp1 * (ulp1 * (A + B)) <= ulp1 * (1 / 2 * (A + B))) by (apply Rmult_le_compat_l; [lra|]; apply Rmult_le_compat_r; lra).
    assert (ulp1 * tiny <= 1 / 2 * tiny) by (apply Rmult_le_compat_r; lra). lra.
  - unfold Rminus. apply opp_near in P2. exact (fused_near x y _ _ A B FX FY P2 HA ltac:(now rewrite Rabs_Ropp) L).
  - replace (B2R x * B2R y - B2R z * B2R t) with (B2R (Bopp z) * B2R t + B2R x * B2R y) by (rewrite B2R_Bopp; ring). rewrite (Rplus_comm A).
    apply fused_near; [now rewrite is_finite_Bopp|exact FT|exact P1| |exact HA|lra].
    rewrite B2R_Bopp. replace (- B2R z * B2R t) with (- (B2R z * B2R t)) by ring. now rewrite Rabs_Ropp.
Qed.

(** ** The slopes *)
Lemma product_move x y a b e f A B : Rabs (x - a) <= e -> Rabs (y - b) <= f -> Rabs a <= A -> Rabs b <= B -> Rabs (x * y - a * b) <= e * B + A * f + e * f.
Proof.
  intros H1 H2 HA HB. replace (x * y - a * b) with ((x - a) * b + a * (y - b) + (x - a) * (y - b)) by ring.
  pose proof (abs_mul _ _ _ _ H1 HB). pose proof (abs_mul _ _ _ _ HA H2). pose proof (abs_mul _ _ _ _ H1 H2).
  pose proof (Rabs_triang ((x - a) * b + a * (y - b)) ((x - a) * (y - b))). pose proof (Rabs_triang ((x - a) * b) (a * (y - b))). lra.
Qed.
Lemma slope_near so si n d nd dd N D N' D' v S : near n N (1 / 100000000000000) -> near d D (1 / 100000000000000) ->
  near nd N' (2 / 1000000000000) -> near dd D' (2 / 1000000000000) -> Rabs N <= 2003 / 1000 -> Rabs D <= 2003 / 1000 -> Rabs N' <= 601 / 100 -> Rabs D' <= 601 / 100 ->
  / 2 <= Rabs D -> is_finite so = true -> is_finite si = true -> B2R si <> 0 -> Rabs (B2R so / B2R si) <= S -> 1 / 10000000 <= S <= 10000000 ->
  slope so si n d nd dd v -> near v (B2R so / B2R si * (N' * D - D' * N) / (D * D)) (S / 10000000000).
Proof.
  intros [Fn En] [Fd Ed] [Fnd End] [Fdd Edd] BN BD BN' BD' LD Fso Fsi NZ HK HS HV.
  pose proof large_huge as HH. pose proof ulp1_pos as U0. pose proof ulp1_fine as U1. pose proof tiny_pos as T0. pose proof tiny_fine as T1.
  pose proof (near_bound _ _ _ _ En BN) as An. pose proof (near_bound _ _ _ _ Ed BD) as Ad. pose proof (near_bound _ _ _ _ End BN') as And. pose proof (near_bound _ _ _ _ Edd BD') as Add.
  assert (G : forall g, difference_of_products nd d dd n g -> near g (N' * D - D' * N) (9 / 1000000000000) /\ Rabs (N' * D - D' * N) <= 2408 / 100).
  { intros g Hg.
    assert (A1 : Rabs (B2R nd * B2R d) <= 13) by (eapply Rle_trans; [apply (abs_mul _ _ _ _ And Ad)|lra]).
    assert (A2 : Rabs (B2R dd * B2R n) <= 13) by (eapply Rle_trans; [apply (abs_mul _ _ _ _ Add An)|lra]).
    destruct (difference_near nd d dd n g 13 13 Fnd Fd Fdd Fn A1 A2 ltac:(lra) Hg) as [Fg Eg].
    pose proof (product_move _ _ _ _ _ _ _ _ End Ed BN' BD) as M1. pose proof (product_move _ _ _ _ _ _ _ _ Edd En BD' BN) as M2. split.
    - split; [exact Fg|].
      replace (B2R g - (N' * D - D' * N)) with ((B2R g - (B2R nd * B2R d - B2R dd * B2R n)) + (B2R nd * B2R d - N' * D) + - (B2R dd * B2R n - D' * N)) by ring.
      rewrite <- Rabs_Ropp in M2.
      match goal with |- Rabs (?p + ?q + ?r) <= _ => pose proof (Rabs_triang (p + q) r); pose proof (Rabs_triang p q) end. lra.
    - unfold Rminus. eapply Rle_trans; [apply Rabs_triang|]. rewrite Rabs_Ropp. pose proof (abs_mul _ _ _ _ BN' BD). pose proof (abs_mul _ _ _ _ BD' BN). lra. }
  (* the square of the denominator *)
  assert (Q : near (fmul d d) (D * D) (5 / 100000000000000)).
  { eapply near_mul; [split; [exact Fd|exact Ed]|split; [exact Fd|exact Ed]|exact BD|exact BD|apply Rle_refl|apply Rle_refl| |lra]. lra. }
  assert (LQ : / 4 <= Rabs (D * D)) by (rewrite Rabs_mult; replace (/ 4) with (/ 2 * / 2) by lra; apply Rmult_le_compat; lra).
  (* the ratio of the scales *)
  set (K := B2R so / B2R si) in *.
  assert (KN : near (fdiv so si) K (2 * ulp1 * S)).
  { eapply near_div; [apply near_exact; exact Fso|exact Fsi|exact NZ|exact HK|rewrite Rmult_0_l; apply Rle_refl| |lra]. assert (ulp1 * (1 / 10000000) <= ulp1 * S) by (apply Rmult_le_compat_l; lra). 
    assert (tiny <= ulp1 * (1 / 10000000)). { pose proof big_tiny. assert (ulp1 * ulp1 <= ulp1 * 1) by (apply Rmult_le_compat_l; lra). lra. } lra. }
  assert (P : forall g, difference_of_products nd d dd n g -> near (fmul (fdiv so si) g) (K * (N' * D - D' * N)) (S / 100000000000) /\ Rabs (K * (N' * D - D' * N)) <= 2408 / 100 * S).
  { intros g Hg. destruct (G g Hg) as [NG BG]. assert (US : 0 <= ulp1 * S <= 12 / 100000000000000000 * S) by (split; [apply Rmult_le_pos; lra|apply Rmult_le_compat_r; lra]).
    split; [|replace (2408 / 100 * S) with (S * (2408 / 100)) by ring; now apply abs_mul].
    eapply near_mul; [exact KN|exact NG|exact HK|exact BG|apply Rle_refl|apply Rle_refl| |lra]. 
    assert (ulp1 * (S * (2408 / 100) + (2 * ulp1 * S * (2408 / 100) + S * (9 / 1000000000000) + 2 * ulp1 * S * (9 / 1000000000000))) <= ulp1 * (30 * S)) by (apply Rmult_le_compat_l; lra). lra. }
  assert (R : forall p, near p (K * (N' * D - D' * N)) (S / 100000000000) -> Rabs (K * (N' * D - D' * N)) <= 2408 / 100 * S ->
    B2R (fmul d d) <> 0 /\ Rabs (B2R p / B2R (fmul d d) - K * (N' * D - D' * N) / (D * D)) <= 7 / 100000000000 * S /\ Rabs (K * (N' * D - D' * N) / (D * D)) <= 97 * S /\ 24 / 100 <= Rabs (B2R (fmul d d))).
  { intros p [Fp Ep] BP. destruct (quotient_error (B2R p) (B2R (fmul d d)) _ (D * D) _ _ (/ 4) ltac:(lra) Ep (proj2 Q) ltac:(lra)) as [L E].
    assert (B : Rabs (K * (N' * D - D' * N) / (D * D)) <= 97 * S).
    { unfold Rdiv. rewrite Rabs_mult, Rabs_inv. apply Rle_trans with (2408 / 100 * S * 4); [|lra]. apply Rmult_le_compat; [apply Rabs_pos|left; apply Rinv_0_lt_compat; lra|exact BP|].
      rewrite <- (Rinv_inv 4). apply Rinv_le; lra. }
    split; [intros Z; rewrite Z, Rabs_R0 in L; lra|]. split; [|split; [exact B|lra]]. eapply Rle_trans; [exact E|].
    apply Rmult_le_reg_r with (99 / 100 * / 4); [lra|]. unfold Rdiv at 1. rewrite Rmult_assoc, Rinv_l by lra.
    assert (Rabs (K * (N' * D - D' * N) / (D * D)) * (5 / 100000000000000) <= 97 * S * (5 / 100000000000000)) by (apply Rmult_le_compat_r; lra). lra. }
  destruct HV as [g Hg|g Hg]; destruct (P g Hg) as [NP BP]; destruct (R _ NP BP) as (NQ & E & B & LQ').
  - pose proof (near_bound _ _ _ _ E B) as BB.
    destruct (fdiv_round (fmul (fdiv so si) g) (fmul d d) (proj1 NP) NQ) as [EV FV]; [apply huge_lt; lra|].
    eapply near_round; [exact FV|exact EV|exact E|exact B|].
    assert (ulp1 * (97 * S + 7 / 100000000000 * S) <= ulp1 * (98 * S)) by (apply Rmult_le_compat_l; lra). assert (ulp1 * S <= 12 / 100000000000000000 * S) by (apply Rmult_le_compat_r; lra). lra.
  - destruct fint1 as [E1 F1]. set (q := fmul d d) in *. set (p := fmul (fdiv so si) g) in *.
    assert (IQ : Rabs (/ B2R q) <= 5) by (rewrite Rabs_inv, <- (Rinv_inv 5); apply Rinv_le; lra).
    assert (NI : near (fdiv (fint 1) q) (/ B2R q) (6 * ulp1)).
    { replace (/ B2R q) with (B2R (fint 1) / B2R q) by (rewrite E1; field; exact NQ).
      eapply near_div; [apply near_exact; exact F1|exact (proj1 Q)|exact NQ|rewrite E1; unfold Rdiv; rewrite Rmult_1_l; exact IQ|rewrite Rmult_0_l; apply Rle_refl| |lra].
      assert (tiny <= ulp1). { pose proof big_tiny. assert (ulp1 * ulp1 <= ulp1 * 1) by (apply Rmult_le_compat_l; lra). lra. } lra. }
    assert (BP' : Rabs (B2R p) <= 25 * S) by (pose proof (near_bound _ _ _ _ (proj2 NP) BP); lra).
    pose proof (near_mul p (fdiv (fint 1) q) (B2R p) (/ B2R q) 0 (6 * ulp1) (25 * S) 5 (125 * S) (150 * ulp1 * S) (1 / 1000000000000 * S) (near_exact _ (proj1 NP)) NI BP' IQ ltac:(lra) ltac:(lra)) as M.
    assert (US : 0 <= ulp1 * S <= 12 / 100000000000000000 * S) by (split; [apply Rmult_le_pos; lra|apply Rmult_le_compat_r; lra]).
    destruct M as [FM EM].
    + assert (ulp1 * (125 * S + 150 * ulp1 * S) <= ulp1 * (126 * S)) by (apply Rmult_le_compat_l; lra). lra.
    + lra.
    + split; [exact FM|]. unfold Rdiv in E. match goal with |- Rabs (?a - ?b) <= _ => replace (a - b) with ((a - B2R p * / B2R q) + (B2R p * / B2R q - b)) by ring end.
      eapply Rle_trans; [apply Rabs_triang|]. unfold Rdiv. lra.
Qed.

(** ** The solution of the system *)
Lemma determinant_large A B C D g : 0 <= g -> (forall u v, size u v <= g * size (A * u + B * v) (C * u + D * v)) -> 1 <= g * g * Rabs (A * D - C * B).
Proof.
  intros G0 H. assert (HC : Rabs C <= g * Rabs (A * D - C * B)).
  { pose proof (H D (- C)) as K. pose proof (size_r D (- C)) as K'. rewrite Rabs_Ropp in K'. replace (C * D + D * - C) with 0 in K by ring. replace (A * D + B * - C) with (A * D - C * B) in K by ring.
    replace (size (A * D - C * B) 0) with (Rabs (A * D - C * B)) in K by (unfold size; rewrite Rabs_R0, Rmax_left; [reflexivity|apply Rabs_pos]). lra. }
  assert (HA : Rabs A <= g * Rabs (A * D - C * B)).
  { pose proof (H B (- A)) as K. pose proof (size_r B (- A)) as K'. rewrite Rabs_Ropp in K'. replace (A * B + B * - A) with 0 in K by ring. replace (C * B + D * - A) with (- (A * D - C * B)) in K by ring.
    replace (size 0 (- (A * D - C * B))) with (Rabs (A * D - C * B)) in K by (unfold size; rewrite Rabs_R0, Rabs_Ropp, Rmax_right; [reflexivity|apply Rabs_pos]). lra. }
  pose proof (H 1 0) as K. pose proof (size_l 1 0) as K'. rewrite Rabs_R1 in K'. replace (A * 1 + B * 0) with A in K by ring. replace (C * 1 + D * 0) with C in K by ring.
  assert (size A C <= g * Rabs (A * D - C * B)) by now apply size_le. assert (g * size A C <= g * (g * Rabs (A * D - C * B))) by now apply Rmult_le_compat_l. lra.
Qed.
Lemma solve_near (A B C D dc dr dlon dlat : b64) S g : is_finite A = true -> is_finite B = true -> is_finite C = true -> is_finite D = true -> is_finite dc = true -> is_finite dr = true ->
  Rabs (B2R A) <= S -> Rabs (B2R B) <= S -> Rabs (B2R C) <= S -> Rabs (B2R D) <= S ->
  (forall u v, size u v <= g * size (B2R A * u + B2R B * v) (B2R C * u + B2R D * v)) ->
  0 <= g <= 1000000 -> S <= 20000000 -> g * S <= 510 -> 1 / 10000000 <= size (B2R dc) (B2R dr) <= 10000000 -> solved A B C D dc dr dlon dlat ->
  is_finite dlon = true /\ is_finite dlat = true /\
  Rabs (B2R A * B2R dlon + B2R B * B2R dlat - B2R dc) <= 3 / 10000000 * size (B2R dc) (B2R dr) /\
  Rabs (B2R C * B2R dlon + B2R D * B2R dlat - B2R dr) <= 3 / 10000000 * size (B2R dc) (B2R dr) /\
  size (B2R dlon) (B2R dlat) <= 1001 / 1000 * g * size (B2R dc) (B2R dr).
Proof.
  intros FA FB FC FD Fc Fr HA HB HC HD HG G SU GS HZ (det & nlon & nlat & Hdet & Hlon & Hlat & -> & ->).
  pose proof large_huge as HH. pose proof ulp1_pos as U0. pose proof ulp1_fine as U1. pose proof tiny_pos as T0. pose proof tiny_fine as T1.
  pose proof (size_l (B2R dc) (B2R dr)) as Zc. pose proof (size_r (B2R dc) (B2R dr)) as Zr. pose proof (determinant_large _ _ _ _ g (proj1 G) HG) as DG.
  set (z := size (B2R dc) (B2R dr)) in *. set (a := B2R A) in *. set (b := B2R B) in *. set (c := B2R C) in *. set (d := B2R D) in *. set (u := B2R dc) in *. set (w := B2R dr) in *.
  set (E := a * d - c * b) in *. assert (S0 : 0 <= S) by (pose proof (Rabs_pos a); lra).
  assert (G1 : 0 < g). { destruct (proj1 G) as [K|K]; [exact K|]. rewrite <- K in DG. lra. }
  (* the sizes *)
  assert (gS : 1 <= g * S).
  { pose proof (HG 1 0) as K. pose proof (size_l 1 0) as K'. rewrite Rabs_R1 in K'. replace (a * 1 + b * 0) with a in K by ring. replace (c * 1 + d * 0) with c in K by ring.
    assert (size a c <= S) by now apply size_le. assert (g * size a c <= g * S) by (apply Rmult_le_compat_l; lra). lra. }
  assert (S1 : 1 / 1000000 <= S). { apply Rmult_le_reg_l with 1000000; [lra|]. assert (g * S <= 1000000 * S) by (apply Rmult_le_compat_r; lra). lra. }
  assert (G2 : 1 / 20000000 <= g). { apply Rmult_le_reg_r with 20000000; [lra|]. assert (g * S <= g * 20000000) by (apply Rmult_le_compat_l; lra). lra. }
  assert (gg : g * g <= 1000000 * 1000000) by (apply Rmult_le_compat; lra).
  assert (EP : 1 / 1000000000000 <= Rabs E). { apply Rmult_le_reg_l with 1000000000000; [lra|]. pose proof (Rabs_pos E). assert (g * g * Rabs E <= 1000000 * 1000000 * Rabs E) by (apply Rmult_le_compat_r; lra). lra. }
  assert (SS : S * S <= 260100 * Rabs E).
  { apply Rle_trans with (S * S * (g * g * Rabs E)); [rewrite <- (Rmult_1_r (S * S)) at 1; apply Rmult_le_compat_l; [now apply Rmult_le_pos|exact DG]|].
    replace (S * S * (g * g * Rabs E)) with (g * S * (g * S) * Rabs E) by ring. apply Rmult_le_compat_r; [apply Rabs_pos|]. replace 260100 with (510 * 510) by lra. apply Rmult_le_compat; lra. }
  assert (SE : S <= 510 * g * Rabs E).
  { apply Rle_trans with (S * (g * g * Rabs E)); [rewrite <- (Rmult_1_r S) at 1; now apply Rmult_le_compat_l|].
    replace (S * (g * g * Rabs E)) with (g * S * (g * Rabs E)) by ring. rewrite (Rmult_assoc 510). apply Rmult_le_compat_r; [|exact GS]. apply Rmult_le_pos; [lra|apply Rabs_pos]. }
  assert (SSU : S * S <= 20000000 * 20000000) by (apply Rmult_le_compat; lra). assert (SZ : S * z <= 20000000 * 10000000) by (apply Rmult_le_compat; lra).
  assert (SZ1 : 1 / 10000000000000 <= S * z) by (apply Rle_trans with (1 / 1000000 * (1 / 10000000)); [lra|apply Rmult_le_compat; lra]).
  (* the computed determinant *)
  assert (ND : near det E (2 / 10000000000 * Rabs E)).
  { eapply near_weaken; [apply (difference_near A D C B det (S * S) (S * S)); try assumption; try (apply abs_mul; assumption); lra|].
    assert (3 * ulp1 * (S * S + S * S) <= 6 * (12 / 100000000000000000) * (S * S)). { replace (3 * ulp1 * (S * S + S * S)) with (6 * ulp1 * (S * S)) by ring. apply Rmult_le_compat_r; [now apply Rmult_le_pos|lra]. }
    lra. }
  destruct ND as [Fdet Edet].
  (* a quotient *)
  assert (Q : forall n N, near n N (61 / 10 * ulp1 * (S * z)) -> Rabs (N / E) <= g * z -> is_finite (fdiv n det) = true /\ Rabs (B2R (fdiv n det) - N / E) <= 22 / 100000000000 * (g * z)).
  { intros n N [Fn En] BX. assert (E0 : E <> 0) by (intros K; rewrite K, Rabs_R0 in EP; lra).
    destruct (quotient_error (B2R n) (B2R det) N E _ _ (Rabs E) ltac:(lra) En Edet ltac:(lra)) as [L K].
    assert (GZ : 1 / 1000000000000000 <= g * z) by (apply Rle_trans with (1 / 20000000 * (1 / 10000000)); [lra|apply Rmult_le_compat; lra]).
    assert (GZ' : g * z <= 1000000 * 10000000) by (apply Rmult_le_compat; lra).
    assert (K' : Rabs (B2R n / B2R det - N / E) <= 21 / 100000000000 * (g * z)).
    { eapply Rle_trans; [exact K|]. apply Rmult_le_reg_r with (99 / 100 * Rabs E); [lra|]. unfold Rdiv at 1. rewrite Rmult_assoc, Rinv_l by lra.
      assert (S * z <= 510 * (g * z) * Rabs E) by (replace (510 * (g * z) * Rabs E) with (510 * g * Rabs E * z) by ring; apply Rmult_le_compat_r; lra).
      assert (61 / 10 * ulp1 * (S * z) <= 61 / 10 * (12 / 100000000000000000) * (510 * (g * z) * Rabs E)) by (apply Rmult_le_compat; lra).
      assert (Rabs (N / E) * (2 / 10000000000 * Rabs E) <= g * z * (2 / 10000000000 * Rabs E)) by (apply Rmult_le_compat_r; lra).
      assert (0 <= g * z * Rabs E) by (apply Rmult_le_pos; lra). lra. }
    assert (NZ : B2R det <> 0) by (intros K0; rewrite K0, Rabs_R0 in L; lra).
    pose proof (near_bound _ _ _ _ K' BX) as BB. destruct (fdiv_round n det Fn NZ) as [EV FV]; [apply huge_lt; lra|]. split; [exact FV|].
    refine (proj2 (near_round _ _ _ _ _ _ FV EV K' BX _)). assert (ulp1 * (g * z + 21 / 100000000000 * (g * z)) <= 12 / 100000000000000000 * (2 * (g * z))) by (apply Rmult_le_compat; lra). lra. }
  assert (TT : 3 * ulp1 * (S * z + S * z) + 4 * tiny <= 61 / 10 * ulp1 * (S * z)).
  { assert (ulp1 * (1 / 10000000000000) <= ulp1 * (S * z)) by (apply Rmult_le_compat_l; lra). pose proof big_tiny. assert (ulp1 * ulp1 <= ulp1 * 1) by (apply Rmult_le_compat_l; lra). lra. }
  assert (E0 : E <> 0) by (intros K; rewrite K, Rabs_R0 in EP; lra).
  set (X := (d * u - b * w) / E) in *. set (Y := (- c * u + a * w) / E) in *.
  assert (EX : a * X + b * Y = u) by (unfold X, Y, E; field; exact E0). assert (EY : c * X + d * Y = w) by (unfold X, Y, E; field; exact E0).
  assert (SXY : size X Y <= g * z) by (pose proof (HG X Y) as K; rewrite EX, EY in K; exact K).
  assert (NL : near nlon (d * u - b * w) (61 / 10 * ulp1 * (S * z))).
  { eapply near_weaken; [apply (difference_near D dc B dr nlon (S * z) (S * z)); try assumption; try (apply abs_mul; assumption); lra|exact TT]. }
  assert (NA : near nlat (- c * u + a * w) (61 / 10 * ulp1 * (S * z))).
  { assert (OC : - c = B2R (Bopp C)) by (rewrite B2R_Bopp; reflexivity). rewrite OC.
    eapply near_weaken; [apply (sum_near (Bopp C) dc A dr nlat (S * z) (S * z)); try assumption; try (apply abs_mul; assumption); try lra|exact TT].
    - now rewrite is_finite_Bopp.
    - rewrite <- OC. apply abs_mul; [now rewrite Rabs_Ropp|exact Zc]. }
  destruct (Q nlon _ NL (Rle_trans _ _ _ (size_l X Y) SXY)) as [F1 E1]. destruct (Q nlat _ NA (Rle_trans _ _ _ (size_r X Y) SXY)) as [F2 E2]. fold X in E1. fold Y in E2.
  set (x := B2R (fdiv nlon det)) in *. set (y := B2R (fdiv nlat det)) in *.
  assert (SGZ : S * (22 / 100000000000 * (g * z)) <= 1122 / 10000000000 * z).
  { replace (S * (22 / 100000000000 * (g * z))) with (22 / 100000000000 * (g * S * z)) by ring. assert (g * S * z <= 510 * z) by (apply Rmult_le_compat_r; lra). lra. }
  assert (RES : forall p q v, Rabs p <= S -> Rabs q <= S -> p * X + q * Y = v -> Rabs (p * x + q * y - v) <= 3 / 10000000 * z).
  { intros p q v Hp Hq <-. replace (p * x + q * y - (p * X + q * Y)) with (p * (x - X) + q * (y - Y)) by ring. eapply Rle_trans; [apply Rabs_triang|].
    pose proof (abs_mul _ _ _ _ Hp E1). pose proof (abs_mul _ _ _ _ Hq E2). lra. }
  split; [exact F1|]. split; [exact F2|]. split; [now apply RES|]. split; [now apply RES|].
  assert (GZ0 : 0 <= g * z) by (apply Rmult_le_pos; lra).
  apply size_le.
  - pose proof (near_bound _ _ _ _ E1 (Rle_trans _ _ _ (size_l X Y) SXY)). lra.
  - pose proof (near_bound _ _ _ _ E2 (Rle_trans _ _ _ (size_r X Y) SXY)). lra.
Qed.
