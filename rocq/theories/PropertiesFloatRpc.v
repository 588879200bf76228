(** C88: the rounding errors of the RPC models, whatever the order of the operations. *)
From Coq Require Import ZArith Reals List Bool Lia Lra.
From Flocq Require Import Core BinarySingleNaN.
From Verif Require Import Num ProjModel RpcModel RpcSpec FloatModel Float FloatErr FloatRpcModel FloatEval FloatRpcSpec FloatRpc FloatRpcOut.
Import ListNotations.
Open Scope R_scope.

(** The exact value of the rational function of one output. *)
Definition exact_value (ax ay az out : faxis) (num den : list b64) (x y z : b64) : R :=
  cubic (map B2R num) (normal x ax) (normal y ay) (normal z az)
  / cubic (map B2R den) (normal x ax) (normal y ay) (normal z az) * B2R (fa_scale out) + B2R (fa_offset out).

(** A point of the validity domain and a rational function without a pole there: the sums of the absolute
    values of the coefficients are at most 10^9, the denominator is at least [delta] >= 10^-3 and not
    lost in the rounding of its terms.  Any evaluation, in any order, with or without fused operations and
    inverses, of the Python or of the C++ formula, gives a finite result, and its error is at most
    2^-53 times a sum that only depends on the sizes of the parameters. *)
Theorem C88_rounding_error :
  forall ax ay az out num den x y z v delta,
    coefficients num -> coefficients den -> finite_axis ax -> finite_axis ay -> finite_axis az ->
    inside x ax -> inside y ay -> inside z az ->
    abs_sum (map B2R num) <= 1000000000 -> abs_sum (map B2R den) <= 1000000000 ->
    is_finite (fa_offset out) = true -> is_finite (fa_scale out) = true ->
    Rabs (B2R (fa_offset out)) <= 1000000000 -> Rabs (B2R (fa_scale out)) <= 1000000000 ->
    / 1000 <= delta <= Rabs (cubic (map B2R den) (normal x ax) (normal y ay) (normal z az)) ->
    / 2 ^ 53 * (31 * abs_sum (map B2R den) + 1) <= delta / 100 ->
    compiled_rational ax ay az out num den x y z v ->
    let q := Rabs (cubic (map B2R num) (normal x ax) (normal y ay) (normal z az)
                   / cubic (map B2R den) (normal x ax) (normal y ay) (normal z az)) in
    is_finite v = true /\
    Rabs (B2R v - exact_value ax ay az out num den x y z)
    <= / 2 ^ 53 * (Rabs (B2R (fa_scale out)) *
         (32 * (abs_sum (map B2R num) + 1 + q * (abs_sum (map B2R den) + 1)) / delta + 5 * q) + Rabs (B2R (fa_offset out)) + 1).
Proof.
  assert (E : / 2 ^ 53 = ulp1) by (rewrite ulp1_val; f_equal; cbn [pow]; change (IZR (2 ^ 53)) with 9007199254740992; ring).
  intros ax ay az out num den x y z v delta N D AX AY AZ IX IY IZ Sn Sd Fo Fs Ho Hs HD HE HV q. rewrite E in *.
  exact (rational_near ax ay az out num den x y z v delta N D AX AY AZ IX IY IZ Sn Sd Fo Fs Ho Hs HD HE HV).
Qed.

(** The parameters and the point of an ordinary product: the coefficients of each polynomial sum to at
    most 2 in absolute value and the denominator is at least 1/2. *)
Definition ordinary (ax ay az out : faxis) (num den : list b64) (x y z : b64) : Prop :=
  coefficients num /\ coefficients den /\ finite_axis ax /\ finite_axis ay /\ finite_axis az /\
  inside x ax /\ inside y ay /\ inside z az /\ abs_sum (map B2R num) <= 2 /\ abs_sum (map B2R den) <= 2 /\
  is_finite (fa_offset out) = true /\ is_finite (fa_scale out) = true /\
  / 2 <= Rabs (cubic (map B2R den) (normal x ax) (normal y ay) (normal z az)).
Lemma ordinary_error ax ay az out num den x y z v s o : ordinary ax ay az out num den x y z ->
  Rabs (B2R (fa_scale out)) <= s <= 1000000000 -> Rabs (B2R (fa_offset out)) <= o <= 1000000000 -> compiled_rational ax ay az out num den x y z v ->
  is_finite v = true /\ Rabs (B2R v - exact_value ax ay az out num den x y z) <= ulp1 * (981 * s + o + 1).
Proof.
  intros (N & D & AX & AY & AZ & IX & IY & IZ & Sn & Sd & Fo & Fs & HD) Hs Ho HV. pose proof ulp1_pos as U0. pose proof ulp1_small as U1.
  assert (Sd0 := abs_sum_pos (map B2R den)). assert (Sn0 := abs_sum_pos (map B2R num)).
  assert (M : ulp1 * (31 * abs_sum (map B2R den) + 1) <= / 2 / 100) by (assert (ulp1 * (31 * abs_sum (map B2R den) + 1) <= / 1000000 * 63) by (apply Rmult_le_compat; lra); lra).
  destruct (rational_near ax ay az out num den x y z v (/ 2) N D AX AY AZ IX IY IZ ltac:(lra) ltac:(lra) Fo Fs ltac:(lra) ltac:(lra) ltac:(lra) M HV) as [F H].
  split; [exact F|]. eapply Rle_trans; [exact H|]. apply Rmult_le_compat_l; [lra|].
  set (Nv := cubic (map B2R num) (normal x ax) (normal y ay) (normal z az)) in *. set (Dv := cubic (map B2R den) (normal x ax) (normal y ay) (normal z az)) in *.
  assert (NB : Rabs Nv <= 2002 / 1000).
  { destruct IX as [_ IX], IY as [_ IY], IZ as [_ IZ].
    assert (Z0 : forall t, Rabs (t - t) <= 0) by (intros t; rewrite Rminus_eq_0, Rabs_R0; lra).
    destruct (cubic_move (map B2R num) rpc_exponents _ _ _ _ _ _ (10001 / 10000) 0 exponents_3 ltac:(lra) ltac:(lra) IX IY IZ (Z0 _) (Z0 _) (Z0 _)) as [_ B].
    fold (cubic (map B2R num) (normal x ax) (normal y ay) (normal z az)) in B. fold Nv in B. cbn [pow] in B. lra. }
  assert (DI : 0 < / Rabs Dv <= 2) by (split; [apply Rinv_0_lt_compat; lra|rewrite <- (Rinv_inv 2); apply Rinv_le; lra]).
  assert (Q : 0 <= Rabs (Nv / Dv) <= 4004 / 1000).
  { split; [apply Rabs_pos|]. unfold Rdiv. rewrite Rabs_mult, Rabs_inv. replace (4004 * / 1000) with (2002 / 1000 * 2) by field. apply Rmult_le_compat; try lra; apply Rabs_pos. }
  set (q := Rabs (Nv / Dv)) in *. pose proof (Rabs_pos (B2R (fa_scale out))) as s0.
  assert (B : 32 * (abs_sum (map B2R num) + 1 + q * (abs_sum (map B2R den) + 1)) / / 2 + 5 * q <= 981).
  { assert (q * (abs_sum (map B2R den) + 1) <= 4004 / 1000 * 3) by (apply Rmult_le_compat; lra). unfold Rdiv. rewrite Rinv_inv. lra. }
  assert (B0 : 0 <= 32 * (abs_sum (map B2R num) + 1 + q * (abs_sum (map B2R den) + 1)) / / 2 + 5 * q).
  { assert (0 <= q * (abs_sum (map B2R den) + 1)) by (apply Rmult_le_pos; lra). unfold Rdiv. rewrite Rinv_inv. lra. }
  assert (Rabs (B2R (fa_scale out)) * (32 * (abs_sum (map B2R num) + 1 + q * (abs_sum (map B2R den) + 1)) / / 2 + 5 * q) <= s * 981) by (apply Rmult_le_compat; lra). lra.
Qed.
(** A model and the binary64 numbers it is made of. *)
Definition made_of (m : rpc) (ax ay az acol arow : faxis) (ncol dcol nrow drow : list b64) : Prop :=
  num_col m = map B2R ncol /\ den_col m = map B2R dcol /\ num_row m = map B2R nrow /\ den_row m = map B2R drow /\
  offset_x m = B2R (fa_offset ax) /\ scale_x m = B2R (fa_scale ax) /\ offset_y m = B2R (fa_offset ay) /\ scale_y m = B2R (fa_scale ay) /\
  offset_alt m = B2R (fa_offset az) /\ scale_alt m = B2R (fa_scale az) /\
  offset_col m = B2R (fa_offset acol) /\ scale_col m = B2R (fa_scale acol) /\ offset_row m = B2R (fa_offset arow) /\ scale_row m = B2R (fa_scale arow).
Definition image_axis (a : faxis) : Prop := Rabs (B2R (fa_scale a)) <= 100000 /\ Rabs (B2R (fa_offset a)) <= 100000.

(** Inverse localization with an ordinary model, in an image of at most 10^5 rows and columns: the computed
    row and column are within 1.2 10^-8 pixel of the model's own. *)
Theorem C88_pixel_error :
  forall m ax ay az acol arow ncol dcol nrow drow lon lat alt row col,
    made_of m ax ay az acol arow ncol dcol nrow drow ->
    ordinary ax ay az acol ncol dcol lon lat alt -> ordinary ax ay az arow nrow drow lon lat alt -> image_axis acol -> image_axis arow ->
    compiled_rational ax ay az arow nrow drow lon lat alt row -> compiled_rational ax ay az acol ncol dcol lon lat alt col ->
    is_finite row = true /\ is_finite col = true /\
    Rabs (B2R row - row_of m (B2R lon) (B2R lat) (B2R alt)) <= 12 / 1000000000 /\
    Rabs (B2R col - col_of m (B2R lon) (B2R lat) (B2R alt)) <= 12 / 1000000000.
Proof.
  intros m ax ay az acol arow ncol dcol nrow drow lon lat alt row col (E1 & E2 & E3 & E4 & E5 & E6 & E7 & E8 & E9 & E10 & E11 & E12 & E13 & E14) OC OR [C1 C2] [R1 R2] HR HC.
  assert (U : ulp1 * (981 * 100000 + 100000 + 1) <= 12 / 1000000000) by (rewrite ulp1_val; change (IZR (2 ^ 53)) with 9007199254740992; lra).
  destruct (ordinary_error _ _ _ _ _ _ _ _ _ _ 100000 100000 OR ltac:(lra) ltac:(lra) HR) as [FR ER]. destruct (ordinary_error _ _ _ _ _ _ _ _ _ _ 100000 100000 OC ltac:(lra) ltac:(lra) HC) as [FC EC].
  split; [exact FR|]. split; [exact FC|]. unfold row_of, col_of, nx, ny, nz. rewrite E1, E2, E3, E4, E5, E6, E7, E8, E9, E10, E11, E12, E13, E14.
  unfold exact_value, normal in *. split; lra.
Qed.
(** Two evaluations of the same function, by RPC or by RPCoptim, on any machine: at most 2.4 10^-8 pixel apart. *)
Theorem C88_two_evaluations :
  forall ax ay az out num den x y z v w, ordinary ax ay az out num den x y z -> image_axis out ->
    compiled_rational ax ay az out num den x y z v -> compiled_rational ax ay az out num den x y z w ->
    Rabs (B2R v - B2R w) <= 24 / 1000000000.
Proof.
  intros ax ay az out num den x y z v w O [C1 C2] HV HW.
  assert (U : ulp1 * (981 * 100000 + 100000 + 1) <= 12 / 1000000000) by (rewrite ulp1_val; change (IZR (2 ^ 53)) with 9007199254740992; lra).
  destruct (ordinary_error _ _ _ _ _ _ _ _ _ _ 100000 100000 O ltac:(lra) ltac:(lra) HV) as [_ EV]. destruct (ordinary_error _ _ _ _ _ _ _ _ _ _ 100000 100000 O ltac:(lra) ltac:(lra) HW) as [_ EW].
  set (e := exact_value ax ay az out num den x y z) in *. replace (B2R v - B2R w) with ((B2R v - e) + - (B2R w - e)) by ring. eapply Rle_trans; [apply Rabs_triang|]. rewrite Rabs_Ropp. lra.
Qed.
(** Direct localization with direct coefficients: scales of at most one degree, 2 10^-13 degree. *)
Theorem C88_degree_error :
  forall acol arow aalt out num den col row alt v, ordinary acol arow aalt out num den col row alt ->
    Rabs (B2R (fa_scale out)) <= 1 -> Rabs (B2R (fa_offset out)) <= 180 ->
    compiled_rational acol arow aalt out num den col row alt v ->
    is_finite v = true /\ Rabs (B2R v - exact_value acol arow aalt out num den col row alt) <= 2 / 10000000000000.
Proof.
  intros acol arow aalt out num den col row alt v O C1 C2 HV.
  assert (U : ulp1 * (981 * 1 + 180 + 1) <= 2 / 10000000000000) by (rewrite ulp1_val; change (IZR (2 ^ 53)) with 9007199254740992; lra).
  destruct (ordinary_error _ _ _ _ _ _ _ _ _ _ 1 180 O ltac:(lra) ltac:(lra) HV) as [F E]. split; [exact F|lra].
Qed.
(** The operations of the Python and of the C++ sources, in their order and without contraction, are among
    the evaluations. *)
Theorem C88_source_orders :
  forall ax ay az out num den x y z, length num = 20%nat -> length den = 20%nat ->
    let xn := fnormalise x (fa_offset ax) (fa_scale ax) in
    let yn := fnormalise y (fa_offset ay) (fa_scale ay) in
    let zn := fnormalise z (fa_offset az) (fa_scale az) in
    compiled_rational ax ay az out num den x y z
      (fadd (fmul (fdiv (source_polynomial xn yn zn num) (source_polynomial xn yn zn den)) (fa_scale out)) (fa_offset out)) /\
    compiled_rational ax ay az out num den x y z
      (fadd (fmul (fdiv (cpp_source_polynomial xn yn zn num) (cpp_source_polynomial xn yn zn den)) (fa_scale out)) (fa_offset out)).
Proof.
  intros ax ay az out num den x y z Ln Ld xn yn zn. split.
  - eexists _, _. split; [apply cp_python, source_evaluates, Ln|]. split; [apply cp_python, source_evaluates, Ld|]. apply fo_product, ff_source.
  - eexists _, _. split; [apply cp_cpp, cpp_source_evaluates, Ln|]. split; [apply cp_cpp, cpp_source_evaluates, Ld|]. apply fo_product, ff_source.
Qed.

(** An example: (x - y) / (1 + z) at (0.5, 0.25, 0.75), a column axis of scale 10000 and offset 12000. *)
Definition exf_axis : faxis := FAxis (fint 0) (fint 100).
Definition exf_out : faxis := FAxis (fint 12000) (fint 10000).
Definition exf_num : list b64 := [fint 0; fint 1; fint (-1)] ++ repeat (fint 0) 17.
Definition exf_den : list b64 := [fint 1; fint 0; fint 0; fint 1] ++ repeat (fint 0) 16.
Lemma fint_small n : (Z.abs n <= 100000)%Z -> B2R (fint n) = IZR n /\ is_finite (fint n) = true.
Proof. intros H. destruct (fint_exact n ltac:(lia)) as [A B]. auto. Qed.
Lemma exf_ordinary out : is_finite (fa_offset out) = true -> is_finite (fa_scale out) = true -> ordinary exf_axis exf_axis exf_axis out exf_num exf_den (fint 50) (fint 25) (fint 75).
Proof.
  intros Ho Hs. destruct (fint_small 0 ltac:(lia)) as [A0 F0]. destruct (fint_small 1 ltac:(lia)) as [A1 F1]. destruct (fint_small (-1) ltac:(lia)) as [A2 F2]. destruct (fint_small 100 ltac:(lia)) as [A3 F3].
  destruct (fint_small 50 ltac:(lia)) as [A4 F4]. destruct (fint_small 25 ltac:(lia)) as [A5 F5]. destruct (fint_small 75 ltac:(lia)) as [A6 F6].
  assert (AX : finite_axis exf_axis) by (unfold finite_axis, exf_axis; cbn [fa_offset fa_scale]; rewrite A3, (Rabs_pos_eq 100) by lra; repeat split; try assumption; lra).
  assert (NX : forall n, (Z.abs n <= 100)%Z -> inside (fint n) exf_axis).
  { intros n Hn. destruct (fint_small n ltac:(lia)) as [E F]. split; [exact F|]. unfold normal, exf_axis. cbn [fa_offset fa_scale]. rewrite E, A0, A3. apply Rabs_le. assert (-100 <= IZR n <= 100) by (split; apply IZR_le; lia). lra. }
  assert (EN : map B2R exf_num = [0; 1; -1] ++ repeat 0 17) by (unfold exf_num; cbn [map app repeat]; rewrite A0, A1, A2; reflexivity).
  assert (ED : map B2R exf_den = [1; 0; 0; 1] ++ repeat 0 16) by (unfold exf_den; cbn [map app repeat]; rewrite A0, A1; reflexivity).
  split; [split; [reflexivity|unfold exf_num; cbn [app repeat]; repeat (apply Forall_cons; [assumption|]); apply Forall_nil]|].
  split; [split; [reflexivity|unfold exf_den; cbn [app repeat]; repeat (apply Forall_cons; [assumption|]); apply Forall_nil]|].
  split; [exact AX|]. split; [exact AX|]. split; [exact AX|]. split; [apply NX; lia|]. split; [apply NX; lia|]. split; [apply NX; lia|].
  rewrite EN, ED. unfold abs_sum. cbn [app repeat fold_right]. replace (Rabs (-1)) with 1 by (rewrite Rabs_left; lra). rewrite Rabs_R0, Rabs_R1. split; [lra|]. split; [lra|]. split; [exact Ho|]. split; [exact Hs|].
  unfold cubic, normal, rpc_exponents, exf_axis. cbn [cubic_sum pow fa_offset fa_scale]. rewrite A0, A3, A4, A5, A6. rewrite Rabs_pos_eq; lra.
Qed.
(** The column of this function, and a longitude of the same shape, of scale 1 and offset 2: the hypotheses
    of the theorems above hold and there is an evaluation. *)
Definition exf_degrees : faxis := FAxis (fint 2) (fint 1).
Example C88_ordinary_ex : ordinary exf_axis exf_axis exf_axis exf_out exf_num exf_den (fint 50) (fint 25) (fint 75) /\ image_axis exf_out /\
  (exists v, compiled_rational exf_axis exf_axis exf_axis exf_out exf_num exf_den (fint 50) (fint 25) (fint 75) v) /\
  ordinary exf_axis exf_axis exf_axis exf_degrees exf_num exf_den (fint 50) (fint 25) (fint 75) /\
  Rabs (B2R (fa_scale exf_degrees)) <= 1 /\ Rabs (B2R (fa_offset exf_degrees)) <= 180 /\
  exact_value exf_axis exf_axis exf_axis exf_out exf_num exf_den (fint 50) (fint 25) (fint 75) = 1 / 7 * 10000 + 12000.
Proof.
  destruct (fint_small 12000 ltac:(lia)) as [A7 F7]. destruct (fint_small 10000 ltac:(lia)) as [A8 F8]. destruct (fint_small 2 ltac:(lia)) as [A9 F9]. destruct (fint_small 1 ltac:(lia)) as [A1 F1].
  destruct (fint_small 0 ltac:(lia)) as [A0 F0]. destruct (fint_small (-1) ltac:(lia)) as [A2 F2]. destruct (fint_small 100 ltac:(lia)) as [A3 F3].
  destruct (fint_small 50 ltac:(lia)) as [A4 F4]. destruct (fint_small 25 ltac:(lia)) as [A5 F5]. destruct (fint_small 75 ltac:(lia)) as [A6 F6].
  split; [now apply exf_ordinary|]. split; [unfold image_axis, exf_out; cbn [fa_offset fa_scale]; rewrite A7, A8, !Rabs_pos_eq; lra|].
  split; [eexists; apply (C88_source_orders exf_axis exf_axis exf_axis exf_out exf_num exf_den (fint 50) (fint 25) (fint 75)); reflexivity|].
  split; [now apply exf_ordinary|]. split; [unfold exf_degrees; cbn [fa_scale]; rewrite A1, Rabs_R1; lra|]. split; [unfold exf_degrees; cbn [fa_offset]; rewrite A9, Rabs_pos_eq; lra|].
  unfold exact_value, exf_num, exf_den, exf_out, exf_axis, normal, cubic, rpc_exponents. cbn [app repeat map cubic_sum pow fa_offset fa_scale]. rewrite A0, A1, A2, A3, A4, A5, A6, A7, A8. field.
Qed.
