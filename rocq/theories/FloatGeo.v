(** Rounding errors of the conversions between indices and physical coordinates. *)
From Coq Require Import ZArith Reals Bool Lia Lra Psatz.
From Flocq Require Import Core BinarySingleNaN.
From Verif Require Import FloatModel Float FloatErr FloatRpc FloatGeoModel.
Open Scope R_scope.

Lemma tiny_q : tiny <= / 1000000000000000000000000000000000000000000000000000000000000 * ulp1 * ulp1.
Proof. pose proof big_tiny. lra. Qed.

(** Products and quotients that are not too small have a relative error. *)
Lemma rnd_rel z : / 1000000000000000000000000000000 <= Rabs z -> exists d, rnd z = z * (1 + d) /\ Rabs d <= 1001 / 1000 * ulp1.
Proof.
  intros L. exists ((rnd z - z) / z). pose proof ulp1_pos as Q. pose proof ulp1_small as QS. pose proof tiny_q as T. pose proof (rnd_error z) as E.
  assert (N : z <> 0) by (intros ->; rewrite Rabs_R0 in L; lra). split; [field; exact N|].
  unfold Rdiv. rewrite Rabs_mult, Rabs_inv. apply Rmult_le_reg_r with (Rabs z); [lra|]. rewrite Rmult_assoc, Rinv_l by lra.
  assert (tiny <= / 1000 * ulp1 * Rabs z); [|lra].
  assert (/ 1000 * ulp1 * / 1000000000000000000000000000000 <= / 1000 * ulp1 * Rabs z) by (apply Rmult_le_compat_l; lra).
  assert (ulp1 * ulp1 <= ulp1 * 1) by (apply Rmult_le_compat_l; lra). lra.
Qed.
Lemma rabs_le_between x e : Rabs x <= e -> - e <= x <= e.
Proof. intros H. apply Rabs_le_inv. exact H. Qed.

(** The size of a cell is inverted up to three roundings. *)
Lemma inverse_size (s o d : b64) : is_finite s = true -> is_finite o = true -> is_finite d = true ->
  / 1000000000 <= Rabs (B2R s) <= 1000000000 -> / 1000000000 <= Rabs (B2R o) <= 1000000000 ->
  B2R d = rnd (B2R s * B2R o) ->
  is_finite (fdiv (fint 1) d) = true /\ is_finite (fmul o (fdiv (fint 1) d)) = true /\
  exists h, B2R (fmul o (fdiv (fint 1) d)) = / B2R s * (1 + h) /\ Rabs h <= 31 / 10 * ulp1.
Proof.
  intros Fs Fo Fd S O D. pose proof ulp1_pos as Q. pose proof ulp1_small as QS. pose proof ulp1_tiny as QT. pose proof big_huge as BH.
  assert (Ns : B2R s <> 0) by (intros E; rewrite E, Rabs_R0 in S; lra). assert (No : B2R o <> 0) by (intros E; rewrite E, Rabs_R0 in O; lra).
  assert (P : / 1000000000000000000 <= Rabs (B2R s * B2R o) <= 1000000000000000000).
  { rewrite Rabs_mult. split.
    - replace (/ 1000000000000000000) with (/ 1000000000 * / 1000000000) by lra. apply Rmult_le_compat; lra.
    - replace 1000000000000000000 with (1000000000 * 1000000000) by lra. apply Rmult_le_compat; try apply Rabs_pos; lra. }
  destruct (rnd_rel (B2R s * B2R o)) as (d1 & E1 & H1); [lra|]. rewrite E1 in D. apply rabs_le_between in H1.
  assert (ND : B2R d <> 0) by (rewrite D; apply Rmult_integral_contrapositive; split; [apply Rmult_integral_contrapositive; tauto|lra]).
  assert (AD : / 10000000000000000000 <= Rabs (B2R d) <= 10000000000000000000).
  { rewrite D, Rabs_mult, (Rabs_pos_eq (1 + d1)) by lra. split; nra. }
  destruct fint1 as [V1 F1].
  assert (AI : / 10000000000000000000 <= Rabs (1 / B2R d) <= 10000000000000000000).
  { unfold Rdiv. rewrite Rmult_1_l, Rabs_inv. split; [apply Rinv_le; lra|]. replace 10000000000000000000 with (/ / 10000000000000000000) by lra. apply Rinv_le; lra. }
  destruct (fdiv_round (fint 1) d F1 ND) as [E2 F2]; [rewrite V1; apply huge_lt; lra|]. rewrite V1 in E2.
  destruct (rnd_rel (1 / B2R d)) as (d2 & E3 & H2); [lra|]. rewrite E3 in E2. apply rabs_le_between in H2.
  assert (AQ : / 1000000000000000000000 <= Rabs (B2R (fdiv (fint 1) d)) <= 100000000000000000000).
  { rewrite E2, Rabs_mult, (Rabs_pos_eq (1 + d2)) by lra. split; nra. }
  assert (AR : / 1000000000000000000000000000000 <= Rabs (B2R o * B2R (fdiv (fint 1) d)) <= 100000000000000000000000000000).
  { rewrite Rabs_mult. split.
    - replace (/ 1000000000000000000000000000000) with (/ 1000000000 * / 1000000000000000000000) by lra. apply Rmult_le_compat; lra.
    - replace 100000000000000000000000000000 with (1000000000 * 100000000000000000000) by lra. apply Rmult_le_compat; try apply Rabs_pos; lra. }
  destruct (fmul_round o (fdiv (fint 1) d) Fo F2) as [E4 F4]; [apply huge_lt; lra|].
  destruct (rnd_rel (B2R o * B2R (fdiv (fint 1) d))) as (d3 & E5 & H3); [lra|]. rewrite E5 in E4. apply rabs_le_between in H3.
  split; [exact F2|]. split; [exact F4|]. exists ((1 + d2) * (1 + d3) / (1 + d1) - 1). split.
  - rewrite E4, E2, D. field. repeat split; try assumption; lra.
  - set (q := ulp1) in *. clearbody q. apply Rabs_le. split.
    + apply Rmult_le_reg_r with (1 + d1); [lra|]. replace (((1 + d2) * (1 + d3) / (1 + d1) - 1) * (1 + d1)) with (d2 + d3 + d2 * d3 - d1) by (field; lra). nra.
    + apply Rmult_le_reg_r with (1 + d1); [lra|]. replace (((1 + d2) * (1 + d3) / (1 + d1) - 1) * (1 + d1)) with (d2 + d3 + d2 * d3 - d1) by (field; lra). nra.
Qed.

(** Terms multiplied by a zero coefficient disappear. *)
Lemma add_zero_term (x v z : b64) : is_finite x = true -> is_finite v = true -> is_finite z = true -> B2R z = 0 ->
  B2R (fadd x (fmul v z)) = B2R x /\ is_finite (fadd x (fmul v z)) = true.
Proof.
  intros Fx Fv Fz Z. destruct (fmul_fits v z 0 Fv Fz) as [E F]; [rewrite Z; ring|apply (fits_int 0); reflexivity|].
  apply fadd_fits; [exact Fx|exact F|rewrite E; ring|apply fits_b64; exact Fx].
Qed.
Lemma add_zero_term_l (x v z : b64) : is_finite x = true -> is_finite v = true -> is_finite z = true -> B2R z = 0 ->
  B2R (fadd (fmul v z) x) = B2R x /\ is_finite (fadd (fmul v z) x) = true.
Proof.
  intros Fx Fv Fz Z. destruct (fmul_fits v z 0 Fv Fz) as [E F]; [rewrite Z; ring|apply (fits_int 0); reflexivity|].
  apply fadd_fits; [exact F|exact Fx|rewrite E; ring|apply fits_b64; exact Fx].
Qed.
Lemma sub_zero_term (x v z : b64) : is_finite x = true -> is_finite v = true -> is_finite z = true -> B2R z = 0 ->
  B2R (fsub x (fmul v z)) = B2R x /\ is_finite (fsub x (fmul v z)) = true.
Proof.
  intros Fx Fv Fz Z. destruct (fmul_fits v z 0 Fv Fz) as [E F]; [rewrite Z; ring|apply (fits_int 0); reflexivity|].
  apply fsub_fits; [exact Fx|exact F|rewrite E; ring|apply fits_b64; exact Fx].
Qed.
Lemma zero_term_sub (x v z : b64) : is_finite x = true -> is_finite v = true -> is_finite z = true -> B2R z = 0 ->
  B2R (fsub (fmul v z) x) = - B2R x /\ is_finite (fsub (fmul v z) x) = true.
Proof.
  intros Fx Fv Fz Z. destruct (fmul_fits v z 0 Fv Fz) as [E F]; [rewrite Z; ring|apply (fits_int 0); reflexivity|].
  apply fsub_fits; [exact F|exact Fx|rewrite E; ring|]. destruct (fits_b64 x Fx) as [G L]. split; [apply generic_format_opp, G|rewrite Rabs_Ropp; exact L].
Qed.
Lemma fopp_value (x : b64) : B2R (fopp x) = - B2R x. Proof. apply B2R_Bopp. Qed.
Lemma fopp_finite (x : b64) : is_finite x = true -> is_finite (fopp x) = true. Proof. intros F. unfold fopp. rewrite is_finite_Bopp. exact F. Qed.
Lemma half_value : B2R half = / 2 /\ is_finite half = true.
Proof.
  destruct (flit_exact 1 (-1)) as [E F]; [apply fits_dyadic; [reflexivity|lia]|]. split; [|exact F].
  unfold half. rewrite E. cbv [bpow]. change (IZR (Z.pow_pos radix2 1)) with 2. lra.
Qed.

Section Axis.
Variables (M : R) (s c : b64).
Hypothesis HM : 1 <= M <= 1000000000.
Hypothesis Fs : is_finite s = true.
Hypothesis Fc : is_finite c = true.
Hypothesis Hs : / 1000000000 <= Rabs (B2R s) <= 1000000000.
Hypothesis Hc : Rabs (B2R c) <= M * Rabs (B2R s).

Lemma size_nz : B2R s <> 0.
Proof. intros E. rewrite E, Rabs_R0 in Hs. lra. Qed.
Lemma over_size x m : Rabs x <= m * Rabs (B2R s) -> Rabs (x / B2R s) <= m.
Proof.
  intros H. unfold Rdiv. rewrite Rabs_mult, Rabs_inv. apply Rmult_le_reg_r with (Rabs (B2R s)); [lra|].
  rewrite Rmult_assoc, Rinv_l by lra. lra.
Qed.

(** An index, counted from the corner and known up to [k] roundings, is converted up to [k + 3.1] roundings. *)
Lemma forward_axis (u P : b64) (w k : R) : 0 <= k <= 100 -> near u w (k * (ulp1 * M)) -> Rabs w <= M ->
  is_finite P = is_finite (fmul u s) -> B2R P = B2R (fmul u s) ->
  near (fadd P c) (w * B2R s + B2R c) ((k + 31 / 10) * (ulp1 * (M * Rabs (B2R s)))).
Proof using HM Fs Fc Hs Hc.
  intros K U W FP VP. pose proof ulp1_pos as Q. pose proof ulp1_tiny as QT. pose proof tiny_q as T. pose proof big_huge as BH.
  set (q := ulp1) in *. set (S := Rabs (B2R s)) in *. set (g := M * S) in *.
  assert (G : / 1000000000 <= g <= 1000000000000000000) by (unfold g; split; nra).
  assert (QG : 0 < q * g) by (apply Rmult_lt_0_compat; lra).
  assert (TG : tiny <= / 1000 * (q * g)).
  { assert (q * / 1000000000 <= q * g) by (apply Rmult_le_compat_l; lra). assert (q * q <= q * 1) by (apply Rmult_le_compat_l; lra). lra. }
  assert (QQ : q * (q * g) <= / 1000000000000000 * (q * g)) by (apply Rmult_le_compat_r; lra).
  assert (KQ : k * (q * g) <= 100 * (q * g)) by (apply Rmult_le_compat_r; lra).
  assert (KQQ : q * (k * (q * g)) <= / 1000000000000000 * (100 * (q * g))) by (apply Rmult_le_compat; try lra; apply Rmult_le_pos; lra).
  assert (QH : q * g <= 1000) by nra.
  assert (NP : near P (w * B2R s) ((k + 101 / 100) * (q * g))).
  { assert (N : near (fmul u s) (w * B2R s) ((k + 101 / 100) * (q * g))).
    { eapply near_mul with (e1 := k * (q * M)) (e2 := 0) (A := M) (B := S) (c := g) (d := k * (q * g)); [exact U|apply near_exact; exact Fs|exact W|apply Rle_refl|apply Rle_refl| | | ].
      - unfold g. lra.
      - fold q. rewrite Rmult_plus_distr_l. lra.
      - lra. }
    destruct N as [N1 N2]. split; [rewrite FP; exact N1|rewrite VP; exact N2]. }
  eapply near_add with (e2 := 0) (c := 2 * g); [exact NP|apply near_exact; exact Fc| | |].
  - eapply Rle_trans; [apply Rabs_triang|]. rewrite Rabs_mult. fold S. assert (Rabs w * S <= M * S) by (apply Rmult_le_compat_r; [apply Rabs_pos|exact W]). fold g in H. lra.
  - fold q. rewrite !Rmult_plus_distr_l, !Rmult_plus_distr_r, !Rmult_plus_distr_l. lra.
  - lra.
Qed.

(** The origin in cells. *)
Lemma origin_axis (r : b64) (h : R) : is_finite r = true -> B2R r = / B2R s * (1 + h) -> Rabs h <= 31 / 10 * ulp1 ->
  near (fmul c r) (B2R c / B2R s) (42 / 10 * (ulp1 * M)).
Proof using HM Fc Hs Hc.
  intros Fr E H. pose proof ulp1_pos as Q. pose proof ulp1_tiny as QT. pose proof tiny_q as T. pose proof big_huge as BH. pose proof size_nz as NZ.
  pose proof (over_size (B2R c) M Hc) as A. set (x := B2R c / B2R s) in *.
  assert (X : B2R c * B2R r = x + x * h) by (rewrite E; unfold x; field; exact NZ).
  assert (XH : Rabs (x * h) <= 31 / 10 * (ulp1 * M)).
  { rewrite Rabs_mult. replace (31 / 10 * (ulp1 * M)) with (M * (31 / 10 * ulp1)) by ring. apply Rmult_le_compat; try apply Rabs_pos; lra. }
  assert (QM : 0 < ulp1 * M) by (apply Rmult_lt_0_compat; lra). assert (QM2 : ulp1 * M <= 1) by nra.
  assert (QQ : ulp1 * (ulp1 * M) <= / 1000000000000000 * (ulp1 * M)) by (apply Rmult_le_compat_r; lra).
  assert (TG : tiny <= / 1000 * (ulp1 * M)).
  { assert (ulp1 * 1 <= ulp1 * M) by (apply Rmult_le_compat_l; lra). assert (ulp1 * ulp1 <= ulp1 * 1) by (apply Rmult_le_compat_l; lra). lra. }
  destruct (fmul_round c r Fc Fr) as [V F].
  { apply huge_lt. rewrite X. eapply Rle_trans; [apply Rabs_triang|]. lra. }
  eapply near_round with (z := B2R c * B2R r) (c := M) (e := 31 / 10 * (ulp1 * M)); [exact F|exact V| |exact A|].
  - rewrite X. replace (x + x * h - x) with (x * h) by ring. exact XH.
  - rewrite Rmult_plus_distr_l. lra.
Qed.

(** A physical coordinate is converted up to 16 roundings. *)
Lemma backward_axis (X r T rc : b64) (h : R) : is_finite X = true -> Rabs (B2R X - B2R c) <= 11 / 10 * M * Rabs (B2R s) ->
  is_finite r = true -> B2R r = / B2R s * (1 + h) -> Rabs h <= 31 / 10 * ulp1 ->
  is_finite T = is_finite (fmul X r) -> B2R T = B2R (fmul X r) -> near rc (- (B2R c / B2R s)) (42 / 10 * (ulp1 * M)) ->
  near (fsub (fadd T rc) half) ((B2R X - B2R c) / B2R s - / 2) (16 * (ulp1 * M)).
Proof using HM Hs Hc.
  intros FX HX Fr E H FT VT RC. pose proof ulp1_pos as Q. pose proof ulp1_tiny as QT. pose proof tiny_q as TQ. pose proof big_huge as BH. pose proof size_nz as NZ.
  pose proof (over_size (B2R c) M Hc) as A. pose proof (over_size _ _ HX) as AX.
  set (x := B2R X / B2R s). assert (DX : (B2R X - B2R c) / B2R s = x - B2R c / B2R s) by (unfold x; field; exact NZ).
  set (o := B2R c / B2R s) in *. rewrite DX in *.
  assert (Bx : Rabs x <= 21 / 10 * M) by (replace x with ((x - o) + o) by ring; eapply Rle_trans; [apply Rabs_triang|lra]).
  assert (EX : B2R X * B2R r = x + x * h) by (rewrite E; unfold x; field; exact NZ).
  assert (XH : Rabs (x * h) <= 651 / 100 * (ulp1 * M)).
  { rewrite Rabs_mult. replace (651 / 100 * (ulp1 * M)) with (21 / 10 * M * (31 / 10 * ulp1)) by field. apply Rmult_le_compat; try apply Rabs_pos; lra. }
  assert (QM : 0 < ulp1 * M) by (apply Rmult_lt_0_compat; lra). assert (QM2 : ulp1 * M <= 1) by nra.
  assert (QQ : ulp1 * (ulp1 * M) <= / 1000000000000000 * (ulp1 * M)) by (apply Rmult_le_compat_r; lra).
  assert (TG : tiny <= / 1000 * (ulp1 * M)).
  { assert (ulp1 * 1 <= ulp1 * M) by (apply Rmult_le_compat_l; lra). assert (ulp1 * ulp1 <= ulp1 * 1) by (apply Rmult_le_compat_l; lra). lra. }
  destruct (fmul_round X r FX Fr) as [V F].
  { apply huge_lt. rewrite EX. eapply Rle_trans; [apply Rabs_triang|]. lra. }
  assert (NT : near T x (863 / 100 * (ulp1 * M))).
  { assert (N : near (fmul X r) x (863 / 100 * (ulp1 * M))).
    { eapply near_round with (z := B2R X * B2R r) (c := 21 / 10 * M) (e := 651 / 100 * (ulp1 * M)); [exact F|exact V| |exact Bx|].
      - rewrite EX. replace (x + x * h - x) with (x * h) by ring. exact XH.
      - rewrite Rmult_plus_distr_l. lra. }
    destruct N as [N1 N2]. split; [rewrite FT; exact N1|rewrite VT; exact N2]. }
  assert (NS : near (fadd T rc) (x + - o) (1396 / 100 * (ulp1 * M))).
  { eapply near_add with (c := 11 / 10 * M); [exact NT|exact RC|exact AX| |lra]. rewrite !Rmult_plus_distr_l. lra. }
  destruct half_value as [VH FH]. pose proof (near_exact half FH) as NH. rewrite VH in NH.
  eapply near_sub with (e2 := 0) (c := 16 / 10 * M); [exact NS|exact NH| | |].
  - unfold Rminus in *. eapply Rle_trans; [apply Rabs_triang|]. rewrite Rabs_Ropp, (Rabs_pos_eq (/ 2)) by lra. lra.
  - rewrite !Rmult_plus_distr_l. lra.
  - lra.
Qed.

(** Adding the half cell. *)
Lemma corner_axis (i : b64) (w k : R) : 0 <= k <= 90 -> near i w (k * (ulp1 * M)) -> Rabs (w + / 2) <= M ->
  near (fadd i half) (w + / 2) ((k + 11 / 10) * (ulp1 * M)).
Proof using HM.
  intros K N W. pose proof ulp1_pos as Q. pose proof ulp1_tiny as QT. pose proof tiny_q as TQ. pose proof big_huge as BH.
  assert (QM : 0 < ulp1 * M) by (apply Rmult_lt_0_compat; lra). assert (QM2 : ulp1 * M <= 1) by nra.
  assert (TG : tiny <= / 1000 * (ulp1 * M)).
  { assert (ulp1 * 1 <= ulp1 * M) by (apply Rmult_le_compat_l; lra). assert (ulp1 * ulp1 <= ulp1 * 1) by (apply Rmult_le_compat_l; lra). lra. }
  assert (KQ : k * (ulp1 * M) <= 100 * (ulp1 * M)) by (apply Rmult_le_compat_r; lra).
  assert (KQQ : ulp1 * (k * (ulp1 * M)) <= / 1000000000000000 * (100 * (ulp1 * M))) by (apply Rmult_le_compat; try lra; apply Rmult_le_pos; lra).
  destruct half_value as [VH FH]. pose proof (near_exact half FH) as NH. rewrite VH in NH.
  eapply near_add with (e2 := 0) (c := M); [exact N|exact NH|exact W| |lra].
  rewrite !Rmult_plus_distr_l, !Rmult_plus_distr_r. lra.
Qed.
End Axis.

(** The inverse of a transform without rotation, axis by axis. *)
Lemma invert_north_up (t : faffine) (M : R) : let iv := faffine_invert t in
  is_finite (fa_a t) = true -> is_finite (fa_b t) = true -> is_finite (fa_c t) = true -> is_finite (fa_d t) = true -> is_finite (fa_e t) = true -> is_finite (fa_f t) = true ->
  B2R (fa_b t) = 0 -> B2R (fa_d t) = 0 -> / 1000000000 <= Rabs (B2R (fa_a t)) <= 1000000000 -> / 1000000000 <= Rabs (B2R (fa_e t)) <= 1000000000 ->
  1 <= M <= 1000000000 -> Rabs (B2R (fa_c t)) <= M * Rabs (B2R (fa_a t)) -> Rabs (B2R (fa_f t)) <= M * Rabs (B2R (fa_e t)) ->
  (is_finite (fa_a iv) = true /\ exists h, B2R (fa_a iv) = / B2R (fa_a t) * (1 + h) /\ Rabs h <= 31 / 10 * ulp1) /\
  (is_finite (fa_e iv) = true /\ exists h, B2R (fa_e iv) = / B2R (fa_e t) * (1 + h) /\ Rabs h <= 31 / 10 * ulp1) /\
  (is_finite (fa_b iv) = true /\ B2R (fa_b iv) = 0) /\ (is_finite (fa_d iv) = true /\ B2R (fa_d iv) = 0) /\
  near (fa_c iv) (- (B2R (fa_c t) / B2R (fa_a t))) (42 / 10 * (ulp1 * M)) /\ near (fa_f iv) (- (B2R (fa_f t) / B2R (fa_e t))) (42 / 10 * (ulp1 * M)).
Proof.
  destruct t as [a b c d e f]. intros iv. unfold iv, faffine_invert. clear iv. cbn [fa_a fa_b fa_c fa_d fa_e fa_f]. intros Fa Fb Fc Fd Fe Ff B D A E HM C F.
  pose proof big_huge as BH.
  destruct (fmul_round a e Fa Fe) as [V1 F1].
  { apply huge_lt. rewrite Rabs_mult. apply Rle_trans with (1000000000 * 1000000000); [apply Rmult_le_compat; try apply Rabs_pos; lra|lra]. }
  destruct (sub_zero_term (fmul a e) b d F1 Fb Fd D) as [V2 F2]. rewrite V1 in V2. set (det := fsub (fmul a e) (fmul b d)) in *.
  destruct (inverse_size a e det Fa Fe F2 A E V2) as (FI & FRA & ha & EA & HA).
  rewrite Rmult_comm in V2. destruct (inverse_size e a det Fe Fa F2 E A V2) as (_ & FRE & he & EE & HE).
  set (idet := fdiv (fint 1) det) in *.
  assert (Z : forall x : b64, is_finite x = true -> B2R x = 0 -> B2R (fmul (fopp x) idet) = 0 /\ is_finite (fmul (fopp x) idet) = true).
  { intros x Fx X. apply fmul_fits; [apply fopp_finite, Fx|exact FI|rewrite fopp_value, X; ring|apply (fits_int 0); reflexivity]. }
  destruct (Z b Fb B) as [VB FB]. destruct (Z d Fd D) as [VD FD].
  split; [split; [exact FRA|exists ha; tauto]|]. split; [split; [exact FRE|exists he; tauto]|]. split; [tauto|]. split; [tauto|].
  pose proof (fopp_finite c Fc) as FO.
  assert (CO : Rabs (B2R (fopp c)) <= M * Rabs (B2R a)) by (rewrite fopp_value, Rabs_Ropp; exact C).
  split.
  - pose proof (origin_axis M a (fopp c) HM FO A CO (fmul e idet) ha FRA EA HA) as [N1 N2].
    destruct (sub_zero_term (fmul (fopp c) (fmul e idet)) f (fmul (fopp b) idet) N1 Ff FB VB) as [V F']. split; [exact F'|]. rewrite V.
    replace (- (B2R c / B2R a)) with (B2R (fopp c) / B2R a); [exact N2|]. rewrite fopp_value. unfold Rdiv. ring.
  - pose proof (origin_axis M e f HM Ff E F (fmul a idet) he FRE EE HE) as [N1 N2].
    destruct (zero_term_sub (fmul f (fmul a idet)) (fopp c) (fmul (fopp d) idet) N1 FO FD VD) as [V F']. split; [exact F'|]. rewrite V.
    replace (- B2R (fmul f (fmul a idet)) - - (B2R f / B2R e)) with (- (B2R (fmul f (fmul a idet)) - B2R f / B2R e)) by ring. rewrite Rabs_Ropp. exact N2.
Qed.
