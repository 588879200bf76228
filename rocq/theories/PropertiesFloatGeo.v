(** C100: the conversions between indices and physical coordinates, and their round trips, in binary64. *)
From Coq Require Import ZArith Reals Bool Lia Lra Psatz.
From Flocq Require Import Core BinarySingleNaN.
From Verif Require Import FloatModel Float FloatErr FloatRpc FloatGeoModel FloatGeoSpec FloatGeo.
Open Scope R_scope.

Lemma rounding_3 : rounding 3 = 8 * ulp1. Proof. unfold rounding, ulp1. change (3 - 53)%Z with (3 + -53)%Z. rewrite bpow_plus. reflexivity. Qed.
Lemma rounding_4 : rounding 4 = 16 * ulp1. Proof. unfold rounding, ulp1. change (4 - 53)%Z with (4 + -53)%Z. rewrite bpow_plus. reflexivity. Qed.
Lemma rounding_5 : rounding 5 = 32 * ulp1. Proof. unfold rounding, ulp1. change (5 - 53)%Z with (5 + -53)%Z. rewrite bpow_plus. reflexivity. Qed.

(** Both coordinates, the indices being known up to [k] roundings. *)
Lemma to_physical (t : faffine) (m k wr wc : R) (row col : b64) : north_up t -> cells_away t m -> 0 <= k <= 90 ->
  near row wr (k * (ulp1 * m)) -> near col wc (k * (ulp1 * m)) -> Rabs (wr + / 2) <= m -> Rabs (wc + / 2) <= m ->
  near (fst (findex_to_physical t row col)) ((wr + / 2) * B2R (fa_e t) + B2R (fa_f t)) ((k + 42 / 10) * (ulp1 * (m * Rabs (B2R (fa_e t))))) /\
  near (snd (findex_to_physical t row col)) ((wc + / 2) * B2R (fa_a t) + B2R (fa_c t)) ((k + 42 / 10) * (ulp1 * (m * Rabs (B2R (fa_a t))))).
Proof.
  intros ((Fa & Fb & Fc & Fd & Fe & Ff) & B & D & A & E) (HM & C & F) K NR NC WR WC. unfold findex_to_physical, faffine_apply. cbn [fst snd].
  pose proof (corner_axis m HM row wr k K NR WR) as UR. pose proof (corner_axis m HM col wc k K NC WC) as UC.
  destruct (forward_axis m (fa_e t) (fa_f t) HM Fe Ff E F (fadd row half) (fmul (fadd row half) (fa_e t)) (wr + / 2) (k + 11 / 10) ltac:(lra) UR WR eq_refl eq_refl) as [G1 G2].
  destruct (forward_axis m (fa_a t) (fa_c t) HM Fa Fc A C (fadd col half) (fmul (fadd col half) (fa_a t)) (wc + / 2) (k + 11 / 10) ltac:(lra) UC WC eq_refl eq_refl) as [G3 G4].
  assert (PF : forall x y : b64, is_finite (fadd x y) = true -> is_finite x = true).
  { intros x y H. destruct x as [|[]| |], y as [|[]| |]; try reflexivity; try discriminate H. }
  pose proof (PF _ _ G1) as P1. pose proof (PF _ _ G3) as P3. clear PF.
  destruct UR as [FUR _], UC as [FUC _].
  destruct (add_zero_term_l (fmul (fadd row half) (fa_e t)) (fadd col half) (fa_d t) P1 FUC Fd D) as [V1 F1].
  destruct (add_zero_term (fmul (fadd col half) (fa_a t)) (fadd row half) (fa_b t) P3 FUR Fb B) as [V2 F2].
  replace (k + 42 / 10) with (k + 11 / 10 + 31 / 10) by lra. split.
  - apply (forward_axis m (fa_e t) (fa_f t) HM Fe Ff E F (fadd row half)); [lra|apply (corner_axis m HM row wr k K NR WR)|exact WR|rewrite F1, P1; reflexivity|exact V1].
  - apply (forward_axis m (fa_a t) (fa_c t) HM Fa Fc A C (fadd col half)); [lra|apply (corner_axis m HM col wc k K NC WC)|exact WC|rewrite F2, P3; reflexivity|exact V2].
Qed.
Lemma product_finite (x r : b64) (s c h m : R) : is_finite x = true -> is_finite r = true -> B2R r = / s * (1 + h) -> Rabs h <= 31 / 10 * ulp1 ->
  / 1000000000 <= Rabs s -> Rabs (B2R x - c) <= 11 / 10 * m * Rabs s -> Rabs c <= m * Rabs s -> 1 <= m <= 1000000000 -> is_finite (fmul x r) = true.
Proof.
  intros Fx Fr E H S X C M. apply fmul_round; [exact Fx|exact Fr|]. apply huge_lt. pose proof big_huge as BH. pose proof ulp1_small as U. pose proof ulp1_pos as P.
  assert (N : s <> 0) by (intros ->; rewrite Rabs_R0 in S; lra). apply rabs_le_between in H.
  assert (MS : 0 <= m * Rabs s) by (apply Rmult_le_pos; lra).
  assert (B : Rabs (B2R x) <= 3 * m * Rabs s) by (replace (B2R x) with ((B2R x - c) + c) by ring; eapply Rle_trans; [apply Rabs_triang|lra]).
  rewrite E, !Rabs_mult, Rabs_inv, (Rabs_pos_eq (1 + h)) by lra.
  apply Rle_trans with ((3 * m * Rabs s) * (/ Rabs s * 2)).
  - apply Rmult_le_compat; [apply Rabs_pos| |exact B|apply Rmult_le_compat_l; [apply Rlt_le, Rinv_0_lt_compat; lra|lra]].
    apply Rmult_le_pos; [apply Rlt_le, Rinv_0_lt_compat; lra|lra].
  - replace (3 * m * Rabs s * (/ Rabs s * 2)) with (6 * m) by (field; lra). lra.
Qed.
Lemma to_index (t : faffine) (m : R) (y x : b64) : north_up t -> cells_away t m -> is_finite y = true -> is_finite x = true ->
  Rabs (B2R y - B2R (fa_f t)) <= 11 / 10 * m * Rabs (B2R (fa_e t)) -> Rabs (B2R x - B2R (fa_c t)) <= 11 / 10 * m * Rabs (B2R (fa_a t)) ->
  near (fst (fphysical_to_index (faffine_invert t) y x)) ((B2R y - B2R (fa_f t)) / B2R (fa_e t) - / 2) (16 * (ulp1 * m)) /\
  near (snd (fphysical_to_index (faffine_invert t) y x)) ((B2R x - B2R (fa_c t)) / B2R (fa_a t) - / 2) (16 * (ulp1 * m)).
Proof.
  intros ((Fa & Fb & Fc & Fd & Fe & Ff) & B & D & A & E) (HM & C & F) FY FX HY HX.
  destruct (invert_north_up t m Fa Fb Fc Fd Fe Ff B D A E HM C F) as ((FRA & ha & EA & HA) & (FRE & he & EE & HE) & (FB & VB) & (FD & VD) & NC & NF).
  unfold fphysical_to_index, faffine_apply. set (iv := faffine_invert t) in *. clearbody iv. cbn [fst snd].
  pose proof (product_finite _ _ _ _ _ _ FY FRE EE HE (proj1 E) HY F HM) as P1. pose proof (product_finite _ _ _ _ _ _ FX FRA EA HA (proj1 A) HX C HM) as P2.
  destruct (add_zero_term_l (fmul y (fa_e iv)) x (fa_d iv) P1 FX FD VD) as [V1 F1].
  destruct (add_zero_term (fmul x (fa_a iv)) y (fa_b iv) P2 FY FB VB) as [V2 F2]. split.
  - apply (backward_axis m (fa_e t) (fa_f t) HM E F y (fa_e iv) _ (fa_f iv) he FY HY FRE EE HE); [rewrite F1, P1; reflexivity|exact V1|exact NF].
  - apply (backward_axis m (fa_a t) (fa_c t) HM A C x (fa_a iv) _ (fa_c iv) ha FX HX FRA EA HA); [rewrite F2, P2; reflexivity|exact V2|exact NC].
Qed.

(** The physical coordinates of an index are exact up to 2^-50, in cells, times the distance to the origin in cells. *)
Theorem C100_index_to_physical t m row col : north_up t -> cells_away t m -> index_up_to m row -> index_up_to m col ->
  let '(y, x) := findex_to_physical t row col in
  within y (physical_of (B2R (fa_e t)) (B2R (fa_f t)) (B2R row)) (rounding 3 * m * Rabs (B2R (fa_e t))) /\
  within x (physical_of (B2R (fa_a t)) (B2R (fa_c t)) (B2R col)) (rounding 3 * m * Rabs (B2R (fa_a t))).
Proof.
  intros N H [FR BR] [FC BC]. rewrite rounding_3. pose proof ulp1_pos as Q. pose proof (proj1 H) as HM.
  assert (NR : forall i : b64, is_finite i = true -> near i (B2R i) (0 * (ulp1 * m))) by (intros i Fi; eapply near_weaken; [apply near_exact; exact Fi|lra]).
  destruct (to_physical t m 0 (B2R row) (B2R col) row col N H ltac:(lra) (NR _ FR) (NR _ FC) BR BC) as [[A1 A2] [B1 B2]].
  destruct (findex_to_physical t row col) as [y x]. cbn [fst snd] in *. unfold within, physical_of.
  assert (W : forall s, (0 + 42 / 10) * (ulp1 * (m * Rabs s)) <= 8 * ulp1 * m * Rabs s).
  { intros s. assert (0 <= ulp1 * (m * Rabs s)) by (apply Rmult_le_pos; [lra|apply Rmult_le_pos; [lra|apply Rabs_pos]]). lra. }
  pose proof (W (B2R (fa_e t))). pose proof (W (B2R (fa_a t))).
  rewrite (Rplus_comm (B2R (fa_f t))), (Rmult_comm (B2R (fa_e t))), (Rplus_comm (B2R (fa_c t))), (Rmult_comm (B2R (fa_a t))).
  repeat split; try assumption; eapply Rle_trans; eassumption.
Qed.
(** The index of physical coordinates is exact up to 2^-49 times the distance to the origin in cells. *)
Theorem C100_physical_to_index t m y x : north_up t -> cells_away t m ->
  physical_up_to m (B2R (fa_e t)) (B2R (fa_f t)) y -> physical_up_to m (B2R (fa_a t)) (B2R (fa_c t)) x ->
  let '(row, col) := fphysical_to_index (faffine_invert t) y x in
  within row (index_of (B2R (fa_e t)) (B2R (fa_f t)) (B2R y)) (rounding 4 * m) /\
  within col (index_of (B2R (fa_a t)) (B2R (fa_c t)) (B2R x)) (rounding 4 * m).
Proof.
  intros N H [FY BY] [FX BX]. rewrite rounding_4. pose proof (proj1 H) as HM.
  assert (W : forall s v, v <= m * Rabs s -> v <= 11 / 10 * m * Rabs s).
  { intros s v L. assert (0 <= m * Rabs s) by (apply Rmult_le_pos; [lra|apply Rabs_pos]). lra. }
  pose proof (to_index t m y x N H FY FX (W _ _ BY) (W _ _ BX)) as [A B].
  destruct (fphysical_to_index (faffine_invert t) y x) as [row col]. cbn [fst snd] in *. rewrite Rmult_assoc. split; assumption.
Qed.
(** An index converted to physical coordinates and back is the same up to 2^-48 times the distance to the origin in cells. *)
Theorem C100_index_round_trip t m row col : north_up t -> cells_away t m -> index_up_to m row -> index_up_to m col ->
  let '(y, x) := findex_to_physical t row col in
  let '(row', col') := fphysical_to_index (faffine_invert t) y x in
  within row' (B2R row) (rounding 5 * m) /\ within col' (B2R col) (rounding 5 * m).
Proof.
  intros N H HR HC. pose proof (C100_index_to_physical t m row col N H HR HC) as P. destruct (findex_to_physical t row col) as [y x].
  rewrite rounding_3 in P. rewrite rounding_5. destruct P as [[FY PY] [FX PX]]. destruct HR as [_ BR], HC as [_ BC]. unfold physical_of in *.
  pose proof (proj1 H) as HM. pose proof ulp1_small as U. pose proof ulp1_pos as Q. pose proof N as (NF & NB & ND & NA & NE).
  assert (W : forall s o i v : R, / 1000000000 <= Rabs s -> Rabs (i + / 2) <= m -> Rabs (v - (o + s * (i + / 2))) <= 8 * ulp1 * m * Rabs s ->
     Rabs (v - o) <= 11 / 10 * m * Rabs s /\ Rabs ((v - o) / s - / 2 - i) <= 8 * (ulp1 * m)).
  { intros s o i v S I V. assert (NZ : s <> 0) by (intros ->; rewrite Rabs_R0 in S; lra). assert (0 < m * Rabs s) by (apply Rmult_lt_0_compat; lra). split.
    - replace (v - o) with ((v - (o + s * (i + / 2))) + s * (i + / 2)) by ring. eapply Rle_trans; [apply Rabs_triang|]. rewrite Rabs_mult.
      assert (Rabs s * Rabs (i + / 2) <= Rabs s * m) by (apply Rmult_le_compat_l; lra). assert (ulp1 * (m * Rabs s) <= / 1000000 * (m * Rabs s)) by (apply Rmult_le_compat_r; lra). lra.
    - replace ((v - o) / s - / 2 - i) with ((v - (o + s * (i + / 2))) / s) by (field; exact NZ). unfold Rdiv. rewrite Rabs_mult, Rabs_inv.
      apply Rmult_le_reg_r with (Rabs s); [lra|]. rewrite Rmult_assoc, Rinv_l by lra. lra. }
  destruct (W _ _ _ _ (proj1 NE) BR PY) as [BY IY]. destruct (W _ _ _ _ (proj1 NA) BC PX) as [BX IX]. clear W.
  pose proof (to_index t m y x N H FY FX BY BX) as [[A1 A2] [B1 B2]].
  destruct (fphysical_to_index (faffine_invert t) y x) as [row' col']. cbn [fst snd] in *. unfold within.
  assert (0 <= ulp1 * m) by (apply Rmult_le_pos; lra).
  split; split; try assumption.
  - replace (B2R row' - B2R row) with ((B2R row' - ((B2R y - B2R (fa_f t)) / B2R (fa_e t) - / 2)) + ((B2R y - B2R (fa_f t)) / B2R (fa_e t) - / 2 - B2R row)) by ring.
    eapply Rle_trans; [apply Rabs_triang|]. lra.
  - replace (B2R col' - B2R col) with ((B2R col' - ((B2R x - B2R (fa_c t)) / B2R (fa_a t) - / 2)) + ((B2R x - B2R (fa_c t)) / B2R (fa_a t) - / 2 - B2R col)) by ring.
    eapply Rle_trans; [apply Rabs_triang|]. lra.
Qed.
(** Physical coordinates converted to an index and back are the same up to 2^-48, in cells, times the distance to the origin in cells. *)
Theorem C100_physical_round_trip t m y x : north_up t -> cells_away t m ->
  physical_up_to m (B2R (fa_e t)) (B2R (fa_f t)) y -> physical_up_to m (B2R (fa_a t)) (B2R (fa_c t)) x ->
  let '(row, col) := fphysical_to_index (faffine_invert t) y x in
  let '(y', x') := findex_to_physical t row col in
  within y' (B2R y) (rounding 5 * m * Rabs (B2R (fa_e t))) /\ within x' (B2R x) (rounding 5 * m * Rabs (B2R (fa_a t))).
Proof.
  intros N H HY HX. pose proof (C100_physical_to_index t m y x N H HY HX) as P. destruct (fphysical_to_index (faffine_invert t) y x) as [row col].
  rewrite rounding_4 in P. rewrite rounding_5. destruct P as [PR PC]. destruct HY as [_ BY], HX as [_ BX]. unfold within, index_of in PR, PC. rewrite Rmult_assoc in PR, PC.
  pose proof (proj1 H) as HM. pose proof ulp1_pos as Q. pose proof N as (_ & _ & _ & NA & NE).
  assert (W : forall s o v : R, / 1000000000 <= Rabs s -> Rabs (v - o) <= m * Rabs s -> Rabs ((v - o) / s - / 2 + / 2) <= m /\ ((v - o) / s - / 2 + / 2) * s + o = v).
  { intros s o v S V. assert (NZ : s <> 0) by (intros ->; rewrite Rabs_R0 in S; lra). split; [|field; exact NZ].
    replace ((v - o) / s - / 2 + / 2) with ((v - o) / s) by ring. unfold Rdiv. rewrite Rabs_mult, Rabs_inv. apply Rmult_le_reg_r with (Rabs s); [lra|]. rewrite Rmult_assoc, Rinv_l by lra. lra. }
  destruct (W _ _ _ (proj1 NE) BY) as [WY EY]. destruct (W _ _ _ (proj1 NA) BX) as [WX EX]. clear W.
  pose proof (to_physical t m 16 _ _ row col N H ltac:(lra) PR PC WY WX) as [[A1 A2] [B1 B2]]. rewrite EY in A2. rewrite EX in B2.
  destruct (findex_to_physical t row col) as [y' x']. cbn [fst snd] in *. unfold within.
  assert (K : forall s, (16 + 42 / 10) * (ulp1 * (m * Rabs s)) <= 32 * ulp1 * m * Rabs s).
  { intros s. assert (0 <= ulp1 * (m * Rabs s)) by (apply Rmult_le_pos; [lra|apply Rmult_le_pos; [lra|apply Rabs_pos]]). lra. }
  pose proof (K (B2R (fa_e t))). pose proof (K (B2R (fa_a t))).
  repeat split; try assumption; eapply Rle_trans; eassumption.
Qed.

(** Cells of a third of a metre, the corner at (44, 7.1). *)
Definition ex_geo : faffine :=
  FAff (flit 6004799503160661 (-54)) (fint 0) (flit 3997696138059481 (-49)) (fint 0) (flit (-6004799503160661) (-54)) (fint 44).
Lemma ex_pow k : (0 < k)%Z -> bpow radix2 (- k) = / IZR (2 ^ k). Proof. intros H. rewrite bpow_opp, <- IZR_Zpower by lia. reflexivity. Qed.
Lemma ex_values : B2R (fa_a ex_geo) = 6004799503160661 / 18014398509481984 /\ B2R (fa_e ex_geo) = - (6004799503160661 / 18014398509481984) /\
  B2R (fa_c ex_geo) = 3997696138059481 / 562949953421312 /\ B2R (fa_f ex_geo) = 44 /\
  is_finite (fa_a ex_geo) = true /\ is_finite (fa_e ex_geo) = true /\ is_finite (fa_c ex_geo) = true /\ is_finite (fa_f ex_geo) = true.
Proof.
  unfold ex_geo. cbn [fa_a fa_c fa_e fa_f].
  destruct (flit_exact 6004799503160661 (-54)) as [A1 A2]; [apply fits_dyadic; [reflexivity|lia]|].
  destruct (flit_exact (-6004799503160661) (-54)) as [B1 B2]; [apply fits_dyadic; [reflexivity|lia]|].
  destruct (flit_exact 3997696138059481 (-49)) as [C1 C2]; [apply fits_dyadic; [reflexivity|lia]|].
  destruct (fint_exact 44) as [D1 D2]; [reflexivity|].
  rewrite A1, B1, C1, D1. change (-54)%Z with (- (54))%Z. change (-49)%Z with (- (49))%Z. rewrite (ex_pow 54), (ex_pow 49) by lia.
  change (2 ^ 54)%Z with 18014398509481984%Z. change (2 ^ 49)%Z with 562949953421312%Z.
  repeat split; try assumption; try lra.
Qed.
Example C100_hypotheses : north_up ex_geo /\ cells_away ex_geo 200 /\ index_up_to 200 (fint 2) /\
  physical_up_to 200 (B2R (fa_a ex_geo)) (B2R (fa_c ex_geo)) (fint 10).
Proof.
  destruct ex_values as (VA & VE & VC & VF & FA & FE & FC & FF). destruct (fint_exact 2) as [V2 F2]; [reflexivity|]. destruct (fint_exact 10) as [V10 F10]; [reflexivity|].
  assert (Z : B2R (fint 0) = 0 /\ is_finite (fint 0) = true) by (apply (fint_exact 0); reflexivity).
  unfold north_up, cells_away, index_up_to, physical_up_to. rewrite VA, VE, VC, VF, V2, V10, Rabs_Ropp, (Rabs_pos_eq (6004799503160661 / _)) by lra.
  change (fa_b ex_geo) with (fint 0). change (fa_d ex_geo) with (fint 0).
  split; [repeat split; try tauto; lra|]. split; [repeat split; try lra; rewrite Rabs_pos_eq; lra|]. split; (split; [assumption|rewrite Rabs_pos_eq; lra]).
Qed.
(** The round trip is not exact: the third column is not found back to the last bit. *)
Example C100_not_exact : let '(y, x) := findex_to_physical ex_geo (fint 2) (fint 2) in
  let '(row, col) := fphysical_to_index (faffine_invert ex_geo) y x in (Beqb row (fint 2), Beqb col (fint 2)) = (true, false).
Proof. vm_compute. reflexivity. Qed.
