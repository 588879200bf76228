(** Proofs about the binary64 model of the DTM intersection: comparisons, and the end of the walk over the cells. *)
From Coq Require Import ZArith Reals Bool List Lia Lra.
From Flocq Require Import Core BinarySingleNaN.
From Verif Require Import FloatModel FloatInterpModel Float FloatErr FloatWalkModel FloatWalkSpec.
Import ListNotations.
Open Scope R_scope.

(** ** Comparisons *)
(** The value of a number, infinities being out of the range of the finite numbers. *)
Definition val (x : b64) : R :=
  match x with
  | B754_infinity true => - bpow radix2 1024
  | B754_infinity false => bpow radix2 1024
  | _ => B2R x
  end.
Lemma val_finite (x : b64) : is_finite x = true -> val x = B2R x.
Proof. destruct x as [s|s| |s m e H]; cbn; try discriminate; reflexivity. Qed.
Lemma finite_range (x : b64) : is_finite x = true -> Rabs (B2R x) < bpow radix2 1024.
Proof. intros _. apply (abs_B2R_lt_emax 53 1024). Qed.
Lemma compare_val (x y : b64) : is_nan x = false -> is_nan y = false -> Bcompare x y = Some (Rcompare (val x) (val y)).
Proof.
  intros NX NY. assert (P : 0 < bpow radix2 1024) by apply bpow_gt_0.
  destruct (is_finite x) eqn:FX, (is_finite y) eqn:FY.
  - rewrite !val_finite by assumption. now apply Bcompare_correct.
  - pose proof (finite_range x FX) as BX. rewrite (val_finite x FX). apply Rabs_lt_inv in BX.
    destruct y as [t|[|]| |t m e H]; try discriminate; cbn [val].
    + rewrite Rcompare_Gt by lra. destruct x as [[|]|[|]| |[|] m' e' H']; try discriminate; reflexivity.
    + rewrite Rcompare_Lt by lra. destruct x as [[|]|[|]| |[|] m' e' H']; try discriminate; reflexivity.
  - pose proof (finite_range y FY) as BY. rewrite (val_finite y FY). apply Rabs_lt_inv in BY.
    destruct x as [t|[|]| |t m e H]; try discriminate; cbn [val].
    + rewrite Rcompare_Lt by lra. destruct y as [[|]|[|]| |[|] m' e' H']; try discriminate; reflexivity.
    + rewrite Rcompare_Gt by lra. destruct y as [[|]|[|]| |[|] m' e' H']; try discriminate; reflexivity.
  - destruct x as [t|[|]| |t m e H]; try discriminate; destruct y as [t'|[|]| |t' m' e' H']; try discriminate; cbn [val].
    + rewrite Rcompare_Eq; reflexivity.
    + rewrite Rcompare_Lt by lra. reflexivity.
    + rewrite Rcompare_Gt by lra. reflexivity.
    + rewrite Rcompare_Eq; reflexivity.
Qed.
Lemma ltb_val (x y : b64) : is_nan x = false -> is_nan y = false -> Bltb x y = true <-> val x < val y.
Proof.
  intros NX NY. pose proof (compare_val x y NX NY) as E. unfold Bltb, SpecFloat.SFltb. unfold Bcompare in E. rewrite E.
  destruct (Rcompare_spec (val x) (val y)); split; intros; try lra; try discriminate; reflexivity.
Qed.
Lemma leb_val (x y : b64) : is_nan x = false -> is_nan y = false -> Bleb x y = true <-> val x <= val y.
Proof.
  intros NX NY. pose proof (compare_val x y NX NY) as E. unfold Bleb, SpecFloat.SFleb. unfold Bcompare in E. rewrite E.
  destruct (Rcompare_spec (val x) (val y)); split; intros; try lra; try discriminate; reflexivity.
Qed.
Lemma eqb_val (x y : b64) : is_nan x = false -> is_nan y = false -> Beqb x y = true <-> val x = val y.
Proof.
  intros NX NY. pose proof (compare_val x y NX NY) as E. unfold Beqb, SpecFloat.SFeqb. unfold Bcompare in E. rewrite E.
  destruct (Rcompare_spec (val x) (val y)); split; intros; try lra; try discriminate; reflexivity.
Qed.
Lemma finite_not_nan (x : b64) : is_finite x = true -> is_nan x = false.
Proof. destruct x; cbn; congruence. Qed.

(** ** Operations without NaN *)
Lemma overflow_not_nan s : is_nan_SF (binary_overflow 53 1024 mode_NE s) = false.
Proof. destruct s; reflexivity. Qed.
Lemma not_nan_SF (x : b64) : is_nan x = is_nan_SF (B2SF x).
Proof. destruct x; reflexivity. Qed.
Lemma fsub_not_nan (x y : b64) : is_finite x = true -> is_finite y = true -> is_nan (fsub x y) = false.
Proof.
  intros FX FY. pose proof (Bminus_correct 53 1024 _ _ mode_NE x y FX FY) as H. cbv zeta in H.
  destruct (Rlt_bool _ _).
  - destruct H as (_ & F & _). now apply finite_not_nan.
  - destruct H as (H & _). unfold fsub. rewrite not_nan_SF, H. apply overflow_not_nan.
Qed.
Lemma fadd_not_nan (x y : b64) : is_finite x = true -> is_nan y = false -> is_nan (fadd x y) = false.
Proof.
  intros FX NY. destruct (is_finite y) eqn:FY.
  - pose proof (Bplus_correct 53 1024 _ _ mode_NE x y FX FY) as H. cbv zeta in H. destruct (Rlt_bool _ _).
    + destruct H as (_ & F & _). now apply finite_not_nan.
    + destruct H as (H & _). unfold fadd. rewrite not_nan_SF, H. apply overflow_not_nan.
  - destruct y; try discriminate. destruct x; try discriminate; reflexivity.
Qed.
Lemma fdiv_not_nan (x y : b64) : is_nan x = false -> is_finite y = true -> B2R y <> 0 -> is_nan (fdiv x y) = false.
Proof.
  intros NX FY Y. destruct (is_finite x) eqn:FX.
  - pose proof (Bdiv_correct 53 1024 _ _ mode_NE x y Y) as H. cbv zeta in H. destruct (Rlt_bool _ _).
    + destruct H as (_ & F & _). apply finite_not_nan. unfold fdiv. rewrite F. exact FX.
    + unfold fdiv. rewrite not_nan_SF, H. apply overflow_not_nan.
  - destruct x; try discriminate. destruct y; try discriminate; cbn in Y |- *; try lra; reflexivity.
Qed.
Lemma fmul_not_nan (x y : b64) : is_nan x = false -> is_finite y = true -> B2R y <> 0 -> is_nan (fmul x y) = false.
Proof.
  intros NX FY Y. destruct (is_finite x) eqn:FX.
  - pose proof (Bmult_correct 53 1024 _ _ mode_NE x y) as H. cbv zeta in H. destruct (Rlt_bool _ _).
    + destruct H as (_ & F & _). apply finite_not_nan. unfold fmul. rewrite F, FX, FY. reflexivity.
    + unfold fmul. rewrite not_nan_SF, H. apply overflow_not_nan.
  - destruct x; try discriminate. destruct y; try discriminate; cbn in Y |- *; try lra; reflexivity.
Qed.

(** ** The walk over the cells *)
(** A segment of a line of sight without infinities nor NaN, whose horizontal differences did not overflow. *)
Lemma fint_val n : (Z.abs n < 2 ^ 53)%Z -> val (fint n) = IZR n /\ is_finite (fint n) = true.
Proof. intros H. destruct (fint_exact n H) as [E F]. split; [rewrite val_finite by exact F; exact E|exact F]. Qed.
Lemma fzero_val : val fzero = 0 /\ is_finite fzero = true. Proof. apply fint_val. lia. Qed.

Open Scope Z_scope.
(** How many cells there are between [r] and the end of [N] cells, on the side of [y]. *)
Definition dist (N : Z) (y : b64) (r : Z) : Z :=
  if Bltb y (fint r) then r + 1 else if Bltb (fint (r + 1)) y then N - r else 0.
Lemma dist_range N y r : 0 <= r < N -> 0 <= dist N y r <= N.
Proof. intros H. unfold dist. destruct (Bltb _ _); [lia|]. destruct (Bltb _ _); lia. Qed.
Lemma ltb_false (x y : b64) : is_nan x = false -> is_nan y = false -> (val y <= val x)%R -> Bltb x y = false.
Proof. intros NX NY H. destruct (Bltb x y) eqn:E; [|reflexivity]. apply ltb_val in E; try assumption. lra. Qed.
Lemma dist_down N y r : is_nan y = false -> 0 <= r - 1 -> r < 2 ^ 52 -> Bltb y (fint r) = true -> dist N y (r - 1) < dist N y r.
Proof.
  intros NY H0 H1 E. unfold dist at 2. rewrite E.
  destruct (fint_val r) as [V F]; [lia|]. apply ltb_val in E; [|exact NY|now apply finite_not_nan]. rewrite V in E.
  unfold dist. replace (r - 1 + 1) with r by ring. rewrite (ltb_false (fint r) y); [|now apply finite_not_nan|exact NY|rewrite V; lra].
  destruct (Bltb _ _); lia.
Qed.
Lemma dist_up N y r : is_nan y = false -> 0 <= r -> r + 1 < N -> N < 2 ^ 52 -> Bltb y (fint r) = false -> Bltb (fint (r + 1)) y = true ->
  dist N y (r + 1) < dist N y r.
Proof.
  intros NY H0 H1 HN E0 E. unfold dist at 2. rewrite E0, E.
  destruct (fint_val (r + 1)) as [V F]; [lia|]. apply ltb_val in E; [|now apply finite_not_nan|exact NY]. rewrite V in E.
  unfold dist. rewrite (ltb_false y (fint (r + 1))); [|exact NY|now apply finite_not_nan|rewrite V; lra].
  destruct (Bltb (fint (r + 1 + 1)) y); lia.
Qed.
(** One of the five tests of the code succeeds. *)
Lemma five_tests (y : b64) r : is_nan y = false -> 0 <= r < 2 ^ 52 -> Bltb (fint r) y && Bltb y (fint (r + 1)) = false ->
  Bltb y (fint r) = false -> Bltb (fint (r + 1)) y = false -> Beqb y (fint r) = false -> Beqb y (fint (r + 1)) = false -> False.
Proof.
  intros NY H E1 E2 E3 E4 E5.
  destruct (fint_val r) as [V F]; [lia|]. destruct (fint_val (r + 1)) as [V' F']; [lia|].
  pose proof (finite_not_nan _ F) as N1. pose proof (finite_not_nan _ F') as N2.
  destruct (Rtotal_order (val y) (IZR r)) as [L|[L|L]].
  - rewrite <- V in L. apply ltb_val in L; try assumption. congruence.
  - rewrite <- V in L. apply eqb_val in L; try assumption. congruence.
  - destruct (Rtotal_order (val y) (IZR (r + 1))) as [L'|[L'|L']].
    + rewrite <- V in L. rewrite <- V' in L'. apply ltb_val in L; try assumption. apply ltb_val in L'; try assumption. rewrite L, L' in E1. discriminate.
    + rewrite <- V' in L'. apply eqb_val in L'; try assumption. congruence.
    + rewrite <- V' in L'. apply Rgt_lt in L'. apply ltb_val in L'; try assumption. congruence.
Qed.

Section WALK.
Context (m : fraster) (s : fsegment) (FS : finite_segment s) (SZ : fr_rows m < 2 ^ 52 /\ fr_cols m < 2 ^ 52).
Let NR := fr_rows m - 1.
Let NC := fr_cols m - 1.

Lemma guard_cells w : fcell_guard m w = true -> 0 <= fw_c w < NR /\ 0 <= fw_r w < NC.
Proof.
  unfold fcell_guard. intros H. apply andb_true_iff in H as [H H2]. apply andb_true_iff in H as [_ H1].
  apply andb_true_iff in H1 as [A B]. apply andb_true_iff in H2 as [C D]. apply Z.ltb_lt in A, B, C, D. unfold NR, NC. lia.
Qed.

Let at_col n := fdiv (fsub (fint n) (f_col0 s)) (f_d0 s).
Let at_row n := fdiv (fsub (fint n) (f_row0 s)) (f_d1 s).
Let row_at n := fadd (f_row0 s) (fmul (at_col n) (f_d1 s)).
Let col_at n := fadd (f_col0 s) (fmul (at_row n) (f_d0 s)).

Lemma eqb_zero (x : b64) : is_finite x = true -> Beqb x fzero = false -> (B2R x <> 0)%R.
Proof.
  intros F E Z0. destruct fzero_val as [V0 F0].
  assert (Beqb x fzero = true); [|congruence]. apply eqb_val; [now apply finite_not_nan|now apply finite_not_nan|]. now rewrite (val_finite x F), V0.
Qed.
Lemma row_at_not_nan n : 0 <= n < 2 ^ 52 -> Beqb (f_d0 s) fzero = false -> Beqb (f_d1 s) fzero = false -> is_nan (row_at n) = false.
Proof.
  intros H E0 E1. destruct FS as (F0 & F1 & F2 & F3). apply fadd_not_nan; [exact F1|]. apply fmul_not_nan; [|exact F3|now apply eqb_zero].
  apply fdiv_not_nan; [|exact F2|now apply eqb_zero]. apply fsub_not_nan; [|exact F0]. apply fint_val. lia.
Qed.
Lemma col_at_not_nan n : 0 <= n < 2 ^ 52 -> Beqb (f_d0 s) fzero = false -> Beqb (f_d1 s) fzero = false -> is_nan (col_at n) = false.
Proof.
  intros H E0 E1. destruct FS as (F0 & F1 & F2 & F3). apply fadd_not_nan; [exact F0|]. apply fmul_not_nan; [|exact F2|now apply eqb_zero].
  apply fdiv_not_nan; [|exact F3|now apply eqb_zero]. apply fsub_not_nan; [|exact F1]. apply fint_val. lia.
Qed.

(** What decreases at each move. *)
Definition measure (w : fwalk) : Z :=
  let c := fw_c w in let r := fw_r w in
  if Beqb (f_d0 s) fzero then if Bltb (f_d1 s) fzero then r else NC - 1 - r
  else if Beqb (f_d1 s) fzero then if Bltb (f_d0 s) fzero then c else NR - 1 - c
  else if Bltb (f_d0 s) fzero && Bleb (f_d0 s) (f_d1 s) && Bleb (f_d0 s) (fopp (f_d1 s)) then c * (NC + 1) + dist NC (row_at c) r
  else if Bltb fzero (f_d1 s) && Bleb (f_d0 s) (f_d1 s) && Bleb (fopp (f_d0 s)) (f_d1 s) then (NC - 1 - r) * (NR + 1) + dist NR (col_at (r + 1)) c
  else if Bltb fzero (f_d0 s) && Bleb (f_d1 s) (f_d0 s) && Bleb (fopp (f_d1 s)) (f_d0 s) then (NR - 1 - c) * (NC + 1) + dist NC (row_at (c + 1)) r
  else r * (NR + 1) + dist NR (col_at r) c.

Lemma measure_range w : fcell_guard m w = true -> 0 <= measure w <= fr_rows m * fr_cols m - 1.
Proof.
  intros G. destruct (guard_cells w G) as [HC HR].
  assert (E1 : fr_rows m = NR + 1) by (unfold NR; lia). assert (E2 : fr_cols m = NC + 1) by (unfold NC; lia). rewrite E1, E2.
  pose proof (dist_range NC (row_at (fw_c w)) (fw_r w) HR). pose proof (dist_range NC (row_at (fw_c w + 1)) (fw_r w) HR).
  pose proof (dist_range NR (col_at (fw_r w + 1)) (fw_c w) HC). pose proof (dist_range NR (col_at (fw_r w)) (fw_c w) HC).
  unfold measure. clearbody row_at col_at.
  repeat match goal with |- context[if ?b then _ else _] => destruct b end; nia.
Qed.

Lemma orientation : Beqb (f_d0 s) fzero = false -> Beqb (f_d1 s) fzero = false ->
  Bltb (f_d0 s) fzero && Bleb (f_d0 s) (f_d1 s) && Bleb (f_d0 s) (fopp (f_d1 s)) = false ->
  Bltb fzero (f_d1 s) && Bleb (f_d0 s) (f_d1 s) && Bleb (fopp (f_d0 s)) (f_d1 s) = false ->
  Bltb fzero (f_d0 s) && Bleb (f_d1 s) (f_d0 s) && Bleb (fopp (f_d1 s)) (f_d0 s) = false ->
  Bltb (f_d1 s) fzero && Bleb (f_d1 s) (f_d0 s) && Bleb (f_d1 s) (fopp (f_d0 s)) = true.
Proof.
  intros E0 E1 N E S. destruct FS as (_ & _ & F2 & F3). destruct fzero_val as [V0 F0].
  pose proof (eqb_zero _ F2 E0) as Z0. pose proof (eqb_zero _ F3 E1) as Z1.
  assert (FO0 : is_finite (fopp (f_d0 s)) = true) by (unfold fopp; now rewrite is_finite_Bopp).
  assert (FO1 : is_finite (fopp (f_d1 s)) = true) by (unfold fopp; now rewrite is_finite_Bopp).
  assert (VO0 : val (fopp (f_d0 s)) = (- B2R (f_d0 s))%R) by (rewrite val_finite by exact FO0; apply B2R_Bopp).
  assert (VO1 : val (fopp (f_d1 s)) = (- B2R (f_d1 s))%R) by (rewrite val_finite by exact FO1; apply B2R_Bopp).
  pose proof (val_finite _ F2) as V2. pose proof (val_finite _ F3) as V3.
  pose proof (finite_not_nan _ F0) as N0. pose proof (finite_not_nan _ F2) as N2. pose proof (finite_not_nan _ F3) as N3.
  pose proof (finite_not_nan _ FO0) as N4. pose proof (finite_not_nan _ FO1) as N5.
  assert (LT : forall x y : b64, is_nan x = false -> is_nan y = false -> (val x < val y)%R -> Bltb x y = true) by (intros; now apply ltb_val).
  assert (LE : forall x y : b64, is_nan x = false -> is_nan y = false -> (val x <= val y)%R -> Bleb x y = true) by (intros; now apply leb_val).
  set (a := B2R (f_d0 s)) in *. set (b := B2R (f_d1 s)) in *.
  destruct (Rlt_or_le a 0) as [A|A]; destruct (Rlt_or_le b 0) as [B|B].
  - destruct (Rle_or_lt a b) as [O|O].
    + rewrite (LT (f_d0 s) fzero), (LE (f_d0 s) (f_d1 s)), (LE (f_d0 s) (fopp (f_d1 s))) in N by (try assumption; rewrite ?V0, ?V2, ?V3, ?VO1; lra). discriminate.
    + rewrite (LT (f_d1 s) fzero), (LE (f_d1 s) (f_d0 s)), (LE (f_d1 s) (fopp (f_d0 s))) by (try assumption; rewrite ?V0, ?V2, ?V3, ?VO0; lra). reflexivity.
  - destruct (Rle_or_lt a (- b)) as [O|O].
    + rewrite (LT (f_d0 s) fzero), (LE (f_d0 s) (f_d1 s)), (LE (f_d0 s) (fopp (f_d1 s))) in N by (try assumption; rewrite ?V0, ?V2, ?V3, ?VO1; lra). discriminate.
    + rewrite (LT fzero (f_d1 s)), (LE (f_d0 s) (f_d1 s)), (LE (fopp (f_d0 s)) (f_d1 s)) in E by (try assumption; rewrite ?V0, ?V2, ?V3, ?VO0; lra). discriminate.
  - destruct (Rle_or_lt a (- b)) as [O|O].
    + rewrite (LT (f_d1 s) fzero), (LE (f_d1 s) (f_d0 s)), (LE (f_d1 s) (fopp (f_d0 s))) by (try assumption; rewrite ?V0, ?V2, ?V3, ?VO0; lra). reflexivity.
    + rewrite (LT fzero (f_d0 s)), (LE (f_d1 s) (f_d0 s)), (LE (fopp (f_d1 s)) (f_d0 s)) in S by (try assumption; rewrite ?V0, ?V2, ?V3, ?VO1; lra). discriminate.
  - destruct (Rle_or_lt a b) as [O|O].
    + rewrite (LT fzero (f_d1 s)), (LE (f_d0 s) (f_d1 s)), (LE (fopp (f_d0 s)) (f_d1 s)) in E by (try assumption; rewrite ?V0, ?V2, ?V3, ?VO0; lra). discriminate.
    + rewrite (LT fzero (f_d0 s)), (LE (f_d1 s) (f_d0 s)), (LE (fopp (f_d1 s)) (f_d0 s)) in S by (try assumption; rewrite ?V0, ?V2, ?V3, ?VO1; lra). discriminate.
Qed.

Lemma measure_decreases w : fcell_guard m w = true -> fcell_guard m (fmesh_move s w) = true -> measure (fmesh_move s w) < measure w.
Proof.
  intros G G'. destruct (guard_cells w G) as [HC HR]. destruct (guard_cells _ G') as [HC' HR']. clear G G'.
  destruct SZ as [S1 S2]. assert (B1 : NR < 2 ^ 52) by (unfold NR; lia). assert (B2 : NC < 2 ^ 52) by (unfold NC; lia).
  revert HC' HR'. unfold measure, fmesh_move. cbv zeta.
  destruct (Beqb (f_d0 s) fzero) eqn:E0; [destruct (Bltb (f_d1 s) fzero); cbn [fw_c fw_r]; lia|].
  destruct (Beqb (f_d1 s) fzero) eqn:E1; [destruct (Bltb (f_d0 s) fzero); cbn [fw_c fw_r]; lia|].
  pose proof (orientation E0 E1) as O.
  set (c := fw_c w) in *. set (r := fw_r w) in *.
  pose proof (fun n H => row_at_not_nan n H E0 E1) as RN. pose proof (fun n H => col_at_not_nan n H E0 E1) as CN.
  change (fdiv (fsub (fint c) (f_col0 s)) (f_d0 s)) with (at_col c). change (fdiv (fsub (fint (c + 1)) (f_col0 s)) (f_d0 s)) with (at_col (c + 1)).
  change (fdiv (fsub (fint r) (f_row0 s)) (f_d1 s)) with (at_row r). change (fdiv (fsub (fint (r + 1)) (f_row0 s)) (f_d1 s)) with (at_row (r + 1)).
  change (fadd (f_row0 s) (fmul (at_col c) (f_d1 s))) with (row_at c). change (fadd (f_row0 s) (fmul (at_col (c + 1)) (f_d1 s))) with (row_at (c + 1)).
  change (fadd (f_col0 s) (fmul (at_row r) (f_d0 s))) with (col_at r). change (fadd (f_col0 s) (fmul (at_row (r + 1)) (f_d0 s))) with (col_at (r + 1)).
  clearbody at_col at_row row_at col_at.
  destruct (Bltb (f_d0 s) fzero && Bleb (f_d0 s) (f_d1 s) && Bleb (f_d0 s) (fopp (f_d1 s))).
  { specialize (RN c ltac:(lia)). pose proof (five_tests (row_at c) r RN ltac:(lia)) as T.
    pose proof (dist_range NC (row_at c) r HR) as D0.
    destruct (Bltb (fint r) (row_at c) && Bltb (row_at c) (fint (r + 1))); cbn [fw_c fw_r]; [intros; pose proof (dist_range NC (row_at (c - 1)) r HR); nia|].
    destruct (Bltb (row_at c) (fint r)) eqn:T1; cbn [fw_c fw_r]; [intros; pose proof (dist_down NC (row_at c) r RN ltac:(lia) ltac:(lia) T1); nia|].
    destruct (Bltb (fint (r + 1)) (row_at c)) eqn:T2; cbn [fw_c fw_r]; [intros; pose proof (dist_up NC (row_at c) r RN ltac:(lia) ltac:(lia) ltac:(lia) T1 T2); nia|].
    destruct (Beqb (row_at c) (fint r)); cbn [fw_c fw_r]; [intros ? HR'; pose proof (dist_range NC (row_at (c - 1)) (r - 1) HR'); nia|].
    destruct (Beqb (row_at c) (fint (r + 1))); cbn [fw_c fw_r]; [intros ? HR'; pose proof (dist_range NC (row_at (c - 1)) (r + 1) HR'); nia|].
    exfalso. now apply T. }
  destruct (Bltb fzero (f_d1 s) && Bleb (f_d0 s) (f_d1 s) && Bleb (fopp (f_d0 s)) (f_d1 s)).
  { specialize (CN (r + 1) ltac:(lia)). pose proof (five_tests (col_at (r + 1)) c CN ltac:(lia)) as T.
    pose proof (dist_range NR (col_at (r + 1)) c HC) as D0.
    destruct (Bltb (fint c) (col_at (r + 1)) && Bltb (col_at (r + 1)) (fint (c + 1))); cbn [fw_c fw_r]; [intros; pose proof (dist_range NR (col_at (r + 1 + 1)) c HC); nia|].
    destruct (Bltb (col_at (r + 1)) (fint c)) eqn:T1; cbn [fw_c fw_r]; [intros; pose proof (dist_down NR (col_at (r + 1)) c CN ltac:(lia) ltac:(lia) T1); nia|].
    destruct (Bltb (fint (c + 1)) (col_at (r + 1))) eqn:T2; cbn [fw_c fw_r]; [intros; pose proof (dist_up NR (col_at (r + 1)) c CN ltac:(lia) ltac:(lia) ltac:(lia) T1 T2); nia|].
    destruct (Beqb (col_at (r + 1)) (fint c)); cbn [fw_c fw_r]; [intros HC' ?; pose proof (dist_range NR (col_at (r + 1 + 1)) (c - 1) HC'); nia|].
    destruct (Beqb (col_at (r + 1)) (fint (c + 1))); cbn [fw_c fw_r]; [intros HC' ?; pose proof (dist_range NR (col_at (r + 1 + 1)) (c + 1) HC'); nia|].
    exfalso. now apply T. }
  destruct (Bltb fzero (f_d0 s) && Bleb (f_d1 s) (f_d0 s) && Bleb (fopp (f_d1 s)) (f_d0 s)).
  { specialize (RN (c + 1) ltac:(lia)). pose proof (five_tests (row_at (c + 1)) r RN ltac:(lia)) as T.
    pose proof (dist_range NC (row_at (c + 1)) r HR) as D0.
    destruct (Bltb (fint r) (row_at (c + 1)) && Bltb (row_at (c + 1)) (fint (r + 1))); cbn [fw_c fw_r]; [intros; pose proof (dist_range NC (row_at (c + 1 + 1)) r HR); nia|].
    destruct (Bltb (row_at (c + 1)) (fint r)) eqn:T1; cbn [fw_c fw_r]; [intros; pose proof (dist_down NC (row_at (c + 1)) r RN ltac:(lia) ltac:(lia) T1); nia|].
    destruct (Bltb (fint (r + 1)) (row_at (c + 1))) eqn:T2; cbn [fw_c fw_r]; [intros; pose proof (dist_up NC (row_at (c + 1)) r RN ltac:(lia) ltac:(lia) ltac:(lia) T1 T2); nia|].
    destruct (Beqb (row_at (c + 1)) (fint r)); cbn [fw_c fw_r]; [intros ? HR'; pose proof (dist_range NC (row_at (c + 1 + 1)) (r - 1) HR'); nia|].
    destruct (Beqb (row_at (c + 1)) (fint (r + 1))); cbn [fw_c fw_r]; [intros ? HR'; pose proof (dist_range NC (row_at (c + 1 + 1)) (r + 1) HR'); nia|].
    exfalso. now apply T. }
  rewrite (O eq_refl eq_refl eq_refl).
  specialize (CN r ltac:(lia)). pose proof (five_tests (col_at r) c CN ltac:(lia)) as T.
  pose proof (dist_range NR (col_at r) c HC) as D0.
  destruct (Bltb (fint c) (col_at r) && Bltb (col_at r) (fint (c + 1))); cbn [fw_c fw_r]; [intros; pose proof (dist_range NR (col_at (r - 1)) c HC); nia|].
  destruct (Bltb (col_at r) (fint c)) eqn:T1; cbn [fw_c fw_r]; [intros; pose proof (dist_down NR (col_at r) c CN ltac:(lia) ltac:(lia) T1); nia|].
  destruct (Bltb (fint (c + 1)) (col_at r)) eqn:T2; cbn [fw_c fw_r]; [intros; pose proof (dist_up NR (col_at r) c CN ltac:(lia) ltac:(lia) ltac:(lia) T1 T2); nia|].
  destruct (Beqb (col_at r) (fint c)); cbn [fw_c fw_r]; [intros HC' ?; pose proof (dist_range NR (col_at (r - 1)) (c - 1) HC'); nia|].
  destruct (Beqb (col_at r) (fint (c + 1))); cbn [fw_c fw_r]; [intros HC' ?; pose proof (dist_range NR (col_at (r - 1)) (c + 1) HC'); nia|].
  exfalso. now apply T.
Qed.
End WALK.

Lemma iter_first {A} (f : A -> A) k x : Nat.iter (S k) f x = Nat.iter k f (f x).
Proof. induction k as [|k IH]; [reflexivity|]. cbn in *. now rewrite IH. Qed.
Lemma walk_ends m s : finite_segment s -> fr_rows m < 2 ^ 52 -> fr_cols m < 2 ^ 52 -> forall n w, measure m s w < Z.of_nat n ->
  exists k, (k <= n)%nat /\ fcell_guard m (Nat.iter k (fmesh_move s) w) = false.
Proof.
  intros FS S1 S2. induction n as [|n IH]; intros w H.
  - exists 0%nat. split; [lia|]. cbn. destruct (fcell_guard m w) eqn:G; [|reflexivity]. pose proof (measure_range m s w G). lia.
  - destruct (fcell_guard m w) eqn:G; [|exists 0%nat; split; [lia|exact G]].
    destruct (fcell_guard m (fmesh_move s w)) eqn:G'; [|exists 1%nat; split; [lia|exact G']].
    pose proof (measure_decreases m s FS (conj S1 S2) w G G'). destruct (IH (fmesh_move s w)) as (k & K & E); [lia|].
    exists (S k). split; [lia|]. rewrite iter_first. exact E.
Qed.

(** The loop over the cells only runs out of fuel in the refinement. *)
Lemma cell_loop_ends m s fuel : finite_segment s -> fr_rows m < 2 ^ 52 -> fr_cols m < 2 ^ 52 -> forall n w,
  (fcell_guard m w = true -> measure m s w < Z.of_nat n) ->
  fcell_loop m s fuel n w = FDone FNoFuel ->
  exists p_1 alti_1 p_2 h_2,
    finterpolate m (fv_row p_1) (fv_col p_1) = Some alti_1 /\ finterpolate m (fv_row p_2) (fv_col p_2) = Some h_2 /\
    Bleb (fmul (fsub (fv_alt p_1) alti_1) (fsub (fv_alt p_2) h_2)) fzero = true /\
    frefine (finterpolate m) fuel p_1 alti_1 p_2 h_2 = FNoFuel.
Proof.
  intros FS S1 S2. induction n as [|n IH]; intros w H E; cbn [fcell_loop] in E; destruct (fcell_guard m w) eqn:G; try discriminate.
  - specialize (H eq_refl). pose proof (measure_range m s w G). lia.
  - specialize (H eq_refl).
    assert (H' : fcell_guard m (fmesh_move s w) = true -> measure m s (fmesh_move s w) < Z.of_nat n).
    { intros G'. pose proof (measure_decreases m s FS (conj S1 S2) w G G'). lia. }
    destruct (fmay_intersect _ _ _ _ _ _); [|exact (IH _ H' E)].
    destruct (finterpolate m (fv_row (fw_p w)) (fv_col (fw_p w))) as [a1|] eqn:E1; [|discriminate].
    destruct (finterpolate m (fv_row (fw_p (fmesh_move s w))) (fv_col (fw_p (fmesh_move s w)))) as [h2|] eqn:E2; [|discriminate].
    destruct (Bleb _ _) eqn:E3; [|exact (IH _ H' E)]. injection E as E. exists (fw_p w), a1, (fw_p (fmesh_move s w)), h2. tauto.
Qed.

(** ** Numbers that do not overflow *)
Lemma moderate_sub x y : moderate x -> moderate y -> is_finite (fsub x y) = true.
Proof.
  intros [FX BX] [FY BY]. apply fsub_round; try assumption.
  assert (L : (Rabs (B2R x - B2R y) <= bpow radix2 1001)%R).
  { change 1001%Z with (1 + 1000)%Z. rewrite bpow_plus. change (bpow radix2 1) with 2%R. unfold Rminus. eapply Rle_trans; [apply Rabs_triang|]. rewrite Rabs_Ropp. lra. }
  apply huge_lt. eapply Rle_trans; [exact L|]. apply bpow_le. lia.
Qed.
Lemma moderate_segment a b : moderate_point a -> moderate_point b -> finite_segment (fsegment_of a b).
Proof.
  intros (A1 & A2 & A3) (B1 & B2 & B3). unfold finite_segment, fsegment_of. cbn.
  split; [apply A1|]. split; [apply A2|]. split; now apply moderate_sub.
Qed.

Lemma py_get_in l i p : fpy_get l i = Some p -> In p l.
Proof. unfold fpy_get. destruct (i <? 0); [destruct (0 <=? _); [|discriminate]|]; apply nth_error_In. Qed.
Lemma py_get_range l i p : fpy_get l i = Some p -> - Z.of_nat (length l) <= i < Z.of_nat (length l).
Proof.
  unfold fpy_get. intros H. destruct (Z.ltb_spec i 0).
  - destruct (Z.leb_spec 0 (i + Z.of_nat (length l))); [lia|discriminate].
  - assert (nth_error l (Z.to_nat i) <> None) as N by congruence. apply nth_error_Some in N. lia.
Qed.

Lemma vertex_loop_ends m los fuel cells : Forall moderate_point los -> fr_rows m < 2 ^ 52 -> fr_cols m < 2 ^ 52 ->
  fr_rows m * fr_cols m <= Z.of_nat cells ->
  forall steps i_0 p_2 h_2, Z.of_nat (length los) - 1 - i_0 <= Z.of_nat steps ->
  fvertex_loop m los fuel cells steps i_0 p_2 h_2 = FNoFuel ->
  exists p_1 alti_1 p_2 h_2,
    finterpolate m (fv_row p_1) (fv_col p_1) = Some alti_1 /\ finterpolate m (fv_row p_2) (fv_col p_2) = Some h_2 /\
    Bleb (fmul (fsub (fv_alt p_1) alti_1) (fsub (fv_alt p_2) h_2)) fzero = true /\
    frefine (finterpolate m) fuel p_1 alti_1 p_2 h_2 = FNoFuel.
Proof.
  intros HL S1 S2 HC. induction steps as [|steps IH]; intros i_0 p_2 h_2 HS E; cbn [fvertex_loop] in E;
    destruct (Z.ltb_spec i_0 (Z.of_nat (length los) - 1)); try discriminate; [lia|].
  destruct (fpy_get los i_0) as [a|] eqn:EA; [|discriminate]. destruct (fpy_get los (i_0 + 1)) as [b|] eqn:EB; [|discriminate].
  assert (FS : finite_segment (fsegment_of a b)).
  { rewrite Forall_forall in HL. apply moderate_segment; apply HL; eapply py_get_in; eassumption. }
  destruct (Beqb (f_d0 (fsegment_of a b)) fzero && Beqb (f_d1 (fsegment_of a b)) fzero).
  - destruct (finterpolate _ _ _) as [alti_1|]; [|discriminate]. destruct (Bleb _ _); [discriminate|]. eapply IH; [|exact E]. lia.
  - destruct (ffirst_cell (fv_row p_2) _) as [c|]; [|discriminate]. destruct (ffirst_cell (fv_col p_2) _) as [r|]; [|discriminate].
    destruct (fcell_guard m _) eqn:G; [|discriminate].
    destruct (fcell_loop m (fsegment_of a b) fuel cells _) as [o|a_2] eqn:EC.
    + subst o. eapply cell_loop_ends; [exact FS|exact S1|exact S2| |exact EC].
      intros _. pose proof (measure_range m (fsegment_of a b) _ G). lia.
    + destruct (Bleb fone a_2); [|discriminate]. eapply IH; [|exact E]. lia.
Qed.

(** ** A refinement that does not move *)
Definition state : Set := fvec3 * b64 * fvec3 * b64.
(** One iteration; [None]: the loop ends. *)
Definition refine_step (itp : b64 -> b64 -> option b64) (t : state) : option state :=
  let '(p_1, alti_1, p_2, h_2) := t in
  let c_h := fdiv (fsub (fv_alt p_1) alti_1) (fsub (fsub h_2 alti_1) (fsub (fv_alt p_2) (fv_alt p_1))) in
  let mix x y := fadd x (fmul c_h (fsub y x)) in
  let p_a := FV3 (mix (fv_row p_1) (fv_row p_2)) (mix (fv_col p_1) (fv_col p_2)) (mix (fv_alt p_1) (fv_alt p_2)) in
  match itp (fv_row p_a) (fv_col p_a) with
  | None => None
  | Some z_v =>
      let d_2 := fsub z_v (fv_alt p_a) in
      if Bltb ftol_z (fabs d_2) then Some (if Bltb d_2 fzero then (p_a, z_v, p_2, h_2) else (p_1, alti_1, p_a, z_v)) else None
  end.
Definition refine_from (itp : b64 -> b64 -> option b64) (n : nat) (t : state) : foutcome :=
  let '(p_1, alti_1, p_2, h_2) := t in frefine itp n p_1 alti_1 p_2 h_2.
Lemma refine_unfold itp n t t' : refine_step itp t = Some t' -> refine_from itp (S n) t = refine_from itp n t'.
Proof.
  destruct t as [[[p_1 alti_1] p_2] h_2]. unfold refine_step, refine_from. cbn [frefine].
  destruct (itp _ _) as [z_v|]; [|discriminate]. destruct (Bltb ftol_z _); [|discriminate]. intros H. injection H as <-.
  destruct (Bltb _ fzero); reflexivity.
Qed.
Definition sf_eqb (x y : SpecFloat.spec_float) : bool :=
  match x, y with
  | SpecFloat.S754_zero s, SpecFloat.S754_zero t => Bool.eqb s t
  | SpecFloat.S754_infinity s, SpecFloat.S754_infinity t => Bool.eqb s t
  | SpecFloat.S754_nan, SpecFloat.S754_nan => true
  | SpecFloat.S754_finite s m e, SpecFloat.S754_finite t n f => Bool.eqb s t && Pos.eqb m n && Z.eqb e f
  | _, _ => false
  end.
Lemma sf_eqb_eq x y : sf_eqb x y = true -> x = y.
Proof.
  destruct x, y; cbn; try discriminate; intros H; try (apply eqb_prop in H; now subst); [reflexivity|].
  apply andb_true_iff in H as [H H2]. apply andb_true_iff in H as [H H1]. apply eqb_prop in H. apply Pos.eqb_eq in H1. apply Z.eqb_eq in H2. now subst.
Qed.
Definition b_eqb (x y : b64) : bool := sf_eqb (B2SF x) (B2SF y).
Lemma b_eqb_eq x y : b_eqb x y = true -> x = y.
Proof. intros H. apply (B2SF_inj 53 1024). now apply sf_eqb_eq. Qed.
Definition v_eqb (p q : fvec3) : bool := b_eqb (fv_row p) (fv_row q) && b_eqb (fv_col p) (fv_col q) && b_eqb (fv_alt p) (fv_alt q).
Lemma v_eqb_eq p q : v_eqb p q = true -> p = q.
Proof.
  unfold v_eqb. destruct p, q. cbn. intros H. apply andb_true_iff in H as [H H2]. apply andb_true_iff in H as [H H1].
  apply b_eqb_eq in H, H1, H2. now subst.
Qed.
Definition state_eqb (t u : state) : bool :=
  let '(a, b, c, d) := t in let '(a', b', c', d') := u in v_eqb a a' && b_eqb b b' && v_eqb c c' && b_eqb d d'.
Lemma state_eqb_eq t u : state_eqb t u = true -> t = u.
Proof.
  destruct t as [[[a b] c] d], u as [[[a' b'] c'] d']. unfold state_eqb. intros H. apply andb_true_iff in H as [H H3].
  apply andb_true_iff in H as [H H2]. apply andb_true_iff in H as [H H1]. apply v_eqb_eq in H, H2. apply b_eqb_eq in H1, H3. now subst.
Qed.
(** A state that is its own successor. *)
Definition stuck (itp : b64 -> b64 -> option b64) (t : state) : bool :=
  match refine_step itp t with Some u => state_eqb u t | None => false end.
Lemma stuck_forever itp t : stuck itp t = true -> forall n, refine_from itp n t = FNoFuel.
Proof.
  unfold stuck. destruct (refine_step itp t) as [u|] eqn:E; [|discriminate]. intros H. apply state_eqb_eq in H. subst u.
  induction n as [|n IH].
  - destruct t as [[[a b] c] d]. reflexivity.
  - now rewrite (refine_unfold itp n t t E).
Qed.

(** The refinement that the first cell of the first segment calls, if any. *)
Definition first_refinement (m : fraster) (los : list fvec3) : option state :=
  match fintersect_dtm_cube m los with
  | Some (pb, h) =>
      match finterpolate m (fv_row pb) (fv_col pb), ffloor h with
      | Some alti, Some i_0 =>
          if Bltb (fsub (fv_alt pb) alti) fzero then None
          else if i_0 <? Z.of_nat (length los) - 1 then
            match fpy_get los i_0, fpy_get los (i_0 + 1) with
            | Some a, Some b =>
                let s := fsegment_of a b in
                if Beqb (f_d0 s) fzero && Beqb (f_d1 s) fzero then None
                else
                  let a_2 := fsub h (fint i_0) in
                  let a_2 := if Bleb fone a_2 then fzero else a_2 in
                  match ffirst_cell (fv_row pb) (f_d0 s), ffirst_cell (fv_col pb) (f_d1 s) with
                  | Some c, Some r =>
                      let w := FW a_2 c r pb in
                      let p_2 := fw_p (fmesh_move s w) in
                      if fcell_guard m w && fmay_intersect (falt_min_cell m c r) (falt_max_cell m c r) (f_z0 s) (f_z1 s) (fv_alt pb) (fv_alt p_2) then
                        match finterpolate m (fv_row p_2) (fv_col p_2) with
                        | Some h_2 => if Bleb (fmul (fsub (fv_alt pb) alti) (fsub (fv_alt p_2) h_2)) fzero then Some (pb, alti, p_2, h_2) else None
                        | None => None
                        end
                      else None
                  | _, _ => None
                  end
            | _, _ => None
            end
          else None
      | _, _ => None
      end
  | None => None
  end.
Lemma first_refinement_called m los t fuel cells steps : first_refinement m los = Some t ->
  flocate m fuel (S cells) (S steps) los = Some (refine_from (finterpolate m) fuel t).
Proof.
  unfold first_refinement, flocate. destruct (fintersect_dtm_cube m los) as [[pb h]|]; [|discriminate]. unfold fintersection.
  destruct (finterpolate m (fv_row pb) (fv_col pb)) as [alti|] eqn:EI; [|discriminate]. destruct (ffloor h) as [i_0|]; [|discriminate].
  destruct (Bltb (fsub (fv_alt pb) alti) fzero); [discriminate|]. cbn [fvertex_loop].
  destruct (i_0 <? Z.of_nat (length los) - 1); [|discriminate].
  destruct (fpy_get los i_0) as [a|]; [|discriminate]. destruct (fpy_get los (i_0 + 1)) as [b|]; [|discriminate].
  cbv zeta. set (s := fsegment_of a b).
  destruct (Beqb (f_d0 s) fzero && Beqb (f_d1 s) fzero); [discriminate|].
  destruct (ffirst_cell (fv_row pb) (f_d0 s)) as [c|]; [|discriminate]. destruct (ffirst_cell (fv_col pb) (f_d1 s)) as [r|]; [|discriminate].
  set (w := FW _ c r pb). destruct (fcell_guard m w) eqn:G; [|discriminate]. cbn [andb fcell_loop]. rewrite G.
  change (fw_c w) with c. change (fw_r w) with r. change (fw_p w) with pb.
  destruct (fmay_intersect _ _ _ _ _ _); [|discriminate]. rewrite EI.
  destruct (finterpolate m (fv_row (fw_p (fmesh_move s w))) _) as [h_2|]; [|discriminate].
  destruct (Bleb (fmul _ _) fzero); [|discriminate]. intros H. injection H as <-. reflexivity.
Qed.
(** The state after some iterations. *)
Fixpoint refine_steps (itp : b64 -> b64 -> option b64) (n : nat) (t : state) : option state :=
  match n with O => Some t | S n => match refine_step itp t with Some t => refine_steps itp n t | None => None end end.
Definition never_ends (itp : b64 -> b64 -> option b64) (k : nat) (t : state) : bool :=
  match refine_steps itp k t with Some u => stuck itp u | None => false end.
Lemma never_ends_forever itp k : forall t, never_ends itp k t = true -> forall n, refine_from itp n t = FNoFuel.
Proof.
  induction k as [|k IH]; intros t H n; unfold never_ends in H; cbn [refine_steps] in H.
  - now apply stuck_forever.
  - destruct (refine_step itp t) as [u|] eqn:E; [|discriminate]. destruct n as [|n].
    + destruct t as [[[a b] c] d]. reflexivity.
    + rewrite (refine_unfold itp n t u E). now apply IH.
Qed.

(** ** The point that is returned *)
Definition accepted (m : fraster) (p : fvec3) : Prop :=
  exists z, finterpolate m (fv_row p) (fv_col p) = Some z /\ Bltb ftol_z (fabs (fsub z (fv_alt p))) = false.
Lemma refine_found m n : forall p_1 a_1 p_2 h_2 p, frefine (finterpolate m) n p_1 a_1 p_2 h_2 = FFound p -> accepted m p.
Proof.
  induction n as [|n IH]; intros p_1 a_1 p_2 h_2 p H; [discriminate|]. cbn [frefine] in H. cbv zeta in H.
  destruct (finterpolate m _ _) as [z|] eqn:E; [|discriminate].
  destruct (Bltb ftol_z (fabs _)) eqn:T.
  - destruct (Bltb _ fzero); exact (IH _ _ _ _ _ H).
  - injection H as <-. exists z. split; [exact E|exact T].
Qed.
Lemma cell_loop_found m s fuel n : forall w p, fcell_loop m s fuel n w = FDone (FFound p) -> accepted m p.
Proof.
  induction n as [|n IH]; intros w p H; cbn [fcell_loop] in H; destruct (fcell_guard m w); try discriminate. cbv zeta in H.
  destruct (fmay_intersect _ _ _ _ _ _); [|exact (IH _ _ H)].
  destruct (finterpolate m (fv_row (fw_p w)) (fv_col (fw_p w))) as [a1|]; [|discriminate].
  destruct (finterpolate m (fv_row (fw_p (fmesh_move s w))) _) as [h2|]; [|discriminate].
  destruct (Bleb _ _); [|exact (IH _ _ H)]. injection H as H. exact (refine_found _ _ _ _ _ _ _ H).
Qed.
Lemma tolerance_of_zero (z : b64) : Bltb ftol_z (fabs (fsub z z)) = false.
Proof.
  destruct (flit_exact 0x1a36e2eb1c432d (-66)) as [V FV]; [apply fits_dyadic; lia|]. fold ftol_z in V, FV.
  destruct (is_finite z) eqn:F.
  - destruct (fsub_fits z z 0 F F) as [E G]; [lra|change 0%R with (IZR 0); apply fits_int; lia|].
    rewrite Bltb_correct; [|exact FV|unfold fabs; now rewrite is_finite_Babs].
    unfold fabs. rewrite B2R_Babs, E, Rabs_R0, V. pose proof (bpow_gt_0 radix2 (-66)).
    destruct (Rlt_bool_spec (IZR 0x1a36e2eb1c432d * bpow radix2 (-66)) 0) as [L|L]; [lra|reflexivity].
  - clear V FV. destruct z as [s|s| |s m e H]; try discriminate; [destruct s; vm_compute; reflexivity|vm_compute; reflexivity].
Qed.
Lemma vertex_loop_found m los fuel cells : forall steps i_0 p_2 h_2 p, fvertex_loop m los fuel cells steps i_0 p_2 h_2 = FFound p -> accepted m p.
Proof.
  induction steps as [|steps IH]; intros i_0 p_2 h_2 p H; cbn [fvertex_loop] in H; destruct (i_0 <? _); try discriminate. cbv zeta in H.
  destruct (fpy_get los i_0) as [a|]; [|discriminate]. destruct (fpy_get los (i_0 + 1)) as [b|]; [|discriminate].
  destruct (Beqb _ _ && Beqb _ _).
  - destruct (finterpolate m _ _) as [alti|] eqn:E; [|discriminate]. destruct (Bleb _ _); [|exact (IH _ _ _ _ H)].
    injection H as <-. exists alti. split; [exact E|]. apply tolerance_of_zero.
  - destruct (ffirst_cell _ _) as [c|]; [|discriminate]. destruct (ffirst_cell _ _) as [r|]; [|discriminate].
    destruct (fcell_guard m _); [|discriminate]. destruct (fcell_loop m _ fuel cells _) as [o|a_2] eqn:E.
    + subst o. exact (cell_loop_found _ _ _ _ _ _ E).
    + destruct (Bleb fone a_2); [|discriminate]. exact (IH _ _ _ _ H).
Qed.
Lemma locate_found m fuel cells steps los p : flocate m fuel cells steps los = Some (FFound p) -> accepted m p.
Proof.
  unfold flocate, fintersection. destruct (fintersect_dtm_cube m los) as [[pb h]|]; [|discriminate]. intros H. injection H as H.
  destruct (finterpolate m _ _) as [alti|]; [|discriminate]. destruct (Bltb _ _); [discriminate|]. destruct (ffloor h); [|discriminate].
  exact (vertex_loop_found _ _ _ _ _ _ _ _ _ H).
Qed.
