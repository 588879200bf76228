(** From the coordinates of a ground position back to its index. *)
From Coq Require Import ZArith Reals Bool List Lia Lra Psatz.
From Flocq Require Import Core BinarySingleNaN.
From Verif Require Import FloatModel Float FloatErr FloatRpc FloatGeoModel FloatGeo.
Open Scope R_scope.

(** A finite result is the rounded one, and its arguments are finite. *)
Lemma fadd_args (x y : b64) : is_finite (fadd x y) = true -> is_finite x = true /\ is_finite y = true.
Proof. intros H. destruct x as [|[]| |], y as [|[]| |]; split; try reflexivity; try discriminate H. Qed.
Lemma fmul_args (x y : b64) : is_finite (fmul x y) = true -> is_finite x = true /\ is_finite y = true.
Proof. intros H. destruct x as [[]|[]| |[]], y as [[]|[]| |[]]; split; try reflexivity; try discriminate H. Qed.
Lemma fadd_value (x y : b64) : is_finite (fadd x y) = true -> B2R (fadd x y) = rnd (B2R x + B2R y).
Proof.
  intros F. destruct (fadd_args x y F) as [X Y]. generalize (Bplus_correct 53 1024 _ _ mode_NE x y X Y). fold (fadd x y).
  destruct (Rlt_bool _ _); [intros (E & _); exact E|]. intros (E & _). exfalso. destruct (fadd x y) as [| | |]; cbn in *; discriminate.
Qed.
Lemma fmul_value (x y : b64) : is_finite (fmul x y) = true -> B2R (fmul x y) = rnd (B2R x * B2R y).
Proof.
  intros F. generalize (Bmult_correct 53 1024 _ _ mode_NE x y). cbv beta. fold (fmul x y).
  destruct (Rlt_bool _ _); [intros (E & _); exact E|]. intros E. exfalso. destruct (fmul x y) as [| | |]; cbn in *; discriminate.
Qed.
Lemma rnd_bound_inv z b : 1 * / 1000000000 <= b -> Rabs (rnd z) <= b -> Rabs z <= 101 / 100 * b.
Proof.
  intros B H. pose proof (rnd_error z) as E. pose proof ulp1_small as U. pose proof ulp1_pos as P. pose proof tiny_q as T. pose proof (Rabs_pos z).
  assert (Rabs z <= Rabs (rnd z) + Rabs (rnd z - z)).
  { replace z with (rnd z - (rnd z - z)) at 1 by ring. unfold Rminus at 1. eapply Rle_trans; [apply Rabs_triang|]. rewrite Rabs_Ropp. lra. }
  assert (ulp1 * Rabs z <= / 1000000 * Rabs z) by (apply Rmult_le_compat_r; lra).
  assert (ulp1 * ulp1 <= / 1000000 * / 1000000) by (apply Rmult_le_compat; lra). lra.
Qed.

(** The index behind a coordinate at most [M] cells from the corner is at most [4 M]. *)
Lemma index_behind (M : R) (i s c X : b64) : 1 <= M <= 250000000 -> / 1000000000 <= Rabs (B2R s) <= 1000000000 ->
  Rabs (B2R c) <= M * Rabs (B2R s) -> is_finite X = true ->
  B2R X = B2R (fadd (fmul (fadd i half) s) c) -> is_finite (fadd (fmul (fadd i half) s) c) = true ->
  Rabs (B2R X - B2R c) <= M * Rabs (B2R s) -> is_finite i = true /\ Rabs (B2R i + / 2) <= 4 * M.
Proof.
  intros HM S C FX VX F HX. destruct (fadd_args _ _ F) as [FP _]. destruct (fmul_args _ _ FP) as [FU _]. destruct (fadd_args _ _ FU) as [FI _].
  split; [exact FI|]. rewrite (fadd_value _ _ F) in VX. set (g := M * Rabs (B2R s)) in *.
  assert (G : / 1000000000 <= g) by (unfold g; nra).
  assert (X2 : Rabs (B2R X) <= 2 * g) by (replace (B2R X) with ((B2R X - B2R c) + B2R c) by ring; eapply Rle_trans; [apply Rabs_triang|lra]).
  rewrite VX in X2. apply rnd_bound_inv in X2; [|lra].
  assert (P : Rabs (B2R (fmul (fadd i half) s)) <= 303 / 100 * g).
  { replace (B2R (fmul (fadd i half) s)) with ((B2R (fmul (fadd i half) s) + B2R c) + - B2R c) by ring. eapply Rle_trans; [apply Rabs_triang|]. rewrite Rabs_Ropp. lra. }
  rewrite (fmul_value _ _ FP) in P. apply rnd_bound_inv in P; [|lra]. rewrite Rabs_mult in P.
  assert (U : Rabs (B2R (fadd i half)) <= 307 / 100 * M).
  { apply Rmult_le_reg_r with (Rabs (B2R s)); [lra|]. rewrite Rmult_assoc. fold g. lra. }
  rewrite (fadd_value _ _ FU) in U. apply rnd_bound_inv in U; [|lra]. destruct half_value as [VH _]. rewrite VH in U. lra.
Qed.
