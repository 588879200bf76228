(** Specification of the accuracy of the RPC rational functions: which parameters and which points it is stated
    for.  Nothing here refers to the order of the operations. *)
From Coq Require Import Reals List.
From Flocq Require Import Core BinarySingleNaN.
From Verif Require Import FloatModel FloatRpcModel.
Open Scope R_scope.
(** The sum of the absolute values of the coefficients of a polynomial. *)
Definition abs_sum (cs : list R) : R := fold_right (fun c s => Rabs c + s) 0 cs.
(** Twenty numbers. *)
Definition coefficients (cs : list b64) : Prop := length cs = 20%nat /\ Forall (fun a => is_finite a = true) cs.
(** A finite offset and a scale that is neither tiny nor huge. *)
Definition finite_axis (a : faxis) : Prop :=
  is_finite (fa_offset a) = true /\ is_finite (fa_scale a) = true /\ / 1000 <= Rabs (B2R (fa_scale a)) <= 1000000000.
(** The exact normalised coordinate. *)
Definition normal (v : b64) (a : faxis) : R := (B2R v - B2R (fa_offset a)) / B2R (fa_scale a).
(** A coordinate in the validity domain of the model (1.0001 is the limit of the code). *)
Definition inside (v : b64) (a : faxis) : Prop := is_finite v = true /\ Rabs (normal v a) <= 10001 / 10000.
