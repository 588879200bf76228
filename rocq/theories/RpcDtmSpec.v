(** Specification of the coordinate conversions used with a DTM. *)
From Coq Require Import Reals ZArith List.
From Verif Require Import Num ProjModel.
Open Scope R_scope.

(** Converting from the system [e1] to [e2] treats the points one by one; it adds [k] to every
    altitude, or fails (NaN). *)
Definition shifts_altitudes (conv : Z -> Z -> list row3 -> list row3) (e1 e2 : Z) (k : R) : Prop :=
  exists f, (forall l, conv e1 e2 l = List.map f l) /\
  forall p, f p = nan3 \/ alt3 (f p) = nadd (alt3 p) (Some k).
