(** Numbers used by the model.

    Floats are modelled by exact reals.  Where NaN matters the type [num] is used:
    [None] stands for NaN (an infinity is merged with NaN).  Comparisons with NaN are
    false, like in IEEE 754; arithmetic propagates NaN. *)
From Coq Require Import Reals ZArith List Bool Lra Lia.
Import ListNotations.
Open Scope R_scope.

(** Boolean comparisons on reals (the comparisons of Python / numpy / C++ on finite floats). *)
Definition Rltb (x y : R) : bool := if Rlt_dec x y then true else false.
Definition Rleb (x y : R) : bool := if Rle_dec x y then true else false.
Definition Reqb (x y : R) : bool := if Req_EM_T x y then true else false.

(** [np.floor(x)], [np.ceil(x)] and Python's truncating [int(x)]. *)
Definition Rfloor (x : R) : Z := Int_part x.
Definition Rceil (x : R) : Z := (- Int_part (- x))%Z.
Definition Rtrunc (x : R) : Z := if Rltb x 0 then Rceil x else Rfloor x.

(** NaN-able numbers. *)
Definition num := option R.
Definition nan : num := None.
Definition fin (r : R) : num := Some r.
Definition isnan (a : num) : bool := match a with None => true | Some _ => false end.

Definition nlift1 (f : R -> R) (a : num) : num :=
  match a with Some x => Some (f x) | None => None end.
Definition nlift2 (f : R -> R -> R) (a b : num) : num :=
  match a, b with Some x, Some y => Some (f x y) | _, _ => None end.
Definition nadd := nlift2 Rplus.
Definition nsub := nlift2 Rminus.
Definition nmul := nlift2 Rmult.
Definition nabs := nlift1 Rabs.
Definition nopp := nlift1 Ropp.
(** Division by zero gives an infinity or NaN in numpy: both are [None] here. *)
Definition ndiv (a b : num) : num :=
  match a, b with
  | Some x, Some y => if Req_EM_T y 0 then None else Some (x / y)
  | _, _ => None
  end.
(** [a > b]: false as soon as one side is NaN. *)
Definition ngtb (a b : num) : bool :=
  match a, b with Some x, Some y => Rltb y x | _, _ => false end.

(** Sequencing a list of results that may fail. *)
Fixpoint seq_opt {A} (l : list (option A)) : option (list A) :=
  match l with
  | [] => Some []
  | None :: _ => None
  | Some x :: t => match seq_opt t with Some r => Some (x :: r) | None => None end
  end.
