(** Model, in binary64, of the rational functions of the RPC models
    ([shareloc/geomodels/rpc.py] and [shareloc/bindings/rpc.cpp]).

    The functions of rpc.py are compiled by numba with fastmath=True (626, 673): the compiler may
    reassociate and distribute sums and products, contract them into fused operations and divide by
    multiplying by an inverse.  The C++ ones are compiled with the default options, which allow the fused
    operations.  So the model does not fix an order: it is the set of all the results that these
    freedoms allow, every operation being a correctly rounded binary64 operation.  Not modelled: a
    flush of the subnormal numbers to zero, the approximate inverse instructions, and the values of
    fastmath functions on NaN and infinities, which are unspecified. *)
From Coq Require Import ZArith List Bool Permutation.
From Flocq Require Import Core BinarySingleNaN.
From Verif Require Import FloatModel.
Import ListNotations.

Definition ffma : b64 -> b64 -> b64 -> b64 := Bfma mode_NE.

(** A polynomial, as a list of terms that are lists of factors. *)
Definition fterm := list b64.
Definition fpoly := list fterm.
(** The expansion of a product. *)
Definition distribute (t u : fpoly) : fpoly := flat_map (fun l => map (fun m => l ++ m) u) t.
(** Equal up to the order of the terms and of the factors. *)
Definition same_poly (t u : fpoly) : Prop := exists v, Permutation t v /\ Forall2 (@Permutation b64) v u.
(** [evaluates t x]: [x] is a result of a sequence of operations for the polynomial [t]. *)
Inductive evaluates : fpoly -> b64 -> Prop :=
| ev_factor : forall x, evaluates [[x]] x
| ev_add : forall t u x y, evaluates t x -> evaluates u y -> evaluates (t ++ u) (fadd x y)
| ev_mul : forall t u x y, evaluates t x -> evaluates u y -> evaluates (distribute t u) (fmul x y)
| ev_fma : forall t u v x y z, evaluates t x -> evaluates u y -> evaluates v z ->
    evaluates (distribute t u ++ v) (ffma x y z)
| ev_same : forall t u x, same_poly t u -> evaluates t x -> evaluates u x.

(** rpc.py 642-663: the terms of [polynomial_equation]; the powers are products. *)
Definition monomials (x y z : b64) : list fterm :=
  [[]; [x]; [y]; [z]; [x; y]; [x; z]; [y; z]; [x; x]; [y; y]; [z; z]; [x; y; z]; [x; x; x]; [x; y; y];
   [x; z; z]; [x; x; y]; [y; y; y]; [y; z; z]; [x; x; z]; [y; y; z]; [z; z; z]].
Definition poly_terms (x y z : b64) (coeff : list b64) : fpoly :=
  map (fun cm => fst cm :: snd cm) (combine coeff (monomials x y z)).
(** rpc.cpp 734-789 [pre_polynomial_equation] and [polynomial_equation]: the first term is the product of the
    coefficient and 1. *)
Definition cpp_poly_terms (x y z : b64) (coeff : list b64) : fpoly :=
  match poly_terms x y z coeff with first :: l => (fint 1 :: first) :: l | [] => [] end.

(** rpc.py 239-241, 363-365; rpc.cpp 623-625, 698-700: the normalised coordinate. *)
Definition fnormalise (v offset scale : b64) : b64 := fdiv (fsub v offset) scale.

(** rpc.py 724-725, rpc.cpp 634-635, 711-712: num / den * scale + offset. *)
Inductive fast_factors (num den scale : b64) : b64 -> b64 -> Prop :=
| ff_source : fast_factors num den scale (fdiv num den) scale
| ff_scale : fast_factors num den scale num (fdiv scale den)
| ff_inverse1 : fast_factors num den scale (fmul num (fdiv (fint 1) den)) scale
| ff_inverse2 : fast_factors num den scale num (fmul (fdiv (fint 1) den) scale)
| ff_inverse3 : fast_factors num den scale (fmul num scale) (fdiv (fint 1) den).
Inductive fast_output (num den scale offset : b64) : b64 -> Prop :=
| fo_product : forall a b, fast_factors num den scale a b -> fast_output num den scale offset (fadd (fmul a b) offset)
| fo_fused : forall a b, fast_factors num den scale a b -> fast_output num den scale offset (ffma a b offset)
| fo_quotient : fast_output num den scale offset (fadd (fdiv (fmul num scale) den) offset).

(** The polynomial of rpc.py or the one of rpc.cpp. *)
Inductive compiled_polynomial (x y z : b64) (coeff : list b64) (v : b64) : Prop :=
| cp_python : evaluates (poly_terms x y z coeff) v -> compiled_polynomial x y z coeff v
| cp_cpp : evaluates (cpp_poly_terms x y z coeff) v -> compiled_polynomial x y z coeff v.

(** One axis of the offsets and scales of a model. *)
Record faxis := FAxis { fa_offset : b64; fa_scale : b64 }.
(** rpc.py 676-727 [compute_rational_function_polynomial], rpc.cpp 564-719, for one point and one of the two
    outputs, from the coordinates before their normalisation (rpc.py 363-386 [inverse_loc], 239-262
    [direct_loc_h] with the direct coefficients). *)
Definition compiled_rational (ax ay az out : faxis) (num den : list b64) (x y z v : b64) : Prop :=
  let xn := fnormalise x (fa_offset ax) (fa_scale ax) in
  let yn := fnormalise y (fa_offset ay) (fa_scale ay) in
  let zn := fnormalise z (fa_offset az) (fa_scale az) in
  exists n d, compiled_polynomial xn yn zn num n /\ compiled_polynomial xn yn zn den d /\
    fast_output n d (fa_scale out) (fa_offset out) v.

(** rpc.py 642-663 in the order of the source, every operation rounded: one of the possible results. *)
Definition fco (c : list b64) (i : nat) : b64 := nth i c (fint 0).
Definition source_polynomial (x y z : b64) (c : list b64) : b64 :=
  let a := fadd in let m := fmul in
  a (a (a (a (a (a (a (a (a (a (a (a (a (a (a (a (a (a (a (fco c 0)
    (m (fco c 1) x)) (m (fco c 2) y)) (m (fco c 3) z))
    (m (m (fco c 4) x) y)) (m (m (fco c 5) x) z)) (m (m (fco c 6) y) z))
    (m (fco c 7) (m x x))) (m (fco c 8) (m y y))) (m (fco c 9) (m z z)))
    (m (m (m (fco c 10) x) y) z))
    (m (fco c 11) (m (m x x) x))) (m (m (fco c 12) x) (m y y))) (m (m (fco c 13) x) (m z z)))
    (m (m (fco c 14) (m x x)) y)) (m (fco c 15) (m (m y y) y))) (m (m (fco c 16) y) (m z z)))
    (m (m (fco c 17) (m x x)) z)) (m (m (fco c 18) (m y y)) z)) (m (fco c 19) (m (m z z) z)).
(** rpc.cpp 734-789 in the order of the source, without fused operations. *)
Definition cpp_source_polynomial (x y z : b64) (c : list b64) : b64 :=
  let a := fadd in let m := fmul in
  a (a (a (a (a (a (a (a (a (a (a (a (a (a (a (a (a (a (a (m (fint 1) (fco c 0))
    (m x (fco c 1))) (m y (fco c 2))) (m z (fco c 3)))
    (m (m x y) (fco c 4))) (m (m x z) (fco c 5))) (m (m y z) (fco c 6)))
    (m (m x x) (fco c 7))) (m (m y y) (fco c 8))) (m (m z z) (fco c 9)))
    (m (m (m x y) z) (fco c 10)))
    (m (m (m x x) x) (fco c 11))) (m (m (m x y) y) (fco c 12))) (m (m (m x z) z) (fco c 13)))
    (m (m (m x x) y) (fco c 14))) (m (m (m y y) y) (fco c 15))) (m (m (m y z) z) (fco c 16)))
    (m (m (m x x) z) (fco c 17))) (m (m (m y y) z) (fco c 18))) (m (m (m z z) z) (fco c 19)).
