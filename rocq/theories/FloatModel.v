(** Model, in binary64 floating-point numbers, of the coordinates of the nodes that
    [shareloc/geofunctions/rectification_grid.py] and [shareloc/geomodels/grid.py] give to the
    interpolator.  Elsewhere the model computes with real numbers; here the number of coordinates
    depends on the rounding.  The operations are the ones of Flocq (round to nearest, ties to even). *)
From Coq Require Import ZArith Bool.
From Flocq Require Import Core BinarySingleNaN.
Open Scope Z_scope.

Definition b64 : Set := binary_float 53 1024.
#[export] Instance prec53 : Prec_gt_0 53 := eq_refl.
#[export] Instance emax1024 : Prec_lt_emax 53 1024 := eq_refl.
Definition fadd : b64 -> b64 -> b64 := Bplus mode_NE.
Definition fsub : b64 -> b64 -> b64 := Bminus mode_NE.
Definition fmul : b64 -> b64 -> b64 := Bmult mode_NE.
Definition fdiv : b64 -> b64 -> b64 := Bdiv mode_NE.
Definition fopp : b64 -> b64 := Bopp.
(** [m] * 2 ^ [e], rounded: literals, and the conversion of integers. *)
Definition flit (m e : Z) : b64 := binary_normalize 53 1024 _ _ mode_NE m e false.
Definition fint (n : Z) : b64 := flit n 0.
Definition half : b64 := flit 1 (-1).

(** [ceil] of numpy, as an integer; [None]: infinities and NaN. *)
Definition fceil (x : b64) : option Z :=
  match x with
  | B754_zero _ => Some 0
  | B754_finite s m e _ =>
      let v := if s then Zneg m else Zpos m in
      Some (if 0 <=? e then v * 2 ^ e else - ((- v) / 2 ^ (- e)))
  | _ => None
  end.
(** The length of [np.arange(start, stop, step)] (numpy: ceil((stop - start) / step), at least 0;
    an exception if it is not finite). *)
Definition arange_length (start stop step : b64) : option nat :=
  match fceil (fdiv (fsub stop start) step) with Some n => Some (Z.to_nat n) | None => None end.

(** rectification.py 797: the geotransform of a grid of displacements, step * 0.5 and its opposite. *)
Definition grid_origin (epi_step : b64) : b64 := fopp (fmul epi_step half).
(** rectification_grid.py 52-55: [transform * (0.5, 0.5)] along one axis; the rotation coefficient is
    zero ([vx * sa + vy * sb + sc] in the affine library). *)
Definition centre (step origin : b64) : b64 := fadd (fadd (fmul half step) (fmul half (fint 0))) origin.
(** rectification_grid.py 58-62: the number of coordinates along one axis of [n] nodes. *)
Definition rect_coordinates (step origin : b64) (n : nat) : option nat :=
  let ori := centre step origin in
  arange_length ori (fadd ori (fmul step (fint (Z.of_nat n)))) step.
(** rectification_grid.py 78-84: the interpolator raises ValueError unless there are as many
    coordinates as values along each axis. *)
Definition rect_grid_opens (step_col step_row origin_col origin_row : b64) (width height : nat) : bool :=
  match rect_coordinates step_col origin_col width, rect_coordinates step_row origin_row height with
  | Some w, Some h => Nat.eqb w width && Nat.eqb h height
  | _, _ => false
  end.

(** grid.py 127-128: the number of coordinates along one axis of a multi-altitude grid; 130-132: the
    interpolator raises ValueError as above. *)
Definition grid_coordinates (origin step : b64) (n : nat) : option nat :=
  arange_length origin (fadd origin (fmul (fint (Z.of_nat n)) step)) step.
