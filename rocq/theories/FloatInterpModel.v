(** Model, in binary64, of the bilinear interpolation ([shareloc/math_utils.py] and the C++
    [DTMIntersection::interpolate]) and of the first test of the DTM intersection. *)
From Coq Require Import ZArith Bool.
From Flocq Require Import Core BinarySingleNaN.
From Verif Require Import FloatModel.
Open Scope Z_scope.

(** A 2-D array of binary64 numbers: its sizes and its cells. *)
Record fraster := mkFRaster { fr_rows : Z; fr_cols : Z; fr_at : Z -> Z -> b64 }.
Definition fr_get (m : fraster) (r c : Z) : option b64 :=
  if ((0 <=? r) && (r <? fr_rows m) && (0 <=? c) && (c <? fr_cols m))%bool then Some (fr_at m r c) else None.

(** [int(np.floor(x))]; [None]: the exception on infinities and NaN. *)
Definition ffloor (x : b64) : option Z :=
  match x with
  | B754_zero _ => Some 0
  | B754_finite s m e _ =>
      let v := if s then Zneg m else Zpos m in
      Some (if 0 <=? e then v * 2 ^ e else v / 2 ^ (- e))
  | _ => None
  end.
(** math_utils.py 111-116, 119-124: the lower index along one axis. *)
Definition flower_index (nb : Z) (d : b64) : option Z :=
  if Bltb d (fint 0) then Some 0
  else if Bleb (fint (nb - 1)) d then Some (nb - 2)
  else ffloor d.
(** math_utils.py 132-137 (also 50-55): the formula, operation by operation. *)
Definition fbilin (col_shift row_shift v00 v01 v10 v11 : b64) : b64 :=
  fadd (fadd (fadd
    (fmul (fmul (fsub (fint 1) col_shift) (fsub (fint 1) row_shift)) v00)
    (fmul (fmul col_shift (fsub (fint 1) row_shift)) v01))
    (fmul (fmul (fsub (fint 1) col_shift) row_shift) v10))
    (fmul (fmul col_shift row_shift) v11).
(** math_utils.py 93-139 [interpol_bilin] (and bindings/dtm_intersection.cpp 144-183, the same
    operations in the same order).  [None]: an exception. *)
Definition finterpol_bilin (m : fraster) (nb_rows nb_cols : Z) (dr dc : b64) : option b64 :=
  match flower_index nb_rows dr, flower_index nb_cols dc with
  | Some lr, Some lc =>
      let ur := lr + 1 in
      let uc := lc + 1 in
      let col_shift := fsub dc (fint lc) in
      let row_shift := fsub dr (fint lr) in
      match fr_get m lr lc, fr_get m lr uc, fr_get m ur lc, fr_get m ur uc with
      | Some v00, Some v01, Some v10, Some v11 => Some (fbilin col_shift row_shift v00 v01 v10 v11)
      | _, _, _, _ => None
      end
  | _, _ => None
  end.

(** dtm_intersection.py 429-447: the first test of [intersection] on the entry position in the DTM
    cube; [Some false]: the position is below the surface, the answer is "no intersection". *)
Definition fentry_accepted (m : fraster) (row col alt : b64) : option bool :=
  match finterpol_bilin m (fr_rows m) (fr_cols m) row col with
  | Some alti_1 => Some (negb (Bltb (fsub alt alti_1) (fint 0)))
  | None => None
  end.

(** A vertex of a line of sight, in the frame of the indices. *)
Record fvec3 := FV3 { fv_row : b64; fv_col : b64; fv_alt : b64 }.
(** dtm_intersection.py 113-129 [eq_plan], for the face of the largest altitude (90-95: the
    coefficients are 0, 0 and 1). *)
Definition feq_plan_top (alt_max : b64) (p : fvec3) : b64 :=
  fsub (fadd (fadd (fmul (fint 0) (fv_row p)) (fmul (fint 0) (fv_col p))) (fmul (fint 1) (fv_alt p))) alt_max.
(** dtm_intersection.py 300-328: the crossing of this face, the vertices A and B being on either
    side of it. *)
Definition fcross_top (alt_max : b64) (a b : fvec3) : fvec3 :=
  let la := feq_plan_top alt_max a in
  let lb := feq_plan_top alt_max b in
  let interp_coef_a := fdiv lb (fsub lb la) in
  let interp_coef_b := fdiv (fopp la) (fsub lb la) in
  FV3 (fadd (fmul interp_coef_a (fv_row a)) (fmul interp_coef_b (fv_row b)))
      (fadd (fmul interp_coef_a (fv_col a)) (fmul interp_coef_b (fv_col b)))
      alt_max.
