(** Model, in binary64, of the conversions between indices and physical coordinates
    ([shareloc/proj_utils.py], [shareloc/bindings/dtm_intersection.cpp]).  The operations of the affine library
    (composition and inverse) are the ones of its source, in their order; the C++ constructor repeats them. *)
From Coq Require Import ZArith.
From Verif Require Import FloatModel.

(** The geotransform: [col_geo = a * col + b * row + c], [row_geo = d * col + e * row + f]. *)
Record faffine := FAff { fa_a : b64; fa_b : b64; fa_c : b64; fa_d : b64; fa_e : b64; fa_f : b64 }.
(** [transform * (vx, vy)] (affine library; dtm_intersection.cpp 113-114 and 129-130). *)
Definition faffine_apply (t : faffine) (vx vy : b64) : b64 * b64 :=
  (fadd (fadd (fmul vx (fa_a t)) (fmul vy (fa_b t))) (fa_c t), fadd (fadd (fmul vx (fa_d t)) (fmul vy (fa_e t))) (fa_f t)).
(** [~transform] (affine library; dtm_intersection.cpp 78-92).  A determinant of zero gives infinities, where the affine
    library raises an exception: no statement is about it. *)
Definition faffine_invert (t : faffine) : faffine :=
  let idet := fdiv (fint 1) (fsub (fmul (fa_a t) (fa_e t)) (fmul (fa_b t) (fa_d t))) in
  let ra := fmul (fa_e t) idet in
  let rb := fmul (fopp (fa_b t)) idet in
  let rd := fmul (fopp (fa_d t)) idet in
  let re := fmul (fa_a t) idet in
  FAff ra rb (fsub (fmul (fopp (fa_c t)) ra) (fmul (fa_f t) rb)) rd re (fsub (fmul (fopp (fa_c t)) rd) (fmul (fa_f t) re)).
(** proj_utils.py 55-70 [transform_index_to_physical_point] (dtm_intersection.cpp 120-134 [index_to_ter]):
    the result is (row_geo, col_geo). *)
Definition findex_to_physical (transform : faffine) (row col : b64) : b64 * b64 :=
  let '(col_geo, row_geo) := faffine_apply transform (fadd col half) (fadd row half) in (row_geo, col_geo).
(** proj_utils.py 73-87 [transform_physical_point_to_index] (dtm_intersection.cpp 106-118 [ter_to_index]):
    the result is (row, col). *)
Definition fphysical_to_index (trans_inv : faffine) (row_geo col_geo : b64) : b64 * b64 :=
  let '(col, row) := faffine_apply trans_inv col_geo row_geo in (fsub row half, fsub col half).
