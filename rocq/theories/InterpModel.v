(** Model of [shareloc/math_utils.py] and of the C++ [DTMIntersection::interpolate]. *)
From Coq Require Import Reals ZArith List Bool.
From Verif Require Import Num.
Import ListNotations.
Open Scope R_scope.

(** A 2-D array of finite floats: its two sizes and its cells (only the cells whose indices
    are within the sizes exist). *)
Record raster := mkRaster { rs_rows : Z; rs_cols : Z; rs_at : Z -> Z -> R }.

(** Indexing [mat[r, c]].  [None] is a read outside of the array: an IndexError, or a negative
    index (which numpy would wrap around to the other side of the raster).
    Simplification: the wrap-around is treated as a fault. *)
Definition rs_get (m : raster) (r c : Z) : option R :=
  if ((0 <=? r) && (r <? rs_rows m) && (0 <=? c) && (c <? rs_cols m))%Z%bool
  then Some (rs_at m r c) else None.

(** math_utils.py 76-81, 83-88, 111-116, 119-124: the lower index along one axis. *)
Definition lower_index (nb : Z) (d : R) : Z :=
  if Rltb d 0 then 0%Z
  else if Rleb (IZR (nb - 1)) d then (nb - 2)%Z
  else Rfloor d.

(** math_utils.py 160-162, 164-166: the same, by masked assignments on arrays (one entry). *)
Definition lower_index_vec (nb : Z) (d : R) : Z :=
  let l0 := Rfloor d in
  let l1 := if Rltb d 0 then 0%Z else l0 in
  if Rleb (IZR (nb - 1)) d then (nb - 2)%Z else l1.

(** math_utils.py 132-137 (also 50-55): the bilinear formula from the four samples. *)
Definition bilin_value (col_shift row_shift v00 v01 v10 v11 : R) : R :=
  (1 - col_shift) * (1 - row_shift) * v00
  + col_shift * (1 - row_shift) * v01
  + (1 - col_shift) * row_shift * v10
  + col_shift * row_shift * v11.

(** math_utils.py 93-139 [interpol_bilin].  [None]: a read outside of the array. *)
Definition interpol_bilin (m : raster) (nb_rows nb_cols : Z) (dr dc : R) : option R :=
  let lr := lower_index nb_rows dr in
  let ur := (lr + 1)%Z in
  let lc := lower_index nb_cols dc in
  let uc := (lc + 1)%Z in
  let col_shift := dc - IZR lc in
  let row_shift := dr - IZR lr in
  match rs_get m lr lc, rs_get m lr uc, rs_get m ur lc, rs_get m ur uc with
  | Some v00, Some v01, Some v10, Some v11 =>
      Some (bilin_value col_shift row_shift v00 v01 v10 v11)
  | _, _, _, _ => None
  end.

(** math_utils.py 28-57 [inter], at one point: [mats] is a list of multi-layer arrays
    (a multi-layer array is the list of its layers). *)
Definition inter_layer (m : raster) (dc dr : R) (lc lr : Z) : option R :=
  let uc := (lc + 1)%Z in
  let ur := (lr + 1)%Z in
  let col_shift := dc - IZR lc in
  let row_shift := dr - IZR lr in
  match rs_get m lr lc, rs_get m lr uc, rs_get m ur lc, rs_get m ur uc with
  | Some v00, Some v01, Some v10, Some v11 =>
      Some ((1 - col_shift) * (1 - row_shift) * v00
            + col_shift * (1 - row_shift) * v01
            + (1 - col_shift) * row_shift * v10
            + col_shift * row_shift * v11)
  | _, _, _, _ => None
  end.

(** math_utils.py 60-90 [interpol_bilin_grid]: one position, every layer of every array. *)
Definition interpol_bilin_grid (mats : list (list raster)) (nb_rows nb_cols : Z) (dr dc : R)
  : option (list (list R)) :=
  let lr := lower_index nb_rows dr in
  let lc := lower_index nb_cols dc in
  seq_opt (map (fun mat => seq_opt (map (fun m => inter_layer m dc dr lc lr) mat)) mats).

(** math_utils.py 142-168 [interpol_bilin_vectorized]: many positions, every layer of every
    array; the result of a layer is the list of the values at the positions.  The fancy indexing
    [mat[:, rows, cols]] pairs the row and column index arrays. *)
Definition interpol_bilin_vectorized (mats : list (list raster)) (nb_rows nb_cols : Z)
  (positions : list (R * R)) : option (list (list (list R))) :=
  seq_opt (map (fun mat => seq_opt (map (fun m =>
    seq_opt (map (fun p =>
      let '(dr, dc) := p in
      inter_layer m dc dr (lower_index_vec nb_cols dc) (lower_index_vec nb_rows dr)) positions))
    mat)) mats).

(** The row-major flattening of an array, as stored by the C++ class
    (bindings/dtm_intersection.cpp 45-47). *)
Definition flatten_raster (m : raster) : list R :=
  flat_map (fun r => map (fun c => rs_at m (Z.of_nat r) (Z.of_nat c)) (seq 0 (Z.to_nat (rs_cols m))))
           (seq 0 (Z.to_nat (rs_rows m))).

(** [std::vector::operator[]]: [None] is a read outside of the vector (undefined behaviour). *)
Definition vec_get (v : list R) (i : Z) : option R :=
  if (i <? 0)%Z then None else nth_error v (Z.to_nat i).

(** bindings/dtm_intersection.cpp 144-183 [DTMIntersection::interpolate].  The indices are
    doubles holding integers in C++; they are integers here. *)
Definition cpp_interpolate (alt_data : list R) (nb_rows nb_columns : Z) (dr dc : R) : option R :=
  let lower_row := if Rltb dr 0 then 0%Z
                   else if Rleb (IZR nb_rows - 1) dr then (nb_rows - 2)%Z else Rfloor dr in
  let upper_row := (lower_row + 1)%Z in
  let lower_col := if Rltb dc 0 then 0%Z
                   else if Rleb (IZR nb_columns - 1) dc then (nb_columns - 2)%Z else Rfloor dc in
  let upper_col := (lower_col + 1)%Z in
  let col_shift := dc - IZR lower_col in
  let row_shift := dr - IZR lower_row in
  match vec_get alt_data (lower_row * nb_columns + lower_col),
        vec_get alt_data (lower_row * nb_columns + upper_col),
        vec_get alt_data (upper_row * nb_columns + lower_col),
        vec_get alt_data (upper_row * nb_columns + upper_col) with
  | Some v00, Some v01, Some v10, Some v11 =>
      Some ((1 - col_shift) * (1 - row_shift) * v00
            + col_shift * (1 - row_shift) * v01
            + (1 - col_shift) * row_shift * v10
            + col_shift * row_shift * v11)
  | _, _, _, _ => None
  end.

(** The value of [interpol_bilin] with the reads performed unconditionally, used by the models
    of the callers (math_utils.py 93-139; [PropertiesInterp.v] shows that the reads of a raster
    of at least 2x2 cells never fail). *)
Definition interp (m : raster) (dr dc : R) : R :=
  let lr := lower_index (rs_rows m) dr in
  let lc := lower_index (rs_cols m) dc in
  bilin_value (dc - IZR lc) (dr - IZR lr)
    (rs_at m lr lc) (rs_at m lr (lc + 1)) (rs_at m (lr + 1) lc) (rs_at m (lr + 1) (lc + 1)).
