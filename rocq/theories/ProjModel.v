(** Model of [shareloc/proj_utils.py] (index <-> physical point), of the DTM conversions built on
    it and of their C++ twins, and of [check_lonlat]. *)
From Coq Require Import Reals ZArith List Bool.
From Verif Require Import Num.
Import ListNotations.
Open Scope R_scope.

(** The six coefficients of [affine.Affine]: (x, y) |-> (a x + b y + c, d x + e y + f).
    [Affine.from_gdal(c, a, b, f, d, e)] only reorders them (external package [affine]). *)
Record affine := mkAffine { af_a : R; af_b : R; af_c : R; af_d : R; af_e : R; af_f : R }.

(** [Affine.from_gdal], used in dtm_intersection.py 108-109 and geomodel_template.py 144. *)
Definition from_gdal (c a b f d e : R) : affine := mkAffine a b c d e f.

(** [transform * (x, y)] (external package [affine]), used in proj_utils.py 69, 86. *)
Definition affine_apply (t : affine) (p : R * R) : R * R :=
  let '(x, y) := p in
  (x * af_a t + y * af_b t + af_c t, x * af_d t + y * af_e t + af_f t).

(** [~transform] (external package [affine]), used in dtm_intersection.py 108, image.py 84. *)
Definition affine_inv (t : affine) : affine :=
  let idet := 1 / (af_a t * af_e t - af_b t * af_d t) in
  let ra := af_e t * idet in
  let rb := - af_b t * idet in
  let rd := - af_d t * idet in
  let re := af_a t * idet in
  mkAffine ra rb (- af_c t * ra - af_f t * rb) rd re (- af_c t * rd - af_f t * re).

(** proj_utils.py 55-70 [transform_index_to_physical_point]; returns (row_geo, col_geo). *)
Definition transform_index_to_physical_point (t : affine) (row col : R) : R * R :=
  let '(col_geo, row_geo) := affine_apply t (col + 1 / 2, row + 1 / 2) in
  (row_geo, col_geo).

(** proj_utils.py 73-87 [transform_physical_point_to_index]; returns (row, col). *)
Definition transform_physical_point_to_index (trans_inv : affine) (row_geo col_geo : R) : R * R :=
  let '(col, row) := affine_apply trans_inv (col_geo, row_geo) in
  (row - 1 / 2, col - 1 / 2).

(** A triple of floats (a numpy array of 3 elements, a C++ [array<double,3>]). *)
Record vec3 := V3 { v0 : R; v1 : R; v2 : R }.

(** dtm_intersection.py 131-142 [ter_to_index]: (x, y, z) -> (row, col, z). *)
Definition ter_to_index (trans_inv : affine) (p : vec3) : vec3 :=
  let '(r, c) := transform_physical_point_to_index trans_inv (v1 p) (v0 p) in
  V3 r c (v2 p).

(** dtm_intersection.py 144-156 [ters_to_indexs]. *)
Definition ters_to_indexs (trans_inv : affine) (l : list vec3) : list vec3 :=
  map (ter_to_index trans_inv) l.

(** dtm_intersection.py 158-169 [index_to_ter]: (row, col, z) -> (x, y, z). *)
Definition index_to_ter (t : affine) (p : vec3) : vec3 :=
  let '(y, x) := transform_index_to_physical_point t (v0 p) (v1 p) in
  V3 x y (v2 p).

(** The six numbers of the C++ [m_transform] / [m_trans_inv], in GDAL order
    (bindings/dtm_intersection.cpp 73, 84-90). *)
Record gdal6 := G6 { g0 : R; g1 : R; g2 : R; g3 : R; g4 : R; g5 : R }.

(** The Python object built from the same six numbers (dtm_intersection.py 108-109). *)
Definition affine_of_gdal (g : gdal6) : affine :=
  from_gdal (g0 g) (g1 g) (g2 g) (g3 g) (g4 g) (g5 g).

(** bindings/dtm_intersection.cpp 75-91: the inverse transform. *)
Definition cpp_trans_inv (t : gdal6) : gdal6 :=
  let idet := 1 / (g1 t * g5 t - g2 t * g4 t) in
  let ra := g5 t * idet in
  let rb := - g2 t * idet in
  let rd := - g4 t * idet in
  let re := g1 t * idet in
  G6 (- g0 t * ra - g3 t * rb) ra rb (- g0 t * rd - g3 t * re) rd re.

(** bindings/dtm_intersection.cpp 105-117 [ter_to_index]. *)
Definition cpp_ter_to_index (trans_inv : gdal6) (p : vec3) : vec3 :=
  let vx := v0 p in
  let vy := v1 p in
  V3 ((vx * g4 trans_inv + vy * g5 trans_inv + g3 trans_inv) - 1 / 2)
     ((vx * g1 trans_inv + vy * g2 trans_inv + g0 trans_inv) - 1 / 2)
     (v2 p).

(** bindings/dtm_intersection.cpp 119-132 [index_to_ter]. *)
Definition cpp_index_to_ter (t : gdal6) (p : vec3) : vec3 :=
  let vx := v1 p + 1 / 2 in
  let vy := v0 p + 1 / 2 in
  V3 (vx * g1 t + vy * g2 t + g0 t) (vx * g4 t + vy * g5 t + g3 t) (v2 p).

(** dtm_intersection.py 171-183 [get_footprint_corners]: (row, col) of the outer corners, from
    the top left one, clockwise. *)
Definition get_footprint_corners (nb_rows nb_columns : Z) : list (R * R) :=
  map (fun p => (fst p - 1 / 2, snd p - 1 / 2))
      [(0, 0); (0, IZR nb_columns); (IZR nb_rows, IZR nb_columns); (IZR nb_rows, 0)].

(** bindings/dtm_intersection.cpp 134-142 [get_footprint_corners]. *)
Definition cpp_get_footprint_corners (nb_rows nb_columns : Z) : list (R * R) :=
  [(-1 / 2, -1 / 2); (-1 / 2, IZR nb_columns - 1 / 2);
   (IZR nb_rows - 1 / 2, IZR nb_columns - 1 / 2); (IZR nb_rows - 1 / 2, -1 / 2)].

(** A row (lon, lat, h) of an (N,3) float array. *)
Record row3 := R3 { lon3 : num; lat3 : num; alt3 : num }.
Definition nan3 : row3 := R3 nan nan nan.

(** geomodel_template.py 111-124 [check_lonlat]: the [filtering] mask of one row ... *)
Definition lonlat_filtering (p : row3) : bool :=
  (ngtb (nabs (lon3 p)) (fin 180) || ngtb (nabs (lat3 p)) (fin 90))
  || (isnan (lon3 p) || isnan (lat3 p) || isnan (alt3 p)).

(** ... and the masked assignment on the whole array. *)
Definition check_lonlat (a : list row3) : list row3 :=
  map (fun p => if lonlat_filtering p then nan3 else p) a.
