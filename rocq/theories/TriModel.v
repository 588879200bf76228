(** Model of [shareloc/geomodels/los.py] and [shareloc/geofunctions/triangulation.py]. *)
From Coq Require Import Reals ZArith List Bool.
From Verif Require Import Num ProjModel RpcModel.
Import ListNotations.
Open Scope R_scope.

(** A 3x3 array. *)
Record mat3 (A : Type) := M33 {
  a00 : A; a01 : A; a02 : A; a10 : A; a11 : A; a12 : A; a20 : A; a21 : A; a22 : A }.
Arguments M33 {A}. Arguments a00 {A}. Arguments a01 {A}. Arguments a02 {A}. Arguments a10 {A}.
Arguments a11 {A}. Arguments a12 {A}. Arguments a20 {A}. Arguments a21 {A}. Arguments a22 {A}.

(** [np.nansum]: NaN counts for zero. *)
Definition nan_to_0 (a : num) : R := match a with Some x => x | None => 0 end.
Definition nansum (l : list num) : R := fold_right (fun a s => nan_to_0 a + s) 0 l.

(** ** los.py *)
(** los.py 89-99: one viewing vector from its two end points.  [np.linalg.norm] of a vector with a
    NaN is NaN; a null norm is replaced by NaN. *)
Definition nsqr (a : num) : num := nmul a a.
Definition vec_norm (v : row3) : num :=
  nlift1 sqrt (nadd (nadd (nsqr (lon3 v)) (nsqr (lat3 v))) (nsqr (alt3 v))).
Definition row_sub (p q : row3) : row3 :=
  R3 (nsub (lon3 p) (lon3 q)) (nsub (lat3 p) (lat3 q)) (nsub (alt3 p) (alt3 q)).
Definition viewing_vector (start bottom : row3) : row3 :=
  let vis := row_sub start bottom in
  let n := match vec_norm vis with
           | Some x => if Reqb x 0 then nan else Some x
           | None => nan
           end in
  R3 (ndiv (lon3 vis) n) (ndiv (lat3 vis) n) (ndiv (alt3 vis) n).

(** The attributes of a LOS object. *)
Record los := Los { starting_points : list row3; ending_points : list row3; viewing_vectors : list row3 }.

(** A geometric model as LOS uses it: [direct_loc_h row col alt fill_nan] ([None]: exception) and
    [get_alt_min_max]. *)
Record loc_model := LocModel {
  lm_direct : list num -> list num -> R -> bool -> option (list row3);
  lm_alt_min_max : R * R }.

(** los.py 75-82: rows 2i and 2i+1 of [los_extrema] receive the two localizations. *)
Fixpoint interleave {A} (a b : list A) : list A :=
  match a, b with x :: a, y :: b => x :: y :: interleave a b | _, _ => [] end.
(** [x[0::2]] and [x[1::2]]. *)
Fixpoint even_rows {A} (l : list A) : list A :=
  match l with [] => [] | [x] => [x] | x :: _ :: l => x :: even_rows l end.
Fixpoint odd_rows {A} (l : list A) : list A :=
  match l with x :: y :: l => y :: odd_rows l | _ => [] end.

(** los.py 36-57 (the constructor), 59-99 [los_creation], 102-137 (the fields of the result).  [positions] are the rows of [sensor_positions], first element
    column, second element row; [conv] is [coordinates_conversion] (external). *)
Definition los_creation (conv : Z -> Z -> list row3 -> list row3) (g : loc_model)
  (positions : list (num * num)) (alt_min_max : option (R * R)) (fill_nan : bool) : option los :=
  let '(alt_min, alt_max) := match alt_min_max with None => lm_alt_min_max g | Some mm => mm end in
  let list_col := map fst positions in
  let list_row := map snd positions in
  match lm_direct g list_row list_col alt_max fill_nan, lm_direct g list_row list_col alt_min fill_nan with
  | Some top, Some bottom =>
      let ecef_coord := conv 4326%Z 4978%Z (interleave top bottom) in
      let s := even_rows ecef_coord in
      let e := odd_rows ecef_coord in
      Some (Los s e (map2 viewing_vector s e))
  | _, _ => None
  end.

(** ** triangulation.py *)
(** triangulation.py 160-161: I - v v^T for one view. *)
Definition id_vivi (v : row3) : mat3 num :=
  let one := fin 1 in let zero := fin 0 in
  M33 (nsub one (nmul (lon3 v) (lon3 v))) (nsub zero (nmul (lon3 v) (lat3 v))) (nsub zero (nmul (lon3 v) (alt3 v)))
      (nsub zero (nmul (lat3 v) (lon3 v))) (nsub one (nmul (lat3 v) (lat3 v))) (nsub zero (nmul (lat3 v) (alt3 v)))
      (nsub zero (nmul (alt3 v) (lon3 v))) (nsub zero (nmul (alt3 v) (lat3 v))) (nsub one (nmul (alt3 v) (alt3 v))).

(** triangulation.py 162: the sum over the views. *)
Definition sum_id_vivi (vis : list row3) : mat3 R :=
  let s (f : mat3 num -> num) := nansum (map (fun v => f (id_vivi v)) vis) in
  M33 (s a00) (s a01) (s a02) (s a10) (s a11) (s a12) (s a20) (s a21) (s a22).

(** triangulation.py 164: (I - v v^T) s for one view. *)
Definition id_vivi_si (s v : row3) : vec3 :=
  let m := id_vivi v in
  V3 (nansum [nmul (a00 m) (lon3 s); nmul (a01 m) (lat3 s); nmul (a02 m) (alt3 s)])
     (nansum [nmul (a10 m) (lon3 s); nmul (a11 m) (lat3 s); nmul (a12 m) (alt3 s)])
     (nansum [nmul (a20 m) (lon3 s); nmul (a21 m) (lat3 s); nmul (a22 m) (alt3 s)]).
(** triangulation.py 165. *)
Definition sum_id_vivi_si (sis vis : list row3) : vec3 :=
  let l := map2 id_vivi_si sis vis in
  V3 (fold_right Rplus 0 (map v0 l)) (fold_right Rplus 0 (map v1 l)) (fold_right Rplus 0 (map v2 l)).

(** [np.linalg.inv] on a 3x3 array: the inverse matrix, [None] (LinAlgError) when it is singular. *)
Definition det3 (m : mat3 R) : R :=
  a00 m * (a11 m * a22 m - a12 m * a21 m) - a01 m * (a10 m * a22 m - a12 m * a20 m)
  + a02 m * (a10 m * a21 m - a11 m * a20 m).
Definition inv3 (m : mat3 R) : option (mat3 R) :=
  let d := det3 m in
  if Reqb d 0 then None
  else Some (M33
    ((a11 m * a22 m - a12 m * a21 m) / d) ((a02 m * a21 m - a01 m * a22 m) / d) ((a01 m * a12 m - a02 m * a11 m) / d)
    ((a12 m * a20 m - a10 m * a22 m) / d) ((a00 m * a22 m - a02 m * a20 m) / d) ((a02 m * a10 m - a00 m * a12 m) / d)
    ((a10 m * a21 m - a11 m * a20 m) / d) ((a01 m * a20 m - a00 m * a21 m) / d) ((a00 m * a11 m - a01 m * a10 m) / d)).

(** triangulation.py 168: the rows of the matrix multiplied by the vector and summed. *)
Definition mat_vec (m : mat3 R) (v : vec3) : vec3 :=
  V3 (a00 m * v0 v + (a01 m * v1 v + (a02 m * v2 v + 0)))
     (a10 m * v0 v + (a11 m * v1 v + (a12 m * v2 v + 0)))
     (a20 m * v0 v + (a21 m * v1 v + (a22 m * v2 v + 0))).

(** triangulation.py 152-169 [n_view_triangulation], one point: its views. *)
Definition triangulate (sis vis : list row3) : option vec3 :=
  match inv3 (sum_id_vivi vis) with
  | Some m => Some (mat_vec m (sum_id_vivi_si sis vis))
  | None => None
  end.
(** ... and all the points: [np.linalg.inv] fails for the whole array. *)
Definition n_view_triangulation (sis vis : list (list row3)) : option (list vec3) :=
  seq_opt (map2 triangulate sis vis).

(** triangulation.py 128-149 [los_triangulation].  [None]: exception (LinAlgError, or arrays of
    different lengths). *)
Definition finite3 (p : row3) : bool := negb (isnan (lon3 p) || isnan (lat3 p) || isnan (alt3 p)).
Definition row_of_point (p : vec3) : row3 := R3 (Some (v0 p)) (Some (v1 p)) (Some (v2 p)).
Definition los_triangulation (left_los right_los : los) : option (list row3) :=
  if Nat.eqb (length (viewing_vectors left_los)) (length (viewing_vectors right_los))
     && Nat.eqb (length (starting_points left_los)) (length (starting_points right_los)) then
    let vis := map2 (fun a b => [a; b]) (viewing_vectors left_los) (viewing_vectors right_los) in
    let sis := map2 (fun a b => [a; b]) (starting_points left_los) (starting_points right_los) in
    let filtering := map2 (fun s v => forallb finite3 s && forallb finite3 v) sis vis in
    let results := map (fun _ => nan3) vis in
    if existsb (fun b => b) filtering then
      match n_view_triangulation (gather filtering sis) (gather filtering vis) with
      | Some l => Some (scatter filtering results (map row_of_point l))
      | None => None
      end
    else Some results
  else None.

(** [np.cross]. *)
Definition ncross (a b : row3) : row3 :=
  R3 (nsub (nmul (lat3 a) (alt3 b)) (nmul (alt3 a) (lat3 b)))
     (nsub (nmul (alt3 a) (lon3 b)) (nmul (lon3 a) (alt3 b)))
     (nsub (nmul (lon3 a) (lat3 b)) (nmul (lat3 a) (lon3 b))).
(** triangulation.py 111-125 [n_view_distance]: one point and its views; all the points. *)
Definition point_distances (sis vis : list row3) (p : row3) : list num :=
  map2 (fun s v => vec_norm (ncross (row_sub p s) v)) sis vis.
Fixpoint zip3r (sis vis : list (list row3)) (points : list row3) : list (list num) :=
  match sis, vis, points with
  | s :: sis, v :: vis, p :: points => point_distances s v p :: zip3r sis vis points
  | _, _, _ => []
  end.
Definition n_view_distance (sis vis : list (list row3)) (points : list row3) : list (list num) :=
  zip3r sis vis points.
(** triangulation.py 91-108 [distance_point_los]. *)
Definition distance_point_los (l : los) (points : list row3) : list (list num) :=
  n_view_distance (map (fun s => [s]) (starting_points l)) (map (fun v => [v]) (viewing_vectors l)) points.

(** A match in sensor coordinates: a row of [matches]. *)
Record smatch := Match { m_left : num * num; m_right : num * num }.

(** triangulation.py 33-88 [sensor_triangulation]: the points in ECEF, in WGS84, and the residues
    ([None]: not asked for). *)
Definition sensor_triangulation (conv : Z -> Z -> list row3 -> list row3) (gl gr : loc_model)
  (matches : list smatch) (left_min_max right_min_max : option (R * R)) (residues fill_nan : bool)
  : option (list row3 * list row3 * option (list (list num))) :=
  match los_creation conv gl (map m_left matches) left_min_max fill_nan,
        los_creation conv gr (map m_right matches) right_min_max fill_nan with
  | Some left_los, Some right_los =>
      match los_triangulation left_los right_los with
      | Some ecef =>
          Some (ecef, conv 4978%Z 4326%Z ecef,
                if residues then Some (distance_point_los left_los ecef) else None)
      | None => None
      end
  | _, _ => None
  end.

(** triangulation.py 172-196 [transform_disp_to_matches].  The disparity map has the coordinates
    [rows] and [cols] and the values [disp] (an array of as many lines as [rows]); [mask] has the
    same shape.  Boolean indexing and [flatten] are in row-major order. *)
Definition meshgrid_col (rows cols : list R) : list (list R) := map (fun _ => cols) rows.
Definition meshgrid_row (rows cols : list R) : list (list R) := map (fun r => map (fun _ => r) cols) rows.
Definition transform_disp_to_matches (rows cols : list R) (disp : list (list num)) (mask : option (list (list R)))
  : list (num * num) * list (num * num) * list bool :=
  let col := concat (meshgrid_col rows cols) in
  let row := concat (meshgrid_row rows cols) in
  let disp_array := concat disp in
  let '(values_ok, col, row, disp_array) :=
    match mask with
    | Some mask =>
        let ok := map (fun v => Rltb 0 v) (concat mask) in
        (ok, gather ok col, gather ok row, gather ok disp_array)
    | None => (map (fun _ => true) disp_array, col, row, disp_array)
    end in
  (map2 (fun c r => (fin c, fin r)) col row,
   map2 (fun c r => (c, r)) (map2 (fun c d => nadd (fin c) d) col disp_array) (map fin row),
   values_ok).

(** The matches given to [epipolar_triangulation]. *)
Inductive ematches :=
| Sift (left right : list (num * num))
| Disp (rows cols : list R) (disp : list (list num)) (mask : option (list (list R)))
| OtherType.

(** triangulation.py 201-276 [epipolar_triangulation].  [interp_left], [interp_right] are the
    [interpolate] methods of the rectification grids.  The masked assignments start from zeros; the
    assignment of the residues that were not computed (None) gives NaN. *)
Definition zero3 : row3 := R3 (fin 0) (fin 0) (fin 0).
Definition epipolar_triangulation (conv : Z -> Z -> list row3 -> list row3) (gl gr : loc_model)
  (interp_left interp_right : list (num * num) -> list (num * num))
  (matches : ematches) (left_min_max right_min_max : option (R * R)) (residues fill_nan : bool)
  : option (list row3 * list row3 * list (list num)) :=
  let go (epi_left epi_right : list (num * num)) (values_ok : list bool) :=
    let matches_sensor := map2 Match (interp_left epi_left) (interp_right epi_right) in
    match sensor_triangulation conv gl gr matches_sensor left_min_max right_min_max residues fill_nan with
    | None => None
    | Some (ecef, wgs84, res) =>
        let zeros := map (fun _ => zero3) values_ok in
        let res := match res with Some r => r | None => map (fun _ => [nan]) ecef end in
        Some (scatter values_ok zeros ecef, scatter values_ok zeros wgs84,
              scatter values_ok (map (fun _ => [fin 0]) values_ok) res)
    end in
  match matches with
  | Sift l r => go l r (map (fun _ => true) l)
  | Disp rows cols disp mask =>
      let '(l, r, ok) := transform_disp_to_matches rows cols disp mask in go l r ok
  | OtherType => None
  end.
