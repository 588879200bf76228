(** Model of the C++ class DTMIntersection as an object with members, and of its pickling
    ([shareloc/bindings/bind.cpp] 82-129). *)
From Coq Require Import Reals ZArith List Bool.
From Verif Require Import Num InterpModel ProjModel DtmModel CppDtmModel.
Import ListNotations.
Open Scope R_scope.

(** dtm_intersection.hpp 170-203: the members.  The arrays of six are lists. *)
Record dtm_object := mkObj {
  m_alt_data : list R; m_alt_min : R; m_alt_max : R;
  m_plane_coef_a : list R; m_plane_coef_b : list R; m_plane_coef_c : list R; m_plane_coef_d : list R;
  m_alt_min_cell : list R; m_alt_max_cell : list R; m_tol_z : R; m_epsg : Z; m_plans : list R;
  m_trans_inv : list R; m_transform : list R; m_nb_rows : Z; m_nb_columns : Z }.

Definition array_of_gdal (g : gdal6) : list R := [g0 g; g1 g; g2 g; g3 g; g4 g; g5 g].
Definition gdal_of_array (l : list R) : gdal6 :=
  G6 (nth 0 l 0) (nth 1 l 0) (nth 2 l 0) (nth 3 l 0) (nth 4 l 0) (nth 5 l 0).

(** dtm_intersection.cpp 31-93: the constructor. *)
Definition dtm_construct (epsg : Z) (alt_data : list R) (nb_rows nb_columns : Z) (tr : gdal6) : dtm_object :=
  let lo := list_min alt_data in
  let hi := list_max alt_data in
  mkObj alt_data lo hi [1; 1; 0; 0; 0; 0] [0; 0; 1; 1; 0; 0] [0; 0; 0; 0; 1; 1]
    [0; IZR nb_rows - 1; 0; IZR nb_columns - 1; lo; hi]
    (cpp_alt_min_cell alt_data nb_rows nb_columns) (cpp_alt_max_cell alt_data nb_rows nb_columns)
    (1 / 10000) epsg
    [1; 0; 0; 0; 1; 0; 0; IZR nb_rows - 1; 0; 1; 0; 0; 0; 1; 0; IZR nb_columns - 1; 0; 0; 1; lo; 0; 0; 1; hi]
    (array_of_gdal (cpp_trans_inv tr)) (array_of_gdal tr) nb_rows nb_columns.

(** The members the methods of the class read (the record of CppDtmModel). *)
Definition members (o : dtm_object) : cpp_dtm :=
  mkCpp (m_alt_data o) (m_nb_rows o) (m_nb_columns o) (gdal_of_array (m_transform o)) (gdal_of_array (m_trans_inv o))
    (m_alt_min_cell o) (m_alt_max_cell o) (m_plane_coef_d o).

(** Python values of the state tuple: numbers and lists of numbers. *)
Inductive pyval := PFloat (x : R) | PInt (z : Z) | PList (l : list pyval).

(** pybind11 casts used in bind.cpp 112-127: [cast<double>] takes a float or an int, [cast<int>] an int only,
    [cast<vector<double>>] a sequence of numbers, [cast<array<double, 6>>] such a sequence of six numbers
    ([None]: py::cast_error). *)
Definition cast_double (v : pyval) : option R :=
  match v with PFloat x => Some x | PInt z => Some (IZR z) | PList _ => None end.
Definition cast_int (v : pyval) : option Z := match v with PInt z => Some z | _ => None end.
Definition cast_vector (v : pyval) : option (list R) :=
  match v with PList l => seq_opt (map cast_double l) | _ => None end.
Definition cast_array6 (v : pyval) : option (list R) :=
  match cast_vector v with Some l => if (length l =? 6)%nat then Some l else None | None => None end.

(** bind.cpp 83-103 [__getstate__], with the getters of dtm_intersection.hpp 99-130. *)
Definition py_vector (l : list R) : pyval := PList (map PFloat l).
Definition getstate (p : dtm_object) : list pyval :=
  [py_vector (m_alt_data p); PFloat (m_alt_min p); PFloat (m_alt_max p);
   py_vector (m_plane_coef_a p); py_vector (m_plane_coef_b p); py_vector (m_plane_coef_c p); py_vector (m_plane_coef_d p);
   py_vector (m_alt_min_cell p); py_vector (m_alt_max_cell p); PFloat (m_tol_z p); PInt (m_epsg p);
   py_vector (m_plans p); py_vector (m_trans_inv p); py_vector (m_transform p);
   PInt (m_nb_rows p); PInt (m_nb_columns p)].

(** The setters of dtm_intersection.hpp 135-165. *)
Definition set_alt_data v p := mkObj v (m_alt_min p) (m_alt_max p) (m_plane_coef_a p) (m_plane_coef_b p) (m_plane_coef_c p) (m_plane_coef_d p) (m_alt_min_cell p) (m_alt_max_cell p) (m_tol_z p) (m_epsg p) (m_plans p) (m_trans_inv p) (m_transform p) (m_nb_rows p) (m_nb_columns p).
Definition set_alt_min v p := mkObj (m_alt_data p) v (m_alt_max p) (m_plane_coef_a p) (m_plane_coef_b p) (m_plane_coef_c p) (m_plane_coef_d p) (m_alt_min_cell p) (m_alt_max_cell p) (m_tol_z p) (m_epsg p) (m_plans p) (m_trans_inv p) (m_transform p) (m_nb_rows p) (m_nb_columns p).
Definition set_alt_max v p := mkObj (m_alt_data p) (m_alt_min p) v (m_plane_coef_a p) (m_plane_coef_b p) (m_plane_coef_c p) (m_plane_coef_d p) (m_alt_min_cell p) (m_alt_max_cell p) (m_tol_z p) (m_epsg p) (m_plans p) (m_trans_inv p) (m_transform p) (m_nb_rows p) (m_nb_columns p).
Definition set_plane_coef_a v p := mkObj (m_alt_data p) (m_alt_min p) (m_alt_max p) v (m_plane_coef_b p) (m_plane_coef_c p) (m_plane_coef_d p) (m_alt_min_cell p) (m_alt_max_cell p) (m_tol_z p) (m_epsg p) (m_plans p) (m_trans_inv p) (m_transform p) (m_nb_rows p) (m_nb_columns p).
Definition set_plane_coef_b v p := mkObj (m_alt_data p) (m_alt_min p) (m_alt_max p) (m_plane_coef_a p) v (m_plane_coef_c p) (m_plane_coef_d p) (m_alt_min_cell p) (m_alt_max_cell p) (m_tol_z p) (m_epsg p) (m_plans p) (m_trans_inv p) (m_transform p) (m_nb_rows p) (m_nb_columns p).
Definition set_plane_coef_c v p := mkObj (m_alt_data p) (m_alt_min p) (m_alt_max p) (m_plane_coef_a p) (m_plane_coef_b p) v (m_plane_coef_d p) (m_alt_min_cell p) (m_alt_max_cell p) (m_tol_z p) (m_epsg p) (m_plans p) (m_trans_inv p) (m_transform p) (m_nb_rows p) (m_nb_columns p).
Definition set_plane_coef_d v p := mkObj (m_alt_data p) (m_alt_min p) (m_alt_max p) (m_plane_coef_a p) (m_plane_coef_b p) (m_plane_coef_c p) v (m_alt_min_cell p) (m_alt_max_cell p) (m_tol_z p) (m_epsg p) (m_plans p) (m_trans_inv p) (m_transform p) (m_nb_rows p) (m_nb_columns p).
Definition set_alt_min_cell v p := mkObj (m_alt_data p) (m_alt_min p) (m_alt_max p) (m_plane_coef_a p) (m_plane_coef_b p) (m_plane_coef_c p) (m_plane_coef_d p) v (m_alt_max_cell p) (m_tol_z p) (m_epsg p) (m_plans p) (m_trans_inv p) (m_transform p) (m_nb_rows p) (m_nb_columns p).
Definition set_alt_max_cell v p := mkObj (m_alt_data p) (m_alt_min p) (m_alt_max p) (m_plane_coef_a p) (m_plane_coef_b p) (m_plane_coef_c p) (m_plane_coef_d p) (m_alt_min_cell p) v (m_tol_z p) (m_epsg p) (m_plans p) (m_trans_inv p) (m_transform p) (m_nb_rows p) (m_nb_columns p).
Definition set_tol_z v p := mkObj (m_alt_data p) (m_alt_min p) (m_alt_max p) (m_plane_coef_a p) (m_plane_coef_b p) (m_plane_coef_c p) (m_plane_coef_d p) (m_alt_min_cell p) (m_alt_max_cell p) v (m_epsg p) (m_plans p) (m_trans_inv p) (m_transform p) (m_nb_rows p) (m_nb_columns p).
Definition set_epsg v p := mkObj (m_alt_data p) (m_alt_min p) (m_alt_max p) (m_plane_coef_a p) (m_plane_coef_b p) (m_plane_coef_c p) (m_plane_coef_d p) (m_alt_min_cell p) (m_alt_max_cell p) (m_tol_z p) v (m_plans p) (m_trans_inv p) (m_transform p) (m_nb_rows p) (m_nb_columns p).
Definition set_plans v p := mkObj (m_alt_data p) (m_alt_min p) (m_alt_max p) (m_plane_coef_a p) (m_plane_coef_b p) (m_plane_coef_c p) (m_plane_coef_d p) (m_alt_min_cell p) (m_alt_max_cell p) (m_tol_z p) (m_epsg p) v (m_trans_inv p) (m_transform p) (m_nb_rows p) (m_nb_columns p).
Definition set_trans_inv v p := mkObj (m_alt_data p) (m_alt_min p) (m_alt_max p) (m_plane_coef_a p) (m_plane_coef_b p) (m_plane_coef_c p) (m_plane_coef_d p) (m_alt_min_cell p) (m_alt_max_cell p) (m_tol_z p) (m_epsg p) (m_plans p) v (m_transform p) (m_nb_rows p) (m_nb_columns p).
Definition set_transform v p := mkObj (m_alt_data p) (m_alt_min p) (m_alt_max p) (m_plane_coef_a p) (m_plane_coef_b p) (m_plane_coef_c p) (m_plane_coef_d p) (m_alt_min_cell p) (m_alt_max_cell p) (m_tol_z p) (m_epsg p) (m_plans p) (m_trans_inv p) v (m_nb_rows p) (m_nb_columns p).
Definition set_nb_rows v p := mkObj (m_alt_data p) (m_alt_min p) (m_alt_max p) (m_plane_coef_a p) (m_plane_coef_b p) (m_plane_coef_c p) (m_plane_coef_d p) (m_alt_min_cell p) (m_alt_max_cell p) (m_tol_z p) (m_epsg p) (m_plans p) (m_trans_inv p) (m_transform p) v (m_nb_columns p).
Definition set_nb_columns v p := mkObj (m_alt_data p) (m_alt_min p) (m_alt_max p) (m_plane_coef_a p) (m_plane_coef_b p) (m_plane_coef_c p) (m_plane_coef_d p) (m_alt_min_cell p) (m_alt_max_cell p) (m_tol_z p) (m_epsg p) (m_plans p) (m_trans_inv p) (m_transform p) (m_nb_rows p) v.

(** One assignment of bind.cpp 112-127: read an element of the tuple, cast it, set the member. *)
Definition assign {A} (cast : pyval -> option A) (set : A -> dtm_object -> dtm_object) (t : list pyval) (i : nat)
  (p : option dtm_object) : option dtm_object :=
  match p, nth_error t i with
  | Some p, Some v => match cast v with Some x => Some (set x p) | None => None end
  | _, _ => None
  end.

(** bind.cpp 104-129 [__setstate__].  [p] is the object of line 109, whose members are not initialised:
    an arbitrary object.  [None]: runtime_error or py::cast_error. *)
Definition setstate (p : dtm_object) (t : list pyval) : option dtm_object :=
  if negb (length t =? 16)%nat then None
  else
    assign cast_int set_nb_columns t 15
    (assign cast_int set_nb_rows t 14
    (assign cast_array6 set_transform t 13
    (assign cast_array6 set_trans_inv t 12
    (assign cast_vector set_plans t 11
    (assign cast_int set_epsg t 10
    (assign cast_double set_tol_z t 9
    (assign cast_vector set_alt_max_cell t 8
    (assign cast_vector set_alt_min_cell t 7
    (assign cast_array6 set_plane_coef_d t 6
    (assign cast_array6 set_plane_coef_c t 5
    (assign cast_array6 set_plane_coef_b t 4
    (assign cast_array6 set_plane_coef_a t 3
    (assign cast_double set_alt_max t 2
    (assign cast_double set_alt_min t 1
    (assign cast_vector set_alt_data t 0 (Some p)))))))))))))))).
