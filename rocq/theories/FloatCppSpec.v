(** Words of the statements about the two implementations of the DTM intersection in binary64 (C102). *)
From Coq Require Import ZArith Reals List.
From Flocq Require Import Core BinarySingleNaN.
From Verif Require Import FloatModel FloatInterpModel FloatWalkModel FloatGeoModel FloatTerModel FloatLineSpec FloatCppModel.
Open Scope R_scope.

(** The geotransform that Python reads from the six numbers of GDAL. *)
Definition python_transform (g : fgdal) : faffine := FAff (fg1 g) (fg2 g) (fg0 g) (fg4 g) (fg5 g) (fg3 g).
(** The object of C++ for the same DTM. *)
Definition cpp_object (m : fraster) (g : fgdal) : cdtm := c_make (fflatten m) (fr_rows m) (fr_cols m) g.
(** The vertices of a line of sight, in the frame of the indices. *)
Definition vertices (g : fgdal) (los : list fter) : list fvec3 := map (fter_to_index (faffine_invert (python_transform g))) los.
(** The position is in none of the planes of the six faces of the box of the DTM. *)
Definition off_the_faces (m : fraster) (p : fvec3) : Prop :=
  B2R (fv_row p) <> 0 /\ B2R (fv_row p) <> IZR (fr_rows m - 1) /\ B2R (fv_col p) <> 0 /\ B2R (fv_col p) <> IZR (fr_cols m - 1) /\
  forall r c, (0 <= r < fr_rows m)%Z -> (0 <= c < fr_cols m)%Z -> B2R (fv_alt p) <> B2R (fr_at m r c).
(** [p] is exactly on a line between two rows (two columns) of cells, and the segment from [a] to [b] goes towards smaller rows
    (columns). *)
Definition down_from_a_line (p a b : fvec3) : Prop :=
  ((exists k, B2R (fv_row p) = IZR k) /\ B2R (fv_row b) < B2R (fv_row a)) \/ ((exists k, B2R (fv_col p) = IZR k) /\ B2R (fv_col b) < B2R (fv_col a)).
(** No segment goes down from a line: neither from its first vertex nor from the entry in the box of the DTM. *)
Definition never_down_from_a_line (m : fraster) (los : list fvec3) : Prop :=
  forall i a b, segment_at los i a b -> ~ down_from_a_line a a b /\ forall p h, fintersect_dtm_cube m los = Some (p, h) -> ~ down_from_a_line p a b.
(** The same answer.  A missed surface is (0, 0, 0) in Python and an uninitialised point in C++. *)
Definition same_answer (py : fground) (cpp : cground) : Prop :=
  match py with
  | GPoint q => cpp = CPoint q
  | GNaN => cpp = CNaN
  | GNotFound => cpp = CUninitialised
  | GNoAnswer => cpp = CUndefined \/ cpp = CEndless
  end.
