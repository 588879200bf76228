(** Model of the memory accesses of [shareloc/bindings/dtm_intersection.cpp]: every access to a buffer at a
    computed index is checked. *)
From Coq Require Import Reals ZArith List Bool.
From Verif Require Import Num InterpModel ProjModel DtmModel CppDtmModel.
Import ListNotations.
Open Scope R_scope.

(** What a call does: it returns, throws an exception, has an undefined behaviour (an access outside of a
    buffer, the conversion to an integer of a double that has no such integer), or does not end (within the
    given number of iterations). *)
Inductive mem (A : Type) := Ran (x : A) | Threw | Undefined | Hangs.
Arguments Ran {A}. Arguments Threw {A}. Arguments Undefined {A}. Arguments Hangs {A}.
Definition bind {A B} (m : mem A) (f : A -> mem B) : mem B :=
  match m with Ran x => f x | Threw => Threw | Undefined => Undefined | Hangs => Hangs end.
Notation "'let*' x ':=' m 'in' k" := (bind m (fun x => k)) (at level 200, x binder, right associativity).

(** [operator[]] of a [std::vector], a [std::array] or a buffer. *)
Definition read {A} (v : list A) (i : Z) : mem A :=
  if (i <? 0)%Z then Undefined
  else match nth_error v (Z.to_nat i) with Some x => Ran x | None => Undefined end.
Definition write {A} (v : list A) (i : Z) (x : A) : mem (list A) :=
  if ((0 <=? i) && (i <? Z.of_nat (length v)))%Z
  then Ran (firstn (Z.to_nat i) v ++ x :: skipn (S (Z.to_nat i)) v) else Undefined.

(** dtm_intersection.cpp 939-957 [init_min_max]: the loop over the columns of one row of cells. *)
Fixpoint mem_min_max_cols (data : list R) (nc i : Z) (n : nat) (j : Z) (lo hi : list R) : mem (list R * list R) :=
  match n with
  | O => Ran (lo, hi)
  | S n =>
      let* a := read data (nc * i + j) in
      let* b := read data (nc * (i + 1) + j) in
      let* c := read data (nc * i + (j + 1)) in
      let* d := read data (nc * (i + 1) + (j + 1)) in
      let* lo := write lo ((nc - 1) * i + j) (IZR (Rfloor (Rmin (Rmin (Rmin a b) c) d))) in
      let* hi := write hi ((nc - 1) * i + j) (IZR (Rceil (Rmax (Rmax (Rmax a b) c) d))) in
      mem_min_max_cols data nc i n (j + 1) lo hi
  end.
(** dtm_intersection.cpp 938: the loop over the rows. *)
Fixpoint mem_min_max_rows (data : list R) (nc : Z) (n : nat) (i : Z) (lo hi : list R) : mem (list R * list R) :=
  match n with
  | O => Ran (lo, hi)
  | S n =>
      let* r := mem_min_max_cols data nc i (Z.to_nat (nc - 1)) 0 lo hi in
      mem_min_max_rows data nc n (i + 1) (fst r) (snd r)
  end.
(** dtm_intersection.cpp 931-960 [init_min_max]; a negative size is a [length_error]. *)
Definition mem_init_min_max (data : list R) (nr nc : Z) : mem (list R * list R) :=
  let size := ((nr - 1) * (nc - 1))%Z in
  if (size <? 0)%Z then Threw
  else mem_min_max_rows data nc (Z.to_nat (nr - 1)) 0 (repeat 0 (Z.to_nat size)) (repeat 0 (Z.to_nat size)).

(** dtm_intersection.cpp 30-93: the constructor.  [*min_element] of an empty table is a read outside. *)
Definition mem_make (data : list R) (nr nc : Z) (tr : gdal6) : mem cpp_dtm :=
  let* cells := mem_init_min_max data nr nc in
  match data with
  | [] => Undefined
  | _ => Ran (mkCpp data nr nc tr (cpp_trans_inv tr) (fst cells) (snd cells)
                [0; IZR nr - 1; 0; IZR nc - 1; list_min data; list_max data])
  end.

(** dtm_intersection.cpp 144-183. *)
Definition mem_itp (c : cpp_dtm) (x y : R) : mem R :=
  match cpp_interpolate (cd_alt c) (cd_rows c) (cd_cols c) x y with Some v => Ran v | None => Undefined end.

(** dtm_intersection.cpp 95-103 [eq_plan]. *)
Definition mem_eq_plan (c : cpp_dtm) (i : Z) (p : vec3) : mem R :=
  let* ka := read plane_coef_a i in
  let* kb := read plane_coef_b i in
  let* kc := read plane_coef_c i in
  let* kd := read (cd_d c) i in
  Ran (ka * v0 p + kb * v1 p + kc * v2 p - kd).

(** dtm_intersection.cpp 275-325. *)
Definition mem_plane_crossing (c : cpp_dtm) (i : Z) (a b : vec3) (la lb : R) (layer : Z) : mem crossing :=
  if Reqb la 0 then Ran (Cr (v0 a) (v1 a) (v2 a) (IZR layer - 1))
  else if Reqb lb 0 then Ran (Cr (v0 b) (v1 b) (v2 b) (IZR layer))
  else
    let interp_coef_a := lb / (lb - la) in
    let interp_coef_b := - la / (lb - la) in
    let* col := if (i <? 2)%Z then read (cd_d c) i else Ran (interp_coef_a * v0 a + interp_coef_b * v0 b) in
    let* row := if ((1 <? i) && (i <? 4))%Z then read (cd_d c) i
                else Ran (interp_coef_a * v1 a + interp_coef_b * v1 b) in
    let* alt := if (3 <? i)%Z then read (cd_d c) i else Ran (interp_coef_a * v2 a + interp_coef_b * v2 b) in
    Ran (Cr col row alt (IZR layer - interp_coef_a)).

(** dtm_intersection.cpp 253-335: the loop over the vertices.  The three vectors of coordinates, always of
    the same size, are one vector of points. *)
Fixpoint mem_plane_scan (c : cpp_dtm) (i : Z) (los : list vec3) (n : nat) (layer : Z) (a : vec3) (la : R)
  : mem (option crossing) :=
  match n with
  | O => Ran None
  | S n =>
      let* b := read los layer in
      let* lb := mem_eq_plan c i b in
      if Rleb (la * lb) 0 then
        if Reqb la 0 && Reqb lb 0 then Threw
        else let* x := mem_plane_crossing c i a b la lb layer in Ran (Some x)
      else mem_plane_scan c i los n (layer + 1) b lb
  end.
(** dtm_intersection.cpp 234-337: the loop over the planes; the vectors of the crossings and [nbi]. *)
Fixpoint mem_scan_planes (c : cpp_dtm) (los : list vec3) (n : nat) (i : Z) (found : list crossing) (nbi : Z)
  : mem (list crossing * Z) :=
  match n with
  | O => Ran (found, nbi)
  | S n =>
      let* a := read los 0 in
      let* la := mem_eq_plan c i a in
      let* r := mem_plane_scan c i los (length los) 0 a la in
      match r with
      | Some x => mem_scan_planes c los n (i + 1) (found ++ [x]) (nbi + 1)
      | None => mem_scan_planes c los n (i + 1) found nbi
      end
  end.

(** dtm_intersection.cpp 344-363: the inner loop of the sort.  The four vectors are one vector of crossings. *)
Fixpoint mem_sort_inner (n : nat) (k next : Z) (v : list crossing) : mem (list crossing) :=
  match n with
  | O => Ran v
  | S n =>
      let* x := read v k in
      let* y := read v next in
      if Rltb (cr_h y) (cr_h x) then
        let* v := write v k y in
        let* v := write v next x in
        mem_sort_inner n k (next + 1) v
      else mem_sort_inner n k (next + 1) v
  end.
(** dtm_intersection.cpp 343. *)
Fixpoint mem_sort (n : nat) (k nbi : Z) (v : list crossing) : mem (list crossing) :=
  match n with
  | O => Ran v
  | S n =>
      let* v := mem_sort_inner (Z.to_nat (nbi - (k + 1))) k (k + 1) v in
      mem_sort n (k + 1) nbi v
  end.

(** dtm_intersection.cpp 382-389: the points after a rejected one are moved down. *)
Fixpoint mem_shift (n : nat) (next : Z) (v : list crossing) : mem (list crossing) :=
  match n with
  | O => Ran v
  | S n =>
      let* x := read v next in
      let* v := write v (next - 1) x in
      mem_shift n (next + 1) v
  end.
(** dtm_intersection.cpp 368-395; each turn lowers [nbi - alti_layer], at most [n]. *)
Fixpoint mem_filter (c : cpp_dtm) (n : nat) (k nbi : Z) (v : list crossing) : mem (list crossing * Z) :=
  if (k <? nbi)%Z then
    match n with
    | O => Hangs
    | S n =>
        let* x := read v k in
        if cpp_test_on_cube c x then mem_filter c n (k + 1) nbi v
        else
          let* v := mem_shift (Z.to_nat (nbi - (k + 1))) (k + 1) v in
          mem_filter c n k (nbi - 1) v
    end
  else Ran (v, nbi).

(** dtm_intersection.cpp 185-421 [intersect_dtm_cube], in the index frame. *)
Definition mem_cube (c : cpp_dtm) (los : list vec3) : mem (option (vec3 * R)) :=
  let* r := mem_scan_planes c los 6 0 [] 0 in
  let* v := mem_sort (Z.to_nat (snd r)) 0 (snd r) (fst r) in
  let* r := mem_filter c (Z.to_nat (snd r)) 0 (snd r) v in
  if (snd r <? 2)%Z then Ran None
  else
    let* x := read (fst r) 0 in
    Ran (Some (V3 (cr_col x) (cr_row x) (cr_alt x), cr_h x)).

(** dtm_intersection.cpp 839-879: the refinement.  A quotient 0 / 0 gives NaN positions, whose conversion to
    an index (lines 154, 167) is undefined; so is a quotient by zero when the segment is parallel to an axis
    (otherwise the positions are infinite, which is not distinguished here). *)
Fixpoint mem_refine (c : cpp_dtm) (n : nat) (p_1 : vec3) (alti_1 : R) (p_2 : vec3) (h_2 : R) : mem vec3 :=
  match n with
  | O => Hangs
  | S n =>
      let den := (h_2 - alti_1) - (v2 p_2 - v2 p_1) in
      if Reqb den 0 then Undefined
      else
        let c_h := (v2 p_1 - alti_1) / den in
        let p_a := V3 (v0 p_1 + c_h * (v0 p_2 - v0 p_1)) (v1 p_1 + c_h * (v1 p_2 - v1 p_1))
                      (v2 p_1 + c_h * (v2 p_2 - v2 p_1)) in
        let* z_v := mem_itp c (v0 p_a) (v1 p_a) in
        let d_2 := z_v - v2 p_a in
        if Rltb tol_z (Rabs d_2) then
          if Rltb d_2 0 then mem_refine c n p_a z_v p_2 h_2
          else mem_refine c n p_1 alti_1 p_a z_v
        else Ran p_a
  end.

(** dtm_intersection.cpp 545-891: the loop over the cells; a position, or the abscissa [a_2] at the end. *)
Inductive mem_cell := AtPoint (p : vec3) | AtAbscissa (a_2 : R).
Fixpoint mem_cell_loop (c : cpp_dtm) (s : segment) (fuel n : nat) (w : walk) : mem mem_cell :=
  if cpp_guard c w then
    match n with
    | O => Hangs
    | S n =>
        let k := (w_c w * (cd_cols c - 1) + w_r w)%Z in
        let* h_i := read (cd_min_cell c) k in
        let* h_s := read (cd_max_cell c) k in
        let p_1 := w_p w in
        let w' := mesh_move s w in
        let p_2 := w_p w' in
        if may_intersect h_i h_s (s_z0 s) (s_z1 s) (v2 p_1) (v2 p_2) then
          let* alti_1 := mem_itp c (v0 p_1) (v1 p_1) in
          let* h_2 := mem_itp c (v0 p_2) (v1 p_2) in
          if Rleb ((v2 p_1 - alti_1) * (v2 p_2 - h_2)) 0
          then let* p := mem_refine c fuel p_1 alti_1 p_2 h_2 in Ran (AtPoint p)
          else mem_cell_loop c s fuel n w'
        else mem_cell_loop c s fuel n w'
    end
  else Ran (AtAbscissa (w_a w)).

(** dtm_intersection.cpp 468-926: the loop over the vertices; [alti] is the vector of lines 433-434. *)
Fixpoint mem_vertex_loop (c : cpp_dtm) (los : list vec3) (alti : list R) (fuel steps : nat) (i_0 : Z) (p_2 : vec3) (h_2 : R)
  : mem (option vec3) :=
  if (i_0 <? Z.of_nat (length los) - 1)%Z then
    match steps with
    | O => Hangs
    | S steps =>
        let* a := read los i_0 in
        let* b := read los (i_0 + 1) in
        let s := segment_of a b in
        if Reqb (s_d0 s) 0 && Reqb (s_d1 s) 0 then
          let* alti_1 := mem_itp c (s_col0 s) (s_row0 s) in
          if Rleb (s_z1 s) alti_1 then Ran (Some (V3 (s_col0 s) (s_row0 s) alti_1))
          else mem_vertex_loop c los alti fuel steps (i_0 + 1) p_2 h_2
        else
          let a_2 := h_2 - IZR i_0 in
          let a_2 := if Rleb 1 a_2 then 0 else a_2 in
          let w := W a_2 (cpp_first_cell (v0 p_2) (s_d0 s)) (cpp_first_cell (v1 p_2) (s_d1 s)) p_2 in
          if cpp_guard c w then
            let* r := mem_cell_loop c s fuel fuel w in
            match r with
            | AtPoint p => Ran (Some p)
            | AtAbscissa a_2 =>
                if Rleb 1 a_2 then
                  let* p := read los (i_0 + 1) in
                  let* h := read alti (i_0 + 1) in
                  mem_vertex_loop c los alti fuel steps (i_0 + 1) p h
                else Ran None
            end
          else Ran None
    end
  else Ran None.

(** dtm_intersection.cpp 433-434. *)
Definition mem_alti (npl : nat) : list R := map INR (seq 0 (npl + 1)).
(** dtm_intersection.cpp 423-927 [intersection]; the conversion of a negative number to [size_t] (line 460)
    is undefined. *)
Definition mem_intersection (c : cpp_dtm) (fuel : nat) (los : list vec3) (point_b : vec3) (h : R) : mem (option vec3) :=
  let* alti_1 := mem_itp c (v0 point_b) (v1 point_b) in
  if Rltb (v2 point_b - alti_1) 0 then Ran None
  else if (Rfloor h <? 0)%Z then Undefined
  else mem_vertex_loop c los (mem_alti (length los)) fuel (S (length los)) (Rfloor h) point_b h.

(** One line of sight (dtm_intersection.cpp 1004-1020): [None] is a position that was never assigned. *)
Definition mem_one (c : cpp_dtm) (fuel : nat) (los : list vec3) : mem (option row3) :=
  let los_index := map (cpp_ter_to_index (cd_tr_inv c)) los in
  let* r := mem_cube c los_index in
  match r with
  | None => Ran (Some nan3)
  | Some (point_b, h) =>
      let* p := mem_intersection c fuel los_index point_b h in
      Ran (match p with Some p => Some (row_of_vec (cpp_index_to_ter (cd_tr c) p)) | None => None end)
  end.

(** dtm_intersection.cpp 998-1002: the vertices of the line of sight [i] of a buffer of the shape
    (., [nb_alt], [width]). *)
Fixpoint mem_vertices (buf : list R) (nb_alt width i : Z) (n : nat) (alt : Z) : mem (list vec3) :=
  match n with
  | O => Ran []
  | S n =>
      let* x := read buf (i * nb_alt * width + alt * width + 0) in
      let* y := read buf (i * nb_alt * width + alt * width + 1) in
      let* z := read buf (i * nb_alt * width + alt * width + 2) in
      let* l := mem_vertices buf nb_alt width i n (alt + 1) in
      Ran (V3 x y z :: l)
  end.
(** dtm_intersection.cpp 996-1020: the loop over the lines of sight; the three vectors of results are one
    vector of rows. *)
Fixpoint mem_lines (c : cpp_dtm) (fuel : nat) (buf : list R) (nb_alt width : Z) (n : nat) (i : Z) (res : list (option row3))
  : mem (list (option row3)) :=
  match n with
  | O => Ran res
  | S n =>
      let* los := mem_vertices buf nb_alt width i (Z.to_nat nb_alt) 0 in
      let* r := mem_one c fuel los in
      let* res := write res i r in
      mem_lines c fuel buf nb_alt width n (i + 1) res
  end.
(** A double that may have been left unassigned. *)
Definition cell_of (f : row3 -> num) (r : option row3) : option num := match r with Some p => Some (f p) | None => None end.
(** dtm_intersection.cpp 964-1039 [intersection_n_los_dtm]: the result is the buffer of the longitudes, the
    latitudes and the altitudes, seen as an array whose element (i, j) is at i + j * rows (lines 1032-1036). *)
Definition mem_intersection_n_los_dtm (c : cpp_dtm) (fuel : nat) (buf : list R) (nb_points nb_alt width : Z)
  : mem (list (option num)) :=
  let* res := mem_lines c fuel buf nb_alt width (Z.to_nat nb_points) 0 (repeat (Some (R3 (fin 0) (fin 0) (fin 0))) (Z.to_nat nb_points)) in
  Ran (map (cell_of lon3) res ++ map (cell_of lat3) res ++ map (cell_of alt3) res).
Definition mem_result_at (out : list (option num)) (nb_points i j : Z) : mem (option num) :=
  read out (i + j * nb_points).
