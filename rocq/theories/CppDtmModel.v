(** Model of [shareloc/bindings/dtm_intersection.cpp]. *)
From Coq Require Import Reals ZArith List Bool.
From Verif Require Import Num InterpModel ProjModel DtmModel.
Import ListNotations.
Open Scope R_scope.

(** dtm_intersection.cpp 931-960 [init_min_max]: the two row-major tables of one value per cell. *)
Definition cpp_alt (alt_data : list R) (k : Z) : R :=
  match vec_get alt_data k with Some v => v | None => 0 end.
Definition cpp_cells {A} (f : Z -> Z -> A) (nb_rows nb_columns : Z) : list A :=
  flat_map (fun i => map (fun j => f (Z.of_nat i) (Z.of_nat j)) (seq 0 (Z.to_nat (nb_columns - 1))))
           (seq 0 (Z.to_nat (nb_rows - 1))).
Definition cpp_alt_min_cell (alt_data : list R) (nb_rows nb_columns : Z) : list R :=
  cpp_cells (fun i j =>
    IZR (Rfloor (Rmin (Rmin (Rmin (cpp_alt alt_data (nb_columns * i + j))
                                  (cpp_alt alt_data (nb_columns * (i + 1) + j)))
                            (cpp_alt alt_data (nb_columns * i + (j + 1))))
                      (cpp_alt alt_data (nb_columns * (i + 1) + (j + 1)))))) nb_rows nb_columns.
Definition cpp_alt_max_cell (alt_data : list R) (nb_rows nb_columns : Z) : list R :=
  cpp_cells (fun i j =>
    IZR (Rceil (Rmax (Rmax (Rmax (cpp_alt alt_data (nb_columns * i + j))
                                 (cpp_alt alt_data (nb_columns * (i + 1) + j)))
                           (cpp_alt alt_data (nb_columns * i + (j + 1))))
                     (cpp_alt alt_data (nb_columns * (i + 1) + (j + 1)))))) nb_rows nb_columns.

(** dtm_intersection.cpp 30-93: the object. *)
Record cpp_dtm := mkCpp {
  cd_alt : list R; cd_rows : Z; cd_cols : Z; cd_tr : gdal6; cd_tr_inv : gdal6;
  cd_min_cell : list R; cd_max_cell : list R; cd_d : list R }.
Definition cpp_make (alt_data : list R) (nb_rows nb_columns : Z) (tr : gdal6) : cpp_dtm :=
  mkCpp alt_data nb_rows nb_columns tr (cpp_trans_inv tr)
    (cpp_alt_min_cell alt_data nb_rows nb_columns) (cpp_alt_max_cell alt_data nb_rows nb_columns)
    [0; IZR nb_rows - 1; 0; IZR nb_columns - 1; list_min alt_data; list_max alt_data].

(** dtm_intersection.cpp 144-183; C01 shows that the reads are inside of the table. *)
Definition cpp_itp (c : cpp_dtm) (x y : R) : R :=
  match cpp_interpolate (cd_alt c) (cd_rows c) (cd_cols c) x y with Some v => v | None => 0 end.

(** dtm_intersection.cpp 95-103 [eq_plan]. *)
Definition cpp_eq_plan (c : cpp_dtm) (i : nat) (p : vec3) : R :=
  nth i plane_coef_a 0 * v0 p + nth i plane_coef_b 0 * v1 p + nth i plane_coef_c 0 * v2 p
  - nth i (cd_d c) 0.

(** dtm_intersection.cpp 275-325: the crossing of a plane. *)
Definition cpp_plane_crossing (c : cpp_dtm) (i : nat) (a b : vec3) (la lb : R) (layer : Z) : crossing :=
  if Reqb la 0 then Cr (v0 a) (v1 a) (v2 a) (IZR layer - 1)
  else if Reqb lb 0 then Cr (v0 b) (v1 b) (v2 b) (IZR layer)
  else
    let interp_coef_a := lb / (lb - la) in
    let interp_coef_b := - la / (lb - la) in
    Cr (if (i <? 2)%nat then nth i (cd_d c) 0 else interp_coef_a * v0 a + interp_coef_b * v0 b)
       (if ((1 <? i) && (i <? 4))%nat then nth i (cd_d c) 0
        else interp_coef_a * v1 a + interp_coef_b * v1 b)
       (if (3 <? i)%nat then nth i (cd_d c) 0 else interp_coef_a * v2 a + interp_coef_b * v2 b)
       (IZR layer - interp_coef_a).

(** dtm_intersection.cpp 250-333; the outer [None] is the [runtime_error] of lines 271-273. *)
Fixpoint cpp_plane_scan (c : cpp_dtm) (i : nat) (a : vec3) (rest : list vec3) (layer : Z)
  : option (option crossing) :=
  match rest with
  | [] => Some None
  | b :: rest =>
      let la := cpp_eq_plan c i a in
      let lb := cpp_eq_plan c i b in
      if Rleb (la * lb) 0 then
        if Reqb la 0 && Reqb lb 0 then None
        else Some (Some (cpp_plane_crossing c i a b la lb layer))
      else cpp_plane_scan c i b rest (layer + 1)%Z
  end.

(** dtm_intersection.cpp 232-335: the loop over the six planes, with its exception. *)
Fixpoint cpp_scan_planes (c : cpp_dtm) (los : list vec3) (v : vec3) (planes : list nat)
  : option (list crossing) :=
  match planes with
  | [] => Some []
  | i :: planes =>
      match cpp_plane_scan c i v los 0 with
      | None => None
      | Some r =>
          match cpp_scan_planes c los v planes with
          | None => None
          | Some l => Some (match r with Some x => x :: l | None => l end)
          end
      end
  end.

(** dtm_intersection.cpp 371-378. *)
Definition cpp_test_on_cube (c : cpp_dtm) (x : crossing) : bool :=
  Rleb (nth 0 (cd_d c) 0) (cr_col x) && Rleb (cr_col x) (nth 1 (cd_d c) 0)
  && Rleb (nth 2 (cd_d c) 0) (cr_row x) && Rleb (cr_row x) (nth 3 (cd_d c) 0)
  && Rleb (nth 4 (cd_d c) 0) (cr_alt x) && Rleb (cr_alt x) (nth 5 (cd_d c) 0).

(** dtm_intersection.cpp 185-421 [intersect_dtm_cube], in the index frame.  Outer [None]: the
    exception. *)
Definition cpp_intersect_dtm_cube_index (c : cpp_dtm) (los : list vec3) : option (option (vec3 * R)) :=
  match los with
  | [] => Some None
  | v :: _ =>
      match cpp_scan_planes c los v (seq 0 6) with
      | None => None
      | Some cs =>
          Some (match filter (cpp_test_on_cube c) (exchange_sort (length cs) cs) with
                | x :: _ :: _ => Some (V3 (cr_col x) (cr_row x) (cr_alt x), cr_h x)
                | _ => None
                end)
      end
  end.

(** dtm_intersection.cpp 535, 545. *)
Definition cpp_guard (c : cpp_dtm) (w : walk) : bool :=
  Rltb (w_a w) 1 && ((-1 <? w_c w) && (w_c w <? cd_rows c - 1))%Z
  && ((-1 <? w_r w) && (w_r w <? cd_cols c - 1))%Z.

(** dtm_intersection.cpp 545-891.  The determination of the new low point (lines 557-801), the
    altitude test (803-820) and the refinement (839-879) are, expression for expression, the ones
    of the Python code: [mesh_move], [may_intersect] and [refine] model both. *)
Fixpoint cpp_cell_loop (c : cpp_dtm) (s : segment) (fuel n : nat) (w : walk) : cell_result :=
  if cpp_guard c w then
    match n with
    | O => CDone NoFuel
    | S n =>
        let k := (w_c w * (cd_cols c - 1) + w_r w)%Z in
        let h_i := cpp_alt (cd_min_cell c) k in
        let h_s := cpp_alt (cd_max_cell c) k in
        let p_1 := w_p w in
        let w' := mesh_move s w in
        let p_2 := w_p w' in
        if may_intersect h_i h_s (s_z0 s) (s_z1 s) (v2 p_1) (v2 p_2) then
          let alti_1 := cpp_itp c (v0 p_1) (v1 p_1) in
          let h_2 := cpp_itp c (v0 p_2) (v1 p_2) in
          if Rleb ((v2 p_1 - alti_1) * (v2 p_2 - h_2)) 0
          then CDone (refine (cpp_itp c) fuel p_1 alti_1 p_2 h_2)
          else cpp_cell_loop c s fuel n w'
        else cpp_cell_loop c s fuel n w'
    end
  else CEnd (w_a w).

(** dtm_intersection.cpp 522-532: the first cell; 530 and 532 assign 1 ([col_c=1]) where the
    Python code subtracts 1. *)
Definition cpp_first_cell (p d : R) : Z :=
  let c := Rfloor p in if Reqb p (IZR c) && Rltb d 0 then 1%Z else c.

(** dtm_intersection.cpp 468-918: the loop over the vertices; [alti[i] = i] (line 434).  The
    indices are [size_t]: [i_0] is a natural number here. *)
Fixpoint cpp_vertex_loop (c : cpp_dtm) (los : list vec3) (fuel steps i_0 : nat) (p_2 : vec3) (h_2 : R)
  : outcome :=
  if (i_0 <? length los - 1)%nat then
    match steps with
    | O => NoFuel
    | S steps =>
        match nth_error los i_0, nth_error los (i_0 + 1) with
        | Some a, Some b =>
            let s := segment_of a b in
            if Reqb (s_d0 s) 0 && Reqb (s_d1 s) 0 then
              let alti_1 := cpp_itp c (s_col0 s) (s_row0 s) in
              if Rleb (s_z1 s) alti_1 then Found (V3 (s_col0 s) (s_row0 s) alti_1)
              else cpp_vertex_loop c los fuel steps (i_0 + 1) p_2 h_2
            else
              let a_2 := h_2 - INR i_0 in
              let a_2 := if Rleb 1 a_2 then 0 else a_2 in
              let w := W a_2 (cpp_first_cell (v0 p_2) (s_d0 s)) (cpp_first_cell (v1 p_2) (s_d1 s)) p_2 in
              if cpp_guard c w then
                match cpp_cell_loop c s fuel fuel w with
                | CDone o => o
                | CEnd a_2 =>
                    if Rleb 1 a_2 then
                      match nth_error los (i_0 + 1) with
                      | Some p => cpp_vertex_loop c los fuel steps (i_0 + 1) p (INR (i_0 + 1))
                      | None => Crash
                      end
                    else NotFound
                end
              else NotFound
        | _, _ => Crash
        end
    end
  else NotFound.

(** dtm_intersection.cpp 423-927 [intersection], result in the index frame.  A negative
    [h_intersect] (whose conversion to [size_t] is undefined) is never passed: the position index
    -1 of the Python code is an exception in [intersect_dtm_cube]. *)
Definition cpp_intersection_index (c : cpp_dtm) (fuel : nat) (los : list vec3) (point_b : vec3)
  (h_intersect : R) : outcome :=
  if Rltb (v2 point_b - cpp_itp c (v0 point_b) (v1 point_b)) 0 then NotFound
  else cpp_vertex_loop c los fuel (S (length los)) (Z.to_nat (Rfloor h_intersect)) point_b h_intersect.

(** One line of sight of [intersection_n_los_dtm] (dtm_intersection.cpp 964-1040).
    [Indeterminate]: [point_r] (line 431) is returned uninitialised.  [Throws]: runtime_error, or
    the division 0/0 of the refinement. *)
Inductive cpp_result := Value (p : row3) | Indeterminate | Throws | Endless.
Definition cpp_intersection_one (c : cpp_dtm) (fuel : nat) (los : list vec3) : cpp_result :=
  let los_index := map (cpp_ter_to_index (cd_tr_inv c)) los in
  match cpp_intersect_dtm_cube_index c los_index with
  | None => Throws
  | Some None => Value nan3
  | Some (Some (position_cube, alti)) =>
      match cpp_intersection_index c fuel los_index position_cube alti with
      | Found p => Value (row_of_vec (cpp_index_to_ter (cd_tr c) p))
      | NotFound => Indeterminate
      | Crash => Throws
      | NoFuel => Endless
      end
  end.

(** The C++ object built from the same data as a Python object. *)
Definition cpp_of (d : dtm) : cpp_dtm :=
  cpp_make (flatten_raster (dt_data d)) (nb_rows d) (nb_columns d) (dt_gdal d).
