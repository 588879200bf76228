(** Model of [shareloc/geofunctions/dtm_intersection.py]. *)
From Coq Require Import Reals ZArith List Bool.
From Verif Require Import Num InterpModel ProjModel.
Import ListNotations.
Open Scope R_scope.

(** dtm_intersection.py 46-111 [__init__]: the altitudes, the geotransform (GDAL order) and the
    epsg code; the other attributes are computed from them below. *)
Record dtm := mkDtm { dt_data : raster; dt_gdal : gdal6; dt_epsg : Z }.

(** dtm_intersection.py 108-111. *)
Definition dt_transform (d : dtm) : affine := affine_of_gdal (dt_gdal d).
Definition dt_trans_inv (d : dtm) : affine := affine_inv (dt_transform d).
Definition nb_rows (d : dtm) : Z := rs_rows (dt_data d).
Definition nb_columns (d : dtm) : Z := rs_cols (dt_data d).

(** [ndarray.min()], [ndarray.max()] (0 on an empty array, where numpy raises). *)
Definition list_min (l : list R) : R := match l with [] => 0 | x :: l => fold_left Rmin l x end.
Definition list_max (l : list R) : R := match l with [] => 0 | x :: l => fold_left Rmax l x end.

(** dtm_intersection.py 88-89, 868-872. *)
Definition alt_min (d : dtm) : R := list_min (flatten_raster (dt_data d)).
Definition alt_max (d : dtm) : R := list_max (flatten_raster (dt_data d)).

(** dtm_intersection.py 82. *)
Definition tol_z : R := 1 / 10000.

(** dtm_intersection.py 200-227 [init_min_max]: the entry (i, j) of [alt_min_cell] and
    [alt_max_cell].  The four sub-arrays are the four corners of the cell. *)
Definition alt_min_cell (d : dtm) (i j : Z) : R :=
  let a := rs_at (dt_data d) in
  IZR (Rfloor (Rmin (Rmin (Rmin (a i j) (a i (j + 1)%Z)) (a (i + 1)%Z j)) (a (i + 1)%Z (j + 1)%Z))).
Definition alt_max_cell (d : dtm) (i j : Z) : R :=
  let a := rs_at (dt_data d) in
  IZR (Rceil (Rmax (Rmax (Rmax (a i j) (a i (j + 1)%Z)) (a (i + 1)%Z j)) (a (i + 1)%Z (j + 1)%Z))).

(** dtm_intersection.py 185-198 [interpolate]. *)
Definition interpolate (d : dtm) (pos_row pos_col : R) : R := interp (dt_data d) pos_row pos_col.

(** ** The DTM cube *)
(** dtm_intersection.py 90-95. *)
Definition plane_coef_a : list R := [1; 1; 0; 0; 0; 0].
Definition plane_coef_b : list R := [0; 0; 1; 1; 0; 0].
Definition plane_coef_c : list R := [0; 0; 0; 0; 1; 1].
Definition plane_coef_d (d : dtm) : list R :=
  [0; IZR (nb_rows d) - 1; 0; IZR (nb_columns d) - 1; alt_min d; alt_max d].

(** dtm_intersection.py 113-129 [eq_plan]. *)
Definition eq_plan (d : dtm) (i : nat) (p : vec3) : R :=
  nth i plane_coef_a 0 * v0 p + nth i plane_coef_b 0 * v1 p + nth i plane_coef_c 0 * v2 p
  - nth i (plane_coef_d d) 0.

(** One entry of the lists [coord_col_i], [coord_row_i], [coord_alt_i], [alti_layer_i]. *)
Record crossing := Cr { cr_col : R; cr_row : R; cr_alt : R; cr_h : R }.

(** dtm_intersection.py 285-329: the crossing of plane [i] between A and B (B is vertex [layer]),
    [la] and [lb] being the values of [eq_plan] there. *)
Definition plane_crossing (d : dtm) (i : nat) (a b : vec3) (la lb : R) (layer : Z) : crossing :=
  if Reqb la 0 then Cr (v0 a) (v1 a) (v2 a) (IZR layer - 1)
  else if Reqb lb 0 then Cr (v0 b) (v1 b) (v2 b) (IZR layer)
  else
    let interp_coef_a := lb / (lb - la) in
    let interp_coef_b := - la / (lb - la) in
    Cr (if (i <? 2)%nat then nth i (plane_coef_d d) 0
        else interp_coef_a * v0 a + interp_coef_b * v0 b)
       (if ((1 <? i) && (i <? 4))%nat then nth i (plane_coef_d d) 0
        else interp_coef_a * v1 a + interp_coef_b * v1 b)
       (if (3 <? i)%nat then nth i (plane_coef_d d) 0
        else interp_coef_a * v2 a + interp_coef_b * v2 b)
       (IZR layer - interp_coef_a).

(** dtm_intersection.py 265-335: the loop over the vertices for plane [i], with its [break]. *)
Fixpoint plane_scan (d : dtm) (i : nat) (a : vec3) (rest : list vec3) (layer : Z) : option crossing :=
  match rest with
  | [] => None
  | b :: rest =>
      let la := eq_plan d i a in
      let lb := eq_plan d i b in
      if Rleb (la * lb) 0 then Some (plane_crossing d i a b la lb layer)
      else plane_scan d i b rest (layer + 1)%Z
  end.

(** dtm_intersection.py 252-335: the loop over the six planes. *)
Definition all_crossings (d : dtm) (los_index : list vec3) : list crossing :=
  match los_index with
  | [] => []
  | v :: _ =>
      flat_map (fun i => match plane_scan d i v los_index 0 with Some c => [c] | None => [] end)
               (seq 0 6)
  end.

(** dtm_intersection.py 340-354: the exchange sort.  [sort_pass x l] is the inner loop: [x] is the
    entry [alti_layer], [l] the entries after it. *)
Fixpoint sort_pass (x : crossing) (l : list crossing) : crossing * list crossing :=
  match l with
  | [] => (x, [])
  | y :: l =>
      if Rltb (cr_h y) (cr_h x)
      then let '(m, l) := sort_pass y l in (m, x :: l)
      else let '(m, l) := sort_pass x l in (m, y :: l)
  end.
Fixpoint exchange_sort (n : nat) (l : list crossing) : list crossing :=
  match n, l with
  | S n, x :: l => let '(m, l) := sort_pass x l in m :: exchange_sort n l
  | _, _ => l
  end.

(** dtm_intersection.py 361-368. *)
Definition test_on_cube (d : dtm) (c : crossing) : bool :=
  Rleb (nth 0 (plane_coef_d d) 0) (cr_col c) && Rleb (cr_col c) (nth 1 (plane_coef_d d) 0)
  && Rleb (nth 2 (plane_coef_d d) 0) (cr_row c) && Rleb (cr_row c) (nth 3 (plane_coef_d d) 0)
  && Rleb (nth 4 (plane_coef_d d) 0) (cr_alt c) && Rleb (cr_alt c) (nth 5 (plane_coef_d d) 0).

(** dtm_intersection.py 231-402 [intersect_dtm_cube], on a line of sight already in the index
    frame; the in-place removal loop of lines 358-378 is [filter].  [None]: not found. *)
Definition intersect_dtm_cube_index (d : dtm) (los_index : list vec3) : option (vec3 * R) :=
  let cs := all_crossings d los_index in
  match filter (test_on_cube d) (exchange_sort (length cs) cs) with
  | c :: _ :: _ => Some (V3 (cr_col c) (cr_row c) (cr_alt c), cr_h c)
  | _ => None
  end.
(** dtm_intersection.py 246: the line of sight in the index frame. *)
Definition los_to_index (d : dtm) (los : list vec3) : list vec3 := ters_to_indexs (dt_trans_inv d) los.
Definition intersect_dtm_cube (d : dtm) (los : list vec3) : option (vec3 * R) :=
  intersect_dtm_cube_index d (los_to_index d los).

(** ** The walk *)
(** dtm_intersection.py 459-465: the current segment. *)
Record segment := Seg { s_col0 : R; s_row0 : R; s_z0 : R; s_z1 : R; s_d0 : R; s_d1 : R; s_d2 : R }.
(** The variables [a_2], [col_c], [row_c], [p_2]. *)
Record walk := W { w_a : R; w_c : Z; w_r : Z; w_p : vec3 }.

(** dtm_intersection.py 537-745: determination of the new low point. *)
Definition mesh_move (s : segment) (w : walk) : walk :=
  let c := w_c w in
  let r := w_r w in
  let p := w_p w in
  let col a := s_col0 s + a * s_d0 s in
  let row a := s_row0 s + a * s_d1 s in
  let alt a := s_z0 s + a * s_d2 s in
  if Reqb (s_d0 s) 0 then                                               (* 537-551 *)
    if Rltb (s_d1 s) 0 then
      let a := (IZR r - s_row0 s) / s_d1 s in W a c (r - 1)%Z (V3 (v0 p) (IZR r) (alt a))
    else
      let a := (IZR (r + 1) - s_row0 s) / s_d1 s in W a c (r + 1)%Z (V3 (v0 p) (IZR (r + 1)) (alt a))
  else if Reqb (s_d1 s) 0 then                                          (* 553-567 *)
    if Rltb (s_d0 s) 0 then
      let a := (IZR c - s_col0 s) / s_d0 s in W a (c - 1)%Z r (V3 (IZR c) (v1 p) (alt a))
    else
      let a := (IZR (c + 1) - s_col0 s) / s_d0 s in W a (c + 1)%Z r (V3 (IZR (c + 1)) (v1 p) (alt a))
  else if Rltb (s_d0 s) 0 && Rleb (s_d0 s) (s_d1 s) && Rleb (s_d0 s) (- s_d1 s) then (* 571-613 north *)
    let a := (IZR c - s_col0 s) / s_d0 s in
    let y := row a in
    if Rltb (IZR r) y && Rltb y (IZR r + 1) then W a (c - 1)%Z r (V3 (IZR c) y (alt a))
    else if Rltb y (IZR r) then
      let a := (IZR r - s_row0 s) / s_d1 s in W a c (r - 1)%Z (V3 (col a) (IZR r) (alt a))
    else if Rltb (IZR r + 1) y then
      let a := (IZR (r + 1) - s_row0 s) / s_d1 s in W a c (r + 1)%Z (V3 (col a) (IZR (r + 1)) (alt a))
    else if Reqb y (IZR r) then W a (c - 1)%Z (r - 1)%Z (V3 (IZR c) (IZR r) (alt a))
    else if Reqb y (IZR r + 1) then W a (c - 1)%Z (r + 1)%Z (V3 (IZR c) (IZR (r + 1)) (alt a))
    else W a c r (V3 (v0 p) y (v2 p))
  else if Rltb 0 (s_d1 s) && Rleb (s_d0 s) (s_d1 s) && Rleb (- s_d0 s) (s_d1 s) then (* 615-657 east *)
    let a := (IZR r + 1 - s_row0 s) / s_d1 s in
    let x := col a in
    if Rltb (IZR c) x && Rltb x (IZR c + 1) then W a c (r + 1)%Z (V3 x (IZR (r + 1)) (alt a))
    else if Rltb x (IZR c) then
      let a := (IZR c - s_col0 s) / s_d0 s in W a (c - 1)%Z r (V3 (IZR c) (row a) (alt a))
    else if Rltb (IZR c + 1) x then
      let a := (IZR (c + 1) - s_col0 s) / s_d0 s in W a (c + 1)%Z r (V3 (IZR (c + 1)) (row a) (alt a))
    else if Reqb x (IZR c) then W a (c - 1)%Z (r + 1)%Z (V3 (IZR c) (IZR (r + 1)) (alt a))
    else if Reqb x (IZR c + 1) then W a (c + 1)%Z (r + 1)%Z (V3 (IZR (c + 1)) (IZR (r + 1)) (alt a))
    else W a c r (V3 x (v1 p) (v2 p))
  else if Rltb 0 (s_d0 s) && Rleb (s_d1 s) (s_d0 s) && Rleb (- s_d1 s) (s_d0 s) then (* 659-701 south *)
    let a := (IZR c + 1 - s_col0 s) / s_d0 s in
    let y := row a in
    if Rltb (IZR r) y && Rltb y (IZR r + 1) then W a (c + 1)%Z r (V3 (IZR (c + 1)) y (alt a))
    else if Rltb y (IZR r) then
      let a := (IZR r - s_row0 s) / s_d1 s in W a c (r - 1)%Z (V3 (col a) (IZR r) (alt a))
    else if Rltb (IZR r + 1) y then
      let a := (IZR (r + 1) - s_row0 s) / s_d1 s in W a c (r + 1)%Z (V3 (col a) (IZR (r + 1)) (alt a))
    else if Reqb y (IZR r) then W a (c + 1)%Z (r - 1)%Z (V3 (IZR (c + 1)) (IZR r) (alt a))
    else if Reqb y (IZR r + 1) then W a (c + 1)%Z (r + 1)%Z (V3 (IZR (c + 1)) (IZR (r + 1)) (alt a))
    else W a c r (V3 (v0 p) y (v2 p))
  else if Rltb (s_d1 s) 0 && Rleb (s_d1 s) (s_d0 s) && Rleb (s_d1 s) (- s_d0 s) then (* 703-745 west *)
    let a := (IZR r - s_row0 s) / s_d1 s in
    let x := col a in
    if Rltb (IZR c) x && Rltb x (IZR c + 1) then W a c (r - 1)%Z (V3 x (IZR r) (alt a))
    else if Rltb x (IZR c) then
      let a := (IZR c - s_col0 s) / s_d0 s in W a (c - 1)%Z r (V3 (IZR c) (row a) (alt a))
    else if Rltb (IZR c + 1) x then
      let a := (IZR (c + 1) - s_col0 s) / s_d0 s in W a (c + 1)%Z r (V3 (IZR (c + 1)) (row a) (alt a))
    else if Reqb x (IZR c) then W a (c - 1)%Z (r - 1)%Z (V3 (IZR c) (IZR r) (alt a))
    else if Reqb x (IZR c + 1) then W a (c + 1)%Z (r - 1)%Z (V3 (IZR (c + 1)) (IZR r) (alt a))
    else W a c r (V3 x (v1 p) (v2 p))
  else w.

(** dtm_intersection.py 748-759: [b_intersect]. *)
Definition may_intersect (h_i h_s z_0 z_1 z_p1 z_p2 : R) : bool :=
  let outside z := (Rltb h_s z_p1 && Rltb h_s z) || (Rltb z_p1 h_i && Rltb z h_i) in
  if Rltb z_0 z_p2 then negb (outside z_0)
  else if Rltb z_p2 z_1 then negb (outside z_1)
  else negb (outside z_p2).

(** Results.  [Crash] is an exception: a division 0/0 gives NaN positions and [interpolate] raises
    ValueError on NaN (math_utils.py 119, int of NaN).  Simplification: a division of a non-zero
    number by zero (infinite positions) is a [Crash] too. *)
Inductive outcome := Found (p : vec3) | NotFound | Crash | NoFuel.

(** dtm_intersection.py 782-815: the altitude refinement; [n] bounds the iterations. *)
Fixpoint refine (itp : R -> R -> R) (n : nat) (p_1 : vec3) (alti_1 : R) (p_2 : vec3) (h_2 : R) : outcome :=
  match n with
  | O => NoFuel
  | S n =>
      let den := (h_2 - alti_1) - (v2 p_2 - v2 p_1) in
      if Reqb den 0 then Crash
      else
        let c_h := (v2 p_1 - alti_1) / den in
        let p_a := V3 (v0 p_1 + c_h * (v0 p_2 - v0 p_1)) (v1 p_1 + c_h * (v1 p_2 - v1 p_1))
                      (v2 p_1 + c_h * (v2 p_2 - v2 p_1)) in
        let z_v := itp (v0 p_a) (v1 p_a) in
        let d_2 := z_v - v2 p_a in
        if Rltb tol_z (Rabs d_2) then
          if Rltb d_2 0 then refine itp n p_a z_v p_2 h_2
          else refine itp n p_1 alti_1 p_a z_v
        else Found p_a
  end.

(** dtm_intersection.py 519, 524: the guard of the loop over the cells. *)
Definition cell_guard (d : dtm) (w : walk) : bool :=
  Rltb (w_a w) 1 && ((-1 <? w_c w) && (w_c w <? nb_rows d - 1))%Z
  && ((-1 <? w_r w) && (w_r w <? nb_columns d - 1))%Z.

(** What the loop over the cells of one segment ends with: a result of the function, or the value
    of [a_2] when the guard fails. *)
Inductive cell_result := CDone (o : outcome) | CEnd (a_2 : R).

(** dtm_intersection.py 524-819: the loop over the cells; [n] bounds the iterations (and the
    refinement). *)
Fixpoint cell_loop (d : dtm) (s : segment) (fuel n : nat) (w : walk) : cell_result :=
  if cell_guard d w then
    match n with
    | O => CDone NoFuel
    | S n =>
        let h_i := alt_min_cell d (w_c w) (w_r w) in
        let h_s := alt_max_cell d (w_c w) (w_r w) in
        let p_1 := w_p w in
        let w' := mesh_move s w in
        let p_2 := w_p w' in
        if may_intersect h_i h_s (s_z0 s) (s_z1 s) (v2 p_1) (v2 p_2) then
          let alti_1 := interpolate d (v0 p_1) (v1 p_1) in
          let h_2 := interpolate d (v0 p_2) (v1 p_2) in
          if Rleb ((v2 p_1 - alti_1) * (v2 p_2 - h_2)) 0
          then CDone (refine (interpolate d) fuel p_1 alti_1 p_2 h_2)
          else cell_loop d s fuel n w'
        else cell_loop d s fuel n w'
    end
  else CEnd (w_a w).

(** dtm_intersection.py 504-516: the first cell along one axis. *)
Definition first_cell (p d : R) : Z :=
  let c := Rfloor p in if Reqb p (IZR c) && Rltb d 0 then (c - 1)%Z else c.

(** [los_index[i]] with Python's negative indices; [None]: IndexError. *)
Definition py_get (l : list vec3) (i : Z) : option vec3 :=
  let n := Z.of_nat (length l) in
  if (i <? 0)%Z then if (0 <=? i + n)%Z then nth_error l (Z.to_nat (i + n)) else None
  else nth_error l (Z.to_nat i).

(** dtm_intersection.py 459-465. *)
Definition segment_of (a b : vec3) : segment :=
  Seg (v0 a) (v1 a) (v2 a) (v2 b) (v0 b - v0 a) (v1 b - v1 a) (v2 b - v2 a).

(** dtm_intersection.py 457-843: the loop over the vertices; [steps] bounds the iterations,
    [h_2] is [h_intersect_p2]. *)
Fixpoint vertex_loop (d : dtm) (los : list vec3) (fuel steps : nat) (i_0 : Z) (p_2 : vec3) (h_2 : R)
  : outcome :=
  let nb := Z.of_nat (length los) in
  if (i_0 <? nb - 1)%Z then
    match steps with
    | O => NoFuel
    | S steps =>
        match py_get los i_0, py_get los (i_0 + 1) with
        | Some a, Some b =>
            let s := segment_of a b in
            if Reqb (s_d0 s) 0 && Reqb (s_d1 s) 0 then                  (* 468-483 *)
              let alti_1 := interpolate d (s_col0 s) (s_row0 s) in
              if Rleb (s_z1 s) alti_1 then Found (V3 (s_col0 s) (s_row0 s) alti_1)
              else vertex_loop d los fuel steps (i_0 + 1)%Z p_2 h_2
            else
              let a_2 := h_2 - IZR i_0 in
              let a_2 := if Rleb 1 a_2 then 0 else a_2 in               (* 492-500 *)
              let w := W a_2 (first_cell (v0 p_2) (s_d0 s)) (first_cell (v1 p_2) (s_d1 s)) p_2 in
              if cell_guard d w then                                    (* 519-521 *)
                match cell_loop d s fuel fuel w with
                | CDone o => o
                | CEnd a_2 =>
                    if Rleb 1 a_2 then                                  (* 824-831 *)
                      match py_get los (i_0 + 1) with
                      | Some p => vertex_loop d los fuel steps (i_0 + 1)%Z p
                                    (IZR nb - IZR (i_0 + 1))
                      | None => Crash
                      end
                    else NotFound                                       (* 833-837 *)
                end
              else NotFound
        | _, _ => Crash
        end
    end
  else NotFound.

(** dtm_intersection.py 409-843 [intersection], result in the index frame. *)
Definition intersection_index (d : dtm) (fuel : nat) (los_index : list vec3) (point_b : vec3)
  (h_intersect : R) : outcome :=
  let alti_1 := interpolate d (v0 point_b) (v1 point_b) in
  if Rltb (v2 point_b - alti_1) 0 then NotFound                         (* 441-446 *)
  else vertex_loop d los_index fuel (S (length los_index)) (Rfloor h_intersect) point_b h_intersect.

(** dtm_intersection.py 480, 818: the result in ground coordinates; [b_trouve] and [point_r], which
    is zeros when nothing is found.  [None]: an exception (or not enough fuel). *)
Definition intersection (d : dtm) (fuel : nat) (los_index : list vec3) (point_b : vec3)
  (h_intersect : R) : option (bool * vec3) :=
  match intersection_index d fuel los_index point_b h_intersect with
  | Found p => Some (true, index_to_ter (dt_transform d) p)
  | NotFound => Some (false, V3 0 0 0)
  | Crash | NoFuel => None
  end.

(** A line of sight whose coordinates are all finite. *)
Definition finite_row (p : row3) : option vec3 :=
  match lon3 p, lat3 p, alt3 p with Some x, Some y, Some z => Some (V3 x y z) | _, _, _ => None end.
Definition row_of_vec (p : vec3) : row3 := R3 (Some (v0 p)) (Some (v1 p)) (Some (v2 p)).

(** dtm_intersection.py 857-864: one line of sight.  Simplification: a line of sight with a NaN
    coordinate gives NaN (its plane equations are NaN, so no plane is crossed; the code could only
    differ when the first vertex is finite and exactly on an edge of the cube). *)
Definition intersection_one (d : dtm) (fuel : nat) (los : list row3) : option row3 :=
  match seq_opt (map finite_row los) with
  | None => Some nan3
  | Some los =>
      let los_index := los_to_index d los in
      match intersect_dtm_cube_index d los_index with
      | Some (position_cube, alti) =>
          match intersection d fuel los_index position_cube alti with
          | Some (_, position) => Some (row_of_vec position)
          | None => None
          end
      | None => Some nan3
      end
  end.
(** dtm_intersection.py 845-866 [intersection_n_los_dtm]. *)
Definition intersection_n_los_dtm (d : dtm) (fuel : nat) (los : list (list row3)) : option (list row3) :=
  seq_opt (map (intersection_one d fuel) los).
