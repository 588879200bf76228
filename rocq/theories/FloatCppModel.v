(** Model, in binary64, of [shareloc/bindings/dtm_intersection.cpp].  The operations are the ones of the code, in their order,
    without contraction of a product and a sum into one operation.  The types [int] and [size_t] and the reads of vectors are
    checked: what C++ leaves undefined has no value here. *)
From Coq Require Import ZArith Bool List.
From Flocq Require Import Core BinarySingleNaN.
From Verif Require Import FloatModel FloatInterpModel FloatWalkModel FloatTerModel CppDtmModel.
Import ListNotations.
Open Scope Z_scope.

(** The type [int]; [None]: the number does not fit. *)
Definition c_int (n : Z) : option Z := if (- 2 ^ 31 <=? n) && (n <? 2 ^ 31) then Some n else None.
(** [v[k]] with an index of type [int]; [None]: a read outside of the vector, or the index does not fit. *)
Definition c_get (v : list b64) (k : Z) : option b64 :=
  match c_int k with Some k => if k <? 0 then None else nth_error v (Z.to_nat k) | None => None end.
(** [v[x]] with an index of type [double], which is converted to [size_t]. *)
Definition c_get_double (v : list b64) (x : b64) : option b64 :=
  match ffloor x with Some k => if k <? 0 then None else nth_error v (Z.to_nat k) | None => None end.

(** A geotransform in the order of GDAL: (c, a, b, f, d, e). *)
Record fgdal := FG { fg0 : b64; fg1 : b64; fg2 : b64; fg3 : b64; fg4 : b64; fg5 : b64 }.

(** dtm_intersection.cpp 931-960 [init_min_max]; the initializer lists of [min] and [max] keep the first of equal values.  Every
    index is in the vector when the sizes are the ones of the data: a read outside of it is 0 here. *)
Definition c_alt (alt_data : list b64) (k : Z) : b64 := match c_get alt_data k with Some v => v | None => fzero end.
Definition c_alt_min_cell (alt_data : list b64) (nb_rows nb_columns : Z) : list b64 :=
  cpp_cells (fun i j => np_floor (fmin2 (fmin2 (fmin2 (c_alt alt_data (nb_columns * i + j)) (c_alt alt_data (nb_columns * (i + 1) + j)))
                                               (c_alt alt_data (nb_columns * i + (j + 1)))) (c_alt alt_data (nb_columns * (i + 1) + (j + 1)))))
            nb_rows nb_columns.
Definition c_alt_max_cell (alt_data : list b64) (nb_rows nb_columns : Z) : list b64 :=
  cpp_cells (fun i j => np_ceil (fmax2 (fmax2 (fmax2 (c_alt alt_data (nb_columns * i + j)) (c_alt alt_data (nb_columns * (i + 1) + j)))
                                              (c_alt alt_data (nb_columns * i + (j + 1)))) (c_alt alt_data (nb_columns * (i + 1) + (j + 1)))))
            nb_rows nb_columns.
(** dtm_intersection.cpp 78-92: the inverse of the geotransform. *)
Definition c_trans_inv (t : fgdal) : fgdal :=
  let idet := fdiv fone (fsub (fmul (fg1 t) (fg5 t)) (fmul (fg2 t) (fg4 t))) in
  let ra := fmul (fg5 t) idet in
  let rb := fmul (fopp (fg2 t)) idet in
  let rd := fmul (fopp (fg4 t)) idet in
  let re := fmul (fg1 t) idet in
  FG (fsub (fmul (fopp (fg0 t)) ra) (fmul (fg3 t) rb)) ra rb (fsub (fmul (fopp (fg0 t)) rd) (fmul (fg3 t) re)) rd re.
(** dtm_intersection.cpp 29-93: the object. *)
Record cdtm := CDtm {
  cm_alt : list b64; cm_rows : Z; cm_cols : Z; cm_tr : fgdal; cm_tr_inv : fgdal;
  cm_min_cell : list b64; cm_max_cell : list b64; cm_d : list b64 }.
Definition c_make (alt_data : list b64) (nb_rows nb_columns : Z) (tr : fgdal) : cdtm :=
  let first := hd fzero alt_data in
  CDtm alt_data nb_rows nb_columns tr (c_trans_inv tr) (c_alt_min_cell alt_data nb_rows nb_columns) (c_alt_max_cell alt_data nb_rows nb_columns)
    [fzero; fsub (fint nb_rows) fone; fzero; fsub (fint nb_columns) fone; fold_left fmin2 (tl alt_data) first; fold_left fmax2 (tl alt_data) first].

(** dtm_intersection.cpp 95-103 [eq_plan]. *)
Definition c_eq_plan (c : cdtm) (i : nat) (p : fvec3) : b64 :=
  fsub (fadd (fadd (fmul (nth i fplane_coef_a fzero) (fv_row p)) (fmul (nth i fplane_coef_b fzero) (fv_col p)))
             (fmul (nth i fplane_coef_c fzero) (fv_alt p))) (nth i (cm_d c) fzero).
(** dtm_intersection.cpp 105-117 [ter_to_index]. *)
Definition c_ter_to_index (trans_inv : fgdal) (v : fter) : fvec3 :=
  let vx := ft_lon v in
  let vy := ft_lat v in
  FV3 (fsub (fadd (fadd (fmul vx (fg4 trans_inv)) (fmul vy (fg5 trans_inv))) (fg3 trans_inv)) half)
      (fsub (fadd (fadd (fmul vx (fg1 trans_inv)) (fmul vy (fg2 trans_inv))) (fg0 trans_inv)) half) (ft_alt v).
(** dtm_intersection.cpp 119-132 [index_to_ter]. *)
Definition c_index_to_ter (t : fgdal) (p : fvec3) : fter :=
  let vx := fadd (fv_col p) half in
  let vy := fadd (fv_row p) half in
  FTer (fadd (fadd (fmul vx (fg1 t)) (fmul vy (fg2 t))) (fg0 t)) (fadd (fadd (fmul vx (fg4 t)) (fmul vy (fg5 t))) (fg3 t)) (fv_alt p).

(** dtm_intersection.cpp 147-156 and 160-169: the lower index along one axis, a double. *)
Definition c_lower (nb : Z) (d : b64) : option b64 :=
  if Bltb d fzero then Some fzero
  else if Bleb (fsub (fint nb) fone) d then Some (fsub (fint nb) (fint 2))
  else match ffloor d with Some n => match c_int n with Some n => Some (fint n) | None => None end | None => None end.
(** dtm_intersection.cpp 144-183 [interpolate]: the indices of the reads are doubles. *)
Definition c_interpolate (c : cdtm) (dr dc : b64) : option b64 :=
  match c_lower (cm_rows c) dr, c_lower (cm_cols c) dc with
  | Some lower_row, Some lower_col =>
      let upper_row := fadd lower_row fone in
      let upper_col := fadd lower_col fone in
      let col_shift := fsub dc lower_col in
      let row_shift := fsub dr lower_row in
      let get r k := c_get_double (cm_alt c) (fadd (fmul r (fint (cm_cols c))) k) in
      match get lower_row lower_col, get lower_row upper_col, get upper_row lower_col, get upper_row upper_col with
      | Some v00, Some v01, Some v10, Some v11 =>
          Some (fadd (fadd (fadd (fmul (fmul (fsub fone col_shift) (fsub fone row_shift)) v00)
                                 (fmul (fmul col_shift (fsub fone row_shift)) v01))
                           (fmul (fmul (fsub fone col_shift) row_shift) v10))
                     (fmul (fmul col_shift row_shift) v11))
      | _, _, _, _ => None
      end
  | _, _ => None
  end.

(** dtm_intersection.cpp 275-325: the crossing of a plane. *)
Definition c_plane_crossing (c : cdtm) (i : nat) (a b : fvec3) (la lb : b64) (layer : Z) : fcrossing :=
  if Beqb la fzero then FCr (fv_row a) (fv_col a) (fv_alt a) (fsub (fint layer) fone)
  else if Beqb lb fzero then FCr (fv_row b) (fv_col b) (fv_alt b) (fint layer)
  else
    let interp_coef_a := fdiv lb (fsub lb la) in
    let interp_coef_b := fdiv (fopp la) (fsub lb la) in
    FCr (if (i <? 2)%nat then nth i (cm_d c) fzero else fadd (fmul interp_coef_a (fv_row a)) (fmul interp_coef_b (fv_row b)))
        (if ((1 <? i) && (i <? 4))%nat then nth i (cm_d c) fzero else fadd (fmul interp_coef_a (fv_col a)) (fmul interp_coef_b (fv_col b)))
        (if (3 <? i)%nat then nth i (cm_d c) fzero else fadd (fmul interp_coef_a (fv_alt a)) (fmul interp_coef_b (fv_alt b)))
        (fsub (fint layer) interp_coef_a).
(** dtm_intersection.cpp 250-333; the outer [None] is the [runtime_error] of lines 271-273. *)
Fixpoint c_plane_scan (c : cdtm) (i : nat) (a : fvec3) (rest : list fvec3) (layer : Z) : option (option fcrossing) :=
  match rest with
  | [] => Some None
  | b :: rest =>
      let la := c_eq_plan c i a in
      let lb := c_eq_plan c i b in
      if Bleb (fmul la lb) fzero then
        if Beqb la fzero && Beqb lb fzero then None else Some (Some (c_plane_crossing c i a b la lb layer))
      else c_plane_scan c i b rest (layer + 1)
  end.
(** dtm_intersection.cpp 232-335: the loop over the six planes, with its exception. *)
Fixpoint c_scan_planes (c : cdtm) (los : list fvec3) (v : fvec3) (planes : list nat) : option (list fcrossing) :=
  match planes with
  | [] => Some []
  | i :: planes =>
      match c_plane_scan c i v los 0, c_scan_planes c los v planes with
      | Some r, Some l => Some (match r with Some x => x :: l | None => l end)
      | _, _ => None
      end
  end.
(** dtm_intersection.cpp 371-378. *)
Definition c_test_on_cube (c : cdtm) (x : fcrossing) : bool :=
  Bleb (nth 0 (cm_d c) fzero) (fx_col x) && Bleb (fx_col x) (nth 1 (cm_d c) fzero)
  && Bleb (nth 2 (cm_d c) fzero) (fx_row x) && Bleb (fx_row x) (nth 3 (cm_d c) fzero)
  && Bleb (nth 4 (cm_d c) fzero) (fx_alt x) && Bleb (fx_alt x) (nth 5 (cm_d c) fzero).
(** dtm_intersection.cpp 185-421 [intersect_dtm_cube], on the vertices in the frame of the indices; outer [None]: the exception.
    The sort of lines 341-363 and the filter of 366-398 are the ones of the Python code. *)
Definition c_intersect_dtm_cube (c : cdtm) (los : list fvec3) : option (option (fvec3 * b64)) :=
  match los with
  | [] => Some None
  | v :: _ =>
      match c_scan_planes c los v (seq 0 6) with
      | None => None
      | Some cs =>
          Some (match filter (c_test_on_cube c) (fexchange_sort (length cs) cs) with
                | x :: _ :: _ => Some (FV3 (fx_col x) (fx_row x) (fx_alt x), fx_h x)
                | _ => None
                end)
      end
  end.

(** dtm_intersection.cpp 535, 545. *)
Definition c_guard (c : cdtm) (w : fwalk) : bool :=
  Bltb (fw_a w) fone && ((-1 <? fw_c w) && (fw_c w <? cm_rows c - 1)) && ((-1 <? fw_r w) && (fw_r w <? cm_cols c - 1)).
(** dtm_intersection.cpp 545-891.  The determination of the new low point (557-801), the altitude test (803-820) and the
    refinement (839-879) are, operation for operation, the ones of the Python code: [fmesh_move], [fmay_intersect] and [frefine]
    model both (the integers [row_c] and [col_c] are converted to doubles without rounding).  [FCrash]: undefined. *)
Fixpoint c_cell_loop (c : cdtm) (s : fsegment) (fuel n : nat) (w : fwalk) : fcell_result :=
  if c_guard c w then
    match n with
    | O => FDone FNoFuel
    | S n =>
        let k := fw_c w * (cm_cols c - 1) + fw_r w in
        match c_get (cm_min_cell c) k, c_get (cm_max_cell c) k with
        | Some h_i, Some h_s =>
            let p_1 := fw_p w in
            let w' := fmesh_move s w in
            let p_2 := fw_p w' in
            if fmay_intersect h_i h_s (f_z0 s) (f_z1 s) (fv_alt p_1) (fv_alt p_2) then
              match c_interpolate c (fv_row p_1) (fv_col p_1), c_interpolate c (fv_row p_2) (fv_col p_2) with
              | Some alti_1, Some h_2 =>
                  if Bleb (fmul (fsub (fv_alt p_1) alti_1) (fsub (fv_alt p_2) h_2)) fzero
                  then FDone (frefine (c_interpolate c) fuel p_1 alti_1 p_2 h_2)
                  else c_cell_loop c s fuel n w'
              | _, _ => FDone FCrash
              end
            else c_cell_loop c s fuel n w'
        | _, _ => FDone FCrash
        end
    end
  else FEnd (fw_a w).
(** dtm_intersection.cpp 522-532: the first cell; 530 and 532 assign 1 where the Python code subtracts 1. *)
Definition c_first_cell (p d : b64) : option Z :=
  match ffloor p with
  | Some n => match c_int n with Some n => Some (if Beqb p (fint n) && Bltb d fzero then 1 else n) | None => None end
  | None => None
  end.
(** dtm_intersection.cpp 468-918: the loop over the vertices; [alti[i] = i] (line 434); the indices are of type [size_t]. *)
Fixpoint c_vertex_loop (c : cdtm) (los : list fvec3) (fuel cells steps i_0 : nat) (p_2 : fvec3) (h_2 : b64) : foutcome :=
  if (i_0 <? length los - 1)%nat then
    match steps with
    | O => FNoFuel
    | S steps =>
        match nth_error los i_0, nth_error los (i_0 + 1) with
        | Some a, Some b =>
            let s := fsegment_of a b in
            if Beqb (f_d0 s) fzero && Beqb (f_d1 s) fzero then
              match c_interpolate c (f_col0 s) (f_row0 s) with
              | None => FCrash
              | Some alti_1 =>
                  if Bleb (f_z1 s) alti_1 then FFound (FV3 (f_col0 s) (f_row0 s) alti_1)
                  else c_vertex_loop c los fuel cells steps (i_0 + 1) p_2 h_2
              end
            else
              let a_2 := fsub h_2 (fint (Z.of_nat i_0)) in
              let a_2 := if Bleb fone a_2 then fzero else a_2 in
              match c_first_cell (fv_row p_2) (f_d0 s), c_first_cell (fv_col p_2) (f_d1 s) with
              | Some col_c, Some row_c =>
                  let w := FW a_2 col_c row_c p_2 in
                  if c_guard c w then
                    match c_cell_loop c s fuel cells w with
                    | FDone o => o
                    | FEnd a_2 => if Bleb fone a_2 then c_vertex_loop c los fuel cells steps (i_0 + 1) b (fint (Z.of_nat (i_0 + 1))) else FNotFound
                    end
                  else FNotFound
              | _, _ => FCrash
              end
        | _, _ => FCrash
        end
    end
  else FNotFound.
(** dtm_intersection.cpp 423-927 [intersection], result in the frame of the indices; line 461 converts to [size_t]. *)
Definition c_intersection (c : cdtm) (fuel cells steps : nat) (los : list fvec3) (point_b : fvec3) (h_intersect : b64) : foutcome :=
  match c_interpolate c (fv_row point_b) (fv_col point_b) with
  | None => FCrash
  | Some alti_1 =>
      if Bltb (fsub (fv_alt point_b) alti_1) fzero then FNotFound
      else
        match ffloor h_intersect with
        | Some n => if n <? 0 then FCrash else c_vertex_loop c los fuel cells steps (Z.to_nat n) point_b h_intersect
        | None => FCrash
        end
  end.

(** One line of [intersection_n_los_dtm] (dtm_intersection.cpp 964-1040).  [CUninitialised]: the point of line 431, which has
    no value.  [CUndefined]: C++ gives no meaning to the execution. *)
Inductive cground := CPoint (q : fter) | CNaN | CUninitialised | CThrows | CUndefined | CEndless.
Definition c_ground_position (c : cdtm) (fuel cells steps : nat) (los : list fter) : cground :=
  let los_index := map (c_ter_to_index (cm_tr_inv c)) los in
  match c_intersect_dtm_cube c los_index with
  | None => CThrows
  | Some None => CNaN
  | Some (Some (position_cube, alti)) =>
      match c_intersection c fuel cells steps los_index position_cube alti with
      | FFound p => CPoint (c_index_to_ter (cm_tr c) p)
      | FNotFound => CUninitialised
      | FCrash => CUndefined
      | FNoFuel => CEndless
      end
  end.
