(** Model, in binary64, of the intersection of a line of sight with a DTM
    ([shareloc/geofunctions/dtm_intersection.py]), in the frame of the indices.  It is the model of
    DtmModel.v with the numbers of the machine: the operations are the ones of the code, in their order,
    and NaN and infinities follow the standard.  Simplifications: the DTM has at least one cell, its altitudes are
    finite, and its sizes are below 2 ^ 53 (so that the indices, which are Python integers, are exact). *)
From Coq Require Import ZArith Bool List.
From Flocq Require Import Core BinarySingleNaN.
From Verif Require Import FloatModel FloatInterpModel.
Import ListNotations.
Open Scope Z_scope.

Definition fabs : b64 -> b64 := Babs.
Definition fzero : b64 := fint 0.
Definition fone : b64 := fint 1.
(** dtm_intersection.py 82: [tol_z], the number of binary64 closest to 0.0001. *)
Definition ftol_z : b64 := flit 0x1a36e2eb1c432d (-66).

(** ** The DTM *)
(** [np.min] and [np.max] (finite numbers). *)
Definition fmin2 (x y : b64) : b64 := if Bltb y x then y else x.
Definition fmax2 (x y : b64) : b64 := if Bltb x y then y else x.
(** The cells of an array, row by row. *)
Definition fflatten (m : fraster) : list b64 :=
  flat_map (fun r => map (fun c => fr_at m (Z.of_nat r) (Z.of_nat c)) (seq 0 (Z.to_nat (fr_cols m)))) (seq 0 (Z.to_nat (fr_rows m))).
(** dtm_intersection.py 88-89. *)
Definition falt_min (m : fraster) : b64 := match fflatten m with [] => fzero | x :: l => fold_left fmin2 l x end.
Definition falt_max (m : fraster) : b64 := match fflatten m with [] => fzero | x :: l => fold_left fmax2 l x end.
(** [np.floor] and [np.ceil]. *)
Definition np_floor (x : b64) : b64 := match ffloor x with Some n => fint n | None => x end.
Definition np_ceil (x : b64) : b64 := match fceil x with Some n => fint n | None => x end.
(** dtm_intersection.py 200-227 [init_min_max]. *)
Definition falt_min_cell (m : fraster) (i j : Z) : b64 :=
  let a := fr_at m in np_floor (fmin2 (fmin2 (fmin2 (a i j) (a i (j + 1))) (a (i + 1) j)) (a (i + 1) (j + 1))).
Definition falt_max_cell (m : fraster) (i j : Z) : b64 :=
  let a := fr_at m in np_ceil (fmax2 (fmax2 (fmax2 (a i j) (a i (j + 1))) (a (i + 1) j)) (a (i + 1) (j + 1))).
(** dtm_intersection.py 185-198 [interpolate]. *)
Definition finterpolate (m : fraster) (row col : b64) : option b64 := finterpol_bilin m (fr_rows m) (fr_cols m) row col.

(** ** The DTM cube *)
(** dtm_intersection.py 90-95. *)
Definition fplane_coef_a : list b64 := [fone; fone; fzero; fzero; fzero; fzero].
Definition fplane_coef_b : list b64 := [fzero; fzero; fone; fone; fzero; fzero].
Definition fplane_coef_c : list b64 := [fzero; fzero; fzero; fzero; fone; fone].
Definition fplane_coef_d (m : fraster) : list b64 :=
  [fzero; fsub (fint (fr_rows m)) fone; fzero; fsub (fint (fr_cols m)) fone; falt_min m; falt_max m].
(** dtm_intersection.py 113-129 [eq_plan]. *)
Definition feq_plan (m : fraster) (i : nat) (p : fvec3) : b64 :=
  fsub (fadd (fadd (fmul (nth i fplane_coef_a fzero) (fv_row p)) (fmul (nth i fplane_coef_b fzero) (fv_col p)))
             (fmul (nth i fplane_coef_c fzero) (fv_alt p))) (nth i (fplane_coef_d m) fzero).
(** One entry of the lists of crossings. *)
Record fcrossing := FCr { fx_col : b64; fx_row : b64; fx_alt : b64; fx_h : b64 }.
(** dtm_intersection.py 285-329: the crossing of plane [i] between A and B (B is vertex [layer]). *)
Definition fplane_crossing (m : fraster) (i : nat) (a b : fvec3) (la lb : b64) (layer : Z) : fcrossing :=
  if Beqb la fzero then FCr (fv_row a) (fv_col a) (fv_alt a) (fint (layer - 1))
  else if Beqb lb fzero then FCr (fv_row b) (fv_col b) (fv_alt b) (fint layer)
  else
    let interp_coef_a := fdiv lb (fsub lb la) in
    let interp_coef_b := fdiv (fopp la) (fsub lb la) in
    let mix x y := fadd (fmul interp_coef_a x) (fmul interp_coef_b y) in
    FCr (if (i <? 2)%nat then nth i (fplane_coef_d m) fzero else mix (fv_row a) (fv_row b))
        (if ((1 <? i) && (i <? 4))%nat then nth i (fplane_coef_d m) fzero else mix (fv_col a) (fv_col b))
        (if (3 <? i)%nat then nth i (fplane_coef_d m) fzero else mix (fv_alt a) (fv_alt b))
        (fsub (fint layer) interp_coef_a).
(** dtm_intersection.py 265-335: the loop over the vertices for plane [i]. *)
Fixpoint fplane_scan (m : fraster) (i : nat) (a : fvec3) (rest : list fvec3) (layer : Z) : option fcrossing :=
  match rest with
  | [] => None
  | b :: rest =>
      let la := feq_plan m i a in
      let lb := feq_plan m i b in
      if Bleb (fmul la lb) fzero then Some (fplane_crossing m i a b la lb layer)
      else fplane_scan m i b rest (layer + 1)
  end.
(** dtm_intersection.py 252-335: the loop over the six planes. *)
Definition fall_crossings (m : fraster) (los_index : list fvec3) : list fcrossing :=
  match los_index with
  | [] => []
  | v :: _ => flat_map (fun i => match fplane_scan m i v los_index 0 with Some c => [c] | None => [] end) (seq 0 6)
  end.
(** dtm_intersection.py 340-354: the exchange sort. *)
Fixpoint fsort_pass (x : fcrossing) (l : list fcrossing) : fcrossing * list fcrossing :=
  match l with
  | [] => (x, [])
  | y :: l =>
      if Bltb (fx_h y) (fx_h x)
      then let '(m, l) := fsort_pass y l in (m, x :: l)
      else let '(m, l) := fsort_pass x l in (m, y :: l)
  end.
Fixpoint fexchange_sort (n : nat) (l : list fcrossing) : list fcrossing :=
  match n, l with
  | S n, x :: l => let '(m, l) := fsort_pass x l in m :: fexchange_sort n l
  | _, _ => l
  end.
(** dtm_intersection.py 361-368. *)
Definition ftest_on_cube (m : fraster) (c : fcrossing) : bool :=
  let d i := nth i (fplane_coef_d m) fzero in
  Bleb (d 0%nat) (fx_col c) && Bleb (fx_col c) (d 1%nat) && Bleb (d 2%nat) (fx_row c) && Bleb (fx_row c) (d 3%nat)
  && Bleb (d 4%nat) (fx_alt c) && Bleb (fx_alt c) (d 5%nat).
(** dtm_intersection.py 231-402 [intersect_dtm_cube]; [None]: not found. *)
Definition fintersect_dtm_cube (m : fraster) (los_index : list fvec3) : option (fvec3 * b64) :=
  let cs := fall_crossings m los_index in
  match filter (ftest_on_cube m) (fexchange_sort (length cs) cs) with
  | c :: _ :: _ => Some (FV3 (fx_col c) (fx_row c) (fx_alt c), fx_h c)
  | _ => None
  end.

(** ** The walk *)
(** dtm_intersection.py 459-465: the current segment. *)
Record fsegment := FSeg { f_col0 : b64; f_row0 : b64; f_z0 : b64; f_z1 : b64; f_d0 : b64; f_d1 : b64; f_d2 : b64 }.
(** The variables [a_2], [col_c], [row_c], [p_2]. *)
Record fwalk := FW { fw_a : b64; fw_c : Z; fw_r : Z; fw_p : fvec3 }.

(** dtm_intersection.py 537-745: determination of the new low point. *)
Definition fmesh_move (s : fsegment) (w : fwalk) : fwalk :=
  let c := fw_c w in
  let r := fw_r w in
  let p := fw_p w in
  let col a := fadd (f_col0 s) (fmul a (f_d0 s)) in
  let row a := fadd (f_row0 s) (fmul a (f_d1 s)) in
  let alt a := fadd (f_z0 s) (fmul a (f_d2 s)) in
  let at_col n := fdiv (fsub (fint n) (f_col0 s)) (f_d0 s) in
  let at_row n := fdiv (fsub (fint n) (f_row0 s)) (f_d1 s) in
  if Beqb (f_d0 s) fzero then                                           (* 537-551 *)
    if Bltb (f_d1 s) fzero then let a := at_row r in FW a c (r - 1) (FV3 (fv_row p) (fint r) (alt a))
    else let a := at_row (r + 1) in FW a c (r + 1) (FV3 (fv_row p) (fint (r + 1)) (alt a))
  else if Beqb (f_d1 s) fzero then                                      (* 553-567 *)
    if Bltb (f_d0 s) fzero then let a := at_col c in FW a (c - 1) r (FV3 (fint c) (fv_col p) (alt a))
    else let a := at_col (c + 1) in FW a (c + 1) r (FV3 (fint (c + 1)) (fv_col p) (alt a))
  else if Bltb (f_d0 s) fzero && Bleb (f_d0 s) (f_d1 s) && Bleb (f_d0 s) (fopp (f_d1 s)) then (* 571-613 north *)
    let a := at_col c in
    let y := row a in
    if Bltb (fint r) y && Bltb y (fint (r + 1)) then FW a (c - 1) r (FV3 (fint c) y (alt a))
    else if Bltb y (fint r) then let a := at_row r in FW a c (r - 1) (FV3 (col a) (fint r) (alt a))
    else if Bltb (fint (r + 1)) y then let a := at_row (r + 1) in FW a c (r + 1) (FV3 (col a) (fint (r + 1)) (alt a))
    else if Beqb y (fint r) then FW a (c - 1) (r - 1) (FV3 (fint c) (fint r) (alt a))
    else if Beqb y (fint (r + 1)) then FW a (c - 1) (r + 1) (FV3 (fint c) (fint (r + 1)) (alt a))
    else FW a c r (FV3 (fv_row p) y (fv_alt p))
  else if Bltb fzero (f_d1 s) && Bleb (f_d0 s) (f_d1 s) && Bleb (fopp (f_d0 s)) (f_d1 s) then (* 615-657 east *)
    let a := at_row (r + 1) in
    let x := col a in
    if Bltb (fint c) x && Bltb x (fint (c + 1)) then FW a c (r + 1) (FV3 x (fint (r + 1)) (alt a))
    else if Bltb x (fint c) then let a := at_col c in FW a (c - 1) r (FV3 (fint c) (row a) (alt a))
    else if Bltb (fint (c + 1)) x then let a := at_col (c + 1) in FW a (c + 1) r (FV3 (fint (c + 1)) (row a) (alt a))
    else if Beqb x (fint c) then FW a (c - 1) (r + 1) (FV3 (fint c) (fint (r + 1)) (alt a))
    else if Beqb x (fint (c + 1)) then FW a (c + 1) (r + 1) (FV3 (fint (c + 1)) (fint (r + 1)) (alt a))
    else FW a c r (FV3 x (fv_col p) (fv_alt p))
  else if Bltb fzero (f_d0 s) && Bleb (f_d1 s) (f_d0 s) && Bleb (fopp (f_d1 s)) (f_d0 s) then (* 659-701 south *)
    let a := at_col (c + 1) in
    let y := row a in
    if Bltb (fint r) y && Bltb y (fint (r + 1)) then FW a (c + 1) r (FV3 (fint (c + 1)) y (alt a))
    else if Bltb y (fint r) then let a := at_row r in FW a c (r - 1) (FV3 (col a) (fint r) (alt a))
    else if Bltb (fint (r + 1)) y then let a := at_row (r + 1) in FW a c (r + 1) (FV3 (col a) (fint (r + 1)) (alt a))
    else if Beqb y (fint r) then FW a (c + 1) (r - 1) (FV3 (fint (c + 1)) (fint r) (alt a))
    else if Beqb y (fint (r + 1)) then FW a (c + 1) (r + 1) (FV3 (fint (c + 1)) (fint (r + 1)) (alt a))
    else FW a c r (FV3 (fv_row p) y (fv_alt p))
  else if Bltb (f_d1 s) fzero && Bleb (f_d1 s) (f_d0 s) && Bleb (f_d1 s) (fopp (f_d0 s)) then (* 703-745 west *)
    let a := at_row r in
    let x := col a in
    if Bltb (fint c) x && Bltb x (fint (c + 1)) then FW a c (r - 1) (FV3 x (fint r) (alt a))
    else if Bltb x (fint c) then let a := at_col c in FW a (c - 1) r (FV3 (fint c) (row a) (alt a))
    else if Bltb (fint (c + 1)) x then let a := at_col (c + 1) in FW a (c + 1) r (FV3 (fint (c + 1)) (row a) (alt a))
    else if Beqb x (fint c) then FW a (c - 1) (r - 1) (FV3 (fint c) (fint r) (alt a))
    else if Beqb x (fint (c + 1)) then FW a (c + 1) (r - 1) (FV3 (fint (c + 1)) (fint r) (alt a))
    else FW a c r (FV3 x (fv_col p) (fv_alt p))
  else w.

(** dtm_intersection.py 748-759: [b_intersect]. *)
Definition fmay_intersect (h_i h_s z_0 z_1 z_p1 z_p2 : b64) : bool :=
  let outside z := (Bltb h_s z_p1 && Bltb h_s z) || (Bltb z_p1 h_i && Bltb z h_i) in
  if Bltb z_0 z_p2 then negb (outside z_0)
  else if Bltb z_p2 z_1 then negb (outside z_1)
  else negb (outside z_p2).

(** Results.  [FCrash]: an exception (the interpolation at a NaN position, an index out of range). *)
Inductive foutcome := FFound (p : fvec3) | FNotFound | FCrash | FNoFuel.

(** dtm_intersection.py 782-815: the altitude refinement; [n] bounds the iterations. *)
Fixpoint frefine (itp : b64 -> b64 -> option b64) (n : nat) (p_1 : fvec3) (alti_1 : b64) (p_2 : fvec3) (h_2 : b64) : foutcome :=
  match n with
  | O => FNoFuel
  | S n =>
      let c_h := fdiv (fsub (fv_alt p_1) alti_1) (fsub (fsub h_2 alti_1) (fsub (fv_alt p_2) (fv_alt p_1))) in
      let mix x y := fadd x (fmul c_h (fsub y x)) in
      let p_a := FV3 (mix (fv_row p_1) (fv_row p_2)) (mix (fv_col p_1) (fv_col p_2)) (mix (fv_alt p_1) (fv_alt p_2)) in
      match itp (fv_row p_a) (fv_col p_a) with
      | None => FCrash
      | Some z_v =>
          let d_2 := fsub z_v (fv_alt p_a) in
          if Bltb ftol_z (fabs d_2) then
            if Bltb d_2 fzero then frefine itp n p_a z_v p_2 h_2 else frefine itp n p_1 alti_1 p_a z_v
          else FFound p_a
      end
  end.

(** dtm_intersection.py 519, 524: the guard of the loop over the cells. *)
Definition fcell_guard (m : fraster) (w : fwalk) : bool :=
  Bltb (fw_a w) fone && ((-1 <? fw_c w) && (fw_c w <? fr_rows m - 1)) && ((-1 <? fw_r w) && (fw_r w <? fr_cols m - 1)).

(** What the loop over the cells of one segment ends with. *)
Inductive fcell_result := FDone (o : foutcome) | FEnd (a_2 : b64).
(** dtm_intersection.py 524-819: the loop over the cells; [n] bounds its iterations, [fuel] those of the
    refinement. *)
Fixpoint fcell_loop (m : fraster) (s : fsegment) (fuel n : nat) (w : fwalk) : fcell_result :=
  if fcell_guard m w then
    match n with
    | O => FDone FNoFuel
    | S n =>
        let h_i := falt_min_cell m (fw_c w) (fw_r w) in
        let h_s := falt_max_cell m (fw_c w) (fw_r w) in
        let p_1 := fw_p w in
        let w' := fmesh_move s w in
        let p_2 := fw_p w' in
        if fmay_intersect h_i h_s (f_z0 s) (f_z1 s) (fv_alt p_1) (fv_alt p_2) then
          match finterpolate m (fv_row p_1) (fv_col p_1), finterpolate m (fv_row p_2) (fv_col p_2) with
          | Some alti_1, Some h_2 =>
              if Bleb (fmul (fsub (fv_alt p_1) alti_1) (fsub (fv_alt p_2) h_2)) fzero
              then FDone (frefine (finterpolate m) fuel p_1 alti_1 p_2 h_2)
              else fcell_loop m s fuel n w'
          | _, _ => FDone FCrash
          end
        else fcell_loop m s fuel n w'
    end
  else FEnd (fw_a w).

(** dtm_intersection.py 504-516: the first cell along one axis; [None]: the exception of [int] on NaN. *)
Definition ffirst_cell (p d : b64) : option Z :=
  match ffloor p with
  | Some c => Some (if Beqb p (fint c) && Bltb d fzero then c - 1 else c)
  | None => None
  end.
(** [los_index[i]] with Python's negative indices; [None]: IndexError. *)
Definition fpy_get (l : list fvec3) (i : Z) : option fvec3 :=
  let n := Z.of_nat (length l) in
  if i <? 0 then if 0 <=? i + n then nth_error l (Z.to_nat (i + n)) else None
  else nth_error l (Z.to_nat i).
(** dtm_intersection.py 459-465. *)
Definition fsegment_of (a b : fvec3) : fsegment :=
  FSeg (fv_row a) (fv_col a) (fv_alt a) (fv_alt b) (fsub (fv_row b) (fv_row a)) (fsub (fv_col b) (fv_col a)) (fsub (fv_alt b) (fv_alt a)).

(** dtm_intersection.py 457-843: the loop over the vertices; [steps] bounds its iterations, [cells] those of each
    loop over the cells, [h_2] is [h_intersect_p2]. *)
Fixpoint fvertex_loop (m : fraster) (los : list fvec3) (fuel cells steps : nat) (i_0 : Z) (p_2 : fvec3) (h_2 : b64) : foutcome :=
  let nb := Z.of_nat (length los) in
  if i_0 <? nb - 1 then
    match steps with
    | O => FNoFuel
    | S steps =>
        match fpy_get los i_0, fpy_get los (i_0 + 1) with
        | Some a, Some b =>
            let s := fsegment_of a b in
            if Beqb (f_d0 s) fzero && Beqb (f_d1 s) fzero then          (* 468-483 *)
              match finterpolate m (f_col0 s) (f_row0 s) with
              | None => FCrash
              | Some alti_1 =>
                  if Bleb (f_z1 s) alti_1 then FFound (FV3 (f_col0 s) (f_row0 s) alti_1)
                  else fvertex_loop m los fuel cells steps (i_0 + 1) p_2 h_2
              end
            else
              let a_2 := fsub h_2 (fint i_0) in
              let a_2 := if Bleb fone a_2 then fzero else a_2 in        (* 492-500 *)
              match ffirst_cell (fv_row p_2) (f_d0 s), ffirst_cell (fv_col p_2) (f_d1 s) with
              | Some c, Some r =>
                  let w := FW a_2 c r p_2 in
                  if fcell_guard m w then                               (* 519-521 *)
                    match fcell_loop m s fuel cells w with
                    | FDone o => o
                    | FEnd a_2 =>
                        if Bleb fone a_2 then                           (* 824-831 *)
                          fvertex_loop m los fuel cells steps (i_0 + 1) b (fint (nb - (i_0 + 1)))
                        else FNotFound                                  (* 833-837 *)
                    end
                  else FNotFound
              | _, _ => FCrash
              end
        | _, _ => FCrash
        end
    end
  else FNotFound.

(** dtm_intersection.py 409-843 [intersection], result in the frame of the indices. *)
Definition fintersection (m : fraster) (fuel cells steps : nat) (los_index : list fvec3) (point_b : fvec3) (h_intersect : b64) : foutcome :=
  match finterpolate m (fv_row point_b) (fv_col point_b) with
  | None => FCrash
  | Some alti_1 =>
      if Bltb (fsub (fv_alt point_b) alti_1) fzero then FNotFound       (* 441-446 *)
      else
        match ffloor h_intersect with
        | None => FCrash
        | Some i_0 => fvertex_loop m los_index fuel cells steps i_0 point_b h_intersect
        end
  end.
(** dtm_intersection.py 857-864: one line of sight, in the frame of the indices; [None]: the position is NaN. *)
Definition flocate (m : fraster) (fuel cells steps : nat) (los_index : list fvec3) : option foutcome :=
  match fintersect_dtm_cube m los_index with
  | None => None
  | Some (position_cube, alti) => Some (fintersection m fuel cells steps los_index position_cube alti)
  end.
