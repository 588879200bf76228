(** Model of [compute_strip_of_epipolar_grid] of [shareloc/bindings/rectification.cpp] with its buffers: every
    access at a computed index is checked, and the arrays of positions of the caller are the buffers the function
    works in. *)
From Coq Require Import Reals ZArith List Bool.
From Verif Require Import Num ProjModel RpcModel LocModel RectModel CppMemModel AliasModel.
Import ListNotations.
Open Scope Z_scope.

(** An exception of a called function. *)
Definition call {A} (o : option A) : mem A := match o with Some x => Ran x | None => Threw end.

(** Three coordinates at three indices. *)
Definition read3 (v : list num) (i0 i1 i2 : Z) : mem row3 :=
  let* a := read v i0 in let* b := read v i1 in let* c := read v i2 in Ran (R3 a b c).
Definition write3 (v : list num) (i0 i1 i2 : Z) (p : row3) : mem (list num) :=
  let* v := write v i0 (lon3 p) in let* v := write v i1 (lat3 p) in write v i2 (alt3 p).

(** rectification.cpp 182-238: the buffers and the running sums: the arrays of the program, [left_grid],
    [right_grid], [epipolar_angles_computed], [epipolar_angles_out], [mean_baseline_ratio] before the division and
    [nan_count]. *)
Record strip_state := St {
  ss_arrays : store (list num); ss_left : list num; ss_right : list num; ss_comp : list num; ss_out : list num;
  ss_sum : R; ss_nan : Z }.

(** [for (int i = i0; ...; ++i)], [n] times. *)
Fixpoint for_ {S} (n : nat) (i : Z) (f : Z -> S -> mem S) (st : S) : mem S :=
  match n with
  | O => Ran st
  | S n => let* st := f i st in for_ n (i + 1) f st
  end.

Section StripMem.
  Context {D : Type} (ml mr : geomodel D).
  (** The arguments: [l] and [r] are the identities of the two arrays of positions, C-contiguous and of type float64
      (otherwise pybind11 makes a copy and the array of the caller is not touched).  The indices are unbounded
      integers: overflows of [int] are not modelled. *)
  Variables (l r : nat) (spacing : R) (axis strip_size epi_step : Z) (e : elevation D) (elevation_offset : R).
  Variables (nb_cols grid_cols : Z).

  (** rectification.cpp 303-308 and 383-388: the count of a local ratio. *)
  Definition count_ratio (x : num) (st : strip_state) : strip_state :=
    match x with
    | None => St (ss_arrays st) (ss_left st) (ss_right st) (ss_comp st) (ss_out st) (ss_sum st) (ss_nan st + 1)
    | Some x => St (ss_arrays st) (ss_left st) (ss_right st) (ss_comp st) (ss_out st) (ss_sum st + x)%R (ss_nan st)
    end.

  (** rectification.cpp 330-389: the body of the loop over the points of a strip. *)
  Definition mem_point (row col point : Z) (st : strip_state) : mem strip_state :=
    let i_row_col := row * grid_cols + col in
    let i_row_col_0 := row * nb_cols * 3 + col * 3 + 0 in
    let i_row_col_1 := row * nb_cols * 3 + col * 3 + 1 in
    let i_row_col_2 := row * nb_cols * 3 + col * 3 + 2 in
    let i_strip_0 := row * strip_size * 3 + col * 3 + 0 in
    let i_strip_1 := row * strip_size * 3 + col * 3 + 1 in
    let i_strip_2 := row * strip_size * 3 + col * 3 + 2 in
    let s := ss_arrays st in
    let* p := read3 (s l) i_row_col_0 i_row_col_1 i_row_col_2 in
    let* angle := read (ss_comp st) i_row_col in
    let* next := call (cpp_moving_along_axis ml mr p spacing e epi_step angle axis) in
    let* v := write3 (s l) i_row_col_0 i_row_col_1 i_row_col_2 (fst next) in
    let s := assign s l v in
    let* v := write3 (s r) i_row_col_0 i_row_col_1 i_row_col_2 (snd next) in
    let s := assign s r v in
    let* x := read (s l) i_row_col_0 in
    let* y := read (s l) i_row_col_1 in
    let* line := call (cpp_local_epipolar_line ml mr (R3 x y nan) e elevation_offset) in
    let* comp := write (ss_comp st) i_row_col (cpp_epipolar_angle (snd line) (fst line)) in
    let* angle := read comp i_row_col in
    let* left_pt := read3 (s l) i_row_col_0 i_row_col_1 i_row_col_2 in
    let* right_pt := read3 (s r) i_row_col_0 i_row_col_1 i_row_col_2 in
    let* grids :=
      if axis =? 0 then
        let* out := write (ss_out st) (i_row_col + point * grid_cols) angle in
        let* lg := write3 (ss_left st) (i_row_col_0 + point * nb_cols * 3) (i_row_col_1 + point * nb_cols * 3)
                     (i_row_col_2 + point * nb_cols * 3) left_pt in
        let* rg := write3 (ss_right st) (i_row_col_0 + point * nb_cols * 3) (i_row_col_1 + point * nb_cols * 3)
                     (i_row_col_2 + point * nb_cols * 3) right_pt in
        Ran (out, lg, rg)
      else
        let* out := write (ss_out st) (i_row_col + point) angle in
        let* lg := write3 (ss_left st) (i_strip_0 + point * 3) (i_strip_1 + point * 3) (i_strip_2 + point * 3) left_pt in
        let* rg := write3 (ss_right st) (i_strip_0 + point * 3) (i_strip_1 + point * 3) (i_strip_2 + point * 3) right_pt in
        Ran (out, lg, rg) in
    let '(out, lg, rg) := grids in
    Ran (count_ratio (baseline_ratio elevation_offset (snd line) (fst line))
           (St s lg rg comp out (ss_sum st) (ss_nan st))).

  (** rectification.cpp 252-390: the body of the loop over the positions given; [known]: the angles given, if
      any. *)
  Definition mem_node (known : option (list num)) (row col : Z) (st : strip_state) : mem strip_state :=
    let i_row_col := row * grid_cols + col in
    let i_row_col_0 := row * nb_cols * 3 + col * 3 + 0 in
    let i_row_col_1 := row * nb_cols * 3 + col * 3 + 1 in
    let i_row_col_2 := row * nb_cols * 3 + col * 3 + 2 in
    let s := ss_arrays st in
    let* p := read3 (s l) i_row_col_0 i_row_col_1 i_row_col_2 in
    let* lg := write3 (ss_left st) (row * grid_cols * 3 + col * 3 + 0) (row * grid_cols * 3 + col * 3 + 1)
                 (row * grid_cols * 3 + col * 3 + 2) p in
    let* q := read3 (s r) i_row_col_0 i_row_col_1 i_row_col_2 in
    let* rg := write3 (ss_right st) (row * grid_cols * 3 + col * 3 + 0) (row * grid_cols * 3 + col * 3 + 1)
                 (row * grid_cols * 3 + col * 3 + 2) q in
    let st := St s lg rg (ss_comp st) (ss_out st) (ss_sum st) (ss_nan st) in
    let* st :=
      match known with
      | None =>
          let* x := read (s l) i_row_col_0 in
          let* y := read (s l) i_row_col_1 in
          let* line := call (cpp_local_epipolar_line ml mr (R3 x y nan) e elevation_offset) in
          let* comp := write (ss_comp st) i_row_col (cpp_epipolar_angle (snd line) (fst line)) in
          Ran (count_ratio (baseline_ratio elevation_offset (snd line) (fst line)) (St s lg rg comp (ss_out st) (ss_sum st) (ss_nan st)))
      | Some angles =>
          let* a := read angles (row * nb_cols + col) in
          let* comp := write (ss_comp st) i_row_col a in
          Ran (St s lg rg comp (ss_out st) (ss_sum st) (ss_nan st))
      end in
    let* a := read (ss_comp st) i_row_col in
    let* out := write (ss_out st) i_row_col a in
    let st := St s lg rg (ss_comp st) out (ss_sum st) (ss_nan st) in
    for_ (Z.to_nat (strip_size - 1)) 1 (mem_point row col) st.
End StripMem.

(** What the call returns: the two grids and the angles, flat, with their numbers of rows and columns, the mean
    baseline ratio and the number of NaNs. *)
Record strip_result := StripRes {
  sr_rows : Z; sr_cols : Z; sr_left : list num; sr_right : list num; sr_angles : list num; sr_mean : num; sr_nan : Z }.

(** rectification.cpp 163-426 [compute_strip_of_epipolar_grid] on the arrays [l] and [r]; [nb_rows] and [nb_cols] are
    the first two dimensions of [l].  A negative size is a [length_error]. *)
Definition mem_strip {D} (ml mr : geomodel D) (s : store (list num)) (l r : nat) (nb_rows nb_cols : Z) (spacing : R)
  (axis strip_size epi_step : Z) (e : elevation D) (elevation_offset : R) (angles : list num)
  : mem (store (list num) * strip_result) :=
  let '(grid_rows, grid_cols) := if axis =? 0 then (strip_size, nb_cols) else (nb_rows, strip_size) in
  let nb_index := grid_rows * grid_cols * 3 in
  if nb_index <? 0 then Threw
  else
    let grid := repeat (fin 0) (Z.to_nat nb_index) in
    let flat := repeat (fin 0) (Z.to_nat (grid_rows * grid_cols)) in
    let* a0 := read angles 0 in
    let '(known, already) :=
      if isnan a0 && (length angles =? 1)%nat then (None, 0) else (Some angles, Z.of_nat (length angles)) in
    let* st := for_ (Z.to_nat nb_rows) 0 (fun row => for_ (Z.to_nat nb_cols) 0 (fun col =>
                 mem_node ml mr l r spacing axis strip_size epi_step e elevation_offset nb_cols grid_cols known row col))
                 (St s grid grid flat flat 0 0) in
    Ran (ss_arrays st,
         StripRes grid_rows grid_cols (ss_left st) (ss_right st) (ss_out st)
           (ndiv (fin (ss_sum st)) (fin (IZR (grid_rows * grid_cols - already - ss_nan st)))) (ss_nan st)).
