(** Model of [shareloc/geofunctions/rectification.py]. *)
From Coq Require Import Reals ZArith List Bool.
From Verif Require Import Num ProjModel RpcModel RpcDtmModel LocModel TriModel.
Import ListNotations.
Open Scope R_scope.

(** Positions [row, col, altitude] are rows of three floats. *)
Definition p_row (p : row3) : num := lon3 p.
Definition p_col (p : row3) : num := lat3 p.
Definition p_alt (p : row3) : num := alt3 p.

(** Comparisons of floats: only [!=] is true for NaN. *)
Definition neqb (a b : num) : bool := match a, b with Some x, Some y => Reqb x y | _, _ => false end.
Definition nleb (a b : num) : bool := match a, b with Some x, Some y => Rleb x y | _, _ => false end.
Definition nltb (a b : num) : bool := match a, b with Some x, Some y => Rltb x y | _, _ => false end.

(** rectification.py 141-182 [compute_epipolar_angle], one point: the four masked assignments, in
    order, starting from zero. *)
Definition epipolar_angle (end_line start_line : row3) : num :=
  let same_col := neqb (p_col end_line) (p_col start_line) in
  let alpha := fin 0 in
  let alpha := if same_col && ngtb (p_row end_line) (p_row start_line) then fin (1 / 2 * PI) else alpha in
  let alpha := if same_col && nleb (p_row end_line) (p_row start_line) then fin (- (1 / 2) * PI) else alpha in
  let slope := ndiv (nsub (p_row end_line) (p_row start_line)) (nsub (p_col end_line) (p_col start_line)) in
  let alpha := if negb same_col && ngtb (p_col end_line) (p_col start_line) then nlift1 atan slope else alpha in
  if negb same_col && nleb (p_col end_line) (p_col start_line) then nadd (fin PI) (nlift1 atan slope) else alpha.
Definition compute_epipolar_angle (end_line start_line : list row3) : list num :=
  map2 epipolar_angle end_line start_line.

(** rectification.py 574-579, 668-673: the local baseline ratio of one point. *)
Definition baseline_ratio (elevation_offset : R) (e s : row3) : num :=
  ndiv (nlift1 sqrt (nadd (nmul (nsub (p_col e) (p_col s)) (nsub (p_col e) (p_col s)))
                          (nmul (nsub (p_row e) (p_row s)) (nsub (p_row e) (p_row s)))))
       (fin (2 * elevation_offset)).

(** rectification.py 436-450: the left node moved along the axis. *)
Definition move_node (axis : Z) (epi_step spacing : R) (p : row3) (angle : num) : row3 :=
  let epi_angle := nadd angle (fin (IZR (1 - axis) * PI / 2)) in
  let dx := nmul (fin (epi_step * spacing)) (nlift1 cos epi_angle) in
  let dy := nmul (fin (epi_step * spacing)) (nlift1 sin epi_angle) in
  R3 (nadd (p_row p) dy) (nadd (p_col p) dx) (p_alt p).

Definition axis_ok (axis : Z) : bool := (Z.eqb axis 0 || Z.eqb axis 1)%Z.

(** The results of a strip: the nodes and the angles, step by step (each step has one value for
    each node of the starting line; [left_grid[k, :, :]] if axis = 0, [left_grid[:, k, :]] if
    axis = 1), the mean baseline ratio and the number of NaNs. *)
Record strip := Strip {
  st_left : list (list row3); st_right : list (list row3); st_angles : list (list num);
  st_mean : num; st_nan : nat }.

Definition count_nan (l : list num) : nat := length (filter isnan l).

(** The transpose of an array of [n] columns (numpy [transpose], external). *)
Fixpoint transpose {A} (n : nat) (steps : list (list A)) : list (list A) :=
  match n with
  | O => []
  | S n => match seq_opt (map (@hd_error A) steps) with Some h => h | None => [] end :: transpose n (map (@tl A) steps)
  end.

Section Rect.
  Context {D : Type} (dtm_epsg : D -> Z) (conv : Z -> Z -> list row3 -> list row3)
          (ml mr : geomodel D).

  Definition coloc_rows (m1 m2 : geomodel D) (pts : list row3) (e : elevation D) : option (list row3 * list row3) :=
    coloc dtm_epsg conv m1 m2 (map p_row pts) (map p_col pts) e None None false.

  (** rectification.py 185-221 [compute_local_epipolar_line]: start, end, ground positions. *)
  Definition compute_local_epipolar_line (left_point : list row3) (e : elevation D) (elevation_offset : R)
    : option (list row3 * list row3 * list row3) :=
    match coloc_rows ml mr left_point e with
    | None => None
    | Some (right_corr, ground_coord) =>
        let ground_elev := map p_alt right_corr in
        let lower := map (fun h => nsub h (fin elevation_offset)) ground_elev in
        let upper := map (fun h => nadd h (fin elevation_offset)) ground_elev in
        match coloc_rows mr ml right_corr (Elev (Array lower)), coloc_rows mr ml right_corr (Elev (Array upper)) with
        | Some (epi_line_start, _), Some (epi_line_end, _) => Some (epi_line_start, epi_line_end, ground_coord)
        | _, _ => None
        end
    end.

  (** rectification.py 403-456 [moving_along_axis]: left, right, ground. *)
  Definition moving_along_axis (current : list row3) (spacing : R) (e : elevation D) (epi_step : R)
    (angles : list num) (axis : Z) : option (list row3 * list row3 * list row3) :=
    if axis_ok axis then
      let next_left := map2 (move_node axis epi_step spacing) current angles in
      match coloc_rows ml mr next_left e with
      | Some (next_right, ground) => Some (next_left, next_right, ground)
      | None => None
      end
    else None.

  (** rectification.py 620-628: the step ratio of one node. *)
  Definition step_ratio (ref : num) (max_ratio scale : R) (alt current_alt : num) : num :=
    let diff := nabs (nsub alt current_alt) in
    let ratio := ndiv (nlift1 sqrt (nadd (nmul diff diff) (nmul ref ref))) ref in
    let ratio := if ngtb ratio (fin max_ratio) then fin max_ratio else ratio in
    nadd ratio (nmul (nsub ratio (fin 1)) (fin scale)).
  (** rectification.py 634-636: the step divided by the ratio. *)
  Definition rescale_num (t c r : num) : num := nadd (ndiv (nsub t c) r) c.
  Definition rescale (t c : row3) (r : num) : row3 :=
    R3 (rescale_num (lon3 t) (lon3 c) r) (rescale_num (lat3 t) (lat3 c) r) (rescale_num (alt3 t) (alt3 c) r).
  Fixpoint rescale_all (t c : list row3) (r : list num) : list row3 :=
    match t, c, r with t0 :: t, c0 :: c, r0 :: r => rescale t0 c0 r0 :: rescale_all t c r | _, _, _ => [] end.

  (** Where the loop is: nodes, angles, ground positions, sum of the inverse ratios. *)
  Record walk := Walk { w_left : list row3; w_right : list row3; w_angles : list num; w_ground : list row3; w_sum : list num }.

  (** rectification.py 604-656: one turn of the loop; also the local baseline ratios.
      [epi_reso]: [Some (dist_plani_ref, max_ratio, scale)] for adaptive steps. *)
  Definition strip_step (spacing : R) (axis : Z) (epi_step : R) (e : elevation D) (elevation_offset : R)
    (epi_reso : option (num * R * R)) (w : walk) : option (walk * list num) :=
    match moving_along_axis (w_left w) spacing e epi_step (w_angles w) axis with
    | None => None
    | Some (temp_left, temp_right, ground) =>
        let '(left_pt, right_pt, sum) :=
          match epi_reso with
          | Some (ref, max_ratio, scale) =>
              let ratio := map2 (step_ratio ref max_ratio scale) (map alt3 ground) (map alt3 (w_ground w)) in
              (rescale_all temp_left (w_left w) ratio, rescale_all temp_right (w_right w) ratio,
               map2 (fun s r => nadd s (ndiv (fin 1) r)) (w_sum w) ratio)
          | None => (temp_left, temp_right, map (fun s => nadd s (fin 1)) (w_sum w))
          end in
        match compute_local_epipolar_line left_pt e elevation_offset with
        | None => None
        | Some (line_start, line_end, ground) =>
            Some (Walk left_pt right_pt (compute_epipolar_angle line_end line_start) ground sum,
                  map2 (baseline_ratio elevation_offset) line_end line_start)
        end
    end.

  (** rectification.py 603-676: the loop.  [slots] is the number of lines left in the output
      buffers: writing beyond them raises an IndexError ([None]).  Returns the walk after each
      turn, and all the local ratios. *)
  Fixpoint strip_loop (slots : nat) (strip_size : R) (spacing : R) (axis : Z) (epi_step : R) (e : elevation D)
    (elevation_offset : R) (epi_reso : option (num * R * R)) (w : walk) : option (list walk * list num) :=
    if existsb (fun s => nltb s (fin strip_size)) (w_sum w) then
      match slots with
      | O => None
      | S slots =>
          match strip_step spacing axis epi_step e elevation_offset epi_reso w with
          | None => None
          | Some (w', ratios) =>
              match strip_loop slots strip_size spacing axis epi_step e elevation_offset epi_reso w' with
              | Some (ws, rs) => Some (w' :: ws, ratios ++ rs)
              | None => None
              end
          end
      end
    else Some ([], []).

  (** rectification.py 461-705 [compute_strip_of_epipolar_grid] on a line of nodes [left_pts],
      [right_pts] (the squeezed input arrays; not empty).  [epi_angles]: the angles already known. *)
  Definition compute_strip_of_epipolar_grid (left_pts right_pts : list row3) (spacing : R) (axis : Z) (strip_size : nat)
    (epi_step : R) (e : elevation D) (elevation_offset : R) (epi_angles : option (list num))
    (epi_reso : option (num * R * R)) : option strip :=
    let max_strip_size :=
      match epi_reso with
      | Some (_, max_ratio, scale) => Z.to_nat (Rceil (INR strip_size * ((max_ratio - 1) * scale + 1)))
      | None => strip_size
      end in
    let first :=
      match epi_angles with
      | None =>
          match compute_local_epipolar_line left_pts e elevation_offset with
          | Some (line_start, line_end, ground) =>
              Some (compute_epipolar_angle line_end line_start, ground,
                    map2 (baseline_ratio elevation_offset) line_end line_start, 0%nat)
          | None => None
          end
      | Some a =>
          match direct dtm_epsg conv (make_localization ml e None None) (map (fun p => (p_row p, p_col p)) left_pts) None false with
          | Some ground => Some (a, ground, [], length a)
          | None => None
          end
      end in
    match first, max_strip_size with
    | Some (angles, ground, ratios0, already), S slots =>
        match strip_loop slots (INR strip_size) spacing axis epi_step e elevation_offset epi_reso
                (Walk left_pts right_pts angles ground (map (fun _ => fin 1) left_pts)) with
        | None => None
        | Some (ws, ratios) =>
            let all := ratios0 ++ ratios in
            let nan_count := count_nan all in
            let total := if Nat.eqb nan_count (max_strip_size * length left_pts) then nan else fin (nansum all) in
            let points := S (length ws) in
            match epi_angles, ws with
            | Some _, [] => None   (* 0 / 0 on Python integers: ZeroDivisionError *)
            | _, _ =>
            Some (Strip (left_pts :: map w_left ws) (right_pts :: map w_right ws) (angles :: map w_angles ws)
                    (ndiv total (fin (INR (points * length left_pts) - INR nan_count - INR already))) nan_count)
            end
        end
    | _, _ => None
    end.

  (** The left image, as the rectification uses it (image.py). *)
  Record left_image := LeftImage { li_transform : affine; li_rows : Z; li_cols : Z }.

  (** rectification.py 225-348 [prepare_rectification].  The local epipolar line at the origin of
      the image gives the angle and the altitude of the footprint. *)
  Record preparation := Prep {
    pr_grid_size : Z * Z; pr_rectified_size : Z * Z; pr_footprint : list row3; pr_start : row3 }.
  Definition mean_spacing (im : left_image) : R :=
    1 / 2 * (Rabs (af_a (li_transform im)) + Rabs (af_e (li_transform im))).

  Definition min4 (a b c d : R) : R := Rmin (Rmin (Rmin a b) c) d.
  Definition max4 (a b c d : R) : R := Rmax (Rmax (Rmax a b) c) d.

  (** rectification.py 281-302: the bounding box (minx, miny, maxx, maxy) for the angle [alpha]. *)
  Definition epipolar_box (im : left_image) (alpha : R) : R * R * R * R :=
    let along_x := cos alpha in
    let along_y := sin alpha in
    let ortho_x := - sin alpha in
    let ortho_y := cos alpha in
    let w := af_a (li_transform im) in
    let h := af_e (li_transform im) in
    let nc := IZR (li_cols im) in
    let nr := IZR (li_rows im) in
    let urx := along_x * nc * w in
    let ury := ortho_x * nc * w in
    let llx := along_y * nr * h in
    let lly := ortho_y * nr * h in
    let lrx := along_x * nc * w + along_y * nr * h in
    let lry := ortho_x * nc * w + ortho_y * nr * h in
    (min4 urx llx lrx 0, min4 ury lly lry 0, max4 urx llx lrx 0, max4 ury lly lry 0).

  (** rectification.py 304-346, with the angle and the mean altitude of the local epipolar line. *)
  Definition prepare_at (im : left_image) (epi_step : R) (margin : Z) (alpha : R) (alt : num) : preparation :=
    let sp := mean_spacing im in
    let '(origin_row, origin_col) := transform_index_to_physical_point (li_transform im) 0 0 in
    let '(minx, miny, maxx, maxy) := epipolar_box im alpha in
    let size := (Rtrunc ((maxy - miny) / sp), Rtrunc ((maxx - minx) / sp)) in
    let minx := minx - IZR margin * epi_step * sp in
    let miny := miny - IZR margin * epi_step * sp in
    let maxx := maxx + IZR margin * epi_step * sp in
    let maxy := maxy + IZR margin * epi_step * sp in
    let along_x := cos alpha in
    let along_y := sin alpha in
    let ortho_x := - sin alpha in
    let ortho_y := cos alpha in
    let at_ x y := R3 (fin (origin_row + (along_y * x + ortho_y * y))) (fin (origin_col + (along_x * x + ortho_x * y))) alt in
    let ul := at_ minx miny in
    let lr := at_ (maxx + epi_step) (maxy + epi_step) in
    let ur := at_ minx (maxy + epi_step) in
    let ll := at_ (maxx + epi_step) miny in
    let grid n := (Rtrunc (IZR n / epi_step + 2) + 2 * margin)%Z in
    Prep (grid (fst size), grid (snd size)) size [ul; ll; lr; ur] ul.

  Definition prepare_rectification (im : left_image) (e : elevation D) (epi_step : R) (elevation_offset : R) (margin : Z)
    : option preparation :=
    let '(origin_row, origin_col) := transform_index_to_physical_point (li_transform im) 0 0 in
    match compute_local_epipolar_line [R3 (fin origin_row) (fin origin_col) nan] e elevation_offset with
    | Some ([line_start], [line_end], _) =>
        match epipolar_angle line_end line_start with
        | Some alpha =>
            Some (prepare_at im epi_step margin alpha (ndiv (nadd (p_alt line_start) (p_alt line_end)) (fin 2)))
        | None => None   (* NaN sizes: int() raises ValueError *)
        end
    | _ => None
    end.

  (** rectification.py 351-400 [get_epipolar_extent]: (lat_min, lon_min, lat_max, lon_max). *)
  Definition get_epipolar_extent (im : left_image) (e : elevation D) (epi_step elevation_offset : R) (grid_margin : Z)
    (additional_margin : R) : option (num * num * num * num) :=
    match prepare_rectification im e epi_step elevation_offset grid_margin with
    | None => None
    | Some pr =>
        match direct dtm_epsg conv (make_localization ml NoElevation None None)
                (map (fun p => (p_row p, p_col p)) (pr_footprint pr)) (Some (Scalar (fin 0))) false with
        | None => None
        | Some g =>
            Some (nsub (np_min (map lat3 g)) (fin additional_margin), nsub (np_min (map lon3 g)) (fin additional_margin),
                  nadd (np_max (map lat3 g)) (fin additional_margin), nadd (np_max (map lon3 g)) (fin additional_margin))
        end
    end.

  (** rectification.py 77-138 [compute_epipolar_gsd]: the ground distances of one step across and
      one step along the epipolar direction. *)
  Definition dist_ecef (p q : row3) : num := vec_norm (row_sub p q).
  Definition compute_epipolar_gsd (start : row3) (spacing : R) (e : elevation D) (epi_step elevation_offset : R)
    : option (num * num) :=
    match compute_local_epipolar_line [start] e elevation_offset with
    | Some ([line_start], [line_end], _) =>
        let alpha := epipolar_angle line_end line_start in
        let along := move_node 1 epi_step spacing start alpha in
        let across := move_node 0 epi_step spacing start alpha in
        let coords := [start; across; along] in
        match gm_direct_h ml (map p_row coords) (map p_col coords) (map p_alt coords) with
        | Some ground =>
            match conv (gm_epsg ml) 4978%Z ground with
            | [g0; g1; g2] => Some (dist_ecef g1 g0, dist_ecef g2 g0)
            | _ => None
            end
        | None => None
        end
    | _ => None
    end.

  (** rectification.py 809-952 [compute_stereorectification_epipolar_grids], localisation grids:
      left grid, right grid, size of the rectified images, mean baseline ratio.  The starting points
      and the spacing are the ones of rectification.py 710-773 [init_inputs_rectification], inlined. *)
  Definition compute_stereorectification_epipolar_grids (im : left_image) (e : elevation D) (epi_step elevation_offset : R)
    (margin : Z) (adaptative : option (R * R)) (* scale_factor, max_ratio *)
    : option (list (list row3) * list (list row3) * (Z * Z) * num) :=
    let spacing := mean_spacing im in
    match prepare_rectification im e epi_step elevation_offset margin with
    | None => None
    | Some pr =>
        let start := pr_start pr in
        match coloc_rows ml mr [start] e with
        | Some ([right_pt], _) =>
            let reso :=
              match adaptative with
              | None => Some (None, None)
              | Some (scale, max_ratio) =>
                  match compute_epipolar_gsd start spacing e epi_step elevation_offset with
                  | Some (d0, d1) => Some (Some (d0, max_ratio, scale), Some (d1, max_ratio, scale))
                  | None => None
                  end
              end in
            let g0 := Z.to_nat (fst (pr_grid_size pr)) in
            let g1 := Z.to_nat (snd (pr_grid_size pr)) in
            match reso with
            | None => None
            | Some (reso0, reso1) =>
                match compute_strip_of_epipolar_grid [start] [right_pt] spacing 0 g0 epi_step e elevation_offset None reso0 with
                | None => None
                | Some col =>
                    match compute_strip_of_epipolar_grid (concat (st_left col)) (concat (st_right col)) spacing 1 g1
                            epi_step e elevation_offset (Some (concat (st_angles col))) reso1 with
                    | None => None
                    | Some s =>
                        let mean_baseline_ratio :=
                          ndiv (nadd (nmul (st_mean s) (fin (INR g1 * (INR g0 - 1) - INR (st_nan s))))
                                     (nmul (st_mean col) (fin (INR g0 - INR (st_nan col)))))
                               (fin (INR g1 * INR g0 - INR (st_nan s) - INR (st_nan col))) in
                        let n := length (concat (st_left col)) in
                        let size :=
                          match adaptative with
                          | None => pr_rectified_size pr
                          | Some _ =>
                              (Rtrunc (INR n * epi_step - epi_step / 2 - 2 * epi_step * IZR margin),
                               Rtrunc (INR (length (st_left s)) * epi_step - epi_step / 2 - 2 * epi_step * IZR margin))
                          end in
                        Some (transpose n (st_left s), transpose n (st_right s), size, mean_baseline_ratio)
                    end
                end
            end
        | _ => None
        end
    end.
End Rect.

(** rectification.py 776-804: the coordinates of the nodes ... *)
Definition displacement_transform (epi_step : R) : affine :=
  mkAffine epi_step 0 (- (epi_step * (1 / 2))) 0 epi_step (- (epi_step * (1 / 2))).
(** ... and [positions_to_displacement_grid] on one grid ([left_grid] and [right_grid] are treated
    alike; they are overwritten in place). *)
Definition displace (epi_step : R) (row col : nat) (p : row3) : row3 :=
  let '(grids_col, grids_row) := transform_index_to_physical_point (displacement_transform epi_step) (INR col) (INR row) in
  R3 (nsub (lon3 p) (fin grids_row)) (nsub (lat3 p) (fin grids_col)) (alt3 p).
Fixpoint mapi {A B} (f : nat -> A -> B) (k : nat) (l : list A) : list B :=
  match l with [] => [] | x :: l => f k x :: mapi f (S k) l end.
Definition positions_to_displacement_grid (grid : list (list row3)) (epi_step : R) : list (list row3) :=
  mapi (fun r line => mapi (fun c p => displace epi_step r c p) 0 line) 0 grid.

(** rectification.py 47-74 [write_epipolar_grid]: the first two bands of the file. *)
Definition write_epipolar_grid (grid : list (list row3)) (xy_convention : bool) : list (list num) * list (list num) :=
  let rows := map (map lon3) grid in
  let cols := map (map lat3) grid in
  if xy_convention then (cols, rows) else (rows, cols).

(** rectification_grid.py 37-93 [RectificationGrid] ([get_positions] returns the two arrays): the arrays have the column as first index. *)
Record rect_grid := RectGrid {
  rg_ori_col : R; rg_ori_row : R; rg_step_col : R; rg_step_row : R; rg_cols : nat; rg_rows : nat;
  rg_row_positions : list (list num); rg_col_positions : list (list num) }.
Definition read_rectification_grid (t : affine) (width height : nat) (band1 band2 : list (list num)) (is_displacement : bool)
  : rect_grid :=
  let '(ori_col, ori_row) := affine_apply t (1 / 2, 1 / 2) in
  let step_col := af_a t in
  let step_row := af_e t in
  let row_read := transpose width band2 in
  let col_read := transpose width band1 in
  let add_row := mapi (fun _ line => mapi (fun r v => nadd v (fin (ori_row + INR r * step_row))) 0 line) 0 in
  let add_col := mapi (fun c line => mapi (fun _ v => nadd v (fin (ori_col + INR c * step_col))) 0 line) 0 in
  if is_displacement then
    RectGrid ori_col ori_row step_col step_row width height (add_row row_read) (add_col col_read)
  else RectGrid ori_col ori_row step_col step_row width height row_read col_read.

(** scipy's RegularGridInterpolator, linear, extrapolating (external): the cell of a coordinate
    on the axis origin + k * step, k < n; the relative position in it; the bilinear combination. *)
Definition grid_cell (ori step : R) (n : nat) (x : R) : nat :=
  Nat.min (n - 2) (Z.to_nat (Rceil ((x - ori) / step) - 1)).
Definition at2 (a : list (list num)) (i j : nat) : num := nth j (nth i a []) nan.
Definition bilinear (a : list (list num)) (i j : nat) (u v : R) : num :=
  nadd (nadd (nmul (fin ((1 - u) * (1 - v))) (at2 a i j)) (nmul (fin ((1 - u) * v)) (at2 a i (S j))))
       (nadd (nmul (fin (u * (1 - v))) (at2 a (S i) j)) (nmul (fin (u * v)) (at2 a (S i) (S j)))).
(** rectification_grid.py 95-105 [interpolate] one position [col, row]: returns [col, row]. *)
Definition interpolate_grid (g : rect_grid) (col row : R) : num * num :=
  let i := grid_cell (rg_ori_col g) (rg_step_col g) (rg_cols g) col in
  let j := grid_cell (rg_ori_row g) (rg_step_row g) (rg_rows g) row in
  let u := (col - (rg_ori_col g + INR i * rg_step_col g)) / rg_step_col g in
  let v := (row - (rg_ori_row g + INR j * rg_step_row g)) / rg_step_row g in
  (bilinear (rg_col_positions g) i j u v, bilinear (rg_row_positions g) i j u v).

(** ** bindings/rectification.cpp *)
(** rectification.cpp 41-72 [compute_epipolar_angle]: an [else] branch is also taken for NaN. *)
Definition cpp_epipolar_angle (end_line start_line : row3) : num :=
  let slope := ndiv (nsub (p_row end_line) (p_row start_line)) (nsub (p_col end_line) (p_col start_line)) in
  if neqb (p_col end_line) (p_col start_line) then
    if ngtb (p_row end_line) (p_row start_line) then fin (1 / 2 * PI) else fin (- (1 / 2) * PI)
  else if ngtb (p_col end_line) (p_col start_line) then nlift1 atan slope
  else nadd (fin PI) (nlift1 atan slope).

Section CppRect.
  Context {D : Type} (ml mr : geomodel D).

  (** localization.cpp 53-87: [coloc] of one point, over a DTM or at a given altitude. *)
  Definition cpp_coloc1 (m1 m2 : geomodel D) (row col : num) (e : elevation D) : option row3 :=
    match (match e with
           | Dtm d => gm_direct_dtm m1 [row] [col] d
           | Elev (Scalar h) => gm_direct_h m1 [row] [col] [h]
           | _ => None
           end) with
    | Some [g] =>
        match gm_inverse m2 [lon3 g] [lat3 g] [alt3 g] with
        | Some [(r, c)] => Some (R3 r c (alt3 g))
        | _ => None
        end
    | _ => None
    end.

  (** rectification.cpp 75-117 [moving_along_axis]. *)
  Definition cpp_moving_along_axis (p : row3) (spacing : R) (e : elevation D) (epi_step : Z) (angle : num) (axis : Z)
    : option (row3 * row3) :=
    if (negb (Z.eqb axis 0) && negb (Z.eqb axis 1))%bool then None
    else
      let angle := nadd angle (fin (IZR (1 - axis) * PI / 2)) in
      let x := nmul (fin (IZR epi_step * spacing)) (nlift1 cos angle) in
      let y := nmul (fin (IZR epi_step * spacing)) (nlift1 sin angle) in
      let next := R3 (nadd (p_row p) y) (nadd (p_col p) x) (p_alt p) in
      match cpp_coloc1 ml mr (p_row next) (p_col next) e with
      | Some right_pt => Some (next, right_pt)
      | None => None
      end.

  (** rectification.cpp 120-160 [compute_local_epipolar_line]. *)
  Definition cpp_local_epipolar_line (p : row3) (e : elevation D) (elevation_offset : R) : option (row3 * row3) :=
    match cpp_coloc1 ml mr (p_row p) (p_col p) e with
    | None => None
    | Some r =>
        match cpp_coloc1 mr ml (p_row r) (p_col r) (Elev (Scalar (nsub (p_alt r) (fin elevation_offset)))),
              cpp_coloc1 mr ml (p_row r) (p_col r) (Elev (Scalar (nadd (p_alt r) (fin elevation_offset)))) with
        | Some line_start, Some line_end => Some (line_start, line_end)
        | _, _ => None
        end
    end.

  (** rectification.cpp 323-389: the inner loop for one starting node: the nodes, angles and local
      ratios of the following points. *)
  Fixpoint cpp_strip_points (n : nat) (spacing : R) (axis epi_step : Z) (e : elevation D) (elevation_offset : R)
    (p : row3) (angle : num) : option (list (row3 * row3 * num * num)) :=
    match n with
    | O => Some []
    | S n =>
        match cpp_moving_along_axis p spacing e epi_step angle axis with
        | None => None
        | Some (left_pt, right_pt) =>
            match cpp_local_epipolar_line left_pt e elevation_offset with
            | None => None
            | Some (line_start, line_end) =>
                let angle := cpp_epipolar_angle line_end line_start in
                match cpp_strip_points n spacing axis epi_step e elevation_offset left_pt angle with
                | Some rest => Some ((left_pt, right_pt, angle, baseline_ratio elevation_offset line_end line_start) :: rest)
                | None => None
                end
            end
        end
    end.

  (** rectification.cpp 272-322: one starting node; [known]: its angle if already computed. *)
  Definition cpp_strip_node (strip_size : nat) (spacing : R) (axis epi_step : Z) (e : elevation D) (elevation_offset : R)
    (p q : row3) (known : option num) : option (list (row3 * row3 * num) * list num) :=
    match (match known with
           | Some a => Some (a, [])
           | None =>
               match cpp_local_epipolar_line p e elevation_offset with
               | Some (line_start, line_end) =>
                   Some (cpp_epipolar_angle line_end line_start, [baseline_ratio elevation_offset line_end line_start])
               | None => None
               end
           end) with
    | None => None
    | Some (angle, first) =>
        match cpp_strip_points (strip_size - 1) spacing axis epi_step e elevation_offset p angle with
        | Some rest => Some ((p, q, angle) :: map fst rest, first ++ map snd rest)
        | None => None
        end
    end.

  (** rectification.cpp 163-426 [compute_strip_of_epipolar_grid], for a positive strip size.  An
      array of one NaN stands for "angles not given" (lines 260-268).  For each starting node: its
      strip of (left, right, angle); then the mean ratio and the number of NaNs. *)
  Definition cpp_compute_strip (left_pts right_pts : list row3) (spacing : R) (axis : Z) (strip_size : nat) (epi_step : Z)
    (e : elevation D) (elevation_offset : R) (epi_angles : list num) : option (list (list (row3 * row3 * num)) * num * nat) :=
    let '(known, already) :=
      match epi_angles with
      | [None] => (map (fun _ => None) left_pts, 0%nat)
      | _ => (map Some epi_angles, length epi_angles)
      end in
    match seq_opt (map2 (fun pq a => cpp_strip_node strip_size spacing axis epi_step e elevation_offset (fst pq) (snd pq) a)
                        (combine left_pts right_pts) known) with
    | None => None
    | Some nodes =>
        let ratios := concat (map snd nodes) in
        let nan_count := count_nan ratios in
        Some (map fst nodes,
              ndiv (fin (nansum ratios)) (fin (INR (strip_size * length left_pts) - INR already - INR nan_count)), nan_count)
    end.
End CppRect.
