(** Model of [shareloc/geomodels/grid.py]: the localization functions of a grid that has been read. *)
From Coq Require Import Reals ZArith List Bool.
From Verif Require Import Num InterpModel ProjModel RpcModel DtmModel RpcDtmModel.
Import ListNotations.
Open Scope R_scope.

(** grid.py 81-115: the attributes of a grid.  The layers are in the order of [alts_down]; the arrays
    [lon_data] and [lat_data] are the lists of their layers. *)
Record grid := mkGrid {
  gr_row0 : R; gr_col0 : R; gr_steprow : R; gr_stepcol : R;
  gr_nbrow : Z; gr_nbcol : Z;
  gr_alts : list R; gr_lon : list raster; gr_lat : list raster;
  gr_epsg : option Z }.
(** grid.py 167. *)
Definition gr_nbalt (g : grid) : nat := length (gr_alts g).
(** grid.py 186-187. *)
Definition gr_rowmax (g : grid) : R := gr_row0 g + gr_steprow g * (IZR (gr_nbrow g) - 1).
Definition gr_colmax (g : grid) : R := gr_col0 g + gr_stepcol g * (IZR (gr_nbcol g) - 1).

(** grid.py 234-241 [get_alt_min_max]. *)
Definition get_alt_min_max (g : grid) : R * R := (last (gr_alts g) 0, hd 0 (gr_alts g)).

(** ** The two interpolators *)
(** grid.py 119-123 [alt_normalise_interp] (scipy [interp1d], linear with extrapolation, external).
    scipy first puts the altitudes in increasing order: they are in decreasing order, so this is the
    reversed list (equal altitudes divide by zero, whatever their order).  The altitude is searched
    from the left and the interval is clipped to the first and last ones. *)
Definition searchsorted (xs : list R) (x : R) : nat := length (filter (fun y => Rltb y x) xs).
Definition alt_normalise (alts : list R) (alt : R) : num :=
  let n := length alts in
  let xs := rev alts in
  let ys := rev (map INR (seq 0 n)) in
  let hi := Nat.max 1 (Nat.min (searchsorted xs alt) (n - 1)) in
  let lo := (hi - 1)%nat in
  let slope := ndiv (fin (nth hi ys 0 - nth lo ys 0)) (fin (nth hi xs 0 - nth lo xs 0)) in
  nadd (nmul slope (fin (alt - nth lo xs 0))) (fin (nth lo ys 0)).

(** grid.py 125-132 [interpolator_lonlat] (scipy [RegularGridInterpolator], linear with extrapolation,
    external), for one of the two data cubes, at the layer [z] and the position [row], [col].  The
    axes of rows and columns are regular (exact numbers, so the last node is the one of index nb - 1).
    scipy's product of weights is written as the interpolation, between two layers, of the bilinear
    interpolation of each layer. *)
Definition no_layer : raster := mkRaster 0 0 (fun _ _ => 0).
Definition layer (data : list raster) (k : Z) : raster := nth (Z.to_nat k) data no_layer.
Definition grid_pos_row (g : grid) (row : R) : R := (row - gr_row0 g) / gr_steprow g.
Definition grid_pos_col (g : grid) (col : R) : R := (col - gr_col0 g) / gr_stepcol g.
Definition interpolator (g : grid) (data : list raster) (z row col : R) : R :=
  let k := lower_index (Z.of_nat (gr_nbalt g)) z in
  let v i := interp (layer data i) (grid_pos_row g row) (grid_pos_col g col) in
  (1 - (z - IZR k)) * v k + (z - IZR k) * v (k + 1)%Z.
(** Both cubes at once, at an altitude; NaN coordinates give NaN. *)
Definition interpolator_lonlat (g : grid) (row col alt : num) : num * num :=
  match row, col, alt with
  | Some r, Some c, Some h =>
      match alt_normalise (gr_alts g) h with
      | Some z => (fin (interpolator g (gr_lon g) z r c), fin (interpolator g (gr_lat g) z r c))
      | None => (nan, nan)
      end
  | _, _, _ => (nan, nan)
  end.

(** ** Direct localization *)
(** grid.py 267-268, 787-788: an altitude array of another size is replaced by its first value.
    [None]: IndexError. *)
Definition fill_alt (n : nat) (alt : list num) : option (list num) :=
  if (length alt =? n)%nat then Some alt
  else match alt with a :: _ => Some (repeat a n) | [] => None end.

(** grid.py 270-281: one row of [position].  A pixel with a NaN coordinate keeps NaN, which is also
    what the interpolator gives. *)
Definition grid_position (g : grid) (row col alt : num) : row3 :=
  let '(lon, lat) := interpolator_lonlat g row col alt in R3 lon lat alt.
(** grid.py 282-283, 351-352. *)
Definition check_geographic (epsg : option Z) (l : list row3) : list row3 :=
  match epsg with Some e => if (e =? 4326)%Z then check_lonlat l else l | None => l end.
Fixpoint map3 {A B C D} (f : A -> B -> C -> D) (a : list A) (b : list B) (c : list C) : list D :=
  match a, b, c with x :: a, y :: b, z :: c => f x y z :: map3 f a b c | _, _, _ => [] end.
(** grid.py 243-284 [direct_loc_h].  [None]: an exception; rows and columns of different lengths do not fit the same
    mask (simplification: also when one of them is a single NaN, which makes every pixel NaN in the code). *)
Definition grid_direct_loc_h (g : grid) (row col alt : list num) : option (list row3) :=
  if negb (length row =? length col)%nat then None else
  match fill_alt (length col) alt with
  | Some alt => Some (check_geographic (gr_epsg g) (map3 (grid_position g) row col alt))
  | None => None
  end.

(** grid.py 355-373 [los_extrema], for one pixel. *)
Definition grid_los_extrema (g : grid) (row col : num) (alt_min alt_max : R) : option (list row3) :=
  match grid_direct_loc_h g [row] [col] [fin alt_max], grid_direct_loc_h g [row] [col] [fin alt_min] with
  | Some [a], Some [b] => Some [a; b]
  | _, _ => None
  end.

(** grid.py 375-403 [interpolate_grid_in_plani] and 286-316 [compute_los]: for every pixel, one vertex
    per altitude of [alts] ([alts_down] when it is not given).  With another epsg the conversion is
    called with a three-dimensional array, which it does not accept: an exception ([None]), and so are rows and columns
    of different lengths (grid.py 401). *)
Definition compute_los (g : grid) (row col : list num) (epsg : Z) (alts : option (list R)) : option (list (list row3)) :=
  let alts := match alts with Some a => a | None => gr_alts g end in
  let los := map2 (fun r c => map (fun h => grid_position g r c (fin h)) alts) row col in
  if negb (length row =? length col)%nat then None else
  match gr_epsg g with
  | Some e => if (epsg =? e)%Z then Some los else None
  | None => None
  end.

(** grid.py 344-348 (in [direct_loc_dtm]): the altitudes of the lines of sight: those of the
    layers, and the ends of the DTM range when they are outside. *)
Definition nltb (a b : num) : bool := ngtb b a.
Definition los_altitudes (g : grid) (min_dtm max_dtm : num) : list R :=
  let alts := gr_alts g in
  let alts := match min_dtm with
              | Some m => if Rltb m (last (gr_alts g) 0) then alts ++ [m] else alts
              | None => alts end in
  match max_dtm with
  | Some m => if Rltb (hd 0 (gr_alts g)) m then m :: alts else alts
  | None => alts
  end.
(** The DTM range (grid.py 341-343), in the altitudes of the grid. *)
Definition dtm_range (conv : Z -> Z -> list row3 -> list row3) (e : Z) (d : dtm) : num * num :=
  let '(diff_alti_min, diff_alti_max) := get_dtm_alt_offset conv e d in
  (nadd (fin (alt_min d - 1)) diff_alti_min, nadd (fin (alt_max d + 1)) diff_alti_max).

(** grid.py 318-353 [direct_loc_dtm].  [None]: an exception; for rows and columns of different lengths, see
    [grid_direct_loc_h]. *)
Definition grid_direct_loc_dtm (conv : Z -> Z -> list row3 -> list row3) (fuel : nat) (g : grid)
  (row col : list num) (d : dtm) : option (list row3) :=
  if negb (length row =? length col)%nat then None else
  let filter_nan := map2 (fun r c => negb (isnan r || isnan c)) row col in
  let points_dtm := map (fun _ => nan3) col in
  if existsb (fun b => b) filter_nan then
    match gr_epsg g with
    | None => None
    | Some e =>
        let '(min_dtm, max_dtm) := dtm_range conv e d in
        match compute_los g (gather filter_nan row) (gather filter_nan col) (dt_epsg d)
                (Some (los_altitudes g min_dtm max_dtm)) with
        | None => None
        | Some all_los =>
            match intersection_n_los_dtm d fuel all_los with
            | None => None
            | Some res => Some (check_geographic (gr_epsg g) (scatter filter_nan points_dtm res))
            end
        end
    end
  else Some points_dtm.

(** [np.arange(start, start + n * step, step)] (exact numbers: n elements). *)
Definition arange (start step : R) (n : nat) : list R := map (fun k => start + INR k * step) (seq 0 n).

(** Cutting a flat list in [n] rows of [w] elements ([ndarray.reshape]). *)
Fixpoint rows_of {A} (n w : nat) (l : list A) : list (list A) :=
  match n with O => [] | S n => firstn w l :: rows_of n w (skipn w l) end.

(** grid.py 502-535 [direct_loc_grid_h] (the transposition to three planes is left out).  [None]: an exception, for
    instance a step of 0 in [np.arange]. *)
Definition grid_direct_loc_grid_h (g : grid) (row0 col0 steprow stepcol : R) (nbrow nbcol : nat) (alt : R) :
  option (list (list row3)) :=
  if Req_EM_T steprow 0 then None else
  if Req_EM_T stepcol 0 then None else
  let rows := arange row0 steprow nbrow in
  let cols := arange col0 stepcol nbcol in
  let rows2d := flat_map (fun r => map (fun _ => fin r) cols) rows in
  let cols2d := flat_map (fun _ => map fin cols) rows in
  match grid_direct_loc_h g rows2d cols2d [fin alt] with
  | Some l => Some (rows_of nbrow nbcol l)
  | None => None
  end.

(** grid.py 440-476 [direct_loc_grid_dtm]: the nodes one by one.  The lines of sight have the altitudes
    of the layers only; the found flag is ignored. *)
Definition grid_dtm_node (fuel : nat) (g : grid) (d : dtm) (row col : R) : option row3 :=
  match compute_los g [fin row] [fin col] (dt_epsg d) None with
  | Some [los] => intersection_one d fuel los
  | _ => None
  end.
Definition grid_direct_loc_grid_dtm (fuel : nat) (g : grid) (row0 col0 steprow stepcol : R) (nbrow nbcol : nat)
  (d : dtm) : option (list (list row3)) :=
  seq_opt (map (fun i => seq_opt (map (fun j =>
     grid_dtm_node fuel g d (row0 + steprow * INR i) (col0 + stepcol * INR j)) (seq 0 nbcol))) (seq 0 nbrow)).

(** grid.py 405-438 [interpolate_grid_in_altitude]; [None] for [nbalt]: the altitudes of the grid.
    Simplification: nbrow, nbcol >= 2 (otherwise the code divides by zero). *)
Definition linspace (a b : R) (n : nat) : list R :=
  map (fun k => a + INR k * ((b - a) / (INR n - 1))) (seq 0 n).
Definition interpolate_grid_in_altitude (g : grid) (nbrow nbcol : nat) (nbalt : option nat) :
  option (list (list (list row3))) :=
  let list_alts := match nbalt with
                   | Some (S n) => linspace (hd 0 (gr_alts g)) (last (gr_alts g) 0) (S n)
                   | _ => gr_alts g
                   end in
  let steprow := (gr_rowmax g - gr_row0 g) / (INR nbrow - 1) in
  let stepcol := (gr_colmax g - gr_col0 g) / (INR nbcol - 1) in
  seq_opt (map (grid_direct_loc_grid_h g (gr_row0 g) (gr_col0 g) steprow stepcol nbrow nbcol) list_alts).

(** ** Inverse localization *)
(** grid.py 478-500 [return_grid_index].  The indices may be -1 (Python wraps it around). *)
Fixpoint count_while (f : R -> bool) (l : list R) : nat :=
  match l with x :: l => if f x then S (count_while f l) else O | [] => O end.
Definition return_grid_index (alts : list R) (alt : R) : Z * Z :=
  let nbalt := Z.of_nat (length alts) in
  if Rltb (hd 0 alts) alt then (0, 1)%Z
  else if Rltb alt (last alts 0) then (nbalt - 2, nbalt - 1)%Z
  else
    let i := Z.of_nat (count_while (fun a => Rleb alt a) alts) in
    let i := if (i =? nbalt)%Z then (nbalt - 1)%Z else i in
    (i - 1, i)%Z.

(** A read in a data cube, and in the list of altitudes.  [None]: IndexError, or a negative index. *)
Definition cube_get (data : list raster) (k r c : Z) : option R :=
  if (k <? 0)%Z then None
  else match nth_error data (Z.to_nat k) with Some m => rs_get m r c | None => None end.
Definition alt_get (alts : list R) (k : Z) : option R :=
  if (k <? 0)%Z then None else nth_error alts (Z.to_nat k).

(** The predictor attributes (grid.py 108-115, 624-631). *)
Record predictor := Pred {
  pd_col_min : list R; pd_row_min : list R; pd_col_max : list R; pd_row_max : list R;
  pd_lon : R * R; pd_lat : R * R; pd_row : R * R; pd_col : R * R }.

Definition dot (a b : list R) : R := fold_right Rplus 0 (map2 Rmult a b).
(** grid.py 633-672 [inverse_loc_predictor] (without the extrapolation flag, which is not used). *)
Definition inverse_loc_predictor (g : grid) (p : predictor) (lon lat alt : R) : num * num :=
  let altmin := last (gr_alts g) 0 in
  let altmax := hd 0 (gr_alts g) in
  match ndiv (fin (lon - fst (pd_lon p))) (fin (snd (pd_lon p))),
        ndiv (fin (lat - fst (pd_lat p))) (fin (snd (pd_lat p))),
        ndiv (fin (alt - altmin)) (fin (altmax - altmin)) with
  | Some lon_n, Some lat_n, Some h_x =>
      let vect_sol := [1; lon_n; lat_n; lon_n * lon_n; lat_n * lat_n; lon_n * lat_n] in
      let col_min := dot (pd_col_min p) vect_sol * snd (pd_col p) + fst (pd_col p) in
      let row_min := dot (pd_row_min p) vect_sol * snd (pd_row p) + fst (pd_row p) in
      let col_max := dot (pd_col_max p) vect_sol * snd (pd_col p) + fst (pd_col p) in
      let row_max := dot (pd_row_max p) vect_sol * snd (pd_row p) + fst (pd_row p) in
      (fin ((1 - h_x) * row_min + h_x * row_max), fin ((1 - h_x) * col_min + h_x * col_max))
  | _, _, _ => (nan, nan)
  end.

(** [np.deg2rad] *)
Definition deg2rad (x : R) : R := x * PI / 180.

(** A 2 x 2 matrix. *)
Record mat2 := M2 { m00 : R; m01 : R; m10 : R; m11 : R }.

(** grid.py 676-747 [inverse_partial_derivative].  [None]: an exception; [Some None]: NaN entries (a
    zero determinant, two equal altitudes). *)
Definition inverse_partial_derivative (g : grid) (row col alt : R) : option (option mat2) :=
  let index_row := Z.max (Z.min (Rfloor (grid_pos_row g row)) (gr_nbrow g - 2)) 0 in
  let index_col := Z.max (Z.min (Rfloor (grid_pos_col g col)) (gr_nbcol g - 2)) 0 in
  let '(up, down) := return_grid_index (gr_alts g) alt in
  let lon k r c := cube_get (gr_lon g) k (index_row + r) (index_col + c) in
  let lat k r c := cube_get (gr_lat g) k (index_row + r) (index_col + c) in
  match seq_opt [lon up 0 0; lon up 0 1; lon up 1 0; lon down 0 0; lon down 0 1; lon down 1 0;
                 lat up 0 0; lat up 0 1; lat up 1 0; lat down 0 0; lat down 0 1; lat down 1 0;
                 alt_get (gr_alts g) up; alt_get (gr_alts g) down]%Z with
  | Some [lon_h00; lon_h01; lon_h10; lon_b00; lon_b01; lon_b10;
          lat_h00; lat_h01; lat_h10; lat_b00; lat_b01; lat_b10; alt_up; alt_down] =>
      let dlon_ch := deg2rad (lon_h01 - lon_h00) / gr_stepcol g in
      let dlon_cb := deg2rad (lon_b01 - lon_b00) / gr_stepcol g in
      let dlon_lh := deg2rad (lon_h10 - lon_h00) / gr_steprow g in
      let dlon_lb := deg2rad (lon_b10 - lon_b00) / gr_steprow g in
      let dlat_ch := deg2rad (lat_h01 - lat_h00) / gr_stepcol g in
      let dlat_cb := deg2rad (lat_b01 - lat_b00) / gr_stepcol g in
      let dlat_lh := deg2rad (lat_h10 - lat_h00) / gr_steprow g in
      let dlat_lb := deg2rad (lat_b10 - lat_b00) / gr_steprow g in
      match ndiv (fin (alt - alt_down)) (fin (alt_up - alt_down)) with
      | None => Some None
      | Some h_x =>
          let dlon_c := ((1 - h_x) * dlon_cb + h_x * dlon_ch) * 1000000 in
          let dlat_c := ((1 - h_x) * dlat_cb + h_x * dlat_ch) * 1000000 in
          let dlon_l := ((1 - h_x) * dlon_lb + h_x * dlon_lh) * 1000000 in
          let dlat_l := ((1 - h_x) * dlat_lb + h_x * dlat_lh) * 1000000 in
          let det := dlon_c * dlat_l - dlon_l * dlat_c in
          if Req_EM_T det 0 then Some None
          else Some (Some (M2 (dlat_l / det) (- dlon_l / det) (- dlat_c / det) (dlon_c / det)))
      end
  | _ => None
  end.

(** grid.py 803, 806, 813: the constants of the error in square metres. *)
Definition deg2mrad : R := deg2rad 1 * 1000000.
Definition rtx : R := / 1000000000000 * (6378000 * 6378000).
Definition tol_m2 : R := / 1000000.

(** grid.py 813-824: the loop, for one ground point; [n] is the number of iterations left, [err] is
    [m2_error] (NaN: the comparison is false and the loop stops).  [None]: an exception; a NaN pixel
    raises in [inverse_partial_derivative] (int of NaN; simplification: so does an infinite one). *)
Fixpoint grid_newton (g : grid) (lon lat alt : R) (n : nat) (row col err : num) : option (num * num) :=
  match n with
  | O => Some (row, col)
  | S n =>
      if ngtb err (fin tol_m2) then
        match row, col with
        | Some r, Some c =>
            match grid_direct_loc_h g [fin r] [fin c] [fin alt], inverse_partial_derivative g r c alt with
            | Some (position :: _), Some mat =>
                let dlon := nmul (nsub (lon3 position) (fin lon)) (fin deg2mrad) in
                let dlat := nmul (nsub (lat3 position) (fin lat)) (fin deg2mrad) in
                let wlon := nmul dlon (fin (cos (deg2rad lat))) in
                let err := nmul (fin rtx) (nadd (nmul dlat dlat) (nmul wlon wlon)) in
                let dcol := match mat with
                            | Some m => nadd (nmul (fin (m00 m)) dlon) (nmul (fin (m01 m)) dlat)
                            | None => nan end in
                let drow := match mat with
                            | Some m => nadd (nmul (fin (m10 m)) dlon) (nmul (fin (m11 m)) dlat)
                            | None => nan end in
                grid_newton g lon lat alt n (nsub row drow) (nsub col dcol) err
            | _, _ => None
            end
        | _, _ => None
        end
      else Some (row, col)
  end.
(** grid.py 799-828: one ground point.  [pred = None]: the predictor has not been estimated
    (TypeError).  Without any iteration the pixel is None, which is written as NaN (825-828). *)
Definition grid_inverse_one (g : grid) (pred : option predictor) (nb_iterations : nat) (p : row3) : option (num * num) :=
  match lon3 p, lat3 p, alt3 p with
  | Some lon, Some lat, Some alt =>
      match pred with
      | None => None
      | Some pd =>
          let '(row, col) := inverse_loc_predictor g pd lon lat alt in
          match nb_iterations with
          | O => Some (nan, nan)
          | _ => grid_newton g lon lat alt nb_iterations row col (fin 10)
          end
      end
  | _, _, _ => Some (nan, nan)
  end.
(** grid.py 749-829 [inverse_loc]; the results (row, col, alt) of all the points.  The range check is
    done for every epsg.  [None]: an exception, or longitudes and latitudes of different lengths (ragged array). *)
Definition grid_inverse_loc (g : grid) (pred : option predictor) (nb_iterations : nat) (lon lat alt : list num) :
  option (list (num * num * num)) :=
  match fill_alt (length lon) alt with
  | None => None
  | Some alt =>
      match zip3 lon lat alt with
      | None => None
      | Some rows =>
          seq_opt (map (fun p => match grid_inverse_one g pred nb_iterations p with
                                 | Some (r, c) => Some (r, c, alt3 p)
                                 | None => None
                                 end) (check_lonlat rows))
      end
  end.

(** ** The predictor *)
Fixpoint sumn (n : nat) (f : nat -> R) : R := match n with O => 0 | S n => sumn n f + f n end.
(** [a @ b] with [n] columns in [a]. *)
Definition mat_mul (n : nat) (a b : nat -> nat -> R) (i j : nat) : R := sumn n (fun k => a i k * b k j).
(** grid.py 595-606: one row of [a_min] or [a_max]. *)
Definition quadratic_terms (lon lat : R) : list R := [1; lon; lat; lon * lon; lat * lat; lon * lat].
(** grid.py 586-621: the coefficients for the normalised positions [pts] (row-major) and the values [b];
    [inv] is [np.linalg.inv] (external; [None]: LinAlgError). *)
Definition least_squares (inv : nat -> (nat -> nat -> R) -> option (nat -> nat -> R)) (pts : list (R * R)) (b : list R) :
  option (list R) :=
  let nb_mes := length pts in
  let a i j := nth j (quadratic_terms (fst (nth i pts (0, 0))) (snd (nth i pts (0, 0)))) 0 in
  let at_ i j := a j i in
  match inv 6%nat (mat_mul nb_mes at_ a) with
  | Some t_aa_inv => Some (map (fun i => mat_mul nb_mes (mat_mul 6 t_aa_inv at_) (fun k _ => nth k b 0) i 0) (seq 0 6))
  | None => None
  end.
Definition finite_lonlat (p : row3) : option (R * R) :=
  match lon3 p, lat3 p with Some x, Some y => Some (x, y) | _, _ => None end.
(** grid.py 539-631 [estimate_inverse_loc_predictor].  Simplifications: [None] also when a position is
    NaN or when a scale is zero (the code goes on with NaN). *)
Definition estimate_inverse_loc_predictor (inv : nat -> (nat -> nat -> R) -> option (nat -> nat -> R)) (g : grid)
  (nbrow_pred nbcol_pred : nat) : option predictor :=
  let col_norm := linspace (-1) 1 nbcol_pred in
  let row_norm := linspace (-1) 1 nbrow_pred in
  let b_col := flat_map (fun _ => col_norm) row_norm in
  let b_row := flat_map (fun r => map (fun _ => r) col_norm) row_norm in
  match interpolate_grid_in_altitude g nbrow_pred nbcol_pred (Some 2%nat) with
  | Some [top; bottom] =>
      match seq_opt (map finite_lonlat (concat top)), seq_opt (map finite_lonlat (concat bottom)) with
      | Some top, Some bottom =>
          let lons := map fst top ++ map fst bottom in
          let lats := map snd top ++ map snd bottom in
          let lon_ofset := (list_max lons + list_min lons) / 2 in
          let lon_scale := (list_max lons - list_min lons) / 2 in
          let lat_ofset := (list_max lats + list_min lats) / 2 in
          let lat_scale := (list_max lats - list_min lats) / 2 in
          if Req_EM_T lon_scale 0 then None
          else if Req_EM_T lat_scale 0 then None
          else
            let norm := map (fun q => ((fst q - lon_ofset) / lon_scale, (snd q - lat_ofset) / lat_scale)) in
            let col_ofset := (gr_colmax g + gr_col0 g) / 2 in
            let col_scale := (gr_colmax g - gr_col0 g) / 2 in
            let row_ofset := (gr_rowmax g + gr_row0 g) / 2 in
            let row_scale := (gr_rowmax g - gr_row0 g) / 2 in
            match least_squares inv (norm bottom) b_col, least_squares inv (norm bottom) b_row,
                  least_squares inv (norm top) b_col, least_squares inv (norm top) b_row with
            | Some cmin, Some rmin, Some cmax, Some rmax =>
                Some (Pred cmin rmin cmax rmax (lon_ofset, lon_scale) (lat_ofset, lat_scale)
                        (row_ofset, row_scale) (col_ofset, col_scale))
            | _, _, _, _ => None
            end
      | _, _ => None
      end
  | _ => None
  end.

(** ** Colocation of two grids *)
(** grid.py 832-863 [coloc]: one node, and the whole grid.  [nb_iterations] has its default value. *)
Definition grid_coloc_node (conv : Z -> Z -> list row3 -> list row3) (fuel : nat) (src dst : grid)
  (pred : option predictor) (d : dtm) (row col : R) : option (num * num * num) :=
  match grid_direct_loc_dtm conv fuel src [fin row] [fin col] d with
  | Some [p] =>
      match grid_inverse_loc dst pred 15 [lon3 p] [lat3 p] [alt3 p] with
      | Some [q] => Some q
      | _ => None
      end
  | _ => None
  end.
Definition grid_coloc (conv : Z -> Z -> list row3 -> list row3) (fuel : nat) (src dst : grid) (pred : option predictor)
  (d : dtm) (l0 c0 steprow stepcol : R) (nbrow nbcol : nat) : option (list (list (num * num * num))) :=
  seq_opt (map (fun i => seq_opt (map (fun j =>
     grid_coloc_node conv fuel src dst pred d (l0 + steprow * INR i) (c0 + stepcol * INR j)) (seq 0 nbcol))) (seq 0 nbrow)).
