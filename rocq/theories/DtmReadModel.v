(** Model of [shareloc/dtm_reader.py]: nodata filling and geoid heights.

    The arrays of cells are flattened row by row.  Simplifications: the validity masks are booleans
    ([true] is 255, [false] is 0); the positions given to the geoid are finite. *)
From Coq Require Import Reals ZArith List Bool.
From Verif Require Import Num InterpModel ProjModel RpcModel DtmModel ImageModel.
Import ListNotations.
Open Scope R_scope.

(** ** Nodata *)
(** dtm_reader.py 86-90: the mask of the valid cells.  [nodata] is the nodata value of the file, if
    any; [file_mask] is the mask read from the file (only when there is a nodata value). *)
Definition valid_mask (nodata : option num) (file_mask : list bool) (data : list num) : list bool :=
  match nodata with
  | Some _ => map2 (fun m x => m && negb (isnan x)) file_mask data
  | None => map (fun x => negb (isnan x)) data
  end.

(** [np.sort] (an insertion sort), used by [np.median]. *)
Fixpoint insert_sorted (x : R) (l : list R) : list R :=
  match l with [] => [x] | y :: l => if Rleb x y then x :: y :: l else y :: insert_sorted x l end.
Definition np_sort (l : list R) : list R := fold_right insert_sorted [] l.
(** [np.median]: the middle value, or the mean of the two middle values. *)
Definition np_median (l : list R) : R :=
  let s := np_sort l in
  let n := length s in
  if Nat.even n then (nth (n / 2 - 1) s 0 + nth (n / 2) s 0) / 2 else nth (n / 2) s 0.
(** [np.mean]. *)
Definition np_mean (l : list R) : R := fold_right Rplus 0 l / INR (length l).

(** dtm_reader.py 92-97: the statistics of the valid cells. *)
Record stats := mkStats { st_min : R; st_max : R; st_mean : R; st_median : R }.
Definition finite_values (l : list num) : list R := flat_map (fun x => match x with Some v => [v] | None => [] end) l.
(** [None]: [np.min] raises ValueError when there is no valid cell. *)
Definition compute_stats (data : list num) (mask : list bool) : option stats :=
  match finite_values (gather mask data) with
  | [] => None
  | l => Some (mkStats (list_min l) (list_max l) (np_mean l) (np_median l))
  end.

(** The strategies of dtm_reader.py 119-146. *)
Inductive strategy := Smin | Smax | Smean | Smedian | Srio | Sconstant | Sunknown.

(** The comparison with the nodata value: false for NaN, and when there is no nodata value. *)
Definition is_nodata (nodata : option num) (x : num) : bool :=
  match nodata, x with Some (Some v), Some x => Reqb x v | _, _ => false end.

(** The number type of the file: floats, or integers between two bounds ([int16], ...).  The array read
    has the type of the file. *)
Inductive dtype := Floats | Ints (lo hi : Z).
(** The assignment of a number to cells of an array of this type (numpy).  An array of integers drops
    the fraction; None ([nan] here) raises TypeError.  [None]: exception.  Simplification: a number out
    of the bounds of the type is [None] (numpy warns or raises, and the value is not specified). *)
Definition store (ty : dtype) (v : num) : option num :=
  match ty, v with
  | Floats, _ => Some v
  | Ints lo hi, Some x =>
      if ((lo <=? Rtrunc x) && (Rtrunc x <=? hi))%Z%bool then Some (fin (IZR (Rtrunc x))) else None
  | Ints _ _, None => None
  end.

(** [data[mask == 0] = v]: the number is converted first, even when no cell is selected. *)
Definition fill_masked (ty : dtype) (data : list num) (mask : list bool) (v : num) : option (list num) :=
  match store ty v with
  | Some v => Some (map2 (fun (x : num) (m : bool) => if m then x else v) data mask)
  | None => None
  end.

(** dtm_reader.py 119-146 [fill_nodata].  [rio_fill] is [rasterio.fill.fillnodata] with its distance
    and smoothing arguments.  An array of floats holds NaN where it is given None. *)
Definition fill_nodata (ty : dtype) (rio_fill : list num -> list bool -> list num) (nodata : option num) (st : stats)
  (s : strategy) (fill_value : option R) (data : list num) (mask : list bool) : option (list num) :=
  match s with
  | Smin => fill_masked ty data mask (fin (st_min st))
  | Smax => fill_masked ty data mask (fin (st_max st))
  | Smean => fill_masked ty data mask (fin (st_mean st))
  | Smedian => fill_masked ty data mask (fin (st_median st))
  | Srio =>
      let data := rio_fill data mask in
      if existsb (is_nodata nodata) (gather (map negb mask) data)
      then
        match store ty (fin (match fill_value with Some v => v | None => st_min st end)) with
        | Some v => Some (map (fun x => if is_nodata nodata x then v else x) data)
        | None => None
        end
      else Some data
  | Sconstant => fill_masked ty data mask (match fill_value with Some v => fin v | None => nan end)
  | Sunknown => Some data
  end.

(** ** Geoid *)
(** dtm_reader.py 166-171: one more column, equal to the first one, unless the raster already covers
    more than 360 degrees. *)
Definition overlap (g : image) : raster :=
  let m := im_data g in
  if Rltb (IZR (rs_cols m) * im_pixel_size_col g - 360) (1 / 10 ^ 8)
  then mkRaster (rs_rows m) (rs_cols m + 1) (fun r c => if (c =? rs_cols m)%Z then rs_at m r 0 else rs_at m r c)
  else m.

(** dtm_reader.py 179-184: longitudes, modified in place. *)
Definition geoid_longitude (g : image) (lon : R) : R :=
  let p := im_pixel_size_col g in
  let min_lon := im_origin_col g + p / 2 in
  let max_lon := im_origin_col g + IZR (rs_cols (overlap g)) * p - p / 2 in
  let lon := if Rltb (lon + min_lon) 0 then lon + 360 else lon in
  if Rltb 0 (lon - max_lon) then lon - 360 else lon.

(** [scipy.interpolate.interpn] on the indices, linear, NaN outside of the raster
    (dtm_reader.py 188-195). *)
Definition interpn (m : raster) (r c : R) : num :=
  if Rleb 0 r && Rleb r (IZR (rs_rows m - 1)) && Rleb 0 c && Rleb c (IZR (rs_cols m - 1))
  then fin (interp m r c) else nan.

(** dtm_reader.py 149-195 [interpolate_geoid_height]; [g] is the image of the geoid file.  The result
    is the heights and the final content of the array [positions] of the caller.
    [None]: RuntimeError. *)
Definition interpolate_geoid_height (g : image) (positions : list (R * R)) : option (list num * list (R * R)) :=
  let positions := map (fun p => (geoid_longitude g (fst p), snd p)) positions in
  if existsb (fun p => Rltb 90 (Rabs (snd p))) positions then None
  else
    Some (map (fun p => let '(r, c) := transform_physical_point_to_index (im_trans_inv g) (snd p) (fst p) in
                        interpn (overlap g) r c) positions,
          positions).

(** ** The reader *)
(** dtm_reader.py 105-107: the centres of the cells, (lon, lat), row by row. *)
Definition cell_positions (t : affine) (rows cols : nat) : list (R * R) :=
  flat_map (fun r => map (fun c => let '(y, x) := transform_index_to_physical_point t (INR r) (INR c) in (x, y)) (seq 0 cols))
           (seq 0 rows).

(** dtm_reader.py 51-111 [__init__]: the altitudes.  A file (or a region) of a single row or column is
    squeezed to a vector (image.py 192), which [mask[:, :]] refuses (IndexError).  [conv] is
    [coordinates_conversion] to 4326; [None]: an exception. *)
Definition read_dtm (ty : dtype) (rio_fill : list num -> list bool -> list num) (conv : Z -> list (R * R) -> list (R * R))
  (t : affine) (rows cols : nat) (epsg : Z) (nodata : option num) (file_mask : list bool) (data : list num)
  (geoid : option image) (s : option strategy) (fill_value : option R) : option (list num) :=
  if ((rows =? 1) || (cols =? 1))%nat%bool then None
  else
    let mask := valid_mask nodata file_mask data in
    match compute_stats data mask with
    | None => None
    | Some st =>
        match match s with Some s => fill_nodata ty rio_fill nodata st s fill_value data mask | None => Some data end with
        | None => None
        | Some data =>
            match geoid with
            | None => Some data
            | Some g =>
                let positions := cell_positions t rows cols in
                let positions := if (epsg =? 4326)%Z then positions else conv epsg positions in
                match interpolate_geoid_height g positions with
                | Some (h, _) => Some (map2 nadd data h)
                | None => None
                end
            end
        end
    end.
