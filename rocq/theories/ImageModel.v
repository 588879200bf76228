(** Model of [shareloc/image.py]: the window read from a raster file.

    Simplifications: a region of interest in index space has integer bounds; the offsets, which the
    code keeps as floats holding integers, are integers. *)
From Coq Require Import Reals ZArith List Bool.
From Verif Require Import Num InterpModel ProjModel.
Import ListNotations.
Open Scope R_scope.

(** What [rasterio.open] gives: geotransform and cells of one band (image.py 77-82). *)
Record dataset := mkDataset { ds_transform : affine; ds_band : raster }.
Definition ds_height (f : dataset) : Z := rs_rows (ds_band f).
Definition ds_width (f : dataset) : Z := rs_cols (ds_band f).

(** [rasterio.windows.Window(col_off, row_off, width, height)]. *)
Record window := Win { wi_col : Z; wi_row : Z; wi_width : Z; wi_height : Z }.
(** image.py 117-131: the constructor refuses a negative size (the code raises RuntimeError). *)
Definition make_window (col_off row_off width height : Z) : option window :=
  if ((width <? 0) || (height <? 0))%Z%bool then None else Some (Win col_off row_off width height).

(** image.py 113-115: the size is limited by the size of the file ([int] of an integer). *)
Definition limit_window (f : dataset) (col_off row_off width height : Z) : option window :=
  make_window col_off row_off (Z.min width (ds_width f - col_off)) (Z.min height (ds_height f - row_off)).

(** image.py 106-111: the region is [row_min, col_min, row_max, col_max] in pixels. *)
Definition index_window (f : dataset) (r0 c0 r1 c1 : Z) : option window :=
  let row_off := Z.min (Z.max r0 0) (ds_height f) in
  let col_off := Z.min (Z.max c0 0) (ds_width f) in
  limit_window f col_off row_off (c1 - col_off) (r1 - row_off).

(** image.py 88-102: the region is [ymin, xmin, ymax, xmax] in physical space. *)
Definition physical_window (f : dataset) (y0 x0 y1 x1 : R) : option window :=
  let inv := affine_inv (ds_transform f) in
  let '(row_off, col_off) := transform_physical_point_to_index inv y0 x0 in
  let '(row_max, col_max) := transform_physical_point_to_index inv y1 x1 in
  let row_off := row_off + 1 / 2 in
  let col_off := col_off + 1 / 2 in
  let row_max := row_max + 1 / 2 in
  let col_max := col_max + 1 / 2 in
  let '(row_off, row_max) := if Rltb row_max row_off then (row_max, row_off) else (row_off, row_max) in
  let row_off := Z.max (Rfloor row_off) 0 in
  let col_off := Z.max (Rfloor col_off) 0 in
  limit_window f col_off row_off (Rceil (col_max - IZR col_off)) (Rceil (row_max - IZR row_off)).

(** [dataset.window_transform] (rasterio), image.py 133: the origin is moved to the corner of the
    first pixel of the window. *)
Definition window_transform (t : affine) (w : window) : affine :=
  let '(x, y) := affine_apply t (IZR (wi_col w), IZR (wi_row w)) in
  mkAffine (af_a t) (af_b t) x (af_d t) (af_e t) y.

(** The argument [vertical_direction]. *)
Inductive direction := Auto | North | South.

(** image.py 144-167. *)
Definition orient (v : direction) (t : affine) : affine :=
  let flip := mkAffine (af_a t) (af_b t) (af_c t) (- af_d t) (- af_e t) (- af_f t) in
  match v with
  | North => if Rltb (af_e t) 0 then flip else t
  | South => if Rltb 0 (af_e t) then flip else t
  | Auto => t
  end.

(** The object: geotransform, its inverse, and the data (image.py 133-195).  The origin and the pixel
    sizes are coefficients of the geotransform. *)
Record image := mkImage { im_transform : affine; im_trans_inv : affine; im_data : raster }.
Definition im_rows (i : image) : Z := rs_rows (im_data i).
Definition im_cols (i : image) : Z := rs_cols (im_data i).
Definition im_origin_row (i : image) : R := af_f (im_transform i).
Definition im_origin_col (i : image) : R := af_c (im_transform i).
Definition im_pixel_size_row (i : image) : R := af_e (im_transform i).
Definition im_pixel_size_col (i : image) : R := af_a (im_transform i).

(** [dataset.read(window)] (image.py 192): the cells of the window. *)
Definition read_window (m : raster) (w : window) : raster :=
  mkRaster (wi_height w) (wi_width w) (fun r c => rs_at m (wi_row w + r)%Z (wi_col w + c)%Z).

(** The region of interest. *)
Inductive region := Whole | Pixels (r0 c0 r1 c1 : Z) | Ground (y0 x0 y1 x1 : R).
Definition region_window (f : dataset) (g : region) : option window :=
  match g with
  | Whole => Some (Win 0 0 (ds_width f) (ds_height f))
  | Pixels r0 c0 r1 c1 => index_window f r0 c0 r1 c1
  | Ground y0 x0 y1 x1 => physical_window f y0 x0 y1 x1
  end.

(** image.py 48-195 [Image.__init__].  [None]: RuntimeError.  Without a region the geotransform is
    the one of the file, which is the one of the window of the whole file. *)
Definition open_image (f : dataset) (g : region) (v : direction) : option image :=
  match region_window f g with
  | Some w =>
      let t := orient v (window_transform (ds_transform f) w) in
      Some (mkImage t (affine_inv t) (read_window (ds_band f) w))
  | None => None
  end.
