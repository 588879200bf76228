(** Specification of the DTM reader. *)
From Coq Require Import Reals ZArith List Bool Sorted Permutation.
From Verif Require Import Num InterpModel InterpSpec ProjModel ProjSpec ImageModel ImageSpec DtmReadModel.
Import ListNotations.
Open Scope R_scope.

(** A cell of value [v] is a valid one: it is finite and, when the file has a nodata value, it is not
    masked. *)
Definition valid_cell (nodata : option num) (file_mask : list bool) (data : list num) (k : nat) (v : R) : Prop :=
  nth_error data k = Some (Some v) /\ (nodata = None \/ nth_error file_mask k = Some true).

(** The values of the valid cells, in order. *)
Fixpoint valid_values (nodata : option num) (file_mask : list bool) (data : list num) : list R :=
  match data, file_mask with
  | Some v :: data, m :: file_mask =>
      if match nodata with None => true | Some _ => m end then v :: valid_values nodata file_mask data
      else valid_values nodata file_mask data
  | None :: data, _ :: file_mask => valid_values nodata file_mask data
  | _, _ => []
  end.

(** Rasterio's filling changes only the cells that are masked. *)
Definition fills_only_masked (rio_fill : list num -> list bool -> list num) : Prop :=
  forall data mask, length mask = length data ->
    length (rio_fill data mask) = length data /\
    forall k, nth_error mask k = Some true -> nth_error (rio_fill data mask) k = nth_error data k.
(** The mask of the file is the one of its nodata value. *)
Definition mask_of_nodata (nodata : option num) (file_mask : list bool) (data : list num) : Prop :=
  match nodata with
  | Some n => forall k x, nth_error data k = Some (Some x) -> (nth_error file_mask k = Some false <-> n = Some x)
  | None => True
  end.

(** [z] is [x] without its fraction. *)
Definition without_fraction (x : R) (z : Z) : Prop :=
  Rabs (IZR z) <= Rabs x < Rabs (IZR z) + 1 /\ 0 <= x * IZR z.
(** What a cell holds after it was given the number [x]: [x] itself in a file of floats, its integer part
    in a file of integers. *)
Definition held (ty : dtype) (x : R) (w : R) : Prop :=
  match ty with
  | Floats => w = x
  | Ints lo hi => exists z, without_fraction x z /\ (lo <= z <= hi)%Z /\ w = IZR z
  end.
(** The cells of a file of integers are integers of its type. *)
Definition typed_cells (ty : dtype) (data : list num) : Prop :=
  match ty with
  | Floats => True
  | Ints lo hi => forall k x, nth_error data k = Some x -> exists z, x = Some (IZR z) /\ (lo <= z <= hi)%Z
  end.

(** Statistics. *)
Definition is_min (l : list R) (m : R) : Prop := In m l /\ forall x, In x l -> m <= x.
Definition is_max (l : list R) (m : R) : Prop := In m l /\ forall x, In x l -> x <= m.
Definition is_mean (l : list R) (m : R) : Prop := m * INR (length l) = fold_right Rplus 0 l.
Definition is_median (l : list R) (m : R) : Prop :=
  exists s, Permutation s l /\ Sorted Rle s /\
    ((exists a b, s = a ++ m :: b /\ length a = length b) \/
     (exists a x y b, s = a ++ x :: y :: b /\ length a = length b /\ 2 * m = x + y)).

(** A geoid that covers all the longitudes, once. *)
Definition global_geoid (g : image) : Prop :=
  unrotated (im_transform g) /\ im_trans_inv g = affine_inv (im_transform g) /\ 0 < im_pixel_size_col g /\ im_pixel_size_row g <> 0 /\
  IZR (rs_cols (im_data g)) * im_pixel_size_col g = 360 /\ (1 <= rs_cols (im_data g))%Z /\ (2 <= rs_rows (im_data g))%Z.
(** The longitude of the centre of the first column. *)
Definition first_longitude (g : image) : R := im_origin_col g + im_pixel_size_col g / 2.
(** The height above the ellipsoid: bilinear in the indices, the columns being periodic. *)
Definition geoid_height_at (g : image) (lon lat h : R) : Prop :=
  exists i j u v, (0 <= i < rs_rows (im_data g) - 1)%Z /\ 0 <= u <= 1 /\ 0 <= v <= 1 /\
    lon = im_origin_col g + im_pixel_size_col g * (IZR j + v + 1 / 2) /\
    lat = im_origin_row g + im_pixel_size_row g * (IZR i + u + 1 / 2) /\
    let n := rs_cols (im_data g) in
    let a r c := rs_at (im_data g) r (c mod n) in
    h = lerp (lerp (a i j) (a i (j + 1)%Z) v) (lerp (a (i + 1)%Z j) (a (i + 1)%Z (j + 1)%Z) v) u.
(** The latitude is between the first and the last row. *)
Definition latitude_covered (g : image) (lat : R) : Prop :=
  exists r, 0 <= r <= IZR (rs_rows (im_data g) - 1) /\ lat = im_origin_row g + im_pixel_size_row g * (r + 1 / 2).
