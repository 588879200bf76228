(** Words of the statements about the heights of a geoid in binary64 (C108). *)
From Coq Require Import ZArith Reals.
From Flocq Require Import Core BinarySingleNaN.
From Verif Require Import InterpModel InterpSpec FloatModel FloatInterpModel FloatGeoModel FloatGeoSpec FloatGeoidModel PropertiesFloat2.
Open Scope R_scope.

(** The longitude of the centres of the first column. *)
Definition first_meridian (g : fgeoid) : R := B2R (fa_c (fg_transform g)) + B2R (fa_a (fg_transform g)) / 2.
(** A geoid that covers all the longitudes once, up to a billionth of a degree, from a first column between -180 and 0 degree (up to rounding).  The Earth and
    the origins of the longitudes and latitudes are at most [m] cells away from the corner of the raster. *)
Definition global_heights (g : fgeoid) (m : R) : Prop :=
  let t := fg_transform g in
  north_up t /\ cells_away t m /\ 0 < B2R (fa_a t) /\ 720 <= m * B2R (fa_a t) <= 1000 /\ 90 + Rabs (B2R (fa_f t)) <= m * Rabs (B2R (fa_e t)) /\
  Rabs (IZR (fr_cols (fg_data g)) * B2R (fa_a t) - 360) <= / 1000000000 /\ -180 - / 10000000000 <= first_meridian g <= / 10000000000 /\
  (1 <= fr_cols (fg_data g))%Z /\ (2 <= fr_rows (fg_data g) < 2 ^ 52)%Z /\
  (forall i j, (0 <= i < fr_rows (fg_data g))%Z -> (0 <= j < fr_cols (fg_data g))%Z -> is_finite (fr_at (fg_data g) i j) = true).
(** The heights, in real numbers; the columns are periodic. *)
Definition all_around (g : fgeoid) : raster :=
  mkRaster (fr_rows (fg_data g)) (fr_cols (fg_data g) + 1) (fun i j => B2R (fr_at (fg_data g) i (j mod fr_cols (fg_data g)))).
(** [h] is the bilinear height at [row], [col], within [d]. *)
Definition height_at (g : fgeoid) (row col d : R) (h : b64) : Prop :=
  is_finite h = true /\ in_hull (all_around g) row col /\
  forall i j, is_cell (all_around g) i j -> in_cell i j row col -> Rabs (B2R h - bilinear_in_cell (all_around g) i j row col) <= d.
(** On rasters of finite numbers up to [b], the formula is the bilinear interpolation within [d]. *)
Definition interpolates (evaluate : fraster -> b64 -> b64 -> b64) (b d : R) : Prop :=
  forall m row col i j, finite_raster m -> bounded_by b m -> is_finite row = true -> is_finite col = true ->
  is_cell (real_raster m) i j -> in_cell i j (B2R row) (B2R col) ->
  is_finite (evaluate m row col) = true /\ Rabs (B2R (evaluate m row col) - bilinear_in_cell (real_raster m) i j (B2R row) (B2R col)) <= d.
(** The heights of the geoid are at most [b]. *)
Definition heights_up_to (b : R) (g : fgeoid) : Prop :=
  forall i j, (0 <= i < fr_rows (fg_data g))%Z -> (0 <= j < fr_cols (fg_data g))%Z -> Rabs (B2R (fr_at (fg_data g) i j)) <= b.
(** The longitude is on the first meridian (also the last one), up to two billionths of a degree. *)
Definition on_the_seam (g : fgeoid) (lon : R) : Prop :=
  Rabs (lon - first_meridian g) <= 2 / 1000000000 \/ Rabs (lon - (first_meridian g + 360)) <= 2 / 1000000000.
(** The latitude, whose index is [row], is out of the rows of the geoid or on the limit, up to [d] cell. *)
Definition out_of_the_rows (g : fgeoid) (row d : R) : Prop := row <= d \/ IZR (fr_rows (fg_data g) - 1) - d <= row.
(** A position of the Earth, its longitude being at most a turn out of the range of the geoid. *)
Definition on_the_earth (g : fgeoid) (lon lat : b64) : Prop :=
  is_finite lon = true /\ is_finite lat = true /\ first_meridian g - 360 <= B2R lon <= first_meridian g + 720 /\ Rabs (B2R lat) <= 90.
(** The height found at a longitude and a latitude: the bilinear one, within [d], at the indices of the latitude and of the longitude in the
    range of the geoid, up to rounding errors; or a NaN, only on the first meridian and on the limits of the rows. *)
Definition height_found (g : fgeoid) (m d : R) (lon lat h : b64) : Prop :=
  let t := fg_transform g in
  exists (turn : Z) (row col : R),
    let l := B2R lon + 360 * IZR turn in
    first_meridian g - 2 / 1000000000 <= l <= first_meridian g + 360 + 2 / 1000000000 /\
    Rabs (row - index_of (B2R (fa_e t)) (B2R (fa_f t)) (B2R lat)) <= rounding 4 * m /\
    Rabs (col - index_of (B2R (fa_a t)) (B2R (fa_c t)) l) <= rounding 5 * m /\
    (height_at g row col d h \/
     h = B754_nan /\ (on_the_seam g l \/ out_of_the_rows g (index_of (B2R (fa_e t)) (B2R (fa_f t)) (B2R lat)) (rounding 4 * m))).
