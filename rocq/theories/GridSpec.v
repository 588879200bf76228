(** Specification of the multi-layer localization grids. *)
From Coq Require Import Reals ZArith List.
From Verif Require Import Num InterpModel InterpSpec ProjModel GridModel.
Import ListNotations.
Open Scope R_scope.

(** Altitudes from top to bottom. *)
Definition decreasing (l : list R) : Prop :=
  forall i a b, nth_error l i = Some a -> nth_error l (S i) = Some b -> b < a.

(** A grid with at least two layers, two rows and two columns, and layers of the announced size. *)
Definition proper_grid (g : grid) : Prop :=
  (2 <= length (gr_alts g))%nat /\ decreasing (gr_alts g) /\
  length (gr_lon g) = length (gr_alts g) /\ length (gr_lat g) = length (gr_alts g) /\
  (forall m, In m (gr_lon g) \/ In m (gr_lat g) -> rs_rows m = gr_nbrow g /\ rs_cols m = gr_nbcol g) /\
  (2 <= gr_nbrow g)%Z /\ (2 <= gr_nbcol g)%Z /\ gr_steprow g <> 0 /\ gr_stepcol g <> 0.

(** The cell [i, i + 1] of an axis with [nb] nodes that is used for the position [p] (counted in
    nodes): one that contains it, or the first (last) one for a position before (after) all the
    nodes. *)
Definition nearest_cell (nb : Z) (p : R) (i : Z) : Prop :=
  (0 <= i < nb - 1)%Z /\ (IZR i <= p \/ i = 0%Z) /\ (p <= IZR i + 1 \/ i = (nb - 2)%Z).

(** Two consecutive layers k (altitude a) and k + 1 (altitude b) used for an altitude: two layers that
    enclose it, or the first (last) two for an altitude above (below) all of them. *)
Definition nearest_layers (alts : list R) (alt : R) (k : nat) (a b : R) : Prop :=
  nth_error alts k = Some a /\ nth_error alts (S k) = Some b /\
  (alt <= a \/ k = 0%nat) /\ (b <= alt \/ S (S k) = length alts).

(** The value of a data cube at a pixel and an altitude: bilinear interpolation in the two layers, then
    linear interpolation in altitude. *)
Definition cube_value (g : grid) (data : list raster) (row col alt v : R) : Prop :=
  exists k a b top bottom i j,
    nearest_layers (gr_alts g) alt k a b /\
    nth_error data k = Some top /\ nth_error data (S k) = Some bottom /\
    nearest_cell (gr_nbrow g) ((row - gr_row0 g) / gr_steprow g) i /\
    nearest_cell (gr_nbcol g) ((col - gr_col0 g) / gr_stepcol g) j /\
    let at_layer m := bilinear_in_cell m i j ((row - gr_row0 g) / gr_steprow g) ((col - gr_col0 g) / gr_stepcol g) in
    v = lerp (at_layer bottom) (at_layer top) ((alt - b) / (a - b)).
(** The ground position of a pixel at an altitude. *)
Definition grid_ground (g : grid) (row col alt lon lat : R) : Prop :=
  cube_value g (gr_lon g) row col alt lon /\ cube_value g (gr_lat g) row col alt lat.

(** The pixel of a node. *)
Definition node_row (g : grid) (i : Z) : R := gr_row0 g + IZR i * gr_steprow g.
Definition node_col (g : grid) (j : Z) : R := gr_col0 g + IZR j * gr_stepcol g.

(** What the range check does to a position: nothing in a projected system; in longitude, latitude it
    blanks the positions out of range. *)
Definition in_range (g : grid) (lon lat : R) : Prop :=
  gr_epsg g = Some 4326%Z -> Rabs lon <= 180 /\ Rabs lat <= 90.

(** Degrees to microradians. *)
Definition microrad (x : R) : R := x * PI / 180 * 1000000.

(** The squared error, in square metres, between a position and the target (lon, lat), as the code
    defines it (sphere of 6378 km). *)
Definition square_error (lon lat lon' lat' : R) : R :=
  6378 * 6378 / 1000000 *
  ((microrad (lat' - lat)) ^ 2 + (microrad (lon' - lon) * cos (lat * PI / 180)) ^ 2).

(** Every layer is an affine function of row and column. *)
Definition affine_layers (data : list raster) : Prop :=
  forall m, In m data -> exists k a b, affine_raster m k a b.

(** One correction of the pixel (r, c), whose ground position is (lon', lat'), towards the ground point
    (lon, lat): in the cell of the pixel the ground position is taken as the affine function defined by
    the nodes (i, j), (i, j + 1) and (i + 1, j) at this altitude, and the pixel is moved by the
    displacement that this function needs to go from (lon', lat') to (lon, lat). *)
Definition newton_correction (g : grid) (lon lat alt : R) (p p' : R * R) : Prop :=
  exists i j lon' lat' l00 b00 l01 b01 l10 b10,
    nearest_cell (gr_nbrow g) ((fst p - gr_row0 g) / gr_steprow g) i /\
    nearest_cell (gr_nbcol g) ((snd p - gr_col0 g) / gr_stepcol g) j /\
    grid_ground g (fst p) (snd p) alt lon' lat' /\ in_range g lon' lat' /\
    grid_ground g (node_row g i) (node_col g j) alt l00 b00 /\
    grid_ground g (node_row g i) (node_col g (j + 1)) alt l01 b01 /\
    grid_ground g (node_row g (i + 1)) (node_col g j) alt l10 b10 /\
    lon' - lon = (snd p - snd p') / gr_stepcol g * (l01 - l00) + (fst p - fst p') / gr_steprow g * (l10 - l00) /\
    lat' - lat = (snd p - snd p') / gr_stepcol g * (b01 - b00) + (fst p - fst p') / gr_steprow g * (b10 - b00).

(** The squared error of a pixel, in square metres. *)
Definition pixel_error (g : grid) (lon lat alt : R) (p : R * R) (e : R) : Prop :=
  exists lon' lat', grid_ground g (fst p) (snd p) alt lon' lat' /\ e = square_error lon lat lon' lat'.

(** The vertices of the line of sight of a pixel: its ground positions at the given altitudes. *)
Definition line_of_sight (g : grid) (r c : R) (alts : list R) (los : list vec3) : Prop :=
  Forall2 (fun h p => grid_ground g r c h (v0 p) (v1 p) /\ v2 p = h) alts los.
(** Altitudes that go down from [hi] or above to [lo] or below, through all the layers of the grid. *)
Definition covers (g : grid) (lo hi : R) (alts : list R) : Prop :=
  decreasing alts /\ incl (gr_alts g) alts /\
  (exists a, hd_error alts = Some a /\ hi <= a) /\ (exists b l, alts = l ++ [b] /\ b <= lo).

(** ** The predictor of the inverse localization *)
(** A polynomial of degree two in two variables. *)
Definition quadratic (f : R -> R -> R) : Prop :=
  exists a b c d e k, forall x y, f x y = a + b * x + c * y + d * (x * x) + e * (y * y) + k * (x * y).
(** [n] evenly spaced values from [a] to [b]. *)
Definition spread (a b : R) (n : nat) : list R := map (fun k => a + INR k * ((b - a) / (INR n - 1))) (seq 0 n).
(** The nr x nc pixels spread over the grid, row after row. *)
Definition spread_pixels (g : grid) (nr nc : nat) : list (R * R) :=
  list_prod (spread (node_row g 0) (node_row g (gr_nbrow g - 1)) nr)
            (spread (node_col g 0) (node_col g (gr_nbcol g - 1)) nc).
(** The longitudes and latitudes of these pixels at an altitude. *)
Definition sampled (g : grid) (nr nc : nat) (alt : R) (pts : list (R * R)) : Prop :=
  Forall2 (fun rc s => grid_ground g (fst rc) (snd rc) alt (fst s) (snd s) /\ in_range g (fst s) (snd s)) (spread_pixels g nr nc) pts.
(** The sum of the squared differences between the values of [f] and the values of [target]. *)
Fixpoint square_misfit (f : R * R -> R) (pts : list (R * R)) (target : list R) : R :=
  match pts, target with
  | s :: pts, t :: target => (f s - t) * (f s - t) + square_misfit f pts target
  | _, _ => 0
  end.
(** [inv] inverts matrices (or raises). *)
Definition inverts (inv : nat -> (nat -> nat -> R) -> option (nat -> nat -> R)) : Prop :=
  forall n M N, inv n M = Some N -> forall i j, (i < n)%nat -> (j < n)%nat ->
    mat_mul n N M i j = (if Nat.eqb i j then 1 else 0) /\ mat_mul n M N i j = (if Nat.eqb i j then 1 else 0).
