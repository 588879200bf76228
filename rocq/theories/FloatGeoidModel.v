(** Model, in binary64, of the interpolation of the heights of a geoid ([shareloc/dtm_reader.py]). *)
From Coq Require Import ZArith Bool List.
From Flocq Require Import Core BinarySingleNaN.
From Verif Require Import FloatModel FloatInterpModel FloatGeoModel.
Import ListNotations.
Open Scope Z_scope.

(** The image of the geoid: its geotransform and its heights (dtm_reader.py 164; image.py 170-175 for the origin and the pixel sizes). *)
Record fgeoid := FGeoid { fg_transform : faffine; fg_data : fraster }.
(** [10**-8]. *)
Definition f_1e_8 : b64 := flit 6044629098073146 (-79).
(** dtm_reader.py 167-171: one more column, equal to the first one, unless the raster already covers more than 360 degrees. *)
Definition f_overlap (g : fgeoid) : fraster :=
  let m := fg_data g in
  if Bltb (fsub (fmul (fint (fr_cols m)) (fa_a (fg_transform g))) (fint 360)) f_1e_8
  then mkFRaster (fr_rows m) (fr_cols m + 1) (fun r c => if c =? fr_cols m then fr_at m r 0 else fr_at m r c)
  else m.
(** dtm_reader.py 179-184: the longitude in the range of the geoid. *)
Definition f_geoid_longitude (g : fgeoid) (lon : b64) : b64 :=
  let origin := fa_c (fg_transform g) in
  let size := fa_a (fg_transform g) in
  let min_lon := fadd origin (fdiv size (fint 2)) in
  let max_lon := fsub (fadd origin (fmul (fint (fr_cols (f_overlap g))) size)) (fdiv size (fint 2)) in
  let turn (b : bool) := if b then fint 360 else fint 0 in
  let lon := fadd lon (turn (Bltb (fadd lon min_lon) (fint 0))) in
  fsub lon (turn (Bltb (fint 0) (fsub lon max_lon))).
(** [scipy.interpolate.interpn] on the indices (dtm_reader.py 188-195), NaN out of the raster; [evaluate] is the formula of scipy inside. *)
Definition f_interpn (evaluate : fraster -> b64 -> b64 -> b64) (m : fraster) (row col : b64) : b64 :=
  if Bltb row (fint 0) || Bltb (fint (fr_rows m - 1)) row || Bltb col (fint 0) || Bltb (fint (fr_cols m - 1)) col
  then B754_nan else evaluate m row col.
(** dtm_reader.py 149-195 [interpolate_geoid_height]: the height at each (longitude, latitude).  [None]: RuntimeError.  (The longitudes that
    it writes in the array of its caller are the ones of C92.) *)
Definition f_geoid_heights (evaluate : fraster -> b64 -> b64 -> b64) (g : fgeoid) (positions : list (b64 * b64)) : option (list b64) :=
  let positions := map (fun p => (f_geoid_longitude g (fst p), snd p)) positions in
  if existsb (fun p => Bltb (fint 90) (Babs (snd p))) positions then None
  else
    Some (map (fun p => let '(row, col) := fphysical_to_index (faffine_invert (fg_transform g)) (snd p) (fst p) in
                        f_interpn evaluate (f_overlap g) row col) positions).
