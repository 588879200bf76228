(** Model, in binary64, of the altitudes of a DTM read with a geoid ([shareloc/dtm_reader.py]): altitudes above the ellipsoid. *)
From Coq Require Import ZArith Bool List.
From Verif Require Import FloatModel FloatInterpModel FloatGeoModel FloatGeoidModel.
Import ListNotations.

(** dtm_reader.py 105-107: the (longitude, latitude) of the centres of the cells, row by row. *)
Definition f_cell_positions (transform : faffine) (rows cols : nat) : list (b64 * b64) :=
  flat_map (fun r => map (fun c => let '(lat, lon) := findex_to_physical transform (fint (Z.of_nat r)) (fint (Z.of_nat c)) in (lon, lat)) (seq 0 cols)) (seq 0 rows).
(** dtm_reader.py 103-111, for a DTM in the system 4326 (108-109, the conversion of the positions, is not modelled): [alt_data], row by row.
    [None]: RuntimeError. *)
Definition f_ellipsoid_altitudes (evaluate : fraster -> b64 -> b64 -> b64) (g : fgeoid) (transform : faffine) (rows cols : nat) (alt_data : list b64) : option (list b64) :=
  match f_geoid_heights evaluate g (f_cell_positions transform rows cols) with
  | Some heights => Some (map (fun p => fadd (fst p) (snd p)) (combine alt_data heights))
  | None => None
  end.
