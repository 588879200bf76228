(** Model, in binary64, of the DTM intersection between its two conversions: lines of sight and ground positions in
    physical coordinates ([shareloc/geofunctions/dtm_intersection.py]). *)
From Coq Require Import ZArith List.
From Verif Require Import FloatModel FloatInterpModel FloatWalkModel FloatGeoModel.
Import ListNotations.

(** A physical position. *)
Record fter := FTer { ft_lon : b64; ft_lat : b64; ft_alt : b64 }.
(** dtm_intersection.py 131-142 [ter_to_index]; [trans_inv] is the inverse of the geotransform. *)
Definition fter_to_index (trans_inv : faffine) (v : fter) : fvec3 :=
  let '(row, col) := fphysical_to_index trans_inv (ft_lat v) (ft_lon v) in FV3 row col (ft_alt v).
(** dtm_intersection.py 158-169 [index_to_ter]. *)
Definition findex_to_ter (transform : faffine) (p : fvec3) : fter :=
  let '(lat, lon) := findex_to_physical transform (fv_row p) (fv_col p) in FTer lon lat (fv_alt p).
(** What the line in the result array is.  [GNotFound]: the zeros of line 424.  [GNoAnswer]: an exception, or the loops have
    not ended. *)
Inductive fground := GPoint (q : fter) | GNaN | GNotFound | GNoAnswer.
(** dtm_intersection.py 845-866 [intersection_n_los_dtm], one line of sight; line 246, with 144-156 [ters_to_indexs], converts its vertices. *)
Definition fground_position (m : fraster) (transform : faffine) (fuel cells steps : nat) (los : list fter) : fground :=
  match flocate m fuel cells steps (map (fter_to_index (faffine_invert transform)) los) with
  | None => GNaN
  | Some (FFound p) => GPoint (findex_to_ter transform p)
  | Some FNotFound => GNotFound
  | Some _ => GNoAnswer
  end.
