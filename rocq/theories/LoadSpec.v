(** Specification of loaded models: what it means that two models localize alike, and which files hold a
    geometry. *)
From Coq Require Import String Reals ZArith List Bool.
From Verif Require Import Num InterpModel ProjModel RpcModel DtmModel RpcDtmModel PyStrModel ReadersModel ReadersSpec PropertiesReaders2.
Import ListNotations.
Open Scope R_scope.

(** The two models give the same answer to every request that does not ask for the direct coefficients. *)
Definition same_localization (m m' : rpc) : Prop :=
  (forall lon lat alt, inverse_loc m' lon lat alt = inverse_loc m lon lat alt) /\
  (forall row col alt fill_nan, direct_loc_h m' row col alt fill_nan false = direct_loc_h m row col alt fill_nan false) /\
  (forall conv row col lo hi fill_nan epsg, los_extrema conv m' row col lo hi fill_nan epsg = los_extrema conv m row col lo hi fill_nan epsg) /\
  (forall conv fuel row col d, direct_loc_dtm conv fuel m' row col d = direct_loc_dtm conv fuel m row col d).

(** [m'] counts rows and columns [h] pixels further than [m]: the same requests, with image coordinates
    increased by [h], have the same answers, with image coordinates increased by [h]. *)
Definition further (h : R) : num -> num := option_map (fun x => x + h).
Definition same_localization_shifted (h : R) (m m' : rpc) : Prop :=
  (forall lon lat alt, inverse_loc m' lon lat alt
     = match inverse_loc m lon lat alt with
       | Some (row, col, alt) => Some (map (further h) row, map (further h) col, alt)
       | None => None
       end) /\
  (forall row col alt fill_nan direct, direct_loc_h m' (map (further h) row) (map (further h) col) alt fill_nan direct
     = direct_loc_h m row col alt fill_nan direct) /\
  (forall conv row col lo hi fill_nan epsg, los_extrema conv m' (map (further h) row) (map (further h) col) lo hi fill_nan epsg
     = los_extrema conv m row col lo hi fill_nan epsg) /\
  (forall conv fuel row col d, direct_loc_dtm conv fuel m' (map (further h) row) (map (further h) col) d
     = direct_loc_dtm conv fuel m row col d).

(** [f], named [path], is a file of one of the supported formats that holds the geometry [g]. *)
Inductive file_of (pyfloat : string -> option num) (g : geometry) (path : string) (f : file_view) : Prop :=
| of_raster : forall r, fv_rio f = Some (Some r) -> describes_rio r g -> file_of pyfloat g path f
| of_dimap1 : forall doc v x, (forall r, fv_rio f <> Some (Some r)) -> xml_name path = true -> fv_xml f = Some doc ->
    dimap_version doc v -> reads pyfloat v x -> x < 2 -> describes_v1 pyfloat doc v g -> file_of pyfloat g path f
| of_dimap2 : forall doc v, (forall r, fv_rio f <> Some (Some r)) -> xml_name path = true -> fv_xml f = Some doc ->
    dimap_version doc v -> describes_v2 pyfloat doc v g -> file_of pyfloat g path f
| of_dimap3 : forall doc v, (forall r, fv_rio f <> Some (Some r)) -> xml_name path = true -> fv_xml f = Some doc ->
    dimap_version doc v -> describes_v3 pyfloat doc v g -> file_of pyfloat g path f
| of_ossim : forall lines, (forall r, fv_rio f <> Some (Some r)) -> xml_name path = false \/ not_dimap f -> is_ossim f ->
    fv_lines f = Some lines -> describes_ossim pyfloat lines g -> file_of pyfloat g path f.
