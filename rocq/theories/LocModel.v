(** Model of [shareloc/geofunctions/localization.py] and of [coloc] in bindings/localization.cpp. *)
From Coq Require Import Reals ZArith List Bool.
From Verif Require Import Num ProjModel RpcModel RpcDtmModel.
Import ListNotations.
Open Scope R_scope.

(** A geometric model as the API shows it (geomodel_template.py 36-110), for DTMs of the type [D].
    Positions are arrays; altitudes are arrays of the same length.  [None]: exception.
    [inverse_loc] returns the rows and columns; the altitudes it returns are ignored by the callers.
    A grid model computes its inverse predictor once, on the first call (localization.py 143-146):
    this is part of [gm_inverse]. *)
Record geomodel (D : Type) := GeoModel {
  gm_epsg : Z;
  gm_direct_h : list num -> list num -> list num -> option (list row3);
  gm_direct_dtm : list num -> list num -> D -> option (list row3);
  gm_inverse : list num -> list num -> list num -> option (list (num * num));
  gm_corners : (R * R) * (R * R) }.  (* (row0, col0), (rowmax, colmax) *)
Arguments GeoModel {D}. Arguments gm_epsg {D}. Arguments gm_direct_h {D}. Arguments gm_direct_dtm {D}.
Arguments gm_inverse {D}. Arguments gm_corners {D}.

(** An altitude argument: a number or an array; numpy broadcasting to [n] points. *)
Inductive altitude := Scalar (h : num) | Array (hs : list num).
Definition broadcast (n : nat) (a : altitude) : list num :=
  match a with Scalar h => repeat h n | Array hs => hs end.

(** The [elevation] argument: a number or array, a DTM or None. *)
Inductive elevation (D : Type) := Elev (a : altitude) | Dtm (d : D) | NoElevation.
Arguments Elev {D}. Arguments Dtm {D}. Arguments NoElevation {D}.

(** image.py: the part of an Image used here. *)
Record image := Img { im_transform : affine; im_trans_inv : affine; im_rows : Z; im_cols : Z }.

(** The attributes of a Localization object (localization.py 47-69). *)
Record localization (D : Type) := Loc {
  lo_model : geomodel D; lo_default : altitude; lo_dtm : option D; lo_image : option image; lo_epsg : option Z }.
Arguments Loc {D}. Arguments lo_model {D}. Arguments lo_default {D}. Arguments lo_dtm {D}.
Arguments lo_image {D}. Arguments lo_epsg {D}.

(** localization.py 47-69 [__init__]. *)
Definition make_localization {D} (model : geomodel D) (e : elevation D) (im : option image) (epsg : option Z) : localization D :=
  match e with
  | Elev a => Loc model a None im epsg
  | Dtm d => Loc model (Scalar (fin 0)) (Some d) im epsg
  | NoElevation => Loc model (Scalar (fin 0)) None im epsg
  end.

(** proj_utils.py 55-87 on floats: a NaN coordinate gives two NaN. *)
Definition n_index_to_physical (t : affine) (p : num * num) : num * num :=
  match p with
  | (Some row, Some col) => let '(r, c) := transform_index_to_physical_point t row col in (Some r, Some c)
  | _ => (nan, nan)
  end.
Definition n_physical_to_index (ti : affine) (p : num * num) : num * num :=
  match p with
  | (Some row, Some col) => let '(r, c) := transform_physical_point_to_index ti row col in (Some r, Some c)
  | _ => (nan, nan)
  end.

Section Loc.
  Context {D : Type} (dtm_epsg : D -> Z) (conv : Z -> Z -> list row3 -> list row3).

  (** localization.py 86-87, 164-165: the geotransform of the image. *)
  Definition to_physical (im : option image) (using_geotransform : bool) (p : list (num * num)) : list (num * num) :=
    match im with
    | Some im => if using_geotransform then map (n_index_to_physical (im_transform im)) p else p
    | None => p
    end.
  Definition to_index (im : option image) (using_geotransform : bool) (p : list (num * num)) : list (num * num) :=
    match im with
    | Some im => if using_geotransform then map (n_physical_to_index (im_trans_inv im)) p else p
    | None => p
    end.

  (** localization.py 71-100 [direct].  [p] holds the (row, col) pairs. *)
  Definition direct (L : localization D) (p : list (num * num)) (h : option altitude) (using_geotransform : bool)
    : option (list row3) :=
    let p := to_physical (lo_image L) using_geotransform p in
    let row := map fst p in
    let col := map snd p in
    let '(coords, epsg) :=
      match h with
      | Some h => (gm_direct_h (lo_model L) row col (broadcast (length p) h), gm_epsg (lo_model L))
      | None =>
          match lo_dtm L with
          | Some d => (gm_direct_dtm (lo_model L) row col d, dtm_epsg d)
          | None => (gm_direct_h (lo_model L) row col (broadcast (length p) (lo_default L)), gm_epsg (lo_model L))
          end
      end in
    match coords with
    | None => None
    | Some coords =>
        match lo_epsg L with
        | Some e => if Z.eqb e epsg then Some coords else Some (conv epsg e coords)
        | None => Some coords
        end
    end.

  (** localization.py 157 [coords[:, 2] = h]: numpy repeats an array of one element, and raises on another length. *)
  Definition assign_column (n : nat) (h : list num) : option (list num) :=
    if Nat.eqb (length h) n then Some h else match h with [x] => Some (repeat x n) | _ => None end.
  (** localization.py 130-166 [inverse]: the (row, col) pairs and the altitudes returned. *)
  Definition inverse (L : localization D) (lonlat : list (num * num)) (h : option altitude) (using_geotransform : bool)
    : option (list (num * num) * list num) :=
    let h := broadcast (length lonlat) (match h with Some h => h | None => lo_default L end) in
    let converted :=
      match lo_epsg L with
      | Some e =>
          if Z.eqb (gm_epsg (lo_model L)) e then Some (map fst lonlat, map snd lonlat, h)
          else
            match assign_column (length lonlat) h with
            | Some h =>
                let coords := map2 (fun ll h => R3 (fst ll) (snd ll) h) lonlat h in
                let converted := conv e (gm_epsg (lo_model L)) coords in
                Some (map lon3 converted, map lat3 converted, map alt3 converted)
            | None => None
            end
      | None => Some (map fst lonlat, map snd lonlat, h)
      end in
    match converted with
    | Some (lon, lat, h) =>
        match gm_inverse (lo_model L) lon lat h with
        | Some p => Some (to_index (lo_image L) using_geotransform p, h)
        | None => None
        end
    | None => None
    end.

  (** localization.py 102-128 [extent]: the ground positions at altitude 0 of two corners of the
      image, or of the model; returns (lat_min, lon_min, lat_max, lon_max). *)
  Definition extent (L : localization D) (margin : R) : option (num * num * num * num) :=
    let '(footprint, geo) :=
      match lo_image L with
      | Some im => ([(- (1 / 2), - (1 / 2)); (- (1 / 2) + IZR (im_rows im), - (1 / 2) + IZR (im_cols im))], true)
      | None => ([fst (gm_corners (lo_model L)); snd (gm_corners (lo_model L))], false)
      end in
    match direct L (map (fun p => (fin (fst p), fin (snd p))) footprint) (Some (Scalar (fin 0))) geo with
    | Some g =>
        let lons := map lon3 g in
        let lats := map lat3 g in
        Some (nsub (np_min lats) (fin margin), nsub (np_min lons) (fin margin),
              nadd (np_max lats) (fin margin), nadd (np_max lons) (fin margin))
    | None => None
    end.

  (** localization.py 169-217 [coloc]: the (row, col, altitude) in the second image and the ground
      positions. *)
  Definition coloc (m1 m2 : geomodel D) (row col : list num) (e : elevation D) (im1 im2 : option image)
    (using_geotransform : bool) : option (list row3 * list row3) :=
    if Nat.eqb (length row) (length col) then
      match direct (make_localization m1 e im1 None) (combine row col) None using_geotransform with
      | None => None
      | Some g =>
          match inverse (make_localization m2 e im2 None) (map (fun p => (lon3 p, lat3 p)) g)
                  (Some (Array (map alt3 g))) using_geotransform with
          | Some (rc, h) => Some (map2 (fun rc h => R3 (fst rc) (snd rc) h) rc h, g)
          | None => None
          end
      end
    else None.
End Loc.

(** bindings/localization.cpp 31-87: the four overloads of [coloc], for arrays and for one point,
    over a DTM and at given altitudes. *)
Definition cpp_coloc_dtm {D} (m1 m2 : geomodel D) (row col : list num) (d : D) : option (list (num * num)) :=
  match gm_direct_dtm m1 row col d with
  | Some g => gm_inverse m2 (map lon3 g) (map lat3 g) (map alt3 g)
  | None => None
  end.
Definition cpp_coloc_h {D} (m1 m2 : geomodel D) (row col h : list num) : option (list (num * num)) :=
  match gm_direct_h m1 row col h with
  | Some g => gm_inverse m2 (map lon3 g) (map lat3 g) (map alt3 g)
  | None => None
  end.
