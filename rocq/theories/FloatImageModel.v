(** Model, in binary64, of the window that is read from a raster file for a region of interest in physical space
    ([shareloc/image.py]), and of its geotransform (rasterio, external). *)
From Coq Require Import ZArith Bool.
From Flocq Require Import Core BinarySingleNaN.
From Verif Require Import FloatModel FloatInterpModel FloatGeoModel.
From Verif Require ImageModel.
Open Scope Z_scope.

(** [rasterio.windows.Window(col_off, row_off, width, height)]; the offsets are floats that hold integers. *)
Record fwindow := FWin { fi_col : Z; fi_row : Z; fi_width : Z; fi_height : Z }.
(** [max(np.floor(x), 0)].  [None]: an infinity or a NaN, with which the size of lines 101-102 is an exception. *)
Definition f_offset (x : b64) : option Z :=
  match x with
  | B754_infinity true => Some 0
  | _ => option_map (fun z => Z.max z 0) (ffloor x)
  end.
(** [int(np.ceil(x))]; [None]: an exception. *)
Definition f_ceil (x : b64) : option Z := option_map Z.opp (ffloor (fopp x)).
(** image.py 87-115 with a region in physical space, then 117-131: the window, in a file of [height] rows and [width] columns, of the region
    from [y0], [x0] to [y1], [x1].  [None]: an exception.  (114-115: the differences are exact, or the window is refused.) *)
Definition f_physical_window (height width : Z) (transform : faffine) (y0 x0 y1 x1 : b64) : option fwindow :=
  let trans_inv := faffine_invert transform in
  let '(row_off, col_off) := fphysical_to_index trans_inv y0 x0 in
  let '(row_max, col_max) := fphysical_to_index trans_inv y1 x1 in
  let row_off := fadd row_off half in
  let col_off := fadd col_off half in
  let row_max := fadd row_max half in
  let col_max := fadd col_max half in
  let '(row_max, row_off) := if Bltb row_max row_off then (row_off, row_max) else (row_max, row_off) in
  match f_offset row_off, f_offset col_off with
  | Some row_off, Some col_off =>
      match f_ceil (fsub col_max (fint col_off)), f_ceil (fsub row_max (fint row_off)) with
      | Some w, Some h =>
          let w := Z.min w (width - col_off) in
          let h := Z.min h (height - row_off) in
          if (w <? 0) || (h <? 0) then None else Some (FWin col_off row_off w h)
      | _, _ => None
      end
  | _, _ => None
  end.

(** [s * o], the composition of the affine library. *)
Definition faffine_compose (s o : faffine) : faffine :=
  let sum x y z w := fadd (fmul x y) (fmul z w) in
  FAff (sum (fa_a s) (fa_a o) (fa_b s) (fa_d o)) (sum (fa_a s) (fa_b o) (fa_b s) (fa_e o)) (fadd (sum (fa_a s) (fa_c o) (fa_b s) (fa_f o)) (fa_c s))
       (sum (fa_d s) (fa_a o) (fa_e s) (fa_d o)) (sum (fa_d s) (fa_b o) (fa_e s) (fa_e o)) (fadd (sum (fa_d s) (fa_c o) (fa_e s) (fa_f o)) (fa_f s)).
(** image.py 133, [dataset.window_transform] (rasterio): the translation from the corner of the file to the corner of the window, composed
    with the geotransform of the file. *)
Definition f_window_transform (t : faffine) (w : fwindow) : faffine :=
  let '(x, y) := faffine_apply t (fint (fi_col w)) (fint (fi_row w)) in
  faffine_compose (FAff (fint 1) (fint 0) (fsub x (fa_c t)) (fint 0) (fint 1) (fsub y (fa_f t))) t.
(** image.py 144-167: the vertical direction asked for. *)
Definition f_orient (v : ImageModel.direction) (t : faffine) : faffine :=
  let flip := FAff (fa_a t) (fa_b t) (fa_c t) (fopp (fa_d t)) (fopp (fa_e t)) (fopp (fa_f t)) in
  match v with
  | ImageModel.North => if Bltb (fa_e t) (fint 0) then flip else t
  | ImageModel.South => if Bltb (fint 0) (fa_e t) then flip else t
  | ImageModel.Auto => t
  end.
