(** Specification of the RPC model, written from the RPC00B convention: it uses the parameters
    (the record [rpc]) and nothing else of the model. *)
From Coq Require Import Reals ZArith List.
From Verif Require Import Num ProjModel RpcModel.
Import ListNotations.
Open Scope R_scope.

(** The 20 monomials of a cubic form, as exponents of (x, y, z), in RPC00B order. *)
Definition rpc_exponents : list (nat * nat * nat) :=
  [(0,0,0);
   (1,0,0); (0,1,0); (0,0,1);
   (1,1,0); (1,0,1); (0,1,1); (2,0,0); (0,2,0); (0,0,2);
   (1,1,1); (3,0,0); (1,2,0); (1,0,2); (2,1,0); (0,3,0); (0,1,2); (2,0,1); (0,2,1); (0,0,3)]%nat.

(** The cubic form with the given coefficients. *)
Fixpoint cubic_sum (cs : list R) (es : list (nat * nat * nat)) (x y z : R) : R :=
  match cs, es with
  | c :: cs, (i, j, k) :: es => c * x ^ i * y ^ j * z ^ k + cubic_sum cs es x y z
  | _, _ => 0
  end.
Definition cubic (cs : list R) (x y z : R) : R := cubic_sum cs rpc_exponents x y z.

(** A model whose inverse coefficients can be used. *)
Definition usable_inverse (m : rpc) : Prop :=
  inverse_coefficient m = true /\
  length (num_col m) = 20%nat /\ length (den_col m) = 20%nat /\
  length (num_row m) = 20%nat /\ length (den_row m) = 20%nat /\
  scale_x m <> 0 /\ scale_y m <> 0 /\ scale_alt m <> 0.

(** Normalised ground coordinates. *)
Definition nx (m : rpc) (lon : R) : R := (lon - offset_x m) / scale_x m.
Definition ny (m : rpc) (lat : R) : R := (lat - offset_y m) / scale_y m.
Definition nz (m : rpc) (alt : R) : R := (alt - offset_alt m) / scale_alt m.

(** The column and the row where the model sees a ground point. *)
Definition col_of (m : rpc) (lon lat alt : R) : R :=
  cubic (num_col m) (nx m lon) (ny m lat) (nz m alt)
  / cubic (den_col m) (nx m lon) (ny m lat) (nz m alt) * scale_col m + offset_col m.
Definition row_of (m : rpc) (lon lat alt : R) : R :=
  cubic (num_row m) (nx m lon) (ny m lat) (nz m alt)
  / cubic (den_row m) (nx m lon) (ny m lat) (nz m alt) * scale_row m + offset_row m.

(** Both denominators are non-zero. *)
Definition regular_at (m : rpc) (lon lat alt : R) : Prop :=
  cubic (den_col m) (nx m lon) (ny m lat) (nz m alt) <> 0 /\
  cubic (den_row m) (nx m lon) (ny m lat) (nz m alt) <> 0.

(** Geographic coordinates within their range. *)
Definition lonlat_ok (lon lat : R) : Prop := -180 <= lon <= 180 /\ -90 <= lat <= 90.

(** The ground point (lon, lat, alt) is seen within 1e-6 pixel of (row, col). *)
Definition reprojects (m : rpc) (row col lon lat alt : R) : Prop :=
  Rabs (col - col_of m lon lat alt) <= 1 / 1000000 /\
  Rabs (row - row_of m lon lat alt) <= 1 / 1000000.

(** One Newton step from (lon, lat): the model is linearised there with its true partial
    derivatives and the linear system is solved. *)
Definition newton_step (m : rpc) (row col alt lon lat lon' lat' : R) : Prop :=
  exists a b c d,
    derivable_pt_lim (fun x => col_of m x lat alt) lon a /\
    derivable_pt_lim (fun y => col_of m lon y alt) lat b /\
    derivable_pt_lim (fun x => row_of m x lat alt) lon c /\
    derivable_pt_lim (fun y => row_of m lon y alt) lat d /\
    a * d - b * c <> 0 /\
    a * (lon' - lon) + b * (lat' - lat) = col - col_of m lon lat alt /\
    c * (lon' - lon) + d * (lat' - lat) = row - row_of m lon lat alt.

(** Newton's method from (lon, lat) with a budget of [n] steps, stopped as soon as the point
    reprojects on the pixel, ends at (lonf, latf).  All the visited points satisfy [dom]. *)
Inductive newton_run (dom : R -> R -> Prop) (m : rpc) (row col alt : R)
  : nat -> R -> R -> R -> R -> Prop :=
| run_done : forall n lon lat,
    dom lon lat -> regular_at m lon lat alt -> reprojects m row col lon lat alt ->
    newton_run dom m row col alt n lon lat lon lat
| run_out : forall lon lat,
    dom lon lat -> regular_at m lon lat alt -> ~ reprojects m row col lon lat alt ->
    newton_run dom m row col alt 0 lon lat lon lat
| run_step : forall n lon lat lon' lat' lonf latf,
    dom lon lat -> regular_at m lon lat alt -> ~ reprojects m row col lon lat alt ->
    newton_step m row col alt lon lat lon' lat' ->
    newton_run dom m row col alt n lon' lat' lonf latf ->
    newton_run dom m row col alt (S n) lon lat lonf latf.

(** Three columns of a batch, and the batch as rows. *)
Definition finite (l : list R) : list num := map Some l.

(** A pixel and a ground position found for it. *)
Record located := Loc { l_row : R; l_col : R; l_lon : R; l_lat : R }.

(** A pixel with finite coordinates and an altitude; a pixel whose coordinates may be NaN. *)
Record pixel := Pix { x_row : R; x_col : R; x_alt : R }.
Record npixel := NPix { n_row : num; n_col : num; n_alt : num }.
Definition nan_pixel (p : npixel) : Prop := n_row p = None \/ n_col p = None.

(** The whole batch comes back with valid positions, where the model is regular. *)
Definition all_located (m : rpc) (Q : list pixel) (lons lats : list num) : Prop :=
  forall i q, nth_error Q i = Some q ->
  exists lon lat, nth_error lons i = Some (Some lon) /\ nth_error lats i = Some (Some lat) /\
    lonlat_ok lon lat /\ regular_at m lon lat (x_alt q).

(** Sum over a table of (multiplicity, exponents), as the comment of rpc.py 79 reads it:
    "each monome: c[0]*X**c[1]*Y**c[2]*Z**c[3]". *)
Fixpoint table_sum (cs : list R) (ts : list (nat * nat * nat * nat)) (x y z : R) : R :=
  match cs, ts with
  | c :: cs, (n, i, j, k) :: ts => c * (INR n * x ^ i * y ^ j * z ^ k) + table_sum cs ts x y z
  | _, _ => 0
  end.

(** At altitude [alt] the model is affine in (lon, lat). *)
Definition affine_at (m : rpc) (alt c0 a b r0 c d : R) : Prop :=
  forall lon lat, regular_at m lon lat alt /\
    col_of m lon lat alt = c0 + a * lon + b * lat /\
    row_of m lon lat alt = r0 + c * lon + d * lat.

(** The point [p] is on the line through [a] and [b] (all coordinates finite). *)
Definition on_line (a b p : row3) : Prop :=
  exists ax ay az bx by_ bz t,
    a = R3 (Some ax) (Some ay) (Some az) /\ b = R3 (Some bx) (Some by_) (Some bz) /\
    p = R3 (Some (ax + t * (bx - ax))) (Some (ay + t * (by_ - ay))) (Some (az + t * (bz - az))).
