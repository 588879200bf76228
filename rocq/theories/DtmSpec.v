(** Specification of the intersection of lines of sight with a DTM. *)
From Coq Require Import Reals ZArith List.
From Verif Require Import InterpModel InterpSpec ProjModel.
Import ListNotations.
Open Scope R_scope.

(** Points are (row, column, altitude) in the index frame of the DTM. *)

(** The point at abscissa [t] of the straight line through [a] (t = 0) and [b] (t = 1). *)
Definition along (a b : vec3) (t : R) : vec3 :=
  V3 (v0 a + t * (v0 b - v0 a)) (v1 a + t * (v1 b - v1 a)) (v2 a + t * (v2 b - v2 a)).

(** [p] is at the (fractional) index [h] of the polyline [los]. *)
Definition on_los (los : list vec3) (h : R) (p : vec3) : Prop :=
  exists i u w t, nth_error los i = Some u /\ nth_error los (S i) = Some w /\
    0 <= t <= 1 /\ h = INR i + t /\ p = along u w t.

(** The box spanned by the nodes of the DTM: their hull, and the altitudes between two nodes. *)
Definition in_cube (m : raster) (p : vec3) : Prop :=
  in_hull m (v0 p) (v1 p)
  /\ (exists i j, is_node m i j /\ rs_at m i j <= v2 p)
  /\ (exists i j, is_node m i j /\ v2 p <= rs_at m i j).
Definition strictly_in_cube (m : raster) (p : vec3) : Prop :=
  (0 < v0 p < IZR (rs_rows m - 1) /\ 0 < v1 p < IZR (rs_cols m - 1))
  /\ (exists i j, is_node m i j /\ rs_at m i j < v2 p)
  /\ (exists i j, is_node m i j /\ v2 p < rs_at m i j).
(** A point of the box that is on one of its faces. *)
Definition on_face (m : raster) (p : vec3) : Prop :=
  in_cube m p /\
  (v0 p = 0 \/ v0 p = IZR (rs_rows m - 1) \/ v1 p = 0 \/ v1 p = IZR (rs_cols m - 1)
   \/ (forall i j, is_node m i j -> v2 p <= rs_at m i j)
   \/ (forall i j, is_node m i j -> rs_at m i j <= v2 p)).

(** The DTM surface is the bilinear interpolation of the nodes in each cell.  [clearance p e]: the
    point [p] is over the DTM and its altitude minus the one of the surface is [e]. *)
Definition clearance (m : raster) (p : vec3) (e : R) : Prop :=
  exists i j, is_cell m i j /\ in_cell i j (v0 p) (v1 p) /\
    e = v2 p - bilinear_in_cell m i j (v0 p) (v1 p).
(** Over the DTM, and at least as high as the surface / strictly higher / strictly lower. *)
Definition not_below (m : raster) (p : vec3) : Prop := exists e, clearance m p e /\ 0 <= e.
Definition above (m : raster) (p : vec3) : Prop := exists e, clearance m p e /\ 0 < e.
Definition below (m : raster) (p : vec3) : Prop := exists e, clearance m p e /\ e < 0.
(** Over the DTM, and at the altitude of the surface up to [tol]. *)
Definition on_surface (m : raster) (tol : R) (p : vec3) : Prop :=
  exists e, clearance m p e /\ Rabs e <= tol.

(** At abscissa [t] the line of sight crosses a border of a cell: a line of the node mesh it is not
    parallel to. *)
Definition crosses_border (a b : vec3) (t : R) : Prop :=
  (v0 a <> v0 b /\ exists i, v0 (along a b t) = IZR i) \/ (v1 a <> v1 b /\ exists j, v1 (along a b t) = IZR j).

(** The line of sight runs exactly along the last row or the last column of nodes. *)
Definition runs_along_last_line (m : raster) (a b : vec3) : Prop :=
  (v0 a = v0 b /\ v0 a = IZR (rs_rows m - 1)) \/ (v1 a = v1 b /\ v1 a = IZR (rs_cols m - 1)).

(** All the nodes are lower (higher) than the altitude [z]. *)
Definition all_nodes_below (m : raster) (z : R) : Prop := forall i j, is_node m i j -> rs_at m i j < z.
Definition all_nodes_above (m : raster) (z : R) : Prop := forall i j, is_node m i j -> z < rs_at m i j.

(** Along one axis, a line at position [p] and with direction [dir] is inside of the interval
    [c, c + 1] or entering it. *)
Definition heading (p dir : R) (c : Z) : Prop :=
  (dir < 0 -> IZR c < p <= IZR c + 1) /\ (0 < dir -> IZR c <= p < IZR c + 1)
  /\ (dir = 0 -> IZR c <= p <= IZR c + 1).

(** The twist of a cell: zero when its four corners are in a plane. *)
Definition twist (m : raster) (i j : Z) : R :=
  rs_at m i j - rs_at m i (j + 1) - rs_at m (i + 1) j + rs_at m (i + 1) (j + 1).

(** No inner vertex of a line of sight is hidden below the surface between two points of the line of
    its segment that are above the surface in the same cell. *)
Definition no_vertex_hidden_in_a_cell (m : raster) (los : list vec3) : Prop :=
  forall k u w s e i j, (S (S k) < length los)%nat ->
    nth_error los k = Some u -> nth_error los (S k) = Some w -> 0 <= s -> s < 1 -> 1 <= e ->
    is_cell m i j -> in_cell i j (v0 (along u w s)) (v1 (along u w s)) ->
    in_cell i j (v0 (along u w e)) (v1 (along u w e)) ->
    not_below m (along u w s) -> above m (along u w e) -> not_below m w.
