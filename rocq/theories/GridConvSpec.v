(** Specification of the conditions under which the inverse localization of a grid converges. *)
From Coq Require Import Reals ZArith List.
From Verif Require Import Num InterpModel InterpSpec ProjModel GridModel GridSpec RpcConvSpec.
Import ListNotations.
Open Scope R_scope.

(** How far apart two pixels are: the largest coordinate of their difference, counted in nodes. *)
Definition apart (g : grid) (r c r' c' : R) : R := size ((c - c') / gr_stepcol g) ((r - r') / gr_steprow g).
(** A pixel in the rectangle covered by the nodes. *)
Definition inside (g : grid) (r c : R) : Prop :=
  0 <= (r - gr_row0 g) / gr_steprow g <= IZR (gr_nbrow g - 1) /\ 0 <= (c - gr_col0 g) / gr_stepcol g <= IZR (gr_nbcol g - 1).

(** The layer of an altitude is a parallelogram mesh, up to [bend]: from each node to the next one in its
    row the ground position moves by (a, c), and to the next one in its column by (b, d), up to [bend]. *)
Definition nearly_regular (g : grid) (alt a b c d bend : R) : Prop :=
  forall i j lon lat lon' lat', (0 <= i < gr_nbrow g)%Z -> (0 <= j < gr_nbcol g)%Z ->
    grid_ground g (node_row g i) (node_col g j) alt lon lat ->
    ((j + 1 < gr_nbcol g)%Z -> grid_ground g (node_row g i) (node_col g (j + 1)) alt lon' lat' ->
       size (lon' - lon - a) (lat' - lat - c) <= bend) /\
    ((i + 1 < gr_nbrow g)%Z -> grid_ground g (node_row g (i + 1)) (node_col g j) alt lon' lat' ->
       size (lon' - lon - b) (lat' - lat - d) <= bend).
(** The mesh is not degenerate: a displacement in the grid is at most [density] times the displacement on
    the ground. *)
Definition not_flat (a b c d density : R) : Prop :=
  forall u v, size u v <= density * size (a * u + b * v) (c * u + d * v).

(** One millimetre on a sphere of 6378 km, in degrees. *)
Definition millimetre : R := 180 / (PI * (6378 * 1000000)).
