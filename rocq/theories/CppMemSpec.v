(** What the C++ intersection should find in its buffers. *)
From Coq Require Import Reals ZArith List.
From Verif Require Import ProjModel.
Import ListNotations.
Open Scope R_scope.

(** The altitude of the node (i, j) of a row-major table of [nc] columns. *)
Definition node (data : list R) (nc i j : nat) : R := nth (i * nc + j) data 0.
(** [x] is not above (not below) any of the four corners of the cell (i, j). *)
Definition under_cell (data : list R) (nc i j : nat) (x : R) : Prop :=
  x <= node data nc i j /\ x <= node data nc (S i) j /\ x <= node data nc i (S j) /\ x <= node data nc (S i) (S j).
Definition over_cell (data : list R) (nc i j : nat) (x : R) : Prop :=
  node data nc i j <= x /\ node data nc (S i) j <= x /\ node data nc i (S j) <= x /\ node data nc (S i) (S j) <= x.
(** The largest integer under the cell, the smallest integer over it. *)
Definition floor_of_cell (data : list R) (nc i j : nat) (x : R) : Prop :=
  exists z : Z, x = IZR z /\ under_cell data nc i j x /\ forall t : Z, under_cell data nc i j (IZR t) -> IZR t <= x.
Definition ceil_of_cell (data : list R) (nc i j : nat) (x : R) : Prop :=
  exists z : Z, x = IZR z /\ over_cell data nc i j x /\ forall t : Z, over_cell data nc i j (IZR t) -> x <= IZR t.

(** The vertex [k] of the line of sight [i] of an array of the shape (., [nb_alt], 3), and the line of sight. *)
Definition vertex_at (buf : list R) (nb_alt i k : nat) : vec3 :=
  V3 (nth ((i * nb_alt + k) * 3) buf 0) (nth ((i * nb_alt + k) * 3 + 1) buf 0) (nth ((i * nb_alt + k) * 3 + 2) buf 0).
Definition line_at (buf : list R) (nb_alt i : nat) : list vec3 := map (vertex_at buf nb_alt i) (seq 0 nb_alt).
