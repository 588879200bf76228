(** Specification of the rectification of affine sensors. *)
From Coq Require Import Reals List.
From Verif Require Import Num ProjModel RpcModel LocModel RectSpec.
Open Scope R_scope.

(** The image position of a ground position is an affine function of its three coordinates, and the
    direct localization finds, at each altitude, a ground position that is seen at the pixel. *)
Definition affine_sensor {D} (pm : pmodel D) : Prop :=
  (exists r0 r1 r2 r3 c0 c1 c2 c3, forall lon lat alt,
     pm_inv pm lon lat alt = (r0 + r1 * lon + r2 * lat + r3 * alt, c0 + c1 * lon + c2 * lat + c3 * alt))
  /\ (forall row col alt, let g := pm_h pm row col alt in
        v2 g = alt /\ pm_inv pm (v0 g) (v1 g) (v2 g) = (row, col)).

(** Two lists of lines form a regular lattice: node (i, j) is start + j * across + i * down. *)
Definition lattice (L : list (list vec3)) (start across down : R * R) : Prop :=
  forall i j p, entry L i j = Some p ->
    v0 p = fst start + INR j * fst across + INR i * fst down
    /\ v1 p = snd start + INR j * snd across + INR i * snd down.
