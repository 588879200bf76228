(** Specification of the epipolar grids with an adaptive step. *)
From Coq Require Import Reals ZArith List.
From Verif Require Import Num ProjModel RpcModel LocModel RectSpec.
Import ListNotations.
Open Scope R_scope.

(** The position at the fraction [t] of the way from [p] to [q]. *)
Definition between (p q : vec3) (t : R) : vec3 :=
  V3 (v0 p + t * (v0 q - v0 p)) (v1 p + t * (v1 q - v1 p)) (v2 p + t * (v2 q - v2 p)).

(** By how much a step is divided: the length of the step on the slope over its length on flat ground
    [gsd], at most [max_ratio]; its excess over 1 is amplified by [scale]. *)
Definition slope_factor (gsd scale max_ratio dh : R) : R :=
  1 + (Rmin max_ratio (sqrt (dh * dh + gsd * gsd) / gsd) - 1) * (1 + scale).

(** The factor of a step of length [d] from [p]. *)
Definition factor_at {D} (pl : pmodel D) (s : surface D) (gsd scale max_ratio : R) (axis : Z) (d : R) (p : vec3) (alpha : R) : R :=
  slope_factor gsd scale max_ratio (v2 (ground pl s (moved axis d p alpha)) - v2 (ground pl s p)).

(** The length of a polyline in the image. *)
Fixpoint path_length (l : list vec3) : R :=
  match l with
  | p :: ((q :: _) as l') => image_distance p q + path_length l'
  | _ => 0
  end.
(** All the nodes but the last one; the first nodes of the lines. *)
Definition but_last {A} (l : list A) : list A := firstn (length l - 1) l.
Definition first_column {A} (L : list (list A)) : list A := flat_map (firstn 1) L.

(** Left nodes [L] and right nodes [R]: each step is the plain one divided by its factor, and the right
    node makes the same part of the way to the position homologous to the plain left node. *)
Definition adaptive_step {D} (pl pr : pmodel D) (s : surface D) (gsd scale max_ratio : R) (axis : Z) (d : R) (alpha : R)
  (p q p' q' : vec3) : Prop :=
  let t := moved axis d p alpha in
  let f := factor_at pl s gsd scale max_ratio axis d p alpha in
  p' = between p t (/ f) /\ q' = between q (matched pl pr s t) (/ f).
Definition adaptive_grid {D} (pl pr : pmodel D) (s : surface D) (off d gsd0 gsd1 scale max_ratio : R)
  (start : vec3) (L R : list (list vec3)) : Prop :=
  entry L 0 0 = Some start /\ entry R 0 0 = Some (matched pl pr s start)
  /\ forall i j p q, entry L i j = Some p -> entry R i j = Some q ->
      exists alpha, epipolar_direction pl pr s off p alpha
        /\ (forall p' q', entry L i (S j) = Some p' -> entry R i (S j) = Some q' ->
              adaptive_step pl pr s gsd1 scale max_ratio 1 d alpha p q p' q')
        /\ (j = 0%nat -> forall p' q', entry L (S i) 0 = Some p' -> entry R (S i) 0 = Some q' ->
              adaptive_step pl pr s gsd0 scale max_ratio 0 d alpha p q p' q').

(** A bundle of polylines just reaches the length [len]: all of them do, and without their last nodes
    one of them does not. *)
Definition just_reaches (len : R) (lines : list (list vec3)) : Prop :=
  Forall (fun l => len <= path_length l) lines
  /\ (len <= 0 \/ Exists (fun l => path_length (but_last l) < len) lines).

(** [conv] takes geographic positions to geocentric ones, [ecef], point by point. *)
Definition geocentric (conv : Z -> Z -> list row3 -> list row3) (epsg : Z) (ecef : vec3 -> vec3) : Prop :=
  forall l, conv epsg 4978%Z (map node l) = map (fun g => node (ecef g)) l.
Definition space_distance (p q : vec3) : R :=
  sqrt ((v0 p - v0 q) * (v0 p - v0 q) + (v1 p - v1 q) * (v1 p - v1 q) + (v2 p - v2 q) * (v2 p - v2 q)).
(** The length on the ground of a plain step from [p], at the altitude of [p]. *)
Definition ground_step {D} (pl : pmodel D) (ecef : vec3 -> vec3) (axis : Z) (d : R) (p : vec3) (alpha : R) : R :=
  let at_ q := ecef (pm_h pl (v0 q) (v1 q) (v2 q)) in space_distance (at_ (moved axis d p alpha)) (at_ p).
