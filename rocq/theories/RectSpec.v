(** Specification of the stereo-rectification. *)
From Coq Require Import Reals ZArith List.
From Verif Require Import Num ProjModel RpcModel LocModel.
Import ListNotations.
Open Scope R_scope.

(** The entry of an array of lines. *)
Definition entry {A} (m : list (list A)) (i j : nat) : option A :=
  match nth_error m i with Some l => nth_error l j | None => None end.

(** Image positions: row [v0], column [v1], altitude [v2]. *)
Definition node (p : vec3) : row3 := R3 (Some (v0 p)) (Some (v1 p)) (Some (v2 p)).

(** The distance between two image positions. *)
Definition image_distance (p q : vec3) : R := sqrt ((v1 q - v1 p) * (v1 q - v1 p) + (v0 q - v0 p) * (v0 q - v0 p)).
(** [alpha] is the direction from [p] to [q]: the columns along the cosine, the rows along the sine. *)
Definition has_direction (p q : vec3) (alpha : R) : Prop :=
  v1 q - v1 p = image_distance p q * cos alpha /\ v0 q - v0 p = image_distance p q * sin alpha.

(** The position at distance [d] of [p] along the direction [alpha] (axis 1) or along the direction
    turned by a quarter of a turn, from columns to rows (axis 0). *)
Definition moved (axis : Z) (d : R) (p : vec3) (alpha : R) : vec3 :=
  if Z.eqb axis 1 then V3 (v0 p + d * sin alpha) (v1 p + d * cos alpha) (v2 p)
  else V3 (v0 p + d * cos alpha) (v1 p - d * sin alpha) (v2 p).

(** ** Geometric models that handle each point by itself and never fail *)
Record pmodel (D : Type) := PModel {
  pm_h : R -> R -> R -> vec3;         (* ground position of (row, col) at an altitude *)
  pm_d : D -> R -> R -> vec3;         (* ground position of (row, col) over a DTM *)
  pm_inv : R -> R -> R -> R * R }.    (* (row, col) of (lon, lat, altitude) *)
Arguments PModel {D}. Arguments pm_h {D}. Arguments pm_d {D}. Arguments pm_inv {D}.

(** Arrays of finite numbers. *)
Definition fins (l : list R) : list num := map fin l.
Definition lift3 {A} (f : R -> R -> R -> A) (p : R * R * R) : A := let '(a, b, c) := p in f a b c.
Definition firsts (l : list (R * R * R)) := map (fun p => fst (fst p)) l.
Definition seconds (l : list (R * R * R)) := map (fun p => snd (fst p)) l.
Definition thirds (l : list (R * R * R)) := map (fun p => snd p) l.
Definition behaves {D} (m : geomodel D) (pm : pmodel D) : Prop :=
  (forall l, gm_direct_h m (fins (firsts l)) (fins (seconds l)) (fins (thirds l)) = Some (map (fun p => node (lift3 (pm_h pm) p)) l))
  /\ (forall d l, gm_direct_dtm m (fins (map fst l)) (fins (map snd l)) d = Some (map (fun p => node (pm_d pm d (fst p) (snd p))) l))
  /\ (forall l, gm_inverse m (fins (firsts l)) (fins (seconds l)) (fins (thirds l))
                = Some (map (fun p => let rc := lift3 (pm_inv pm) p in (fin (fst rc), fin (snd rc))) l)).

(** A surface: a constant altitude or a DTM. *)
Inductive surface (D : Type) := Plane (h : R) | Terrain (d : D).
Arguments Plane {D}. Arguments Terrain {D}.
Definition elev_of {D} (s : surface D) : elevation D := match s with Plane h => Elev (Scalar (fin h)) | Terrain d => Dtm d end.

(** The ground position of an image position on a surface, and the position in another image. *)
Definition ground {D} (pm : pmodel D) (s : surface D) (p : vec3) : vec3 :=
  match s with Plane h => pm_h pm (v0 p) (v1 p) h | Terrain d => pm_d pm d (v0 p) (v1 p) end.
Definition seen {D} (pm : pmodel D) (g : vec3) : vec3 :=
  let rc := pm_inv pm (v0 g) (v1 g) (v2 g) in V3 (fst rc) (snd rc) (v2 g).
Definition matched {D} (pm1 pm2 : pmodel D) (s : surface D) (p : vec3) : vec3 := seen pm2 (ground pm1 s p).
(** The end of the local epipolar line of a left position: the right position, put back in the left
    image at the altitude of the surface plus [dh]. *)
Definition epipolar_end {D} (pl pr : pmodel D) (s : surface D) (dh : R) (p : vec3) : vec3 :=
  let q := matched pl pr s p in matched pr pl (Plane (v2 q + dh)) q.

(** The baseline ratio at a left position: image displacement per unit of altitude. *)
Definition local_ratio {D} (pl pr : pmodel D) (s : surface D) (offset : R) (p : vec3) : R :=
  image_distance (epipolar_end pl pr s (- offset) p) (epipolar_end pl pr s offset p) / (2 * offset).

Definition sum (l : list R) : R := fold_right Rplus 0 l.
Definition mean (l : list R) : R := sum l / INR (length l).

(** A list of lines (one line for each step of a strip) moves by [d] along the angles [a] found at
    each node. *)
Definition steps {D} (pl pr : pmodel D) (s : surface D) (offset : R) (axis : Z) (d : R)
  (first : list R) (lines : list (list vec3)) (angles : list (list R)) : Prop :=
  nth_error angles 0 = Some first
  /\ (forall k line a, nth_error lines k = Some line -> nth_error angles k = Some a -> length a = length line)
  /\ (forall k line next a,
        nth_error lines k = Some line -> nth_error lines (S k) = Some next -> nth_error angles k = Some a ->
        next = map (fun pa => moved axis d (fst pa) (snd pa)) (combine line a))
  /\ (forall k line a,
        nth_error lines (S k) = Some line -> nth_error angles (S k) = Some a ->
        Forall (fun pa => let p := fst pa in
                          has_direction (epipolar_end pl pr s (- offset) p) (epipolar_end pl pr s offset p) (snd pa)
                          /\ - PI / 2 <= snd pa < 3 * PI / 2) (combine line a)).

(** [alpha] is the direction of the local epipolar line at [p]. *)
Definition epipolar_direction {D} (pl pr : pmodel D) (s : surface D) (offset : R) (p : vec3) (alpha : R) : Prop :=
  has_direction (epipolar_end pl pr s (- offset) p) (epipolar_end pl pr s offset p) alpha /\ - PI / 2 <= alpha < 3 * PI / 2.

(** A grid of [g0] lines of [g1] nodes. *)
Definition shaped {A} (g0 g1 : nat) (m : list (list A)) : Prop := length m = g0 /\ forall l, In l m -> length l = g1.
(** The epipolar grid from a start position: the first column goes down across the local epipolar
    directions, each line follows them. *)
Definition epipolar_grid {D} (pl pr : pmodel D) (s : surface D) (offset d : R) (start : vec3) (L : list (list vec3)) : Prop :=
  entry L 0 0 = Some start
  /\ forall i j p, entry L i j = Some p ->
      exists alpha, epipolar_direction pl pr s offset p alpha
        /\ (forall q, entry L i (S j) = Some q -> q = moved 1 d p alpha)
        /\ (j = 0%nat -> forall q, entry L (S i) 0 = Some q -> q = moved 0 d p alpha).

(** ** The left image in the epipolar frame *)
(** Coordinates, along and across the direction [alpha], of the image point (row, col), from the
    point (row0, col0). *)
Definition along (alpha row0 col0 row col : R) : R := (col - col0) * cos alpha + (row - row0) * sin alpha.
Definition across (alpha row0 col0 row col : R) : R := (row - row0) * cos alpha - (col - col0) * sin alpha.
(** The point with these coordinates. *)
Definition from_frame (alpha row0 col0 x y : R) : R * R :=
  (row0 + x * sin alpha + y * cos alpha, col0 + x * cos alpha - y * sin alpha).
