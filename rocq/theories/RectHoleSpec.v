(** Specification of models that may fail to localize some points. *)
From Coq Require Import Reals ZArith List.
From Verif Require Import Num ProjModel RpcModel LocModel RectSpec.
Import ListNotations.
Open Scope R_scope.

(** A model that handles each point by itself; coordinates may be NaN. *)
Record qmodel (D : Type) := QModel {
  q_h : num -> num -> num -> row3;           (* ground position of (row, col) at an altitude *)
  q_d : D -> num -> num -> row3;             (* ground position of (row, col) over a DTM *)
  q_inv : num -> num -> num -> num * num }.  (* (row, col) of (lon, lat, altitude) *)
Arguments QModel {D}. Arguments q_h {D}. Arguments q_d {D}. Arguments q_inv {D}.
Definition answers {D} (m : geomodel D) (q : qmodel D) : Prop :=
  (forall l : list (num * num * num), gm_direct_h m (map (fun p => fst (fst p)) l) (map (fun p => snd (fst p)) l) (map snd l)
     = Some (map (fun p => q_h q (fst (fst p)) (snd (fst p)) (snd p)) l))
  /\ (forall d (l : list (num * num)), gm_direct_dtm m (map fst l) (map snd l) d = Some (map (fun p => q_d q d (fst p) (snd p)) l))
  /\ (forall l : list (num * num * num), gm_inverse m (map (fun p => fst (fst p)) l) (map (fun p => snd (fst p)) l) (map snd l)
     = Some (map (fun p => q_inv q (fst (fst p)) (snd (fst p)) (snd p)) l)).
(** Three NaN. *)
Definition nowhere : row3 := R3 None None None.
(** A position that is not known is not localized. *)
Definition keeps_nan {D} (q : qmodel D) : Prop := q_h q None None None = nowhere /\ q_inv q None None None = (None, None).
(** No ground position for this image position. *)
Definition no_ground {D} (q : qmodel D) (d : D) (p : row3) : Prop := q_d q d (lon3 p) (lat3 p) = nowhere.
(** The position at the distance [x] along the columns and [y] along the rows. *)
Definition shifted (y x : R) (p : row3) : row3 := R3 (nadd (lon3 p) (fin y)) (nadd (lat3 p) (fin x)) (alt3 p).
