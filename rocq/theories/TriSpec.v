(** Specification of the triangulation: elementary geometry of lines in space. *)
From Coq Require Import Reals ZArith List.
From Verif Require Import Num ProjModel RpcModel TriModel.
Import ListNotations.
Open Scope R_scope.

Definition dot (u v : vec3) : R := v0 u * v0 v + v1 u * v1 v + v2 u * v2 v.
Definition minus3 (u v : vec3) : vec3 := V3 (v0 u - v0 v) (v1 u - v1 v) (v2 u - v2 v).
Definition dist3 (p q : vec3) : R := sqrt (dot (minus3 p q) (minus3 p q)).

(** A line of sight: a point and a direction. *)
Record sight := Sight { s_from : vec3; s_dir : vec3 }.
(** Its point at abscissa [t]. *)
Definition point_at (l : sight) (t : R) : vec3 :=
  V3 (v0 (s_from l) + t * v0 (s_dir l)) (v1 (s_from l) + t * v1 (s_dir l)) (v2 (s_from l) + t * v2 (s_dir l)).
Definition unit_dir (l : sight) : Prop := dot (s_dir l) (s_dir l) = 1.
Definition passes_through (l : sight) (p : vec3) : Prop := exists t, p = point_at l t.
Definition parallel (l l' : sight) : Prop :=
  exists k, s_dir l' = V3 (k * v0 (s_dir l)) (k * v1 (s_dir l)) (k * v2 (s_dir l)).

(** [d] is the distance of [p] to the line: reached at a point of the line, and minimal. *)
Definition is_distance (p : vec3) (l : sight) (d : R) : Prop :=
  (exists t, d = dist3 p (point_at l t)) /\ forall t, d <= dist3 p (point_at l t).

(** [total] is the sum of the squared distances of [p] to the lines. *)
Inductive sum_sq_distances (p : vec3) : list sight -> R -> Prop :=
| ssd_nil : sum_sq_distances p [] 0
| ssd_cons : forall l ls d total, is_distance p l d -> sum_sq_distances p ls total ->
    sum_sq_distances p (l :: ls) (d * d + total).

(** Not all the lines are parallel. *)
Definition two_directions (ls : list sight) : Prop := exists l l', In l ls /\ In l' ls /\ ~ parallel l l'.

(** The lines of one point as the arrays [sis] and [vis] given to the triangulation. *)
Definition froms (ls : list sight) : list row3 := map (fun l => row_of_point (s_from l)) ls.
Definition dirs (ls : list sight) : list row3 := map (fun l => row_of_point (s_dir l)) ls.

(** Treating every point of a batch by itself. *)
Definition pointwise_conv (conv : Z -> Z -> list row3 -> list row3) : Prop :=
  exists f, forall e1 e2 l, conv e1 e2 l = map (f e1 e2) l.
Definition pointwise_model (g : loc_model) : Prop :=
  exists f, forall pos alt fill,
    lm_direct g (map snd pos) (map fst pos) alt fill = Some (map (fun p : num * num => f (snd p) (fst p) alt fill) pos).

(** The rank of the position [n] among the selected positions. *)
Definition rank (ok : list bool) (n : nat) : nat := length (filter (fun b => b) (firstn n ok)).
Definition count (ok : list bool) : nat := length (filter (fun b => b) ok).
(** A mask selects the pixel (i, j). *)
Definition selected (mask : option (list (list R))) (i j : nat) : Prop :=
  match mask with
  | None => True
  | Some m => exists line v, nth_error m i = Some line /\ nth_error line j = Some v /\ 0 < v
  end.
(** An array with [nr] lines of [nc] values. *)
Definition shaped {A} (nr nc : nat) (m : list (list A)) : Prop :=
  length m = nr /\ Forall (fun line => length line = nc) m.

(** One answer per position, whatever the positions are. *)
Definition sized_model (g : loc_model) : Prop :=
  forall pos alt fill out, lm_direct g (map snd pos) (map fst pos) alt fill = Some out -> length out = length pos.

(** The altitudes of the two ends of the lines of sight of a model. *)
Definition ends (g : loc_model) (amm : option (R * R)) (lo hi : R) : Prop :=
  match amm with None => lm_alt_min_max g | Some mm => mm end = (lo, hi).
(** The point [p] is on the line through [a] and [b]. *)
Definition aligned (a b p : vec3) : Prop :=
  exists t, p = V3 (v0 b + t * (v0 a - v0 b)) (v1 b + t * (v1 a - v1 b)) (v2 b + t * (v2 a - v2 b)).
(** A match, the geographic positions of the ends of its two lines of sight, and a ground position. *)
Record seen := Seen {
  sn_match : smatch; sn_ltop : row3; sn_lbot : row3; sn_rtop : row3; sn_rbot : row3; sn_ground : row3 }.
(** Both lines of sight, in ECEF, pass through the ground position, and they are not parallel. *)
Definition seen_by_both (conv : Z -> Z -> list row3 -> list row3) (s : seen) : Prop :=
  exists a b a' b' p,
    conv 4326%Z 4978%Z [sn_ltop s] = [row_of_point a] /\ conv 4326%Z 4978%Z [sn_lbot s] = [row_of_point b] /\
    conv 4326%Z 4978%Z [sn_rtop s] = [row_of_point a'] /\ conv 4326%Z 4978%Z [sn_rbot s] = [row_of_point b'] /\
    conv 4326%Z 4978%Z [sn_ground s] = [row_of_point p] /\ conv 4978%Z 4326%Z [row_of_point p] = [sn_ground s] /\
    aligned a b p /\ aligned a' b' p /\
    a <> b /\ a' <> b' /\ ~ parallel (Sight b (minus3 a b)) (Sight b' (minus3 a' b')).

(** An RPC model as LOS uses it (the direct coefficients are not asked for). *)
Definition rpc_sensor (m : rpc) : loc_model :=
  LocModel (fun rows cols alt fill => direct_loc_h m rows cols [Some alt] fill false) (get_alt_min_max m).
