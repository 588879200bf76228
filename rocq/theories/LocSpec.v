(** Specification of Localization and of the colocation. *)
From Coq Require Import Reals ZArith List.
From Verif Require Import Num ProjModel ProjSpec RpcModel LocModel.
Import ListNotations.
Open Scope R_scope.

(** The image coordinates of positions, for the geometric model: physical coordinates when the
    geotransform is asked for and there is an image. *)
Inductive model_positions : option image -> bool -> list (num * num) -> list (num * num) -> Prop :=
| mp_no_image : forall geo p, model_positions None geo p p
| mp_not_asked : forall im p, model_positions im false p p
| mp_image : forall im p,
    model_positions (Some im) true p (map (n_index_to_physical (im_transform im)) p).

(** The ground positions computed by the geometric model and the coordinate system they are in:
    the given altitude first, then the elevation the Localization was built with. *)
Inductive computed {D} (dtm_epsg : D -> Z) (m : geomodel D) (p : list (num * num)) :
  elevation D -> option altitude -> option (list row3) -> Z -> Prop :=
| at_given_altitude : forall e h,
    computed dtm_epsg m p e (Some h) (gm_direct_h m (map fst p) (map snd p) (broadcast (length p) h)) (gm_epsg m)
| over_the_dtm : forall d,
    computed dtm_epsg m p (Dtm d) None (gm_direct_dtm m (map fst p) (map snd p) d) (dtm_epsg d)
| at_default_elevation : forall a,
    computed dtm_epsg m p (Elev a) None (gm_direct_h m (map fst p) (map snd p) (broadcast (length p) a)) (gm_epsg m)
| at_zero : computed dtm_epsg m p NoElevation None
    (gm_direct_h m (map fst p) (map snd p) (repeat (fin 0) (length p))) (gm_epsg m).

(** Ground positions known in [from], in the system asked for. *)
Definition in_system (conv : Z -> Z -> list row3 -> list row3) (asked : option Z) (from : Z) (g : list row3) : list row3 :=
  match asked with
  | None => g
  | Some e => if Z.eqb e from then g else conv from e g
  end.

(** Conversions compose and do not touch positions already in the right system. *)
Definition coherent (conv : Z -> Z -> list row3 -> list row3) : Prop :=
  (forall e g, conv e e g = g) /\ (forall e1 e2 e3 g, conv e2 e3 (conv e1 e2 g) = conv e1 e3 g).

Definition lonlats (g : list row3) : list (num * num) := map (fun p => (lon3 p, lat3 p)) g.
Definition good_image (im : option image) : Prop :=
  match im with Some i => invertible (im_transform i) /\ im_trans_inv i = affine_inv (im_transform i) | None => True end.
Definition finite_positions (p : list (num * num)) : Prop := Forall (fun q => exists r c, q = (Some r, Some c)) p.

(** An interval [lo, hi] of floats holds the value [x]. *)
Definition within (lo : num) (x : R) (hi : num) : Prop :=
  exists a b, lo = Some a /\ hi = Some b /\ a <= x <= b.
