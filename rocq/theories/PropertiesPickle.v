(** C70: pickling of the C++ DTM object. *)
From Coq Require Import Reals ZArith List Bool Lra Lia.
From Verif Require Import Num InterpModel InterpSpec ProjModel DtmModel PropertiesDtm CppDtmModel PickleModel.
Import ListNotations.
Open Scope R_scope.

(** The members of type [std::array<double, 6>] have six elements. *)
Definition sized (o : dtm_object) : Prop :=
  Forall (fun l => length l = 6%nat)
    [m_plane_coef_a o; m_plane_coef_b o; m_plane_coef_c o; m_plane_coef_d o; m_trans_inv o; m_transform o].

Lemma cast_vector_of l : cast_vector (py_vector l) = Some l.
Proof.
  unfold cast_vector, py_vector. rewrite map_map. cbn [cast_double]. induction l as [|x l IH]; [reflexivity|].
  cbn [map seq_opt]. now rewrite IH.
Qed.
Lemma cast_array6_of l : length l = 6%nat -> cast_array6 (py_vector l) = Some l.
Proof. intros H. unfold cast_array6. now rewrite cast_vector_of, H. Qed.

(** An object restored from the pickled state of another one has all its members, whatever was in memory
    where it is restored. *)
Theorem C70_round_trip :
  forall o init, sized o -> setstate init (getstate o) = Some o.
Proof.
  intros o init H. unfold sized in H. rewrite !Forall_cons_iff in H. destruct H as (H1 & H2 & H3 & H4 & H5 & H6 & _).
  unfold setstate, getstate. cbn [length Nat.eqb negb]. unfold assign. cbn [nth_error].
  rewrite !cast_vector_of, !cast_array6_of by assumption. cbn [cast_double cast_int]. destruct o; reflexivity.
Qed.
(** A constructed object is restored, and works on the same DTM: every line of sight gets the same result. *)
Theorem C70_same_intersections :
  forall d epsg init, let o := dtm_construct epsg (flatten_raster (dt_data d)) (nb_rows d) (nb_columns d) (dt_gdal d) in
  exists o', setstate init (getstate o) = Some o' /\ m_epsg o' = epsg /\ m_tol_z o' = tol_z /\
    (m_plane_coef_a o', m_plane_coef_b o', m_plane_coef_c o') = (plane_coef_a, plane_coef_b, plane_coef_c) /\
    forall fuel los, cpp_intersection_one (members o') fuel los = cpp_intersection_one (cpp_of d) fuel los.
Proof.
  intros d epsg init o. exists o. split; [apply C70_round_trip; repeat constructor|]. split; [reflexivity|]. split; [reflexivity|]. split; [reflexivity|].
  intros fuel los. f_equal. unfold o, members, dtm_construct, cpp_of, cpp_make, array_of_gdal, gdal_of_array.
  cbn [m_alt_data m_nb_rows m_nb_columns m_transform m_trans_inv m_alt_min_cell m_alt_max_cell m_plane_coef_d nth].
  destruct (dt_gdal d), (cpp_trans_inv (dt_gdal d)); reflexivity.
Qed.
(** The table of the six faces of the DTM, restored with the object, holds their four coefficients in turn. *)
Theorem C70_faces_table :
  forall epsg data nr nc tr k, (k < 6)%nat -> let o := dtm_construct epsg data nr nc tr in
  firstn 4 (skipn (4 * k) (m_plans o)) =
  [nth k (m_plane_coef_a o) 0; nth k (m_plane_coef_b o) 0; nth k (m_plane_coef_c o) 0; nth k (m_plane_coef_d o) 0].
Proof. intros epsg data nr nc tr k Hk o. do 6 (destruct k as [|k]; [reflexivity|]). lia. Qed.
(** No member is left uninitialised: the restored object depends on the state only. *)
Theorem C70_fully_initialised :
  forall t init init' o o', setstate init t = Some o -> setstate init' t = Some o' -> o = o'.
Proof.
  intros t init init' o o'. unfold setstate. destruct (negb _); [discriminate|]. unfold assign.
  repeat match goal with |- context [nth_error t ?i] => destruct (nth_error t i); [|discriminate] end.
  repeat match goal with |- context [match ?c ?x with Some _ => _ | None => _ end] => destruct (c x); [|discriminate] end.
  intros H H'. rewrite H' in H || (injection H as <-; injection H' as <-). reflexivity.
Qed.
(** A state of another size is rejected. *)
Theorem C70_other_sizes_rejected :
  forall t init, length t <> 16%nat -> setstate init t = None.
Proof. intros t init H. unfold setstate. apply Nat.eqb_neq in H. now rewrite H. Qed.
(** Two Python values that say the same: an integer may stand for a float. *)
Inductive same_value : pyval -> pyval -> Prop :=
| same_float x : same_value (PFloat x) (PFloat x)
| same_int z : same_value (PInt z) (PInt z)
| same_number z : same_value (PInt z) (PFloat (IZR z))
| same_list l l' : Forall2 same_value l l' -> same_value (PList l) (PList l').
Lemma same_double v x : same_value v (PFloat x) <-> cast_double v = Some x.
Proof. split; [intros H; inversion H; subst; reflexivity|]. destruct v; cbn; intros [= <-]; constructor. Qed.
Lemma same_integer v z : same_value v (PInt z) <-> cast_int v = Some z.
Proof. split; [intros H; inversion H; subst; reflexivity|]. destruct v; cbn; intros [= <-]; constructor. Qed.
Lemma same_vector v l : same_value v (py_vector l) <-> cast_vector v = Some l.
Proof.
  unfold py_vector. assert (A : forall vs, Forall2 same_value vs (map PFloat l) <-> seq_opt (map cast_double vs) = Some l).
  { induction l as [|x l IH]; intros vs; split; intros H.
    - inversion H; subst. reflexivity.
    - destruct vs as [|v0 vs]; [constructor|]. cbn in H. destruct (cast_double v0); [destruct (seq_opt (map cast_double vs))|]; discriminate.
    - inversion H as [|v0 w vs0 ws A B]; subst. cbn. apply same_double in A. apply IH in B. rewrite A, B. reflexivity.
    - destruct vs as [|v0 vs]; [discriminate|]. cbn in H. destruct (cast_double v0) as [y|] eqn:E0; [|discriminate]. destruct (seq_opt (map cast_double vs)) as [l'|] eqn:E1; [|discriminate].
      injection H as -> ->. cbn. constructor; [now apply same_double|now apply IH]. }
  split; [intros H; inversion H; subst; cbn; now apply A|]. destruct v as [| |vs]; cbn; try discriminate. intros H. constructor. now apply A.
Qed.
(** A state is accepted when it is that of the restored object, and only then: a damaged state raises. *)
Theorem C70_accepted_states :
  forall t init o, setstate init t = Some o <-> sized o /\ Forall2 same_value t (getstate o).
Proof.
  assert (A6 : forall v l, cast_array6 v = Some l <-> length l = 6%nat /\ same_value v (py_vector l)).
  { intros v l. rewrite same_vector. unfold cast_array6. destruct (cast_vector v) as [l'|]; [|split; [discriminate|intros [_ H]; discriminate]].
    destruct (length l' =? 6)%nat eqn:E; [apply Nat.eqb_eq in E|apply Nat.eqb_neq in E]; split; [intros [= <-]; auto|intros [_ H]; exact H|discriminate|intros [H1 [= ->]]; congruence]. }
  intros t init o. split.
  - intros H. unfold setstate in H. destruct (length t =? 16)%nat eqn:L; [|discriminate]. apply Nat.eqb_eq in L. cbn [negb] in H.
    do 16 (destruct t as [|? t]; [discriminate|]). destruct t; [|discriminate]. unfold assign in H. cbn [nth_error] in H.
    repeat match goal with H : context [match ?c ?x with Some _ => _ | None => _ end] |- _ => let E := fresh "E" in destruct (c x) eqn:E; [|discriminate H] end.
    injection H as <-.
    repeat match goal with E : cast_array6 _ = Some _ |- _ => apply A6 in E; destruct E | E : cast_double _ = Some _ |- _ => apply same_double in E | E : cast_int _ = Some _ |- _ => apply same_integer in E | E : cast_vector _ = Some _ |- _ => apply same_vector in E end.
    split; [unfold sized; repeat constructor; assumption|]. unfold getstate. cbn. repeat constructor; assumption.
  - intros [S H]. unfold sized in S. rewrite !Forall_cons_iff in S. destruct S as (S1 & S2 & S3 & S4 & S5 & S6 & _).
    unfold getstate in H. repeat match goal with H : Forall2 same_value _ (_ :: _) |- _ => inversion H; clear H; subst end. match goal with H : Forall2 same_value _ [] |- _ => inversion H; clear H; subst end.
    repeat match goal with E : same_value _ (PFloat _) |- _ => apply same_double in E | E : same_value _ (PInt _) |- _ => apply same_integer in E end.
    unfold setstate. cbn [length Nat.eqb negb]. unfold assign. cbn [nth_error].
    repeat match goal with E : same_value ?v (py_vector ?l), S : length ?l = 6%nat |- _ => pose proof (proj2 (A6 v l) (conj S E)); clear E end.
    repeat match goal with E : same_value ?v (py_vector ?l) |- _ => apply same_vector in E end.
    repeat match goal with E : ?c ?v = Some ?x |- context [?c ?v] => rewrite E end. destruct o; reflexivity.
Qed.
Lemma Forall2_inv {A B} (R : A -> B -> Prop) x l y m : Forall2 R (x :: l) (y :: m) -> R x y /\ Forall2 R l m.
Proof. intros H. now inversion H. Qed.
(** Non-trivial cases: an integer in the place of a float is accepted, a list in the place of a float is not. *)
Example C70_damaged_state : forall init a b c d e, exists t,
  length t = 16%nat /\ nth_error t 9 = Some (PList [a; b; c; d; e]) /\ setstate init t = None.
Proof.
  intros init a b c d e. exists [py_vector []; PInt 0; PInt 0; py_vector [0;0;0;0;0;0]; py_vector [0;0;0;0;0;0]; py_vector [0;0;0;0;0;0]; py_vector [0;0;0;0;0;0]; py_vector []; py_vector []; PList [a; b; c; d; e]; PInt 0; py_vector []; py_vector [0;0;0;0;0;0]; py_vector [0;0;0;0;0;0]; PInt 0; PInt 0].
  split; [reflexivity|]. split; [reflexivity|]. destruct (setstate init _) as [o|] eqn:E; [|reflexivity]. exfalso. apply C70_accepted_states in E as [_ E]. unfold getstate in E.
  do 9 (apply Forall2_inv in E as [_ E]). apply Forall2_inv in E as [E _]. inversion E.
Qed.
Example C70_case : sized (dtm_construct 4326 (flatten_raster (dt_data ex_dtm)) (nb_rows ex_dtm) (nb_columns ex_dtm) (dt_gdal ex_dtm)) /\
  length (getstate (dtm_construct 4326 (flatten_raster (dt_data ex_dtm)) (nb_rows ex_dtm) (nb_columns ex_dtm) (dt_gdal ex_dtm))) = 16%nat /\
  (0 < length (flatten_raster (dt_data ex_dtm)))%nat.
Proof. split; [repeat constructor|]. split; [reflexivity|simpl; lia]. Qed.
