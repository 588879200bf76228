From Coq Require Import Reals ZArith List Bool Arith Lra Lia Permutation.
From Verif Require Import Num NumLemmas ProjModel ProjSpec PropertiesProj RpcModel CppRpcModel RpcSpec.
Import ListNotations.
Open Scope R_scope.

(** ** Lists of length 20 *)
Lemma list20 (l : list R) : length l = 20%nat ->
  exists a0 a1 a2 a3 a4 a5 a6 a7 a8 a9 a10 a11 a12 a13 a14 a15 a16 a17 a18 a19,
  l = [a0;a1;a2;a3;a4;a5;a6;a7;a8;a9;a10;a11;a12;a13;a14;a15;a16;a17;a18;a19].
Proof.
  intros H. do 20 (destruct l as [|? l]; [discriminate H|]).
  destruct l; [|discriminate H]. repeat eexists.
Qed.

Lemma poly_cubic c x y z : length c = 20%nat -> polynomial_equation x y z c = cubic c x y z.
Proof.
  intros H. destruct (list20 c H) as (?&?&?&?&?&?&?&?&?&?&?&?&?&?&?&?&?&?&?&?&->).
  unfold polynomial_equation, cubic, co; simpl. ring.
Qed.

Lemma cpp_poly_eq c x y z :
  cpp_polynomial_equation (cpp_pre_polynomial_equation x y z) c = polynomial_equation x y z c.
Proof.
  unfold cpp_polynomial_equation, cpp_pre_polynomial_equation, polynomial_equation.
  unfold co at 1 3 5 7 9 11 13 15 17 19 21 23 25 27 29 31 33 35 37 39. simpl nth.
  generalize (co c 0), (co c 1), (co c 2), (co c 3), (co c 4), (co c 5), (co c 6), (co c 7),
    (co c 8), (co c 9), (co c 10), (co c 11), (co c 12), (co c 13), (co c 14), (co c 15),
    (co c 16), (co c 17), (co c 18), (co c 19). intros. ring.
Qed.

Lemma cpp_dlat_eq x y z c :
  cpp_derivative_polynomial_latitude x y z c = derivative_polynomial_latitude x y z c.
Proof. unfold cpp_derivative_polynomial_latitude, derivative_polynomial_latitude. ring. Qed.
Lemma cpp_dlon_eq x y z c :
  cpp_derivative_polynomial_longitude x y z c = derivative_polynomial_longitude x y z c.
Proof. unfold cpp_derivative_polynomial_longitude, derivative_polynomial_longitude. ring. Qed.

(** ** Stores *)
Definition key (s : store) : nat * nat := (st_arr s, st_idx s).

Lemma run_stores_app l1 l2 m : run_stores (l1 ++ l2) m = run_stores l2 (run_stores l1 m).
Proof. apply fold_left_app. Qed.

Lemma run_stores_other l m a i : ~ In (a, i) (map key l) -> run_stores l m a i = m a i.
Proof.
  revert m. induction l as [|s l IH]; intros m H; [reflexivity|]. simpl in *.
  rewrite IH by tauto. unfold do_store.
  destruct (Nat.eqb_spec a (st_arr s)), (Nat.eqb_spec i (st_idx s)); simpl; try reflexivity.
  exfalso. apply H. left. unfold key. now subst.
Qed.

Lemma run_stores_in l m s : NoDup (map key l) -> In s l ->
  run_stores l m (st_arr s) (st_idx s) = st_val s.
Proof.
  revert m. induction l as [|t l IH]; intros m Hnd Hin; [easy|].
  simpl in Hnd. inversion Hnd; subst. simpl. destruct Hin as [->|Hin].
  - rewrite run_stores_other by assumption. unfold do_store. now rewrite !Nat.eqb_refl.
  - now apply IH.
Qed.

Lemma natpair_dec (x y : nat * nat) : {x = y} + {x <> y}.
Proof. decide equality; apply Nat.eq_dec. Qed.

Lemma run_stores_perm l l' m a i : NoDup (map key l) -> Permutation l l' ->
  run_stores l m a i = run_stores l' m a i.
Proof.
  intros Hnd Hp.
  assert (Hnd' : NoDup (map key l')) by (eapply Permutation_NoDup; [apply Permutation_map; eauto|assumption]).
  destruct (in_dec natpair_dec (a, i) (map key l)) as [H|H].
  - apply in_map_iff in H. destruct H as (s & Hk & Hs). unfold key in Hk. injection Hk as <- <-.
    rewrite run_stores_in by assumption. symmetry. apply run_stores_in; [assumption|].
    eapply Permutation_in; eauto.
  - rewrite !run_stores_other; trivial. intros H'. apply H.
    eapply Permutation_in; [apply Permutation_sym, Permutation_map; eauto|assumption].
Qed.

(** Loops whose iteration [i] stores one value in each of the arrays [arrs i], at index [i]. *)
Lemma loop_keys_nodup (f : nat -> list store) k n :
  (forall i s, In s (f i) -> st_idx s = i) ->
  (forall i, NoDup (map st_arr (f i))) ->
  NoDup (map key (flat_map f (seq k n))).
Proof.
  intros Hi Ha. revert k. induction n as [|n IH]; intros k; simpl; [constructor|].
  rewrite map_app.
  assert (HA : NoDup (map key (f k))).
  { specialize (Ha k). pose proof (Hi k) as Hk. revert Ha Hk. generalize (f k).
    induction l as [|s l IHl]; intros Hn Hk; simpl in *; [constructor|].
    inversion Hn; subst. constructor; [|apply IHl; auto].
    intros Hin. apply H1. apply in_map_iff in Hin. destruct Hin as (t & Ht & Hint).
    apply in_map_iff. exists t. split; [|assumption]. unfold key in Ht. congruence. }
  assert (HB : forall x, In x (map key (f k)) -> ~ In x (map key (flat_map f (seq (S k) n)))).
  { intros x Hx Hx'. apply in_map_iff in Hx. destruct Hx as (s & <- & Hs).
    apply in_map_iff in Hx'. destruct Hx' as (t & Ht & Hint).
    apply in_flat_map in Hint. destruct Hint as (j & Hj & Hjt).
    apply in_seq in Hj. apply Hi in Hs. apply Hi in Hjt. unfold key in Ht.
    injection Ht as _ E. lia. }
  revert HA HB. generalize (map key (f k)). intros l0.
  induction l0 as [|x l0 IHl]; intros HA HB; simpl; [apply IH|].
  inversion HA; subst. constructor.
  - intros Hin. apply in_app_or in Hin. destruct Hin; [auto|]. eapply HB; [now left|eassumption].
  - apply IHl; [assumption|]. intros y Hy. apply HB. now right.
Qed.

Lemma loop_read (f : nat -> list store) (v : nat -> num) a n :
  (forall i s, In s (f i) -> st_idx s = i) ->
  (forall i, NoDup (map st_arr (f i))) ->
  (forall i, In (St a i (v i)) (f i)) ->
  read_array (run_stores (flat_map f (seq 0 n)) zeros) a n = map v (seq 0 n).
Proof.
  intros Hi Ha Hv. unfold read_array. apply map_ext_in. intros i Hin.
  apply (run_stores_in _ zeros (St a i (v i))).
  - now apply loop_keys_nodup.
  - apply in_flat_map. exists i. split; [assumption|apply Hv].
Qed.

(** ** The batch loops as maps *)
Lemma map_nth_seq {A} (l : list A) d : map (fun i => nth i l d) (seq 0 (length l)) = l.
Proof.
  induction l as [|x l IH]; [reflexivity|]. simpl. f_equal. rewrite <- seq_shift, map_map. exact IH.
Qed.

Lemma map_seq_nth {A B} (l : list A) d (G : A -> B) (g : nat -> B) :
  (forall i, (i < length l)%nat -> g i = G (nth i l d)) -> map g (seq 0 (length l)) = map G l.
Proof.
  intros H. rewrite <- (map_nth_seq l d) at 2. rewrite map_map. apply map_ext_in.
  intros i Hi. apply in_seq in Hi. apply H. lia.
Qed.

Lemma at_map {A} (f : A -> num) l d i : (i < length l)%nat -> at_ (map f l) i = f (nth i l d).
Proof. intros. unfold at_. rewrite nth_indep with (d' := f d) by (now rewrite map_length). apply map_nth. Qed.

Lemma rational_loop_map {A} (l : list A) (fx fy fz : A -> num) nc dc nl dl sc oc sl ol :
  compute_rational_function_polynomial (map fx l) (map fy l) (map fz l) nc dc nl dl sc oc sl ol
  = Some (map (fun p => rational (fx p) (fy p) (fz p) nl dl sl ol) l,
          map (fun p => rational (fx p) (fy p) (fz p) nc dc sc oc) l).
Proof.
  unfold compute_rational_function_polynomial. rewrite !map_length, Nat.eqb_refl. simpl.
  destruct l as [|a0 l0]; [reflexivity|]. set (l := a0 :: l0).
  assert (Hi : forall i s, In s (rational_stores (map fx l) (map fy l) (map fz l) nc dc nl dl sc oc sl ol i)
     -> st_idx s = i).
  { intros i s [<-|[<-|[]]]; reflexivity. }
  assert (Ha : forall i, NoDup (map st_arr (rational_stores (map fx l) (map fy l) (map fz l) nc dc nl dl sc oc sl ol i))).
  { intros i. simpl. repeat constructor; simpl; intuition discriminate. }
  f_equal. f_equal.
  - erewrite loop_read with (v := fun i => rational (at_ (map fx l) i) (at_ (map fy l) i) (at_ (map fz l) i) nl dl sl ol);
      [|exact Hi|exact Ha|intros i; simpl; auto].
    apply map_seq_nth with (d := a0). intros i H. now rewrite !(at_map _ _ a0) by assumption.
  - erewrite loop_read with (v := fun i => rational (at_ (map fx l) i) (at_ (map fy l) i) (at_ (map fz l) i) nc dc sc oc);
      [|exact Hi|exact Ha|intros i; simpl; auto].
    apply map_seq_nth with (d := a0). intros i H. now rewrite !(at_map _ _ a0) by assumption.
Qed.

Definition p41 {A B C D} (t : A * B * C * D) := let '(a, _, _, _) := t in a.
Definition p42 {A B C D} (t : A * B * C * D) := let '(_, b, _, _) := t in b.
Definition p43 {A B C D} (t : A * B * C * D) := let '(_, _, c, _) := t in c.
Definition p44 {A B C D} (t : A * B * C * D) := let '(_, _, _, d) := t in d.

Lemma derivates_loop_map {A} (l : list A) (fx fy fz : A -> num) nc dc nl dl sc slo sl sla :
  let D p := derivates_point (fx p) (fy p) (fz p) nc dc nl dl sc slo sl sla in
  compute_loc_inverse_derivates_numba (map fx l) (map fy l) (map fz l) nc dc nl dl sc slo sl sla
  = (map (fun p => p41 (D p)) l, map (fun p => p42 (D p)) l,
     map (fun p => p43 (D p)) l, map (fun p => p44 (D p)) l).
Proof.
  intros D. unfold compute_loc_inverse_derivates_numba. rewrite !map_length.
  destruct l as [|a0 l0]; [reflexivity|]. set (l := a0 :: l0).
  set (st := derivates_stores (map fx l) (map fy l) (map fz l) nc dc nl dl sc slo sl sla).
  set (V := fun i => derivates_point (at_ (map fx l) i) (at_ (map fy l) i) (at_ (map fz l) i) nc dc nl dl sc slo sl sla).
  assert (Hs : forall i, st i = [St 0 i (p41 (V i)); St 1 i (p42 (V i)); St 2 i (p43 (V i)); St 3 i (p44 (V i))]).
  { intros i. unfold st, derivates_stores. fold (V i). destruct (V i) as [[[? ?] ?] ?]. reflexivity. }
  assert (Hi : forall i s, In s (st i) -> st_idx s = i).
  { intros i s. rewrite Hs. intros [<-|[<-|[<-|[<-|[]]]]]; reflexivity. }
  assert (Ha : forall i, NoDup (map st_arr (st i))).
  { intros i. rewrite Hs. simpl. repeat constructor; simpl; intuition discriminate. }
  assert (HV : forall i, (i < length l)%nat -> V i = D (nth i l a0)).
  { intros i H. unfold V, D. now rewrite !(at_map _ _ a0) by assumption. }
  f_equal; [f_equal; [f_equal|]|].
  - rewrite (loop_read st (fun i => p41 (V i))); trivial.
    + apply map_seq_nth with (d := a0). intros. now rewrite HV.
    + intros i. rewrite Hs. simpl. auto.
  - rewrite (loop_read st (fun i => p42 (V i))); trivial.
    + apply map_seq_nth with (d := a0). intros. now rewrite HV.
    + intros i. rewrite Hs. simpl. auto.
  - rewrite (loop_read st (fun i => p43 (V i))); trivial.
    + apply map_seq_nth with (d := a0). intros. now rewrite HV.
    + intros i. rewrite Hs. simpl. auto.
  - rewrite (loop_read st (fun i => p44 (V i))); trivial.
    + apply map_seq_nth with (d := a0). intros. now rewrite HV.
    + intros i. rewrite Hs. simpl. auto.
Qed.

Lemma zip3_maps rows : zip3 (map lon3 rows) (map lat3 rows) (map alt3 rows) = Some rows.
Proof. induction rows as [|[x y z] rows IH]; [reflexivity|]. simpl. now rewrite IH. Qed.

Lemma zip3_inv a b c rows : zip3 a b c = Some rows ->
  a = map lon3 rows /\ b = map lat3 rows /\ c = map alt3 rows.
Proof.
  revert b c rows. induction a as [|x a IH]; intros [|y b] [|z c] rows H; try discriminate.
  - injection H as <-. now split.
  - simpl in H. destruct (zip3 a b c) eqn:E; [|discriminate]. injection H as <-.
    destruct (IH _ _ _ E) as (-> & -> & ->). now split.
Qed.

Lemma zip3_some a b c : length b = length a -> length c = length a ->
  exists rows, zip3 a b c = Some rows.
Proof.
  revert b c. induction a as [|x a IH]; intros [|y b] [|z c] Hb Hc; try discriminate.
  - now exists [].
  - simpl in *. destruct (IH b c) as [rows ->]; try lia. now eexists.
Qed.

(** One point of [inverse_loc]. *)
Definition checked (p : row3) : row3 := if lonlat_filtering p then nan3 else p.
Definition inv_pt (m : rpc) (p : row3) : row3 :=
  let q := checked p in
  let x := normalise (offset_x m) (scale_x m) (lon3 q) in
  let y := normalise (offset_y m) (scale_y m) (lat3 q) in
  let z := normalise (offset_alt m) (scale_alt m) (alt3 q) in
  R3 (rational x y z (num_row m) (den_row m) (scale_row m) (offset_row m))
     (rational x y z (num_col m) (den_col m) (scale_col m) (offset_col m))
     (alt3 q).

Lemma broadcast_same n alt : length alt = n -> broadcast_alt n alt = Some alt.
Proof. intros. unfold broadcast_alt. now rewrite H, Nat.eqb_refl. Qed.

Lemma inverse_loc_map m rows : inverse_coefficient m = true ->
  inverse_loc m (map lon3 rows) (map lat3 rows) (map alt3 rows)
  = Some (map (fun p => lon3 (inv_pt m p)) rows, map (fun p => lat3 (inv_pt m p)) rows,
          map (fun p => alt3 (inv_pt m p)) rows).
Proof.
  intros H. unfold inverse_loc. rewrite H, broadcast_same by now rewrite !map_length.
  rewrite zip3_maps. unfold check_lonlat. fold checked.
  rewrite !map_map.
  rewrite (rational_loop_map rows
    (fun p => normalise (offset_x m) (scale_x m) (lon3 (checked p)))
    (fun p => normalise (offset_y m) (scale_y m) (lat3 (checked p)))
    (fun p => normalise (offset_alt m) (scale_alt m) (alt3 (checked p)))).
  reflexivity.
Qed.

Definition der_pt (m : rpc) (lon lat alt : num) : num * num * num * num :=
  derivates_point (normalise (offset_x m) (scale_x m) lon) (normalise (offset_y m) (scale_y m) lat)
    (normalise (offset_alt m) (scale_alt m) alt)
    (num_col m) (den_col m) (num_row m) (den_row m)
    (scale_col m) (scale_x m) (scale_row m) (scale_y m).

Lemma derivates_map {A} m (l : list A) fx fy fz :
  let D p := der_pt m (fx p) (fy p) (fz p) in
  compute_loc_inverse_derivates m (map fx l) (map fy l) (map fz l)
  = Some (map (fun p => p41 (D p)) l, map (fun p => p42 (D p)) l,
     map (fun p => p43 (D p)) l, map (fun p => p44 (D p)) l).
Proof.
  intros D. unfold compute_loc_inverse_derivates.
  rewrite broadcast_same by now rewrite !map_length. f_equal. rewrite !map_map.
  apply derivates_loop_map.
Qed.
