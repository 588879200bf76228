(** Least squares in the predictor of the grids. *)
From Coq Require Import Reals ZArith List Bool Lra Lia.
From Verif Require Import Num NumLemmas InterpModel ProjModel RpcModel GridModel GridSpec.
Import ListNotations.
Open Scope R_scope.

Lemma sumn_ext n f g : (forall i, (i < n)%nat -> f i = g i) -> sumn n f = sumn n g.
Proof. induction n as [|n IH]; intros H; [reflexivity|]. cbn. rewrite IH, H; auto; intros; apply H; lia. Qed.
Lemma sumn_plus n f g : sumn n (fun i => f i + g i) = sumn n f + sumn n g.
Proof. induction n as [|n IH]; cbn; [ring|]. rewrite IH. ring. Qed.
Lemma sumn_scal n k f : sumn n (fun i => k * f i) = k * sumn n f.
Proof. induction n as [|n IH]; cbn; [ring|]. rewrite IH. ring. Qed.
Lemma sumn_zero n : sumn n (fun _ => 0) = 0.
Proof. induction n as [|n IH]; cbn; [reflexivity|]. rewrite IH. ring. Qed.
Lemma sumn_swap n m f : sumn n (fun i => sumn m (fun j => f i j)) = sumn m (fun j => sumn n (fun i => f i j)).
Proof.
  induction n as [|n IH]; cbn; [now rewrite sumn_zero|]. rewrite IH, <- sumn_plus. reflexivity.
Qed.
Lemma sumn_delta n i f : (i < n)%nat -> sumn n (fun j => (if Nat.eqb i j then 1 else 0) * f j) = f i.
Proof.
  intros H. induction n as [|n IH]; [lia|]. cbn [sumn].
  destruct (Nat.eq_dec i n) as [->|N].
  - rewrite Nat.eqb_refl. rewrite (sumn_ext n _ (fun _ => 0)); [rewrite sumn_zero; ring|].
    intros j Hj. replace (Nat.eqb n j) with false by (symmetry; apply Nat.eqb_neq; lia). ring.
  - rewrite IH by lia. replace (Nat.eqb i n) with false by (symmetry; apply Nat.eqb_neq; lia). ring.
Qed.
Lemma sumn_nonneg n f : (forall i, (i < n)%nat -> 0 <= f i) -> 0 <= sumn n f.
Proof. induction n as [|n IH]; intros H; cbn; [lra|]. specialize (IH (fun i Hi => H i (Nat.lt_lt_succ_r _ _ Hi))). specialize (H n (Nat.lt_succ_diag_r n)). lra. Qed.

Definition term (p : R * R) (j : nat) : R := nth j (quadratic_terms (fst p) (snd p)) 0.
Definition poly (q : nat -> R) (p : R * R) : R := sumn 6 (fun j => q j * term p j).
Lemma dot_poly q p : length q = 6%nat -> dot q (quadratic_terms (fst p) (snd p)) = poly (fun j => nth j q 0) p.
Proof.
  intros H. destruct q as [|q0 [|q1 [|q2 [|q3 [|q4 [|q5 [|]]]]]]]; try discriminate.
  unfold dot, poly, term, quadratic_terms. cbn. ring.
Qed.

Section LS.
Context (inv : nat -> (nat -> nat -> R) -> option (nat -> nat -> R)) (Hinv : inverts inv).
Context (pts : list (R * R)) (b : list R).
Let nb := length pts.
Let A k j := term (nth k pts (0, 0)) j.
Let M i j := sumn nb (fun k => A k i * A k j).
Let bk k := nth k b 0.

Lemma least_squares_form c : least_squares inv pts b = Some c ->
  length c = 6%nat /\ exists N,
    (forall i j, (i < 6)%nat -> (j < 6)%nat -> sumn 6 (fun l => N i l * M l j) = (if Nat.eqb i j then 1 else 0)) /\
    (forall i j, (i < 6)%nat -> (j < 6)%nat -> sumn 6 (fun l => M i l * N l j) = (if Nat.eqb i j then 1 else 0)) /\
    forall i, (i < 6)%nat -> nth i c 0 = sumn 6 (fun l => N i l * sumn nb (fun k => A k l * bk k)).
Proof.
  unfold least_squares. intros H. destruct (inv _ _) as [N|] eqn:E; [|discriminate].
  assert (c = map (fun i => mat_mul (length pts) (mat_mul 6 N (fun i j => nth i (quadratic_terms (fst (nth j pts (0, 0))) (snd (nth j pts (0, 0)))) 0)) (fun k _ => nth k b 0) i 0) (seq 0 6)) as -> by congruence. clear H.
  split; [reflexivity|]. exists N.
  split; [intros i j Hi Hj; exact (proj1 (Hinv _ _ _ E i j Hi Hj))|].
  split; [intros i j Hi Hj; exact (proj2 (Hinv _ _ _ E i j Hi Hj))|].
  intros i Hi.
  match goal with |- nth i (map ?f _) 0 = _ => transitivity (f i) end.
  { do 6 (destruct i as [|i]; [reflexivity|]). lia. }
  unfold mat_mul at 1. fold nb. transitivity (sumn nb (fun k => sumn 6 (fun l => N i l * (A k l * bk k)))).
  - apply sumn_ext. intros k _. unfold mat_mul. fold (bk k). rewrite Rmult_comm, <- sumn_scal. apply sumn_ext. intros l _.
    change (nth l (quadratic_terms (fst (nth k pts (0, 0))) (snd (nth k pts (0, 0)))) 0) with (A k l). ring.
  - rewrite sumn_swap. apply sumn_ext. intros l _. now rewrite sumn_scal.
Qed.
Lemma at_poly q k : poly q (nth k pts (0, 0)) = sumn 6 (fun j => q j * A k j).
Proof. reflexivity. Qed.
Lemma normal_form q j : sumn nb (fun k => A k j * poly q (nth k pts (0, 0))) = sumn 6 (fun l => M j l * q l).
Proof.
  transitivity (sumn nb (fun k => sumn 6 (fun l => q l * (A k j * A k l)))).
  - apply sumn_ext. intros k _. rewrite at_poly, <- sumn_scal. apply sumn_ext. intros. ring.
  - rewrite sumn_swap. apply sumn_ext. intros l _. rewrite sumn_scal. unfold M. ring.
Qed.
(** The data of a polynomial give this polynomial. *)
Lemma least_squares_exact c q : least_squares inv pts b = Some c ->
  (forall k, (k < nb)%nat -> bk k = poly q (nth k pts (0, 0))) ->
  length c = 6%nat /\ forall i, (i < 6)%nat -> nth i c 0 = q i.
Proof.
  intros H Hq. destruct (least_squares_form c H) as (HL & N & HN & _ & HC). split; [assumption|]. intros i Hi. rewrite HC by assumption.
  transitivity (sumn 6 (fun l => N i l * sumn 6 (fun j => M l j * q j))).
  - apply sumn_ext. intros l _. f_equal. rewrite <- normal_form. apply sumn_ext. intros k Hk. now rewrite Hq.
  - transitivity (sumn 6 (fun j => sumn 6 (fun l => N i l * M l j) * q j)).
    + transitivity (sumn 6 (fun l => sumn 6 (fun j => N i l * M l j * q j))).
      * apply sumn_ext. intros l _. rewrite <- sumn_scal. apply sumn_ext. intros. ring.
      * rewrite sumn_swap. apply sumn_ext. intros j _. rewrite (Rmult_comm _ (q j)), <- sumn_scal. apply sumn_ext. intros. ring.
    + transitivity (sumn 6 (fun j => (if Nat.eqb i j then 1 else 0) * q j)); [|now apply sumn_delta].
      apply sumn_ext. intros j Hj. now rewrite HN.
Qed.
Definition misfit (q : nat -> R) : R := sumn nb (fun k => (poly q (nth k pts (0, 0)) - bk k) * (poly q (nth k pts (0, 0)) - bk k)).
(** The result minimises the sum of the squared differences. *)
Lemma least_squares_min c q : least_squares inv pts b = Some c ->
  misfit (fun j => nth j c 0) <= misfit q.
Proof.
  intros H. destruct (least_squares_form c H) as (HL & N & _ & HN & HC).
  set (x := fun j => nth j c 0). set (d := fun j => q j - x j).
  assert (Hx : forall j, (j < 6)%nat -> sumn 6 (fun l => M j l * x l) = sumn nb (fun k => A k j * bk k)).
  { intros j Hj. transitivity (sumn 6 (fun l => M j l * sumn 6 (fun i => N l i * sumn nb (fun k => A k i * bk k)))).
    - apply sumn_ext. intros l Hl. unfold x. now rewrite HC.
    - transitivity (sumn 6 (fun i => sumn 6 (fun l => M j l * N l i) * sumn nb (fun k => A k i * bk k))).
      + transitivity (sumn 6 (fun l => sumn 6 (fun i => M j l * N l i * sumn nb (fun k => A k i * bk k)))).
        * apply sumn_ext. intros l _. rewrite <- sumn_scal. apply sumn_ext. intros. ring.
        * rewrite sumn_swap. apply sumn_ext. intros i _. rewrite (Rmult_comm (sumn 6 _)), <- sumn_scal. apply sumn_ext. intros. ring.
      + transitivity (sumn 6 (fun i => (if Nat.eqb j i then 1 else 0) * sumn nb (fun k => A k i * bk k))).
        * apply sumn_ext. intros i Hi. now rewrite HN.
        * now apply (sumn_delta 6 j (fun i => sumn nb (fun k => A k i * bk k))). }
  assert (Hpoly : forall k, poly q (nth k pts (0, 0)) = poly x (nth k pts (0, 0)) + poly d (nth k pts (0, 0))).
  { intros k. rewrite !at_poly, <- sumn_plus. apply sumn_ext. intros j _. unfold d. ring. }
  assert (Hcross : sumn nb (fun k => poly d (nth k pts (0, 0)) * (poly x (nth k pts (0, 0)) - bk k)) = 0).
  { transitivity (sumn nb (fun k => sumn 6 (fun j => d j * (A k j * (poly x (nth k pts (0, 0)) - bk k))))).
    - apply sumn_ext. intros k _. rewrite (at_poly d), Rmult_comm, <- sumn_scal. apply sumn_ext. intros. ring.
    - rewrite sumn_swap. rewrite (sumn_ext 6 _ (fun _ => 0)); [apply sumn_zero|]. intros j Hj. rewrite sumn_scal.
      assert (E : sumn nb (fun k => A k j * (poly x (nth k pts (0, 0)) - bk k)) = 0).
      { transitivity (sumn nb (fun k => A k j * poly x (nth k pts (0, 0)) + (-1) * (A k j * bk k))).
        - apply sumn_ext. intros. ring.
        - rewrite sumn_plus, sumn_scal, normal_form, Hx by assumption. ring. }
      rewrite E. ring. }
  unfold misfit.
  assert (E : sumn nb (fun k => (poly q (nth k pts (0, 0)) - bk k) * (poly q (nth k pts (0, 0)) - bk k))
    = sumn nb (fun k => (poly x (nth k pts (0, 0)) - bk k) * (poly x (nth k pts (0, 0)) - bk k))
      + (sumn nb (fun k => poly d (nth k pts (0, 0)) * poly d (nth k pts (0, 0)))
         + 2 * sumn nb (fun k => poly d (nth k pts (0, 0)) * (poly x (nth k pts (0, 0)) - bk k)))).
  { rewrite <- sumn_scal, <- !sumn_plus. apply sumn_ext. intros k _. rewrite Hpoly. ring. }
  rewrite E, Hcross. pose proof (sumn_nonneg nb (fun k => poly d (nth k pts (0, 0)) * poly d (nth k pts (0, 0))) (fun k _ => Rle_0_sqr _)). lra.
Qed.
End LS.

(** ** The sums as sums over lists *)
Lemma sumn_front n f : sumn (S n) f = f 0%nat + sumn n (fun i => f (S i)).
Proof. induction n as [|n IH]; [cbn; ring|]. change (sumn (S (S n)) f) with (sumn (S n) f + f (S n)). rewrite IH. cbn. ring. Qed.
Lemma misfit_list : forall pts b q, length b = length pts -> misfit pts b q = square_misfit (poly q) pts b.
Proof.
  unfold misfit. intros pts. induction pts as [|p pts IH]; intros [|x b] q H; try discriminate; [reflexivity|].
  cbn [length]. rewrite sumn_front. cbn [nth square_misfit]. f_equal. apply IH. now injection H.
Qed.
Lemma square_misfit_scale : forall (f g : R * R -> R) h sc o pts b, (forall s, f s = g (h s) * sc + o) ->
  square_misfit f pts (map (fun x => x * sc + o) b) = sc * sc * square_misfit g (map h pts) b.
Proof.
  intros f g h sc o pts. induction pts as [|p pts IH]; intros [|x b] H; cbn [square_misfit map]; try ring. rewrite IH, H by assumption. ring.
Qed.
Lemma square_misfit_ext : forall f g pts b, (forall s, In s pts -> f s = g s) -> square_misfit f pts b = square_misfit g pts b.
Proof.
  intros f g pts. induction pts as [|p pts IH]; intros [|x b] H; try reflexivity. cbn. rewrite IH, H by (cbn; auto; intros; apply H; now right). reflexivity.
Qed.

(** ** The nodes *)
Lemma spread_linspace a b n : (2 <= n)%nat -> spread a b n = map (fun x => x * ((b - a) / 2) + (b + a) / 2) (linspace (-1) 1 n).
Proof.
  intros Hn. unfold spread, linspace. rewrite map_map. apply map_ext. intros k.
  assert (2 <= INR n) by (apply (le_INR 2 n); exact Hn). field. lra.
Qed.
Lemma flat_map_const_len : forall A B C (l : list C) (r1 : list A) (r2 : list B), length r1 = length r2 ->
  flat_map (fun _ => l) r1 = flat_map (fun _ => l) r2.
Proof. intros A B C l r1. induction r1 as [|x r1 IH]; intros [|y r2] H; try discriminate; [reflexivity|]. cbn. f_equal. apply IH. now injection H. Qed.
Lemma flat_map_map_in : forall A B C (f : B -> list C) (h : A -> B) l, flat_map f (map h l) = flat_map (fun x => f (h x)) l.
Proof. intros A B C f h l. induction l as [|x l IH]; [reflexivity|]. cbn. now rewrite IH. Qed.
Lemma map_flat_map : forall A B C (f : A -> list B) (h : B -> C) l, map h (flat_map f l) = flat_map (fun x => map h (f x)) l.
Proof. intros A B C f h l. induction l as [|x l IH]; [reflexivity|]. cbn. now rewrite map_app, IH. Qed.
Lemma list_prod_fst : forall A B (l : list A) (l' : list B), map fst (list_prod l l') = flat_map (fun x => map (fun _ => x) l') l.
Proof. intros A B l l'. induction l as [|x l IH]; [reflexivity|]. cbn. rewrite map_app, IH, map_map. reflexivity. Qed.
Lemma list_prod_snd : forall A B (l : list A) (l' : list B), map snd (list_prod l l') = flat_map (fun _ => l') l.
Proof. intros A B l l'. induction l as [|x l IH]; [reflexivity|]. cbn. rewrite map_app, IH, map_map. cbn. now rewrite map_id. Qed.
Lemma rowmax_node g : gr_rowmax g = node_row g (gr_nbrow g - 1).
Proof. unfold gr_rowmax, node_row. rewrite minus_IZR. ring. Qed.
Lemma colmax_node g : gr_colmax g = node_col g (gr_nbcol g - 1).
Proof. unfold gr_colmax, node_col. rewrite minus_IZR. ring. Qed.
Lemma row0_node g : gr_row0 g = node_row g 0.
Proof. unfold node_row. ring. Qed.
Lemma col0_node g : gr_col0 g = node_col g 0.
Proof. unfold node_col. ring. Qed.
Definition b_cols (nr nc : nat) : list R := flat_map (fun _ => linspace (-1) 1 nc) (linspace (-1) 1 nr).
Definition b_rows (nr nc : nat) : list R := flat_map (fun r => map (fun _ => r) (linspace (-1) 1 nc)) (linspace (-1) 1 nr).
Lemma linspace_length a b n : length (linspace a b n) = n.
Proof. unfold linspace. now rewrite map_length, seq_length. Qed.
Lemma spread_length a b n : length (spread a b n) = n.
Proof. unfold spread. now rewrite map_length, seq_length. Qed.
Lemma pixels_cols g nr nc : (2 <= nc)%nat ->
  map snd (spread_pixels g nr nc) = map (fun x => x * ((gr_colmax g - gr_col0 g) / 2) + (gr_colmax g + gr_col0 g) / 2) (b_cols nr nc).
Proof.
  intros Hc. unfold spread_pixels, b_cols. rewrite list_prod_snd, map_flat_map. rewrite colmax_node, col0_node, <- spread_linspace by assumption.
  apply flat_map_const_len. now rewrite spread_length, linspace_length.
Qed.
Lemma pixels_rows g nr nc : (2 <= nr)%nat ->
  map fst (spread_pixels g nr nc) = map (fun x => x * ((gr_rowmax g - gr_row0 g) / 2) + (gr_rowmax g + gr_row0 g) / 2) (b_rows nr nc).
Proof.
  intros Hr. unfold spread_pixels, b_rows. rewrite list_prod_fst, map_flat_map. rewrite (spread_linspace (node_row g 0)) by assumption.
  rewrite flat_map_map_in, <- rowmax_node, <- row0_node. apply flat_map_ext. intros r. rewrite map_map.
  unfold spread, linspace. rewrite !map_map. reflexivity.
Qed.
