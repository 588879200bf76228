(** Lemmas on the batches of the triangulation. *)
From Coq Require Import Reals ZArith List Bool Lra Lia.
From Verif Require Import Num NumLemmas ProjModel RpcModel TriModel TriSpec TriProofs.
Import ListNotations.
Open Scope R_scope.

Lemma map2_length {A B C} (f : A -> B -> C) a b : length (map2 f a b) = Nat.min (length a) (length b).
Proof. revert b. induction a as [|x a IH]; intros [|y b]; simpl; auto. Qed.
Lemma map2_nth {A B C} (f : A -> B -> C) a b i x y :
  nth_error a i = Some x -> nth_error b i = Some y -> nth_error (map2 f a b) i = Some (f x y).
Proof.
  revert b i. induction a as [|u a IH]; intros [|w b] [|i] H1 H2; simpl in *; try discriminate; [congruence|auto].
Qed.
Lemma map2_nth_inv {A B C} (f : A -> B -> C) a b i z : nth_error (map2 f a b) i = Some z ->
  exists x y, nth_error a i = Some x /\ nth_error b i = Some y /\ z = f x y.
Proof.
  revert b i. induction a as [|u a IH]; intros [|w b] [|i] H; simpl in *; try discriminate.
  - injection H as <-. eauto.
  - eauto.
Qed.
Lemma gather_length {A} mask (a : list A) : length mask = length a -> length (gather mask a) = count mask.
Proof.
  revert a. induction mask as [|b mask IH]; intros [|x a] H; try discriminate; [reflexivity|].
  injection H as H. unfold count in *. destruct b; simpl; rewrite IH; auto.
Qed.
Lemma gather_nth {A} mask (a : list A) n x : nth_error mask n = Some true -> nth_error a n = Some x ->
  nth_error (gather mask a) (rank mask n) = Some x.
Proof.
  revert a n. induction mask as [|b mask IH]; intros [|y a] [|n] H1 H2; simpl in *; try discriminate.
  - injection H1 as ->. exact H2.
  - unfold rank in *. simpl. destruct b; simpl; now apply IH.
Qed.
Lemma gather_map {A B} (f : A -> B) mask a : gather mask (map f a) = map f (gather mask a).
Proof. revert a. induction mask as [|[|] mask IH]; intros [|x a]; simpl; try reflexivity; now rewrite IH. Qed.
Lemma scatter_length {A} mask (a vals : list A) : length (scatter mask a vals) = length a.
Proof.
  revert a vals. induction mask as [|[|] mask IH]; intros [|x a] vals; simpl; auto.
  destruct vals; simpl; now rewrite IH.
Qed.
Lemma scatter_nth_true {A} mask (a vals : list A) n x v : nth_error mask n = Some true ->
  nth_error a n = Some x -> nth_error vals (rank mask n) = Some v -> nth_error (scatter mask a vals) n = Some v.
Proof.
  revert a vals n. induction mask as [|b mask IH]; intros [|y a] vals [|n] H1 H2 H3; simpl in *; try discriminate.
  - injection H1 as ->. unfold rank in H3. simpl in H3. destruct vals; [discriminate|]. exact H3.
  - unfold rank in *. simpl in H3. destruct b; simpl in *.
    + destruct vals as [|w vals]; [discriminate|]. simpl. now apply IH.
    + now apply IH.
Qed.
Lemma scatter_nth_false {A} mask (a vals : list A) n x : nth_error mask n = Some false ->
  nth_error a n = Some x -> nth_error (scatter mask a vals) n = Some x.
Proof.
  revert a vals n. induction mask as [|b mask IH]; intros [|y a] vals [|n] H1 H2; simpl in *; try discriminate.
  - injection H1 as ->. exact H2.
  - destruct b; [destruct vals|]; simpl; now apply IH.
Qed.
Lemma rank_lt mask n : nth_error mask n = Some true -> (rank mask n < count mask)%nat.
Proof.
  revert n. unfold rank, count. induction mask as [|b mask IH]; intros [|n] H; simpl in *; try discriminate.
  - injection H as ->. simpl. lia.
  - specialize (IH n H). destruct b; simpl; lia.
Qed.

(** Arrays. *)
Lemma concat_nth {A} nr nc (m : list (list A)) i j line x : shaped nr nc m ->
  nth_error m i = Some line -> nth_error line j = Some x -> nth_error (concat m) (i * nc + j) = Some x.
Proof.
  intros [_ HF]. revert i. induction HF as [|l m Hl HF IH]; intros i H1 H2; [destruct i; discriminate|].
  destruct i as [|i]; simpl in H1 |- *.
  - injection H1 as ->. rewrite nth_error_app1; [exact H2|]. apply nth_error_Some. congruence.
  - rewrite nth_error_app2 by lia. replace (nc + i * nc + j - length l)%nat with (i * nc + j)%nat by lia. auto.
Qed.
Lemma concat_length_shaped {A} nr nc (m : list (list A)) : shaped nr nc m -> length (concat m) = (nr * nc)%nat.
Proof.
  intros [<- HF]. induction HF as [|l m Hl HF IH]; [reflexivity|]. simpl. rewrite app_length. lia.
Qed.
Lemma meshgrid_col_shaped rows cols : shaped (length rows) (length cols) (meshgrid_col rows cols).
Proof.
  split; [apply map_length|]. apply Forall_forall. intros l H. apply in_map_iff in H. destruct H as (? & <- & _). reflexivity.
Qed.
Lemma meshgrid_row_shaped rows cols : shaped (length rows) (length cols) (meshgrid_row rows cols).
Proof.
  split; [apply map_length|]. apply Forall_forall. intros l H. apply in_map_iff in H. destruct H as (? & <- & _). apply map_length.
Qed.

(** ** n_view_triangulation *)
Lemma n_view_defined (batch : list (list sight)) :
  Forall (fun ls => Forall unit_dir ls /\ two_directions ls) batch ->
  exists out, n_view_triangulation (map froms batch) (map dirs batch) = Some out.
Proof.
  unfold n_view_triangulation. rewrite map2_map_same. induction 1 as [|ls batch [Hu H2] HF IH]; [now exists []|].
  destruct IH as [out Ho]. destruct (triangulate_defined ls Hu H2) as [p Hp]. exists (p :: out). cbn [map seq_opt].
  now rewrite Hp, Ho.
Qed.
Lemma n_view_nth (batch : list (list sight)) out : n_view_triangulation (map froms batch) (map dirs batch) = Some out ->
  Forall2 (fun ls p => triangulate (froms ls) (dirs ls) = Some p) batch out.
Proof.
  unfold n_view_triangulation. rewrite map2_map_same. revert out. induction batch as [|ls batch IH]; intros out H; simpl in H.
  - injection H as <-. constructor.
  - destruct (triangulate (froms ls) (dirs ls)) as [p|] eqn:E; [|discriminate].
    destruct (seq_opt _) as [o|]; [|discriminate]. injection H as <-. constructor; auto.
Qed.

(** ** los_triangulation, one match *)
Definition tri_one (sl sr vl vr : row3) : option row3 :=
  if forallb finite3 [sl; sr] && forallb finite3 [vl; vr] then
    match triangulate [sl; sr] [vl; vr] with Some p => Some (row_of_point p) | None => None end
  else Some nan3.

Fixpoint rows4 (a b c d : list row3) : list (row3 * row3 * row3 * row3) :=
  match a, b, c, d with x :: a, y :: b, z :: c, w :: d => (x, y, z, w) :: rows4 a b c d | _, _, _, _ => [] end.

Lemma scatter_batch (mask : list bool) (sis vis : list (list row3)) (ones : list (option row3)) :
  length mask = length sis -> length mask = length vis -> length mask = length ones ->
  (forall n b s v, nth_error mask n = Some b -> nth_error sis n = Some s -> nth_error vis n = Some v ->
     nth_error ones n = Some (if b then match triangulate s v with Some p => Some (row_of_point p) | None => None end
                              else Some nan3)) ->
  match n_view_triangulation (gather mask sis) (gather mask vis) with
  | Some l => Some (scatter mask (map (fun _ => nan3) vis) (map row_of_point l))
  | None => None
  end = seq_opt ones.
Proof.
  revert sis vis ones. induction mask as [|b mask IH]; intros [|s sis] [|v vis] [|o ones] H1 H2 H3 H; try discriminate; [reflexivity|].
  pose proof (H 0%nat b s v eq_refl eq_refl eq_refl) as H0. simpl in H0. injection H0 as ->.
  injection H1 as H1. injection H2 as H2. injection H3 as H3.
  specialize (IH sis vis ones H1 H2 H3 (fun n => H (S n))).
  unfold n_view_triangulation in *. destruct b.
  - cbn [gather map2 seq_opt]. destruct (triangulate s v) as [p|]; [|reflexivity].
    rewrite <- IH. destruct (seq_opt (map2 triangulate (gather mask sis) (gather mask vis))); reflexivity.
  - cbn [gather seq_opt]. rewrite <- IH.
    destruct (seq_opt (map2 triangulate (gather mask sis) (gather mask vis))); reflexivity.
Qed.
Lemma no_filter (mask : list bool) (sis vis : list (list row3)) : existsb (fun b => b) mask = false ->
  length mask = length vis ->
  Some (map (fun _ : list row3 => nan3) vis)
  = match n_view_triangulation (gather mask sis) (gather mask vis) with
    | Some l => Some (scatter mask (map (fun _ => nan3) vis) (map row_of_point l))
    | None => None
    end.
Proof.
  intros H HL.
  assert (G : forall A (a : list A), gather mask a = []).
  { intros A. clear HL. induction mask as [|b mask IH]; [reflexivity|]. simpl in H.
    apply orb_false_elim in H. destruct H as [-> H]. intros [|x a]; [reflexivity|]. simpl. now apply IH. }
  rewrite !G. cbn. f_equal. symmetry. clear G sis. revert vis HL.
  induction mask as [|b mask IH]; intros [|x a] HL; try discriminate; [reflexivity|]. simpl in *. destruct b; [discriminate|].
  f_equal. auto.
Qed.

Definition same_length4 (l r : los) (n : nat) : Prop :=
  length (starting_points l) = n /\ length (starting_points r) = n /\
  length (viewing_vectors l) = n /\ length (viewing_vectors r) = n.
Lemma los_triangulation_eq l r n : same_length4 l r n ->
  los_triangulation l r
  = seq_opt (map (fun q => let '(sl, sr, vl, vr) := q in tri_one sl sr vl vr)
       (rows4 (starting_points l) (starting_points r) (viewing_vectors l) (viewing_vectors r))).
Proof.
  intros (H1 & H2 & H3 & H4). unfold los_triangulation. rewrite H1, H2, H3, H4, !Nat.eqb_refl. cbn [andb].
  set (vis := map2 _ (viewing_vectors l) _). set (sis := map2 _ (starting_points l) _).
  set (mask := map2 _ sis vis).
  assert (Hv : length vis = n) by (unfold vis; rewrite map2_length; lia).
  assert (Hs : length sis = n) by (unfold sis; rewrite map2_length; lia).
  assert (Hm : length mask = n) by (unfold mask; rewrite map2_length; lia).
  transitivity (match n_view_triangulation (gather mask sis) (gather mask vis) with
    | Some l => Some (scatter mask (map (fun _ => nan3) vis) (map row_of_point l))
    | None => None
    end).
  { destruct (existsb (fun b => b) mask) eqn:E; [reflexivity|]. apply no_filter; [assumption|lia]. }
  apply scatter_batch.
  - lia.
  - lia.
  - rewrite map_length, Hm. clear -H1 H2 H3 H4. revert H1 H2 H3 H4.
    generalize (starting_points l) (starting_points r) (viewing_vectors l) (viewing_vectors r). clear l r.
    induction n as [|n IH]; intros [|a l0] [|b l1] [|c l2] [|d l3] H1 H2 H3 H4; try discriminate; [reflexivity|].
    simpl in *. f_equal. apply IH; lia.
  - intros k b s v Eb Es Ev. unfold mask in Eb. destruct (map2_nth_inv _ _ _ _ _ Eb) as (s' & v' & Es' & Ev' & ->).
    rewrite Es in Es'. rewrite Ev in Ev'. injection Es' as <-. injection Ev' as <-.
    destruct (map2_nth_inv _ _ _ _ _ Es) as (sl & sr & A1 & A2 & ->).
    destruct (map2_nth_inv _ _ _ _ _ Ev) as (vl & vr & A3 & A4 & ->).
    rewrite nth_error_map.
    replace (nth_error (rows4 _ _ _ _) k) with (Some (sl, sr, vl, vr)).
    + reflexivity.
    + clear -A1 A2 A3 A4. revert k A1 A2 A3 A4.
      generalize (starting_points l) (starting_points r) (viewing_vectors l) (viewing_vectors r).
      induction l0 as [|a l0 IH]; intros [|b l1] [|c l2] [|d l3] [|k] A1 A2 A3 A4; simpl in *; try discriminate.
      * congruence.
      * now apply IH.
Qed.

(** ** los_creation, one position *)
Lemma conv_interleave (f : row3 -> row3) top bottom : length top = length bottom ->
  even_rows (map f (interleave top bottom)) = map f top /\ odd_rows (map f (interleave top bottom)) = map f bottom.
Proof.
  revert bottom. induction top as [|x top IH]; intros [|y bottom] H; try discriminate; [auto|].
  injection H as H. destruct (IH bottom H) as [E1 E2]. simpl. now rewrite E1, E2.
Qed.
Lemma los_creation_pointwise conv f g h positions amm fill :
  (forall e1 e2 l, conv e1 e2 l = map (f e1 e2) l) ->
  (forall pos alt fill, lm_direct g (map snd pos) (map fst pos) alt fill
     = Some (map (fun p : num * num => h (snd p) (fst p) alt fill) pos)) ->
  los_creation conv g positions amm fill
  = let '(lo, hi) := match amm with None => lm_alt_min_max g | Some mm => mm end in
    let s := map (fun p => f 4326%Z 4978%Z (h (snd p) (fst p) hi fill)) positions in
    let e := map (fun p => f 4326%Z 4978%Z (h (snd p) (fst p) lo fill)) positions in
    Some (Los s e (map (fun p => viewing_vector (f 4326%Z 4978%Z (h (snd p) (fst p) hi fill))
                                                (f 4326%Z 4978%Z (h (snd p) (fst p) lo fill))) positions)).
Proof.
  intros Hc Hg. unfold los_creation. destruct (match amm with None => _ | Some _ => _ end) as [lo hi].
  rewrite !Hg, Hc.
  destruct (conv_interleave (f 4326%Z 4978%Z) (map (fun p : num * num => h (snd p) (fst p) hi fill) positions)
    (map (fun p : num * num => h (snd p) (fst p) lo fill) positions)) as [-> ->]; [now rewrite !map_length|].
  rewrite !map_map, map2_map_same. reflexivity.
Qed.

Lemma map2_map_map {A B C D} (f : B -> C -> D) (g : A -> B) (h : A -> C) (a b : list A) :
  map2 f (map g a) (map h b) = map2 (fun x y => f (g x) (h y)) a b.
Proof. revert b. induction a as [|x a IH]; intros [|y b]; try reflexivity. simpl. now rewrite IH. Qed.
Lemma los_creation_sized conv f g positions amm fill lo hi top bottom :
  (forall e1 e2 l, conv e1 e2 l = map (f e1 e2) l) -> ends g amm lo hi ->
  lm_direct g (map snd positions) (map fst positions) hi fill = Some top ->
  lm_direct g (map snd positions) (map fst positions) lo fill = Some bottom ->
  length top = length bottom ->
  los_creation conv g positions amm fill
  = Some (Los (map (f 4326%Z 4978%Z) top) (map (f 4326%Z 4978%Z) bottom)
              (map2 viewing_vector (map (f 4326%Z 4978%Z) top) (map (f 4326%Z 4978%Z) bottom))).
Proof.
  intros Hc He Ht Hb HL. unfold los_creation. unfold ends in He. rewrite He, Ht, Hb, Hc.
  destruct (conv_interleave (f 4326%Z 4978%Z) top bottom HL) as [-> ->]. reflexivity.
Qed.

(** ** sensor_triangulation, one match *)
Lemma rows4_map {A} (a b c d : A -> row3) l :
  rows4 (map a l) (map b l) (map c l) (map d l) = map (fun x => (a x, b x, c x, d x)) l.
Proof. induction l as [|x l IH]; [reflexivity|]. simpl. now rewrite IH. Qed.
Lemma zip3r_map {A} (a b : A -> list row3) (c : A -> row3) l :
  zip3r (map a l) (map b l) (map c l) = map (fun x => point_distances (a x) (b x) (c x)) l.
Proof. induction l as [|x l IH]; [reflexivity|]. simpl. now rewrite IH. Qed.
Lemma zip3r_nth a b c i x y z : nth_error a i = Some x -> nth_error b i = Some y -> nth_error c i = Some z ->
  nth_error (zip3r a b c) i = Some (point_distances x y z).
Proof.
  revert b c i. induction a as [|u a IH]; intros [|v b] [|w c] [|i] H1 H2 H3; simpl in *; try discriminate; [congruence|auto].
Qed.
Lemma zip3r_length a b c : length (zip3r a b c) = Nat.min (length a) (Nat.min (length b) (length c)).
Proof. revert b c. induction a as [|u a IH]; intros [|v b] [|w c]; simpl; auto. Qed.
