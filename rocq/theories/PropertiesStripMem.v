(** C93: the buffers of the compiled strip computation. *)
From Coq Require Import Reals ZArith List Bool Lra Lia.
From Verif Require Import Num NumLemmas ProjModel RpcModel LocModel TriModel RectModel RectSpec RectProofs RectStrip RectCpp RectGrid
  CppMemModel AliasModel StripMemModel StripMem PropertiesRect.
Import ListNotations.
Open Scope Z_scope.

(** An array of positions (n, 3) in memory, and the position [i] of a flat array. *)
Definition flat (pts : list row3) : list num := flat_map (fun p => [lon3 p; lat3 p; alt3 p]) pts.
Definition node_at (v : list num) (i : nat) (p : row3) : Prop :=
  nth_error v (3 * i) = Some (lon3 p) /\ nth_error v (3 * i + 1) = Some (lat3 p) /\ nth_error v (3 * i + 2) = Some (alt3 p).
(** The shape of the positions: one row of [n] columns to move along the columns (axis 0), one column of [n] rows to
    move along the rows (axis 1).  The point [k] of the strip of the position [i]: [grid[k, i]] or [grid[i, k]]. *)
Definition shape (axis : Z) (n : nat) : Z * Z := if axis =? 0 then (1, Z.of_nat n) else (Z.of_nat n, 1).
Definition place (axis : Z) (n size i k : nat) : nat := if axis =? 0 then (k * n + i)%nat else (i * size + k)%nat.
(** The angles given: an array of one NaN stands for none. *)
Definition angles_fit (angles : list num) (n : nat) : Prop := angles = [nan] \/ (angles <> [] /\ length angles = n).

Lemma flat_length pts : length (flat pts) = (3 * length pts)%nat.
Proof. induction pts as [|p pts IH]; [reflexivity|]. cbn [flat flat_map app length]. unfold flat in IH. rewrite IH. lia. Qed.
Lemma flat_nth : forall pts i p, nth_error pts i = Some p -> node_at (flat pts) i p.
Proof.
  induction pts as [|q pts IH]; intros [|i] p H; try discriminate.
  - injection H as ->. repeat split.
  - unfold node_at. replace (3 * S i)%nat with (3 + 3 * i)%nat by lia. exact (IH i p H).
Qed.
Lemma read_node {A} (v : list A) i x : nth_error v i = Some x -> read v (Z.of_nat i) = Ran x.
Proof. intros H. unfold read. rewrite (proj2 (Z.ltb_ge _ _)) by lia. now rewrite Nat2Z.id, H. Qed.
Lemma read_back {A} (v : list A) i x : read v i = Ran x -> nth_error v (Z.to_nat i) = Some x.
Proof. unfold read. destruct (i <? 0); [discriminate|]. destruct (nth_error v (Z.to_nat i)); [congruence|discriminate]. Qed.
Lemma flat_nbuf pts v : v = flat pts -> nbuf v (Z.of_nat (length pts)) (fun i => nth (Z.to_nat i) pts nan3).
Proof.
  intros ->. split; [rewrite flat_length; lia|]. intros i Hi.
  destruct (nth_error pts (Z.to_nat i)) as [p|] eqn:E; [|apply nth_error_None in E; lia].
  rewrite (nth_error_nth _ _ _ E). destruct (flat_nth _ _ _ E) as (A & B & C).
  apply read_node in A, B, C.
  replace (Z.of_nat (3 * Z.to_nat i)) with (3 * i) in A by lia.
  replace (Z.of_nat (3 * Z.to_nat i + 1)) with (3 * i + 1) in B by lia.
  replace (Z.of_nat (3 * Z.to_nat i + 2)) with (3 * i + 2) in C by lia. auto.
Qed.
Lemma nbuf_node v n g i : nbuf v n g -> Z.of_nat i < n -> node_at v i (g (Z.of_nat i)).
Proof.
  intros [L H] Hi. destruct (H (Z.of_nat i) ltac:(lia)) as (A & B & C). apply read_back in A, B, C.
  replace (Z.to_nat (3 * Z.of_nat i)) with (3 * i)%nat in A by lia.
  replace (Z.to_nat (3 * Z.of_nat i + 1)) with (3 * i + 1)%nat in B by lia.
  replace (Z.to_nat (3 * Z.of_nat i + 2)) with (3 * i + 2)%nat in C by lia. repeat split; assumption.
Qed.
Lemma read_repeat (N i : Z) : 0 <= i < N -> read (repeat (fin 0) (Z.to_nat N)) i = Ran (fin 0).
Proof.
  intros H. unfold read. rewrite (proj2 (Z.ltb_ge _ _)) by lia.
  rewrite (nth_error_nth' _ (fin 0)) by (rewrite repeat_length; lia). now rewrite nth_repeat.
Qed.
Lemma zeros_nbuf N : 0 <= N -> nbuf (repeat (fin 0) (Z.to_nat (N * 3))) N (fun _ => R3 (fin 0) (fin 0) (fin 0)).
Proof.
  intros H. split; [rewrite repeat_length; lia|]. intros i Hi. rewrite !read_repeat by lia. auto.
Qed.
Lemma zeros_fbuf N : 0 <= N -> fbuf (repeat (fin 0) (Z.to_nat N)) N (fun _ => fin 0).
Proof. intros H. split; [rewrite repeat_length; lia|]. intros i Hi. now rewrite read_repeat by lia. Qed.

(** For positions of the documented shape, two different arrays, a positive size and angles for every position (or none), the call stays
    inside of its buffers.  It fails when one of the localizations does.  Otherwise the arrays returned hold, at their
    places, the strips the same moves give from point to point; the arrays of the caller end with the last point of
    every strip; no other array changes. *)
Theorem C93_strip :
  forall (D : Type) (ml mr : geomodel D) (s : store (list num)) l r pts qs spacing axis size epi_step e off angles,
    l <> r -> s l = flat pts -> s r = flat qs -> length qs = length pts -> axis = 0 \/ axis = 1 -> (1 <= size)%nat ->
    angles_fit angles (length pts) ->
    let n := length pts in
    let w := mem_strip ml mr s l r (fst (shape axis n)) (snd (shape axis n)) spacing axis (Z.of_nat size) epi_step e off angles in
    match cpp_compute_strip ml mr pts qs spacing axis size epi_step e off angles with
    | None => w = Threw
    | Some (strips, mean, nans) =>
        exists s' res, w = Ran (s', res) /\
          sr_rows res = (if axis =? 0 then Z.of_nat size else Z.of_nat n) /\
          sr_cols res = (if axis =? 0 then Z.of_nat n else Z.of_nat size) /\
          length (sr_left res) = (3 * (size * n))%nat /\ length (sr_right res) = (3 * (size * n))%nat /\
          length (sr_angles res) = (size * n)%nat /\
          sr_mean res = mean /\ sr_nan res = Z.of_nat nans /\ length strips = n /\
          (forall i strip, nth_error strips i = Some strip -> length strip = size) /\
          (forall i k a b al, entry strips i k = Some (a, b, al) ->
             node_at (sr_left res) (place axis n size i k) a /\ node_at (sr_right res) (place axis n size i k) b /\
             nth_error (sr_angles res) (place axis n size i k) = Some al) /\
          (forall i a b al, entry strips i (size - 1) = Some (a, b, al) -> node_at (s' l) i a /\ node_at (s' r) i b) /\
          length (s' l) = length (s l) /\ length (s' r) = length (s r) /\
          (forall k, k <> l -> k <> r -> s' k = s k)
    end.
Proof.
  intros D ml mr s l r pts qs spacing axis size epi_step e off angles LR Hl Hr LQ AX HS HA n w.
  unfold w, mem_strip. clear w. set (sz := Z.of_nat size). set (nn := Z.of_nat n).
  set (nb_cols := snd (shape axis n)).
  assert (HX : (axis = 0 /\ nb_cols = nn /\ (if axis =? 0 then nb_cols else sz) = nn) \/ (axis = 1 /\ nb_cols = 1 /\ (if axis =? 0 then nb_cols else sz) = sz)).
  { unfold nb_cols, shape. destruct AX as [-> | ->]; cbn [Z.eqb fst snd]; [left|right]; auto. }
  assert (EG : (if axis =? 0 then (sz, nb_cols) else (fst (shape axis n), sz)) = ((if axis =? 0 then sz else nn), (if axis =? 0 then nb_cols else sz))).
  { unfold shape. destruct (axis =? 0); reflexivity. }
  rewrite EG. clear EG. cbv iota beta zeta.
  set (grid_cols := if axis =? 0 then nb_cols else sz) in *.
  assert (EN : (if axis =? 0 then sz else nn) * grid_cols = sz * nn).
  { unfold grid_cols, nb_cols, shape. destruct (axis =? 0); cbn [snd]; fold nn; lia. }
  rewrite EN. rewrite (proj2 (Z.ltb_ge _ _)) by lia.
  destruct angles as [|a0 angles]; [destruct HA as [HA|[HA _]]; congruence|].
  cbn [read Z.ltb Z.compare Z.to_nat nth_error bind].
  set (ang := a0 :: angles) in *.
  (* the two loops are the loop over the positions *)
  set (known := if isnan a0 && (length ang =? 1)%nat then None else Some ang).
  set (already := if isnan a0 && (length ang =? 1)%nat then 0 else Z.of_nat (length ang)).
  replace (if isnan a0 && (length ang =? 1)%nat then (None, 0) else (Some ang, Z.of_nat (length ang))) with (known, already)
    by (unfold known, already; destruct (isnan a0 && (length ang =? 1)%nat); reflexivity).
  cbv iota beta.
  set (st0 := St s (repeat (fin 0) (Z.to_nat (sz * nn * 3))) (repeat (fin 0) (Z.to_nat (sz * nn * 3)))
                (repeat (fin 0) (Z.to_nat (sz * nn))) (repeat (fin 0) (Z.to_nat (sz * nn))) 0%R 0).
  assert (EL : for_ (Z.to_nat (fst (shape axis n))) 0 (fun row => for_ (Z.to_nat nb_cols) 0 (fun col =>
                 mem_node ml mr l r spacing axis sz epi_step e off nb_cols grid_cols known row col)) st0
               = for_ n 0 (fun j => mem_node ml mr l r spacing axis sz epi_step e off nb_cols grid_cols known
                                      (fst (node_of axis j)) (snd (node_of axis j))) st0).
  { destruct HX as [(-> & -> & _)|(-> & -> & _)]; unfold shape, node_of; cbn [Z.eqb fst snd].
    - change (Z.to_nat 1) with 1%nat. rewrite for_one. unfold nn. rewrite Nat2Z.id. reflexivity.
    - change (Z.to_nat 1) with 1%nat. rewrite Nat2Z.id. apply for_ext. intros i st. now rewrite for_one. }
  rewrite EL. clear EL.
  set (f0 := FS (fun i => nth (Z.to_nat i) pts nan3) (fun i => nth (Z.to_nat i) qs nan3) (fun _ => fin 0) (fun _ => fin 0)
                (fun _ => R3 (fin 0) (fin 0) (fin 0)) (fun _ => R3 (fin 0) (fin 0) (fin 0))).
  assert (I0 : Inv l r sz nn st0 f0).
  { split; [apply flat_nbuf; exact Hl|]. split; [unfold nn, n; rewrite <- LQ; apply flat_nbuf; exact Hr|].
    split; [apply zeros_fbuf; lia|]. split; [apply zeros_fbuf; lia|]. split; apply zeros_nbuf; lia. }
  (* the angles *)
  unfold cpp_compute_strip.
  assert (EK : match ang with [None] => (map (fun _ : row3 => @None num) pts, 0%nat) | _ => (map Some ang, length ang) end
               = (match known with None => map (fun _ => None) pts | Some _ => map Some ang end, Z.to_nat already)).
  { unfold known, already, ang. destruct a0 as [x|]; destruct angles; cbn [isnan andb length Nat.eqb]; f_equal; lia. }
  rewrite EK. clear EK. cbv iota beta.
  set (kas := match known with None => map (fun _ => None) pts | Some _ => map Some ang end).
  assert (LC : length (combine pts qs) = n) by (rewrite combine_length; unfold n; lia).
  assert (LKA : length kas = n).
  { unfold kas, known. destruct (isnan a0 && (length ang =? 1)%nat) eqn:B; rewrite map_length; [reflexivity|].
    destruct HA as [HA|[_ HA]]; [|exact HA]. unfold ang in *. injection HA as -> ->. discriminate B. }
  pose proof (nodes_ok ml mr l r spacing axis sz epi_step e off nn nb_cols grid_cols LR known HX ltac:(unfold sz; lia)
                (combine pts qs) kas 0 st0 f0 ltac:(lia) ltac:(lia) ltac:(unfold nn; lia) I0) as P.
  assert (P' := P ltac:(intros t p q H; rewrite Z.add_0_l; unfold f0; cbn [f_l f_r]; rewrite Nat2Z.id;
     assert (A1 : nth_error pts t = Some p) by (pose proof (f_equal (option_map fst) H) as X; rewrite <- nth_error_map in X; rewrite combine_fst in X by (exact LQ); exact X);
     assert (A2 : nth_error qs t = Some q) by (pose proof (f_equal (option_map snd) H) as X; rewrite <- nth_error_map in X; rewrite combine_snd in X by (exact LQ); exact X);
     rewrite (nth_error_nth _ _ _ A1), (nth_error_nth _ _ _ A2); auto)). clear P.
  assert (P := P' ltac:(intros t ka H; unfold kas in H; destruct known as [a|] eqn:KN;
     [assert (a = ang) by (unfold known in KN; destruct (isnan a0 && (length ang =? 1)%nat); congruence); subst a;
      rewrite nth_error_map in H; destruct (nth_error ang t) eqn:Et; [|discriminate]; injection H as <-; rewrite Z.add_0_l; apply read_node; exact Et
     |rewrite nth_error_map in H; destruct (nth_error pts t); [injection H as <-; exact I|discriminate]])). clear P'.
  cbv zeta in P. rewrite LC in P. replace (Z.to_nat sz) with size in P by (unfold sz; lia).
  destruct (seq_opt _) as [nodes|]; [|rewrite P; reflexivity].
  destruct P as (st' & f' & E1 & (Jl & Jr & Jc & Jo & JL & JR) & LN & N1 & _ & _ & (C1 & C2 & C3)).
  cbv zeta. rewrite E1. cbn [bind]. eexists _, _. split; [reflexivity|].
  cbn [sr_rows sr_cols sr_left sr_right sr_angles sr_mean sr_nan].
  split; [reflexivity|]. split; [unfold grid_cols, nb_cols, shape; destruct (axis =? 0); reflexivity|].
  destruct JL as [JL0 JL], JR as [JR0 JR]. destruct Jo as [Jo0 Jo].
  split; [lia|]. split; [lia|]. split; [lia|].
  split.
  { rewrite C1, C2. cbn [st0 ss_sum ss_nan]. rewrite Rplus_0_l. f_equal. unfold fin. f_equal.
    rewrite !INR_IZR_INZ, <- !minus_IZR. f_equal. fold n. unfold already. destruct (isnan a0 && (length ang =? 1)%nat); lia. }
  split; [rewrite C2; cbn [st0 ss_nan]; lia|]. split; [rewrite map_length; lia|].
  split.
  { intros i strip H. rewrite nth_error_map in H. destruct (nth_error nodes i) as [[st1 ra]|] eqn:Ei; [|discriminate]. injection H as <-.
    destruct (N1 i st1 ra Ei) as [L1 _]. exact L1. }
  assert (PL : forall i k, Z.of_nat (place axis n size i k) = idx axis nn sz (Z.of_nat i) (Z.of_nat k)).
  { intros i k. unfold place, idx. destruct (axis =? 0); unfold nn, sz; lia. }
  split.
  { intros i k a b al H. unfold entry in H. rewrite nth_error_map in H. destruct (nth_error nodes i) as [[st1 ra]|] eqn:Ei; [|discriminate].
    cbn [option_map fst] in H. destruct (N1 i st1 ra Ei) as (L1 & L2 & _). rewrite Z.add_0_l in L2. destruct (L2 k a b al H) as (A1 & A2 & A3).
    assert (Hi : (i < n)%nat) by (rewrite <- LN; apply nth_error_Some; congruence).
    assert (Hk : (k < size)%nat) by (assert (k < length st1)%nat by (apply nth_error_Some; congruence); lia).
    pose proof (idx_range axis nn sz (Z.of_nat i) (Z.of_nat k) ltac:(unfold nn; lia) ltac:(unfold sz; lia)) as RG.
    rewrite <- PL in A1, A2, A3, RG.
    pose proof (nbuf_node _ _ _ (place axis n size i k) (conj JL0 JL) ltac:(lia)) as B1.
    pose proof (nbuf_node _ _ _ (place axis n size i k) (conj JR0 JR) ltac:(lia)) as B2. rewrite A1 in B1. rewrite A2 in B2.
    split; [exact B1|]. split; [exact B2|]. specialize (Jo _ RG). rewrite A3 in Jo. apply read_back in Jo. now rewrite Nat2Z.id in Jo. }
  split.
  { intros i a b al H. unfold entry in H. rewrite nth_error_map in H. destruct (nth_error nodes i) as [[st1 ra]|] eqn:Ei; [|discriminate].
    cbn [option_map fst] in H. destruct (N1 i st1 ra Ei) as (L1 & _ & L3). rewrite Z.add_0_l in L3.
    destruct (L3 a b al H) as [A1 A2].
    assert (Hi : (i < n)%nat) by (rewrite <- LN; apply nth_error_Some; congruence).
    pose proof (nbuf_node _ _ _ i Jl ltac:(unfold nn; lia)) as B1. pose proof (nbuf_node _ _ _ i Jr ltac:(unfold nn; lia)) as B2.
    rewrite A1 in B1. rewrite A2 in B2. auto. }
  destruct Jl as [Jl _], Jr as [Jr _].
  split; [rewrite Hl, flat_length; unfold nn, n in Jl; lia|]. split; [rewrite Hr, flat_length; unfold nn, n in Jr; lia|].
  exact C3.
Qed.

(** With documented shapes the call never accesses memory outside of its buffers and always ends. *)
Theorem C93_stays_inside :
  forall (D : Type) (ml mr : geomodel D) (s : store (list num)) l r pts qs spacing axis size epi_step e off angles,
    l <> r -> s l = flat pts -> s r = flat qs -> length qs = length pts -> axis = 0 \/ axis = 1 -> (1 <= size)%nat ->
    angles_fit angles (length pts) ->
    let w := mem_strip ml mr s l r (fst (shape axis (length pts))) (snd (shape axis (length pts))) spacing axis (Z.of_nat size) epi_step e off angles in
    w <> Undefined /\ w <> Hangs.
Proof.
  intros D ml mr s l r pts qs spacing axis size epi_step e off angles LR Hl Hr LQ AX HS HA w.
  pose proof (C93_strip D ml mr s l r pts qs spacing axis size epi_step e off angles LR Hl Hr LQ AX HS HA) as P. cbv zeta in P.
  fold w in P. destruct (cpp_compute_strip _ _ _ _ _ _ _ _ _ _ _) as [[[strips mean] nans]|].
  - destruct P as (s' & res & -> & _). split; discriminate.
  - rewrite P. split; discriminate.
Qed.

(** Conversely a call on at least one position that returns had such arguments: the shapes are not checked, every other
    one is an access outside of a buffer (or a failure of a localization before it). *)
Theorem C93_only_these_shapes :
  forall (D : Type) (ml mr : geomodel D) (s : store (list num)) l r nb_rows nb_cols spacing axis size epi_step e off angles s' res,
    1 <= nb_rows -> 1 <= nb_cols ->
    mem_strip ml mr s l r nb_rows nb_cols spacing axis size epi_step e off angles = Ran (s', res) ->
    1 <= size /\ (if axis =? 0 then nb_rows = 1 else nb_cols = 1) /\ (2 <= size -> axis = 0 \/ axis = 1) /\
    3 * (nb_rows * nb_cols) <= Z.of_nat (length (s l)) /\ 3 * (nb_rows * nb_cols) <= Z.of_nat (length (s r)) /\
    (angles = [nan] \/ nb_rows * nb_cols <= Z.of_nat (length angles)).
Proof.
  intros D ml mr s l r nb_rows nb_cols spacing axis size epi_step e off angles s' res HR HC H. unfold mem_strip in H.
  set (grid_rows := if axis =? 0 then size else nb_rows). set (grid_cols := if axis =? 0 then nb_cols else size).
  replace (if axis =? 0 then (size, nb_cols) else (nb_rows, size)) with (grid_rows, grid_cols) in H
    by (unfold grid_rows, grid_cols; destruct (axis =? 0); reflexivity).
  cbv iota beta zeta in H. destruct (grid_rows * grid_cols * 3 <? 0) eqn:NB; [discriminate|]. apply Z.ltb_ge in NB.
  destruct (read angles 0) as [a0| | |] eqn:RA; try discriminate. cbn [bind] in H.
  set (known := if isnan a0 && (length angles =? 1)%nat then None else Some angles).
  set (already := if isnan a0 && (length angles =? 1)%nat then 0 else Z.of_nat (length angles)).
  replace (if isnan a0 && (length angles =? 1)%nat then (None, 0) else (Some angles, Z.of_nat (length angles))) with (known, already) in H
    by (unfold known, already; destruct (isnan a0 && (length angles =? 1)%nat); reflexivity).
  cbv iota beta in H.
  match type of H with bind ?m _ = _ => destruct m as [st| | |] eqn:E; try discriminate H end. clear H.
  set (N := grid_rows * grid_cols) in *.
  assert (S0 : sizes s N (St s (repeat (fin 0) (Z.to_nat (N * 3))) (repeat (fin 0) (Z.to_nat (N * 3))) (repeat (fin 0) (Z.to_nat N)) (repeat (fin 0) (Z.to_nat N)) 0%R 0)).
  { unfold sizes. cbn [ss_left ss_right ss_comp ss_out ss_arrays]. rewrite !repeat_length. repeat split; lia. }
  assert (IN : forall row a b, sizes s N a -> for_ (Z.to_nat nb_cols) 0 (fun col =>
            mem_node ml mr l r spacing axis size epi_step e off nb_cols grid_cols known row col) a = Ran b -> sizes s N b).
  { intros row a b Pa Eb. refine (proj1 (for_last (sizes s N) _ _ _ _ _ _ Pa Eb)).
    intros i a' b' Pa' Eb'. exact (proj1 (node_ran _ _ _ _ _ _ _ _ _ _ _ _ _ _ _ _ _ _ _ Pa' Eb')). }
  destruct (for_last (sizes s N) _ IN _ _ _ _ S0 E) as [_ LR].
  destruct (LR (Z.to_nat nb_rows - 1)%nat ltac:(lia)) as (a & b & Pa & Eb).
  destruct (for_last (sizes s N) _ (fun i a' b' Pa' Eb' => proj1 (node_ran ml mr s l r spacing axis size epi_step e off nb_cols grid_cols N known _ i a' b' Pa' Eb')) _ _ _ _ Pa Eb) as [_ LC].
  destruct (LC (Z.to_nat nb_cols - 1)%nat ltac:(lia)) as (a' & b' & Pa' & Eb').
  replace (0 + Z.of_nat (Z.to_nat nb_rows - 1)) with (nb_rows - 1) in Eb' by lia.
  replace (0 + Z.of_nat (Z.to_nat nb_cols - 1)) with (nb_cols - 1) in Eb' by lia.
  destruct (node_ran ml mr s l r spacing axis size epi_step e off nb_cols grid_cols N known _ _ _ _ Pa' Eb') as (_ & G1 & G2 & G3 & G4 & G5).
  assert (HS : 1 <= size). { unfold N, grid_rows, grid_cols in G1. destruct (axis =? 0); nia. }
  split; [exact HS|]. split.
  { destruct (Z.eq_dec size 1) as [->|NS].
    - unfold N, grid_rows, grid_cols in G1. destruct (axis =? 0); nia.
    - destruct (G5 ltac:(lia)) as [_ G6]. unfold N, grid_rows, grid_cols in G6. destruct (axis =? 0); nia. }
  split; [intros H2; exact (proj1 (G5 H2))|]. split; [nia|]. split; [nia|].
  unfold known in G4. destruct (isnan a0 && (length angles =? 1)%nat) eqn:B.
  - left. apply andb_prop in B. destruct B as [B1 B2]. apply Nat.eqb_eq in B2. destruct angles as [|x [|y t]]; try discriminate.
    cbn in RA. injection RA as ->. destruct a0; [discriminate|reflexivity].
  - right. specialize (G4 _ eq_refl). nia.
Qed.

(** The arrays returned hold the grids of the Python function, for models that handle each point by itself. *)
Theorem C93_same_as_python :
  forall (D : Type) (dtm_epsg : D -> Z) conv ml mr (pl pr : pmodel D) sf off known ps qs sp axis size step (s : store (list num)) l r,
    behaves ml pl -> behaves mr pr -> off <> 0%R -> axis = 0 \/ axis = 1 -> ps <> [] -> length qs = length ps ->
    match known with None => (1 <= size)%nat | Some a => (2 <= size)%nat /\ length a = length ps end ->
    l <> r -> s l = flat (map node ps) -> s r = flat qs ->
    let n := length ps in
    exists st s' res,
      compute_strip_of_epipolar_grid dtm_epsg conv ml mr (map node ps) qs sp axis size (IZR step) (elev_of sf) off
        (option_map (map fin) known) None = Some st /\
      mem_strip ml mr s l r (fst (shape axis n)) (snd (shape axis n)) sp axis (Z.of_nat size) step (elev_of sf) off
        match known with None => [nan] | Some a => map fin a end = Ran (s', res) /\
      sr_mean res = st_mean st /\ sr_nan res = Z.of_nat (st_nan st) /\
      (forall i k a b al, entry (st_left st) k i = Some a -> entry (st_right st) k i = Some b -> entry (st_angles st) k i = Some al ->
         node_at (sr_left res) (place axis n size i k) a /\ node_at (sr_right res) (place axis n size i k) b /\
         nth_error (sr_angles res) (place axis n size i k) = Some al) /\
      (forall i a b al, entry (st_left st) (size - 1) i = Some a -> entry (st_right st) (size - 1) i = Some b ->
         entry (st_angles st) (size - 1) i = Some al -> node_at (s' l) i a /\ node_at (s' r) i b).
Proof.
  intros D dtm_epsg conv ml mr pl pr sf off known ps qs sp axis size step s l r Hl Hr Ho Hx Hps Hq Hk LR El Er n.
  destruct (C31_cpp_gives_the_same_strip D dtm_epsg conv ml mr pl pr sf off known ps qs sp axis size step Hl Hr Ho Hx Hps Hq Hk)
    as (st & nodes & E1 & E2 & LN & EN).
  exists st.
  pose proof (C93_strip D ml mr s l r (map node ps) qs sp axis size step (elev_of sf) off
                match known with None => [nan] | Some a => map fin a end LR El Er ltac:(rewrite map_length; exact Hq) Hx
                ltac:(destruct known; lia)
                ltac:(rewrite map_length; destruct known as [a|]; [right; split; [destruct a; [destruct ps; [congruence|destruct Hk; discriminate]|discriminate]|rewrite map_length; apply Hk]|left; reflexivity])) as P.
  cbv zeta in P. rewrite E2, map_length in P.
  destruct P as (s' & res & P0 & _ & _ & _ & _ & _ & P1 & P2 & _ & _ & P3 & P4 & _). exists s', res.
  split; [exact E1|]. split; [exact P0|]. split; [exact P1|]. split; [exact P2|]. split.
  - intros i k a b al A B C. apply P3. rewrite EN, A, B, C. reflexivity.
  - intros i a b al A B C. apply (P4 i a b al). rewrite EN, A, B, C. reflexivity.
Qed.

(** So the arrays of starting positions of the caller do not survive the call: moved by one step when the strips have
    two points.  (The Python function leaves them.)  A second call on them starts from there. *)
Theorem C93_positions_untouched_refuted :
  forall (D : Type) ml mr (pl pr : pmodel D) sf off known ps qs sp axis step (s : store (list num)) l r,
    behaves ml pl -> behaves mr pr -> off <> 0%R -> axis = 0 \/ axis = 1 -> ps <> [] -> length qs = length ps ->
    match known with None => True | Some a => length a = length ps end ->
    l <> r -> s l = flat (map node ps) -> s r = flat qs -> (IZR step * sp <> 0)%R ->
    exists s' res,
      mem_strip ml mr s l r (fst (shape axis (length ps))) (snd (shape axis (length ps))) sp axis 2 step (elev_of sf) off
        match known with None => [nan] | Some a => map fin a end = Ran (s', res) /\ s' l <> s l.
Proof.
  intros D ml mr pl pr sf off known ps qs sp axis step s l r Hl Hr Ho Hx Hps Hq Hk LR El Er HD.
  assert (Hk' : match known with None => (1 <= 2)%nat | Some a => (2 <= 2)%nat /\ length a = length ps end) by (destruct known; auto).
  destruct (C93_same_as_python D (fun _ => 0) (fun _ _ g => g) ml mr pl pr sf off known ps qs sp axis 2 step s l r Hl Hr Ho Hx Hps Hq Hk' LR El Er)
    as (st & s' & res & E1 & E2 & _ & _ & _ & P). cbv zeta in *. exists s', res. split; [exact E2|]. intros EQ.
  destruct (C31_strip_follows_the_epipolar_directions D (fun _ => 0) (fun _ _ g => g) ml mr pl pr sf off known ps qs sp axis 2 (IZR step) Hl Hr Ho Hx Hps Hk')
    as (st' & L & A & first & E3 & LL & L0 & SL & SR & SA & HF & (HA0 & LA & MV & _)).
  rewrite E3 in E1. injection E1 as ->.
  destruct L as [|L0' [|L1 [|]]]; try discriminate LL. injection L0 as ->.
  destruct ps as [|p ps]; [congruence|].
  assert (N1 : length (st_angles st) = 2%nat).
  { assert (NE : map node (p :: ps) <> []) by discriminate. exact (proj1 (proj2 (proj2 (strip_size_exact _ _ _ _ _ _ _ _ _ _ _ _ _ _ NE E3)))). }
  rewrite SA, map_length in N1. destruct A as [|A0 [|A1 [|]]]; try discriminate N1. injection HA0 as ->.
  pose proof (LA O _ _ eq_refl eq_refl) as LF. pose proof (LA 1%nat _ _ eq_refl eq_refl) as L1A.
  pose proof (MV O _ _ _ eq_refl eq_refl eq_refl) as M1.
  destruct first as [|al first]; [discriminate LF|]. cbn [combine map fst snd] in M1.
  destruct L1 as [|q L1]; [discriminate M1|]. injection M1 as Mq _.
  destruct A1 as [|be A1]; [discriminate L1A|].
  assert (B1 : entry (st_left st) (2 - 1) 0 = Some (node q)) by (rewrite SL; reflexivity).
  assert (B2 : entry (st_right st) (2 - 1) 0 = Some (node (matched pl pr sf q))) by (rewrite SR; reflexivity).
  assert (B3 : entry (st_angles st) (2 - 1) 0 = Some (fin be)) by (rewrite SA; reflexivity).
  destruct (P O _ _ _ B1 B2 B3) as [(X1 & X2 & _) _]. rewrite EQ, El in X1, X2. cbn in X1, X2.
  injection X1 as X1. injection X2 as X2. pose proof (sin2_cos2 al) as SC. unfold Rsqr in SC.
  set (d := (IZR step * sp)%R) in *.
  assert (Z1 : (d * sin al = 0 /\ d * cos al = 0)%R).
  { rewrite Mq in X1, X2. unfold moved in X1, X2. destruct (axis =? 1); cbn [v0 v1] in X1, X2; split; lra. }
  destruct Z1 as [Z1 Z2]. apply HD.
  assert (Q : (d * d = d * (d * sin al) * sin al + d * (d * cos al) * cos al)%R).
  { replace (d * (d * sin al) * sin al + d * (d * cos al) * cos al)%R with (d * d * (sin al * sin al + cos al * cos al))%R by ring. rewrite SC. ring. }
  rewrite Z1, Z2 in Q. assert (d * d = 0)%R by lra. apply Rmult_integral in H. destruct H; assumption.
Qed.

(** Two arrays of two positions on two slightly different cameras; the five-point strips of the example of C31. *)
Definition two_arrays : store (list num) := fun k =>
  match k with O => flat (map node [V3 3 4 1; V3 7 8 0]) | 1%nat => flat [nan3; nan3] | _ => [fin 17] end.
Example C93_strip_case :
  exists s' res, mem_strip (plain_model (cam_left 2)) (plain_model cam_right) two_arrays 0 1 1 2 2 0 5 3 (Dtm tt) 50 [nan] = Ran (s', res)
    /\ length (sr_left res) = 30%nat /\ s' 2%nat = [fin 17].
Proof.
  destruct (C93_same_as_python unit (fun _ => 4326) (fun _ _ g => g) _ _ _ _ (Terrain tt) 50 None [V3 3 4 1; V3 7 8 0] [nan3; nan3] 2 0 5 3
              two_arrays 0 1 (plain_behaves (cam_left 2)) (plain_behaves cam_right)) as (st & s' & res & _ & E & _); try lra; auto; try discriminate; try lia.
  pose proof (C93_strip unit (plain_model (cam_left 2)) (plain_model cam_right) two_arrays 0 1 (map node [V3 3 4 1; V3 7 8 0]) [nan3; nan3] 2 0 5 3 (Dtm tt) 50 [nan]) as P.
  cbv zeta in P. specialize (P ltac:(auto) eq_refl eq_refl eq_refl ltac:(auto) ltac:(lia) ltac:(left; reflexivity)).
  change (Z.of_nat 5) with 5 in *. cbn [length map shape Z.eqb fst snd Z.of_nat Pos.of_succ_nat Pos.succ elev_of] in E, P.
  destruct (cpp_compute_strip _ _ _ _ _ _ _ _ _ _ _) as [[[strips mean] nans]|]; [|rewrite P in E; discriminate].
  destruct P as (s1 & r1 & P0 & _ & _ & P1 & _ & _ & _ & _ & _ & _ & _ & _ & _ & _ & P2).
  exists s1, r1. split; [exact P0|]. split; [exact P1|]. apply P2; discriminate.
Qed.
(** Of two rows of positions moved along the columns the second one goes past the end of the grid. *)
Example C93_only_these_shapes_case : forall s' res,
  mem_strip (plain_model (cam_left 2)) (plain_model cam_right) two_arrays 0 1 2 1 2 0 5 3 (Dtm tt) 50 [nan] <> Ran (s', res).
Proof.
  intros s' res H. destruct (C93_only_these_shapes unit _ _ _ _ _ 2 1 _ _ _ _ _ _ _ _ _ ltac:(lia) ltac:(lia) H) as (_ & X & _).
  discriminate X.
Qed.
Example C93_positions_case : exists s' res,
  mem_strip (plain_model (cam_left 2)) (plain_model cam_right) two_arrays 0 1 1 2 2 0 2 3 (Dtm tt) 50 [nan] = Ran (s', res) /\ s' 0%nat <> two_arrays 0%nat.
Proof.
  apply (C93_positions_untouched_refuted unit _ _ _ _ (Terrain tt) 50 None [V3 3 4 1; V3 7 8 0] [nan3; nan3] 2 0 3 two_arrays 0 1
           (plain_behaves (cam_left 2)) (plain_behaves cam_right)); try lra; auto; discriminate.
Qed.
