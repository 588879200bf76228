(** The buffers of the compiled strip computation, compared with the model without buffers. *)
From Coq Require Import Reals ZArith List Bool Lra Lia Psatz.
From Verif Require Import Num NumLemmas ProjModel RpcModel LocModel TriModel RectModel CppMemModel AliasModel StripMemModel CppMem.
Import ListNotations.
Open Scope Z_scope.

(** ** Buffers as functions of the index *)
Definition upd {A} (g : Z -> A) (i : Z) (x : A) : Z -> A := fun j => if j =? i then x else g j.
Lemma upd_same {A} (g : Z -> A) i x : upd g i x i = x.
Proof. unfold upd. now rewrite Z.eqb_refl. Qed.
Lemma upd_other {A} (g : Z -> A) i x j : j <> i -> upd g i x j = g j.
Proof. intros H. unfold upd. now rewrite (proj2 (Z.eqb_neq _ _) H). Qed.

Lemma nth_error_firstn_lt {A} : forall (v : list A) n i, (i < n)%nat -> nth_error (firstn n v) i = nth_error v i.
Proof. induction v as [|x v IH]; intros [|n] [|i] H; try reflexivity; try lia. cbn [firstn nth_error]. apply IH. lia. Qed.
Lemma nth_error_skipn {A} : forall n (v : list A) i, nth_error (skipn n v) i = nth_error v (n + i).
Proof. induction n as [|n IH]; intros [|x v] i; try reflexivity; [destruct i; reflexivity|]. apply IH. Qed.
Lemma write_ok {A} (v : list A) i x : 0 <= i < Z.of_nat (length v) ->
  exists v', write v i x = Ran v' /\ length v' = length v /\ forall j, read v' j = if j =? i then Ran x else read v j.
Proof.
  intros H. unfold write. rewrite (proj2 (Z.leb_le _ _)), (proj2 (Z.ltb_lt _ _)) by lia. cbn [andb].
  eexists. split; [reflexivity|].
  assert (N : (Z.to_nat i < length v)%nat) by lia.
  assert (L1 : length (firstn (Z.to_nat i) v) = Z.to_nat i) by (apply firstn_length_le; lia).
  split. { rewrite app_length, L1. cbn [length]. rewrite skipn_length. lia. }
  intros j. unfold read. destruct (j <? 0) eqn:J; [apply Z.ltb_lt in J; rewrite (proj2 (Z.eqb_neq _ _)) by lia; reflexivity|].
  apply Z.ltb_ge in J. destruct (Z.lt_trichotomy j i) as [L|[E|G]].
  - rewrite (proj2 (Z.eqb_neq _ _)) by lia. rewrite nth_error_app1 by lia.
    rewrite nth_error_firstn_lt by lia. reflexivity.
  - subst j. rewrite Z.eqb_refl, nth_error_app2 by lia. rewrite L1, Nat.sub_diag. reflexivity.
  - rewrite (proj2 (Z.eqb_neq _ _)) by lia. rewrite nth_error_app2 by lia. rewrite L1.
    replace (Z.to_nat j - Z.to_nat i)%nat with (S (Z.to_nat j - S (Z.to_nat i))) by lia. cbn [nth_error].
    rewrite nth_error_skipn. replace (S (Z.to_nat i) + (Z.to_nat j - S (Z.to_nat i)))%nat with (Z.to_nat j) by lia. reflexivity.
Qed.
Lemma write_ran {A} (v v' : list A) i x : write v i x = Ran v' -> length v' = length v /\ 0 <= i < Z.of_nat (length v).
Proof.
  intros H. unfold write in H. destruct ((0 <=? i) && (i <? Z.of_nat (length v))) eqn:B; [|discriminate].
  apply andb_prop in B. destruct B as [B1 B2]. apply Z.leb_le in B1. apply Z.ltb_lt in B2.
  assert (E : firstn (Z.to_nat i) v ++ x :: skipn (S (Z.to_nat i)) v = v') by congruence. clear H. subst v'.
  split; [|lia]. rewrite app_length, firstn_length_le by lia. cbn [length]. rewrite skipn_length. lia.
Qed.
Lemma read_ran {A} (v : list A) i x : read v i = Ran x -> 0 <= i < Z.of_nat (length v).
Proof.
  unfold read. destruct (i <? 0) eqn:B; [discriminate|]. apply Z.ltb_ge in B.
  destruct (nth_error v (Z.to_nat i)) eqn:E; [|discriminate]. intros _.
  assert (Z.to_nat i < length v)%nat by (apply nth_error_Some; congruence). lia.
Qed.

Definition fbuf (v : list num) (n : Z) (g : Z -> num) : Prop :=
  Z.of_nat (length v) = n /\ forall i, 0 <= i < n -> read v i = Ran (g i).
Definition nbuf (v : list num) (n : Z) (g : Z -> row3) : Prop :=
  Z.of_nat (length v) = 3 * n /\
  forall i, 0 <= i < n -> read v (3 * i) = Ran (lon3 (g i)) /\ read v (3 * i + 1) = Ran (lat3 (g i)) /\ read v (3 * i + 2) = Ran (alt3 (g i)).
Lemma fbuf_write v n g i x : fbuf v n g -> 0 <= i < n -> exists v', write v i x = Ran v' /\ fbuf v' n (upd g i x).
Proof.
  intros [L H] Hi. destruct (write_ok v i x) as (v' & E & L' & R'); [lia|]. exists v'. split; [exact E|]. split; [lia|].
  intros j Hj. rewrite R'. unfold upd. destruct (j =? i); [reflexivity|auto].
Qed.
Lemma nbuf_read v n g i i0 i1 i2 : nbuf v n g -> 0 <= i < n -> i0 = 3 * i -> i1 = 3 * i + 1 -> i2 = 3 * i + 2 ->
  read3 v i0 i1 i2 = Ran (g i).
Proof.
  intros [L H] Hi -> -> ->. destruct (H i Hi) as (A & B & C). unfold read3. rewrite A, B, C. cbn [bind]. now destruct (g i).
Qed.
Lemma nbuf_write v n g i p i0 i1 i2 : nbuf v n g -> 0 <= i < n -> i0 = 3 * i -> i1 = 3 * i + 1 -> i2 = 3 * i + 2 ->
  exists v', write3 v i0 i1 i2 p = Ran v' /\ nbuf v' n (upd g i p).
Proof.
  intros [L H] Hi -> -> ->. unfold write3.
  destruct (write_ok v (3 * i) (lon3 p)) as (v1 & E1 & L1 & R1); [lia|]. rewrite E1. cbn [bind].
  destruct (write_ok v1 (3 * i + 1) (lat3 p)) as (v2 & E2 & L2 & R2); [lia|]. rewrite E2. cbn [bind].
  destruct (write_ok v2 (3 * i + 2) (alt3 p)) as (v3 & E3 & L3 & R3'); [lia|]. rewrite E3. exists v3. split; [reflexivity|].
  split; [lia|]. intros j Hj. destruct (H j Hj) as (A & B & C). unfold upd. rewrite !R3', !R2, !R1.
  destruct (Z.eqb_spec j i) as [->|N].
  - rewrite (proj2 (Z.eqb_neq (3 * i) (3 * i + 2))), (proj2 (Z.eqb_neq (3 * i) (3 * i + 1))) by lia.
    rewrite (proj2 (Z.eqb_neq (3 * i + 1) (3 * i + 2))) by lia. rewrite !Z.eqb_refl. auto.
  - repeat (rewrite (proj2 (Z.eqb_neq _ _)) by lia). auto.
Qed.
Lemma assign_same {A} (s : store A) k v : assign s k v k = v.
Proof. unfold assign. now rewrite Nat.eqb_refl. Qed.
Lemma assign_other {A} (s : store A) k v n : n <> k -> assign s k v n = s n.
Proof. intros H. unfold assign. now rewrite (proj2 (Nat.eqb_neq _ _) H). Qed.

Lemma for_ext {S} (f g : Z -> S -> mem S) : (forall i st, f i st = g i st) -> forall n i st, for_ n i f st = for_ n i g st.
Proof.
  intros E. induction n as [|n IH]; intros i st; [reflexivity|]. cbn [for_]. rewrite E. destruct (g i st); cbn [bind]; auto.
Qed.
Lemma for_one {S} (f : Z -> S -> mem S) i st : for_ 1 i f st = f i st.
Proof. cbn [for_]. destruct (f i st); reflexivity. Qed.

Definition idx (axis n size j k : Z) : Z := if axis =? 0 then k * n + j else j * size + k.
Lemma idx_node axis n size j k j' k' : 0 <= j < n -> 0 <= j' < n -> 0 <= k < size -> 0 <= k' < size ->
  idx axis n size j k = idx axis n size j' k' -> j = j' /\ k = k'.
Proof.
  intros H1 H2 H3 H4. unfold idx. destruct (axis =? 0); intros E.
  - destruct (Z.lt_trichotomy k k') as [L|[->|L]]; [exfalso; assert (n <= (k' - k) * n) by nia; lia|lia|
      exfalso; assert (n <= (k - k') * n) by nia; lia].
  - destruct (Z.lt_trichotomy j j') as [L|[->|L]]; [exfalso; assert (size <= (j' - j) * size) by nia; lia|lia|
      exfalso; assert (size <= (j - j') * size) by nia; lia].
Qed.
Lemma idx_range axis n size j k : 0 <= j < n -> 0 <= k < size -> 0 <= idx axis n size j k < size * n.
Proof. intros. unfold idx. destruct (axis =? 0); nia. Qed.

Section Strip.
  Context {D : Type} (ml mr : geomodel D).
  Context (l r : nat) (spacing : R) (axis size epi_step : Z) (e : elevation D) (off : R) (n nb_cols grid_cols : Z).
  Hypothesis (LR : l <> r).

  (** The node [j] is at (row, col). *)
  Definition at_node (row col j : Z) : Prop :=
    (axis = 0 /\ row = 0 /\ col = j /\ nb_cols = n /\ grid_cols = n) \/
    (axis = 1 /\ row = j /\ col = 0 /\ nb_cols = 1 /\ grid_cols = size).

  Record fs := FS { f_l : Z -> row3; f_r : Z -> row3; f_c : Z -> num; f_o : Z -> num; f_L : Z -> row3; f_R : Z -> row3 }.
  Definition Inv (st : strip_state) (f : fs) : Prop :=
    nbuf (ss_arrays st l) n (f_l f) /\ nbuf (ss_arrays st r) n (f_r f) /\ fbuf (ss_comp st) (size * n) (f_c f) /\
    fbuf (ss_out st) (size * n) (f_o f) /\ nbuf (ss_left st) (size * n) (f_L f) /\ nbuf (ss_right st) (size * n) (f_R f).
  Definition counted (st st' : strip_state) (ratios : list num) : Prop :=
    ss_sum st' = (ss_sum st + nansum ratios)%R /\ ss_nan st' = ss_nan st + Z.of_nat (count_nan ratios) /\
    forall k, k <> l -> k <> r -> ss_arrays st' k = ss_arrays st k.
  Lemma counted_one x st : forall st', ss_sum st' = ss_sum (count_ratio x st) -> ss_nan st' = ss_nan (count_ratio x st) ->
    (forall k, k <> l -> k <> r -> ss_arrays st' k = ss_arrays st k) -> counted st st' [x].
  Proof.
    intros st' A B C. split; [|split; [|exact C]].
    - rewrite A. destruct x; cbn; lra.
    - rewrite B. destruct x; cbn; lia.
  Qed.
  Lemma counted_app st1 st2 st3 a b : counted st1 st2 a -> counted st2 st3 b -> counted st1 st3 (a ++ b).
  Proof.
    intros (A & B & C) (A' & B' & C'). split; [|split].
    - rewrite A', A. unfold nansum. rewrite fold_right_app.
      assert (G : forall x z, fold_right (fun a s => (nan_to_0 a + s)%R) z x = (fold_right (fun a s => (nan_to_0 a + s)%R) 0%R x + z)%R).
      { induction x as [|y x IH]; intros z; cbn; [lra|]. rewrite IH. lra. }
      rewrite (G a (fold_right _ _ b)). lra.
    - rewrite B', B. unfold count_nan. rewrite filter_app, app_length. lia.
    - intros k H1 H2. rewrite C', C; auto.
  Qed.
  Lemma counted_nil st : counted st st [].
  Proof. split; [|split]; cbn; [lra|lia|auto]. Qed.

  Definition fs_point (f : fs) (j k : Z) (a b : row3) (al : num) : fs :=
    FS (upd (f_l f) j a) (upd (f_r f) j b) (upd (f_c f) (idx axis n size j 0) al) (upd (f_o f) (idx axis n size j k) al)
       (upd (f_L f) (idx axis n size j k) a) (upd (f_R f) (idx axis n size j k) b).

  Lemma point_ok row col j k st f : at_node row col j -> 0 <= j < n -> 1 <= k < size -> Inv st f ->
    let m := mem_point ml mr l r spacing axis size epi_step e off nb_cols grid_cols row col k st in
    match cpp_moving_along_axis ml mr (f_l f j) spacing e epi_step (f_c f (idx axis n size j 0)) axis with
    | None => m = Threw
    | Some (a, b) =>
        match cpp_local_epipolar_line ml mr a e off with
        | None => m = Threw
        | Some (s0, s1) =>
            exists st', m = Ran st' /\ Inv st' (fs_point f j k a b (cpp_epipolar_angle s1 s0)) /\
                        counted st st' [baseline_ratio off s1 s0]
        end
    end.
  Proof.
    intros AT Hj Hk (Il & Ir & Ic & Io & IL & IR). cbv zeta.
    assert (E0 : row * nb_cols * 3 + col * 3 + 0 = 3 * j) by (destruct AT as [(? & -> & -> & -> & ?)|(? & -> & -> & -> & ?)]; lia).
    assert (E1 : row * nb_cols * 3 + col * 3 + 1 = 3 * j + 1) by lia.
    assert (E2 : row * nb_cols * 3 + col * 3 + 2 = 3 * j + 2) by lia.
    assert (Ei : row * grid_cols + col = idx axis n size j 0) by (unfold idx; destruct AT as [(-> & -> & -> & ? & ->)|(-> & -> & -> & ? & ->)]; cbn [Z.eqb]; lia).
    assert (R0 : 0 <= idx axis n size j 0 < size * n) by (apply idx_range; lia).
    assert (Rk : 0 <= idx axis n size j k < size * n) by (apply idx_range; lia).
    unfold mem_point. rewrite (nbuf_read _ _ _ j _ _ _ Il Hj E0 E1 E2). cbn [bind].
    rewrite Ei. rewrite (proj2 Ic _ R0). cbn [bind].
    destruct (cpp_moving_along_axis _ _ _ _ _ _ _ _) as [[a b]|]; [|reflexivity]. cbn [call bind fst snd].
    destruct (nbuf_write _ _ _ j a _ _ _ Il Hj E0 E1 E2) as (vl & Wl & Il'). rewrite Wl. cbn [bind].
    rewrite (assign_other _ l vl r) by auto.
    destruct (nbuf_write _ _ _ j b _ _ _ Ir Hj E0 E1 E2) as (vr & Wr & Ir'). rewrite Wr. cbn [bind].
    rewrite !(assign_other _ r vr l) by auto. rewrite !assign_same.
    destruct (proj2 Il' j Hj) as (A & B & C). rewrite E0, A. cbn [bind]. rewrite E1, B. cbn [bind]. rewrite E2.
    rewrite !upd_same.
    change (cpp_local_epipolar_line ml mr (R3 (lon3 a) (lat3 a) nan) e off) with (cpp_local_epipolar_line ml mr a e off).
    destruct (cpp_local_epipolar_line ml mr a e off) as [[s0 s1]|]; [|reflexivity]. cbn [call bind fst snd].
    destruct (fbuf_write _ _ _ _ (cpp_epipolar_angle s1 s0) Ic R0) as (vc & Wc & Ic'). rewrite Wc. cbn [bind].
    rewrite (proj2 Ic' _ R0), upd_same. cbn [bind].
    rewrite (nbuf_read _ _ _ j _ _ _ Il' Hj eq_refl eq_refl eq_refl). cbn [bind].
    rewrite (nbuf_read _ _ _ j _ _ _ Ir' Hj eq_refl eq_refl eq_refl). cbn [bind]. rewrite !upd_same.
    destruct (fbuf_write _ _ _ _ (cpp_epipolar_angle s1 s0) Io Rk) as (vo & Wo & Io').
    destruct (nbuf_write _ _ _ _ a _ _ _ IL Rk eq_refl eq_refl eq_refl) as (vL & WL & IL').
    destruct (nbuf_write _ _ _ _ b _ _ _ IR Rk eq_refl eq_refl eq_refl) as (vR & WR & IR').
    destruct AT as [(Ha & Hrow & Hcol & Hnb & Hgc)|(Ha & Hrow & Hcol & Hnb & Hgc)].
    - replace (axis =? 0) with true by (rewrite Ha; reflexivity).
      replace (idx axis n size j 0 + k * grid_cols) with (idx axis n size j k) by (unfold idx; rewrite Ha, Hgc; cbn [Z.eqb]; lia).
      replace (3 * j + k * nb_cols * 3) with (3 * idx axis n size j k) by (unfold idx; rewrite Ha, Hnb; cbn [Z.eqb]; lia).
      replace (3 * j + 1 + k * nb_cols * 3) with (3 * idx axis n size j k + 1) by (unfold idx; rewrite Ha, Hnb; cbn [Z.eqb]; lia).
      replace (3 * j + 2 + k * nb_cols * 3) with (3 * idx axis n size j k + 2) by (unfold idx; rewrite Ha, Hnb; cbn [Z.eqb]; lia).
      rewrite Wo. cbn [bind]. rewrite WL. cbn [bind]. rewrite WR. cbn [bind].
      eexists. split; [reflexivity|]. split.
      + destruct (baseline_ratio off s1 s0); repeat split; cbn [count_ratio ss_arrays ss_comp ss_out ss_left ss_right fs_point f_l f_r f_c f_o f_L f_R];
          rewrite ?(assign_other _ r vr l), ?assign_same by auto; first [apply Il'|apply Ir'|apply Ic'|apply Io'|apply IL'|apply IR']; auto.
      + apply counted_one; try (destruct (baseline_ratio off s1 s0); reflexivity).
        intros q H1 H2. destruct (baseline_ratio off s1 s0); cbn [count_ratio ss_arrays]; now rewrite !assign_other by auto.
    - replace (axis =? 0) with false by (rewrite Ha; reflexivity).
      replace (idx axis n size j 0 + k) with (idx axis n size j k) by (unfold idx; rewrite Ha; cbn [Z.eqb]; lia).
      replace (row * size * 3 + col * 3 + 0 + k * 3) with (3 * idx axis n size j k) by (unfold idx; rewrite Ha, Hrow, Hcol; cbn [Z.eqb]; lia).
      replace (row * size * 3 + col * 3 + 1 + k * 3) with (3 * idx axis n size j k + 1) by (unfold idx; rewrite Ha, Hrow, Hcol; cbn [Z.eqb]; lia).
      replace (row * size * 3 + col * 3 + 2 + k * 3) with (3 * idx axis n size j k + 2) by (unfold idx; rewrite Ha, Hrow, Hcol; cbn [Z.eqb]; lia).
      rewrite Wo. cbn [bind]. rewrite WL. cbn [bind]. rewrite WR. cbn [bind].
      eexists. split; [reflexivity|]. split.
      + destruct (baseline_ratio off s1 s0); repeat split; cbn [count_ratio ss_arrays ss_comp ss_out ss_left ss_right fs_point f_l f_r f_c f_o f_L f_R];
          rewrite ?(assign_other _ r vr l), ?assign_same by auto; first [apply Il'|apply Ir'|apply Ic'|apply Io'|apply IL'|apply IR']; auto.
      + apply counted_one; try (destruct (baseline_ratio off s1 s0); reflexivity).
        intros q H1 H2. destruct (baseline_ratio off s1 s0); cbn [count_ratio ss_arrays]; now rewrite !assign_other by auto.
  Qed.

  (** [f'] holds the values of [xs] at the points [k], [k + 1], ... of the node [j]; the rest is the one of [f]. *)
  Definition stored (f f' : fs) (j k : Z) (xs : list (row3 * row3 * num)) : Prop :=
    (forall t a b al, nth_error xs t = Some (a, b, al) ->
       f_L f' (idx axis n size j (k + Z.of_nat t)) = a /\ f_R f' (idx axis n size j (k + Z.of_nat t)) = b /\
       f_o f' (idx axis n size j (k + Z.of_nat t)) = al) /\
    (forall i, (forall t, (t < length xs)%nat -> i <> idx axis n size j (k + Z.of_nat t)) ->
       f_L f' i = f_L f i /\ f_R f' i = f_R f i /\ f_o f' i = f_o f i).
  Definition current (f f' : fs) (j : Z) (a b : row3) : Prop :=
    f_l f' j = a /\ f_r f' j = b /\ forall i, i <> j -> f_l f' i = f_l f i /\ f_r f' i = f_r f i.
  Definition last_of (xs : list (row3 * row3 * num)) (a b : row3) : row3 * row3 :=
    match nth_error xs (length xs - 1) with Some (a, b, _) => (a, b) | None => (a, b) end.
  Lemma last_of_cons a b al xs a0 b0 : last_of ((a, b, al) :: xs) a0 b0 = last_of xs a b.
  Proof.
    unfold last_of. destruct xs as [|x xs]; [reflexivity|]. cbn [length].
    replace (S (S (length xs)) - 1)%nat with (S (S (length xs) - 1)) by lia. cbn [nth_error].
    destruct (nth_error (x :: xs) (S (length xs) - 1)) eqn:E; [reflexivity|]. apply nth_error_None in E. cbn [length] in E. lia.
  Qed.
  Lemma points_length m : forall p angle xs, cpp_strip_points ml mr m spacing axis epi_step e off p angle = Some xs -> length xs = m.
  Proof.
    induction m as [|m IH]; intros p angle xs H; cbn [cpp_strip_points] in H; [injection H as <-; reflexivity|].
    destruct (cpp_moving_along_axis _ _ _ _ _ _ _ _) as [[a b]|]; [|discriminate].
    destruct (cpp_local_epipolar_line _ _ _ _ _) as [[s0 s1]|]; [|discriminate].
    destruct (cpp_strip_points _ _ _ _ _ _ _ _ _) as [rest|] eqn:E; [|discriminate]. injection H as <-. cbn [length]. f_equal. eauto.
  Qed.

  Lemma points_ok row col j : at_node row col j -> 0 <= j < n -> forall m k st f, 1 <= k -> k + Z.of_nat m <= size -> Inv st f ->
    let w := for_ m k (mem_point ml mr l r spacing axis size epi_step e off nb_cols grid_cols row col) st in
    match cpp_strip_points ml mr m spacing axis epi_step e off (f_l f j) (f_c f (idx axis n size j 0)) with
    | None => w = Threw
    | Some rest =>
        exists st' f', w = Ran st' /\ Inv st' f' /\ stored f f' j k (map fst rest) /\
          current f f' j (fst (last_of (map fst rest) (f_l f j) (f_r f j))) (snd (last_of (map fst rest) (f_l f j) (f_r f j))) /\
          counted st st' (map snd rest)
    end.
  Proof.
    intros AT Hj. induction m as [|m IH]; intros k st f Hk Hm I; cbv zeta.
    - cbn [cpp_strip_points for_]. exists st, f. split; [reflexivity|]. split; [exact I|]. split; [|split; [|apply counted_nil]].
      + split; [intros [|t] a b al H; discriminate|auto].
      + repeat split; auto.
    - cbn [cpp_strip_points for_]. pose proof (point_ok row col j k st f AT Hj ltac:(lia) I) as P. cbv zeta in P.
      destruct (cpp_moving_along_axis _ _ _ _ _ _ _ _) as [[a b]|]; [|rewrite P; reflexivity].
      destruct (cpp_local_epipolar_line _ _ _ _ _) as [[s0 s1]|]; [|rewrite P; reflexivity].
      destruct P as (st1 & E1 & I1 & C1). rewrite E1. cbn [bind].
      specialize (IH (k + 1) st1 _ ltac:(lia) ltac:(lia) I1). cbv zeta in IH.
      cbn [fs_point f_l f_r f_c] in IH. rewrite !upd_same in IH.
      destruct (cpp_strip_points ml mr m spacing axis epi_step e off a (cpp_epipolar_angle s1 s0)) as [rest|] eqn:ER; [|exact IH].
      destruct IH as (st2 & f2 & E2 & I2 & (S1 & S2) & (K1 & K2 & K3) & C2). exists st2, f2. split; [exact E2|]. split; [exact I2|].
      pose proof (points_length _ _ _ _ ER) as LR'.
      split; [|split].
      + split.
        * intros [|t] a' b' al' H; cbn [map nth_error fst] in H.
          -- injection H as <- <- <-. rewrite Z.add_0_r.
             destruct (S2 (idx axis n size j k)) as (G1 & G2 & G3).
             { intros t Ht. rewrite map_length in Ht. intros E. apply idx_node in E; lia. }
             rewrite G1, G2, G3. cbn [fs_point f_L f_R f_o]. rewrite !upd_same. auto.
          -- replace (k + Z.of_nat (S t)) with (k + 1 + Z.of_nat t) by lia. eauto.
        * intros i Hi. destruct (S2 i) as (G1 & G2 & G3).
          { intros t Ht. replace (k + 1 + Z.of_nat t) with (k + Z.of_nat (S t)) by lia. apply Hi. cbn [map length]. lia. }
          rewrite G1, G2, G3. cbn [fs_point f_L f_R f_o].
          assert (N : i <> idx axis n size j k) by (specialize (Hi O); rewrite Z.add_0_r in Hi; apply Hi; cbn [map length]; lia).
          rewrite !upd_other by exact N. auto.
      + cbn [map fst]. rewrite last_of_cons. split; [exact K1|]. split; [exact K2|].
        intros i Hi. destruct (K3 i Hi) as [G1 G2]. rewrite G1, G2. cbn [fs_point f_l f_r]. now rewrite !upd_other by exact Hi.
      + exact (counted_app _ _ _ [_] _ C1 C2).
  Qed.

  Lemma node_ok row col j known ka st f : at_node row col j -> 0 <= j < n -> 1 <= size -> Inv st f ->
    match known, ka with
    | None, None => True
    | Some angles, Some a => read angles j = Ran a
    | _, _ => False
    end ->
    let w := mem_node ml mr l r spacing axis size epi_step e off nb_cols grid_cols known row col st in
    match cpp_strip_node ml mr (Z.to_nat size) spacing axis epi_step e off (f_l f j) (f_r f j) ka with
    | None => w = Threw
    | Some (strip, ratios) =>
        exists st' f', w = Ran st' /\ Inv st' f' /\ length strip = Z.to_nat size /\ stored f f' j 0 strip /\
          current f f' j (fst (last_of strip (f_l f j) (f_r f j))) (snd (last_of strip (f_l f j) (f_r f j))) /\
          counted st st' ratios
    end.
  Proof.
    intros AT Hj Hs (Il & Ir & Ic & Io & IL & IR) HK. cbv zeta.
    assert (E0 : row * nb_cols * 3 + col * 3 + 0 = 3 * j) by (destruct AT as [(? & -> & -> & -> & ?)|(? & -> & -> & -> & ?)]; lia).
    assert (E1 : row * nb_cols * 3 + col * 3 + 1 = 3 * j + 1) by lia.
    assert (E2 : row * nb_cols * 3 + col * 3 + 2 = 3 * j + 2) by lia.
    assert (Ej : row * nb_cols + col = j) by lia.
    assert (Ei : row * grid_cols + col = idx axis n size j 0) by (unfold idx; destruct AT as [(-> & -> & -> & ? & ->)|(-> & -> & -> & ? & ->)]; cbn [Z.eqb]; lia).
    assert (F0 : row * grid_cols * 3 + col * 3 + 0 = 3 * idx axis n size j 0) by lia.
    assert (F1 : row * grid_cols * 3 + col * 3 + 1 = 3 * idx axis n size j 0 + 1) by lia.
    assert (F2 : row * grid_cols * 3 + col * 3 + 2 = 3 * idx axis n size j 0 + 2) by lia.
    assert (R0 : 0 <= idx axis n size j 0 < size * n) by (apply idx_range; lia).
    unfold mem_node. rewrite (nbuf_read _ _ _ j _ _ _ Il Hj E0 E1 E2). cbn [bind].
    destruct (nbuf_write _ _ _ _ (f_l f j) _ _ _ IL R0 F0 F1 F2) as (vL & WL & IL'). rewrite WL. cbn [bind].
    rewrite (nbuf_read _ _ _ j _ _ _ Ir Hj E0 E1 E2). cbn [bind].
    destruct (nbuf_write _ _ _ _ (f_r f j) _ _ _ IR R0 F0 F1 F2) as (vR & WR & IR'). rewrite WR. cbn [bind].
    rewrite E0, E1. rewrite Ei, Ej. cbn [ss_comp ss_out ss_sum ss_nan].
    destruct (proj2 Il j Hj) as (A & B & _). rewrite A, B. cbn [bind].
    change (cpp_local_epipolar_line ml mr (R3 (lon3 (f_l f j)) (lat3 (f_l f j)) nan) e off) with (cpp_local_epipolar_line ml mr (f_l f j) e off).
    unfold cpp_strip_node.
    (* the angle of the node *)
    assert (G : forall angle first, 
      (forall st1, ss_arrays st1 = ss_arrays st -> fbuf (ss_comp st1) (size * n) (upd (f_c f) (idx axis n size j 0) angle) -> ss_out st1 = ss_out st ->
         counted st st1 first ->
         let w := (let* a := read (ss_comp st1) (idx axis n size j 0) in
                   let* out := write (ss_out st1) (idx axis n size j 0) a in
                   for_ (Z.to_nat (size - 1)) 1 (mem_point ml mr l r spacing axis size epi_step e off nb_cols grid_cols row col)
                     (St (ss_arrays st) vL vR (ss_comp st1) out (ss_sum st1) (ss_nan st1))) in
         match match cpp_strip_points ml mr (Z.to_nat size - 1) spacing axis epi_step e off (f_l f j) angle with
               | Some rest => Some ((f_l f j, f_r f j, angle) :: map fst rest, first ++ map snd rest)
               | None => None
               end with
         | None => w = Threw
         | Some (strip, ratios) =>
             exists st' f', w = Ran st' /\ Inv st' f' /\ length strip = Z.to_nat size /\ stored f f' j 0 strip /\
               current f f' j (fst (last_of strip (f_l f j) (f_r f j))) (snd (last_of strip (f_l f j) (f_r f j))) /\
               counted st st' ratios
         end)).
    { intros angle first st1 EA EC EO CN. cbv zeta. rewrite (proj2 EC _ R0), upd_same. cbn [bind]. rewrite EO.
      destruct (fbuf_write _ _ _ _ angle Io R0) as (vo & Wo & Io'). rewrite Wo. cbn [bind].
      replace (Z.to_nat size - 1)%nat with (Z.to_nat (size - 1)) by lia.
      set (f1 := FS (f_l f) (f_r f) (upd (f_c f) (idx axis n size j 0) angle) (upd (f_o f) (idx axis n size j 0) angle)
                    (upd (f_L f) (idx axis n size j 0) (f_l f j)) (upd (f_R f) (idx axis n size j 0) (f_r f j))).
      set (st2 := St (ss_arrays st) vL vR (ss_comp st1) vo (ss_sum st1) (ss_nan st1)).
      assert (I1 : Inv st2 f1) by (repeat (split; [assumption|]); assumption).
      pose proof (points_ok row col j AT Hj (Z.to_nat (size - 1)) 1 st2 f1 ltac:(lia) ltac:(lia) I1) as P. cbv zeta in P.
      cbn [f1 f_l f_r f_c] in P. rewrite upd_same in P.
      destruct (cpp_strip_points ml mr (Z.to_nat (size - 1)) spacing axis epi_step e off (f_l f j) angle) as [rest|] eqn:ER; [|exact P].
      pose proof (points_length _ _ _ _ ER) as LL.
      destruct P as (st3 & f3 & E3 & I3 & (S1 & S2) & (K1 & K2 & K3) & C3). exists st3, f3.
      split; [exact E3|]. split; [exact I3|]. split; [cbn [length]; rewrite map_length; lia|]. split; [|split].
      - split.
        + intros [|t] a b al H; cbn [nth_error] in H.
          * injection H as <- <- <-. rewrite Z.add_0_r. destruct (S2 (idx axis n size j 0)) as (G1 & G2 & G3).
            { intros t Ht. rewrite map_length in Ht. intros E. apply idx_node in E; lia. }
            rewrite G1, G2, G3. cbn [f1 f_L f_R f_o]. rewrite !upd_same. auto.
          * replace (0 + Z.of_nat (S t)) with (1 + Z.of_nat t) by lia. eauto.
        + intros i Hi. destruct (S2 i) as (G1 & G2 & G3).
          { intros t Ht. replace (1 + Z.of_nat t) with (0 + Z.of_nat (S t)) by lia. apply Hi. cbn [length]. lia. }
          rewrite G1, G2, G3. cbn [f1 f_L f_R f_o].
          assert (N : i <> idx axis n size j 0) by (specialize (Hi O); rewrite Z.add_0_r in Hi; apply Hi; cbn [length]; lia).
          rewrite !upd_other by exact N. auto.
      - rewrite last_of_cons. split; [exact K1|]. split; [exact K2|]. intros i Hi. exact (K3 i Hi).
      - assert (C' : counted st st2 first).
        { destruct CN as (N1 & N2 & N3). split; [exact N1|]. split; [exact N2|]. intros q H1 H2. reflexivity. }
        exact (counted_app _ _ _ _ _ C' C3). }
    destruct known as [angles|], ka as [a|]; try contradiction.
    - rewrite HK. cbn [bind]. destruct (fbuf_write _ _ _ _ a Ic R0) as (vc & Wc & Ic'). rewrite Wc. cbn [bind].
      apply (G a [] (St (ss_arrays st) vL vR vc (ss_out st) (ss_sum st) (ss_nan st))); auto.
      split; [cbn; lra|]. split; [cbn; lia|reflexivity].
    - destruct (cpp_local_epipolar_line ml mr (f_l f j) e off) as [[s0 s1]|]; [|reflexivity]. cbn [call bind fst snd].
      destruct (fbuf_write _ _ _ _ (cpp_epipolar_angle s1 s0) Ic R0) as (vc & Wc & Ic'). rewrite Wc. cbn [bind].
      apply (G _ [_] (count_ratio (baseline_ratio off s1 s0) (St (ss_arrays st) vL vR vc (ss_out st) (ss_sum st) (ss_nan st)))).
      + destruct (baseline_ratio off s1 s0); reflexivity.
      + destruct (baseline_ratio off s1 s0); exact Ic'.
      + destruct (baseline_ratio off s1 s0); reflexivity.
      + apply counted_one; try (destruct (baseline_ratio off s1 s0); reflexivity).
  Qed.

  (** The loop over the nodes. *)
  Definition node_of (j : Z) : Z * Z := if axis =? 0 then (0, j) else (j, 0).
  Lemma nodes_ok known : (axis = 0 /\ nb_cols = n /\ grid_cols = n) \/ (axis = 1 /\ nb_cols = 1 /\ grid_cols = size) -> 1 <= size ->
    forall pqs kas j0 st f, length kas = length pqs -> 0 <= j0 -> j0 + Z.of_nat (length pqs) <= n -> Inv st f ->
    (forall t p q, nth_error pqs t = Some (p, q) -> f_l f (j0 + Z.of_nat t) = p /\ f_r f (j0 + Z.of_nat t) = q) ->
    (forall t ka, nth_error kas t = Some ka ->
       match known, ka with None, None => True | Some angles, Some a => read angles (j0 + Z.of_nat t) = Ran a | _, _ => False end) ->
    let w := for_ (length pqs) j0 (fun j => mem_node ml mr l r spacing axis size epi_step e off nb_cols grid_cols known (fst (node_of j)) (snd (node_of j))) st in
    match seq_opt (map2 (fun pq a => cpp_strip_node ml mr (Z.to_nat size) spacing axis epi_step e off (fst pq) (snd pq) a) pqs kas) with
    | None => w = Threw
    | Some nodes =>
        exists st' f', w = Ran st' /\ Inv st' f' /\ length nodes = length pqs /\
          (forall t strip ratios, nth_error nodes t = Some (strip, ratios) -> length strip = Z.to_nat size /\
             (forall k a b al, nth_error strip k = Some (a, b, al) ->
                f_L f' (idx axis n size (j0 + Z.of_nat t) (Z.of_nat k)) = a /\ f_R f' (idx axis n size (j0 + Z.of_nat t) (Z.of_nat k)) = b /\
                f_o f' (idx axis n size (j0 + Z.of_nat t) (Z.of_nat k)) = al) /\
             (forall a b al, nth_error strip (Z.to_nat size - 1) = Some (a, b, al) -> f_l f' (j0 + Z.of_nat t) = a /\ f_r f' (j0 + Z.of_nat t) = b)) /\
          (forall j k, 0 <= j < j0 -> 0 <= k < size -> f_L f' (idx axis n size j k) = f_L f (idx axis n size j k) /\
             f_R f' (idx axis n size j k) = f_R f (idx axis n size j k) /\ f_o f' (idx axis n size j k) = f_o f (idx axis n size j k)) /\
          (forall j, j < j0 -> f_l f' j = f_l f j /\ f_r f' j = f_r f j) /\
          counted st st' (concat (map snd nodes))
    end.
  Proof.
    intros AX Hs. induction pqs as [|[p q] pqs IH]; intros kas j0 st f LK Hj Hn I HP HKA; cbv zeta.
    - cbn [map2 seq_opt for_ length]. exists st, f. split; [reflexivity|]. split; [exact I|]. split; [reflexivity|].
      split; [intros [|t] strip ratios H; discriminate|]. split; [auto|]. split; [auto|]. apply counted_nil.
    - destruct kas as [|ka kas]; [discriminate|]. cbn [length] in Hn, LK. cbn [map2 seq_opt for_ length fst snd].
      assert (AT : at_node (fst (node_of j0)) (snd (node_of j0)) j0).
      { unfold at_node, node_of. destruct AX as [(-> & A & B)|(-> & A & B)]; cbn [Z.eqb fst snd]; auto 10. }
      destruct (HP O p q eq_refl) as [P1 P2]. rewrite Z.add_0_r in P1, P2.
      pose proof (HKA O ka eq_refl) as K0. rewrite Z.add_0_r in K0.
      pose proof (node_ok _ _ j0 known ka st f AT ltac:(lia) Hs I K0) as N. cbv zeta in N. rewrite P1, P2 in N.
      destruct (cpp_strip_node ml mr (Z.to_nat size) spacing axis epi_step e off p q ka) as [[strip ratios]|]; [|rewrite N; reflexivity].
      destruct N as (st1 & f1 & E1 & I1 & L1 & (S1 & S2) & (K1 & K2 & K3) & C1). rewrite E1. cbn [bind].
      specialize (IH kas (j0 + 1) st1 f1 ltac:(lia) ltac:(lia) ltac:(lia) I1). cbv zeta in IH.
      assert (IH' := IH ltac:(intros t p' q' H; replace (j0 + 1 + Z.of_nat t) with (j0 + Z.of_nat (S t)) by lia;
        destruct (K3 (j0 + Z.of_nat (S t)) ltac:(lia)) as [-> ->]; exact (HP (S t) p' q' H))
        ltac:(intros t ka' H; replace (j0 + 1 + Z.of_nat t) with (j0 + Z.of_nat (S t)) by lia; exact (HKA (S t) ka' H))). clear IH.
      destruct (seq_opt _) as [nodes|]; [|exact IH'].
      destruct IH' as (st2 & f2 & E2 & I2 & L2 & N1 & N2 & N3 & C2). exists st2, f2.
      split; [exact E2|]. split; [exact I2|]. split; [cbn [length]; lia|]. split; [|split; [|split]].
      + intros [|t] strip' ratios' H; cbn [nth_error] in H.
        * injection H as <- <-. rewrite Z.add_0_r. split; [exact L1|]. split.
          -- intros k a b al H.
             assert (Hk : (k < Z.to_nat size)%nat) by (rewrite <- L1; apply nth_error_Some; congruence).
             destruct (N2 j0 (Z.of_nat k) ltac:(lia) ltac:(lia)) as (-> & -> & ->).
             specialize (S1 k a b al H). rewrite Z.add_0_l in S1. exact S1.
          -- intros a b al H. destruct (N3 j0 ltac:(lia)) as [-> ->]. rewrite K1, K2. unfold last_of. rewrite L1, H. auto.
        * replace (j0 + Z.of_nat (S t)) with (j0 + 1 + Z.of_nat t) by lia. eauto.
      + intros j k Hj' Hk'. destruct (N2 j k ltac:(lia) Hk') as (-> & -> & ->). apply S2.
        intros t Ht E. apply idx_node in E; lia.
      + intros j Hj'. destruct (N3 j ltac:(lia)) as [-> ->]. apply K3. lia.
      + cbn [map concat snd]. exact (counted_app _ _ _ _ _ C1 C2).
  Qed.
End Strip.

(** ** What a call that returns has accessed *)
Lemma for_last {S} (P : S -> Prop) (f : Z -> S -> mem S) : (forall i a b, P a -> f i a = Ran b -> P b) ->
  forall n i st st', P st -> for_ n i f st = Ran st' -> P st' /\
    forall k, (k < n)%nat -> exists a b, P a /\ f (i + Z.of_nat k) a = Ran b.
Proof.
  intros HP. induction n as [|n IH]; intros i st st' H E; cbn [for_] in E.
  - injection E as <-. split; [exact H|]. intros k Hk. lia.
  - destruct (f i st) as [st1| | |] eqn:E1; try discriminate. cbn [bind] in E.
    destruct (IH (i + 1) st1 st' (HP _ _ _ H E1) E) as [A B]. split; [exact A|].
    intros [|k] Hk; [exists st, st1; rewrite Z.add_0_r; auto|].
    replace (i + Z.of_nat (Datatypes.S k)) with (i + 1 + Z.of_nat k) by lia. apply B. lia.
Qed.
Definition sizes (s : store (list num)) (N : Z) (st : strip_state) : Prop :=
  Z.of_nat (length (ss_left st)) = 3 * N /\ Z.of_nat (length (ss_right st)) = 3 * N /\
  Z.of_nat (length (ss_comp st)) = N /\ Z.of_nat (length (ss_out st)) = N /\
  forall k, length (ss_arrays st k) = length (s k).
Lemma read3_ran v i0 i1 i2 p : read3 v i0 i1 i2 = Ran p -> 0 <= i0 < Z.of_nat (length v) /\ 0 <= i2 < Z.of_nat (length v).
Proof.
  unfold read3. destruct (read v i0) eqn:A; try discriminate. destruct (read v i1); try discriminate.
  cbn [bind]. destruct (read v i2) eqn:B; try discriminate. intros _. split; eapply read_ran; eassumption.
Qed.
Lemma write3_ran v i0 i1 i2 p v' : write3 v i0 i1 i2 p = Ran v' ->
  length v' = length v /\ 0 <= i0 < Z.of_nat (length v) /\ 0 <= i2 < Z.of_nat (length v).
Proof.
  unfold write3. destruct (write v i0 _) as [v1| | |] eqn:A; try discriminate. cbn [bind].
  destruct (write v1 i1 _) as [v2| | |] eqn:B; try discriminate. cbn [bind]. intros C.
  apply write_ran in A, B, C. destruct A as [A1 A2], B as [B1 B2], C as [C1 C2]. rewrite B1, A1 in C2. split; [congruence|lia].
Qed.
Lemma assign_length {A} (s s0 : store (list A)) k v : length v = length (s k) -> (forall j, length (s j) = length (s0 j)) ->
  forall j, length (assign s k v j) = length (s0 j).
Proof. intros E H j. unfold assign. destruct (Nat.eqb_spec j k) as [->|]; congruence. Qed.
Ltac steps H := repeat match type of H with
  | bind ?m _ = Ran _ => let E := fresh "E" in destruct m eqn:E; try discriminate H; cbn [bind] in H
  end.

Section Ran.
  Context {D : Type} (ml mr : geomodel D).
  Context (s : store (list num)) (l r : nat) (spacing : R) (axis size epi_step : Z) (e : elevation D) (off : R) (nb_cols grid_cols N : Z).

  Lemma sizes_count x st : sizes s N st -> sizes s N (count_ratio x st).
  Proof. destruct x; exact (fun H => H). Qed.
  Lemma point_ran row col k st st' : sizes s N st ->
    mem_point ml mr l r spacing axis size epi_step e off nb_cols grid_cols row col k st = Ran st' ->
    sizes s N st' /\ (axis = 0 \/ axis = 1) /\
    0 <= (if axis =? 0 then row * grid_cols + col + k * grid_cols else row * grid_cols + col + k) < N.
  Proof.
    intros (L1 & L2 & L3 & L4 & L5) H. unfold mem_point in H. cbv zeta in H. steps H.
    match type of H with (let (_, _) := ?y in _) = _ => destruct y as [[out lg] rg] end.
    assert (W : length out = length (ss_out st) /\ length lg = length (ss_left st) /\ length rg = length (ss_right st) /\
                0 <= (if axis =? 0 then row * grid_cols + col + k * grid_cols else row * grid_cols + col + k) < Z.of_nat (length (ss_out st))).
    { destruct (axis =? 0); 
      repeat match goal with E : bind ?m _ = Ran (out, lg, rg) |- _ => let F := fresh "F" in destruct m eqn:F; try discriminate E; cbn [bind] in E end;
      match goal with E : Ran _ = Ran (out, lg, rg) |- _ => injection E as <- <- <- end;
      repeat match goal with F : write _ _ _ = Ran _ |- _ => apply write_ran in F | F : write3 _ _ _ _ _ = Ran _ |- _ => apply write3_ran in F end; tauto. }
    destruct W as (W1 & W2 & W3 & W4).
    assert (AX : axis = 0 \/ axis = 1).
    { match goal with E : call (cpp_moving_along_axis _ _ _ _ _ _ _ _) = _ |- _ => unfold cpp_moving_along_axis in E;
        destruct (Z.eqb_spec axis 0); destruct (Z.eqb_spec axis 1); auto; discriminate E end. }
    injection H as <-. split; [|split; [exact AX|lia]]. apply sizes_count.
    repeat match goal with F : write _ _ _ = Ran _ |- _ => apply write_ran in F | F : write3 _ _ _ _ _ = Ran _ |- _ => apply write3_ran in F end.
    split; [cbn [ss_left]; lia|]. split; [cbn [ss_right]; lia|]. split; [cbn [ss_comp]; lia|]. split; [cbn [ss_out]; lia|].
    cbn [ss_arrays]. apply assign_length; [tauto|]. apply assign_length; [tauto|exact L5].
  Qed.
  Lemma node_ran known row col st st' : sizes s N st ->
    mem_node ml mr l r spacing axis size epi_step e off nb_cols grid_cols known row col st = Ran st' ->
    sizes s N st' /\ 0 <= row * grid_cols + col < N /\
    row * nb_cols * 3 + col * 3 + 2 < Z.of_nat (length (s l)) /\ row * nb_cols * 3 + col * 3 + 2 < Z.of_nat (length (s r)) /\
    (forall angles, known = Some angles -> 0 <= row * nb_cols + col < Z.of_nat (length angles)) /\
    (2 <= size -> (axis = 0 \/ axis = 1) /\
       0 <= (if axis =? 0 then row * grid_cols + col + (size - 1) * grid_cols else row * grid_cols + col + (size - 1)) < N).
  Proof.
    intros (L1 & L2 & L3 & L4 & L5) H. unfold mem_node in H. cbv zeta in H. steps H.
    match goal with E : match known with _ => _ end = Ran ?y |- _ => rename y into st1; rename E into EK end.
    assert (K : length (ss_comp st1) = length (ss_comp st) /\ ss_arrays st1 = ss_arrays st /\ ss_out st1 = ss_out st /\
                forall angles, known = Some angles -> 0 <= row * nb_cols + col < Z.of_nat (length angles)).
    { destruct known as [angles|].
      - steps EK. injection EK as <-.
        repeat match goal with F : write _ _ _ = Ran _ |- _ => apply write_ran in F | F : read angles _ = Ran _ |- _ => apply read_ran in F end.
        cbn [ss_comp ss_out ss_arrays] in *. split; [tauto|]. split; [reflexivity|]. split; [reflexivity|]. intros a [= <-]. tauto.
      - steps EK. injection EK as <-.
        repeat match goal with F : write _ _ _ = Ran _ |- _ => apply write_ran in F end. cbn [ss_comp ss_out ss_arrays] in *.
        destruct (baseline_ratio _ _ _); cbn [count_ratio ss_comp ss_out ss_arrays]; (split; [tauto|]); (split; [reflexivity|]); (split; [reflexivity|]); discriminate. }
    destruct K as (K1 & K2 & K3 & K4).
    repeat match goal with F : write _ _ _ = Ran _ |- _ => apply write_ran in F | F : write3 _ _ _ _ _ = Ran _ |- _ => apply write3_ran in F
      | F : read3 _ _ _ _ = Ran _ |- _ => apply read3_ran in F | F : read (ss_comp st1) _ = Ran _ |- _ => apply read_ran in F end.
    cbn [ss_arrays ss_out] in *. rewrite !L5 in *. rewrite K3 in *.
    match type of H with for_ ?n _ ?g ?st0 = _ =>
      pose proof (for_last (sizes s N) g (fun i a b Pa Eb => proj1 (point_ran row col i a b Pa Eb)) n 1 st0 st') as FL end.
    match type of FL with ?P -> _ => assert (S0 : P) end.
    { split; [cbn [ss_left]; lia|]. split; [cbn [ss_right]; lia|]. split; [cbn [ss_comp]; lia|]. split; [cbn [ss_out]; lia|]. exact L5. }
    destruct (FL S0 H) as [A B].
    split; [exact A|]. split; [lia|]. split; [lia|]. split; [lia|]. split; [exact K4|].
    intros HS. destruct (B (Z.to_nat (size - 1) - 1)%nat ltac:(lia)) as (a & b & Pa & Eb).
    destruct (point_ran _ _ _ _ _ Pa Eb) as (_ & AX & G). split; [exact AX|].
    replace (1 + Z.of_nat (Z.to_nat (size - 1) - 1)) with (size - 1) in G by lia. exact G.
  Qed.
End Ran.
