(** Triangulation of a disparity map through the rectification grids (C76). *)
From Coq Require Import Reals ZArith List Bool Lra Lia.
From Verif Require Import Num NumLemmas ProjModel RpcModel RpcSpec RpcRun TriModel TriSpec TriProofs TriBatch PropertiesRpc PropertiesTri PropertiesTri2.
Import ListNotations.
Open Scope R_scope.

Lemma rank_surj ok : forall k, (k < count ok)%nat -> exists n, nth_error ok n = Some true /\ rank ok n = k.
Proof.
  unfold count, rank. induction ok as [|b ok IH]; intros k Hk; cbn in Hk; [lia|].
  destruct b; cbn in Hk.
  - destruct k as [|k]; [exists 0%nat; split; reflexivity|]. destruct (IH k ltac:(lia)) as (n & E & R). exists (S n). cbn. split; [exact E|now rewrite R].
  - destruct (IH k Hk) as (n & E & R). exists (S n). cbn. split; [exact E|exact R].
Qed.
Lemma nth_ext_some {A} (a b : list A) : length a = length b ->
  (forall k, (k < length a)%nat -> exists x, nth_error a k = Some x /\ nth_error b k = Some x) -> a = b.
Proof.
  revert b. induction a as [|x a IH]; intros [|y b] HL H; try discriminate; [reflexivity|].
  destruct (H 0%nat ltac:(cbn; lia)) as (z & E1 & E2). cbn in E1, E2. assert (x = y) by congruence. subst y. f_equal.
  apply IH; [cbn in HL; lia|]. intros k Hk. apply (H (S k)). cbn. lia.
Qed.

(** A localization that is found pixel by pixel: [P pixel altitude ground] for each pixel of a list
    gives the list of the ground positions. *)
Definition locates_each (g : loc_model) (fill : bool) (P : num * num -> R -> row3 -> Prop) : Prop :=
  forall (V : list seen) (side : seen -> num * num) (ground : seen -> row3) alt,
    Forall (fun v => P (side v) alt (ground v)) V ->
    lm_direct g (map (fun v => snd (side v)) V) (map (fun v => fst (side v)) V) alt fill = Some (map ground V).

(** C76. *)
Theorem C76_disparity_map_gives_its_ground_points :
  forall conv gl gr Pl Pr left_position right_position rows cols disp mask lmm rmm fill llo lhi rlo rhi (truth : nat -> nat -> seen),
    pointwise_conv conv -> ends gl lmm llo lhi -> ends gr rmm rlo rhi ->
    locates_each gl fill Pl -> locates_each gr fill Pr ->
    shaped (length rows) (length cols) disp ->
    match mask with Some m => shaped (length rows) (length cols) m | None => True end ->
    (forall i j r c line d, nth_error rows i = Some r -> nth_error cols j = Some c ->
       nth_error disp i = Some line -> nth_error line j = Some d -> selected mask i j ->
       let v := truth i j in
       m_left (sn_match v) = left_position (fin c, fin r) /\ m_right (sn_match v) = right_position (nadd (fin c) d, fin r) /\
       Pl (m_left (sn_match v)) lhi (sn_ltop v) /\ Pl (m_left (sn_match v)) llo (sn_lbot v) /\
       Pr (m_right (sn_match v)) rhi (sn_rtop v) /\ Pr (m_right (sn_match v)) rlo (sn_rbot v) /\ seen_by_both conv v) ->
    exists ecef wgs res,
      epipolar_triangulation conv gl gr (map left_position) (map right_position) (Disp rows cols disp mask) lmm rmm true fill
      = Some (ecef, wgs, res) /\
      length ecef = (length rows * length cols)%nat /\ length wgs = (length rows * length cols)%nat /\
      length res = (length rows * length cols)%nat /\
      forall i j, (i < length rows)%nat -> (j < length cols)%nat ->
        let n := (i * length cols + j)%nat in
        (selected mask i j ->
           nth_error wgs n = Some (sn_ground (truth i j)) /\ nth_error res n = Some [fin 0] /\
           exists e, conv 4326%Z 4978%Z [sn_ground (truth i j)] = [e] /\ nth_error ecef n = Some e) /\
        (~ selected mask i j -> nth_error ecef n = Some (R3 (fin 0) (fin 0) (fin 0)) /\ nth_error wgs n = Some (R3 (fin 0) (fin 0) (fin 0)) /\ nth_error res n = Some [fin 0]).
Proof.
  intros conv gl gr Pl Pr lp rp rows cols disp mask lmm rmm fill llo lhi rlo rhi truth Hc El Er HPl HPr HD HM HT.
  destruct (transform_disp_to_matches rows cols disp mask) as [[left right] ok] eqn:ET.
  destruct (C27_pixels_become_matches rows cols disp mask left right ok HD HM ET) as (Lok & Ll & Lr & HX).
  set (nr := length rows) in *. set (nc := length cols) in *.
  set (pix := concat (map (fun i => map (fun j => truth i j) (seq 0 nc)) (seq 0 nr))).
  assert (SP : shaped nr nc (map (fun i => map (fun j => truth i j) (seq 0 nc)) (seq 0 nr))).
  { split; [now rewrite map_length, seq_length|]. apply Forall_forall. intros l Hl. apply in_map_iff in Hl. destruct Hl as (i & <- & _).
    now rewrite map_length, seq_length. }
  assert (LP : length pix = (nr * nc)%nat) by (apply concat_length_shaped; exact SP).
  assert (NP : forall i j, (i < nr)%nat -> (j < nc)%nat -> nth_error pix (i * nc + j) = Some (truth i j)).
  { intros i j Hi Hj. eapply (concat_nth nr nc); [exact SP| |].
    - rewrite nth_error_map, (nth_error_nth' _ 0%nat) by now rewrite seq_length. rewrite seq_nth by assumption. reflexivity.
    - rewrite nth_error_map, (nth_error_nth' _ 0%nat) by now rewrite seq_length. rewrite seq_nth by assumption. reflexivity. }
  assert (AT : forall i j, (i < nr)%nat -> (j < nc)%nat -> exists r c line d,
    nth_error rows i = Some r /\ nth_error cols j = Some c /\ nth_error disp i = Some line /\ nth_error line j = Some d).
  { intros i j Hi Hj. destruct HD as [HD1 HD2].
    destruct (nth_error rows i) as [r|] eqn:E1; [|apply nth_error_None in E1; unfold nr in Hi; lia].
    destruct (nth_error cols j) as [c|] eqn:E2; [|apply nth_error_None in E2; unfold nc in Hj; lia].
    destruct (nth_error disp i) as [line|] eqn:E3; [|apply nth_error_None in E3; lia].
    assert (length line = nc) by (rewrite Forall_forall in HD2; eapply HD2, nth_error_In, E3).
    destruct (nth_error line j) as [d|] eqn:E4; [|apply nth_error_None in E4; lia]. eauto 8. }
  set (V := gather ok pix).
  assert (LV : length V = count ok) by (apply gather_length; lia).
  (* the k-th selected pixel *)
  assert (K : forall k, (k < count ok)%nat -> exists i j r c line d, (i < nr)%nat /\ (j < nc)%nat /\
     nth_error rows i = Some r /\ nth_error cols j = Some c /\ nth_error disp i = Some line /\ nth_error line j = Some d /\
     selected mask i j /\ nth_error V k = Some (truth i j) /\ nth_error left k = Some (fin c, fin r) /\ nth_error right k = Some (nadd (fin c) d, fin r)).
  { intros k Hk. destruct (rank_surj ok k Hk) as (n & En & Rn).
    assert (Hn : (n < nr * nc)%nat) by (rewrite <- Lok; apply nth_error_Some; congruence).
    assert (Hnc : nc <> 0%nat) by (intros Z; rewrite Z, Nat.mul_0_r in Hn; lia).
    pose (i := (n / nc)%nat). pose (j := (n mod nc)%nat).
    assert (Enij : n = (i * nc + j)%nat) by (unfold i, j; rewrite Nat.mul_comm; apply Nat.div_mod; assumption).
    assert (Hj : (j < nc)%nat) by (apply Nat.mod_upper_bound; assumption).
    assert (Hi : (i < nr)%nat) by (apply Nat.div_lt_upper_bound; [assumption|]; rewrite Nat.mul_comm; assumption).
    destruct (AT i j Hi Hj) as (r & c & line & d & E1 & E2 & E3 & E4).
    destruct (HX i j r c line d E1 E2 E3 E4) as [S1 S2]. cbv zeta in S1, S2. fold nc in S1, S2. rewrite <- Enij in S1, S2.
    assert (Sel : selected mask i j) by (apply S1; exact En). destruct (S2 Sel) as [X1 X2]. rewrite Rn in X1, X2.
    exists i, j, r, c, line, d. repeat (split; [assumption|]). split; [|split; assumption].
    rewrite <- Rn. apply gather_nth; [exact En|]. rewrite Enij. apply NP; assumption. }
  assert (EL : map lp left = map (fun v => m_left (sn_match v)) V).
  { apply nth_ext_some; [rewrite !map_length; congruence|]. rewrite map_length, Ll. intros k Hk.
    destruct (K k Hk) as (i & j & r & c & line & d & Hi & Hj & E1 & E2 & E3 & E4 & Sel & EV & X1 & X2).
    destruct (HT i j r c line d E1 E2 E3 E4 Sel) as (A & _). exists (lp (fin c, fin r)). rewrite !nth_error_map, X1, EV. cbn. now rewrite A. }
  assert (ER : map rp right = map (fun v => m_right (sn_match v)) V).
  { apply nth_ext_some; [rewrite !map_length; congruence|]. rewrite map_length, Lr. intros k Hk.
    destruct (K k Hk) as (i & j & r & c & line & d & Hi & Hj & E1 & E2 & E3 & E4 & Sel & EV & X1 & X2).
    destruct (HT i j r c line d E1 E2 E3 E4 Sel) as (_ & A & _). exists (rp (nadd (fin c) d, fin r)). rewrite !nth_error_map, X2, EV. cbn [option_map]. now rewrite A. }
  assert (FV : Forall (fun v => Pl (m_left (sn_match v)) lhi (sn_ltop v) /\ Pl (m_left (sn_match v)) llo (sn_lbot v) /\
       Pr (m_right (sn_match v)) rhi (sn_rtop v) /\ Pr (m_right (sn_match v)) rlo (sn_rbot v) /\ seen_by_both conv v) V).
  { apply Forall_forall. intros v Hv. apply In_nth_error in Hv. destruct Hv as [k Ek].
    assert (Hk : (k < count ok)%nat) by (rewrite <- LV; apply nth_error_Some; congruence).
    destruct (K k Hk) as (i & j & r & c & line & d & Hi & Hj & E1 & E2 & E3 & E4 & Sel & EV & _).
    destruct (HT i j r c line d E1 E2 E3 E4 Sel) as (_ & _ & A). assert (v = truth i j) by congruence. subst v. exact A. }
  assert (EM : map2 Match (map lp left) (map rp right) = map sn_match V).
  { rewrite EL, ER, map2_map_same. apply map_ext. intro v. destruct (sn_match v). reflexivity. }
  assert (ES : sensor_triangulation conv gl gr (map2 Match (map lp left) (map rp right)) lmm rmm true fill
    = Some (conv 4326%Z 4978%Z (map sn_ground V), map sn_ground V, Some (map (fun _ => [fin 0]) V))).
  { rewrite EM. eapply C71_ground_points_are_recovered; eauto.
    - apply (HPl V (fun v => m_left (sn_match v))). eapply Forall_impl; [|exact FV]. cbv beta. tauto.
    - apply (HPl V (fun v => m_left (sn_match v))). eapply Forall_impl; [|exact FV]. cbv beta. tauto.
    - apply (HPr V (fun v => m_right (sn_match v))). eapply Forall_impl; [|exact FV]. cbv beta. tauto.
    - apply (HPr V (fun v => m_right (sn_match v))). eapply Forall_impl; [|exact FV]. cbv beta. tauto.
    - eapply Forall_impl; [|exact FV]. cbv beta. tauto. }
  assert (EE : exists ecef wgs res, epipolar_triangulation conv gl gr (map lp) (map rp) (Disp rows cols disp mask) lmm rmm true fill = Some (ecef, wgs, res)).
  { unfold epipolar_triangulation. rewrite ET, ES. eauto. }
  destruct EE as (ecef & wgs & res & EE). exists ecef, wgs, res. split; [exact EE|].
  destruct (C27_points_return_to_their_pixels conv gl gr (map lp) (map rp) rows cols disp mask lmm rmm fill left right ok ecef wgs res _ _ _ ET ES EE)
    as (L1 & L2 & L3 & Hno & Hyes).
  split; [congruence|]. split; [congruence|]. split; [congruence|].
  intros i j Hi Hj n. destruct (AT i j Hi Hj) as (r & c & line & d & E1 & E2 & E3 & E4).
  destruct (HX i j r c line d E1 E2 E3 E4) as [S1 S2]. cbv zeta in S1, S2. fold nc n in S1, S2. split.
  - intros Sel. assert (En : nth_error ok n = Some true) by (apply S1; exact Sel).
    assert (EV : nth_error V (rank ok n) = Some (truth i j)) by (apply gather_nth; [exact En|apply NP; assumption]).
    destruct Hc as [f Hf].
    assert (Ee : nth_error (conv 4326%Z 4978%Z (map sn_ground V)) (rank ok n) = Some (f 4326%Z 4978%Z (sn_ground (truth i j)))).
    { now rewrite Hf, !nth_error_map, EV. }
    destruct (Hyes n _ (sn_ground (truth i j)) [fin 0] En Ee) as (A & B & C).
    + now rewrite nth_error_map, EV.
    + now rewrite nth_error_map, EV.
    + split; [exact B|]. split; [exact C|]. exists (f 4326%Z 4978%Z (sn_ground (truth i j))). rewrite Hf. split; [reflexivity|exact A].
  - intros NS. apply Hno. destruct (nth_error ok n) as [[|]|] eqn:En; [|reflexivity|].
    + exfalso. apply NS, S1. reflexivity.
    + apply nth_error_None in En. assert (n < nr * nc)%nat by (unfold n; nia). lia.
Qed.

(** RPC models locate pixel by pixel wherever Newton's method ends. *)
Lemma rpc_locates_each m fill : usable_inverse m -> locates_each (rpc_sensor m) fill (newton_locates m).
Proof. intros Hu V side ground alt H. now apply rpc_sensor_locates. Qed.

(** Two RPC models seen through the resampling grids: the left pixel is the epipolar pixel moved by
    one column and two rows, the right one is the epipolar pixel.  The disparities of the two lines
    of two pixels are minus the altitudes, minus one; one pixel is masked. *)
Definition shift76 (p : num * num) : num * num := (nadd (fst p) (fin 1), nadd (snd p) (fin 2)).
Definition right76 (p : num * num) : num * num := (fst p, nadd (snd p) (fin 2)).
Definition truth76 (i j : nat) : seen :=
  match i, j with
  | 0%nat, 0%nat => seen71 9 8 4
  | 0%nat, _ => seen71 8 8 7
  | _, _ => seen71 10 10 3
  end.
Example C76_case :
  exists ecef wgs res,
    epipolar_triangulation (fun _ _ l => l) (rpc_sensor ex_rpc) (rpc_sensor rpc71) (map shift76) (map right76)
      (Disp [6; 8] [12; 14] [[fin (-3); fin (-6)]; [fin (-2); nan]] (Some [[1; 1]; [1; 0]])) (Some (0, 20)) (Some (0, 20)) true false
    = Some (ecef, wgs, res)
    /\ nth_error wgs 0 = Some (R3 (Some 9) (Some 8) (Some 4)) /\ nth_error wgs 1 = Some (R3 (Some 8) (Some 8) (Some 7))
    /\ nth_error wgs 2 = Some (R3 (Some 10) (Some 10) (Some 3)) /\ nth_error wgs 3 = Some (R3 (fin 0) (fin 0) (fin 0)).
Proof.
  assert (Hc : pointwise_conv (fun _ _ l => l)) by (exists (fun _ _ p => p); intros; now rewrite map_id).
  assert (U : usable_inverse rpc71) by (repeat split; simpl; lra).
  destruct (C76_disparity_map_gives_its_ground_points (fun _ _ l => l) (rpc_sensor ex_rpc) (rpc_sensor rpc71) (newton_locates ex_rpc) (newton_locates rpc71)
    shift76 right76 [6; 8] [12; 14] [[fin (-3); fin (-6)]; [fin (-2); nan]] (Some [[1; 1]; [1; 0]]) (Some (0, 20)) (Some (0, 20)) false 0 20 0 20 truth76
    Hc eq_refl eq_refl (rpc_locates_each _ _ ex_rpc_usable) (rpc_locates_each _ _ U)) as (ecef & wgs & res & E & _ & _ & _ & H).
  - repeat constructor.
  - repeat constructor.
  - intros i j r c line d E1 E2 E3 E4 (ml & v & M1 & M2 & M3).
    assert (C : forall x y z cc rr dd, 5 <= x <= 100 -> 1 <= y <= 80 -> 0 <= z <= 20 -> cc + 1 = x + z -> rr + 2 = y -> cc + dd = x ->
      let w := seen71 x y z in
      m_left (sn_match w) = shift76 (fin cc, fin rr) /\ m_right (sn_match w) = right76 (nadd (fin cc) (fin dd), fin rr) /\
      newton_locates ex_rpc (m_left (sn_match w)) 20 (sn_ltop w) /\ newton_locates ex_rpc (m_left (sn_match w)) 0 (sn_lbot w) /\
      newton_locates rpc71 (m_right (sn_match w)) 20 (sn_rtop w) /\ newton_locates rpc71 (m_right (sn_match w)) 0 (sn_rbot w) /\ seen_by_both (fun _ _ l => l) w).
    { intros x y z cc rr dd Hx Hy Hz E5 E6 E7 w. unfold w. destruct (seen71_ok x y z Hx Hy Hz) as (A1 & A2 & A3 & A4 & A5).
      split; [unfold shift76; cbn; now rewrite E5, E6|]. split; [unfold right76; cbn; now rewrite E7, E6|]. auto. }
    destruct i as [|[|i]]; [| |destruct i; discriminate]; cbn in E1, E3, M1;
      injection E1 as <-; injection E3 as <-; injection M1 as <-;
      (destruct j as [|[|j]]; [| |destruct j; discriminate]); cbn in E2, E4, M2; injection E2 as <-; injection E4 as <-; injection M2 as <-;
      cbn [truth76]; try (apply C; lra); exfalso; lra.
  - exists ecef, wgs, res. split; [exact E|].
    assert (S1 : forall i j l v, nth_error [[1; 1]; [1; 0]] i = Some l -> nth_error l j = Some v -> 0 < v -> selected (Some [[1; 1]; [1; 0]]) i j)
      by (intros i j l v H1 H2 H3; exists l, v; auto).
    destruct (H 0%nat 0%nat) as [A _]; [cbn; lia..|]. destruct (H 0%nat 1%nat) as [B _]; [cbn; lia..|].
    destruct (H 1%nat 0%nat) as [C _]; [cbn; lia..|]. destruct (H 1%nat 1%nat) as [_ D]; [cbn; lia..|].
    split; [apply A; apply (S1 _ _ [1; 1] 1); try reflexivity; lra|].
    split; [apply B; apply (S1 _ _ [1; 1] 1); try reflexivity; lra|].
    split; [apply C; apply (S1 _ _ [1; 0] 1); try reflexivity; lra|].
    apply D. intros (l & v & H1 & H2 & H3). cbn in H1. injection H1 as <-. cbn in H2. injection H2 as <-. lra.
Qed.

(** Matches given as pairs of epipolar positions (sift): the point of each row is the ground point of
    its pair, in the order of the rows.  A row: the left position, the right position, the ground point
    and the ends of its two lines of sight.  The residues that were not asked for are NaN, not zero. *)
Lemma scatter_all {A B} (l : list B) (zeros vals : list A) : length zeros = length l -> length vals = length l ->
  scatter (map (fun _ => true) l) zeros vals = vals.
Proof.
  revert zeros vals. induction l as [|x l IH]; intros [|z zs] [|v vs] H1 H2; try discriminate; [reflexivity|].
  cbn in *. f_equal. apply IH; lia.
Qed.
Theorem C76_given_matches_give_their_ground_points :
  forall conv gl gr Pl Pr left_position right_position (rows : list ((num * num) * (num * num) * seen)) lmm rmm (residues fill : bool) llo lhi rlo rhi,
    pointwise_conv conv -> ends gl lmm llo lhi -> ends gr rmm rlo rhi ->
    locates_each gl fill Pl -> locates_each gr fill Pr ->
    Forall (fun '(l, r, v) =>
       m_left (sn_match v) = left_position l /\ m_right (sn_match v) = right_position r /\
       Pl (m_left (sn_match v)) lhi (sn_ltop v) /\ Pl (m_left (sn_match v)) llo (sn_lbot v) /\
       Pr (m_right (sn_match v)) rhi (sn_rtop v) /\ Pr (m_right (sn_match v)) rlo (sn_rbot v) /\ seen_by_both conv v) rows ->
    epipolar_triangulation conv gl gr (map left_position) (map right_position)
      (Sift (map (fun m => fst (fst m)) rows) (map (fun m => snd (fst m)) rows)) lmm rmm residues fill
    = Some (conv 4326%Z 4978%Z (map (fun m => sn_ground (snd m)) rows), map (fun m => sn_ground (snd m)) rows,
            map (fun _ => [if residues then fin 0 else nan]) rows).
Proof.
  intros conv gl gr Pl Pr lp rp rows lmm rmm residues fill llo lhi rlo rhi Hc El Er HPl HPr HF.
  set (V := map snd rows).
  assert (FV : Forall (fun v => Pl (m_left (sn_match v)) lhi (sn_ltop v) /\ Pl (m_left (sn_match v)) llo (sn_lbot v) /\
       Pr (m_right (sn_match v)) rhi (sn_rtop v) /\ Pr (m_right (sn_match v)) rlo (sn_rbot v) /\ seen_by_both conv v) V).
  { apply Forall_forall. intros v Hv. apply in_map_iff in Hv. destruct Hv as ([[l r] w] & <- & Hin).
    rewrite Forall_forall in HF. specialize (HF _ Hin). cbv beta iota in HF. tauto. }
  assert (EM : map2 Match (map lp (map (fun m => fst (fst m)) rows)) (map rp (map (fun m => snd (fst m)) rows)) = map sn_match V).
  { unfold V. clear - HF. induction HF as [|[[l r] v] rows (E1 & E2 & _) HF IH]; [reflexivity|].
    cbn. f_equal; [|exact IH]. rewrite <- E1, <- E2. destruct (sn_match v). reflexivity. }
  assert (ES : sensor_triangulation conv gl gr (map sn_match V) lmm rmm true fill
    = Some (conv 4326%Z 4978%Z (map sn_ground V), map sn_ground V, Some (map (fun _ => [fin 0]) V))).
  { eapply C71_ground_points_are_recovered; eauto.
    - apply (HPl V (fun v => m_left (sn_match v))). eapply Forall_impl; [|exact FV]. cbv beta. tauto.
    - apply (HPl V (fun v => m_left (sn_match v))). eapply Forall_impl; [|exact FV]. cbv beta. tauto.
    - apply (HPr V (fun v => m_right (sn_match v))). eapply Forall_impl; [|exact FV]. cbv beta. tauto.
    - apply (HPr V (fun v => m_right (sn_match v))). eapply Forall_impl; [|exact FV]. cbv beta. tauto.
    - eapply Forall_impl; [|exact FV]. cbv beta. tauto. }
  assert (ES' : sensor_triangulation conv gl gr (map sn_match V) lmm rmm residues fill
    = Some (conv 4326%Z 4978%Z (map sn_ground V), map sn_ground V, if residues then Some (map (fun _ => [fin 0]) V) else None)).
  { destruct residues; [exact ES|]. revert ES. unfold sensor_triangulation.
    destruct (los_creation _ _ _ _ _); [|discriminate]. destruct (los_creation _ _ _ _ _); [|discriminate].
    destruct (los_triangulation _ _); [|discriminate]. intros H. injection H as <- H2 _. now rewrite H2. }
  unfold epipolar_triangulation. rewrite EM, ES'.
  assert (EG : map sn_ground V = map (fun m => sn_ground (snd m)) rows) by (unfold V; apply map_map). rewrite EG.
  assert (LC : length (conv 4326%Z 4978%Z (map (fun m => sn_ground (snd m)) rows)) = length rows) by (destruct Hc as [f Hf]; now rewrite Hf, !map_length).
  rewrite !scatter_all; try (rewrite ?map_length; congruence || reflexivity).
  - destruct residues; [now unfold V; rewrite map_map|]. f_equal. f_equal.
    revert LC. generalize (conv 4326%Z 4978%Z (map (fun m => sn_ground (snd m)) rows)). clear. induction rows as [|x rows IH]; intros [|y l] H; try discriminate; [reflexivity|].
    cbn in *. f_equal. apply IH. lia.
  - destruct residues; unfold V; rewrite ?map_length; congruence.
Qed.
(** Two matches through the same grids; the left and right positions differ. *)
Example C76_given_case : forall residues,
    epipolar_triangulation (fun _ _ l => l) (rpc_sensor ex_rpc) (rpc_sensor rpc71) (map shift76) (map right76)
      (Sift [(fin 12, fin 6); (fin 14, fin 6)] [(fin 9, fin 6); (fin 8, fin 6)]) (Some (0, 20)) (Some (0, 20)) residues false
    = Some ([R3 (fin 9) (fin 8) (fin 4); R3 (fin 8) (fin 8) (fin 7)], [R3 (fin 9) (fin 8) (fin 4); R3 (fin 8) (fin 8) (fin 7)],
            if residues then [[fin 0]; [fin 0]] else [[nan]; [nan]]).
Proof.
  intros residues.
  assert (Hc : pointwise_conv (fun _ _ l => l)) by (exists (fun _ _ p => p); intros; now rewrite map_id).
  assert (U : usable_inverse rpc71) by (repeat split; simpl; lra).
  pose proof (C76_given_matches_give_their_ground_points (fun _ _ l => l) (rpc_sensor ex_rpc) (rpc_sensor rpc71) (newton_locates ex_rpc) (newton_locates rpc71)
    shift76 right76 [((fin 12, fin 6), (fin 9, fin 6), seen71 9 8 4); ((fin 14, fin 6), (fin 8, fin 6), seen71 8 8 7)] (Some (0, 20)) (Some (0, 20)) residues false 0 20 0 20
    Hc eq_refl eq_refl (rpc_locates_each _ _ ex_rpc_usable) (rpc_locates_each _ _ U)) as H.
  cbn [map fst snd] in H. rewrite H; [destruct residues; reflexivity|]. clear H.
  assert (C : forall x y z l r, 5 <= x <= 100 -> 1 <= y <= 80 -> 0 <= z <= 20 -> shift76 l = (fin (x + z), fin y) -> right76 r = (fin x, fin y) ->
      let w := seen71 x y z in
      m_left (sn_match w) = shift76 l /\ m_right (sn_match w) = right76 r /\
      newton_locates ex_rpc (m_left (sn_match w)) 20 (sn_ltop w) /\ newton_locates ex_rpc (m_left (sn_match w)) 0 (sn_lbot w) /\
      newton_locates rpc71 (m_right (sn_match w)) 20 (sn_rtop w) /\ newton_locates rpc71 (m_right (sn_match w)) 0 (sn_rbot w) /\ seen_by_both (fun _ _ l => l) w).
  { intros x y z l r Hx Hy Hz E5 E6 w. unfold w. destruct (seen71_ok x y z Hx Hy Hz) as (A1 & A2 & A3 & A4 & A5).
    rewrite E5, E6. split; [reflexivity|]. split; [reflexivity|]. auto. }
  assert (E : forall a b c d x y z : R, a + 1 = x + z -> b + 2 = y -> c = x -> d + 2 = y ->
    shift76 (fin a, fin b) = (fin (x + z), fin y) /\ right76 (fin c, fin d) = (fin x, fin y)).
  { intros a b c d x y z E1 E2 E3 E4. unfold shift76, right76. cbn. unfold fin. now rewrite E1, E2, E3, E4. }
  constructor; [|constructor; [|constructor]]; cbv beta iota.
  - apply C; try lra; apply (E 12 6 9 6 9 8 4); lra.
  - apply C; try lra; apply (E 14 6 8 6 8 8 7); lra.
Qed.
