(** The Newton loops (Python batch, C++ point) refine the specification [newton_run]. *)
From Coq Require Import Reals ZArith List Bool Arith Lra Lia Permutation.
From Verif Require Import Num NumLemmas ProjModel ProjSpec PropertiesProj RpcModel CppRpcModel RpcSpec RpcProofs RpcNewton RpcDeriv.
Import ListNotations.
Open Scope R_scope.

Lemma true_derivs_unique m lon lat alt a b c d a' b' c' d' :
  true_derivs m lon lat alt a b c d -> true_derivs m lon lat alt a' b' c' d' ->
  a = a' /\ b = b' /\ c = c' /\ d = d'.
Proof.
  intros (?&?&?&?) (?&?&?&?). repeat split; eapply uniqueness_limite; eauto.
Qed.

Lemma ngtb_eps x : ngtb (nabs (Some x)) (fin eps) = true <-> ~ (Rabs x <= 1 / 1000000).
Proof.
  simpl. unfold eps. rewrite Rltb_true. split; intros; lra.
Qed.

Definition res_pt (m : rpc) (row col alt lon lat : R) : pt :=
  PT (Some row) (Some col) (Some alt) (Some lon) (Some lat)
     (Some (col - col_of m lon lat alt)) (Some (row - row_of m lon lat alt)).

Lemma active_res m row col alt lon lat :
  active (res_pt m row col alt lon lat) = true <-> ~ reprojects m row col lon lat alt.
Proof.
  unfold active, res_pt, reprojects. cbn [p_dc p_dr].
  rewrite orb_true_iff, !ngtb_eps. split; [tauto|].
  intros H. destruct (Rle_dec (Rabs (col - col_of m lon lat alt)) (1 / 1000000)); tauto.
Qed.

Lemma newton_update_solves a b c d dc dr lon lat lon' lat' :
  a * d - b * c <> 0 ->
  a * (lon' - lon) + b * (lat' - lat) = dc ->
  c * (lon' - lon) + d * (lat' - lat) = dr ->
  newton_update (Some a, Some b, Some c, Some d) (Some dc) (Some dr) (Some lon) (Some lat)
  = (Some lon', Some lat').
Proof.
  intros Hd H1 H2. unfold newton_update. cbn [nsub nmul nadd nopp nlift1 nlift2].
  unfold ndiv. cbn. destruct (Req_EM_T (a * d - c * b) 0) as [E|E]; [exfalso; apply Hd; lra|].
  subst dc dr. unfold nadd, nlift2. f_equal; f_equal; field; exact E.
Qed.

Lemma advance_res m row col alt lon lat lon' lat' : usable_inverse m ->
  regular_at m lon lat alt -> newton_step m row col alt lon lat lon' lat' ->
  lonlat_ok lon' lat' -> regular_at m lon' lat' alt ->
  advance m (res_pt m row col alt lon lat) = res_pt m row col alt lon' lat'.
Proof.
  intros Hu Hreg Hs Hl' Hreg'. destruct (der_pt_finite m lon lat alt Hu Hreg) as (a & b & c & d & E & Ht).
  destruct Hs as (a' & b' & c' & d' & H1 & H2 & H3 & H4 & Hd & He1 & He2).
  destruct (true_derivs_unique m lon lat alt a b c d a' b' c' d' Ht) as (<- & <- & <- & <-);
    [repeat split; assumption|].
  assert (EM : moved m (res_pt m row col alt lon lat) = (Some lon', Some lat')).
  { unfold moved, res_pt; cbn [p_lon p_lat p_alt p_dc p_dr]. rewrite E.
    apply newton_update_solves; assumption. }
  unfold advance. rewrite EM. cbn [fst snd]. unfold res_pt; cbn [p_alt p_row p_col].
  rewrite inv_pt_finite by assumption. reflexivity.
Qed.

Lemma iter_fix {A} (f : A -> A) x n : f x = x -> Nat.iter n f x = x.
Proof. intros H. induction n as [|n IH]; [reflexivity|]. simpl. now rewrite IH. Qed.

Lemma iter_shift {A} (f : A -> A) n x : Nat.iter n f (f x) = f (Nat.iter n f x).
Proof. induction n as [|n IH]; [reflexivity|]. simpl. now rewrite IH. Qed.

Lemma iter_add {A} (f : A -> A) a b x : Nat.iter (a + b) f x = Nat.iter a f (Nat.iter b f x).
Proof. induction a as [|a IH]; [reflexivity|]. simpl. now rewrite IH. Qed.

Lemma step_inactive m p : active p = false -> step m p = p.
Proof. intros H. unfold step. now rewrite H. Qed.

Lemma run_start dom m row col alt n lon lat lonf latf :
  newton_run dom m row col alt n lon lat lonf latf -> dom lon lat /\ regular_at m lon lat alt.
Proof. intros H; destruct H; auto. Qed.

(** The per-point iteration follows the specification. *)
Lemma run_iter m row col alt n lon lat lonf latf : usable_inverse m ->
  newton_run lonlat_ok m row col alt n lon lat lonf latf ->
  Nat.iter n (step m) (res_pt m row col alt lon lat) = res_pt m row col alt lonf latf.
Proof.
  intros Hu H. induction H as [n lon lat Hd Hr Hp|lon lat Hd Hr Hp|n lon lat lon' lat' lonf latf Hd Hr Hp Hs Hrun IH].
  - apply iter_fix, step_inactive. destruct (active _) eqn:E; [|reflexivity].
    apply active_res in E. contradiction.
  - reflexivity.
  - simpl. rewrite <- iter_shift. rewrite <- IH. f_equal. unfold step.
    rewrite (proj2 (active_res m row col alt lon lat) Hp).
    apply run_start in Hrun. apply advance_res; tauto.
Qed.

(** ** The batch loop *)
Lemma batch_loop_iter m fuel L L' k : batch_loop m fuel L = (L', k) ->
  (k <= fuel)%nat /\ L' = map (Nat.iter k (step m)) L /\ ((k < fuel)%nat -> batch_cond L' = false).
Proof.
  revert L L' k. induction fuel as [|fuel IH]; intros L L' k H; cbn [batch_loop] in H.
  - assert (L' = L /\ k = 0%nat) as [-> ->] by (destruct (batch_cond L); injection H; auto).
    split; [lia|]. split; [symmetry; apply map_id|lia].
  - destruct (batch_cond L) eqn:E.
    + destruct (batch_loop m fuel (map (step m) L)) as [L1 k1] eqn:E1. injection H as <- <-.
      destruct (IH _ _ _ E1) as (H1 & -> & H3). split; [lia|]. split; [|intros; apply H3; lia].
      rewrite map_map. apply map_ext. intros p. simpl. apply iter_shift.
    + injection H as <- <-. split; [lia|]. split; [symmetry; apply map_id|auto].
Qed.

Definition no_nan_res (p : pt) : Prop := isnan (p_dc p) = false /\ isnan (p_dr p) = false.

Lemma existsb_false_map {A} (f : A -> num) L : (forall p, In p L -> isnan (f p) = false) ->
  existsb isnan (map f L) = false.
Proof.
  intros H. induction L as [|p L IH]; [reflexivity|]. simpl. rewrite H by now left. simpl.
  apply IH. intros; apply H. now right.
Qed.

Lemma batch_cond_false_inactive L p : (forall q, In q L -> no_nan_res q) ->
  batch_cond L = false -> In p L -> active p = false.
Proof.
  intros Hn Hc Hp. unfold batch_cond, max_abs_gt_eps in Hc.
  rewrite !existsb_false_map in Hc by (intros q Hq; apply (Hn q Hq)). simpl in Hc.
  apply orb_false_iff in Hc. destruct Hc as [H1 H2]. unfold active. apply orb_false_iff.
  split.
  - destruct (ngtb (nabs (p_dc p)) (fin eps)) eqn:E; [|reflexivity].
    rewrite <- H1. symmetry. apply existsb_exists. exists (p_dc p). split; [now apply in_map|assumption].
  - destruct (ngtb (nabs (p_dr p)) (fin eps)) eqn:E; [|reflexivity].
    rewrite <- H2. symmetry. apply existsb_exists. exists (p_dr p). split; [now apply in_map|assumption].
Qed.

(** Without NaN residue at the end, the batch runs each point as if it were alone. *)
Lemma batch_loop_points m fuel L L' k : batch_loop m fuel L = (L', k) ->
  (forall q, In q L' -> no_nan_res q) -> L' = map (Nat.iter fuel (step m)) L.
Proof.
  intros H Hn. destruct (batch_loop_iter _ _ _ _ _ H) as (Hk & HL & Hc).
  destruct (Nat.eq_dec k fuel) as [->|Hne]; [assumption|].
  specialize (Hc ltac:(lia)). rewrite HL. apply map_ext_in. intros p Hp.
  replace fuel with ((fuel - k) + k)%nat by lia. rewrite iter_add. symmetry.
  apply iter_fix, step_inactive. eapply batch_cond_false_inactive; eauto.
  rewrite HL. now apply in_map.
Qed.

(** ** The whole function, on pixels without NaN *)
Lemma mask_all_true {A} (f g : A -> R) (L : list A) :
  map2 (fun a b => negb (isnan a || isnan b)) (map (fun p => Some (f p)) L) (map (fun p => Some (g p)) L)
  = repeat true (length L).
Proof. induction L as [|x L IH]; [reflexivity|]. simpl. now rewrite IH. Qed.

Lemma gather_all {A} (l : list A) : gather (repeat true (length l)) l = l.
Proof. induction l as [|x l IH]; [reflexivity|]. simpl. now rewrite IH. Qed.

Lemma gather_all' {A} n (l : list A) : n = length l -> gather (repeat true n) l = l.
Proof. intros ->. apply gather_all. Qed.

Lemma scatter_all {A} (l vals : list A) : length vals = length l ->
  scatter (repeat true (length l)) l vals = vals.
Proof.
  revert vals. induction l as [|x l IH]; intros [|v vals] H; try discriminate; [reflexivity|].
  simpl in *. rewrite IH by lia. reflexivity.
Qed.

Lemma scatter_all' {A} n (l vals : list A) : n = length l -> length vals = length l ->
  scatter (repeat true n) l vals = vals.
Proof. intros ->. apply scatter_all. Qed.

Lemma any_all n : any (repeat true (S n)) = true.
Proof. reflexivity. Qed.

(** The initial points of a batch whose pixels and altitudes are finite. *)
Record inp := Inp { i_row : R; i_col : R; i_alt : num }.
Definition init_pt (m : rpc) (row_start col_start : num) (q : inp) : pt :=
  PT (Some (i_row q)) (Some (i_col q)) (i_alt q) (Some (offset_x m)) (Some (offset_y m))
     (nsub (Some (i_col q)) col_start) (nsub (Some (i_row q)) row_start).

Lemma repeat_map {A B} (l : list A) (b : B) : repeat b (length l) = map (fun _ => b) l.
Proof. induction l as [|x l IH]; [reflexivity|]. simpl. now rewrite IH. Qed.

Lemma inverse_loc_centre m a l : inverse_coefficient m = true ->
  inverse_loc m [fin (offset_x m)] [fin (offset_y m)] (a :: l)
  = let q := inv_pt m (R3 (fin (offset_x m)) (fin (offset_y m)) a) in
    Some ([lon3 q], [lat3 q], [alt3 q]).
Proof.
  intros Hi. transitivity (inverse_loc m [fin (offset_x m)] [fin (offset_y m)] [a]).
  { unfold inverse_loc. rewrite Hi. unfold broadcast_alt. simpl length. simpl Nat.eqb.
    destruct l; reflexivity. }
  apply (inverse_loc_map m [R3 (fin (offset_x m)) (fin (offset_y m)) a] Hi).
Qed.

Lemma iterative_batch m q Q n fill : inverse_coefficient m = true ->
  let L0 := q :: Q in
  let c := inv_pt m (R3 (fin (offset_x m)) (fin (offset_y m)) (i_alt q)) in
  let r := batch_loop m n (map (init_pt m (lon3 c) (lat3 c)) L0) in
  direct_loc_inverse_iterative m (map (fun p => Some (i_row p)) L0) (map (fun p => Some (i_col p)) L0)
    (map i_alt L0) n fill
  = Some (map p_lon (fst r), map p_lat (fst r), map i_alt L0, snd r).
Proof.
  intros Hi L0 c r. unfold direct_loc_inverse_iterative.
  rewrite Hi, !map_length, Nat.eqb_refl. cbn [andb].
  rewrite broadcast_same by now rewrite map_length.
  unfold filter_coordinates. rewrite mask_all_true. change (length L0) with (S (length Q)) at 1.
  rewrite any_all. cbn [negb].
  rewrite !gather_all' by now rewrite map_length.
  change (map i_alt L0) with (i_alt q :: map i_alt Q) at 1.
  rewrite inverse_loc_centre by assumption. cbv zeta. fold c.
  rewrite ?map_length, ?map_map, ?repeat_map.
  pose proof (newton_loop_batch m n (map (init_pt m (lon3 c) (lat3 c)) L0) Hi) as HB.
  unfold state_of at 1 in HB. rewrite !map_map in HB. fold r in HB.
  match type of HB with ?l = _ => match goal with |- context [newton_loop ?a ?b ?c ?d ?e ?f] =>
    change (newton_loop a b c d e f) with l end end.
  rewrite HB. unfold state_of; cbn [ns_lon ns_lat].
  assert (HL : length (fst r) = length L0).
  { unfold r. destruct (batch_loop m n _) as [L' k] eqn:E. apply batch_loop_iter in E.
    destruct E as (_ & -> & _). simpl. now rewrite !map_length. }
  rewrite <- !repeat_map. rewrite !scatter_all'; rewrite ?repeat_length, ?map_length; auto.
Qed.

Lemma run_prefix m row col alt n lon lat lonf latf k : usable_inverse m ->
  newton_run lonlat_ok m row col alt n lon lat lonf latf -> (k <= n)%nat ->
  exists lo la, Nat.iter k (step m) (res_pt m row col alt lon lat) = res_pt m row col alt lo la.
Proof.
  intros Hu H. revert k.
  induction H as [n lon lat Hd Hr Hp|lon lat Hd Hr Hp|n lon lat lon' lat' lonf latf Hd Hr Hp Hs Hrun IH];
    intros k Hk.
  - exists lon, lat. apply iter_fix, step_inactive. destruct (active _) eqn:E; [|reflexivity].
    apply active_res in E. contradiction.
  - assert (k = 0%nat) by lia. subst. now exists lon, lat.
  - destruct k as [|k]; [now exists lon, lat|].
    destruct (IH k ltac:(lia)) as (lo & la & E). exists lo, la. simpl. rewrite <- iter_shift.
    rewrite <- E. f_equal. unfold step. rewrite (proj2 (active_res m row col alt lon lat) Hp).
    apply run_start in Hrun. apply advance_res; tauto.
Qed.

Definition loc_inp (alt : R) (p : located) : inp := Inp (l_row p) (l_col p) (Some alt).

Lemma init_res m alt p : usable_inverse m ->
  lonlat_ok (offset_x m) (offset_y m) -> regular_at m (offset_x m) (offset_y m) alt ->
  let c := inv_pt m (R3 (fin (offset_x m)) (fin (offset_y m)) (Some alt)) in
  init_pt m (lon3 c) (lat3 c) (loc_inp alt p)
  = res_pt m (l_row p) (l_col p) alt (offset_x m) (offset_y m).
Proof.
  intros Hu Hl Hr c. unfold c, fin. rewrite inv_pt_finite by assumption. reflexivity.
Qed.

Lemma iterative_run m alt n fill (L : list located) : usable_inverse m ->
  Forall (fun p => newton_run lonlat_ok m (l_row p) (l_col p) alt n (offset_x m) (offset_y m)
                     (l_lon p) (l_lat p)) L ->
  exists k, (k <= n)%nat /\
  direct_loc_inverse_iterative m (map (fun p => Some (l_row p)) L) (map (fun p => Some (l_col p)) L)
    (map (fun _ => Some alt) L) n fill
  = Some (map (fun p => Some (l_lon p)) L, map (fun p => Some (l_lat p)) L,
          map (fun _ => Some alt) L, k).
Proof.
  intros Hu HF. destruct L as [|q Q].
  - exists 0%nat. split; [lia|]. unfold direct_loc_inverse_iterative.
    rewrite (proj1 Hu). reflexivity.
  - set (L := q :: Q) in *.
    assert (Hq := Forall_inv HF). apply run_start in Hq. destruct Hq as [Hc Hr].
    pose proof (iterative_batch m (loc_inp alt q) (map (loc_inp alt) Q) n fill (proj1 Hu)) as HB.
    cbv zeta in HB. change (loc_inp alt q :: map (loc_inp alt) Q) with (map (loc_inp alt) L) in HB.
    change (i_alt (loc_inp alt q)) with (Some alt) in HB.
    rewrite !map_map in HB. cbn [i_row i_col i_alt loc_inp] in HB.
    set (P := map (fun x => init_pt m _ _ (loc_inp alt x)) L) in HB.
    destruct (batch_loop m n P) as [L' k] eqn:EB. cbn [fst snd] in HB.
    assert (EP : P = map (fun p => res_pt m (l_row p) (l_col p) alt (offset_x m) (offset_y m)) L).
    { apply map_ext. intros p. now apply init_res. }
    pose proof (batch_loop_iter _ _ _ _ _ EB) as (Hk & EL & _).
    assert (HN : forall p, In p L' -> no_nan_res p).
    { intros p Hp. rewrite EL, EP, map_map in Hp. apply in_map_iff in Hp.
      destruct Hp as (x & <- & Hx). rewrite Forall_forall in HF.
      destruct (run_prefix _ _ _ _ _ _ _ _ _ k Hu (HF x Hx) Hk) as (lo & la & ->).
      split; reflexivity. }
    pose proof (batch_loop_points _ _ _ _ _ EB HN) as EL'.
    exists k. split; [exact Hk|]. etransitivity; [exact HB|]. f_equal. f_equal. f_equal. f_equal.
    + rewrite EL', EP, !map_map. apply map_ext_in. intros p Hp. rewrite Forall_forall in HF.
      now rewrite (run_iter _ _ _ _ _ _ _ _ _ Hu (HF p Hp)).
    + rewrite EL', EP, !map_map. apply map_ext_in. intros p Hp. rewrite Forall_forall in HF.
      now rewrite (run_iter _ _ _ _ _ _ _ _ _ Hu (HF p Hp)).
Qed.

Lemma broadcast_scalar n a : broadcast_alt n [a] = Some (repeat a n).
Proof.
  unfold broadcast_alt. destruct n as [|[|n]]; reflexivity.
Qed.

Lemma iterative_scalar_alt m row col a n fill :
  direct_loc_inverse_iterative m row col [a] n fill
  = direct_loc_inverse_iterative m row col (repeat a (length col)) n fill.
Proof.
  unfold direct_loc_inverse_iterative. rewrite broadcast_scalar.
  now rewrite (broadcast_same _ (repeat a (length col))) by apply repeat_length.
Qed.

(** ** C++ *)
Lemma cpp_loop_run m row col alt n lon lat lonf latf : usable_inverse m ->
  newton_run (fun _ _ => True) m row col alt n lon lat lonf latf ->
  exists dc dr k,
  cpp_newton_loop m (Some row) (Some col) (Some alt) n (Some lon) (Some lat)
    (Some (col - col_of m lon lat alt)) (Some (row - row_of m lon lat alt))
  = (Some lonf, Some latf, dc, dr, k) /\ (k <= n)%nat.
Proof.
  intros Hu H. induction H as [n lon lat Hd Hr Hp|lon lat Hd Hr Hp|n lon lat lon' lat' lonf latf Hd Hr Hp Hs Hrun IH].
  - do 3 eexists. split; [|apply Nat.le_0_l].
    assert (E : active (res_pt m row col alt lon lat) = false).
    { destruct (active _) eqn:E; [|reflexivity]. apply active_res in E. contradiction. }
    unfold active in E. cbn [p_dc p_dr res_pt] in E. destruct n; cbn [cpp_newton_loop]; rewrite E; reflexivity.
  - do 3 eexists. split; [|apply Nat.le_0_l]. cbn [cpp_newton_loop].
    destruct (_ || _); reflexivity.
  - destruct IH as (dc & dr & k & E & Hk). pose proof (run_start _ _ _ _ _ _ _ _ _ _ Hrun) as [_ Hr'].
    exists dc, dr, (S k). split; [|lia]. cbn [cpp_newton_loop].
    apply active_res in Hp. unfold active in Hp. cbn [p_dc p_dr res_pt] in Hp. rewrite Hp.
    rewrite cpp_der_eq. destruct (der_pt_finite m lon lat alt Hu Hr) as (a & b & c & d & Ed & Ht).
    destruct Hs as (a' & b' & c' & d' & H1 & H2 & H3 & H4 & Hdet & He1 & He2).
    destruct (true_derivs_unique m lon lat alt a b c d a' b' c' d' Ht) as (<- & <- & <- & <-);
      [repeat split; assumption|].
    rewrite Ed, (newton_update_solves a b c d _ _ lon lat lon' lat') by assumption.
    rewrite cpp_inverse_loc_finite by assumption.
    change (nsub (Some col) (Some (col_of m lon' lat' alt))) with (Some (col - col_of m lon' lat' alt)).
    change (nsub (Some row) (Some (row_of m lon' lat' alt))) with (Some (row - row_of m lon' lat' alt)).
    rewrite E. reflexivity.
Qed.

Lemma cpp_iterative_run m row col alt n fill lonf latf : usable_inverse m ->
  newton_run (fun _ _ => True) m row col alt n (offset_x m) (offset_y m) lonf latf ->
  cpp_direct_loc_inverse_iterative m (Some row) (Some col) (Some alt) n fill
  = (Some lonf, Some latf, Some alt).
Proof.
  intros Hu H. pose proof (run_start _ _ _ _ _ _ _ _ _ _ H) as [_ Hr].
  unfold cpp_direct_loc_inverse_iterative. cbn [isnan orb].
  unfold fin. rewrite cpp_inverse_loc_finite by assumption.
  change (nsub (Some col) (Some ?x)) with (Some (col - x)).
  destruct (cpp_loop_run _ _ _ _ _ _ _ _ _ Hu H) as (dc & dr & k & E & _).
  unfold nsub, nlift2. rewrite E. reflexivity.
Qed.

Lemma run_weaken (d1 d2 : R -> R -> Prop) m row col alt n lon lat lonf latf :
  (forall a b, d1 a b -> d2 a b) ->
  newton_run d1 m row col alt n lon lat lonf latf -> newton_run d2 m row col alt n lon lat lonf latf.
Proof.
  intros Hd H. induction H; [apply run_done|apply run_out|eapply run_step]; eauto.
Qed.

Lemma run_deterministic dom m row col alt n lon lat lonf latf lonf' latf' :
  newton_run dom m row col alt n lon lat lonf latf ->
  newton_run dom m row col alt n lon lat lonf' latf' -> lonf = lonf' /\ latf = latf'.
Proof.
  intros H. revert lonf' latf'.
  induction H as [n lon lat Hd Hr Hp|lon lat Hd Hr Hp|n lon lat lon' lat' lonf latf Hd Hr Hp Hs Hrun IH];
    intros lf lt H2; inversion H2; subst; try contradiction; auto.
  apply IH.
  match goal with H : newton_step _ _ _ _ _ _ ?a ?b, H' : newton_run _ _ _ _ _ _ ?a ?b _ _ |- _ =>
    assert (a = lon' /\ b = lat') as [? ?]; [|subst; exact H'] end.
  destruct Hs as (a & b & c & d & D1 & D2 & D3 & D4 & Hdet & He1 & He2).
  match goal with H : newton_step _ _ _ _ _ _ _ _ |- _ =>
    destruct H as (a' & b' & c' & d' & D1' & D2' & D3' & D4' & Hdet' & He1' & He2') end.
  assert (a' = a) by (eapply uniqueness_limite; eauto).
  assert (b' = b) by (eapply uniqueness_limite; eauto).
  assert (c' = c) by (eapply uniqueness_limite; eauto).
  assert (d' = d) by (eapply uniqueness_limite; eauto). subst a' b' c' d'.
  match goal with |- ?x = _ /\ ?y = _ =>
    assert (E1 : a * (x - lon') + b * (y - lat') = 0) by lra;
    assert (E2 : c * (x - lon') + d * (y - lat') = 0) by lra;
    assert (F1 : (a * d - b * c) * (x - lon') = 0) by
      (replace ((a * d - b * c) * (x - lon')) with (d * (a * (x - lon') + b * (y - lat')) - b * (c * (x - lon') + d * (y - lat'))) by ring; rewrite E1, E2; ring);
    assert (F2 : (a * d - b * c) * (y - lat') = 0) by
      (replace ((a * d - b * c) * (y - lat')) with (a * (c * (x - lon') + d * (y - lat')) - c * (a * (x - lon') + b * (y - lat'))) by ring; rewrite E1, E2; ring)
  end.
  apply Rmult_integral in F1. apply Rmult_integral in F2. split; [destruct F1|destruct F2]; lra.
Qed.
