(** Strips with an adaptive step, point by point. *)
From Coq Require Import Reals ZArith List Bool Lra Lia.
From Verif Require Import Num NumLemmas ProjModel RpcModel RpcDtmModel LocModel TriModel TriBatch RectModel RectSpec RectProofs RectStrip RectGrid.
Import ListNotations.
Open Scope R_scope.

(** The ratio of a step between two altitudes. *)
Definition slope_ratio (ref a b : R) : R := sqrt (Rabs (a - b) * Rabs (a - b) + ref * ref) / ref.
Definition effective_ratio (ref mr sc a b : R) : R :=
  let r := if Rltb mr (slope_ratio ref a b) then mr else slope_ratio ref a b in r + (r - 1) * sc.

Lemma step_ratio_fin : forall ref mr sc a b, ref <> 0 ->
  step_ratio (fin ref) mr sc (fin a) (fin b) = fin (effective_ratio ref mr sc a b).
Proof.
  intros ref mr sc a b H. unfold step_ratio, effective_ratio, slope_ratio, nabs, nsub, nmul, nadd, nlift1, nlift2, ndiv, fin.
  destruct (Req_EM_T ref 0); [congruence|]. cbn [ngtb].
  destruct (Rltb _ _); reflexivity.
Qed.

Lemma slope_ratio_ge1 : forall ref a b, 0 < ref -> 1 <= slope_ratio ref a b.
Proof.
  intros ref a b H. unfold slope_ratio.
  assert (ref <= sqrt (Rabs (a - b) * Rabs (a - b) + ref * ref)).
  { rewrite <- (sqrt_square ref) at 1 by lra. apply sqrt_le_1_alt. pose proof (Rle_0_sqr (Rabs (a - b))). unfold Rsqr in *. lra. }
  apply Rmult_le_reg_r with ref; auto. unfold Rdiv. rewrite Rmult_assoc, Rinv_l by lra. lra.
Qed.

Lemma effective_bounds : forall ref mr sc a b K, 0 < ref -> 1 <= mr -> 0 <= sc ->
  slope_ratio ref a b <= K ->
  1 <= effective_ratio ref mr sc a b <= 1 + (K - 1) * (1 + sc).
Proof.
  intros ref mr sc a b K H1 H2 H3 H4. unfold effective_ratio. pose proof (slope_ratio_ge1 ref a b H1).
  destruct (Rltb_spec mr (slope_ratio ref a b)); nra.
Qed.

Section Adapt.
  Context {D : Type} (dtm_epsg : D -> Z) (conv : Z -> Z -> list row3 -> list row3)
    (ml mr : geomodel D) (pl pr : pmodel D) (s : surface D) (off : R) (ref mxr sc : R).
  Hypothesis (Hl : behaves ml pl) (Hr : behaves mr pr) (Ho : off <> 0) (Href : 0 < ref) (Hm : 1 <= mxr) (Hsc : 0 <= sc).

  (** A node being moved: left and right positions, angle, sum of the inverse ratios. *)
  Record anode := ANode { an_p : vec3; an_q : vec3; an_a : R; an_s : R }.
  Definition awalk (l : list anode) : walk :=
    Walk (map (fun x => node (an_p x)) l) (map (fun x => node (an_q x)) l) (map (fun x => fin (an_a x)) l)
         (map (fun x => node (ground pl s (an_p x))) l) (map (fun x => fin (an_s x)) l).

  Definition part (t c : vec3) (r : R) : vec3 := V3 ((v0 t - v0 c) / r + v0 c) ((v1 t - v1 c) / r + v1 c) ((v2 t - v2 c) / r + v2 c).
  Definition aratio (axis : Z) (d : R) (x : anode) : R :=
    effective_ratio ref mxr sc (v2 (ground pl s (moved axis d (an_p x) (an_a x)))) (v2 (ground pl s (an_p x))).
  Definition astep (axis : Z) (d : R) (x : anode) : anode :=
    let t := moved axis d (an_p x) (an_a x) in
    let r := aratio axis d x in
    let p := part t (an_p x) r in
    ANode p (part (matched pl pr s t) (an_q x) r) (angle_at pl pr s off p) (an_s x + 1 / r).

  Lemma aratio_ge1 : forall axis d x, 1 <= aratio axis d x.
  Proof.
    intros. unfold aratio. destruct (effective_bounds ref mxr sc (v2 (ground pl s (moved axis d (an_p x) (an_a x)))) (v2 (ground pl s (an_p x))) _ Href Hm Hsc (Rle_refl _)). auto.
  Qed.

  Lemma rescale_all_map : forall {A} (f g : A -> row3) (h : A -> num) l,
    rescale_all (map f l) (map g l) (map h l) = map (fun x => rescale (f x) (g x) (h x)) l.
  Proof. induction l; cbn; congruence. Qed.
  Lemma rescale_node : forall t c r, r <> 0 -> rescale (node t) (node c) (fin r) = node (part t c r).
  Proof.
    intros t c r H. unfold rescale, rescale_num, node, part; cbn [lon3 lat3 alt3 v0 v1 v2]. unfold ndiv, nsub, nadd, nlift2, fin.
    destruct (Req_EM_T r 0); [congruence|reflexivity].
  Qed.

  Lemma astep_ok : forall l sp axis step, axis_ok axis = true ->
    exists rs, strip_step dtm_epsg conv ml mr sp axis step (elev_of s) off (Some (fin ref, mxr, sc)) (awalk l)
               = Some (awalk (map (astep axis (step * sp)) l), rs).
  Proof.
    intros l sp axis step Ha. unfold strip_step, awalk at 1 2. cbn [w_left w_angles].
    set (d := step * sp).
    pose proof (moving2 dtm_epsg conv ml mr pl pr s off Hl Hr (map (fun x => (an_p x, an_a x)) l) sp step axis Ha) as M.
    rewrite !map_map in M. unfold as_left, as_angle, as_right, step1 in M. cbn [fst snd] in M. fold d in M. rewrite M. clear M.
    cbv beta iota zeta. cbn [awalk w_left w_right w_ground w_sum].
    rewrite !map_map, map2_map_same2. cbn [node alt3].
    assert (E : map (fun x => step_ratio (fin ref) mxr sc (Some (v2 (ground pl s (moved axis d (an_p x) (an_a x))))) (Some (v2 (ground pl s (an_p x))))) l
                = map (fun x => fin (aratio axis d x)) l).
    { apply map_ext; intro x. apply step_ratio_fin. lra. }
    rewrite E. clear E. rewrite !rescale_all_map, map2_map_same2.
    assert (R1 : map (fun x => rescale (node (moved axis d (an_p x) (an_a x))) (node (an_p x)) (fin (aratio axis d x))) l
                 = map node (map an_p (map (astep axis d) l))).
    { rewrite !map_map. apply map_ext; intro x. pose proof (aratio_ge1 axis d x). rewrite rescale_node by lra. reflexivity. }
    assert (R2 : map (fun x => rescale (node (matched pl pr s (moved axis d (an_p x) (an_a x)))) (node (an_q x)) (fin (aratio axis d x))) l
                 = map (fun x => node (an_q x)) (map (astep axis d) l)).
    { rewrite !map_map. apply map_ext; intro x. pose proof (aratio_ge1 axis d x). rewrite rescale_node by lra. reflexivity. }
    assert (R3 : map (fun x => nadd (fin (an_s x)) (ndiv (fin 1) (fin (aratio axis d x)))) l
                 = map (fun x => fin (an_s x)) (map (astep axis d) l)).
    { rewrite !map_map. apply map_ext; intro x. pose proof (aratio_ge1 axis d x). unfold ndiv, nadd, nlift2, fin.
      destruct (Req_EM_T (aratio axis d x) 0); [lra|reflexivity]. }
    rewrite R1, R2, R3.
    rewrite (local_line _ _ _ _ pl pr) by auto. rewrite angles_of_lines.
    eexists. f_equal. f_equal. unfold awalk. f_equal; rewrite !map_map; reflexivity.
  Qed.

  (** The slope never gets the effective ratio over [M]. *)
  Definition buffer_ratio : R := (mxr - 1) * sc + 1.
  Definition gentle (axis : Z) (d : R) : Prop :=
    forall p alpha, slope_ratio ref (v2 (ground pl s (moved axis d p alpha))) (v2 (ground pl s p)) <= 1 + (mxr - 1) * sc / (1 + sc).

  Lemma aratio_le : forall axis d, gentle axis d -> forall x, aratio axis d x <= buffer_ratio.
  Proof.
    intros axis d Hg x. unfold aratio.
    destruct (effective_bounds ref mxr sc _ _ _ Href Hm Hsc (Hg (an_p x) (an_a x))) as [_ U].
    eapply Rle_trans; [exact U|]. unfold buffer_ratio. apply Req_le. field. lra.
  Qed.

  Lemma buffer_ge1 : 1 <= buffer_ratio.
  Proof. unfold buffer_ratio. nra. Qed.

  Lemma loop_fits : forall slots k (target : R) l sp axis step, axis_ok axis = true -> gentle axis (step * sp) ->
    Forall (fun x => 1 + INR k / buffer_ratio <= an_s x) l ->
    target <= 1 + INR (k + slots) / buffer_ratio ->
    exists ls rs, strip_loop dtm_epsg conv ml mr slots target sp axis step (elev_of s) off (Some (fin ref, mxr, sc)) (awalk l) = Some (map awalk ls, rs)
                  /\ (length ls <= slots)%nat /\ (existsb (fun x => Rltb (an_s x) target) l = true -> ls <> []).
  Proof.
    pose proof buffer_ge1 as HM.
    assert (Ex : forall t l, existsb (fun x => nltb x (fin t)) (w_sum (awalk l)) = existsb (fun x => Rltb (an_s x) t) l).
    { intros t l. unfold awalk; cbn [w_sum]. induction l as [|x l IHl]; [reflexivity|]. cbn [map existsb]. rewrite nltb_fin, IHl. reflexivity. }
    induction slots as [|slots IH]; intros k target l sp axis step Ha Hg Hf Ht; cbn [strip_loop]; rewrite Ex.
    - assert (E : existsb (fun x => Rltb (an_s x) target) l = false).
      { rewrite Nat.add_0_r in Ht. clear - Hf Ht. induction l as [|x l IHl]; [reflexivity|].
        inversion Hf; subst. cbn [existsb]. destruct (Rltb_spec (an_s x) target); [lra|]. apply IHl; auto. }
      rewrite E. exists [], []. split; [reflexivity|]. split; [auto|discriminate].
    - destruct (existsb _ _) eqn:Eb.
      + destruct (astep_ok l sp axis step Ha) as [rs E]. rewrite E.
        destruct (IH (S k) target (map (astep axis (step * sp)) l) sp axis step Ha Hg) as (ls & rs' & E2 & L & _).
        * apply Forall_forall. intros y Hy. apply in_map_iff in Hy. destruct Hy as (x & <- & Hx).
          rewrite Forall_forall in Hf. specialize (Hf x Hx). cbn [astep an_s].
          pose proof (aratio_le axis (step * sp) Hg x). pose proof (aratio_ge1 axis (step * sp) x).
          rewrite S_INR.
          assert (/ buffer_ratio <= / aratio axis (step * sp) x) by (apply Rinv_le_contravar; lra).
          unfold Rdiv in *. lra.
        * replace (S k + slots)%nat with (k + S slots)%nat by lia. exact Ht.
        * rewrite E2. exists (map (astep axis (step * sp)) l :: ls), (rs ++ rs'). split; [reflexivity|]. split; [cbn; lia|discriminate].
      + exists [], []. split; [reflexivity|]. split; [cbn; lia|discriminate].
  Qed.

  Definition rows_of (f : anode -> row3) (ls : list (list anode)) : list (list row3) := map (map f) ls.
  Definition known_angles (known : option (list R)) (ps : list vec3) : list R :=
    match known with None => map (angle_at pl pr s off) ps | Some a => a end.

  Lemma ground_known : forall ps,
    direct dtm_epsg conv (make_localization ml (elev_of s) None None) (map (fun p => (p_row p, p_col p)) (map node ps)) None false
    = Some (map (fun p => node (ground pl s p)) ps).
  Proof.
    intros ps. pose proof (coloc_surface dtm_epsg conv ml mr pl pr s ps Hl Hr) as E. unfold coloc_rows, coloc in E.
    rewrite !map_length, Nat.eqb_refl in E.
    replace (combine (map p_row (map node ps)) (map p_col (map node ps))) with (map (fun p => (p_row p, p_col p)) (map node ps)) in E
      by (symmetry; apply combine_map_same).
    destruct (direct _ _ _ _ _ _) as [g|]; [|discriminate].
    destruct (inverse _ _ _ _ _) as [[rc h]|]; [|discriminate]. injection E as _ E. rewrite E. reflexivity.
  Qed.

  Lemma strip_fits : forall known (n : nat) ps qs sp axis step, axis_ok axis = true -> gentle axis (step * sp) -> ps <> [] ->
    length qs = length ps -> known_ok known ps n ->
    exists st lefts rights angles,
      compute_strip_of_epipolar_grid dtm_epsg conv ml mr (map node ps) (map node qs) sp axis n step (elev_of s) off
        (option_map (map fin) known) (Some (fin ref, mxr, sc)) = Some st
      /\ (length (st_left st) <= Z.to_nat (Rceil (INR n * ((mxr - 1) * sc + 1))))%nat
      /\ st_left st = map (map node) lefts /\ st_right st = map (map node) rights /\ st_angles st = map (map fin) angles
      /\ nth_error lefts 0 = Some ps
      /\ length (concat rights) = length (concat lefts) /\ length (concat angles) = length (concat lefts).
  Proof.
    intros known n ps qs sp axis step Ha Hg Hps Hq Hk. pose proof buffer_ge1 as HM.
    assert (Hn : (1 <= n)%nat) by (destruct known; cbn in Hk; lia).
    assert (Hla : length (known_angles known ps) = length ps).
    { destruct known; cbn in *; [lia|apply map_length]. }
    set (l := map (fun pqa => ANode (fst (fst pqa)) (snd (fst pqa)) (snd pqa) 1) (combine (combine ps qs) (known_angles known ps))).
    assert (Hcl : length (combine ps qs) = length ps) by (rewrite combine_length; lia).
    assert (F1 : map fst (map fst (combine (combine ps qs) (known_angles known ps))) = ps).
    { rewrite combine_fst by lia. apply combine_fst; auto. }
    assert (F2 : map snd (map fst (combine (combine ps qs) (known_angles known ps))) = qs).
    { rewrite combine_fst by lia. apply combine_snd; auto. }
    assert (F3 : map snd (combine (combine ps qs) (known_angles known ps)) = known_angles known ps) by (apply combine_snd; lia).
    assert (P1 : map an_p l = ps) by (unfold l; rewrite map_map; cbn [an_p]; rewrite <- (map_map fst fst); exact F1).
    assert (P2 : map an_q l = qs) by (unfold l; rewrite map_map; cbn [an_q]; rewrite <- (map_map fst snd); exact F2).
    assert (P3 : map an_a l = known_angles known ps) by (unfold l; rewrite map_map; exact F3).
    assert (Hw : Walk (map node ps) (map node qs) (map fin (known_angles known ps)) (map (fun p => node (ground pl s p)) ps)
                   (map (fun _ => fin 1) (map node ps)) = awalk l).
    { unfold awalk. rewrite <- P3, <- P2, <- P1. rewrite !map_map. f_equal. unfold l. rewrite !map_map. reflexivity. }
    assert (Hl0 : l <> []).
    { intro E. rewrite E in P1. symmetry in P1. cbn in P1. auto. }
    pose proof (Rceil_bounds (INR n * buffer_ratio)) as [_ RB].
    assert (Hn1 : 1 <= INR n) by (apply (le_INR 1); auto).
    assert (C1 : (1 <= Rceil (INR n * buffer_ratio))%Z).
    { apply le_IZR. cbn. nra. }
    assert (Es : exists slots, Z.to_nat (Rceil (INR n * buffer_ratio)) = S slots).
    { destruct (Z.to_nat (Rceil (INR n * buffer_ratio))) as [|slots] eqn:Es; [lia|eauto]. }
    destruct Es as [slots Es].
    assert (Hs : INR (S slots) = IZR (Rceil (INR n * buffer_ratio))).
    { rewrite <- Es, INR_IZR_INZ, Z2Nat.id by lia. reflexivity. }
    destruct (loop_fits slots 0 (INR n) l sp axis step Ha Hg) as (ls & rs & E & L & NE).
    { apply Forall_forall. intros x Hx. unfold l in Hx. apply in_map_iff in Hx. destruct Hx as (y & <- & _). cbn. unfold Rdiv. lra. }
    { cbn [plus]. rewrite S_INR in Hs.
      assert (Q : (INR n - 1) * buffer_ratio <= INR slots) by nra.
      assert (INR n - 1 <= INR slots / buffer_ratio).
      { apply Rmult_le_reg_r with buffer_ratio; [lra|]. unfold Rdiv. rewrite Rmult_assoc, Rinv_l by lra. lra. }
      lra. }
    assert (NE' : (2 <= n)%nat -> ls <> []).
    { intro Hn2. apply NE. destruct l as [|x l0] eqn:El; [congruence|]. cbn [existsb].
      assert (Hx : an_s x = 1).
      { assert (Hin : In x l) by (rewrite El; left; reflexivity). unfold l in Hin. apply in_map_iff in Hin. destruct Hin as (y & <- & _). reflexivity. }
      rewrite Hx. assert (2 <= INR n) by (apply (le_INR 2); auto). destruct (Rltb_spec 1 (INR n)); [reflexivity|lra]. }
    exists (Strip (map node ps :: map w_left (map awalk ls)) (map node qs :: map w_right (map awalk ls))
              (map fin (known_angles known ps) :: map w_angles (map awalk ls))
              (ndiv (let all := (match known with None => map2 (baseline_ratio off) (map (fun p => node (epipolar_end pl pr s off p)) ps) (map (fun p => node (epipolar_end pl pr s (- off) p)) ps) | Some _ => [] end) ++ rs in
                     if Nat.eqb (count_nan all) (S slots * length (map node ps)) then nan else fin (nansum all))
                 (let all := (match known with None => map2 (baseline_ratio off) (map (fun p => node (epipolar_end pl pr s off p)) ps) (map (fun p => node (epipolar_end pl pr s (- off) p)) ps) | Some _ => [] end) ++ rs in
                  fin (INR (S (length (map awalk ls)) * length (map node ps)) - INR (count_nan all) - INR (match known with None => 0%nat | Some a => length (map fin a) end))))
              (let all := (match known with None => map2 (baseline_ratio off) (map (fun p => node (epipolar_end pl pr s off p)) ps) (map (fun p => node (epipolar_end pl pr s (- off) p)) ps) | Some _ => [] end) ++ rs in count_nan all)).
    exists (ps :: map (map an_p) ls), (qs :: map (map an_q) ls), (known_angles known ps :: map (map an_a) ls).
    split.
    { unfold compute_strip_of_epipolar_grid. fold buffer_ratio. cbv zeta.
      destruct known as [a|]; cbn [option_map].
      - rewrite ground_known. rewrite Es. cbn [known_angles] in *. rewrite Hw, E.
        destruct (map awalk ls) eqn:Em; [|reflexivity].
        exfalso. apply (NE' (proj1 Hk)). destruct ls; [reflexivity|discriminate].
      - rewrite (local_line _ _ _ _ pl pr) by auto. rewrite angles_of_lines, Es.
        cbn [known_angles] in *. rewrite <- (map_map (angle_at pl pr s off) fin ps). rewrite Hw, E. reflexivity. }
    cbn [st_left st_right st_angles]. split.
    { cbn [length]. rewrite !map_length. fold buffer_ratio. lia. }
    split; [|split; [|split; [|split; [reflexivity|split]]]].
    1-3: cbn [map]; f_equal; rewrite !map_map; apply map_ext; intro l'; unfold awalk; cbn [w_left w_right w_angles]; rewrite map_map; reflexivity.
    1-2: cbn [concat]; rewrite !app_length; f_equal; [lia|]; clear; induction ls as [|l' ls IH]; [reflexivity|]; cbn [map concat]; rewrite !app_length, !map_length; lia.
  Qed.
End Adapt.

(** The whole grids. *)
Section AdaptGrid.
  Context {D : Type} (dtm_epsg : D -> Z) (conv : Z -> Z -> list row3 -> list row3)
    (ml mr : geomodel D) (pl pr : pmodel D) (s : surface D) (off : R) (mxr sc : R).
  Hypothesis (Hl : behaves ml pl) (Hr : behaves mr pr) (Hm : 1 <= mxr) (Hsc : 0 <= sc).

  Lemma concat_map_map : forall {A B} (f : A -> B) ls, concat (map (map f) ls) = map f (concat ls).
  Proof. induction ls as [|l ls IH]; [reflexivity|]. cbn [map concat]. rewrite map_app, IH. reflexivity. Qed.

  Lemma stereo_fits : forall im step margin p d0 d1,
    let P := prepare_at im step margin (start_angle pl pr s off im) (fin (start_alt pl pr s off im)) in
    let g0 := Z.to_nat (fst (pr_grid_size P)) in
    let g1 := Z.to_nat (snd (pr_grid_size P)) in
    pr_start P = node p -> (1 <= g0)%nat -> (2 <= g1)%nat ->
    compute_epipolar_gsd dtm_epsg conv ml mr (node p) (mean_spacing im) (elev_of s) step off = Some (fin d0, fin d1) ->
    0 < d0 -> 0 < d1 ->
    gentle pl s d0 mxr sc 0 (step * mean_spacing im) -> gentle pl s d1 mxr sc 1 (step * mean_spacing im) ->
    compute_stereorectification_epipolar_grids dtm_epsg conv ml mr im (elev_of s) step off margin (Some (sc, mxr)) <> None.
  Proof.
    intros im step margin p d0 d1 P g0 g1 HP Hg0 Hg1 Hgsd Hd0 Hd1 G0 G1.
    unfold compute_stereorectification_epipolar_grids. rewrite (prepare_plain _ _ _ _ pl pr) by auto.
    cbv zeta. fold P. rewrite HP.
    change [node p] with (map node [p]). rewrite (coloc_surface _ _ _ _ pl pr) by auto. cbn [map].
    rewrite Hgsd. fold g0 g1.
    destruct (strip_fits dtm_epsg conv ml mr pl pr s off d0 mxr sc Hl Hr Hd0 Hm Hsc None g0 [p] [matched pl pr s p]
                (mean_spacing im) 0 step eq_refl G0) as (st & L & R_ & A & E & _ & EL & ER & EA & N0 & LR & LA); auto.
    { discriminate. } 
    cbn [map option_map] in E. rewrite E.
    rewrite EL, ER, EA, !concat_map_map.
    assert (HL : concat L <> []).
    { destruct L as [|l L]; [discriminate|]. cbn in N0. injection N0 as ->. discriminate. }
    destruct (strip_fits dtm_epsg conv ml mr pl pr s off d1 mxr sc Hl Hr Hd1 Hm Hsc (Some (concat A)) g1 (concat L) (concat R_)
                (mean_spacing im) 1 step eq_refl G1) as (st2 & L2 & R2 & A2 & E2 & _); auto.
    { split; auto. }
    cbn [option_map] in E2. rewrite E2. discriminate.
  Qed.
End AdaptGrid.
