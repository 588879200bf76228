(** The C++ strips, point by point. *)
From Coq Require Import Reals ZArith List Bool Lra Lia.
From Verif Require Import Num NumLemmas ProjModel RpcModel RpcDtmModel LocModel TriModel TriBatch RectModel RectSpec RectProofs RectStrip.
Import ListNotations.
Open Scope R_scope.

Section Cpp.
  Context {D : Type} (ml mr : geomodel D) (pl pr : pmodel D) (s : surface D) (off : R).
  Hypothesis (Hl : behaves ml pl) (Hr : behaves mr pr) (Ho : off <> 0).

  Lemma cpp_coloc1_node : forall (m1 m2 : geomodel D) p1 p2 (sf : surface D) p, behaves m1 p1 -> behaves m2 p2 ->
    cpp_coloc1 m1 m2 (p_row (node p)) (p_col (node p)) (elev_of sf) = Some (node (matched p1 p2 sf p)).
  Proof.
    intros m1 m2 p1 p2 sf p H1 H2. unfold cpp_coloc1.
    assert (E : match elev_of sf with
                | Dtm d => gm_direct_dtm m1 [p_row (node p)] [p_col (node p)] d
                | Elev (Scalar h) => gm_direct_h m1 [p_row (node p)] [p_col (node p)] [h]
                | _ => None end = Some [node (ground p1 sf p)]).
    { destruct sf as [h|d]; cbn [elev_of].
      - exact (direct_nodes m1 p1 (fun x => x) (fun _ => h) [p] H1).
      - exact (dtm_nodes m1 p1 (fun x => x) d [p] H1). }
    rewrite E. pose proof (inverse_nodes m2 p2 (ground p1 sf) [p] H2) as I. cbn [map] in I. rewrite I. reflexivity.
  Qed.

  Lemma cpp_line_node : forall p,
    cpp_local_epipolar_line ml mr (node p) (elev_of s) off
    = Some (node (epipolar_end pl pr s (- off) p), node (epipolar_end pl pr s off p)).
  Proof.
    intro p. unfold cpp_local_epipolar_line. rewrite (cpp_coloc1_node ml mr pl pr s) by auto.
    set (q := matched pl pr s p).
    change (nsub (p_alt (node q)) (fin off)) with (fin (v2 q + - off)).
    change (nadd (p_alt (node q)) (fin off)) with (fin (v2 q + off)).
    change (Elev (Scalar (fin (v2 q + - off)))) with (elev_of (@Plane D (v2 q + - off))).
    change (Elev (Scalar (fin (v2 q + off)))) with (elev_of (@Plane D (v2 q + off))).
    rewrite !(cpp_coloc1_node mr ml pr pl) by auto. reflexivity.
  Qed.

  Lemma cpp_moving_node : forall p a sp step axis, axis_ok axis = true ->
    cpp_moving_along_axis ml mr (node p) sp (elev_of s) step (fin a) axis
    = Some (node (moved axis (IZR step * sp) p a), node (matched pl pr s (moved axis (IZR step * sp) p a))).
  Proof.
    intros p a sp step axis Ha. unfold cpp_moving_along_axis.
    replace (negb (axis =? 0)%Z && negb (axis =? 1)%Z)%bool with false.
    2: { unfold axis_ok in Ha. destruct (axis =? 0)%Z, (axis =? 1)%Z; try reflexivity; discriminate. }
    pose proof (move_node_node axis (IZR step) sp p a Ha) as M. unfold move_node in M. cbv zeta in M |- *. rewrite M.
    rewrite (cpp_coloc1_node ml mr pl pr) by auto. reflexivity.
  Qed.

  Definition point_of (pa : vec3 * R) : row3 * row3 * num * num :=
    (as_left pa, as_right pl pr s pa, as_angle pa, as_ratio pl pr s off pa).

  Lemma cpp_points : forall n p a sp step axis, axis_ok axis = true ->
    cpp_strip_points ml mr n sp axis step (elev_of s) off (node p) (fin a)
    = Some (map point_of (trail pl pr s off axis (IZR step * sp) n (p, a))).
  Proof.
    induction n as [|n IH]; intros p a sp step axis Ha; [reflexivity|].
    cbn [cpp_strip_points]. rewrite cpp_moving_node by auto. rewrite cpp_line_node, cpp_epipolar_angle_node.
    rewrite IH by auto. rewrite ratio_node by auto. reflexivity.
  Qed.

  Definition cpp_known (known : option (list R)) : list num := match known with None => [nan] | Some a => map fin a end.

  Definition cpp_node (axis : Z) (d : R) (n : nat) (q : row3) (pa : vec3 * R) : list (row3 * row3 * num) :=
    (as_left pa, q, as_angle pa) :: map (fun x => fst (point_of x)) (trail pl pr s off axis d n pa).

  Lemma cpp_node_known : forall n p a q sp step axis, axis_ok axis = true ->
    cpp_strip_node ml mr (S n) sp axis step (elev_of s) off (node p) q (Some (fin a))
    = Some (cpp_node axis (IZR step * sp) n q (p, a), map (as_ratio pl pr s off) (trail pl pr s off axis (IZR step * sp) n (p, a))).
  Proof.
    intros. unfold cpp_strip_node. replace (S n - 1)%nat with n by lia. rewrite cpp_points by auto. rewrite !map_map. reflexivity.
  Qed.
  Lemma cpp_node_unknown : forall n p q sp step axis, axis_ok axis = true ->
    let pa := (p, angle_at pl pr s off p) in
    cpp_strip_node ml mr (S n) sp axis step (elev_of s) off (node p) q None
    = Some (cpp_node axis (IZR step * sp) n q pa, as_ratio pl pr s off pa :: map (as_ratio pl pr s off) (trail pl pr s off axis (IZR step * sp) n pa)).
  Proof.
    intros. unfold cpp_strip_node. rewrite cpp_line_node, cpp_epipolar_angle_node, ratio_node by auto.
    replace (S n - 1)%nat with n by lia. rewrite cpp_points by auto. rewrite !map_map. reflexivity.
  Qed.

  Lemma known_not_nan : forall a, match map fin a with [None] => False | _ => True end.
  Proof. destruct a as [|x [|y l]]; cbn; auto. Qed.

  Lemma cpp_strip_plain : forall known ps rp sp axis n step, axis_ok axis = true -> ps <> [] -> length rp = length ps ->
    known_ok known ps n ->
    let st0 := with_angles pl pr s off known ps in
    let d := IZR step * sp in
    let rest := lines pl pr s off axis d (n - 1) st0 in
    let rs := map (local_ratio pl pr s off) (computed_nodes known ps rest) in
    cpp_compute_strip ml mr (map node ps) rp sp axis n step (elev_of s) off (cpp_known known)
    = Some (map2 (cpp_node axis d (n - 1)) rp st0, fin (mean rs), 0%nat).
  Proof.
    intros known ps rp sp axis n step Ha Hps Hrp Hk st0 d rest rs.
    assert (Hp : (0 < length ps)%nat) by (destruct ps; cbn; [congruence|lia]).
    assert (Hlen : length st0 = length ps).
    { unfold st0, with_angles. destruct known as [a|]; cbn in Hk |- *; [rewrite combine_length; lia|apply map_length]. }
    assert (Hf : map fst st0 = ps).
    { unfold st0, with_angles. destruct known as [a|]; cbn in Hk |- *; [apply combine_fst; tauto|]. rewrite map_map; apply map_id. }
    destruct n as [|n]. { destruct known; cbn in Hk; lia. }
    assert (Hn : (S n - 1 = n)%nat) by lia.
    assert (Hrs : length rs = (match known with None => length ps | Some _ => 0 end + n * length ps)%nat).
    { unfold rs, computed_nodes. rewrite map_length, app_length.
      rewrite (concat_const (length ps)).
      - rewrite map_length. unfold rest. rewrite lines_length, Hn. destruct known; reflexivity.
      - intros l Hi. apply in_map_iff in Hi. destruct Hi as (l' & <- & Hi). rewrite map_length. unfold rest in Hi.
        rewrite (lines_inner _ _ _ _ _ _ _ _ _ Hi). exact Hlen. }
    unfold cpp_compute_strip.
    (* the angles *)
    assert (K : exists al, (let '(k, a) := match cpp_known known with [None] => (map (fun _ : row3 => @None num) (map node ps), 0%nat)
                                          | _ => (map Some (cpp_known known), length (cpp_known known)) end in
                 seq_opt (map2 (fun pq a => cpp_strip_node ml mr (S n) sp axis step (elev_of s) off (fst pq) (snd pq) a)
                          (combine (map node ps) rp) k) = Some al /\ a = match known with None => 0%nat | Some _ => length ps end)
              /\ map fst al = map2 (cpp_node axis d n) rp st0
              /\ concat (map snd al) = concat (map (fun pa => match known with None => [as_ratio pl pr s off pa] | Some _ => [] end
                                                       ++ map (as_ratio pl pr s off) (trail pl pr s off axis d n pa)) st0)).
    { destruct known as [a|].
      - cbn [cpp_known]. pose proof (known_not_nan a) as KN.
        assert (E : forall A (x y : A), match map fin a with [None] => x | _ => y end = y).
        { intros A x y. destruct a as [|x0 [|y0 l0]]; reflexivity. }
        rewrite E. cbn in Hk. rewrite map_length.
        unfold st0 in *; cbn [with_angles] in *. clear -Hl Hr Ho Ha Hk Hrp Hps.
        assert (H : length a = length ps) by tauto. clear Hk Hps.
        cut (exists al, seq_opt (map2 (fun pq a0 => cpp_strip_node ml mr (S n) sp axis step (elev_of s) off (fst pq) (snd pq) a0)
                          (combine (map node ps) rp) (map Some (map fin a))) = Some al
              /\ map fst al = map2 (cpp_node axis d n) rp (combine ps a)
              /\ concat (map snd al) = concat (map (fun pa => map (as_ratio pl pr s off) (trail pl pr s off axis d n pa)) (combine ps a))).
        { intros (al & A1 & A2 & A3). exists al. repeat split; auto. }
        revert rp Hrp a H. induction ps as [|p ps IH]; intros rp Hrp a H; destruct rp as [|q rp], a as [|a0 a]; try discriminate.
        + exists []. repeat split; reflexivity.
        + injection Hrp as Hrp. injection H as H. destruct (IH rp Hrp a H) as (al & A1 & A2 & A3).
          cbn [map combine map2 seq_opt fst snd]. rewrite cpp_node_known by auto. rewrite A1.
          eexists; split; [reflexivity|]. cbn [map fst snd concat]. rewrite A2, A3. split; reflexivity.
      - cbn [cpp_known]. change (nan) with (@None R). cbv iota.
        unfold st0 in *; cbn [with_angles] in *. clear -Hl Hr Ho Ha Hk Hrp.
        cut (exists al, seq_opt (map2 (fun pq a0 => cpp_strip_node ml mr (S n) sp axis step (elev_of s) off (fst pq) (snd pq) a0)
                          (combine (map node ps) rp) (map (fun _ : row3 => @None num) (map node ps))) = Some al
              /\ map fst al = map2 (cpp_node axis d n) rp (map (fun p => (p, angle_at pl pr s off p)) ps)
              /\ concat (map snd al) = concat (map (fun pa => [as_ratio pl pr s off pa] ++ map (as_ratio pl pr s off) (trail pl pr s off axis d n pa))
                                         (map (fun p => (p, angle_at pl pr s off p)) ps))).
        { intros (al & A1 & A2 & A3). exists al. repeat split; auto. }
        clear Hk. revert rp Hrp. induction ps as [|p ps IH]; intros rp Hrp; destruct rp as [|q rp]; try discriminate.
        + exists []. repeat split; reflexivity.
        + injection Hrp as Hrp. destruct (IH rp Hrp) as (al & A1 & A2 & A3).
          cbn [map combine map2 seq_opt fst snd]. rewrite cpp_node_unknown by auto. rewrite A1.
          eexists; split; [reflexivity|]. cbn [map fst snd concat]. rewrite A2, A3. split; reflexivity. }
    destruct K as (al & K1 & K2 & K3).
    destruct (match cpp_known known with [None] => _ | _ => _ end) as [k a]. destruct K1 as [K1 ->]. rewrite K1.
    rewrite K3, Hn.
    (* the ratios *)
    assert (Eall : concat (map (fun pa => match known with None => [as_ratio pl pr s off pa] | Some _ => [] end
                                  ++ map (as_ratio pl pr s off) (trail pl pr s off axis d n pa)) st0)
                   = map (as_ratio pl pr s off) (concat (map (fun pa => match known with None => [pa] | Some _ => [] end ++ trail pl pr s off axis d n pa) st0))).
    { clear. induction st0 as [|x st0 IH]; [reflexivity|]. cbn [map concat]. rewrite IH, !map_app. destruct known; reflexivity. }
    rewrite Eall.
    set (all := concat (map (fun pa => match known with None => [pa] | Some _ => [] end ++ trail pl pr s off axis d n pa) st0)).
    assert (C0 : count_nan (map (as_ratio pl pr s off) all) = 0%nat) by apply (count_nan_fin (fun pa => local_ratio pl pr s off (fst pa))).
    assert (S0 : nansum (map (as_ratio pl pr s off) all) = sum rs).
    { transitivity (sum (map (fun pa => local_ratio pl pr s off (fst pa)) all)). apply nansum_fin.
      unfold rs, computed_nodes, all. rewrite map_app, sum_app.
      replace (map (local_ratio pl pr s off) (concat (map (map fst) rest))) with (map (fun pa => local_ratio pl pr s off (fst pa)) (concat rest))
        by (rewrite <- concat_map, map_map; reflexivity).
      unfold rest; rewrite Hn, sum_lines.
      replace (match known with None => ps | Some _ => [] end) with (match known with None => map fst st0 | Some _ => [] end) by (rewrite Hf; reflexivity).
      set (g := fun pa : vec3 * R => local_ratio pl pr s off (fst pa)).
      clear. induction st0 as [|x st0 IH].
      - cbn. destruct known; unfold sum; cbn; ring.
      - assert (C : forall a l, sum (a :: l) = a + sum l) by reflexivity. assert (N : sum [] = 0) by reflexivity.
        cbn [map concat]. rewrite !map_app, !sum_app, IH. destruct known; cbn [map]; rewrite ?C, ?N; unfold g; ring. }
    rewrite C0, S0, map_length.
    assert (Hden : INR (S n * length ps) - INR (match known with None => 0 | Some _ => length ps end) - INR 0 = INR (length rs)).
    { rewrite Hrs. rewrite !plus_INR, !mult_INR, S_INR. destruct known; cbn [INR]; ring. }
    rewrite Hden. rewrite K2.
    assert (Hr0 : INR (length rs) <> 0).
    { apply not_0_INR. rewrite Hrs. destruct known; cbn in Hk; nia. }
    unfold ndiv, fin, mean. destruct (Req_EM_T (INR (length rs)) 0); [congruence|reflexivity].
  Qed.
End Cpp.
