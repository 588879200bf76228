(** Strips of the epipolar grids, point by point. *)
From Coq Require Import Reals ZArith List Bool Lra Lia.
From Verif Require Import Num NumLemmas ProjModel RpcModel RpcDtmModel LocModel TriModel TriBatch RectModel RectSpec RectProofs.
Import ListNotations.
Open Scope R_scope.


Lemma nltb_fin : forall a b, nltb (fin a) (fin b) = Rltb a b.
Proof. reflexivity. Qed.

(** ** Any model: number of turns *)
Section Size.
  Context {D : Type} (dtm_epsg : D -> Z) (conv : Z -> Z -> list row3 -> list row3) (ml mr : geomodel D).

  Lemma loop_size : forall n k len sp axis step e off l r a g ws rs,
    (len <> 0)%nat ->
    strip_loop dtm_epsg conv ml mr n (INR (k + n)) sp axis step e off None (Walk l r a g (repeat (fin (INR k)) len)) = Some (ws, rs) ->
    length ws = n.
  Proof.
    induction n as [|n IH]; intros k len sp axis step e off l r a g ws rs Hlen H; cbn [strip_loop w_sum] in H.
    - assert (E : existsb (fun s => nltb s (fin (INR (k + 0)))) (repeat (fin (INR k)) len) = false).
      { rewrite Nat.add_0_r. clear H. induction len as [|m IHm]; [reflexivity|].
        cbn [repeat existsb]. rewrite nltb_fin. destruct (Rltb_spec (INR k) (INR k)); [lra|].
        destruct m; [reflexivity|]. apply IHm; lia. }
      rewrite E in H. injection H as <- <-. reflexivity.
    - destruct (existsb _ _) eqn:E.
      + destruct (strip_step _ _ _ _ _ _ _ _ _ _ _) as [[w' rr]|] eqn:S1; [|discriminate].
        destruct (strip_loop _ _ _ _ _ _ _ _ _ _ _ _ _) as [[ws' rs']|] eqn:S2; [|discriminate].
        injection H as <- <-. cbn [length]. f_equal.
        unfold strip_step in S1. cbn [w_left w_angles w_ground w_right w_sum] in S1.
        destruct (moving_along_axis _ _ _ _ _ _ _ _ _ _) as [[[tl tr] gr]|]; [|discriminate].
        cbv iota beta zeta in S1.
        destruct (compute_local_epipolar_line _ _ _ _ _ _ _) as [[[ls le] gr']|]; [|discriminate].
        injection S1 as <- <-.
        assert (M : map (fun s => nadd s (fin 1)) (repeat (fin (INR k)) len) = repeat (fin (INR (S k))) len).
        { rewrite S_INR. clear. induction len; cbn; [reflexivity|]. f_equal; auto. }
        rewrite M in S2. replace (k + S n)%nat with (S k + n)%nat in S2 by lia.
        eapply IH; [|exact S2]; auto.
      + exfalso. destruct len as [|m]; [congruence|]. cbn [repeat existsb] in E. rewrite nltb_fin in E.
        apply orb_false_elim in E. destruct E as [E _]. apply Rltb_false in E.
        apply INR_le in E. lia.
  Qed.

  Lemma strip_size_exact : forall lp rp sp axis n step e off known st, lp <> [] ->
    compute_strip_of_epipolar_grid dtm_epsg conv ml mr lp rp sp axis n step e off known None = Some st ->
    length (st_left st) = n /\ length (st_right st) = n /\ length (st_angles st) = n
    /\ nth_error (st_left st) 0 = Some lp /\ nth_error (st_right st) 0 = Some rp.
  Proof.
    intros lp rp sp axis n step e off known st Hl H. unfold compute_strip_of_epipolar_grid in H.
    match type of H with (match ?x with _ => _ end = _) => destruct x as [[[[an g] r0] al]|] end; [|discriminate].
    destruct n as [|n]; [discriminate|].
    destruct (strip_loop _ _ _ _ _ _ _ _ _ _ _ _ _) as [[ws rs]|] eqn:E; [|discriminate].
    assert (Hs : length ws = n).
    { rewrite map_repeat_const in E. eapply (loop_size n 1 (length lp)); [|exact E]. destruct lp; cbn; congruence. }
    assert (Hst : exists m nc, st = Strip (lp :: map w_left ws) (rp :: map w_right ws) (an :: map w_angles ws) m nc).
    { destruct known; [destruct ws; [discriminate|]|]; injection H as <-; eauto. }
    destruct Hst as (m & nc & ->). cbn. rewrite !map_length, Hs. auto.
  Qed.
End Size.

(** ** Models that handle each point by itself *)
Section Strip.
  Context {D : Type} (dtm_epsg : D -> Z) (conv : Z -> Z -> list row3 -> list row3)
    (ml mr : geomodel D) (pl pr : pmodel D) (s : surface D) (off : R).
  Hypothesis (Hl : behaves ml pl) (Hr : behaves mr pr) (Ho : off <> 0).

  Definition step1 (axis : Z) (d : R) (pa : vec3 * R) : vec3 * R :=
    let q := moved axis d (fst pa) (snd pa) in (q, angle_at pl pr s off q).
  Fixpoint lines (axis : Z) (d : R) (n : nat) (st : list (vec3 * R)) : list (list (vec3 * R)) :=
    match n with O => [] | S n => map (step1 axis d) st :: lines axis d n (map (step1 axis d) st) end.
  Fixpoint trail (axis : Z) (d : R) (n : nat) (pa : vec3 * R) : list (vec3 * R) :=
    match n with O => [] | S n => step1 axis d pa :: trail axis d n (step1 axis d pa) end.

  Definition as_left (pa : vec3 * R) : row3 := node (fst pa).
  Definition as_right (pa : vec3 * R) : row3 := node (matched pl pr s (fst pa)).
  Definition as_angle (pa : vec3 * R) : num := fin (snd pa).
  Definition as_ratio (pa : vec3 * R) : num := fin (local_ratio pl pr s off (fst pa)).

  Lemma moving2 : forall st sp step axis, axis_ok axis = true ->
    moving_along_axis dtm_epsg conv ml mr (map as_left st) sp (elev_of s) step (map as_angle st) axis
    = Some (map as_left (map (step1 axis (step * sp)) st), map as_right (map (step1 axis (step * sp)) st),
            map (fun pa => node (ground pl s (fst pa))) (map (step1 axis (step * sp)) st)).
  Proof.
    intros st sp step axis Ha. unfold moving_along_axis. rewrite Ha, map2_map_same2.
    rewrite (map_ext _ (fun pa => node (moved axis (step * sp) (fst pa) (snd pa)))) by (intro; apply move_node_node; auto).
    rewrite <- (map_map (fun pa => moved axis (step * sp) (fst pa) (snd pa)) node).
    rewrite (coloc_surface _ _ _ _ pl pr) by auto. rewrite !map_map. reflexivity.
  Qed.

  Lemma as_left_node : forall st, map as_left st = map node (map fst st).
  Proof. intros; rewrite map_map; reflexivity. Qed.

  Lemma loop_plain : forall n k st sp axis step r g, axis_ok axis = true -> st <> [] ->
    exists ws,
      strip_loop dtm_epsg conv ml mr n (INR (k + n)) sp axis step (elev_of s) off None
        (Walk (map as_left st) r (map as_angle st) g (map (fun _ => fin (INR k)) st))
      = Some (ws, concat (map (map as_ratio) (lines axis (step * sp) n st)))
      /\ map w_left ws = map (map as_left) (lines axis (step * sp) n st)
      /\ map w_right ws = map (map as_right) (lines axis (step * sp) n st)
      /\ map w_angles ws = map (map as_angle) (lines axis (step * sp) n st).
  Proof.
    induction n as [|n IH]; intros k st sp axis step r g Ha Hst; cbn [strip_loop w_sum].
    - rewrite Nat.add_0_r.
      assert (E : existsb (fun x => nltb x (fin (INR k))) (map (fun _ : vec3 * R => fin (INR k)) st) = false).
      { clear Hst. induction st; [reflexivity|]. cbn [map existsb]. rewrite nltb_fin.
        destruct (Rltb_spec (INR k) (INR k)); [lra|]. exact IHst. }
      rewrite E. exists []. repeat split; reflexivity.
    - assert (E : existsb (fun x => nltb x (fin (INR (k + S n)))) (map (fun _ : vec3 * R => fin (INR k)) st) = true).
      { destruct st as [|x st]; [congruence|]. cbn [map existsb]. rewrite nltb_fin.
        destruct (Rltb_spec (INR k) (INR (k + S n))) as [|N]; [reflexivity|]. exfalso; apply N. apply lt_INR. lia. }
      rewrite E. unfold strip_step. cbn [w_left w_angles w_right w_sum w_ground].
      rewrite moving2 by auto. cbv beta iota zeta.
      rewrite as_left_node. rewrite (local_line _ _ _ _ pl pr) by auto.
      rewrite angles_of_lines, ratios_of_lines by auto.
      rewrite map_map.
      destruct (IH (S k) (map (step1 axis (step * sp)) st) sp axis step (map as_right (map (step1 axis (step * sp)) st))
                  (map (fun p => node (ground pl s p)) (map fst (map (step1 axis (step * sp)) st))) Ha) as (ws & E1 & L1 & R1 & A1).
      { destruct st; cbn; congruence. }
      replace (k + S n)%nat with (S k + n)%nat by lia.
      match type of E1 with strip_loop _ _ _ _ _ _ _ _ _ _ _ _ ?w = _ =>
        match goal with |- context [strip_loop _ _ _ _ _ _ _ _ _ _ _ _ ?w'] => replace w' with w end end.
      2: { f_equal; try (rewrite ?as_left_node, ?map_map; reflexivity).
           rewrite !map_map. apply map_ext; intro. cbn [nadd nlift2 fin]. rewrite S_INR. reflexivity. }
      rewrite E1. cbv beta iota. match goal with |- context [Some (?w' :: ws, _)] => exists (w' :: ws) end.
      cbn [lines map concat w_left w_right w_angles]. rewrite L1, R1, A1.
      repeat split; rewrite ?as_left_node, ?map_map; reflexivity.
  Qed.

  Definition with_angles (known : option (list R)) (ps : list vec3) : list (vec3 * R) :=
    match known with None => map (fun p => (p, angle_at pl pr s off p)) ps | Some a => combine ps a end.
  Definition computed_nodes (known : option (list R)) (ps : list vec3) (rest : list (list (vec3 * R))) : list vec3 :=
    match known with None => ps | Some _ => [] end ++ concat (map (map fst) rest).
  Definition known_ok (known : option (list R)) (ps : list vec3) (n : nat) : Prop :=
    match known with None => (1 <= n)%nat | Some a => (2 <= n)%nat /\ length a = length ps end.

  Lemma count_nan_fin : forall {A} (f : A -> R) l, count_nan (map (fun x => fin (f x)) l) = 0%nat.
  Proof. intros; unfold count_nan. induction l; cbn; auto. Qed.
  Lemma nansum_fin : forall {A} (f : A -> R) l, nansum (map (fun x => fin (f x)) l) = sum (map f l).
  Proof. intros. induction l as [|x l IH]; [reflexivity|]. cbn. unfold nansum, sum in *. rewrite IH. reflexivity. Qed.
  Lemma lines_length : forall axis d n st, length (lines axis d n st) = n.
  Proof. induction n; intros; cbn; [reflexivity|]. rewrite IHn. reflexivity. Qed.
  Lemma lines_inner : forall axis d n st l, In l (lines axis d n st) -> length l = length st.
  Proof.
    induction n; intros st l H; cbn in H; [easy|]. destruct H as [<-|H]; [apply map_length|].
    rewrite (IHn _ _ H). apply map_length.
  Qed.
  Lemma concat_const : forall {A} (m : nat) (ls : list (list A)), (forall l, In l ls -> length l = m) -> length (concat ls) = (length ls * m)%nat.
  Proof.
    induction ls; intros H; cbn; [reflexivity|]. rewrite app_length, IHls, (H a); [lia|left; auto|intros; apply H; right; auto].
  Qed.
  Lemma ratios_concat : forall ls, concat (map (map as_ratio) ls) = map (fun p => fin (local_ratio pl pr s off p)) (concat (map (map fst) ls)).
  Proof.
    induction ls as [|l ls IH]; [reflexivity|]. cbn [map concat]. rewrite map_app, IH. f_equal. rewrite map_map. reflexivity.
  Qed.
  Lemma combine_fst : forall {A B} (a : list A) (b : list B), length b = length a -> map fst (combine a b) = a.
  Proof. induction a; destruct b; cbn; intros; try easy. f_equal; auto. Qed.
  Lemma combine_snd : forall {A B} (a : list A) (b : list B), length b = length a -> map snd (combine a b) = b.
  Proof. induction a; destruct b; cbn; intros; try easy. f_equal; auto. Qed.

  Lemma strip_plain : forall known ps rp sp axis n step, axis_ok axis = true -> ps <> [] -> known_ok known ps n ->
    let st0 := with_angles known ps in
    let rest := lines axis (step * sp) (n - 1) st0 in
    let rs := map (local_ratio pl pr s off) (computed_nodes known ps rest) in
    compute_strip_of_epipolar_grid dtm_epsg conv ml mr (map node ps) rp sp axis n step (elev_of s) off
      (option_map (map fin) known) None
    = Some (Strip (map node ps :: map (map as_left) rest) (rp :: map (map as_right) rest) (map as_angle st0 :: map (map as_angle) rest)
              (fin (mean rs)) 0).
  Proof.
    intros known ps rp sp axis n step Ha Hps Hk st0 rest rs.
    assert (Hlen : length st0 = length ps).
    { unfold st0, with_angles. destruct known as [a|]; cbn in Hk |- *; [rewrite combine_length; lia|apply map_length]. }
    assert (Hf : map fst st0 = ps).
    { unfold st0, with_angles. destruct known as [a|]; cbn in Hk |- *; [apply combine_fst; tauto|]. rewrite map_map; apply map_id. }
    assert (Hrs : length rs = (match known with None => length ps | Some _ => 0 end + (n - 1) * length ps)%nat).
    { unfold rs, computed_nodes. rewrite map_length, app_length.
      rewrite (concat_const (length ps)).
      - rewrite map_length. unfold rest. rewrite lines_length. destruct known; reflexivity.
      - intros l Hi. apply in_map_iff in Hi. destruct Hi as (l' & <- & Hi). rewrite map_length. unfold rest in Hi.
        rewrite (lines_inner _ _ _ _ _ Hi). exact Hlen. }
    assert (Hp : (0 < length ps)%nat) by (destruct ps; cbn; [congruence|lia]).
    unfold compute_strip_of_epipolar_grid.
    match goal with |- match ?x with _ => _ end = _ => assert (F : exists g, x = Some (map as_angle st0, g,
        map (fun p => fin (local_ratio pl pr s off p)) (match known with None => ps | Some _ => [] end),
        match known with None => 0%nat | Some _ => length ps end)) end.
    { destruct known as [a|]; cbn [option_map].
      - unfold direct, to_physical.
        replace (lo_epsg (make_localization ml (elev_of s) None None)) with (@None Z) by (destruct s; reflexivity).
        replace (lo_image (make_localization ml (elev_of s) None None)) with (@None image) by (destruct s; reflexivity).
        replace (lo_model (make_localization ml (elev_of s) None None)) with ml by (destruct s; reflexivity).
        rewrite !map_map, map_length; cbn [fst snd]. cbn in Hk.
        assert (Ea : map as_angle st0 = map fin a).
        { unfold st0, with_angles, as_angle. rewrite <- (map_map snd fin), combine_snd by tauto. reflexivity. }
        rewrite Ea, map_length. replace (length a) with (length ps) by (symmetry; tauto).
        destruct s as [h|d]; cbn [make_localization elev_of lo_dtm lo_default broadcast].
        + rewrite <- map_repeat_const. rewrite (direct_nodes ml pl (fun x => x) (fun _ => h)) by auto. eexists; reflexivity.
        + rewrite (dtm_nodes ml pl (fun x => x)) by auto. eexists; reflexivity.
      - rewrite (local_line _ _ _ _ pl pr) by auto. rewrite angles_of_lines, ratios_of_lines by auto.
        eexists. do 3 f_equal. unfold st0, with_angles. rewrite map_map. reflexivity. }
    destruct F as [g ->].
    destruct n as [|n]. { destruct known; cbn in Hk; lia. }
    assert (Hrest : rest = lines axis (step * sp) n st0) by (unfold rest; f_equal; lia).
    replace (S n - 1)%nat with n in Hrs by lia.
    destruct (loop_plain n 1 st0 sp axis step rp g Ha) as (ws & E1 & L1 & R1 & A1).
    { intro E. rewrite E in Hlen; cbn in Hlen; lia. }
    change (1 + n)%nat with (S n) in E1.
    match type of E1 with strip_loop _ _ _ _ _ _ _ _ _ _ _ _ ?w = _ =>
      match goal with |- context [strip_loop _ _ _ _ _ _ _ _ _ _ _ _ ?w'] => replace w' with w end end.
    2: { f_equal; [rewrite as_left_node, Hf; reflexivity|].
         rewrite (map_repeat_const (fin (INR 1))), (map_repeat_const (fin 1)), map_length, Hlen. reflexivity. }
    rewrite E1. rewrite <- Hrest. rewrite <- Hrest in L1, R1, A1.
    assert (Hall : map (fun p => fin (local_ratio pl pr s off p)) (match known with None => ps | Some _ => [] end) ++ concat (map (map as_ratio) rest)
                   = map (fun p => fin (local_ratio pl pr s off p)) (computed_nodes known ps rest)).
    { rewrite ratios_concat. unfold computed_nodes. rewrite map_app. destruct known; reflexivity. }
    cbv beta iota zeta. rewrite Hall, count_nan_fin, nansum_fin. fold rs.
    assert (Hw : length ws = n).
    { rewrite <- (map_length w_left), L1, map_length, Hrest. apply lines_length. }
    rewrite Hw, map_length.
    destruct (Nat.eqb_spec 0 (S n * length ps)) as [B|_]; [nia|].
    assert (Hden : INR (S n * length ps) - INR 0 - INR (match known with None => 0 | Some _ => length ps end) = INR (length rs)).
    { rewrite Hrs. rewrite !plus_INR, !mult_INR, S_INR. destruct known; cbn [INR]; ring. }
    assert (Hr0 : INR (length rs) <> 0).
    { apply not_0_INR. rewrite Hrs. destruct known; cbn in Hk; nia. }
    assert (Hm : ndiv (fin (sum rs)) (fin (INR (S n * length ps) - INR 0 - INR (match known with None => 0 | Some _ => length ps end)))
                 = fin (mean rs)).
    { rewrite Hden. unfold ndiv, fin, mean. destruct (Req_EM_T (INR (length rs)) 0); [congruence|reflexivity]. }
    destruct known as [a|]; cbn [option_map] in *.
    - destruct ws as [|w0 ws]; [exfalso; cbn in Hk; cbn in Hw; lia|]. rewrite Hm, L1, R1, A1. reflexivity.
    - rewrite Hm, L1, R1, A1. reflexivity.
  Qed.

  (** lines and trails *)
  Lemma entry_nil_r : forall {A B} (l : list B) i j, entry (map (fun _ => @nil A) l) i j = None.
  Proof. unfold entry. induction l; intros; [destruct i; reflexivity|]. destruct i; cbn; [destruct j; reflexivity|]. apply IHl. Qed.
  Lemma lines_trail : forall axis d n st i k, entry (lines axis d n st) k i = entry (map (trail axis d n) st) i k.
  Proof.
    induction n as [|n IH]; intros st i k.
    - cbn [lines trail]. rewrite entry_nil_r. unfold entry. destruct k; reflexivity.
    - destruct k as [|k].
      + unfold entry. cbn [lines nth_error]. rewrite !nth_error_map. destruct (nth_error st i); reflexivity.
      + change (entry (lines axis d (S n) st) (S k) i) with (entry (lines axis d n (map (step1 axis d) st)) k i).
        rewrite IH. unfold entry. rewrite !nth_error_map. destruct (nth_error st i); reflexivity.
  Qed.
  Lemma sum_app : forall a b, sum (a ++ b) = sum a + sum b.
  Proof. induction a; intros; cbn; [unfold sum; lra|]. unfold sum in *. cbn. rewrite IHa. lra. Qed.
  Lemma sum_lines : forall (f : vec3 * R -> R) axis d n st,
    sum (map f (concat (lines axis d n st))) = sum (map f (concat (map (trail axis d n) st))).
  Proof.
    intros f axis d. induction n as [|n IH]; intro st.
    - cbn. induction st; cbn; auto.
    - cbn [lines concat]. rewrite map_app, sum_app, IH.
      induction st as [|x st IHs]; [cbn; unfold sum; cbn; lra|].
      cbn [map concat]. change (trail axis d (S n) x) with (step1 axis d x :: trail axis d n (step1 axis d x)).
      rewrite !map_app, !sum_app. rewrite <- IHs. cbn [map].
      assert (C : forall a l, sum (a :: l) = a + sum l) by reflexivity. rewrite !C. lra.
  Qed.
End Strip.
