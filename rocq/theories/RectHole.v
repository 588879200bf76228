(** Strips of the epipolar grids, for models that may fail to localize some points. *)
From Coq Require Import Reals ZArith List Bool Lra Lia.
From Verif Require Import Num NumLemmas ProjModel RpcModel RpcDtmModel LocModel TriModel TriBatch RectModel RectSpec RectProofs RectStrip RectHoleSpec.
Import ListNotations.
Open Scope R_scope.

Section Hole.
  Context {D : Type} (dtm_epsg : D -> Z) (conv : Z -> Z -> list row3 -> list row3) (ml mr : geomodel D) (ql qr : qmodel D).
  Hypothesis (Hl : answers ml ql) (Hr : answers mr qr).

  Definition qground (q : qmodel D) (e : elevation D) (p : row3) : row3 :=
    match e with
    | Dtm d => q_d q d (p_row p) (p_col p)
    | Elev (Scalar h) => q_h q (p_row p) (p_col p) h
    | _ => q_h q (p_row p) (p_col p) (fin 0)
    end.
  Definition qseen (q : qmodel D) (g : row3) : row3 :=
    let rc := q_inv q (lon3 g) (lat3 g) (alt3 g) in R3 (fst rc) (snd rc) (alt3 g).
  Definition one_elevation (e : elevation D) : Prop := match e with Elev (Array _) => False | _ => True end.

  Lemma q_direct {A} (m : geomodel D) q (f g h : A -> num) l : answers m q ->
    gm_direct_h m (map f l) (map g l) (map h l) = Some (map (fun x => q_h q (f x) (g x) (h x)) l).
  Proof. intros (H & _). specialize (H (map (fun x => (f x, g x, h x)) l)). rewrite !map_map in H. exact H. Qed.
  Lemma q_inverse {A} (m : geomodel D) q (f g h : A -> num) l : answers m q ->
    gm_inverse m (map f l) (map g l) (map h l) = Some (map (fun x => q_inv q (f x) (g x) (h x)) l).
  Proof. intros (_ & _ & H). specialize (H (map (fun x => (f x, g x, h x)) l)). rewrite !map_map in H. exact H. Qed.
  Lemma q_dtm {A} (m : geomodel D) q (f g : A -> num) d l : answers m q ->
    gm_direct_dtm m (map f l) (map g l) d = Some (map (fun x => q_d q d (f x) (g x)) l).
  Proof. intros (_ & H & _). specialize (H d (map (fun x => (f x, g x)) l)). rewrite !map_map in H. exact H. Qed.

  Lemma qcoloc m1 m2 q1 q2 e {A} (f : A -> row3) l : answers m1 q1 -> answers m2 q2 -> one_elevation e ->
    coloc_rows dtm_epsg conv m1 m2 (map f l) e = Some (map (fun x => qseen q2 (qground q1 e (f x))) l, map (fun x => qground q1 e (f x)) l).
  Proof.
    intros H1 H2 HE. unfold coloc_rows, coloc. rewrite !map_map, !map_length, Nat.eqb_refl, combine_map_same.
    match goal with |- match ?u with _ => _ end = _ => assert (E : u = Some (map (fun y => qground q1 e (f y)) l)) end.
    { unfold direct, to_physical. destruct e as [[h|hs]|d|]; [|destruct HE| |]; cbn [make_localization lo_image lo_dtm lo_model lo_default lo_epsg broadcast].
      - rewrite !map_map, map_length; cbn [fst snd]. rewrite <- map_repeat_const. rewrite (q_direct m1 q1) by exact H1. reflexivity.
      - rewrite !map_map; cbn [fst snd]. rewrite (q_dtm m1 q1) by exact H1. reflexivity.
      - rewrite !map_map, map_length; cbn [fst snd]. rewrite <- map_repeat_const. rewrite (q_direct m1 q1) by exact H1. reflexivity. }
    rewrite E. clear E. unfold inverse, to_index.
    replace (lo_epsg (make_localization m2 e None None)) with (@None Z) by (destruct e; reflexivity).
    replace (lo_image (make_localization m2 e None None)) with (@None image) by (destruct e; reflexivity).
    replace (lo_model (make_localization m2 e None None)) with m2 by (destruct e; reflexivity).
    cbv iota. cbn [broadcast]. rewrite !map_map; cbn [fst snd]. rewrite (q_inverse m2 q2) by exact H2. rewrite map2_map_same2. reflexivity.
  Qed.
  Lemma qcoloc_array m1 m2 q1 q2 {A} (f : A -> row3) (h : A -> num) l : answers m1 q1 -> answers m2 q2 ->
    exists gs, coloc_rows dtm_epsg conv m1 m2 (map f l) (Elev (Array (map h l))) = Some (map (fun x => qseen q2 (q_h q1 (p_row (f x)) (p_col (f x)) (h x))) l, gs).
  Proof.
    intros H1 H2. eexists. unfold coloc_rows, coloc. rewrite !map_map, !map_length, Nat.eqb_refl, combine_map_same.
    unfold direct, to_physical. cbn [make_localization lo_image lo_dtm lo_model lo_default lo_epsg broadcast]. rewrite !map_map; cbn [fst snd].
    rewrite (q_direct m1 q1) by exact H1. unfold inverse, to_index. cbn [make_localization lo_image lo_dtm lo_model lo_default lo_epsg broadcast].
    rewrite !map_map; cbn [fst snd]. rewrite (q_inverse m2 q2) by exact H2. rewrite map2_map_same2. reflexivity.
  Qed.

  (** The match of a left position, and the two ends of its local epipolar line. *)
  Definition qmatch (e : elevation D) (p : row3) : row3 := qseen qr (qground ql e p).
  Definition qend (e : elevation D) (dh : R) (p : row3) : row3 :=
    let q := qmatch e p in qseen ql (q_h qr (p_row q) (p_col q) (nadd (p_alt q) (fin dh))).
  Definition qstart (e : elevation D) (dh : R) (p : row3) : row3 :=
    let q := qmatch e p in qseen ql (q_h qr (p_row q) (p_col q) (nsub (p_alt q) (fin dh))).
  Definition qangle e off p : num := epipolar_angle (qend e off p) (qstart e off p).

  Lemma qline e off {A} (f : A -> row3) l : one_elevation e ->
    compute_local_epipolar_line dtm_epsg conv ml mr (map f l) e off
    = Some (map (fun x => qstart e off (f x)) l, map (fun x => qend e off (f x)) l, map (fun x => qground ql e (f x)) l).
  Proof.
    intros HE. unfold compute_local_epipolar_line. rewrite (qcoloc ml mr ql qr) by assumption. rewrite !map_map.
    destruct (qcoloc_array mr ml qr ql (fun x => qmatch e (f x)) (fun x => nsub (p_alt (qmatch e (f x))) (fin off)) l Hr Hl) as [g1 E1].
    destruct (qcoloc_array mr ml qr ql (fun x => qmatch e (f x)) (fun x => nadd (p_alt (qmatch e (f x))) (fin off)) l Hr Hl) as [g2 E2].
    unfold qmatch in E1, E2. rewrite E1, E2. reflexivity.
  Qed.
  Lemma qmoving e sp step axis {A} (f : A -> row3) (a : A -> num) l : one_elevation e -> axis_ok axis = true ->
    moving_along_axis dtm_epsg conv ml mr (map f l) sp e step (map a l) axis
    = Some (map (fun x => move_node axis step sp (f x) (a x)) l, map (fun x => qmatch e (move_node axis step sp (f x) (a x))) l,
            map (fun x => qground ql e (move_node axis step sp (f x) (a x))) l).
  Proof. intros HE Ha. unfold moving_along_axis. rewrite Ha, map2_map_same2. now rewrite (qcoloc ml mr ql qr) by assumption. Qed.

  (** One node on its way. *)
  Record travel := Travel { t_left : row3; t_right : row3; t_angle : num; t_ground : row3 }.
  Definition advance axis step sp e off (t : travel) : travel :=
    let p := move_node axis step sp (t_left t) (t_angle t) in Travel p (qmatch e p) (qangle e off p) (qground ql e p).
  Definition line_of (k : nat) (l : list travel) : walk := Walk (map t_left l) (map t_right l) (map t_angle l) (map t_ground l) (repeat (fin (INR k)) (length l)).
  Lemma qstep axis step sp e off k l : one_elevation e -> axis_ok axis = true ->
    exists rs, strip_step dtm_epsg conv ml mr sp axis step e off None (line_of k l) = Some (line_of (S k) (map (advance axis step sp e off) l), rs).
  Proof.
    intros HE Ha. eexists. unfold strip_step, line_of. cbn [w_left w_right w_angles w_ground w_sum]. rewrite qmoving by assumption. cbv iota beta.
    rewrite (qline e off) by exact HE. f_equal. f_equal. rewrite !map_map, map_length. unfold compute_epipolar_angle. rewrite map2_map_same2. f_equal.
    rewrite S_INR. clear. induction l; cbn; [reflexivity|]. f_equal; auto.
  Qed.
  Lemma sums_done k l : existsb (fun s => nltb s (fin (INR k))) (repeat (fin (INR k)) l) = false.
  Proof. induction l as [|l IH]; [reflexivity|]. cbn [repeat existsb]. rewrite nltb_fin, IH. destruct (Rltb_spec (INR k) (INR k)); [lra|reflexivity]. Qed.
  Lemma sums_on k n l : (0 < l)%nat -> (0 < n)%nat -> existsb (fun s => nltb s (fin (INR (k + n)))) (repeat (fin (INR k)) l) = true.
  Proof. intros H Hn. destruct l as [|l]; [lia|]. cbn [repeat existsb]. rewrite nltb_fin. destruct (Rltb_spec (INR k) (INR (k + n))) as [|C]; [reflexivity|]. exfalso. apply C, lt_INR. lia. Qed.
  Fixpoint travels (n k : nat) (f : list travel -> list travel) (l : list travel) : list walk :=
    match n with O => [] | S n => line_of (S k) (f l) :: travels n (S k) f (f l) end.
  Lemma qloop axis step sp e off n : one_elevation e -> axis_ok axis = true -> forall k l, l <> [] ->
    exists rs, strip_loop dtm_epsg conv ml mr n (INR (k + n)) sp axis step e off None (line_of k l) = Some (travels n k (map (advance axis step sp e off)) l, rs).
  Proof.
    intros HE Ha. induction n as [|n IH]; intros k l Hne; cbn [strip_loop travels].
    - unfold line_of. cbn [w_sum]. rewrite Nat.add_0_r, sums_done. eauto.
    - change (w_sum (line_of k l)) with (repeat (fin (INR k)) (length l)). rewrite sums_on; [|destruct l; [congruence|cbn; lia]|lia].
      destruct (qstep axis step sp e off k l HE Ha) as [r1 E1]. rewrite E1. destruct (IH (S k) (map (advance axis step sp e off) l)) as [r2 E2]; [destruct l; [congruence|discriminate]|].
      replace (k + S n)%nat with (S k + n)%nat by lia. rewrite E2. eauto.
  Qed.

  (** The first state of the nodes. *)
  Definition departures e off (lp rp : list row3) (known : option (list num)) : list travel :=
    map (fun x => Travel (fst (fst x)) (snd (fst x)) (snd x) (qground ql e (fst (fst x))))
      (combine (combine lp rp) (match known with None => map (qangle e off) lp | Some a => a end)).
  Lemma departures_left e off lp rp known : length rp = length lp -> match known with None => True | Some a => length a = length lp end ->
    map t_left (departures e off lp rp known) = lp /\ map t_right (departures e off lp rp known) = rp /\
    map t_angle (departures e off lp rp known) = match known with None => map (qangle e off) lp | Some a => a end /\
    map t_ground (departures e off lp rp known) = map (qground ql e) lp /\ length (departures e off lp rp known) = length lp.
  Proof.
    intros H1 H2. unfold departures. set (a := match known with None => _ | Some a => a end). assert (HA : length a = length lp) by (unfold a; destruct known; [exact H2|apply map_length]).
    clearbody a. clear H2. revert rp a H1 HA. induction lp as [|p lp IH]; intros rp a H1 HA; destruct rp as [|r rp]; destruct a as [|x a]; try discriminate; [cbn; auto|].
    cbn in H1, HA. destruct (IH rp a ltac:(lia) ltac:(lia)) as (A & B & C & E & F). cbn [combine map t_left t_right t_angle t_ground fst snd]. repeat split; try (f_equal; assumption). cbn. f_equal. exact F.
  Qed.
  Fixpoint laps (n : nat) (f : list travel -> list travel) (l : list travel) : list (list travel) :=
    match n with O => [] | S n => l :: laps n f (f l) end.
  Lemma laps_travels {A} (g : travel -> A) (w : walk -> list A) f : (forall k l, w (line_of k l) = map g l) -> forall n k l,
    map w (travels n k f l) = map (map g) (laps n f (f l)).
  Proof. intros E. induction n as [|n IH]; intros k l; [reflexivity|]. cbn [travels laps map]. rewrite E, IH. reflexivity. Qed.
  Lemma qstrip axis step sp e off n lp rp known : one_elevation e -> axis_ok axis = true -> lp <> [] -> length rp = length lp ->
    match known with None => (1 <= n)%nat | Some a => (2 <= n)%nat /\ length a = length lp end ->
    exists st, compute_strip_of_epipolar_grid dtm_epsg conv ml mr lp rp sp axis n step e off known None = Some st /\
      let L := laps n (map (advance axis step sp e off)) (departures e off lp rp known) in
      st_left st = map (map t_left) L /\ st_right st = map (map t_right) L /\ st_angles st = map (map t_angle) L.
  Proof.
    intros HE Ha Hne HR HK. assert (H2 : match known with None => True | Some a => length a = length lp end) by (destruct known; tauto).
    destruct (departures_left e off lp rp known HR H2) as (D1 & D2 & D3 & D4 & D5). set (dep := departures e off lp rp known) in *.
    assert (Hn : exists n', n = S n' /\ (known <> None -> (1 <= n')%nat)).
    { exists (n - 1)%nat. destruct known as [a|]; split; try lia; try congruence. }
    destruct Hn as (n' & -> & Hn').
    assert (DN : dep <> []) by (intros Z; rewrite Z in D5; destruct lp; [congruence|discriminate]).
    destruct (qloop axis step sp e off n' HE Ha 1%nat dep DN) as [rs EL].
    assert (W0 : line_of 1 dep = Walk lp rp (match known with None => map (qangle e off) lp | Some a => a end) (map (qground ql e) lp) (map (fun _ => fin 1) lp)).
    { unfold line_of. rewrite D1, D2, D3, D4, D5. f_equal. symmetry. apply map_repeat_const. }
    rewrite W0 in EL. change (1 + n')%nat with (S n') in EL.
    assert (FIN : forall ws r0 al, strip_loop dtm_epsg conv ml mr n' (INR (S n')) sp axis step e off None
        (Walk lp rp (match known with None => map (qangle e off) lp | Some a => a end) (map (qground ql e) lp) (map (fun _ => fin 1) lp)) = Some (ws, rs) -> ws = travels n' 1 (map (advance axis step sp e off)) dep ->
      exists m nc, match known, ws with Some _, [] => None | _, _ =>
        Some (Strip (lp :: map w_left ws) (rp :: map w_right ws) ((match known with None => map (qangle e off) lp | Some a => a end) :: map w_angles ws)
          (ndiv (if Nat.eqb (count_nan (r0 ++ rs)) (S n' * length lp) then nan else fin (nansum (r0 ++ rs))) (fin (INR (S (length ws) * length lp) - INR (count_nan (r0 ++ rs)) - INR al))) (count_nan (r0 ++ rs))) end
      = Some (Strip (lp :: map w_left ws) (rp :: map w_right ws) ((match known with None => map (qangle e off) lp | Some a => a end) :: map w_angles ws) m nc)).
    { intros ws r0 al _ EW. destruct known as [a|]; [|eauto]. destruct n' as [|n']; [exfalso; pose proof (Hn' ltac:(discriminate)); lia|]. rewrite EW. cbn [travels]. eauto. }
    set (ws := travels n' 1 (map (advance axis step sp e off)) dep) in *.
    assert (ST : exists m nc, compute_strip_of_epipolar_grid dtm_epsg conv ml mr lp rp sp axis (S n') step e off known None
      = Some (Strip (lp :: map w_left ws) (rp :: map w_right ws) ((match known with None => map (qangle e off) lp | Some a => a end) :: map w_angles ws) m nc)).
    { unfold compute_strip_of_epipolar_grid. destruct known as [a|].
      - assert (ED : direct dtm_epsg conv (make_localization ml e None None) (map (fun p => (p_row p, p_col p)) lp) None false = Some (map (qground ql e) lp)).
        { unfold direct, to_physical. destruct e as [[h|hs]|d|]; [|destruct HE| |]; cbn [make_localization lo_image lo_dtm lo_model lo_default lo_epsg broadcast].
          - rewrite !map_map, map_length; cbn [fst snd]. rewrite <- map_repeat_const. rewrite (q_direct ml ql) by exact Hl. reflexivity.
          - rewrite !map_map; cbn [fst snd]. rewrite (q_dtm ml ql) by exact Hl. reflexivity.
          - rewrite !map_map, map_length; cbn [fst snd]. rewrite <- map_repeat_const. rewrite (q_direct ml ql) by exact Hl. reflexivity. }
        rewrite ED. cbv iota beta zeta. rewrite EL. destruct (FIN ws [] (length a) EL eq_refl) as (m & nc & E). exists m, nc. cbn [app] in E. cbv zeta. exact E.
      - pose proof (qline e off (fun x => x) lp HE) as EQ. rewrite map_id in EQ. rewrite EQ. cbv iota beta zeta. 
        assert (EA : compute_epipolar_angle (map (fun x => qend e off x) lp) (map (fun x => qstart e off x) lp) = map (qangle e off) lp) by (unfold compute_epipolar_angle; now rewrite map2_map_same2).
        rewrite !EA. change (map (fun x => qground ql e x) lp) with (map (qground ql e) lp).
        rewrite EL. destruct (FIN ws (map2 (baseline_ratio off) (map (fun x => qend e off x) lp) (map (fun x => qstart e off x) lp)) 0%nat EL eq_refl) as (m & nc & E). exists m, nc. exact E. }
    destruct ST as (m & nc & E). eexists. split; [exact E|]. cbn [st_left st_right st_angles laps map].
    unfold ws. rewrite (laps_travels t_left w_left), (laps_travels t_right w_right), (laps_travels t_angle w_angles) by reflexivity. rewrite D1, D2, D3. auto.
  Qed.
  Lemma entry_laps {A} (g : travel -> A) f : forall n l k i, (k < n)%nat ->
    entry (map (map g) (laps n (map f) l)) k i = option_map (fun t => g (Nat.iter k f t)) (nth_error l i).
  Proof.
    induction n as [|n IH]; intros l k i Hk; [lia|]. destruct k as [|k]; unfold entry; cbn [laps map nth_error].
    - rewrite nth_error_map. reflexivity.
    - fold (entry (map (map g) (laps n (map f) (map f l))) k i). rewrite IH by lia. rewrite nth_error_map. destruct (nth_error l i) as [t|]; [|reflexivity]. cbn [option_map].
      f_equal. f_equal. clear. induction k; [reflexivity|]. cbn. f_equal. exact IHk.
  Qed.
End Hole.

(** ** Without ground *)
Section NoGround.
  Context {D : Type} (dtm_epsg : D -> Z) (conv : Z -> Z -> list row3 -> list row3) (ml mr : geomodel D) (ql qr : qmodel D) (d : D).
  Hypothesis (Hl : answers ml ql) (Hr : answers mr qr) (Kl : keeps_nan ql) (Kr : keeps_nan qr).
  Lemma hole_ground p : no_ground ql d p -> qground ql (Dtm d) p = nowhere.
  Proof. intros H. exact H. Qed.
  Lemma hole_match p : no_ground ql d p -> qmatch ql qr (Dtm d) p = nowhere.
  Proof. intros H. unfold qmatch. rewrite hole_ground by exact H. unfold qseen, nowhere. cbn [lon3 lat3 alt3]. destruct Kr as [_ ->]. reflexivity. Qed.
  Lemma hole_angle p off : no_ground ql d p -> qangle ql qr (Dtm d) off p = fin 0.
  Proof.
    intros H. assert (E1 : qend ql qr (Dtm d) off p = nowhere).
    { unfold qend. rewrite hole_match by exact H. unfold nowhere, p_row, p_col, p_alt. cbn [lon3 lat3 alt3]. change (nadd None (fin off)) with (@None R). destruct Kr as [-> _]. unfold qseen, nowhere. cbn [lon3 lat3 alt3]. destruct Kl as [_ ->]. reflexivity. }
    assert (E2 : qstart ql qr (Dtm d) off p = nowhere).
    { unfold qstart. rewrite hole_match by exact H. unfold nowhere, p_row, p_col, p_alt. cbn [lon3 lat3 alt3]. change (nsub None (fin off)) with (@None R). destruct Kr as [-> _]. unfold qseen, nowhere. cbn [lon3 lat3 alt3]. destruct Kl as [_ ->]. reflexivity. }
    unfold qangle. rewrite E1, E2. reflexivity.
  Qed.
  Lemma move_zero axis step sp p : (axis = 0 \/ axis = 1)%Z -> move_node axis step sp p (fin 0) = if Z.eqb axis 1 then shifted 0 (step * sp) p else shifted (step * sp) 0 p.
  Proof.
    assert (A : forall y x s c, s = y / 1 -> c = x / 1 -> R3 (nadd (p_row p) (fin s)) (nadd (p_col p) (fin c)) (p_alt p) = shifted y x p).
    { intros y x s c -> ->. unfold shifted, p_row, p_col, p_alt. unfold Rdiv. rewrite Rinv_1, !Rmult_1_r. reflexivity. }
    intros [-> | ->]; unfold move_node; cbv zeta.
    - change (Z.eqb 0 1) with false. cbv iota. change (nadd (fin 0) (fin (IZR (1 - 0) * PI / 2))) with (fin (0 + IZR 1 * PI / 2)).
      cbn [nlift1 fin nmul nlift2]. replace (0 + 1 * PI / 2) with (PI / 2) by field. rewrite cos_PI2, sin_PI2. apply A; field.
    - change (Z.eqb 1 1) with true. cbv iota. change (nadd (fin 0) (fin (IZR (1 - 1) * PI / 2))) with (fin (0 + IZR 0 * PI / 2)).
      cbn [nlift1 fin nmul nlift2]. replace (0 + 0 * PI / 2) with 0 by field. rewrite cos_0, sin_0. apply A; field.
  Qed.
  Lemma ratio_nan ref mx sc c : step_ratio ref mx sc None c = None.
  Proof. unfold step_ratio. destruct ref; destruct c; reflexivity. Qed.

  (** With adaptive steps, when the first step of each node ends where there is no ground. *)
  Lemma adaptive_stop axis step sp off n (lp rp : list row3) (a : list num) ref mx sc :
    axis_ok axis = true -> lp <> [] -> length rp = length lp -> length a = length lp -> (2 <= n)%nat -> 1 <= mx -> 0 <= sc ->
    (forall p x, In (p, x) (combine lp a) -> no_ground ql d (move_node axis step sp p x)) ->
    exists st, compute_strip_of_epipolar_grid dtm_epsg conv ml mr lp rp sp axis n step (Dtm d) off (Some a) (Some (ref, mx, sc)) = Some st /\
      length (st_left st) = 2%nat /\ nth_error (st_left st) 0 = Some lp /\ nth_error (st_left st) 1 = Some (map (fun _ => nowhere) lp) /\
      nth_error (st_right st) 1 = Some (map (fun _ => nowhere) lp).
  Proof.
    intros Ha Hne HR HA Hn Hm Hs HG. unfold compute_strip_of_epipolar_grid.
    assert (ED : direct dtm_epsg conv (make_localization ml (Dtm d) None None) (map (fun p => (p_row p, p_col p)) lp) None false = Some (map (qground ql (Dtm d)) lp)).
    { unfold direct, to_physical. cbn [make_localization lo_image lo_dtm lo_model lo_default lo_epsg broadcast]. rewrite !map_map; cbn [fst snd]. rewrite (q_dtm ml ql) by exact Hl. reflexivity. }
    rewrite ED. clear ED. cbv zeta.
    assert (SZ : exists slots, Z.to_nat (Rceil (INR n * ((mx - 1) * sc + 1))) = S (S slots)).
    { set (v := INR n * ((mx - 1) * sc + 1)). assert (V : 2 <= v). { unfold v. assert (2 <= INR n) by (change 2 with (INR 2); now apply le_INR). assert (0 <= (mx - 1) * sc) by (apply Rmult_le_pos; lra). nra. }
      assert (C : v <= IZR (Rceil v)) by (apply Rceil_bounds). assert (2 <= Rceil v)%Z by (apply le_IZR; lra). exists (Z.to_nat (Rceil v) - 2)%nat. lia. }
    destruct SZ as [slots ->].
    (* the nodes with their angles and right positions *)
    destruct (departures_left ql qr (Dtm d) off lp rp (Some a) HR HA) as (D1 & D2 & D3 & D4 & D5). set (dep := departures ql qr (Dtm d) off lp rp (Some a)) in *.
    assert (HD : forall t, In t dep -> no_ground ql d (move_node axis step sp (t_left t) (t_angle t))).
    { intros t I. unfold dep, departures in I. apply in_map_iff in I as (((p & r) & x) & <- & I). cbn [t_left t_angle fst snd]. apply HG.
      clear -I. revert rp a I. induction lp as [|q lp IH]; intros [|r0 rp] [|x0 a] I; cbn in I; try contradiction. destruct I as [E|I]; [injection E as -> -> ->; now left|right; now apply (IH rp a)]. }
    assert (W0 : Walk lp rp a (map (qground ql (Dtm d)) lp) (map (fun _ => fin 1) lp) = Walk (map t_left dep) (map t_right dep) (map t_angle dep) (map t_ground dep) (map (fun _ => fin 1) dep)).
    { rewrite D1, D2, D3, D4. f_equal. rewrite !map_repeat_const. now rewrite D5. }
    rewrite W0.
    cbn [strip_loop w_sum].
    assert (ON : existsb (fun s => nltb s (fin (INR n))) (map (fun _ : travel => fin 1) dep) = true).
    { destruct dep as [|t dep']; [destruct lp; [congruence|discriminate]|]. cbn [map existsb]. rewrite nltb_fin. destruct (Rltb_spec 1 (INR n)) as [|C]; [reflexivity|]. exfalso. apply C. change 1 with (INR 1). apply lt_INR. lia. }
    rewrite ON. unfold strip_step at 1. cbn [w_left w_right w_angles w_ground w_sum].
    rewrite (qmoving dtm_epsg conv ml mr ql qr Hl Hr) by (assumption || exact I). cbv iota beta.
    assert (RT : map2 (step_ratio ref mx sc) (map alt3 (map (fun t => qground ql (Dtm d) (move_node axis step sp (t_left t) (t_angle t))) dep)) (map alt3 (map t_ground dep)) = map (fun _ => None) dep).
    { rewrite !map_map, map2_map_same2. apply map_ext_in. intros t It. rewrite (hole_ground _ (HD t It)). apply ratio_nan. }
    rewrite RT. rewrite map2_map_same2.
    assert (RS : forall (f g : travel -> row3), rescale_all (map f dep) (map g dep) (map (fun _ => None) dep) = map (fun _ => nowhere) dep).
    { intros f g. clear. induction dep as [|t l IH]; [reflexivity|]. cbn [map rescale_all]. rewrite IH. f_equal. unfold rescale, rescale_num, nowhere. destruct (f t) as [x0 x1 x2], (g t) as [y0 y1 y2]. cbn [lon3 lat3 alt3]. destruct x0, x1, x2, y0, y1, y2; reflexivity. }
    rewrite !RS. pose proof (qline dtm_epsg conv ml mr ql qr Hl Hr (Dtm d) off (fun _ : travel => nowhere) dep I) as QL. rewrite QL. cbv iota beta.
    assert (OFF : existsb (fun s => nltb s (fin (INR n))) (map (fun x : travel => nadd (fin 1) (ndiv (fin 1) None)) dep) = false).
    { clear. induction dep as [|t l IH]; [reflexivity|]. cbn [map existsb]. rewrite IH. reflexivity. }
    destruct slots as [|slots]; cbn [strip_loop w_sum]; rewrite OFF; (eexists; split; [reflexivity|]; cbn [st_left st_right length map nth_error w_left w_right]; split; [reflexivity|]; split; [reflexivity|];
      rewrite <- D1, map_map; split; reflexivity).
  Qed.
End NoGround.
