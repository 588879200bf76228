(** C82: convergence of the direct localization of an RPC model. *)
From Coq Require Import Reals List Lra Lia Psatz.
From Verif Require Import Num NumLemmas ProjModel RpcModel CppRpcModel RpcSpec RpcProofs RpcRun RpcBatch RpcConvSpec RpcConv PropertiesRpc.
Import ListNotations.
Open Scope R_scope.

(** A ground position [p] the pixel really sees, in a well conditioned square that contains the start. *)
Definition starts_near (m : rpc) (alt r gsd bend steep : R) (p : located) : Prop :=
  col_of m (l_lon p) (l_lat p) alt = l_col p /\ row_of m (l_lon p) (l_lat p) alt = l_row p /\
  well_conditioned m alt r gsd bend steep (l_lon p) (l_lat p) /\
  within r (l_lon p) (l_lat p) (offset_x m) (offset_y m).

Lemma half_pow q : 0 <= q <= 1 / 2 -> q ^ (2 ^ 10 - 1) <= / 10 ^ 18.
Proof.
  intros Hq. apply Rle_trans with ((1 / 2) ^ (2 ^ 10 - 1)); [apply pow_incr; lra|].
  replace (2 ^ 10 - 1)%nat with (63 + 960)%nat by reflexivity. rewrite pow_add.
  assert (0 <= (1 / 2) ^ 960 <= 1).
  { split; [apply pow_le; lra|]. rewrite <- (pow1 960). apply pow_incr. lra. }
  assert (E : (1 / 2) ^ 63 <= / 10 ^ 18) by (simpl; lra).
  assert (0 <= (1 / 2) ^ 63) by (apply pow_le; lra).
  apply Rle_trans with ((1 / 2) ^ 63 * 1); [apply Rmult_le_compat_l; lra|lra].
Qed.

Lemma near_run m alt r gsd bend steep p n : 0 <= gsd -> 0 <= bend -> 2 * gsd * bend * r <= 1 / 2 ->
  2 * steep * r * (2 * gsd * bend * r) ^ (2 ^ n - 1) <= 1 / 1000000 ->
  starts_near m alt r gsd bend steep p ->
  exists q, l_row q = l_row p /\ l_col q = l_col p /\
    newton_run lonlat_ok m (l_row q) (l_col q) alt n (offset_x m) (offset_y m) (l_lon q) (l_lat q) /\
    reprojects m (l_row p) (l_col p) (l_lon q) (l_lat q) alt /\
    within (2 * gsd * (1 / 1000000)) (l_lon p) (l_lat p) (l_lon q) (l_lat q).
Proof.
  intros Hg Hb Hq He (HC & HR & (a & b & c & d & HW) & Hs).
  assert (Hr : 0 <= r).
  { unfold within in Hs. pose proof (size_pos (offset_x m - l_lon p) (offset_y m - l_lat p)). lra. }
  destruct (run_converges m alt r gsd bend steep (l_row p) (l_col p) (l_lon p) (l_lat p) Hg Hb HC HR a b c d HW n
    (offset_x m) (offset_y m) r Hs (Rle_refl r)) as (xf & yf & H1 & H2 & H3); [lra|exact He|].
  exists (Loc (l_row p) (l_col p) xf yf). cbn [l_row l_col l_lon l_lat].
  do 4 (split; [assumption || reflexivity|]).
  exact (reprojects_near m alt r gsd bend steep (l_row p) (l_col p) (l_lon p) (l_lat p) Hg Hb HC HR a b c d HW xf yf H3 Hq H2).
Qed.

(** Direct localization at an altitude finds the ground positions the pixels see, to 2e-6 pixel on the
    ground, and what it finds is seen within 1e-6 pixel. *)
Theorem C82_direct_loc_converges :
  forall m alt fill r gsd bend steep (L : list located), usable_inverse m ->
  0 <= gsd -> 0 <= bend -> 2 * gsd * bend * r <= 1 / 2 -> steep * r <= 10 ^ 9 ->
  Forall (starts_near m alt r gsd bend steep) L ->
  exists M,
  direct_loc_h m (map (fun p => Some (l_row p)) L) (map (fun p => Some (l_col p)) L) [Some alt] fill false
  = Some (map (fun q => R3 (Some (l_lon q)) (Some (l_lat q)) (Some alt)) M) /\
  Forall2 (fun p q => reprojects m (l_row p) (l_col p) (l_lon q) (l_lat q) alt /\
    Rabs (l_lon q - l_lon p) <= 2 * gsd / 10 ^ 6 /\ Rabs (l_lat q - l_lat p) <= 2 * gsd / 10 ^ 6) L M.
Proof.
  intros m alt fill r gsd bend steep L Hu Hg Hb Hq Hk HF.
  assert (HM : exists M, map l_row M = map l_row L /\ map l_col M = map l_col L /\
    Forall (fun q => newton_run lonlat_ok m (l_row q) (l_col q) alt 10 (offset_x m) (offset_y m) (l_lon q) (l_lat q)) M /\
    Forall2 (fun p q => reprojects m (l_row p) (l_col p) (l_lon q) (l_lat q) alt /\
    Rabs (l_lon q - l_lon p) <= 2 * gsd / 10 ^ 6 /\ Rabs (l_lat q - l_lat p) <= 2 * gsd / 10 ^ 6) L M).
  { induction L as [|p L IH].
    - exists []. repeat split; constructor.
    - destruct (IH (Forall_inv_tail HF)) as (M & E1 & E2 & F1 & F2).
      assert (Hr : 0 <= r).
      { destruct (Forall_inv HF) as (_ & _ & _ & Hs). unfold within in Hs.
        pose proof (size_pos (offset_x m - l_lon p) (offset_y m - l_lat p)). lra. }
      destruct (near_run m alt r gsd bend steep p 10 Hg Hb Hq) as (q & R1 & R2 & R3 & R4 & R5).
      + assert (0 <= 2 * gsd * bend * r) by (repeat apply Rmult_le_pos; lra).
        pose proof (half_pow (2 * gsd * bend * r) (conj H Hq)) as HP.
        assert (0 <= (2 * gsd * bend * r) ^ (2 ^ 10 - 1)) by now apply pow_le.
        set (u := (2 * gsd * bend * r) ^ (2 ^ 10 - 1)) in *.
        apply Rle_trans with (2 * 10 ^ 9 * u).
        * apply Rmult_le_compat_r; [assumption|]. lra.
        * apply Rle_trans with (2 * 10 ^ 9 * / 10 ^ 18); [apply Rmult_le_compat_l; lra|lra].
      + exact (Forall_inv HF).
      + exists (q :: M). cbn [map]. rewrite R1, R2, E1, E2. split; [reflexivity|]. split; [reflexivity|].
        split; [now constructor|]. constructor; [|assumption]. split; [assumption|].
        unfold within in R5. pose proof (size_l (l_lon q - l_lon p) (l_lat q - l_lat p)).
        pose proof (size_r (l_lon q - l_lon p) (l_lat q - l_lat p)). lra. }
  destruct HM as (M & E1 & E2 & F1 & F2). exists M. split; [|exact F2].
  rewrite <- (C12_iterative_value m alt fill M Hu F1). f_equal.
  - rewrite <- (map_map l_row Some L), <- (map_map l_row Some M). now rewrite E1.
  - rewrite <- (map_map l_col Some L), <- (map_map l_col Some M). now rewrite E2.
Qed.

(** The compiled version, with any number of iterations. *)
Theorem C82_compiled_converges :
  forall m alt n fill r gsd bend steep (p : located), usable_inverse m ->
  0 <= gsd -> 0 <= bend -> 2 * gsd * bend * r <= 1 / 2 ->
  2 * steep * r * (2 * gsd * bend * r) ^ (2 ^ n - 1) <= 1 / 10 ^ 6 ->
  starts_near m alt r gsd bend steep p ->
  exists lon lat,
  cpp_direct_loc_inverse_iterative m (Some (l_row p)) (Some (l_col p)) (Some alt) n fill
  = (Some lon, Some lat, Some alt) /\
  reprojects m (l_row p) (l_col p) lon lat alt /\
  Rabs (lon - l_lon p) <= 2 * gsd / 10 ^ 6 /\ Rabs (lat - l_lat p) <= 2 * gsd / 10 ^ 6.
Proof.
  intros m alt n fill r gsd bend steep p Hu Hg Hb Hq He HS.
  destruct (near_run m alt r gsd bend steep p n Hg Hb Hq ltac:(lra) HS) as (q & R1 & R2 & R3 & R4 & R5).
  exists (l_lon q), (l_lat q). rewrite R1, R2 in R3.
  split; [exact (C11_cpp_point_is_newton m (l_row p) (l_col p) alt n fill (l_lon q) (l_lat q) Hu
    (run_weaken _ (fun _ _ => True) _ _ _ _ _ _ _ _ _ (fun _ _ _ => I) R3))|].
  split; [assumption|].
  unfold within in R5. pose proof (size_l (l_lon q - l_lon p) (l_lat q - l_lat p)).
  pose proof (size_r (l_lon q - l_lon p) (l_lat q - l_lat p)). lra.
Qed.

(** The answer does not depend on what the ground position was supposed to be: the square holds one. *)
Theorem C82_one_position :
  forall m alt r gsd bend steep p lon lat, 0 <= gsd -> 0 <= bend -> 2 * gsd * bend * r <= 1 / 2 ->
  starts_near m alt r gsd bend steep p -> within r (l_lon p) (l_lat p) lon lat ->
  col_of m lon lat alt = l_col p -> row_of m lon lat alt = l_row p -> lon = l_lon p /\ lat = l_lat p.
Proof.
  intros m alt r gsd bend steep p lon lat Hg Hb Hq (HC & HR & (a & b & c & d & HW) & _) Hin E1 E2.
  set (s := size (lon - l_lon p) (lat - l_lat p)).
  assert (Hs : size (lon - l_lon p) (lat - l_lat p) <= s) by apply Rle_refl.
  destruct (col_remainder m alt r gsd bend steep (l_col p) (l_lon p) (l_lat p) Hb HC a b c d HW lon lat s Hin Hs) as [RC _].
  destruct (row_remainder m alt r gsd bend steep (l_row p) (l_lon p) (l_lat p) Hb HR a b c d HW lon lat s Hin Hs) as [RR _].
  destruct (HW lon lat Hin) as (_ & _ & _ & HG & _). rewrite E1 in RC. replace (l_col p - l_col p) with 0 in RC by ring. rewrite Rminus_0_r in RC.
  rewrite E2 in RR. replace (l_row p - l_row p) with 0 in RR by ring. rewrite Rminus_0_r in RR.
  assert (H : s <= gsd * (2 * bend * s * s)).
  { eapply Rle_trans; [apply HG|]. apply Rmult_le_compat_l; [assumption|]. now apply size_le. }
  assert (Hs0 : 0 <= s) by apply size_pos. assert (Hsr : s <= r) by exact Hin.
  assert (2 * gsd * bend * s <= 1 / 2).
  { eapply Rle_trans; [|exact Hq]. apply Rmult_le_compat_l; [|assumption]. repeat apply Rmult_le_pos; lra. }
  assert (s <= 0) by nra. apply size_zero in H1. lra.
Qed.

(** A model with a quadratic column. *)
Definition bent_rpc : rpc :=
  mkRpc [0;1;0;1;0;0;0;/100;0;0;0;0;0;0;0;0;0;0;0;0] (unit_at 0) (unit_at 2) (unit_at 0)
        [] [] [] [] true false
        0 1 0 1 0 1 0 1 0 1 4326.
Lemma bent_col lon lat alt : col_of bent_rpc lon lat alt = lon + alt + lon * lon / 100.
Proof. unfold col_of, cubic, nx, ny, nz. simpl. field. Qed.
Lemma bent_row lon lat alt : row_of bent_rpc lon lat alt = lat.
Proof. unfold row_of, cubic, nx, ny, nz. simpl. field. Qed.
Example C82_case :
  usable_inverse bent_rpc /\ 2 * 2 * (1 / 50) * 1 <= 1 / 2 /\ 2 * 1 <= 10 ^ 9 /\
  Forall (starts_near bent_rpc 20 1 2 (1 / 50) 2) [Loc (1 / 2) (20 + 1 / 2 + 1 / 400) (1 / 2) (1 / 2)].
Proof.
  split; [repeat split; simpl; lra|]. split; [lra|]. split; [simpl; lra|].
  constructor; [|constructor]. unfold starts_near. cbn [l_row l_col l_lon l_lat].
  split; [rewrite bent_col; lra|]. split; [rewrite bent_row; lra|]. split.
  - exists (fun x _ => 1 + 2 * x / 100), (fun _ _ => 0), (fun _ _ => 0), (fun _ _ => 1).
    intros lon lat Hin. unfold within in Hin.
    pose proof (size_l (lon - 1 / 2) (lat - 1 / 2)) as SL. pose proof (size_r (lon - 1 / 2) (lat - 1 / 2)) as SR.
    assert (HX : -1 <= lon - 1 / 2 <= 1).
    { assert (Rabs (lon - 1 / 2) <= 1) as HA by lra. revert HA. unfold Rabs. destruct Rcase_abs; lra. }
    assert (HY : -1 <= lat - 1 / 2 <= 1).
    { assert (Rabs (lat - 1 / 2) <= 1) as HA by lra. revert HA. unfold Rabs. destruct Rcase_abs; lra. }
    split; [unfold regular_at, cubic; simpl; lra|]. split; [unfold lonlat_ok; lra|].
    split; [|split].
    + assert (EX : forall (f g : R -> R) x l, (forall t, f t = g t) -> derivable_pt_lim g x l -> derivable_pt_lim f x l).
      { intros f g x l E D eps He. destruct (D eps He) as [del Hd]. exists del. intros h H1 H2. rewrite !E. now apply Hd. }
      repeat split.
      * apply (EX _ (fun t => t + 20 + t * t / 100)); [intros; apply bent_col|].
        replace (1 + 2 * lon / 100) with (1 + 0 + ((1 * lon + lon * 1) * / 100 + lon * lon * 0)) by field.
        apply derivable_pt_lim_plus.
        -- apply derivable_pt_lim_plus; [apply derivable_pt_lim_id|apply derivable_pt_lim_const].
        -- apply (derivable_pt_lim_mult (fun t => t * t) (fun _ => / 100)); [|apply derivable_pt_lim_const].
           apply (derivable_pt_lim_mult id id); apply derivable_pt_lim_id.
      * apply (EX _ (fun _ => lon + 20 + lon * lon / 100)); [intros; apply bent_col|]. apply derivable_pt_lim_const.
      * apply (EX _ (fun _ => lat)); [intros; apply bent_row|]. apply derivable_pt_lim_const.
      * apply (EX _ id); [intros; apply bent_row|]. apply derivable_pt_lim_id.
    + intros u v. pose proof (size_l ((1 + 2 * lon / 100) * u + 0 * v) (0 * u + 1 * v)) as S1.
      pose proof (size_r ((1 + 2 * lon / 100) * u + 0 * v) (0 * u + 1 * v)) as S2.
      set (s := size ((1 + 2 * lon / 100) * u + 0 * v) (0 * u + 1 * v)) in *. apply size_le.
      * replace ((1 + 2 * lon / 100) * u + 0 * v) with ((1 + 2 * lon / 100) * u) in S1 by ring.
        rewrite Rabs_mult, (Rabs_pos_eq (1 + 2 * lon / 100)) in S1 by lra. pose proof (Rabs_pos u) as PU.
        assert (1 / 2 * Rabs u <= (1 + 2 * lon / 100) * Rabs u) by (apply Rmult_le_compat_r; lra). lra.
      * replace (0 * u + 1 * v) with v in S2 by ring. pose proof (Rabs_pos v). lra.
    + intros f Hf. cbn [In] in Hf.
      assert (Hc : forall k lon' lat', Rabs (k - k) <= 1 / 50 * size (lon - lon') (lat - lat')).
      { intros. rewrite Rminus_diag_eq, Rabs_R0 by reflexivity. pose proof (size_pos (lon - lon') (lat - lat')). lra. }
      destruct Hf as [<-|[<-|[<-|[<-|[]]]]].
      * split; [rewrite Rabs_pos_eq; lra|]. intros lon' lat' _.
        replace (1 + 2 * lon / 100 - (1 + 2 * lon' / 100)) with (1 / 50 * (lon - lon')) by field.
        rewrite Rabs_mult, (Rabs_pos_eq (1 / 50)) by lra. pose proof (size_l (lon - lon') (lat - lat')). lra.
      * split; [rewrite Rabs_R0; lra|auto].
      * split; [rewrite Rabs_R0; lra|auto].
      * split; [rewrite Rabs_R1; lra|auto].
  - unfold within. apply size_le; cbn [offset_x offset_y bent_rpc]; apply Rabs_le; lra.
Qed.
