(** Displacement grids and their interpolation. *)
From Coq Require Import Reals ZArith List Bool Lra Lia.
From Verif Require Import Num NumLemmas ProjModel RpcModel TriSpec RectModel RectSpec RectStrip.
Import ListNotations.
Open Scope R_scope.

Lemma list_ext : forall {A} (a b : list A), (forall i, nth_error a i = nth_error b i) -> a = b.
Proof.
  induction a as [|x a IH]; intros [|y b] H; auto.
  - specialize (H 0%nat); discriminate.
  - specialize (H 0%nat); discriminate.
  - f_equal; [specialize (H 0%nat); cbn in H; congruence|]. apply IH. intro i. exact (H (S i)).
Qed.
Lemma grid_ext : forall {A} (a b : list (list A)), length a = length b -> (forall i j, entry a i j = entry b i j) -> a = b.
Proof.
  intros A a b Hl H. apply list_ext. intro i.
  destruct (nth_error a i) as [la|] eqn:Ea, (nth_error b i) as [lb|] eqn:Eb; auto.
  - f_equal. apply list_ext. intro j. specialize (H i j). unfold entry in H. rewrite Ea, Eb in H. exact H.
  - apply nth_error_None in Eb. assert (i < length a)%nat by (apply nth_error_Some; congruence). lia.
  - apply nth_error_None in Ea. assert (i < length b)%nat by (apply nth_error_Some; congruence). lia.
Qed.

Lemma mapi_nth : forall {A B} (f : nat -> A -> B) l k i, nth_error (mapi f k l) i = option_map (f (k + i)%nat) (nth_error l i).
Proof.
  induction l as [|x l IH]; intros k i; [destruct i; reflexivity|].
  destruct i; cbn [mapi nth_error]. rewrite Nat.add_0_r; reflexivity. rewrite IH. f_equal. f_equal. lia.
Qed.
Lemma mapi_length : forall {A B} (f : nat -> A -> B) l k, length (mapi f k l) = length l.
Proof. induction l; intros; cbn; auto. Qed.
Lemma mapi2_entry : forall {A B} (f : nat -> nat -> A -> B) m i j,
  entry (mapi (fun r line => mapi (fun c x => f r c x) 0 line) 0 m) i j = option_map (f i j) (entry m i j).
Proof.
  intros. unfold entry. rewrite mapi_nth. destruct (nth_error m i); cbn; [|reflexivity]. rewrite mapi_nth. reflexivity.
Qed.
Lemma map_entry : forall {A B} (f : A -> B) m i j, entry (map (map f) m) i j = option_map f (entry m i j).
Proof. intros. unfold entry. rewrite nth_error_map. destruct (nth_error m i); cbn; [|reflexivity]. apply nth_error_map. Qed.

Lemma transpose_length : forall {A} n (m : list (list A)), length (transpose n m) = n.
Proof. induction n; intros; cbn; auto. Qed.

Lemma transpose_entry : forall {A} n (m : list (list A)), (forall l, In l m -> length l = n) ->
  forall i j, entry (transpose n m) i j = entry m j i.
Proof.
  induction n as [|n IH]; intros m Hm i j.
  - assert (E : entry m j i = None).
    { unfold entry. destruct (nth_error m j) as [l|] eqn:E; auto. apply nth_error_None. rewrite (Hm l) by (eapply nth_error_In; eauto). lia. }
    rewrite E. unfold entry, transpose. destruct i; reflexivity.
  - cbn [transpose].
    assert (H : exists h, seq_opt (map (@hd_error A) m) = Some h /\ forall j, nth_error h j = entry m j 0).
    { clear IH i j. induction m as [|l m IHm]; [exists []; split; [reflexivity|intro j; unfold entry; destruct j; reflexivity]|].
      destruct IHm as (h & E & Hh). { intros; apply Hm; right; auto. }
      destruct l as [|x l]; [specialize (Hm [] (or_introl eq_refl)); discriminate|].
      cbn [map hd_error seq_opt]. rewrite E. exists (x :: h). split; [reflexivity|]. intros [|j]; [reflexivity|]. apply Hh. }
    destruct H as (h & -> & Hh). destruct i as [|i].
    + unfold entry at 1. cbn [nth_error]. apply Hh.
    + change (entry (h :: transpose n (map (@tl A) m)) (S i) j) with (entry (transpose n (map (@tl A) m)) i j).
      rewrite IH.
      * unfold entry. rewrite nth_error_map. destruct (nth_error m j) as [l|] eqn:E; [|reflexivity]. cbn [option_map].
        destruct l; [apply nth_error_In in E; specialize (Hm _ E); discriminate|reflexivity].
      * intros l Hl. apply in_map_iff in Hl. destruct Hl as (l' & <- & Hl'). specialize (Hm _ Hl'). destruct l'; cbn in *; lia.
Qed.

Lemma displacement_centre : forall step (r c : nat),
  transform_index_to_physical_point (displacement_transform step) (INR c) (INR r) = (INR c * step, INR r * step).
Proof. intros. unfold transform_index_to_physical_point, displacement_transform, affine_apply; cbn. f_equal; field. Qed.

Lemma nsub_nadd : forall v x, nadd (nsub v (fin x)) (fin x) = v.
Proof. intros [v|] x; cbn; [|reflexivity]. f_equal; ring. Qed.

Definition grid_of (h w : nat) (G : list (list row3)) : Prop := length G = h /\ forall l, In l G -> length l = w.

Lemma displaced_is_grid : forall h w G step, grid_of h w G -> grid_of h w (positions_to_displacement_grid G step).
Proof.
  intros h w G step [H1 H2]. unfold positions_to_displacement_grid. split; [rewrite mapi_length; auto|].
  intros l Hl. apply In_nth_error in Hl. destruct Hl as [i Hi]. rewrite mapi_nth in Hi.
  destruct (nth_error G i) as [l0|] eqn:E; [|discriminate]. injection Hi as <-. rewrite mapi_length. apply H2. eapply nth_error_In; eauto.
Qed.

Lemma map_grid_lines : forall {B} (f : row3 -> B) w G, (forall l, In l G -> length l = w) -> forall l, In l (map (map f) G) -> length l = w.
Proof. intros B f w G H l Hl. apply in_map_iff in Hl. destruct Hl as (l0 & <- & Hl). rewrite map_length. auto. Qed.

Lemma displacement_same : forall h w G step, grid_of h w G ->
  let t := displacement_transform step in
  let '(b1, b2) := write_epipolar_grid G true in
  let '(d1, d2) := write_epipolar_grid (positions_to_displacement_grid G step) true in
  read_rectification_grid t w h d1 d2 true = read_rectification_grid t w h b1 b2 false.
Proof.
  intros h w G step HG t. unfold write_epipolar_grid, read_rectification_grid.
  assert (Eo : affine_apply t (1 / 2, 1 / 2) = (0, 0)).
  { unfold t, displacement_transform, affine_apply; cbn. f_equal; field. }
  rewrite Eo. destruct (displaced_is_grid h w G step HG) as [_ HD]. destruct HG as [HG1 HG2].
  f_equal; (apply grid_ext; [rewrite mapi_length, !transpose_length; reflexivity|]); intros i j.
  - rewrite (mapi2_entry (fun (_ : nat) r v => nadd v (fin (0 + INR r * af_e t)))).
    rewrite !transpose_entry by (apply map_grid_lines; auto).
    rewrite !map_entry. unfold positions_to_displacement_grid. rewrite (mapi2_entry (fun r c p => displace step r c p)).
    destruct (entry G j i) as [p|]; [|reflexivity]. cbn [option_map]. f_equal.
    unfold displace. rewrite displacement_centre. cbn [lon3].
    replace (0 + INR j * af_e t) with (INR j * step) by (unfold t, displacement_transform; cbn; ring). apply nsub_nadd.
  - rewrite (mapi2_entry (fun c (_ : nat) v => nadd v (fin (0 + INR c * af_a t)))).
    rewrite !transpose_entry by (apply map_grid_lines; auto).
    rewrite !map_entry. unfold positions_to_displacement_grid. rewrite (mapi2_entry (fun r c p => displace step r c p)).
    destruct (entry G j i) as [p|]; [|reflexivity]. cbn [option_map]. f_equal.
    unfold displace. rewrite displacement_centre. cbn [lat3].
    replace (0 + INR i * af_a t) with (INR i * step) by (unfold t, displacement_transform; cbn; ring). apply nsub_nadd.
Qed.

(** ** Interpolation *)
Lemma at2_entry : forall a i j v, entry a i j = Some v -> at2 a i j = v.
Proof.
  intros a i j v H. unfold entry in H. unfold at2. destruct (nth_error a i) as [l|] eqn:E; [|discriminate].
  rewrite (nth_error_nth a i [] E). apply nth_error_nth. exact H.
Qed.

(** The bilinear combination of four corners. *)
Definition blend (f : nat -> nat -> R) (i j : nat) (u v : R) : R :=
  (1 - u) * (1 - v) * f i j + (1 - u) * v * f i (S j) + u * (1 - v) * f (S i) j + u * v * f (S i) (S j).

Lemma bilinear_fin : forall a f i j u v,
  (forall i' j', (i <= i' <= S i)%nat -> (j <= j' <= S j)%nat -> at2 a i' j' = Some (f i' j')) ->
  bilinear a i j u v = Some (blend f i j u v).
Proof.
  intros a f i j u v H. unfold bilinear, blend. rewrite !H by lia. cbn. f_equal. ring.
Qed.

Lemma grid_cell_spec : forall step n (c : nat) u, 0 < step -> 0 <= u <= 1 -> (S c < n)%nat ->
  let i := grid_cell 0 step n ((INR c + u) * step) in
  (i = c \/ (u = 0 /\ S i = c)).
Proof.
  intros step n c u Hs Hu Hc i. unfold i, grid_cell.
  replace (((INR c + u) * step - 0) / step) with (INR c + u) by (field; lra).
  destruct (Req_EM_T u 0) as [->|Hu0].
  - rewrite Rplus_0_r. rewrite INR_IZR_INZ, Rceil_IZR. destruct c as [|c].
    + left. cbn. destruct (n - 2)%nat; reflexivity.
    + right. split; [reflexivity|]. rewrite Nat2Z.inj_succ. replace (Z.succ (Z.of_nat c) - 1)%Z with (Z.of_nat c) by lia.
      rewrite Nat2Z.id. rewrite Nat.min_r by lia. reflexivity.
  - left. rewrite INR_IZR_INZ. rewrite (Rceil_unique _ (Z.of_nat c + 1)).
    + replace (Z.of_nat c + 1 - 1)%Z with (Z.of_nat c) by lia. rewrite Nat2Z.id. apply Nat.min_r. lia.
    + rewrite plus_IZR. cbn. lra.
Qed.

Lemma blend_edge_u : forall f i j v, blend f i j 1 v = blend f (S i) j 0 v.
Proof. intros; unfold blend; ring. Qed.
Lemma blend_edge_v : forall f i j u, blend f i j u 1 = blend f i (S j) u 0.
Proof. intros; unfold blend; ring. Qed.

Lemma interpolate_cell : forall (rg : rect_grid) step w h (fc fr : nat -> nat -> R) r c u v,
  rg_ori_col rg = 0 -> rg_ori_row rg = 0 -> rg_step_col rg = step -> rg_step_row rg = step -> rg_cols rg = w -> rg_rows rg = h ->
  0 < step -> (S c < w)%nat -> (S r < h)%nat -> 0 <= u <= 1 -> 0 <= v <= 1 ->
  (forall i j, (i < w)%nat -> (j < h)%nat -> at2 (rg_col_positions rg) i j = Some (fc i j)) ->
  (forall i j, (i < w)%nat -> (j < h)%nat -> at2 (rg_row_positions rg) i j = Some (fr i j)) ->
  interpolate_grid rg ((INR c + u) * step) ((INR r + v) * step) = (Some (blend fc c r u v), Some (blend fr c r u v)).
Proof.
  intros rg step w h fc fr r c u v E1 E2 E3 E4 E5 E6 Hs Hc Hr Hu Hv Fc Fr.
  unfold interpolate_grid. rewrite E1, E2, E3, E4, E5, E6.
  destruct (grid_cell_spec step w c u Hs Hu Hc) as [Ei|[Eu Ei]]; destruct (grid_cell_spec step h r v Hs Hv Hr) as [Ej|[Ev Ej]];
  set (i := grid_cell 0 step w ((INR c + u) * step)) in *; set (j := grid_cell 0 step h ((INR r + v) * step)) in *.
  - rewrite Ei, Ej. replace (((INR c + u) * step - (0 + INR c * step)) / step) with u by (field; lra).
    replace (((INR r + v) * step - (0 + INR r * step)) / step) with v by (field; lra).
    rewrite (bilinear_fin (rg_col_positions rg) fc), (bilinear_fin (rg_row_positions rg) fr); auto; intros; (apply Fc || apply Fr); lia.
  - rewrite Ei, <- Ej. rewrite Ev. replace (((INR c + u) * step - (0 + INR c * step)) / step) with u by (field; lra).
    replace (((INR (S j) + 0) * step - (0 + INR j * step)) / step) with 1 by (rewrite S_INR; field; lra).
    rewrite (bilinear_fin (rg_col_positions rg) fc), (bilinear_fin (rg_row_positions rg) fr).
    + rewrite !blend_edge_v. reflexivity.
    + intros; apply Fr; lia.
    + intros; apply Fc; lia.
  - rewrite <- Ei, Ej. rewrite Eu. replace (((INR (S i) + 0) * step - (0 + INR i * step)) / step) with 1 by (rewrite S_INR; field; lra).
    replace (((INR r + v) * step - (0 + INR r * step)) / step) with v by (field; lra).
    rewrite (bilinear_fin (rg_col_positions rg) fc), (bilinear_fin (rg_row_positions rg) fr).
    + rewrite !blend_edge_u. reflexivity.
    + intros; apply Fr; lia.
    + intros; apply Fc; lia.
  - rewrite <- Ei, <- Ej. rewrite Eu, Ev. replace (((INR (S i) + 0) * step - (0 + INR i * step)) / step) with 1 by (rewrite S_INR; field; lra).
    replace (((INR (S j) + 0) * step - (0 + INR j * step)) / step) with 1 by (rewrite S_INR; field; lra).
    rewrite (bilinear_fin (rg_col_positions rg) fc), (bilinear_fin (rg_row_positions rg) fr).
    + rewrite !blend_edge_u, !blend_edge_v. reflexivity.
    + intros; apply Fr; lia.
    + intros; apply Fc; lia.
Qed.
