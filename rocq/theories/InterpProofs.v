From Coq Require Import Reals ZArith List Bool Lra Lia Psatz.
From Verif Require Import Num NumLemmas InterpModel InterpSpec.
Import ListNotations.
Open Scope R_scope.

Lemma lower_index_range nb d : (2 <= nb)%Z -> (0 <= lower_index nb d < nb - 1)%Z.
Proof.
  intros H. unfold lower_index. rcase1; [lia|]. rcase1; [lia|].
  assert (0 <= d) by lra. assert (d < IZR (nb - 1)) by lra.
  split; [apply le_floor; simpl; lra| now apply floor_lt].
Qed.

Lemma lower_index_vec_eq nb d : (1 <= nb)%Z -> lower_index_vec nb d = lower_index nb d.
Proof.
  intros H. unfold lower_index_vec, lower_index.
  assert (0 <= IZR (nb - 1)) by (apply IZR_le; lia).
  repeat rcase1; try reflexivity; lra.
Qed.

Lemma rs_get_node m i j : is_node m i j -> rs_get m i j = Some (rs_at m i j).
Proof.
  intros [[H1 H2] [H3 H4]]. unfold rs_get.
  rewrite (proj2 (Z.leb_le _ _) H1), (proj2 (Z.ltb_lt _ _) H2),
          (proj2 (Z.leb_le _ _) H3), (proj2 (Z.ltb_lt _ _) H4). reflexivity.
Qed.

Lemma cell_nodes m i j a b :
  is_cell m i j -> (a = i \/ a = i + 1)%Z -> (b = j \/ b = j + 1)%Z -> is_node m a b.
Proof. unfold is_cell, is_node. lia. Qed.

Lemma lower_cell m r c : big_enough m ->
  is_cell m (lower_index (rs_rows m) r) (lower_index (rs_cols m) c).
Proof. intros [? ?]. split; now apply lower_index_range. Qed.

Lemma inter_layer_lower m r c : big_enough m ->
  inter_layer m c r (lower_index (rs_cols m) c) (lower_index (rs_rows m) r) = Some (interp m r c).
Proof.
  intros H. pose proof (lower_cell m r c H) as HC. unfold inter_layer.
  rewrite !rs_get_node by (eapply cell_nodes; eauto). reflexivity.
Qed.

Lemma interpol_bilin_some m r c : big_enough m ->
  interpol_bilin m (rs_rows m) (rs_cols m) r c = Some (interp m r c).
Proof.
  intros H. pose proof (lower_cell m r c H) as HC. unfold interpol_bilin.
  rewrite !rs_get_node by (eapply cell_nodes; eauto). reflexivity.
Qed.

Lemma interpol_bilin_grid_some mats nr nc r c :
  (forall mat m, In mat mats -> In m mat -> big_enough m /\ rs_rows m = nr /\ rs_cols m = nc) ->
  interpol_bilin_grid mats nr nc r c = Some (map (map (fun m => interp m r c)) mats).
Proof.
  intros H. unfold interpol_bilin_grid.
  apply (seq_opt_map_ext _ (map (fun m => interp m r c))). intros mat Hmat.
  apply (seq_opt_map_ext _ (fun m => interp m r c)). intros m Hm.
  destruct (H mat m Hmat Hm) as (Hb & <- & <-). now apply inter_layer_lower.
Qed.

Lemma interpol_bilin_vectorized_some mats nr nc ps :
  (forall mat m, In mat mats -> In m mat -> big_enough m /\ rs_rows m = nr /\ rs_cols m = nc) ->
  interpol_bilin_vectorized mats nr nc ps =
  Some (map (map (fun m => map (fun p => interp m (fst p) (snd p)) ps)) mats).
Proof.
  intros H. unfold interpol_bilin_vectorized.
  apply (seq_opt_map_ext _ (map (fun m => map (fun p => interp m (fst p) (snd p)) ps))).
  intros mat Hmat.
  apply (seq_opt_map_ext _ (fun m => map (fun p => interp m (fst p) (snd p)) ps)).
  intros m Hm. destruct (H mat m Hmat Hm) as (Hb & <- & <-).
  apply (seq_opt_map_ext _ (fun p => interp m (fst p) (snd p))).
  intros [r c] _. destruct Hb. rewrite !lower_index_vec_eq by lia.
  apply inter_layer_lower; split; lia.
Qed.

(** ** The flattened array of the C++ class *)
Lemma flat_map_nth {A} (f : nat -> list A) (w : nat) (n k0 : nat) r c a :
  (forall r, length (f r) = w) -> (c < w)%nat -> (r < n)%nat ->
  nth_error (f (k0 + r)%nat) c = Some a ->
  nth_error (flat_map f (seq k0 n)) (r * w + c) = Some a.
Proof.
  intros Hl Hc. revert k0 r. induction n as [|n IH]; intros k0 r Hr Ha; [lia|].
  simpl. destruct r as [|r].
  - rewrite nth_error_app1 by (rewrite Hl; lia). now rewrite Nat.add_0_r in Ha.
  - rewrite nth_error_app2 by (rewrite Hl; lia). rewrite Hl.
    replace (S r * w + c - w)%nat with (r * w + c)%nat by lia.
    apply IH; [lia|]. now replace (S k0 + r)%nat with (k0 + S r)%nat by lia.
Qed.

Lemma flatten_get m i j : is_node m i j ->
  vec_get (flatten_raster m) (i * rs_cols m + j) = Some (rs_at m i j).
Proof.
  intros [[H1 H2] [H3 H4]]. unfold vec_get, flatten_raster.
  assert (0 <= i * rs_cols m)%Z by nia.
  rewrite (proj2 (Z.ltb_ge _ _)) by lia.
  replace (Z.to_nat (i * rs_cols m + j))
    with (Z.to_nat i * Z.to_nat (rs_cols m) + Z.to_nat j)%nat
    by (rewrite Z2Nat.inj_add, Z2Nat.inj_mul; lia).
  apply flat_map_nth with (k0 := 0%nat).
  - intros. now rewrite map_length, seq_length.
  - lia.
  - lia.
  - simpl.
    erewrite map_nth_error; [|apply nth_error_nth' with (d := 0%nat); rewrite seq_length; lia].
    rewrite seq_nth by lia. simpl. f_equal. now rewrite !Z2Nat.id by lia.
Qed.

Lemma cpp_interpolate_some m r c : big_enough m ->
  cpp_interpolate (flatten_raster m) (rs_rows m) (rs_cols m) r c = Some (interp m r c).
Proof.
  intros H. pose proof (lower_cell m r c H) as HC. unfold cpp_interpolate.
  replace (IZR (rs_rows m) - 1) with (IZR (rs_rows m - 1)) by (rewrite minus_IZR; ring).
  replace (IZR (rs_cols m) - 1) with (IZR (rs_cols m - 1)) by (rewrite minus_IZR; ring).
  fold (lower_index (rs_rows m) r). fold (lower_index (rs_cols m) c).
  rewrite !flatten_get by (eapply cell_nodes; eauto). reflexivity.
Qed.

(** ** The value *)
Lemma interp_lower_is_spec m r c :
  interp m r c
  = bilinear_in_cell m (lower_index (rs_rows m) r) (lower_index (rs_cols m) c) r c.
Proof. unfold interp, bilinear_in_cell, bilin_value, lerp. ring. Qed.

Lemma lower_index_in_cell nb d i : (0 <= i < nb - 1)%Z -> IZR i <= d <= IZR i + 1 ->
  lower_index nb d = i \/ (d = IZR i + 1 /\ lower_index nb d = (i + 1)%Z).
Proof.
  intros Hi Hd. unfold lower_index.
  assert (0 <= IZR i) by (apply IZR_le; lia).
  assert (IZR i + 1 <= IZR (nb - 1)) by (rewrite <- succ_IZR; apply IZR_le; lia).
  rcase1; [lra|]. rcase1.
  - assert (d = IZR i + 1) by lra. left.
    assert (IZR (nb - 1) = IZR (i + 1)) by (rewrite plus_IZR; lra).
    apply eq_IZR in H2. lia.
  - destruct (Req_dec d (IZR i + 1)).
    + right. split; [assumption|]. subst. rewrite <- succ_IZR. apply Rfloor_IZR.
    + left. apply Rfloor_unique. lra.
Qed.

Lemma interp_in_cell m i j r c : is_cell m i j -> in_cell i j r c ->
  interp m r c = bilinear_in_cell m i j r c.
Proof.
  intros [Hi Hj] [Hr Hc]. rewrite interp_lower_is_spec.
  destruct (lower_index_in_cell _ _ _ Hi Hr) as [->|[Er ->]];
  destruct (lower_index_in_cell _ _ _ Hj Hc) as [->|[Ec ->]]; try reflexivity;
  unfold bilinear_in_cell, lerp; rewrite ?plus_IZR, ?Er, ?Ec;
  ring.
Qed.

Lemma node_in_a_cell m i j : big_enough m -> is_node m i j ->
  exists a b, is_cell m a b /\ in_cell a b (IZR i) (IZR j) /\
    (a = i \/ i = a + 1)%Z /\ (b = j \/ j = b + 1)%Z.
Proof.
  intros [Hr Hc] [Hi Hj].
  exists (Z.min i (rs_rows m - 2)), (Z.min j (rs_cols m - 2)).
  unfold is_cell, in_cell. rewrite <- !plus_IZR.
  repeat split; try apply IZR_le; lia.
Qed.

Lemma interp_node m i j : big_enough m -> is_node m i j ->
  interp m (IZR i) (IZR j) = rs_at m i j.
Proof.
  intros Hb Hn. destruct (node_in_a_cell m i j Hb Hn) as (a & b & Hc & Hin & Ha & Hbj).
  rewrite (interp_in_cell m a b) by assumption. unfold bilinear_in_cell, lerp.
  destruct Ha as [->| ->], Hbj as [->| ->]; rewrite ?plus_IZR; ring_simplify; reflexivity.
Qed.

Lemma hull_in_a_cell m r c : big_enough m -> in_hull m r c ->
  exists i j, is_cell m i j /\ in_cell i j r c.
Proof.
  intros Hb [Hr Hc].
  exists (lower_index (rs_rows m) r), (lower_index (rs_cols m) c).
  split; [now apply lower_cell|]. destruct Hb as [Hb1 Hb2].
  assert (HH : forall nb d, (2 <= nb)%Z -> 0 <= d <= IZR (nb - 1) ->
     IZR (lower_index nb d) <= d <= IZR (lower_index nb d) + 1).
  { intros nb d H2 Hd. unfold lower_index. rcase1; [lra|]. rcase1.
    - replace (nb - 2)%Z with (nb - 1 - 1)%Z by lia. rewrite minus_IZR. lra.
    - pose proof (Rfloor_bounds d). lra. }
  split; now apply HH.
Qed.

Lemma lerp_bounds a b t lo hi : 0 <= t <= 1 -> lo <= a <= hi -> lo <= b <= hi ->
  lo <= lerp a b t <= hi.
Proof. unfold lerp. intros. split; nra. Qed.

Lemma bilinear_bounds m i j r c lo hi : in_cell i j r c -> cell_samples_within m i j lo hi ->
  lo <= bilinear_in_cell m i j r c <= hi.
Proof.
  intros [Hr Hc] Hs. unfold bilinear_in_cell.
  repeat (apply lerp_bounds; [lra| |]); apply Hs; auto.
Qed.

Lemma interp_affine m k a b r c : big_enough m -> affine_raster m k a b ->
  interp m r c = k + a * r + b * c.
Proof.
  intros Hb Ha. rewrite interp_lower_is_spec. unfold bilinear_in_cell, lerp.
  pose proof (lower_cell m r c Hb) as HC.
  rewrite !Ha by (eapply cell_nodes; eauto). rewrite !plus_IZR. ring.
Qed.
