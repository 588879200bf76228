(** C35: rectification grids read from a file with any origin and any two steps. *)
From Coq Require Import Reals ZArith List Bool Lra Lia.
From Verif Require Import Num NumLemmas ProjModel RpcModel DtmModel RpcDtmModel LocModel TriModel TriBatch
  RectModel RectSpec RectProofs RectStrip RectGrid RectBox RectDisp PropertiesRect PropertiesRect2.
Import ListNotations.
Open Scope R_scope.

Lemma interpolate_normalised : forall rg (c r : nat) u v, rg_step_col rg <> 0 -> rg_step_row rg <> 0 ->
  interpolate_grid rg (rg_ori_col rg + (INR c + u) * rg_step_col rg) (rg_ori_row rg + (INR r + v) * rg_step_row rg) =
  interpolate_grid (RectGrid 0 0 1 1 (rg_cols rg) (rg_rows rg) (rg_row_positions rg) (rg_col_positions rg)) ((INR c + u) * 1) ((INR r + v) * 1).
Proof.
  intros rg c r u v Hc Hr. unfold interpolate_grid. cbn [rg_ori_col rg_ori_row rg_step_col rg_step_row rg_cols rg_rows rg_row_positions rg_col_positions].
  assert (Ei : grid_cell (rg_ori_col rg) (rg_step_col rg) (rg_cols rg) (rg_ori_col rg + (INR c + u) * rg_step_col rg) = grid_cell 0 1 (rg_cols rg) ((INR c + u) * 1)).
  { unfold grid_cell. replace ((rg_ori_col rg + (INR c + u) * rg_step_col rg - rg_ori_col rg) / rg_step_col rg) with (((INR c + u) * 1 - 0) / 1) by (field; exact Hc). reflexivity. }
  assert (Ej : grid_cell (rg_ori_row rg) (rg_step_row rg) (rg_rows rg) (rg_ori_row rg + (INR r + v) * rg_step_row rg) = grid_cell 0 1 (rg_rows rg) ((INR r + v) * 1)).
  { unfold grid_cell. replace ((rg_ori_row rg + (INR r + v) * rg_step_row rg - rg_ori_row rg) / rg_step_row rg) with (((INR r + v) * 1 - 0) / 1) by (field; exact Hr). reflexivity. }
  rewrite Ei, Ej. set (i := grid_cell 0 1 (rg_cols rg) _). set (j := grid_cell 0 1 (rg_rows rg) _).
  replace ((rg_ori_col rg + (INR c + u) * rg_step_col rg - (rg_ori_col rg + INR i * rg_step_col rg)) / rg_step_col rg) with (((INR c + u) * 1 - (0 + INR i * 1)) / 1) by (field; exact Hc).
  replace ((rg_ori_row rg + (INR r + v) * rg_step_row rg - (rg_ori_row rg + INR j * rg_step_row rg)) / rg_step_row rg) with (((INR r + v) * 1 - (0 + INR j * 1)) / 1) by (field; exact Hr).
  reflexivity.
Qed.

(** The files have two bands of h lines of w numbers: columns, then rows.  The position (x, y) is in the
    cell between the centres of the pixels (r, c) and (r + 1, c + 1) of the file, at the fractions u, v.
    The result is the bilinear interpolation of the bands; when the file holds displacements, it is added
    to the position itself. *)
Theorem C35_file_with_any_steps :
  forall h w (B1 B2 : list (list R)) t (displacement : bool) r c u v x y c00 c10 c01 c11 r00 r10 r01 r11,
    shaped h w B1 -> shaped h w B2 -> af_b t = 0 -> af_d t = 0 -> 0 < af_a t -> 0 < af_e t -> 0 <= u <= 1 -> 0 <= v <= 1 ->
    entry B1 r c = Some c00 -> entry B1 r (S c) = Some c10 -> entry B1 (S r) c = Some c01 -> entry B1 (S r) (S c) = Some c11 ->
    entry B2 r c = Some r00 -> entry B2 r (S c) = Some r10 -> entry B2 (S r) c = Some r01 -> entry B2 (S r) (S c) = Some r11 ->
    (x, y) = affine_apply t (INR c + 1 / 2 + u, INR r + 1 / 2 + v) ->
    interpolate_grid (read_rectification_grid t w h (map (map fin) B1) (map (map fin) B2) displacement) x y =
    (fin (mix u v c00 c10 c01 c11 + (if displacement then x else 0)), fin (mix u v r00 r10 r01 r11 + (if displacement then y else 0))).
Proof.
  intros h w B1 B2 t displacement r c u v x y c00 c10 c01 c11 r00 r10 r01 r11 HS1 HS2 Hb Hd Ha He Hu Hv C00 C10 C01 C11 R00 R10 R01 R11 E.
  unfold affine_apply in E. rewrite Hb, Hd in E. injection E as -> ->.
  set (oc := 1 / 2 * af_a t + af_c t). set (orow := 1 / 2 * af_e t + af_f t).
  set (g := read_rectification_grid t w h (map (map fin) B1) (map (map fin) B2) displacement).
  assert (G : rg_ori_col g = oc /\ rg_ori_row g = orow /\ rg_step_col g = af_a t /\ rg_step_row g = af_e t /\ rg_cols g = w /\ rg_rows g = h).
  { unfold g, read_rectification_grid, affine_apply. rewrite Hb, Hd. unfold oc, orow. destruct displacement; cbn [rg_ori_col rg_ori_row rg_step_col rg_step_row rg_cols rg_rows];
    (split; [ring|split; [ring|repeat (split; [reflexivity|]); reflexivity]]). }
  destruct G as (G1 & G2 & G3 & G4 & G5 & G6).
  assert (IN : forall (B : list (list R)), shaped h w B -> forall i j, (i < w)%nat -> (j < h)%nat -> exists p, entry B j i = Some p).
  { intros B [L1 L2] i j Hi Hj. unfold entry. destruct (nth_error B j) as [l|] eqn:El; [|apply nth_error_None in El; lia].
    specialize (L2 l (nth_error_In _ _ El)). destruct (nth_error l i) eqn:Ei; [eauto|]. apply nth_error_None in Ei. lia. }
  assert (LT : (S r < h)%nat /\ (S c < w)%nat).
  { destruct HS1 as [L1 L2]. unfold entry in C11. destruct (nth_error B1 (S r)) as [l|] eqn:El; [|discriminate].
    split; [rewrite <- L1; apply nth_error_Some; congruence|]. rewrite <- (L2 l (nth_error_In _ _ El)). apply nth_error_Some; congruence. }
  assert (LW : forall (B : list (list R)), shaped h w B -> forall l, In l (map (map fin) B) -> length l = w).
  { intros B [_ L2] l Hl. apply in_map_iff in Hl. destruct Hl as (l0 & <- & Hl). rewrite map_length. auto. }
  set (fc := fun i j => match entry B1 j i with Some p => p | None => 0 end + (if displacement then oc + INR i * af_a t else 0)).
  set (fr := fun i j => match entry B2 j i with Some p => p | None => 0 end + (if displacement then orow + INR j * af_e t else 0)).
  replace ((INR c + 1 / 2 + u) * af_a t + (INR r + 1 / 2 + v) * 0 + af_c t) with (rg_ori_col g + (INR c + u) * rg_step_col g) by (rewrite G1, G3; unfold oc; field).
  replace ((INR c + 1 / 2 + u) * 0 + (INR r + 1 / 2 + v) * af_e t + af_f t) with (rg_ori_row g + (INR r + v) * rg_step_row g) by (rewrite G2, G4; unfold orow; field).
  rewrite interpolate_normalised by (rewrite ?G3, ?G4; lra). rewrite G1, G2, G3, G4, G5, G6.
  assert (AC : forall i j, (i < w)%nat -> (j < h)%nat -> at2 (rg_col_positions g) i j = Some (fc i j)).
  { intros i j Hi Hj. destruct (IN B1 HS1 i j Hi Hj) as [p Ep]. apply at2_entry. unfold g, read_rectification_grid, affine_apply, fc. rewrite Ep, Hb, Hd.
    destruct displacement; cbn [rg_col_positions].
    - rewrite (mapi2_entry (fun cc (_ : nat) vv => nadd vv (fin (1 / 2 * af_a t + 1 / 2 * 0 + af_c t + INR cc * af_a t)))).
      rewrite transpose_entry by (apply LW; exact HS1). rewrite map_entry, Ep. cbn [option_map nadd nlift2 fin]. unfold nadd, nlift2, fin. do 2 f_equal. unfold oc. ring.
    - rewrite transpose_entry by (apply LW; exact HS1). rewrite map_entry, Ep. cbn [option_map]. unfold fin. do 2 f_equal. ring. }
  assert (AR : forall i j, (i < w)%nat -> (j < h)%nat -> at2 (rg_row_positions g) i j = Some (fr i j)).
  { intros i j Hi Hj. destruct (IN B2 HS2 i j Hi Hj) as [p Ep]. apply at2_entry. unfold g, read_rectification_grid, affine_apply, fr. rewrite Ep, Hb, Hd.
    destruct displacement; cbn [rg_row_positions].
    - rewrite (mapi2_entry (fun (_ : nat) rr vv => nadd vv (fin (1 / 2 * 0 + 1 / 2 * af_e t + af_f t + INR rr * af_e t)))).
      rewrite transpose_entry by (apply LW; exact HS2). rewrite map_entry, Ep. cbn [option_map nadd nlift2 fin]. unfold nadd, nlift2, fin. do 2 f_equal. unfold orow. ring.
    - rewrite transpose_entry by (apply LW; exact HS2). rewrite map_entry, Ep. cbn [option_map]. unfold fin. do 2 f_equal. ring. }
  rewrite (interpolate_cell (RectGrid 0 0 1 1 w h (rg_row_positions g) (rg_col_positions g)) 1 w h fc fr r c u v);
    try reflexivity; try lra; try (apply LT); auto.
  unfold blend, mix, fc, fr. rewrite C00, C10, C01, C11, R00, R10, R01, R11, !S_INR. unfold fin.
  apply f_equal2; apply f_equal; destruct displacement; ring.
Qed.
(** Two lines of three nodes, 30 columns and 20 rows apart. *)
Example C35_file_with_any_steps_ex :
  interpolate_grid (read_rectification_grid (mkAffine 30 0 100 0 20 400) 3 2 (map (map fin) [[1; 2; 3]; [4; 5; 6]]) (map (map fin) [[0; 0; 0]; [8; 8; 8]]) true) 160 415
  = (fin (mix (1 / 2) (1 / 4) 2 3 5 6 + 160), fin (mix (1 / 2) (1 / 4) 0 0 8 8 + 415)).
Proof.
  apply (C35_file_with_any_steps 2 3 [[1; 2; 3]; [4; 5; 6]] [[0; 0; 0]; [8; 8; 8]] (mkAffine 30 0 100 0 20 400) true 0 1 (1 / 2) (1 / 4) 160 415 2 3 5 6 0 0 8 8);
    try reflexivity; try (cbn; lra).
  - split; [reflexivity|]. intros l [<-|[<-|[]]]; reflexivity.
  - split; [reflexivity|]. intros l [<-|[<-|[]]]; reflexivity.
  - unfold affine_apply. cbn. f_equal; lra.
Qed.
