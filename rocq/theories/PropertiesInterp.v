(** C01-C04: bilinear interpolation ([math_utils.py] and its C++ twin). *)
From Coq Require Import Reals ZArith List Lra Lia.
From Verif Require Import Num NumLemmas InterpModel InterpSpec InterpProofs.
Import ListNotations.
Open Scope R_scope.

(** A concrete 3x4 raster used in the examples. *)
Definition ex_raster : raster := mkRaster 3 4 (fun r c => IZR (r * r + 2 * c)).
Example ex_raster_big : big_enough ex_raster.
Proof. split; simpl; lia. Qed.

(** C01: whatever the position, no read is outside of the raster. *)
Theorem C01_interpol_bilin_reads_inside :
  forall m r c, big_enough m ->
  exists v, interpol_bilin m (rs_rows m) (rs_cols m) r c = Some v.
Proof. intros; eexists; now apply interpol_bilin_some. Qed.

Theorem C01_interpol_bilin_grid_reads_inside :
  forall mats nr nc r c,
  (forall mat m, In mat mats -> In m mat -> big_enough m /\ rs_rows m = nr /\ rs_cols m = nc) ->
  exists v, interpol_bilin_grid mats nr nc r c = Some v.
Proof. intros; eexists; now apply interpol_bilin_grid_some. Qed.

Theorem C01_interpol_bilin_vectorized_reads_inside :
  forall mats nr nc positions,
  (forall mat m, In mat mats -> In m mat -> big_enough m /\ rs_rows m = nr /\ rs_cols m = nc) ->
  exists v, interpol_bilin_vectorized mats nr nc positions = Some v.
Proof. intros; eexists; now apply interpol_bilin_vectorized_some. Qed.

Theorem C01_cpp_interpolate_reads_inside :
  forall m r c, big_enough m ->
  exists v, cpp_interpolate (flatten_raster m) (rs_rows m) (rs_cols m) r c = Some v.
Proof. intros; eexists; now apply cpp_interpolate_some. Qed.

Example C01_case : exists v, interpol_bilin ex_raster 3 4 (-7) (100 / 3) = Some v.
Proof. apply (C01_interpol_bilin_reads_inside ex_raster), ex_raster_big. Qed.

(** C01, sharpness: a raster with a single row or column cannot be interpolated. *)
Theorem C01_one_row_fails :
  exists m, rs_rows m = 1%Z /\ rs_cols m = 2%Z /\ interpol_bilin m 1 2 0 0 = None.
Proof.
  exists (mkRaster 1 2 (fun _ _ => 0)). repeat split. unfold interpol_bilin, lower_index.
  change (1 - 1)%Z with 0%Z. change (2 - 1)%Z with 1%Z.
  repeat rcase1; try lra; reflexivity.
Qed.

(** C02: exact at the nodes ... *)
Theorem C02_interpol_bilin_exact_at_nodes :
  forall m i j, big_enough m -> is_node m i j ->
  interpol_bilin m (rs_rows m) (rs_cols m) (IZR i) (IZR j) = Some (rs_at m i j).
Proof. intros. rewrite interpol_bilin_some by assumption. f_equal. now apply interp_node. Qed.

(** ... and, inside the hull, between the samples of any cell that contains the position. *)
Theorem C02_interpol_bilin_between_samples :
  forall m i j r c lo hi v, is_cell m i j -> in_cell i j r c -> cell_samples_within m i j lo hi ->
  interpol_bilin m (rs_rows m) (rs_cols m) r c = Some v -> lo <= v <= hi.
Proof.
  intros m i j r c lo hi v Hc Hin Hs Hv.
  rewrite interpol_bilin_some in Hv by (destruct Hc; split; lia).
  injection Hv as <-. rewrite (interp_in_cell m i j) by assumption. now apply bilinear_bounds.
Qed.

Theorem C02_hull_is_covered_by_cells :
  forall m r c, big_enough m -> in_hull m r c -> exists i j, is_cell m i j /\ in_cell i j r c.
Proof. exact hull_in_a_cell. Qed.

Example C02_case : is_cell ex_raster 1 2 /\ in_cell 1 2 (3 / 2) (5 / 2) /\
  cell_samples_within ex_raster 1 2 5 10 /\
  interpol_bilin ex_raster 3 4 (3 / 2) (5 / 2) = Some (15 / 2).
Proof.
  assert (Hc : is_cell ex_raster 1 2) by (unfold is_cell; simpl; lia).
  assert (Hi : in_cell 1 2 (3 / 2) (5 / 2)) by (unfold in_cell; lra).
  repeat split; try (unfold in_cell in *; simpl in *; lia || lra).
  - destruct H as [->| ->], H0 as [->| ->]; simpl; lra.
  - destruct H as [->| ->], H0 as [->| ->]; simpl; lra.
  - rewrite (interpol_bilin_some ex_raster) by apply ex_raster_big. f_equal.
    rewrite (interp_in_cell ex_raster 1 2) by assumption.
    unfold bilinear_in_cell, lerp; simpl. lra.
Qed.

(** C03: affine data are reproduced at every position (also outside of the raster). *)
Theorem C03_interpol_bilin_affine :
  forall m k a b r c, big_enough m -> affine_raster m k a b ->
  interpol_bilin m (rs_rows m) (rs_cols m) r c = Some (k + a * r + b * c).
Proof.
  intros m k a b r c Hb Ha. rewrite interpol_bilin_some by assumption. f_equal.
  now apply interp_affine.
Qed.

(** C03: in each closed cell the result is the bilinear function of that cell; a position on a
    border belongs to several cells and gets the same value from each of them (no jump). *)
Theorem C03_interpol_bilin_is_cell_bilinear :
  forall m i j r c, is_cell m i j -> in_cell i j r c ->
  interpol_bilin m (rs_rows m) (rs_cols m) r c = Some (bilinear_in_cell m i j r c).
Proof.
  intros m i j r c Hc Hin. rewrite interpol_bilin_some by (destruct Hc; split; lia).
  f_equal. now apply interp_in_cell.
Qed.

Theorem C03_no_jump_across_borders :
  forall m i j i' j' r c, is_cell m i j -> is_cell m i' j' ->
  in_cell i j r c -> in_cell i' j' r c ->
  bilinear_in_cell m i j r c = bilinear_in_cell m i' j' r c.
Proof. intros. rewrite <- !interp_in_cell by assumption. reflexivity. Qed.

Example C03_case_affine :
  affine_raster (mkRaster 3 4 (fun r c => IZR (1 + 2 * r + 3 * c))) 1 2 3 /\
  big_enough (mkRaster 3 4 (fun r c => IZR (1 + 2 * r + 3 * c))).
Proof.
  split; [|split; simpl; lia]. intros i j _. cbv beta delta [rs_at] iota.
  now rewrite !plus_IZR, !mult_IZR.
Qed.
Example C03_case_border :
  is_cell ex_raster 0 1 /\ is_cell ex_raster 1 1 /\ in_cell 0 1 1 (3 / 2) /\ in_cell 1 1 1 (3 / 2).
Proof. unfold is_cell, in_cell; simpl; repeat split; lia || lra. Qed.

(** C04: the four implementations agree. *)
Theorem C04_grid_agrees :
  forall mats nr nc r c k l mat m res layer v,
  (forall mat m, In mat mats -> In m mat -> big_enough m /\ rs_rows m = nr /\ rs_cols m = nc) ->
  interpol_bilin_grid mats nr nc r c = Some res ->
  nth_error mats k = Some mat -> nth_error mat l = Some m ->
  nth_error res k = Some layer -> nth_error layer l = Some v ->
  interpol_bilin m nr nc r c = Some v.
Proof.
  intros mats nr nc r c k l mat m res layer v H Hres Hmat Hm Hlay Hv.
  rewrite (interpol_bilin_grid_some mats nr nc r c H) in Hres. injection Hres as <-.
  rewrite (map_nth_error _ _ _ Hmat) in Hlay. injection Hlay as <-.
  rewrite (map_nth_error _ _ _ Hm) in Hv. injection Hv as <-.
  destruct (H mat m) as (Hb & <- & <-); try (eapply nth_error_In; eauto).
  now apply interpol_bilin_some.
Qed.

Theorem C04_vectorized_agrees :
  forall mats nr nc positions k l q mat m res layers vals r c v,
  (forall mat m, In mat mats -> In m mat -> big_enough m /\ rs_rows m = nr /\ rs_cols m = nc) ->
  interpol_bilin_vectorized mats nr nc positions = Some res ->
  nth_error mats k = Some mat -> nth_error mat l = Some m ->
  nth_error res k = Some layers -> nth_error layers l = Some vals ->
  nth_error positions q = Some (r, c) -> nth_error vals q = Some v ->
  interpol_bilin m nr nc r c = Some v.
Proof.
  intros mats nr nc ps k l q mat m res layers vals r c v H Hres Hmat Hm Hlay Hvals Hp Hv.
  rewrite (interpol_bilin_vectorized_some mats nr nc ps H) in Hres. injection Hres as <-.
  rewrite (map_nth_error _ _ _ Hmat) in Hlay. injection Hlay as <-.
  rewrite (map_nth_error _ _ _ Hm) in Hvals. injection Hvals as <-.
  rewrite (map_nth_error _ _ _ Hp) in Hv. injection Hv as <-.
  destruct (H mat m) as (Hb & <- & <-); try (eapply nth_error_In; eauto).
  now apply interpol_bilin_some.
Qed.

Theorem C04_vectorized_shape :
  forall mats nr nc positions res,
  (forall mat m, In mat mats -> In m mat -> big_enough m /\ rs_rows m = nr /\ rs_cols m = nc) ->
  interpol_bilin_vectorized mats nr nc positions = Some res ->
  length res = length mats /\
  forall k mat layers, nth_error mats k = Some mat -> nth_error res k = Some layers ->
    length layers = length mat /\ Forall (fun vals => length vals = length positions) layers.
Proof.
  intros mats nr nc ps res H Hres.
  rewrite (interpol_bilin_vectorized_some mats nr nc ps H) in Hres. injection Hres as <-.
  split; [apply map_length|]. intros k mat layers Hmat Hl.
  rewrite (map_nth_error _ _ _ Hmat) in Hl. injection Hl as <-.
  split; [apply map_length|]. apply Forall_forall. intros x Hx.
  apply in_map_iff in Hx. destruct Hx as (m & <- & _). apply map_length.
Qed.

Theorem C04_cpp_agrees :
  forall m r c, big_enough m ->
  cpp_interpolate (flatten_raster m) (rs_rows m) (rs_cols m) r c
  = interpol_bilin m (rs_rows m) (rs_cols m) r c.
Proof. intros. now rewrite cpp_interpolate_some, interpol_bilin_some. Qed.

Example C04_case :
  let mats := [[ex_raster; ex_raster]; [ex_raster]] in
  (forall mat m, In mat mats -> In m mat -> big_enough m /\ rs_rows m = 3%Z /\ rs_cols m = 4%Z) /\
  length (flatten_raster ex_raster) = 12%nat.
Proof.
  split; [|reflexivity]. intros mat m Hm Hi. simpl in Hm.
  destruct Hm as [<-|[<-|[]]]; simpl in Hi;
    repeat destruct Hi as [<-|Hi]; try easy; split; try easy; apply ex_raster_big.
Qed.

