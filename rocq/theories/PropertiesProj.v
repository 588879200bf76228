(** C05, C06: index <-> ground conversions, blanking of invalid coordinates. *)
From Coq Require Import Reals ZArith List Bool Lra Lia.
From Verif Require Import Num NumLemmas ProjModel ProjSpec.
Import ListNotations.
Open Scope R_scope.

Definition ex_affine : affine := mkAffine 2 (1 / 2) 100 (1 / 3) (-2) 50.
Example ex_affine_inv : invertible ex_affine.
Proof. unfold invertible, ex_affine; simpl; lra. Qed.
Definition ex_gdal : gdal6 := G6 100 2 (1 / 2) 50 (1 / 3) (-2).
Example ex_gdal_inv : invertible6 ex_gdal.
Proof. unfold invertible6, ex_gdal; simpl; lra. Qed.

(** C05: index -> point -> index. *)
Theorem C05_index_point_index :
  forall t row col row_geo col_geo, invertible t ->
  transform_index_to_physical_point t row col = (row_geo, col_geo) ->
  transform_physical_point_to_index (affine_inv t) row_geo col_geo = (row, col).
Proof.
  unfold invertible, transform_index_to_physical_point, transform_physical_point_to_index,
    affine_apply, affine_inv; intros t row col rg cg H E; injection E as <- <-; simpl.
  f_equal; field; assumption.
Qed.

(** C05: point -> index -> point. *)
Theorem C05_point_index_point :
  forall t row col row_geo col_geo, invertible t ->
  transform_physical_point_to_index (affine_inv t) row_geo col_geo = (row, col) ->
  transform_index_to_physical_point t row col = (row_geo, col_geo).
Proof.
  unfold invertible, transform_index_to_physical_point, transform_physical_point_to_index,
    affine_apply, affine_inv; intros t row col rg cg H E; injection E as <- <-; simpl.
  f_equal; field; assumption.
Qed.

(** C05: the index (row, col) designates the centre of a pixel, i.e. the point of the image plane
    half a pixel inside. *)
Theorem C05_index_is_pixel_centre :
  forall t row col,
  transform_index_to_physical_point t row col
  = (ground_y t (col + 1 / 2) (row + 1 / 2), ground_x t (col + 1 / 2) (row + 1 / 2)).
Proof.
  intros. unfold transform_index_to_physical_point, affine_apply, ground_x, ground_y.
  f_equal; ring.
Qed.

(** C05: the DTM conversions are inverse of each other and keep the altitude. *)
Theorem C05_dtm_ter_index_ter :
  forall t p, invertible t -> index_to_ter t (ter_to_index (affine_inv t) p) = p.
Proof.
  intros t [x y z] H. unfold invertible in H.
  unfold index_to_ter, ter_to_index, transform_index_to_physical_point,
    transform_physical_point_to_index, affine_apply, affine_inv; simpl.
  f_equal; field; assumption.
Qed.
Theorem C05_dtm_index_ter_index :
  forall t p, invertible t -> ter_to_index (affine_inv t) (index_to_ter t p) = p.
Proof.
  intros t [x y z] H. unfold invertible in H.
  unfold index_to_ter, ter_to_index, transform_index_to_physical_point,
    transform_physical_point_to_index, affine_apply, affine_inv; simpl.
  f_equal; field; assumption.
Qed.
Theorem C05_dtm_altitude_kept :
  forall t p, v2 (ter_to_index t p) = v2 p /\ v2 (index_to_ter t p) = v2 p.
Proof.
  intros. unfold ter_to_index, index_to_ter.
  destruct (transform_physical_point_to_index _ _ _), (transform_index_to_physical_point _ _ _).
  now split.
Qed.
(** C05: x goes with columns and y with rows: a step of one column moves the ground point by the
    first column of the geotransform. *)
Theorem C05_dtm_axes :
  forall t row col z dr dc,
  v0 (index_to_ter t (V3 (row + dr) (col + dc) z)) - v0 (index_to_ter t (V3 row col z))
    = af_a t * dc + af_b t * dr /\
  v1 (index_to_ter t (V3 (row + dr) (col + dc) z)) - v1 (index_to_ter t (V3 row col z))
    = af_d t * dc + af_e t * dr.
Proof.
  intros. unfold index_to_ter, transform_index_to_physical_point, affine_apply; simpl.
  split; ring.
Qed.

(** C05: the array version converts row by row. *)
Theorem C05_dtm_batch :
  forall t l i p, nth_error l i = Some p ->
  nth_error (ters_to_indexs t l) i = Some (ter_to_index t p).
Proof. intros. now apply map_nth_error. Qed.

(** C05: the C++ twin performs the same conversions, on the same six numbers. *)
Theorem C05_cpp_ter_to_index :
  forall g p, cpp_ter_to_index (cpp_trans_inv g) p
            = ter_to_index (affine_inv (affine_of_gdal g)) p.
Proof.
  intros g [x y z]. unfold cpp_ter_to_index, cpp_trans_inv, ter_to_index,
    transform_physical_point_to_index, affine_apply, affine_inv, affine_of_gdal, from_gdal; simpl.
  f_equal; ring.
Qed.
Theorem C05_cpp_index_to_ter :
  forall g p, cpp_index_to_ter g p = index_to_ter (affine_of_gdal g) p.
Proof.
  intros g [x y z]. unfold cpp_index_to_ter, index_to_ter,
    transform_index_to_physical_point, affine_apply, affine_of_gdal, from_gdal; simpl.
  f_equal; ring.
Qed.
Theorem C05_cpp_round_trip :
  forall g p, invertible6 g ->
  cpp_index_to_ter g (cpp_ter_to_index (cpp_trans_inv g) p) = p /\
  cpp_ter_to_index (cpp_trans_inv g) (cpp_index_to_ter g p) = p.
Proof.
  intros g p H. rewrite !C05_cpp_index_to_ter, !C05_cpp_ter_to_index.
  split; [apply C05_dtm_ter_index_ter | apply C05_dtm_index_ter_index]; exact H.
Qed.

(** C05: the footprint corners are the four outer corners of the raster on the ground. *)
Theorem C05_footprint_corners :
  forall t nr nc,
  map (fun p => transform_index_to_physical_point t (fst p) (snd p)) (get_footprint_corners nr nc)
  = [(ground_y t 0 0, ground_x t 0 0); (ground_y t (IZR nc) 0, ground_x t (IZR nc) 0);
     (ground_y t (IZR nc) (IZR nr), ground_x t (IZR nc) (IZR nr));
     (ground_y t 0 (IZR nr), ground_x t 0 (IZR nr))]
  /\ cpp_get_footprint_corners nr nc = get_footprint_corners nr nc.
Proof.
  intros. unfold get_footprint_corners, cpp_get_footprint_corners,
    transform_index_to_physical_point, affine_apply, ground_x, ground_y; simpl.
  split; repeat (apply f_equal2; [apply f_equal2; field|]); reflexivity.
Qed.

Example C05_case : transform_index_to_physical_point ex_affine 0 0 = (147 / 3 + 1 / 6, 101 + 1 / 4).
Proof.
  unfold transform_index_to_physical_point, affine_apply, ex_affine; simpl. f_equal; lra.
Qed.

(** ** C06 *)
Lemma filtering_spec p : lonlat_filtering p = false <-> valid_lonlat p.
Proof.
  unfold lonlat_filtering, valid_lonlat. destruct p as [[x|] [y|] [z|]]; simpl;
    rewrite ?orb_true_r; simpl; split; intros H; try discriminate;
    try (destruct H as (?&?&?&E&?); discriminate).
  - apply orb_false_iff in H. destruct H as [H _]. apply orb_false_iff in H. destruct H as [H1 H2].
    apply Rltb_false in H1. apply Rltb_false in H2. exists x, y, z. split; [reflexivity|].
    pose proof (Rle_abs x). pose proof (Rle_abs (- x)). pose proof (Rle_abs y).
    pose proof (Rle_abs (- y)). rewrite Rabs_Ropp in *. lra.
  - destruct H as (a & b & c & E & Ha & Hb). injection E as -> -> ->. apply orb_false_iff.
    split; [|reflexivity]. apply orb_false_iff.
    split; apply Rltb_false; apply Rabs_le; lra.
Qed.

(** C06: same length. *)
Theorem C06_check_lonlat_length : forall a, length (check_lonlat a) = length a.
Proof. intros. apply map_length. Qed.

(** C06: each row on its own: kept when valid, all NaN otherwise. *)
Theorem C06_check_lonlat_rowwise :
  forall a i p q, nth_error a i = Some p -> nth_error (check_lonlat a) i = Some q ->
  (valid_lonlat p -> q = p) /\ (~ valid_lonlat p -> q = R3 None None None).
Proof.
  intros a i p q Hp Hq. unfold check_lonlat in Hq. rewrite (map_nth_error _ _ _ Hp) in Hq.
  injection Hq as <-. rewrite <- filtering_spec.
  destruct (lonlat_filtering p); split; intros; try reflexivity; congruence.
Qed.

Theorem C06_check_lonlat_idempotent :
  forall a, check_lonlat (check_lonlat a) = check_lonlat a.
Proof.
  intros. unfold check_lonlat. rewrite map_map. apply map_ext. intros p.
  destruct (lonlat_filtering p) eqn:E; [|now rewrite E].
  now destruct (lonlat_filtering nan3).
Qed.

Example C06_case :
  valid_lonlat (R3 (Some 7) (Some (-45)) (Some 100)) /\
  ~ valid_lonlat (R3 (Some 200) (Some 5) (Some 100)) /\
  ~ valid_lonlat (R3 (Some 7) (Some 5) None).
Proof.
  split; [|split].
  - exists 7, (-45), 100. split; [reflexivity|lra].
  - intros (a & b & c & E & H). injection E as <- <- <-. lra.
  - intros (a & b & c & E & H). discriminate.
Qed.
