(** C48: the window of an image read with a region of interest. *)
From Coq Require Import Reals ZArith List Bool Lra Lia.
From Verif Require Import Num NumLemmas InterpModel InterpSpec ProjModel ProjSpec PropertiesProj ImageModel ImageSpec.
Import ListNotations.
Open Scope R_scope.

(** A file of 6 rows and 8 columns, north up. *)
Definition ex_file : dataset := mkDataset (mkAffine 2 0 100 0 (-2) 50) (mkRaster 6 8 (fun r c => IZR (10 * r + c))).

Lemma limit_window_spec : forall f col_off row_off width height w, limit_window f col_off row_off width height = Some w ->
  wi_col w = col_off /\ wi_row w = row_off /\ wi_width w = Z.min width (ds_width f - col_off) /\ wi_height w = Z.min height (ds_height f - row_off) /\
  (0 <= wi_width w)%Z /\ (0 <= wi_height w)%Z.
Proof.
  intros f col_off row_off width height w H. unfold limit_window, make_window in H.
  destruct (Z.min width (ds_width f - col_off) <? 0)%Z eqn:E1; [discriminate|].
  destruct (Z.min height (ds_height f - row_off) <? 0)%Z eqn:E2; [discriminate|]. injection H as <-. cbn [wi_col wi_row wi_width wi_height].
  apply Z.ltb_ge in E1, E2. auto 10.
Qed.
Lemma limit_window_None : forall f col_off row_off width height, limit_window f col_off row_off width height = None ->
  (width < 0 \/ ds_width f < col_off \/ height < 0 \/ ds_height f < row_off)%Z.
Proof.
  intros f col_off row_off width height H. unfold limit_window, make_window in H.
  destruct (Z.min width (ds_width f - col_off) <? 0)%Z eqn:E1.
  - apply Z.ltb_lt in E1. lia.
  - destruct (Z.min height (ds_height f - row_off) <? 0)%Z eqn:E2; [apply Z.ltb_lt in E2; lia|discriminate].
Qed.

(** The real bounds of a physical region, in the frame whose origin is the corner of the first pixel. *)
Definition corner_row (t : affine) (y x : R) : R := fst (transform_physical_point_to_index (affine_inv t) y x) + 1 / 2.
Definition corner_col (t : affine) (y x : R) : R := snd (transform_physical_point_to_index (affine_inv t) y x) + 1 / 2.
Lemma physical_window_eq : forall f y0 x0 y1 x1,
  let t := ds_transform f in
  let lo := Z.max (Rfloor (Rmin (corner_row t y0 x0) (corner_row t y1 x1))) 0 in
  let left := Z.max (Rfloor (corner_col t y0 x0)) 0 in
  physical_window f y0 x0 y1 x1 =
  limit_window f left lo (Rceil (corner_col t y1 x1 - IZR left)) (Rceil (Rmax (corner_row t y0 x0) (corner_row t y1 x1) - IZR lo)).
Proof.
  intros f y0 x0 y1 x1 t lo left. unfold physical_window, lo, left, corner_row, corner_col. fold t.
  destruct (transform_physical_point_to_index (affine_inv t) y0 x0) as [r0 c0]. destruct (transform_physical_point_to_index (affine_inv t) y1 x1) as [r1 c1]. cbn [fst snd].
  destruct (Rltb_spec (r1 + 1 / 2) (r0 + 1 / 2)) as [L|L].
  - rewrite Rmin_right, Rmax_left by lra. reflexivity.
  - rewrite Rmin_left, Rmax_right by lra. reflexivity.
Qed.
Lemma corner_of : forall t u v, invertible t ->
  corner_col t (af_d t * u + af_e t * v + af_f t) (af_a t * u + af_b t * v + af_c t) = u /\
  corner_row t (af_d t * u + af_e t * v + af_f t) (af_a t * u + af_b t * v + af_c t) = v.
Proof.
  intros t u v H. unfold corner_col, corner_row, transform_physical_point_to_index, affine_apply, affine_inv. cbn [af_a af_b af_c af_d af_e af_f fst snd].
  unfold invertible in H. split; field; exact H.
Qed.
Lemma ceil_sub : forall x z, (Rceil (x - IZR z) = Rceil x - z)%Z.
Proof. intros x z. apply Rceil_unique. rewrite minus_IZR. destruct (Rceil_bounds x). lra. Qed.

(** The window is in the file, whatever the region. *)
Theorem C48_window_in_the_file :
  forall f g w, (0 <= rs_rows (ds_band f))%Z -> (0 <= rs_cols (ds_band f))%Z -> region_window f g = Some w ->
  (0 <= wi_width w)%Z /\ (0 <= wi_height w)%Z /\ forall r c, in_window w r c -> in_file f r c.
Proof.
  intros f g w HR HC H. unfold in_window, in_file. destruct g as [|r0 c0 r1 c1|y0 x0 y1 x1]; cbn [region_window] in H.
  - injection H as <-. cbn. unfold ds_width, ds_height. split; [lia|]. split; [lia|]. intros. lia.
  - apply limit_window_spec in H. destruct H as (E1 & E2 & E3 & E4 & P1 & P2). unfold ds_width, ds_height in *. split; [exact P1|]. split; [exact P2|]. intros. lia.
  - rewrite physical_window_eq in H. apply limit_window_spec in H. destruct H as (E1 & E2 & E3 & E4 & P1 & P2). unfold ds_width, ds_height in *. split; [exact P1|]. split; [exact P2|].
    intros r c [A B]. rewrite E1, E2, E3, E4 in *. split; split; lia.
Qed.
Example C48_window_in_the_file_ex : region_window ex_file (Pixels (-3) 2 4 20) = Some (Win 2 0 6 4).
Proof. reflexivity. Qed.

(** A region in pixels gives exactly the pixels of the file that are in the region; it is refused only if
    there is none. *)
Theorem C48_pixel_region :
  forall f r0 c0 r1 c1, (0 <= rs_rows (ds_band f))%Z -> (0 <= rs_cols (ds_band f))%Z ->
  match region_window f (Pixels r0 c0 r1 c1) with
  | Some w => forall r c, in_window w r c <-> in_file f r c /\ in_pixels r0 c0 r1 c1 r c
  | None => forall r c, ~ (in_file f r c /\ in_pixels r0 c0 r1 c1 r c)
  end.
Proof.
  intros f r0 c0 r1 c1 HR HC. cbn [region_window]. unfold index_window, in_window, in_file, in_pixels.
  destruct (limit_window _ _ _ _ _) as [w|] eqn:E.
  - apply limit_window_spec in E. destruct E as (E1 & E2 & E3 & E4 & P1 & P2). unfold ds_width, ds_height in *. intros. lia.
  - apply limit_window_None in E. unfold ds_width, ds_height in *. intros. lia.
Qed.
Example C48_pixel_region_ex : region_window ex_file (Pixels 1 2 4 5) = Some (Win 2 1 3 3) /\ region_window ex_file (Pixels 4 2 1 5) = None.
Proof. split; reflexivity. Qed.

Lemma unrotated_corner : forall t y x, unrotated t -> invertible t -> corner_col t y x = (x - af_c t) / af_a t /\ corner_row t y x = (y - af_f t) / af_e t.
Proof.
  intros t y x [H1 H2] HI. unfold corner_col, corner_row, transform_physical_point_to_index, affine_apply, affine_inv. cbn [af_a af_b af_c af_d af_e af_f fst snd].
  unfold invertible in HI. rewrite H1, H2 in *. assert (af_a t <> 0 /\ af_e t <> 0) as [A B] by (split; intros E; rewrite E in HI; apply HI; ring). split; field; auto.
Qed.
Lemma between : forall lo hi z, lo <= hi -> lo < IZR z + 1 -> IZR z < hi -> exists u, IZR z < u < IZR z + 1 /\ lo <= u <= hi.
Proof.
  intros lo hi z H1 H2 H3. exists ((Rmax (IZR z) lo + Rmin (IZR z + 1) hi) / 2).
  destruct (Rle_dec (IZR z) lo), (Rle_dec (IZR z + 1) hi);
  rewrite ?(Rmax_right (IZR z) lo), ?(Rmax_left (IZR z) lo), ?(Rmin_left (IZR z + 1) hi), ?(Rmin_right (IZR z + 1) hi) by lra; split; try lra;
  destruct (Rle_lt_or_eq_dec _ _ H1); lra.
Qed.

(** A physical region, with an unrotated image whose columns go to the east: the window has exactly the
    pixels of the file whose area meets the region; it is refused only if there is none. *)
Theorem C48_ground_region :
  forall f y0 x0 y1 x1, unrotated (ds_transform f) -> 0 < af_a (ds_transform f) -> af_e (ds_transform f) <> 0 ->
  (0 <= rs_rows (ds_band f))%Z -> (0 <= rs_cols (ds_band f))%Z -> y0 <= y1 -> x0 <= x1 ->
  let meets r c := exists x y, in_pixel_area (ds_transform f) r c x y /\ in_ground y0 x0 y1 x1 x y in
  match region_window f (Ground y0 x0 y1 x1) with
  | Some w => forall r c, in_window w r c <-> in_file f r c /\ meets r c
  | None => forall r c, ~ (in_file f r c /\ meets r c)
  end.
Proof.
  intros f y0 x0 y1 x1 HU HA HE HR HC Hy Hx meets. cbn [region_window]. rewrite physical_window_eq.
  set (t := ds_transform f) in *.
  assert (HI : invertible t) by (unfold invertible; destruct HU as [-> ->]; rewrite Rmult_0_l, Rminus_0_r; apply Rmult_integral_contrapositive_currified; lra).
  destruct (unrotated_corner t y0 x0 HU HI) as [C0 R0]. destruct (unrotated_corner t y1 x1 HU HI) as [C1 R1]. rewrite C0, C1, R0, R1.
  set (u0 := (x0 - af_c t) / af_a t). set (u1 := (x1 - af_c t) / af_a t).
  set (w0 := (y0 - af_f t) / af_e t). set (w1 := (y1 - af_f t) / af_e t). set (v0 := Rmin w0 w1). set (v1 := Rmax w0 w1).
  assert (EX0 : x0 = af_a t * u0 + af_c t) by (unfold u0; field; lra). assert (EX1 : x1 = af_a t * u1 + af_c t) by (unfold u1; field; lra).
  assert (EY0 : y0 = af_e t * w0 + af_f t) by (unfold w0; field; lra). assert (EY1 : y1 = af_e t * w1 + af_f t) by (unfold w1; field; lra).
  assert (HU01 : u0 <= u1) by nra. assert (HV01 : v0 <= v1) by (unfold v0, v1; unfold Rmin, Rmax; repeat destruct (Rle_dec _ _); lra).
  assert (HXU : forall u, (x0 <= af_a t * u + af_c t <= x1) <-> (u0 <= u <= u1)) by (intros u; split; intros; split; nra).
  assert (HYV : forall v, (y0 <= af_e t * v + af_f t <= y1) <-> (v0 <= v <= v1)).
  { intros v. unfold v0, v1. destruct (Rlt_dec (af_e t) 0) as [N|N].
    - assert (w1 <= w0) by nra. rewrite Rmin_right, Rmax_left by lra. split; intros; split; nra.
    - assert (w0 <= w1) by nra. rewrite Rmin_left, Rmax_right by lra. split; intros; split; nra. }
  assert (HM : forall r c, meets r c <-> (exists u, IZR c < u < IZR c + 1 /\ u0 <= u <= u1) /\ (exists v, IZR r < v < IZR r + 1 /\ v0 <= v <= v1)).
  { intros r c. unfold meets, in_pixel_area, in_ground. destruct HU as [HB HD]. rewrite HB, HD. split.
    - intros (x & y & (u & v & H1 & H2 & -> & ->) & H3 & H4). split.
      + exists u. split; [exact H1|]. apply HXU. lra.
      + exists v. split; [exact H2|]. apply HYV. lra.
    - intros [(u & H1 & H2) (v & H3 & H4)]. apply HXU in H2. apply HYV in H4.
      exists (af_a t * u + 0 * v + af_c t), (0 * u + af_e t * v + af_f t). split; [exists u, v; auto|]. lra. }
  assert (HB : forall lo hi z, lo <= hi -> (exists u, IZR z < u < IZR z + 1 /\ lo <= u <= hi) <-> (Rfloor lo <= z /\ z < Rceil hi)%Z).
  { intros lo hi z Hlh. split.
    - intros (u & H1 & H2). split.
      + destruct (Rfloor_bounds lo). apply Zlt_succ_le, lt_IZR. rewrite succ_IZR. lra.
      + apply lt_ceil. lra.
    - intros [H1 H2]. apply between; [exact Hlh| |].
      + destruct (Rfloor_bounds lo). apply IZR_le in H1. lra.
      + destruct (Rceil_bounds hi). assert (H3 : (z <= Rceil hi - 1)%Z) by lia. apply IZR_le in H3. rewrite minus_IZR in H3. lra. }
  rewrite !ceil_sub. unfold in_window, in_file. fold v0 v1.
  destruct (limit_window _ _ _ _ _) as [w|] eqn:E.
  - apply limit_window_spec in E. destruct E as (E1 & E2 & E3 & E4 & P1 & P2). unfold ds_width, ds_height in *.
    intros r c. rewrite HM, !HB by assumption. lia.
  - apply limit_window_None in E. unfold ds_width, ds_height in *. intros r c. rewrite HM, !HB by assumption. lia.
Qed.
Example C48_ground_region_ex : region_window ex_file (Ground 43 101 49 107) = Some (Win 0 0 4 4).
Proof.
  cbn [region_window]. rewrite physical_window_eq.
  assert (HU : unrotated (ds_transform ex_file)) by (split; reflexivity). assert (HI : invertible (ds_transform ex_file)) by (unfold invertible; cbn; lra).
  destruct (unrotated_corner _ 43 101 HU HI) as [-> ->]. destruct (unrotated_corner _ 49 107 HU HI) as [-> ->].
  cbn [ds_transform ex_file af_a af_c af_e af_f].
  rewrite Rmin_right, Rmax_left by lra.
  replace (Rfloor ((49 - 50) / -2)) with 0%Z by (symmetry; apply Rfloor_unique; lra). replace (Rfloor ((101 - 100) / 2)) with 0%Z by (symmetry; apply Rfloor_unique; lra).
  rewrite !ceil_sub. replace (Rceil ((107 - 100) / 2)) with 4%Z by (symmetry; apply Rceil_unique; lra). replace (Rceil ((43 - 50) / -2)) with 4%Z by (symmetry; apply Rceil_unique; lra).
  reflexivity.
Qed.

(** With columns that go to the west the region is refused, although pixels meet it: only the rows are
    sorted. *)
Theorem C48_westward_columns_refuted :
  exists f y0 x0 y1 x1 r c x y, unrotated (ds_transform f) /\ invertible (ds_transform f) /\ y0 < y1 /\ x0 < x1 /\
    in_file f r c /\ in_pixel_area (ds_transform f) r c x y /\ in_ground y0 x0 y1 x1 x y /\
    forall v, open_image f (Ground y0 x0 y1 x1) v = None.
Proof.
  exists (mkDataset (mkAffine (-1) 0 0 0 1 0) (mkRaster 6 8 (fun _ _ => 0))), 1, (-3), 3, (-1), 1%Z, 1%Z, (- (3 / 2)), (3 / 2).
  cbn [ds_transform].
  split; [split; reflexivity|]. split; [unfold invertible; cbn; lra|]. split; [lra|]. split; [lra|]. split; [split; cbn; lia|].
  split; [exists (3 / 2), (3 / 2); cbn; lra|]. split; [split; lra|]. intros v. unfold open_image. cbn [region_window]. rewrite physical_window_eq.
  set (f := mkDataset _ _).
  assert (HU : unrotated (ds_transform f)) by (split; reflexivity). assert (HI : invertible (ds_transform f)) by (unfold invertible; cbn; lra).
  destruct (unrotated_corner _ 1 (-3) HU HI) as [-> ->]. destruct (unrotated_corner _ 3 (-1) HU HI) as [-> ->].
  cbn [ds_transform f af_a af_c af_e af_f]. rewrite Rmin_left, Rmax_right by lra.
  replace (Rfloor ((1 - 0) / 1)) with 1%Z by (symmetry; apply Rfloor_unique; lra). replace (Rfloor ((-3 - 0) / -1)) with 3%Z by (symmetry; apply Rfloor_unique; lra).
  rewrite !ceil_sub. replace (Rceil ((-1 - 0) / -1)) with 1%Z by (symmetry; apply Rceil_unique; lra). replace (Rceil ((3 - 0) / 1)) with 3%Z by (symmetry; apply Rceil_unique; lra).
  reflexivity.
Qed.

(** With a rotated image the window may miss pixels that are in the region. *)
Theorem C48_rotated_image_refuted :
  exists f y0 x0 y1 x1 w r c x y, invertible (ds_transform f) /\ y0 < y1 /\ x0 < x1 /\
    region_window f (Ground y0 x0 y1 x1) = Some w /\ in_file f r c /\ in_pixel_area (ds_transform f) r c x y /\ in_ground y0 x0 y1 x1 x y /\
    ~ in_window w r c.
Proof.
  exists (mkDataset (mkAffine 1 1 0 (-1) 1 0) (mkRaster 20 20 (fun _ _ => 0))), 0, 0, 10, 10, (Win 0 0 0 10), 5%Z, 2%Z, 8, 3.
  cbn [ds_transform].
  assert (HI : invertible (mkAffine 1 1 0 (-1) 1 0)) by (unfold invertible; cbn; lra).
  split; [exact HI|]. split; [lra|]. split; [lra|]. split.
  { cbn [region_window]. rewrite physical_window_eq. cbn [ds_transform].
    destruct (corner_of _ 0 0 HI) as [C0 R0]. destruct (corner_of _ 0 10 HI) as [C1 R1]. cbn [af_a af_b af_c af_d af_e af_f] in *.
    replace (-1 * 0 + 1 * 0 + 0) with 0 in * by ring. replace (1 * 0 + 1 * 0 + 0) with 0 in * by ring.
    replace (-1 * 0 + 1 * 10 + 0) with 10 in * by ring. replace (1 * 0 + 1 * 10 + 0) with 10 in * by ring.
    rewrite C0, C1, R0, R1. rewrite Rmin_left, Rmax_right by lra. rewrite !ceil_sub, !Rfloor_IZR, !Rceil_IZR. reflexivity. }
  split; [split; cbn; lia|]. split; [exists (5 / 2), (11 / 2); cbn; lra|]. split; [split; lra|]. intros [_ H]. cbn in H. lia.
Qed.

(** A region in pixels that is beyond the last row is not refused: the image is empty. *)
Theorem C48_outside_region_raises_refuted :
  exists f r0 c0 r1 c1 i, (forall r c, in_pixels r0 c0 r1 c1 r c -> ~ in_file f r c) /\ (r0 < r1)%Z /\ (c0 < c1)%Z /\
    open_image f (Pixels r0 c0 r1 c1) Auto = Some i /\ im_rows i = 0%Z.
Proof.
  exists ex_file, 10%Z, 0%Z, 12%Z, 3%Z. eexists. split.
  { intros r c [H1 H2] [H3 H4]. cbn in H3. lia. }
  split; [lia|]. split; [lia|]. split; [reflexivity|]. reflexivity.
Qed.

(** Data and geotransform of the window: every pixel has the value of the pixel of the file at the same
    ground position. *)
Theorem C48_window_is_georeferenced :
  forall f g i, open_image f g Auto = Some i -> exists w, region_window f g = Some w /\
  im_rows i = wi_height w /\ im_cols i = wi_width w /\
  (forall r c, rs_at (im_data i) r c = rs_at (ds_band f) (wi_row w + r) (wi_col w + c)) /\
  (forall r c, transform_index_to_physical_point (im_transform i) r c =
               transform_index_to_physical_point (ds_transform f) (IZR (wi_row w) + r) (IZR (wi_col w) + c)).
Proof.
  intros f g i H. unfold open_image in H. destruct (region_window f g) as [w|] eqn:E; [|discriminate]. injection H as <-. exists w.
  split; [reflexivity|]. split; [reflexivity|]. split; [reflexivity|]. split; [reflexivity|].
  intros r c. cbn [im_transform orient]. unfold transform_index_to_physical_point, window_transform, affine_apply. cbn [af_a af_b af_c af_d af_e af_f]. f_equal; ring.
Qed.
Example C48_window_is_georeferenced_ex :
  exists i, open_image ex_file (Pixels 1 2 4 5) Auto = Some i /\ transform_index_to_physical_point (im_transform i) 0 0 = (47, 105) /\ rs_at (im_data i) 0 0 = 12.
Proof. eexists. split; [reflexivity|]. split; [unfold transform_index_to_physical_point, affine_apply; cbn; f_equal; lra|reflexivity]. Qed.

(** The forced directions: ordinates grow ([North]) or decrease ([South]) with the rows, and the ground
    positions are those without the option, the sign of all the ordinates being changed when needed. *)
Theorem C48_vertical_direction :
  forall f g v i, open_image f g v = Some i -> exists i0 s, open_image f g Auto = Some i0 /\ im_data i = im_data i0 /\ (s = 1 \/ s = -1) /\
  (forall r c, fst (transform_index_to_physical_point (im_transform i) r c) = s * fst (transform_index_to_physical_point (im_transform i0) r c) /\
               snd (transform_index_to_physical_point (im_transform i) r c) = snd (transform_index_to_physical_point (im_transform i0) r c)) /\
  (v = North -> 0 <= im_pixel_size_row i) /\ (v = South -> im_pixel_size_row i <= 0) /\ (v = Auto -> s = 1).
Proof.
  intros f g v i H. unfold open_image in *. destruct (region_window f g) as [w|]; [|discriminate]. injection H as <-. cbn [orient].
  set (t := window_transform (ds_transform f) w). eexists.
  exists (if Reqb (af_e (orient v t)) (af_e t) then 1 else -1). split; [reflexivity|]. split; [reflexivity|].
  split; [destruct (Reqb _ _); auto|]. cbn [im_transform].
  assert (HO : orient v t = t \/ (orient v t = mkAffine (af_a t) (af_b t) (af_c t) (- af_d t) (- af_e t) (- af_f t) /\ af_e t <> 0 /\ v <> Auto)).
  { unfold orient. destruct v; [left; reflexivity| |]; match goal with |- context [if ?b then _ else _] => destruct b eqn:B end; auto; right; apply Rltb_true in B; split; auto; split; [lra|discriminate|lra|discriminate]. }
  split; [|split; [|split]].
  - intros r c. destruct HO as [E|(E & NZ & _)]; rewrite E.
    + rewrite (proj2 (Reqb_true _ _) eq_refl). split; [ring|reflexivity].
    + cbn [af_e]. rewrite (proj2 (Reqb_false _ _)) by lra. unfold transform_index_to_physical_point, affine_apply. cbn [af_a af_b af_c af_d af_e af_f fst snd]. split; ring.
  - intros ->. unfold im_pixel_size_row. cbn [im_transform orient]. destruct (Rltb_spec (af_e t) 0); cbn [af_e]; lra.
  - intros ->. unfold im_pixel_size_row. cbn [im_transform orient]. destruct (Rltb_spec 0 (af_e t)); cbn [af_e]; lra.
  - intros ->. cbn [orient]. rewrite (proj2 (Reqb_true _ _) eq_refl). reflexivity.
Qed.
Example C48_vertical_direction_ex :
  exists i, open_image ex_file (Pixels 1 2 4 5) North = Some i /\ transform_index_to_physical_point (im_transform i) 0 0 = (-47, 105).
Proof.
  eexists. split; [reflexivity|]. cbn [im_transform orient]. rewrite (proj2 (Rltb_true _ _)) by (cbn; lra).
  unfold transform_index_to_physical_point, affine_apply. cbn. f_equal; lra.
Qed.

(** The inverse geotransform of the object is the inverse of its geotransform. *)
Theorem C48_inverse_transform :
  forall f g v i r c, invertible (ds_transform f) -> open_image f g v = Some i ->
  let '(y, x) := transform_index_to_physical_point (im_transform i) r c in
  transform_physical_point_to_index (im_trans_inv i) y x = (r, c).
Proof.
  intros f g v i r c HI H. unfold open_image in H. destruct (region_window f g) as [w|]; [|discriminate]. injection H as <-. cbn [im_transform im_trans_inv].
  assert (HV : invertible (orient v (window_transform (ds_transform f) w))).
  { assert (HW : invertible (window_transform (ds_transform f) w)) by (unfold window_transform, affine_apply; exact HI).
    set (t := window_transform (ds_transform f) w) in *. unfold orient, invertible in *.
    destruct v; [exact HW| |]; destruct (Rltb _ _); cbn [af_a af_b af_d af_e]; try exact HW; intros E; apply HW; lra. }
  destruct (transform_index_to_physical_point _ r c) as [y x] eqn:E. exact (C05_index_point_index _ r c y x HV E).
Qed.
Example C48_inverse_transform_ex : invertible (ds_transform ex_file) /\ exists i, open_image ex_file (Pixels 1 2 4 5) South = Some i.
Proof. split; [unfold invertible; cbn; lra|]. eexists. reflexivity. Qed.
