(** C96: the intersection with a DTM ends, in binary64. *)
From Coq Require Import ZArith Reals Bool List Lia Lra.
From Flocq Require Import Core BinarySingleNaN.
From Verif Require Import FloatModel FloatInterpModel Float FloatErr FloatWalkModel FloatWalkSpec FloatWalk FloatRefine.
Import ListNotations.
Open Scope Z_scope.

(** The walk over the cells leaves the DTM, or comes to the end of the segment, after at most as many moves as the DTM has
    cells of altitude: for all binary64 numbers and whatever the rounding errors, also when the numbers overflow on the way. *)
Theorem C96_walk_ends :
  forall m s w, finite_segment s -> fr_rows m < 2 ^ 52 -> fr_cols m < 2 ^ 52 ->
  exists k, (Z.of_nat k <= Z.max 0 (fr_rows m * fr_cols m)) /\ fcell_guard m (Nat.iter k (fmesh_move s) w) = false.
Proof.
  intros m s w FS S1 S2. destruct (fcell_guard m w) eqn:G; [|exists 0%nat; split; [lia|exact G]].
  pose proof (measure_range m s w G) as MR. destruct (walk_ends m s FS S1 S2 (Z.to_nat (fr_rows m * fr_cols m)) w) as (k & K & E); [lia|].
  exists k. split; [lia|exact E].
Qed.
(** So an intersection that does not end is in the refinement of a position inside of a cell: with enough iterations for the two
    outer loops, the fuel can only be missing there, between two positions [p_1] and [p_2] on either side of the surface. *)
Theorem C96_only_the_refinement :
  forall m los fuel cells steps,
  Forall moderate_point los -> fr_rows m < 2 ^ 52 -> fr_cols m < 2 ^ 52 ->
  fr_rows m * fr_cols m <= Z.of_nat cells -> 2 * Z.of_nat (length los) <= Z.of_nat steps ->
  flocate m fuel cells steps los = Some FNoFuel ->
  exists p_1 alti_1 p_2 h_2,
    finterpolate m (fv_row p_1) (fv_col p_1) = Some alti_1 /\ finterpolate m (fv_row p_2) (fv_col p_2) = Some h_2 /\
    Bleb (fmul (fsub (fv_alt p_1) alti_1) (fsub (fv_alt p_2) h_2)) fzero = true /\
    frefine (finterpolate m) fuel p_1 alti_1 p_2 h_2 = FNoFuel.
Proof.
  intros m los fuel cells steps HL S1 S2 HC HS E. unfold flocate in E. destruct los as [|v los]; [discriminate|].
  destruct (fintersect_dtm_cube m (v :: los)) as [[pb h]|]; [|discriminate]. injection E as E. unfold fintersection in E.
  destruct (finterpolate m (fv_row pb) (fv_col pb)) as [alti_1|]; [|discriminate]. destruct (Bltb _ _); [discriminate|].
  destruct (ffloor h) as [i_0|]; [|discriminate].
  destruct (Z_le_gt_dec (- Z.of_nat (length (v :: los))) i_0).
  - eapply vertex_loop_ends; [exact HL|exact S1|exact S2|exact HC| |exact E]. lia.
  - exfalso. destruct steps as [|steps]; [cbn [length] in *; lia|].
    cbn [fvertex_loop] in E. destruct (i_0 <? _); [|discriminate].
    destruct (fpy_get (v :: los) i_0) as [a|] eqn:EA; [|discriminate]. apply py_get_range in EA. lia.
Qed.

(** On a usual terrain the refinement ends, whatever the rounding errors, when the line of sight goes down through the surface
    inside of the cell: a point is returned after at most [2^33] iterations. *)
Theorem C96_refinement_ends :
  forall m p_1 alti_1 p_2 h_2,
  usual_terrain m -> in_raster m p_1 -> in_raster m p_2 -> one_cell p_1 p_2 ->
  finterpolate m (fv_row p_1) (fv_col p_1) = Some alti_1 -> finterpolate m (fv_row p_2) (fv_col p_2) = Some h_2 ->
  goes_down p_1 alti_1 p_2 h_2 ->
  exists k p, Z.of_nat k <= 2 ^ 33 /\ forall fuel, (k <= fuel)%nat -> frefine (finterpolate m) fuel p_1 alti_1 p_2 h_2 = FFound p.
Proof.
  intros m p_1 a_1 p_2 h_2 U I1 I2 O E1 E2 G. destruct (regular_ends m p_1 a_1 p_2 h_2 U I1 I2 O E1 E2 G) as (k & p & K & _ & H).
  exists k, p. split; [exact K|]. intros fuel L. replace fuel with (k + (fuel - k))%nat by lia. apply H.
Qed.
(** All together: on a usual terrain, a call that does not end has met a cell which the line of sight enters below the surface,
    or with both ends on the surface up to a micrometre, or outside of the raster.  Missing: that the walk never meets one
    (false for a vertex hidden under the surface, C18). *)
Theorem C96_usual_terrain_partial :
  forall m los fuel cells steps,
  usual_terrain m -> Forall moderate_point los -> 2 ^ 33 <= Z.of_nat fuel ->
  fr_rows m * fr_cols m <= Z.of_nat cells -> 2 * Z.of_nat (length los) <= Z.of_nat steps ->
  flocate m fuel cells steps los = Some FNoFuel ->
  exists p_1 alti_1 p_2 h_2,
    finterpolate m (fv_row p_1) (fv_col p_1) = Some alti_1 /\ finterpolate m (fv_row p_2) (fv_col p_2) = Some h_2 /\
    Bleb (fmul (fsub (fv_alt p_1) alti_1) (fsub (fv_alt p_2) h_2)) fzero = true /\
    ~ (in_raster m p_1 /\ in_raster m p_2 /\ one_cell p_1 p_2 /\ goes_down p_1 alti_1 p_2 h_2).
Proof.
  intros m los fuel cells steps U HL HF HC HS E. pose proof U as ((_ & R) & (_ & C) & _).
  destruct (C96_only_the_refinement m los fuel cells steps HL ltac:(lia) ltac:(lia) HC HS E) as (p_1 & a_1 & p_2 & h_2 & E1 & E2 & P & N).
  exists p_1, a_1, p_2, h_2. repeat split; try assumption. intros (I1 & I2 & O & G).
  destruct (C96_refinement_ends m p_1 a_1 p_2 h_2 U I1 I2 O E1 E2 G) as (k & p & K & H). rewrite (H fuel) in N by lia. discriminate.
Qed.
(** A slope of 16 m per cell and a line of sight that goes down by 4 m. *)
Definition ex_slope : fraster := mkFRaster 3 3 (fun r c => fint (100 + 16 * r)).
Example C96_regular :
  let p_1 := FV3 fzero half (fint 102) in let p_2 := FV3 fone half (fint 98) in
  usual_terrain ex_slope /\ in_raster ex_slope p_1 /\ in_raster ex_slope p_2 /\ one_cell p_1 p_2 /\
  finterpolate ex_slope (fv_row p_1) (fv_col p_1) = Some (fint 100) /\ finterpolate ex_slope (fv_row p_2) (fv_col p_2) = Some (fint 116) /\
  goes_down p_1 (fint 100) p_2 (fint 116).
Proof.
  cbv zeta. unfold fone, fzero.
  assert (I : forall n, Z.abs n < 2 ^ 53 -> B2R (fint n) = IZR n /\ is_finite (fint n) = true) by (intros n; apply fint_exact).
  assert (HH : B2R half = (/ 2)%R /\ is_finite half = true).
  { unfold half. destruct (flit_exact 1 (-1)) as [V F]; [apply fits_dyadic; lia|]. rewrite V, F. split; [cbn; lra|reflexivity]. }
  destruct HH as [H1 H2].
  destruct (I 0) as [Z1 Z2]; [lia|]. destruct (I 1) as [O1 O2]; [lia|]. destruct (I 102) as [A1 A2]; [lia|]. destruct (I 98) as [B1 B2]; [lia|].
  destruct (I 100) as [D1 D2]; [lia|]. destruct (I 116) as [E1 E2]; [lia|].
  assert (Q : forall o y, match o with Some x => b_eqb x y | None => false end = true -> o = Some y).
  { intros [x|] y Q; [|discriminate]. f_equal. now apply b_eqb_eq. }
  split; [|split; [|split; [|split; [|split; [|split]]]]].
  - split; [cbn; lia|]. split; [cbn; lia|]. cbn [fr_at fr_rows fr_cols ex_slope]. intros r c Hr Hc. destruct (I (100 + 16 * r)) as [V F]; [lia|].
    rewrite V. split; [exact F|]. unfold top. rewrite <- abs_IZR. apply IZR_le. lia.
  - unfold in_raster. cbn [fv_row fv_col fv_alt ex_slope fr_rows fr_cols]. rewrite Z1, H1, A1. repeat split; try assumption; cbn -[IZR]; unfold top; try lra. apply Rabs_le. lra.
  - unfold in_raster. cbn [fv_row fv_col fv_alt ex_slope fr_rows fr_cols]. rewrite O1, H1, B1. repeat split; try assumption; cbn -[IZR]; unfold top; try lra. apply Rabs_le. lra.
  - unfold one_cell. cbn [fv_row fv_col]. rewrite Z1, O1. split; apply Rabs_le; lra.
  - apply Q. vm_compute. reflexivity.
  - apply Q. vm_compute. reflexivity.
  - unfold goes_down. cbn [fv_alt]. rewrite A1, B1, D1, E1. cbn. lra.
Qed.

(** A flat DTM at 100 m with one corner at the lowest number of the files in simple precision, a usual mark of missing data. *)
Definition lowest : b64 := flit (- (2 ^ 24 - 1)) 104.
Definition ex_corner : fraster := mkFRaster 3 3 (fun r c => if ((r =? 0) && (c =? 0))%bool then lowest else fint 100).
Definition ex_los : list fvec3 := [FV3 (flit (-1) (-1)) half (fint 102); FV3 (flit 7 (-1)) half (fint 94)].
(** The line of sight comes from above, crosses the missing cell and goes under the flat ground. *)
Example C96_hypotheses :
  Forall moderate_point ex_los /\ fr_rows ex_corner < 2 ^ 52 /\ fr_cols ex_corner < 2 ^ 52.
Proof.
  split; [|split; reflexivity].
  assert (M : forall a e, Z.abs a < 2 ^ 53 -> -1074 <= e <= 900 -> moderate (flit a e)).
  { intros a e A E. destruct (flit_exact a e) as [V F]; [apply fits_dyadic; lia|]. split; [exact F|]. rewrite V.
    rewrite Rabs_mult, (Rabs_pos_eq (bpow radix2 e)) by apply bpow_ge_0.
    apply Rle_trans with (bpow radix2 53 * bpow radix2 e)%R.
    - apply Rmult_le_compat_r; [apply bpow_ge_0|]. rewrite <- abs_IZR. apply Rlt_le. change (bpow radix2 53) with (IZR (2 ^ 53)). now apply IZR_lt.
    - rewrite <- bpow_plus. apply bpow_le. lia. }
  unfold ex_los, half, fint. apply Forall_cons; [|apply Forall_cons; [|apply Forall_nil]]; (split; [|split]); apply M; lia.
Qed.
Example C96_segment :
  let s := fsegment_of (FV3 (flit (-1) (-1)) half (fint 102)) (FV3 (flit 7 (-1)) half (fint 94)) in
  finite_segment s /\ fcell_guard ex_corner (FW fzero 0 0 (FV3 fzero half (fint 101))) = true /\
  fcell_guard ex_corner (Nat.iter 2 (fmesh_move s) (FW fzero 0 0 (FV3 fzero half (fint 101)))) = false.
Proof.
  cbv zeta. split; [|split; vm_compute; reflexivity].
  destruct C96_hypotheses as (H & _). inversion H as [|? ? A B]. inversion B as [|? ? C D]. now apply moderate_segment.
Qed.
(** The call never returns. *)
Theorem C96_unfilled_nodata_refuted :
  exists m los, Forall moderate_point los /\
  forall fuel cells steps, flocate m fuel (S cells) (S steps) los = Some FNoFuel.
Proof.
  exists ex_corner, ex_los. split; [apply C96_hypotheses|]. intros fuel cells steps.
  assert (H : match first_refinement ex_corner ex_los with Some t => never_ends (finterpolate ex_corner) 3 t | None => false end = true) by (vm_compute; reflexivity).
  destruct (first_refinement ex_corner ex_los) as [t|] eqn:E; [|discriminate].
  rewrite (first_refinement_called _ _ _ _ _ _ E). f_equal. eapply never_ends_forever. exact H.
Qed.
Example C96_found : match flocate (mkFRaster 3 3 (fun r c => fint (100 + r))) 20 9 4 ex_los with Some (FFound p) => True | _ => False end.
Proof. vm_compute. exact I. Qed.
