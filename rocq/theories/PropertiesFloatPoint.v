(** C97: the point where a line of sight meets the DTM, in binary64. *)
From Coq Require Import ZArith Reals Bool List Lia Lra.
From Flocq Require Import Core BinarySingleNaN.
From Verif Require Import Num InterpModel InterpSpec InterpProofs FloatModel FloatInterpModel Float FloatErr FloatInterp FloatWalkModel FloatWalkSpec FloatWalk FloatRefine PropertiesFloat2 PropertiesFloatWalk.
Import ListNotations.
Open Scope R_scope.

(** The altitude of the point that is returned is the altitude which the library interpolates at this position, up to the
    tolerance of 0.1 mm and a last bit: for all DTMs and lines of sight, unless one of the two numbers is infinite or NaN. *)
Theorem C97_on_the_surface :
  forall m fuel cells steps los p, flocate m fuel cells steps los = Some (FFound p) ->
  exists z, finterpolate m (fv_row p) (fv_col p) = Some z /\
    (is_finite z = true -> is_finite (fv_alt p) = true -> Rabs (B2R z - B2R (fv_alt p)) <= / 10000 + / 1000000000000000000).
Proof. intros m fuel cells steps los p H. apply accepted_close. exact (locate_found _ _ _ _ _ _ H). Qed.
(** On a usual terrain it is the exact bilinear surface, up to a thousandth of a micrometre more. *)
Theorem C97_exact_surface :
  forall m fuel cells steps los p i j, usual_terrain m -> flocate m fuel cells steps los = Some (FFound p) ->
  is_finite (fv_row p) = true -> is_finite (fv_col p) = true -> is_finite (fv_alt p) = true ->
  is_cell (real_raster m) i j -> in_cell i j (B2R (fv_row p)) (B2R (fv_col p)) ->
  Rabs (bilinear_in_cell (real_raster m) i j (B2R (fv_row p)) (B2R (fv_col p)) - B2R (fv_alt p)) <= / 10000 + 2 / 1000000000.
Proof.
  intros m fuel cells steps los p i j U H F1 F2 F3 [C1 C2] I. pose proof I as [I1 I2]. cbn in C1, C2.
  destruct (C97_on_the_surface _ _ _ _ _ _ H) as (z & E & Z).
  assert (P : forall k n, (0 <= k < n - 1)%Z -> 0 <= IZR k /\ IZR k + 1 <= IZR n).
  { intros k n Hk. split; [apply IZR_le; lia|]. rewrite <- plus_IZR. apply IZR_le. lia. }
  destruct (P _ _ C1) as [P1 P2]. destruct (P _ _ C2) as [P3 P4].
  destruct (interp_near m (fv_row p) (fv_col p) U F1 F2) as (z' & E' & [Fz N]); [lra|lra|]. rewrite E in E'. injection E' as <-. specialize (Z Fz F3).
  assert (S : surf m (B2R (fv_row p)) (B2R (fv_col p)) = bilinear_in_cell (real_raster m) i j (B2R (fv_row p)) (B2R (fv_col p))).
  { rewrite <- (interp_in_cell (real_raster m) i j) by (assumption || now split). reflexivity. }
  rewrite <- S. apply Rabs_le_inv in Z, N. apply Rabs_le. lra.
Qed.
(** Where the line of sight goes down through the surface in a cell of a usual terrain, a point with finite coordinates is
    returned, at most one cell outside of the raster, and it is on the surface. *)
Theorem C97_point_of_a_cell :
  forall m p_1 alti_1 p_2 h_2,
  usual_terrain m -> in_raster m p_1 -> in_raster m p_2 -> one_cell p_1 p_2 ->
  finterpolate m (fv_row p_1) (fv_col p_1) = Some alti_1 -> finterpolate m (fv_row p_2) (fv_col p_2) = Some h_2 ->
  goes_down p_1 alti_1 p_2 h_2 ->
  exists k p z, (forall fuel, (k <= fuel)%nat -> frefine (finterpolate m) fuel p_1 alti_1 p_2 h_2 = FFound p) /\
    is_finite (fv_row p) = true /\ is_finite (fv_col p) = true /\ is_finite (fv_alt p) = true /\ is_finite z = true /\
    -1 < B2R (fv_row p) < IZR (fr_rows m) /\ -1 < B2R (fv_col p) < IZR (fr_cols m) /\
    finterpolate m (fv_row p) (fv_col p) = Some z /\ Rabs (B2R z - B2R (fv_alt p)) <= / 10000 + / 1000000000000000000.
Proof.
  intros m p_1 a_1 p_2 h_2 U I1 I2 O E1 E2 G. destruct (regular_ends m p_1 a_1 p_2 h_2 U I1 I2 O E1 E2 G) as (k & p & K & B & H).
  assert (A : accepted m p) by (apply (refine_found m (k + 0) p_1 a_1 p_2 h_2); apply H).
  destruct (accepted_close m p A) as (z & E & Z). destruct B as (F1 & F2 & F3 & B1 & B2 & _). unfold slope, top in *. rewrite minus_IZR in B1, B2.
  destruct (interp_near m (fv_row p) (fv_col p) U F1 F2) as (z' & E' & [Fz N]); [lra|lra|]. rewrite E in E'. injection E' as <-.
  exists k, p, z. split; [intros fuel L; replace fuel with (k + (fuel - k))%nat by lia; apply H|].
  repeat split; try assumption; try lra. now apply Z.
Qed.

(** A line of sight that grazes the surface at the entry (one bit above it) and leaves the cell on it. *)
Definition graze_alt : b64 := fdiv (fint 251) (fint 5).
Definition graze_los : list fvec3 := [FV3 (fint (-1)) (flit 1 (-2)) graze_alt; FV3 fone (flit 3 (-2)) (fint (-50))].
Definition graze : fraster :=
  mkFRaster 3 3 (fun r c => if (r =? 0)%Z then flit 7205759403792895 (-56) else if (r =? 1)%Z then fint (-50) else fint 100).
Lemma moderate_test (x : b64) : is_finite x && Bleb (fabs x) (fint (2 ^ 50)) = true -> moderate x.
Proof.
  rewrite andb_true_iff. intros [F B]. split; [exact F|]. destruct (fint_exact (2 ^ 50)) as [V G]; [lia|].
  rewrite Bleb_correct in B; [|unfold fabs; now rewrite is_finite_Babs|exact G]. unfold fabs in B. rewrite B2R_Babs, V in B.
  destruct (Rle_bool_spec (Rabs (B2R x)) (IZR (2 ^ 50))) as [L|L]; [|discriminate]. eapply Rle_trans; [exact L|].
  change (IZR (2 ^ 50)) with (bpow radix2 50). apply bpow_le. lia.
Qed.
Lemma graze_finite : Forall moderate_point graze_los.
Proof. unfold graze_los. apply Forall_cons; [|apply Forall_cons; [|apply Forall_nil]]; (split; [|split]); apply moderate_test; vm_compute; reflexivity. Qed.
Lemma graze_usual : usual_terrain graze.
Proof.
  split; [cbn; lia|]. split; [cbn; lia|]. intros r c Hr Hc. cbn [fr_at graze]. destruct (r =? 0)%Z.
  - destruct (flit_exact 7205759403792895 (-56)) as [V F]; [apply fits_dyadic; lia|]. rewrite V. split; [exact F|]. unfold top. change (bpow radix2 (-56)) with (/ 72057594037927936). apply Rabs_le. lra.
  - destruct (r =? 1)%Z; [destruct (fint_exact (-50)) as [V F]|destruct (fint_exact 100) as [V F]]; try lia; rewrite V; split; try exact F; unfold top; apply Rabs_le; lra.
Qed.
(** The point that is returned when the refinement of the first cell ends at its first iteration. *)
Definition first_point (m : fraster) (los : list fvec3) : option fvec3 :=
  match first_refinement m los with
  | Some t => match refine_from (finterpolate m) 1 t with FFound p => Some p | _ => None end
  | None => None
  end.
Lemma first_point_found m los p : first_point m los = Some p -> forall fuel cells steps, flocate m (S fuel) (S cells) (S steps) los = Some (FFound p).
Proof.
  unfold first_point. destruct (first_refinement m los) as [t|] eqn:E; [|discriminate]. intros H fuel cells steps. rewrite (first_refinement_called _ _ _ _ _ _ E). f_equal.
  destruct t as [[[p_1 a_1] p_2] h_2]. unfold refine_from in *. cbn [frefine] in *. cbv zeta in *.
  destruct (finterpolate m _ _) as [z|]; [|discriminate]. destruct (Bltb ftol_z _); [destruct (Bltb _ fzero); discriminate|]. injection H as ->. reflexivity.
Qed.
Definition not_finite (o : option fvec3) : bool :=
  match o with Some p => negb (is_finite (fv_row p)) && negb (is_finite (fv_col p)) && negb (is_finite (fv_alt p)) | None => false end.
Lemma not_finite_spec o : not_finite o = true -> exists p, o = Some p /\ is_finite (fv_row p) = false /\ is_finite (fv_col p) = false /\ is_finite (fv_alt p) = false.
Proof. destruct o as [p|]; cbn; [|discriminate]. rewrite !andb_true_iff, !negb_true_iff. intros ((A & B) & C). exists p. tauto. Qed.
(** The coefficient of the refinement is a division by zero: the point that is returned is infinite. *)
Theorem C97_infinite_point_refuted :
  exists m los, usual_terrain m /\ Forall moderate_point los /\
  forall fuel cells steps, exists p, flocate m (S fuel) (S cells) (S steps) los = Some (FFound p) /\
    is_finite (fv_row p) = false /\ is_finite (fv_col p) = false /\ is_finite (fv_alt p) = false.
Proof.
  exists graze, graze_los. split; [exact graze_usual|]. split; [exact graze_finite|]. intros fuel cells steps.
  assert (H : not_finite (first_point graze graze_los) = true) by (vm_compute; reflexivity).
  apply not_finite_spec in H. destruct H as (p & E & F). exists p. split; [exact (first_point_found _ _ _ E fuel cells steps)|exact F].
Qed.
(** A point is found on the slope of C96, in a cell. *)
Example C97_found :
  match flocate ex_slope 20 9 4 ex_los with Some (FFound p) => is_finite (fv_row p) && is_finite (fv_col p) && is_finite (fv_alt p) && Bleb fzero (fv_row p) && Bleb (fv_row p) fone && Bleb fzero (fv_col p) && Bleb (fv_col p) fone | _ => false end = true.
Proof. vm_compute. reflexivity. Qed.
