(** C99: the DTM intersection does not skip a cell in which the line of sight crosses the ground, in binary64. *)
From Coq Require Import ZArith Reals Bool List Lia Lra.
From Flocq Require Import Core BinarySingleNaN.
From Verif Require Import InterpModel InterpSpec FloatModel FloatInterpModel Float FloatErr FloatInterp FloatWalkModel FloatWalkSpec FloatWalk FloatRefine FloatLineSpec PropertiesFloat2 PropertiesFloatWalk PropertiesFloatPoint FloatMissSpec FloatMiss.
Import ListNotations.
Open Scope R_scope.

(** A cell in which the segment crosses the ground is never skipped: the search ends there with a point, whose altitude is the
    one of the DTM at its position up to 0.1 mm. *)
Theorem C99_cell_not_skipped :
  forall m s w fuel n,
  usual_terrain m -> is_finite (f_z0 s) = true -> is_finite (f_z1 s) = true -> fcell_guard m w = true -> crosses_ground m s w ->
  (2 ^ 33 <= Z.of_nat fuel)%Z ->
  exists p z, fcell_loop m s fuel (S n) w = FDone (FFound p) /\
    is_finite (fv_row p) = true /\ is_finite (fv_col p) = true /\ is_finite (fv_alt p) = true /\
    finterpolate m (fv_row p) (fv_col p) = Some z /\ is_finite z = true /\ Rabs (B2R z - B2R (fv_alt p)) <= / 10000 + / 1000000000000000000.
Proof.
  intros m s w fuel n U F0 F1 G C HF. destruct (crosses_refined m s w U G F0 F1 C) as (a1 & h2 & E1 & E2 & GD & L). destruct C as (I1 & I2 & _ & _ & O & _).
  destruct (C97_point_of_a_cell m _ a1 _ h2 U I1 I2 O E1 E2 GD) as (k & p & z & H & A1 & A2 & A3 & A4 & _ & _ & A5 & A6).
  destruct (C96_refinement_ends m _ a1 _ h2 U I1 I2 O E1 E2 GD) as (k' & p' & K' & H'). exists p, z. rewrite L, (H' fuel) by lia.
  assert (p = p') as <- by (specialize (H (k + k')%nat ltac:(lia)); rewrite (H' (k + k')%nat ltac:(lia)) in H; congruence). auto 10.
Qed.
(** So a segment that is walked to its end, or out of the DTM, crosses the ground in none of the cells of the walk. *)
Theorem C99_walked_segment :
  forall m s fuel n w a_2 k,
  usual_terrain m -> is_finite (f_z0 s) = true -> is_finite (f_z1 s) = true ->
  fcell_loop m s fuel n w = FEnd a_2 ->
  (forall j, (j <= k)%nat -> fcell_guard m (Nat.iter j (fmesh_move s) w) = true) ->
  ~ crosses_ground m s (Nat.iter k (fmesh_move s) w).
Proof.
  intros m s fuel n w a_2 k U F0 F1. revert n w. induction k as [|k IH]; intros n w H G C.
  - specialize (G 0%nat (le_n 0)). cbn [Nat.iter nat_rect] in *. destruct n as [|n]; [cbn [fcell_loop] in H; rewrite G in H; discriminate|].
    destruct (crosses_refined m s w U G F0 F1 C) as (a1 & h2 & _ & _ & _ & L). rewrite L in H. discriminate.
  - assert (SW : forall j, Nat.iter (S j) (fmesh_move s) w = Nat.iter j (fmesh_move s) (fmesh_move s w)) by (induction j as [|j IHj]; [reflexivity|cbn [Nat.iter nat_rect] in *; now rewrite IHj]).
    pose proof (G 0%nat ltac:(lia)) as G0. cbn [Nat.iter nat_rect] in G0. destruct n as [|n]; cbn [fcell_loop] in H; rewrite G0 in H; [discriminate|]. cbv zeta in H.
    assert (H' : fcell_loop m s fuel n (fmesh_move s w) = FEnd a_2).
    { destruct (fmay_intersect _ _ _ _ _ _); [|exact H]. destruct (finterpolate m _ _); [|discriminate]. destruct (finterpolate m _ _); [|discriminate].
      destruct (Bleb _ _); [discriminate|exact H]. }
    apply (IH n (fmesh_move s w) H'); [|rewrite <- SW; exact C]. intros j Hj. rewrite <- SW. apply G. lia.
Qed.
(** For the whole search: when no point is found, the segment [a b] from which the loop over the vertices goes on at the position
    [p_2] crosses the ground in none of the cells of its walk. *)
Theorem C99_not_found :
  forall m los fuel cells steps i_0 p_2 h_2 a b c r k,
  usual_terrain m -> fvertex_loop m los fuel cells steps i_0 p_2 h_2 = FNotFound ->
  (i_0 < Z.of_nat (length los) - 1)%Z -> fpy_get los i_0 = Some a -> fpy_get los (i_0 + 1) = Some b ->
  is_finite (fv_alt a) = true -> is_finite (fv_alt b) = true ->
  let s := fsegment_of a b in
  B2R (f_d0 s) <> 0 \/ B2R (f_d1 s) <> 0 ->
  ffirst_cell (fv_row p_2) (f_d0 s) = Some c -> ffirst_cell (fv_col p_2) (f_d1 s) = Some r ->
  let start := FW (let a_2 := fsub h_2 (fint i_0) in if Bleb fone a_2 then fzero else a_2) c r p_2 in
  (forall j, (j <= k)%nat -> fcell_guard m (Nat.iter j (fmesh_move s) start) = true) ->
  ~ crosses_ground m s (Nat.iter k (fmesh_move s) start).
Proof.
  intros m los fuel cells steps i_0 p_2 h_2 a b c r k U H L EA EB FA FB s NV EC ER start G.
  destruct steps as [|steps]; cbn [fvertex_loop] in H; rewrite (proj2 (Z.ltb_lt _ _) L) in H; [discriminate|]. rewrite EA, EB in H. cbv zeta in H. fold s in H.
  destruct (Beqb (f_d0 s) fzero && Beqb (f_d1 s) fzero) eqn:V.
  { exfalso. apply andb_true_iff in V as [V0 V1]. destruct (fint_exact 0) as [Z0 FZ]; [lia|].
    assert (Q : forall x : b64, Beqb x fzero = true -> B2R x = 0).
    { intros x E. destruct (is_finite x) eqn:F; [rewrite Beqb_correct in E by assumption; unfold fzero in E; rewrite Z0 in E; revert E; case Req_bool_spec; [easy|discriminate]|].
      destruct x; try discriminate; reflexivity. }
    destruct NV as [N|N]; apply N; now apply Q. }
  rewrite EC, ER in H. fold start in H. pose proof (G 0%nat ltac:(lia)) as G0. cbn [Nat.iter nat_rect] in G0. rewrite G0 in H.
  destruct (fcell_loop m s fuel cells start) as [o|a_2] eqn:E.
  - subst o. exfalso. clearbody start s. clear - E. revert start E. induction cells as [|cells IH]; intros w E; cbn [fcell_loop] in E; destruct (fcell_guard m w); try discriminate. cbv zeta in E.
    assert (NF : forall n p1 a1 p2 h2, frefine (finterpolate m) n p1 a1 p2 h2 <> FNotFound).
    { clear. induction n as [|n IH]; intros p1 a1 p2 h2; cbn [frefine]; [discriminate|]. cbv zeta. destruct (finterpolate m _ _); [|discriminate].
      destruct (Bltb ftol_z _); [|discriminate]. destruct (Bltb _ fzero); apply IH. }
    destruct (fmay_intersect _ _ _ _ _ _); [|exact (IH _ E)]. destruct (finterpolate m _ _); [|discriminate]. destruct (finterpolate m _ _); [|discriminate].
    destruct (Bleb _ _); [|exact (IH _ E)]. injection E as E. exact (NF _ _ _ _ _ E).
  - exact (C99_walked_segment m s fuel cells start a_2 k U FA FB E G).
Qed.

(** ** The cells of the walk *)
(** The first cell contains the position from which the walk starts.  On a line of the raster it is the cell on the side to which
    the segment goes. *)
Theorem C99_first_cell :
  forall (p d : b64) c, is_finite p = true -> is_finite d = true -> Rabs (B2R p) <= IZR (2 ^ 52) -> ffirst_cell p d = Some c ->
  if Rlt_dec (B2R d) 0 then IZR c < B2R p <= IZR c + 1 else IZR c <= B2R p < IZR c + 1.
Proof. exact first_cell. Qed.
(** A move goes to one of the eight neighbours of the cell, and the new position is exactly on the line of the raster between the
    two.  A move along the axis of the largest component of the direction goes in this direction, and the new position is exactly
    in the cell along the other axis (or is not changed along it, when the direction has no other component). *)
Theorem C99_next_cell :
  forall m s w, finite_segment s -> (fr_rows m < 2 ^ 52)%Z -> (fr_cols m < 2 ^ 52)%Z -> fcell_guard m w = true ->
  B2R (f_d0 s) <> 0 \/ B2R (f_d1 s) <> 0 ->
  let w' := fmesh_move s w in
  (fw_c w' <> fw_c w \/ fw_r w' <> fw_r w) /\
  over_a_line (fw_c w) (fw_c w') (fv_row (fw_p w')) /\ over_a_line (fw_r w) (fw_r w') (fv_col (fw_p w')) /\
  (largest (B2R (f_d0 s)) (B2R (f_d1 s)) -> fw_c w' <> fw_c w ->
   (if Rlt_dec 0 (B2R (f_d0 s)) then fw_c w' = fw_c w + 1 else fw_c w' = fw_c w - 1)%Z /\
   (fv_col (fw_p w') = fv_col (fw_p w) /\ B2R (f_d1 s) = 0 \/ IZR (fw_r w) <= B2R (fv_col (fw_p w')) <= IZR (fw_r w + 1))) /\
  (largest (B2R (f_d1 s)) (B2R (f_d0 s)) -> fw_r w' <> fw_r w ->
   (if Rlt_dec 0 (B2R (f_d1 s)) then fw_r w' = fw_r w + 1 else fw_r w' = fw_r w - 1)%Z /\
   (fv_row (fw_p w') = fv_row (fw_p w) /\ B2R (f_d0 s) = 0 \/ IZR (fw_c w) <= B2R (fv_row (fw_p w')) <= IZR (fw_c w + 1))).
Proof. intros m s w FS S1 S2. exact (next_cell m s FS S1 S2 w). Qed.

(** ** A case *)
(** The slope of C96: the segment goes down from 102 m, 2 m above the ground, to 98 m, 18 m below it. *)
Definition ex_down : fsegment := fsegment_of (FV3 fzero half (fint 102)) (FV3 fone half (fint 98)).
Definition walk_eqb (w v : fwalk) : bool :=
  b_eqb (fw_a w) (fw_a v) && (fw_c w =? fw_c v)%Z && (fw_r w =? fw_r v)%Z && b_eqb (fv_row (fw_p w)) (fv_row (fw_p v)) && b_eqb (fv_col (fw_p w)) (fv_col (fw_p v)) && b_eqb (fv_alt (fw_p w)) (fv_alt (fw_p v)).
Lemma walk_eqb_eq w v : walk_eqb w v = true -> w = v.
Proof.
  destruct w as [a c r [x y z]], v as [a' c' r' [x' y' z']]. unfold walk_eqb. cbn [fw_a fw_c fw_r fw_p fv_row fv_col fv_alt]. rewrite !andb_true_iff, !Z.eqb_eq.
  intros (((((A & B) & C) & D) & E) & F). apply b_eqb_eq in A, D, E, F. congruence.
Qed.
Definition ex_start : fwalk := FW fzero 0 0 (FV3 fzero half (fint 102)).
Example C99_crosses : fcell_guard ex_slope ex_start = true /\ is_finite (f_z0 ex_down) = true /\ is_finite (f_z1 ex_down) = true /\ crosses_ground ex_slope ex_down ex_start.
Proof.
  destruct C96_regular as (U & I1 & I2 & O & _).
  assert (E : fmesh_move ex_down ex_start = FW fone 1 0 (FV3 fone half (fint 98))).
  { apply walk_eqb_eq. vm_compute. reflexivity. }
  destruct (fint_exact 0) as [Z1 Z2]; [lia|]. destruct (fint_exact 1) as [O1 O2]; [lia|]. destruct (fint_exact 102) as [A1 A2]; [lia|]. destruct (fint_exact 98) as [B1 B2]; [lia|].
  assert (HH : B2R half = / 2) by (unfold half; destruct (flit_exact 1 (-1)) as [V _]; [apply fits_dyadic; lia|]; rewrite V; cbn; lra).
  assert (AT : forall r c, (0 <= r < 3)%Z -> B2R (fr_at ex_slope r c) = 100 + 16 * IZR r).
  { intros r c Hr. cbn [ex_slope fr_at]. destruct (fint_exact (100 + 16 * r)) as [V _]; [lia|]. rewrite V, plus_IZR, mult_IZR. reflexivity. }
  assert (BI : forall i j r c, is_cell (real_raster ex_slope) i j -> bilinear_in_cell (real_raster ex_slope) i j r c = 100 + 16 * r).
  { intros i j r c [Ci _]. cbn in Ci. unfold bilinear_in_cell, lerp. cbn [real_raster rs_at]. rewrite !AT by lia. rewrite plus_IZR. ring. }
  split; [vm_compute; reflexivity|]. split; [exact A2|]. split; [exact B2|]. unfold crosses_ground. cbv zeta. rewrite E. cbn [fw_p fw_c fw_r ex_start].
  split; [exact I1|]. split; [exact I2|].
  split; [unfold close_to_cell, nano; cbn [fv_row fv_col]; unfold fzero; rewrite Z1, HH; lra|].
  split; [unfold close_to_cell, nano; cbn [fv_row fv_col]; unfold fone; rewrite O1, HH; lra|]. split; [exact O|].
  split; [intros i j C _; rewrite BI by exact C; cbn [fv_row fv_alt]; unfold fzero; rewrite Z1, A1; lra|].
  split; [intros i j C _; rewrite BI by exact C; cbn [fv_row fv_alt]; unfold fone; rewrite O1, B1; lra|].
  cbn [f_z1 ex_down fsegment_of fv_alt]. rewrite B1. lra.
Qed.
(** A line of sight above the ground: it is walked to the exit of the DTM, and nothing is found. *)
Definition ex_over : list fvec3 := [FV3 (flit (-1) (-1)) half (fint 130); FV3 (flit 3 (-1)) half (fint 134); FV3 (flit 7 (-1)) half (fint 150)].
Example C99_over : flocate ex_slope 20 9 6 ex_over = Some FNotFound /\
  fvertex_loop ex_slope ex_over 20 9 6 1 (FV3 (flit 3 (-1)) half (fint 134)) (fint 2) = FNotFound.
Proof. split; vm_compute; reflexivity. Qed.
(** Oblique moves: the segment goes by 3 rows and 1 column. *)
Definition ex_oblique : fsegment := fsegment_of (FV3 fzero half (fint 102)) (FV3 (fint 3) (flit 3 (-1)) (fint 98)).
Example C99_oblique : finite_segment ex_oblique /\ largest (B2R (f_d0 ex_oblique)) (B2R (f_d1 ex_oblique)) /\ fw_c (fmesh_move ex_oblique ex_start) = 1%Z /\ fw_r (fmesh_move ex_oblique (fmesh_move ex_oblique ex_start)) = 1%Z.
Proof.
  split; [repeat split; vm_compute; reflexivity|]. split; [|split; vm_compute; reflexivity]. unfold largest.
  destruct (fint_exact 0) as [Z1 Z2]; [lia|]. destruct (fint_exact 1) as [O1 O2]; [lia|]. destruct (fint_exact 3) as [T1 T2]; [lia|].
  assert (D0 : f_d0 ex_oblique = fint 3) by (apply b_eqb_eq; vm_compute; reflexivity). assert (D1 : f_d1 ex_oblique = fint 1) by (apply b_eqb_eq; vm_compute; reflexivity).
  rewrite D0, D1, O1, T1. rewrite !Rabs_pos_eq; lra.
Qed.
