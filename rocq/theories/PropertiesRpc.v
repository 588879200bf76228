(** C07-C13, C51, C52: the RPC model. *)
From Coq Require Import Reals ZArith List Bool Arith Lra Lia Permutation.
From Verif Require Import Num NumLemmas ProjModel ProjSpec PropertiesProj RpcModel CppRpcModel RpcSpec
  RpcProofs RpcNewton RpcDeriv RpcRun RpcBatch.
Import ListNotations.
Open Scope R_scope.

(** ** Example models *)
Definition unit_at (k : nat) : list R := map (fun i => if Nat.eqb i k then 1 else 0) (seq 0 20).
(** col = lon + alt, row = lat. *)
Definition ex_rpc : rpc :=
  mkRpc [0;1;0;1;0;0;0;0;0;0;0;0;0;0;0;0;0;0;0;0] (unit_at 0) (unit_at 2) (unit_at 0)
        (unit_at 1) (unit_at 0) (unit_at 2) (unit_at 0) true true
        0 1 0 1 0 1 0 1 0 1 4326.
(** A model with curvature and a varying denominator. *)
Definition ex_rpc2 : rpc :=
  mkRpc [0;1;0;1;0;0;0;2;0;0;0;0;3;0;0;0;0;0;0;0] [1;0;0;0;0;0;0;1;1;0;0;0;0;0;0;0;0;0;0;0]
        [0;0;1;1;0;0;0;0;1;0;0;0;0;0;0;5;0;0;0;0] [1;0;0;0;0;0;0;0;0;1;0;0;0;0;0;0;0;0;0;0]
        [] [] [] [] true false
        10 2 45 3 500 400 1000 990 2000 1990 4326.

Example ex_rpc_usable : usable_inverse ex_rpc.
Proof. repeat split; simpl; lra. Qed.
Example ex_rpc2_usable : usable_inverse ex_rpc2.
Proof. repeat split; simpl; lra. Qed.
Lemma ex_rpc_affine alt : affine_at ex_rpc alt alt 1 0 0 0 1.
Proof.
  intros lon lat. unfold regular_at, col_of, row_of, cubic, nx, ny, nz. simpl.
  repeat split; try lra; field.
Qed.
Example ex_rpc2_regular lon lat alt : regular_at ex_rpc2 lon lat alt.
Proof.
  unfold regular_at, cubic. simpl. set (x := nx ex_rpc2 lon). set (y := ny ex_rpc2 lat).
  set (z := nz ex_rpc2 alt). split.
  - assert (0 <= x * x) by apply Rle_0_sqr. assert (0 <= y * y) by apply Rle_0_sqr. lra.
  - assert (0 <= z * z) by apply Rle_0_sqr. lra.
Qed.

(** ** C07 *)
Theorem C07_python_polynomial_is_cubic_form :
  forall c x y z, length c = 20%nat -> polynomial_equation x y z c = cubic c x y z.
Proof. intros; now apply poly_cubic. Qed.
Theorem C07_cpp_polynomial_is_cubic_form :
  forall c x y z, length c = 20%nat ->
  cpp_polynomial_equation (cpp_pre_polynomial_equation x y z) c = cubic c x y z.
Proof. intros. rewrite cpp_poly_eq. now apply poly_cubic. Qed.
Theorem C07_monomial_table_is_cubic_form :
  forall c x y z, length c = 20%nat -> table_sum c monomes x y z = cubic c x y z.
Proof.
  intros c x y z H. destruct (list20 c H) as (?&?&?&?&?&?&?&?&?&?&?&?&?&?&?&?&?&?&?&?&->).
  unfold cubic; simpl. ring.
Qed.
Example C07_case : length (num_col ex_rpc2) = 20%nat /\ cubic (num_col ex_rpc2) 1 2 3 = 1 + 3 + 2 + 12.
Proof. split; [reflexivity|]. unfold cubic; simpl. ring. Qed.

(** ** C09 (value first, as C08 is about the derivative of this value) *)
(** One point: the position the RPC00B formula gives. *)
Theorem C09_inverse_loc_value :
  forall m lon lat alt, usable_inverse m -> lonlat_ok lon lat -> regular_at m lon lat alt ->
  inverse_loc m [Some lon] [Some lat] [Some alt]
  = Some ([Some (row_of m lon lat alt)], [Some (col_of m lon lat alt)], [Some alt]).
Proof.
  intros m lon lat alt Hu Hl Hr.
  pose proof (inverse_loc_map m [R3 (Some lon) (Some lat) (Some alt)] (proj1 Hu)) as H.
  cbn [map lon3 lat3 alt3] in H. rewrite inv_pt_finite in H by assumption. exact H.
Qed.

(** A batch never fails, and its i-th result is the result of the i-th point alone. *)
Theorem C09_inverse_loc_pointwise :
  forall m lon lat alt i x y z, inverse_coefficient m = true ->
  length lat = length lon -> length alt = length lon ->
  nth_error lon i = Some x -> nth_error lat i = Some y -> nth_error alt i = Some z ->
  exists rows cols alts r c a,
    inverse_loc m lon lat alt = Some (rows, cols, alts) /\
    inverse_loc m [x] [y] [z] = Some ([r], [c], [a]) /\
    nth_error rows i = Some r /\ nth_error cols i = Some c /\ nth_error alts i = Some a /\
    length rows = length lon /\ length cols = length lon /\ length alts = length lon.
Proof.
  intros m lon lat alt i x y z Hi H1 H2 Hx Hy Hz.
  destruct (zip3_some lon lat alt H1 H2) as [rows E]. apply zip3_inv in E. destruct E as (-> & -> & ->).
  apply nth_error_map_inv in Hx. destruct Hx as (p & Hp & ->).
  rewrite (map_nth_error _ _ _ Hp) in Hy. rewrite (map_nth_error _ _ _ Hp) in Hz.
  injection Hy as <-. injection Hz as <-.
  pose proof (inverse_loc_map m [R3 (lon3 p) (lat3 p) (alt3 p)] Hi) as E1.
  rewrite inverse_loc_map by assumption.
  do 6 eexists. split; [reflexivity|]. split; [exact E1|].
  destruct p as [px py pz]. cbn [lon3 lat3 alt3].
  rewrite !map_length, !(map_nth_error _ _ _ Hp). auto 10.
Qed.

(** A point with a NaN or an out-of-range coordinate comes back as NaN, and only it. *)
Theorem C09_inverse_loc_invalid_point :
  forall m x y z, inverse_coefficient m = true -> ~ valid_lonlat (R3 x y z) ->
  inverse_loc m [x] [y] [z] = Some ([None], [None], [None]).
Proof.
  intros m x y z Hi Hv. pose proof (inverse_loc_map m [R3 x y z] Hi) as E. cbn [map lon3 lat3 alt3] in E. rewrite E.
  unfold inv_pt, checked. destruct (lonlat_filtering (R3 x y z)) eqn:F; [reflexivity|].
  apply filtering_spec in F. contradiction.
Qed.

(** A scalar altitude is used for every point. *)
Theorem C09_inverse_loc_scalar_altitude :
  forall m lon lat z, inverse_loc m lon lat [z] = inverse_loc m lon lat (repeat z (length lon)).
Proof.
  intros. unfold inverse_loc. rewrite broadcast_scalar.
  now rewrite (broadcast_same _ (repeat z (length lon))) by apply repeat_length.
Qed.

(** More generally, when the number of altitudes is not the number of points, the FIRST altitude is used
    for every point and the others are silently ignored. *)
Theorem C09_inverse_loc_first_altitude :
  forall m lon lat z others, length (z :: others) <> length lon ->
  inverse_loc m lon lat (z :: others) = inverse_loc m lon lat (repeat z (length lon)).
Proof.
  intros m lon lat z others H. unfold inverse_loc, broadcast_alt at 1.
  apply Nat.eqb_neq in H. rewrite H.
  now rewrite (broadcast_same _ (repeat z (length lon))) by apply repeat_length.
Qed.
Example C09_first_altitude_case :
  length [Some 10; Some 20] <> length [Some 1; Some 2; Some 3].
Proof. discriminate. Qed.

(** The C++ twin (one point) gives the same position for valid points ... *)
Theorem C09_cpp_inverse_loc_value :
  forall m lon lat alt, usable_inverse m -> regular_at m lon lat alt ->
  cpp_inverse_loc m (Some lon) (Some lat) (Some alt)
  = (Some (row_of m lon lat alt), Some (col_of m lon lat alt), Some alt).
Proof. exact cpp_inverse_loc_finite. Qed.
(** ... but, unlike Python, it also answers outside of the longitude/latitude range. *)
Theorem C09_cpp_range_check_refuted :
  exists m lon lat alt, usable_inverse m /\ regular_at m lon lat alt /\
  inverse_loc m [Some lon] [Some lat] [Some alt] = Some ([None], [None], [None]) /\
  cpp_inverse_loc m (Some lon) (Some lat) (Some alt) = (Some lat, Some lon, Some alt).
Proof.
  exists ex_rpc, 200, 0, 0. split; [apply ex_rpc_usable|].
  destruct (ex_rpc_affine 0 200 0) as (Hr & Hc & Hw).
  split; [exact Hr|]. split.
  - apply C09_inverse_loc_invalid_point; [reflexivity|]. intros (a & b & c & E & H). injection E as <- <- <-. lra.
  - rewrite cpp_inverse_loc_finite by (auto using ex_rpc_usable). rewrite Hc, Hw.
    repeat f_equal; ring.
Qed.

(** The C++ vector version agrees point by point with the scalar one where the denominators do
    not vanish. *)
Theorem C09_cpp_inverse_loc_vector :
  forall m (pts : list (R * R * R)), usable_inverse m ->
  Forall (fun p => regular_at m (fst (fst p)) (snd (fst p)) (snd p)) pts ->
  cpp_inverse_loc_vec m (map (fun p => Some (fst (fst p))) pts) (map (fun p => Some (snd (fst p))) pts)
    (map (fun p => Some (snd p)) pts)
  = Some (map (fun p => R3 (Some (row_of m (fst (fst p)) (snd (fst p)) (snd p)))
                           (Some (col_of m (fst (fst p)) (snd (fst p)) (snd p)))
                           (Some (snd p))) pts).
Proof.
  intros m pts Hu HF. unfold cpp_inverse_loc_vec, check_sizes. rewrite !map_length, Nat.min_id.
  rewrite broadcast_same by now rewrite map_length.
  rewrite !firstn_all2 by (rewrite map_length; lia). rewrite map_length.
  match goal with |- context [seq_opt ?L] =>
    assert (E : seq_opt L
      = Some (map (fun p => R3 (Some (col_of m (fst (fst p)) (snd (fst p)) (snd p)))
                               (Some (row_of m (fst (fst p)) (snd (fst p)) (snd p)))
                               (Some (snd p))) pts)) end.
  { generalize (map (fun p : R * R * R => Some (snd p)) pts) at 1. intros alts. generalize 0%nat.
    induction pts as [|[[x y] z] pts IH]; intros k; [reflexivity|].
    inversion HF as [|? ? Hr HF']; subst. cbn [length seq map zip4 seq_opt].
    specialize (IH HF' (S k)). cbn [fst snd] in *.
    assert (EP : cpp_rational_vec_point m (Some x) (Some y) (Some z) (nth_error alts k)
       (num_col m) (den_col m) (num_row m) (den_row m) false false
       (scale_x m) (offset_x m) (scale_y m) (offset_y m) (scale_alt m) (offset_alt m)
       (scale_col m) (offset_col m) (scale_row m) (offset_row m)
       = Some (R3 (Some (col_of m x y z)) (Some (row_of m x y z)) (Some z))).
    { unfold cpp_rational_vec_point. cbn [isnan orb].
      pose proof (cpp_inverse_loc_finite m x y z Hu Hr) as EC.
      destruct Hu as (_ & Hl1 & Hl2 & Hl3 & Hl4 & Hx & Hy & Hz). destruct Hr as [Hd1 Hd2].
      unfold cpp_inverse_loc, cpp_rational_unitary in EC. cbn [isnan orb] in EC.
      rewrite !normalise_some in * by assumption. unfold fin in *.
      unfold nx, ny, nz in *. rewrite !cpp_poly_eq, !poly_cubic by assumption.
      destruct (Reqb_spec (cubic (den_col m) ((x - offset_x m) / scale_x m) ((y - offset_y m) / scale_y m)
         ((z - offset_alt m) / scale_alt m)) 0); [contradiction|].
      destruct (Reqb_spec (cubic (den_row m) ((x - offset_x m) / scale_x m) ((y - offset_y m) / scale_y m)
         ((z - offset_alt m) / scale_alt m)) 0); [contradiction|].
      cbn [orb]. pose proof (f_equal (fun t => fst (fst t)) EC) as E1.
      pose proof (f_equal (fun t => snd (fst t)) EC) as E2. cbn [fst snd] in E1, E2.
      unfold fin. rewrite E1, E2. reflexivity. }
    unfold num in *. rewrite EP. fold num in *. rewrite IH. reflexivity. }
  rewrite E, map_map. reflexivity.
Qed.

Example C09_case :
  usable_inverse ex_rpc2 /\ lonlat_ok 12 45 /\ regular_at ex_rpc2 12 45 500 /\
  col_of ex_rpc2 12 45 500 = 3 / 2 * 990 + 1000 /\
  ~ valid_lonlat (R3 (Some 500) (Some 45) (Some 0)).
Proof.
  split; [apply ex_rpc2_usable|]. split; [unfold lonlat_ok; lra|]. split; [apply ex_rpc2_regular|]. split.
  - unfold col_of, cubic, nx, ny, nz. simpl. field.
  - intros (a & b & c & E & H). injection E as <- <- <-. lra.
Qed.

(** ** C08 *)
Theorem C08_python_derivatives :
  forall m lon lat alt, usable_inverse m -> regular_at m lon lat alt ->
  exists a b c d,
    compute_loc_inverse_derivates m [Some lon] [Some lat] [Some alt]
      = Some ([Some a], [Some b], [Some c], [Some d]) /\
    derivable_pt_lim (fun x => col_of m x lat alt) lon a /\
    derivable_pt_lim (fun y => col_of m lon y alt) lat b /\
    derivable_pt_lim (fun x => row_of m x lat alt) lon c /\
    derivable_pt_lim (fun y => row_of m lon y alt) lat d.
Proof.
  intros m lon lat alt Hu Hr. destruct (der_pt_finite m lon lat alt Hu Hr) as (a & b & c & d & E & H).
  exists a, b, c, d. split; [|exact H].
  pose proof (derivates_map m [R3 (Some lon) (Some lat) (Some alt)] lon3 lat3 alt3) as HD.
  cbv zeta in HD. cbn [map lon3 lat3 alt3] in HD. rewrite E in HD. exact HD.
Qed.
Theorem C08_cpp_derivatives :
  forall m lon lat alt, usable_inverse m -> regular_at m lon lat alt ->
  exists a b c d,
    cpp_compute_loc_inverse_derivates m (Some lon) (Some lat) (Some alt)
      = (Some a, Some b, Some c, Some d) /\
    derivable_pt_lim (fun x => col_of m x lat alt) lon a /\
    derivable_pt_lim (fun y => col_of m lon y alt) lat b /\
    derivable_pt_lim (fun x => row_of m x lat alt) lon c /\
    derivable_pt_lim (fun y => row_of m lon y alt) lat d.
Proof.
  intros m lon lat alt Hu Hr. rewrite cpp_der_eq. exact (der_pt_finite m lon lat alt Hu Hr).
Qed.
(** Batches: point by point. *)
Theorem C08_derivatives_pointwise :
  forall m (pts : list row3), 
  exists d1 d2 d3 d4,
    compute_loc_inverse_derivates m (map lon3 pts) (map lat3 pts) (map alt3 pts) = Some (d1, d2, d3, d4) /\
    forall i p, nth_error pts i = Some p -> exists a b c d,
      nth_error d1 i = Some a /\ nth_error d2 i = Some b /\ nth_error d3 i = Some c /\ nth_error d4 i = Some d /\
      compute_loc_inverse_derivates m [lon3 p] [lat3 p] [alt3 p] = Some ([a], [b], [c], [d]).
Proof.
  intros m pts. rewrite derivates_map. do 4 eexists. split; [reflexivity|]. intros i p Hp.
  rewrite !(map_nth_error _ _ _ Hp). do 4 eexists. do 4 (split; [reflexivity|]).
  exact (derivates_map m [p] lon3 lat3 alt3).
Qed.
(** The tables of the derivatives. *)
Theorem C08_table_deriv_1 :
  forall c x y z, length c = 20%nat ->
  derivable_pt_lim (fun t => cubic c t y z) x (table_sum c monomes_deriv_1 x y z).
Proof.
  intros c x y z H. eapply dpl_ext; [intros t; symmetry; apply poly_cubic; exact H|].
  eapply eq_ind; [apply dpl_poly_x|].
  destruct (list20 c H) as (?&?&?&?&?&?&?&?&?&?&?&?&?&?&?&?&?&?&?&?&->).
  unfold derivative_polynomial_longitude, co; simpl. ring.
Qed.
Theorem C08_table_deriv_2 :
  forall c x y z, length c = 20%nat ->
  derivable_pt_lim (fun t => cubic c x t z) y (table_sum c monomes_deriv_2 x y z).
Proof.
  intros c x y z H. eapply dpl_ext; [intros t; symmetry; apply poly_cubic; exact H|].
  eapply eq_ind; [apply dpl_poly_y|].
  destruct (list20 c H) as (?&?&?&?&?&?&?&?&?&?&?&?&?&?&?&?&?&?&?&?&->).
  unfold derivative_polynomial_latitude, co; simpl. ring.
Qed.
Example C08_case : usable_inverse ex_rpc2 /\ regular_at ex_rpc2 11 44 200.
Proof. split; [apply ex_rpc2_usable|apply ex_rpc2_regular]. Qed.

(** ** C10 *)
(** Any altitudes.  [k] is the number of refinements. *)
Theorem C10_residue_any_altitudes_partial :
  forall m q0 Q0 n fill lons lats alts k, usable_inverse m ->
  let Q := q0 :: Q0 in
  lonlat_ok (offset_x m) (offset_y m) -> regular_at m (offset_x m) (offset_y m) (x_alt q0) ->
  direct_loc_inverse_iterative m (map (fun p => Some (x_row p)) Q)
    (map (fun p => Some (x_col p)) Q) (map (fun p => Some (x_alt p)) Q) n fill
  = Some (lons, lats, alts, k) ->
  (k <= n)%nat /\
  ((k < n)%nat -> all_located m Q lons lats ->
   forall i q lon lat, nth_error Q i = Some q ->
     nth_error lons i = Some (Some lon) -> nth_error lats i = Some (Some lat) ->
     reprojects m (x_row q) (x_col q) lon lat (x_alt q) \/
     (lon = offset_x m /\ lat = offset_y m /\
      reprojects m (x_row q) (x_col q) lon lat (x_alt q0))).
Proof. exact iterative_residue. Qed.

(** One altitude for the whole batch: every point reprojects. *)
Theorem C10_residue_common_altitude :
  forall m rc (pixels : list (R * R)) alt n fill lons lats alts k, usable_inverse m ->
  let P := rc :: pixels in
  let Q := map (fun p => Pix (fst p) (snd p) alt) P in
  lonlat_ok (offset_x m) (offset_y m) -> regular_at m (offset_x m) (offset_y m) alt ->
  direct_loc_inverse_iterative m (map (fun p => Some (fst p)) P) (map (fun p => Some (snd p)) P)
    [Some alt] n fill = Some (lons, lats, alts, k) ->
  (k <= n)%nat /\
  ((k < n)%nat -> all_located m Q lons lats ->
   forall i row col lon lat, nth_error P i = Some (row, col) ->
     nth_error lons i = Some (Some lon) -> nth_error lats i = Some (Some lat) ->
     reprojects m row col lon lat alt).
Proof.
  intros m rc pixels alt n fill lons lats alts k Hu P Q Hc Hr H.
  rewrite iterative_scalar_alt, map_length, repeat_map in H.
  assert (HH : direct_loc_inverse_iterative m (map (fun p => Some (x_row p)) Q)
    (map (fun p => Some (x_col p)) Q) (map (fun p => Some (x_alt p)) Q) n fill = Some (lons, lats, alts, k)).
  { rewrite <- H. unfold Q. rewrite !map_map. reflexivity. }
  destruct (iterative_residue m (Pix (fst rc) (snd rc) alt) (map (fun p => Pix (fst p) (snd p) alt) pixels)
     n fill lons lats alts k Hu Hc Hr HH) as [Hk HR].
  split; [exact Hk|]. intros Hlt Hall i row col lon lat Hp Hlo Hla.
  assert (HQ : nth_error Q i = Some (Pix row col alt)) by (unfold Q; now rewrite (map_nth_error _ _ _ Hp)).
  destruct (HR Hlt Hall i _ lon lat HQ Hlo Hla) as [?|(_ & _ & ?)]; assumption.
Qed.

(** With different altitudes in one batch the claim is false: a pixel whose residue at the scene
    centre, computed with the altitude of the FIRST pixel, is small is never refined. *)
Lemma ex_rpc_centre alt : inv_pt ex_rpc (R3 (Some 0) (Some 0) (Some alt)) = R3 (Some 0) (Some alt) (Some alt).
Proof.
  destruct (ex_rpc_affine alt 0 0) as (Hr & Hc & Hw).
  rewrite inv_pt_finite by (auto using ex_rpc_usable; unfold lonlat_ok; lra).
  rewrite Hc, Hw. repeat f_equal; ring.
Qed.
Lemma ngtb_zero : ngtb (nabs (Some 0)) (fin eps) = false.
Proof. simpl. unfold eps. rewrite Rabs_R0. apply Rltb_false. lra. Qed.

Lemma ex_rpc_two_altitudes :
  direct_loc_inverse_iterative ex_rpc [Some 0; Some 0] [Some 0; Some 0] [Some 0; Some 1] 10 false
  = Some ([Some 0; Some 0], [Some 0; Some 0], [Some 0; Some 1], 0%nat).
Proof.
  pose proof (iterative_batch ex_rpc (Inp 0 0 (Some 0)) [Inp 0 0 (Some 1)] 10 false eq_refl) as H.
  cbv zeta in H. cbn [map i_row i_col i_alt] in H. unfold fin in H at 1 2 3 4 5 6 7 8.
  change (offset_x ex_rpc) with 0 in H. change (offset_y ex_rpc) with 0 in H.
  unfold fin in H. rewrite !ex_rpc_centre in H. cbn [lon3 lat3] in H.
  assert (EC : batch_cond [init_pt ex_rpc (Some 0) (Some 0) (Inp 0 0 (Some 0));
      init_pt ex_rpc (Some 0) (Some 0) (Inp 0 0 (Some 1))] = false).
  { unfold batch_cond, max_abs_gt_eps, init_pt. cbn [map p_dc p_dr i_row i_col existsb isnan nsub nlift2].
    replace (0 - 0) with 0 by ring. rewrite ngtb_zero. reflexivity. }
  assert (EB : forall n, batch_loop ex_rpc n [init_pt ex_rpc (Some 0) (Some 0) (Inp 0 0 (Some 0));
      init_pt ex_rpc (Some 0) (Some 0) (Inp 0 0 (Some 1))]
      = ([init_pt ex_rpc (Some 0) (Some 0) (Inp 0 0 (Some 0));
      init_pt ex_rpc (Some 0) (Some 0) (Inp 0 0 (Some 1))], 0%nat)).
  { intros [|n]; cbn [batch_loop]; rewrite EC; reflexivity. }
  rewrite EB in H. exact H.
Qed.

Theorem C10_residue_mixed_altitudes_refuted :
  exists m rows cols alts lons lats alts' k, usable_inverse m /\
    direct_loc_inverse_iterative m (finite rows) (finite cols) (finite alts) 10 false
      = Some (finite lons, finite lats, alts', k) /\ (k < 10)%nat /\
    exists i row col alt lon lat,
      nth_error rows i = Some row /\ nth_error cols i = Some col /\ nth_error alts i = Some alt /\
      nth_error lons i = Some lon /\ nth_error lats i = Some lat /\
      lonlat_ok lon lat /\ regular_at m lon lat alt /\ ~ reprojects m row col lon lat alt.
Proof.
  exists ex_rpc, [0;0], [0;0], [0;1], [0;0], [0;0], [Some 0; Some 1], 0%nat.
  split; [apply ex_rpc_usable|]. split; [exact ex_rpc_two_altitudes|]. split; [lia|].
  exists 1%nat, 0, 0, 1, 0, 0. destruct (ex_rpc_affine 1 0 0) as (Hr & Hc & Hw).
  do 5 (split; [reflexivity|]). split; [unfold lonlat_ok; lra|]. split; [exact Hr|].
  unfold reprojects. rewrite Hc. intros [H _].
  replace (0 - (1 + 1 * 0 + 0 * 0)) with (-(1)) in H by ring. rewrite Rabs_Ropp, Rabs_R1 in H. lra.
Qed.

(** Reachability: affine models are solved by one refinement. *)
Lemma affine_newton_run m row col alt c0 a b r0 c d n lon lat lon' lat' :
  affine_at m alt c0 a b r0 c d -> a * d - b * c <> 0 ->
  c0 + a * lon' + b * lat' = col -> r0 + c * lon' + d * lat' = row ->
  lonlat_ok lon lat -> lonlat_ok lon' lat' -> ~ reprojects m row col lon lat alt ->
  newton_run lonlat_ok m row col alt (S n) lon lat lon' lat'.
Proof.
  intros HA Hdet H1 H2 Hl Hl' Hnr. destruct (HA lon lat) as (Hr & Hc & Hw).
  destruct (HA lon' lat') as (Hr' & Hc' & Hw').
  apply run_step with (lon' := lon') (lat' := lat'); auto.
  - exists a, b, c, d.
    assert (D : forall f k e t, (forall x, f x = e + k * x) -> derivable_pt_lim f t k).
    { intros f k e t Hf. apply dpl_ext with (g := (fct_cte e + mult_real_fct k id)%F).
      { intros x. rewrite Hf. reflexivity. }
      replace k with (0 + k * 1) at 2 by ring.
      apply derivable_pt_lim_plus; [apply derivable_pt_lim_const|].
      apply derivable_pt_lim_scal, derivable_pt_lim_id. }
    repeat split; auto.
    + apply (D _ a (c0 + b * lat)). intros x. destruct (HA x lat) as (_ & -> & _). ring.
    + apply (D _ b (c0 + a * lon)). intros x. destruct (HA lon x) as (_ & -> & _). ring.
    + apply (D _ c (r0 + d * lat)). intros x. destruct (HA x lat) as (_ & _ & ->). ring.
    + apply (D _ d (r0 + c * lon)). intros x. destruct (HA lon x) as (_ & _ & ->). ring.
    + rewrite Hc, <- H1. ring.
    + rewrite Hw, <- H2. ring.
  - apply run_done; auto. unfold reprojects. rewrite Hc', Hw', H1, H2.
    replace (col - col) with 0 by ring. replace (row - row) with 0 by ring. rewrite Rabs_R0. lra.
Qed.

(** ** C11 *)
(** A batch with one altitude: every point gets the result of Newton's method run on it alone,
    whatever the other points are. *)
Theorem C11_batch_is_pointwise_newton_partial :
  forall m alt n fill (L : list located), usable_inverse m ->
  Forall (fun p => newton_run lonlat_ok m (l_row p) (l_col p) alt n (offset_x m) (offset_y m)
                     (l_lon p) (l_lat p)) L ->
  exists k, (k <= n)%nat /\
  direct_loc_inverse_iterative m (map (fun p => Some (l_row p)) L) (map (fun p => Some (l_col p)) L)
    [Some alt] n fill
  = Some (map (fun p => Some (l_lon p)) L, map (fun p => Some (l_lat p)) L,
          map (fun _ => Some alt) L, k).
Proof.
  intros m alt n fill L Hu HF. rewrite iterative_scalar_alt, map_length, repeat_map.
  now apply iterative_run.
Qed.
(** The specification determines the result. *)
Theorem C11_newton_run_deterministic :
  forall dom m row col alt n lon lat lonf latf lonf' latf',
  newton_run dom m row col alt n lon lat lonf latf ->
  newton_run dom m row col alt n lon lat lonf' latf' -> lonf = lonf' /\ latf = latf'.
Proof. exact run_deterministic. Qed.
(** The C++ twin computes the same ground point, at any altitude. *)
Theorem C11_cpp_point_is_newton :
  forall m row col alt n fill lonf latf, usable_inverse m ->
  newton_run (fun _ _ => True) m row col alt n (offset_x m) (offset_y m) lonf latf ->
  cpp_direct_loc_inverse_iterative m (Some row) (Some col) (Some alt) n fill
  = (Some lonf, Some latf, Some alt).
Proof. exact cpp_iterative_run. Qed.
Theorem C11_python_cpp_agree_partial :
  forall m alt n fill (L : list located) lons lats alts k, usable_inverse m ->
  Forall (fun p => newton_run lonlat_ok m (l_row p) (l_col p) alt n (offset_x m) (offset_y m)
                     (l_lon p) (l_lat p)) L ->
  direct_loc_inverse_iterative m (map (fun p => Some (l_row p)) L) (map (fun p => Some (l_col p)) L)
    [Some alt] n fill = Some (lons, lats, alts, k) ->
  cpp_direct_loc_inverse_iterative_vec m (map (fun p => Some (l_row p)) L)
    (map (fun p => Some (l_col p)) L) [Some alt] n fill
  = zip3 lons lats alts.
Proof.
  intros m alt n fill L lons lats alts k Hu HF H.
  destruct (C11_batch_is_pointwise_newton_partial m alt n fill L Hu HF) as (k' & _ & E).
  rewrite E in H. injection H as <- <- <- _. clear E k' k.
  unfold cpp_direct_loc_inverse_iterative_vec, check_sizes. rewrite !map_length, Nat.min_id.
  rewrite broadcast_scalar, !firstn_all2 by (rewrite map_length; lia). rewrite repeat_map, zip4_map, map_map.
  induction L as [|p L IH]; [reflexivity|]. inversion HF as [|? ? Hp HF']; subst.
  cbn [map zip3]. rewrite (cpp_iterative_run _ _ _ _ _ _ _ _ Hu (run_weaken _ (fun _ _ => True) _ _ _ _ _ _ _ _ _ (fun _ _ _ => I) Hp)).
  specialize (IH HF'). cbn [map] in IH.
  match type of IH with Some ?x = ?y => destruct y; [|discriminate]; injection IH as -> end.
  reflexivity.
Qed.
(** With one altitude per point the batch result depends on the other points. *)
Theorem C11_batch_with_altitudes_refuted :
  exists m lon1 lon2, usable_inverse m /\
   (exists o1 o2 o3 o4 k, direct_loc_inverse_iterative m [Some 0; Some 0] [Some 0; Some 0] [Some 0; Some 1] 10 false
     = Some ([o1; Some lon1], [o2; o3], o4, k)) /\
   (exists o2 o4 k, direct_loc_inverse_iterative m [Some 0] [Some 0] [Some 1] 10 false
     = Some ([Some lon2], [o2], o4, k)) /\
   lon1 <> lon2.
Proof.
  exists ex_rpc, 0, (-1). split; [apply ex_rpc_usable|]. split; [|split].
  - do 5 eexists. exact ex_rpc_two_altitudes.
  - destruct (C11_batch_is_pointwise_newton_partial ex_rpc 1 10 false [Loc 0 0 (-1) 0] ex_rpc_usable) as (k & _ & E).
    + constructor; [|constructor]. cbn [l_row l_col l_lon l_lat].
      apply (affine_newton_run ex_rpc 0 0 1 1 1 0 0 0 1); try (unfold lonlat_ok; simpl; lra).
      * apply ex_rpc_affine.
      * unfold reprojects. destruct (ex_rpc_affine 1 (offset_x ex_rpc) (offset_y ex_rpc)) as (_ & -> & _).
        simpl. intros [H _]. replace (0 - (1 + 1 * 0 + 0 * 0)) with (-(1)) in H by ring.
        rewrite Rabs_Ropp, Rabs_R1 in H. lra.
    + do 3 eexists. exact E.
  - lra.
Qed.
(** The hypothesis of the theorems above is met. *)
Example C11_case : usable_inverse ex_rpc /\
  Forall (fun p => newton_run lonlat_ok ex_rpc (l_row p) (l_col p) 20 10 (offset_x ex_rpc) (offset_y ex_rpc)
                     (l_lon p) (l_lat p)) [Loc 5 7 (-13) 5; Loc 1 120 100 1].
Proof.
  split; [apply ex_rpc_usable|].
  repeat constructor; cbn [l_row l_col l_lon l_lat];
    (apply (affine_newton_run ex_rpc _ _ 20 20 1 0 0 0 1); try (unfold lonlat_ok; simpl; lra);
     [apply ex_rpc_affine|]); unfold reprojects;
    destruct (ex_rpc_affine 20 (offset_x ex_rpc) (offset_y ex_rpc)) as (_ & -> & ->); simpl; intros [H1 H2].
  - replace (5 - (0 + 0 * 0 + 1 * 0)) with 5 in H2 by ring. rewrite Rabs_pos_eq in H2; lra.
  - replace (1 - (0 + 0 * 0 + 1 * 0)) with 1 in H2 by ring. rewrite Rabs_pos_eq in H2; lra.
Qed.

(** C10: affine models are inverted exactly. *)
Theorem C10_affine_model_exact :
  forall m alt c0 a b r0 c d (L : list located) n fill, usable_inverse m -> (1 <= n)%nat ->
  affine_at m alt c0 a b r0 c d -> a * d - b * c <> 0 ->
  lonlat_ok (offset_x m) (offset_y m) ->
  Forall (fun p => lonlat_ok (l_lon p) (l_lat p) /\
                   col_of m (l_lon p) (l_lat p) alt = l_col p /\ row_of m (l_lon p) (l_lat p) alt = l_row p /\
                   ~ reprojects m (l_row p) (l_col p) (offset_x m) (offset_y m) alt) L ->
  exists k, (k <= n)%nat /\
  direct_loc_inverse_iterative m (map (fun p => Some (l_row p)) L) (map (fun p => Some (l_col p)) L)
    [Some alt] n fill
  = Some (map (fun p => Some (l_lon p)) L, map (fun p => Some (l_lat p)) L,
          map (fun _ => Some alt) L, k).
Proof.
  intros m alt c0 a b r0 c d L n fill Hu Hn HA Hdet Hc HF.
  apply C11_batch_is_pointwise_newton_partial; [assumption|]. eapply Forall_impl; [|exact HF].
  intros p (Hl & H1 & H2 & H3). destruct n as [|n]; [lia|].
  destruct (HA (l_lon p) (l_lat p)) as (_ & E1 & E2).
  apply (affine_newton_run m (l_row p) (l_col p) alt c0 a b r0 c d); auto; congruence.
Qed.
Example C10_case : affine_at ex_rpc 20 20 1 0 0 0 1 /\ 1 * 1 - 0 * 0 <> 0 /\ lonlat_ok (offset_x ex_rpc) (offset_y ex_rpc).
Proof. split; [apply ex_rpc_affine|]. split; [lra|unfold lonlat_ok; simpl; lra]. Qed.

(** ** C12 *)
(** A model with the requested coefficients always answers, one row per pixel. *)
Theorem C12_defined_and_shape :
  forall m Q fill (direct : bool),
  (if direct then direct_coefficient m else inverse_coefficient m) = true ->
  exists out, direct_loc_h m (map n_row Q) (map n_col Q) (map n_alt Q) fill direct = Some out /\
              length out = length Q.
Proof.
  intros m Q fill direct H. destruct (direct_loc_h_defined m Q fill direct H) as [out E].
  exists out. split; [exact E|].
  destruct (direct_loc_h_shape _ _ _ _ _ E) as (lon & lat & rows & _ & -> & _ & _ & E3).
  unfold check_lonlat. rewrite map_length. apply (f_equal (@length num)) in E3. now rewrite !map_length in E3.
Qed.
(** Without them it fails. *)
Theorem C12_missing_coefficients :
  forall m Q fill (direct : bool),
  (if direct then direct_coefficient m else inverse_coefficient m) = false ->
  direct_loc_h m (map n_row Q) (map n_col Q) (map n_alt Q) fill direct = None.
Proof.
  intros m Q fill direct H. rewrite direct_loc_h_core. unfold usable_core.
  destruct direct; rewrite H; reflexivity.
Qed.
(** Every row is either entirely NaN, or a valid position at the requested altitude. *)
Theorem C12_altitude_kept :
  forall m Q fill direct out i q p,
  direct_loc_h m (map n_row Q) (map n_col Q) (map n_alt Q) fill direct = Some out ->
  nth_error Q i = Some q -> nth_error out i = Some p ->
  p = nan3 \/ (valid_lonlat p /\ alt3 p = n_alt q).
Proof.
  intros m Q fill direct out i q p H Hq Hp.
  destruct (direct_loc_h_shape _ _ _ _ _ H) as (lon & lat & rows & _ & -> & _ & _ & E3).
  apply nth_error_map_inv in Hp. destruct Hp as (p' & Hp' & ->).
  destruct (lonlat_filtering p') eqn:E; [now left|right].
  split; [now apply filtering_spec|].
  pose proof (nth_error_via_map _ _ _ _ _ E3 Hp') as HA. rewrite (map_nth_error _ _ _ Hq) in HA. congruence.
Qed.
(** A scalar altitude is used for every pixel. *)
Theorem C12_scalar_altitude :
  forall m rows cols a fill direct,
  direct_loc_h m rows cols [a] fill direct
  = direct_loc_h m rows cols (repeat a (length cols)) fill direct.
Proof.
  intros. unfold direct_loc_h. rewrite broadcast_scalar.
  now rewrite (broadcast_same _ (repeat a (length cols))) by apply repeat_length.
Qed.
(** Rows and columns that do not go together are refused, not cut. *)
Theorem C12_lengths :
  forall m rows cols alt fill direct out, direct_loc_h m rows cols alt fill direct = Some out -> length rows = length cols.
Proof.
  intros m rows cols alt fill direct out H. unfold direct_loc_h in H. destruct (Nat.eqb_spec (length rows) (length cols)); [assumption|discriminate].
Qed.
(** So does the inversion of the inverse model. *)
Theorem C12_iterative_lengths :
  forall m rows cols alt n fill out, direct_loc_inverse_iterative m rows cols alt n fill = Some out -> length rows = length cols.
Proof.
  intros m rows cols alt n fill out H. unfold direct_loc_inverse_iterative in H.
  destruct (inverse_coefficient m); cbn [andb] in H; [|discriminate].
  destruct (Nat.eqb_spec (length rows) (length cols)); [assumption|discriminate].
Qed.
(** A pixel with a NaN coordinate. *)
Theorem C12_nan_pixel :
  forall m Q fill direct out i q,
  direct_loc_h m (map n_row Q) (map n_col Q) (map n_alt Q) fill direct = Some out ->
  nth_error Q i = Some q -> nan_pixel q ->
  (fill = false -> nth_error out i = Some nan3) /\
  (fill = true -> forall a, n_alt q = Some a -> lonlat_ok (offset_x m) (offset_y m) ->
     nth_error out i = Some (R3 (Some (offset_x m)) (Some (offset_y m)) (Some a))).
Proof.
  intros m Q fill direct out i q H Hq Hn.
  destruct (direct_loc_h_shape _ _ _ _ _ H) as (lon & lat & rows & _ & -> & E1 & E2 & E3).
  assert (HM : nth_error (map okpix Q) i = Some false).
  { rewrite (map_nth_error _ _ _ Hq). unfold okpix.
    destruct Hn as [->| ->]; simpl; rewrite ?orb_true_r; reflexivity. }
  assert (exists p, nth_error rows i = Some p) as [p Hp].
  { destruct (nth_error rows i) eqn:E; [eauto|]. apply nth_error_None in E.
    apply (f_equal (@length num)) in E3. rewrite !map_length in E3.
    assert (nth_error Q i <> None) by congruence. apply nth_error_Some in H0. lia. }
  pose proof (nth_error_via_map _ _ _ _ _ E1 Hp) as H1. pose proof (nth_error_via_map _ _ _ _ _ E2 Hp) as H2.
  pose proof (nth_error_via_map _ _ _ _ _ E3 Hp) as H3.
  rewrite scatter_nth_false, (map_nth_error _ _ _ Hq) in H1 by exact HM.
  rewrite scatter_nth_false, (map_nth_error _ _ _ Hq) in H2 by exact HM.
  rewrite (map_nth_error _ _ _ Hq) in H3.
  injection H1 as H1. injection H2 as H2. injection H3 as H3. destruct p as [x y z]. simpl in H1, H2, H3. subst.
  unfold check_lonlat. rewrite (map_nth_error _ _ _ Hp). unfold centre. split.
  - intros ->. reflexivity.
  - intros -> a Ha Hl. cbn [fst snd]. rewrite Ha.
    assert (F : lonlat_filtering (R3 (Some (offset_x m)) (Some (offset_y m)) (Some a)) = false).
    { apply filtering_spec. exists (offset_x m), (offset_y m), a. unfold lonlat_ok in Hl. repeat split; tauto. }
    unfold fin. rewrite F. reflexivity.
Qed.
(** The other pixels get what they would get without it. *)
Theorem C12_nan_pixels_are_neutral :
  forall m Q fill direct out,
  direct_loc_h m (map n_row Q) (map n_col Q) (map n_alt Q) fill direct = Some out ->
  let usable := map (fun p => negb (isnan (n_row p) || isnan (n_col p))) Q in
  direct_loc_h m (gather usable (map n_row Q)) (gather usable (map n_col Q)) (gather usable (map n_alt Q))
    fill direct
  = Some (gather usable out).
Proof.
  intros m Q fill direct out H usable. unfold usable. fold okpix. rewrite !gather_map.
  exact (direct_loc_h_filter _ _ _ _ _ H).
Qed.
(** Direct coefficients: the value of the rational functions. *)
Theorem C12_direct_value :
  forall m row col alt fill,
  direct_coefficient m = true ->
  length (num_x m) = 20%nat -> length (den_x m) = 20%nat ->
  length (num_y m) = 20%nat -> length (den_y m) = 20%nat ->
  scale_col m <> 0 -> scale_row m <> 0 -> scale_alt m <> 0 ->
  let c := (col - offset_col m) / scale_col m in
  let r := (row - offset_row m) / scale_row m in
  let h := (alt - offset_alt m) / scale_alt m in
  let lon := cubic (num_x m) c r h / cubic (den_x m) c r h * scale_x m + offset_x m in
  let lat := cubic (num_y m) c r h / cubic (den_y m) c r h * scale_y m + offset_y m in
  cubic (den_x m) c r h <> 0 -> cubic (den_y m) c r h <> 0 -> lonlat_ok lon lat ->
  direct_loc_h m [Some row] [Some col] [Some alt] fill true = Some [R3 (Some lon) (Some lat) (Some alt)].
Proof.
  intros m row col alt fill Hd L1 L2 L3 L4 S1 S2 S3 c r h lon lat D1 D2 Hl.
  pose proof (direct_loc_h_core m [NPix (Some row) (Some col) (Some alt)] fill true) as H.
  cbn [map n_row n_col n_alt filter okpix isnan orb negb] in H. etransitivity; [exact H|]. clear H.
  unfold usable_core. cbn [negb andb]. rewrite Hd.
  pose proof (rational_loop_map [NPix (Some row) (Some col) (Some alt)]
    (fun p => normalise (offset_col m) (scale_col m) (n_col p))
    (fun p => normalise (offset_row m) (scale_row m) (n_row p))
    (fun p => normalise (offset_alt m) (scale_alt m) (n_alt p))
    (num_x m) (den_x m) (num_y m) (den_y m) (scale_x m) (offset_x m) (scale_y m) (offset_y m)) as H.
  cbn [map n_row n_col n_alt] in *. rewrite H. clear H.
  rewrite !normalise_some by assumption. fold c r h.
  rewrite <- (poly_cubic (den_x m)) in D1 by assumption. rewrite <- (poly_cubic (den_y m)) in D2 by assumption.
  rewrite !rational_some by assumption. rewrite !poly_cubic by assumption. fold lon lat.
  cbn [scatter zip3 check_lonlat map].
  assert (F : lonlat_filtering (R3 (Some lon) (Some lat) (Some alt)) = false).
  { apply filtering_spec. exists lon, lat, alt. unfold lonlat_ok in Hl. repeat split; tauto. }
  rewrite F. reflexivity.
Qed.
(** Inverse coefficients, one altitude: the Newton run of each pixel. *)
Theorem C12_iterative_value :
  forall m alt fill (L : list located), usable_inverse m ->
  Forall (fun p => newton_run lonlat_ok m (l_row p) (l_col p) alt 10 (offset_x m) (offset_y m)
                     (l_lon p) (l_lat p)) L ->
  direct_loc_h m (map (fun p => Some (l_row p)) L) (map (fun p => Some (l_col p)) L) [Some alt] fill false
  = Some (map (fun p => R3 (Some (l_lon p)) (Some (l_lat p)) (Some alt)) L).
Proof.
  intros m alt fill L Hu HF. rewrite C12_scalar_altitude, map_length, repeat_map.
  destruct (iterative_run m alt 10 fill L Hu HF) as (k & _ & E).
  set (Q := map (fun p => NPix (Some (l_row p)) (Some (l_col p)) (Some alt)) L).
  pose proof (direct_loc_h_core m Q fill false) as H.
  assert (EQ : filter okpix Q = Q).
  { unfold Q. clear. induction L as [|p L IH]; [reflexivity|]. cbn [map filter okpix n_row n_col isnan orb negb].
    now rewrite IH. }
  assert (MQ : map okpix Q = repeat true (length Q)).
  { unfold Q. clear. induction L as [|p L IH]; [reflexivity|]. cbn [map okpix n_row n_col isnan orb negb repeat length].
    now rewrite IH. }
  rewrite EQ, MQ in H. unfold usable_core in H. cbn [negb andb] in H. rewrite (proj1 Hu) in H.
  unfold Q in H. rewrite !map_map in H. cbn [n_row n_col n_alt] in H.
  etransitivity; [exact H|]. clear H.
  match goal with |- context [direct_loc_inverse_iterative ?a ?b ?c ?d ?e ?f] =>
    change (direct_loc_inverse_iterative a b c d e f) with
      (direct_loc_inverse_iterative m (map (fun p => Some (l_row p)) L) (map (fun p => Some (l_col p)) L)
        (map (fun _ => Some alt) L) 10 fill) end.
  rewrite E. cbv beta iota. rewrite !scatter_all' by now rewrite !map_length.
  assert (EZ : zip3 (map (fun p => Some (l_lon p)) L) (map (fun p => Some (l_lat p)) L) (map (fun _ => Some alt) L)
     = Some (map (fun p => R3 (Some (l_lon p)) (Some (l_lat p)) (Some alt)) L)).
  { clear. induction L as [|p L IH]; [reflexivity|]. cbn [map zip3]. rewrite IH. reflexivity. }
  unfold num in *. rewrite EZ. f_equal. unfold check_lonlat. rewrite map_map.
  apply map_ext_in. intros p Hp. rewrite Forall_forall in HF. specialize (HF p Hp).
  assert (Hl : lonlat_ok (l_lon p) (l_lat p)) by (clear -HF; induction HF; auto).
  assert (F : lonlat_filtering (R3 (Some (l_lon p)) (Some (l_lat p)) (Some alt)) = false).
  { apply filtering_spec. exists (l_lon p), (l_lat p), alt. unfold lonlat_ok in Hl. repeat split; tauto. }
  now rewrite F.
Qed.
Example C12_case :
  nan_pixel (NPix None (Some 3) (Some 100)) /\ lonlat_ok (offset_x ex_rpc2) (offset_y ex_rpc2) /\
  inverse_coefficient ex_rpc2 = true /\ direct_coefficient ex_rpc = true.
Proof. repeat split; try reflexivity; try (left; reflexivity); simpl; lra. Qed.
Example C12_case_direct :
  direct_loc_h ex_rpc [Some 5] [Some 7] [Some 2] false true = Some [R3 (Some 7) (Some 5) (Some 2)].
Proof.
  rewrite C12_direct_value; try reflexivity; simpl; try lra.
  - f_equal. f_equal. f_equal; f_equal; unfold cubic; simpl; field.
  - unfold cubic; simpl; lra.
  - unfold cubic; simpl; lra.
  - unfold lonlat_ok, cubic; simpl. lra.
Qed.

(** ** C51 *)
(** A NaN altitude stops the refinement of the whole batch: the second pixel silently gets the
    scene centre. *)
Theorem C51_failure_is_local_refuted :
  exists m, usable_inverse m /\
  direct_loc_h m [Some 0] [Some 5] [Some 0] false false = Some [R3 (Some 5) (Some 0) (Some 0)] /\
  direct_loc_h m [Some 0; Some 0] [Some 5; Some 5] [None; Some 0] false false
    = Some [nan3; R3 (Some 0) (Some 0) (Some 0)].
Proof.
  exists ex_rpc. split; [apply ex_rpc_usable|]. split.
  - pose proof (C12_iterative_value ex_rpc 0 false [Loc 0 5 5 0] ex_rpc_usable) as H. apply H. clear H.
    constructor; [|constructor]. cbn [l_row l_col l_lon l_lat].
    apply (affine_newton_run ex_rpc 0 5 0 0 1 0 0 0 1); try (unfold lonlat_ok; simpl; lra).
    + apply ex_rpc_affine.
    + unfold reprojects. destruct (ex_rpc_affine 0 (offset_x ex_rpc) (offset_y ex_rpc)) as (_ & -> & _).
      simpl. intros [H _]. replace (5 - (0 + 1 * 0 + 0 * 0)) with 5 in H by ring. rewrite Rabs_pos_eq in H; lra.
  - set (Q := [NPix (Some 0) (Some 5) None; NPix (Some 0) (Some 5) (Some 0)]).
    pose proof (direct_loc_h_core ex_rpc Q false false) as H. etransitivity; [exact H|]. clear H.
    unfold usable_core. cbn [negb andb]. change (inverse_coefficient ex_rpc) with true. cbv iota.
    pose proof (iterative_batch ex_rpc (Inp 0 5 None) [Inp 0 5 (Some 0)] 10 false eq_refl) as H.
    cbv zeta in H. cbn [i_alt] in H.
    set (c := inv_pt ex_rpc (R3 (fin (offset_x ex_rpc)) (fin (offset_y ex_rpc)) None)) in H.
    assert (Ec : c = nan3).
    { unfold c, inv_pt, checked.
      destruct (lonlat_filtering (R3 (fin (offset_x ex_rpc)) (fin (offset_y ex_rpc)) None)) eqn:F; [reflexivity|].
      apply filtering_spec in F. destruct F as (? & ? & ? & F & _). discriminate. }
    rewrite Ec in H. cbn [lon3 lat3 nan3] in H.
    cbn [map i_row i_col i_alt] in H.
    assert (EC : forall a b, batch_cond [init_pt ex_rpc nan nan a; init_pt ex_rpc nan nan b] = false)
      by reflexivity.
    assert (EB : forall n a b, batch_loop ex_rpc n [init_pt ex_rpc nan nan a; init_pt ex_rpc nan nan b]
       = ([init_pt ex_rpc nan nan a; init_pt ex_rpc nan nan b], 0%nat)).
    { intros [|n] a b; cbn [batch_loop]; rewrite EC; reflexivity. }
    rewrite EB in H. cbn [fst snd map p_lon p_lat init_pt] in H.
    cbn [Q map filter okpix n_row n_col n_alt isnan orb negb].
    match goal with |- context [direct_loc_inverse_iterative ?a ?b ?c ?d ?e ?f] =>
      replace (direct_loc_inverse_iterative a b c d e f) with
        (Some ([fin (offset_x ex_rpc); fin (offset_x ex_rpc)], [fin (offset_y ex_rpc); fin (offset_y ex_rpc)],
           [None; Some 0], 0%nat)) by (symmetry; exact H) end.
    cbv beta iota. cbn [scatter zip3 check_lonlat map].
    assert (F : lonlat_filtering (R3 (Some 0) (Some 0) (Some 0)) = false).
    { apply filtering_spec. exists 0, 0, 0. repeat split; lra. }
    change (offset_x ex_rpc) with 0. change (offset_y ex_rpc) with 0. unfold fin.
    assert (F' : lonlat_filtering (R3 (Some 0) (Some 0) None) = true).
    { destruct (lonlat_filtering (R3 (Some 0) (Some 0) None)) eqn:G; [reflexivity|].
      apply filtering_spec in G. destruct G as (? & ? & ? & G & _). discriminate. }
    rewrite F, F'. reflexivity.
Qed.
(** What does hold: NaN pixels are local, and pixels that all converge do not influence each other
    (restatement for any sub-batch of pixels at one altitude). *)
Theorem C51_converging_pixels_are_independent_partial :
  forall m alt fill (L L' : list located) i j p, usable_inverse m ->
  Forall (fun p => newton_run lonlat_ok m (l_row p) (l_col p) alt 10 (offset_x m) (offset_y m)
                     (l_lon p) (l_lat p)) (L ++ L') ->
  nth_error L i = Some p -> nth_error L' j = Some p ->
  exists out out',
  direct_loc_h m (map (fun p => Some (l_row p)) L) (map (fun p => Some (l_col p)) L) [Some alt] fill false = Some out /\
  direct_loc_h m (map (fun p => Some (l_row p)) L') (map (fun p => Some (l_col p)) L') [Some alt] fill false = Some out' /\
  nth_error out i = nth_error out' j /\ nth_error out i = Some (R3 (Some (l_lon p)) (Some (l_lat p)) (Some alt)).
Proof.
  intros m alt fill L L' i j p Hu HF Hi Hj. apply Forall_app in HF. destruct HF as [H1 H2].
  exists (map (fun p => R3 (Some (l_lon p)) (Some (l_lat p)) (Some alt)) L),
         (map (fun p => R3 (Some (l_lon p)) (Some (l_lat p)) (Some alt)) L').
  split; [now apply C12_iterative_value|]. split; [now apply C12_iterative_value|].
  rewrite (map_nth_error _ _ _ Hi), (map_nth_error _ _ _ Hj). auto.
Qed.

(** ** C52 *)
Lemma rational_keys xs ys zs a b c d e f g h n :
  NoDup (map key (flat_map (rational_stores xs ys zs a b c d e f g h) (seq 0 n))).
Proof.
  apply loop_keys_nodup.
  - intros i s [<-|[<-|[]]]; reflexivity.
  - intros i. simpl. repeat constructor; simpl; intuition discriminate.
Qed.
Lemma derivates_keys xs ys zs a b c d e f g h n :
  NoDup (map key (flat_map (derivates_stores xs ys zs a b c d e f g h) (seq 0 n))).
Proof.
  apply loop_keys_nodup.
  - intros i s. unfold derivates_stores. destruct (derivates_point _ _ _ _ _ _ _ _ _ _ _) as [[[? ?] ?] ?].
    intros [<-|[<-|[<-|[<-|[]]]]]; reflexivity.
  - intros i. unfold derivates_stores. destruct (derivates_point _ _ _ _ _ _ _ _ _ _ _) as [[[? ?] ?] ?].
    simpl. repeat constructor; simpl; intuition discriminate.
Qed.
(** Every schedule of the stores (hence every order of the iterations, and every interleaving of
    their stores) gives the arrays the function returns. *)
Theorem C52_rational_schedule_independent :
  forall xs ys zs nc dc nl dl sc oc sl ol schedule rows cols,
  Permutation schedule (flat_map (rational_stores xs ys zs nc dc nl dl sc oc sl ol) (seq 0 (length xs))) ->
  compute_rational_function_polynomial xs ys zs nc dc nl dl sc oc sl ol = Some (rows, cols) ->
  read_array (run_stores schedule zeros) 1 (length xs) = rows /\
  read_array (run_stores schedule zeros) 0 (length xs) = cols.
Proof.
  intros xs ys zs nc dc nl dl sc oc sl ol schedule rows cols HP H.
  unfold compute_rational_function_polynomial in H.
  destruct ((length zs =? length xs) && (length ys =? length xs))%nat; [|discriminate].
  injection H as <- <-. unfold read_array.
  split; apply map_ext; intros i; symmetry;
    (apply run_stores_perm; [apply rational_keys|now apply Permutation_sym]).
Qed.
Theorem C52_derivates_schedule_independent :
  forall xs ys zs nc dc nl dl sc slo sl sla schedule d1 d2 d3 d4,
  Permutation schedule (flat_map (derivates_stores xs ys zs nc dc nl dl sc slo sl sla) (seq 0 (length xs))) ->
  compute_loc_inverse_derivates_numba xs ys zs nc dc nl dl sc slo sl sla = (d1, d2, d3, d4) ->
  let final := run_stores schedule zeros in
  read_array final 0 (length xs) = d1 /\ read_array final 1 (length xs) = d2 /\
  read_array final 2 (length xs) = d3 /\ read_array final 3 (length xs) = d4.
Proof.
  intros xs ys zs nc dc nl dl sc slo sl sla schedule d1 d2 d3 d4 HP H final.
  unfold compute_loc_inverse_derivates_numba in H. injection H as <- <- <- <-. unfold read_array, final.
  repeat split; apply map_ext; intros i; symmetry;
    (apply run_stores_perm; [apply derivates_keys|now apply Permutation_sym]).
Qed.
(** Every output cell is written exactly once. *)
Theorem C52_single_writer :
  forall xs ys zs nc dc nl dl sc oc sl ol a i, (a < 2)%nat -> (i < length xs)%nat ->
  exists s, (forall s', In s' (flat_map (rational_stores xs ys zs nc dc nl dl sc oc sl ol) (seq 0 (length xs)))
              /\ st_arr s' = a /\ st_idx s' = i <-> s' = s).
Proof.
  intros xs ys zs nc dc nl dl sc oc sl ol a i Ha Hi.
  assert (HI : forall s', In s' (flat_map (rational_stores xs ys zs nc dc nl dl sc oc sl ol) (seq 0 (length xs)))
     <-> exists k, (k < length xs)%nat /\ In s' (rational_stores xs ys zs nc dc nl dl sc oc sl ol k)).
  { intros s'. rewrite in_flat_map. split; intros (k & H1 & H2); exists k; split; auto.
    - apply in_seq in H1. lia.
    - apply in_seq. lia. }
  destruct a as [|[|a]]; [| |lia].
  - exists (St 0 i (rational (at_ xs i) (at_ ys i) (at_ zs i) nc dc sc oc)). intros s'. rewrite HI. split.
    + intros ((k & Hk & HIn) & E1 & E2). destruct HIn as [<-|[<-|[]]]; simpl in *; [now subst|discriminate].
    + intros ->. split; [exists i; split; [assumption|now left]|auto].
  - exists (St 1 i (rational (at_ xs i) (at_ ys i) (at_ zs i) nl dl sl ol)). intros s'. rewrite HI. split.
    + intros ((k & Hk & HIn) & E1 & E2). destruct HIn as [<-|[<-|[]]]; simpl in *; [discriminate|now subst].
    + intros ->. split; [exists i; split; [assumption|right; now left]|auto].
Qed.
Example C52_case : forall xs ys zs nc dc nl dl sc oc sl ol,
  Permutation (rev (flat_map (rational_stores xs ys zs nc dc nl dl sc oc sl ol) (seq 0 (length xs))))
    (flat_map (rational_stores xs ys zs nc dc nl dl sc oc sl ol) (seq 0 (length xs))).
Proof. intros. apply Permutation_sym, Permutation_rev. Qed.

(** ** C13 *)
Definition los_pixels (rows cols : list num) (hi lo : R) : list npixel :=
  flat_map (fun p => [NPix (fst p) (snd p) (Some hi); NPix (fst p) (snd p) (Some lo)]) (combine rows cols).
Lemma los_pixels_cols rows cols hi lo : length rows = length cols ->
  map n_row (los_pixels rows cols hi lo) = flat_map (fun r => [r; r]) rows /\
  map n_col (los_pixels rows cols hi lo) = flat_map (fun r => [r; r]) cols /\
  map n_alt (los_pixels rows cols hi lo) = flat_map (fun _ => [fin hi; fin lo]) rows /\
  length (los_pixels rows cols hi lo) = (2 * length rows)%nat.
Proof.
  unfold los_pixels. revert cols. induction rows as [|r rows IH]; intros [|c cols] H; try discriminate; [auto|].
  injection H as H. destruct (IH cols H) as (E1 & E2 & E3 & E4). cbn [combine flat_map map app length fst snd].
  rewrite E1, E2, E3, E4. repeat split; lia.
Qed.
Lemma los_pixels_nth rows cols hi lo i p q :
  nth_error (los_pixels rows cols hi lo) (2 * i) = Some p ->
  nth_error (los_pixels rows cols hi lo) (2 * i + 1) = Some q -> n_alt p = Some hi /\ n_alt q = Some lo.
Proof.
  intros Hp Hq. destruct (nth_error (combine rows cols) i) as [a|] eqn:E.
  - destruct (flat_map_pair_nth (fun p => [NPix (fst p) (snd p) (Some hi); NPix (fst p) (snd p) (Some lo)])
      (combine rows cols) i (NPix (fst a) (snd a) (Some hi)) (NPix (fst a) (snd a) (Some lo)) a) as [H1 H2];
      eauto. unfold los_pixels in *. rewrite H1 in Hp. rewrite H2 in Hq. injection Hp as <-. injection Hq as <-. auto.
  - exfalso. apply nth_error_None in E. assert (nth_error (los_pixels rows cols hi lo) (2 * i) <> None) by congruence.
    apply nth_error_Some in H. unfold los_pixels in H. rewrite flat_map_pair_length in H by reflexivity. lia.
Qed.
Definition edges (m : rpc) (rows cols : list num) (hi lo : R) (fill : bool) : option (list row3) :=
  direct_loc_h m (flat_map (fun r => [r; r]) rows) (flat_map (fun r => [r; r]) cols)
    (flat_map (fun _ => [fin hi; fin lo]) rows) fill false.
Lemma edges_spec m rows cols hi lo fill out : length rows = length cols ->
  edges m rows cols hi lo fill = Some out ->
  length out = (2 * length rows)%nat /\
  forall i p q, nth_error out (2 * i) = Some p -> nth_error out (2 * i + 1) = Some q ->
    (p = nan3 \/ (valid_lonlat p /\ alt3 p = Some hi)) /\ (q = nan3 \/ (valid_lonlat q /\ alt3 q = Some lo)).
Proof.
  intros HL H. destruct (los_pixels_cols rows cols hi lo HL) as (E1 & E2 & E3 & E4).
  unfold edges in H. rewrite <- E1, <- E2, <- E3 in H.
  assert (Hlen : length out = (2 * length rows)%nat).
  { destruct (direct_loc_h_shape _ _ _ _ _ H) as (lon & lat & rs & _ & -> & _ & _ & E).
    unfold check_lonlat. rewrite map_length. apply (f_equal (@length num)) in E. rewrite !map_length in E. lia. }
  split; [exact Hlen|]. intros i p q Hp Hq.
  assert (exists a, nth_error (los_pixels rows cols hi lo) (2 * i) = Some a) as [a Ha].
  { destruct (nth_error (los_pixels rows cols hi lo) (2 * i)) eqn:E; [eauto|]. apply nth_error_None in E.
    assert (nth_error out (2 * i) <> None) by congruence. apply nth_error_Some in H0. lia. }
  assert (exists a, nth_error (los_pixels rows cols hi lo) (2 * i + 1) = Some a) as [b Hb].
  { destruct (nth_error (los_pixels rows cols hi lo) (2 * i + 1)) eqn:E; [eauto|]. apply nth_error_None in E.
    assert (nth_error out (2 * i + 1) <> None) by congruence. apply nth_error_Some in H0. lia. }
  destruct (los_pixels_nth _ _ _ _ _ _ _ Ha Hb) as [A1 A2].
  pose proof (C12_altitude_kept _ _ _ _ _ _ _ _ H Ha Hp) as R1.
  pose proof (C12_altitude_kept _ _ _ _ _ _ _ _ H Hb Hq) as R2. rewrite A1 in R1. rewrite A2 in R2. auto.
Qed.
Lemma los_inside conv m rows cols lo hi fill :
  fst (alt_minmax m) <= lo -> hi <= snd (alt_minmax m) ->
  los_extrema conv m rows cols (Some lo) (Some hi) fill None = edges m rows cols hi lo fill.
Proof.
  intros H1 H2. unfold los_extrema, edges.
  destruct (Rleb_spec (fst (alt_minmax m)) lo); [|lra]. destruct (Rleb_spec hi (snd (alt_minmax m))); [|lra].
  cbn [andb]. destruct (direct_loc_h _ _ _ _ _ _); reflexivity.
Qed.
Lemma los_none conv m rows cols a b fill : a = None \/ b = None ->
  los_extrema conv m rows cols a b fill None
  = edges m rows cols (snd (get_alt_min_max m)) (fst (get_alt_min_max m)) fill.
Proof.
  intros H. unfold los_extrema, edges. destruct H as [->| ->]; [|destruct a];
    destruct (direct_loc_h _ _ _ _ _ _); reflexivity.
Qed.

(** Inside the altitude domain of the model: the upper point first, then the lower one, each valid
    and at the requested altitude, or NaN. *)
Theorem C13_bounds_inside_domain :
  forall conv m rows cols lo hi fill out, length rows = length cols ->
  fst (alt_minmax m) <= lo -> hi <= snd (alt_minmax m) ->
  los_extrema conv m rows cols (Some lo) (Some hi) fill None = Some out ->
  length out = (2 * length rows)%nat /\
  forall i p q, nth_error out (2 * i) = Some p -> nth_error out (2 * i + 1) = Some q ->
    (p = nan3 \/ (valid_lonlat p /\ alt3 p = Some hi)) /\ (q = nan3 \/ (valid_lonlat q /\ alt3 q = Some lo)).
Proof.
  intros conv m rows cols lo hi fill out HL H1 H2 H. rewrite los_inside in H by assumption.
  now apply edges_spec with (m := m) (cols := cols) (fill := fill).
Qed.
(** Without (both) bounds, the altitudes of the model. *)
Theorem C13_no_bounds :
  forall conv m rows cols a b fill out, length rows = length cols -> a = None \/ b = None ->
  los_extrema conv m rows cols a b fill None = Some out ->
  length out = (2 * length rows)%nat /\
  forall i p q, nth_error out (2 * i) = Some p -> nth_error out (2 * i + 1) = Some q ->
    (p = nan3 \/ (valid_lonlat p /\ alt3 p = Some (offset_alt m + scale_alt m / 2))) /\
    (q = nan3 \/ (valid_lonlat q /\ alt3 q = Some (offset_alt m - scale_alt m / 2))).
Proof.
  intros conv m rows cols a b fill out HL H1 H. rewrite los_none in H by assumption.
  now apply edges_spec with (m := m) (cols := cols) (fill := fill).
Qed.
(** Beyond the domain: both points are on the line through the two points at the altitudes of the
    model, at the requested altitudes; a line of sight that cannot be localized gives NaNs. *)
Theorem C13_extrapolation :
  forall conv m rows cols lo hi fill out, length rows = length cols -> scale_alt m <> 0 ->
  lo < fst (alt_minmax m) \/ snd (alt_minmax m) < hi ->
  los_extrema conv m rows cols (Some lo) (Some hi) fill None = Some out ->
  length out = (2 * length rows)%nat /\
  exists own, los_extrema conv m rows cols None None fill None = Some own /\
  forall i top bot p q,
    nth_error own (2 * i) = Some top -> nth_error own (2 * i + 1) = Some bot ->
    nth_error out (2 * i) = Some p -> nth_error out (2 * i + 1) = Some q ->
    (top <> nan3 -> bot <> nan3 ->
       on_line top bot p /\ on_line top bot q /\ alt3 p = Some hi /\ alt3 q = Some lo) /\
    (top = nan3 \/ bot = nan3 -> p = nan3 /\ q = nan3).
Proof.
  intros conv m rows cols lo hi fill out HL Hs Hout H.
  rewrite (los_none conv m rows cols None None) by auto.
  unfold los_extrema in H.
  replace (Rleb (fst (alt_minmax m)) lo && Rleb hi (snd (alt_minmax m))) with false in H.
  2:{ symmetry. apply andb_false_iff. destruct Hout;
        [left; destruct (Rleb_spec (fst (alt_minmax m)) lo)|right; destruct (Rleb_spec hi (snd (alt_minmax m)))];
        auto; lra. }
  fold (edges m rows cols (snd (get_alt_min_max m)) (fst (get_alt_min_max m)) fill) in H.
  destruct (edges m rows cols _ _ fill) as [own|] eqn:EO; [|discriminate].
  injection H as <-. destruct (edges_spec _ _ _ _ _ _ _ HL EO) as [Hlen HE].
  assert (HP : length (pairs_of own) = length rows) by now apply pairs_length.
  split; [rewrite flat_map_pair_length by reflexivity; now rewrite HP|].
  exists own. split; [reflexivity|]. intros i top bot p q Ht Hb Hp Hq.
  assert (exists ab, nth_error (pairs_of own) i = Some ab) as [[a b] Eab].
  { destruct (nth_error (pairs_of own) i) eqn:E; [eauto|]. apply nth_error_None in E.
    assert (nth_error own (2 * i) <> None) by congruence. apply nth_error_Some in H. lia. }
  destruct (pairs_nth _ _ _ _ Eab) as [Ea Eb].
  assert (a = top) by congruence. assert (b = bot) by congruence. subst a b.
  destruct (flat_map_pair_nth (fun p => extrapolate_los lo hi (fst p) (snd p)) (pairs_of own) i
    (nth 0 (extrapolate_los lo hi top bot) nan3) (nth 1 (extrapolate_los lo hi top bot) nan3) (top, bot)) as [R1 R2].
  { intros [u v]. do 2 eexists. reflexivity. }
  { exact Eab. }
  { reflexivity. }
  rewrite R1 in Hp. rewrite R2 in Hq. injection Hp as <-. injection Hq as <-.
  destruct (HE i top bot Ht Hb) as [HT HB]. cbn [extrapolate_los nth].
  split.
  - intros Nt Nb. destruct HT as [?|[HT AT]]; [contradiction|]. destruct HB as [?|[HB AB]]; [contradiction|].
    destruct HT as (tx & ty & tz & -> & _). destruct HB as (bx & by_ & bz & -> & _).
    cbn [lon3 lat3 alt3] in *. injection AT as ->. injection AB as ->.
    cbn [get_alt_min_max fst snd]. cbn [nsub nlift2 fin].
    assert (HD : offset_alt m + scale_alt m / 2 - (offset_alt m - scale_alt m / 2) <> 0) by lra.
    set (zt := offset_alt m + scale_alt m / 2) in *. set (zb := offset_alt m - scale_alt m / 2) in *.
    unfold ndiv, fin. destruct (Req_EM_T (zt - zb) 0) as [?|_]; [contradiction|].
    cbn [nmul nadd nlift2]. repeat split.
    + exists tx, ty, zt, bx, by_, zb, ((zt - hi) / (zt - zb)). repeat split. f_equal; f_equal; field; assumption.
    + exists tx, ty, zt, bx, by_, zb, ((zt - lo) / (zt - zb)). repeat split. f_equal; f_equal; field; assumption.
    + f_equal. field. assumption.
    + f_equal. field. assumption.
  - intros [->| ->].
    + cbn [lon3 lat3 alt3 nan3]. destruct (lon3 bot), (lat3 bot), (alt3 bot); split; reflexivity.
    + split; reflexivity.
Qed.
(** Asking for another reference system converts the same points. *)
Theorem C13_epsg :
  forall conv m rows cols lo hi fill e out,
  los_extrema conv m rows cols lo hi fill None = Some out ->
  los_extrema conv m rows cols lo hi fill (Some e)
  = Some (if (e =? rpc_epsg m)%Z then out else conv (rpc_epsg m) e out).
Proof.
  intros conv m rows cols lo hi fill e out H. unfold los_extrema in *.
  match goal with |- context [let '(_, _) := ?x in _] => destruct x as [[ex l] h] end.
  destruct (direct_loc_h _ _ _ _ _ _); [|discriminate]. cbv zeta in *. injection H as <-.
  destruct (e =? rpc_epsg m)%Z; reflexivity.
Qed.
(** The C++ twin, one pixel. *)
Lemma cpp_iterative_alt m row col alt n fill lon lat a :
  cpp_direct_loc_inverse_iterative m row col alt n fill = (lon, lat, a) -> a = alt.
Proof.
  unfold cpp_direct_loc_inverse_iterative.
  destruct (isnan row || isnan col); [destruct fill; congruence|].
  destruct (cpp_inverse_loc _ _ _ _) as [[? ?] ?].
  destruct (cpp_newton_loop _ _ _ _ _ _ _ _ _) as [[[[? ?] ?] ?] ?]. congruence.
Qed.
Lemma cpp_edges m row col hi lo fill : inverse_coefficient m = true ->
  exists top bot, cpp_direct_loc_h_vec m [row; row] [col; col] [fin hi; fin lo] fill false = Some [top; bot] /\
    alt3 top = Some hi /\ alt3 bot = Some lo.
Proof.
  intros Hi. unfold cpp_direct_loc_h_vec. rewrite Hi. cbn [negb andb].
  unfold cpp_direct_loc_inverse_iterative_vec, check_sizes. cbn [length Nat.min].
  rewrite broadcast_same by reflexivity. cbn [firstn zip4 map].
  destruct (cpp_direct_loc_inverse_iterative m row col (fin hi) 10 fill) as [[a b] c] eqn:E1.
  destruct (cpp_direct_loc_inverse_iterative m row col (fin lo) 10 fill) as [[a' b'] c'] eqn:E2.
  apply cpp_iterative_alt in E1. apply cpp_iterative_alt in E2. subst.
  do 2 eexists. split; [reflexivity|]. auto.
Qed.
Theorem C13_cpp_bounds_inside_domain :
  forall m row col lo hi fill, inverse_coefficient m = true ->
  fst (alt_minmax m) <= lo -> hi <= snd (alt_minmax m) ->
  exists p q, cpp_los_extrema m row col (Some lo) (Some hi) fill = Some [p; q] /\
    alt3 p = Some hi /\ alt3 q = Some lo.
Proof.
  intros m row col lo hi fill Hi H1 H2. unfold cpp_los_extrema.
  destruct (Rleb_spec (fst (alt_minmax m)) lo); [|lra]. destruct (Rleb_spec hi (snd (alt_minmax m))); [|lra].
  cbn [andb]. destruct (cpp_edges m row col hi lo fill Hi) as (t & b & E & H). rewrite E.
  do 2 eexists. split; [reflexivity|exact H].
Qed.
Theorem C13_cpp_extrapolation :
  forall m row col lo hi fill, inverse_coefficient m = true -> scale_alt m <> 0 ->
  lo < fst (alt_minmax m) \/ snd (alt_minmax m) < hi ->
  exists top bot p q,
    cpp_los_extrema m row col None None fill = Some [top; bot] /\
    alt3 top = Some (offset_alt m + scale_alt m / 2) /\ alt3 bot = Some (offset_alt m - scale_alt m / 2) /\
    cpp_los_extrema m row col (Some lo) (Some hi) fill = Some [p; q] /\
    alt3 p = Some hi /\ alt3 q = Some lo /\
    (lon3 top <> None -> lat3 top <> None -> lon3 bot <> None -> lat3 bot <> None ->
     on_line top bot p /\ on_line top bot q).
Proof.
  intros m row col lo hi fill Hi Hs Hout. unfold cpp_los_extrema.
  replace (Rleb (fst (alt_minmax m)) lo && Rleb hi (snd (alt_minmax m))) with false.
  2:{ symmetry. apply andb_false_iff. destruct Hout;
        [left; destruct (Rleb_spec (fst (alt_minmax m)) lo)|right; destruct (Rleb_spec hi (snd (alt_minmax m)))];
        auto; lra. }
  cbn [get_alt_min_max fst snd].
  destruct (cpp_edges m row col (offset_alt m + scale_alt m / 2) (offset_alt m - scale_alt m / 2) fill Hi)
    as (t & b & E & Ht & Hb). rewrite E.
  assert (HD : offset_alt m + scale_alt m / 2 - (offset_alt m - scale_alt m / 2) <> 0) by lra.
  set (zt := offset_alt m + scale_alt m / 2) in *. set (zb := offset_alt m - scale_alt m / 2) in *.
  exists t, b. unfold extrapolate_los. rewrite Ht, Hb. cbn [nsub nlift2 fin].
  unfold ndiv, fin. destruct (Req_EM_T (zt - zb) 0) as [?|_]; [contradiction|].
  do 2 eexists. do 3 (split; [auto|]). split; [reflexivity|]. cbn [alt3 nmul nadd nlift2].
  split; [f_equal; field; assumption|]. split; [f_equal; field; assumption|].
  destruct t as [[tx|] [ty|] tz], b as [[bx|] [by_|] bz]; cbn [lon3 lat3 alt3] in *; subst; intros;
    try congruence. split.
  - exists tx, ty, zt, bx, by_, zb, ((zt - hi) / (zt - zb)). repeat split.
    cbn [nadd nmul nsub nlift2]. f_equal; f_equal; field; assumption.
  - exists tx, ty, zt, bx, by_, zb, ((zt - lo) / (zt - zb)). repeat split.
    cbn [nadd nmul nsub nlift2]. f_equal; f_equal; field; assumption.
Qed.
(** The altitudes differ inside a call of the Python [los_extrema], hence the defect of C10: the
    lower end of this line of sight stays at the scene centre although the model sees this
    pixel 2 degrees away at that altitude. *)
Theorem C10_los_extrema_lower_point_refuted :
  exists m row col lo hi p q,
    usable_inverse m /\ fst (alt_minmax m) <= lo /\ hi <= snd (alt_minmax m) /\
    los_extrema (fun _ _ l => l) m [Some row] [Some col] (Some lo) (Some hi) false None = Some [p; q] /\
    q = R3 (Some (offset_x m)) (Some (offset_y m)) (Some lo) /\
    col_of m (offset_x m) (offset_y m) lo <> col /\
    cpp_los_extrema m (Some row) (Some col) (Some lo) (Some hi) false
      = Some [p; R3 (Some (offset_x m + 2)) (Some (offset_y m)) (Some lo)] /\
    col_of m (offset_x m + 2) (offset_y m) lo = col.
Proof.
  exists ex_rpc, 0, 1, (-1), 1, (R3 (Some 0) (Some 0) (Some 1)), (R3 (Some 0) (Some 0) (Some (-1))).
  destruct (ex_rpc_affine (-1) 0 0) as (R1 & C1 & W1). destruct (ex_rpc_affine (-1) (0 + 2) 0) as (R2 & C2 & W2).
  split; [apply ex_rpc_usable|]. split; [simpl; lra|]. split; [simpl; lra|].
  change (offset_x ex_rpc) with 0. change (offset_y ex_rpc) with 0.
  assert (HV : forall a, lonlat_filtering (R3 (Some 0) (Some 0) (Some a)) = false).
  { intros a. apply filtering_spec. exists 0, 0, a. repeat split; lra. }
  split; [|split; [reflexivity|]].
  - rewrite los_inside by (simpl; lra). unfold edges. cbn [flat_map app].
    set (Q := [NPix (Some 0) (Some 1) (Some 1); NPix (Some 0) (Some 1) (Some (-1))]).
    pose proof (direct_loc_h_core ex_rpc Q false false) as H. etransitivity; [exact H|]. clear H.
    unfold usable_core. cbn [negb andb]. change (inverse_coefficient ex_rpc) with true. cbv iota.
    pose proof (iterative_batch ex_rpc (Inp 0 1 (Some 1)) [Inp 0 1 (Some (-1))] 10 false eq_refl) as H.
    cbv zeta in H. cbn [i_alt] in H.
    change (offset_x ex_rpc) with 0 in H. change (offset_y ex_rpc) with 0 in H. unfold fin in H.
    rewrite !ex_rpc_centre in H. cbn [lon3 lat3 map i_row i_col i_alt] in H.
    assert (EC : batch_cond [init_pt ex_rpc (Some 0) (Some 1) (Inp 0 1 (Some 1));
      init_pt ex_rpc (Some 0) (Some 1) (Inp 0 1 (Some (-1)))] = false).
    { unfold batch_cond, max_abs_gt_eps, init_pt. cbn [map p_dc p_dr i_row i_col existsb isnan nsub nlift2].
      replace (0 - 0) with 0 by ring. replace (1 - 1) with 0 by ring. rewrite ngtb_zero. reflexivity. }
    assert (EB : forall n, batch_loop ex_rpc n [init_pt ex_rpc (Some 0) (Some 1) (Inp 0 1 (Some 1));
      init_pt ex_rpc (Some 0) (Some 1) (Inp 0 1 (Some (-1)))]
      = ([init_pt ex_rpc (Some 0) (Some 1) (Inp 0 1 (Some 1));
      init_pt ex_rpc (Some 0) (Some 1) (Inp 0 1 (Some (-1)))], 0%nat)).
    { intros [|n]; cbn [batch_loop]; rewrite EC; reflexivity. }
    rewrite EB in H. cbn [fst snd map p_lon p_lat init_pt] in H.
    cbn [Q map filter okpix n_row n_col n_alt isnan orb negb].
    match goal with |- context [direct_loc_inverse_iterative ?a ?b ?c ?d ?e ?f] =>
      replace (direct_loc_inverse_iterative a b c d e f) with
        (Some ([fin 0; fin 0], [fin 0; fin 0], [Some 1; Some (-1)], 0%nat)) by (symmetry; exact H) end.
    cbv beta iota. cbn [scatter zip3 check_lonlat map]. unfold fin. rewrite !HV. reflexivity.
  - split; [rewrite C1; lra|]. split; [|rewrite C2; lra].
    unfold cpp_los_extrema.
    destruct (Rleb_spec (fst (alt_minmax ex_rpc)) (-1)) as [_|N]; [|simpl in N; lra].
    destruct (Rleb_spec 1 (snd (alt_minmax ex_rpc))) as [_|N]; [|simpl in N; lra].
    cbn [andb]. unfold cpp_direct_loc_h_vec. change (inverse_coefficient ex_rpc) with true. cbn [negb andb].
    unfold cpp_direct_loc_inverse_iterative_vec, check_sizes. cbn [length Nat.min].
    rewrite broadcast_same by reflexivity. cbn [firstn zip4 map]. unfold fin.
    rewrite (cpp_iterative_run ex_rpc 0 1 1 10 false 0 0 ex_rpc_usable).
    2:{ destruct (ex_rpc_affine 1 0 0) as (R3' & C3 & W3). apply run_done; auto.
        unfold reprojects. change (offset_x ex_rpc) with 0. change (offset_y ex_rpc) with 0.
        rewrite C3, W3. replace (1 - (1 + 1 * 0 + 0 * 0)) with 0 by ring.
        replace (0 - (0 + 0 * 0 + 1 * 0)) with 0 by ring. rewrite Rabs_R0. lra. }
    rewrite (cpp_iterative_run ex_rpc 0 1 (-1) 10 false (0 + 2) 0 ex_rpc_usable); [reflexivity|].
    eapply run_weaken with (d1 := lonlat_ok); [auto|].
    apply (affine_newton_run ex_rpc 0 1 (-1) (-1) 1 0 0 0 1); try (unfold lonlat_ok; simpl; lra).
    + apply ex_rpc_affine.
    + unfold reprojects. change (offset_x ex_rpc) with 0. change (offset_y ex_rpc) with 0. rewrite C1.
      intros [H _]. replace (1 - (-1 + 1 * 0 + 0 * 0)) with 2 in H by ring. rewrite Rabs_pos_eq in H; lra.
Qed.
Example C13_case :
  length [Some 1; None] = length [Some 1; Some 2] /\ scale_alt ex_rpc2 <> 0 /\
  snd (alt_minmax ex_rpc2) < 2000 /\ fst (alt_minmax ex_rpc2) <= 200 /\ 300 <= snd (alt_minmax ex_rpc2).
Proof. unfold alt_minmax; simpl. repeat split; try reflexivity; lra. Qed.
