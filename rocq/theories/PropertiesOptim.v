(** Properties of the class RPCoptim: construction (C67), inverse localization (C66), direct localization
    (C68), lines of sight and DTM (C69). *)
From Coq Require Import Reals ZArith String List Bool Lra Lia.
From Verif Require Import Num NumLemmas InterpModel ProjModel ProjSpec PropertiesProj RpcModel CppRpcModel RpcSpec RpcProofs RpcDeriv
  RpcRun RpcBatch RpcConverse PropertiesRpc DtmModel DtmSpec DtmProofs CppDtmModel CppDtmProofs PropertiesDtm2 RpcDtmModel PropertiesRpcDtm
  ReadersModel LoadModel PropertiesLoad OptimModel OptimProofs CppLine.
Import ListNotations.
Open Scope R_scope.

(** ** C67 *)
(** The object of the compiled class, built from the parameters of an RPC, has the same normalisation, the
    same coefficients (those that are given) and works in geographic coordinates. *)
Theorem C67_same_model :
  forall p m m', rpc_of_params p = Some m -> optim_of_params p = Some m' ->
  (offset_x m', scale_x m', offset_y m', scale_y m', offset_alt m', scale_alt m')
   = (offset_x m, scale_x m, offset_y m, scale_y m, offset_alt m, scale_alt m) /\
  (offset_col m', scale_col m', offset_row m', scale_row m') = (offset_col m, scale_col m, offset_row m, scale_row m) /\
  (inverse_coefficient m', direct_coefficient m') = (inverse_coefficient m, direct_coefficient m) /\
  (inverse_coefficient m = true ->
    (num_col m', den_col m', num_row m', den_row m') = (num_col m, den_col m, num_row m, den_row m)) /\
  (direct_coefficient m = true -> (num_x m', den_x m', num_y m', den_y m') = (num_x m, den_x m, num_y m, den_y m)) /\
  rpc_epsg m' = 4326%Z.
Proof.
  intros p m m' E E'. pose proof (optim_same p m m' E E') as S.
  destruct (sf_x _ _ S) as [-> ->], (sf_y _ _ S) as [-> ->], (sf_alt _ _ S) as [-> ->], (sf_col _ _ S) as [-> ->], (sf_row _ _ S) as [-> ->].
  rewrite (sf_inv _ _ S), (sf_dir _ _ S), (sf_epsg _ _ S).
  split; [reflexivity|]. split; [reflexivity|]. split; [reflexivity|]. split; [|split; [|reflexivity]].
  - intros Hi. destruct (sf_inv_coef _ _ S Hi) as (-> & -> & -> & -> & _). reflexivity.
  - intros Hi. destruct (sf_dir_coef _ _ S Hi) as (-> & -> & -> & -> & _). reflexivity.
Qed.
(** It can be built exactly when at least one set of coefficients is given, and each one given has four
    polynomials of 20 coefficients, the first one not all zero. *)
Theorem C67_buildable :
  forall p m, rpc_of_params p = Some m ->
  ((exists m', optim_of_params p = Some m') <->
   (inverse_coefficient m = true \/ direct_coefficient m = true) /\
   (inverse_coefficient m = true ->
      Forall (fun l => List.length l = 20%nat) [num_col m; den_col m; num_row m; den_row m] /\ exists x, In x (num_col m) /\ x <> 0) /\
   (direct_coefficient m = true ->
      Forall (fun l => List.length l = 20%nat) [num_x m; den_x m; num_y m; den_y m] /\ exists x, In x (num_x m) /\ x <> 0)).
Proof.
  intros p m E. rewrite (optim_defined p m E).
  assert (F : forall a b c d : list R, side_ok a b c d <->
    (Forall (fun l => List.length l = 20%nat) [a; b; c; d] /\ exists x, In x a /\ x <> 0)).
  { intros a b c d. unfold side_ok. rewrite !Forall_cons_iff. intuition. }
  now rewrite !F.
Qed.
(** From the same file the two classes load the same model, whichever of the two fails to load apart. *)
Theorem C67_loaded :
  forall pyfloat path f topleft m', load_optim pyfloat path f topleft = Some m' ->
  exists p m, load_rpc pyfloat path f topleft = Some m /\ rpc_of_params p = Some m /\ optim_of_params p = Some m'.
Proof.
  intros pyfloat path f topleft m' H. unfold load_optim in H. unfold load_rpc.
  destruct (rpc_reader pyfloat path f topleft) as [p|e]; [|discriminate].
  destruct (rpc_of_params p) as [m|] eqn:E; [exists p, m; auto|]. unfold optim_of_params in H. rewrite E in H. discriminate.
Qed.

(** The parameters of a model, as a reader gives them. *)
Definition params_of (m : rpc) : rpc_params :=
  let c l := map fin l in
  mkParams "test" (fin (offset_row m)) (fin (offset_col m)) (fin (scale_row m)) (fin (scale_col m))
    (fin (offset_x m)) (fin (scale_x m)) (fin (offset_y m)) (fin (scale_y m)) (fin (offset_alt m)) (fin (scale_alt m))
    (c (num_row m)) (c (den_row m)) (c (num_col m)) (c (den_col m))
    (Some (c (num_x m))) (Some (c (den_x m))) (Some (c (num_y m))) (Some (c (den_y m))).
Lemma seq_opt_fin l : seq_opt (map fin l) = Some l.
Proof. induction l as [|x l IH]; [reflexivity|]. cbn [map seq_opt fin]. now rewrite IH. Qed.
Lemma rpc_of_params_of m : inverse_coefficient m = given (num_col m) -> direct_coefficient m = given (num_x m) -> rpc_epsg m = 4326%Z ->
  rpc_of_params (params_of m) = Some m.
Proof.
  intros H1 H2 H3. unfold rpc_of_params, params_of, coefficients.
  cbn [p_off_row p_off_col p_scale_row p_scale_col p_off_x p_scale_x p_off_y p_scale_y p_off_alt p_scale_alt p_num_row p_den_row
    p_num_col p_den_col p_num_x p_den_x p_num_y p_den_y fin].
  rewrite !seq_opt_fin. destruct m; cbn in *. congruence.
Qed.
Lemma optim_of_params_of m : inverse_coefficient m = true -> direct_coefficient m = true -> rpc_epsg m = 4326%Z ->
  side_ok (num_col m) (den_col m) (num_row m) (den_row m) -> side_ok (num_x m) (den_x m) (num_y m) (den_y m) ->
  rpc_of_params (params_of m) = Some m /\ optim_of_params (params_of m) = Some m.
Proof.
  intros Hi Hd He (L1 & L2 & L3 & L4 & Z1) (L5 & L6 & L7 & L8 & Z2).
  assert (G1 : given (num_col m) = true) by (destruct (num_col m); [discriminate|reflexivity]).
  assert (G2 : given (num_x m) = true) by (destruct (num_x m); [discriminate|reflexivity]).
  assert (E : rpc_of_params (params_of m) = Some m) by (apply rpc_of_params_of; congruence).
  split; [exact E|]. unfold optim_of_params. rewrite E. cbv zeta. rewrite G1, G2. cbn [andb].
  apply all_zero_iff in Z1, Z2. rewrite Z1, Z2. cbn [negb andb]. rewrite !array20_ok by assumption.
  destruct m; cbn in *. congruence.
Qed.
Lemma unit_side i : (i < 20)%nat -> exists x, In x (unit_at i) /\ x <> 0.
Proof.
  intros H. exists 1. split; [|lra]. do 20 (destruct i as [|i]; [unfold unit_at; simpl; tauto|]). lia.
Qed.
(** The two objects built from the parameters of a model with both sets of coefficients. *)
Example C67_case : rpc_of_params (params_of ex_rpc) = Some ex_rpc /\ optim_of_params (params_of ex_rpc) = Some ex_rpc.
Proof.
  apply optim_of_params_of; try reflexivity.
  - unfold side_ok. repeat (split; [reflexivity|]). exists 1. split; [simpl; tauto|lra].
  - unfold side_ok. repeat (split; [reflexivity|]). apply unit_side. lia.
Qed.
(** An object with the inverse coefficients only, and parameters RPC accepts but RPCoptim does not. *)
Example C67_case_inverse_only :
  rpc_of_params (params_of ex_rpc2) = Some ex_rpc2 /\
  exists m', optim_of_params (params_of ex_rpc2) = Some m' /\ inverse_coefficient m' = true /\ direct_coefficient m' = false.
Proof.
  assert (E : rpc_of_params (params_of ex_rpc2) = Some ex_rpc2) by (apply rpc_of_params_of; reflexivity).
  split; [exact E|]. destruct (proj2 (optim_defined _ _ E)) as (m' & H).
  - split; [left; reflexivity|]. split; [|discriminate]. intros _. unfold side_ok. repeat (split; [reflexivity|]).
    exists 1. split; [simpl; tauto|lra].
  - exists m'. split; [exact H|]. pose proof (optim_same _ _ _ E H) as S. now rewrite (sf_inv _ _ S), (sf_dir _ _ S).
Qed.

(** ** C66 *)
(** On arrays of one size, the two classes return the same rows, columns and altitudes, when no
    denominator is zero at a ground point of the batch. *)
Theorem C66_same_result :
  forall p m m' lon lat alt, rpc_of_params p = Some m -> optim_of_params p = Some m' -> inverse_coefficient m = true ->
  List.length lat = List.length lon -> List.length alt = List.length lon ->
  (forall i x y z, nth_error lon i = Some (Some x) -> nth_error lat i = Some (Some y) -> nth_error alt i = Some (Some z) ->
     lonlat_ok x y -> regular_at m x y z) ->
  optim_inverse_loc m' lon lat alt = inverse_loc m lon lat alt.
Proof.
  intros p m m' lon lat alt E E' Hi L1 L2 HR. pose proof (optim_same p m m' E E') as S.
  destruct (zip3_some lon lat alt L1 L2) as [rows HZ]. apply zip3_inv in HZ. destruct HZ as (-> & -> & ->).
  rewrite inverse_loc_map by assumption. rewrite optim_inverse_rows.
  destruct (sf_inv_coef _ _ S Hi) as (E1 & E2 & E3 & E4 & N1 & N2 & N3 & N4).
  rewrite (seq_opt_map_some _ (fun r => R3 (lat3 (inv_pt m r)) (lon3 (inv_pt m r)) (alt3 (inv_pt m r)))).
  - rewrite !map_map. reflexivity.
  - intros r Hr. rewrite vec_pt_checked; try congruence.
    + now rewrite !(same_inv_pt m m') by assumption.
    + intros x y z -> Hok. apply (same_regular m m' x y z S Hi). apply In_nth_error in Hr. destruct Hr as [i Hr].
      apply (HR i x y z); try assumption; (erewrite map_nth_error; [|exact Hr]); reflexivity.
Qed.
(** One zero denominator, and the compiled class fails for the whole batch. *)
Theorem C66_zero_denominator_fails_the_batch :
  forall p m m' lon lat alt i x y z, rpc_of_params p = Some m -> optim_of_params p = Some m' -> inverse_coefficient m = true ->
  scale_x m <> 0 -> scale_y m <> 0 -> scale_alt m <> 0 ->
  nth_error lon i = Some (Some x) -> nth_error lat i = Some (Some y) -> nth_error alt i = Some (Some z) ->
  lonlat_ok x y -> ~ regular_at m x y z ->
  optim_inverse_loc m' lon lat alt = None.
Proof.
  intros p m m' lon lat alt i x y z E E' Hi Hx Hy Hz Ex Ey Ez Hok HR. pose proof (optim_same p m m' E E') as S.
  unfold optim_inverse_loc. destruct (zip3 lon lat alt) as [rows|] eqn:EZ; [|reflexivity].
  destruct (zip3_inv _ _ _ _ EZ) as (-> & -> & ->). cbv zeta. rewrite cpp_inverse_vec_map.
  apply nth_error_map_inv in Ex, Ey, Ez.
  destruct Ex as (r & Hr & Ex), Ey as (r1 & Hr1 & Ey), Ez as (r2 & Hr2 & Ez).
  rewrite Hr in Hr1, Hr2. injection Hr1 as <-. injection Hr2 as <-.
  destruct r as [x' y' z']. cbn [lon3 lat3 alt3] in *. subst x' y' z'.
  rewrite (seq_opt_map_none _ _ (R3 (Some x) (Some y) (Some z))); [reflexivity| |].
  - unfold check_lonlat. apply in_map_iff. exists (R3 (Some x) (Some y) (Some z)). split; [|eapply nth_error_In; eauto].
    assert (F : lonlat_filtering (R3 (Some x) (Some y) (Some z)) = false) by (apply filtering_spec; exists x, y, z; auto).
    now rewrite F.
  - destruct (sf_inv_coef _ _ S Hi) as (E1 & E2 & E3 & E4 & N1 & N2 & N3 & N4).
    destruct (sf_x _ _ S) as [X1 X2], (sf_y _ _ S) as [Y1 Y2], (sf_alt _ _ S) as [A1 A2].
    apply vec_pt_irregular; try congruence. now rewrite (same_regular m m').
Qed.
Lemma ex_rpc_den_zero : exists m : rpc, inverse_coefficient m = true /\ direct_coefficient m = true /\
  rpc_of_params (params_of m) = Some m /\ optim_of_params (params_of m) = Some m /\
  scale_x m <> 0 /\ scale_y m <> 0 /\ scale_alt m <> 0 /\ ~ regular_at m 0 0 0.
Proof.
  exists (mkRpc [0;1;0;1;0;0;0;0;0;0;0;0;0;0;0;0;0;0;0;0] (unit_at 1) (unit_at 2) (unit_at 0)
        (unit_at 1) (unit_at 0) (unit_at 2) (unit_at 0) true true 0 1 0 1 0 1 0 1 0 1 4326).
  split; [reflexivity|]. split; [reflexivity|].
  assert (H : forall m, m = mkRpc [0;1;0;1;0;0;0;0;0;0;0;0;0;0;0;0;0;0;0;0] (unit_at 1) (unit_at 2) (unit_at 0)
        (unit_at 1) (unit_at 0) (unit_at 2) (unit_at 0) true true 0 1 0 1 0 1 0 1 0 1 4326 ->
     rpc_of_params (params_of m) = Some m /\ optim_of_params (params_of m) = Some m).
  { intros m ->. apply optim_of_params_of; try reflexivity.
    - unfold side_ok. repeat (split; [reflexivity|]). exists 1. split; [simpl; tauto|lra].
    - unfold side_ok. repeat (split; [reflexivity|]). apply unit_side. lia. }
  destruct (H _ eq_refl) as [H1 H2]. split; [exact H1|]. split; [exact H2|].
  split; [simpl; lra|]. split; [simpl; lra|]. split; [simpl; lra|].
  intros [HR _]. apply HR. unfold cubic, nx, ny, nz. simpl. field.
Qed.
(** The claim is false of a batch with a zero denominator, and of one altitude for several points: RPC
    returns arrays, RPCoptim raises. *)
Theorem C66_zero_denominator_refuted :
  exists p m m' lon lat alt r, rpc_of_params p = Some m /\ optim_of_params p = Some m' /\
  inverse_loc m lon lat alt = Some r /\ optim_inverse_loc m' lon lat alt = None.
Proof.
  destruct ex_rpc_den_zero as (m & Hi & _ & E & E' & Hx & Hy & Hz & HR).
  exists (params_of m), m, m, [Some 0; Some 1], [Some 0; Some 1], [Some 0; Some 1].
  change [Some 0; Some 1] with (map lon3 [R3 (Some 0) (Some 0) (Some 0); R3 (Some 1) (Some 1) (Some 1)]) at 1.
  change [Some 0; Some 1] with (map lat3 [R3 (Some 0) (Some 0) (Some 0); R3 (Some 1) (Some 1) (Some 1)]) at 2.
  change [Some 0; Some 1] with (map alt3 [R3 (Some 0) (Some 0) (Some 0); R3 (Some 1) (Some 1) (Some 1)]) at 3.
  eexists. split; [exact E|]. split; [exact E'|]. split; [now apply inverse_loc_map|].
  apply (C66_zero_denominator_fails_the_batch (params_of m) m m _ _ _ 0 0 0 0); auto. unfold lonlat_ok. lra.
Qed.
Theorem C66_one_altitude_refuted :
  forall p m m' x1 x2 y1 y2 z, rpc_of_params p = Some m -> optim_of_params p = Some m' -> inverse_coefficient m = true ->
  (exists r, inverse_loc m [x1; x2] [y1; y2] [z] = Some r) /\ optim_inverse_loc m' [x1; x2] [y1; y2] [z] = None.
Proof.
  intros p m m' x1 x2 y1 y2 z E E' Hi. split; [|reflexivity].
  pose proof (inverse_loc_map m [R3 x1 y1 z; R3 x2 y2 z] Hi) as H. cbn [map lon3 lat3 alt3] in H.
  eexists. etransitivity; [|exact H]. unfold inverse_loc. rewrite Hi, broadcast_scalar, broadcast_same by reflexivity. reflexivity.
Qed.
Example C66_case : optim_inverse_loc ex_rpc [Some 3; None; Some 200] [Some 4; Some 1; Some 0] [Some 5; Some 1; Some 1]
  = Some ([Some 4; None; None], [Some 8; None; None], [Some 5; None; None]).
Proof.
  destruct C67_case as [E E']. rewrite (C66_same_result _ ex_rpc ex_rpc _ _ _ E E'); try reflexivity.
  - set (rows := [R3 (Some 3) (Some 4) (Some 5); R3 None (Some 1) (Some 1); R3 (Some 200) (Some 0) (Some 1)]).
    change (inverse_loc ex_rpc (map lon3 rows) (map lat3 rows) (map alt3 rows) = Some ([Some 4; None; None], [Some 8; None; None], [Some 5; None; None])).
    rewrite inverse_loc_map by reflexivity. unfold rows. cbn [map].
    destruct (ex_rpc_affine 5 3 4) as (Hr & Hc & Hw).
    rewrite inv_pt_finite by (auto using ex_rpc_usable; unfold lonlat_ok; lra). rewrite Hc, Hw. cbn [lon3 lat3 alt3].
    assert (F : forall r, lonlat_filtering r = true -> inv_pt ex_rpc r = nan3).
    { intros r Hf. unfold inv_pt, checked. rewrite Hf. reflexivity. }
    rewrite (F (R3 None (Some 1) (Some 1))).
    2:{ apply not_false_iff_true. intros H. apply filtering_spec in H. destruct H as (x & y & z & H & _). discriminate. }
    rewrite (F (R3 (Some 200) (Some 0) (Some 1))).
    2:{ apply not_false_iff_true. intros H. apply filtering_spec in H. destruct H as (x & y & z & H & ?). injection H as <- <- <-. lra. }
    cbn [lon3 lat3 alt3 nan3]. repeat f_equal; try reflexivity; f_equal; ring.
  - intros i x y z _ _ _ _. apply ex_rpc_affine.
Qed.

(** ** C68 *)
(** With the inverse coefficients the compiled class always answers, whatever the altitudes, and the result
    of a pixel in a batch is the result of this pixel alone. *)
Theorem C68_pointwise :
  forall m Q fill, inverse_coefficient m = true ->
  exists out, optim_direct_loc_h m (map n_row Q) (map n_col Q) (map n_alt Q) fill false = Some out /\
    List.length out = List.length Q /\
    forall i q p, nth_error Q i = Some q -> nth_error out i = Some p ->
      optim_direct_loc_h m [n_row q] [n_col q] [n_alt q] fill false = Some [p].
Proof.
  intros m Q fill Hi. rewrite optim_direct_h_rows by assumption. eexists. split; [reflexivity|].
  split; [apply map_length|]. intros i q p Eq Ep. rewrite (map_nth_error _ _ _ Eq) in Ep. injection Ep as <-.
  exact (optim_direct_h_rows m [q] fill Hi).
Qed.
(** The result of a pixel: a position where the model is regular is returned exactly when Newton's method
    from the centre of the model, in ten steps, ends there, and it is a valid longitude and latitude. *)
Theorem C68_value :
  forall m row col alt fill lon lat, usable_inverse m ->
  optim_direct_loc_h m [Some row] [Some col] [Some alt] fill false = Some [R3 (Some lon) (Some lat) (Some alt)] /\
  regular_at m lon lat alt
  <-> newton_run (fun _ _ => True) m row col alt 10 (offset_x m) (offset_y m) lon lat /\ lonlat_ok lon lat.
Proof.
  intros m row col alt fill lon lat Hu. pose proof Hu as (Hi & _).
  assert (E : optim_direct_loc_h m [Some row] [Some col] [Some alt] fill false
     = Some [checked (cpp_pix m fill (NPix (Some row) (Some col) (Some alt)))])
    by exact (optim_direct_h_rows m [NPix (Some row) (Some col) (Some alt)] fill Hi).
  rewrite E. split.
  - intros [H Hr]. assert (HC : checked (cpp_pix m fill (NPix (Some row) (Some col) (Some alt))) = R3 (Some lon) (Some lat) (Some alt)) by congruence.
    unfold checked in HC. destruct (lonlat_filtering _) eqn:EF; [discriminate|]. rewrite HC in EF.
    apply filtering_spec in EF. destruct EF as (x & y & z & EQ & Hok). injection EQ as <- <- <-.
    split; [|unfold lonlat_ok; tauto].
    unfold cpp_pix in HC. cbn [n_row n_col n_alt] in HC.
    destruct (cpp_direct_loc_inverse_iterative m (Some row) (Some col) (Some alt) 10 fill) as [[lo la] a] eqn:EI.
    injection HC as -> -> ->. eapply cpp_iterative_converse; eauto.
  - intros [HN Hok]. split.
    + rewrite (cpp_pix_run _ _ _ _ _ _ _ Hu HN). unfold checked.
      assert (F : lonlat_filtering (R3 (Some lon) (Some lat) (Some alt)) = false).
      { apply filtering_spec. exists lon, lat, alt. unfold lonlat_ok in Hok. repeat split; tauto. }
      now rewrite F.
    + clear - HN. induction HN; auto.
Qed.
Definition fval (x : num) : R := match x with Some v => v | None => 0 end.
(** When RPC locates all the pixels with finite coordinates, and they share one altitude, RPCoptim returns
    the same array, NaN pixels included. *)
Theorem C68_same_result_partial :
  forall p m m' Q fill alt out, rpc_of_params p = Some m -> optim_of_params p = Some m' -> usable_inverse m ->
  direct_loc_h m (map n_row Q) (map n_col Q) (map n_alt Q) fill false = Some out ->
  (forall i q, nth_error Q i = Some q -> ~ nan_pixel q ->
     n_alt q = Some alt /\ exists lon lat, nth_error out i = Some (R3 (Some lon) (Some lat) (Some alt)) /\ regular_at m lon lat alt) ->
  optim_direct_loc_h m' (map n_row Q) (map n_col Q) (map n_alt Q) fill false = Some out.
Proof.
  intros p m m' Q fill alt out E E' Hu H HL. pose proof (optim_same p m m' E E') as S. pose proof Hu as (Hi & _).
  assert (HL' : forall i q, nth_error Q i = Some q -> okpix q = true ->
     exists r, nth_error out i = Some r /\ (n_alt q = Some alt /\ exists lon lat, r = R3 (Some lon) (Some lat) (Some alt) /\ regular_at m lon lat alt)).
  { intros i q Eq Hok. assert (Hn : ~ nan_pixel q).
    { unfold nan_pixel, okpix in *. destruct (n_row q), (n_col q); try discriminate. intros [?|?]; discriminate. }
    destruct (HL i q Eq Hn) as (EA & lon & lat & EO & HR). eexists. split; [exact EO|]. eauto. }
  pose proof (gather_filter_nth okpix _ Q out HL') as HG.
  pose proof (direct_loc_h_filter _ _ _ _ _ H) as HF. cbv zeta in HF.
  destruct (direct_loc_h_shape _ _ _ _ _ H) as (lons & lats & rows & EC & EO & E1 & E2 & E3).
  destruct (direct_loc_h_shape _ _ _ _ _ HF) as (lons2 & lats2 & rows2 & EC2 & EO2 & F1 & F2 & F3).
  rewrite filter_idem in EC2. rewrite EC in EC2. injection EC2 as <- <-.
  destruct (core_length _ _ _ _ _ _ EC) as [N1 N2].
  rewrite map_filter_true in F1, F2. rewrite scatter_true in F1, F2 by (rewrite ?map_length; congruence).
  set (F := filter okpix Q) in *. set (P := map (fun q => (fval (n_row q), fval (n_col q))) F).
  assert (EF : forall q, In q F -> q = NPix (Some (fval (n_row q))) (Some (fval (n_col q))) (Some alt)).
  { intros q Hq. pose proof Hq as Hq'. apply In_nth_error in Hq'. destruct Hq' as [j Hj].
    destruct (HG j q Hj) as (r & _ & EA & _). apply filter_In in Hq. destruct Hq as [_ Hq].
    unfold okpix in Hq. destruct q as [r0 c0 a0]. cbn [n_row n_col n_alt] in *. subst a0.
    destruct r0, c0; try discriminate. reflexivity. }
  assert (R1 : map n_row F = map (fun p => Some (fst p)) P).
  { unfold P. rewrite map_map. apply map_ext_in. intros q Hq. rewrite (EF q Hq) at 1. reflexivity. }
  assert (R2 : map n_col F = map (fun p => Some (snd p)) P).
  { unfold P. rewrite map_map. apply map_ext_in. intros q Hq. rewrite (EF q Hq) at 1. reflexivity. }
  assert (R3' : map n_alt F = repeat (Some alt) (List.length F)).
  { rewrite repeat_map. apply map_ext_in. intros q Hq. rewrite (EF q Hq). reflexivity. }
  assert (EI : exists alts k, direct_loc_inverse_iterative m (map (fun p => Some (fst p)) P) (map (fun p => Some (snd p)) P) [Some alt] 10 fill
     = Some (lons, lats, alts, k)).
  { unfold usable_core in EC. cbn [negb andb] in EC. rewrite Hi, R1, R2, R3' in EC.
    rewrite iterative_scalar_alt. rewrite map_length. replace (List.length P) with (List.length F) by (unfold P; now rewrite map_length).
    destruct (direct_loc_inverse_iterative _ _ _ _ _ _) as [[[[a b] c] k]|]; [|discriminate]. injection EC as -> ->. do 2 eexists. reflexivity. }
  destruct EI as (alts & k & EI).
  assert (HA : all_located m (map (fun p => Pix (fst p) (snd p) alt) P) lons lats).
  { intros j q Hj. unfold P in Hj. rewrite map_map in Hj. apply nth_error_map_inv in Hj. destruct Hj as (q0 & Hj & ->).
    destruct (HG j q0 Hj) as (r & Hr & _ & lon & lat & -> & HR). cbn [x_alt].
    rewrite EO2 in Hr. unfold check_lonlat in Hr. apply nth_error_map_inv in Hr. destruct Hr as (r & Hr & Er).
    destruct (lonlat_filtering r) eqn:EL; [discriminate|]. subst r.
    exists lon, lat. split; [exact (nth_error_via_map _ _ _ _ _ F1 Hr)|]. split; [exact (nth_error_via_map _ _ _ _ _ F2 Hr)|].
    apply filtering_spec in EL. destruct EL as (x & y & z & EQ & Hok). injection EQ as <- <- <-. split; [unfold lonlat_ok; tauto|exact HR]. }
  destruct (iterative_converse m alt 10 fill P lons lats alts k Hu EI HA) as (L & EP & -> & -> & _ & HN).
  rewrite optim_direct_h_rows by now rewrite (sf_inv _ _ S). f_equal. rewrite EO. unfold check_lonlat. fold checked.
  rewrite (rows_agree m fill alt Hu Q L rows); auto.
  - rewrite map_map. apply map_ext. intros q. now rewrite (same_cpp_pix m m').
  - transitivity (map (fun p => NPix (Some (fst p)) (Some (snd p)) (Some alt)) P).
    + rewrite <- EP, map_map. reflexivity.
    + unfold P. rewrite map_map. transitivity (map (fun q : npixel => q) F); [|apply map_id].
      apply map_ext_in. intros q Hq. symmetry. exact (EF q Hq).
Qed.
(** With the direct coefficients, when no denominator is zero at a pixel of the batch. *)
Theorem C68_same_result_direct :
  forall p m m' Q fill, rpc_of_params p = Some m -> optim_of_params p = Some m' -> direct_coefficient m = true ->
  (forall i row col alt, nth_error Q i = Some (NPix (Some row) (Some col) (Some alt)) ->
     let c := (col - offset_col m) / scale_col m in let r := (row - offset_row m) / scale_row m in
     let h := (alt - offset_alt m) / scale_alt m in cubic (den_x m) c r h <> 0 /\ cubic (den_y m) c r h <> 0) ->
  optim_direct_loc_h m' (map n_row Q) (map n_col Q) (map n_alt Q) fill true
  = direct_loc_h m (map n_row Q) (map n_col Q) (map n_alt Q) fill true.
Proof.
  intros p m m' Q fill E E' Hd HR. pose proof (optim_same p m m' E E') as S.
  rewrite direct_h_direct_rows by assumption.
  destruct (sf_dir_coef _ _ S Hd) as (E1 & E2 & E3 & E4 & N1 & N2 & N3 & N4).
  destruct (sf_x _ _ S) as [X1 X2], (sf_y _ _ S) as [Y1 Y2], (sf_alt _ _ S) as [A1 A2], (sf_col _ _ S) as [C1 C2], (sf_row _ _ S) as [W1 W2].
  rewrite direct_rows_agree.
  - f_equal. apply map_ext. intros q. now rewrite (same_dir_pix m m').
  - now rewrite (sf_dir _ _ S).
  - intros q Hq. apply In_nth_error in Hq. destruct Hq as [i Hq]. apply vecd_pt_value; try congruence.
    intros row col alt ->. specialize (HR i row col alt Hq). cbv zeta in *. rewrite E2, E4, A1, A2, C1, C2, W1, W2. exact HR.
Qed.
(** At different altitudes the two classes disagree: RPC starts every pixel from the residual of the first
    one. *)
Theorem C68_mixed_altitudes_refuted :
  exists p m m' Q out out', rpc_of_params p = Some m /\ optim_of_params p = Some m' /\ usable_inverse m /\
  direct_loc_h m (map n_row Q) (map n_col Q) (map n_alt Q) false false = Some out /\
  (forall r, In r out -> exists lon lat alt, r = R3 (Some lon) (Some lat) (Some alt) /\ regular_at m lon lat alt) /\
  optim_direct_loc_h m' (map n_row Q) (map n_col Q) (map n_alt Q) false false = Some out' /\ out <> out'.
Proof.
  destruct C67_case as [E E'].
  exists (params_of ex_rpc), ex_rpc, ex_rpc, [NPix (Some 0) (Some 0) (Some 0); NPix (Some 0) (Some 0) (Some 1)],
    [R3 (Some 0) (Some 0) (Some 0); R3 (Some 0) (Some 0) (Some 1)].
  eexists. split; [exact E|]. split; [exact E'|]. split; [apply ex_rpc_usable|].
  assert (FF : forall x y z : R, lonlat_ok x y -> lonlat_filtering (R3 (Some x) (Some y) (Some z)) = false).
  { intros x y z Hok. apply filtering_spec. exists x, y, z. unfold lonlat_ok in Hok. repeat split; tauto. }
  split.
  { rewrite direct_loc_h_core. unfold usable_core. cbn [map filter okpix n_row n_col n_alt isnan orb negb andb].
    change (inverse_coefficient ex_rpc) with true. cbv iota.
    match goal with |- context[direct_loc_inverse_iterative ?a ?b ?c ?d ?e ?f] =>
      replace (direct_loc_inverse_iterative a b c d e f) with (Some ([Some 0; Some 0], [Some 0; Some 0], [Some 0; Some 1], 0%nat))
        by (symmetry; exact ex_rpc_two_altitudes) end. cbn [scatter zip3 map].
    unfold check_lonlat. cbn [map]. rewrite !FF by (unfold lonlat_ok; lra). reflexivity. }
  split. { intros r [<-|[<-|[]]]; do 3 eexists; (split; [reflexivity|apply ex_rpc_affine]). }
  split; [now rewrite optim_direct_h_rows|]. cbn [map].
  rewrite (cpp_pix_run ex_rpc false 0 0 1 (-1) 0 ex_rpc_usable).
  - unfold checked at 2. rewrite FF by (unfold lonlat_ok; lra). intros H. apply cons_inj in H. destruct H as [_ H].
    injection H. intros. lra.
  - apply (run_weaken lonlat_ok); [auto|].
    apply (affine_newton_run ex_rpc 0 0 1 1 1 0 0 0 1); try (unfold lonlat_ok; simpl; lra).
    + apply ex_rpc_affine.
    + unfold reprojects. destruct (ex_rpc_affine 1 (offset_x ex_rpc) (offset_y ex_rpc)) as (_ & -> & _).
      simpl. intros [H _]. replace (0 - (1 + 1 * 0 + 0 * 0)) with (-(1)) in H by ring.
      rewrite Rabs_Ropp, Rabs_R1 in H. lra.
Qed.
(** A batch with a NaN pixel meets the hypotheses. *)
Example C68_case : exists out, usable_inverse ex_rpc /\
  direct_loc_h ex_rpc [Some 5; None; Some 1] [Some 7; Some 3; Some 120] [Some 20; Some 20; Some 20] false false = Some out /\
  out = [R3 (Some (-13)) (Some 5) (Some 20); nan3; R3 (Some 100) (Some 1) (Some 20)] /\
  regular_at ex_rpc (-13) 5 20 /\ regular_at ex_rpc 100 1 20.
Proof.
  destruct C11_case as [Hu HF]. eexists. split; [exact Hu|]. split; [|split; [reflexivity|split; apply ex_rpc_affine]].
  set (Q := [NPix (Some 5) (Some 7) (Some 20); NPix None (Some 3) (Some 20); NPix (Some 1) (Some 120) (Some 20)]).
  change (direct_loc_h ex_rpc (map n_row Q) (map n_col Q) (map n_alt Q) false false
    = Some [R3 (Some (-13)) (Some 5) (Some 20); nan3; R3 (Some 100) (Some 1) (Some 20)]).
  rewrite direct_loc_h_core. unfold usable_core, Q. cbn [map filter okpix n_row n_col n_alt isnan orb negb andb].
  change (inverse_coefficient ex_rpc) with true. cbv iota.
  destruct (C11_batch_is_pointwise_newton_partial ex_rpc 20 10 false _ Hu HF) as (k & _ & E).
  rewrite iterative_scalar_alt in E. cbn [map l_row l_col l_lon l_lat repeat List.length] in E.
  match goal with |- context[direct_loc_inverse_iterative ?a ?b ?c ?d ?e ?f] =>
      replace (direct_loc_inverse_iterative a b c d e f) with (Some ([Some (-13); Some 100], [Some 5; Some 1], [Some 20; Some 20], k))
        by (symmetry; exact E) end. cbn [scatter zip3 map].
  assert (FF : forall x y z : R, lonlat_ok x y -> lonlat_filtering (R3 (Some x) (Some y) (Some z)) = false).
  { intros x y z Hok. apply filtering_spec. exists x, y, z. unfold lonlat_ok in Hok. repeat split; tauto. }
  unfold check_lonlat. cbn [map]. rewrite !FF by (unfold lonlat_ok; lra).
  destruct (lonlat_filtering (R3 (fst (centre ex_rpc false)) (snd (centre ex_rpc false)) (Some 20))) eqn:EL; [reflexivity|].
  apply filtering_spec in EL. destruct EL as (x & y & z & EQ & _). discriminate.
Qed.
