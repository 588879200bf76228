(** Properties of Localization and coloc (C45 - C47, C56). *)
From Coq Require Import Reals ZArith List Bool Lra Lia.
From Verif Require Import Num NumLemmas ProjModel ProjSpec PropertiesProj RpcModel DtmModel RpcDtmModel LocModel LocSpec TriProofs TriBatch.
Import ListNotations.
Open Scope R_scope.

(** C45.  Precedence of the elevation sources, conversion to the system asked for, geotransform. *)
Theorem C45_direct_uses_the_right_source :
  forall (D : Type) (dtm_epsg : D -> Z) conv m e im epsg p h geo,
    exists p' coords from, model_positions im geo p p' /\ computed dtm_epsg m p' e h coords from /\
      direct dtm_epsg conv (make_localization m e im epsg) p h geo
      = match coords with Some g => Some (in_system conv epsg from g) | None => None end.
Proof.
  intros D dtm_epsg conv m e im epsg p h geo.
  assert (HP : exists p', model_positions im geo p p' /\ to_physical im geo p = p').
  { destruct im as [im|]; [destruct geo|]; eexists; (split; [constructor|reflexivity]). }
  destruct HP as (p' & HP & Ep).
  assert (I : lo_image (make_localization m e im epsg) = im) by (destruct e; reflexivity).
  assert (M : lo_model (make_localization m e im epsg) = m) by (destruct e; reflexivity).
  assert (G : lo_epsg (make_localization m e im epsg) = epsg) by (destruct e; reflexivity).
  exists p'. unfold direct. rewrite I, M, G, Ep.
  destruct h as [h|].
  - eexists _, _. split; [assumption|]. split; [constructor|].
    destruct (gm_direct_h _ _ _ _); [|reflexivity]. unfold in_system. destruct epsg as [z|]; [destruct (Z.eqb z _)|]; reflexivity.
  - destruct e as [a|d|]; cbn [make_localization lo_dtm lo_default]; eexists _, _; (split; [assumption|]);
      (split; [constructor|]).
    + destruct (gm_direct_h _ _ _ _); [|reflexivity]. unfold in_system. destruct epsg as [z|]; [destruct (Z.eqb z _)|]; reflexivity.
    + destruct (gm_direct_dtm _ _ _ _); [|reflexivity]. unfold in_system. destruct epsg as [z|]; [destruct (Z.eqb z _)|]; reflexivity.
    + cbn [broadcast]. destruct (gm_direct_h _ _ _ _); [|reflexivity]. unfold in_system.
      destruct epsg as [z|]; [destruct (Z.eqb z _)|]; reflexivity.
Qed.
(** A model and a DTM that tell by the result which source was used. *)
Definition probe : geomodel Z :=
  GeoModel 4326 (fun r c h => Some (map2 (fun rc h => R3 (fst rc) (snd rc) h) (combine r c) h))
    (fun r c d => Some (map (fun rc => R3 (fst rc) (snd rc) (fin (IZR d))) (combine r c)))
    (fun lon lat h => Some (combine lon lat)) ((0, 0), (100, 200)).
Definition shift_conv (e1 e2 : Z) (g : list row3) : list row3 :=
  map (fun p => R3 (nadd (lon3 p) (fin (IZR e2 - IZR e1))) (lat3 p) (alt3 p)) g.
Example C45_case :
  let at_ e epsg h := direct (fun d => d) shift_conv (make_localization probe e None epsg) [(fin 1, fin 2)] h true in
  at_ (Dtm 7%Z) None (Some (Scalar (fin 5))) = Some [R3 (fin 1) (fin 2) (fin 5)] /\
  at_ (Dtm 7%Z) None None = Some [R3 (fin 1) (fin 2) (fin 7)] /\
  at_ (Dtm 7%Z) (Some 7%Z) None = Some [R3 (fin 1) (fin 2) (fin 7)] /\
  at_ (Elev (Scalar (fin 9))) (Some 4327%Z) None = Some [R3 (fin (1 + (4327 - 4326))) (fin 2) (fin 9)] /\
  at_ NoElevation None None = Some [R3 (fin 1) (fin 2) (fin 0)].
Proof. repeat split. Qed.

(** The conversions of the inverse localization: the geometric model is called with coordinates in
    its own system, the image coordinates are converted back exactly when asked for. *)
Theorem C45_inverse_conversions :
  forall (D : Type) conv (m : geomodel D) e im epsg lonlat hs geo,
    length hs = length lonlat ->
    inverse conv (make_localization m e im epsg) lonlat (Some (Array hs)) geo
    = let g := map2 (fun ll h => R3 (fst ll) (snd ll) h) lonlat hs in
      let g' := match epsg with Some z => if Z.eqb z (gm_epsg m) then g else conv z (gm_epsg m) g | None => g end in
      match gm_inverse m (map lon3 g') (map lat3 g') (map alt3 g') with
      | None => None
      | Some rc =>
          Some (match im with
                | Some i => if geo then map (fun p => match p with
                                        | (Some r, Some c) => let '(r, c) := transform_physical_point_to_index (im_trans_inv i) r c in (Some r, Some c)
                                        | _ => (nan, nan)
                                        end) rc else rc
                | None => rc
                end, map alt3 g')
      end.
Proof.
  intros D conv m e im epsg lonlat hs geo HL.
  assert (I : lo_image (make_localization m e im epsg) = im) by (destruct e; reflexivity).
  assert (M : lo_model (make_localization m e im epsg) = m) by (destruct e; reflexivity).
  assert (G : lo_epsg (make_localization m e im epsg) = epsg) by (destruct e; reflexivity).
  unfold inverse. rewrite I, M, G. cbn [broadcast]. unfold assign_column. rewrite HL, Nat.eqb_refl.
  set (g := map2 _ lonlat hs).
  assert (E1 : map lon3 g = map fst lonlat /\ map lat3 g = map snd lonlat /\ map alt3 g = hs).
  { unfold g. clear -HL. revert hs HL. induction lonlat as [|x l IH]; intros [|h hs] HL; try discriminate; [auto|].
    injection HL as HL. destruct (IH hs HL) as (A & B & C). simpl. now rewrite A, B, C. }
  destruct E1 as (E1 & E2 & E3).
  destruct epsg as [z|].
  - rewrite (Z.eqb_sym z). destruct (Z.eqb (gm_epsg m) z); cbv zeta.
    + rewrite E1, E2, E3. destruct (gm_inverse _ _ _ _); [|reflexivity]. unfold to_index. destruct im; reflexivity.
    + destruct (gm_inverse _ _ _ _); [|reflexivity]. unfold to_index. destruct im; reflexivity.
  - cbv zeta. rewrite E1, E2, E3. destruct (gm_inverse _ _ _ _); [|reflexivity]. unfold to_index. destruct im; reflexivity.
Qed.

(** The altitude of the inverse localization: the one given; without one, the altitude the object was
    made with, and 0 when it was made with a DTM (the DTM is never read) or with nothing.  A number
    stands for the array that repeats it. *)
Inductive inverse_altitude {D} (n : nat) : elevation D -> option altitude -> list num -> Prop :=
| ia_given_array e hs : length hs = n -> inverse_altitude n e (Some (Array hs)) hs
| ia_given_number e x hs : length hs = n -> Forall (eq x) hs -> inverse_altitude n e (Some (Scalar x)) hs
| ia_made_with_array hs : length hs = n -> inverse_altitude n (Elev (Array hs)) None hs
| ia_made_with_number x hs : length hs = n -> Forall (eq x) hs -> inverse_altitude n (Elev (Scalar x)) None hs
| ia_made_with_dtm d hs : length hs = n -> Forall (eq (fin 0)) hs -> inverse_altitude n (Dtm d) None hs
| ia_made_without hs : length hs = n -> Forall (eq (fin 0)) hs -> inverse_altitude n NoElevation None hs.
Lemma all_repeat {A} (x : A) hs n : length hs = n -> Forall (eq x) hs -> repeat x n = hs.
Proof. intros <- F. induction F as [|y l E F IH]; [reflexivity|]. cbn. now rewrite IH, E. Qed.
Theorem C45_inverse_altitude :
  forall (D : Type) conv (m : geomodel D) e im epsg lonlat h hs geo,
    inverse_altitude (length lonlat) e h hs ->
    inverse conv (make_localization m e im epsg) lonlat h geo
    = inverse conv (make_localization m e im epsg) lonlat (Some (Array hs)) geo.
Proof.
  intros D conv m e im epsg lonlat h hs geo H. unfold inverse.
  destruct H as [e hs L|e x hs L F|hs L|x hs L F|d hs L F|hs L F]; cbn [make_localization lo_default lo_model lo_image lo_epsg broadcast];
    rewrite ?(all_repeat _ hs _ L F); reflexivity.
Qed.
(** With a conversion, an array of one altitude stands for all the points, and the altitudes of another number of points
    are an error. *)
Theorem C45_altitudes_of_other_points :
  forall (D : Type) conv (m : geomodel D) e im z lonlat hs geo,
    z <> gm_epsg m -> length hs <> length lonlat ->
    inverse conv (make_localization m e im (Some z)) lonlat (Some (Array hs)) geo
    = match hs with [x] => inverse conv (make_localization m e im (Some z)) lonlat (Some (Scalar x)) geo | _ => None end.
Proof.
  intros D conv m e im z lonlat hs geo HZ HL.
  assert (M : lo_model (make_localization m e im (Some z)) = m) by (destruct e; reflexivity).
  assert (G : lo_epsg (make_localization m e im (Some z)) = Some z) by (destruct e; reflexivity).
  unfold inverse. rewrite M, G. assert (N : Z.eqb (gm_epsg m) z = false) by (apply Z.eqb_neq; congruence). rewrite N. cbn [broadcast]. unfold assign_column.
  assert (NL : Nat.eqb (length hs) (length lonlat) = false) by (apply Nat.eqb_neq; exact HL). rewrite NL.
  destruct hs as [|x [|y hs]]; [reflexivity| |reflexivity]. rewrite repeat_length, Nat.eqb_refl. reflexivity.
Qed.
Example C45_altitudes_of_other_points_case :
  let at_ hs := inverse shift_conv (make_localization probe (Dtm 7%Z) None (Some 4327%Z)) [(fin 1, fin 2); (fin 3, fin 4); (fin 5, fin 6)] (Some (Array hs)) false in
  at_ [fin 5; fin 6] = None /\ option_map (fun r => length (fst r)) (at_ [fin 5]) = Some 3%nat.
Proof. split; reflexivity. Qed.
Example C45_inverse_altitude_case :
  let at_ e h := inverse shift_conv (make_localization probe e None None) [(fin 1, fin 2); (fin 3, fin 4)] h false in
  at_ (Dtm 7%Z) None = Some ([(fin 1, fin 2); (fin 3, fin 4)], [fin 0; fin 0]) /\
  at_ (Elev (Scalar (fin 9))) None = Some ([(fin 1, fin 2); (fin 3, fin 4)], [fin 9; fin 9]) /\
  at_ (Dtm 7%Z) (Some (Scalar (fin 5))) = Some ([(fin 1, fin 2); (fin 3, fin 4)], [fin 5; fin 5]).
Proof. repeat split. Qed.

(** C46.  The positions are found back.  [coords] are the ground positions computed by the model in
    the system [from]; the system of the positions is the one asked for when there is one. *)
Lemma to_index_to_physical im geo p p' : good_image im -> finite_positions p ->
  model_positions im geo p p' -> to_index im geo p' = p.
Proof.
  intros HI HF HP. destruct HP as [geo p|im p|im p].
  - reflexivity.
  - destruct im; reflexivity.
  - destruct HI as [HI1 HI2]. cbn. rewrite map_map, HI2. rewrite <- (map_id p) at 2. apply map_ext_in.
    intros q Hq. unfold finite_positions in HF. rewrite Forall_forall in HF. destruct (HF q Hq) as (r & c & ->). unfold n_index_to_physical.
    destruct (transform_index_to_physical_point (im_transform im) r c) as [r' c'] eqn:E.
    cbn [n_physical_to_index]. rewrite (C05_index_point_index _ _ _ _ _ HI1 E). reflexivity.
Qed.
Lemma map2_lonlat g : map2 (fun ll h => R3 (fst ll) (snd ll) h) (lonlats g) (map alt3 g) = g.
Proof.
  unfold lonlats. rewrite map2_map_same. rewrite <- (map_id g) at 2. apply map_ext. now intros [x y z].
Qed.
Theorem C46_inverse_undoes_direct :
  forall (D : Type) (dtm_epsg : D -> Z) conv m e im epsg p p' h geo coords from,
    coherent conv -> good_image im -> finite_positions p ->
    model_positions im geo p p' -> computed dtm_epsg m p' e h (Some coords) from ->
    (epsg = None -> from = gm_epsg m) ->
    (let g := conv from (gm_epsg m) coords in gm_inverse m (map lon3 g) (map lat3 g) (map alt3 g) = Some p') ->
    exists ground, direct dtm_epsg conv (make_localization m e im epsg) p h geo = Some ground /\
      inverse conv (make_localization m e im epsg) (lonlats ground) (Some (Array (map alt3 ground))) geo
      = Some (p, map alt3 (conv from (gm_epsg m) coords)).
Proof.
  intros D dtm_epsg conv m e im epsg p p' h geo coords from [Hid Hco] HI HF HP HC Hfrom Hinv.
  destruct (C45_direct_uses_the_right_source D dtm_epsg conv m e im epsg p h geo) as (q & cs & fr & HP2 & HC2 & HD).
  assert (q = p') as ->.
  { clear -HP HP2. inversion HP; subst; inversion HP2; subst; reflexivity. }
  assert (cs = Some coords /\ fr = from) as [-> ->].
  { clear -HC HC2. inversion HC; subst; inversion HC2; subst; split; congruence. }
  exists (in_system conv epsg from coords). split; [assumption|].
  rewrite C45_inverse_conversions by (unfold lonlats; now rewrite !map_length). rewrite map2_lonlat. cbv zeta.
  set (g' := match epsg with Some _ => _ | None => _ end).
  assert (Eg : g' = conv from (gm_epsg m) coords).
  { unfold g', in_system. destruct epsg as [z|].
    - destruct (Z.eqb_spec z (gm_epsg m)) as [Hz|Hz]; destruct (Z.eqb_spec z from) as [Hzf|Hzf].
      + rewrite <- Hzf, Hz. now rewrite Hid.
      + now rewrite Hz.
      + now rewrite Hzf.
      + apply Hco.
    - rewrite Hfrom by reflexivity. now rewrite Hid. }
  rewrite Eg. cbv zeta in Hinv. rewrite Hinv. f_equal. f_equal.
  pose proof (to_index_to_physical im geo p p' HI HF HP) as E. unfold to_index in E. exact E.
Qed.
Definition img46 : image := Img (mkAffine 2 0 100 0 (-3) 50) (affine_inv (mkAffine 2 0 100 0 (-3) 50)) 10 20.
Example C46_case :
  coherent shift_conv /\ good_image (Some img46) /\
  exists p p' coords from, finite_positions p /\ model_positions (Some img46) true p p' /\ p <> p' /\
    computed (fun d => d) probe p' (Dtm 32631%Z) None (Some coords) from /\ from <> gm_epsg probe /\
    (Some 2154%Z = None -> from = gm_epsg probe).
Proof.
  split; [|split].
  - split.
    + intros e g. unfold shift_conv. rewrite <- (map_id g) at 2. apply map_ext. intros [[x|] y z]; cbn; [|reflexivity].
      do 2 f_equal. lra.
    + intros e1 e2 e3 g. unfold shift_conv. rewrite map_map. apply map_ext. intros [[x|] y z]; cbn; [|reflexivity].
      do 2 f_equal. lra.
  - split; [unfold invertible; cbn; lra|reflexivity].
  - pose (p' := map (n_index_to_physical (im_transform img46)) [(fin 1, fin 2)]).
    exists [(fin 1, fin 2)], p', (map (fun rc => R3 (fst rc) (snd rc) (fin 32631)) (combine (map fst p') (map snd p'))), 32631%Z.
    split; [repeat constructor; eexists _, _; reflexivity|]. split; [constructor|]. split.
    + unfold p'. cbn. intros E. injection E as E1 E2. lra.
    + split; [exact (over_the_dtm (fun d => d) probe p' 32631%Z)|]. split; [discriminate|]. intros [=].
Qed.
(** ... whereas without a system asked for, over a DTM in another system than the model's, the
    positions are not found back. *)
Definition skew : geomodel Z :=
  GeoModel 4326 (gm_direct_h probe)
    (fun r c d => Some (shift_conv 4326 d (map (fun rc => R3 (fst rc) (snd rc) (fin 0)) (combine r c))))
    (gm_inverse probe) (gm_corners probe).
Theorem C46_dtm_in_another_system_refuted :
  exists (D : Type) (dtm_epsg : D -> Z) conv m (d : D) p coords,
    coherent conv /\ finite_positions p /\
    computed dtm_epsg m p (Dtm d) None (Some coords) (dtm_epsg d) /\
    (let g := conv (dtm_epsg d) (gm_epsg m) coords in gm_inverse m (map lon3 g) (map lat3 g) (map alt3 g) = Some p) /\
    exists ground hs q, direct dtm_epsg conv (make_localization m (Dtm d) None None) p None false = Some ground /\
      inverse conv (make_localization m (Dtm d) None None) (lonlats ground) (Some (Array (map alt3 ground))) false = Some (q, hs)
      /\ q <> p.
Proof.
  exists Z, (fun d => d), shift_conv, skew, 4327%Z, [(fin 1, fin 2)], (shift_conv 4326 4327 [R3 (fin 1) (fin 2) (fin 0)]).
  split; [exact (proj1 C46_case)|]. split; [repeat constructor; eexists _, _; reflexivity|].
  split; [exact (over_the_dtm (fun d => d) skew [(fin 1, fin 2)] 4327%Z)|].
  split.
  - cbn. do 3 f_equal. unfold fin. f_equal. lra.
  - eexists _, _, _. split; [reflexivity|]. split; [reflexivity|]. cbn. intros E. injection E as E. lra.
Qed.

(** C47.  The colocation is the inverse localization in the second image of the direct localization
    in the first one, with the same calls as the C++ twin. *)
Theorem C47_coloc_composes :
  forall (D : Type) (dtm_epsg : D -> Z) conv m1 m2 row col e,
    length row = length col ->
    let calls := match e with
                 | Dtm d => (gm_direct_dtm m1 row col d, cpp_coloc_dtm m1 m2 row col d)
                 | Elev a => (gm_direct_h m1 row col (broadcast (length row) a), cpp_coloc_h m1 m2 row col (broadcast (length row) a))
                 | NoElevation => (gm_direct_h m1 row col (repeat (fin 0) (length row)), cpp_coloc_h m1 m2 row col (repeat (fin 0) (length row)))
                 end in
    (forall g, fst calls = Some g -> forall rc, snd calls = Some rc -> length rc = length g ->
       exists s, coloc dtm_epsg conv m1 m2 row col e None None false = Some (s, g) /\
         gm_inverse m2 (map lon3 g) (map lat3 g) (map alt3 g) = Some rc /\
         map (fun p => (lon3 p, lat3 p)) s = rc /\ map alt3 s = map alt3 g) /\
    (fst calls = None \/ snd calls = None -> coloc dtm_epsg conv m1 m2 row col e None None false = None).
Proof.
  intros D dtm_epsg conv m1 m2 row col e HL calls.
  assert (C1 : map fst (combine row col) = row).
  { clear calls. revert col HL. induction row; intros [|? ?] HL; try discriminate; [reflexivity|]. simpl. f_equal. apply IHrow. injection HL; auto. }
  assert (C2 : map snd (combine row col) = col).
  { clear calls C1. revert col HL. induction row; intros [|? ?] HL; try discriminate; [reflexivity|]. simpl. f_equal. apply IHrow. injection HL; auto. }
  assert (CL : length (combine row col) = length row) by (rewrite combine_length; lia).
  assert (HDir : direct dtm_epsg conv (make_localization m1 e None None) (combine row col) None false = fst calls).
  { unfold direct, calls. destruct e as [a|d|]; cbn [make_localization lo_image lo_model lo_dtm lo_epsg to_physical lo_default];
      rewrite C1, C2, ?CL; cbn [broadcast fst]; match goal with |- match ?x with _ => _ end = _ => now destruct x end. }
  assert (HSnd : snd calls = match fst calls with Some g => gm_inverse m2 (map lon3 g) (map lat3 g) (map alt3 g) | None => None end).
  { unfold calls. destruct e; reflexivity. }
  assert (HInv : forall g, inverse conv (make_localization m2 e None None) (map (fun p => (lon3 p, lat3 p)) g)
      (Some (Array (map alt3 g))) false
    = match gm_inverse m2 (map lon3 g) (map lat3 g) (map alt3 g) with Some rc => Some (rc, map alt3 g) | None => None end).
  { intros g. pose proof (C45_inverse_conversions D conv m2 e None None (lonlats g) (map alt3 g) false) as E.
    rewrite map2_lonlat in E. apply E. unfold lonlats. now rewrite !map_length. }
  unfold coloc. rewrite HL, Nat.eqb_refl, HDir. split.
  - intros g Hg rc Hrc HLg. rewrite Hg, HInv. rewrite HSnd, Hg in Hrc. rewrite Hrc. eexists. split; [reflexivity|]. split; [reflexivity|].
    assert (HLr : length rc = length (map alt3 g)) by (now rewrite map_length). revert HLr.
    generalize (map alt3 g). clear. induction rc as [|[r c] rc IH]; intros [|h hs] HL; try discriminate; [auto|].
    injection HL as HL. destruct (IH hs HL) as [A B]. simpl. now rewrite A, B.
  - rewrite HSnd. destruct (fst calls) as [g|]; [|reflexivity]. intros [H|H]; [discriminate|].
    rewrite HInv, H. reflexivity.
Qed.
Theorem C47_lengths_are_checked :
  forall (D : Type) (dtm_epsg : D -> Z) conv m1 m2 row col e im1 im2 geo, length row <> length col ->
    coloc dtm_epsg conv m1 m2 row col e im1 im2 geo = None.
Proof.
  intros. unfold coloc. destruct (Nat.eqb_spec (length row) (length col)); [contradiction|reflexivity].
Qed.
(** Between two images with their geotransforms: the result is the position in the second image that the
    second model gives to the ground position seen by the first one. *)
Theorem C47_coloc_between_images :
  forall (D : Type) (dtm_epsg : D -> Z) conv m1 m2 e im1 im2 geo p p1 coords from q q2,
    good_image im2 -> finite_positions q ->
    model_positions im1 geo p p1 -> computed dtm_epsg m1 p1 e None (Some coords) from ->
    gm_inverse m2 (map lon3 coords) (map lat3 coords) (map alt3 coords) = Some q2 -> model_positions im2 geo q q2 ->
    coloc dtm_epsg conv m1 m2 (map fst p) (map snd p) e im1 im2 geo
    = Some (map2 (fun rc h => R3 (fst rc) (snd rc) h) q (map alt3 coords), coords).
Proof.
  intros D dtm_epsg conv m1 m2 e im1 im2 geo p p1 coords from q q2 HI HF HP HC Hinv HQ.
  destruct (C45_direct_uses_the_right_source D dtm_epsg conv m1 e im1 None p None geo) as (p' & cs & fr & HP2 & HC2 & HD).
  assert (p' = p1) as -> by (clear -HP HP2; inversion HP; subst; inversion HP2; subst; reflexivity).
  assert (cs = Some coords) as -> by (clear -HC HC2; inversion HC; subst; inversion HC2; subst; congruence).
  cbn [in_system] in HD. unfold coloc. rewrite !map_length, Nat.eqb_refl.
  replace (combine (map fst p) (map snd p)) with p
    by (clear; induction p as [|[a b] p IH]; [reflexivity|]; simpl; now rewrite <- IH).
  rewrite HD. fold (lonlats coords). rewrite C45_inverse_conversions by (unfold lonlats; now rewrite !map_length).
  rewrite map2_lonlat. cbv zeta. rewrite Hinv.
  pose proof (to_index_to_physical im2 geo q q2 HI HF HQ) as E. unfold to_index in E. revert E.
  destruct im2; [destruct geo|]; intros E; cbn in E |- *; try (rewrite E; reflexivity).
  match goal with |- context [map ?f q2] => assert (E' : map f q2 = q) by exact E; rewrite E' end. reflexivity.
Qed.
Definition img47 : image := Img (mkAffine 1 0 0 0 (-1) 90) (affine_inv (mkAffine 1 0 0 0 (-1) 90)) 100 200.
Example C47_between_case :
  good_image (Some img47) /\
  exists p p1 coords from q q2, finite_positions q /\ model_positions (Some img46) true p p1 /\ p <> q /\
    computed (fun d => d) probe p1 (Dtm 4326%Z) None (Some coords) from /\
    gm_inverse probe (map lon3 coords) (map lat3 coords) (map alt3 coords) = Some q2 /\
    model_positions (Some img47) true q q2.
Proof.
  split; [split; [unfold invertible; cbn; lra|reflexivity]|].
  exists [(fin 1, fin 2)], (map (n_index_to_physical (im_transform img46)) [(fin 1, fin 2)]).
  eexists _, _. exists [(fin 44, fin (104 + 1 / 2))]. eexists.
  split; [repeat constructor; eexists _, _; reflexivity|]. split; [constructor|]. split.
  - intros E. injection E as E1 E2. lra.
  - split; [exact (over_the_dtm (fun d => d) probe _ 4326%Z)|]. split; [reflexivity|].
    match goal with |- model_positions _ _ _ ?x =>
      replace x with (map (n_index_to_physical (im_transform img47)) [(fin 44, fin (104 + 1 / 2))]) end.
    + constructor.
    + cbn. unfold fin. apply f_equal2; [|reflexivity]. apply f_equal2; apply f_equal; lra.
Qed.
(** The colocation of an image with itself is the identity, wherever the inverse localization undoes
    the direct one: at any altitude, and over a DTM in the system of the model. *)
Theorem C47_self_coloc_is_identity :
  forall (D : Type) (dtm_epsg : D -> Z) conv m e im p p' geo coords,
    coherent conv -> good_image im -> finite_positions p ->
    model_positions im geo p p' -> computed dtm_epsg m p' e None (Some coords) (gm_epsg m) ->
    gm_inverse m (map lon3 coords) (map lat3 coords) (map alt3 coords) = Some p' ->
    length p = length coords ->
    coloc dtm_epsg conv m m (map fst p) (map snd p) e im im geo
    = Some (map2 (fun rc h => R3 (fst rc) (snd rc) h) p (map alt3 coords), coords).
Proof.
  intros D dtm_epsg conv m e im p p' geo coords Hco HI HF HP HC Hinv HL.
  destruct (C46_inverse_undoes_direct D dtm_epsg conv m e im None p p' None geo coords (gm_epsg m)) as (g & H1 & H2);
    try assumption; [reflexivity|rewrite (proj1 Hco); assumption|].
  unfold coloc. rewrite !map_length, Nat.eqb_refl.
  replace (combine (map fst p) (map snd p)) with p.
  - assert (g = coords) as ->.
    { destruct (C45_direct_uses_the_right_source D dtm_epsg conv m e im None p None geo) as (q & cs & fr & HP2 & HC2 & HD).
      assert (q = p') as -> by (clear -HP HP2; inversion HP; subst; inversion HP2; subst; reflexivity).
      assert (cs = Some coords) as -> by (clear -HC HC2; inversion HC; subst; inversion HC2; subst; congruence).
      rewrite HD in H1. cbn in H1. congruence. }
    rewrite H1. fold (lonlats coords). rewrite H2, (proj1 Hco). reflexivity.
  - clear. induction p as [|[a b] p IH]; [reflexivity|]. simpl. now rewrite <- IH.
Qed.
Theorem C47_self_coloc_over_foreign_dtm_refuted :
  exists (D : Type) (dtm_epsg : D -> Z) conv m (d : D) p coords,
    coherent conv /\ finite_positions p /\
    computed dtm_epsg m p (Dtm d) None (Some coords) (dtm_epsg d) /\
    (let g := conv (dtm_epsg d) (gm_epsg m) coords in gm_inverse m (map lon3 g) (map lat3 g) (map alt3 g) = Some p) /\
    exists s g, coloc dtm_epsg conv m m (map fst p) (map snd p) (Dtm d) None None false = Some (s, g) /\
      map (fun q => (lon3 q, lat3 q)) s <> p.
Proof.
  exists Z, (fun d => d), shift_conv, skew, 4327%Z, [(fin 1, fin 2)], (shift_conv 4326 4327 [R3 (fin 1) (fin 2) (fin 0)]).
  split; [exact (proj1 C46_case)|]. split; [repeat constructor; eexists _, _; reflexivity|].
  split; [exact (over_the_dtm (fun d => d) skew [(fin 1, fin 2)] 4327%Z)|].
  split.
  - cbn. do 3 f_equal. unfold fin. f_equal. lra.
  - eexists _, _. split; [reflexivity|]. cbn. intros E. injection E as E. lra.
Qed.
Example C47_case :
  coloc (fun d => d) shift_conv probe probe [fin 1; nan] [fin 2; fin 3] (Dtm 4326%Z) (Some img46) None true
  = Some ([R3 (fin (snd (affine_apply (im_transform img46) (2 + 1 / 2, 1 + 1 / 2))))
              (fin (fst (affine_apply (im_transform img46) (2 + 1 / 2, 1 + 1 / 2)))) (fin 4326); R3 nan nan (fin 4326)],
          [R3 (fin (snd (affine_apply (im_transform img46) (2 + 1 / 2, 1 + 1 / 2))))
              (fin (fst (affine_apply (im_transform img46) (2 + 1 / 2, 1 + 1 / 2)))) (fin 4326); R3 nan nan (fin 4326)]).
Proof. reflexivity. Qed.

(** C56.  The extent encloses the ground positions of the whole image when longitude and latitude
    are affine functions of the index that do not vary in opposite directions along rows and
    columns ... *)
Lemma affine_corner_bounds a b c R0 C0 R1 C1 r k : 0 <= b * c -> R0 <= r <= R1 -> C0 <= k <= C1 ->
  Rmin (a + b * R0 + c * C0) (a + b * R1 + c * C1) <= a + b * r + c * k <= Rmax (a + b * R0 + c * C0) (a + b * R1 + c * C1).
Proof.
  intros Hbc Hr Hk.
  destruct (Rle_or_lt 0 b) as [Hb|Hb], (Rle_or_lt 0 c) as [Hc|Hc].
  - split; [eapply Rle_trans; [apply Rmin_l|]|eapply Rle_trans; [|apply Rmax_r]]; nra.
  - assert (b = 0) by nra. subst. split; [eapply Rle_trans; [apply Rmin_r|]|eapply Rle_trans; [|apply Rmax_l]]; nra.
  - destruct Hc as [Hc| <-]; [exfalso; nra|].
    split; [eapply Rle_trans; [apply Rmin_r|]|eapply Rle_trans; [|apply Rmax_l]]; nra.
  - split; [eapply Rle_trans; [apply Rmin_r|]|eapply Rle_trans; [|apply Rmax_l]]; nra.
Qed.
Theorem C56_extent_encloses_the_image_partial :
  forall (D : Type) (dtm_epsg : D -> Z) conv (L : localization D) im margin a b c a' b' c',
    lo_image L = Some im -> 0 <= margin -> 0 <= b * c -> 0 <= b' * c' ->
    (forall p h, direct dtm_epsg conv L (map (fun q : R * R => (fin (fst q), fin (snd q))) p) (Some (Scalar (fin h))) true
       = Some (map (fun q => R3 (fin (a + b * fst q + c * snd q)) (fin (a' + b' * fst q + c' * snd q)) (fin h)) p)) ->
    exists lat_min lon_min lat_max lon_max,
      extent dtm_epsg conv L margin = Some (lat_min, lon_min, lat_max, lon_max) /\
      forall row col, - (1 / 2) <= row <= IZR (im_rows im) - 1 / 2 -> - (1 / 2) <= col <= IZR (im_cols im) - 1 / 2 ->
        within lon_min (a + b * row + c * col) lon_max /\ within lat_min (a' + b' * row + c' * col) lat_max.
Proof.
  intros D dtm_epsg conv L im margin a b c a' b' c' HI Hm Hbc Hbc' HD. unfold extent. rewrite HI, HD.
  eexists _, _, _, _. split; [reflexivity|]. intros row col Hr Hk.
  cbn [map fst snd lon3 lat3].
  pose proof (affine_corner_bounds a b c (- (1 / 2)) (- (1 / 2)) (- (1 / 2) + IZR (im_rows im)) (- (1 / 2) + IZR (im_cols im)) row col Hbc) as B1.
  pose proof (affine_corner_bounds a' b' c' (- (1 / 2)) (- (1 / 2)) (- (1 / 2) + IZR (im_rows im)) (- (1 / 2) + IZR (im_cols im)) row col Hbc') as B2.
  specialize (B1 ltac:(lra) ltac:(lra)). specialize (B2 ltac:(lra) ltac:(lra)).
  assert (Hmin : forall x y, list_min [x; y] = Rmin x y) by reflexivity.
  assert (Hmax : forall x y, list_max [x; y] = Rmax x y) by reflexivity.
  unfold within, np_min, np_max, fin, nsub, nadd. cbn [seq_opt nlift2]. rewrite !Hmin, !Hmax.
  split; eexists _, _; (split; [reflexivity|]); (split; [reflexivity|]); cbn; lra.
Qed.
(** ... but not in general: with a rotated image two other corners stick out. *)
Definition rot56 : geomodel Z :=
  GeoModel 4326
    (fun r c h => Some (map2 (fun rc h => R3 (nadd (fst rc) (snd rc)) (nsub (fst rc) (snd rc)) h) (combine r c) h))
    (fun _ _ _ => None) (fun _ _ _ => None) ((0, 0), (10, 10)).
Theorem C56_rotated_image_refuted :
  exists (D : Type) (dtm_epsg : D -> Z) conv (L : localization D) lat_min lon_min lat_max lon_max row0 col0 rowm colm row col ground lat,
    lo_image L = None /\ gm_corners (lo_model L) = ((row0, col0), (rowm, colm)) /\
    row0 <= row <= rowm /\ col0 <= col <= colm /\
    extent dtm_epsg conv L 0 = Some (lat_min, lon_min, lat_max, lon_max) /\
    direct dtm_epsg conv L [(fin row, fin col)] (Some (Scalar (fin 0))) false = Some [ground] /\
    lat3 ground = Some lat /\ ~ within lat_min lat lat_max.
Proof.
  exists Z, (fun d => d), shift_conv, (make_localization rot56 NoElevation None None).
  eexists _, _, _, _, 0, 0, 10, 10, 0, 10, _, (0 - 10).
  split; [reflexivity|]. split; [reflexivity|]. split; [lra|]. split; [lra|].
  split; [reflexivity|]. split; [reflexivity|]. split; [reflexivity|].
  cbn. intros (x & y & Ex & Ey & H). injection Ex as <-. injection Ey as <-.
  replace (0 - 0) with 0 in H by ring. replace (10 - 10) with 0 in H by ring.
  unfold list_min, list_max in H. cbn in H. rewrite ?Rmin_left, ?Rmax_left in H by lra. lra.
Qed.
Example C56_case :
  exists (D : Type) (dtm_epsg : D -> Z) conv (L : localization D) a b c a' b' c',
    lo_image L = Some (Img (mkAffine 1 0 0 0 1 0) (mkAffine 1 0 0 0 1 0) 10 20) /\ 0 <= b * c /\ 0 <= b' * c' /\ b <> 0 /\ c' <> 0 /\
    forall p h, direct dtm_epsg conv L (map (fun q : R * R => (fin (fst q), fin (snd q))) p) (Some (Scalar (fin h))) true
       = Some (map (fun q => R3 (fin (a + b * fst q + c * snd q)) (fin (a' + b' * fst q + c' * snd q)) (fin h)) p).
Proof.
  exists Z, (fun d => d), shift_conv,
    (make_localization probe NoElevation (Some (Img (mkAffine 1 0 0 0 1 0) (mkAffine 1 0 0 0 1 0) 10 20)) None).
  exists (1 / 2), 1, 0, (1 / 2), 0, 1.
  split; [reflexivity|]. repeat (split; [lra|]). intros p h. unfold direct. cbn [make_localization lo_image lo_model lo_epsg to_physical].
  rewrite !map_map, map_length. cbn [gm_direct_h probe broadcast]. f_equal.
  induction p as [|[r k] p IH]; [reflexivity|]. cbn [map combine repeat map2 length]. rewrite IH. f_equal.
  cbn. f_equal; unfold fin; f_equal; lra.
Qed.
