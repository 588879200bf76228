(** Properties of loaded RPC models: the pixel convention (C63), the written file (C64), the format (C65). *)
From Coq Require Import String Reals ZArith List Bool Lra Lia.
From Verif Require Import Num NumLemmas InterpModel ProjModel RpcModel RpcProofs DtmModel RpcDtmModel PyStrModel ReadersModel ReadersSpec
  ReadersProofs PropertiesReaders PropertiesReaders2 WritersModel WritersSpec PropertiesWriters LoadModel LoadSpec LoadProofs.
Import ListNotations.
Open Scope R_scope.

(** ** C63 *)
Lemma further_move h x : further h x = move h x.
Proof. now destruct x. Qed.
Lemma shifted_ok h m : same_localization_shifted h m (shifted h m).
Proof.
  assert (E : forall l, map (further h) l = map (move h) l) by (intros l; apply map_ext, further_move).
  split; [|split; [|split]]; intros.
  - rewrite inverse_loc_shift. destruct (inverse_loc m lon lat alt) as [[[r c] a]|]; [|reflexivity]. now rewrite (E r), (E c).
  - rewrite (E row), (E col). apply direct_loc_h_shift.
  - rewrite (E row), (E col). apply los_extrema_shift.
  - rewrite (E row), (E col). apply direct_loc_dtm_shift.
Qed.
Lemma of_params_half p : rpc_of_params (move_half p) = option_map (shifted (1 / 2)) (rpc_of_params p).
Proof.
  unfold rpc_of_params, move_half.
  cbn [p_off_row p_off_col p_scale_row p_scale_col p_off_x p_scale_x p_off_y p_scale_y p_off_alt p_scale_alt p_num_row p_den_row p_num_col p_den_col p_num_x p_den_x p_num_y p_den_y].
  destruct (p_off_row p), (p_off_col p); try reflexivity. cbn [nadd nlift2 fin].
  destruct (p_scale_row p), (p_scale_col p), (p_off_x p), (p_scale_x p), (p_off_y p), (p_scale_y p), (p_off_alt p), (p_scale_alt p); try reflexivity.
  destruct (seq_opt (p_num_col p)), (seq_opt (p_den_col p)), (seq_opt (p_num_row p)), (seq_opt (p_den_row p)); try reflexivity.
  destruct (coefficients (p_num_x p)), (coefficients (p_den_x p)), (coefficients (p_num_y p)), (coefficients (p_den_y p)); reflexivity.
Qed.

(** Whatever the file, the model read with [0,0] at the corner of the first pixel is the one read with [0,0]
    at its centre, with rows and columns half a pixel further; one exists when the other does. *)
Theorem C63_pixel_convention :
  forall pyfloat path f,
    (forall m, load_rpc pyfloat path f false = Some m ->
       exists m', load_rpc pyfloat path f true = Some m' /\ same_localization_shifted (1 / 2) m m') /\
    (load_rpc pyfloat path f false = None -> load_rpc pyfloat path f true = None).
Proof.
  intros pyfloat path f. unfold load_rpc. rewrite C40_topleft_is_half_a_pixel.
  destruct (rpc_reader pyfloat path f false) as [p|e]; cbn [bind]; [|split; [discriminate|reflexivity]].
  rewrite of_params_half. split.
  - intros m ->. eexists. split; [reflexivity|]. apply shifted_ok.
  - intros ->. reflexivity.
Qed.

(** ** C64 *)
Lemma same_localization_nd m m' : no_direct m = no_direct m' -> same_localization m m'.
Proof.
  intros E. split; [|split; [|split]]; intros.
  - now rewrite <- (inverse_loc_nd m'), <- E, inverse_loc_nd.
  - now rewrite <- (direct_loc_h_nd m'), <- E, direct_loc_h_nd.
  - now rewrite <- (los_extrema_nd conv m'), <- E, los_extrema_nd.
  - now rewrite <- (direct_loc_dtm_nd conv fuel m'), <- E, direct_loc_dtm_nd.
Qed.
Lemma of_params_inverse p q m : same_inverse_model p q -> p_num_x q = None -> p_den_x q = None -> p_num_y q = None -> p_den_y q = None ->
  rpc_of_params p = Some m -> rpc_of_params q = Some (no_direct m).
Proof.
  intros (E1 & E2 & E3 & E4 & E5 & E6 & E7 & E8 & E9 & E10 & E11 & E12 & E13 & E14) N1 N2 N3 N4.
  unfold rpc_of_params. rewrite E1, E2, E3, E4, E5, E6, E7, E8, E9, E10, E11, E12, E13, E14, N1, N2, N3, N4.
  destruct (p_off_row p), (p_off_col p), (p_scale_row p), (p_scale_col p), (p_off_x p), (p_scale_x p), (p_off_y p), (p_scale_y p), (p_off_alt p), (p_scale_alt p); try discriminate.
  destruct (seq_opt (p_num_col p)), (seq_opt (p_den_col p)), (seq_opt (p_num_row p)), (seq_opt (p_den_row p)); try discriminate.
  destruct (coefficients (p_num_x p)), (coefficients (p_den_x p)), (coefficients (p_num_y p)), (coefficients (p_den_y p)); try discriminate.
  injection 1 as <-. reflexivity.
Qed.

(** The model of a file, converted to the tags of a raster and loaded again, localizes as the original. *)
Theorem C64_converted_to_geotiff :
  forall pyfloat repr xml lines (s : fs) input output override m rpcs rest,
    load_rpc pyfloat input (view_of xml lines (s input)) true = Some m ->
    s output = Some (Raster rpcs rest) -> (rpcs = None \/ override = true) ->
    exists s' m', rpc_converter repr pyfloat xml lines s input output "geotiff" override = (s', Ok tt) /\
      load_rpc pyfloat output (view_of xml lines (s' output)) true = Some m' /\ same_localization m m'.
Proof.
  intros pyfloat repr xml lines s input output override m rpcs rest HL Hf Ho. unfold load_rpc in HL.
  destruct (rpc_reader pyfloat input (view_of xml lines (s input)) true) as [p|] eqn:Hr; [|discriminate].
  destruct (C62_converted_model pyfloat repr xml lines s input output override p rpcs rest Hr Hf Ho) as (s' & q & HC & Hq & HS).
  exists s', (no_direct m). split; [exact HC|].
  assert (HN : p_num_x q = None /\ p_den_x q = None /\ p_num_y q = None /\ p_den_y q = None).
  { unfold rpc_converter in HC. rewrite Hr in HC. unfold rpc_writer in HC. cbn [String.eqb Ascii.eqb Bool.eqb] in HC.
    change (geotiff_rpc_updater repr s (rpc_dict_to_rio_rpcs p true) output false override = (s', Ok tt)) in HC.
    unfold geotiff_rpc_updater in HC. rewrite Hf in HC.
    assert (HW : s' = fs_set s output (Raster (Some (rpc_dict_to_rio_rpcs p true)) rest)).
    { destruct Ho as [ -> | -> ]; [now apply pair_equal_spec in HC as [<- _]|]. destruct rpcs; now apply pair_equal_spec in HC as [<- _]. }
    rewrite HW, fs_set_same in Hq. injection Hq as <-. repeat split. }
  destruct HN as (N1 & N2 & N3 & N4). unfold load_rpc. rewrite Hq. split; [now apply (of_params_inverse p)|].
  apply same_localization_nd. reflexivity.
Qed.

(** The same for an RPB file, from any reading of its text as RPCs. *)
Theorem C64_written_as_rpb :
  forall pyfloat repr (s : fs) p m filename name override, prints pyfloat repr p -> rpc_of_params p = Some m -> rpb_beside filename name ->
    (exists s' text, rpc_writer repr s p filename "rpb" override = (s', Ok tt) /\ s' filename = Some (TextFile text) /\
       forall r xml lines, describes_rpb pyfloat text r ->
         exists m', load_rpc pyfloat filename (mkView (Some (Some r)) xml lines) true = Some m' /\ same_localization m m') /\
    (exists s' text, rpc_writer repr s p filename "geotiff_rpb" override = (s', Ok tt) /\ s' name = Some (TextFile text) /\
       forall r xml lines, describes_rpb pyfloat text r ->
         exists m', load_rpc pyfloat filename (mkView (Some (Some r)) xml lines) true = Some m' /\ same_localization m m').
Proof.
  intros pyfloat repr s p m filename name override Hp Hm Hn.
  assert (K : forall r xml lines q, rpc_reader pyfloat filename (mkView (Some (Some r)) xml lines) true = Ok q -> same_inverse_model p q ->
    exists m', load_rpc pyfloat filename (mkView (Some (Some r)) xml lines) true = Some m' /\ same_localization m m').
  { intros r xml lines q Hq HS. exists (no_direct m). unfold load_rpc. rewrite Hq. split; [|now apply same_localization_nd].
    injection Hq as <-. now apply (of_params_inverse p). }
  split.
  - destruct (C41_rpb pyfloat repr s p filename override Hp) as (s' & text & H1 & H2 & _ & H3). exists s', text. split; [exact H1|]. split; [exact H2|].
    intros r xml lines Hr. destruct (H3 r xml lines Hr) as (q & Hq & HS). eapply K; eassumption.
  - destruct (C41_geotiff_rpb pyfloat repr s p filename name override Hp Hn) as (s' & text & H1 & H2 & _ & H3). exists s', text. split; [exact H1|]. split; [exact H2|].
    intros r xml lines Hr. destruct (H3 r xml lines Hr) as (q & Hq & HS). eapply K; eassumption.
Qed.

(** It is not the same model: a request for the direct coefficients, which the original answers, is an error
    of the converted one. *)
Theorem C64_direct_coefficients_refuted :
  exists pyfloat repr xml lines (s s' : fs) input output m m' row col alt,
    load_rpc pyfloat input (view_of xml lines (s input)) true = Some m /\
    rpc_converter repr pyfloat xml lines s input output "geotiff" false = (s', Ok tt) /\
    load_rpc pyfloat output (view_of xml lines (s' output)) true = Some m' /\
    direct_loc_h m row col alt false true <> None /\ direct_loc_h m' row col alt false true = None.
Proof.
  set (s := fun n => if String.eqb n "a.xml" then Some (TextFile "") else if String.eqb n "a.tif" then Some (Raster None 0) else None).
  set (xml := fun t : content => Some ex_doc2).
  exists ex_float, (fun _ => ""%string), xml, (fun _ => None), s.
  assert (Hv : view_of xml (fun _ => None) (s "a.xml"%string) = mkView None (Some ex_doc2) None) by reflexivity.
  assert (Hr : rpc_reader ex_float "a.xml" (view_of xml (fun _ => None) (s "a.xml"%string)) true = Ok (delivered "dimap_v2" true true ex_geometry)).
  { rewrite Hv. rewrite (proj1 (proj2 (C43_dimap_by_version ex_float "a.xml" (mkView None (Some ex_doc2) None) true ex_doc2 "2" ltac:(discriminate) eq_refl eq_refl (proj1 C43_example))) 2%R eq_refl ltac:(lra)).
    exact (C40_dimap_v2 ex_float "a.xml" (mkView None (Some ex_doc2) None) true ex_doc2 "2" ex_geometry eq_refl eq_refl C40_example_v2). }
  destruct (rpc_of_params (delivered "dimap_v2" true true ex_geometry)) as [m|] eqn:Em; [|discriminate].
  assert (HL : load_rpc ex_float "a.xml" (view_of xml (fun _ => None) (s "a.xml"%string)) true = Some m) by (unfold load_rpc; rewrite Hr; exact Em).
  destruct (C64_converted_to_geotiff ex_float (fun _ => ""%string) xml (fun _ => None) s "a.xml" "a.tif" false m None 0%nat HL eq_refl (or_introl eq_refl)) as (s' & m' & HC & HL' & _).
  exists s', "a.xml"%string, "a.tif"%string, m, m', [fin 100], [fin 200], [fin 500].
  split; [exact HL|]. split; [exact HC|]. split; [exact HL'|].
  assert (HD : direct_coefficient m = true) by (injection Em as <-; reflexivity).
  assert (HD' : direct_coefficient m' = false).
  { unfold rpc_converter in HC. rewrite Hr in HC.
    change (geotiff_rpc_updater (fun _ => ""%string) s (rpc_dict_to_rio_rpcs (delivered "dimap_v2" true true ex_geometry) true) "a.tif" false false = (s', Ok tt)) in HC.
    apply pair_equal_spec in HC as [<- _]. injection HL' as <-. reflexivity. }
  split.
  - unfold direct_loc_h. rewrite HD. cbn [filter_coordinates broadcast_alt Nat.eqb length map2 isnan fin negb orb gather andb map scatter repeat].
    unfold compute_rational_function_polynomial. cbn [length map Nat.eqb andb seq read_array]. cbn [scatter zip3]. discriminate.
  - unfold direct_loc_h. rewrite HD'. destruct (negb (_ =? _)%nat); [reflexivity|]. destruct (broadcast_alt _ _); [|reflexivity]. destruct (filter_coordinates _ _ _ _ _) as [[mask px] py]. reflexivity.
Qed.

(** ** C65 *)
Definition of_geometry (topleft direct : bool) (g : geometry) : rpc :=
  let d (l : list R) := if direct then l else [] in
  mkRpc (g_num_col g) (g_den_col g) (g_num_row g) (g_den_row g) (d (g_num_x g)) (d (g_den_x g)) (d (g_num_y g)) (d (g_den_y g))
    (given (g_num_col g)) (given (d (g_num_x g))) (g_x g) (g_scale_x g) (g_y g) (g_scale_y g) (g_alt g) (g_scale_alt g)
    (g_col g + first_corner topleft) (g_scale_col g) (g_row g + first_corner topleft) (g_scale_row g) 4326.
Lemma of_delivered driver topleft direct g : rpc_of_params (delivered driver topleft direct g) = Some (of_geometry topleft direct g).
Proof.
  unfold rpc_of_params, delivered.
  cbn [p_off_row p_off_col p_scale_row p_scale_col p_off_x p_scale_x p_off_y p_scale_y p_off_alt p_scale_alt p_num_row p_den_row p_num_col p_den_col p_num_x p_den_x p_num_y p_den_y fin].
  rewrite !seq_opt_fin. destruct direct; cbn [coefficients]; rewrite ?seq_opt_fin; reflexivity.
Qed.
Lemma file_of_load pyfloat g path f topleft : file_of pyfloat g path f ->
  exists direct, load_rpc pyfloat path f topleft = Some (of_geometry topleft direct g) /\ (direct = true -> length (g_num_x g) = 20%nat).
Proof.
  intros [r Hr HD|doc v x HR HN HX HV Hv Hx HD|doc v HR HN HX HV HD|doc v HR HN HX HV HD|lines HR HN HO HX HD]; unfold load_rpc.
  - exists false. split; [|discriminate]. rewrite (C43_raster_first _ _ _ _ _ Hr). pose proof (C40_rasterio f topleft r g Hr HD) as E.
    unfold rpc_reader_via_rasterio in E. rewrite Hr in E. apply (f_equal (fun o => match o with Some p => p | None => delivered "" topleft false g end)) in E. cbv beta iota in E. rewrite E. apply of_delivered.
  - exists true. split.
    + rewrite (proj1 (C43_dimap_by_version _ _ _ topleft _ _ HR HN HX HV) x Hv Hx), (C40_dimap_v1 _ _ _ _ _ _ _ HN HX HD). apply of_delivered.
    + intros _. destruct HD as (? & ? & ? & ? & _ & _ & _ & _ & _ & HF & _). exact (proj1 HF).
  - exists true. split.
    + pose proof HD as (? & ? & ? & ? & ? & ? & x & _ & _ & _ & Hv & Hx & _).
      rewrite (proj1 (proj2 (C43_dimap_by_version _ _ _ topleft _ _ HR HN HX HV)) x Hv ltac:(lra)), (C40_dimap_v2 _ _ _ _ _ _ _ HN HX HD). apply of_delivered.
    + intros _. destruct HD as (? & ? & ? & ? & ? & ? & ? & _ & _ & _ & _ & _ & _ & _ & _ & _ & _ & _ & HF & _). exact (proj1 HF).
  - exists true. split.
    + pose proof HD as (? & ? & ? & ? & ? & ? & x & _ & _ & _ & Hv & Hx & _).
      rewrite (proj1 (proj2 (C43_dimap_by_version _ _ _ topleft _ _ HR HN HX HV)) x Hv ltac:(lra)), (C40_dimap_v3 _ _ _ _ _ _ _ HN HX HD). apply of_delivered.
    + intros _. destruct HD as (? & ? & ? & ? & ? & ? & ? & _ & _ & _ & _ & _ & _ & _ & _ & _ & _ & _ & HF & _). exact (proj1 HF).
  - exists false. split; [|discriminate]. rewrite (proj1 (C43_ossim_then_error _ _ _ topleft HR HN) HO), (C40_ossim _ _ _ _ _ HX HD). apply of_delivered.
Qed.

(** Two files of any of the formats that hold the same geometry give models that localize alike; they are
    the same model when both have direct coefficients or none has. *)
Theorem C65_format_is_irrelevant :
  forall pyfloat g path f path' f' topleft, file_of pyfloat g path f -> file_of pyfloat g path' f' ->
    exists m m', load_rpc pyfloat path f topleft = Some m /\ load_rpc pyfloat path' f' topleft = Some m' /\
      same_localization m m' /\ (direct_coefficient m = direct_coefficient m' -> m = m').
Proof.
  intros pyfloat g path f path' f' topleft H H'.
  destruct (file_of_load _ _ _ _ topleft H) as (d & E & L), (file_of_load _ _ _ _ topleft H') as (d' & E' & L').
  exists (of_geometry topleft d g), (of_geometry topleft d' g). split; [exact E|]. split; [exact E'|]. split.
  - apply same_localization_nd. reflexivity.
  - cbn [of_geometry direct_coefficient]. destruct d, d'; try reflexivity; intros X;
      [specialize (L eq_refl)|specialize (L' eq_refl)]; destruct (g_num_x g); discriminate.
Qed.
(** The inverse coefficients of the files are used: the inverse localization is the quotient of the
    polynomials of the geometry. *)
Theorem C65_model_of_the_geometry :
  forall pyfloat g path f topleft, file_of pyfloat g path f ->
    exists m, load_rpc pyfloat path f topleft = Some m /\
      (num_col m, den_col m, num_row m, den_row m) = (g_num_col g, g_den_col g, g_num_row g, g_den_row g) /\
      (offset_x m, scale_x m, offset_y m, scale_y m, offset_alt m, scale_alt m) = (g_x g, g_scale_x g, g_y g, g_scale_y g, g_alt g, g_scale_alt g) /\
      (offset_row m, scale_row m, offset_col m, scale_col m) = (g_row g + first_corner topleft, g_scale_row g, g_col g + first_corner topleft, g_scale_col g) /\
      (direct_coefficient m = true -> (num_x m, den_x m, num_y m, den_y m) = (g_num_x g, g_den_x g, g_num_y g, g_den_y g)).
Proof.
  intros pyfloat g path f topleft H. destruct (file_of_load _ _ _ _ topleft H) as (d & E & L). eexists. split; [exact E|].
  cbn [of_geometry num_col den_col num_row den_row offset_x scale_x offset_y scale_y offset_alt scale_alt offset_row scale_row offset_col scale_col direct_coefficient num_x den_x num_y den_y].
  split; [reflexivity|]. split; [reflexivity|]. split; [reflexivity|]. destruct d; [reflexivity|discriminate].
Qed.

(** The same geometry in the five formats. *)
Example C65_five_files :
  file_of ex_float ex_geometry "a.xml" (mkView None (Some ex_doc1) None) /\ file_of ex_float ex_geometry "b.XML" (mkView None (Some ex_doc2) None) /\
  file_of ex_float ex_geometry "c.xml" (mkView None (Some ex_doc3) None) /\ file_of ex_float ex_geometry "d.geom" (mkView None None (Some ex_lines)) /\
  exists r, file_of ex_float ex_geometry "e.tif" (mkView (Some (Some r)) None None).
Proof.
  assert (D3 : dimap_version ex_doc3 "3").
  { do 3 eexists; split; [one_elt|]; split; [one_elt|]; split; [eexists; reflexivity|]; left; split; [discriminate|do 4 eexists; reflexivity]. }
  destruct C43_example as (D2 & D1 & _ & _ & _ & O & N & _).
  split; [apply (of_dimap1 _ _ _ _ ex_doc1 "1" 1); auto using C40_example_v1; [discriminate|reflexivity|lra]|].
  split; [apply (of_dimap2 _ _ _ _ ex_doc2 "2"); auto using C40_example_v2; discriminate|].
  split; [apply (of_dimap3 _ _ _ _ ex_doc3 "3"); auto using C40_example_v3; discriminate|].
  split; [apply (of_ossim _ _ _ _ ex_lines); auto using C40_example_ossim; discriminate|].
  destruct C40_example_rasterio as [r Hr]. exists r. now apply (of_raster _ _ _ _ r).
Qed.
(** They are loaded in both conventions, and the file of C64 exists. *)
Example C63_C64_loaded : exists m, load_rpc ex_float "b.XML" (mkView None (Some ex_doc2) None) false = Some m /\ direct_coefficient m = true /\ offset_row m = 100 + 0.
Proof.
  destruct C65_five_files as (_ & H & _). unfold load_rpc.
  rewrite (proj1 (proj2 (C43_dimap_by_version ex_float "b.XML" (mkView None (Some ex_doc2) None) false ex_doc2 "2" ltac:(discriminate) eq_refl eq_refl (proj1 C43_example))) 2%R eq_refl ltac:(lra)).
  rewrite (C40_dimap_v2 ex_float "b.XML" (mkView None (Some ex_doc2) None) false ex_doc2 "2" ex_geometry eq_refl eq_refl C40_example_v2), of_delivered.
  eexists. split; [reflexivity|]. split; reflexivity.
Qed.
