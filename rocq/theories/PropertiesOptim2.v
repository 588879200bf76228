(** Properties of the class RPCoptim: lines of sight and localization on a DTM (C69). *)
From Coq Require Import Reals ZArith String List Bool Lra Lia.
From Verif Require Import Num NumLemmas InterpModel InterpSpec InterpProofs ProjModel ProjSpec PropertiesProj RpcModel CppRpcModel RpcSpec
  RpcProofs RpcDeriv RpcRun RpcBatch RpcConverse PropertiesRpc DtmModel DtmSpec DtmCube DtmWalk DtmIntersect DtmProofs DtmWitness PropertiesDtm
  DtmWitness2 CppDtmModel CppDtmProofs PropertiesDtm2 RpcDtmModel PropertiesRpcDtm
  ReadersModel LoadModel PropertiesLoad OptimModel OptimProofs CppLine TriBatch PropertiesOptim.
Import ListNotations.
Open Scope R_scope.

(** ** C69 *)
Definition ends (l : list (row3 * row3)) : list row3 := flat_map (fun e => [fst e; snd e]) l.

Lemma cpp_los_pix m r c lo hi fill : inverse_coefficient m = true ->
  let ex := match lo, hi with
    | Some lo, Some hi => if Rleb (fst (alt_minmax m)) lo && Rleb hi (snd (alt_minmax m)) then (None, lo, hi)
        else (Some (lo, hi), fst (get_alt_min_max m), snd (get_alt_min_max m))
    | _, _ => (None, fst (get_alt_min_max m), snd (get_alt_min_max m)) end in
  cpp_los_extrema m r c lo hi fill =
  Some (let top := cpp_pix m fill (NPix r c (fin (snd ex))) in let bot := cpp_pix m fill (NPix r c (fin (snd (fst ex)))) in
        match fst (fst ex) with Some b => extrapolate_los (fst b) (snd b) top bot | None => [top; bot] end).
Proof.
  intros Hi ex. unfold cpp_los_extrema. fold ex. destruct ex as [[e l] h]. cbn [fst snd].
  pose proof (cpp_direct_h_rows m [NPix r c (fin h); NPix r c (fin l)] fill Hi) as E. cbn [map n_row n_col n_alt] in E.
  rewrite E. destruct e as [[? ?]|]; reflexivity.
Qed.
Lemma extrapolate_two lo hi t b : exists p q, extrapolate_los lo hi t b = [p; q].
Proof. unfold extrapolate_los. eauto. Qed.
Lemma pairs_of_flat {A B} (f g : A -> B) l : pairs_of (flat_map (fun x => [f x; g x]) l) = map (fun x => (f x, g x)) l.
Proof. induction l as [|x l IH]; [reflexivity|]. cbn [flat_map app pairs_of map]. now rewrite IH. Qed.

Lemma optim_edges_rows m (Q : list (num * num)) lo hi fill : inverse_coefficient m = true ->
  exists L, optim_los_edges m (map fst Q) (map snd Q) lo hi fill = Some (ends L) /\
    Forall2 (fun q e => cpp_los_extrema m (fst q) (snd q) lo hi fill = Some [fst e; snd e]) Q L.
Proof.
  intros Hi. unfold optim_los_edges.
  assert (HP := fun r c => cpp_los_pix m r c lo hi fill Hi). cbv zeta in HP.
  set (ex := match lo, hi with
    | Some lo, Some hi => if Rleb (fst (alt_minmax m)) lo && Rleb hi (snd (alt_minmax m)) then (None, lo, hi)
        else (Some (lo, hi), fst (get_alt_min_max m), snd (get_alt_min_max m))
    | _, _ => (None, fst (get_alt_min_max m), snd (get_alt_min_max m)) end) in *.
  destruct ex as [[e l] h]. cbn [fst snd] in HP.
  set (D := flat_map (fun q : num * num => [NPix (fst q) (snd q) (fin h); NPix (fst q) (snd q) (fin l)]) Q).
  assert (E1 : flat_map (fun r => [r; r]) (map fst Q) = map n_row D)
    by (unfold D; clear; induction Q as [|q Q IH]; [reflexivity|]; cbn [map flat_map app n_row]; now rewrite IH).
  assert (E2 : flat_map (fun r => [r; r]) (map snd Q) = map n_col D)
    by (unfold D; clear; induction Q as [|q Q IH]; [reflexivity|]; cbn [map flat_map app n_col]; now rewrite IH).
  assert (E3 : flat_map (fun _ => [fin h; fin l]) (map fst Q) = map n_alt D)
    by (unfold D; clear; induction Q as [|q Q IH]; [reflexivity|]; cbn [map flat_map app n_alt]; now rewrite IH).
  rewrite E1, E2, E3, cpp_direct_h_rows by assumption.
  assert (EM : map (cpp_pix m fill) D = flat_map (fun q : num * num => [cpp_pix m fill (NPix (fst q) (snd q) (fin h)); cpp_pix m fill (NPix (fst q) (snd q) (fin l))]) Q)
    by (unfold D; clear; induction Q as [|q Q IH]; [reflexivity|]; cbn [map flat_map app]; now rewrite IH).
  rewrite EM. destruct e as [[b1 b2]|].
  - rewrite pairs_of_flat. cbn [fst snd] in HP. clear E1 E2 E3 EM D. induction Q as [|q Q IH]; [exists []; split; [reflexivity|constructor]|].
    destruct IH as (L & EL & HF). cbn [map flat_map fst snd].
    destruct (extrapolate_two b1 b2 (cpp_pix m fill (NPix (fst q) (snd q) (fin h))) (cpp_pix m fill (NPix (fst q) (snd q) (fin l)))) as (x & y & EX).
    exists ((x, y) :: L). split.
    + rewrite EX. injection EL as EL. rewrite EL. reflexivity.
    + constructor; [|exact HF]. rewrite HP, EX. reflexivity.
  - exists (map (fun q : num * num => (cpp_pix m fill (NPix (fst q) (snd q) (fin h)), cpp_pix m fill (NPix (fst q) (snd q) (fin l)))) Q). split.
    + f_equal. clear. induction Q as [|q Q IH]; [reflexivity|]. cbn [map flat_map app ends fst snd]. now rewrite IH.
    + clear E1 E2 E3 EM D. induction Q as [|q Q IH]; constructor; [apply HP|exact IH].
Qed.

(** In a system other than 4326: one line of sight per pixel, the one of this pixel alone, converted with
    all the others at once. *)
Theorem C69_other_system_partial :
  forall conv m row col lo hi fill epsg, inverse_coefficient m = true -> List.length row = List.length col -> epsg <> 4326%Z ->
  exists L, optim_los_extrema conv m row col lo hi fill epsg = Some (conv 4326%Z epsg (ends L)) /\
    List.length L = List.length row /\
    forall i r c, nth_error row i = Some r -> nth_error col i = Some c ->
      exists e, nth_error L i = Some e /\ cpp_los_extrema m r c lo hi fill = Some [fst e; snd e].
Proof.
  intros conv m row col lo hi fill epsg Hi HL He.
  assert (EQ : exists Q, row = map fst Q /\ col = map snd Q).
  { exists (combine row col). revert col HL. induction row as [|r row IH]; intros [|c col] HL; try discriminate; [split; reflexivity|].
    destruct (IH col) as [E1 E2]; [injection HL; auto|]. cbn [combine map fst snd]. now rewrite <- E1, <- E2. }
  destruct EQ as (Q & -> & ->).
  destruct (optim_edges_rows m Q lo hi fill Hi) as (L & EL & HF).
  exists L. unfold optim_los_extrema. rewrite (proj2 (Z.eqb_neq _ _) He), EL. split; [reflexivity|].
  split. { rewrite map_length. symmetry. clear - HF. induction HF; cbn; congruence. }
  intros i r c Er Ec. apply nth_error_map_inv in Er, Ec. destruct Er as (q & Eq & ->), Ec as (q' & Eq' & ->).
  rewrite Eq in Eq'. injection Eq' as <-. clear - HF Eq.
  revert i Eq. induction HF as [|q0 e0 Q L H HF IH]; intros [|i] Eq; try discriminate.
  - injection Eq as ->. exists e0. auto.
  - apply (IH i Eq).
Qed.
(** One pixel, two bounds: the ends of its line of sight are at the two bounds, whatever the system. *)
Theorem C69_bounds :
  forall m row col lo hi fill, inverse_coefficient m = true -> scale_alt m <> 0 ->
  exists p q, cpp_los_extrema m row col (Some lo) (Some hi) fill = Some [p; q] /\ alt3 p = Some hi /\ alt3 q = Some lo /\
    forall conv, optim_los_extrema conv m [row] [col] (Some lo) (Some hi) fill 4326 = Some [p; q].
Proof.
  intros m row col lo hi fill Hi Hs.
  assert (exists p q, cpp_los_extrema m row col (Some lo) (Some hi) fill = Some [p; q] /\ alt3 p = Some hi /\ alt3 q = Some lo) as (p & q & E & Hp & Hq).
  { destruct (Rle_lt_dec (fst (alt_minmax m)) lo) as [H1|H1]; [destruct (Rle_lt_dec hi (snd (alt_minmax m))) as [H2|H2]|].
    - now apply C13_cpp_bounds_inside_domain.
    - destruct (C13_cpp_extrapolation m row col lo hi fill Hi Hs (or_intror H2)) as (_ & _ & p & q & _ & _ & _ & E & Hp & Hq & _). eauto.
    - destruct (C13_cpp_extrapolation m row col lo hi fill Hi Hs (or_introl H1)) as (_ & _ & p & q & _ & _ & _ & E & Hp & Hq & _). eauto. }
  exists p, q. repeat (split; [assumption|]). intros conv. unfold optim_los_extrema. exact E.
Qed.
Lemma los_extrema_defined conv m row col lo hi fill e : inverse_coefficient m = true -> List.length row = List.length col ->
  exists los, los_extrema conv m row col lo hi fill e = Some los.
Proof.
  intros Hi HL. unfold los_extrema.
  match goal with |- context [let '(_, _) := ?x in _] => destruct x as [[ex l] h] end.
  assert (EQ : exists Q, row = map fst Q /\ col = map snd Q).
  { exists (combine row col). revert col HL. induction row as [|r row IH]; intros [|c col] HL; try discriminate; [split; reflexivity|].
    destruct (IH col) as [E1 E2]; [injection HL; auto|]. cbn [combine map fst snd]. now rewrite <- E1, <- E2. }
  destruct EQ as (Q & -> & ->).
  set (D := flat_map (fun q : num * num => [NPix (fst q) (snd q) (fin h); NPix (fst q) (snd q) (fin l)]) Q).
  assert (E1 : flat_map (fun r => [r; r]) (map fst Q) = map n_row D)
    by (unfold D; clear; induction Q as [|q Q IH]; [reflexivity|]; cbn [map flat_map app n_row]; now rewrite IH).
  assert (E2 : flat_map (fun r => [r; r]) (map snd Q) = map n_col D)
    by (unfold D; clear; induction Q as [|q Q IH]; [reflexivity|]; cbn [map flat_map app n_col]; now rewrite IH).
  assert (E3 : flat_map (fun _ => [fin h; fin l]) (map fst Q) = map n_alt D)
    by (unfold D; clear; induction Q as [|q Q IH]; [reflexivity|]; cbn [map flat_map app n_alt]; now rewrite IH).
  rewrite E1, E2, E3. destruct (direct_loc_h_defined m D fill false Hi) as (out & ->).
  destruct e as [e|]; [destruct (e =? rpc_epsg m)%Z|]; eauto.
Qed.
(** The default bounds are rejected in the system 4326, and so are two pixels; RPC answers. *)
Theorem C69_default_bounds_refuted :
  forall conv m row col fill, inverse_coefficient m = true ->
  optim_los_extrema conv m [row] [col] None None fill 4326 = None /\
  exists los, los_extrema conv m [row] [col] None None fill (Some 4326%Z) = Some los.
Proof. intros. split; [reflexivity|]. now apply los_extrema_defined. Qed.
Theorem C69_two_pixels_refuted :
  forall conv m r1 r2 c1 c2 lo hi fill, inverse_coefficient m = true ->
  optim_los_extrema conv m [r1; r2] [c1; c2] lo hi fill 4326 = None /\
  exists los, los_extrema conv m [r1; r2] [c1; c2] lo hi fill (Some 4326%Z) = Some los.
Proof. intros. split; [reflexivity|]. now apply los_extrema_defined. Qed.

Lemma all_results_some l out : all_results l = Some out -> out = l /\
  forall r, In r out -> r <> Throws /\ r <> Endless.
Proof.
  unfold all_results. destruct (existsb _ l) eqn:E; [discriminate|]. intros H. injection H as <-. split; [reflexivity|].
  intros r Hr. split; intros ->.
  - assert (existsb (fun r => match r with Throws | Endless => true | _ => false end) l = true); [|congruence].
    apply existsb_exists. eauto.
  - assert (existsb (fun r => match r with Throws | Endless => true | _ => false end) l = true); [|congruence].
    apply existsb_exists. eauto.
Qed.
Lemma pixel_line m row col lo hi : inverse_coefficient m = true -> scale_alt m <> 0 ->
  exists p q, cpp_los_extrema m row col (Some lo) (Some hi) false = Some [p; q] /\
  forall a b, finite_row p = Some a -> finite_row q = Some b ->
    p = row_of_vec a /\ q = row_of_vec b /\ v2 a = hi /\ v2 b = lo.
Proof.
  intros Hi Hs. destruct (C69_bounds m row col lo hi false Hi Hs) as (p & q & E & Hp & Hq & _).
  exists p, q. split; [exact E|]. intros a b Ha Hb. apply finite_row_inv in Ha, Hb. subst p q.
  split; [reflexivity|]. split; [reflexivity|]. cbn [row_of_vec alt3] in Hp, Hq. split; congruence.
Qed.
(** On a DTM in geographic coordinates, each result is NaN, or an uninitialised position, or a valid position
    on the line of sight of its pixel, whose ends are one metre above and below the DTM; over the DTM this
    position is on the surface, within 1e-4.  Missing: the uninitialised positions (a line of sight that
    misses the surface inside the box of the DTM, as in C21), the abscissa between the two ends. *)
Theorem C69_surface_point_partial :
  forall conv fuel m row col d lo hi out, inverse_coefficient m = true -> scale_alt m <> 0 ->
  big_enough (dt_data d) -> invertible (dt_transform d) -> dt_epsg d = 4326%Z -> lowest d lo -> highest d hi ->
  List.length row = List.length col ->
  optim_direct_loc_dtm conv fuel m row col d = Some out ->
  List.length out = List.length row /\
  forall i r c, nth_error row i = Some r -> nth_error col i = Some c ->
    exists res, nth_error out i = Some res /\
    (res = Value nan3 \/ res = Indeterminate \/
     exists a b u,
       cpp_los_extrema m r c (Some (lo - 1)) (Some (hi + 1)) false = Some [row_of_vec a; row_of_vec b] /\
       v2 a = hi + 1 /\ v2 b = lo - 1 /\
       res = Value (row_of_vec (along a b u)) /\ valid_lonlat (row_of_vec (along a b u)) /\
       let i := ter_to_index (dt_trans_inv d) (along a b u) in
       in_hull (dt_data d) (v0 i) (v1 i) -> on_surface (dt_data d) (1 / 10000) i).
Proof.
  intros conv fuel m row col d lo hi out Hi Hs Hb Hinv He Hlo Hhi HL H.
  pose proof (lowest_eq d lo Hb Hlo) as E1. pose proof (highest_eq d hi Hb Hhi) as E2.
  assert (Hlh : lo <= hi).
  { destruct Hlo as [Hlo _], Hhi as [_ (i & j & Hn & <-)]. now apply Hlo. }
  unfold optim_direct_loc_dtm in H. rewrite He in H. cbn [Z.eqb Pos.eqb] in H. rewrite E1, E2 in H.
  destruct (all_results _) as [l|] eqn:EA; [|discriminate]. injection H as <-.
  apply all_results_some in EA. destruct EA as [-> HN]. rewrite map_length, map2_length. split; [lia|].
  intros i r c Er Ec.
  assert (EN := map2_nth (cpp_direct_loc_dtm (cpp_of d) lo hi fuel m) row col i r c Er Ec).
  exists (check_result (cpp_direct_loc_dtm (cpp_of d) lo hi fuel m r c)). split; [now apply map_nth_error|].
  destruct (HN _ (nth_error_In _ _ EN)) as [HT HE]. revert HT HE. unfold cpp_direct_loc_dtm.
  destruct (pixel_line m r c (lo - 1) (hi + 1) Hi Hs) as (p & q & ELos & HAB). unfold fin. rewrite ELos.
  unfold cpp_intersection_num. cbn [map seq_opt].
  destruct (finite_row p) as [a|] eqn:EP; [|left; reflexivity].
  destruct (finite_row q) as [b|] eqn:EQ; [|left; reflexivity].
  destruct (HAB a b eq_refl eq_refl) as (-> & -> & Ha & Hb'). intros HT HE.
  destruct (cpp_intersection_one (cpp_of d) fuel [a; b]) as [res| | |] eqn:ER; try contradiction; [|right; left; reflexivity].
  destruct (cpp_value_on_line d fuel a b res Hb Hinv ltac:(lra) ER) as [->|(u & -> & HS)]; [left; reflexivity|].
  cbn [check_result]. destruct (lonlat_filtering (row_of_vec (along a b u))) eqn:EF; [left; reflexivity|].
  right. right. exists a, b, u. split; [reflexivity|]. split; [assumption|]. split; [assumption|]. split; [reflexivity|].
  split; [now apply filtering_spec|]. cbv zeta in *. intros Hin. now apply value_on_surface.
Qed.
(** A line of sight over the DTM is localized, between its ends, under the conditions of C21 (Missing: the
    lines of sight C21 excludes). *)
Theorem C69_line_over_the_dtm_is_localized_partial :
  forall fuel m row col d lo hi a b, inverse_coefficient m = true -> scale_alt m <> 0 ->
  big_enough (dt_data d) -> invertible (dt_transform d) -> (fuel_bound d <= fuel)%nat ->
  dt_epsg d = 4326%Z -> lowest d lo -> highest d hi ->
  cpp_los_extrema m row col (Some (lo - 1)) (Some (hi + 1)) false = Some [row_of_vec a; row_of_vec b] ->
  let ia := ter_to_index (dt_trans_inv d) a in let ib := ter_to_index (dt_trans_inv d) b in
  in_hull (dt_data d) (v0 ia) (v1 ia) -> in_hull (dt_data d) (v0 ib) (v1 ib) ->
  v0 ia <> 0 -> v0 ia <> IZR (rs_rows (dt_data d) - 1) -> v1 ia <> 0 -> v1 ia <> IZR (rs_cols (dt_data d) - 1) ->
  (forall t, 0 < t < 1 -> on_face (dt_data d) (along ia ib t) ->
     ((exists i, v0 (along ia ib t) = IZR i) -> v0 ia <= v0 ib) /\
     ((exists j, v1 (along ia ib t) = IZR j) -> v1 ia <= v1 ib)) ->
  (forall t, v2 (along ia ib t) = hi -> ~ clearance (dt_data d) (along ia ib t) 0) ->
  exists u, 0 <= u <= 1 /\
    (forall conv, valid_lonlat (row_of_vec (along a b u)) ->
       optim_direct_loc_dtm conv fuel m [row] [col] d = Some [Value (row_of_vec (along a b u))]) /\
    on_surface (dt_data d) (1 / 10000) (ter_to_index (dt_trans_inv d) (along a b u)).
Proof.
  intros fuel m row col d lo hi a b Hi Hs Hb Hinv HF He Hlo Hhi EL ia ib Hia Hib N0 N1 N2 N3 HD HE.
  pose proof (lowest_eq d lo Hb Hlo) as E1. pose proof (highest_eq d hi Hb Hhi) as E2.
  assert (Hlh : lo <= hi).
  { destruct Hlo as [Hlo _], Hhi as [_ (i & j & Hn & <-)]. now apply Hlo. }
  assert (FR : forall v, finite_row (row_of_vec v) = Some v) by (intros [x y z]; reflexivity).
  destruct (pixel_line m row col (lo - 1) (hi + 1) Hi Hs) as (p & q & EL' & HAB). rewrite EL in EL'.
  apply (f_equal (fun o => match o with Some l => l | None => [] end)) in EL'.
  apply cons_inj in EL'. destruct EL' as [<- EL']. apply cons_inj in EL'. destruct EL' as [<- _].
  destruct (HAB a b (FR a) (FR b)) as (_ & _ & Ha & Hbz).
  assert (HA : all_nodes_below (dt_data d) (v2 a)) by (apply nodes_below_iff; [assumption|lra]).
  assert (HB : all_nodes_above (dt_data d) (v2 b + 1 / 10000)) by (apply nodes_above_iff; [assumption|lra]).
  assert (HB' : all_nodes_above (dt_data d) (v2 b)) by (apply nodes_above_iff; [assumption|lra]).
  assert (HLL : ~ runs_along_last_line (dt_data d) ia ib) by (intros [[_ ?]|[_ ?]]; contradiction).
  destruct (C15_succeeds_through_the_dtm d a b Hb Hia Hib HA HB') as (h0 & Hh0 & EC0 & Hz0).
  destruct (C19_line_through_the_dtm_is_found d fuel a b Hb Hinv HF Hia Hib HA HB HLL) as (p & h & EC & HC).
  rewrite EC in EC0. injection EC0 as -> ->.
  destruct HC as [HC|(u & Hu & EI & HS)]; [exfalso; apply (HE h0); [unfold ia, ib; rewrite Hz0; exact E2|exact HC]|].
  exists u. split; [lra|]. split; [|exact HS].
  assert (Hout : ~ in_cube (dt_data d) ia).
  { intros (_ & _ & i & j & Hn & Hz). pose proof (HA i j Hn). change (v2 ia) with (v2 a) in Hz. lra. }
  assert (EP : cpp_intersection_one (cpp_of d) fuel [a; b] = Value (row_of_vec (along a b u))).
  { destruct (C15_first_point_of_the_cube d a b _ h0 Hb Hout EC) as (Hh & _ & HFace & _). fold ia ib in HFace, EC, EI.
    unfold cpp_intersection_one. rewrite cpp_los. change (los_to_index d [a; b]) with [ia; ib] in *.
    rewrite cpp_cube_some by (apply planes_off; auto; change (v2 ia) with (v2 a); lra).
    unfold intersect_dtm_cube in EC. change (los_to_index d [a; b]) with [ia; ib] in EC. rewrite EC.
    assert (ECI : cpp_intersection_index (cpp_of d) fuel [ia; ib] (along ia ib h0) h0 = intersection_index d fuel [ia; ib] (along ia ib h0) h0).
    { destruct (Req_dec h0 1) as [->|Hn1].
      - rewrite intersection2_end. unfold cpp_intersection_index.
        assert (E : Rfloor 1 = 1%Z) by (apply (Rfloor_IZR 1)). rewrite E. destruct Rltb; reflexivity.
      - apply cpp_intersection2_eq; [assumption|lra|].
        destruct (HD h0 ltac:(lra) HFace) as [D0 D1].
        intros [[HX HL]|[HX HL]]; [specialize (D0 HX)|specialize (D1 HX)]; lra. }
    rewrite ECI. unfold intersection in EI.
    destruct (intersection_index d fuel [ia; ib] (along ia ib h0) h0) as [x| | |]; try discriminate.
    assert (EI' : index_to_ter (dt_transform d) x = along a b u) by congruence. rewrite <- EI'. do 2 f_equal. }
  intros conv HV. unfold optim_direct_loc_dtm. rewrite He. cbn [Z.eqb Pos.eqb]. rewrite E1, E2.
  cbn [map2]. unfold cpp_direct_loc_dtm at 1. unfold fin. rewrite EL. unfold cpp_intersection_num. cbn [map seq_opt]. rewrite !FR, EP.
  unfold all_results. cbn [existsb orb map check_result]. apply filtering_spec in HV. now rewrite HV.
Qed.
(** The model that sees the ground point (815/8, 195/4) at the pixel (0, 0) for all altitudes, with the DTM
    of C20 in geographic coordinates: the pixel is localized on the surface. *)
Definition rpc69 : rpc :=
  mkRpc (unit_at 1) (unit_at 0) (unit_at 2) (unit_at 0) (unit_at 1) (unit_at 0) (unit_at 2) (unit_at 0) true true
        (815 / 8) 1 (195 / 4) 1 0 100 0 1 0 1 4326.
Definition dtm69 : dtm := mkDtm (dt_data corner_dtm) ex_gdal 4326.
Lemma rpc69_pixel alt : cpp_pix rpc69 false (NPix (Some 0) (Some 0) (Some alt)) = R3 (Some (815 / 8)) (Some (195 / 4)) (Some alt).
Proof.
  assert (Hu : usable_inverse rpc69) by (repeat split; simpl; lra).
  assert (HS : regular_at rpc69 (815 / 8) (195 / 4) alt /\ col_of rpc69 (815 / 8) (195 / 4) alt = 0 /\ row_of rpc69 (815 / 8) (195 / 4) alt = 0).
  { unfold regular_at, col_of, row_of, nx, ny, nz, cubic. simpl. repeat split; lra. }
  destruct HS as (Hr & Hc & Hw).
  apply cpp_pix_run; [assumption|]. apply run_done; [exact I|exact Hr|].
  unfold reprojects. change (offset_x rpc69) with (815 / 8). change (offset_y rpc69) with (195 / 4).
  rewrite Hc, Hw. replace (0 - 0) with 0 by ring. rewrite Rabs_R0. split; lra.
Qed.
Example C69_case :
  optim_of_params (params_of rpc69) = Some rpc69 /\
  forall conv fuel, (fuel_bound dtm69 <= fuel)%nat ->
  exists z, optim_direct_loc_dtm conv fuel rpc69 [Some 0] [Some 0] dtm69
              = Some [Value (R3 (Some (815 / 8)) (Some (195 / 4)) (Some z))] /\ Rabs (z - 5 / 8) <= 1 / 10000.
Proof.
  split.
  { apply (optim_of_params_of rpc69); try reflexivity; unfold side_ok; repeat (split; [reflexivity|]); apply unit_side; lia. }
  intros conv fuel HF.
  assert (HI : invertible (dt_transform dtm69)) by (apply dt_invertible, ex_gdal_inv).
  assert (HB : big_enough (dt_data dtm69)) by apply corner_big.
  assert (HL : lowest dtm69 0).
  { split; [intros i j _; apply corner_nodes|]. exists 0%Z, 0%Z. split; [split; simpl; lia|reflexivity]. }
  assert (HH : highest dtm69 10).
  { split; [intros i j _; apply corner_nodes|]. exists 1%Z, 1%Z. split; [split; simpl; lia|reflexivity]. }
  set (a := V3 (815 / 8) (195 / 4) (10 + 1)). set (b := V3 (815 / 8) (195 / 4) (0 - 1)).
  assert (EI : forall z, ter_to_index (dt_trans_inv dtm69) (V3 (815 / 8) (195 / 4) z) = V3 (1 / 4) (1 / 4) z).
  { intros z. rewrite <- (C05_dtm_index_ter_index (dt_transform dtm69) (V3 (1 / 4) (1 / 4) z)) by assumption.
    unfold dt_trans_inv. f_equal. unfold index_to_ter, transform_index_to_physical_point, affine_apply.
    unfold dt_transform, affine_of_gdal, from_gdal, dtm69, ex_gdal.
    cbn [dt_gdal af_a af_b af_c af_d af_e af_f v0 v1 v2 g0 g1 g2 g3 g4 g5]. f_equal; lra. }
  assert (Hin : in_hull (dt_data dtm69) (1 / 4) (1 / 4)).
  { unfold in_hull. simpl. lra. }
  assert (Hcl : forall z e, clearance (dt_data dtm69) (V3 (1 / 4) (1 / 4) z) e -> e = z - 5 / 8).
  { intros z e He. apply clearance_iff in He; [|assumption]. destruct He as [_ ->]. unfold clr.
    unfold interpolate. rewrite (interp_in_cell _ 0 0); [|split; simpl; lia|unfold in_cell; simpl; lra].
    unfold bilinear_in_cell, lerp. cbn [v0 v1 v2]. simpl. lra. }
  assert (ELos : cpp_los_extrema rpc69 (Some 0) (Some 0) (Some (0 - 1)) (Some (10 + 1)) false = Some [row_of_vec a; row_of_vec b]).
  { rewrite cpp_los_pix by reflexivity. cbn [alt_minmax fst snd].
    destruct (Rleb_spec (offset_alt rpc69 - scale_alt rpc69) (0 - 1)) as [_|H]; [|exfalso; simpl in H; lra].
    destruct (Rleb_spec (10 + 1) (offset_alt rpc69 + scale_alt rpc69)) as [_|H]; [|exfalso; simpl in H; lra].
    cbn [andb fst snd]. unfold fin. rewrite !rpc69_pixel. reflexivity. }
  destruct (C69_line_over_the_dtm_is_localized_partial fuel rpc69 (Some 0) (Some 0) dtm69 0 10 a b) as (u & Hu & EN & HS); auto.
  - simpl; lra.
  - unfold a. rewrite EI. exact Hin.
  - unfold b. rewrite EI. exact Hin.
  - unfold a. rewrite EI. simpl. lra.
  - unfold a. rewrite EI. simpl. lra.
  - unfold a. rewrite EI. simpl. lra.
  - unfold a. rewrite EI. simpl. lra.
  - intros t _ _. unfold a, b. rewrite !EI. cbn [v0 v1]. split; intros; lra.
  - intros t Ht HC. unfold a, b in Ht, HC. rewrite !EI in Ht, HC. unfold along in *. cbn [v0 v1 v2] in *.
    replace (1 / 4 + t * (1 / 4 - 1 / 4)) with (1 / 4) in HC by ring. apply Hcl in HC. lra.
  - assert (EU : along a b u = V3 (815 / 8) (195 / 4) (11 - 12 * u)).
    { unfold a, b, along. cbn [v0 v1 v2]. f_equal; ring. }
    rewrite EU in *. exists (11 - 12 * u). split.
    + apply EN. exists (815 / 8), (195 / 4), (11 - 12 * u). split; [reflexivity|lra].
    + destruct HS as (e & He & Ha). rewrite EI in He. apply Hcl in He. now rewrite <- He.
Qed.
