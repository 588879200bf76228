(** Lemmas about the class RPCoptim. *)
From Coq Require Import Reals ZArith String List Bool Lra Lia.
From Verif Require Import Num NumLemmas InterpModel ProjModel ProjSpec PropertiesProj RpcModel CppRpcModel RpcSpec RpcProofs RpcDeriv
  RpcRun RpcBatch RpcConverse DtmModel CppDtmModel RpcDtmModel ReadersModel LoadModel OptimModel.
Import ListNotations.
Open Scope R_scope.

Lemma array20_some l l' : array20 l = Some l' -> l' = l /\ List.length l = 20%nat.
Proof.
  unfold array20. destruct (Nat.eqb_spec (List.length l) 20); [|discriminate]. intros H. injection H as <-. auto.
Qed.
Lemma array20_ok l : List.length l = 20%nat -> array20 l = Some l.
Proof. intros H. unfold array20. now rewrite H. Qed.
Lemma array20_empty : array20 empty20 = Some empty20. Proof. reflexivity. Qed.

Lemma all_zero_iff l : all_zero l = false <-> exists c, In c l /\ c <> 0.
Proof.
  unfold all_zero. induction l as [|x l IH]; cbn [forallb In].
  - split; [discriminate|]. intros (c & [] & _).
  - rewrite andb_false_iff, IH. split.
    + intros [H|(c & Hc & Hn)]; [exists x; split; [now left|]|exists c; auto].
      destruct (Reqb_spec x 0); [discriminate|assumption].
    + intros (c & [->|Hc] & Hn); [left|right; eauto]. destruct (Reqb_spec c 0); [contradiction|reflexivity].
Qed.

(** The fields of the object built from the same parameters. *)
Record same_fields (m m' : rpc) : Prop := {
  sf_inv : inverse_coefficient m' = inverse_coefficient m;
  sf_dir : direct_coefficient m' = direct_coefficient m;
  sf_x : offset_x m' = offset_x m /\ scale_x m' = scale_x m;
  sf_y : offset_y m' = offset_y m /\ scale_y m' = scale_y m;
  sf_alt : offset_alt m' = offset_alt m /\ scale_alt m' = scale_alt m;
  sf_col : offset_col m' = offset_col m /\ scale_col m' = scale_col m;
  sf_row : offset_row m' = offset_row m /\ scale_row m' = scale_row m;
  sf_epsg : rpc_epsg m' = 4326%Z;
  sf_inv_coef : inverse_coefficient m = true ->
    num_col m' = num_col m /\ den_col m' = den_col m /\ num_row m' = num_row m /\ den_row m' = den_row m /\
    List.length (num_col m) = 20%nat /\ List.length (den_col m) = 20%nat /\
    List.length (num_row m) = 20%nat /\ List.length (den_row m) = 20%nat;
  sf_dir_coef : direct_coefficient m = true ->
    num_x m' = num_x m /\ den_x m' = den_x m /\ num_y m' = num_y m /\ den_y m' = den_y m /\
    List.length (num_x m) = 20%nat /\ List.length (den_x m) = 20%nat /\
    List.length (num_y m) = 20%nat /\ List.length (den_y m) = 20%nat }.

Lemma rpc_of_params_flags p m : rpc_of_params p = Some m ->
  inverse_coefficient m = given (num_col m) /\ direct_coefficient m = given (num_x m).
Proof.
  unfold rpc_of_params. intros H.
  repeat match type of H with match ?x with _ => _ end = _ => destruct x; [|discriminate] end.
  injection H as <-. split; reflexivity.
Qed.

Ltac arrays H :=
  repeat match type of H with
  | match array20 ?l with _ => _ end = _ =>
      let E := fresh "E" in destruct (array20 l) eqn:E; [|discriminate]; apply array20_some in E; destruct E as [-> ?]
  end.

Lemma optim_same p m m' : rpc_of_params p = Some m -> optim_of_params p = Some m' -> same_fields m m'.
Proof.
  intros E H. destruct (rpc_of_params_flags p m E) as [EI ED]. unfold optim_of_params in H. rewrite E in H. cbv zeta in H.
  destruct (given (num_col m)) eqn:G1, (given (num_x m)) eqn:G2; cbn [andb] in H; try discriminate.
  - destruct (negb (all_zero (num_col m)) && negb (all_zero (num_x m))); [|discriminate].
    arrays H. injection H as <-.
    split; cbn [inverse_coefficient direct_coefficient offset_x scale_x offset_y scale_y offset_alt scale_alt offset_col
      scale_col offset_row scale_row rpc_epsg num_col den_col num_row den_row num_x den_x num_y den_y]; auto 10.
  - destruct (negb (all_zero (num_col m))); [|discriminate].
    arrays H. injection H as <-.
    split; cbn [inverse_coefficient direct_coefficient offset_x scale_x offset_y scale_y offset_alt scale_alt offset_col
      scale_col offset_row scale_row rpc_epsg num_col den_col num_row den_row num_x den_x num_y den_y]; auto 10.
    congruence.
  - destruct (negb (all_zero (num_x m))); [|discriminate].
    arrays H. injection H as <-.
    split; cbn [inverse_coefficient direct_coefficient offset_x scale_x offset_y scale_y offset_alt scale_alt offset_col
      scale_col offset_row scale_row rpc_epsg num_col den_col num_row den_row num_x den_x num_y den_y]; auto 10.
    congruence.
Qed.

Definition side_ok (a b c d : list R) : Prop :=
  List.length a = 20%nat /\ List.length b = 20%nat /\ List.length c = 20%nat /\ List.length d = 20%nat /\
  exists x, In x a /\ x <> 0.

Lemma optim_defined p m : rpc_of_params p = Some m ->
  ((exists m', optim_of_params p = Some m') <->
   (inverse_coefficient m = true \/ direct_coefficient m = true) /\
   (inverse_coefficient m = true -> side_ok (num_col m) (den_col m) (num_row m) (den_row m)) /\
   (direct_coefficient m = true -> side_ok (num_x m) (den_x m) (num_y m) (den_y m))).
Proof.
  intros E. destruct (rpc_of_params_flags p m E) as [EI ED]. rewrite EI, ED.
  unfold optim_of_params. rewrite E. cbv zeta.
  destruct (given (num_col m)) eqn:G1, (given (num_x m)) eqn:G2; cbn [andb].
  - split.
    + intros (m' & H). destruct (all_zero (num_col m)) eqn:Z1; [discriminate|].
      destruct (all_zero (num_x m)) eqn:Z2; [discriminate|]. cbn [negb andb] in H.
      arrays H. apply all_zero_iff in Z1. apply all_zero_iff in Z2.
      split; [auto|]. unfold side_ok. auto 12.
    + intros (_ & H1 & H2). specialize (H1 eq_refl). specialize (H2 eq_refl).
      destruct H1 as (? & ? & ? & ? & Z1), H2 as (? & ? & ? & ? & Z2).
      apply all_zero_iff in Z1. apply all_zero_iff in Z2. rewrite Z1, Z2. cbn [negb andb].
      rewrite !array20_ok by assumption. eauto.
  - split.
    + intros (m' & H). destruct (all_zero (num_col m)) eqn:Z1; [discriminate|]. cbn [negb] in H.
      arrays H. apply all_zero_iff in Z1. split; [auto|]. unfold side_ok. split; [auto 12|discriminate].
    + intros (_ & H1 & _). destruct (H1 eq_refl) as (? & ? & ? & ? & Z1). apply all_zero_iff in Z1. rewrite Z1. cbn [negb].
      rewrite !array20_ok by (assumption || reflexivity). eauto.
  - split.
    + intros (m' & H). destruct (all_zero (num_x m)) eqn:Z1; [discriminate|]. cbn [negb] in H.
      arrays H. apply all_zero_iff in Z1. split; [auto|]. unfold side_ok. split; [discriminate|auto 12].
    + intros (_ & _ & H1). destruct (H1 eq_refl) as (? & ? & ? & ? & Z1). apply all_zero_iff in Z1. rewrite Z1. cbn [negb].
      rewrite !array20_ok by (assumption || reflexivity). eauto.
  - split; [intros (m' & H); discriminate|]. intros ([H|H] & _); discriminate.
Qed.

(** ** Inverse localization *)
Lemma zip4_seq {B} (F : num -> num -> num -> option num -> option B) (R : list row3) : forall pre : list num,
  map (fun p => let '(x, y, a, i) := p in F x y a (nth_error (pre ++ map alt3 R)%list i))
      (zip4 (map lon3 R) (map lat3 R) (map alt3 R) (seq (List.length pre) (List.length R)))
  = map (fun r => F (lon3 r) (lat3 r) (alt3 r) (Some (alt3 r))) R.
Proof.
  induction R as [|r R IH]; intros pre; [reflexivity|].
  cbn [map List.length seq zip4]. f_equal.
  - rewrite nth_error_app2 by lia. now rewrite Nat.sub_diag.
  - specialize (IH (pre ++ [alt3 r])%list). rewrite app_length in IH. cbn [List.length] in IH.
    rewrite Nat.add_1_r, <- app_assoc in IH. exact IH.
Qed.

Lemma seq_opt_map_some {A B} (f : A -> option B) (g : A -> B) l : (forall x, In x l -> f x = Some (g x)) ->
  seq_opt (map f l) = Some (map g l).
Proof.
  induction l as [|x l IH]; intros H; [reflexivity|]. cbn [map seq_opt]. rewrite (H x) by now left.
  rewrite IH by (intros; apply H; now right). reflexivity.
Qed.
Lemma seq_opt_map_none {A B} (f : A -> option B) l x : In x l -> f x = None -> seq_opt (map f l) = None.
Proof.
  induction l as [|y l IH]; intros Hin H; [destruct Hin|]. cbn [map seq_opt].
  destruct Hin as [->|Hin]; [now rewrite H|]. rewrite IH by assumption. now destruct (f y).
Qed.

(** One point of the vector version of the binding, for the inverse localization. *)
Definition vec_pt (m : rpc) (r : row3) : option row3 :=
  cpp_rational_vec_point m (lon3 r) (lat3 r) (alt3 r) (Some (alt3 r))
    (num_col m) (den_col m) (num_row m) (den_row m) false false
    (scale_x m) (offset_x m) (scale_y m) (offset_y m) (scale_alt m) (offset_alt m)
    (scale_col m) (offset_col m) (scale_row m) (offset_row m).

Lemma cpp_inverse_vec_map m R : cpp_inverse_loc_vec m (map lon3 R) (map lat3 R) (map alt3 R)
  = match seq_opt (map (vec_pt m) R) with
    | Some l => Some (map (fun p => R3 (lat3 p) (lon3 p) (alt3 p)) l)
    | None => None
    end.
Proof.
  unfold cpp_inverse_loc_vec, check_sizes. rewrite !map_length, Nat.min_id.
  rewrite broadcast_same by apply map_length. rewrite !firstn_all2 by (rewrite map_length; lia).
  rewrite map_length.
  pose proof (zip4_seq (fun x y a i => cpp_rational_vec_point m x y a i (num_col m) (den_col m) (num_row m) (den_row m) false false
    (scale_x m) (offset_x m) (scale_y m) (offset_y m) (scale_alt m) (offset_alt m)
    (scale_col m) (offset_col m) (scale_row m) (offset_row m)) R []) as E.
  cbn [app List.length] in E. rewrite E. reflexivity.
Qed.

Lemma checked_cases r : checked r = nan3 \/
  exists x y z, r = R3 (Some x) (Some y) (Some z) /\ lonlat_ok x y /\ checked r = r.
Proof.
  unfold checked. destruct (lonlat_filtering r) eqn:E; [now left|]. right.
  apply filtering_spec in E. destruct E as (x & y & z & -> & H). exists x, y, z. split; [reflexivity|]. split; [exact H|reflexivity].
Qed.

Lemma normalise_zero o x : normalise o 0 x = None.
Proof.
  unfold normalise. destruct (nsub x (fin o)) as [v|]; [|reflexivity]. cbn. destruct (Req_EM_T 0 0); [reflexivity|contradiction].
Qed.
Lemma normalise_cases o s x : normalise o s (Some x) = None \/ (s <> 0 /\ normalise o s (Some x) = Some ((x - o) / s)).
Proof.
  destruct (Req_dec s 0) as [->|H]; [left; apply normalise_zero|right; split; [assumption|now apply normalise_some]].
Qed.

Lemma vec_pt_checked m r :
  List.length (num_col m) = 20%nat -> List.length (den_col m) = 20%nat ->
  List.length (num_row m) = 20%nat -> List.length (den_row m) = 20%nat ->
  (forall x y z, r = R3 (Some x) (Some y) (Some z) -> lonlat_ok x y -> regular_at m x y z) ->
  vec_pt m (checked r) = Some (R3 (lat3 (inv_pt m r)) (lon3 (inv_pt m r)) (alt3 (inv_pt m r))).
Proof.
  intros L1 L2 L3 L4 HR. unfold inv_pt. cbv zeta. cbn [lon3 lat3 alt3].
  destruct (checked_cases r) as [->|(x & y & z & -> & Hok & ->)].
  - reflexivity.
  - cbn [lon3 lat3 alt3]. unfold vec_pt, cpp_rational_vec_point. cbn [lon3 lat3 alt3 isnan orb].
    destruct (normalise_cases (offset_x m) (scale_x m) x) as [->|[Hx ->]].
    { destruct (normalise _ _ (Some y)), (normalise _ _ (Some z)); reflexivity. }
    destruct (normalise_cases (offset_y m) (scale_y m) y) as [->|[Hy ->]].
    { destruct (normalise _ _ (Some z)); reflexivity. }
    destruct (normalise_cases (offset_alt m) (scale_alt m) z) as [->|[Hz ->]]; [reflexivity|].
    destruct (HR x y z eq_refl Hok) as [H1 H2]. unfold nx, ny, nz in H1, H2.
    rewrite !cpp_poly_eq, !poly_cubic by assumption.
    destruct (Reqb_spec (cubic (den_col m) ((x - offset_x m) / scale_x m) ((y - offset_y m) / scale_y m)
      ((z - offset_alt m) / scale_alt m)) 0) as [E|E]; [contradiction|].
    destruct (Reqb_spec (cubic (den_row m) ((x - offset_x m) / scale_x m) ((y - offset_y m) / scale_y m)
      ((z - offset_alt m) / scale_alt m)) 0) as [E'|E']; [contradiction|].
    cbn [orb]. rewrite !cpp_rational_eq. reflexivity.
Qed.

Lemma vec_pt_irregular m x y z :
  List.length (den_col m) = 20%nat -> List.length (den_row m) = 20%nat ->
  scale_x m <> 0 -> scale_y m <> 0 -> scale_alt m <> 0 ->
  ~ regular_at m x y z -> vec_pt m (R3 (Some x) (Some y) (Some z)) = None.
Proof.
  intros L2 L4 Hx Hy Hz HR. unfold vec_pt, cpp_rational_vec_point. cbn [lon3 lat3 alt3 isnan orb].
  rewrite !normalise_some by assumption. rewrite !cpp_poly_eq, !poly_cubic by assumption.
  unfold regular_at, nx, ny, nz in HR.
  destruct (Reqb_spec (cubic (den_col m) ((x - offset_x m) / scale_x m) ((y - offset_y m) / scale_y m)
      ((z - offset_alt m) / scale_alt m)) 0) as [E|E]; [reflexivity|].
  destruct (Reqb_spec (cubic (den_row m) ((x - offset_x m) / scale_x m) ((y - offset_y m) / scale_y m)
      ((z - offset_alt m) / scale_alt m)) 0) as [E'|E']; [reflexivity|tauto].
Qed.

Lemma optim_inverse_rows m rows : 
  optim_inverse_loc m (map lon3 rows) (map lat3 rows) (map alt3 rows)
  = match seq_opt (map (fun r => vec_pt m (checked r)) rows) with
    | Some l => Some (map lat3 l, map lon3 l, map alt3 l)
    | None => None
    end.
Proof.
  unfold optim_inverse_loc. rewrite zip3_maps. cbv zeta. rewrite cpp_inverse_vec_map.
  unfold check_lonlat. fold checked. rewrite map_map.
  destruct (seq_opt _); [|reflexivity]. now rewrite !map_map.
Qed.

Lemma same_inv_pt m m' r : same_fields m m' -> inverse_coefficient m = true -> inv_pt m' r = inv_pt m r.
Proof.
  intros S Hi. destruct (sf_inv_coef _ _ S Hi) as (E1 & E2 & E3 & E4 & _).
  destruct (sf_x _ _ S) as [X1 X2], (sf_y _ _ S) as [Y1 Y2], (sf_alt _ _ S) as [A1 A2], (sf_col _ _ S) as [C1 C2], (sf_row _ _ S) as [W1 W2].
  unfold inv_pt. now rewrite E1, E2, E3, E4, X1, X2, Y1, Y2, A1, A2, C1, C2, W1, W2.
Qed.
Lemma same_regular m m' x y z : same_fields m m' -> inverse_coefficient m = true ->
  regular_at m' x y z <-> regular_at m x y z.
Proof.
  intros S Hi. destruct (sf_inv_coef _ _ S Hi) as (E1 & E2 & E3 & E4 & _).
  destruct (sf_x _ _ S) as [X1 X2], (sf_y _ _ S) as [Y1 Y2], (sf_alt _ _ S) as [A1 A2].
  unfold regular_at, nx, ny, nz. now rewrite E2, E4, X1, X2, Y1, Y2, A1, A2.
Qed.

(** ** Direct localization *)
Lemma zip4_pix (Q : list npixel) {D} (d : list D) : List.length d = List.length Q ->
  forall {B} (f : num * num * num * D -> B) g, (forall q x, f (n_row q, n_col q, n_alt q, x) = g q) ->
  map f (zip4 (map n_row Q) (map n_col Q) (map n_alt Q) d) = map g Q.
Proof.
  revert d. induction Q as [|q Q IH]; intros [|x d] HL B f g H; try discriminate; [reflexivity|].
  cbn [map zip4]. f_equal; [apply H|]. apply IH; [|assumption]. injection HL; auto.
Qed.

Definition cpp_pix (m : rpc) (fill : bool) (q : npixel) : row3 :=
  let '(lo, la, a) := cpp_direct_loc_inverse_iterative m (n_row q) (n_col q) (n_alt q) 10 fill in R3 lo la a.

Lemma cpp_direct_h_rows m Q fill : inverse_coefficient m = true ->
  cpp_direct_loc_h_vec m (map n_row Q) (map n_col Q) (map n_alt Q) fill false = Some (map (cpp_pix m fill) Q).
Proof.
  intros Hi. unfold cpp_direct_loc_h_vec. rewrite Hi. cbn [negb andb].
  unfold cpp_direct_loc_inverse_iterative_vec, check_sizes. rewrite !map_length, Nat.min_id.
  rewrite broadcast_same by apply map_length. rewrite !firstn_all2 by (rewrite map_length; lia).
  f_equal. apply zip4_pix; [apply map_length|]. reflexivity.
Qed.
Lemma optim_direct_h_rows m Q fill : inverse_coefficient m = true ->
  optim_direct_loc_h m (map n_row Q) (map n_col Q) (map n_alt Q) fill false
  = Some (map (fun q => checked (cpp_pix m fill q)) Q).
Proof.
  intros Hi. unfold optim_direct_loc_h. rewrite broadcast_same by now rewrite !map_length.
  rewrite cpp_direct_h_rows by assumption. unfold check_lonlat. fold checked. now rewrite map_map.
Qed.

Lemma cpp_pix_run m fill row col alt lon lat : usable_inverse m ->
  newton_run (fun _ _ => True) m row col alt 10 (offset_x m) (offset_y m) lon lat ->
  cpp_pix m fill (NPix (Some row) (Some col) (Some alt)) = R3 (Some lon) (Some lat) (Some alt).
Proof. intros Hu H. unfold cpp_pix. cbn [n_row n_col n_alt]. now rewrite (cpp_iterative_run _ _ _ _ _ _ _ _ Hu H). Qed.
Lemma cpp_pix_nan m fill q : okpix q = false ->
  cpp_pix m fill q = R3 (fst (centre m fill)) (snd (centre m fill)) (n_alt q).
Proof.
  unfold okpix. intros H. apply negb_false_iff in H. unfold cpp_pix, cpp_direct_loc_inverse_iterative. rewrite H.
  now destruct fill.
Qed.

Lemma gather_filter_nth {A B} (f : A -> bool) (P : A -> B -> Prop) Q : forall out,
  (forall i q, nth_error Q i = Some q -> f q = true -> exists r, nth_error out i = Some r /\ P q r) ->
  forall j q, nth_error (filter f Q) j = Some q -> exists r, nth_error (gather (map f Q) out) j = Some r /\ P q r.
Proof.
  induction Q as [|x Q IH]; intros out H j q Hj; [destruct j; discriminate|].
  destruct out as [|o out].
  - exfalso. destruct (f x) eqn:E.
    + destruct (H 0%nat x eq_refl E) as (r & Hr & _). discriminate.
    + cbn [filter] in Hj. rewrite E in Hj. 
      assert (HH : forall i q, nth_error Q i = Some q -> f q = true -> exists r, nth_error (@nil B) i = Some r /\ P q r).
      { intros i q' Hi Hq'. destruct (H (S i) q' Hi Hq') as (r & Hr & _). discriminate. }
      destruct (IH [] HH j q Hj) as (r & Hr & _).
      assert (EG : gather (map f Q) (@nil B) = []) by (destruct Q as [|y Q]; cbn; [reflexivity|now destruct (f y)]).
      rewrite EG in Hr. destruct j; discriminate.
  - assert (HH : forall i q, nth_error Q i = Some q -> f q = true -> exists r, nth_error out i = Some r /\ P q r).
    { intros i q' Hi Hq'. exact (H (S i) q' Hi Hq'). }
    cbn [filter map gather] in *. destruct (f x) eqn:E.
    + destruct j as [|j].
      * cbn in Hj. injection Hj as <-. exact (H 0%nat x eq_refl E).
      * cbn [nth_error] in *. now apply IH.
    + now apply IH.
Qed.

Lemma scatter_true {A B} (l : list B) (c v : list A) : List.length c = List.length l -> List.length v = List.length l ->
  scatter (map (fun _ => true) l) c v = v.
Proof.
  revert c v. induction l as [|x l IH]; intros [|y c] [|z v] H1 H2; try discriminate; [reflexivity|].
  cbn [map scatter]. cbn [List.length] in *. f_equal. apply IH; lia.
Qed.
Lemma filter_idem {A} (f : A -> bool) l : filter f (filter f l) = filter f l.
Proof.
  induction l as [|x l IH]; [reflexivity|]. cbn [filter]. destruct (f x) eqn:E; [|exact IH]. cbn [filter]. now rewrite E, IH.
Qed.
Lemma map_filter_true {A} (f : A -> bool) l : map f (filter f l) = map (fun _ => true) (filter f l).
Proof. apply map_ext_in. intros x H. now apply filter_In in H. Qed.

Lemma cons_inj {A} (x y : A) l k : x :: l = y :: k -> x = y /\ l = k.
Proof. intros H. injection H; auto. Qed.

(** The rows of a batch whose usable pixels follow Newton's method. *)
Lemma rows_agree m fill alt : usable_inverse m -> forall Q (L : list located) rows,
  map (fun p => NPix (Some (l_row p)) (Some (l_col p)) (Some alt)) L = filter okpix Q ->
  Forall (fun p => newton_run lonlat_ok m (l_row p) (l_col p) alt 10 (offset_x m) (offset_y m) (l_lon p) (l_lat p)) L ->
  map lon3 rows = scatter (map okpix Q) (map (fun _ => fst (centre m fill)) Q) (map (fun p => Some (l_lon p)) L) ->
  map lat3 rows = scatter (map okpix Q) (map (fun _ => snd (centre m fill)) Q) (map (fun p => Some (l_lat p)) L) ->
  map alt3 rows = map n_alt Q ->
  rows = map (cpp_pix m fill) Q.
Proof.
  intros Hu. induction Q as [|q Q IH]; intros L rows EL HF E1 E2 E3.
  - destruct rows; [reflexivity|discriminate].
  - destruct rows as [|r rows]; [discriminate|]. cbn [map filter] in *. apply cons_inj in E3. destruct E3 as [E3 E3'].
    destruct (okpix q) eqn:EO.
    + destruct L as [|p L]; [discriminate|]. cbn [map scatter] in *.
      pose proof (Forall_inv HF) as Hp. pose proof (Forall_inv_tail HF) as HF'. cbv beta in Hp.
      apply cons_inj in EL, E1, E2. destruct EL as [EL EL'], E1 as [E1 E1'], E2 as [E2 E2']. f_equal.
      * subst q. rewrite (cpp_pix_run _ _ _ _ _ _ _ Hu (run_weaken _ (fun _ _ => True) _ _ _ _ _ _ _ _ _ (fun _ _ _ => I) Hp)).
        destruct r as [x y z]. cbn [lon3 lat3 alt3 n_alt] in *. congruence.
      * eapply IH; eauto.
    + cbn [scatter] in *. apply cons_inj in E1, E2. destruct E1 as [E1 E1'], E2 as [E2 E2']. f_equal.
      * rewrite cpp_pix_nan by assumption. destruct r as [x y z]. cbn [lon3 lat3 alt3] in *. congruence.
      * eapply IH; eauto.
Qed.

Lemma same_usable m m' : same_fields m m' -> usable_inverse m -> usable_inverse m'.
Proof.
  intros S (Hi & _ & _ & _ & _ & Hx & Hy & Hz). destruct (sf_inv_coef _ _ S Hi) as (E1 & E2 & E3 & E4 & L).
  destruct (sf_x _ _ S) as [X1 X2], (sf_y _ _ S) as [Y1 Y2], (sf_alt _ _ S) as [A1 A2].
  unfold usable_inverse. rewrite (sf_inv _ _ S), E1, E2, E3, E4, X2, Y2, A2. tauto.
Qed.
Lemma same_cpp_pix m m' fill q : same_fields m m' -> inverse_coefficient m = true -> cpp_pix m' fill q = cpp_pix m fill q.
Proof.
  intros S Hi. destruct (sf_inv_coef _ _ S Hi) as (E1 & E2 & E3 & E4 & _).
  destruct (sf_x _ _ S) as [X1 X2], (sf_y _ _ S) as [Y1 Y2], (sf_alt _ _ S) as [A1 A2], (sf_col _ _ S) as [C1 C2], (sf_row _ _ S) as [W1 W2].
  assert (HI : forall lo la a, cpp_inverse_loc m' lo la a = cpp_inverse_loc m lo la a).
  { intros. unfold cpp_inverse_loc, cpp_rational_unitary.
    now rewrite E1, E2, E3, E4, X1, X2, Y1, Y2, A1, A2, C1, C2, W1, W2. }
  assert (HD : forall lo la a, cpp_compute_loc_inverse_derivates m' lo la a = cpp_compute_loc_inverse_derivates m lo la a).
  { intros. unfold cpp_compute_loc_inverse_derivates. now rewrite E1, E2, E3, E4, X1, X2, Y1, Y2, A1, A2, C2, W2. }
  assert (HN : forall n row col alt lon lat dc dr, cpp_newton_loop m' row col alt n lon lat dc dr = cpp_newton_loop m row col alt n lon lat dc dr).
  { induction n as [|n IH]; intros; cbn [cpp_newton_loop]; [reflexivity|]. rewrite HD.
    destruct (newton_update _ _ _ _ _) as [lo la]. rewrite HI. destruct (cpp_inverse_loc m lo la alt) as [[re ce] ?].
    now rewrite IH. }
  unfold cpp_pix, cpp_direct_loc_inverse_iterative. rewrite X1, Y1, HI.
  destruct (isnan _ || isnan _); [reflexivity|].
  destruct (cpp_inverse_loc m _ _ _) as [[re ce] ?]. now rewrite HN.
Qed.

(** ** Direct coefficients *)
Lemma scatter_filter {A B} (f : A -> bool) (c : B) (g : A -> B) Q :
  scatter (map f Q) (map (fun _ => c) Q) (map g (filter f Q)) = map (fun q => if f q then g q else c) Q.
Proof.
  induction Q as [|q Q IH]; [reflexivity|]. cbn [map filter]. destruct (f q); cbn [map scatter]; now rewrite IH.
Qed.
Lemma zip3_map_maps {A} (f g h : A -> num) l : zip3 (map f l) (map g l) (map h l) = Some (map (fun x => R3 (f x) (g x) (h x)) l).
Proof. induction l as [|x l IH]; [reflexivity|]. cbn [map zip3]. now rewrite IH. Qed.

(** Ground position of one pixel with the direct coefficients. *)
Definition dir_lon (m : rpc) (q : npixel) : num :=
  rational (normalise (offset_col m) (scale_col m) (n_col q)) (normalise (offset_row m) (scale_row m) (n_row q))
    (normalise (offset_alt m) (scale_alt m) (n_alt q)) (num_x m) (den_x m) (scale_x m) (offset_x m).
Definition dir_lat (m : rpc) (q : npixel) : num :=
  rational (normalise (offset_col m) (scale_col m) (n_col q)) (normalise (offset_row m) (scale_row m) (n_row q))
    (normalise (offset_alt m) (scale_alt m) (n_alt q)) (num_y m) (den_y m) (scale_y m) (offset_y m).
Definition dir_pix (m : rpc) (fill : bool) (q : npixel) : row3 :=
  R3 (if okpix q then dir_lon m q else fst (centre m fill)) (if okpix q then dir_lat m q else snd (centre m fill)) (n_alt q).

Lemma direct_h_direct_rows m Q fill : direct_coefficient m = true ->
  direct_loc_h m (map n_row Q) (map n_col Q) (map n_alt Q) fill true = Some (map (fun q => checked (dir_pix m fill q)) Q).
Proof.
  intros Hd. rewrite direct_loc_h_core. unfold usable_core. rewrite Hd. cbn [negb andb]. rewrite !map_map, rational_loop_map.
  change (fun p => rational (normalise (offset_col m) (scale_col m) (n_col p)) (normalise (offset_row m) (scale_row m) (n_row p))
    (normalise (offset_alt m) (scale_alt m) (n_alt p)) (num_x m) (den_x m) (scale_x m) (offset_x m)) with (dir_lon m).
  change (fun p => rational (normalise (offset_col m) (scale_col m) (n_col p)) (normalise (offset_row m) (scale_row m) (n_row p))
    (normalise (offset_alt m) (scale_alt m) (n_alt p)) (num_y m) (den_y m) (scale_y m) (offset_y m)) with (dir_lat m).
  rewrite !scatter_filter, zip3_map_maps. unfold check_lonlat. fold checked. now rewrite map_map.
Qed.

Definition vecd_pt (m : rpc) (fill : bool) (r : row3) : option row3 :=
  cpp_rational_vec_point m (lon3 r) (lat3 r) (alt3 r) (Some (alt3 r))
    (num_x m) (den_x m) (num_y m) (den_y m) fill true
    (scale_col m) (offset_col m) (scale_row m) (offset_row m) (scale_alt m) (offset_alt m)
    (scale_x m) (offset_x m) (scale_y m) (offset_y m).

Lemma optim_direct_direct_rows m Q fill : direct_coefficient m = true ->
  optim_direct_loc_h m (map n_row Q) (map n_col Q) (map n_alt Q) fill true
  = match seq_opt (map (fun q => vecd_pt m fill (R3 (n_col q) (n_row q) (n_alt q))) Q) with
    | Some l => Some (check_lonlat l)
    | None => None
    end.
Proof.
  intros Hd. unfold optim_direct_loc_h. rewrite broadcast_same by now rewrite !map_length.
  unfold cpp_direct_loc_h_vec. rewrite Hd. cbn [negb andb].
  unfold check_sizes. rewrite !map_length, Nat.min_id.
  rewrite broadcast_same by apply map_length. rewrite !firstn_all2 by (rewrite map_length; lia). rewrite map_length.
  set (R := map (fun q => R3 (n_col q) (n_row q) (n_alt q)) Q).
  assert (E1 : map n_col Q = map lon3 R) by (unfold R; now rewrite map_map).
  assert (E2 : map n_row Q = map lat3 R) by (unfold R; now rewrite map_map).
  assert (E3 : map n_alt Q = map alt3 R) by (unfold R; now rewrite map_map).
  assert (E4 : List.length Q = List.length R) by (unfold R; now rewrite map_length).
  rewrite E1, E2, E3, E4.
  pose proof (zip4_seq (fun x y a i => cpp_rational_vec_point m x y a i (num_x m) (den_x m) (num_y m) (den_y m) fill true
    (scale_col m) (offset_col m) (scale_row m) (offset_row m) (scale_alt m) (offset_alt m)
    (scale_x m) (offset_x m) (scale_y m) (offset_y m)) R []) as E.
  cbn [app List.length] in E. rewrite E. unfold R. now rewrite map_map.
Qed.

Lemma vecd_pt_value m fill q :
  List.length (den_x m) = 20%nat -> List.length (den_y m) = 20%nat ->
  (forall row col alt, q = NPix (Some row) (Some col) (Some alt) ->
     let c := (col - offset_col m) / scale_col m in let r := (row - offset_row m) / scale_row m in
     let h := (alt - offset_alt m) / scale_alt m in cubic (den_x m) c r h <> 0 /\ cubic (den_y m) c r h <> 0) ->
  exists p, vecd_pt m fill (R3 (n_col q) (n_row q) (n_alt q)) = Some p /\ checked p = checked (dir_pix m fill q).
Proof.
  intros L1 L2 HR. unfold vecd_pt, cpp_rational_vec_point, dir_pix, okpix. cbn [lon3 lat3 alt3].
  destruct q as [row col alt]. cbn [n_row n_col n_alt] in *. unfold dir_lon, dir_lat. cbn [n_row n_col n_alt].
  destruct row as [row|], col as [col|]; cbn [isnan orb negb];
    try (destruct fill; eexists; (split; [reflexivity|reflexivity])).
  destruct (normalise_cases (offset_col m) (scale_col m) col) as [->|[Hx ->]].
  { eexists. split; [destruct (normalise (offset_row m) (scale_row m) (Some row)), (normalise (offset_alt m) (scale_alt m) alt); reflexivity|reflexivity]. }
  destruct (normalise_cases (offset_row m) (scale_row m) row) as [->|[Hy ->]].
  { eexists. split; [destruct (normalise (offset_alt m) (scale_alt m) alt); reflexivity|reflexivity]. }
  destruct alt as [alt|]; [|eexists; split; reflexivity].
  destruct (normalise_cases (offset_alt m) (scale_alt m) alt) as [->|[Hz ->]]; [eexists; split; reflexivity|].
  destruct (HR row col alt eq_refl) as [H1 H2].
  rewrite !cpp_poly_eq, !poly_cubic by assumption.
  destruct (Reqb_spec (cubic (den_x m) ((col - offset_col m) / scale_col m) ((row - offset_row m) / scale_row m)
      ((alt - offset_alt m) / scale_alt m)) 0) as [E|E]; [contradiction|].
  destruct (Reqb_spec (cubic (den_y m) ((col - offset_col m) / scale_col m) ((row - offset_row m) / scale_row m)
      ((alt - offset_alt m) / scale_alt m)) 0) as [E'|E']; [contradiction|].
  cbn [orb]. rewrite !cpp_rational_eq. eexists; split; reflexivity.
Qed.

Lemma direct_rows_agree m Q fill : direct_coefficient m = true ->
  (forall q, In q Q -> exists p, vecd_pt m fill (R3 (n_col q) (n_row q) (n_alt q)) = Some p /\ checked p = checked (dir_pix m fill q)) ->
  optim_direct_loc_h m (map n_row Q) (map n_col Q) (map n_alt Q) fill true
  = Some (map (fun q => checked (dir_pix m fill q)) Q).
Proof.
  intros Hd H. rewrite optim_direct_direct_rows by assumption.
  assert (exists l, seq_opt (map (fun q => vecd_pt m fill (R3 (n_col q) (n_row q) (n_alt q))) Q) = Some l /\
     map checked l = map (fun q => checked (dir_pix m fill q)) Q) as (l & -> & E).
  { induction Q as [|q Q IH]; [exists []; split; reflexivity|].
    destruct (H q (or_introl eq_refl)) as (p & Ep & Ec). destruct IH as (l & El & Em); [intros; apply H; now right|].
    exists (p :: l). cbn [map seq_opt]. rewrite Ep, El. split; [reflexivity|]. now rewrite Ec, Em. }
  unfold check_lonlat. fold checked. now rewrite E.
Qed.
Lemma same_dir_pix m m' fill q : same_fields m m' -> direct_coefficient m = true -> dir_pix m' fill q = dir_pix m fill q.
Proof.
  intros S Hd. destruct (sf_dir_coef _ _ S Hd) as (E1 & E2 & E3 & E4 & _).
  destruct (sf_x _ _ S) as [X1 X2], (sf_y _ _ S) as [Y1 Y2], (sf_alt _ _ S) as [A1 A2], (sf_col _ _ S) as [C1 C2], (sf_row _ _ S) as [W1 W2].
  unfold dir_pix, dir_lon, dir_lat, centre. now rewrite E1, E2, E3, E4, X1, X2, Y1, Y2, A1, A2, C1, C2, W1, W2.
Qed.
