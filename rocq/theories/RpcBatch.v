(** Residues at the end of the batch loop; NaN pixels; lines of sight. *)
From Coq Require Import Reals ZArith List Bool Arith Lra Lia Permutation.
From Verif Require Import Num NumLemmas ProjModel ProjSpec PropertiesProj RpcModel CppRpcModel RpcSpec RpcProofs RpcNewton RpcDeriv RpcRun.
Import ListNotations.
Open Scope R_scope.

(** ** C10 *)
Definition fresh (m : rpc) (p : pt) : Prop :=
  p_dc p = nsub (p_col p) (lat3 (inv_pt m (R3 (p_lon p) (p_lat p) (p_alt p)))) /\
  p_dr p = nsub (p_row p) (lon3 (inv_pt m (R3 (p_lon p) (p_lat p) (p_alt p)))).

Lemma iter_fresh m p k : Nat.iter k (step m) p = p \/ fresh m (Nat.iter k (step m) p).
Proof.
  induction k as [|k IH]; [now left|]. simpl. unfold step at 1 3.
  destruct (active (Nat.iter k (step m) p)); [right; split; reflexivity|assumption].
Qed.

Lemma iter_keeps m p k : p_row (Nat.iter k (step m) p) = p_row p /\
  p_col (Nat.iter k (step m) p) = p_col p /\ p_alt (Nat.iter k (step m) p) = p_alt p.
Proof.
  induction k as [|k IH]; [auto|]. simpl. now rewrite step_row, step_col, step_alt.
Qed.

Definition pix_inp (q : pixel) : inp := Inp (x_row q) (x_col q) (Some (x_alt q)).

Lemma nth_error_map_inv {A B} (f : A -> B) l i b : nth_error (map f l) i = Some b ->
  exists a, nth_error l i = Some a /\ b = f a.
Proof.
  intros H. rewrite nth_error_map in H. destruct (nth_error l i) as [a|]; [|discriminate].
  injection H as <-. eauto.
Qed.

Lemma iterative_count m q Q n fill lons lats alts k : inverse_coefficient m = true ->
  direct_loc_inverse_iterative m (map (fun p => Some (x_row p)) (q :: Q))
    (map (fun p => Some (x_col p)) (q :: Q)) (map (fun p => Some (x_alt p)) (q :: Q)) n fill
  = Some (lons, lats, alts, k) ->
  exists L0 L', batch_loop m n L0 = (L', k) /\ lons = map p_lon L' /\ lats = map p_lat L' /\
   L0 = map (fun p => init_pt m (lon3 (inv_pt m (R3 (fin (offset_x m)) (fin (offset_y m)) (Some (x_alt q)))))
                (lat3 (inv_pt m (R3 (fin (offset_x m)) (fin (offset_y m)) (Some (x_alt q))))) (pix_inp p)) (q :: Q).
Proof.
  intros Hi H.
  pose proof (iterative_batch m (pix_inp q) (map pix_inp Q) n fill Hi) as HB. cbv zeta in HB.
  change (pix_inp q :: map pix_inp Q) with (map pix_inp (q :: Q)) in HB.
  change (i_alt (pix_inp q)) with (Some (x_alt q)) in HB.
  rewrite !map_map in HB. cbn [i_row i_col i_alt pix_inp] in HB.
  pose proof (eq_trans (eq_sym H) HB) as E. injection E as E1 E2 E3 E4.
  match type of E1 with _ = map p_lon (fst (batch_loop m n ?P)) =>
    exists P, (fst (batch_loop m n P)) end.
  split; [subst k; apply surjective_pairing|]. auto.
Qed.

Lemma iterative_residue m q0 Q0 n fill lons lats alts k : usable_inverse m ->
  let Q := q0 :: Q0 in
  lonlat_ok (offset_x m) (offset_y m) -> regular_at m (offset_x m) (offset_y m) (x_alt q0) ->
  direct_loc_inverse_iterative m (map (fun p => Some (x_row p)) Q)
    (map (fun p => Some (x_col p)) Q) (map (fun p => Some (x_alt p)) Q) n fill
  = Some (lons, lats, alts, k) ->
  (k <= n)%nat /\
  ((k < n)%nat -> all_located m Q lons lats ->
   forall i q lon lat, nth_error Q i = Some q ->
     nth_error lons i = Some (Some lon) -> nth_error lats i = Some (Some lat) ->
     reprojects m (x_row q) (x_col q) lon lat (x_alt q) \/
     (lon = offset_x m /\ lat = offset_y m /\
      reprojects m (x_row q) (x_col q) lon lat (x_alt q0))).
Proof.
  intros Hu Q Hc Hr H.
  destruct (iterative_count _ _ _ _ _ _ _ _ _ (proj1 Hu) H) as (L0 & L' & HB & -> & -> & EL0).
  fold Q in EL0. unfold fin in EL0. rewrite inv_pt_finite in EL0 by assumption. cbn [lon3 lat3] in EL0.
  destruct (batch_loop_iter _ _ _ _ _ HB) as (Hk & EL & Hcond).
  split; [exact Hk|]. intros Hlt Hall i q lon lat Hq Hlon Hlat. specialize (Hcond Hlt).
  assert (Hpt : forall j p, nth_error Q j = Some p -> exists t,
     nth_error L' j = Some t /\ t = Nat.iter k (step m)
       (init_pt m (Some (row_of m (offset_x m) (offset_y m) (x_alt q0)))
          (Some (col_of m (offset_x m) (offset_y m) (x_alt q0))) (pix_inp p))).
  { intros j p Hp. eexists. split; [|reflexivity]. rewrite EL, EL0, map_map.
    now apply map_nth_error with (d := p). }
  (* the residues at the end *)
  assert (Hres : forall j p t lo la, nth_error Q j = Some p -> nth_error L' j = Some t ->
     p_lon t = Some lo -> p_lat t = Some la -> lonlat_ok lo la -> regular_at m lo la (x_alt p) ->
     (p_dc t = Some (x_col p - col_of m lo la (x_alt p)) /\
      p_dr t = Some (x_row p - row_of m lo la (x_alt p))) \/
     (lo = offset_x m /\ la = offset_y m /\
      p_dc t = Some (x_col p - col_of m lo la (x_alt q0)) /\
      p_dr t = Some (x_row p - row_of m lo la (x_alt q0)))).
  { intros j p t lo la Hp Ht Hlo Hla Hok Hreg.
    destruct (Hpt j p Hp) as (t' & Ht' & E). assert (ET : t' = t) by congruence.
    rewrite ET in E. clear ET Ht'.
    set (p0 := init_pt m _ _ _) in E.
    destruct (iter_keeps m p0 k) as (K1 & K2 & K3). destruct (iter_fresh m p0 k) as [F|[F1 F2]].
    - right. rewrite F in E. subst t. unfold p0 in Hlo, Hla. cbn in Hlo, Hla.
      injection Hlo as <-. injection Hla as <-. repeat split; reflexivity.
    - left. rewrite <- E in F1, F2, K1, K2, K3. rewrite K1, K2, K3, Hlo, Hla in *.
      unfold p0 in F1, F2. cbn [p_alt p_col p_row init_pt pix_inp i_alt i_row i_col] in F1, F2.
      rewrite inv_pt_finite in F1, F2 by assumption. split; assumption. }
  assert (Hnn : forall t, In t L' -> no_nan_res t).
  { intros t Ht. apply In_nth_error in Ht. destruct Ht as [j Hj].
    assert (exists p, nth_error Q j = Some p) as [p Hp].
    { rewrite EL, EL0, map_map in Hj. apply nth_error_map_inv in Hj. destruct Hj as (p & Hp & _). eauto. }
    destruct (Hall j p Hp) as (lo & la & Hlo & Hla & Hok & Hreg).
    rewrite nth_error_map, Hj in Hlo, Hla. simpl in Hlo, Hla. injection Hlo as Hlo. injection Hla as Hla.
    destruct (Hres j p t lo la Hp Hj Hlo Hla Hok Hreg) as [(E1 & E2)|(_ & _ & E1 & E2)];
      split; now rewrite ?E1, ?E2. }
  destruct (Hpt i q Hq) as (t & Ht & _).
  destruct (Hall i q Hq) as (lo & la & Hlo & Hla & Hok & Hreg).
  assert (lo = lon) by congruence. assert (la = lat) by congruence. subst lo la.
  rewrite nth_error_map, Ht in Hlo, Hla. simpl in Hlo, Hla. injection Hlo as Hlo. injection Hla as Hla.
  assert (Ha : active t = false).
  { eapply batch_cond_false_inactive; eauto. now apply nth_error_In with (n := i). }
  unfold active in Ha. apply orb_false_iff in Ha. destruct Ha as [Ha1 Ha2].
  destruct (Hres i q t lon lat Hq Ht Hlo Hla Hok Hreg) as [(E1 & E2)|(El & Ea & E1 & E2)];
    rewrite E1 in Ha1; rewrite E2 in Ha2; unfold reprojects.
  - left. split; apply Rnot_lt_le; intros HH;
      [rewrite (proj2 (ngtb_eps _)) in Ha1|rewrite (proj2 (ngtb_eps _)) in Ha2]; try discriminate; lra.
  - right. split; [assumption|]. split; [assumption|].
    split; apply Rnot_lt_le; intros HH;
      [rewrite (proj2 (ngtb_eps _)) in Ha1|rewrite (proj2 (ngtb_eps _)) in Ha2]; try discriminate; lra.
Qed.

(** ** C12 *)
Definition okpix (p : npixel) : bool := negb (isnan (n_row p) || isnan (n_col p)).
Definition to_inp (p : npixel) : inp :=
  Inp (match n_row p with Some r => r | None => 0 end) (match n_col p with Some r => r | None => 0 end)
      (n_alt p).

Lemma gather_scatter {A} (mask : list bool) (a vals : list A) :
  length mask = length a -> length vals = length (gather mask a) ->
  gather mask (scatter mask a vals) = vals.
Proof.
  revert a vals. induction mask as [|[] mask IH]; intros [|x a] vals H1 H2; try discriminate.
  - simpl in *. destruct vals; [reflexivity|discriminate].
  - simpl in *. destruct vals as [|v vals]; [discriminate|]. simpl. rewrite IH; [reflexivity|lia|].
    simpl in H2. lia.
  - simpl in *. apply IH; [lia|assumption].
Qed.

Lemma scatter_length {A} mask (a vals : list A) : length (scatter mask a vals) = length a.
Proof.
  revert a vals. induction mask as [|[] mask IH]; intros [|x a] vals; try reflexivity.
  - simpl. destruct vals; simpl; now rewrite IH.
  - simpl. now rewrite IH.
Qed.

Lemma scatter_nth_false {A} mask (a vals : list A) i :
  nth_error mask i = Some false -> nth_error (scatter mask a vals) i = nth_error a i.
Proof.
  revert a vals i. induction mask as [|[] mask IH]; intros [|x a] vals [|i] H; simpl in *;
    try discriminate; try reflexivity.
  - destruct vals; simpl; now apply IH.
  - now apply IH.
Qed.

Lemma gather_zip3 mask a b c r : zip3 a b c = Some r ->
  zip3 (gather mask a) (gather mask b) (gather mask c) = Some (gather mask r).
Proof.
  revert a b c r. induction mask as [|bb mask IH]; intros a b c r H.
  - destruct a, b, c; simpl in H; try discriminate; reflexivity.
  - destruct a as [|x a], b as [|y b], c as [|z c]; simpl in H; try discriminate.
    + injection H as <-. destruct bb; reflexivity.
    + destruct (zip3 a b c) eqn:E; [|discriminate]. injection H as <-.
      destruct bb; simpl; rewrite (IH _ _ _ _ E); reflexivity.
Qed.

Lemma gather_map' {A B} mask (f : A -> B) l : gather mask (map f l) = map f (gather mask l).
Proof.
  revert l. induction mask as [|[] mask IH]; intros [|x l]; simpl; try reflexivity; now rewrite IH.
Qed.

Lemma filter_finite_rows Q : map n_row (filter okpix Q) = map (fun p => Some (i_row p)) (map to_inp (filter okpix Q)).
Proof.
  rewrite map_map. apply map_ext_in. intros p Hp. apply filter_In in Hp. destruct Hp as [_ Hp].
  unfold okpix in Hp. unfold to_inp; simpl. destruct (n_row p); [reflexivity|discriminate].
Qed.
Lemma filter_finite_cols Q : map n_col (filter okpix Q) = map (fun p => Some (i_col p)) (map to_inp (filter okpix Q)).
Proof.
  rewrite map_map. apply map_ext_in. intros p Hp. apply filter_In in Hp. destruct Hp as [_ Hp].
  unfold okpix in Hp. unfold to_inp; simpl. destruct (n_col p); [reflexivity|].
  destruct (n_row p); discriminate.
Qed.
Lemma filter_alts Q : map n_alt (filter okpix Q) = map i_alt (map to_inp (filter okpix Q)).
Proof. now rewrite map_map. Qed.

(** The part of [direct_loc_h] that localizes the usable pixels. *)
Definition usable_core (m : rpc) (F : list npixel) (fill direct : bool) : option (list num * list num) :=
  if negb direct && inverse_coefficient m then
    match direct_loc_inverse_iterative m (map n_row F) (map n_col F) (map n_alt F) 10 fill with
    | Some (lon, lat, _, _) => Some (lon, lat)
    | None => None
    end
  else if direct && direct_coefficient m then
    match compute_rational_function_polynomial
            (map (normalise (offset_col m) (scale_col m)) (map n_col F))
            (map (normalise (offset_row m) (scale_row m)) (map n_row F))
            (map (normalise (offset_alt m) (scale_alt m)) (map n_alt F))
            (num_x m) (den_x m) (num_y m) (den_y m)
            (scale_x m) (offset_x m) (scale_y m) (offset_y m) with
    | Some (lat, lon) => Some (lon, lat)
    | None => None
    end
  else None.

Lemma core_length m Q fill direct lon lat : usable_core m (filter okpix Q) fill direct = Some (lon, lat) ->
  length lon = length (filter okpix Q) /\ length lat = length (filter okpix Q).
Proof.
  unfold usable_core. destruct (negb direct && inverse_coefficient m) eqn:E.
  - apply andb_true_iff in E. destruct E as [_ E].
    rewrite filter_finite_rows, filter_finite_cols, filter_alts.
    rewrite <- (map_length to_inp (filter okpix Q)).
    generalize (map to_inp (filter okpix Q)). intros [|p P].
    + unfold direct_loc_inverse_iterative. rewrite E. simpl. intros H. injection H as <- <-. auto.
    + rewrite iterative_batch by assumption. cbv zeta.
      match goal with |- context [batch_loop ?a ?b ?c] => destruct (batch_loop a b c) as [L' k] eqn:EB end.
      cbn [fst snd]. intros H. injection H as <- <-. rewrite !map_length. apply batch_loop_iter in EB.
      destruct EB as (_ & -> & _). now rewrite !map_length.
  - destruct (direct && direct_coefficient m); [|discriminate]. rewrite !map_map, rational_loop_map.
    intros H. injection H as <- <-. now rewrite !map_length.
Qed.

Definition centre (m : rpc) (fill : bool) : num * num :=
  if fill then (fin (offset_x m), fin (offset_y m)) else (nan, nan).

Lemma direct_loc_h_core m Q fill direct :
  direct_loc_h m (map n_row Q) (map n_col Q) (map n_alt Q) fill direct
  = match usable_core m (filter okpix Q) fill direct with
    | None => None
    | Some (lon, lat) =>
        match zip3 (scatter (map okpix Q) (map (fun _ => fst (centre m fill)) Q) lon)
                   (scatter (map okpix Q) (map (fun _ => snd (centre m fill)) Q) lat) (map n_alt Q) with
        | Some rows => Some (check_lonlat rows)
        | None => None
        end
    end.
Proof.
  unfold direct_loc_h, usable_core. rewrite (map_length n_row), (map_length n_col), Nat.eqb_refl. cbn [negb]. rewrite broadcast_same by now rewrite !map_length.
  unfold filter_coordinates. rewrite map2_map, map_length, !repeat_map.
  change (fun p : npixel => negb (isnan (n_row p) || isnan (n_col p))) with okpix.
  rewrite !gather_map.
  replace (if fill then fin (offset_x m) else nan) with (fst (centre m fill)) by (now destruct fill).
  replace (if fill then fin (offset_y m) else nan) with (snd (centre m fill)) by (now destruct fill).
  destruct (negb direct && inverse_coefficient m).
  - destruct (direct_loc_inverse_iterative _ _ _ _ _ _) as [[[[? ?] ?] ?]|]; reflexivity.
  - destruct (direct && direct_coefficient m); [|reflexivity].
    destruct (compute_rational_function_polynomial _ _ _ _ _ _ _ _ _ _ _) as [[? ?]|]; reflexivity.
Qed.

Lemma direct_loc_h_shape m Q fill direct out :
  direct_loc_h m (map n_row Q) (map n_col Q) (map n_alt Q) fill direct = Some out ->
  exists lon lat rows, usable_core m (filter okpix Q) fill direct = Some (lon, lat) /\
    out = check_lonlat rows /\
    map lon3 rows = scatter (map okpix Q) (map (fun _ => fst (centre m fill)) Q) lon /\
    map lat3 rows = scatter (map okpix Q) (map (fun _ => snd (centre m fill)) Q) lat /\
    map alt3 rows = map n_alt Q.
Proof.
  rewrite direct_loc_h_core. destruct (usable_core _ _ _ _) as [[lon lat]|]; [|discriminate].
  destruct (zip3 _ _ _) as [rows|] eqn:E; [|discriminate]. intros H. injection H as <-.
  apply zip3_inv in E. destruct E as (E1 & E2 & E3). exists lon, lat, rows. repeat split; auto.
Qed.

Lemma direct_loc_h_defined m Q fill (direct : bool) :
  (if direct then direct_coefficient m else inverse_coefficient m) = true ->
  exists out, direct_loc_h m (map n_row Q) (map n_col Q) (map n_alt Q) fill direct = Some out.
Proof.
  intros H. rewrite direct_loc_h_core.
  assert (exists lon lat, usable_core m (filter okpix Q) fill direct = Some (lon, lat)) as (lon & lat & E).
  { unfold usable_core. destruct direct; simpl.
    - rewrite H, !map_map, rational_loop_map. eauto.
    - rewrite H. rewrite filter_finite_rows, filter_finite_cols, filter_alts.
      generalize (map to_inp (filter okpix Q)). intros [|p P].
      + unfold direct_loc_inverse_iterative. rewrite H. simpl. eauto.
      + rewrite iterative_batch by assumption. eauto. }
  rewrite E.
  destruct (zip3_some (scatter (map okpix Q) (map (fun _ => fst (centre m fill)) Q) lon)
              (scatter (map okpix Q) (map (fun _ => snd (centre m fill)) Q) lat) (map n_alt Q)) as [rows ->];
    rewrite ?scatter_length, ?map_length; eauto.
Qed.

Lemma nth_error_via_map {A B} (f : A -> B) l l' i p : map f l = l' -> nth_error l i = Some p ->
  nth_error l' i = Some (f p).
Proof. intros <- H. now apply map_nth_error. Qed.

Lemma direct_loc_h_filter m Q fill direct out :
  direct_loc_h m (map n_row Q) (map n_col Q) (map n_alt Q) fill direct = Some out ->
  let F := filter okpix Q in
  direct_loc_h m (map n_row F) (map n_col F) (map n_alt F) fill direct
  = Some (gather (map okpix Q) out).
Proof.
  intros H F. destruct (direct_loc_h_shape _ _ _ _ _ H) as (lon & lat & rows & EC & -> & E1 & E2 & E3).
  assert (FF : filter okpix F = F).
  { unfold F. clear. induction Q as [|p Q IH]; [reflexivity|]. simpl. destruct (okpix p) eqn:E; [|exact IH].
    simpl. now rewrite E, IH. }
  destruct (core_length _ _ _ _ _ _ EC) as [Hl1 Hl2].
  assert (MF : map okpix F = repeat true (length F)).
  { unfold F. clear. induction Q as [|p Q IH]; [reflexivity|]. simpl. destruct (okpix p) eqn:E; [|exact IH].
    simpl. now rewrite E, IH. }
  rewrite direct_loc_h_core, FF. fold F in EC, Hl1, Hl2. rewrite EC, MF.
  rewrite !scatter_all' by now rewrite !map_length.
  assert (EZ : zip3 lon lat (map n_alt F) = Some (gather (map okpix Q) rows)).
  { pose proof (gather_zip3 (map okpix Q) _ _ _ _ (zip3_maps rows)) as HG.
    rewrite E1, E2, E3 in HG. rewrite !gather_scatter in HG; rewrite ?map_length, ?gather_map, ?map_length; auto.
    rewrite gather_map in HG. exact HG. }
  rewrite EZ. f_equal. unfold check_lonlat. now rewrite gather_map'.
Qed.

(** ** C13 *)
Lemma flat_map_dup {A B} (f : A -> B) l : flat_map (fun r => [r; r]) (map f l) = map f (flat_map (fun r => [r; r]) l).
Proof. induction l as [|x l IH]; [reflexivity|]. simpl. now rewrite IH. Qed.

Lemma pairs_nth {A} (l : list A) i a b : nth_error (pairs_of l) i = Some (a, b) ->
  nth_error l (2 * i) = Some a /\ nth_error l (2 * i + 1) = Some b.
Proof.
  revert l. induction i as [|i IH]; intros [|x [|y l]] H; try discriminate.
  - injection H as <- <-. auto.
  - simpl in H. replace (2 * S i)%nat with (S (S (2 * i))) by lia. simpl. simpl in IH. now apply IH.
Qed.

Lemma pairs_length {A} (l : list A) n : length l = (2 * n)%nat -> length (pairs_of l) = n.
Proof.
  revert l. induction n as [|n IH]; intros [|x [|y l]] H; try (simpl in H; lia); [reflexivity|].
  simpl. f_equal. apply IH. simpl in H. lia.
Qed.

Lemma flat_map_pair_nth {A B} (f : A -> list B) l i x y a : (forall t, exists u v, f t = [u; v]) ->
  nth_error l i = Some a -> f a = [x; y] ->
  nth_error (flat_map f l) (2 * i) = Some x /\ nth_error (flat_map f l) (2 * i + 1) = Some y.
Proof.
  intros Hf. revert l. induction i as [|i IH]; intros [|t l] H E; try discriminate.
  - injection H as ->. simpl. rewrite E. auto.
  - simpl in H. replace (2 * S i)%nat with (S (S (2 * i))) by lia.
    destruct (Hf t) as (u & v & Et). simpl. rewrite Et. simpl. simpl in IH. apply IH; assumption.
Qed.

Lemma flat_map_pair_length {A B} (f : A -> list B) l : (forall t, length (f t) = 2%nat) ->
  length (flat_map f l) = (2 * length l)%nat.
Proof. intros H. induction l as [|x l IH]; [reflexivity|]. simpl. rewrite app_length, H, IH. lia. Qed.
