(** C72: the predictor of the inverse localization of the grids. *)
From Coq Require Import Reals ZArith List Bool Lra Lia.
From Verif Require Import Num NumLemmas InterpModel InterpSpec InterpProofs ProjModel ProjSpec PropertiesProj RpcModel
  DtmModel RpcDtmModel GridModel GridSpec GridProofs GridNewton GridPred PropertiesGrid PropertiesGrid2.
Import ListNotations.
Open Scope R_scope.

Lemma concat_rows_of : forall A n w (l : list A), length l = (n * w)%nat -> concat (rows_of n w l) = l.
Proof.
  intros A n w. induction n as [|n IH]; intros l H; [destruct l; [reflexivity|discriminate]|]. cbn [rows_of concat].
  rewrite IH by (rewrite skipn_length; cbn in H; lia). apply firstn_skipn.
Qed.
Lemma map3_pixels : forall g alt (px : list (R * R)) al, length al = length px -> (forall a, In a al -> a = fin alt) ->
  map3 (grid_position g) (map (fun rc => fin (fst rc)) px) (map (fun rc => fin (snd rc)) px) al
  = map (fun rc => grid_position g (fin (fst rc)) (fin (snd rc)) (fin alt)) px.
Proof.
  intros g alt px. induction px as [|p px IH]; intros [|a al] H HA; try discriminate; [reflexivity|]. cbn [map map3].
  rewrite (HA a) by now left. f_equal. apply IH; [now injection H|]. intros x Hx. apply HA. now right.
Qed.
Lemma fill_alt_one : forall n a, exists al, fill_alt n [a] = Some al /\ length al = n /\ forall x, In x al -> x = a.
Proof.
  intros n a. unfold fill_alt. destruct (Nat.eqb_spec (length [a]) n) as [E|E].
  - exists [a]. split; [reflexivity|]. split; [exact E|]. intros x [->|[]]. reflexivity.
  - exists (repeat a n). split; [reflexivity|]. split; [apply repeat_length|]. intros x Hx. now apply repeat_spec in Hx.
Qed.
Lemma grid_h_concat : forall g row0 col0 steprow stepcol nr nc alt out,
  grid_direct_loc_grid_h g row0 col0 steprow stepcol nr nc alt = Some out ->
  concat out = map (fun rc => hd nan3 (check_geographic (gr_epsg g) [grid_position g (fin (fst rc)) (fin (snd rc)) (fin alt)]))
                 (list_prod (arange row0 steprow nr) (arange col0 stepcol nc)).
Proof.
  intros g row0 col0 steprow stepcol nr nc alt out H. unfold grid_direct_loc_grid_h in H.
  destruct (Req_EM_T steprow 0) in H; [discriminate|]. destruct (Req_EM_T stepcol 0) in H; [discriminate|].
  set (rows := arange row0 steprow nr) in *. set (cols := arange col0 stepcol nc) in *.
  assert (LP : length (list_prod rows cols) = (nr * nc)%nat).
  { rewrite prod_length. unfold rows, cols, arange. rewrite !map_length, !seq_length. reflexivity. }
  assert (E1 : flat_map (fun r => map (fun _ => fin r) cols) rows = map (fun rc : R * R => fin (fst rc)) (list_prod rows cols)).
  { rewrite <- (map_map fst fin), list_prod_fst, map_flat_map. apply flat_map_ext. intros r. now rewrite map_map. }
  assert (E2 : flat_map (fun _ : R => map fin cols) rows = map (fun rc : R * R => fin (snd rc)) (list_prod rows cols)).
  { rewrite <- (map_map snd fin), list_prod_snd, map_flat_map. reflexivity. }
  rewrite E1, E2 in H. unfold grid_direct_loc_h in H. rewrite !map_length, Nat.eqb_refl in H. cbn [negb] in H.
  destruct (fill_alt_one (length (list_prod rows cols)) (fin alt)) as (al & Ea & La & Ha). rewrite Ea in H.
  rewrite (map3_pixels g alt _ al La Ha), check_geographic_map, map_map in H.
  apply (f_equal (fun o => match o with Some x => x | None => [] end)) in H; cbv beta iota in H; subst out.
  apply concat_rows_of. now rewrite map_length.
Qed.
Lemma spread_arange : forall a b n, spread a b n = arange a ((b - a) / (INR n - 1)) n.
Proof. reflexivity. Qed.
Lemma node_finite : forall g r c alt s, proper_grid g ->
  finite_lonlat (hd nan3 (check_geographic (gr_epsg g) [grid_position g (fin r) (fin c) (fin alt)])) = Some s ->
  grid_ground g r c alt (fst s) (snd s) /\ in_range g (fst s) (snd s).
Proof.
  intros g r c alt s HP H. destruct (grid_ground_exists g r c alt HP) as (lon & lat & G).
  change (grid_position g (fin r) (fin c) (fin alt)) with (grid_position g (Some r) (Some c) (Some alt)) in H.
  rewrite (grid_position_ground g r c alt lon lat HP G) in H.
  destruct (check_geographic_one g lon lat alt) as [C1 C2]. destruct (in_range_dec g lon lat) as [I|I].
  - rewrite (C1 I) in H. cbn in H. injection H as <-. auto.
  - rewrite (C2 I) in H. discriminate.
Qed.
Lemma seq_opt_map_Forall2 : forall A B (f : A -> option B) l r, seq_opt (map f l) = Some r -> Forall2 (fun a b => f a = Some b) l r.
Proof.
  intros A B f l. induction l as [|x l IH]; intros r H; cbn in H; [injection H as <-; constructor|].
  destruct (f x) as [y|] eqn:E; [|discriminate]. destruct (seq_opt (map f l)) as [r'|]; [|discriminate]. injection H as <-. constructor; auto.
Qed.
Lemma Forall2_weaken : forall A B (P Q : A -> B -> Prop) l r, (forall a b, P a b -> Q a b) -> Forall2 P l r -> Forall2 Q l r.
Proof. intros A B P Q l r H F. induction F; constructor; auto. Qed.
Lemma layer_sampled : forall g nr nc alt out pts, proper_grid g ->
  grid_direct_loc_grid_h g (gr_row0 g) (gr_col0 g) ((gr_rowmax g - gr_row0 g) / (INR nr - 1)) ((gr_colmax g - gr_col0 g) / (INR nc - 1)) nr nc alt = Some out ->
  seq_opt (map finite_lonlat (concat out)) = Some pts -> sampled g nr nc alt pts.
Proof.
  intros g nr nc alt out pts HP H HS. rewrite (grid_h_concat _ _ _ _ _ _ _ _ _ H), map_map in HS.
  apply seq_opt_map_Forall2 in HS. unfold sampled, spread_pixels. rewrite !spread_arange, <- rowmax_node, <- colmax_node, <- row0_node, <- col0_node.
  eapply Forall2_weaken; [|exact HS]. intros rc s E. cbv beta in E. eapply node_finite; eauto.
Qed.
Lemma sampled_length : forall g nr nc alt pts, sampled g nr nc alt pts -> length pts = (nr * nc)%nat.
Proof.
  intros g nr nc alt pts H. assert (E : length (spread_pixels g nr nc) = length pts) by (unfold sampled in H; induction H; cbn; congruence). rewrite <- E. unfold spread_pixels. now rewrite prod_length, !spread_length.
Qed.
Lemma alts_apart : forall g, proper_grid g -> last (gr_alts g) 0 < hd 0 (gr_alts g).
Proof.
  intros g (HL & HD & _). destruct (gr_alts g) as [|a [|b l]]; cbn in HL; try lia. clear HL. cbn [hd].
  assert (forall l b, decreasing (b :: l) -> last (b :: l) 0 <= b).
  { clear. intros l. induction l as [|c l IH]; intros b HD; [cbn; lra|]. pose proof (HD 0%nat b c eq_refl eq_refl).
    assert (HD' : decreasing (c :: l)) by (intros i x y Hx Hy; exact (HD (S i) x y Hx Hy)). specialize (IH c HD'). change (last (b :: c :: l) 0) with (last (c :: l) 0). lra. }
  assert (HD' : decreasing (b :: l)) by (intros i x y Hx Hy; exact (HD (S i) x y Hx Hy)).
  specialize (H l b HD'). pose proof (HD 0%nat a b eq_refl eq_refl). change (last (a :: b :: l) 0) with (last (b :: l) 0). lra.
Qed.
Lemma linspace_two : forall a b, linspace a b 2 = [a; b].
Proof. intros. unfold linspace. cbn. f_equal; [|f_equal]; field; lra. Qed.

(** What a predictor is made of. *)
Definition row_scale (g : grid) : R := (gr_rowmax g - gr_row0 g) / 2.
Definition row_shift (g : grid) : R := (gr_rowmax g + gr_row0 g) / 2.
Definition col_scale (g : grid) : R := (gr_colmax g - gr_col0 g) / 2.
Definition col_shift (g : grid) : R := (gr_colmax g + gr_col0 g) / 2.
Definition normal (lo la : R * R) (s : R * R) : R * R := ((fst s - fst lo) / snd lo, (snd s - fst la) / snd la).
Lemma estimate_parts : forall inv g nr nc pd, proper_grid g -> estimate_inverse_loc_predictor inv g nr nc = Some pd ->
  exists top bottom lo la, sampled g nr nc (hd 0 (gr_alts g)) top /\ sampled g nr nc (last (gr_alts g) 0) bottom /\
    snd lo <> 0 /\ snd la <> 0 /\
    exists cmin rmin cmax rmax,
    least_squares inv (map (normal lo la) bottom) (b_cols nr nc) = Some cmin /\
    least_squares inv (map (normal lo la) bottom) (b_rows nr nc) = Some rmin /\
    least_squares inv (map (normal lo la) top) (b_cols nr nc) = Some cmax /\
    least_squares inv (map (normal lo la) top) (b_rows nr nc) = Some rmax /\
    pd = Pred cmin rmin cmax rmax lo la (row_shift g, row_scale g) (col_shift g, col_scale g).
Proof.
  intros inv g nr nc pd HP H. unfold estimate_inverse_loc_predictor in H.
  destruct (interpolate_grid_in_altitude g nr nc (Some 2%nat)) as [layers|] eqn:EI; [|discriminate].
  destruct layers as [|t [|b [|]]]; try discriminate.
  unfold interpolate_grid_in_altitude in EI. rewrite linspace_two in EI. cbn [map seq_opt] in EI.
  destruct (grid_direct_loc_grid_h _ _ _ _ _ _ _ (hd 0 (gr_alts g))) as [t'|] eqn:Et; [|discriminate].
  destruct (grid_direct_loc_grid_h _ _ _ _ _ _ _ (last (gr_alts g) 0)) as [b'|] eqn:Eb; [|discriminate].
  assert (t' = t) by congruence. assert (b' = b) by congruence. subst t' b'. clear EI.
  destruct (seq_opt (map finite_lonlat (concat t))) as [top|] eqn:ET; [|discriminate].
  destruct (seq_opt (map finite_lonlat (concat b))) as [bottom|] eqn:EB; [|discriminate].
  apply (layer_sampled _ _ _ _ _ _ HP Et) in ET. apply (layer_sampled _ _ _ _ _ _ HP Eb) in EB.
  cbv zeta in H. fold (b_cols nr nc) (b_rows nr nc) in H.
  set (lons := map fst top ++ map fst bottom) in *. set (lats := map snd top ++ map snd bottom) in *.
  destruct (Req_EM_T ((list_max lons - list_min lons) / 2) 0) as [|N1]; [discriminate|].
  destruct (Req_EM_T ((list_max lats - list_min lats) / 2) 0) as [|N2]; [discriminate|].
  set (lo := ((list_max lons + list_min lons) / 2, (list_max lons - list_min lons) / 2)) in *.
  set (la := ((list_max lats + list_min lats) / 2, (list_max lats - list_min lats) / 2)) in *.
  exists top, bottom, lo, la. do 4 (split; [assumption|]).
  change (fun q : R * R => ((fst q - (list_max lons + list_min lons) / 2) / ((list_max lons - list_min lons) / 2),
     (snd q - (list_max lats + list_min lats) / 2) / ((list_max lats - list_min lats) / 2))) with (normal lo la) in H.
  destruct (least_squares inv (map (normal lo la) bottom) (b_cols nr nc)) as [cmin|]; [|discriminate].
  destruct (least_squares inv (map (normal lo la) bottom) (b_rows nr nc)) as [rmin|]; [|discriminate].
  destruct (least_squares inv (map (normal lo la) top) (b_cols nr nc)) as [cmax|]; [|discriminate].
  destruct (least_squares inv (map (normal lo la) top) (b_rows nr nc)) as [rmax|]; [|discriminate].
  exists cmin, rmin, cmax, rmax. do 4 (split; [reflexivity|]). unfold row_shift, row_scale, col_shift, col_scale. congruence.
Qed.
Lemma predict_parts : forall g cmin rmin cmax rmax lo la lon lat alt, proper_grid g -> snd lo <> 0 -> snd la <> 0 ->
  length cmin = 6%nat -> length rmin = 6%nat -> length cmax = 6%nat -> length rmax = 6%nat ->
  let value c sc sh := poly (fun j => nth j c 0) (normal lo la (lon, lat)) * sc + sh in
  let h := (alt - last (gr_alts g) 0) / (hd 0 (gr_alts g) - last (gr_alts g) 0) in
  inverse_loc_predictor g (Pred cmin rmin cmax rmax lo la (row_shift g, row_scale g) (col_shift g, col_scale g)) lon lat alt
  = (fin (lerp (value rmin (row_scale g) (row_shift g)) (value rmax (row_scale g) (row_shift g)) h),
     fin (lerp (value cmin (col_scale g) (col_shift g)) (value cmax (col_scale g) (col_shift g)) h)).
Proof.
  intros g cmin rmin cmax rmax lo la lon lat alt HP N1 N2 L1 L2 L3 L4. cbv zeta. pose proof (alts_apart g HP) as HA.
  unfold inverse_loc_predictor. cbn [pd_lon pd_lat pd_row pd_col pd_col_min pd_row_min pd_col_max pd_row_max fst snd].
  unfold ndiv, fin at 1 2 3 4 5 6. destruct (Req_EM_T (snd lo) 0); [contradiction|]. destruct (Req_EM_T (snd la) 0); [contradiction|].
  destruct (Req_EM_T (hd 0 (gr_alts g) - last (gr_alts g) 0) 0); [lra|].
  set (u := (lon - fst lo) / snd lo). set (v := (lat - fst la) / snd la).
  change [1; u; v; u * u; v * v; u * v] with (quadratic_terms (fst (u, v)) (snd (u, v))). rewrite !dot_poly by assumption.
  change (u, v) with (normal lo la (lon, lat)). unfold lerp. f_equal; f_equal; ring.
Qed.
Lemma b_cols_length : forall nr nc, length (b_cols nr nc) = (nr * nc)%nat.
Proof. intros. unfold b_cols. rewrite (flat_map_len _ _ _ nc) by (intros; apply linspace_length). now rewrite linspace_length. Qed.
Lemma b_rows_length : forall nr nc, length (b_rows nr nc) = (nr * nc)%nat.
Proof. intros. unfold b_rows. rewrite (flat_map_len _ _ _ nc) by (intros; rewrite map_length; apply linspace_length). now rewrite linspace_length. Qed.

Lemma normal_quadratic : forall f lo la sc sh, quadratic f -> snd lo <> 0 -> snd la <> 0 -> sc <> 0 ->
  exists q, forall s, f (fst s) (snd s) = poly q (normal lo la s) * sc + sh.
Proof.
  intros f lo la sc sh (a & b & c & d & e & k & Hf) N1 N2 N3.
  set (l0 := fst lo). set (l1 := snd lo) in *. set (a0 := fst la). set (a1 := snd la) in *.
  exists (fun j => match j with
    | 0%nat => (a + b * l0 + c * a0 + d * (l0 * l0) + e * (a0 * a0) + k * (l0 * a0) - sh) / sc
    | 1%nat => (b * l1 + 2 * d * l0 * l1 + k * l1 * a0) / sc
    | 2%nat => (c * a1 + 2 * e * a0 * a1 + k * l0 * a1) / sc
    | 3%nat => d * l1 * l1 / sc
    | 4%nat => e * a1 * a1 / sc
    | _ => k * l1 * a1 / sc end).
  intros s. rewrite Hf. unfold poly, term, quadratic_terms, normal. cbn [sumn nth fst snd]. fold l0 l1 a0 a1. field. auto.
Qed.
Lemma scales_nonzero : forall g, proper_grid g -> row_scale g <> 0 /\ col_scale g <> 0.
Proof.
  intros g (_ & _ & _ & _ & _ & HR & HC & SR & SC). unfold row_scale, col_scale, gr_rowmax, gr_colmax.
  apply IZR_le in HR. apply IZR_le in HC.
  split.
  - replace ((gr_row0 g + gr_steprow g * (IZR (gr_nbrow g) - 1) - gr_row0 g) / 2) with (gr_steprow g * ((IZR (gr_nbrow g) - 1) / 2)) by field.
    apply Rmult_integral_contrapositive. split; lra.
  - replace ((gr_col0 g + gr_stepcol g * (IZR (gr_nbcol g) - 1) - gr_col0 g) / 2) with (gr_stepcol g * ((IZR (gr_nbcol g) - 1) / 2)) by field.
    apply Rmult_integral_contrapositive. split; lra.
Qed.

(** One fitted coordinate at one altitude. *)
Lemma fit_min : forall inv lo la pts b c sc sh f, inverts inv -> least_squares inv (map (normal lo la) pts) b = Some c ->
  length b = length pts -> quadratic f -> snd lo <> 0 -> snd la <> 0 -> sc <> 0 ->
  square_misfit (fun s => poly (fun j => nth j c 0) (normal lo la s) * sc + sh) pts (map (fun x => x * sc + sh) b)
  <= square_misfit (fun s => f (fst s) (snd s)) pts (map (fun x => x * sc + sh) b).
Proof.
  intros inv lo la pts b c sc sh f HI HL HB HQ N1 N2 N3. destruct (normal_quadratic f lo la sc sh HQ N1 N2 N3) as [q Hq].
  rewrite (square_misfit_scale _ (poly (fun j => nth j c 0)) (normal lo la)) by reflexivity.
  rewrite (square_misfit_scale _ (poly q) (normal lo la)) by exact Hq.
  rewrite <- !misfit_list by (now rewrite map_length).
  pose proof (least_squares_min inv HI (map (normal lo la) pts) b c q HL). pose proof (Rle_0_sqr sc). unfold Rsqr in *. nra.
Qed.
Lemma fit_exact : forall inv lo la pts b c sc sh f, inverts inv -> least_squares inv (map (normal lo la) pts) b = Some c ->
  length b = length pts -> quadratic f -> snd lo <> 0 -> snd la <> 0 -> sc <> 0 ->
  Forall2 (fun s t => f (fst s) (snd s) = t) pts (map (fun x => x * sc + sh) b) ->
  forall s, poly (fun j => nth j c 0) (normal lo la s) * sc + sh = f (fst s) (snd s).
Proof.
  intros inv lo la pts b c sc sh f HI HL HB HQ N1 N2 N3 HF. destruct (normal_quadratic f lo la sc sh HQ N1 N2 N3) as [q Hq].
  destruct (least_squares_exact inv HI (map (normal lo la) pts) b c q HL) as [LC HC].
  - intros k Hk. rewrite map_length in Hk.
    destruct (nth_error pts k) as [s|] eqn:Es; [|apply nth_error_None in Es; lia].
    destruct (nth_error b k) as [x|] eqn:Ex; [|apply nth_error_None in Ex; lia].
    rewrite (nth_error_nth _ _ _ Ex), (nth_error_nth _ _ _ (map_nth_error (normal lo la) _ _ Es)).
    assert (E : f (fst s) (snd s) = x * sc + sh).
    { clear - HF Es Ex. revert b k HF Es Ex. induction pts as [|p pts IH]; intros [|y b] k HF Es Ex; try (destruct k; discriminate).
      inversion HF; subst. destruct k as [|k]; [cbn in *; congruence|]. apply (IH b k); auto. }
    rewrite Hq in E. apply (Rmult_eq_reg_r sc); auto. lra.
  - intros s. rewrite Hq. f_equal. f_equal. unfold poly. apply sumn_ext. intros i Hi. now rewrite HC.
Qed.

(** The predictor at the two extreme altitudes of the grid: among all the polynomials of degree two of
    (longitude, latitude), the predicted rows (columns) have the least sum of squared differences with
    the rows (columns) of the nr x nc pixels spread over the grid, at the ground positions of these
    pixels.  In between the prediction is the linear interpolation in altitude of the two. *)
Theorem C72_least_squares :
  forall inv g nr nc pd alt, proper_grid g -> (2 <= nr)%nat -> (2 <= nc)%nat -> inverts inv ->
  estimate_inverse_loc_predictor inv g nr nc = Some pd ->
  alt = hd 0 (gr_alts g) \/ alt = last (gr_alts g) 0 ->
  exists pts row_of col_of, sampled g nr nc alt pts /\
    (forall lon lat, inverse_loc_predictor g pd lon lat alt = (fin (row_of (lon, lat)), fin (col_of (lon, lat)))) /\
    forall f, quadratic f ->
      square_misfit row_of pts (map fst (spread_pixels g nr nc)) <= square_misfit (fun s => f (fst s) (snd s)) pts (map fst (spread_pixels g nr nc)) /\
      square_misfit col_of pts (map snd (spread_pixels g nr nc)) <= square_misfit (fun s => f (fst s) (snd s)) pts (map snd (spread_pixels g nr nc)).
Proof.
  intros inv g nr nc pd alt HP Hr Hc HI HE HA.
  destruct (estimate_parts inv g nr nc pd HP HE) as (top & bottom & lo & la & ST & SB & N1 & N2 & cmin & rmin & cmax & rmax & L1 & L2 & L3 & L4 & ->).
  destruct (scales_nonzero g HP) as [SR SC]. pose proof (alts_apart g HP) as Hap.
  pose proof (sampled_length _ _ _ _ _ ST) as LT. pose proof (sampled_length _ _ _ _ _ SB) as LB.
  destruct (least_squares_form inv HI _ _ _ L1) as [G1 _]. destruct (least_squares_form inv HI _ _ _ L2) as [G2 _].
  destruct (least_squares_form inv HI _ _ _ L3) as [G3 _]. destruct (least_squares_form inv HI _ _ _ L4) as [G4 _].
  rewrite pixels_rows, pixels_cols by assumption. fold (row_scale g) (row_shift g) (col_scale g) (col_shift g).
  destruct HA as [-> | ->].
  - exists top, (fun s => poly (fun j => nth j rmax 0) (normal lo la s) * row_scale g + row_shift g), (fun s => poly (fun j => nth j cmax 0) (normal lo la s) * col_scale g + col_shift g).
    split; [exact ST|]. split.
    + intros lon lat. rewrite predict_parts by assumption. cbv zeta. replace ((hd 0 (gr_alts g) - last (gr_alts g) 0) / (hd 0 (gr_alts g) - last (gr_alts g) 0)) with 1 by (field; lra).
      unfold lerp. f_equal; f_equal; ring.
    + intros f HQ. assert (length (b_rows nr nc) = (nr * nc)%nat) by apply b_rows_length. assert (length (b_cols nr nc) = (nr * nc)%nat) by apply b_cols_length. split; apply (fit_min inv); auto; congruence.
  - exists bottom, (fun s => poly (fun j => nth j rmin 0) (normal lo la s) * row_scale g + row_shift g), (fun s => poly (fun j => nth j cmin 0) (normal lo la s) * col_scale g + col_shift g).
    split; [exact SB|]. split.
    + intros lon lat. rewrite predict_parts by assumption. cbv zeta. replace ((last (gr_alts g) 0 - last (gr_alts g) 0) / (hd 0 (gr_alts g) - last (gr_alts g) 0)) with 0 by (field; lra).
      unfold lerp. f_equal; f_equal; ring.
    + intros f HQ. assert (length (b_rows nr nc) = (nr * nc)%nat) by apply b_rows_length. assert (length (b_cols nr nc) = (nr * nc)%nat) by apply b_cols_length. split; apply (fit_min inv); auto; congruence.
Qed.

(** When the row and the column are polynomials of degree two of (longitude, latitude) over the nr x nc
    pixels, at the highest and at the lowest altitude, the prediction at any ground point is the linear
    interpolation in altitude of these polynomials: exact at both extreme altitudes. *)
Theorem C72_exact :
  forall inv g nr nc pd row_top col_top row_bottom col_bottom, proper_grid g -> (2 <= nr)%nat -> (2 <= nc)%nat -> inverts inv ->
  estimate_inverse_loc_predictor inv g nr nc = Some pd ->
  quadratic row_top -> quadratic col_top -> quadratic row_bottom -> quadratic col_bottom ->
  (forall r c lon lat, In (r, c) (spread_pixels g nr nc) -> grid_ground g r c (hd 0 (gr_alts g)) lon lat -> row_top lon lat = r /\ col_top lon lat = c) ->
  (forall r c lon lat, In (r, c) (spread_pixels g nr nc) -> grid_ground g r c (last (gr_alts g) 0) lon lat -> row_bottom lon lat = r /\ col_bottom lon lat = c) ->
  forall lon lat alt,
  let h := (alt - last (gr_alts g) 0) / (hd 0 (gr_alts g) - last (gr_alts g) 0) in
  inverse_loc_predictor g pd lon lat alt =
    (fin (lerp (row_bottom lon lat) (row_top lon lat) h), fin (lerp (col_bottom lon lat) (col_top lon lat) h)).
Proof.
  intros inv g nr nc pd rt ct rb cb HP Hr Hc HI HE Q1 Q2 Q3 Q4 HT HB lon lat alt. cbv zeta.
  destruct (estimate_parts inv g nr nc pd HP HE) as (top & bottom & lo & la & ST & SB & N1 & N2 & cmin & rmin & cmax & rmax & L1 & L2 & L3 & L4 & ->).
  destruct (scales_nonzero g HP) as [SR SC].
  pose proof (sampled_length _ _ _ _ _ ST) as LT. pose proof (sampled_length _ _ _ _ _ SB) as LB.
  destruct (least_squares_form inv HI _ _ _ L1) as [G1 _]. destruct (least_squares_form inv HI _ _ _ L2) as [G2 _].
  destruct (least_squares_form inv HI _ _ _ L3) as [G3 _]. destruct (least_squares_form inv HI _ _ _ L4) as [G4 _].
  rewrite predict_parts by assumption. cbv zeta.
  assert (K : forall a fr fc px pts, Forall2 (fun rc s => grid_ground g (fst rc) (snd rc) a (fst s) (snd s) /\ in_range g (fst s) (snd s)) px pts ->
     (forall r c lon lat, In (r, c) px -> grid_ground g r c a lon lat -> fr lon lat = r /\ fc lon lat = c) ->
     Forall2 (fun s t => fr (fst s) (snd s) = t) pts (map fst px) /\
     Forall2 (fun s t => fc (fst s) (snd s) = t) pts (map snd px)).
  { clear. intros a fr fc px pts HS. induction HS as [|rc s px pts [HG _] HS IH]; intros HF; [split; constructor|].
    destruct (HF (fst rc) (snd rc) (fst s) (snd s)) as [E1 E2]; [left; now destruct rc|exact HG|].
    destruct IH as [I1 I2]; [intros; eapply HF; eauto; now right|]. cbn [map]. split; constructor; auto. }
  destruct (K _ _ _ _ _ ST HT) as [K1 K2]. destruct (K _ _ _ _ _ SB HB) as [K3 K4]. clear K.
  rewrite pixels_rows in K1, K3 by assumption. rewrite pixels_cols in K2, K4 by assumption.
  fold (row_scale g) (row_shift g) in K1, K3. fold (col_scale g) (col_shift g) in K2, K4.
  assert (LC : length (b_cols nr nc) = length top /\ length (b_rows nr nc) = length top /\ length (b_cols nr nc) = length bottom /\ length (b_rows nr nc) = length bottom)
    by (rewrite b_cols_length, b_rows_length; repeat split; congruence).
  destruct LC as (M1 & M2 & M3 & M4).
  rewrite (fit_exact inv lo la bottom (b_rows nr nc) rmin (row_scale g) (row_shift g) rb HI L2 M4 Q3 N1 N2 SR K3).
  rewrite (fit_exact inv lo la top (b_rows nr nc) rmax (row_scale g) (row_shift g) rt HI L4 M2 Q1 N1 N2 SR K1).
  rewrite (fit_exact inv lo la bottom (b_cols nr nc) cmin (col_scale g) (col_shift g) cb HI L1 M3 Q4 N1 N2 SC K4).
  rewrite (fit_exact inv lo la top (b_cols nr nc) cmax (col_scale g) (col_shift g) ct HI L3 M1 Q2 N1 N2 SC K2).
  reflexivity.
Qed.

(** The inverse of an affine localization is affine. *)
Lemma affine_inverse : forall g alt, proper_grid g -> affine_layers (gr_lon g) -> affine_layers (gr_lat g) ->
  (forall r c r' c' lon lat, grid_ground g r c alt lon lat -> grid_ground g r' c' alt lon lat -> r' = r /\ c' = c) ->
  exists fr fc, quadratic fr /\ quadratic fc /\ forall r c lon lat, grid_ground g r c alt lon lat -> fr lon lat = r /\ fc lon lat = c.
Proof.
  intros g alt HP A1 A2 HInj. pose proof HP as (HL & HD & _ & _ & _ & HR & HC & SR & SC).
  destruct (affine_at_layers g _ alt HP (proper_lon g HP) A1) as (A & B & C & E1 & _).
  destruct (affine_at_layers g _ alt HP (proper_lat g HP) A2) as (A' & B' & C' & E2 & _).
  assert (G : forall r c lon lat, grid_ground g r c alt lon lat -> lon = A + B * ((r - gr_row0 g) / gr_steprow g) + C * ((c - gr_col0 g) / gr_stepcol g)
     /\ lat = A' + B' * ((r - gr_row0 g) / gr_steprow g) + C' * ((c - gr_col0 g) / gr_stepcol g)).
  { intros r c lon lat [G1 G2]. rewrite (cube_value_layers g _ _ _ _ _ HP (proper_lon g HP) G1), (cube_value_layers g _ _ _ _ _ HP (proper_lat g HP) G2), E1, E2. split; reflexivity. }
  assert (GND : forall x y, B * x + C * y = 0 -> B' * x + C' * y = 0 -> x = 0 /\ y = 0).
  { intros x y Z1 Z2.
    destruct (grid_ground_exists g (gr_row0 g) (gr_col0 g) alt HP) as (lon & lat & G0).
    destruct (grid_ground_exists g (gr_row0 g + x * gr_steprow g) (gr_col0 g + y * gr_stepcol g) alt HP) as (lon' & lat' & G').
    assert (lon' = lon /\ lat' = lat) as [-> ->].
    { destruct (G _ _ _ _ G0) as [-> ->]. destruct (G _ _ _ _ G') as [-> ->].
      replace ((gr_row0 g + x * gr_steprow g - gr_row0 g) / gr_steprow g) with x by (field; auto).
      replace ((gr_col0 g + y * gr_stepcol g - gr_col0 g) / gr_stepcol g) with y by (field; auto).
      replace ((gr_row0 g - gr_row0 g) / gr_steprow g) with 0 by (field; auto).
      replace ((gr_col0 g - gr_col0 g) / gr_stepcol g) with 0 by (field; auto). split; lra. }
    destruct (HInj _ _ _ _ _ _ G0 G') as [Q1 Q2]. split.
    - apply (Rmult_eq_reg_r (gr_steprow g)); auto. lra.
    - apply (Rmult_eq_reg_r (gr_stepcol g)); auto. lra. }
  assert (D : C * B' - B * C' <> 0).
  { intros D. destruct (GND C (- B)) as [Q1 Q2]; [ring|lra|]. destruct (GND C' (- B')) as [Q3 Q4]; [lra|ring|].
    assert (B = 0) by lra. assert (B' = 0) by lra. subst. destruct (GND 1 0); lra. }
  set (d := C * B' - B * C') in *.
  exists (fun x y => gr_row0 g + gr_steprow g * ((C * (y - A') - C' * (x - A)) / d)),
         (fun x y => gr_col0 g + gr_stepcol g * ((B' * (x - A) - B * (y - A')) / d)).
  split.
  { exists (gr_row0 g + gr_steprow g * ((C' * A - C * A') / d)), (- gr_steprow g * C' / d), (gr_steprow g * C / d), 0, 0, 0. intros. field. exact D. }
  split.
  { exists (gr_col0 g + gr_stepcol g * ((B * A' - B' * A) / d)), (gr_stepcol g * B' / d), (- gr_stepcol g * B / d), 0, 0, 0. intros. field. exact D. }
  intros r c lon lat HG. destruct (G _ _ _ _ HG) as [-> ->]. unfold d in *. split; field; auto.
Qed.

(** A grid with affine layers: the inverse localization with the estimated predictor gives back exactly
    the pixel.  (rt, ct) and (rb, cb) are the pixels that see (lon, lat) at the highest and at the lowest
    altitude; the prediction is between them, and its ground position must be in range. *)
Theorem C72_affine_inverse_loc :
  forall inv g nr nc pd n row col alt lon lat rt ct rb cb lon0 lat0, proper_grid g -> (2 <= nr)%nat -> (2 <= nc)%nat -> inverts inv -> (1 <= n)%nat ->
  estimate_inverse_loc_predictor inv g nr nc = Some pd ->
  affine_layers (gr_lon g) -> affine_layers (gr_lat g) ->
  (forall a r c r' c' lon lat, grid_ground g r c a lon lat -> grid_ground g r' c' a lon lat -> r' = r /\ c' = c) ->
  grid_ground g row col alt lon lat -> Rabs lon <= 180 -> Rabs lat <= 90 ->
  grid_ground g rt ct (hd 0 (gr_alts g)) lon lat -> grid_ground g rb cb (last (gr_alts g) 0) lon lat ->
  let h := (alt - last (gr_alts g) 0) / (hd 0 (gr_alts g) - last (gr_alts g) 0) in
  grid_ground g (lerp rb rt h) (lerp cb ct h) alt lon0 lat0 -> in_range g lon0 lat0 ->
  grid_inverse_loc g (Some pd) n [fin lon] [fin lat] [fin alt] = Some [(fin row, fin col, fin alt)].
Proof.
  intros inv g nr nc pd n row col alt lon lat rt ct rb cb lon0 lat0 HP Hr Hc HI Hn HE A1 A2 HInj HG Hlon Hlat HT HB h HG0 HI0.
  destruct (affine_inverse g (hd 0 (gr_alts g)) HP A1 A2 (HInj _)) as (frt & fct & Q1 & Q2 & FT).
  destruct (affine_inverse g (last (gr_alts g) 0) HP A1 A2 (HInj _)) as (frb & fcb & Q3 & Q4 & FB).
  pose proof (C72_exact inv g nr nc pd frt fct frb fcb HP Hr Hc HI HE Q1 Q2 Q3 Q4
    (fun r c x y _ G => FT r c x y G) (fun r c x y _ G => FB r c x y G) lon lat alt) as EP. cbv zeta in EP. fold h in EP.
  destruct (FT _ _ _ _ HT) as [T1 T2]. destruct (FB _ _ _ _ HB) as [B1 B2]. rewrite T1, T2, B1, B2 in EP.
  eapply (C38_affine_grid_exact g pd n row col alt lon lat); eauto.
Qed.

(** ** A case: 3 x 3 nodes, two layers shifted by one degree. *)
Definition tilt_lon (k : nat) : raster := mkRaster 3 3 (fun i j => IZR j + INR k).
Definition tilt_lat : raster := mkRaster 3 3 (fun i j => IZR i).
Definition tilt_grid : grid := mkGrid 0 0 1 1 3 3 [100; 0] [tilt_lon 0; tilt_lon 1] [tilt_lat; tilt_lat] (Some 4326%Z).
Lemma tilt_proper : proper_grid tilt_grid.
Proof.
  unfold proper_grid, tilt_grid. cbn [gr_alts gr_lon gr_lat gr_nbrow gr_nbcol gr_steprow gr_stepcol length].
  split; [lia|]. split; [intros [|[|i]] a b Ha Hb; cbn in *; try discriminate; try (destruct i; discriminate); injection Ha as <-; injection Hb as <-; lra|]. split; [reflexivity|]. split; [reflexivity|]. split.
  - intros m [H|H]; cbn in H; decompose [or] H; subst; try contradiction; split; reflexivity.
  - repeat split; try lia; lra.
Qed.
Lemma tilt_affine_lon : affine_layers (gr_lon tilt_grid).
Proof. intros m H. cbn in H. decompose [or] H; try contradiction; subst m; [exists 0|exists 1]; exists 0, 1; intros i j _; cbn; ring. Qed.
Lemma tilt_affine_lat : affine_layers (gr_lat tilt_grid).
Proof. intros m H. cbn in H. decompose [or] H; try contradiction; subst m; exists 0, 1, 0; intros i j _; cbn; ring. Qed.
Lemma tilt_ground : forall r c alt, grid_ground tilt_grid r c alt (c + (100 - alt) / 100) r.
Proof.
  intros r c alt. destruct (grid_ground_exists tilt_grid r c alt tilt_proper) as (lon & lat & [G1 G2]). pose proof tilt_proper as HP. pose proof HP as (HL & HD & _).
  assert (NL : nearest_layers (gr_alts tilt_grid) alt 0 100 0) by (repeat split; right; reflexivity).
  split.
  - pose proof (cube_value_layers _ _ _ _ _ _ HP (proper_lon _ HP) G1) as E. rewrite E in G1.
    rewrite (at_layers_nearest tilt_grid (gr_lon tilt_grid) alt _ 0 100 0 (tilt_lon 0) (tilt_lon 1) HD HL NL eq_refl eq_refl) in G1.
    rewrite (interp_affine (tilt_lon 1) 1 0 1), (interp_affine (tilt_lon 0) 0 0 1) in G1; try (split; cbn; lia); try (intros i j _; cbn; ring).
    match type of G1 with cube_value _ _ _ _ _ ?v => replace (c + (100 - alt) / 100) with v; [exact G1|] end. unfold grid_pos_row, grid_pos_col, lerp. cbn. field.
  - pose proof (cube_value_layers _ _ _ _ _ _ HP (proper_lat _ HP) G2) as E. rewrite E in G2.
    rewrite (at_layers_nearest tilt_grid (gr_lat tilt_grid) alt _ 0 100 0 tilt_lat tilt_lat HD HL NL eq_refl eq_refl) in G2.
    rewrite (interp_affine tilt_lat 0 1 0) in G2; try (split; cbn; lia); try (intros i j _; cbn; ring).
    match type of G2 with cube_value _ _ _ _ _ ?v => replace r with v at 2; [exact G2|] end. unfold grid_pos_row, grid_pos_col, lerp. cbn. field.
Qed.
Lemma tilt_injective : forall a r c r' c' lon lat, grid_ground tilt_grid r c a lon lat -> grid_ground tilt_grid r' c' a lon lat -> r' = r /\ c' = c.
Proof.
  intros a r c r' c' lon lat G G'. destruct (grid_ground_unique _ _ _ _ _ _ _ _ tilt_proper (tilt_ground r c a) G).
  destruct (grid_ground_unique _ _ _ _ _ _ _ _ tilt_proper (tilt_ground r' c' a) G'). split; lra.
Qed.

Definition tilt_inv_top : list (list R) :=
  [[133 / 288; - (3 / 16); 0; - (15 / 32); - (1 / 3); 0];
   [- (3 / 16); 3 / 2; 0; 27 / 16; 0; 0];
   [0; 0; 11 / 48; 0; 0; 3 / 16];
   [- (15 / 32); 27 / 16; 0; 81 / 32; 0; 0];
   [- (1 / 3); 0; 0; 0; 1 / 2; 0];
   [0; 0; 3 / 16; 0; 0; 9 / 16]].
Definition tilt_inv_bottom : list (list R) :=
  [[133 / 288; 3 / 16; 0; - (15 / 32); - (1 / 3); 0];
   [3 / 16; 3 / 2; 0; - (27 / 16); 0; 0];
   [0; 0; 11 / 48; 0; 0; - (3 / 16)];
   [- (15 / 32); - (27 / 16); 0; 81 / 32; 0; 0];
   [- (1 / 3); 0; 0; 0; 1 / 2; 0];
   [0; 0; - (3 / 16); 0; 0; 9 / 16]].
Definition tilt_points_top : list (R * R) :=
  [(- (1), - (1)); (- (1 / 3), - (1)); (1 / 3, - (1)); (- (1), 0); (- (1 / 3), 0); (1 / 3, 0); (- (1), 1); (- (1 / 3), 1); (1 / 3, 1)].
Definition tilt_points_bottom : list (R * R) :=
  [(- (1 / 3), - (1)); (1 / 3, - (1)); (1, - (1)); (- (1 / 3), 0); (1 / 3, 0); (1, 0); (- (1 / 3), 1); (1 / 3, 1); (1, 1)].

Definition normal_matrix (pts : list (R * R)) (i j : nat) : R := mat_mul (length pts) (fun i k => term (nth k pts (0, 0)) i) (fun k j => term (nth k pts (0, 0)) j) i j.
Definition same_matrix (M N : nat -> nat -> R) : bool := forallb (fun i => forallb (fun j => Reqb (M i j) (N i j)) (seq 0 6)) (seq 0 6).
Definition tilt_inv (n : nat) (M : nat -> nat -> R) : option (nat -> nat -> R) :=
  if (n =? 6)%nat then
    if same_matrix M (normal_matrix tilt_points_top) then Some (fun i j => nth j (nth i tilt_inv_top []) 0)
    else if same_matrix M (normal_matrix tilt_points_bottom) then Some (fun i j => nth j (nth i tilt_inv_bottom []) 0)
    else None
  else None.
Lemma same_matrix_eq : forall M N, same_matrix M N = true -> forall i j, (i < 6)%nat -> (j < 6)%nat -> M i j = N i j.
Proof.
  intros M N H i j Hi Hj. unfold same_matrix in H. rewrite forallb_forall in H. specialize (H i). rewrite forallb_forall in H.
  apply Reqb_true. apply H; apply in_seq; lia.
Qed.
Lemma same_matrix_refl : forall M, same_matrix M M = true.
Proof. intros M. unfold same_matrix. apply forallb_forall. intros i _. apply forallb_forall. intros j _. now apply Reqb_true. Qed.
Definition tilt_gram_top : list (list R) :=
  [[9; - (3); 0; 11 / 3; 6; 0];
   [- (3); 11 / 3; 0; - (3); - (2); 0];
   [0; 0; 6; 0; 0; - (2)];
   [11 / 3; - (3); 0; 83 / 27; 22 / 9; 0];
   [6; - (2); 0; 22 / 9; 6; 0];
   [0; 0; - (2); 0; 0; 22 / 9]].
Lemma gram_top : forall i j, (i < 6)%nat -> (j < 6)%nat -> normal_matrix tilt_points_top i j = nth j (nth i tilt_gram_top []) 0.
Proof.
  intros i j Hi Hj. do 6 (destruct i as [|i]; [do 6 (destruct j as [|j]; [unfold normal_matrix, mat_mul, term, quadratic_terms, tilt_points_top, tilt_gram_top; cbn [length sumn nth fst snd]; lra|]); lia|]). lia.
Qed.
Lemma normal_top : forall i j, (i < 6)%nat -> (j < 6)%nat -> mat_mul 6 (fun i j => nth j (nth i tilt_inv_top []) 0) (normal_matrix tilt_points_top) i j = (if Nat.eqb i j then 1 else 0)
  /\ mat_mul 6 (normal_matrix tilt_points_top) (fun i j => nth j (nth i tilt_inv_top []) 0) i j = (if Nat.eqb i j then 1 else 0).
Proof.
  intros i j Hi Hj. unfold mat_mul at 1 2. rewrite (sumn_ext 6 (fun k => normal_matrix tilt_points_top i k * _) (fun k => nth k (nth i tilt_gram_top []) 0 * nth j (nth k tilt_inv_top []) 0)) by (intros; now rewrite gram_top).
  rewrite (sumn_ext 6 (fun k => _ * normal_matrix tilt_points_top k j) (fun k => nth k (nth i tilt_inv_top []) 0 * nth j (nth k tilt_gram_top []) 0)) by (intros; now rewrite gram_top).
  do 6 (destruct i as [|i]; [do 6 (destruct j as [|j]; [unfold tilt_gram_top, tilt_inv_top; cbn [sumn nth Nat.eqb]; split; lra|]); lia|]). lia.
Qed.
Definition tilt_gram_bottom : list (list R) :=
  [[9; 3; 0; 11 / 3; 6; 0];
   [3; 11 / 3; 0; 3; 2; 0];
   [0; 0; 6; 0; 0; 2];
   [11 / 3; 3; 0; 83 / 27; 22 / 9; 0];
   [6; 2; 0; 22 / 9; 6; 0];
   [0; 0; 2; 0; 0; 22 / 9]].
Lemma gram_bottom : forall i j, (i < 6)%nat -> (j < 6)%nat -> normal_matrix tilt_points_bottom i j = nth j (nth i tilt_gram_bottom []) 0.
Proof.
  intros i j Hi Hj. do 6 (destruct i as [|i]; [do 6 (destruct j as [|j]; [unfold normal_matrix, mat_mul, term, quadratic_terms, tilt_points_bottom, tilt_gram_bottom; cbn [length sumn nth fst snd]; lra|]); lia|]). lia.
Qed.
Lemma normal_bottom : forall i j, (i < 6)%nat -> (j < 6)%nat -> mat_mul 6 (fun i j => nth j (nth i tilt_inv_bottom []) 0) (normal_matrix tilt_points_bottom) i j = (if Nat.eqb i j then 1 else 0)
  /\ mat_mul 6 (normal_matrix tilt_points_bottom) (fun i j => nth j (nth i tilt_inv_bottom []) 0) i j = (if Nat.eqb i j then 1 else 0).
Proof.
  intros i j Hi Hj. unfold mat_mul at 1 2. rewrite (sumn_ext 6 (fun k => normal_matrix tilt_points_bottom i k * _) (fun k => nth k (nth i tilt_gram_bottom []) 0 * nth j (nth k tilt_inv_bottom []) 0)) by (intros; now rewrite gram_bottom).
  rewrite (sumn_ext 6 (fun k => _ * normal_matrix tilt_points_bottom k j) (fun k => nth k (nth i tilt_inv_bottom []) 0 * nth j (nth k tilt_gram_bottom []) 0)) by (intros; now rewrite gram_bottom).
  do 6 (destruct i as [|i]; [do 6 (destruct j as [|j]; [unfold tilt_gram_bottom, tilt_inv_bottom; cbn [sumn nth Nat.eqb]; split; lra|]); lia|]). lia.
Qed.
Lemma tilt_inverts : inverts tilt_inv.
Proof.
  intros n M N H i j Hi Hj. unfold tilt_inv in H. destruct (Nat.eqb_spec n 6) as [->|]; [|discriminate].
  destruct (same_matrix M (normal_matrix tilt_points_top)) eqn:E1; [|destruct (same_matrix M (normal_matrix tilt_points_bottom)) eqn:E2; [|discriminate]].
  - assert (N = fun i j => nth j (nth i tilt_inv_top []) 0) as -> by congruence. destruct (normal_top i j Hi Hj) as [D1 D2].
    split; [rewrite <- D1|rewrite <- D2]; apply sumn_ext; intros k Hk; f_equal; now apply same_matrix_eq.
  - assert (N = fun i j => nth j (nth i tilt_inv_bottom []) 0) as -> by congruence. destruct (normal_bottom i j Hi Hj) as [D1 D2].
    split; [rewrite <- D1|rewrite <- D2]; apply sumn_ext; intros k Hk; f_equal; now apply same_matrix_eq.
Qed.
Lemma tilt_arange : arange (gr_row0 tilt_grid) ((gr_rowmax tilt_grid - gr_row0 tilt_grid) / (INR 3 - 1)) 3 = [0; 1; 2] /\
  arange (gr_col0 tilt_grid) ((gr_colmax tilt_grid - gr_col0 tilt_grid) / (INR 3 - 1)) 3 = [0; 1; 2].
Proof. unfold arange, gr_rowmax, gr_colmax, tilt_grid. cbn [gr_row0 gr_col0 gr_steprow gr_stepcol gr_nbrow gr_nbcol]. split; cbn; repeat f_equal; lra. Qed.
Lemma tilt_node : forall r c alt, 0 <= r <= 2 -> 0 <= c <= 2 -> 0 <= alt <= 100 ->
  finite_lonlat (hd nan3 (check_geographic (gr_epsg tilt_grid) [grid_position tilt_grid (fin r) (fin c) (fin alt)])) = Some (c + (100 - alt) / 100, r).
Proof.
  intros r c alt Hr Hc Ha. change (grid_position tilt_grid (fin r) (fin c) (fin alt)) with (grid_position tilt_grid (Some r) (Some c) (Some alt)).
  rewrite (grid_position_ground tilt_grid r c alt _ _ tilt_proper (tilt_ground r c alt)).
  destruct (check_geographic_one tilt_grid (c + (100 - alt) / 100) r alt) as [C1 _]. rewrite C1; [reflexivity|]. intros _. split; apply Rabs_le; lra.
Qed.
Lemma tilt_layer : forall alt out, 0 <= alt <= 100 ->
  grid_direct_loc_grid_h tilt_grid (gr_row0 tilt_grid) (gr_col0 tilt_grid) ((gr_rowmax tilt_grid - gr_row0 tilt_grid) / (INR 3 - 1)) ((gr_colmax tilt_grid - gr_col0 tilt_grid) / (INR 3 - 1)) 3 3 alt = Some out ->
  seq_opt (map finite_lonlat (concat out)) = Some (map (fun rc => (snd rc + (100 - alt) / 100, fst rc)) (list_prod [0; 1; 2] [0; 1; 2])).
Proof.
  intros alt out Ha H. rewrite (grid_h_concat _ _ _ _ _ _ _ _ _ H).
  destruct tilt_arange as [-> ->]. rewrite map_map. cbn [list_prod map app fst snd]. rewrite !tilt_node by lra. reflexivity.
Qed.
Ltac rminmax := repeat match goal with
  | |- context [Rmax ?a ?b] => first [rewrite (Rmax_left a b) by lra | rewrite (Rmax_right a b) by lra]
  | |- context [Rmin ?a ?b] => first [rewrite (Rmin_left a b) by lra | rewrite (Rmin_right a b) by lra]
  end.
Lemma least_squares_some : forall inv pts b N, inv 6%nat (normal_matrix pts) = Some N -> exists c, least_squares inv pts b = Some c.
Proof. intros inv pts b N H. unfold least_squares. cbv zeta. change (inv 6%nat _) with (inv 6%nat (normal_matrix pts)). rewrite H. eexists. reflexivity. Qed.
Lemma grid_h_defined : forall g row0 col0 steprow stepcol nr nc alt, steprow <> 0 -> stepcol <> 0 ->
  exists out, grid_direct_loc_grid_h g row0 col0 steprow stepcol nr nc alt = Some out.
Proof.
  intros g row0 col0 steprow stepcol nr nc alt H1 H2. unfold grid_direct_loc_grid_h.
  destruct (Req_EM_T steprow 0); [contradiction|]. destruct (Req_EM_T stepcol 0); [contradiction|]. cbv zeta.
  unfold grid_direct_loc_h.
  rewrite (flat_map_len _ _ _ nc (arange row0 steprow nr)) by (intros; unfold arange; now rewrite !map_length, seq_length).
  rewrite (flat_map_len _ _ _ nc (arange row0 steprow nr)) by (intros; unfold arange; now rewrite !map_length, seq_length).
  rewrite Nat.eqb_refl. cbn [negb]. destruct (fill_alt_one (length (arange row0 steprow nr) * nc) (fin alt)) as (al & -> & _). eexists. reflexivity.
Qed.
Lemma tilt_estimate : exists pd, estimate_inverse_loc_predictor tilt_inv tilt_grid 3 3 = Some pd.
Proof.
  unfold estimate_inverse_loc_predictor. unfold interpolate_grid_in_altitude. rewrite linspace_two.
  cbn [gr_alts tilt_grid hd last map seq_opt]. fold tilt_grid. cbv zeta.
  assert (S : (gr_rowmax tilt_grid - gr_row0 tilt_grid) / (INR 3 - 1) <> 0 /\ (gr_colmax tilt_grid - gr_col0 tilt_grid) / (INR 3 - 1) <> 0)
    by (unfold gr_rowmax, gr_colmax; cbn; lra).
  destruct S as [S1 S2].
  destruct (grid_h_defined tilt_grid (gr_row0 tilt_grid) (gr_col0 tilt_grid) _ _ 3 3 100 S1 S2) as [t Et].
  destruct (grid_h_defined tilt_grid (gr_row0 tilt_grid) (gr_col0 tilt_grid) _ _ 3 3 0 S1 S2) as [b Eb]. rewrite Et, Eb.
  apply tilt_layer in Et; [|lra]. apply tilt_layer in Eb; [|lra]. rewrite Et, Eb. clear Et Eb t b.
  set (T := map _ (list_prod [0; 1; 2] [0; 1; 2])). set (B := map (fun rc => (snd rc + (100 - 0) / 100, fst rc)) _).
  assert (ET : T = [(0, 0); (1, 0); (2, 0); (0, 1); (1, 1); (2, 1); (0, 2); (1, 2); (2, 2)]) by (unfold T; cbn; repeat (f_equal; [f_equal; lra|]); f_equal; f_equal; lra).
  assert (EB : B = [(1, 0); (2, 0); (3, 0); (1, 1); (2, 1); (3, 1); (1, 2); (2, 2); (3, 2)]) by (unfold B; cbn; repeat (f_equal; [f_equal; lra|]); f_equal; f_equal; lra).
  rewrite ET, EB. cbn [map fst snd app].
  match goal with |- context [list_max ?l + _] => assert (E1 : list_max l = 2) by (cbn [list_max fold_left]; rminmax; reflexivity); assert (E2 : list_min l = 0) by (cbn [list_min fold_left]; rminmax; reflexivity); rewrite E1, E2 end.
  match goal with |- context [list_max ?l + _] => assert (E3 : list_max l = 3) by (cbn [list_max fold_left]; rminmax; reflexivity); assert (E4 : list_min l = 0) by (cbn [list_min fold_left]; rminmax; reflexivity); rewrite E3, E4 end.
  destruct (Req_EM_T ((3 - 0) / 2) 0); [lra|]. destruct (Req_EM_T ((2 - 0) / 2) 0); [lra|].
  match goal with |- context [least_squares tilt_inv ?l (flat_map (fun _ => linspace (-1) 1 3) _)] => replace l with tilt_points_bottom by (unfold tilt_points_bottom; repeat (f_equal; [f_equal; lra|]); f_equal; f_equal; lra) end.
  match goal with |- context [least_squares tilt_inv ((((0 - _) / _), ?y) :: ?l)] => replace ((((0 - (3 + 0) / 2) / ((3 - 0) / 2)), y) :: l) with tilt_points_top by (unfold tilt_points_top; repeat (f_equal; [f_equal; lra|]); f_equal; f_equal; lra) end.
  assert (NB : same_matrix (normal_matrix tilt_points_bottom) (normal_matrix tilt_points_top) = false).
  { apply Bool.not_true_is_false. intros E. pose proof (same_matrix_eq _ _ E 0 1 ltac:(lia) ltac:(lia)) as Q. rewrite gram_top, gram_bottom in Q by lia. cbn in Q. lra. }
  assert (IT : tilt_inv 6 (normal_matrix tilt_points_top) = Some (fun i j => nth j (nth i tilt_inv_top []) 0)) by (unfold tilt_inv; cbn [Nat.eqb]; now rewrite same_matrix_refl).
  assert (IB : tilt_inv 6 (normal_matrix tilt_points_bottom) = Some (fun i j => nth j (nth i tilt_inv_bottom []) 0)) by (unfold tilt_inv; cbn [Nat.eqb]; now rewrite NB, same_matrix_refl).
  set (bc := flat_map (fun _ => linspace (-1) 1 3) (linspace (-1) 1 3)). set (br := flat_map _ (linspace (-1) 1 3)).
  destruct (least_squares_some _ _ bc _ IB) as [c1 ->]. destruct (least_squares_some _ _ br _ IB) as [c2 ->].
  destruct (least_squares_some _ _ bc _ IT) as [c3 ->]. destruct (least_squares_some _ _ br _ IT) as [c4 ->]. eexists. reflexivity.
Qed.
Example C72_least_squares_ex : proper_grid tilt_grid /\ inverts tilt_inv /\ exists pd, estimate_inverse_loc_predictor tilt_inv tilt_grid 3 3 = Some pd.
Proof. exact (conj tilt_proper (conj tilt_inverts tilt_estimate)). Qed.
Example C72_exact_ex : proper_grid tilt_grid /\ inverts tilt_inv /\ (exists pd, estimate_inverse_loc_predictor tilt_inv tilt_grid 3 3 = Some pd) /\
  exists row_top col_top row_bottom col_bottom, quadratic row_top /\ quadratic col_top /\ quadratic row_bottom /\ quadratic col_bottom /\
  (forall r c lon lat, grid_ground tilt_grid r c (hd 0 (gr_alts tilt_grid)) lon lat -> row_top lon lat = r /\ col_top lon lat = c) /\
  (forall r c lon lat, grid_ground tilt_grid r c (last (gr_alts tilt_grid) 0) lon lat -> row_bottom lon lat = r /\ col_bottom lon lat = c).
Proof.
  split; [exact tilt_proper|]. split; [exact tilt_inverts|]. split; [exact tilt_estimate|].
  destruct (affine_inverse tilt_grid (hd 0 (gr_alts tilt_grid)) tilt_proper tilt_affine_lon tilt_affine_lat (tilt_injective _)) as (frt & fct & Q1 & Q2 & FT).
  destruct (affine_inverse tilt_grid (last (gr_alts tilt_grid) 0) tilt_proper tilt_affine_lon tilt_affine_lat (tilt_injective _)) as (frb & fcb & Q3 & Q4 & FB).
  exists frt, fct, frb, fcb. auto 10.
Qed.
(** Pixel (1/2, 5/4) at the altitude 40. *)
Example C72_affine_inverse_loc_ex : exists pd, estimate_inverse_loc_predictor tilt_inv tilt_grid 3 3 = Some pd /\
  grid_inverse_loc tilt_grid (Some pd) 15 [fin (5 / 4 + 60 / 100)] [fin (1 / 2)] [fin 40] = Some [(fin (1 / 2), fin (5 / 4), fin 40)].
Proof.
  destruct tilt_estimate as [pd E]. exists pd. split; [exact E|].
  assert (HT : grid_ground tilt_grid (1 / 2) (5 / 4 + 60 / 100) (hd 0 (gr_alts tilt_grid)) (5 / 4 + 60 / 100) (1 / 2)).
  { pose proof (tilt_ground (1 / 2) (5 / 4 + 60 / 100) 100) as G. replace (5 / 4 + 60 / 100 + (100 - 100) / 100) with (5 / 4 + 60 / 100) in G by lra. exact G. }
  assert (HB : grid_ground tilt_grid (1 / 2) (5 / 4 + 60 / 100 - 1) (last (gr_alts tilt_grid) 0) (5 / 4 + 60 / 100) (1 / 2)).
  { pose proof (tilt_ground (1 / 2) (5 / 4 + 60 / 100 - 1) 0) as G. replace (5 / 4 + 60 / 100 - 1 + (100 - 0) / 100) with (5 / 4 + 60 / 100) in G by lra. exact G. }
  assert (HG : grid_ground tilt_grid (1 / 2) (5 / 4) 40 (5 / 4 + 60 / 100) (1 / 2)).
  { pose proof (tilt_ground (1 / 2) (5 / 4) 40) as G. replace (100 - 40) with 60 in G by lra. exact G. }
  eapply (C72_affine_inverse_loc tilt_inv tilt_grid 3 3 pd 15 (1 / 2) (5 / 4) 40 _ _ _ _ _ _ _ _ tilt_proper); try exact HT; try exact HB; try exact HG; try exact E;
    try exact tilt_affine_lon; try exact tilt_affine_lat; try exact tilt_injective; try exact tilt_inverts; try lia; try (apply Rabs_le; lra).
  - apply tilt_ground.
  - intros _. cbn [gr_alts tilt_grid hd last]. unfold lerp. split; apply Rabs_le; lra.
Qed.
