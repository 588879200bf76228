(** C36: reading a multi-altitude grid. *)
From Coq Require Import Reals ZArith List Bool Ascii String Permutation Sorted Lia Lra.
From Verif Require Import Num NumLemmas InterpModel ProjModel PyStrModel ReadersModel ReadersProofs GridModel GridReadModel.
Import ListNotations.
Open Scope string_scope.

(** ** Specification *)
(** A layer: its altitude and its bands of longitudes and latitudes. *)
Definition layer3 : Type := R * raster * raster.
(** The bands of the file are the ones of the layers, one layer after the other; with a status band each
    layer has a third band. *)
Inductive stored (status : bool) : list layer3 -> list raster -> Prop :=
| stored_nil : stored status [] []
| stored_cons : forall a lon lat extra ls bands, List.length extra = (if status then 1 else 0)%nat -> stored status ls bands ->
    stored status ((a, lon, lat) :: ls) (lon :: lat :: extra ++ bands)%list.
(** The tags: a value "status" if there are status bands; the altitude of the layer of the band X is the value
    of ALTITUDE_BX, for one band of each layer at least; no other tag has ALTITUDE in its name. *)
Definition tagged (pyint : string -> option Z) (pyfloat : string -> option num) (status : bool) (ls : list layer3) (tags : list (string * string)) : Prop :=
  ((exists k, In (k, "status") tags) <-> status = true) /\
  (forall k v, In (k, v) tags -> contains "ALTITUDE" k = true ->
     exists x b l, k = "ALTITUDE_B" ++ x /\ contains "B" x = false /\ pyint x = Some (Z.of_nat b) /\
       nth_error ls (b / (if status then 3 else 2))%nat = Some l /\ pyfloat v = Some (fin (fst (fst l)))) /\
  (forall n, (n < List.length ls)%nat -> exists k v x b, In (k, v) tags /\ k = "ALTITUDE_B" ++ x /\ contains "B" x = false /\
     pyint x = Some (Z.of_nat b) /\ (b / (if status then 3 else 2))%nat = n).
(** What [np.argsort] promises: the indices, in an order that sorts the values. *)
Definition argsort_ok (argsort : list R -> list nat) : Prop :=
  forall l, Permutation (argsort l) (seq 0 (List.length l)) /\ Sorted Rle (map (fun i => nth i l 0%R) (argsort l)).
(** The layers of a grid. *)
Definition layers_of (g : grid) : list layer3 := combine (combine (gr_alts g) (gr_lon g)) (gr_lat g).
(** The tags of the coordinate system, when there are, are readable. *)
Definition epsg_readable (pyint : string -> option Z) (tags : list (string * string)) : Prop :=
  forall k v, In (k, v) tags -> endswith k "REF" = true -> prefix "EPSG:" v = true ->
    exists x n, v = "EPSG:" ++ x /\ contains ":" x = false /\ pyint x = Some n.

(** ** Proofs *)
Lemma contains_char : forall c s, contains (String c "") s = false -> forall a b, s <> a ++ String c b.
Proof.
  intros c s H a; revert s H. induction a as [|x a IH]; intros s H b E; subst s; unfold contains in H.
  - simpl in H. destruct (ascii_dec c c); [|congruence]. replace (prefix "" b) with true in H by (destruct b; reflexivity). discriminate H.
  - apply (IH (a ++ String c b)) with (b := b); [|reflexivity]. unfold contains.
    change (String x a ++ String c b) with (String x (a ++ String c b)) in H. cbn [index] in H.
    destruct (prefix (String c "") (String x (a ++ String c b))); [discriminate H|]. destruct (index 0 (String c "") (a ++ String c b)); [discriminate H|reflexivity].
Qed.
Lemma split_char_last : forall c s w, (forall a b, s <> a ++ String c b) -> split_char c s w = [rev_string (rev_string s w) ""].
Proof.
  intros c; induction s as [|d s IH]; intros w H; [reflexivity|]. simpl. destruct (Ascii.eqb_spec d c) as [->|N]; [exfalso; exact (H "" s eq_refl)|].
  rewrite IH; [reflexivity|]. intros a b ->. exact (H (String d a) b eq_refl).
Qed.
Lemma altitude_key : forall x, contains "B" x = false -> second_of (split_char "B" ("ALTITUDE_B" ++ x) "") = Ok x.
Proof.
  intros x H. assert (E : split_char "B" ("ALTITUDE_B" ++ x) "" = "ALTITUDE_" :: split_char "B" x "") by reflexivity.
  rewrite E, (split_char_last "B" x "" (contains_char _ _ H)). cbn [second_of]. now rewrite rev_rev.
Qed.
Lemma epsg_value : forall x, contains ":" x = false -> second_of (split_char ":" ("EPSG:" ++ x) "") = Ok x.
Proof.
  intros x H. assert (E : split_char ":" ("EPSG:" ++ x) "" = "EPSG" :: split_char ":" x "") by reflexivity.
  rewrite E, (split_char_last ":" x "" (contains_char _ _ H)). cbn [second_of]. now rewrite rev_rev.
Qed.
Lemma set_at_length : forall n v l, List.length (set_at n v l) = List.length l.
Proof. intros n v l; revert n; induction l as [|x l IH]; intros [|n]; simpl; auto. Qed.
Lemma set_at_nth : forall l n v m, (n < List.length l)%nat -> nth m (set_at n v l) 0%R = if Nat.eqb m n then v else nth m l 0%R.
Proof.
  induction l as [|x l IH]; intros n v m H; simpl in H; [lia|]. destruct n as [|n], m as [|m]; simpl; try reflexivity. apply IH. lia.
Qed.
Lemma stored_length : forall status ls bands, stored status ls bands -> List.length bands = (List.length ls * layer_bands status)%nat.
Proof.
  induction 1 as [|a lon lat extra ls bands He Hs IH]; [reflexivity|]. simpl. rewrite app_length, He, IH. destruct status; simpl; lia.
Qed.
Lemma stored_nth : forall status ls bands, stored status ls bands -> forall n a lon lat, nth_error ls n = Some (a, lon, lat) ->
  nth (n * layer_bands status) bands no_layer = lon /\ nth (n * layer_bands status + 1) bands no_layer = lat.
Proof.
  induction 1 as [|a lon lat extra ls bands He Hs IH]; intros n a' lon' lat' H; [destruct n; discriminate H|].
  destruct n as [|n]; simpl in H.
  - injection H as -> -> ->. auto.
  - destruct (IH _ _ _ _ H) as [A B].
    assert (E : (lon :: lat :: extra ++ bands)%list = ((lon :: lat :: extra) ++ bands)%list) by reflexivity. rewrite E.
    assert (L : List.length (lon :: lat :: extra) = layer_bands status) by (simpl; rewrite He; destruct status; reflexivity).
    split; rewrite app_nth2; rewrite L; try (simpl; lia).
    + replace (S n * layer_bands status - layer_bands status)%nat with (n * layer_bands status)%nat by (simpl; lia). exact A.
    + replace (S n * layer_bands status + 1 - layer_bands status)%nat with (n * layer_bands status + 1)%nat by (simpl; lia). exact B.
Qed.
Lemma substring_all : forall s n, (String.length s <= n)%nat -> substring 0 n s = s.
Proof. induction s as [|c s IH]; intros [|n] H; simpl in *; try reflexivity; [lia|]. f_equal. apply IH. lia. Qed.

Section C36.
Context (pyint : string -> option Z) (pyfloat : string -> option num) (argsort : list R -> list nat).

(** Each tag writes the altitude of its layer: at the end a layer has its altitude if a tag speaks of it, or had it. *)
Lemma read_altitudes_ok : forall status (ls : list layer3) tags a,
  List.length a = List.length ls ->
  (forall k v, In (k, v) tags -> contains "ALTITUDE" k = true ->
     exists x b l, k = "ALTITUDE_B" ++ x /\ contains "B" x = false /\ pyint x = Some (Z.of_nat b) /\
       nth_error ls (b / layer_bands status)%nat = Some l /\ pyfloat v = Some (fin (fst (fst l)))) ->
  exists a', read_altitudes pyint pyfloat tags status a = Ok a' /\ List.length a' = List.length ls /\
    forall n l, nth_error ls n = Some l ->
      (nth n a 0%R = fst (fst l) \/ exists k v x b, In (k, v) tags /\ k = "ALTITUDE_B" ++ x /\ contains "B" x = false /\ pyint x = Some (Z.of_nat b) /\ (b / layer_bands status)%nat = n) ->
      nth n a' 0%R = fst (fst l).
Proof.
  intros status ls tags; induction tags as [|[key value] tags IH]; intros a La H.
  - exists a. split; [reflexivity|]. split; [exact La|]. intros n l Hn [E|(k & v & x & b & [] & _)]. exact E.
  - cbn [read_altitudes]. destruct (contains "ALTITUDE" key) eqn:C.
    + destruct (H key value (or_introl eq_refl) C) as (x & b & l0 & -> & Hx & Hb & Hl & Hv).
      rewrite (altitude_key _ Hx). cbn [bind]. unfold py_int at 1. rewrite Hb. cbn [bind]. unfold py_finite at 1. rewrite Hv. cbn [bind fin].
      assert (Hlt : (b / layer_bands status < List.length ls)%nat) by (apply nth_error_Some; congruence).
      assert (Q : Z.quot (Z.of_nat b) (Z.of_nat (layer_bands status)) = Z.of_nat (b / layer_bands status)).
      { rewrite Z.quot_div_nonneg by (destruct status; simpl; lia). now rewrite Nat2Z.inj_div. }
      unfold store. rewrite Q. rewrite La.
      replace ((0 <=? Z.of_nat (b / layer_bands status)) && (Z.of_nat (b / layer_bands status) <? Z.of_nat (List.length ls)))%Z with true
        by (symmetry; apply andb_true_intro; split; [apply Z.leb_le|apply Z.ltb_lt]; lia).
      cbn [bind]. rewrite Nat2Z.id.
      destruct (IH (set_at (b / layer_bands status) (fst (fst l0)) a)) as (a' & Ra & La' & Na).
      { now rewrite set_at_length. }
      { intros k v Hk. apply (H k v). now right. }
      exists a'. split; [exact Ra|]. split; [exact La'|]. intros n l Hn D. apply (Na n l Hn).
      destruct (Nat.eq_dec n (b / layer_bands status)) as [->|Ne].
      * left. rewrite set_at_nth by lia. rewrite Nat.eqb_refl. congruence.
      * destruct D as [D|(k & v & y & b' & [E|Hin] & Hk & Hy & Hb' & Hn')].
        -- left. rewrite set_at_nth by lia. destruct (Nat.eqb_spec n (b / layer_bands status)); [contradiction|exact D].
        -- exfalso. injection E as E1 _. rewrite <- E1 in Hk. injection Hk as Hk. subst y. rewrite Hb in Hb'. injection Hb' as Hb'. apply Nat2Z.inj in Hb'. subst b'. congruence.
        -- right. now exists k, v, y, b'.
    + destruct (IH a La) as (a' & Ra & La' & Na); [intros k v Hk; apply (H k v); now right|].
      exists a'. split; [exact Ra|]. split; [exact La'|]. intros n l Hn [D|(k & v & y & b' & [E|Hin] & Hk & R)]; apply (Na n l Hn); [auto| |right; now exists k, v, y, b'].
      exfalso. injection E as -> _. subst k. discriminate C.
Qed.
Lemma read_epsg_ok : forall tags e, epsg_readable pyint tags -> exists e', read_epsg pyint tags e = Ok e'.
Proof.
  induction tags as [|[key value] tags IH]; intros e H; [now exists e|]. cbn [read_epsg].
  assert (H' : epsg_readable pyint tags) by (intros k v Hk; apply (H k v); now right).
  destruct (endswith key "REF") eqn:E; [|now apply IH]. destruct (prefix "EPSG:" value) eqn:P; [|now apply IH].
  destruct (H key value (or_introl eq_refl) E P) as (x & n & -> & Hx & Hn). rewrite (epsg_value _ Hx). cbn [bind]. unfold py_int. rewrite Hn. now apply IH.
Qed.
Lemma status_ok : forall status tags, ((exists k, In (k, "status") tags) <-> status = true) -> check_status_band tags = status.
Proof.
  intros status tags H. unfold check_status_band. destruct (existsb (fun kv => String.eqb (snd kv) "status") tags) eqn:E.
  - apply existsb_exists in E as ([k v] & Hk & E). apply String.eqb_eq in E. simpl in E. subst v. symmetry. apply H. now exists k.
  - destruct status; [|reflexivity]. destruct (proj2 H eq_refl) as [k Hk].
    assert (K : existsb (fun kv => String.eqb (snd kv) "status") tags = true) by (apply existsb_exists; exists (k, "status"); auto). congruence.
Qed.
Lemma combine_map : forall (A B C : Type) (f : A -> B) (g : A -> C) l, combine (map f l) (map g l) = map (fun x => (f x, g x)) l.
Proof. induction l as [|a l IH]; [reflexivity|]. simpl. now rewrite IH. Qed.
Lemma map_nth_seq : forall (A : Type) (d : A) l, map (fun i => nth i l d) (seq 0 (List.length l)) = l.
Proof.
  intros A d l. induction l as [|a l IH]; [reflexivity|]. simpl. f_equal. rewrite <- seq_shift, map_map. exact IH.
Qed.
Lemma sorted_rev : forall l, Sorted Rle l -> Sorted Rge (rev l).
Proof.
  intros l H. apply Sorted_StronglySorted in H; [|intros a b c; lra]. apply StronglySorted_Sorted.
  induction H as [|a l Hl IH Ha]; [constructor|]. simpl. clear Hl. revert IH. rewrite Forall_forall in Ha.
  assert (G : forall m, (forall x, In x m -> (a <= x)%R) -> StronglySorted Rge m -> StronglySorted Rge (m ++ [a])%list).
  { induction m as [|b m IHm]; intros Hm S; simpl; [constructor; [constructor|constructor]|]. inversion S as [|x y Sx Fx]; subst. constructor.
    - apply IHm; [intros x Hx; apply Hm; now right|exact Sx].
    - apply Forall_app. split; [exact Fx|]. constructor; [|constructor]. apply Rle_ge. apply Hm. now left. }
  intros S. apply G; [|exact S]. intros x Hx. apply Ha. now apply in_rev.
Qed.

(** The grid has the layers of the file, each with its bands, from the highest to the lowest. *)
Theorem C36_layers_from_top_to_bottom :
  forall status ls f, argsort_ok argsort -> gf_driver f = "GTiff" -> stored status ls (gf_bands f) -> tagged pyint pyfloat status ls (gf_tags f) ->
    epsg_readable pyint (gf_tags f) ->
    exists g, read_grid pyint pyfloat argsort f = Ok g /\ Permutation (layers_of g) ls /\ Sorted Rge (gr_alts g) /\
      List.length (gr_alts g) = List.length ls /\ List.length (gr_lon g) = List.length ls /\ List.length (gr_lat g) = List.length ls.
Proof.
  intros status ls f Hsort Hd Hs (Hst & Hk & Hc) He. unfold read_grid. rewrite Hd, String.eqb_refl. cbn [negb].
  rewrite (status_ok _ _ Hst).
  assert (Hb : (List.length (gf_bands f) / layer_bands status)%nat = List.length ls).
  { rewrite (stored_length _ _ _ Hs). apply Nat.div_mul. destruct status; discriminate. }
  rewrite Hb.
  assert (Hlb : (if status then 3 else 2)%nat = layer_bands status) by (destruct status; reflexivity). rewrite Hlb in Hk, Hc.
  destruct (read_altitudes_ok status ls (gf_tags f) (repeat 0%R (List.length ls)) (repeat_length _ _) Hk) as (a & Ra & La & Na).
  assert (Ea : a = map (fun l => fst (fst l)) ls).
  { apply (nth_ext _ _ 0%R 0%R); [now rewrite map_length|]. intros n Hn. rewrite La in Hn.
    destruct (nth_error ls n) as [l|] eqn:E; [|apply nth_error_None in E; lia].
    rewrite (Na n l E); [|right; exact (Hc n Hn)]. symmetry. apply nth_error_nth. exact (map_nth_error (fun l : layer3 => fst (fst l)) n ls E). }
  unfold parse_metadata_alti. rewrite Ra. cbn [bind].
  destruct (read_epsg_ok _ None He) as (e & ->). cbn [bind].
  destruct (Hsort a) as [P S]. set (idx := rev (argsort a)).
  assert (Pi : Permutation idx (seq 0 (List.length ls))) by (unfold idx; rewrite <- Permutation_rev; rewrite La in P; exact P).
  eexists. split; [reflexivity|]. cbn [gr_alts gr_lon gr_lat layers_of].
  assert (Ll : List.length idx = List.length ls) by (apply Permutation_length in Pi; now rewrite seq_length in Pi).
  split; [|split; [|rewrite !map_length; auto]].
  - unfold layers_of. cbn [gr_alts gr_lon gr_lat]. rewrite !combine_map.
    rewrite (Permutation_map _ Pi).
    apply Permutation_refl'. set (d := (0%R, no_layer, no_layer) : layer3). rewrite <- (map_nth_seq _ d ls) at 2.
    apply map_ext_in. intros i Hi. apply in_seq in Hi.
    destruct (nth_error ls i) as [[[al lo] la]|] eqn:E; [|apply nth_error_None in E; lia].
    destruct (stored_nth _ _ _ Hs _ _ _ _ E) as [-> ->]. rewrite (nth_error_nth _ _ d E).
    rewrite Ea. rewrite (nth_error_nth _ _ _ (map_nth_error (fun l : layer3 => fst (fst l)) i ls E)). reflexivity.
  - unfold idx. rewrite map_rev. now apply sorted_rev.
Qed.
(** A layer without an altitude tag is put at altitude zero, without an exception. *)
Theorem C36_missing_altitude_refuted :
  forall f lon lat, argsort_ok argsort -> gf_driver f = "GTiff" -> gf_tags f = [] -> gf_bands f = [lon; lat] ->
    exists g, read_grid pyint pyfloat argsort f = Ok g /\ gr_alts g = [0%R].
Proof.
  intros f lon lat Hsort Hd Ht Hb. unfold read_grid, parse_metadata_alti. rewrite Hd, Ht, Hb. cbn.
  eexists. split; [reflexivity|]. cbn [gr_alts]. destruct (Hsort [0%R]) as [P _]. simpl in P. apply Permutation_sym, Permutation_length_1_inv in P. rewrite P. reflexivity.
Qed.
(** The geotransform of the file, applied to a column and a row: the position in the image (column, row). *)
Definition image_position (t : affine) (col row : R) : R * R := (af_a t * col + af_b t * row + af_c t, af_d t * col + af_e t * row + af_f t)%R.
(** The node of the row i and of the column j is at the position that the geotransform of the file gives,
    when it has no rotation; the sizes are the ones of the first band. *)
Theorem C36_nodes_are_where_the_file_says :
  forall f g, read_grid pyint pyfloat argsort f = Ok g -> af_b (gf_transform f) = 0%R -> af_d (gf_transform f) = 0%R ->
    (forall i j, (gr_col0 g + j * gr_stepcol g, gr_row0 g + i * gr_steprow g)%R = image_position (gf_transform f) j i) /\
    gr_nbrow g = rs_rows (hd no_layer (gf_bands f)) /\ gr_nbcol g = rs_cols (hd no_layer (gf_bands f)).
Proof.
  intros f g H Eb Ed. unfold read_grid in H. destruct (negb _); [discriminate|].
  destruct (parse_metadata_alti _ _ _ _ _ _) as [[idx alts]|]; [|discriminate]. cbn [bind] in H.
  destruct (read_epsg _ _ _) as [e|]; [|discriminate]. cbn [bind] in H. injection H as <-. cbn.
  split; [|split; reflexivity]. intros i j. unfold image_position. rewrite Eb, Ed. f_equal; ring.
Qed.
(** A rotation in the geotransform is dropped without an exception. *)
Theorem C36_rotation_dropped_refuted :
  forall f g, read_grid pyint pyfloat argsort f = Ok g -> af_b (gf_transform f) <> 0%R ->
    (gr_col0 g + 0 * gr_stepcol g, gr_row0 g + 1 * gr_steprow g)%R <> image_position (gf_transform f) 0 1.
Proof.
  intros f g H Eb. unfold read_grid in H. destruct (negb _); [discriminate|].
  destruct (parse_metadata_alti _ _ _ _ _ _) as [[idx alts]|]; [|discriminate]. cbn [bind] in H.
  destruct (read_epsg _ _ _) as [e|]; [|discriminate]. cbn [bind] in H. injection H as <-. cbn.
  unfold image_position. intros H. injection H as H _. apply Eb. lra.
Qed.
(** The coordinate system: the number after "EPSG:" in the last tag whose name ends with REF; a value
    without "EPSG:" is WGS84; without such a tag there is none. *)
Theorem C36_coordinate_system :
  forall f g before k v after, read_grid pyint pyfloat argsort f = Ok g -> gf_tags f = (before ++ (k, v) :: after)%list -> endswith k "REF" = true ->
    (forall k' v', In (k', v') after -> endswith k' "REF" = false) ->
    (forall x n, v = "EPSG:" ++ x -> contains ":" x = false -> pyint x = Some n -> gr_epsg g = Some n) /\
    ((forall x, v <> "EPSG:" ++ x) -> gr_epsg g = Some 4326%Z).
Proof.
  intros f g before k v after H Ht Hk Ha. unfold read_grid in H. destruct (negb _); [discriminate|].
  destruct (parse_metadata_alti _ _ _ _ _ _) as [[idx alts]|]; [|discriminate]. cbn [bind] in H.
  destruct (read_epsg pyint (gf_tags f) None) as [e|] eqn:E; [|discriminate]. cbn [bind] in H. injection H as <-. cbn [gr_epsg].
  assert (NR : forall l, (forall k' v', In (k', v') l -> endswith k' "REF" = false) -> forall e0, read_epsg pyint l e0 = Ok e0).
  { induction l as [|[k' v'] l IH]; intros Hl e0; [reflexivity|]. cbn [read_epsg]. rewrite (Hl k' v' (or_introl eq_refl)). apply IH. intros a b Hab. apply (Hl a b). now right. }
  rewrite Ht in E. clear Ht alts idx. revert E. generalize (@None Z) as e0. induction before as [|[k1 v1] before IH]; intros e0 E.
  - cbn [app read_epsg] in E. rewrite Hk in E. split.
    + intros x n Ev Hx Hn. assert (P : prefix "EPSG:" v = true) by (subst v; simpl; destruct x; reflexivity).
      rewrite P in E. rewrite Ev, (epsg_value _ Hx) in E. cbn [bind] in E. unfold py_int in E. rewrite Hn in E. cbn [bind] in E. rewrite (NR _ Ha) in E. now injection E.
    + intros Hv. destruct (prefix "EPSG:" v) eqn:P.
      * exfalso. apply prefix_correct in P. pose proof (Hv (substring 5 (String.length v) v)) as K. apply K. clear - P.
        do 5 (destruct v as [|? v]; [discriminate P|]). cbn in P. injection P as -> -> -> -> -> . simpl.
        rewrite substring_all; [reflexivity|lia].
      * rewrite (NR _ Ha) in E. now injection E.
  - cbn [app read_epsg] in E. destruct (endswith k1 "REF"); [|now apply IH in E].
    destruct (prefix "EPSG:" v1); [|now apply IH in E]. destruct (second_of _) as [s|]; [|discriminate E]. cbn [bind] in E.
    destruct (py_int _ s); [|discriminate E]. cbn [bind] in E. now apply IH in E.
Qed.
Theorem C36_no_coordinate_system :
  forall f g, read_grid pyint pyfloat argsort f = Ok g -> (forall k v, In (k, v) (gf_tags f) -> endswith k "REF" = false) -> gr_epsg g = None.
Proof.
  intros f g H Ha. unfold read_grid in H. destruct (negb _); [discriminate|].
  destruct (parse_metadata_alti _ _ _ _ _ _) as [[idx alts]|]; [|discriminate]. cbn [bind] in H.
  assert (NR : forall l, (forall k' v', In (k', v') l -> endswith k' "REF" = false) -> forall e0, read_epsg pyint l e0 = Ok e0).
  { induction l as [|[k' v'] l IH]; intros Hl e0; [reflexivity|]. cbn [read_epsg]. rewrite (Hl k' v' (or_introl eq_refl)). apply IH. intros a b Hab. apply (Hl a b). now right. }
  rewrite (NR _ Ha) in H. cbn [bind] in H. injection H as <-. reflexivity.
Qed.
End C36.

(** ** Example *)
(** An argsort by insertion. *)
Fixpoint put (l : list R) (i : nat) (s : list nat) : list nat :=
  match s with [] => [i] | j :: s => if Rleb (nth i l 0%R) (nth j l 0%R) then i :: j :: s else j :: put l i s end.
Definition ex_argsort (l : list R) : list nat := fold_right (put l) [] (seq 0 (List.length l)).
Lemma put_perm : forall l i s, Permutation (put l i s) (i :: s).
Proof. intros l i s; induction s as [|j s IH]; [reflexivity|]. simpl. destruct (Rleb _ _); [reflexivity|]. rewrite IH. apply perm_swap. Qed.
Lemma put_sorted : forall l i s, Sorted Rle (map (fun i => nth i l 0%R) s) -> Sorted Rle (map (fun i => nth i l 0%R) (put l i s)).
Proof.
  intros l i s; induction s as [|j s IH]; intros H; [repeat constructor|]. simpl. destruct (Rleb_spec (nth i l 0%R) (nth j l 0%R)) as [Le|Gt].
  - simpl. constructor; [exact H|]. now constructor.
  - simpl in *. inversion H as [|x y Hs Hh]; subst. constructor; [now apply IH|].
    destruct s as [|k s]; simpl; [constructor; lra|]. destruct (Rleb (nth i l 0%R) (nth k l 0%R)); simpl; constructor; [lra|]. simpl in Hh. now inversion Hh.
Qed.
Example C36_example_argsort : argsort_ok ex_argsort.
Proof.
  intro l. unfold ex_argsort. generalize (seq 0 (List.length l)) as s. intro s. split.
  - induction s as [|i s IH]; [reflexivity|]. simpl. rewrite put_perm. now constructor.
  - induction s as [|i s IH]; [constructor|]. simpl. now apply put_sorted.
Qed.
(** Three layers out of order, with a status band each, the tags of the documentation. *)
Definition ex_int (s : string) : option Z :=
  if String.eqb s "0" then Some 0%Z else if String.eqb s "3" then Some 3%Z else if String.eqb s "4" then Some 4%Z else if String.eqb s "6" then Some 6%Z
  else if String.eqb s "4326" then Some 4326%Z else None.
Definition ex_alt (s : string) : option num :=
  if String.eqb s "-30.0" then Some (fin (-30)) else if String.eqb s "1000.0" then Some (fin 1000) else if String.eqb s "485.0" then Some (fin 485) else None.
Definition ex_band (v : R) : raster := mkRaster 2 2 (fun _ _ => v).
Definition ex_layers : list layer3 := [((-30)%R, ex_band 1, ex_band 2); (1000%R, ex_band 3, ex_band 4); (485%R, ex_band 5, ex_band 6)].
Definition ex_file : grid_file :=
  mkGridFile "GTiff" [("BAND3", "status"); ("ALTITUDE_B0", "-30.0"); ("ALTITUDE_B3", "1000.0"); ("ALTITUDE_B4", "1000.0"); ("ALTITUDE_B6", "485.0"); ("REF", "EPSG:4326")]
    [ex_band 1; ex_band 2; ex_band 0; ex_band 3; ex_band 4; ex_band 0; ex_band 5; ex_band 6; ex_band 0] (mkAffine 1 0 0 0 1 0).
Example C36_example_file : gf_driver ex_file = "GTiff" /\ stored true ex_layers (gf_bands ex_file) /\ tagged ex_int ex_alt true ex_layers (gf_tags ex_file) /\ epsg_readable ex_int (gf_tags ex_file).
Proof.
  split; [reflexivity|]. split; [|split; [split; [|split]|]].
  - unfold ex_layers, ex_file, gf_bands.
    apply (stored_cons true _ _ _ [ex_band 0]); [reflexivity|]. apply (stored_cons true _ _ _ [ex_band 0]); [reflexivity|]. apply (stored_cons true _ _ _ [ex_band 0] _ []); [reflexivity|]. constructor.
  - split; [reflexivity|]. intros _. exists "BAND3". now left.
  - intros k v H C. unfold ex_file, gf_tags in H. repeat (destruct H as [H|H]; [injection H as <- <-|]); try discriminate C; [| | | |destruct H].
    + exists "0", 0%nat, ((-30)%R, ex_band 1, ex_band 2). repeat split.
    + exists "3", 3%nat, (1000%R, ex_band 3, ex_band 4). repeat split.
    + exists "4", 4%nat, (1000%R, ex_band 3, ex_band 4). repeat split.
    + exists "6", 6%nat, (485%R, ex_band 5, ex_band 6). repeat split.
  - intros n Hn. destruct n as [|[|[|n]]]; [| | |simpl in Hn; lia].
    + exists "ALTITUDE_B0", "-30.0", "0", 0%nat. repeat split. simpl. tauto.
    + exists "ALTITUDE_B3", "1000.0", "3", 3%nat. repeat split. simpl. tauto.
    + exists "ALTITUDE_B6", "485.0", "6", 6%nat. repeat split. simpl. tauto.
  - intros k v H E P. unfold ex_file, gf_tags in H. repeat (destruct H as [H|H]; [injection H as <- <-|]); try discriminate P; try discriminate E; [|destruct H].
    exists "4326", 4326%Z. repeat split.
Qed.
(** A file whose nodes are every 5 columns and every 7 rows from the column 2 and the row 3, in the system 4326. *)
Definition ex_file2 : grid_file := mkGridFile "GTiff" (gf_tags ex_file) (gf_bands ex_file) (mkAffine 5 0 2 0 7 3).
Example C36_example_nodes : exists g, read_grid ex_int ex_alt ex_argsort ex_file2 = Ok g /\
  (gr_col0 g = 2 /\ gr_row0 g = 3 /\ gr_col0 g + 1 * gr_stepcol g = 7 /\ gr_row0 g + 1 * gr_steprow g = 10)%R /\ gr_epsg g = Some 4326%Z.
Proof.
  destruct C36_example_file as (H1 & H2 & H3 & H4).
  destruct (C36_layers_from_top_to_bottom ex_int ex_alt ex_argsort true ex_layers ex_file2 C36_example_argsort H1 H2 H3 H4) as (g & E & _).
  exists g. split; [exact E|].
  destruct (C36_nodes_are_where_the_file_says _ _ _ _ _ E eq_refl eq_refl) as [N _].
  pose proof (N 0%R 0%R) as N0. pose proof (N 1%R 1%R) as N1. unfold image_position in N0, N1. cbn in N0, N1. injection N0 as N0 N0'. injection N1 as N1 N1'.
  split; [repeat split; lra|].
  destruct (C36_coordinate_system ex_int ex_alt ex_argsort ex_file2 g (removelast (gf_tags ex_file)) "REF" "EPSG:4326" [] E eq_refl eq_refl) as [C _]; [intros k' v' []|].
  apply (C "4326" 4326%Z); reflexivity.
Qed.
