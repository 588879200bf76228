(** C94: the functions of the compiled model on vectors, and what they read. *)
From Coq Require Import Reals ZArith List Bool Lia Lra.
From Verif Require Import Num NumLemmas ProjModel RpcModel CppRpcModel CppMemModel StripMemModel StripMem OptimModel VecMemModel VecMem PropertiesRpc.
Import ListNotations.
Open Scope Z_scope.

(** The number of points that a call on two vectors of coordinates deals with. *)
Definition points (a b : list num) : nat := Nat.min (length a) (length b).
(** Point [i] has a coordinate that is NaN; it has two numbers. *)
Definition nan_at (a b : list num) (i : nat) : Prop := nth_error a i = Some nan \/ nth_error b i = Some nan.
Definition usable_at (a b : list num) (i : nat) : Prop :=
  exists x y, nth_error a i = Some (fin x) /\ nth_error b i = Some (fin y).
(** There is an altitude to start from. *)
Definition has_altitude (a b alt : list num) : Prop := alt <> [] \/ a = [] \/ b = [].
(** Every point with a NaN coordinate has an altitude of its own. *)
Definition nan_covered (a b alt : list num) : Prop :=
  forall i, (i < points a b)%nat -> nan_at a b i -> (i < length alt)%nat.

Lemma point_call (point : num -> num -> num -> option num -> option row3) set lon lat alt :
  (forall x y a a' ai, isnan x || isnan y = true -> point x y a ai = point x y a' ai) ->
  (forall x y a ai ai', isnan x || isnan y = false -> point x y a ai = point x y a ai') ->
  has_altitude lon lat alt -> nan_covered lon lat alt ->
  (set = true \/ forall i, ~ usable_at lon lat i) ->
  mem_rational_vec set point lon lat alt =
  call (match check_sizes lon lat alt with
        | None => None
        | Some (lon', lat', alt') => seq_opt (map (fun p => let '(x, y, a, i) := p in point x y a (nth_error alt i)) (zip4 lon' lat' alt' (seq 0 (length lon'))))
        end).
Proof.
  intros HN HF HA HC HS. unfold mem_rational_vec. rewrite sizes_call by exact HA.
  destruct (check_sizes lon lat alt) as [[[a b] c]|] eqn:E; [|reflexivity]. cbn [call bind].
  destruct (sizes_shape _ _ _ _ _ _ E) as (Ea & Eb & La & Lb & Lc).
  apply (for_each_zip4 (fun p => let '(x, y, al, i) := p in point x y al (nth_error alt i))); [lia|lia|apply seq_length|].
  intros k x y z t Hx Hy Hz Ht. cbn [Z.add].
  assert (Hk : (k < length a)%nat) by (apply nth_error_Some; congruence).
  assert (Et : t = k). { apply (nth_error_nth _ _ O) in Ht. rewrite seq_nth in Ht by exact Hk. lia. } subst t.
  replace (0 + Z.of_nat k) with (Z.of_nat k) by lia. rewrite (read_some _ _ _ Hx), (read_some _ _ _ Hy). cbn [bind].
  rewrite Ea in Hx. rewrite Eb in Hy. apply nth_firstn in Hx as [Kn Hx]. apply nth_firstn in Hy as [_ Hy].
  destruct (isnan x || isnan y) eqn:N.
  - assert (K : (k < length alt)%nat).
    { apply HC; [exact Kn|]. unfold nan_at. apply orb_prop in N. destruct N as [N|N]; [left; destruct x|right; destruct y]; try discriminate; assumption. }
    destruct (nth_error alt k) as [al|] eqn:Eal; [|apply nth_error_None in Eal; lia].
    rewrite (read_some _ _ _ Eal). cbn [bind]. f_equal. now apply HN.
  - rewrite (read_some _ _ _ Hz). cbn [bind]. destruct set.
    + f_equal. now apply HF.
    + exfalso. destruct HS as [HS|HS]; [discriminate|]. apply (HS k). destruct x as [x|], y as [y|]; try discriminate. exists x, y. auto.
Qed.
Lemma point_ran point set lon lat alt r : mem_rational_vec set point lon lat alt = Ran r ->
  has_altitude lon lat alt /\ nan_covered lon lat alt /\ (set = true \/ forall i, (i < points lon lat)%nat -> ~ usable_at lon lat i) /\
  length r = points lon lat.
Proof.
  unfold mem_rational_vec. destruct (mem_check_sizes lon lat alt) as [v| | |] eqn:E; try discriminate. cbn [bind].
  destruct (sizes_ran _ _ _ _ E) as (HA & alt' & -> & L). intros H. apply for_each_ran in H as [Lr H].
  rewrite firstn_length_le in Lr, H by lia. fold (points lon lat) in *.
  assert (RD : forall i, (i < points lon lat)%nat -> exists x y, nth_error lon i = Some x /\ nth_error lat i = Some y /\
     read (firstn (points lon lat) lon) (0 + Z.of_nat i) = Ran x /\ read (firstn (points lon lat) lat) (0 + Z.of_nat i) = Ran y).
  { intros i Hi. destruct (H i Hi) as [q Hq]. replace (0 + Z.of_nat i) with (Z.of_nat i) in * by lia.
    destruct (read (firstn (points lon lat) lon) (Z.of_nat i)) as [x| | |] eqn:Ex; try discriminate. cbn [bind] in Hq.
    destruct (read (firstn (points lon lat) lat) (Z.of_nat i)) as [y| | |] eqn:Ey; try discriminate.
    exists x, y. apply read_nat in Ex, Ey. apply nth_firstn in Ex as [_ Ex']. apply nth_firstn in Ey as [_ Ey']. auto. }
  repeat split; [exact HA| | |exact Lr].
  - intros i Hi N. destruct (RD i Hi) as (x & y & Ex & Ey & Rx & Ry). destruct (H i Hi) as [q Hq].
    rewrite Rx, Ry in Hq. cbn [bind] in Hq.
    assert (B : isnan x || isnan y = true).
    { destruct N as [N|N]; [rewrite N in Ex; injection Ex as <-|rewrite N in Ey; injection Ey as <-]; cbn; [reflexivity|apply orb_true_r]. }
    rewrite B in Hq. replace (0 + Z.of_nat i) with (Z.of_nat i) in Hq by lia.
    destruct (read alt (Z.of_nat i)) eqn:Ea; try discriminate. apply read_nat in Ea. apply nth_error_Some. congruence.
  - destruct set; [auto|]. right. intros i Hi (x & y & Ex & Ey). destruct (RD i Hi) as (x' & y' & Ex' & Ey' & Rx & Ry). destruct (H i Hi) as [q Hq].
    rewrite Rx, Ry in Hq. cbn [bind] in Hq. rewrite Ex in Ex'. rewrite Ey in Ey'. injection Ex' as <-. injection Ey' as <-. cbn [isnan fin orb] in Hq.
    destruct (read alt' _); discriminate.
Qed.
Lemma usable_points lon lat i : usable_at lon lat i -> (i < points lon lat)%nat.
Proof.
  intros (x & y & Ex & Ey). unfold points. assert (i < length lon)%nat by (apply nth_error_Some; congruence).
  assert (i < length lat)%nat by (apply nth_error_Some; congruence). lia.
Qed.

(** The inverse localization of vectors: when each NaN point has an altitude of its own, and the model has inverse coefficients or no point
    needs them, every read is inside of its vector, and the result is the one of the computation; ... *)
Theorem C94_inverse_inside m lon lat alt :
  has_altitude lon lat alt -> nan_covered lon lat alt ->
  (inverse_coefficient m = true \/ forall i, ~ usable_at lon lat i) ->
  mem_inverse_loc_vec m lon lat alt = call (cpp_inverse_loc_vec m lon lat alt).
Proof.
  intros HA HC HS. unfold mem_inverse_loc_vec. rewrite point_call; [| | |exact HA|exact HC|exact HS].
  - unfold cpp_inverse_loc_vec. destruct (check_sizes lon lat alt) as [[[a b] c]|]; [|reflexivity].
    destruct (seq_opt _); reflexivity.
  - intros x y a a' ai N. unfold cpp_rational_vec_point. now rewrite N.
  - intros x y a ai ai' N. unfold cpp_rational_vec_point. now rewrite N.
Qed.
(** ... and it is so for these vectors only: a call that comes back had all of this, and one row of result by point. *)
Theorem C94_inverse_only m lon lat alt r : mem_inverse_loc_vec m lon lat alt = Ran r ->
  has_altitude lon lat alt /\ nan_covered lon lat alt /\ (inverse_coefficient m = true \/ forall i, ~ usable_at lon lat i) /\
  length r = points lon lat.
Proof.
  unfold mem_inverse_loc_vec. destruct (mem_rational_vec _ _ _ _ _) as [l| | |] eqn:E; try discriminate. cbn [bind]. intros [= <-].
  apply point_ran in E as (HA & HC & HS & L). repeat split; try assumption.
  - destruct HS as [HS|HS]; [auto|]. right. intros i U. exact (HS i (usable_points _ _ _ U) U).
  - now rewrite map_length.
Qed.

(** The direct localization of vectors: the same, and the altitudes of the NaN points matter with the direct coefficients only. *)
Theorem C94_direct_inside m row col alt fill direct :
  has_altitude col row alt -> (direct = true -> nan_covered col row alt) ->
  mem_direct_loc_h_vec m row col alt fill direct = call (cpp_direct_loc_h_vec m row col alt fill direct).
Proof.
  intros HA HC. unfold mem_direct_loc_h_vec, cpp_direct_loc_h_vec.
  destruct (negb direct && inverse_coefficient m) eqn:E1.
  - apply andb_prop in E1 as [_ Ei]. unfold mem_direct_loc_inverse_iterative_vec, cpp_direct_loc_inverse_iterative_vec.
    rewrite sizes_call by exact HA. destruct (check_sizes col row alt) as [[[a b] c]|] eqn:E; [|reflexivity]. cbn [call bind].
    destruct (sizes_shape _ _ _ _ _ _ E) as (_ & _ & La & Lb & Lc). rewrite Ei. cbn [negb andb].
    replace (length a) with (length b) by lia.
    rewrite (for_each_zip4 (fun p => let '(r, c, al, _) := p in
       let '(lo, la, al) := cpp_direct_loc_inverse_iterative m r c al 10 fill in Some (R3 lo la al)) b a c c) by
      (try lia; intros k x y z t Hx Hy Hz Ht; replace (0 + Z.of_nat k) with (Z.of_nat k) by lia;
       rewrite (read_some _ _ _ Hx), (read_some _ _ _ Hy), (read_some _ _ _ Hz); cbn [bind];
       destruct (cpp_direct_loc_inverse_iterative m x y z 10 fill) as [[? ?] ?]; reflexivity).
    replace (seq_opt _) with (Some (map (fun p => let '(r, c, al, _) := p in
       let '(lo, la, al) := cpp_direct_loc_inverse_iterative m r c al 10 fill in R3 lo la al) (zip4 b a c c))); [reflexivity|].
    induction (zip4 b a c c) as [|[[[r' c'] a'] t'] l IH]; [reflexivity|]. cbn [map seq_opt].
    destruct (cpp_direct_loc_inverse_iterative m r' c' a' 10 fill) as [[? ?] ?]. now rewrite <- IH.
  - destruct (direct && direct_coefficient m) eqn:E2; [|reflexivity]. apply andb_prop in E2 as [Eu Ed].
    rewrite point_call; [| | |exact HA|exact (HC Eu)|left; exact Ed].
    + destruct (check_sizes col row alt) as [[[a b] c]|]; reflexivity.
    + intros x y a a' ai N. unfold cpp_rational_vec_point. now rewrite N.
    + intros x y a ai ai' N. unfold cpp_rational_vec_point. now rewrite N.
Qed.
Theorem C94_direct_only m row col alt fill direct r : mem_direct_loc_h_vec m row col alt fill direct = Ran r ->
  has_altitude col row alt /\ (direct = true -> nan_covered col row alt) /\
  (if direct then direct_coefficient m = true else inverse_coefficient m = true) /\ length r = points row col.
Proof.
  unfold mem_direct_loc_h_vec. destruct direct; cbn [negb andb].
  - destruct (direct_coefficient m) eqn:Ed; [|discriminate]. intros H. apply point_ran in H as (HA & HC & _ & L).
    repeat split; try tauto. unfold points in *. lia.
  - destruct (inverse_coefficient m) eqn:Ei; [|discriminate]. unfold mem_direct_loc_inverse_iterative_vec.
    destruct (mem_check_sizes col row alt) as [v| | |] eqn:E; try discriminate. cbn [bind].
    destruct (sizes_ran _ _ _ _ E) as (HA & alt' & -> & L). intros H. apply for_each_ran in H as [Lr _].
    rewrite firstn_length_le in Lr by lia. repeat split; [exact HA|discriminate|]. unfold points. lia.
Qed.

(** The class over these functions.  Its direct localization gives them vectors that they read inside only, whatever the
    vectors of the caller; ... *)
Theorem C94_class_direct m row col alt fill direct :
  mem_optim_direct_loc_h m row col alt fill direct = call (optim_direct_loc_h m row col alt fill direct).
Proof.
  unfold mem_optim_direct_loc_h, optim_direct_loc_h. destruct (broadcast_alt (length col) alt) as [alt'|] eqn:E; [|reflexivity]. cbn [call bind].
  assert (L : length alt' = length col).
  { revert E. unfold broadcast_alt. destruct (length alt =? length col)%nat eqn:El; [intros [= <-]; now apply Nat.eqb_eq|].
    destruct alt; [discriminate|]. intros [= <-]. apply repeat_length. }
  rewrite C94_direct_inside.
  - destruct (cpp_direct_loc_h_vec m row col alt' fill direct); reflexivity.
  - destruct col as [|c col]; [right; left; reflexivity|]. left. intros ->. discriminate.
  - intros _ i Hi _. unfold points in Hi. lia.
Qed.
(** ... and so does its inverse localization, with inverse coefficients. *)
Theorem C94_class_inverse_partial m lon lat alt : inverse_coefficient m = true ->
  mem_optim_inverse_loc m lon lat alt = call (optim_inverse_loc m lon lat alt).
Proof.
  intros Hi. unfold mem_optim_inverse_loc, optim_inverse_loc. destruct (zip3 lon lat alt) as [rows|]; [|reflexivity]. cbn [call bind].
  rewrite C94_inverse_inside.
  - destruct (cpp_inverse_loc_vec m _ _ _); reflexivity.
  - destruct rows; [right; left; reflexivity|]. left. discriminate.
  - intros i Hn _. unfold points in Hn. rewrite !map_length in *. lia.
  - left. exact Hi.
Qed.
Lemma zip3_rows : forall a b c l, zip3 a b c = Some l -> forall i x y z, nth_error a i = Some x -> nth_error b i = Some y -> nth_error c i = Some z ->
  nth_error l i = Some (R3 x y z).
Proof.
  induction a as [|x0 a IH]; intros [|y0 b] [|z0 c] l H i x y z Ha Hb Hc; try discriminate; [now destruct i|].
  cbn in H. destruct (zip3 a b c) as [t|] eqn:E; [|discriminate]. injection H as <-. destruct i as [|i].
  - cbn in *. congruence.
  - cbn in *. eapply IH; eassumption.
Qed.
Lemma unset_settled point (rows : list row3) :
  (forall x y a ai, isnan x || isnan y = true -> exists v, point x y a (Some ai) = Some v) ->
  (exists l, mem_rational_vec false point (map lon3 rows) (map lat3 rows) (map alt3 rows) = Ran l) \/
  mem_rational_vec false point (map lon3 rows) (map lat3 rows) (map alt3 rows) = Undefined.
Proof.
  intros HP. unfold mem_rational_vec, mem_check_sizes. rewrite !map_length, Nat.min_id, Nat.eqb_refl. cbn [bind].
  rewrite !firstn_all2 by (rewrite map_length; lia). rewrite map_length. apply for_each_settled. intros k Hk.
  replace (0 + Z.of_nat k) with (Z.of_nat k) by lia.
  destruct (nth_error rows k) as [p|] eqn:Ep; [|apply nth_error_None in Ep; lia].
  rewrite (read_some (map lon3 rows) k (lon3 p)), (read_some (map lat3 rows) k (lat3 p)), (read_some (map alt3 rows) k (alt3 p))
    by (now apply map_nth_error). cbn [bind].
  destruct (isnan (lon3 p) || isnan (lat3 p)) eqn:N; [|right; reflexivity].
  destruct (HP _ _ nan (alt3 p) N) as [v Ev]. rewrite Ev. left. eexists. reflexivity.
Qed.
(** Without them it does not raise: it goes on with coefficients that nobody has set, as soon as one position is a
    position on the Earth. *)
Theorem C94_unset_coefficients_refuted m lon lat alt i x y z :
  inverse_coefficient m = false -> length lat = length lon -> length alt = length lon ->
  nth_error lon i = Some (fin x) -> nth_error lat i = Some (fin y) -> nth_error alt i = Some (fin z) ->
  (-180 <= x <= 180)%R -> (-90 <= y <= 90)%R ->
  mem_optim_inverse_loc m lon lat alt = Undefined.
Proof.
  intros Hm L1 L2 Hx Hy Hz Bx By. unfold mem_optim_inverse_loc.
  destruct (zip3 lon lat alt) as [rows|] eqn:E.
  2:{ exfalso. clear Hx Hy Hz. revert lat alt L1 L2 E. induction lon as [|a lon IH]; intros [|b lat] [|c alt] L1 L2 E; try discriminate.
      cbn in E. destruct (zip3 lon lat alt) eqn:E'; [discriminate|]. cbn in L1, L2. apply (IH lat alt); [lia|lia|exact E']. }
  cbn [call bind]. pose proof (zip3_rows _ _ _ _ E i _ _ _ Hx Hy Hz) as Hr.
  assert (F : lonlat_filtering (R3 (fin x) (fin y) (fin z)) = false).
  { unfold lonlat_filtering. cbn [lon3 lat3 alt3 isnan fin orb nabs]. apply orb_false_intro; [|reflexivity].
    unfold ngtb, nabs, fin. cbn. apply orb_false_intro.
    - apply not_true_is_false. intros K. apply Rltb_true in K. pose proof (Rabs_le x 180 ltac:(lra)). lra.
    - apply not_true_is_false. intros K. apply Rltb_true in K. pose proof (Rabs_le y 90 ltac:(lra)). lra. }
  set (rows' := check_lonlat rows).
  assert (Hr' : nth_error rows' i = Some (R3 (fin x) (fin y) (fin z))).
  { unfold rows', check_lonlat. erewrite map_nth_error by exact Hr. now rewrite F. }
  assert (U : usable_at (map lon3 rows') (map lat3 rows') i).
  { exists x, y. split; erewrite map_nth_error by exact Hr'; reflexivity. }
  assert (S : (exists r, mem_inverse_loc_vec m (map lon3 rows') (map lat3 rows') (map alt3 rows') = Ran r) \/
              mem_inverse_loc_vec m (map lon3 rows') (map lat3 rows') (map alt3 rows') = Undefined).
  { unfold mem_inverse_loc_vec. rewrite Hm.
    match goal with |- context [mem_rational_vec false ?p _ _ _] => destruct (unset_settled p rows') as [[l El]|El] end.
    - intros x' y' a' ai N. unfold cpp_rational_vec_point. rewrite N. eexists. reflexivity.
    - rewrite El. left. eexists. reflexivity.
    - rewrite El. right. reflexivity. }
  destruct S as [[r R]|R]; [|now rewrite R].
  exfalso. apply C94_inverse_only in R as (_ & _ & [K|K] & _); [congruence|exact (K i U)].
Qed.

(** The localization on a DTM of two vectors reads as many columns as there are rows. *)
Theorem C94_dtm_vectors A (locate : num -> num -> mem A) row col : (forall r c, exists p, locate r c = Ran p) ->
  ((length row <= length col)%nat -> exists l, mem_direct_loc_dtm_vec locate row col = Ran l /\ length l = length row /\
     forall i r c, nth_error row i = Some r -> nth_error col i = Some c -> exists p, nth_error l i = Some p /\ locate r c = Ran p) /\
  ((length col < length row)%nat -> mem_direct_loc_dtm_vec locate row col = Undefined).
Proof.
  intros HL. split.
  - intros Hn. unfold mem_direct_loc_dtm_vec.
    assert (G : forall n i, (i + n = length row)%nat -> exists l, for_each n (Z.of_nat i) (fun i => let* r := read row i in let* c := read col i in locate r c) = Ran l /\
      length l = n /\ forall k r c, nth_error row (i + k) = Some r -> nth_error col (i + k) = Some c -> (k < n)%nat -> exists p, nth_error l k = Some p /\ locate r c = Ran p).
    { induction n as [|n IH]; intros i Hi; [exists []; repeat split; intros; lia|]. cbn [for_each].
      destruct (nth_error row i) as [r|] eqn:Er; [|apply nth_error_None in Er; lia].
      destruct (nth_error col i) as [c|] eqn:Ec; [|apply nth_error_None in Ec; lia].
      rewrite (read_some _ _ _ Er), (read_some _ _ _ Ec). cbn [bind]. destruct (HL r c) as [p Ep]. rewrite Ep. cbn [bind].
      replace (Z.of_nat i + 1) with (Z.of_nat (S i)) by lia. destruct (IH (S i) ltac:(lia)) as (l & El & Ll & K). rewrite El. cbn [bind].
      exists (p :: l). split; [reflexivity|]. split; [cbn [length]; lia|]. intros [|k] r' c' Hr Hc Hk.
      - rewrite Nat.add_0_r in Hr, Hc. exists p. split; [reflexivity|]. congruence.
      - replace (i + S k)%nat with (S i + k)%nat in Hr, Hc by lia. apply (K k r' c' Hr Hc). lia. }
    destruct (G (length row) O eq_refl) as (l & El & Ll & K). exists l. repeat split; [exact El|exact Ll|].
    intros i r c Hr Hc. apply (K i r c Hr Hc). apply nth_error_Some. congruence.
  - intros Hn. unfold mem_direct_loc_dtm_vec.
    set (f := fun i => let* r := read row i in let* c := read col i in locate r c).
    destruct (for_each_settled (length row) 0 f) as [[l El]|El]; [| |exact El].
    + intros k Hk. replace (0 + Z.of_nat k) with (Z.of_nat k) by lia. unfold f.
      destruct (nth_error row k) as [r|] eqn:Er; [|apply nth_error_None in Er; lia]. rewrite (read_some _ _ _ Er). cbn [bind].
      unfold read. rewrite (proj2 (Z.ltb_ge _ _)) by lia. destruct (nth_error col (Z.to_nat (Z.of_nat k))) as [c|]; [|right; reflexivity].
      cbn [bind]. left. apply HL.
    + exfalso. apply for_each_ran in El as [_ K]. destruct (K (length col) Hn) as [x E]. revert E. unfold f.
      replace (0 + Z.of_nat (length col)) with (Z.of_nat (length col)) by lia. destruct (read row _); try discriminate. cbn [bind].
      unfold read. rewrite (proj2 (Z.ltb_ge _ _)) by lia. rewrite Nat2Z.id, (proj2 (nth_error_None col (length col))) by lia. discriminate.
Qed.

(** Fewer rows than columns, with an altitude by column: no error; every point is located at the first altitude, not at its own. *)
Theorem C94_own_altitude_refuted m row col alt fill : inverse_coefficient m = true ->
  (0 < length row < length col)%nat -> length alt = length col ->
  forall a0, nth_error alt 0 = Some a0 ->
  exists l, mem_optim_direct_loc_h m row col alt fill false = Ran l /\ length l = length row /\
    forall i r c, nth_error row i = Some r -> nth_error col i = Some c ->
      nth_error l i = Some (let '(lo, la, al) := cpp_direct_loc_inverse_iterative m r c a0 10 fill in
                            if lonlat_filtering (R3 lo la al) then nan3 else R3 lo la al).
Proof.
  intros Hi Hn La a0 Ha. rewrite C94_class_direct. unfold optim_direct_loc_h, broadcast_alt.
  rewrite (proj2 (Nat.eqb_eq _ _)) by exact La. unfold cpp_direct_loc_h_vec. rewrite Hi. cbn [negb andb].
  unfold cpp_direct_loc_inverse_iterative_vec, check_sizes, broadcast_alt. replace (Nat.min (length col) (length row)) with (length row) by lia.
  rewrite (proj2 (Nat.eqb_neq _ _)) by lia. destruct alt as [|a alt]; [discriminate|]. injection Ha as ->. cbn [call].
  rewrite (firstn_all2 row) by lia. eexists. split; [reflexivity|].
  assert (G : forall (rs : list num) (cs : list num), length cs = length rs -> length (zip4 rs cs (repeat a0 (length rs)) (repeat a0 (length rs))) = length rs /\
    forall i r c, nth_error rs i = Some r -> nth_error cs i = Some c -> nth_error (zip4 rs cs (repeat a0 (length rs)) (repeat a0 (length rs))) i = Some (r, c, a0, a0)).
  { induction rs as [|r rs IH]; intros [|c cs] L; try discriminate; [split; [reflexivity|now intros []]|]. cbn [length repeat zip4].
    destruct (IH cs ltac:(cbn in L; lia)) as [L1 K]. split; [now rewrite L1|]. intros [|i] r' c' Hr Hc; cbn in *; [congruence|now apply K]. }
  destruct (G row (firstn (length row) col)) as [GL GN]; [apply firstn_length_le; lia|].
  unfold check_lonlat. rewrite !map_length. split; [exact GL|]. intros i r c Hr Hc.
  assert (i < length row)%nat by (apply nth_error_Some; congruence).
  assert (Hz : nth_error (zip4 row (firstn (length row) col) (repeat a0 (length row)) (repeat a0 (length row))) i = Some (r, c, a0, a0)).
  { apply GN; [exact Hr|]. now rewrite nth_error_firstn_lt. }
  rewrite map_map, (map_nth_error _ i _ Hz). cbn beta iota. destruct (cpp_direct_loc_inverse_iterative m r c a0 10 fill) as [[? ?] ?]. reflexivity.
Qed.

(** Two points for one altitude: all is inside when no coordinate is NaN; a NaN in the second point, and the read of its altitude is not. *)
Example C94_case : has_altitude [Some 3; Some 4]%R [Some 4; Some 5]%R [Some 5]%R /\ nan_covered [Some 3; Some 4]%R [Some 4; Some 5]%R [Some 5]%R /\
  inverse_coefficient ex_rpc = true /\
  nan_at [Some 3; None]%R [Some 4; Some 5]%R 1 /\ ~ nan_covered [Some 3; None]%R [Some 4; Some 5]%R [Some 5]%R.
Proof.
  assert (N : nan_at [Some 3; None]%R [Some 4; Some 5]%R 1) by (left; reflexivity).
  repeat split; [left; discriminate| |exact N|].
  - intros i Hi [H|H]; destruct i as [|[|[|i]]]; discriminate.
  - intros H. specialize (H 1%nat ltac:(cbn; lia) N). cbn in H. lia.
Qed.
(** A model with direct coefficients only, and a position. *)
Definition direct_only : rpc := mkRpc [] [] [] [] (unit_at 1) (unit_at 0) (unit_at 2) (unit_at 0) false true 0 1 0 1 0 1 0 1 0 1 4326.
Example C94_unset_case : inverse_coefficient direct_only = false /\
  mem_optim_inverse_loc direct_only [None; Some 3]%R [Some 1; Some 4]%R [Some 1; Some 5]%R = Undefined.
Proof. split; [reflexivity|]. apply (C94_unset_coefficients_refuted _ _ _ _ 1 3 4 5); try reflexivity; lra. Qed.
(** Two rows for three columns. *)
Example C94_rows_case : exists l, mem_optim_direct_loc_h ex_rpc [Some 3; Some 4]%R [Some 3; Some 4; Some 5]%R [Some 10; Some 20; Some 30]%R false false = Ran l /\ length l = 2%nat.
Proof.
  destruct (C94_own_altitude_refuted ex_rpc [Some 3; Some 4]%R [Some 3; Some 4; Some 5]%R [Some 10; Some 20; Some 30]%R false eq_refl ltac:(cbn; lia) eq_refl (Some 10%R) eq_refl)
    as (l & E & L & _). exists l. auto.
Qed.
Example C94_dtm_case : mem_direct_loc_dtm_vec (fun r c => Ran (r, c)) [Some 1; Some 2]%R [Some 3]%R = Undefined /\
  mem_direct_loc_dtm_vec (fun r c => Ran (r, c)) [Some 1]%R [Some 3; Some 4]%R = Ran [(Some 1, Some 3)]%R.
Proof. split; reflexivity. Qed.
