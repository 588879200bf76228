(** Converse of [RpcRun]: a point returned by the Newton loops is the end of a run of the
    specification [newton_run]. *)
From Coq Require Import Reals ZArith List Bool Arith Lra Lia.
From Verif Require Import Num NumLemmas ProjModel ProjSpec PropertiesProj RpcModel CppRpcModel RpcSpec RpcProofs RpcNewton RpcDeriv RpcRun RpcBatch.
Import ListNotations.
Open Scope R_scope.

Lemma lonlat_dec lon lat : {lonlat_ok lon lat} + {~ lonlat_ok lon lat}.
Proof.
  unfold lonlat_ok. destruct (Rle_dec (-180) lon), (Rle_dec lon 180), (Rle_dec (-90) lat), (Rle_dec lat 90);
    try (left; tauto); right; tauto.
Qed.
Lemma regular_dec m lon lat alt : {regular_at m lon lat alt} + {~ regular_at m lon lat alt}.
Proof.
  unfold regular_at. destruct (Req_EM_T (cubic (den_col m) (nx m lon) (ny m lat) (nz m alt)) 0),
    (Req_EM_T (cubic (den_row m) (nx m lon) (ny m lat) (nz m alt)) 0); try (left; tauto); right; tauto.
Qed.
Lemma reprojects_dec m row col lon lat alt :
  {reprojects m row col lon lat alt} + {~ reprojects m row col lon lat alt}.
Proof.
  unfold reprojects. destruct (Rle_dec (Rabs (col - col_of m lon lat alt)) (1 / 1000000)),
    (Rle_dec (Rabs (row - row_of m lon lat alt)) (1 / 1000000)); try (left; tauto); right; tauto.
Qed.

Lemma nsub_none x : nsub x None = None. Proof. now destruct x. Qed.
Lemma nmul_none_r x : nmul x None = None. Proof. now destruct x. Qed.
Lemma nadd_none_r x : nadd x None = None. Proof. now destruct x. Qed.
Lemma ndiv_none_r x : ndiv x None = None. Proof. now destruct x. Qed.
Lemma nmul_none_l x : nmul None x = None. Proof. reflexivity. Qed.

(** A quotient of polynomials with a zero denominator has NaN derivatives, and the update is NaN. *)
Lemma quot_zero so si dn dd nu : quotient_derivative so si dn 0 dd nu = None.
Proof.
  unfold quotient_derivative. replace (0 ^ 2) with 0 by ring. unfold ndiv at 1. cbn.
  destruct (nmul _ _); [|reflexivity]. destruct (Req_EM_T 0 0); [reflexivity|contradiction].
Qed.
Lemma update_irregular m lon lat alt dc dr lo la : usable_inverse m -> ~ regular_at m lon lat alt ->
  newton_update (der_pt m (Some lon) (Some lat) (Some alt)) dc dr lo la = (None, None).
Proof.
  intros Hu Hn. pose proof Hu as (_ & Hn1 & Hn2 & Hn3 & Hn4 & Hx & Hy & Hz).
  unfold der_pt. rewrite !normalise_some by assumption. fold (nx m lon) (ny m lat) (nz m alt).
  unfold derivates_point. cbn [fin]. rewrite !poly_cubic by assumption.
  unfold regular_at in Hn.
  destruct (Req_EM_T (cubic (den_col m) (nx m lon) (ny m lat) (nz m alt)) 0) as [E|E].
  - rewrite E, !quot_zero. unfold newton_update. rewrite nmul_none_l, nmul_none_r, nsub_none, !ndiv_none_r, !nadd_none_r.
    reflexivity.
  - destruct (Req_EM_T (cubic (den_row m) (nx m lon) (ny m lat) (nz m alt)) 0) as [E'|E']; [|tauto].
    rewrite E', !quot_zero. unfold newton_update. rewrite nmul_none_l, nmul_none_r, nsub_none, !ndiv_none_r, !nadd_none_r.
    reflexivity.
Qed.

(** At a regular point the update is NaN, or a Newton step. *)
Lemma update_regular m row col lon lat alt lo la : usable_inverse m -> regular_at m lon lat alt ->
  newton_update (der_pt m (Some lon) (Some lat) (Some alt)) (Some (col - col_of m lon lat alt))
    (Some (row - row_of m lon lat alt)) (Some lon) (Some lat) = (lo, la) ->
  (lo = None /\ la = None) \/
  exists lon' lat', lo = Some lon' /\ la = Some lat' /\ newton_step m row col alt lon lat lon' lat'.
Proof.
  intros Hu Hr. destruct (der_pt_finite m lon lat alt Hu Hr) as (a & b & c & d & E & (T1 & T2 & T3 & T4)). rewrite E.
  unfold newton_update. cbn [nsub nmul nadd nopp nlift1 nlift2]. unfold ndiv. cbn.
  destruct (Req_EM_T (a * d - c * b) 0) as [Z|Z]; intros H; injection H as <- <-; [left; split; reflexivity|].
  right. do 2 eexists. split; [reflexivity|]. split; [reflexivity|].
  exists a, b, c, d. repeat (split; [assumption|]). split; [intros H; apply Z; lra|].
  split; field; exact Z.
Qed.

(** ** The Python loop, one point *)
Lemma inv_nan m la alt : lon3 (inv_pt m (R3 None la alt)) = None /\ lat3 (inv_pt m (R3 None la alt)) = None.
Proof.
  unfold inv_pt, checked, lonlat_filtering. cbn [lon3 lat3 alt3 isnan]. rewrite ?orb_true_r. cbn [orb].
  rewrite ?orb_true_r. split; reflexivity.
Qed.
Lemma inv_invalid m lon lat alt : ~ lonlat_ok lon lat ->
  lon3 (inv_pt m (R3 (Some lon) (Some lat) alt)) = None /\ lat3 (inv_pt m (R3 (Some lon) (Some lat) alt)) = None.
Proof.
  intros H. unfold inv_pt, checked. destruct (lonlat_filtering _) eqn:E; [split; reflexivity|].
  apply filtering_spec in E. destruct E as (x & y & z & E & H'). injection E as -> -> ->. contradiction.
Qed.

Lemma inactive_nan p : p_dc p = None -> p_dr p = None -> active p = false.
Proof. unfold active. intros -> ->. reflexivity. Qed.

Lemma iter_stuck m n p : active p = false -> Nat.iter n (step m) p = p.
Proof. intros H. apply iter_fix. unfold step. now rewrite H. Qed.

Lemma iter_run_converse m row col alt : usable_inverse m -> forall n p lon lat lonf latf,
  p_row p = Some row -> p_col p = Some col -> p_alt p = Some alt -> p_lon p = Some lon -> p_lat p = Some lat ->
  fresh m p ->
  p_lon (Nat.iter n (step m) p) = Some lonf -> p_lat (Nat.iter n (step m) p) = Some latf ->
  lonlat_ok lonf latf -> regular_at m lonf latf alt ->
  newton_run lonlat_ok m row col alt n lon lat lonf latf.
Proof.
  intros Hu. induction n as [|n IH]; intros p lon lat lonf latf Hrow Hcol Halt Hlon Hlat Hf Elon Elat Hok Hreg.
  - cbn in Elon, Elat. rewrite Hlon in Elon. rewrite Hlat in Elat. injection Elon as <-. injection Elat as <-.
    destruct (reprojects_dec m row col lon lat alt); [now apply run_done|now apply run_out].
  - assert (HS : active p = false -> lonf = lon /\ latf = lat).
    { intros Ha. rewrite iter_stuck in Elon, Elat by assumption. split; congruence. }
    assert (HA : active p = true -> p_lon (Nat.iter n (step m) (advance m p)) = Some lonf /\ p_lat (Nat.iter n (step m) (advance m p)) = Some latf).
    { intros Ha. cbn [Nat.iter nat_rect] in Elon, Elat. change (nat_rect _ p (fun _ => step m) n) with (Nat.iter n (step m) p) in *.
      rewrite <- iter_shift in Elon, Elat. unfold step at 2 in Elon. unfold step at 2 in Elat. rewrite Ha in Elon, Elat.
      split; assumption. }
    destruct Hf as [F1 F2]. rewrite Hrow, Hcol, Halt, Hlon, Hlat in *.
    destruct (lonlat_dec lon lat) as [Hl|Hl].
    2:{ destruct (inv_invalid m lon lat (Some alt) Hl) as [I1 I2]. rewrite I2, nsub_none in F1. rewrite I1, nsub_none in F2.
        destruct (HS (inactive_nan _ F1 F2)) as [-> ->]. contradiction. }
    assert (HNaN : forall q, p_lon q = None -> fresh m q -> forall k, p_lon (Nat.iter k (step m) q) = None).
    { intros q Hq [G1 G2] k. rewrite Hq in G1, G2. destruct (inv_nan m (p_lat q) (p_alt q)) as [I1 I2].
      rewrite I2, nsub_none in G1. rewrite I1, nsub_none in G2. now rewrite iter_stuck by now apply inactive_nan. }
    destruct (regular_dec m lon lat alt) as [Hr|Hr].
    2:{ destruct (active p) eqn:Ha; [|destruct (HS eq_refl) as [-> ->]; contradiction].
        destruct (HA eq_refl) as [EA _]. rewrite HNaN in EA; [discriminate| |split; reflexivity].
        unfold advance, moved. rewrite Hlon, Hlat, Halt, update_irregular by assumption. reflexivity. }
    rewrite inv_pt_finite in F1, F2 by assumption. cbn [lon3 lat3] in F1, F2.
    change (nsub (Some col) (Some (col_of m lon lat alt))) with (Some (col - col_of m lon lat alt)) in F1.
    change (nsub (Some row) (Some (row_of m lon lat alt))) with (Some (row - row_of m lon lat alt)) in F2.
    assert (EP : p = res_pt m row col alt lon lat).
    { destruct p as [a b c d e f g]. cbn in *. subst. reflexivity. }
    destruct (reprojects_dec m row col lon lat alt) as [Hp|Hp].
    { assert (Ha : active p = false).
      { destruct (active p) eqn:Ha; [|reflexivity]. rewrite EP in Ha. apply active_res in Ha. contradiction. }
      destruct (HS Ha) as [-> ->]. now apply run_done. }
    assert (Ha : active p = true) by (rewrite EP; now apply active_res).
    destruct (HA Ha) as [EA1 EA2].
    destruct (moved m p) as [lo la] eqn:EM. pose proof EM as EM'.
    unfold moved in EM'. rewrite Hlon, Hlat, Halt, F1, F2 in EM'.
    destruct (update_regular m row col lon lat alt lo la Hu Hr EM') as [[-> ->]|(lon' & lat' & -> & -> & Hs)].
    { rewrite HNaN in EA1; [discriminate| |split; reflexivity]. unfold advance. now rewrite EM. }
    apply run_step with lon' lat'; try assumption.
    apply (IH (advance m p)); try assumption; unfold advance; rewrite ?EM; try reflexivity; try assumption.
    split; reflexivity.
Qed.

(** ** The Python function: a batch at a common altitude whose points are all located *)
Lemma iterative_converse m alt n fill (P : list (R * R)) lons lats alts k : usable_inverse m ->
  direct_loc_inverse_iterative m (map (fun p => Some (fst p)) P) (map (fun p => Some (snd p)) P) [Some alt] n fill
    = Some (lons, lats, alts, k) ->
  all_located m (map (fun p => Pix (fst p) (snd p) alt) P) lons lats ->
  exists L : list located, map (fun p => (l_row p, l_col p)) L = P /\
    lons = map (fun p => Some (l_lon p)) L /\ lats = map (fun p => Some (l_lat p)) L /\ alts = map (fun _ => Some alt) L /\
    Forall (fun p => newton_run lonlat_ok m (l_row p) (l_col p) alt n (offset_x m) (offset_y m) (l_lon p) (l_lat p)) L.
Proof.
  intros Hu H Hall. rewrite iterative_scalar_alt, map_length, repeat_map in H.
  destruct P as [|q Q].
  { exists []. unfold direct_loc_inverse_iterative in H. rewrite (proj1 Hu) in H. cbn in H. injection H as <- <- <- _.
    repeat (split; [reflexivity|]). constructor. }
  set (P := q :: Q) in *. set (f := fun p : R * R => Inp (fst p) (snd p) (Some alt)).
  pose proof (iterative_batch m (f q) (map f Q) n fill (proj1 Hu)) as HB. cbv zeta in HB.
  change (f q :: map f Q) with (map f P) in HB. change (i_alt (f q)) with (Some alt) in HB.
  rewrite !map_map in HB. cbn [i_row i_col i_alt f] in HB. change (fun x : R * R => Some (fst x)) with (fun p : R * R => Some (fst p)) in HB.
  rewrite HB in H. clear HB. clearbody P.
  set (c := inv_pt m (R3 (fin (offset_x m)) (fin (offset_y m)) (Some alt))) in H.
  set (ini := fun x : R * R => init_pt m (lon3 c) (lat3 c) (f x)).
  change (map (fun x => init_pt m (lon3 c) (lat3 c) (f x)) P) with (map ini P) in H.
  destruct (batch_loop m n (map ini P)) as [L' k'] eqn:EB. cbn [fst snd] in H.
  injection H as <- <- <- <-.
  destruct (batch_loop_iter _ _ _ _ _ EB) as (Hk & EL & _). rewrite map_map in EL.
  assert (Hfresh : forall x, fresh m (ini x)) by (intros x; split; reflexivity).
  assert (HF : forall x j, fresh m (Nat.iter j (step m) (ini x))).
  { intros x j. destruct (iter_fresh m (ini x) j) as [-> |]; auto. }
  assert (HN : forall t, In t L' -> no_nan_res t).
  { intros t Ht. apply In_nth_error in Ht. destruct Ht as [j Hj]. rewrite EL in Hj.
    destruct (nth_error_map_inv _ _ _ _ Hj) as (x & Hx & ->).
    destruct (Hall j (Pix (fst x) (snd x) alt)) as (lo & la & Hlo & Hla & Hok & Hreg); [exact (map_nth_error (fun p : R * R => Pix (fst p) (snd p) alt) _ _ Hx)|].
    rewrite EL, nth_error_map, Hj in Hlo, Hla. cbn [option_map x_alt] in *. injection Hlo as Hlo. injection Hla as Hla.
    destruct (iter_keeps m (ini x) k') as (K1 & K2 & K3). destruct (HF x k') as [F1 F2].
    rewrite K1, K2, K3, Hlo, Hla in *. cbn [p_alt p_row p_col ini init_pt f i_row i_col i_alt] in F1, F2.
    rewrite inv_pt_finite in F1, F2 by assumption. split; [rewrite F1|rewrite F2]; reflexivity. }
  pose proof (batch_loop_points _ _ _ _ _ EB HN) as EL'. rewrite map_map in EL'.
  assert (HC : forall j x, nth_error P j = Some x -> exists lo la,
     p_lon (Nat.iter n (step m) (ini x)) = Some lo /\ p_lat (Nat.iter n (step m) (ini x)) = Some la /\
     newton_run lonlat_ok m (fst x) (snd x) alt n (offset_x m) (offset_y m) lo la).
  { intros j x Hx. destruct (Hall j (Pix (fst x) (snd x) alt)) as (lo & la & Hlo & Hla & Hok & Hreg); [exact (map_nth_error (fun p : R * R => Pix (fst p) (snd p) alt) _ _ Hx)|].
    assert (Hj : nth_error L' j = Some (Nat.iter n (step m) (ini x))) by (rewrite EL'; now apply (map_nth_error (fun x => Nat.iter n (step m) (ini x)))).
    rewrite nth_error_map, Hj in Hlo, Hla. cbn [option_map x_alt] in *. injection Hlo as Hlo. injection Hla as Hla.
    exists lo, la. split; [assumption|]. split; [assumption|].
    apply (iter_run_converse m (fst x) (snd x) alt Hu n (ini x)); auto. }
  clear EB EL HN Hall Hk k' Hfresh HF. rewrite EL'. clear EL' L'. clearbody ini. clear c f.
  revert HC. clear q Q. induction P as [|x P IH]; intros HC.
  - exists []. repeat (split; [reflexivity|]). constructor.
  - destruct IH as (L & E1 & E2 & E3 & E4 & E5); [intros j y Hy; now apply (HC (S j))|].
    destruct (HC 0%nat x eq_refl) as (lo & la & H1 & H2 & H3).
    exists (Loc (fst x) (snd x) lo la :: L). cbn [map l_row l_col l_lon l_lat]. rewrite E1, H1, H2, <- surjective_pairing.
    split; [reflexivity|]. split; [now rewrite E2|]. split; [now rewrite E3|]. split; [now rewrite E4|].
    now constructor.
Qed.

(** ** The C++ loop *)
Lemma cpp_rational_eq x y z nu de sc off : cpp_rational x y z nu de sc off = rational x y z nu de sc off.
Proof.
  unfold cpp_rational, rational. destruct x, y, z; try reflexivity. now rewrite !cpp_poly_eq.
Qed.
Lemma rational_none x y z nu de sc off : x = None \/ y = None \/ z = None -> rational x y z nu de sc off = None.
Proof. unfold rational. destruct x, y, z; try reflexivity. intros [?|[?|?]]; discriminate. Qed.
Lemma cpp_nan m la alt : cpp_inverse_loc m None la alt = (None, None, alt).
Proof. reflexivity. Qed.

Lemma cpp_loop_nan m row col alt n la : cpp_newton_loop m row col alt n None la None None = (None, la, None, None, O).
Proof. destruct n; reflexivity. Qed.

Lemma cpp_irregular m lon lat alt : usable_inverse m -> ~ regular_at m lon lat alt ->
  exists r c, cpp_inverse_loc m (Some lon) (Some lat) (Some alt) = (r, c, Some alt) /\ (r = None \/ c = None).
Proof.
  intros Hu Hn. pose proof Hu as (_ & Hn1 & Hn2 & Hn3 & Hn4 & Hx & Hy & Hz).
  unfold cpp_inverse_loc, cpp_rational_unitary. cbn [isnan orb]. rewrite !normalise_some by assumption.
  fold (nx m lon) (ny m lat) (nz m alt). rewrite !cpp_rational_eq.
  do 2 eexists. split; [reflexivity|]. unfold rational. rewrite !poly_cubic by assumption.
  unfold regular_at in Hn.
  destruct (Req_EM_T (cubic (den_col m) (nx m lon) (ny m lat) (nz m alt)) 0) as [E|E].
  - right. rewrite E. unfold ndiv, fin. destruct (Req_EM_T 0 0); [reflexivity|contradiction].
  - destruct (Req_EM_T (cubic (den_row m) (nx m lon) (ny m lat) (nz m alt)) 0) as [E'|E']; [|tauto].
    left. rewrite E'. unfold ndiv, fin. destruct (Req_EM_T 0 0); [reflexivity|contradiction].
Qed.

Lemma cpp_run_converse m row col alt : usable_inverse m -> forall n lon lat r c a lonf latf dc dr k,
  cpp_inverse_loc m (Some lon) (Some lat) (Some alt) = (r, c, a) ->
  cpp_newton_loop m (Some row) (Some col) (Some alt) n (Some lon) (Some lat) (nsub (Some col) c) (nsub (Some row) r)
    = (Some lonf, Some latf, dc, dr, k) ->
  regular_at m lonf latf alt ->
  newton_run (fun _ _ => True) m row col alt n lon lat lonf latf.
Proof.
  intros Hu. induction n as [|n IH]; intros lon lat r c a lonf latf dc dr k HI HL Hreg.
  - assert (lonf = lon /\ latf = lat) as [-> ->].
    { cbn [cpp_newton_loop] in HL. destruct (_ || _); injection HL; intros; split; congruence. }
    destruct (reprojects_dec m row col lon lat alt); [now apply run_done|now apply run_out].
  - cbn [cpp_newton_loop] in HL.
    destruct (ngtb (nabs (nsub (Some col) c)) (fin eps) || ngtb (nabs (nsub (Some row) r)) (fin eps)) eqn:EA.
    2:{ injection HL as <- <- _ _ _. rewrite cpp_inverse_loc_finite in HI by assumption. injection HI as <- <- <-.
        apply run_done; [exact I|assumption|].
        destruct (reprojects_dec m row col lon lat alt) as [H|H]; [assumption|exfalso].
        apply active_res in H. unfold active, res_pt in H. cbn [p_dc p_dr] in H. unfold nsub, nlift2 in EA. congruence. }
    rewrite cpp_der_eq in HL.
    destruct (regular_dec m lon lat alt) as [Hr|Hr].
    2:{ rewrite update_irregular in HL by assumption. rewrite cpp_nan, !nsub_none, cpp_loop_nan in HL. discriminate. }
    rewrite cpp_inverse_loc_finite in HI by assumption. injection HI as <- <- <-.
    change (nsub (Some col) (Some (col_of m lon lat alt))) with (Some (col - col_of m lon lat alt)) in *.
    change (nsub (Some row) (Some (row_of m lon lat alt))) with (Some (row - row_of m lon lat alt)) in *.
    destruct (newton_update _ _ _ _ _) as [lo la] eqn:EU in HL.
    destruct (update_regular m row col lon lat alt lo la Hu Hr EU) as [[-> ->]|(lon' & lat' & -> & -> & Hs)].
    { rewrite cpp_nan, !nsub_none, cpp_loop_nan in HL. discriminate. }
    destruct (cpp_inverse_loc m (Some lon') (Some lat') (Some alt)) as [[r' c'] a'] eqn:EI.
    destruct (cpp_newton_loop m (Some row) (Some col) (Some alt) n (Some lon') (Some lat') (nsub (Some col) c') (nsub (Some row) r'))
      as [[[[lo la] dc'] dr'] k'] eqn:EL.
    injection HL as -> -> -> -> _.
    apply run_step with lon' lat'; [exact I|assumption| |assumption|].
    + apply active_res. exact EA.
    + eapply IH; eauto.
Qed.

Lemma cpp_iterative_converse m row col alt n fill lonf latf a : usable_inverse m ->
  cpp_direct_loc_inverse_iterative m (Some row) (Some col) (Some alt) n fill = (Some lonf, Some latf, a) ->
  regular_at m lonf latf alt ->
  newton_run (fun _ _ => True) m row col alt n (offset_x m) (offset_y m) lonf latf.
Proof.
  intros Hu H Hr. unfold cpp_direct_loc_inverse_iterative in H. cbn [isnan orb] in H.
  destruct (cpp_inverse_loc m (fin (offset_x m)) (fin (offset_y m)) (Some alt)) as [[r c] z] eqn:EI.
  destruct (cpp_newton_loop m (Some row) (Some col) (Some alt) n (fin (offset_x m)) (fin (offset_y m))
              (nsub (Some col) c) (nsub (Some row) r)) as [[[[lo la] dc] dr] k] eqn:EL.
  injection H as -> -> _. eapply cpp_run_converse; eauto.
Qed.
