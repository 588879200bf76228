(** Proofs: in binary64, the positions that the iterative direct localization returns with the required precision are seen in the
    pixel. *)
From Coq Require Import ZArith Reals List Bool Lia Lra.
From Flocq Require Import Core BinarySingleNaN.
From Verif Require Import RpcModel RpcSpec FloatModel Float FloatErr FloatLine FloatWalk FloatMiss FloatRpcModel FloatRpcSpec PropertiesFloatRpc FloatNewtonModel FloatNewtonSpec.
Import ListNotations.
Open Scope R_scope.

Lemma feps_val : is_finite feps = true /\ 0 < B2R feps <= / 1000000.
Proof.
  destruct (flit_exact 4722366482869645 (-72)) as [V F]; [apply fits_dyadic; lia|]. fold feps in V, F. split; [exact F|]. rewrite V.
  change (bpow radix2 (-72)) with (/ IZR (2 ^ 72)). change (2 ^ 72)%Z with 4722366482869645213696%Z. lra.
Qed.
Lemma finite_not_nan (x : b64) : is_finite x = true -> is_nan x = false. Proof. now destruct x. Qed.
Lemma sub_not_nan (x y : b64) : is_finite x = true -> is_finite y = true -> is_nan (fsub x y) = false.
Proof.
  intros FX FY. pose proof (Bminus_correct 53 1024 _ _ mode_NE x y FX FY) as H. fold (fsub x y) in H.
  destruct (Rlt_bool _ _).
  - apply finite_not_nan. apply H.
  - destruct H as [H _]. destruct (fsub x y); try reflexivity. cbn in H. unfold binary_overflow in H. cbn in H. discriminate.
Qed.
(** A number that is not NaN and whose absolute value is not more than a finite one. *)
Lemma not_more (e x : b64) : is_finite e = true -> is_nan x = false -> Bltb e (Babs x) = false -> is_finite x = true /\ Rabs (B2R x) <= B2R e.
Proof.
  intros FE NX H. destruct x as [s|s| |s mx ex B]; try discriminate NX.
  - split; [reflexivity|]. assert (FA : is_finite (Babs (B754_zero s : b64)) = true) by reflexivity. apply (ltb_ge e _ FE FA) in H. cbn [Babs B2R] in *. rewrite Rabs_R0. exact H.
  - exfalso. destruct e as [t|t| |t me ee C]; try discriminate FE; try (destruct t); discriminate H.
  - split; [reflexivity|]. assert (FA : is_finite (Babs (B754_finite s mx ex B : b64)) = true) by reflexivity. apply (ltb_ge e _ FE FA) in H. rewrite B2R_Babs in H. exact H.
Qed.
(** A residue that is not more than the tolerance. *)
Lemma small_residue (x y : b64) : is_finite x = true -> is_finite y = true -> Bltb feps (Babs (fsub x y)) = false -> Rabs (B2R x - B2R y) <= / 1000000 + / 1000000000000.
Proof.
  intros FX FY H. destruct feps_val as [FE [E0 E1]]. destruct (not_more _ _ FE (sub_not_nan x y FX FY) H) as [FD D].
  assert (V : B2R (fsub x y) = rnd (B2R x - B2R y)).
  { pose proof (Bminus_correct 53 1024 _ _ mode_NE x y FX FY) as C. fold (fsub x y) in C.
    change (round radix2 (SpecFloat.fexp 53 1024) (round_mode mode_NE) (B2R x - B2R y)) with (rnd (B2R x - B2R y)) in C.
    destruct (Rlt_bool_spec (Rabs (rnd (B2R x - B2R y))) (bpow radix2 1024)); [tauto|]. exfalso. destruct C as [C _]. rewrite finite_SF, C, overflow_not_finite in FD. discriminate. }
  rewrite V in D. pose proof (rnd_error (B2R x - B2R y)) as R. pose proof ulp1_val as U. change (IZR (2 ^ 53)) with 9007199254740992 in U. pose proof tiny_small as T.
  set (z := B2R x - B2R y) in *. assert (A : Rabs z <= Rabs (rnd z) + Rabs (rnd z - z)) by (replace z with (rnd z + - (rnd z - z)) at 1 by ring; eapply Rle_trans; [apply Rabs_triang|]; rewrite Rabs_Ropp; lra).
  rewrite U in *. pose proof (Rabs_pos z). lra.
Qed.

(** ** Maxima *)
(** A number that is not NaN, the infinities being larger than the finite numbers. *)
Definition val (x : b64) : R := match x with B754_infinity s => if s then - bpow radix2 1024 else bpow radix2 1024 | _ => B2R x end.
Lemma ltb_val (x y : b64) : is_nan x = false -> is_nan y = false -> Bltb x y = Rlt_bool (val x) (val y).
Proof.
  intros NX NY. assert (P : 0 < bpow radix2 1024) by apply bpow_gt_0.
  assert (F : forall z : b64, is_finite z = true -> val z = B2R z /\ - bpow radix2 1024 < B2R z < bpow radix2 1024).
  { intros z FZ. split; [now destruct z|]. pose proof (abs_B2R_lt_emax 53 1024 z) as L. apply Rabs_lt_inv in L. exact L. }
  destruct (is_finite x) eqn:FX, (is_finite y) eqn:FY.
  - rewrite (proj1 (F x FX)), (proj1 (F y FY)). now apply Bltb_correct.
  - destruct (F x FX) as [-> L]. destruct y as [|s| |]; try discriminate. cbn [val]. clear FY NY.
    destruct s; [rewrite Rlt_bool_false by lra|rewrite Rlt_bool_true by lra]; destruct x as [t|t| |t ? ? ?]; try discriminate; try destruct t; reflexivity.
  - destruct (F y FY) as [-> L]. destruct x as [|s| |]; try discriminate. cbn [val]. clear FX NX.
    destruct s; [rewrite Rlt_bool_true by lra|rewrite Rlt_bool_false by lra]; destruct y as [t|t| |t ? ? ?]; try discriminate; try destruct t; reflexivity.
  - destruct x as [|s| |], y as [|t| |]; try discriminate. cbn [val]. destruct s, t; [rewrite Rlt_bool_false by lra|rewrite Rlt_bool_true by lra|rewrite Rlt_bool_false by lra|rewrite Rlt_bool_false by lra]; reflexivity.
Qed.
Lemma maximum_val (x y : b64) : is_nan x = false -> is_nan y = false -> is_nan (f_maximum x y) = false /\ val x <= val (f_maximum x y) /\ val y <= val (f_maximum x y).
Proof.
  intros NX NY. unfold f_maximum. rewrite NX, NY, (ltb_val x y NX NY). destruct (Rlt_bool_spec (val x) (val y)); (split; [assumption|]); lra.
Qed.
Lemma max_val (l : list b64) (x : b64) : Forall (fun x => is_nan x = false) l -> In x l -> is_nan (f_max l) = false /\ val x <= val (f_max l).
Proof.
  intros N. destruct l as [|a l]; [easy|]. cbn [f_max].
  assert (G : forall l a, is_nan a = false -> Forall (fun x => is_nan x = false) l -> is_nan (fold_left f_maximum l a) = false /\ val a <= val (fold_left f_maximum l a) /\ forall x, In x l -> val x <= val (fold_left f_maximum l a)).
  { clear. induction l as [|b l IH]; intros a NA N; cbn [fold_left]; [split; [exact NA|split; [lra|easy]]|]. inversion_clear N as [|? ? NB NL].
    destruct (maximum_val a b NA NB) as (M1 & M2 & M3). destruct (IH _ M1 NL) as (K1 & K2 & K3). split; [exact K1|]. split; [lra|].
    intros x [<-|I]; [lra|exact (K3 x I)]. }
  inversion_clear N as [|? ? NA NL]. destruct (G l a NA NL) as (K1 & K2 & K3). intros [<-|I]; (split; [exact K1|]); [exact K2|exact (K3 x I)].
Qed.
(** When the guard is false and no residue is NaN, no residue is more than the tolerance. *)
Lemma guard_false ss s : Forall (fun s => is_nan (fs_dcol s) = false /\ is_nan (fs_drow s) = false) ss -> In s ss -> f_guard ss = false ->
  Bltb feps (Babs (fs_dcol s)) = false /\ Bltb feps (Babs (fs_drow s)) = false.
Proof.
  intros N I G. unfold f_guard in G. apply orb_false_iff in G as [G1 G2].
  assert (A : forall x : b64, is_nan x = false -> is_nan (Babs x) = false) by now intros [].
  assert (NE : is_nan feps = false) by (apply finite_not_nan, feps_val).
  assert (K : forall f : fstate -> b64, (forall s, In s ss -> is_nan (f s) = false) -> Bltb feps (f_max (map (fun s => Babs (f s)) ss)) = false -> Bltb feps (Babs (f s)) = false).
  { intros f NF H. destruct (max_val (map (fun s => Babs (f s)) ss) (Babs (f s))) as [M1 M2].
    - apply Forall_forall. intros x Hx. apply in_map_iff in Hx as (t & <- & Ht). apply A, NF, Ht.
    - apply in_map_iff. now exists s.
    - rewrite ltb_val in H by assumption. rewrite ltb_val by (assumption || apply A, NF, I). apply Rlt_bool_false. destruct (Rlt_bool_spec (val feps) (val (f_max (map (fun s => Babs (f s)) ss)))); [discriminate|lra]. }
  rewrite Forall_forall in N. split; apply K; try assumption; intros t Ht; now apply N.
Qed.

(** ** The residues are the ones of the current positions *)
(** The residues of the state are the ones of its position at this altitude. *)
Definition linked (M : fmodel) (p : fpixel) (alt : b64) (s : fstate) : Prop :=
  exists row col, f_inverse_loc M (fs_lon s) (fs_lat s) alt row col /\ fs_dcol s = fsub (fp_col p) col /\ fs_drow s = fsub (fp_row p) row.
(** Either at the altitude of the pixel, or at the start and at the altitude of the first one. *)
Definition kept (M : fmodel) (alt0 : b64) (p : fpixel) (s : fstate) : Prop :=
  linked M p (fp_alt p) s \/ (fs_lon s = fa_offset (fm_x M) /\ fs_lat s = fa_offset (fm_y M) /\ linked M p alt0 s).
Lemma iterate_kept M alt0 p s s' : kept M alt0 p s -> f_iterate M p s s' -> kept M alt0 p s'.
Proof.
  intros K H. unfold f_iterate in H. destruct (f_again s); [|now subst]. destruct H as (dlon & dlat & row & col & I & ->). left. exists row, col. cbn [fs_lon fs_lat fs_dcol fs_drow]. auto.
Qed.
Lemma loop_kept M ps alt0 n ss e out : f_loop M ps n ss e out -> Forall2 (kept M alt0) ps ss -> Forall2 (kept M alt0) ps out /\ (e = FPrecise -> f_guard out = false).
Proof.
  induction 1 as [n ss G|ss G|n ss ss' e out G IT LEN L IH]; intros K; [now split|split; [exact K|discriminate]|]. apply IH. clear G L IH LEN.
  revert ss' IT. induction K as [|p s ps ss K KS IH]; cbn [combine]; intros ss' IT.
  - inversion IT. constructor.
  - inversion IT as [|? s' ? ss'' I1 I2]; subst. constructor; [exact (iterate_kept M alt0 p s s' K I1)|exact (IH _ I2)].
Qed.
Lemma start_kept M ps ss : f_start M ps ss -> exists p0, nth_error ps 0 = Some p0 /\ Forall2 (kept M (fp_alt p0)) ps ss.
Proof.
  destruct ps as [|p ps]; [easy|]. cbn [f_start]. intros (row & col & I & ->). exists p. split; [reflexivity|].
  assert (G : forall l, Forall2 (kept M (fp_alt p)) l (map (fun q => FSt (fa_offset (fm_x M)) (fa_offset (fm_y M)) (fsub (fp_col q) col) (fsub (fp_row q) row)) l)).
  { induction l as [|q l IH]; cbn [map]; constructor; [|exact IH]. right. cbn [fs_lon fs_lat]. split; [reflexivity|]. split; [reflexivity|]. exists row, col. auto. }
  apply G.
Qed.

(** ** The computed and the exact pixel *)
Lemma domain_ok M lon lat alt : in_domain M lon lat alt -> f_lonlat_ok lon lat alt = true /\ is_nan lon = false /\ is_nan lat = false.
Proof.
  intros (B1 & B2 & (_ & _ & _ & _ & _ & [F1 _] & [F2 _] & [F3 _] & _) & _).
  destruct (fint_exact 180 ltac:(lia)) as [V1 W1]. destruct (fint_exact 90 ltac:(lia)) as [V2 W2].
  assert (N : forall x : b64, is_finite x = true -> is_finite (Babs x) = true) by now intros [].
  unfold f_lonlat_ok. rewrite !Bltb_correct, !B2R_Babs, V1, V2 by (assumption || now apply N). rewrite !Rlt_bool_false by assumption.
  rewrite (finite_not_nan _ F1), (finite_not_nan _ F2), (finite_not_nan _ F3). auto.
Qed.
Lemma sensor_error m M lon lat alt row col : same_model m M -> image_model M -> in_domain M lon lat alt -> f_sensor M lon lat alt row col ->
  is_finite row = true /\ is_finite col = true /\
  Rabs (B2R row - row_of m (B2R lon) (B2R lat) (B2R alt)) <= 12 / 1000000000 /\ Rabs (B2R col - col_of m (B2R lon) (B2R lat) (B2R alt)) <= 12 / 1000000000.
Proof. intros S [I1 I2] (_ & _ & O1 & O2) [S1 S2]. exact (C88_pixel_error m _ _ _ _ _ _ _ _ _ lon lat alt row col S O2 O1 I1 I2 S1 S2). Qed.
(** The residues of a position of the domain are not NaN; when they are not more than the tolerance, the pixel sees the position. *)
Lemma residue_seen m M p lon lat alt row col : same_model m M -> image_model M -> in_domain M lon lat alt -> finite_pixel p -> f_sensor M lon lat alt row col ->
  (is_nan (fsub (fp_col p) col) = false /\ is_nan (fsub (fp_row p) row) = false) /\
  (Bltb feps (Babs (fsub (fp_col p) col)) = false -> Bltb feps (Babs (fsub (fp_row p) row)) = false -> seen_at m (fp_row p) (fp_col p) lon lat alt).
Proof.
  intros S I D [FR FC] H. destruct (sensor_error m M lon lat alt row col S I D H) as (F1 & F2 & E1 & E2). split; [split; now apply sub_not_nan|].
  intros B1 B2. apply small_residue in B1; [|assumption..]. apply small_residue in B2; [|assumption..].
  assert (T : forall a b c : R, Rabs (a - c) <= Rabs (a - b) + Rabs (b - c)) by (intros a b c; replace (a - c) with ((a - b) + (b - c)) by ring; apply Rabs_triang).
  split; [eapply Rle_trans; [apply T with (b := B2R row)|]; lra|eapply Rle_trans; [apply T with (b := B2R col)|]; lra].
Qed.

(** ** The positions that are put back *)
Lemma scatter_nth none ps ss (Q : fpixel -> fstate -> Prop) : Forall2 Q (filter f_valid ps) ss ->
  forall i p, nth_error ps i = Some p -> f_valid p = true -> exists s, nth_error (f_scatter none ps ss) i = Some (fs_lon s, fs_lat s) /\ Q p s /\ In s ss.
Proof.
  revert ss. induction ps as [|q ps IH]; intros ss F i p E V; [destruct i; discriminate|]. cbn [filter f_scatter] in *. destruct (f_valid q) eqn:VQ.
  - inversion F as [|? s ? ss' Q1 F']; subst. destruct i as [|i]; cbn [nth_error] in *.
    + injection E as <-. exists s. split; [reflexivity|]. split; [exact Q1|]. now left.
    + destruct (IH ss' F' i p E V) as (t & T1 & T2 & T3). exists t. split; [exact T1|]. split; [exact T2|]. now right.
  - destruct i as [|i]; cbn [nth_error] in *; [injection E as <-; congruence|]. exact (IH ss F i p E V).
Qed.
Lemma scatter_in none ps ss (Q : fpixel -> fstate -> Prop) s : Forall2 Q (filter f_valid ps) ss -> In s ss ->
  exists i p, nth_error ps i = Some p /\ f_valid p = true /\ nth_error (f_scatter none ps ss) i = Some (fs_lon s, fs_lat s) /\ Q p s.
Proof.
  revert ss. induction ps as [|q ps IH]; intros ss F I; cbn [filter f_scatter] in *; [inversion F; subst; easy|]. destruct (f_valid q) eqn:VQ.
  - inversion F as [|? t ? ss' Q1 F']; subst. destruct I as [<-|I].
    + exists 0%nat, q. cbn [nth_error]. auto.
    + destruct (IH ss' F' I) as (i & p & H). exists (S i), p. exact H.
  - destruct (IH ss F I) as (i & p & H). exists (S i), p. exact H.
Qed.

(** ** The compiled version *)
Lemma c_loop_linked M p n s e out : c_loop M p n s e out ->
  (exists row col, c_inverse_loc M (fs_lon s) (fs_lat s) (fp_alt p) row col /\ fs_dcol s = fsub (fp_col p) col /\ fs_drow s = fsub (fp_row p) row) ->
  (exists row col, c_inverse_loc M (fs_lon out) (fs_lat out) (fp_alt p) row col /\ fs_dcol out = fsub (fp_col p) col /\ fs_drow out = fsub (fp_row p) row) /\
  (e = FPrecise -> f_again out = false).
Proof.
  induction 1 as [n s G|s G|n s e out dlon dlat row col G I L IH]; intros K; [now split|split; [exact K|discriminate]|]. apply IH. exists row, col. cbn [fs_lon fs_lat fs_dcol fs_drow]. auto.
Qed.
