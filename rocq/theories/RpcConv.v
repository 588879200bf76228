(** Convergence of Newton's method on an RPC model. *)
From Coq Require Import Reals List Lra Lia Psatz.
From Verif Require Import Num NumLemmas ProjModel RpcModel RpcSpec RpcConvSpec.
Import ListNotations.
Open Scope R_scope.

Lemma size_l u v : Rabs u <= size u v. Proof. apply Rmax_l. Qed.
Lemma size_r u v : Rabs v <= size u v. Proof. apply Rmax_r. Qed.
Lemma size_le u v s : Rabs u <= s -> Rabs v <= s -> size u v <= s. Proof. apply Rmax_lub. Qed.
Lemma size_pos u v : 0 <= size u v. Proof. pose proof (size_l u v). pose proof (Rabs_pos u). lra. Qed.
Lemma size_zero u v : size u v <= 0 -> u = 0 /\ v = 0.
Proof.
  intros H. pose proof (size_l u v). pose proof (size_r u v). pose proof (Rabs_pos u). pose proof (Rabs_pos v).
  assert (N : forall t, Rabs t <= 0 -> t = 0) by (intros t; unfold Rabs; destruct (Rcase_abs t); lra).
  split; apply N; lra.
Qed.
Lemma size_0 : size 0 0 = 0.
Proof. unfold size. rewrite Rabs_R0. apply Rmax_left. lra. Qed.

(** A well conditioned matrix is invertible. *)
Lemma conditioned_det a b c d g : (forall u v, size u v <= g * size (a * u + b * v) (c * u + d * v)) ->
  a * d - b * c <> 0.
Proof.
  intros H E.
  assert (Z : forall u v, a * u + b * v = 0 -> c * u + d * v = 0 -> u = 0 /\ v = 0).
  { intros u v E1 E2. apply size_zero. specialize (H u v). rewrite E1, E2, size_0 in H. lra. }
  destruct (Z d (- c)) as [Ed Ec]; [lra|lra|].
  destruct (Z b (- a)) as [Eb Ea]; [lra|lra|].
  destruct (Z 1 0) as [E1 _]; [| |lra].
  - assert (a = 0) by lra. subst. lra.
  - assert (c = 0) by lra. subst. lra.
Qed.

(** The mean value theorem between two points in any order. *)
Lemma mean_value (f f' : R -> R) (x y : R) :
  (forall z, Rmin x y <= z <= Rmax x y -> derivable_pt_lim f z (f' z)) ->
  exists z, Rmin x y <= z <= Rmax x y /\ f x - f y = f' z * (x - y).
Proof.
  intros H. destruct (Rtotal_order x y) as [L|[E|L]].
  - rewrite Rmin_left, Rmax_right in * by lra.
    destruct (MVT_cor2 f f' x y L H) as (z & E & Hz). exists z. split; [lra|]. lra.
  - subst y. exists x. split; [split; [apply Rmin_l|apply Rmax_l]|]. lra.
  - rewrite Rmin_right, Rmax_left in * by lra.
    destruct (MVT_cor2 f f' y x L H) as (z & E & Hz). exists z. split; [lra|]. lra.
Qed.
Lemma between_abs x y z c r : Rmin x y <= z <= Rmax x y -> Rabs (x - c) <= r -> Rabs (y - c) <= r -> Rabs (z - c) <= r.
Proof.
  unfold Rmin, Rmax. intros Hz Hx Hy. apply Rabs_le.
  assert (HX : - r <= x - c <= r) by (revert Hx; unfold Rabs; destruct Rcase_abs; lra).
  assert (HY : - r <= y - c <= r) by (revert Hy; unfold Rabs; destruct Rcase_abs; lra).
  destruct (Rle_dec x y); lra.
Qed.
Lemma between_dist x y z : Rmin x y <= z <= Rmax x y -> Rabs (x - z) <= Rabs (x - y).
Proof.
  unfold Rmin, Rmax. intros Hz. destruct (Rle_dec x y).
  - rewrite !Rabs_left1 by lra. lra.
  - rewrite !Rabs_pos_eq by lra. lra.
Qed.

(** One image coordinate [f] with partial derivatives [p] and [q] on the square. *)
Lemma two_legs (f p q : R -> R -> R) r x0 y0 x y : 
  (forall u v, within r x0 y0 u v -> derivable_pt_lim (fun t => f t v) u (p u v) /\ derivable_pt_lim (fun t => f u t) v (q u v)) ->
  within r x0 y0 x y ->
  exists xi eta, within r x0 y0 xi y /\ within r x0 y0 x0 eta /\
    Rabs (x - xi) <= Rabs (x - x0) /\ Rabs (y - eta) <= Rabs (y - y0) /\
    f x y - f x0 y0 = p xi y * (x - x0) + q x0 eta * (y - y0).
Proof.
  intros HD Hin. unfold within in *.
  assert (Hr : 0 <= r) by (pose proof (size_pos (x - x0) (y - y0)); lra).
  assert (HX : Rabs (x - x0) <= r) by (pose proof (size_l (x - x0) (y - y0)); lra).
  assert (HY : Rabs (y - y0) <= r) by (pose proof (size_r (x - x0) (y - y0)); lra).
  assert (HZ : Rabs (x0 - x0) <= r) by (rewrite Rminus_diag_eq, Rabs_R0 by reflexivity; lra).
  assert (HZy : Rabs (y0 - y0) <= r) by (rewrite Rminus_diag_eq, Rabs_R0 by reflexivity; lra).
  destruct (mean_value (fun t => f t y) (fun t => p t y) x x0) as (xi & B1 & E1).
  { intros z Hz. apply HD. apply size_le; [|assumption]. now apply (between_abs x x0 z). }
  destruct (mean_value (fun t => f x0 t) (fun t => q x0 t) y y0) as (eta & B2 & E2).
  { intros z Hz. apply HD. apply size_le; [assumption|]. now apply (between_abs y y0 z). }
  exists xi, eta. cbv beta in E1, E2.
  split; [apply size_le; [now apply (between_abs x x0 xi)|assumption]|].
  split; [apply size_le; [assumption|now apply (between_abs y y0 eta)]|].
  split; [now apply between_dist|]. split; [now apply between_dist|]. lra.
Qed.

(** The difference of [f] and its linearisation at (x, y), and a bound of the difference of [f]. *)
Lemma remainder (f p q : R -> R -> R) r x0 y0 x y bend steep s : 
  (forall u v, within r x0 y0 u v -> derivable_pt_lim (fun t => f t v) u (p u v) /\ derivable_pt_lim (fun t => f u t) v (q u v)) ->
  (forall u v u' v', within r x0 y0 u v -> within r x0 y0 u' v' ->
     Rabs (p u v - p u' v') <= bend * size (u - u') (v - v') /\ Rabs (q u v - q u' v') <= bend * size (u - u') (v - v')) ->
  (forall u v, within r x0 y0 u v -> Rabs (p u v) <= steep /\ Rabs (q u v) <= steep) ->
  0 <= bend -> within r x0 y0 x y -> size (x - x0) (y - y0) <= s ->
  Rabs (p x y * (x - x0) + q x y * (y - y0) - (f x y - f x0 y0)) <= 2 * bend * s * s /\
  Rabs (f x y - f x0 y0) <= 2 * steep * s.
Proof.
  intros HD HL HB Hbend Hin Hs.
  destruct (two_legs f p q r x0 y0 x y HD Hin) as (xi & eta & I1 & I2 & D1 & D2 & E).
  pose proof (size_l (x - x0) (y - y0)) as SX. pose proof (size_r (x - x0) (y - y0)) as SY.
  pose proof (size_pos (x - x0) (y - y0)) as SP.
  assert (P1 : Rabs (p x y - p xi y) <= bend * s).
  { eapply Rle_trans; [apply (HL x y xi y Hin I1)|]. apply Rmult_le_compat_l; [assumption|].
    apply size_le; [lra|]. rewrite Rminus_diag_eq, Rabs_R0 by reflexivity. lra. }
  assert (P2 : Rabs (q x y - q x0 eta) <= bend * s).
  { eapply Rle_trans; [apply (HL x y x0 eta Hin I2)|]. apply Rmult_le_compat_l; [assumption|].
    apply size_le; lra. }
  assert (M : forall u v A B, Rabs u <= A -> Rabs v <= B -> Rabs (u * v) <= A * B).
  { intros u v A B HA HB'. rewrite Rabs_mult. apply Rmult_le_compat; try apply Rabs_pos; assumption. }
  split.
  - rewrite E. replace (_ - _) with ((p x y - p xi y) * (x - x0) + (q x y - q x0 eta) * (y - y0)) by ring.
    eapply Rle_trans; [apply Rabs_triang|].
    pose proof (M _ _ _ _ P1 (Rle_trans _ _ _ SX Hs)). pose proof (M _ _ _ _ P2 (Rle_trans _ _ _ SY Hs)). lra.
  - rewrite E. eapply Rle_trans; [apply Rabs_triang|].
    pose proof (M _ _ _ _ (proj1 (HB _ _ I1)) (Rle_trans _ _ _ SX Hs)).
    pose proof (M _ _ _ _ (proj2 (HB _ _ I2)) (Rle_trans _ _ _ SY Hs)). lra.
Qed.

Section Conv.
Variables (m : rpc) (alt r gsd bend steep row col lon0 lat0 : R).
Hypothesis Hgsd : 0 <= gsd.
Hypothesis Hbend : 0 <= bend.
Hypothesis Hr : 0 <= r.
Hypothesis HC : col_of m lon0 lat0 alt = col.
Hypothesis HR : row_of m lon0 lat0 alt = row.
Variables a b c d : R -> R -> R.
Hypothesis HW : forall lon lat, within r lon0 lat0 lon lat ->
    regular_at m lon lat alt /\ lonlat_ok lon lat /\
    partial_derivatives m alt lon lat (a lon lat) (b lon lat) (c lon lat) (d lon lat) /\
    (forall u v, size u v <= gsd * size (a lon lat * u + b lon lat * v) (c lon lat * u + d lon lat * v)) /\
    (forall f, In f [a; b; c; d] -> Rabs (f lon lat) <= steep /\
       forall lon' lat', within r lon0 lat0 lon' lat' ->
         Rabs (f lon lat - f lon' lat') <= bend * size (lon - lon') (lat - lat')).

Lemma col_remainder x y s : within r lon0 lat0 x y -> size (x - lon0) (y - lat0) <= s ->
  Rabs (a x y * (x - lon0) + b x y * (y - lat0) - (col_of m x y alt - col)) <= 2 * bend * s * s /\
  Rabs (col_of m x y alt - col) <= 2 * steep * s.
Proof.
  intros Hin Hs. rewrite <- HC.
  apply (remainder (fun x y => col_of m x y alt) a b r lon0 lat0 x y bend steep s); auto.
  - intros u v H. destruct (HW u v H) as (_ & _ & (P1 & P2 & _) & _). auto.
  - intros u v u' v' H H'. destruct (HW u v H) as (_ & _ & _ & _ & HF).
    split; apply HF; simpl; auto.
  - intros u v H. destruct (HW u v H) as (_ & _ & _ & _ & HF). split; apply HF; simpl; auto.
Qed.
Lemma row_remainder x y s : within r lon0 lat0 x y -> size (x - lon0) (y - lat0) <= s ->
  Rabs (c x y * (x - lon0) + d x y * (y - lat0) - (row_of m x y alt - row)) <= 2 * bend * s * s /\
  Rabs (row_of m x y alt - row) <= 2 * steep * s.
Proof.
  intros Hin Hs. rewrite <- HR.
  apply (remainder (fun x y => row_of m x y alt) c d r lon0 lat0 x y bend steep s); auto.
  - intros u v H. destruct (HW u v H) as (_ & _ & (_ & _ & P1 & P2) & _). auto.
  - intros u v u' v' H H'. destruct (HW u v H) as (_ & _ & _ & _ & HF).
    split; apply HF; simpl; auto.
  - intros u v H. destruct (HW u v H) as (_ & _ & _ & _ & HF). split; apply HF; simpl; auto.
Qed.

(** One step squares the distance. *)
Lemma step_quadratic x y s : within r lon0 lat0 x y -> size (x - lon0) (y - lat0) <= s ->
  exists x' y', newton_step m row col alt x y x' y' /\ size (x' - lon0) (y' - lat0) <= 2 * gsd * bend * s * s.
Proof.
  intros Hin Hs. destruct (HW x y Hin) as (_ & _ & (P1 & P2 & P3 & P4) & HG & _).
  pose proof (conditioned_det _ _ _ _ _ HG) as Hdet.
  destruct (col_remainder x y s Hin Hs) as [RC _]. destruct (row_remainder x y s Hin Hs) as [RR _].
  set (A := a x y) in *. set (B := b x y) in *. set (C := c x y) in *. set (D := d x y) in *.
  set (rc := col - col_of m x y alt) in *. set (rr := row - row_of m x y alt) in *.
  set (x' := x + (D * rc - B * rr) / (A * D - B * C)). set (y' := y + (A * rr - C * rc) / (A * D - B * C)).
  assert (E1 : A * (x' - x) + B * (y' - y) = rc) by (unfold x', y'; field; assumption).
  assert (E2 : C * (x' - x) + D * (y' - y) = rr) by (unfold x', y'; field; assumption).
  exists x', y'. split.
  - exists A, B, C, D. auto 8.
  - eapply Rle_trans; [apply HG|].
    replace (2 * gsd * bend * s * s) with (gsd * (2 * bend * s * s)) by ring.
    apply Rmult_le_compat_l; [assumption|]. apply size_le.
    + replace (A * (x' - lon0) + B * (y' - lat0)) with (A * (x - lon0) + B * (y - lat0) - (col_of m x y alt - col)); [assumption|].
      fold A B. unfold rc in E1. lra.
    + replace (C * (x' - lon0) + D * (y' - lat0)) with (C * (x - lon0) + D * (y - lat0) - (row_of m x y alt - row)); [assumption|].
      unfold rr in E2. lra.
Qed.

Lemma pow_double n : (2 ^ S n - 1 = S (2 * (2 ^ n - 1)))%nat.
Proof. assert (2 ^ n <> 0)%nat by (apply Nat.pow_nonzero; lia). simpl. lia. Qed.

Lemma run_converges n : forall x y s, size (x - lon0) (y - lat0) <= s -> s <= r -> 2 * gsd * bend * s <= 1 ->
  2 * steep * s * (2 * gsd * bend * s) ^ (2 ^ n - 1) <= 1 / 1000000 ->
  exists xf yf, newton_run lonlat_ok m row col alt n x y xf yf /\ reprojects m row col xf yf alt /\
    size (xf - lon0) (yf - lat0) <= s.
Proof.
  induction n as [|n IH]; intros x y s Hs Hsr Hq He.
  all: assert (Hs0 : 0 <= s) by (pose proof (size_pos (x - lon0) (y - lat0)); lra).
  all: assert (Hin : within r lon0 lat0 x y) by (unfold within; lra).
  all: destruct (HW x y Hin) as (Hreg & Hok & _).
  - exists x, y.
    assert (HRp : reprojects m row col x y alt).
    { destruct (col_remainder x y s Hin Hs) as [_ RC]. destruct (row_remainder x y s Hin Hs) as [_ RR].
      simpl in He. unfold reprojects. split; rewrite Rabs_minus_sym; lra. }
    split; [now apply run_done|]. auto.
  - assert (HDec : reprojects m row col x y alt \/ ~ reprojects m row col x y alt).
    { unfold reprojects. destruct (Rle_dec (Rabs (col - col_of m x y alt)) (1 / 1000000)); [|tauto].
      destruct (Rle_dec (Rabs (row - row_of m x y alt)) (1 / 1000000)); tauto. }
    destruct HDec as [HRp|HRp].
    + exists x, y. split; [now apply run_done|]. auto.
    + destruct (step_quadratic x y s Hin Hs) as (x' & y' & HN & Hs').
      set (k := 2 * gsd * bend) in *. assert (Hk : 0 <= k) by (unfold k; nra).
      assert (Hks : 0 <= k * s) by nra.
      set (s' := k * s * s) in *. assert (Hss : s' <= s) by (unfold s'; nra).
      assert (Hs'' : size (x' - lon0) (y' - lat0) <= s') by exact Hs'.
      assert (Es' : k * s' = (k * s) ^ 2) by (unfold s'; ring).
      destruct (IH x' y' s' Hs'' ltac:(lra)) as (xf & yf & H1 & H2 & H3).
      * rewrite Es'. nra.
      * rewrite Es', <- pow_mult. rewrite pow_double in He. cbn [pow] in He.
        replace (2 * steep * s' * (k * s) ^ (2 * (2 ^ n - 1)))
          with (2 * steep * s * (k * s * (k * s) ^ (2 * (2 ^ n - 1)))) by (unfold s'; ring). exact He.
      * exists xf, yf. split; [|split; [assumption|lra]].
        apply (run_step _ _ _ _ _ _ _ _ x' y'); auto.
Qed.

(** A point that reprojects is near. *)
Lemma reprojects_near x y : within r lon0 lat0 x y -> 2 * gsd * bend * r <= 1 / 2 -> reprojects m row col x y alt ->
  size (x - lon0) (y - lat0) <= 2 * gsd * (1 / 1000000).
Proof.
  intros Hin Hq [HRC HRR]. destruct (HW x y Hin) as (_ & _ & _ & HG & _).
  set (s := size (x - lon0) (y - lat0)).
  assert (Hs : size (x - lon0) (y - lat0) <= s) by apply Rle_refl.
  assert (Hs0 : 0 <= s) by apply size_pos. assert (Hsr : s <= r) by exact Hin.
  destruct (col_remainder x y s Hin Hs) as [RC _]. destruct (row_remainder x y s Hin Hs) as [RR _].
  rewrite Rabs_minus_sym in HRC, HRR.
  assert (H : s <= gsd * (2 * bend * s * s + 1 / 1000000)).
  { eapply Rle_trans; [apply HG|]. apply Rmult_le_compat_l; [assumption|]. apply size_le.
    - replace (a x y * (x - lon0) + b x y * (y - lat0)) with
        ((a x y * (x - lon0) + b x y * (y - lat0) - (col_of m x y alt - col)) + (col_of m x y alt - col)) by ring.
      eapply Rle_trans; [apply Rabs_triang|]. lra.
    - replace (c x y * (x - lon0) + d x y * (y - lat0)) with
        ((c x y * (x - lon0) + d x y * (y - lat0) - (row_of m x y alt - row)) + (row_of m x y alt - row)) by ring.
      eapply Rle_trans; [apply Rabs_triang|]. lra. }
  assert (2 * gsd * bend * s <= 1 / 2).
  { eapply Rle_trans; [|exact Hq]. apply Rmult_le_compat_l; [nra|assumption]. }
  assert (gsd * (2 * bend * s * s) <= s / 2) by nra. lra.
Qed.
End Conv.
