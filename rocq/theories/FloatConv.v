(** Proofs: Newton's method on an RPC model with rounded residues, corrections and positions. *)
From Coq Require Import ZArith Reals List Bool Lia Lra Psatz.
From Verif Require Import RpcModel RpcSpec RpcConvSpec RpcConv.
Import ListNotations.
Open Scope R_scope.

(** What bounds the distance to the ground position after [k] iterations: a part of the size of the square and a multiple of the
    distance that the roundings leave. *)
Definition part (k : nat) : R :=
  match k with
  | 0%nat => 1 | 1%nat => 501 / 1000 | 2%nat => 1261 / 10000 | 3%nat => 81 / 10000 | 4%nat => 41 / 1000000 | 5%nat => 43 / 1000000000
  | _ => 44 / 1000000000000
  end.
Definition multiple (k : nat) : R :=
  match k with 0%nat => 0 | 1%nat => 1 | 2%nat => 1503 / 1000 | 3%nat => 1195 / 1000 | 4%nat => 1012 / 1000 | _ => 1002 / 1000 end.
Lemma part_range k : 0 < part k <= 1. Proof. do 6 (destruct k as [|k]; [cbn [part]; lra|]). cbn [part]. lra. Qed.
Lemma multiple_range k : 0 <= multiple k <= 2. Proof. do 5 (destruct k as [|k]; [cbn [multiple]; lra|]). cbn [multiple]. lra. Qed.
Lemma part_next k : (k < 6)%nat -> part k * part k / 2 + part k / 1000 <= part (S k).
Proof. intros H. do 6 (destruct k as [|k]; [cbn [part]; lra|]). lia. Qed.
Lemma multiple_next k : (k < 6)%nat -> part k * multiple k + multiple k * multiple k / 2000 + multiple k / 1000 + 1 <= multiple (S k).
Proof. intros H. do 6 (destruct k as [|k]; [cbn [part multiple]; lra|]). lia. Qed.
Lemma table_range k : part k + multiple k / 1000 <= 1.
Proof. do 6 (destruct k as [|k]; [cbn [part multiple]; lra|]). cbn [part multiple]. lra. Qed.

Lemma abs_mul u v A B : Rabs u <= A -> Rabs v <= B -> Rabs (u * v) <= A * B.
Proof. intros. rewrite Rabs_mult. apply Rmult_le_compat; try apply Rabs_pos; assumption. Qed.
Lemma abs_sum5 p q r s t A B C D E : Rabs p <= A -> Rabs q <= B -> Rabs r <= C -> Rabs s <= D -> Rabs t <= E -> Rabs (p + q + r + s + t) <= A + B + C + D + E.
Proof.
  intros. pose proof (Rabs_triang (p + q + r + s) t). pose proof (Rabs_triang (p + q + r) s). pose proof (Rabs_triang (p + q) r). pose proof (Rabs_triang p q). lra.
Qed.

Section Square.
Variables (m : rpc) (alt r gsd bend steep row col lon0 lat0 : R).
Hypothesis Hgsd : 0 <= gsd.
Hypothesis Hbend : 0 <= bend.
Hypothesis Hr : 0 < r.
Hypothesis Hq : 2 * gsd * bend * r <= 1 / 2.
Hypothesis Hcond : gsd * steep <= 500.
Hypothesis Hsteep : 0 <= steep <= 10000000.
Hypothesis Hrange : steep * r <= 1000000.
Hypothesis Hlarge : gsd * (5 / 10000000) <= r / 1000.
Hypothesis HC : col_of m lon0 lat0 alt = col.
Hypothesis HR : row_of m lon0 lat0 alt = row.
Variables a b c d : R -> R -> R.
Hypothesis HW : forall lon lat, within r lon0 lat0 lon lat ->
    regular_at m lon lat alt /\ lonlat_ok lon lat /\
    partial_derivatives m alt lon lat (a lon lat) (b lon lat) (c lon lat) (d lon lat) /\
    (forall u v, size u v <= gsd * size (a lon lat * u + b lon lat * v) (c lon lat * u + d lon lat * v)) /\
    (forall f, In f [a; b; c; d] -> Rabs (f lon lat) <= steep /\
       forall lon' lat', within r lon0 lat0 lon' lat' ->
         Rabs (f lon lat - f lon' lat') <= bend * size (lon - lon') (lat - lat')).

(** The bound of the linearised residue after a step from the distance [s]. *)
Definition after (s : R) : R := 2 * bend * s * s + 2 / 1000000 * steep * s + 45 / 100000000.
(** The distance that the roundings leave. *)
Definition rest : R := gsd * (45 / 100000000).
Definition reach (k : nat) : R := part k * r + multiple k * rest.

Lemma rest_range : 0 <= rest <= r / 1000. Proof. unfold rest. lra. Qed.
Lemma reach_range k : 0 <= reach k <= r.
Proof.
  unfold reach. pose proof (part_range k). pose proof (multiple_range k). pose proof (table_range k). pose proof rest_range as [R0 R1].
  assert (0 <= part k * r) by (apply Rmult_le_pos; lra). assert (0 <= multiple k * rest) by (apply Rmult_le_pos; lra).
  assert (multiple k * rest <= multiple k * (r / 1000)) by (apply Rmult_le_compat_l; lra).
  assert ((part k + multiple k / 1000) * r <= 1 * r) by (apply Rmult_le_compat_r; lra). lra.
Qed.

(** Along one image axis. *)
Lemma one_axis A B x y dx dy x' y' res dres s z : Rabs A <= steep -> Rabs B <= steep ->
  Rabs (A * (x - lon0) + B * (y - lat0) - res) <= 2 * bend * s * s -> Rabs (dres + res) <= 13 / 1000000000 ->
  Rabs (A * dx + B * dy - dres) <= z / 1000000 -> z <= 2 * steep * s + 13 / 1000000000 ->
  Rabs (x' - (x + dx)) <= 21 / 1000000000000000 -> Rabs (y' - (y + dy)) <= 21 / 1000000000000000 -> Rabs (A * (x' - lon0) + B * (y' - lat0)) <= after s.
Proof.
  intros HA HB H1 H2 H3 Hz HX HY. pose proof (abs_mul _ _ _ _ HA HX) as WX. pose proof (abs_mul _ _ _ _ HB HY) as WY.
  replace (A * (x' - lon0) + B * (y' - lat0)) with
    ((A * (x - lon0) + B * (y - lat0) - res) + (A * dx + B * dy - dres) + (dres + res) + A * (x' - (x + dx)) + B * (y' - (y + dy))) by ring.
  eapply Rle_trans; [apply (abs_sum5 _ _ _ _ _ _ _ _ _ _ H1 H3 H2 WX WY)|].
  unfold after. lra.
Qed.
Lemma inexact_step x y dx dy x' y' dc dr s : size (x - lon0) (y - lat0) <= s -> s <= r ->
  Rabs (dc - (col - col_of m x y alt)) <= 13 / 1000000000 -> Rabs (dr - (row - row_of m x y alt)) <= 13 / 1000000000 ->
  Rabs (a x y * dx + b x y * dy - dc) <= size dc dr / 1000000 -> Rabs (c x y * dx + d x y * dy - dr) <= size dc dr / 1000000 ->
  Rabs (x' - (x + dx)) <= 21 / 1000000000000000 -> Rabs (y' - (y + dy)) <= 21 / 1000000000000000 ->
  Rabs (a x y * (x' - lon0) + b x y * (y' - lat0)) <= after s /\ Rabs (c x y * (x' - lon0) + d x y * (y' - lat0)) <= after s /\
  size (x' - lon0) (y' - lat0) <= gsd * after s.
Proof.
  intros Hs Hsr E1 E2 G1 G2 X Y. assert (I : within r lon0 lat0 x y) by (unfold within; lra).
  destruct (col_remainder m alt r gsd bend steep col lon0 lat0 Hbend HC a b c d HW x y s I Hs) as [RC BC].
  destruct (row_remainder m alt r gsd bend steep row lon0 lat0 Hbend HR a b c d HW x y s I Hs) as [RR BR].
  destruct (HW x y I) as (_ & _ & _ & HG & HF).
  assert (SA : Rabs (a x y) <= steep) by (apply HF; simpl; auto). assert (SB : Rabs (b x y) <= steep) by (apply HF; simpl; auto).
  assert (SC : Rabs (c x y) <= steep) by (apply HF; simpl; auto). assert (SD : Rabs (d x y) <= steep) by (apply HF; simpl; auto).
  assert (Z : size dc dr <= 2 * steep * s + 13 / 1000000000).
  { apply size_le.
    - replace dc with ((dc - (col - col_of m x y alt)) + - (col_of m x y alt - col)) by ring. eapply Rle_trans; [apply Rabs_triang|]. rewrite Rabs_Ropp. lra.
    - replace dr with ((dr - (row - row_of m x y alt)) + - (row_of m x y alt - row)) by ring. eapply Rle_trans; [apply Rabs_triang|]. rewrite Rabs_Ropp. lra. }
  assert (E1' : Rabs (dc + (col_of m x y alt - col)) <= 13 / 1000000000) by (replace (dc + (col_of m x y alt - col)) with (dc - (col - col_of m x y alt)) by ring; exact E1).
  assert (E2' : Rabs (dr + (row_of m x y alt - row)) <= 13 / 1000000000) by (replace (dr + (row_of m x y alt - row)) with (dr - (row - row_of m x y alt)) by ring; exact E2).
  pose proof (one_axis _ _ x y dx dy x' y' _ dc s _ SA SB RC E1' G1 Z X Y) as A1.
  pose proof (one_axis _ _ x y dx dy x' y' _ dr s _ SC SD RR E2' G2 Z X Y) as A2.
  split; [exact A1|]. split; [exact A2|]. eapply Rle_trans; [apply HG|]. apply Rmult_le_compat_l; [exact Hgsd|]. now apply size_le.
Qed.

(** A step goes to the next line of the table. *)
Lemma after_reach k : (k < 6)%nat -> gsd * after (reach k) <= reach (S k).
Proof.
  intros Hk. pose proof (part_next k Hk) as N1. pose proof (multiple_next k Hk) as N2. pose proof (reach_range k) as [S0 _]. pose proof rest_range as [F0 F1].
  pose proof (part_range k) as [P0 _]. pose proof (multiple_range k) as [M0 _].
  assert (Q : 2 * gsd * bend * (reach k * reach k) <= part k * part k / 2 * r + part k * multiple k * rest + multiple k * multiple k / 2000 * rest).
  { set (phi := rest / r). assert (E : rest = phi * r) by (unfold phi; field; lra). assert (P : 0 <= phi <= 1 / 1000).
    { split; [apply Rmult_le_pos; [lra|left; now apply Rinv_0_lt_compat]|]. apply Rmult_le_reg_r with r; [lra|]. rewrite <- E. lra. }
    unfold reach. rewrite E. replace (2 * gsd * bend * ((part k * r + multiple k * (phi * r)) * (part k * r + multiple k * (phi * r))))
      with (2 * gsd * bend * r * (r * ((part k + multiple k * phi) * (part k + multiple k * phi)))) by ring.
    assert (0 <= r * ((part k + multiple k * phi) * (part k + multiple k * phi))) by (apply Rmult_le_pos; [lra|apply Rle_0_sqr]).
    apply Rle_trans with (1 / 2 * (r * ((part k + multiple k * phi) * (part k + multiple k * phi)))); [apply Rmult_le_compat_r; assumption|].
    assert (multiple k * multiple k * phi * phi * r <= multiple k * multiple k * phi * r * (1 / 1000)).
    { replace (multiple k * multiple k * phi * phi * r) with (multiple k * multiple k * phi * r * phi) by ring. apply Rmult_le_compat_l; [|lra].
      apply Rmult_le_pos; [|lra]. apply Rmult_le_pos; [|lra]. apply Rmult_le_pos; lra. }
    lra. }
  assert (L : 2 / 1000000 * (gsd * steep) * reach k <= reach k / 1000).
  { apply Rle_trans with (2 / 1000000 * 500 * reach k); [apply Rmult_le_compat_r; lra|lra]. }
  unfold after. replace (gsd * (2 * bend * reach k * reach k + 2 / 1000000 * steep * reach k + 45 / 100000000))
    with (2 * gsd * bend * (reach k * reach k) + 2 / 1000000 * (gsd * steep) * reach k + rest) by (unfold rest; ring).
  apply Rle_trans with ((part k * part k / 2 + part k / 1000) * r + (part k * multiple k + multiple k * multiple k / 2000 + multiple k / 1000 + 1) * rest).
  - unfold reach in *. lra.
  - unfold reach. apply Rplus_le_compat; apply Rmult_le_compat_r; lra.
Qed.

(** After the sixth step, the residue is smaller than the required precision. *)
Lemma gsd_steep : 1 <= gsd * steep.
Proof.
  assert (I : within r lon0 lat0 lon0 lat0) by (unfold within; rewrite !Rminus_eq_0, size_0; lra).
  destruct (HW _ _ I) as (_ & _ & _ & HG & HF). specialize (HG 1 0). rewrite !Rmult_1_r, !Rmult_0_r, !Rplus_0_r in HG.
  assert (H : Rabs 1 <= size 1 0) by apply size_l. rewrite Rabs_R1 in H.
  apply Rle_trans with (gsd * size (a lon0 lat0) (c lon0 lat0)); [lra|]. apply Rmult_le_compat_l; [exact Hgsd|].
  apply size_le; apply HF; simpl; auto.
Qed.
Lemma bend_reach : 2 * bend * reach 5 * reach 5 <= 2 / 1000000000.
Proof.
  pose proof gsd_steep as G. assert (G0 : 0 < gsd). { destruct Hgsd as [H|H]; [exact H|]. rewrite <- H in G. lra. }
  pose proof rest_range as [F0 F1]. apply Rmult_le_reg_l with gsd; [exact G0|].
  assert (B : reach 5 <= 43 / 1000000000 * r + 1002 / 1000 * rest) by (unfold reach; cbn [part multiple]; lra). pose proof (reach_range 5) as [B0 _].
  set (S := reach 5) in *. clearbody S.
  assert (IR : 0 < / r) by now apply Rinv_0_lt_compat.
  assert (Q : 2 * gsd * bend * (S * S) <= 1 / 2 * (S * S * / r)).
  { replace (2 * gsd * bend * (S * S)) with (2 * gsd * bend * r * (S * S * / r)) by (field; lra). apply Rmult_le_compat_r; [|exact Hq].
    apply Rmult_le_pos; [|lra]. now apply Rmult_le_pos. }
  assert (L : r <= gsd * 1000000). { apply Rle_trans with (gsd * (steep * r)); [|now apply Rmult_le_compat_l]. rewrite <- Rmult_assoc. apply Rle_trans with (1 * r); [lra|]. apply Rmult_le_compat_r; lra. }
  set (T := 43 / 1000000000 * r + 1002 / 1000 * rest) in *.
  assert (S2 : S * S * / r <= T * T * / r) by (apply Rmult_le_compat_r; [lra|]; apply Rmult_le_compat; assumption).
  assert (E : T * T * / r = 1849 / 1000000000000000000 * r + 2 * (43 / 1000000000) * (1002 / 1000) * rest + 1004004 / 1000000 * (rest * (rest * / r))) by (unfold T; field; lra).
  assert (P : rest * / r <= 1 / 1000) by (apply Rmult_le_reg_r with r; [exact Hr|]; rewrite Rmult_assoc, Rinv_l by lra; lra).
  assert (P2 : rest * (rest * / r) <= rest * (1 / 1000)) by now apply Rmult_le_compat_l.
  replace (gsd * (2 * bend * S * S)) with (2 * gsd * bend * (S * S)) by ring. unfold rest in *. lra.
Qed.
Lemma after_5 : after (reach 5) <= 56 / 100000000.
Proof.
  pose proof bend_reach as B. unfold after. pose proof rest_range as [F0 F1].
  assert (L : steep * reach 5 <= 43 / 1000 + 1002 / 1000 * (500 * (45 / 100000000))).
  { unfold reach, rest. cbn [part multiple]. replace (steep * (43 / 1000000000 * r + 1002 / 1000 * (gsd * (45 / 100000000))))
      with (43 / 1000000000 * (steep * r) + 1002 / 1000 * (gsd * steep * (45 / 100000000))) by ring. lra. }
  lra.
Qed.
Lemma last_residue x y x' y' : size (x - lon0) (y - lat0) <= reach 5 -> size (x' - lon0) (y' - lat0) <= reach 5 ->
  Rabs (a x y * (x' - lon0) + b x y * (y' - lat0)) <= after (reach 5) -> Rabs (c x y * (x' - lon0) + d x y * (y' - lat0)) <= after (reach 5) ->
  Rabs (col_of m x' y' alt - col) <= 57 / 100000000 /\ Rabs (row_of m x' y' alt - row) <= 57 / 100000000.
Proof.
  intros S1 S2 A1 A2. pose proof (reach_range 5) as [S0 SR]. pose proof after_5 as A5. pose proof bend_reach as B5.
  assert (I : within r lon0 lat0 x y) by (unfold within; lra). assert (I' : within r lon0 lat0 x' y') by (unfold within; lra).
  destruct (col_remainder m alt r gsd bend steep col lon0 lat0 Hbend HC a b c d HW x' y' _ I' S2) as [RC _].
  destruct (row_remainder m alt r gsd bend steep row lon0 lat0 Hbend HR a b c d HW x' y' _ I' S2) as [RR _].
  destruct (HW x y I) as (_ & _ & _ & _ & HF).
  assert (SZ : size (x - x') (y - y') <= 2 * reach 5).
  { pose proof (size_l (x - lon0) (y - lat0)). pose proof (size_r (x - lon0) (y - lat0)). pose proof (size_l (x' - lon0) (y' - lat0)). pose proof (size_r (x' - lon0) (y' - lat0)).
    apply size_le.
    - replace (x - x') with ((x - lon0) + - (x' - lon0)) by ring. eapply Rle_trans; [apply Rabs_triang|]. rewrite Rabs_Ropp. lra.
    - replace (y - y') with ((y - lat0) + - (y' - lat0)) by ring. eapply Rle_trans; [apply Rabs_triang|]. rewrite Rabs_Ropp. lra. }
  assert (V : forall f, In f [a; b; c; d] -> forall u, Rabs u <= reach 5 -> Rabs ((f x y - f x' y') * u) <= 2 / 1000000000).
  { intros f Hf u Hu. destruct (HF f Hf) as [_ HL]. specialize (HL x' y' I').
    assert (H : Rabs (f x y - f x' y') <= bend * (2 * reach 5)) by (eapply Rle_trans; [exact HL|]; now apply Rmult_le_compat_l).
    pose proof (abs_mul _ _ _ _ H Hu). lra. }
  pose proof (Rle_trans _ _ _ (size_l (x' - lon0) (y' - lat0)) S2) as UX. pose proof (Rle_trans _ _ _ (size_r (x' - lon0) (y' - lat0)) S2) as UY.
  assert (T : forall p q (f g : R -> R -> R) , In f [a; b; c; d] -> In g [a; b; c; d] ->
     Rabs (f x y * (x' - lon0) + g x y * (y' - lat0)) <= after (reach 5) -> Rabs (f x' y' * (x' - lon0) + g x' y' * (y' - lat0) - (p - q)) <= 2 * bend * reach 5 * reach 5 -> Rabs (p - q) <= 57 / 100000000).
  { intros p q f g Hf Hg HA HRm. pose proof (V f Hf _ UX) as VX. pose proof (V g Hg _ UY) as VY.
    replace (p - q) with ((f x y * (x' - lon0) + g x y * (y' - lat0)) + - (f x' y' * (x' - lon0) + g x' y' * (y' - lat0) - (p - q)) + - ((f x y - f x' y') * (x' - lon0)) + - ((g x y - g x' y') * (y' - lat0)) + 0) by ring.
    rewrite <- Rabs_Ropp in HRm, VX, VY. assert (Z : Rabs 0 <= 0) by (rewrite Rabs_R0; lra).
    eapply Rle_trans; [apply (abs_sum5 _ _ _ _ _ _ _ _ _ _ HA HRm VX VY Z)|]. lra. }
  split; [apply (T _ _ a b)|apply (T _ _ c d)]; simpl; auto.
Qed.
End Square.
