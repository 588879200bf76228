(** C107: the window of an image read with a region of interest, in binary64. *)
From Coq Require Import ZArith Reals Bool Lia Lra Psatz.
From Flocq Require Import Core BinarySingleNaN.
From Verif Require Import FloatModel FloatInterpModel Float FloatErr FloatRpc FloatInterp FloatGeoModel FloatGeoSpec FloatGeo PropertiesFloatGeo FloatImageModel FloatImageSpec.
Open Scope R_scope.

(** The window is in the file, whatever the region, the file and the rounding errors. *)
Theorem C107_in_the_file : forall height width t y0 x0 y1 x1 w, f_physical_window height width t y0 x0 y1 x1 = Some w -> in_the_file height width w.
Proof.
  intros height width t y0 x0 y1 x1 w. unfold f_physical_window. destruct (fphysical_to_index _ y0 x0) as [r0 c0]. destruct (fphysical_to_index _ y1 x1) as [r1 c1]. cbv zeta.
  assert (P : forall x z, f_offset x = Some z -> (0 <= z)%Z).
  { intros x z. unfold f_offset. destruct x as [s|[|]| |s m e H]; cbn [ffloor option_map]; intros E; try discriminate E; injection E as <-; lia. }
  destruct (if Bltb (fadd r1 half) (fadd r0 half) then _ else _) as [hi lo].
  destruct (f_offset lo) as [row|] eqn:E1; [|discriminate]. destruct (f_offset (fadd c0 half)) as [col|] eqn:E2; [|discriminate]. apply P in E1, E2.
  destruct (f_ceil (fsub (fadd c1 half) _)) as [a|]; [|discriminate]. destruct (f_ceil _) as [b|]; [|discriminate].
  destruct (Z.min a (width - col) <? 0)%Z eqn:L1; [discriminate|]. destruct (Z.min b (height - row) <? 0)%Z eqn:L2; [discriminate|]. cbn [orb]. intros E. injection E as <-.
  apply Z.ltb_ge in L1, L2. unfold in_the_file. cbn [fi_row fi_height fi_col fi_width]. lia.
Qed.

(** One axis. *)
Lemma axis_window (M lo hi : R) (l h : b64) : 1 <= M <= 1000000000 -> near l lo (18 * (ulp1 * M)) -> near h hi (18 * (ulp1 * M)) -> Rabs lo <= M -> Rabs hi <= M ->
  exists off size, f_offset l = Some off /\ f_ceil (fsub h (fint off)) = Some size /\ (0 <= off)%Z /\ (off = 0%Z \/ IZR off <= lo + 32 * (ulp1 * M)) /\
    lo - 1 - 32 * (ulp1 * M) < IZR off /\ hi - 32 * (ulp1 * M) <= IZR (off + size) < hi + 1 + 32 * (ulp1 * M).
Proof.
  intros HM [FL NL] NH BL BH. pose proof ulp1_pos as Q. pose proof ulp1_tiny as QT. pose proof tiny_q as TQ. pose proof big_huge as HU.
  assert (QM : 0 < ulp1 * M) by (apply Rmult_lt_0_compat; lra). assert (QM2 : ulp1 * M <= / 1000000) by nra.
  assert (TG : tiny <= / 1000 * (ulp1 * M)).
  { assert (ulp1 * 1 <= ulp1 * M) by (apply Rmult_le_compat_l; lra). assert (ulp1 * ulp1 <= ulp1 * 1) by (apply Rmult_le_compat_l; lra). lra. }
  apply Rabs_le_inv in NL, BL, BH. set (off := Z.max (Zfloor (B2R l)) 0). pose proof (Zfloor_lb (B2R l)) as Z1. pose proof (Zfloor_ub (B2R l)) as Z2.
  assert (EO : f_offset l = Some off).
  { unfold f_offset. rewrite (ffloor_finite l FL). destruct l as [s|[|]| |s m e H]; try reflexivity; discriminate FL. }
  assert (CO : off = 0%Z \/ off = Zfloor (B2R l)) by (unfold off; lia). assert (PO : (0 <= off)%Z) by (unfold off; lia). assert (LO : IZR (Zfloor (B2R l)) <= IZR off) by (apply IZR_le; unfold off; lia).
  assert (RO : 0 <= IZR off <= M + 1). { split; [apply IZR_le; exact PO|]. destruct CO as [->| ->]; lra. }
  assert (SO : (Z.abs off < 2 ^ 53)%Z) by (assert (off <= 1000000001)%Z by (apply le_IZR; lra); lia). destruct (fint_exact off SO) as [VO FO].
  assert (ND : near (fsub h (fint off)) (hi - IZR off) (24 * (ulp1 * M))).
  { eapply near_sub with (e1 := 18 * (ulp1 * M)) (e2 := 0) (c := 3 * M); [exact NH| |apply Rabs_le; lra| |].
    - rewrite <- VO. apply near_exact. exact FO.
    - assert (ulp1 * (18 * (ulp1 * M)) <= ulp1 * M) by nra. lra.
    - lra. }
  destruct ND as [FD DD]. apply Rabs_le_inv in DD. set (x := fsub h (fint off)) in *.
  assert (EC : f_ceil x = Some (Zceil (B2R x))). { unfold f_ceil. rewrite (ffloor_finite (fopp x) (fopp_finite x FD)), fopp_value. reflexivity. }
  exists off, (Zceil (B2R x)). split; [exact EO|]. split; [exact EC|]. split; [exact PO|]. split; [destruct CO as [C|C]; [left; exact C|right; rewrite C; lra]|].
  split; [lra|]. rewrite plus_IZR. pose proof (Zceil_ub (B2R x)) as C1. pose proof (Zceil_lb (B2R x)) as C2. lra.
Qed.
Lemma axis_spans (M lo hi : R) (off size limit : Z) : (0 <= limit)%Z ->
  (0 <= off)%Z -> (off = 0%Z \/ IZR off <= lo + 32 * (ulp1 * M)) -> lo - 1 - 32 * (ulp1 * M) < IZR off -> hi - 32 * (ulp1 * M) <= IZR (off + size) < hi + 1 + 32 * (ulp1 * M) -> 0 <= ulp1 * M ->
  spans off (Z.min size (limit - off)) limit lo hi (32 * (ulp1 * M)).
Proof.
  intros HL P C L U Q. unfold spans.
  assert (K : IZR (off + Z.min size (limit - off)) <= IZR (off + size)) by (apply IZR_le; lia). split; [|lra].
  intros v V1 V2. split; [destruct C as [->|C]; lra|].
  destruct (Z.min_spec size (limit - off)) as [[_ ->]|[_ ->]]; [lra|]. replace (off + (limit - off))%Z with limit by lia. lra.
Qed.

Lemma rows_sorted (M a b : R) (x y : b64) e : near x a e -> near y b e ->
  let p := if Bltb y x then (x, y) else (y, x) in near (snd p) (Rmin a b) e /\ near (fst p) (Rmax a b) e.
Proof.
  intros [Fx Nx] [Fy Ny]. apply Rabs_le_inv in Nx, Ny. rewrite (Bltb_correct 53 1024 y x Fy Fx). case Rlt_bool_spec; intros L; cbv zeta; cbn [fst snd]; (split; (split; [assumption|apply Rabs_le])).
  all: unfold Rmin, Rmax; destruct (Rle_dec a b); lra.
Qed.

(** The window is the part of the region that is in the file, up to whole pixels and to rounding errors.  Regions that meet the file have
    a window. *)
Theorem C107_window :
  forall height width t M y0 x0 y1 x1, (0 <= height)%Z -> (0 <= width)%Z -> north_up t -> cells_away t M -> region_up_to M t y0 x0 y1 x1 ->
  let rows := from_the_corner (B2R (fa_e t)) (B2R (fa_f t)) in let cols := from_the_corner (B2R (fa_a t)) (B2R (fa_c t)) in
  let top := Rmin (rows (B2R y0)) (rows (B2R y1)) in let bottom := Rmax (rows (B2R y0)) (rows (B2R y1)) in
  let left := cols (B2R x0) in let right := cols (B2R x1) in
  (forall w, f_physical_window height width t y0 x0 y1 x1 = Some w ->
     spans (fi_row w) (fi_height w) height top bottom (rounding 5 * M) /\ spans (fi_col w) (fi_width w) width left right (rounding 5 * M)) /\
  (top <= IZR height -> 0 <= bottom -> left <= IZR width -> 0 <= right -> left <= right -> exists w, f_physical_window height width t y0 x0 y1 x1 = Some w).
Proof.
  intros height width t M y0 x0 y1 x1 PH PW N H (RY0 & RX0 & RY1 & RX1) rows cols top bottom left right. pose proof (proj1 H) as HM.
  assert (SC : forall s o x : R, / 1000000000 <= Rabs s -> Rabs (x - o) <= M * Rabs s -> Rabs (from_the_corner s o x) <= M).
  { intros s o x S X. unfold from_the_corner, Rdiv. rewrite Rabs_mult, Rabs_inv. apply Rmult_le_reg_r with (Rabs s); [lra|]. rewrite Rmult_assoc, Rinv_l by lra. lra. }
  pose proof N as (_ & _ & _ & (NA & _) & (NE & _)).
  assert (B0 : Rabs (rows (B2R y0)) <= M) by exact (SC _ _ _ NE (proj2 RY0)). assert (B1 : Rabs (rows (B2R y1)) <= M) by exact (SC _ _ _ NE (proj2 RY1)).
  assert (B2 : Rabs left <= M) by exact (SC _ _ _ NA (proj2 RX0)). assert (B3 : Rabs right <= M) by exact (SC _ _ _ NA (proj2 RX1)).
  assert (W : forall s v, v <= M * Rabs s -> v <= 11 / 10 * M * Rabs s) by (intros s v L; assert (0 <= M * Rabs s) by (apply Rmult_le_pos; [lra|apply Rabs_pos]); lra).
  pose proof ulp1_pos as Q. assert (QM : 0 < ulp1 * M) by (apply Rmult_lt_0_compat; lra).
  destruct (to_index t M y0 x0 N H (proj1 RY0) (proj1 RX0) (W _ _ (proj2 RY0)) (W _ _ (proj2 RX0))) as [I1 I2].
  destruct (to_index t M y1 x1 N H (proj1 RY1) (proj1 RX1) (W _ _ (proj2 RY1)) (W _ _ (proj2 RX1))) as [I3 I4].
  assert (C : forall (i : b64) (x : R), near i (x - / 2) (16 * (ulp1 * M)) -> Rabs x <= M -> near (fadd i half) x (18 * (ulp1 * M))).
  { intros i x I X. pose proof (corner_axis M HM i (x - / 2) 16 ltac:(lra) I) as K. replace (x - / 2 + / 2) with x in K by ring. eapply near_weaken; [exact (K X)|lra]. }
  unfold f_physical_window. cbv zeta. destruct (fphysical_to_index (faffine_invert t) y0 x0) as [r0 c0]. destruct (fphysical_to_index (faffine_invert t) y1 x1) as [r1 c1]. cbn [fst snd] in I1, I2, I3, I4.
  pose proof (C _ _ I1 B0) as N1. pose proof (C _ _ I2 B2) as N2. pose proof (C _ _ I3 B1) as N3. pose proof (C _ _ I4 B3) as N4.
  destruct (rows_sorted M _ _ _ _ _ N1 N3) as [S1 S2]. destruct (if Bltb (fadd r1 half) (fadd r0 half) then _ else _) as [hi lo]. cbn [fst snd] in S1, S2. fold top in S1. fold bottom in S2.
  assert (BT : Rabs top <= M) by (unfold top, Rmin; destruct (Rle_dec _ _); assumption). assert (BB : Rabs bottom <= M) by (unfold bottom, Rmax; destruct (Rle_dec _ _); assumption).
  assert (TB : top <= bottom) by (unfold top, bottom; eapply Rle_trans; [apply Rmin_l|apply Rmax_l]).
  destruct (axis_window M top bottom lo hi HM S1 S2 BT BB) as (row & h & E1 & E2 & P1 & P2 & P3 & P4).
  destruct (axis_window M left right _ _ HM N2 N4 B2 B3) as (col & w & E3 & E4 & P5 & P6 & P7 & P8).
  unfold b64 in *. rewrite E1, E3, E2, E4. rewrite rounding_5. replace (32 * ulp1 * M) with (32 * (ulp1 * M)) by ring. split.
  - intros v E. destruct ((_ <? 0) || (_ <? 0))%Z; [discriminate|]. injection E as <-. cbn [fi_row fi_height fi_col fi_width]. split; apply axis_spans; try assumption; lra.
  - intros T1 T2 T3 T4 T5. assert (QM2 : ulp1 * M <= / 1000000) by (pose proof ulp1_tiny; nra).
    assert (K : forall lo hi off size limit, lo <= IZR limit -> (0 <= limit)%Z -> 0 <= hi -> lo <= hi -> (0 <= off)%Z -> off = 0%Z \/ IZR off <= lo + 32 * (ulp1 * M) -> hi - 32 * (ulp1 * M) <= IZR (off + size) -> (Z.min size (limit - off) <? 0)%Z = false).
    { clear - QM2 QM. intros lo hi off size limit L0 L1 L2 L3 L4 L5 L6. apply Z.ltb_ge. rewrite plus_IZR in L6. apply Z.min_glb.
      - assert (-1 < size)%Z by (apply lt_IZR; destruct L5 as [->|L5]; lra). lia.
      - destruct L5 as [->|L5]; [lia|]. assert (off < limit + 1)%Z by (apply lt_IZR; rewrite plus_IZR; lra). lia. }
    rewrite (K _ _ _ _ _ T3 PW T4 T5 P5 P6 (proj1 P8)), (K _ _ _ _ _ T1 PH T2 TB P1 P2 (proj1 P4)). cbn [orb]. eauto.
Qed.

(** ** The geotransform of the window *)
Lemma one_zero (x y : b64) : is_finite x = true -> is_finite y = true ->
  (B2R (fadd (fmul (fint 1) x) (fmul (fint 0) y)) = B2R x /\ is_finite (fadd (fmul (fint 1) x) (fmul (fint 0) y)) = true) /\
  (B2R (fadd (fmul (fint 0) y) (fmul (fint 1) x)) = B2R x /\ is_finite (fadd (fmul (fint 0) y) (fmul (fint 1) x)) = true).
Proof.
  intros Fx Fy. destruct (fint_exact 1 ltac:(lia)) as [V1 F1]. destruct (fint_exact 0 ltac:(lia)) as [V0 F0].
  destruct (fmul_fits (fint 1) x (B2R x) F1 Fx) as [E F]; [rewrite V1; ring|apply fits_b64; exact Fx|]. destruct (fmul_fits (fint 0) y 0 F0 Fy) as [E0 G]; [rewrite V0; ring|apply (fits_int 0); reflexivity|].
  split; apply fadd_fits; try assumption; try (apply fits_b64; exact Fx); rewrite E, E0; ring.
Qed.
Lemma moved_origin (M : R) (s c P T : b64) (n : Z) : 1 <= M <= 1000000000 -> is_finite s = true -> is_finite c = true -> / 1000000000 <= Rabs (B2R s) <= 1000000000 -> Rabs (B2R c) <= M * Rabs (B2R s) ->
  0 <= IZR n <= M -> is_finite P = is_finite (fmul (fint n) s) -> B2R P = B2R (fmul (fint n) s) -> is_finite T = true -> B2R T = B2R c ->
  near (fadd T (fsub (fadd P c) c)) (B2R c + IZR n * B2R s) (8 * (ulp1 * (M * Rabs (B2R s)))).
Proof.
  intros HM Fs Fc Hs Hc Hn FP VP FT VT. pose proof ulp1_pos as Q. pose proof ulp1_tiny as QT. pose proof tiny_q as TQ. pose proof big_huge as HU.
  assert (SN : (Z.abs n < 2 ^ 53)%Z) by (assert (0 <= n)%Z by (apply le_IZR; lra); assert (n <= 1000000000)%Z by (apply le_IZR; lra); lia). destruct (fint_exact n SN) as [Vn Fn].
  assert (NN : near (fint n) (IZR n) (0 * (ulp1 * M))) by (eapply near_weaken; [rewrite <- Vn; apply near_exact; exact Fn|lra]).
  pose proof (forward_axis M s c HM Fs Fc Hs Hc (fint n) P (IZR n) 0 ltac:(lra) NN ltac:(apply Rabs_le; lra) FP VP) as X.
  set (q := ulp1) in *. set (S := Rabs (B2R s)) in *. set (g := M * S) in *.
  assert (G : / 1000000000 <= g <= 1000000000000000000) by (unfold g; split; nra). assert (QG : 0 < q * g) by (apply Rmult_lt_0_compat; lra).
  assert (TG : tiny <= / 1000 * (q * g)). { assert (q * / 1000000000 <= q * g) by (apply Rmult_le_compat_l; lra). assert (q * q <= q * 1) by (apply Rmult_le_compat_l; lra). lra. }
  assert (QQ : q * (q * g) <= / 1000000000000000 * (q * g)) by (apply Rmult_le_compat_r; lra). assert (QH : q * g <= 1000) by nra.
  assert (BP : Rabs (IZR n * B2R s) <= g). { rewrite Rabs_mult, (Rabs_pos_eq (IZR n)) by lra. fold S. unfold g. apply Rmult_le_compat_r; [apply Rabs_pos|lra]. }
  assert (D : near (fsub (fadd P c) c) (IZR n * B2R s) (42 / 10 * (q * g))).
  { replace (IZR n * B2R s) with (IZR n * B2R s + B2R c - B2R c) by ring. eapply near_sub with (e2 := 0) (c := g); [exact X|apply near_exact; exact Fc| | |].
    - replace (IZR n * B2R s + B2R c - B2R c) with (IZR n * B2R s) by ring. exact BP.
    - fold q. assert (q * ((0 + 31 / 10) * (q * g)) = 31 / 10 * (q * (q * g))) by ring. lra.
    - lra. }
  assert (NT : near T (B2R c) 0) by (rewrite <- VT; apply near_exact; exact FT).
  eapply near_add with (e1 := 0) (c := 2 * g); [exact NT|exact D| | |].
  - eapply Rle_trans; [apply Rabs_triang|]. lra.
  - fold q. assert (q * (42 / 10 * (q * g)) = 42 / 10 * (q * (q * g))) by ring. lra.
  - lra.
Qed.
(** The geotransform of the window keeps the sizes of the pixels, and puts each pixel where it is in the file. *)
Theorem C107_georeference :
  forall t M w, north_up t -> cells_away t M -> 0 <= IZR (fi_row w) <= M -> 0 <= IZR (fi_col w) <= M ->
  let t' := f_window_transform t w in
  north_up t' /\ B2R (fa_a t') = B2R (fa_a t) /\ B2R (fa_e t') = B2R (fa_e t) /\ same_place t t' w (rounding 3 * M) /\ (3 * M <= 1000000000 -> cells_away t' (3 * M)).
Proof.
  intros t M w ((Fa & Fb & Fc & Fd & Fe & Ff) & Zb & Zd & Ha & He) (HM & Hc & Hf) HR HC t'. destruct t as [a b c d e f]. cbn [fa_a fa_b fa_c fa_d fa_e fa_f] in *.
  unfold t', f_window_transform, faffine_apply, faffine_compose. clear t'. cbn [fa_a fa_b fa_c fa_d fa_e fa_f].
  assert (IN : forall n, 0 <= IZR n <= M -> is_finite (fint n) = true).
  { intros n Hn. assert (0 <= n)%Z by (apply le_IZR; lra). assert (n <= 1000000000)%Z by (apply le_IZR; lra). apply fint_exact. lia. }
  assert (FM : forall n s, 0 <= IZR n <= M -> is_finite s = true -> / 1000000000 <= Rabs (B2R s) <= 1000000000 -> is_finite (fmul (fint n) s) = true).
  { intros n s Hn Fs Hs. assert (0 <= n)%Z by (apply le_IZR; lra). assert (n <= 1000000000)%Z by (apply le_IZR; lra). destruct (fint_exact n ltac:(lia)) as [Vn Fn]. apply fmul_round; [exact Fn|exact Fs|]. apply huge_lt. pose proof big_huge.
    rewrite Vn, Rabs_mult, (Rabs_pos_eq (IZR n)) by lra. assert (IZR n * Rabs (B2R s) <= 1000000000 * 1000000000) by (apply Rmult_le_compat; try lra; apply Rabs_pos). lra. }
  pose proof (FM _ _ HC Fa Ha) as F1. pose proof (FM _ _ HR Fe He) as F2.
  destruct (add_zero_term _ (fint (fi_row w)) b F1 (IN _ HR) Fb Zb) as [V3 F3]. destruct (add_zero_term_l _ (fint (fi_col w)) d F2 (IN _ HC) Fd Zd) as [V4 F4].
  destruct (one_zero c f Fc Ff) as [[V5 F5] _]. destruct (one_zero f c Ff Fc) as [_ [V6 F6]].
  pose proof (moved_origin M a c _ _ (fi_col w) HM Fa Fc Ha Hc HC (eq_trans F3 (eq_sym F1)) V3 F5 V5) as [G1 D1].
  pose proof (moved_origin M e f _ _ (fi_row w) HM Fe Ff He Hf HR (eq_trans F4 (eq_sym F2)) V4 F6 V6) as [G2 D2].
  destruct (one_zero a d Fa Fd) as [[V7 F7] _]. destruct (one_zero e b Fe Fb) as [_ [V8 F8]]. destruct (one_zero b e Fb Fe) as [[V9 F9] _]. destruct (one_zero d a Fd Fa) as [_ [V10 F10]].
  assert (QM : ulp1 * M <= / 1000000) by (pose proof ulp1_tiny; pose proof ulp1_pos; nra).
  split; [|split; [exact V7|split; [exact V8|split]]].
  - unfold north_up. cbn [fa_a fa_b fa_c fa_d fa_e fa_f]. rewrite V7, V8, V9, V10. repeat split; tauto || assumption || lra.
  - unfold same_place, physical_of. cbn [fa_a fa_b fa_c fa_d fa_e fa_f]. rewrite V7, V8, rounding_3. intros row col. split.
    + eapply Rle_trans; [|eapply Rle_trans; [exact D2|right; ring]]. right. f_equal. ring.
    + eapply Rle_trans; [|eapply Rle_trans; [exact D1|right; ring]]. right. f_equal. ring.
  - intros HM3. unfold cells_away. cbn [fa_a fa_b fa_c fa_d fa_e fa_f]. rewrite V7, V8. split; [lra|].
    assert (K : forall (s o : R) (n : Z) x, 0 <= IZR n <= M -> Rabs o <= M * Rabs s -> Rabs (x - (o + IZR n * s)) <= 8 * (ulp1 * (M * Rabs s)) -> Rabs x <= 3 * M * Rabs s).
    { intros s o n x Hn Ho Hx. replace x with ((x - (o + IZR n * s)) + (o + IZR n * s)) by ring. pose proof (Rabs_pos s) as PS.
      assert (B : Rabs (IZR n * s) <= M * Rabs s) by (rewrite Rabs_mult, (Rabs_pos_eq (IZR n)) by lra; apply Rmult_le_compat_r; lra).
      assert (U : ulp1 * (M * Rabs s) <= / 1000000 * Rabs s) by (rewrite <- Rmult_assoc; apply Rmult_le_compat_r; lra).
      assert (1 * Rabs s <= M * Rabs s) by (apply Rmult_le_compat_r; lra).
      pose proof (Rabs_triang (x - (o + IZR n * s)) (o + IZR n * s)). pose proof (Rabs_triang o (IZR n * s)). lra. }
    split; [exact (K _ _ _ _ HC Hc D1)|exact (K _ _ _ _ HR Hf D2)].
Qed.

(** The coordinates of the pixels of the image, once opened, are the ones of the same pixels of the file; the ordinates are counted in the direction
    asked for. *)
Theorem C107_coordinates :
  forall t M w v row col, north_up t -> cells_away t M -> 3 * M <= 1000000000 -> 0 <= IZR (fi_row w) <= M -> 0 <= IZR (fi_col w) <= M ->
  index_up_to (3 * M) row -> index_up_to (3 * M) col ->
  let t' := f_orient v (f_window_transform t w) in let '(y, x) := findex_to_physical t' row col in
  exists s, (s = 1 \/ s = -1) /\
    within y (s * physical_of (B2R (fa_e t)) (B2R (fa_f t)) (IZR (fi_row w) + B2R row)) (rounding 5 * M * Rabs (B2R (fa_e t))) /\
    within x (physical_of (B2R (fa_a t)) (B2R (fa_c t)) (IZR (fi_col w) + B2R col)) (rounding 5 * M * Rabs (B2R (fa_a t))) /\
    (v = ImageModel.North -> 0 < B2R (fa_e t')) /\ (v = ImageModel.South -> B2R (fa_e t') < 0) /\ (v = ImageModel.Auto -> s = 1).
Proof.
  intros t M w v row col NU CA HM HR HC IR IC t'. destruct (C107_georeference t M w NU CA HR HC) as (NW & VA & VE & SP & CW). specialize (CW HM).
  set (tw := f_window_transform t w) in *. clearbody tw.
  assert (K : exists s, (s = 1 \/ s = -1) /\ north_up t' /\ cells_away t' (3 * M) /\ B2R (fa_a t') = B2R (fa_a tw) /\ B2R (fa_c t') = B2R (fa_c tw) /\ B2R (fa_e t') = s * B2R (fa_e tw) /\ B2R (fa_f t') = s * B2R (fa_f tw) /\
    (v = ImageModel.North -> 0 < B2R (fa_e t')) /\ (v = ImageModel.South -> B2R (fa_e t') < 0) /\ (v = ImageModel.Auto -> s = 1)).
  { assert (NZ : B2R (fa_e tw) <> 0). { intros Z. destruct NW as (_ & _ & _ & _ & N). rewrite Z, Rabs_R0 in N. lra. }
    pose proof NW as ((Fa & Fb & Fc & Fd & Fe & Ff) & Zb & Zd & NA & NE). destruct (fint_exact 0 ltac:(lia)) as [V0 F0].
    assert (FL : let fl := FAff (fa_a tw) (fa_b tw) (fa_c tw) (fopp (fa_d tw)) (fopp (fa_e tw)) (fopp (fa_f tw)) in north_up fl /\ cells_away fl (3 * M)).
    { unfold north_up, cells_away in *. cbv zeta. cbn [fa_a fa_b fa_c fa_d fa_e fa_f]. rewrite !fopp_value, !Rabs_Ropp. split; [|tauto]. repeat split; try tauto; try (apply fopp_finite; assumption). lra. }
    unfold t', f_orient. destruct v.
    - exists 1. repeat split; try tauto; try lra; try discriminate; apply NW || apply CW.
    - rewrite Bltb_correct by assumption. rewrite V0. destruct (Rlt_bool_spec (B2R (fa_e tw)) 0) as [L|L].
      + exists (-1). cbn [fa_a fa_b fa_c fa_d fa_e fa_f]. rewrite !fopp_value. split; [tauto|]. split; [apply FL|]. split; [apply FL|]. repeat split; try discriminate; try lra; intros; lra.
      + exists 1. split; [tauto|]. split; [exact NW|]. split; [exact CW|]. repeat split; try discriminate; try lra; intros; lra.
    - rewrite Bltb_correct by assumption. rewrite V0. destruct (Rlt_bool_spec 0 (B2R (fa_e tw))) as [L|L].
      + exists (-1). cbn [fa_a fa_b fa_c fa_d fa_e fa_f]. rewrite !fopp_value. split; [tauto|]. split; [apply FL|]. split; [apply FL|]. repeat split; try discriminate; try lra; intros; lra.
      + exists 1. split; [tauto|]. split; [exact NW|]. split; [exact CW|]. repeat split; try discriminate; try lra; intros; lra. }
  destruct K as (s & S & NT & CT & EA & EC & EE & EF & D1 & D2 & D3). pose proof (C100_index_to_physical t' (3 * M) row col NT CT IR IC) as P. destruct (findex_to_physical t' row col) as [y x].
  destruct P as [[FY PY] [FX PX]]. rewrite EA, EC, ?VA in PX. rewrite EE, EF, ?VE in PY. destruct (SP (B2R row) (B2R col)) as [S1 S2]. rewrite VA in S2. rewrite VE in S1. rewrite rounding_3 in *.
  exists s. split; [exact S|]. rewrite rounding_5.
  assert (AS : forall z, Rabs (s * z) = Rabs z) by (intros z; destruct S as [->| ->]; [rewrite Rmult_1_l; reflexivity|replace (-1 * z) with (- z) by ring; apply Rabs_Ropp]).
  split; [split; [exact FY|]|split; [split; [exact FX|]|tauto]].
  - rewrite AS in PY. replace (B2R y - s * physical_of (B2R (fa_e t)) (B2R (fa_f t)) (IZR (fi_row w) + B2R row)) with
      ((B2R y - physical_of (s * B2R (fa_e t)) (s * B2R (fa_f tw)) (B2R row)) + s * (physical_of (B2R (fa_e t)) (B2R (fa_f tw)) (B2R row) - physical_of (B2R (fa_e t)) (B2R (fa_f t)) (IZR (fi_row w) + B2R row)))
      by (unfold physical_of; ring). eapply Rle_trans; [apply Rabs_triang|]. rewrite AS. lra.
  - replace (B2R x - physical_of (B2R (fa_a t)) (B2R (fa_c t)) (IZR (fi_col w) + B2R col)) with
      ((B2R x - physical_of (B2R (fa_a t)) (B2R (fa_c tw)) (B2R col)) + (physical_of (B2R (fa_a t)) (B2R (fa_c tw)) (B2R col) - physical_of (B2R (fa_a t)) (B2R (fa_c t)) (IZR (fi_col w) + B2R col))) by ring.
    eapply Rle_trans; [apply Rabs_triang|]. lra.
Qed.

(** A file of 3600 rows and 3600 columns of a third of a metre (ex_geo), and a region that comes out of it on the left. *)
Example C107_case :
  north_up ex_geo /\ cells_away ex_geo 4000 /\ region_up_to 4000 ex_geo (fint 43) (fint 7) (fint 40) (fint 8) /\
  f_physical_window 3600 3600 ex_geo (fint 43) (fint 7) (fint 40) (fint 8) = Some (FWin 0 3 3 9) /\
  f_physical_window 3600 3600 ex_geo (fint 40) (fint 7) (fint 43) (fint 8) = Some (FWin 0 3 3 9) /\
  f_physical_window 3600 3600 ex_geo (fint 43) (fint 5) (fint 40) (fint 6) = None /\ f_physical_window 3600 3600 ex_geo B754_nan (fint 7) (fint 40) (fint 8) = None.
Proof.
  destruct C100_hypotheses as (N & (_ & A1 & A2) & _). destruct ex_values as (VA & VE & VC & VF & _).
  destruct (fint_exact 7 ltac:(lia)) as [B1 G1]. destruct (fint_exact 8 ltac:(lia)) as [B2 G2]. destruct (fint_exact 43 ltac:(lia)) as [B3 G3]. destruct (fint_exact 40 ltac:(lia)) as [B4 G4].
  split; [exact N|]. assert (P : Rabs (6004799503160661 / 18014398509481984) = 6004799503160661 / 18014398509481984) by (apply Rabs_pos_eq; lra).
  split; [split; [lra|]; rewrite VA, VE, Rabs_Ropp, P in *; lra|].
  split; [unfold region_up_to, physical_up_to; rewrite VA, VE, VC, VF, Rabs_Ropp, P, B1, B2, B3, B4; repeat split; try assumption; apply Rabs_le; lra|].
  repeat split; vm_compute; reflexivity.
Qed.
Example C107_coordinates_case :
  3 * 4000 <= 1000000000 /\ index_up_to (3 * 4000) (fint 2) /\ 0 <= IZR (fi_row (FWin 0 3 3 9)) <= 4000 /\ 0 <= IZR (fi_col (FWin 0 3 3 9)) <= 4000 /\
  let place v := let '(y, x) := findex_to_physical (f_orient v (f_window_transform ex_geo (FWin 0 3 3 9))) (fint 2) (fint 1) in (ffloor y, ffloor x) in
  place ImageModel.Auto = (Some 42, Some 7)%Z /\ place ImageModel.South = (Some 42, Some 7)%Z /\ place ImageModel.North = (Some (-43), Some 7)%Z.
Proof.
  destruct (fint_exact 2 ltac:(lia)) as [V F]. split; [lra|]. split; [split; [exact F|rewrite V; apply Rabs_le; lra]|]. split; [cbn; lra|]. split; [cbn; lra|]. repeat split; vm_compute; reflexivity.
Qed.
