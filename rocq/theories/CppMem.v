(** The accesses of the C++ code to its buffers, compared with the model without buffers. *)
From Coq Require Import Reals ZArith List Bool Lra Lia Psatz Permutation.
From Verif Require Import Num NumLemmas InterpModel InterpSpec InterpProofs ProjModel DtmModel DtmSpec DtmCube CppDtmModel CppDtmProofs CppMemModel.
Import ListNotations.
Open Scope R_scope.

Lemma read_at {A} (p : list A) x r k : k = Z.of_nat (length p) -> read (p ++ x :: r) k = Ran x.
Proof.
  intros ->. unfold read. rewrite (proj2 (Z.ltb_ge _ _)) by lia. rewrite Nat2Z.id, nth_error_app2, Nat.sub_diag by lia. reflexivity.
Qed.
Lemma write_at {A} (p : list A) y r x k : k = Z.of_nat (length p) -> write (p ++ y :: r) k x = Ran (p ++ x :: r).
Proof.
  intros ->. unfold write. rewrite app_length; cbn [length].
  rewrite (proj2 (Z.leb_le _ _)), (proj2 (Z.ltb_lt _ _)) by lia. cbn [andb]. rewrite Nat2Z.id. f_equal. f_equal.
  - rewrite firstn_app, Nat.sub_diag, firstn_all, app_nil_r. reflexivity.
  - f_equal. rewrite skipn_app, skipn_all2 by lia. replace (S (length p) - length p)%nat with 1%nat by lia. reflexivity.
Qed.
Lemma read_nth {A} (v : list A) k x : (0 <= k)%Z -> nth_error v (Z.to_nat k) = Some x -> read v k = Ran x.
Proof. intros H E. unfold read. rewrite (proj2 (Z.ltb_ge _ _)) by lia. now rewrite E. Qed.
Lemma read_alt data k : (0 <= k < Z.of_nat (length data))%Z -> read data k = Ran (cpp_alt data k).
Proof.
  intros H. unfold read, cpp_alt, vec_get. rewrite (proj2 (Z.ltb_ge _ _)) by lia.
  destruct (nth_error data (Z.to_nat k)) eqn:E; [reflexivity|]. apply nth_error_None in E. lia.
Qed.

(** ** The constructor *)
Section Init.
  Context (data : list R) (nr nc : Z).
  Hypothesis (L : Z.of_nat (length data) = (nr * nc)%Z).
  Definition lo_of (i j : Z) : R :=
    IZR (Rfloor (Rmin (Rmin (Rmin (cpp_alt data (nc * i + j)) (cpp_alt data (nc * (i + 1) + j))) (cpp_alt data (nc * i + (j + 1)))) (cpp_alt data (nc * (i + 1) + (j + 1))))).
  Definition hi_of (i j : Z) : R :=
    IZR (Rceil (Rmax (Rmax (Rmax (cpp_alt data (nc * i + j)) (cpp_alt data (nc * (i + 1) + j))) (cpp_alt data (nc * i + (j + 1)))) (cpp_alt data (nc * (i + 1) + (j + 1))))).
  Lemma cols_ok i : (0 <= i < nr - 1)%Z -> forall n j p q r r', (Z.of_nat (j + n) = nc - 1)%Z ->
    Z.of_nat (length p) = ((nc - 1) * i + Z.of_nat j)%Z -> Z.of_nat (length q) = ((nc - 1) * i + Z.of_nat j)%Z ->
    mem_min_max_cols data nc i n (Z.of_nat j) (p ++ repeat 0 n ++ r) (q ++ repeat 0 n ++ r')
    = Ran (p ++ map (fun j => lo_of i (Z.of_nat j)) (seq j n) ++ r, q ++ map (fun j => hi_of i (Z.of_nat j)) (seq j n) ++ r').
  Proof.
    intros Hi. induction n as [|n IH]; intros j p q r r' Hj P Q; [reflexivity|]. cbn [mem_min_max_cols].
    rewrite !read_alt by nia. cbn [bind repeat app]. rewrite (write_at p), (write_at q) by lia. cbn [bind].
    fold (lo_of i (Z.of_nat j)). fold (hi_of i (Z.of_nat j)).
    change (p ++ lo_of i (Z.of_nat j) :: repeat 0 n ++ r) with (p ++ [lo_of i (Z.of_nat j)] ++ repeat 0 n ++ r).
    change (q ++ hi_of i (Z.of_nat j) :: repeat 0 n ++ r') with (q ++ [hi_of i (Z.of_nat j)] ++ repeat 0 n ++ r').
    rewrite (app_assoc p), (app_assoc q). replace (Z.of_nat j + 1)%Z with (Z.of_nat (S j)) by lia.
    rewrite IH by (rewrite ?app_length; cbn [length]; lia). cbn [seq map]. rewrite <- !app_assoc. reflexivity.
  Qed.
  Lemma rows_ok : (1 <= nc)%Z -> forall n i p q, (Z.of_nat (i + n) = nr - 1)%Z ->
    Z.of_nat (length p) = ((nc - 1) * Z.of_nat i)%Z -> Z.of_nat (length q) = ((nc - 1) * Z.of_nat i)%Z ->
    let rest := repeat 0 (n * Z.to_nat (nc - 1)) in
    mem_min_max_rows data nc n (Z.of_nat i) (p ++ rest) (q ++ rest)
    = Ran (p ++ flat_map (fun i => map (fun j => lo_of (Z.of_nat i) (Z.of_nat j)) (seq 0 (Z.to_nat (nc - 1)))) (seq i n),
           q ++ flat_map (fun i => map (fun j => hi_of (Z.of_nat i) (Z.of_nat j)) (seq 0 (Z.to_nat (nc - 1)))) (seq i n)).
  Proof.
    intros Hc. induction n as [|n IH]; intros i p q Hi P Q rest; [reflexivity|]. cbn [mem_min_max_rows]. unfold rest. cbn [Nat.mul]. rewrite repeat_app.
    change 0%Z with (Z.of_nat 0). rewrite (cols_ok (Z.of_nat i)) by lia. cbn [bind fst snd]. rewrite !app_assoc. replace (Z.of_nat i + 1)%Z with (Z.of_nat (S i)) by lia.
    rewrite IH by (rewrite ?app_length, ?map_length, ?seq_length; lia). cbn [seq flat_map]. rewrite !app_assoc. reflexivity.
  Qed.
  Lemma init_ok : (1 <= nr)%Z -> (1 <= nc)%Z -> mem_init_min_max data nr nc = Ran (cpp_alt_min_cell data nr nc, cpp_alt_max_cell data nr nc).
  Proof.
    intros H1 H2. unfold mem_init_min_max. rewrite (proj2 (Z.ltb_ge _ _)) by nia.
    replace (Z.to_nat ((nr - 1) * (nc - 1))) with (Z.to_nat (nr - 1) * Z.to_nat (nc - 1))%nat by (rewrite Z2Nat.inj_mul; lia).
    pose proof (rows_ok H2 (Z.to_nat (nr - 1)) 0 [] []) as E. cbn [app length] in E. apply E; lia.
  Qed.
  Lemma make_ok tr : (1 <= nr)%Z -> (1 <= nc)%Z -> mem_make data nr nc tr = Ran (cpp_make data nr nc tr).
  Proof.
    intros H1 H2. unfold mem_make. rewrite init_ok by assumption. cbn [bind fst snd]. destruct data; [cbn in L; nia|]. reflexivity.
  Qed.
End Init.

(** ** The cube *)
Section Cube.
  Context (c : cpp_dtm).
  Hypothesis (LD : length (cd_d c) = 6%nat).
  Lemma read_array (v : list R) i : length v = 6%nat -> (i < 6)%nat -> read v (Z.of_nat i) = Ran (nth i v 0).
  Proof.
    intros E H. apply read_nth; [lia|]. rewrite Nat2Z.id. apply nth_error_nth'. lia.
  Qed.
  Lemma eq_plan_ok i p : (i < 6)%nat -> mem_eq_plan c (Z.of_nat i) p = Ran (cpp_eq_plan c i p).
  Proof. intros H. unfold mem_eq_plan. rewrite !read_array by (auto; reflexivity). reflexivity. Qed.
  Lemma crossing_ok i a b la lb layer : (i < 6)%nat -> mem_plane_crossing c (Z.of_nat i) a b la lb layer = Ran (cpp_plane_crossing c i a b la lb layer).
  Proof.
    intros H. unfold mem_plane_crossing, cpp_plane_crossing. destruct (Reqb la 0); [reflexivity|]. destruct (Reqb lb 0); [reflexivity|]. rewrite read_array by assumption.
    do 6 (destruct i as [|i]; [reflexivity|]). lia.
  Qed.
  Lemma scan_ok i : (i < 6)%nat -> forall rest pre los a layer, los = pre ++ rest -> layer = Z.of_nat (length pre) ->
    mem_plane_scan c (Z.of_nat i) los (length rest) layer a (cpp_eq_plan c i a)
    = match cpp_plane_scan c i a rest layer with None => Threw | Some r => Ran r end.
  Proof.
    intros Hi. induction rest as [|b rest IH]; intros pre los a layer -> ->; [reflexivity|]. cbn [length mem_plane_scan cpp_plane_scan].
    rewrite read_at by reflexivity. cbn [bind]. rewrite eq_plan_ok by exact Hi. cbn [bind]. destruct (Rleb _ 0).
    - destruct (Reqb _ 0 && Reqb _ 0); [reflexivity|]. rewrite crossing_ok by exact Hi. reflexivity.
    - apply (IH (pre ++ [b])); [now rewrite <- app_assoc|]. rewrite app_length. cbn. lia.
  Qed.
  Lemma planes_ok v los : forall n i found nbi, (i + n <= 6)%nat ->
    mem_scan_planes c (v :: los) n (Z.of_nat i) found nbi
    = match cpp_scan_planes c (v :: los) v (seq i n) with None => Threw | Some l => Ran (found ++ l, (nbi + Z.of_nat (length l))%Z) end.
  Proof.
    induction n as [|n IH]; intros i found nbi H; cbn [mem_scan_planes seq cpp_scan_planes].
    - rewrite app_nil_r. cbn. now rewrite Z.add_0_r.
    - change (read (v :: los) 0) with (Ran v). cbn [bind]. rewrite eq_plan_ok by lia. cbn [bind].
      rewrite (scan_ok i ltac:(lia) (v :: los) [] (v :: los) v 0%Z) by reflexivity.
      destruct (cpp_plane_scan c i v (v :: los) 0) as [r|]; [|reflexivity]. cbn [bind]. replace (Z.of_nat i + 1)%Z with (Z.of_nat (S i)) by lia.
      destruct r as [x|]; rewrite IH by lia; destruct (cpp_scan_planes c (v :: los) v (seq (S i) n)) as [l|]; try reflexivity.
      rewrite <- app_assoc. cbn [app length]. do 2 f_equal. lia.
  Qed.
  Lemma inner_ok : forall l pre x mid k next, k = Z.of_nat (length pre) -> next = Z.of_nat (length pre + 1 + length mid) ->
    mem_sort_inner (length l) k next (pre ++ x :: mid ++ l) = Ran (pre ++ fst (sort_pass x l) :: mid ++ snd (sort_pass x l)).
  Proof.
    induction l as [|y l IH]; intros pre x mid k next Hk Hn; [reflexivity|]. cbn [length mem_sort_inner sort_pass].
    rewrite read_at by exact Hk. cbn [bind].
    assert (E : forall z, pre ++ z :: mid ++ y :: l = (pre ++ z :: mid) ++ y :: l) by (intros; rewrite <- app_assoc; reflexivity).
    rewrite E, read_at, <- E by (rewrite app_length; cbn [length]; lia). cbn [bind].
    assert (F : forall z u, pre ++ z :: mid ++ u :: l = pre ++ z :: (mid ++ [u]) ++ l) by (intros; rewrite <- app_assoc; reflexivity).
    destruct (Rltb (cr_h y) (cr_h x)).
    - rewrite write_at by exact Hk. cbn [bind]. rewrite E, write_at by (rewrite app_length; cbn [length]; lia). cbn [bind]. rewrite <- app_assoc. cbn [app].
      rewrite F, IH by (rewrite ?app_length; cbn [length]; lia). destruct (sort_pass y l) as [m l']. cbn [fst snd]. rewrite <- app_assoc. reflexivity.
    - rewrite F, IH by (rewrite ?app_length; cbn [length]; lia). destruct (sort_pass x l) as [m l']. cbn [fst snd]. rewrite <- app_assoc. reflexivity.
  Qed.
  Lemma pass_length x l : length (snd (sort_pass x l)) = length l.
  Proof. revert x. induction l as [|y l IH]; intros x; [reflexivity|]. cbn [sort_pass]. destruct (Rltb _ _); [specialize (IH y); destruct (sort_pass y l)|specialize (IH x); destruct (sort_pass x l)]; cbn in *; lia. Qed.
  Lemma sort_ok : forall n l pre k nbi, length l = n -> k = Z.of_nat (length pre) -> nbi = Z.of_nat (length pre + length l) ->
    mem_sort n k nbi (pre ++ l) = Ran (pre ++ exchange_sort n l).
  Proof.
    induction n as [|n IH]; intros l pre k nbi Hl Hk Hn; [destruct l; [reflexivity|discriminate]|]. destruct l as [|x l]; [discriminate|]. cbn [mem_sort exchange_sort].
    injection Hl as Hl. replace (Z.to_nat (nbi - (k + 1))) with (length l) by (cbn [length] in *; lia).
    pose proof (inner_ok l pre x [] k (k + 1) Hk) as E. cbn [app length] in E. rewrite E by lia. cbn [bind]. pose proof (pass_length x l) as PL. destruct (sort_pass x l) as [m l']. cbn [fst snd] in *.
    change (m :: l') with ([m] ++ l'). rewrite app_assoc. rewrite IH; [now rewrite <- app_assoc|congruence|rewrite app_length; cbn; lia|]. rewrite app_length. cbn [length] in *. lia.
  Qed.
  Lemma shift_ok : forall l pre x junk next, next = Z.of_nat (length pre + 1) ->
    exists junk', mem_shift (length l) next (pre ++ x :: l ++ junk) = Ran (pre ++ l ++ junk').
  Proof.
    induction l as [|y l IH]; intros pre x junk next Hn; [exists (x :: junk); reflexivity|]. cbn [length mem_shift].
    assert (E : forall u, pre ++ u :: (y :: l) ++ junk = (pre ++ [u]) ++ y :: l ++ junk) by (intros; rewrite <- app_assoc; reflexivity).
    rewrite E, read_at, <- E by (rewrite app_length; cbn [length]; lia). cbn [bind]. rewrite write_at by lia. cbn [bind]. rewrite E.
    destruct (IH (pre ++ [y]) y junk (next + 1)%Z) as [junk' EJ]; [rewrite app_length; cbn; lia|]. rewrite EJ. exists junk'. rewrite <- app_assoc. reflexivity.
  Qed.
  Lemma filter_ok : forall n l kept junk k nbi, (length l <= n)%nat -> k = Z.of_nat (length kept) -> nbi = Z.of_nat (length kept + length l) ->
    exists junk', mem_filter c n k nbi (kept ++ l ++ junk)
      = Ran (kept ++ filter (cpp_test_on_cube c) l ++ junk', Z.of_nat (length kept + length (filter (cpp_test_on_cube c) l))).
  Proof.
    induction n as [|n IH]; intros l kept junk k nbi Hl Hk Hn; (destruct l as [|x l];
      [cbn [mem_filter length filter app] in *; rewrite (proj2 (Z.ltb_ge _ _)) by lia; rewrite Hn; eexists; reflexivity|]); [cbn in Hl; lia|].
    cbn [mem_filter]. rewrite (proj2 (Z.ltb_lt _ _)) by (cbn [length] in *; lia). cbn [app]. rewrite read_at by exact Hk. cbn [bind filter].
    destruct (cpp_test_on_cube c x).
    - destruct (IH l (kept ++ [x]) junk (k + 1)%Z nbi) as [junk' E]; [cbn in Hl; lia|rewrite app_length; cbn; lia|rewrite app_length; cbn [length] in *; lia|].
      rewrite <- !app_assoc in E. cbn [app] in E. rewrite E. exists junk'. rewrite app_length. cbn [length app]. do 2 f_equal. lia.
    - replace (Z.to_nat (nbi - (k + 1))) with (length l) by (cbn [length] in *; lia). destruct (shift_ok l kept x junk (k + 1)%Z) as [j1 E1]; [lia|]. rewrite E1. cbn [bind].
      destruct (IH l kept j1 k (nbi - 1)%Z) as [j2 E2]; [cbn in Hl; lia|exact Hk|cbn [length] in *; lia|]. rewrite E2. now exists j2.
  Qed.
  Lemma sort_length n l : length (exchange_sort n l) = length l.
  Proof. apply Permutation_length, exchange_sort_perm. Qed.
  Lemma cube_ok los : los <> [] -> mem_cube c los = match cpp_intersect_dtm_cube_index c los with None => Threw | Some r => Ran r end.
  Proof.
    intros H. destruct los as [|v los]; [congruence|]. unfold mem_cube, cpp_intersect_dtm_cube_index. change 0%Z with (Z.of_nat 0) at 1. rewrite (planes_ok v los 6 0 [] 0%Z) by lia.
    destruct (cpp_scan_planes c (v :: los) v (seq 0 6)) as [cs|]; [|reflexivity]. cbn [bind fst snd app]. rewrite Z.add_0_l, Nat2Z.id.
    pose proof (sort_ok (length cs) cs [] 0%Z (Z.of_nat (length cs)) eq_refl eq_refl eq_refl) as ES. cbn [app] in ES. rewrite ES. cbn [bind].
    destruct (filter_ok (length cs) (exchange_sort (length cs) cs) [] [] 0%Z (Z.of_nat (length cs))) as [junk EF]; [rewrite sort_length; lia|reflexivity|cbn [length]; rewrite sort_length; lia|].
    cbn [app length Nat.add] in EF. rewrite app_nil_r in EF. rewrite EF. cbn [bind fst snd].
    destruct (filter (cpp_test_on_cube c) (exchange_sort (length cs) cs)) as [|x [|y l]]; [reflexivity|reflexivity|]. rewrite (proj2 (Z.ltb_ge _ _)) by (cbn [length]; lia). reflexivity.
  Qed.

  (** The rank of the first point is not negative. *)
  Lemma scan_rank i : forall rest a layer x, (0 <= layer)%Z -> (layer = 0%Z -> match rest with [] => True | b :: _ => b = a end) -> cpp_plane_scan c i a rest layer = Some (Some x) -> 0 <= cr_h x.
  Proof.
    induction rest as [|b rest IH]; intros a layer x H0 HL E; [discriminate|]. cbn [cpp_plane_scan] in E.
    destruct (Rleb_spec (cpp_eq_plan c i a * cpp_eq_plan c i b) 0) as [HP|HP].
    - destruct (Reqb (cpp_eq_plan c i a) 0 && Reqb (cpp_eq_plan c i b) 0) eqn:EB; [discriminate|]. injection E as <-.
      assert (1 <= layer)%Z.
      { destruct (Z.eq_dec layer 0) as [EZ|]; [|lia]. exfalso. rewrite (HL EZ) in *. assert (Z0 : cpp_eq_plan c i a = 0) by nra. rewrite Z0 in EB. destruct (Reqb_spec 0 0); [discriminate|lra]. }
      apply IZR_le in H. unfold cpp_plane_crossing. destruct (Reqb_spec (cpp_eq_plan c i a) 0) as [Ea|Ea]; [cbn; lra|]. destruct (Reqb_spec (cpp_eq_plan c i b) 0) as [Eb|Eb]; [cbn; lra|]. cbn [cr_h].
      set (la := cpp_eq_plan c i a) in *. set (lb := cpp_eq_plan c i b) in *.
      assert (lb / (lb - la) <= 1); [|lra]. destruct (Rle_or_lt 0 lb) as [P|P].
      + assert (la < 0) by nra. apply (Rmult_le_reg_r (lb - la)); [lra|]. unfold Rdiv. rewrite Rmult_assoc, Rinv_l, Rmult_1_r by lra. lra.
      + assert (0 < la) by nra. replace (lb / (lb - la)) with (- lb / (la - lb)) by (field; lra). apply (Rmult_le_reg_r (la - lb)); [lra|]. unfold Rdiv. rewrite Rmult_assoc, Rinv_l, Rmult_1_r by lra. lra.
    - apply (IH b (layer + 1)%Z x); [lia|lia|exact E].
  Qed.
  Lemma planes_rank v los : forall planes l, cpp_scan_planes c (v :: los) v planes = Some l -> forall x, In x l -> 0 <= cr_h x.
  Proof.
    induction planes as [|i planes IH]; intros l E x I; cbn [cpp_scan_planes] in E; [injection E as <-; destruct I|].
    destruct (cpp_plane_scan c i v (v :: los) 0) as [r|] eqn:ES; [|discriminate]. destruct (cpp_scan_planes c (v :: los) v planes) as [l'|]; [|discriminate]. injection E as <-.
    destruct r as [y|]; [|now apply (IH l')]. destruct I as [<-|I]; [|now apply (IH l')]. apply (scan_rank i (v :: los) v 0%Z y); [lia|reflexivity|exact ES].
  Qed.
  Lemma cube_rank los p h : cpp_intersect_dtm_cube_index c los = Some (Some (p, h)) -> 0 <= h.
  Proof.
    destruct los as [|v los]; [discriminate|]. unfold cpp_intersect_dtm_cube_index. destruct (cpp_scan_planes c (v :: los) v (seq 0 6)) as [cs|] eqn:E; [|discriminate].
    destruct (filter (cpp_test_on_cube c) (exchange_sort (length cs) cs)) as [|x [|y l]] eqn:EF; try discriminate. intros [= <- <-].
    assert (I : In x (exchange_sort (length cs) cs)) by (assert (In x (filter (cpp_test_on_cube c) (exchange_sort (length cs) cs))) by (rewrite EF; now left); apply filter_In in H; tauto).
    apply (Permutation_in _ (exchange_sort_perm _ _)) in I. exact (planes_rank v los _ cs E x I).
  Qed.
End Cube.

(** ** The walk *)
Section Walk.
  Context (data : list R) (nr nc : Z) (tr : gdal6).
  Hypothesis (L : Z.of_nat (length data) = (nr * nc)%Z) (HR : (2 <= nr)%Z) (HC : (2 <= nc)%Z).
  Let c := cpp_make data nr nc tr.
  Lemma lower_bounds n x : (2 <= n)%Z ->
    (0 <= (if Rltb x 0 then 0 else if Rleb (IZR n - 1) x then n - 2 else Rfloor x) <= n - 2)%Z.
  Proof.
    intros H. destruct (Rltb_spec x 0); [lia|]. destruct (Rleb_spec (IZR n - 1) x) as [|C]; [lia|]. destruct (Rfloor_bounds x) as [B1 B2].
    split; [|assert (IZR (Rfloor x) < IZR (n - 1)) by (rewrite minus_IZR; lra); apply lt_IZR in H0; lia].
    assert (-1 < Rfloor x)%Z by (apply lt_IZR; lra). lia.
  Qed.
  Lemma itp_ok x y : mem_itp c x y = Ran (cpp_itp c x y).
  Proof.
    unfold mem_itp, cpp_itp. assert (E : exists v, cpp_interpolate (cd_alt c) (cd_rows c) (cd_cols c) x y = Some v); [|destruct E as [v ->]; reflexivity].
    unfold c, cpp_make, cpp_interpolate. cbn [cd_alt cd_rows cd_cols]. pose proof (lower_bounds nr x HR) as B1. pose proof (lower_bounds nc y HC) as B2.
    set (lr := if Rltb x 0 then 0%Z else _) in *. set (lc := if Rltb y 0 then 0%Z else _) in *.
    assert (G : forall k, (0 <= k < Z.of_nat (length data))%Z -> exists v, vec_get data k = Some v).
    { intros k Hk. unfold vec_get. rewrite (proj2 (Z.ltb_ge _ _)) by lia. destruct (nth_error data (Z.to_nat k)) eqn:E; [eauto|]. apply nth_error_None in E. lia. }
    destruct (G (lr * nc + lc)%Z) as [? ->]; [nia|]. destruct (G (lr * nc + (lc + 1))%Z) as [? ->]; [nia|].
    destruct (G ((lr + 1) * nc + lc)%Z) as [? ->]; [nia|]. destruct (G ((lr + 1) * nc + (lc + 1))%Z) as [? ->]; [nia|]. eauto.
  Qed.
  Lemma refine_ok : forall n p1 a1 p2 h2,
    mem_refine c n p1 a1 p2 h2 = match refine (cpp_itp c) n p1 a1 p2 h2 with Found p => Ran p | NotFound => Threw | Crash => Undefined | NoFuel => Hangs end.
  Proof.
    induction n as [|n IH]; intros p1 a1 p2 h2; [reflexivity|]. cbn [mem_refine refine]. destruct (Reqb _ 0); [reflexivity|]. rewrite itp_ok. cbn [bind].
    destruct (Rltb tol_z _); [|reflexivity]. destruct (Rltb _ 0); apply IH.
  Qed.
  Lemma refine_found : forall n p1 a1 p2 h2, refine (cpp_itp c) n p1 a1 p2 h2 <> NotFound.
  Proof. induction n as [|n IH]; intros; cbn [refine]; [discriminate|]. destruct (Reqb _ 0); [discriminate|]. destruct (Rltb tol_z _); [|discriminate]. destruct (Rltb _ 0); apply IH. Qed.
  Definition cell_mem (r : cell_result) : mem mem_cell :=
    match r with CDone (Found p) => Ran (AtPoint p) | CDone NotFound => Threw | CDone Crash => Undefined | CDone NoFuel => Hangs | CEnd a => Ran (AtAbscissa a) end.
  Lemma cells_length {A} (f : Z -> Z -> A) : length (cpp_cells f nr nc) = (Z.to_nat (nr - 1) * Z.to_nat (nc - 1))%nat.
  Proof.
    unfold cpp_cells. generalize (Z.to_nat (nr - 1)) as n. intros n. generalize 0%nat at 2 as k. induction n as [|n IH]; intros k; [reflexivity|].
    cbn [seq flat_map]. rewrite app_length, map_length, seq_length, IH. lia.
  Qed.
  Lemma cell_reads w : cpp_guard c w = true -> forall f, read (cpp_cells f nr nc) (w_c w * (nc - 1) + w_r w) = Ran (cpp_alt (cpp_cells f nr nc) (w_c w * (nc - 1) + w_r w)).
  Proof.
    intros G f. unfold cpp_guard in G. cbn [c cpp_make cd_rows cd_cols] in G. rewrite !andb_true_iff, !Z.ltb_lt in G. destruct G as ((_ & G1 & G2) & G3 & G4).
    apply read_alt. rewrite cells_length. rewrite Nat2Z.inj_mul, !Z2Nat.id by lia. nia.
  Qed.
  Lemma cell_min_max w : cpp_guard c w = true -> let k := (w_c w * (cd_cols c - 1) + w_r w)%Z in
    read (cd_min_cell c) k = Ran (cpp_alt (cd_min_cell c) k) /\ read (cd_max_cell c) k = Ran (cpp_alt (cd_max_cell c) k).
  Proof. intros G. split; apply (cell_reads w G). Qed.
  Lemma cells_ok s fuel : forall n w, mem_cell_loop c s fuel n w = cell_mem (cpp_cell_loop c s fuel n w).
  Proof.
    induction n as [|n IH]; intros w; cbn [mem_cell_loop cpp_cell_loop]; destruct (cpp_guard c w) eqn:G; try reflexivity.
    destruct (cell_min_max w G) as [-> ->]. cbn [bind]. destruct (may_intersect _ _ _ _ _ _); [|apply IH]. rewrite !itp_ok. cbn [bind].
    destruct (Rleb _ 0); [|apply IH]. rewrite refine_ok. pose proof (refine_found fuel (w_p w) (cpp_itp c (v0 (w_p w)) (v1 (w_p w))) (w_p (mesh_move s w)) (cpp_itp c (v0 (w_p (mesh_move s w))) (v1 (w_p (mesh_move s w))))) as N.
    destruct (refine _ _ _ _ _ _); cbn; congruence.
  Qed.
  Lemma cell_found s fuel : forall n w, cpp_cell_loop c s fuel n w <> CDone NotFound.
  Proof.
    induction n as [|n IH]; intros w; cbn [cpp_cell_loop]; destruct (cpp_guard c w); try discriminate. destruct (may_intersect _ _ _ _ _ _); [|apply IH]. destruct (Rleb _ 0); [|apply IH].
    intros [= E]. now apply refine_found in E.
  Qed.
  Lemma alti_ok n k : (k <= n)%nat -> read (mem_alti n) (Z.of_nat k) = Ran (INR k).
  Proof.
    intros H. apply read_nth; [lia|]. rewrite Nat2Z.id. unfold mem_alti. apply map_nth_error. rewrite nth_error_nth' with (d := 0%nat) by (rewrite seq_length; lia). now rewrite seq_nth by lia.
  Qed.
  Definition out_mem (o : outcome) : mem (option vec3) := match o with Found p => Ran (Some p) | NotFound => Ran None | Crash => Undefined | NoFuel => Hangs end.
  Lemma vertices_ok los fuel : forall steps i p h,
    mem_vertex_loop c los (mem_alti (length los)) fuel steps (Z.of_nat i) p h = out_mem (cpp_vertex_loop c los fuel steps i p h).
  Proof.
    assert (T : forall i, (Z.of_nat i <? Z.of_nat (length los) - 1)%Z = (i <? length los - 1)%nat).
    { intros i. destruct (Nat.ltb_spec i (length los - 1)); [apply Z.ltb_lt|apply Z.ltb_ge]; lia. }
    induction steps as [|steps IH]; intros i p h; cbn [mem_vertex_loop cpp_vertex_loop]; rewrite T; destruct (Nat.ltb_spec i (length los - 1)) as [Hi|Hi]; try reflexivity.
    destruct (nth_error los i) as [a|] eqn:Ea; [|apply nth_error_None in Ea; lia]. destruct (nth_error los (i + 1)) as [b|] eqn:Eb; [|apply nth_error_None in Eb; lia].
    rewrite (read_nth los (Z.of_nat i) a) by (rewrite ?Nat2Z.id; auto; lia). cbn [bind]. replace (Z.of_nat i + 1)%Z with (Z.of_nat (i + 1)) by lia.
    rewrite (read_nth los (Z.of_nat (i + 1)) b) by (rewrite ?Nat2Z.id; auto; lia). cbn [bind]. destruct (Reqb _ 0 && Reqb _ 0).
    - rewrite itp_ok. cbn [bind]. destruct (Rleb _ _); [reflexivity|]. apply IH.
    - rewrite <- INR_IZR_INZ. destruct (cpp_guard c _); [|reflexivity]. rewrite cells_ok.
      match goal with |- context [cpp_cell_loop c ?s fuel fuel ?w] => pose proof (cell_found s fuel fuel w) as N; destruct (cpp_cell_loop c s fuel fuel w) as [o|a2] end.
      + destruct o; try reflexivity. congruence.
      + cbn [cell_mem bind]. destruct (Rleb 1 a2); [|reflexivity]. rewrite alti_ok by lia. cbn [bind]. apply IH.
  Qed.
  Lemma intersection_ok fuel los p h : 0 <= h -> mem_intersection c fuel los p h = out_mem (cpp_intersection_index c fuel los p h).
  Proof.
    intros H. unfold mem_intersection, cpp_intersection_index. rewrite itp_ok. cbn [bind]. destruct (Rltb _ 0); [reflexivity|].
    assert (0 <= Rfloor h)%Z by (destruct (Rfloor_bounds h); assert (-1 < Rfloor h)%Z by (apply lt_IZR; lra); lia).
    rewrite (proj2 (Z.ltb_ge _ _)) by lia. rewrite <- vertices_ok. now rewrite Z2Nat.id.
  Qed.
  (** One line of sight: the behaviour is defined unless the refinement divides by zero. *)
  Lemma one_ok fuel los : los <> [] ->
    mem_one c fuel los =
    match cpp_intersect_dtm_cube_index c (map (cpp_ter_to_index (cd_tr_inv c)) los) with
    | None => Threw
    | Some None => Ran (Some nan3)
    | Some (Some (p, h)) =>
        match cpp_intersection_index c fuel (map (cpp_ter_to_index (cd_tr_inv c)) los) p h with
        | Found q => Ran (Some (row_of_vec (cpp_index_to_ter (cd_tr c) q)))
        | NotFound => Ran None
        | Crash => Undefined
        | NoFuel => Hangs
        end
    end.
  Proof.
    intros H. unfold mem_one. rewrite cube_ok; [|reflexivity|destruct los; [congruence|discriminate]].
    destruct (cpp_intersect_dtm_cube_index c _) as [[[p h]|]|] eqn:E; try reflexivity. cbn [bind]. rewrite intersection_ok by (eapply (cube_rank c eq_refl); exact E).
    destruct (cpp_intersection_index c _ _ _ _); reflexivity.
  Qed.

  (** ** Several lines of sight *)
  Lemma vertices_read buf nb_alt i : (0 <= i)%Z -> ((i + 1) * nb_alt * 3 <= Z.of_nat (length buf))%Z -> forall n alt, (0 <= alt)%Z -> (alt + Z.of_nat n = nb_alt)%Z ->
    mem_vertices buf nb_alt 3 i n alt
    = Ran (map (fun k => V3 (cpp_alt buf ((i * nb_alt + (alt + Z.of_nat k)) * 3)) (cpp_alt buf ((i * nb_alt + (alt + Z.of_nat k)) * 3 + 1)) (cpp_alt buf ((i * nb_alt + (alt + Z.of_nat k)) * 3 + 2))) (seq 0 n)).
  Proof.
    intros Hi HB. induction n as [|n IH]; intros alt Ha Hn; [reflexivity|]. cbn [mem_vertices]. rewrite !read_alt by nia. cbn [bind]. rewrite IH by lia. cbn [bind seq map]. rewrite <- seq_shift, map_map.
    f_equal. f_equal; [f_equal; f_equal; lia|]. apply map_ext. intros k. f_equal; f_equal; lia.
  Qed.
  Definition vertices_of buf nb_alt i : list vec3 :=
    map (fun k => V3 (cpp_alt buf ((i * nb_alt + Z.of_nat k) * 3)) (cpp_alt buf ((i * nb_alt + Z.of_nat k) * 3 + 1)) (cpp_alt buf ((i * nb_alt + Z.of_nat k) * 3 + 2))) (seq 0 (Z.to_nat nb_alt)).
  Lemma lines_ok fuel buf nb_alt : (0 <= nb_alt)%Z -> forall n i res, (0 <= i)%Z -> ((i + Z.of_nat n) * nb_alt * 3 <= Z.of_nat (length buf))%Z -> length res = (Z.to_nat i + n)%nat ->
    (exists rows, mem_lines c fuel buf nb_alt 3 n i res = Ran (firstn (Z.to_nat i) res ++ rows) /\ Forall2 (fun k r => mem_one c fuel (vertices_of buf nb_alt (Z.of_nat k)) = Ran r) (seq (Z.to_nat i) n) rows)
    \/ (exists k, (i <= k < i + Z.of_nat n)%Z /\ mem_lines c fuel buf nb_alt 3 n i res
          = match mem_one c fuel (vertices_of buf nb_alt k) with Ran _ => Ran res | Threw => Threw | Undefined => Undefined | Hangs => Hangs end
        /\ forall r, mem_one c fuel (vertices_of buf nb_alt k) <> Ran r).
  Proof.
    intros HA. induction n as [|n IH]; intros i res Hi HB HL.
    - left. exists []. cbn [mem_lines seq]. rewrite app_nil_r, firstn_all2 by lia. split; [reflexivity|constructor].
    - cbn [mem_lines]. assert (HB' : ((i + 1) * nb_alt * 3 <= Z.of_nat (length buf))%Z) by (assert ((i + 1) * nb_alt <= (i + Z.of_nat (S n)) * nb_alt)%Z by (apply Z.mul_le_mono_nonneg_r; lia); lia).
      rewrite (vertices_read buf nb_alt i Hi HB' (Z.to_nat nb_alt) 0) by lia. cbn [bind].
      assert (VE : map (fun k => V3 (cpp_alt buf ((i * nb_alt + (0 + Z.of_nat k)) * 3)) (cpp_alt buf ((i * nb_alt + (0 + Z.of_nat k)) * 3 + 1)) (cpp_alt buf ((i * nb_alt + (0 + Z.of_nat k)) * 3 + 2))) (seq 0 (Z.to_nat nb_alt)) = vertices_of buf nb_alt i) by reflexivity.
      rewrite VE. destruct (mem_one c fuel (vertices_of buf nb_alt i)) as [r| | |] eqn:E1; try (right; exists i; split; [lia|]; split; [rewrite E1; reflexivity|intros r; congruence]).
      cbn [bind]. assert (SP : exists x t, res = firstn (Z.to_nat i) res ++ x :: t).
      { pose proof (firstn_skipn (Z.to_nat i) res) as FS. destruct (skipn (Z.to_nat i) res) as [|x t] eqn:SK; [|exists x, t; now symmetry].
        assert (length (skipn (Z.to_nat i) res) = 0%nat) by now rewrite SK. rewrite skipn_length in H. lia. }
      destruct SP as (x & t & SP). assert (LF : length (firstn (Z.to_nat i) res) = Z.to_nat i) by (rewrite firstn_length; lia).
      assert (EW : write res i r = Ran (firstn (Z.to_nat i) res ++ r :: t)) by (rewrite SP at 1; apply write_at; lia). rewrite EW. cbn [bind]. assert (LT : length t = n) by (apply (f_equal (@length _)) in SP; rewrite app_length in SP; cbn [length] in SP; lia).
      set (res' := firstn (Z.to_nat i) res ++ r :: t). assert (L' : length res' = (Z.to_nat (i + 1) + n)%nat) by (unfold res'; rewrite app_length; cbn [length]; lia).
      assert (F' : firstn (Z.to_nat (i + 1)) res' = firstn (Z.to_nat i) res ++ [r]).
      { unfold res'. replace (Z.to_nat (i + 1)) with (length (firstn (Z.to_nat i) res) + 1)%nat by lia. rewrite firstn_app_2. reflexivity. }
      destruct (IH (i + 1)%Z res') as [(rows & E2 & F2)|(k & Hk & E2 & N2)]; [lia|lia|exact L'| |].
      + left. exists (r :: rows). rewrite E2, F', <- app_assoc. split; [reflexivity|]. cbn [seq]. constructor; [now rewrite Z2Nat.id|]. now replace (S (Z.to_nat i)) with (Z.to_nat (i + 1)) by lia.
      + right. exists k. split; [lia|]. rewrite E2. destruct (mem_one c fuel (vertices_of buf nb_alt k)); auto. exfalso. now apply (N2 x0).
  Qed.
End Walk.
