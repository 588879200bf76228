(** C90: the C++ intersection stays inside of its buffers. *)
From Coq Require Import Reals ZArith List Bool Lra Lia Psatz.
From Verif Require Import Num NumLemmas InterpModel InterpSpec InterpProofs ProjModel ProjSpec PropertiesProj
  DtmModel DtmSpec DtmCube DtmWalk DtmIntersect CppDtmModel CppDtmProofs DtmProofs DtmWitness PropertiesDtm
  DtmWitness2 PropertiesDtm2 CppMemModel CppMemSpec CppMem.
Import ListNotations.
Open Scope R_scope.

Lemma cpp_alt_nth data k : cpp_alt data (Z.of_nat k) = nth k data 0.
Proof.
  unfold cpp_alt, vec_get. rewrite (proj2 (Z.ltb_ge _ _)) by lia. rewrite Nat2Z.id.
  destruct (nth_error data k) eqn:E; [symmetry; now apply nth_error_nth|]. apply nth_error_None in E. symmetry. now apply nth_overflow.
Qed.
Lemma cells_nth (f : Z -> Z -> R) w : forall n a i j, (i < n)%nat -> (j < w)%nat ->
  nth (i * w + j) (flat_map (fun i => map (fun j => f (Z.of_nat i) (Z.of_nat j)) (seq 0 w)) (seq a n)) 0 = f (Z.of_nat (a + i)) (Z.of_nat j).
Proof.
  induction n as [|n IH]; intros a i j Hi Hj; [lia|]. cbn [seq flat_map]. destruct i as [|i].
  - cbn [Nat.mul Nat.add]. rewrite app_nth1 by (now rewrite map_length, seq_length).
    rewrite (nth_indep _ 0 (f (Z.of_nat a) (Z.of_nat 0))) by (now rewrite map_length, seq_length).
    rewrite (map_nth (fun j => f (Z.of_nat a) (Z.of_nat j))), seq_nth by assumption. now rewrite Nat.add_0_r.
  - rewrite app_nth2; rewrite map_length, seq_length; [|nia]. replace (S i * w + j - w)%nat with (i * w + j)%nat by nia.
    rewrite IH by lia. f_equal. f_equal. lia.
Qed.
Lemma cpp_cells_nth (f : Z -> Z -> R) nr nc i j : (S i < nr)%nat -> (S j < nc)%nat ->
  nth (i * (nc - 1) + j) (cpp_cells f (Z.of_nat nr) (Z.of_nat nc)) 0 = f (Z.of_nat i) (Z.of_nat j).
Proof.
  intros Hi Hj. unfold cpp_cells.
  replace (Z.to_nat (Z.of_nat nr - 1)) with (nr - 1)%nat by lia. replace (Z.to_nat (Z.of_nat nc - 1)) with (nc - 1)%nat by lia.
  now rewrite cells_nth by lia.
Qed.
Lemma min4 a b c d x : x <= Rmin (Rmin (Rmin a b) c) d <-> (x <= a /\ x <= b /\ x <= c /\ x <= d).
Proof.
  split.
  - intros H. pose proof (Rmin_l (Rmin (Rmin a b) c) d). pose proof (Rmin_r (Rmin (Rmin a b) c) d). pose proof (Rmin_l (Rmin a b) c).
    pose proof (Rmin_r (Rmin a b) c). pose proof (Rmin_l a b). pose proof (Rmin_r a b). lra.
  - intros (? & ? & ? & ?). repeat apply Rmin_glb; assumption.
Qed.
Lemma max4 a b c d x : Rmax (Rmax (Rmax a b) c) d <= x <-> (a <= x /\ b <= x /\ c <= x /\ d <= x).
Proof.
  split.
  - intros H. pose proof (Rmax_l (Rmax (Rmax a b) c) d). pose proof (Rmax_r (Rmax (Rmax a b) c) d). pose proof (Rmax_l (Rmax a b) c).
    pose proof (Rmax_r (Rmax a b) c). pose proof (Rmax_l a b). pose proof (Rmax_r a b). lra.
  - intros (? & ? & ? & ?). repeat apply Rmax_lub; assumption.
Qed.

(** Building the object from a table of [nr] x [nc] altitudes accesses nothing outside of the buffers, and
    gives each cell the largest integer under its corners and the smallest integer over them. *)
Theorem C90_constructor : forall data nr nc tr, (1 <= nr)%nat -> (1 <= nc)%nat -> length data = (nr * nc)%nat ->
  exists c, mem_make data (Z.of_nat nr) (Z.of_nat nc) tr = Ran c /\
    cd_alt c = data /\ length (cd_min_cell c) = ((nr - 1) * (nc - 1))%nat /\ length (cd_max_cell c) = ((nr - 1) * (nc - 1))%nat /\
    (forall i j, (S i < nr)%nat -> (S j < nc)%nat ->
       floor_of_cell data nc i j (nth (i * (nc - 1) + j) (cd_min_cell c) 0) /\
       ceil_of_cell data nc i j (nth (i * (nc - 1) + j) (cd_max_cell c) 0)).
Proof.
  intros data nr nc tr H1 H2 L. exists (cpp_make data (Z.of_nat nr) (Z.of_nat nc) tr).
  split; [apply make_ok; lia|]. split; [reflexivity|]. cbn [cpp_make cd_min_cell cd_max_cell].
  unfold cpp_alt_min_cell, cpp_alt_max_cell. rewrite !(cells_length data).
  replace (Z.to_nat (Z.of_nat nr - 1)) with (nr - 1)%nat by lia. replace (Z.to_nat (Z.of_nat nc - 1)) with (nc - 1)%nat by lia.
  split; [reflexivity|]. split; [reflexivity|]. intros i j Hi Hj. rewrite !cpp_cells_nth by assumption.
  replace (Z.of_nat nc * Z.of_nat i + Z.of_nat j)%Z with (Z.of_nat (i * nc + j)) by lia.
  replace (Z.of_nat nc * (Z.of_nat i + 1) + Z.of_nat j)%Z with (Z.of_nat (S i * nc + j)) by lia.
  replace (Z.of_nat nc * Z.of_nat i + (Z.of_nat j + 1))%Z with (Z.of_nat (i * nc + S j)) by lia.
  replace (Z.of_nat nc * (Z.of_nat i + 1) + (Z.of_nat j + 1))%Z with (Z.of_nat (S i * nc + S j)) by lia.
  rewrite !cpp_alt_nth. fold (node data nc i j) (node data nc (S i) j) (node data nc i (S j)) (node data nc (S i) (S j)).
  split.
  - set (m := Rmin _ _). exists (Rfloor m). split; [reflexivity|]. destruct (Rfloor_bounds m) as [B1 B2].
    split; [apply min4; exact B1|]. intros t HT. apply min4 in HT. fold m in HT.
    apply IZR_le. apply Z.lt_succ_r. apply lt_IZR. rewrite succ_IZR. lra.
  - set (m := Rmax _ _). exists (Rceil m). split; [reflexivity|]. destruct (Rceil_bounds m) as [B1 B2].
    split; [apply max4; exact B2|]. intros t HT. apply max4 in HT. fold m in HT.
    apply IZR_le. apply Z.lt_succ_r. apply lt_IZR. rewrite succ_IZR. lra.
Qed.
Example C90_constructor_ex : exists c, mem_make [1 / 2; 3; 7; 4; 1; 5 / 2] 2 3 ex_gdal = Ran c /\
  floor_of_cell [1 / 2; 3; 7; 4; 1; 5 / 2] 3 0 1 (nth 1 (cd_min_cell c) 0).
Proof.
  destruct (C90_constructor [1 / 2; 3; 7; 4; 1; 5 / 2] 2 3 ex_gdal) as (c & E & _ & _ & _ & H); [lia|lia|reflexivity|].
  exists c. split; [exact E|]. apply (H 0%nat 1%nat); lia.
Qed.

(** The accesses of the model are the ones of a buffer: inside, the element at this index; outside, undefined. *)
Theorem C90_accesses : forall (v : list R) (i : Z) (x : R),
  (forall k, i = Z.of_nat k -> (k < length v)%nat ->
     (exists y, nth_error v k = Some y /\ read v i = Ran y) /\
     exists w, write v i x = Ran w /\ length w = length v /\ forall j, nth_error w j = if Nat.eqb j k then Some x else nth_error v j) /\
  ((i < 0)%Z \/ (Z.of_nat (length v) <= i)%Z -> read v i = Undefined /\ write v i x = Undefined).
Proof.
  intros v i x. split.
  - intros k -> H. split.
    + destruct (nth_error v k) as [y|] eqn:E; [|apply nth_error_None in E; lia]. exists y. split; [reflexivity|].
      unfold read. rewrite (proj2 (Z.ltb_ge _ _)) by lia. now rewrite Nat2Z.id, E.
    + unfold write. rewrite (proj2 (Z.leb_le _ _)), (proj2 (Z.ltb_lt _ _)) by lia. cbn [andb]. rewrite Nat2Z.id.
      eexists. split; [reflexivity|]. split.
      * rewrite app_length, firstn_length. cbn [length]. rewrite skipn_length. lia.
      * intro j. destruct (Nat.eqb_spec j k) as [->|N].
        -- rewrite nth_error_app2; rewrite firstn_length, Nat.min_l by lia; [|lia]. now rewrite Nat.sub_diag.
        -- destruct (Nat.lt_ge_cases j k) as [L|L].
           ++ rewrite nth_error_app1 by (rewrite firstn_length; lia). clear - L. revert v j L.
              induction k as [|k IH]; intros v j L; [lia|]. destruct v as [|a v]; [now destruct j|]. destruct j as [|j]; [reflexivity|]. cbn [firstn nth_error]. apply IH. lia.
           ++ rewrite nth_error_app2; rewrite firstn_length, Nat.min_l by lia; [|lia]. replace (j - k)%nat with (S (j - S k)) by lia. cbn [nth_error].
              replace j with (S k + (j - S k))%nat at 2 by lia. generalize (j - S k)%nat. clear. intro m. revert m. generalize (S k). clear k.
              intros k m. revert v. induction k as [|k IH]; intro v; [reflexivity|]. destruct v as [|a v]; [now destruct m|]. apply IH.
  - intros H. unfold read, write. destruct H as [H|H].
    + rewrite (proj2 (Z.ltb_lt _ _)), (proj2 (Z.leb_gt _ _)) by lia. auto.
    + rewrite (proj2 (Z.ltb_ge i 0)) by lia. rewrite (proj2 (nth_error_None v (Z.to_nat i))) by lia.
      rewrite (proj2 (Z.ltb_ge i (Z.of_nat (length v)))) by lia. now rewrite andb_false_r.
Qed.
(** A table without rows, or without columns, is refused, unless it has neither. *)
Theorem C90_no_cells : forall data n tr, (2 <= n)%nat -> mem_make data 0 (Z.of_nat n) tr = Threw /\ mem_make data (Z.of_nat n) 0 tr = Threw.
Proof.
  intros data n tr H. unfold mem_make, mem_init_min_max.
  rewrite !(proj2 (Z.ltb_lt _ 0)) by nia. split; reflexivity.
Qed.
Example C90_accesses_ex : read [1; 2; 3] 1 = Ran 2 /\ read [1; 2; 3] 3 = Undefined /\ write [1; 2; 3] 2 7 = Ran [1; 2; 7].
Proof. repeat split. Qed.
Example C90_no_cells_ex : mem_make [] 0 2 ex_gdal = Threw.
Proof. exact (proj1 (C90_no_cells [] 2 ex_gdal (le_n 2))). Qed.
Theorem C90_empty_refuted : forall tr, mem_make [] 0 0 tr = Undefined.
Proof. reflexivity. Qed.

(** ** One line of sight *)
Lemma flatten_size m : (0 <= rs_rows m)%Z -> (0 <= rs_cols m)%Z -> Z.of_nat (length (flatten_raster m)) = (rs_rows m * rs_cols m)%Z.
Proof.
  intros H1 H2. unfold flatten_raster. assert (E : forall (g : nat -> nat -> R) w n a,
    length (flat_map (fun i => map (g i) (seq 0 w)) (seq a n)) = (n * w)%nat).
  { intros g w. induction n as [|n IH]; intros a; [reflexivity|]. cbn [seq flat_map]. rewrite app_length, map_length, seq_length, IH. lia. }
  rewrite E. rewrite Nat2Z.inj_mul, !Z2Nat.id by assumption. reflexivity.
Qed.
Lemma one_of d fuel los : big_enough (dt_data d) -> los <> [] ->
  mem_one (cpp_of d) fuel los =
    match cpp_intersect_dtm_cube_index (cpp_of d) (los_to_index d los) with
    | None => Threw
    | Some None => Ran (Some nan3)
    | Some (Some (p, h)) =>
        match cpp_intersection_index (cpp_of d) fuel (los_to_index d los) p h with
        | Found q => Ran (Some (row_of_vec (cpp_index_to_ter (dt_gdal d) q)))
        | NotFound => Ran None
        | Crash => Undefined
        | NoFuel => Hangs
        end
    end.
Proof.
  intros [B1 B2] H. rewrite <- cpp_los. unfold cpp_of. rewrite one_ok; try assumption; [reflexivity|].
  unfold nb_rows, nb_columns. apply flatten_size; lia.
Qed.

(** On a table of at least two rows and two columns, and for a line of sight of any number of vertices, the
    accesses are in the buffers: where the model without buffers gives a result, the call gives the same,
    and the only undefined behaviour is a part of what that model reports as a failure. *)
Theorem C90_one_line : forall data nr nc tr fuel los, (2 <= nr)%Z -> (2 <= nc)%Z -> Z.of_nat (length data) = (nr * nc)%Z -> los <> [] ->
  exists c, mem_make data nr nc tr = Ran c /\
  match cpp_intersection_one c fuel los with
  | Value r => mem_one c fuel los = Ran (Some r)
  | Indeterminate => mem_one c fuel los = Ran None
  | Throws => mem_one c fuel los = Threw \/ mem_one c fuel los = Undefined
  | Endless => mem_one c fuel los = Hangs
  end.
Proof.
  intros data nr nc tr fuel los H1 H2 L H. exists (cpp_make data nr nc tr). split; [apply make_ok; lia|].
  unfold cpp_intersection_one. rewrite one_ok by assumption.
  destruct (cpp_intersect_dtm_cube_index _ _) as [[[p h]|]|]; auto. destruct (cpp_intersection_index _ _ _ _ _); auto.
Qed.
(** A line of sight of two points whose first point is outside of the box and on none of its face planes,
    that does not enter the box from a border of a cell along an axis it goes down, and that does not enter
    the box exactly on the surface: the call returns, and its position is the one of Python, or one that was
    never assigned where Python gives (0, 0, 0).  Missing: the other lines of sight, for which the claim is
    false (below). *)
Theorem C90_line_of_sight_partial :
  forall d fuel a b, big_enough (dt_data d) -> (fuel_bound d <= fuel)%nat ->
  let ia := ter_to_index (dt_trans_inv d) a in let ib := ter_to_index (dt_trans_inv d) b in
  v0 ia <> 0 -> v0 ia <> IZR (rs_rows (dt_data d) - 1) -> v1 ia <> 0 -> v1 ia <> IZR (rs_cols (dt_data d) - 1) ->
  v2 a <> alt_min d -> v2 a <> alt_max d -> ~ in_cube (dt_data d) ia ->
  (forall t, 0 < t < 1 -> on_face (dt_data d) (along ia ib t) ->
     ((exists i, v0 (along ia ib t) = IZR i) -> v0 ia <= v0 ib) /\
     ((exists j, v1 (along ia ib t) = IZR j) -> v1 ia <= v1 ib)) ->
  (forall p h, intersect_dtm_cube d [a; b] = Some (p, h) -> ~ clearance (dt_data d) p 0) ->
  exists r, mem_one (cpp_of d) fuel [a; b] = Ran r /\
    intersection_one d fuel (rows [a; b]) = Some (match r with Some p => p | None => R3 (Some 0) (Some 0) (Some 0) end).
Proof.
  intros d fuel a b Hb HF ia ib H0 H1 H2 H3 H4 H5 Ha HD HC.
  pose proof (C21_same_result_partial d fuel a b Hb H0 H1 H2 H3 H4 H5 Ha HD) as E.
  assert (NN : intersection_one d fuel (rows [a; b]) <> None).
  { intros N. destruct (C53_fails_only_on_the_surface_partial d fuel a b Hb HF Ha N) as (p & h & EC & C). exact (HC p h EC C). }
  rewrite one_of by (assumption || discriminate). unfold cpp_intersection_one in E. rewrite cpp_los in E.
  destruct (cpp_intersect_dtm_cube_index _ _) as [[[p h]|]|]; [|eexists; split; [reflexivity|exact E]|congruence].
  destruct (cpp_intersection_index _ _ _ _ _); try congruence; eexists; (split; [reflexivity|exact E]).
Qed.
Example C90_line_of_sight_ex : forall fuel, (fuel_bound saddle_dtm <= fuel)%nat ->
  exists p, mem_one (cpp_of saddle_dtm) fuel (ground saddle_dtm [da; db]) = Ran (Some (row_of_vec p)).
Proof.
  intros fuel HF. assert (HI : invertible (dt_transform saddle_dtm)) by (apply dt_invertible, ex_gdal_inv).
  assert (EG : forall p, ter_to_index (dt_trans_inv saddle_dtm) (index_to_ter (dt_transform saddle_dtm) p) = p)
    by (intros p; now apply C05_dtm_index_ter_index).
  pose proof (C90_line_of_sight_partial saddle_dtm fuel (index_to_ter (dt_transform saddle_dtm) da) (index_to_ter (dt_transform saddle_dtm) db) saddle_big HF) as H.
  cbv zeta in H. rewrite !EG in H. destruct saddle_bounds as [Em EM]. rewrite Em, EM in H.
  change [index_to_ter (dt_transform saddle_dtm) da; index_to_ter (dt_transform saddle_dtm) db] with (ground saddle_dtm [da; db]) in H.
  destruct H as (r & E1 & E2).
  - cbn [da v0]. lra.
  - cbn. lra.
  - cbn [da v1]. lra.
  - cbn. lra.
  - cbn. lra.
  - cbn. lra.
  - rewrite saddle_in_cube. cbn [da v0 v1 v2]. lra.
  - intros t _ _. cbn [da db v0 v1]. split; intros _; lra.
  - intros p h EC HC. unfold intersect_dtm_cube in EC. rewrite ground_index, saddle_cube in EC by assumption. injection EC as <- <-.
    apply clearance_iff in HC; [|apply saddle_big]. destruct HC as [_ HC]. rewrite saddle_along in HC. cbn [v0 v1 v2] in HC.
    rewrite saddle_diag in HC by lra. lra.
  - unfold rows in E2. rewrite one_finite in E2. unfold intersect_dtm_cube in E2. rewrite ground_index, saddle_cube in E2 by assumption.
    destruct (saddle_found fuel HF) as (u & Hu & EI). unfold intersection in E2. rewrite EI in E2.
    destruct r as [p|].
    + injection E2 as <-. eexists. exact E1.
    + exfalso. rewrite one_of in E1 by (apply saddle_big || discriminate). rewrite ground_index in E1 by assumption.
      rewrite cpp_cube_some, saddle_cube in E1.
      * rewrite cpp_intersection2_eq in E1; [rewrite EI in E1; discriminate|apply saddle_big|lra|].
        unfold decreasing_on_border. cbn [da db v0 v1]. lra.
      * apply planes_off; [apply saddle_big|..]; rewrite ?Em, ?EM; cbn; lra.
Qed.

(** A line of sight that lies in the surface of a slope: the quotient 0 / 0 makes a NaN position, which is then
    converted to an index.  Python raises an exception there (C53). *)
Theorem C90_in_the_surface_refuted : exists d los, big_enough (dt_data d) /\ invertible (dt_transform d) /\
  forall fuel, (1 <= fuel)%nat -> mem_one (cpp_of d) fuel los = Undefined.
Proof.
  exists slope_dtm, (ground slope_dtm in_plane).
  assert (HI : invertible (dt_transform slope_dtm)) by (apply dt_invertible, ex_gdal_inv).
  split; [apply slope_big|]. split; [assumption|]. intros fuel HF.
  rewrite one_of by (apply slope_big || discriminate). rewrite ground_index by assumption.
  unfold in_plane at 1. rewrite cpp_cube_some.
  - fold in_plane. rewrite in_plane_cube. unfold in_plane at 1. rewrite cpp_intersection2_eq.
    + fold in_plane. now rewrite in_plane_walk.
    + apply slope_big.
    + lra.
    + unfold decreasing_on_border. cbn [v0 v1]. lra.
  - destruct slope_bounds as [Em EM]. apply planes_off; [apply slope_big|..]; rewrite ?Em, ?EM; cbn; lra.
Qed.

(** ** Several lines of sight *)
Lemma line_at_of buf nb_alt i : vertices_of buf (Z.of_nat nb_alt) (Z.of_nat i) = line_at buf nb_alt i.
Proof.
  unfold vertices_of, line_at. rewrite Nat2Z.id. apply map_ext. intros k. unfold vertex_at.
  replace ((Z.of_nat i * Z.of_nat nb_alt + Z.of_nat k) * 3)%Z with (Z.of_nat ((i * nb_alt + k) * 3)) by lia.
  replace (Z.of_nat ((i * nb_alt + k) * 3) + 1)%Z with (Z.of_nat ((i * nb_alt + k) * 3 + 1)) by lia.
  replace (Z.of_nat ((i * nb_alt + k) * 3) + 2)%Z with (Z.of_nat ((i * nb_alt + k) * 3 + 2)) by lia.
  now rewrite !cpp_alt_nth.
Qed.
Lemma read_app {A} (p : list A) v r x k i : Z.of_nat i = (k - Z.of_nat (length p))%Z -> nth_error v i = Some x -> read (p ++ v ++ r) k = Ran x.
Proof.
  intros K E. apply read_nth; [lia|]. replace (Z.to_nat k) with (length p + i)%nat by lia.
  rewrite nth_error_app2 by lia. replace (length p + i - length p)%nat with i by lia.
  rewrite nth_error_app1; [assumption|]. apply nth_error_Some. congruence.
Qed.
Lemma forall2_length {A B} (P : A -> B -> Prop) l l' : Forall2 P l l' -> length l = length l'.
Proof. induction 1; cbn [length]; congruence. Qed.
Lemma forall2_nth {A B} (P : A -> B -> Prop) l l' : Forall2 P l l' -> forall i a, nth_error l i = Some a -> exists b, nth_error l' i = Some b /\ P a b.
Proof.
  induction 1 as [|x y l l' H F IH]; intros i a E; [now destruct i|]. destruct i as [|i]; [|now apply IH]. injection E as <-. exists y. auto.
Qed.

(** The array of [n] lines of sight of [k] vertices: the call ends as one of the lines of sight does, and
    when it returns, each line of sight was computed from its own vertices and the element (i, j) of the
    result is the coordinate j of the line of sight i. *)
Theorem C90_batch : forall data nr nc tr fuel buf n k, (2 <= nr)%Z -> (2 <= nc)%Z -> Z.of_nat (length data) = (nr * nc)%Z ->
  length buf = (n * k * 3)%nat ->
  exists c, mem_make data nr nc tr = Ran c /\
  match mem_intersection_n_los_dtm c fuel buf (Z.of_nat n) (Z.of_nat k) 3 with
  | Ran out => length out = (3 * n)%nat /\ forall i, (i < n)%nat -> exists r, mem_one c fuel (line_at buf k i) = Ran r /\
      mem_result_at out (Z.of_nat n) (Z.of_nat i) 0 = Ran (option_map lon3 r) /\
      mem_result_at out (Z.of_nat n) (Z.of_nat i) 1 = Ran (option_map lat3 r) /\
      mem_result_at out (Z.of_nat n) (Z.of_nat i) 2 = Ran (option_map alt3 r)
  | Threw => exists i, (i < n)%nat /\ mem_one c fuel (line_at buf k i) = Threw
  | Undefined => exists i, (i < n)%nat /\ mem_one c fuel (line_at buf k i) = Undefined
  | Hangs => exists i, (i < n)%nat /\ mem_one c fuel (line_at buf k i) = Hangs
  end.
Proof.
  intros data nr nc tr fuel buf n k H1 H2 L LB. exists (cpp_make data nr nc tr). split; [apply make_ok; lia|].
  unfold mem_intersection_n_los_dtm. rewrite Nat2Z.id.
  destruct (lines_ok data nr nc tr L H1 H2 fuel buf (Z.of_nat k) ltac:(lia) n 0 (repeat (Some (R3 (fin 0) (fin 0) (fin 0))) n))
    as [(rs & E & F)|(i & Hi & E & N)]; [lia|nia|now rewrite repeat_length| |].
  - rewrite E. cbn [bind]. change (Z.to_nat 0) with 0%nat in *. cbn [firstn app].
    assert (LR : length rs = n) by (rewrite <- (forall2_length _ _ _ F); apply seq_length).
    split; [rewrite !app_length, !map_length; lia|]. intros i Hi.
    destruct (forall2_nth _ _ _ F i i) as (r & ER & EO).
    { rewrite nth_error_nth' with (d := 0%nat) by (rewrite seq_length; lia). now rewrite seq_nth by lia. }
    rewrite line_at_of in EO. exists r. split; [exact EO|].
    assert (RR : forall f, cell_of f r = option_map f r) by (intros f; now destruct r).
    unfold mem_result_at. repeat split.
    + apply (read_app [] _ _ _ _ i); [cbn [length]; lia|]. rewrite nth_error_map, ER. cbn. now rewrite RR.
    + apply (read_app (map (cell_of lon3) rs) _ _ _ _ i); [rewrite map_length; lia|]. rewrite nth_error_map, ER. cbn. now rewrite RR.
    + rewrite app_assoc. rewrite <- (app_nil_r (map (cell_of alt3) rs)).
      apply (read_app (map (cell_of lon3) rs ++ map (cell_of lat3) rs) _ _ _ _ i); [rewrite app_length, !map_length; lia|].
      rewrite nth_error_map, ER. cbn. now rewrite RR.
  - rewrite E. destruct (Z_of_nat_complete i ltac:(lia)) as [j ->]. rewrite line_at_of in *.
    destruct (mem_one _ fuel (line_at buf k j)) as [r| | |] eqn:EO; [exfalso; now apply (N r)| | |]; cbn [bind]; exists j; (split; [lia|exact EO]).
Qed.
(** Two lines of sight of two vertices: the second one is read after the first one. *)
Example C90_batch_ex : let buf := [0; 1; 2; 3; 4; 5; 6; 7; 8; 9; 10; 11] in
  length buf = (2 * 2 * 3)%nat /\ line_at buf 2 1 = [V3 6 7 8; V3 9 10 11].
Proof. split; reflexivity. Qed.

(** An array without vertices, an array of two coordinates, and a table of one row: accesses outside of the
    buffers. *)
Theorem C90_other_arrays_refuted : forall data nr nc tr fuel, (2 <= nr)%Z -> (2 <= nc)%Z -> Z.of_nat (length data) = (nr * nc)%Z ->
  exists c, mem_make data nr nc tr = Ran c /\
    (forall n, (1 <= n)%Z -> mem_intersection_n_los_dtm c fuel [] n 0 3 = Undefined) /\
    (forall x0 y0 x1 y1, mem_intersection_n_los_dtm c fuel [x0; y0; x1; y1] 1 2 2 = Undefined).
Proof.
  intros data nr nc tr fuel H1 H2 L. exists (cpp_make data nr nc tr). split; [apply make_ok; lia|]. split.
  - intros n Hn. unfold mem_intersection_n_los_dtm. destruct (Z.to_nat n) as [|m] eqn:E; [lia|]. reflexivity.
  - reflexivity.
Qed.
Definition one_row : gdal6 -> cpp_dtm := cpp_make [0; 10] 1 2.
Definition across : list vec3 := [V3 (-1) (1 / 2) 6; V3 1 (1 / 2) 4].
Lemma one_row_cube tr : cpp_intersect_dtm_cube_index (one_row tr) across = Some (Some (V3 0 (1 / 2) 5, 1 / 2)).
Proof.
  unfold across, cpp_intersect_dtm_cube_index.
  assert (EM : list_max [0; 10] = 10) by (unfold list_max; cbn; unfold Rmax; destruct Rle_dec; lra).
  assert (Em : list_min [0; 10] = 0) by (unfold list_min; cbn; unfold Rmin; destruct Rle_dec; lra).
  assert (E : cpp_scan_planes (one_row tr) [V3 (-1) (1 / 2) 6; V3 1 (1 / 2) 4] (V3 (-1) (1 / 2) 6) (seq 0 6)
    = Some [Cr 0 (1 / 2) 5 (1 / 2); Cr 0 (1 / 2) 5 (1 / 2)]).
  { cbn [seq cpp_scan_planes cpp_plane_scan]. unfold cpp_eq_plan, cpp_plane_crossing, plane_coef_a, plane_coef_b, plane_coef_c, one_row, cpp_make.
    cbn [nth cd_d v0 v1 v2]. rewrite EM, Em. rdec. cbn [andb Nat.ltb Nat.leb nth]. change (0 + 1)%Z with 1%Z.
    assert (CE : forall a b c h a' b' c' h' : R, a = a' -> b = b' -> c = c' -> h = h' -> Cr a b c h = Cr a' b' c' h') by (intros; now subst).
    f_equal. apply f_equal2; [|apply f_equal2; [|reflexivity]]; apply CE; try lra; field; lra. }
  rewrite E. cbn [length exchange_sort sort_pass cr_h]. rdec. cbn [exchange_sort sort_pass cr_h filter].
  unfold cpp_test_on_cube, one_row, cpp_make. cbn [nth cd_d cr_col cr_row cr_alt]. rewrite EM, Em. rdec. reflexivity.
Qed.
(** A table of one row: the altitude is read before the beginning of the table. *)
Theorem C90_one_row_refuted : exists data tr los, length data = 2%nat /\ (2 <= length los)%nat /\
  exists c, mem_make data 1 2 tr = Ran c /\ forall fuel, mem_one c fuel los = Undefined.
Proof.
  assert (HI : invertible (dt_transform ex_dtm)) by apply ex_dtm_inv.
  exists [0; 10], ex_gdal, (ground ex_dtm across). split; [reflexivity|]. split; [cbn; lia|].
  exists (one_row ex_gdal). split; [apply make_ok; cbn; lia|]. intros fuel. unfold mem_one.
  assert (EL : map (cpp_ter_to_index (cd_tr_inv (one_row ex_gdal))) (ground ex_dtm across) = across).
  { change (cd_tr_inv (one_row ex_gdal)) with (cd_tr_inv (cpp_of ex_dtm)). rewrite cpp_los. now apply ground_index. }
  rewrite EL. rewrite cube_ok by (reflexivity || discriminate). rewrite one_row_cube. cbn [bind]. unfold mem_intersection.
  assert (EI : mem_itp (one_row ex_gdal) 0 (1 / 2) = Undefined).
  { unfold mem_itp, cpp_interpolate, one_row, cpp_make. cbn [cd_alt cd_rows cd_cols]. rdec.
    assert (EF : Rfloor (1 / 2) = 0%Z) by (apply Rfloor_unique; lra). rewrite EF. reflexivity. }
  cbn [v0 v1]. rewrite EI. reflexivity.
Qed.
