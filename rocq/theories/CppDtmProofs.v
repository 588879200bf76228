(** The C++ twin of the DTM intersection, compared with the Python one. *)
From Coq Require Import Reals ZArith List Bool Lra Lia Psatz Permutation.
From Verif Require Import Num NumLemmas InterpModel InterpSpec InterpProofs ProjModel DtmModel DtmSpec
  DtmCube DtmWalk DtmIntersect CppDtmModel.
Import ListNotations.
Open Scope R_scope.

Lemma cells_get f nr nc i j : (0 <= i < nr - 1)%Z -> (0 <= j < nc - 1)%Z ->
  cpp_alt (cpp_cells f nr nc) (i * (nc - 1) + j) = f i j.
Proof.
  intros Hi Hj. unfold cpp_alt, vec_get, cpp_cells.
  assert (0 <= i * (nc - 1))%Z by nia.
  rewrite (proj2 (Z.ltb_ge _ _)) by lia.
  replace (Z.to_nat (i * (nc - 1) + j))
    with (Z.to_nat i * Z.to_nat (nc - 1) + Z.to_nat j)%nat
    by (rewrite Z2Nat.inj_add, Z2Nat.inj_mul; lia).
  erewrite flat_map_nth with (k0 := 0%nat) (w := Z.to_nat (nc - 1)); [reflexivity| | | |].
  - intros. now rewrite map_length, seq_length.
  - lia.
  - lia.
  - cbn [Nat.add].
    erewrite map_nth_error; [|apply nth_error_nth' with (d := 0%nat); rewrite seq_length; lia].
    rewrite seq_nth by lia. cbn [Nat.add]. f_equal. now rewrite !Z2Nat.id by lia.
Qed.

Lemma cpp_alt_node d i j : is_node (dt_data d) i j ->
  cpp_alt (cd_alt (cpp_of d)) (nb_columns d * i + j) = rs_at (dt_data d) i j.
Proof.
  intros H. unfold cpp_alt. cbn [cpp_of cpp_make cd_alt]. unfold nb_columns.
  rewrite (Z.mul_comm (rs_cols (dt_data d)) i). now rewrite flatten_get.
Qed.

Lemma min4 a b c d : Rmin (Rmin (Rmin a b) c) d = Rmin (Rmin (Rmin a c) b) d.
Proof. f_equal. rewrite <- !Rmin_assoc. f_equal. apply Rmin_comm. Qed.
Lemma max4 a b c d : Rmax (Rmax (Rmax a b) c) d = Rmax (Rmax (Rmax a c) b) d.
Proof. f_equal. rewrite <- !Rmax_assoc. f_equal. apply Rmax_comm. Qed.

Lemma cpp_min_cell d i j : is_cell (dt_data d) i j ->
  cpp_alt (cd_min_cell (cpp_of d)) (i * (cd_cols (cpp_of d) - 1) + j) = alt_min_cell d i j.
Proof.
  intros [Hi Hj]. cbn [cpp_of cpp_make cd_min_cell cd_cols]. unfold cpp_alt_min_cell.
  rewrite cells_get by (unfold nb_rows, nb_columns; lia).
  change (flatten_raster (dt_data d)) with (cd_alt (cpp_of d)).
  rewrite !cpp_alt_node by (split; lia).
  unfold alt_min_cell. cbv zeta. do 2 f_equal. apply min4.
Qed.
Lemma cpp_max_cell d i j : is_cell (dt_data d) i j ->
  cpp_alt (cd_max_cell (cpp_of d)) (i * (cd_cols (cpp_of d) - 1) + j) = alt_max_cell d i j.
Proof.
  intros [Hi Hj]. cbn [cpp_of cpp_make cd_max_cell cd_cols]. unfold cpp_alt_max_cell.
  rewrite cells_get by (unfold nb_rows, nb_columns; lia).
  change (flatten_raster (dt_data d)) with (cd_alt (cpp_of d)).
  rewrite !cpp_alt_node by (split; lia).
  unfold alt_max_cell. cbv zeta. do 2 f_equal. apply max4.
Qed.

Lemma cpp_itp_eq d x y : big_enough (dt_data d) -> cpp_itp (cpp_of d) x y = interpolate d x y.
Proof.
  intros H. unfold cpp_itp. cbn [cpp_of cpp_make cd_alt cd_rows cd_cols]. unfold nb_rows, nb_columns.
  now rewrite cpp_interpolate_some.
Qed.

(** ** The cube *)
Lemma cpp_d_eq d : cd_d (cpp_of d) = plane_coef_d d. Proof. reflexivity. Qed.
Lemma cpp_eq_plan_eq d i p : cpp_eq_plan (cpp_of d) i p = eq_plan d i p.
Proof. reflexivity. Qed.

Lemma cpp_plane_scan_eq d i rest : forall a layer r,
  cpp_plane_scan (cpp_of d) i a rest layer = Some r -> plane_scan d i a rest layer = r.
Proof.
  induction rest as [|b rest IH]; intros a layer r H; cbn [cpp_plane_scan plane_scan] in *; [congruence|].
  rewrite !cpp_eq_plan_eq in H.
  destruct (Rleb (eq_plan d i a * eq_plan d i b) 0); [|now apply IH].
  destruct (Reqb (eq_plan d i a) 0 && Reqb (eq_plan d i b) 0); [discriminate|].
  injection H as <-. reflexivity.
Qed.
Lemma cpp_scan_planes_eq d los v : forall planes l,
  cpp_scan_planes (cpp_of d) los v planes = Some l ->
  flat_map (fun i => match plane_scan d i v los 0 with Some c => [c] | None => [] end) planes = l.
Proof.
  induction planes as [|i planes IH]; intros l H; cbn [cpp_scan_planes flat_map] in *; [congruence|].
  destruct (cpp_plane_scan (cpp_of d) i v los 0) as [r|] eqn:E; [|discriminate].
  rewrite (cpp_plane_scan_eq _ _ _ _ _ _ E).
  destruct (cpp_scan_planes (cpp_of d) los v planes) as [l'|]; [|discriminate].
  rewrite (IH l' eq_refl). injection H as <-. destruct r; reflexivity.
Qed.
Lemma cpp_cube_eq d los r :
  cpp_intersect_dtm_cube_index (cpp_of d) los = Some r -> intersect_dtm_cube_index d los = r.
Proof.
  unfold cpp_intersect_dtm_cube_index, intersect_dtm_cube_index, all_crossings.
  destruct los as [|v los]; [intros H; injection H as <-; reflexivity|].
  destruct (cpp_scan_planes (cpp_of d) (v :: los) v (seq 0 6)) as [cs|] eqn:E; [|discriminate].
  apply cpp_scan_planes_eq in E. rewrite E. intros H. injection H as <-. reflexivity.
Qed.

Lemma cpp_scan_none d los v i : forall planes, In i planes ->
  cpp_plane_scan (cpp_of d) i v los 0 = None -> cpp_scan_planes (cpp_of d) los v planes = None.
Proof.
  induction planes as [|k planes IH]; intros Hin H; [easy|]. cbn [cpp_scan_planes].
  destruct Hin as [->|Hin]; [now rewrite H|].
  rewrite (IH Hin H). now destruct (cpp_plane_scan (cpp_of d) k v los 0).
Qed.

(** The first vertex on a face plane: the C++ code throws. *)
Lemma cpp_cube_throws d los v i : (i < 6)%nat -> nth_error los 0 = Some v -> eq_plan d i v = 0 ->
  cpp_intersect_dtm_cube_index (cpp_of d) los = None.
Proof.
  intros Hi Hv Hz. destruct los as [|v' los]; [discriminate|]. injection Hv as ->.
  unfold cpp_intersect_dtm_cube_index.
  rewrite (cpp_scan_none d (v :: los) v i); [reflexivity|apply in_seq; lia|].
  cbn [cpp_plane_scan]. rewrite !cpp_eq_plan_eq, Hz, Rmult_0_l.
  rewrite (proj2 (Rleb_true 0 0)) by lra. now rewrite (proj2 (Reqb_true 0 0)) by reflexivity.
Qed.

(** The reported index is a position on the line of sight when the C++ code does not throw. *)
Lemma cpp_cube_index d los p h : big_enough (dt_data d) ->
  cpp_intersect_dtm_cube_index (cpp_of d) los = Some (Some (p, h)) -> on_los los h p.
Proof.
  intros Hb H. pose proof (cpp_cube_eq _ _ _ H) as E.
  destruct (cube_some d los p h Hb E) as (c & Hc & -> & -> & _).
  destruct (crossing_on_los d los c Hc) as (i & Hi & Hs & [Ho|[_ Hv]]); [exact Ho|].
  exfalso. rewrite (cpp_cube_throws d los (cr_point c) i Hi Hv) in H; [discriminate|].
  destruct (slack_eq_plan d i (cr_point c) Hi) as [E'|E']; rewrite E', Hs; ring.
Qed.

(** ** The walk *)
Lemma refine_ext f g n : (forall x y, f x y = g x y) -> forall p1 h1 p2 h2,
  refine f n p1 h1 p2 h2 = refine g n p1 h1 p2 h2.
Proof.
  intros H. induction n as [|n IH]; intros; cbn [refine]; [reflexivity|]. cbv zeta. rewrite H.
  destruct Reqb; [reflexivity|]. destruct Rltb; [|reflexivity]. destruct Rltb; apply IH.
Qed.

Lemma cpp_guard_eq d w : cpp_guard (cpp_of d) w = cell_guard d w.
Proof. reflexivity. Qed.

Lemma cpp_cell_loop_eq d s fuel : big_enough (dt_data d) -> forall n w,
  cpp_cell_loop (cpp_of d) s fuel n w = cell_loop d s fuel n w.
Proof.
  intros Hb n. induction n as [|n IH]; intros w; cbn [cpp_cell_loop cell_loop]; rewrite cpp_guard_eq;
    destruct (cell_guard d w) eqn:EG; try reflexivity.
  apply guard_iff in EG. destruct EG as [_ Hc]. cbv zeta.
  rewrite cpp_min_cell, cpp_max_cell by assumption. rewrite !cpp_itp_eq by assumption. rewrite !IH.
  rewrite (refine_ext (cpp_itp (cpp_of d)) (interpolate d)) by (intros; now apply cpp_itp_eq). reflexivity.
Qed.

(** The abscissa stored with the start cell does not matter, as long as it is before the end. *)
Lemma mesh_move_a s a a' c r p : s_d0 s <> 0 \/ s_d1 s <> 0 ->
  mesh_move s (W a c r p) = mesh_move s (W a' c r p).
Proof.
  intros Hd. unfold mesh_move. cbn [w_a w_c w_r w_p]. cbv zeta.
  destruct (Reqb_spec (s_d0 s) 0); [reflexivity|]. destruct (Reqb_spec (s_d1 s) 0); [reflexivity|].
  destruct (Rltb (s_d0 s) 0 && Rleb (s_d0 s) (s_d1 s) && Rleb (s_d0 s) (- s_d1 s)) eqn:E1; [reflexivity|].
  destruct (Rltb 0 (s_d1 s) && Rleb (s_d0 s) (s_d1 s) && Rleb (- s_d0 s) (s_d1 s)) eqn:E2; [reflexivity|].
  destruct (Rltb 0 (s_d0 s) && Rleb (s_d1 s) (s_d0 s) && Rleb (- s_d1 s) (s_d0 s)) eqn:E3; [reflexivity|].
  destruct (Rltb (s_d1 s) 0 && Rleb (s_d1 s) (s_d0 s) && Rleb (s_d1 s) (- s_d0 s)) eqn:E4; [reflexivity|].
  exfalso. apply andb_false_iff in E1, E2, E3, E4. rewrite !andb_false_iff in E1, E2, E3, E4.
  rewrite !Rleb_false, !Rltb_false in E1, E2, E3, E4. lra.
Qed.
Lemma cell_loop_a d s fuel n a a' c r p : s_d0 s <> 0 \/ s_d1 s <> 0 -> a < 1 -> a' < 1 ->
  cell_guard d (W a c r p) = true ->
  cell_loop d s fuel n (W a c r p) = cell_loop d s fuel n (W a' c r p).
Proof.
  intros Hd Ha Ha' HG. destruct n; cbn [cell_loop]; rewrite HG.
  all: assert (HG' : cell_guard d (W a' c r p) = true)
    by (apply guard_iff in HG; apply guard_iff; cbn [w_a w_c w_r] in *; tauto).
  all: rewrite HG'. { reflexivity. }
  cbn [w_c w_r w_p]. cbv zeta. now rewrite (mesh_move_a s a a') by assumption.
Qed.

(** A point whose row (column) is an integer, on a segment along which the row (column) decreases. *)
Definition decreasing_on_border (q u w : vec3) : Prop :=
  ((exists i, v0 q = IZR i) /\ v0 w < v0 u) \/ ((exists j, v1 q = IZR j) /\ v1 w < v1 u).

Lemma first_cells_agree q u w : ~ decreasing_on_border q u w ->
  cpp_first_cell (v0 q) (s_d0 (segment_of u w)) = first_cell (v0 q) (s_d0 (segment_of u w)) /\
  cpp_first_cell (v1 q) (s_d1 (segment_of u w)) = first_cell (v1 q) (s_d1 (segment_of u w)).
Proof.
  intros H. unfold cpp_first_cell, first_cell. cbn [segment_of s_d0 s_d1]. cbv zeta. split.
  - destruct (Reqb_spec (v0 q) (IZR (Rfloor (v0 q)))) as [E|E]; [|reflexivity].
    destruct (Rltb_spec (v0 w - v0 u) 0) as [L|L]; [|reflexivity].
    exfalso. apply H. left. split; [now exists (Rfloor (v0 q))|lra].
  - destruct (Reqb_spec (v1 q) (IZR (Rfloor (v1 q)))) as [E|E]; [|reflexivity].
    destruct (Rltb_spec (v1 w - v1 u) 0) as [L|L]; [|reflexivity].
    exfalso. apply H. right. split; [now exists (Rfloor (v1 q))|lra].
Qed.

Definition same_place (q p : vec3) : Prop := v0 q = v0 p /\ v1 q = v1 p.
Lemma dec_place q p u w : same_place q p -> ~ decreasing_on_border p u w -> ~ decreasing_on_border q u w.
Proof. intros [E1 E2]. unfold decreasing_on_border. now rewrite E1, E2. Qed.

Lemma reset_lt x : (if Rleb 1 x then 0 else x) < 1.
Proof. destruct (Rleb_spec 1 x); lra. Qed.

Lemma cpp_vertex_loop_eq d los fuel p : big_enough (dt_data d) ->
  (forall k u w, nth_error los k = Some u -> nth_error los (S k) = Some w ->
     ~ decreasing_on_border u u w /\ ~ decreasing_on_border p u w) ->
  forall steps i q h h', (same_place q p \/ exists u, nth_error los i = Some u /\ same_place q u) ->
  cpp_vertex_loop (cpp_of d) los fuel steps i q h = vertex_loop d los fuel steps (Z.of_nat i) q h'.
Proof.
  intros Hb HD steps. induction steps as [|steps IH]; intros i q h h' Hq;
    cbn [cpp_vertex_loop vertex_loop].
  { destruct (Nat.ltb_spec i (length los - 1)) as [H|H];
      [rewrite (proj2 (Z.ltb_lt _ _)) by lia|rewrite (proj2 (Z.ltb_ge _ _)) by lia]; reflexivity. }
  destruct (Nat.ltb_spec i (length los - 1)) as [H|H];
    [rewrite (proj2 (Z.ltb_lt _ _)) by lia|rewrite (proj2 (Z.ltb_ge _ _)) by lia; reflexivity].
  rewrite !py_get_nat by lia. rewrite Nat2Z.id. replace (Z.to_nat (Z.of_nat i + 1)) with (S i) by lia.
  replace (i + 1)%nat with (S i) by lia.
  destruct (nth_error los i) as [u|] eqn:Eu; [|reflexivity].
  destruct (nth_error los (S i)) as [w|] eqn:Ew; [|reflexivity]. cbv zeta.
  destruct (HD i u w Eu Ew) as [Du Dp].
  assert (Dq : ~ decreasing_on_border q u w).
  { destruct Hq as [Hq|(u' & E & Hq)]; [now apply (dec_place q p)|].
    injection E as <-. now apply (dec_place q u). }
  destruct (first_cells_agree q u w Dq) as [-> ->].
  replace (Z.of_nat i + 1)%Z with (Z.of_nat (S i)) by lia.
  destruct (Reqb (s_d0 (segment_of u w)) 0 && Reqb (s_d1 (segment_of u w)) 0) eqn:EV.
  - rewrite cpp_itp_eq by assumption. destruct Rleb; [reflexivity|].
    apply IH. destruct Hq as [Hq|(u' & E & Hq)]; [now left|]. injection E as <-.
    right. exists w. split; [assumption|]. apply andb_true_iff in EV. rewrite !Reqb_true in EV.
    cbn [segment_of s_d0 s_d1] in EV. destruct Hq. split; lra.
  - rewrite cpp_guard_eq.
    set (a := if Rleb 1 (h - INR i) then 0 else h - INR i).
    set (a' := if Rleb 1 (h' - IZR (Z.of_nat i)) then 0 else h' - IZR (Z.of_nat i)).
    assert (Ha : a < 1) by apply reset_lt. assert (Ha' : a' < 1) by apply reset_lt.
    set (c0 := first_cell (v0 q) _). set (c1 := first_cell (v1 q) _).
    assert (EGG : cell_guard d (W a' c0 c1 q) = cell_guard d (W a c0 c1 q)).
    { unfold cell_guard. cbn [w_a w_c w_r]. now rewrite !(proj2 (Rltb_true _ 1)) by assumption. }
    rewrite EGG. destruct (cell_guard d (W a c0 c1 q)) eqn:EG; [|reflexivity].
    rewrite cpp_cell_loop_eq by assumption.
    rewrite (cell_loop_a d _ fuel fuel a a'); try assumption.
    + destruct (cell_loop d (segment_of u w) fuel fuel (W a' c0 c1 q)) as [o|e]; [reflexivity|].
      destruct (Rleb 1 e); [|reflexivity]. apply IH. right. exists w. split; [assumption|]. now split.
    + apply andb_false_iff in EV. rewrite !Reqb_false in EV. exact EV.
Qed.

Lemma cpp_intersection_eq d los fuel p h : big_enough (dt_data d) -> 0 <= h ->
  (forall k u w, nth_error los k = Some u -> nth_error los (S k) = Some w ->
     ~ decreasing_on_border u u w /\ ~ decreasing_on_border p u w) ->
  cpp_intersection_index (cpp_of d) fuel los p h = intersection_index d fuel los p h.
Proof.
  intros Hb Hh HD. unfold cpp_intersection_index, intersection_index.
  rewrite cpp_itp_eq by assumption. destruct Rltb; [reflexivity|].
  assert (0 <= Rfloor h)%Z by (apply le_IZR; apply (Rfloor_le 0 h) in Hh;
    rewrite Rfloor_IZR in Hh; apply IZR_le in Hh; exact Hh).
  replace (Rfloor h) with (Z.of_nat (Z.to_nat (Rfloor h))) at 2 by lia.
  apply (cpp_vertex_loop_eq d los fuel p Hb HD). left. now split.
Qed.

(** A two-vertex line of sight: only the entry point matters. *)
Lemma cpp_intersection2_eq d fuel a b p h : big_enough (dt_data d) -> 0 <= h < 1 ->
  ~ decreasing_on_border p a b ->
  cpp_intersection_index (cpp_of d) fuel [a; b] p h = intersection_index d fuel [a; b] p h.
Proof.
  intros Hb Hh HD. unfold cpp_intersection_index, intersection_index.
  rewrite cpp_itp_eq by assumption. destruct Rltb; [reflexivity|].
  assert (E : Rfloor h = 0%Z) by (apply Rfloor_unique; lra). rewrite E.
  cbn [cpp_vertex_loop vertex_loop length Z.to_nat Nat.sub Nat.ltb Nat.leb nth_error Nat.add].
  change (0 <? Z.of_nat 2 - 1)%Z with true. cbv iota.
  change (py_get [a; b] 0) with (Some a). change (py_get [a; b] (0 + 1)) with (Some b). cbv iota zeta.
  destruct (first_cells_agree p a b HD) as [-> ->].
  destruct (Reqb (s_d0 (segment_of a b)) 0 && Reqb (s_d1 (segment_of a b)) 0) eqn:EV.
  - rewrite cpp_itp_eq by assumption. destruct Rleb; reflexivity.
  - rewrite cpp_guard_eq. cbn [INR].
    destruct (cell_guard d _); [|reflexivity].
    rewrite cpp_cell_loop_eq by assumption. destruct cell_loop as [o|e]; [reflexivity|].
    destruct (Rleb 1 e); reflexivity.
Qed.
