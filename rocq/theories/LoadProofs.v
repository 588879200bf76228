(** Lemmas on loaded RPC models. *)
From Coq Require Import String Reals ZArith List Bool Lra Lia.
From Verif Require Import Num NumLemmas InterpModel ProjModel RpcModel RpcProofs DtmModel RpcDtmModel PyStrModel ReadersModel LoadModel.
Import ListNotations.
Open Scope R_scope.

(** ** Another origin of the rows and columns *)
Definition shifted (h : R) (m : rpc) : rpc :=
  mkRpc (num_col m) (den_col m) (num_row m) (den_row m) (num_x m) (den_x m) (num_y m) (den_y m)
    (inverse_coefficient m) (direct_coefficient m) (offset_x m) (scale_x m) (offset_y m) (scale_y m)
    (offset_alt m) (scale_alt m) (offset_col m + h) (scale_col m) (offset_row m + h) (scale_row m) (rpc_epsg m).
Definition move (h : R) (x : num) : num := nadd x (fin h).

Lemma zip3_length a b c r : zip3 a b c = Some r -> length a = length r /\ length b = length r /\ length c = length r.
Proof.
  revert b c r. induction a as [|x a IH]; intros [|y b] [|z c] r; simpl; try discriminate.
  - injection 1 as <-. auto.
  - destruct (zip3 a b c) as [r'|] eqn:E; [|discriminate]. injection 1 as <-. apply IH in E. simpl. lia.
Qed.

Lemma rational_shift x y z nu de s o h : rational x y z nu de s (o + h) = move h (rational x y z nu de s o).
Proof.
  unfold rational, move. destruct x, y, z; try reflexivity.
  destruct (nmul _ _); [|reflexivity]. unfold nadd, nlift2, fin. f_equal. ring.
Qed.

Lemma inverse_loc_shift h m lon lat alt :
  inverse_loc (shifted h m) lon lat alt
  = match inverse_loc m lon lat alt with
    | Some (row, col, alt) => Some (map (move h) row, map (move h) col, alt)
    | None => None
    end.
Proof.
  unfold inverse_loc. cbn [shifted inverse_coefficient]. destruct (inverse_coefficient m); [|reflexivity].
  destruct (broadcast_alt (length lon) alt) as [a|]; [|reflexivity].
  destruct (zip3 lon lat a) as [rows|]; [|reflexivity].
  cbn [shifted offset_x scale_x offset_y scale_y offset_alt scale_alt num_col den_col num_row den_row scale_col offset_col scale_row offset_row].
  set (R := check_lonlat rows). rewrite !map_map.
  rewrite !(rational_loop_map R (fun p => normalise (offset_x m) (scale_x m) (lon3 p))
    (fun p => normalise (offset_y m) (scale_y m) (lat3 p)) (fun p => normalise (offset_alt m) (scale_alt m) (alt3 p))).
  rewrite !map_map. f_equal. f_equal. f_equal; apply map_ext; intros p; apply rational_shift.
Qed.

Lemma derivates_shift h m lon lat alt :
  compute_loc_inverse_derivates (shifted h m) lon lat alt = compute_loc_inverse_derivates m lon lat alt.
Proof. reflexivity. Qed.

Lemma move_sub h a b : nsub (move h a) (move h b) = nsub a b.
Proof. destruct a, b; try reflexivity. unfold move, nsub, nadd, nlift2, fin. f_equal. ring. Qed.
Lemma map2_move h a b : map2 nsub (map (move h) a) (map (move h) b) = map2 nsub a b.
Proof. revert b. induction a as [|x a IH]; intros [|y b]; try reflexivity. simpl. now rewrite move_sub, IH. Qed.
Lemma gather_map {A B} (f : A -> B) mask a : gather mask (map f a) = map f (gather mask a).
Proof. revert a. induction mask as [|[] mask IH]; intros [|x a]; try reflexivity; simpl; now rewrite IH. Qed.

Lemma newton_shift h m row col alt n s :
  newton_loop (shifted h m) (map (move h) row) (map (move h) col) alt n s = newton_loop m row col alt n s.
Proof.
  revert s. induction n as [|n IH]; intros s; cbn [newton_loop]; [reflexivity|].
  destruct (_ || _); [|reflexivity]. rewrite derivates_shift.
  destruct (compute_loc_inverse_derivates m _ _ _) as [[[[d1 d2] d3] d4]|]; [|reflexivity].
  rewrite inverse_loc_shift.
  match goal with |- context [inverse_loc m ?a ?b ?c] => destruct (inverse_loc m a b c) as [[[re ce] al]|] end; [|reflexivity].
  rewrite !gather_map, !map2_move. now rewrite IH.
Qed.

Lemma isnan_move h x : isnan (move h x) = isnan x.
Proof. now destruct x. Qed.
Lemma mask_move h a b :
  map2 (fun a b => negb (isnan a || isnan b)) (map (move h) a) (map (move h) b)
  = map2 (fun a b => negb (isnan a || isnan b)) a b.
Proof. revert b. induction a as [|x a IH]; intros [|y b]; try reflexivity. simpl. now rewrite !isnan_move, IH. Qed.
Lemma filter_shift h m row col fill :
  filter_coordinates (shifted h m) (map (move h) row) (map (move h) col) fill true = filter_coordinates m row col fill true.
Proof. unfold filter_coordinates. rewrite mask_move, map_length. reflexivity. Qed.

Lemma iterative_shift h m row col alt n fill :
  direct_loc_inverse_iterative (shifted h m) (map (move h) row) (map (move h) col) alt n fill
  = direct_loc_inverse_iterative m row col alt n fill.
Proof.
  unfold direct_loc_inverse_iterative. rewrite !map_length. cbn [shifted inverse_coefficient].
  destruct (_ && _); [|reflexivity]. destruct (broadcast_alt (length col) alt) as [a|]; [|reflexivity].
  rewrite filter_shift. destruct (filter_coordinates m row col fill true) as [[mask lo] la].
  destruct (negb (any mask)); [reflexivity|]. rewrite inverse_loc_shift.
  cbn [shifted offset_x offset_y].
  destruct (inverse_loc m _ _ _) as [[[[|r0 [|]] c] al]|]; try reflexivity.
  destruct c as [|c0 [|]]; try reflexivity. cbn [map].
  rewrite !gather_map, !map_map.
  rewrite (map_ext (fun x => nsub (move h x) (move h c0)) (fun x => nsub x c0)) by (intros; apply move_sub).
  rewrite (map_ext (fun x => nsub (move h x) (move h r0)) (fun x => nsub x r0)) by (intros; apply move_sub).
  now rewrite newton_shift.
Qed.

Lemma normalise_shift o s h x : normalise (o + h) s (move h x) = normalise o s x.
Proof.
  unfold normalise, move. destruct x as [x|]; [|reflexivity]. f_equal.
  unfold nsub, nadd, nlift2, fin. f_equal. ring.
Qed.

Lemma direct_loc_h_shift h m row col alt fill dc :
  direct_loc_h (shifted h m) (map (move h) row) (map (move h) col) alt fill dc = direct_loc_h m row col alt fill dc.
Proof.
  unfold direct_loc_h. rewrite !map_length. destruct (negb _); [reflexivity|]. destruct (broadcast_alt (length col) alt) as [a|]; [|reflexivity].
  rewrite filter_shift. destruct (filter_coordinates m row col fill true) as [[mask px] py].
  rewrite !gather_map, iterative_shift.
  cbn [shifted inverse_coefficient direct_coefficient num_x den_x num_y den_y scale_x offset_x scale_y offset_y offset_alt scale_alt offset_col scale_col offset_row scale_row].
  rewrite !map_map.
  rewrite (map_ext (fun x => normalise (offset_col m + h) (scale_col m) (move h x)) (normalise (offset_col m) (scale_col m))) by (intros; apply normalise_shift).
  rewrite (map_ext (fun x => normalise (offset_row m + h) (scale_row m) (move h x)) (normalise (offset_row m) (scale_row m))) by (intros; apply normalise_shift).
  reflexivity.
Qed.

Lemma flat_map_dup_move h (l : list num) : flat_map (fun r => [r; r]) (map (move h) l) = map (move h) (flat_map (fun r => [r; r]) l).
Proof. induction l; [reflexivity|]. simpl. now rewrite IHl. Qed.
Lemma flat_map_const {A B} (f : A -> A) (c : list B) l : flat_map (fun _ => c) (map f l) = flat_map (fun _ : A => c) l.
Proof. induction l; [reflexivity|]. simpl. now rewrite IHl. Qed.

Lemma los_extrema_shift conv h m row col lo hi fill epsg :
  los_extrema conv (shifted h m) (map (move h) row) (map (move h) col) lo hi fill epsg = los_extrema conv m row col lo hi fill epsg.
Proof.
  unfold los_extrema. change (alt_minmax (shifted h m)) with (alt_minmax m). change (get_alt_min_max (shifted h m)) with (get_alt_min_max m).
  change (rpc_epsg (shifted h m)) with (rpc_epsg m).
  destruct (match lo with Some _ => _ | None => _ end) as [[ex l] u].
  rewrite !flat_map_dup_move, flat_map_const, direct_loc_h_shift. reflexivity.
Qed.

Lemma direct_loc_dtm_shift conv fuel h m row col d :
  direct_loc_dtm conv fuel (shifted h m) (map (move h) row) (map (move h) col) d = direct_loc_dtm conv fuel m row col d.
Proof.
  unfold direct_loc_dtm. change (rpc_epsg (shifted h m)) with (rpc_epsg m).
  destruct (get_dtm_alt_offset conv (rpc_epsg m) d) as [[a|] [b|]]; now rewrite los_extrema_shift.
Qed.

(** ** Without the direct coefficients *)
Definition no_direct (m : rpc) : rpc :=
  mkRpc (num_col m) (den_col m) (num_row m) (den_row m) [] [] [] []
    (inverse_coefficient m) false (offset_x m) (scale_x m) (offset_y m) (scale_y m)
    (offset_alt m) (scale_alt m) (offset_col m) (scale_col m) (offset_row m) (scale_row m) (rpc_epsg m).
Lemma inverse_loc_nd m lon lat alt : inverse_loc (no_direct m) lon lat alt = inverse_loc m lon lat alt.
Proof. reflexivity. Qed.
Lemma newton_nd m row col alt n s : newton_loop (no_direct m) row col alt n s = newton_loop m row col alt n s.
Proof.
  revert s. induction n as [|n IH]; intros s; cbn [newton_loop]; [reflexivity|].
  destruct (_ || _); [|reflexivity].
  change (compute_loc_inverse_derivates (no_direct m)) with (compute_loc_inverse_derivates m).
  change (inverse_loc (no_direct m)) with (inverse_loc m).
  destruct (compute_loc_inverse_derivates m _ _ _) as [[[[d1 d2] d3] d4]|]; [|reflexivity].
  destruct (inverse_loc m _ _ _) as [[[re ce] al]|]; [|reflexivity]. now rewrite IH.
Qed.
Lemma iterative_nd m row col alt n fill :
  direct_loc_inverse_iterative (no_direct m) row col alt n fill = direct_loc_inverse_iterative m row col alt n fill.
Proof.
  unfold direct_loc_inverse_iterative. change (inverse_coefficient (no_direct m)) with (inverse_coefficient m).
  destruct (_ && _); [|reflexivity]. destruct (broadcast_alt (length col) alt) as [a|]; [|reflexivity].
  change (filter_coordinates (no_direct m)) with (filter_coordinates m).
  destruct (filter_coordinates m row col fill true) as [[mask lo] la].
  destruct (negb (any mask)); [reflexivity|].
  change (inverse_loc (no_direct m) [fin (offset_x (no_direct m))] [fin (offset_y (no_direct m))]) with (inverse_loc m [fin (offset_x m)] [fin (offset_y m)]).
  destruct (inverse_loc m _ _ _) as [[[[|r0 [|]] c] al]|]; try reflexivity.
  destruct c as [|c0 [|]]; try reflexivity. now rewrite newton_nd.
Qed.
Lemma direct_loc_h_nd m row col alt fill : direct_loc_h (no_direct m) row col alt fill false = direct_loc_h m row col alt fill false.
Proof.
  unfold direct_loc_h. destruct (negb _); [reflexivity|]. destruct (broadcast_alt (length col) alt) as [a|]; [|reflexivity].
  change (filter_coordinates (no_direct m)) with (filter_coordinates m).
  destruct (filter_coordinates m row col fill true) as [[mask px] py].
  rewrite iterative_nd. reflexivity.
Qed.
Lemma los_extrema_nd conv m row col lo hi fill epsg :
  los_extrema conv (no_direct m) row col lo hi fill epsg = los_extrema conv m row col lo hi fill epsg.
Proof.
  unfold los_extrema. change (alt_minmax (no_direct m)) with (alt_minmax m). change (get_alt_min_max (no_direct m)) with (get_alt_min_max m).
  change (rpc_epsg (no_direct m)) with (rpc_epsg m).
  destruct (match lo with Some _ => _ | None => _ end) as [[ex l] u].
  now rewrite direct_loc_h_nd.
Qed.
Lemma direct_loc_dtm_nd conv fuel m row col d : direct_loc_dtm conv fuel (no_direct m) row col d = direct_loc_dtm conv fuel m row col d.
Proof.
  unfold direct_loc_dtm. change (rpc_epsg (no_direct m)) with (rpc_epsg m).
  destruct (get_dtm_alt_offset conv (rpc_epsg m) d) as [[a|] [b|]]; now rewrite los_extrema_nd.
Qed.

(** ** Construction *)
Lemma seq_opt_fin l : seq_opt (map fin l) = Some l.
Proof. induction l as [|x l IH]; [reflexivity|]. simpl. now rewrite IH. Qed.
