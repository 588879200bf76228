(** C11, from the results: when a batch is located, the results are the ones of Newton's method. *)
From Coq Require Import Reals ZArith List Bool Lra Lia.
From Verif Require Import Num NumLemmas ProjModel RpcModel CppRpcModel RpcSpec RpcProofs RpcDeriv RpcRun RpcBatch RpcConverse PropertiesRpc.
Import ListNotations.
Open Scope R_scope.

(** A batch of pixels at one altitude, all of them located: the result of each pixel is the one of
    Newton's method run from the centre of the model on this pixel alone. *)
Theorem C11_located_batch_is_newton :
  forall m alt n fill (P : list (R * R)) lons lats alts k, usable_inverse m ->
  direct_loc_inverse_iterative m (map (fun p => Some (fst p)) P) (map (fun p => Some (snd p)) P) [Some alt] n fill
    = Some (lons, lats, alts, k) ->
  all_located m (map (fun p => Pix (fst p) (snd p) alt) P) lons lats ->
  length lons = length P /\ length lats = length P /\ alts = map (fun _ => Some alt) P /\
  forall i row col, nth_error P i = Some (row, col) ->
  exists lon lat, nth_error lons i = Some (Some lon) /\ nth_error lats i = Some (Some lat) /\
    newton_run lonlat_ok m row col alt n (offset_x m) (offset_y m) lon lat.
Proof.
  intros m alt n fill P lons lats alts k Hu H HA.
  destruct (iterative_converse m alt n fill P lons lats alts k Hu H HA) as (L & <- & -> & -> & -> & HF).
  rewrite !map_length. split; [reflexivity|]. split; [reflexivity|]. split; [now rewrite map_map|].
  intros i row col E. apply nth_error_map_inv in E. destruct E as (p & Ep & E).
  apply pair_equal_spec in E. destruct E as [-> ->].
  exists (l_lon p), (l_lat p). split; [now apply (map_nth_error (fun p => Some (l_lon p)))|].
  split; [now apply (map_nth_error (fun p => Some (l_lat p)))|].
  rewrite Forall_forall in HF. apply HF. eapply nth_error_In; eauto.
Qed.
(** The two implementations return the same arrays for such a batch. *)
Theorem C11_located_batch_python_cpp_agree :
  forall m alt n fill (P : list (R * R)) lons lats alts k, usable_inverse m ->
  direct_loc_inverse_iterative m (map (fun p => Some (fst p)) P) (map (fun p => Some (snd p)) P) [Some alt] n fill
    = Some (lons, lats, alts, k) ->
  all_located m (map (fun p => Pix (fst p) (snd p) alt) P) lons lats ->
  cpp_direct_loc_inverse_iterative_vec m (map (fun p => Some (fst p)) P) (map (fun p => Some (snd p)) P) [Some alt] n fill
  = zip3 lons lats alts.
Proof.
  intros m alt n fill P lons lats alts k Hu H HA.
  destruct (iterative_converse m alt n fill P lons lats alts k Hu H HA) as (L & EP & _ & _ & _ & HF).
  subst P. rewrite !map_map in *. cbn [fst snd] in *. eapply C11_python_cpp_agree_partial; eauto.
Qed.
(** One pixel, in C++: a finite result where the model is regular is the one of Newton's method. *)
Theorem C11_cpp_finite_result_is_newton :
  forall m row col alt n fill lon lat a, usable_inverse m ->
  cpp_direct_loc_inverse_iterative m (Some row) (Some col) (Some alt) n fill = (Some lon, Some lat, a) ->
  regular_at m lon lat alt ->
  a = Some alt /\ newton_run (fun _ _ => True) m row col alt n (offset_x m) (offset_y m) lon lat.
Proof.
  intros m row col alt n fill lon lat a Hu H Hr. split.
  - eapply cpp_iterative_alt; eauto.
  - eapply cpp_iterative_converse; eauto.
Qed.
(** The hypotheses are met. *)
Example C11_located_case : exists lons lats alts k, usable_inverse ex_rpc /\
  direct_loc_inverse_iterative ex_rpc [Some 5; Some 1] [Some 7; Some 120] [Some 20] 10 false = Some (lons, lats, alts, k) /\
  all_located ex_rpc [Pix 5 7 20; Pix 1 120 20] lons lats.
Proof.
  destruct C11_case as [Hu HF].
  destruct (C11_batch_is_pointwise_newton_partial ex_rpc 20 10 false _ Hu HF) as (k & _ & E).
  do 4 eexists. split; [assumption|]. split; [exact E|].
  intros [|[|i]] q Eq; cbn in Eq; [| |destruct i; discriminate]; injection Eq as <-;
    do 2 eexists; (split; [reflexivity|]); (split; [reflexivity|]);
    (split; [unfold lonlat_ok; simpl; lra|apply ex_rpc_affine]).
Qed.
