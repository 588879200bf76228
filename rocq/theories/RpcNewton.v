(** The batched Newton loop as an iteration of a per-point step. *)
From Coq Require Import Reals ZArith List Bool Arith Lra Lia Permutation.
From Verif Require Import Num NumLemmas ProjModel ProjSpec PropertiesProj RpcModel CppRpcModel RpcSpec RpcProofs.
Import ListNotations.
Open Scope R_scope.

Lemma gather_map {A B} (act : A -> bool) (f : A -> B) l :
  gather (map act l) (map f l) = map f (filter act l).
Proof. induction l as [|x l IH]; [reflexivity|]. simpl. destruct (act x); simpl; now rewrite IH. Qed.

Lemma scatter_map {A B} (act : A -> bool) (f g : A -> B) l :
  scatter (map act l) (map f l) (map g (filter act l)) = map (fun p => if act p then g p else f p) l.
Proof. induction l as [|x l IH]; [reflexivity|]. simpl. destruct (act x); simpl; now rewrite IH. Qed.

Lemma map2_map {A B C D} (h : B -> C -> D) (f : A -> B) (g : A -> C) l :
  map2 h (map f l) (map g l) = map (fun p => h (f p) (g p)) l.
Proof. induction l as [|x l IH]; [reflexivity|]. simpl. now rewrite IH. Qed.

Lemma zip4_map {A B C D E} (f : A -> B) (g : A -> C) (h : A -> D) (k : A -> E) l :
  zip4 (map f l) (map g l) (map h l) (map k l) = map (fun p => (f p, g p, h p, k p)) l.
Proof. induction l as [|x l IH]; [reflexivity|]. simpl. now rewrite IH. Qed.

Record pt := PT { p_row : num; p_col : num; p_alt : num; p_lon : num; p_lat : num;
                  p_dc : num; p_dr : num }.

Definition active (p : pt) : bool :=
  ngtb (nabs (p_dc p)) (fin eps) || ngtb (nabs (p_dr p)) (fin eps).

Definition moved (m : rpc) (p : pt) : num * num :=
  newton_update (der_pt m (p_lon p) (p_lat p) (p_alt p)) (p_dc p) (p_dr p) (p_lon p) (p_lat p).

Definition advance (m : rpc) (p : pt) : pt :=
  let lo := fst (moved m p) in
  let la := snd (moved m p) in
  let q := inv_pt m (R3 lo la (p_alt p)) in
  PT (p_row p) (p_col p) (p_alt p) lo la (nsub (p_col p) (lat3 q)) (nsub (p_row p) (lon3 q)).

Definition step (m : rpc) (p : pt) : pt := if active p then advance m p else p.

Definition batch_cond (L : list pt) : bool :=
  max_abs_gt_eps (map p_dc L) || max_abs_gt_eps (map p_dr L).

Fixpoint batch_loop (m : rpc) (fuel : nat) (L : list pt) : list pt * nat :=
  if batch_cond L then
    match fuel with
    | O => (L, O)
    | S fuel => let '(L', k) := batch_loop m fuel (map (step m) L) in (L', S k)
    end
  else (L, O).

Definition state_of (L : list pt) : nstate :=
  NS (map p_lon L) (map p_lat L) (map p_dc L) (map p_dr L).

Lemma step_row m p : p_row (step m p) = p_row p.
Proof. unfold step. now destruct (active p). Qed.
Lemma step_col m p : p_col (step m p) = p_col p.
Proof. unfold step. now destruct (active p). Qed.
Lemma step_alt m p : p_alt (step m p) = p_alt p.
Proof. unfold step. now destruct (active p). Qed.

Lemma newton_loop_batch m fuel L : inverse_coefficient m = true ->
  newton_loop m (map p_row L) (map p_col L) (map p_alt L) fuel (state_of L)
  = Some (state_of (fst (batch_loop m fuel L)), snd (batch_loop m fuel L)).
Proof.
  intros Hi. revert L. induction fuel as [|fuel IH]; intros L.
  - simpl. fold (batch_cond L). destruct (batch_cond L); reflexivity.
  - cbn [newton_loop batch_loop]. change (ns_dcol (state_of L)) with (map p_dc L).
    change (ns_drow (state_of L)) with (map p_dr L).
    change (ns_lon (state_of L)) with (map p_lon L).
    change (ns_lat (state_of L)) with (map p_lat L).
    fold (batch_cond L). destruct (batch_cond L); [|reflexivity].
    rewrite map2_map. fold active. cbv zeta.
    change (fun p : pt => ngtb (nabs (p_dc p)) (fin eps) || ngtb (nabs (p_dr p)) (fin eps)) with active.
    rewrite !gather_map, derivates_map, !zip4_map, map2_map.
    cbv zeta.
    match goal with |- context [map fst (map ?f ?l)] =>
      replace (map f l) with (map (moved m) l) by (apply map_ext; intros p; unfold moved;
        destruct (der_pt m (p_lon p) (p_lat p) (p_alt p)) as [[[? ?] ?] ?]; reflexivity) end.
    rewrite !map_map, !scatter_map, !gather_map.
    assert (HF : forall (f g : pt -> num), map (fun p => if active p then f p else g p) (filter active L)
                 = map f (filter active L)).
    { intros f g. apply map_ext_in. intros p Hp. apply filter_In in Hp. now rewrite (proj2 Hp). }
    rewrite !HF.
    pose proof (inverse_loc_map m (map (fun p => R3 (fst (moved m p)) (snd (moved m p)) (p_alt p)) (filter active L)) Hi) as HI.
    rewrite !map_map in HI.
    simpl lon3 in HI. simpl lat3 in HI. simpl alt3 in HI.
    change (fun x : pt => p_alt x) with p_alt in HI. rewrite HI. rewrite !map2_map, !scatter_map.
    assert (E : NS (map (fun p => if active p then fst (moved m p) else p_lon p) L)
                   (map (fun p => if active p then snd (moved m p) else p_lat p) L)
                   (map (fun p => if active p then nsub (p_col p) (lat3 (inv_pt m (R3 (fst (moved m p)) (snd (moved m p)) (p_alt p)))) else p_dc p) L)
                   (map (fun p => if active p then nsub (p_row p) (lon3 (inv_pt m (R3 (fst (moved m p)) (snd (moved m p)) (p_alt p)))) else p_dr p) L)
                = state_of (map (step m) L)).
    { unfold state_of. rewrite !map_map. f_equal; apply map_ext; intros p; unfold step;
        destruct (active p); reflexivity. }
    match goal with |- context [newton_loop m _ _ _ fuel ?s] =>
      replace s with (state_of (map (step m) L)) by (symmetry; exact E) end.
    replace (map p_row L) with (map p_row (map (step m) L))
      by (rewrite map_map; apply map_ext; intros; apply step_row).
    replace (map p_col L) with (map p_col (map (step m) L))
      by (rewrite map_map; apply map_ext; intros; apply step_col).
    replace (map p_alt L) with (map p_alt (map (step m) L))
      by (rewrite map_map; apply map_ext; intros; apply step_alt).
    rewrite IH. destruct (batch_loop m fuel (map (step m) L)). reflexivity.
Qed.
