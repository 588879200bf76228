(** The functions on vectors with checked accesses, compared with those without. *)
From Coq Require Import Reals ZArith List Bool Lia.
From Verif Require Import Num NumLemmas ProjModel RpcModel CppRpcModel CppMemModel StripMemModel StripMem OptimModel VecMemModel.
Import ListNotations.
Open Scope Z_scope.

Lemma for_each_zip4 {A B C E X} (F : A * B * C * E -> option X) : forall a b c d f i,
  length b = length a -> length c = length a -> length d = length a ->
  (forall k x y z t, nth_error a k = Some x -> nth_error b k = Some y -> nth_error c k = Some z -> nth_error d k = Some t ->
     f (i + Z.of_nat k) = call (F (x, y, z, t))) ->
  for_each (length a) i f = call (seq_opt (map F (zip4 a b c d))).
Proof.
  induction a as [|x a IH]; intros [|y b] [|z c] [|t d] f i L1 L2 L3 H; try discriminate; [reflexivity|].
  cbn [for_each length zip4 map seq_opt]. pose proof (H O x y z t eq_refl eq_refl eq_refl eq_refl) as H0. rewrite Z.add_0_r in H0.
  rewrite H0. destruct (F (x, y, z, t)) as [v|]; [|reflexivity]. cbn [call bind].
  cbn [length] in L1, L2, L3. rewrite (IH b c d f (i + 1)) by (try lia; intros k x' y' z' t' E1 E2 E3 E4;
    replace (i + 1 + Z.of_nat k) with (i + Z.of_nat (S k)) by lia; apply H; assumption).
  destruct (seq_opt _); reflexivity.
Qed.
Lemma for_each_ran {A} : forall n i (f : Z -> mem A) r, for_each n i f = Ran r ->
  length r = n /\ forall k, (k < n)%nat -> exists x, f (i + Z.of_nat k) = Ran x.
Proof.
  induction n as [|n IH]; intros i f r H; cbn [for_each] in H.
  - injection H as <-. split; [reflexivity|]. intros; lia.
  - destruct (f i) as [x| | |] eqn:E; try discriminate. cbn [bind] in H.
    destruct (for_each n (i + 1) f) as [t| | |] eqn:Et; try discriminate. injection H as <-.
    destruct (IH _ _ _ Et) as [L K]. split; [cbn [length]; lia|]. intros [|k] Hk.
    + exists x. now rewrite Z.add_0_r.
    + replace (i + Z.of_nat (S k)) with (i + 1 + Z.of_nat k) by lia. apply K. lia.
Qed.
Lemma for_each_settled {A} : forall n i (f : Z -> mem A),
  (forall k, (k < n)%nat -> (exists x, f (i + Z.of_nat k) = Ran x) \/ f (i + Z.of_nat k) = Undefined) ->
  (exists l, for_each n i f = Ran l) \/ for_each n i f = Undefined.
Proof.
  induction n as [|n IH]; intros i f H; [left; now exists []|]. cbn [for_each].
  destruct (H O ltac:(lia)) as [[x E]|E]; rewrite Z.add_0_r in E; rewrite E; cbn [bind]; [|right; reflexivity].
  destruct (IH (i + 1) f) as [[l El]|El].
  - intros k Hk. replace (i + 1 + Z.of_nat k) with (i + Z.of_nat (S k)) by lia. apply H. lia.
  - rewrite El. left. eexists. reflexivity.
  - rewrite El. right. reflexivity.
Qed.
Lemma read_some {A} (v : list A) k x : nth_error v k = Some x -> read v (Z.of_nat k) = Ran x.
Proof. intros H. unfold read. rewrite (proj2 (Z.ltb_ge _ _)) by lia. now rewrite Nat2Z.id, H. Qed.
Lemma read_nat {A} (v : list A) k x : read v (Z.of_nat k) = Ran x -> nth_error v k = Some x.
Proof. unfold read. rewrite (proj2 (Z.ltb_ge _ _)) by lia. rewrite Nat2Z.id. destruct (nth_error v k); congruence. Qed.
Lemma sizes_call lon lat alt : (alt <> [] \/ lon = [] \/ lat = []) ->
  mem_check_sizes lon lat alt = call (check_sizes lon lat alt).
Proof.
  intros H. unfold mem_check_sizes, check_sizes, broadcast_alt.
  destruct (length alt =? Nat.min (length lon) (length lat))%nat eqn:E; [reflexivity|].
  destruct alt as [|a alt]; [|reflexivity]. exfalso. apply Nat.eqb_neq in E. destruct H as [H|[->| ->]]; [congruence|apply E; reflexivity|].
  apply E. now rewrite Nat.min_0_r.
Qed.
Lemma sizes_ran lon lat alt v : mem_check_sizes lon lat alt = Ran v -> (alt <> [] \/ lon = [] \/ lat = []) /\
  exists alt', v = (firstn (Nat.min (length lon) (length lat)) lon, firstn (Nat.min (length lon) (length lat)) lat, alt') /\
    length alt' = Nat.min (length lon) (length lat).
Proof.
  unfold mem_check_sizes. destruct (length alt =? Nat.min (length lon) (length lat))%nat eqn:E; cbn [bind].
  - intros [= <-]. apply Nat.eqb_eq in E. split; [|eauto].
    destruct alt; [|left; discriminate]. right. destruct lon; [auto|]. destruct lat; [auto|discriminate].
  - destruct (read alt 0) eqn:R; try discriminate. cbn [bind]. intros [= <-]. split.
    + left. intros ->. discriminate R.
    + eexists. split; [reflexivity|]. now rewrite repeat_length.
Qed.
Lemma sizes_shape lon lat alt a b c : check_sizes lon lat alt = Some (a, b, c) ->
  let n := Nat.min (length lon) (length lat) in a = firstn n lon /\ b = firstn n lat /\ length a = n /\ length b = n /\ length c = n.
Proof.
  unfold check_sizes, broadcast_alt. destruct (length alt =? _)%nat eqn:E.
  - intros [= <- <- <-]. apply Nat.eqb_eq in E. repeat split; try (apply firstn_length_le; lia). exact E.
  - destruct alt; [discriminate|]. intros [= <- <- <-]. repeat split; try (apply firstn_length_le; lia). apply repeat_length.
Qed.
Lemma nth_firstn {A} (v : list A) n k x : nth_error (firstn n v) k = Some x -> (k < n)%nat /\ nth_error v k = Some x.
Proof.
  intros H. assert (K : (k < length (firstn n v))%nat) by (apply nth_error_Some; congruence). rewrite firstn_length in K.
  split; [lia|]. rewrite <- H. symmetry. apply nth_error_firstn_lt. lia.
Qed.
