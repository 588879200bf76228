(** The analytic derivatives of the RPC. *)
From Coq Require Import Reals ZArith List Bool Arith Lra Lia FunctionalExtensionality.
From Verif Require Import Num NumLemmas ProjModel ProjSpec PropertiesProj RpcModel CppRpcModel RpcSpec RpcProofs.
Import ListNotations.
Open Scope R_scope.

Lemma dpl_ext f g x l : (forall t, f t = g t) -> derivable_pt_lim g x l -> derivable_pt_lim f x l.
Proof. intros H. replace f with g; [auto|]. extensionality t. now rewrite H. Qed.

Lemma dpl_cubic A B C D x :
  derivable_pt_lim (fun t => A + B * t + C * t ^ 2 + D * t ^ 3) x (B + 2 * C * x + 3 * D * x ^ 2).
Proof.
  apply dpl_ext with (g := (fct_cte A + (mult_real_fct B id + (mult_real_fct C (fun t => t ^ 2)
     + mult_real_fct D (fun t => t ^ 3))))%F).
  { intros t. unfold plus_fct, fct_cte, mult_real_fct, id. ring. }
  replace (B + 2 * C * x + 3 * D * x ^ 2)
    with (0 + (B * 1 + (C * (INR 2 * x ^ 1) + D * (INR 3 * x ^ 2)))) by (simpl; ring).
  apply derivable_pt_lim_plus; [apply derivable_pt_lim_const|].
  apply derivable_pt_lim_plus; [apply derivable_pt_lim_scal, derivable_pt_lim_id|].
  apply derivable_pt_lim_plus; apply derivable_pt_lim_scal.
  - apply (derivable_pt_lim_pow x 2).
  - apply (derivable_pt_lim_pow x 3).
Qed.

Lemma dpl_poly_x c y z x :
  derivable_pt_lim (fun t => polynomial_equation t y z c) x (derivative_polynomial_longitude x y z c).
Proof.
  apply dpl_ext with (g := fun t =>
    (co c 0 + co c 2 * y + co c 3 * z + co c 6 * y * z + co c 8 * y^2 + co c 9 * z^2 + co c 15 * y^3
      + co c 16 * y * z^2 + co c 18 * y^2 * z + co c 19 * z^3)
    + (co c 1 + co c 4 * y + co c 5 * z + co c 10 * y * z + co c 12 * y^2 + co c 13 * z^2) * t
    + (co c 7 + co c 14 * y + co c 17 * z) * t^2 + co c 11 * t^3).
  { intros t. unfold polynomial_equation. ring. }
  eapply eq_ind; [apply dpl_cubic|]. unfold derivative_polynomial_longitude. ring.
Qed.

Lemma dpl_poly_y c x z y :
  derivable_pt_lim (fun t => polynomial_equation x t z c) y (derivative_polynomial_latitude x y z c).
Proof.
  apply dpl_ext with (g := fun t =>
    (co c 0 + co c 1 * x + co c 3 * z + co c 5 * x * z + co c 7 * x^2 + co c 9 * z^2 + co c 11 * x^3
      + co c 13 * x * z^2 + co c 17 * x^2 * z + co c 19 * z^3)
    + (co c 2 + co c 4 * x + co c 6 * z + co c 10 * x * z + co c 14 * x^2 + co c 16 * z^2) * t
    + (co c 8 + co c 12 * x + co c 18 * z) * t^2 + co c 15 * t^3).
  { intros t. unfold polynomial_equation. ring. }
  eapply eq_ind; [apply dpl_cubic|]. unfold derivative_polynomial_latitude. ring.
Qed.

Lemma dpl_norm o s x : s <> 0 -> derivable_pt_lim (fun t => (t - o) / s) x (1 / s).
Proof.
  intros Hs. apply dpl_ext with (g := (fct_cte (- o / s) + mult_real_fct (/ s) id)%F).
  { intros t. unfold plus_fct, fct_cte, mult_real_fct, id. field. assumption. }
  replace (1 / s) with (0 + / s * 1) by (field; assumption).
  apply derivable_pt_lim_plus; [apply derivable_pt_lim_const|].
  apply derivable_pt_lim_scal, derivable_pt_lim_id.
Qed.

(** Quotient of two functions of the normalised variable, scaled and shifted. *)
Lemma dpl_rational (N D : R -> R) n' d' o s S O x :
  s <> 0 -> D ((x - o) / s) <> 0 ->
  derivable_pt_lim N ((x - o) / s) n' -> derivable_pt_lim D ((x - o) / s) d' ->
  derivable_pt_lim (fun t => N ((t - o) / s) / D ((t - o) / s) * S + O) x
    (S / s * (n' * D ((x - o) / s) - d' * N ((x - o) / s)) / (D ((x - o) / s)) ^ 2).
Proof.
  intros Hs HD HN HD'.
  set (nrm := fun t => (t - o) / s).
  apply dpl_ext with (g := (mult_real_fct S (comp N nrm / comp D nrm) + fct_cte O)%F).
  { intros t. unfold plus_fct, fct_cte, mult_real_fct, div_fct, comp, nrm. ring. }
  replace (S / s * (n' * D ((x - o) / s) - d' * N ((x - o) / s)) / (D ((x - o) / s)) ^ 2)
    with (S * (((n' * (1 / s)) * comp D nrm x - (d' * (1 / s)) * comp N nrm x) / Rsqr (comp D nrm x)) + 0).
  2:{ unfold comp, nrm, Rsqr. field. split; assumption. }
  apply derivable_pt_lim_plus; [|apply derivable_pt_lim_const].
  apply derivable_pt_lim_scal. apply derivable_pt_lim_div; [| |exact HD].
  - apply derivable_pt_lim_comp; [now apply dpl_norm|exact HN].
  - apply derivable_pt_lim_comp; [now apply dpl_norm|exact HD'].
Qed.

(** ** inverse_loc and its derivatives at one finite point *)
Lemma normalise_some o s v : s <> 0 -> normalise o s (Some v) = Some ((v - o) / s).
Proof. intros H. unfold normalise, ndiv, nsub, nlift2, fin. now destruct (Req_EM_T s 0). Qed.

Lemma rational_some x y z nu de s o : polynomial_equation x y z de <> 0 ->
  rational (Some x) (Some y) (Some z) nu de s o
  = Some (polynomial_equation x y z nu / polynomial_equation x y z de * s + o).
Proof. intros H. unfold rational, ndiv, fin. destruct (Req_EM_T _ 0); [easy|reflexivity]. Qed.

Lemma checked_valid lon lat alt : lonlat_ok lon lat ->
  checked (R3 (Some lon) (Some lat) (Some alt)) = R3 (Some lon) (Some lat) (Some alt).
Proof.
  intros [H1 H2]. unfold checked.
  assert (E : lonlat_filtering (R3 (Some lon) (Some lat) (Some alt)) = false)
    by (apply filtering_spec; exists lon, lat, alt; repeat split; tauto).
  now rewrite E.
Qed.

Ltac use_cubic Hu :=
  let H1 := fresh in let H2 := fresh in let H3 := fresh in let H4 := fresh in
  pose proof (proj1 (proj2 Hu)) as H1;
  pose proof (proj1 (proj2 (proj2 Hu))) as H2;
  pose proof (proj1 (proj2 (proj2 (proj2 Hu)))) as H3;
  pose proof (proj1 (proj2 (proj2 (proj2 (proj2 Hu))))) as H4;
  rewrite <- ?(poly_cubic _ _ _ _ H1), <- ?(poly_cubic _ _ _ _ H2),
          <- ?(poly_cubic _ _ _ _ H3), <- ?(poly_cubic _ _ _ _ H4) in *.

Lemma inv_pt_finite m lon lat alt : usable_inverse m -> lonlat_ok lon lat -> regular_at m lon lat alt ->
  inv_pt m (R3 (Some lon) (Some lat) (Some alt))
  = R3 (Some (row_of m lon lat alt)) (Some (col_of m lon lat alt)) (Some alt).
Proof.
  intros Hu Hl [Hc Hr]. unfold inv_pt. rewrite checked_valid by assumption. simpl.
  unfold row_of, col_of. use_cubic Hu.
  destruct Hu as (_ & _ & _ & _ & _ & Hx & Hy & Hz).
  rewrite !normalise_some by assumption.
  unfold nx, ny, nz in *. rewrite !rational_some by assumption. reflexivity.
Qed.

Lemma cpp_inverse_loc_finite m lon lat alt : usable_inverse m -> regular_at m lon lat alt ->
  cpp_inverse_loc m (Some lon) (Some lat) (Some alt)
  = (Some (row_of m lon lat alt), Some (col_of m lon lat alt), Some alt).
Proof.
  intros Hu [Hc Hr]. unfold cpp_inverse_loc, cpp_rational_unitary, row_of, col_of. simpl.
  use_cubic Hu. destruct Hu as (_ & _ & _ & _ & _ & Hx & Hy & Hz).
  rewrite !normalise_some by assumption. unfold nx, ny, nz in *.
  unfold cpp_rational. rewrite !cpp_poly_eq. unfold ndiv, fin.
  destruct (Req_EM_T _ 0); [easy|]. destruct (Req_EM_T _ 0); [easy|]. reflexivity.
Qed.

Definition true_derivs (m : rpc) (lon lat alt : R) (a b c d : R) : Prop :=
  derivable_pt_lim (fun x => col_of m x lat alt) lon a /\
  derivable_pt_lim (fun y => col_of m lon y alt) lat b /\
  derivable_pt_lim (fun x => row_of m x lat alt) lon c /\
  derivable_pt_lim (fun y => row_of m lon y alt) lat d.

Lemma quot_some so si dn de dd nu : si <> 0 -> de <> 0 ->
  quotient_derivative so si dn de dd nu = Some (so / si * (dn * de - dd * nu) / de ^ 2).
Proof.
  intros H1 H2. unfold quotient_derivative, ndiv, nmul, nlift2, fin.
  destruct (Req_EM_T si 0); [easy|]. destruct (Req_EM_T (de ^ 2) 0) as [E|]; [|reflexivity].
  exfalso. revert E. apply pow_nonzero. assumption.
Qed.

Lemma der_pt_finite m lon lat alt : usable_inverse m -> regular_at m lon lat alt ->
  exists a b c d, der_pt m (Some lon) (Some lat) (Some alt) = (Some a, Some b, Some c, Some d) /\
    true_derivs m lon lat alt a b c d.
Proof.
  intros Hu [Hc Hr]. unfold der_pt.
  pose proof Hu as (_ & Hn1 & Hn2 & Hn3 & Hn4 & Hx & Hy & Hz).
  rewrite !normalise_some by assumption. fold (nx m lon) (ny m lat) (nz m alt).
  rewrite <- poly_cubic in Hc, Hr by assumption.
  unfold derivates_point. rewrite !quot_some by assumption.
  do 4 eexists. split; [reflexivity|]. unfold true_derivs, nx, ny, nz in *.
  repeat split.
  - eapply dpl_ext; [|apply (dpl_rational (fun t => polynomial_equation t ((lat - offset_y m) / scale_y m) ((alt - offset_alt m) / scale_alt m) (num_col m))
        (fun t => polynomial_equation t ((lat - offset_y m) / scale_y m) ((alt - offset_alt m) / scale_alt m) (den_col m)) _ _ (offset_x m) (scale_x m) (scale_col m) (offset_col m)); trivial; apply dpl_poly_x].
    intros t. unfold col_of, nx, ny, nz. rewrite !poly_cubic by assumption. reflexivity.
  - eapply dpl_ext; [|apply (dpl_rational (fun t => polynomial_equation ((lon - offset_x m) / scale_x m) t ((alt - offset_alt m) / scale_alt m) (num_col m))
        (fun t => polynomial_equation ((lon - offset_x m) / scale_x m) t ((alt - offset_alt m) / scale_alt m) (den_col m)) _ _ (offset_y m) (scale_y m) (scale_col m) (offset_col m)); trivial; apply dpl_poly_y].
    intros t. unfold col_of, nx, ny, nz. rewrite !poly_cubic by assumption. reflexivity.
  - eapply dpl_ext; [|apply (dpl_rational (fun t => polynomial_equation t ((lat - offset_y m) / scale_y m) ((alt - offset_alt m) / scale_alt m) (num_row m))
        (fun t => polynomial_equation t ((lat - offset_y m) / scale_y m) ((alt - offset_alt m) / scale_alt m) (den_row m)) _ _ (offset_x m) (scale_x m) (scale_row m) (offset_row m)); trivial; apply dpl_poly_x].
    intros t. unfold row_of, nx, ny, nz. rewrite !poly_cubic by assumption. reflexivity.
  - eapply dpl_ext; [|apply (dpl_rational (fun t => polynomial_equation ((lon - offset_x m) / scale_x m) t ((alt - offset_alt m) / scale_alt m) (num_row m))
        (fun t => polynomial_equation ((lon - offset_x m) / scale_x m) t ((alt - offset_alt m) / scale_alt m) (den_row m)) _ _ (offset_y m) (scale_y m) (scale_row m) (offset_row m)); trivial; apply dpl_poly_y].
    intros t. unfold row_of, nx, ny, nz. rewrite !poly_cubic by assumption. reflexivity.
Qed.

Lemma cpp_quot_eq so si dn de dd nu :
  cpp_quotient_derivative so si dn de dd nu = quotient_derivative so si dn de dd nu.
Proof.
  unfold cpp_quotient_derivative, quotient_derivative. now replace (de ^ 2) with (de * de) by ring.
Qed.

Lemma cpp_der_eq m lon lat alt : cpp_compute_loc_inverse_derivates m lon lat alt = der_pt m lon lat alt.
Proof.
  unfold cpp_compute_loc_inverse_derivates, der_pt, derivates_point.
  destruct (normalise (offset_x m) (scale_x m) lon), (normalise (offset_y m) (scale_y m) lat),
    (normalise (offset_alt m) (scale_alt m) alt); try reflexivity.
  rewrite !cpp_poly_eq, !cpp_dlat_eq, !cpp_dlon_eq, !cpp_quot_eq. reflexivity.
Qed.
