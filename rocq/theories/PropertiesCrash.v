(** Properties of the RPC writer when it is interrupted (C91). *)
From Coq Require Import Reals List Bool Arith Ascii String Lra.
From Verif Require Import Num NumLemmas PyStrModel ReadersModel ReadersSpec ReadersProofs WritersModel WritersSpec WritersProofs PropertiesWriters WriteCrashModel WriteCrash.
Import ListNotations.
Open Scope string_scope.

Lemma ops_cases : forall repr p filename format ops, writer_ops repr p filename format = Some ops ->
  (format = "geotiff_rpb" /\ ops = rpb_ops repr (rpc_dict_to_rio_rpcs p true) (splitext_root filename ++ ".RPB")) \/
  (format = "rpb" /\ ops = rpb_ops repr (rpc_dict_to_rio_rpcs p true) filename) \/
  (format = "json" /\ ops = json_ops repr (rpc_dict_to_rio_rpcs p true) filename).
Proof.
  intros repr p filename format ops H. unfold writer_ops in H.
  destruct (existsb (String.eqb format) available_formats) eqn:E; [|discriminate]. apply existsb_exists in E as (f & Hf & E). apply String.eqb_eq in E. subst f.
  destruct Hf as [<-|[<-|[<-|[<-|[]]]]]; cbv beta iota delta [negb] in H.
  - discriminate.
  - left. split; [reflexivity|]. change (Some (rpb_ops repr (rpc_dict_to_rio_rpcs p true) (splitext_root filename ++ ".RPB")) = Some ops) in H. congruence.
  - right; left. split; [reflexivity|]. change (Some (rpb_ops repr (rpc_dict_to_rio_rpcs p true) filename) = Some ops) in H. congruence.
  - right; right. split; [reflexivity|]. change (Some (json_ops repr (rpc_dict_to_rio_rpcs p true) filename) = Some ops) in H. congruence.
Qed.
Lemma json_writes : forall repr r p, json_ops repr r p = Open p :: map (Write p) [json_text repr (json_fields r)].
Proof. reflexivity. Qed.

(** ** C91: interrupted writes *)
(** Without an interruption, the calls leave the files that C41 and C42 are about. *)
Theorem C91_complete_rpb :
  forall repr (s : fs) p filename format override ops, In format ["rpb"; "geotiff_rpb"] -> writer_ops repr p filename format = Some ops ->
    exists s', rpc_writer repr s p filename format override = (s', Ok tt) /\ forall n, apply_ops s ops n = s' n.
Proof.
  intros repr s p filename format override ops Hf H. destruct (ops_cases _ _ _ _ _ H) as [[-> ->]|[[-> ->]|[-> _]]].
  - eexists. split; [reflexivity|]. intro n. rewrite rpb_writes, file_all, rpb_join. reflexivity.
  - eexists. split; [reflexivity|]. intro n. rewrite rpb_writes, file_all, rpb_join. reflexivity.
  - exfalso. destruct Hf as [Hf|[Hf|[]]]; discriminate.
Qed.
Theorem C91_complete_json :
  forall repr (s : fs) p filename override ops, writer_ops repr p filename "json" = Some ops ->
    exists s' l, rpc_writer repr s p filename "json" override = (s', Ok tt) /\ s' filename = Some (JsonFile l) /\
      apply_ops s ops filename = Some (TextFile (json_text repr l)) /\ forall n, n <> filename -> apply_ops s ops n = s' n.
Proof.
  intros repr s p filename override ops H. destruct (ops_cases _ _ _ _ _ H) as [[E _]|[[E _]|[_ ->]]]; [discriminate|discriminate|].
  eexists _, (json_fields (rpc_dict_to_rio_rpcs p true)). split; [reflexivity|]. split; [apply set_same|]. rewrite json_writes.
  split; [rewrite file_all, set_same; cbn [join]; now rewrite app_nil|]. intros n Hn. rewrite file_all. unfold write_rio_rpc_as_json. now rewrite !set_other.
Qed.

(** Wherever the writer stops, the other files are as they were. *)
Theorem C91_other_files :
  forall repr (s s' : fs) p filename format ops rpb, writer_ops repr p filename format = Some ops -> rpb_beside filename rpb -> stops s ops s' ->
    forall n, n <> (if String.eqb format "geotiff_rpb" then rpb else filename) -> s' n = s n.
Proof.
  intros repr s s' p filename format ops rpb H Hr St n Hn. destruct (ops_cases _ _ _ _ _ H) as [[-> ->]|[[-> ->]|[-> ->]]].
  - change (n <> rpb) in Hn. rewrite (splitext_beside _ _ Hr), rpb_writes in St. now apply (file_stop _ _ _ _ St).
  - change (n <> filename) in Hn. rewrite rpb_writes in St. now apply (file_stop _ _ _ _ St).
  - change (n <> filename) in Hn. rewrite json_writes in St. now apply (file_stop _ _ _ _ St).
Qed.

(** Wherever it stops, an RPB file is the one that was there, or it holds no RPCs, or the ones of [p]: never a
    model with a truncated number or a shorter list of coefficients. *)
Theorem C91_interrupted_rpb :
  forall pyfloat repr (s s' : fs) p filename format ops rpb, prints pyfloat repr p -> rpb_beside filename rpb ->
    In format ["rpb"; "geotiff_rpb"] -> writer_ops repr p filename format = Some ops -> stops s ops s' ->
    let target := if String.eqb format "geotiff_rpb" then rpb else filename in
    s' target = s target \/
    exists text, s' target = Some (TextFile text) /\
      forall r, describes_rpb pyfloat text r -> same_inverse_model p (convert_rio_rpc_to_rpc_dict r true).
Proof.
  intros pyfloat repr s s' p filename format ops rpb Hp Hr Hf H St target. destruct (rpb_back _ _ _ Hp) as [D U].
  assert (K : ops = rpb_ops repr (rpc_dict_to_rio_rpcs p true) target).
  { destruct (ops_cases _ _ _ _ _ H) as [[-> ->]|[[-> ->]|[-> _]]]; [subst target; cbv beta iota; now rewrite (splitext_beside _ _ Hr)|reflexivity|].
    exfalso. destruct Hf as [Hf|[Hf|[]]]; discriminate. }
  subst ops. rewrite rpb_writes in St. destruct (file_stop _ _ _ _ St) as [[->|(t & rest & E & J)] _]; [now left|right].
  exists t. split; [exact E|]. intros r R. rewrite rpb_join in J. apply U. rewrite J in D. now rewrite <- (describes_cut _ _ _ _ _ D R), <- J in *.
Qed.
(** Wherever it stops, a JSON file is the one that was there, or the complete one, or it has no closing brace:
    it is not a JSON object. *)
Theorem C91_interrupted_json :
  forall repr (s s' : fs) p filename ops,
    (forall x, In x ([nsub (p_off_row p) (fin (1 / 2)); nsub (p_off_col p) (fin (1 / 2)); p_scale_row p; p_scale_col p;
                      p_off_x p; p_scale_x p; p_off_y p; p_scale_y p; p_off_alt p; p_scale_alt p]
                     ++ p_num_row p ++ p_den_row p ++ p_num_col p ++ p_den_col p)%list -> ~ In "}"%char (list_ascii_of_string (repr x))) ->
    writer_ops repr p filename "json" = Some ops -> stops s ops s' ->
    s' filename = s filename \/ s' filename = apply_ops s ops filename \/
    exists text, s' filename = Some (TextFile text) /\ ~ In "}"%char (list_ascii_of_string text).
Proof.
  assert (NB : forall t, no_brace t <-> ~ In "}"%char (list_ascii_of_string t)).
  { induction t as [|c t IH]; unfold no_brace in *; simpl; [tauto|]. rewrite IH. intuition. }
  intros repr s s' p filename ops Hx H St. destruct (ops_cases _ _ _ _ _ H) as [[E _]|[[E _]|[_ ->]]]; [discriminate|discriminate|].
  rewrite json_writes in *. destruct (file_stop _ _ _ _ St) as [[->|(t & rest & E & J)] _]; [now left|right].
  cbn [join] in J. rewrite app_nil in J. unfold json_text in J.
  assert (M : no_brace ("{" ++ json_members repr (json_fields (rpc_dict_to_rio_rpcs p true)) ++ newline)).
  { apply no_brace_cat; [simpl; split; [discriminate|exact I]|]. apply no_brace_cat; [|simpl; split; [discriminate|exact I]].
    assert (R : forall k v x, In (k, v) (json_fields (rpc_dict_to_rio_rpcs p true)) -> In x (value_numbers v) -> no_brace (repr x)).
    { intros k v x Hk Hv. apply NB, Hx. unfold json_fields, rpc_dict_to_rio_rpcs in Hk.
      cbn [line_off samp_off lat_off long_off height_off line_scale samp_scale lat_scale long_scale height_scale line_num_coeff line_den_coeff samp_num_coeff samp_den_coeff] in Hk.
      rewrite !in_app_iff. cbn [In] in Hk |- *.
      repeat (destruct Hk as [Hk|Hk]; [injection Hk as _ <-; cbn [value_numbers In] in Hv; tauto|]). destruct Hk. }
    apply members_no_brace; [|exact R].
    intros k v Hk. unfold json_fields in Hk. repeat (destruct Hk as [Hk|Hk]; [injection Hk as <- _; simpl; repeat split; discriminate|]). destruct Hk. }
  replace ("{" ++ json_members repr (json_fields (rpc_dict_to_rio_rpcs p true)) ++ newline ++ "}") with
    (("{" ++ json_members repr (json_fields (rpc_dict_to_rio_rpcs p true)) ++ newline) ++ "}") in J by now rewrite !sapp_assoc.
  destruct (brace_end _ _ _ (eq_sym J) M) as [N|[-> ->]].
  - right. exists t. split; [exact E|now apply NB].
  - left. rewrite E, file_all, set_same. cbn [join]. rewrite app_nil. unfold json_text. now rewrite !sapp_assoc.
Qed.

(** The old file is not kept until the new one is complete: for every format that is written here, an
    interruption may leave a target that is neither, and that holds no RPCs. *)
Theorem C91_old_file_refuted :
  forall pyfloat repr (s : fs) p filename format ops rpb, writer_ops repr p filename format = Some ops -> rpb_beside filename rpb ->
    let target := if String.eqb format "geotiff_rpb" then rpb else filename in
    exists s', stops s ops s' /\ s' target = Some (TextFile "") /\ apply_ops s ops target <> Some (TextFile "") /\
      forall r, ~ describes_rpb pyfloat "" r.
Proof.
  intros pyfloat repr s p filename format ops rpb H Hr target.
  assert (ND : forall r, ~ describes_rpb pyfloat "" r).
  { intros r ((t & (b & a & W & _) & _) & _). pose proof (words_fun _ _ _ W w_end) as E. destruct b; discriminate. }
  assert (G : forall xs, ops = Open target :: map (Write target) xs -> join xs <> "" ->
    exists s', stops s ops s' /\ s' target = Some (TextFile "") /\ apply_ops s ops target <> Some (TextFile "") /\ forall r, ~ describes_rpb pyfloat "" r).
  { intros xs -> J. exists (apply_op s (Open target)). split; [apply stop_later, stop_here|]. split; [apply set_same|]. split; [|exact ND].
    rewrite file_all, set_same. congruence. }
  destruct (ops_cases _ _ _ _ _ H) as [[-> ->]|[[-> ->]|[-> ->]]].
  - apply (G (rpb_chunks repr (rpc_dict_to_rio_rpcs p true))); [rewrite rpb_writes; subst target; cbv beta iota; now rewrite (splitext_beside _ _ Hr)|].
    rewrite rpb_join. discriminate.
  - apply (G (rpb_chunks repr (rpc_dict_to_rio_rpcs p true))); [rewrite rpb_writes; reflexivity|]. rewrite rpb_join. discriminate.
  - apply (G [json_text repr (json_fields (rpc_dict_to_rio_rpcs p true))]); [reflexivity|]. discriminate.
Qed.

(** The dictionary of C41, over a file that holds something, stopped in the middle of its second line. *)
Example C91_example_files : fs := fun n => if String.eqb n "dir.d/img.RPB" then Some (Other 7) else if String.eqb n "dir.d/img.tif" then Some (Raster None 3) else None.
Example C91_example_ops : exists ops, writer_ops ex_repr ex_params "dir.d/img.tif" "geotiff_rpb" = Some ops /\ prints ex_parse ex_repr ex_params /\
  rpb_beside "dir.d/img.tif" "dir.d/img.RPB" /\
  exists s', stops C91_example_files ops s' /\ s' "dir.d/img.tif" = Some (Raster None 3) /\
    s' "dir.d/img.RPB" = Some (TextFile (("satId =  'UNKNOWN';" ++ newline) ++ "ban")).
Proof.
  eexists. split; [reflexivity|]. split; [exact C41_example_prints|]. split.
  { left. exists "dir.d/img", "tif". split; [|reflexivity]. split; [reflexivity|]. split; [simpl; repeat split; discriminate|].
    exists "dir.d/im", "g"%char, "". repeat split; discriminate. }
  eexists. split; [unfold rpb_ops; apply stop_later, stop_later, (stop_inside _ _ "ban" ("dId = 'P';" ++ newline))|]. split; reflexivity.
Qed.
Example C91_example_json : exists ops, writer_ops ex_repr ex_params "m.json" "json" = Some ops /\
  (forall x, ~ In "}"%char (list_ascii_of_string (ex_repr x))) /\
  apply_ops C91_example_files ops "m.json" <> None.
Proof.
  eexists. split; [reflexivity|]. split; [|discriminate].
  intros [x|]; unfold ex_repr; [destruct (Reqb x 1); [|destruct (Reqb x (-5 / 2))]|]; simpl; intuition discriminate.
Qed.
