(** Properties of the RPC writer (C41, C42) and of the converter (C62). *)
From Coq Require Import Reals List Bool Arith Ascii String Lra.
From Verif Require Import Num NumLemmas PyStrModel ReadersModel ReadersSpec ReadersProofs WritersModel WritersSpec WritersProofs.
Import ListNotations.
Open Scope string_scope.

Lemma half_back : forall x, nadd (nsub x (fin (1 / 2))) (fin (1 / 2)) = x.
Proof. intros [x|]; [|reflexivity]. unfold nadd, nsub, nlift2, fin. simpl. f_equal. lra. Qed.
Lemma convert_back : forall p, same_inverse_model p (convert_rio_rpc_to_rpc_dict (rpc_dict_to_rio_rpcs p true) true).
Proof.
  intros []. unfold same_inverse_model, convert_rio_rpc_to_rpc_dict, rpc_dict_to_rio_rpcs, half; simpl. rewrite !half_back.
  do 13 (split; [reflexivity|]). reflexivity.
Qed.
Lemma fs_set_same : forall s n c, fs_set s n c n = Some c.
Proof. intros. unfold fs_set. now rewrite String.eqb_refl. Qed.
Lemma fs_set_other : forall s n m c, m <> n -> fs_set s n c m = s m.
Proof. intros s n m c H. unfold fs_set. destruct (String.eqb_spec m n); [contradiction|reflexivity]. Qed.

(** ** C41: writing then reading *)
(** In an image that has no RPC, or with [override]. *)
Theorem C41_geotiff :
  forall pyfloat repr xml lines (s : fs) p filename override rpcs rest,
    s filename = Some (Raster rpcs rest) -> (rpcs = None \/ override = true) ->
    exists s' q, rpc_writer repr s p filename "geotiff" override = (s', Ok tt) /\
      rpc_reader pyfloat filename (view_of xml lines (s' filename)) true = Ok q /\ same_inverse_model p q.
Proof.
  intros pyfloat repr xml lines s p filename override rpcs rest Hf Ho.
  exists (fs_set s filename (Raster (Some (rpc_dict_to_rio_rpcs p true)) rest)), (convert_rio_rpc_to_rpc_dict (rpc_dict_to_rio_rpcs p true) true).
  split; [|split; [rewrite fs_set_same; reflexivity|apply convert_back]].
  change (geotiff_rpc_updater repr s (rpc_dict_to_rio_rpcs p true) filename false override = (fs_set s filename (Raster (Some (rpc_dict_to_rio_rpcs p true)) rest), Ok tt)).
  unfold geotiff_rpc_updater. rewrite Hf. destruct Ho as [ -> | -> ]; [reflexivity|]. destruct rpcs; reflexivity.
Qed.

(** An RPB file: whatever reads its statements finds one set of RPCs, and these RPCs give the model back. *)
Lemma rpb_back : forall pyfloat repr p, prints pyfloat repr p ->
  describes_rpb pyfloat (rpb_text repr (rpc_dict_to_rio_rpcs p true)) (rpc_dict_to_rio_rpcs p true) /\
  forall r, describes_rpb pyfloat (rpb_text repr (rpc_dict_to_rio_rpcs p true)) r -> same_inverse_model p (convert_rio_rpc_to_rpc_dict r true).
Proof.
  intros pyfloat repr p Hp.
  assert (D : describes_rpb pyfloat (rpb_text repr (rpc_dict_to_rio_rpcs p true)) (rpc_dict_to_rio_rpcs p true)).
  { apply rpb_describes. intros x Hx. apply Hp. unfold rio_numbers, rpc_dict_to_rio_rpcs in Hx.
    cbn [line_off samp_off lat_off long_off height_off line_scale samp_scale lat_scale long_scale height_scale line_num_coeff line_den_coeff samp_num_coeff samp_den_coeff] in Hx.
    rewrite !in_app_iff in Hx |- *. cbn [In] in Hx |- *. tauto. }
  split; [exact D|]. intros r Hr. rewrite <- (describes_rpb_fun _ _ _ _ D Hr). apply convert_back.
Qed.
Theorem C41_rpb :
  forall pyfloat repr (s : fs) p filename override, prints pyfloat repr p ->
    exists s' text, rpc_writer repr s p filename "rpb" override = (s', Ok tt) /\ s' filename = Some (TextFile text) /\
      (exists r, describes_rpb pyfloat text r) /\
      forall r xml lines, describes_rpb pyfloat text r ->
        exists q, rpc_reader pyfloat filename (mkView (Some (Some r)) xml lines) true = Ok q /\ same_inverse_model p q.
Proof.
  intros pyfloat repr s p filename override Hp. destruct (rpb_back _ _ _ Hp) as [D U].
  eexists _, (rpb_text repr (rpc_dict_to_rio_rpcs p true)). split; [reflexivity|]. split; [apply fs_set_same|]. split; [eexists; exact D|].
  intros r xml lines Hr. eexists. split; [reflexivity|]. now apply U.
Qed.
(** The RPB file beside an image. *)
Theorem C41_geotiff_rpb :
  forall pyfloat repr (s : fs) p filename name override, prints pyfloat repr p -> rpb_beside filename name ->
    exists s' text, rpc_writer repr s p filename "geotiff_rpb" override = (s', Ok tt) /\ s' name = Some (TextFile text) /\
      (exists r, describes_rpb pyfloat text r) /\
      forall r xml lines, describes_rpb pyfloat text r ->
        exists q, rpc_reader pyfloat filename (mkView (Some (Some r)) xml lines) true = Ok q /\ same_inverse_model p q.
Proof.
  intros pyfloat repr s p filename name override Hp Hn. destruct (rpb_back _ _ _ Hp) as [D U].
  eexists _, (rpb_text repr (rpc_dict_to_rio_rpcs p true)). split; [reflexivity|]. split.
  { unfold write_rio_rpc_as_rpb. rewrite (splitext_beside _ _ Hn). apply fs_set_same. }
  split; [eexists; exact D|]. intros r xml lines Hr. eexists. split; [reflexivity|]. now apply U.
Qed.
(** A JSON file. *)
Lemma field_fun : forall l k v w, field l k v -> field l k w -> v = w.
Proof.
  intros l k v w [A N] [B _]. induction l as [|[a b] l IH]; [destruct A|]. simpl in N. inversion N as [|x y Hx Hy]; subst.
  destruct A as [A|A], B as [B|B].
  - congruence.
  - injection A as -> ->. exfalso. apply Hx. exact (in_map fst _ _ B).
  - injection B as -> ->. exfalso. apply Hx. exact (in_map fst _ _ A).
  - auto.
Qed.
Lemma json_describes : forall r, describes_json (json_fields r) r.
Proof.
  intro r. assert (N : NoDup (map fst (json_fields r))).
  { unfold json_fields. cbn [map fst]. repeat (constructor; [let K := fresh in intro K; repeat (destruct K as [K|K]; [discriminate K|]); exact K|]). constructor. }
  unfold describes_json, field. repeat match goal with |- _ /\ NoDup _ => split; [unfold json_fields; cbn [In]; tauto|exact N] | |- _ => split end.
Qed.
Theorem C41_json :
  forall repr (s : fs) p filename override,
    exists s' l, rpc_writer repr s p filename "json" override = (s', Ok tt) /\ s' filename = Some (JsonFile l) /\
      (exists r, describes_json l r) /\
      forall r, describes_json l r -> same_inverse_model p (convert_rio_rpc_to_rpc_dict r true).
Proof.
  intros repr s p filename override. eexists _, (json_fields (rpc_dict_to_rio_rpcs p true)). split; [reflexivity|]. split; [apply fs_set_same|].
  split; [eexists; apply json_describes|]. intros r Hr. replace r with (rpc_dict_to_rio_rpcs p true); [apply convert_back|].
  assert (D := json_describes (rpc_dict_to_rio_rpcs p true)). set (l := json_fields (rpc_dict_to_rio_rpcs p true)) in *. clearbody l.
  destruct Hr as (A1 & A2 & A3 & A4 & A5 & A6 & A7 & A8 & A9 & A10 & A11 & A12 & A13 & A14).
  destruct D as (B1 & B2 & B3 & B4 & B5 & B6 & B7 & B8 & B9 & B10 & B11 & B12 & B13 & B14).
  set (r0 := rpc_dict_to_rio_rpcs p true) in *. clearbody r0.
  pose proof (field_fun _ _ _ _ A1 B1) as E1. pose proof (field_fun _ _ _ _ A2 B2) as E2. pose proof (field_fun _ _ _ _ A3 B3) as E3.
  pose proof (field_fun _ _ _ _ A4 B4) as E4. pose proof (field_fun _ _ _ _ A5 B5) as E5. pose proof (field_fun _ _ _ _ A6 B6) as E6.
  pose proof (field_fun _ _ _ _ A7 B7) as E7. pose proof (field_fun _ _ _ _ A8 B8) as E8. pose proof (field_fun _ _ _ _ A9 B9) as E9.
  pose proof (field_fun _ _ _ _ A10 B10) as E10. pose proof (field_fun _ _ _ _ A11 B11) as E11. pose proof (field_fun _ _ _ _ A12 B12) as E12.
  pose proof (field_fun _ _ _ _ A13 B13) as E13. pose proof (field_fun _ _ _ _ A14 B14) as E14.
  clear - E1 E2 E3 E4 E5 E6 E7 E8 E9 E10 E11 E12 E13 E14. destruct r, r0; simpl in *. congruence.
Qed.
(** What comes back has no direct coefficients, whatever was written. *)
Theorem C41_direct_coefficients_refuted :
  exists pyfloat repr xml lines (s s' : fs) p q filename,
    rpc_writer repr s p filename "geotiff" false = (s', Ok tt) /\
    rpc_reader pyfloat filename (view_of xml lines (s' filename)) true = Ok q /\
    p_num_x p <> None /\ p_num_x q <> p_num_x p.
Proof.
  set (p := mkParams "dimap_v2" (fin 1) (fin 2) (fin 3) (fin 4) (fin 5) (fin 6) (fin 7) (fin 8) (fin 9) (fin 10) [fin 1] [fin 1] [fin 1] [fin 1]
    (Some [fin 1]) (Some [fin 1]) (Some [fin 1]) (Some [fin 1])).
  destruct (C41_geotiff (fun _ => None) (fun _ => "") (fun _ => None) (fun _ => None)
    (fun n => if String.eqb n "a.tif" then Some (Raster None 0) else None) p "a.tif" false None 0%nat eq_refl (or_introl eq_refl)) as (s' & q & W & Rd & _).
  exists (fun _ => None), (fun _ => ""), (fun _ => None), (fun _ => None), (fun n => if String.eqb n "a.tif" then Some (Raster None 0) else None), s', p, q, "a.tif".
  split; [exact W|]. split; [exact Rd|]. split; [discriminate|].
  assert (E : rpc_writer (fun _ => "") (fun n => if String.eqb n "a.tif" then Some (Raster None 0) else None) p "a.tif" "geotiff" false =
    (fs_set (fun n => if String.eqb n "a.tif" then Some (Raster None 0) else None) "a.tif" (Raster (Some (rpc_dict_to_rio_rpcs p true)) 0), Ok tt)) by reflexivity.
  rewrite E in W. apply (f_equal fst) in W. cbv beta iota delta [fst] in W. rewrite <- W, fs_set_same in Rd.
  apply (f_equal (fun r => match r with Ok x => p_num_x x | Err _ => None end)) in Rd. cbv beta iota in Rd. rewrite <- Rd. discriminate.
Qed.

(** A dictionary, and a printer of its numbers. *)
Definition ex_repr (x : num) : string :=
  match x with Some v => if Reqb v 1 then "1.0" else if Reqb v (-5 / 2) then "-2.5" else "1e-07" | None => "nan" end.
Definition ex_parse (s : string) : option num :=
  if String.eqb s "1.0" then Some (fin 1) else if String.eqb s "-2.5" then Some (fin (-5 / 2)) else if String.eqb s "1e-07" then Some (fin (1 / 10 ^ 7))
  else if String.eqb s "nan" then Some nan else None.
Definition ex_params : rpc_params :=
  mkParams "dimap_v2" (fin (3 / 2)) (fin (-2)) (fin 1) (fin (1 / 10 ^ 7)) (fin 1) (fin (-5 / 2)) (fin 1) (fin 1) (fin (1 / 10 ^ 7)) (fin 1)
    [fin 1; fin (-5 / 2); nan] [fin (1 / 10 ^ 7)] [] [fin 1; fin 1] (Some [fin 1]) None None None.
Example C41_example_prints : prints ex_parse ex_repr ex_params.
Proof.
  assert (A : forall x, x = fin 1 \/ x = fin (-5 / 2) \/ x = fin (1 / 10 ^ 7) \/ x = nan -> is_text_of ex_parse (ex_repr x) x).
  { assert (T : forall s, s = "1.0" \/ s = "-2.5" \/ s = "1e-07" \/ s = "nan" -> number_text s).
    { intros t [ -> | [ -> | [ -> | -> ]]]; (split; [discriminate|]); unfold number_char; simpl; tauto. }
    intros x [ -> | [ -> | [ -> | -> ]]]; unfold ex_repr, fin, nan.
    - replace (Reqb 1 1) with true by (symmetry; apply Reqb_true; lra). split; [apply T; auto|reflexivity].
    - replace (Reqb (-5 / 2) 1) with false by (symmetry; apply Reqb_false; lra). replace (Reqb (-5 / 2) (-5 / 2)) with true by (symmetry; apply Reqb_true; lra).
      split; [apply T; auto|reflexivity].
    - replace (Reqb (1 / 10 ^ 7) 1) with false by (symmetry; apply Reqb_false; lra). replace (Reqb (1 / 10 ^ 7) (-5 / 2)) with false by (symmetry; apply Reqb_false; lra).
      split; [apply T; auto|reflexivity].
    - split; [apply T; auto|reflexivity]. }
  intros x Hx. apply A. simpl in Hx. unfold nsub, nlift2, fin, nan in *. simpl in Hx.
  repeat (destruct Hx as [<-|Hx]; [first [now left | now right; left | now right; right; left | now right; right; right | left; f_equal; lra | right; left; f_equal; lra]|]).
  destruct Hx.
Qed.
Example C41_example_name : rpb_beside "dir.d/img.v1.tif" "dir.d/img.v1.RPB" /\ rpb_beside "dir.d/img" "dir.d/img.RPB".
Proof.
  split; [left; exists "dir.d/img.v1", "tif"; split; [|reflexivity]|right; split; [|reflexivity]].
  - split; [reflexivity|]. split; [simpl; repeat split; discriminate|]. exists "dir.d/img.v", "1"%char, "". repeat split; discriminate.
  - intros root ext H. assert (K := H). apply splitext_some in K. change (splitext_root "dir.d/img") with "dir.d/img" in K. subst root.
    destruct H as [E _]. apply (f_equal String.length) in E. simpl in E. discriminate E.
Qed.

(** ** C42: what the writer changes *)
Theorem C42_unknown_format :
  forall repr (s : fs) p filename format override, ~ In format ["geotiff"; "geotiff_rpb"; "rpb"; "json"] ->
    rpc_writer repr s p filename format override = (s, Err ValueError).
Proof.
  intros repr s p filename format override H. unfold rpc_writer.
  replace (existsb (String.eqb format) available_formats) with false; [reflexivity|]. symmetry. apply Bool.not_true_iff_false. intro K.
  apply existsb_exists in K as (f & Hf & E). apply String.eqb_eq in E. subst f. contradiction.
Qed.
(** The four formats, as results. *)
Lemma writer_cases : forall repr s p filename format override s' res, rpc_writer repr s p filename format override = (s', res) ->
  (~ In format available_formats /\ s' = s /\ res = Err ValueError) \/
  (format = "geotiff" /\ geotiff_rpc_updater repr s (rpc_dict_to_rio_rpcs p true) filename false override = (s', res)) \/
  (format = "geotiff_rpb" /\ s' = fs_set s (splitext_root filename ++ ".RPB") (TextFile (rpb_text repr (rpc_dict_to_rio_rpcs p true))) /\ res = Ok tt) \/
  (format = "rpb" /\ s' = fs_set s filename (TextFile (rpb_text repr (rpc_dict_to_rio_rpcs p true))) /\ res = Ok tt) \/
  (format = "json" /\ s' = fs_set s filename (JsonFile (json_fields (rpc_dict_to_rio_rpcs p true))) /\ res = Ok tt).
Proof.
  intros repr s p filename format override s' res H.
  destruct (in_dec string_dec format available_formats) as [I|N].
  - right. destruct I as [<-|[<-|[<-|[<-|[]]]]].
    + left. split; [reflexivity|exact H].
    + right; left. split; [reflexivity|]. apply pair_equal_spec in H as [<- <-]. auto.
    + right; right; left. split; [reflexivity|]. apply pair_equal_spec in H as [<- <-]. auto.
    + right; right; right. split; [reflexivity|]. apply pair_equal_spec in H as [<- <-]. auto.
  - left. rewrite (C42_unknown_format repr s p filename format override N) in H. apply pair_equal_spec in H as [<- <-]. auto.
Qed.
(** Only one file changes: the one that is named, or the RPB file beside it. *)
Theorem C42_only_the_target_changes :
  forall repr (s s' : fs) p filename format override res rpb, rpc_writer repr s p filename format override = (s', res) -> rpb_beside filename rpb ->
    forall n, n <> (if String.eqb format "geotiff_rpb" then rpb else filename) -> s' n = s n.
Proof.
  intros repr s s' p filename format override res rpb H Hr n Hn.
  destruct (writer_cases _ _ _ _ _ _ _ _ H) as [(_ & -> & _)|[[-> G]|[(-> & -> & _)|[(-> & -> & _)|(-> & -> & _)]]]]; [reflexivity| | | |].
  - change (n <> filename) in Hn. unfold geotiff_rpc_updater in G.
    destruct (s filename) as [[rpcs rest| | |]|]; try (apply pair_equal_spec in G as [<- _]; reflexivity).
    destruct (match rpcs with Some _ => negb override | None => false end); apply pair_equal_spec in G as [<- _]; [reflexivity|now apply fs_set_other].
  - change (n <> rpb) in Hn. rewrite (splitext_beside _ _ Hr). now apply fs_set_other.
  - now apply fs_set_other.
  - now apply fs_set_other.
Qed.
(** An exception leaves every file as it was. *)
Theorem C42_exception_changes_nothing :
  forall repr (s s' : fs) p filename format override e, rpc_writer repr s p filename format override = (s', Err e) -> forall n, s' n = s n.
Proof.
  intros repr s s' p filename format override e H n.
  destruct (writer_cases _ _ _ _ _ _ _ _ H) as [(_ & -> & _)|[[-> G]|[(_ & _ & K)|[(_ & _ & K)|(_ & _ & K)]]]]; try discriminate K; [reflexivity|].
  unfold geotiff_rpc_updater in G.
  destruct (s filename) as [[rpcs rest| | |]|]; try (apply pair_equal_spec in G as [<- _]; reflexivity).
  destruct (match rpcs with Some _ => negb override | None => false end); apply pair_equal_spec in G as [<- K]; [reflexivity|discriminate K].
Qed.
(** The RPCs of an image are replaced only with [override]; its pixels stay. *)
Theorem C42_geotiff_partial :
  forall repr (s s' : fs) p filename override res old rest, s filename = Some (Raster (Some old) rest) ->
    rpc_writer repr s p filename "geotiff" override = (s', res) ->
    (override = false -> res = Err RuntimeError /\ forall n, s' n = s n) /\
    (override = true -> res = Ok tt /\ exists new, s' filename = Some (Raster (Some new) rest)).
Proof.
  intros repr s s' p filename override res old rest Hf H.
  change (geotiff_rpc_updater repr s (rpc_dict_to_rio_rpcs p true) filename false override = (s', res)) in H.
  unfold geotiff_rpc_updater in H. rewrite Hf in H. split; intros ->; apply pair_equal_spec in H as [<- <-]; (split; [reflexivity|]).
  - reflexivity.
  - eexists. apply fs_set_same.
Qed.
(** The other formats replace an existing file without [override], whatever it holds. *)
Theorem C42_never_overwrites_refuted :
  forall repr p format, In format ["geotiff_rpb"; "rpb"; "json"] ->
    exists (s s' : fs) filename name c, s name = Some c /\ rpc_writer repr s p filename format false = (s', Ok tt) /\ s' name <> Some c.
Proof.
  intros repr p format H. exists (fun n => if String.eqb n "a.RPB" then Some (Other 0) else None).
  destruct H as [<-|[<-|[<-|[]]]]; eexists _, "a.RPB", "a.RPB", (Other 0); (split; [reflexivity|split; [reflexivity|]]).
  - change (fs_set (fun n => if String.eqb n "a.RPB" then Some (Other 0) else None) "a.RPB" (TextFile (rpb_text repr (rpc_dict_to_rio_rpcs p true))) "a.RPB" <> Some (Other 0)).
    rewrite fs_set_same. discriminate.
  - unfold write_rio_rpc_as_rpb. rewrite fs_set_same. discriminate.
  - unfold write_rio_rpc_as_json. rewrite fs_set_same. discriminate.
Qed.
(** A file that is missing, or that is not an image, is ignored without an exception. *)
Theorem C42_raises_otherwise_refuted :
  forall repr (s : fs) p filename override, (forall rpcs rest, s filename <> Some (Raster rpcs rest)) ->
    rpc_writer repr s p filename "geotiff" override = (s, Ok tt).
Proof.
  intros repr s p filename override H. change (geotiff_rpc_updater repr s (rpc_dict_to_rio_rpcs p true) filename false override = (s, Ok tt)).
  unfold geotiff_rpc_updater. destruct (s filename) as [[rpcs rest| | |]|]; try reflexivity. now destruct (H rpcs rest).
Qed.
Example C42_example : exists (s : fs) old, s "a.tif" = Some (Raster (Some old) 7) /\ rpb_beside "a.tif" "a.RPB" /\ ~ In "tif" ["geotiff"; "geotiff_rpb"; "rpb"; "json"] /\
  forall rpcs rest, s "b.tif" <> Some (Raster rpcs rest).
Proof.
  exists (fun n => if String.eqb n "a.tif" then Some (Raster (Some (rpc_dict_to_rio_rpcs ex_params true)) 7) else None). eexists.
  split; [reflexivity|]. split; [|split; [intros [K|[K|[K|[K|[]]]]]; discriminate K|discriminate]].
  left. exists "a", "tif". split; [|reflexivity]. split; [reflexivity|]. split; [simpl; repeat split; discriminate|]. exists "", "a"%char, "". repeat split; discriminate.
Qed.

(** ** C62: the converter *)
(** The image that is written holds the model that the input holds. *)
Theorem C62_converted_model :
  forall pyfloat repr xml lines (s : fs) input output override p rpcs rest,
    rpc_reader pyfloat input (view_of xml lines (s input)) true = Ok p ->
    s output = Some (Raster rpcs rest) -> (rpcs = None \/ override = true) ->
    exists s' q, rpc_converter repr pyfloat xml lines s input output "geotiff" override = (s', Ok tt) /\
      rpc_reader pyfloat output (view_of xml lines (s' output)) true = Ok q /\ same_inverse_model p q.
Proof.
  intros pyfloat repr xml lines s input output override p rpcs rest Hr Hf Ho.
  destruct (C41_geotiff pyfloat repr xml lines s p output override rpcs rest Hf Ho) as (s' & q & W & Rd & S). exists s', q.
  unfold rpc_converter. rewrite Hr. auto.
Qed.
(** An input that cannot be read changes nothing; otherwise the input file, when it is not the target, stays. *)
Theorem C62_files :
  forall pyfloat repr xml lines (s s' : fs) input output rpb format override res,
    rpc_converter repr pyfloat xml lines s input output format override = (s', res) -> rpb_beside output rpb ->
    (forall e, res = Err e -> forall n, s' n = s n) /\
    (forall e, rpc_reader pyfloat input (view_of xml lines (s input)) true = Err e -> res = Err e) /\
    (input <> (if String.eqb format "geotiff_rpb" then rpb else output) -> s' input = s input).
Proof.
  intros pyfloat repr xml lines s s' input output rpb format override res H Hr. unfold rpc_converter in H.
  destruct (rpc_reader pyfloat input (view_of xml lines (s input)) true) as [p|e].
  - split; [|split; [discriminate|]].
    + intros e ->. exact (C42_exception_changes_nothing _ _ _ _ _ _ _ _ H).
    + intro N. exact (C42_only_the_target_changes _ _ _ _ _ _ _ _ _ H Hr _ N).
  - apply pair_equal_spec in H as [<- <-]. split; [reflexivity|]. split; [intros e' E; now injection E as ->|reflexivity].
Qed.
Example C62_example : exists pyfloat xml lines (s : fs) p,
  rpc_reader pyfloat "a.tif" (view_of xml lines (s "a.tif")) true = Ok p /\ s "b.tif" = Some (Raster None 3) /\ p_off_row p = fin (3 / 2).
Proof.
  exists (fun _ => None), (fun _ => None), (fun _ => None),
    (fun n => if String.eqb n "a.tif" then Some (Raster (Some (rpc_dict_to_rio_rpcs ex_params true)) 7) else if String.eqb n "b.tif" then Some (Raster None 3) else None).
  eexists. split; [reflexivity|]. split; [reflexivity|]. unfold ex_params, nadd, nsub, nlift2, fin; simpl. f_equal. lra.
Qed.
