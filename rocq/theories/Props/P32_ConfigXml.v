(** C90: the configuration as XML, written by the manager and read again from the custom configuration
    file. *)
From Verif.Base Require Import Bytes BytesFacts.
From Verif.Model Require Import Status Egg Configuration ConfigXml.
From Verif.Spec Require Import XmlSpec.
From Verif.Proofs Require Import XmlProofs.
Import List.
Local Open Scope N_scope.

(** *** Writing *)

(** Whatever the names, descriptions and commands are, as long as XML can carry their characters, the text
    is an XML document and says exactly what the configuration is. *)
Theorem C90_document modified conditions eggs :
  Forall plain_condition conditions -> Forall plain_egg eggs ->
  read (configuration_to_xml modified conditions eggs) = Some (document modified conditions eggs).
Proof. exact (read_configuration modified conditions eggs). Qed.
Print Assumptions C90_document.

Definition tricky : egg :=
  mk_egg (lit "a</name><b>&amp;") (Some (lit "<![CDATA[ ""x"" ]]> 'y' & z;")) false (Some (lit "unix:/run/a.sock"))
         300 20 30 400 (Some (lit "mail")) (Some (lit "/usr/bin/a")) (Some (lit "-p 1"))
         [mk_condition (lit "S25R") None None] S_TEMPORARY_FAILURE true.
Definition simple : egg := egg_new (lit "b").
Example C90_document_example :
  Forall plain_egg [tricky; simple] /\
  read (configuration_to_xml (Some 12) [mk_condition (lit "S25R") (Some (lit "a<b")) None] [tricky]) =
  Some (Elem (lit "configuration") []
    [Elem (lit "last-modified") (lit "12") [];
     Elem (lit "applicable-conditions") []
       [Elem (lit "applicable-condition") [] [Elem (lit "name") (lit "S25R") []; Elem (lit "description") (lit "a<b") []]];
     Elem (lit "milters") []
       [Elem (lit "milter") []
          [Elem (lit "name") (lit "a</name><b>&amp;") [];
           Elem (lit "description") (lit "<![CDATA[ ""x"" ]]> 'y' & z;") [];
           Elem (lit "enabled") (lit "false") [];
           Elem (lit "fallback-status") (lit "temporary-failure") [];
           Elem (lit "evaluation-mode") (lit "true") [];
           Elem (lit "connection-spec") (lit "unix:/run/a.sock") [];
           Elem (lit "command") (lit "/usr/bin/a") [];
           Elem (lit "command-options") (lit "-p 1") [];
           Elem (lit "applicable-conditions") [] [Elem (lit "applicable-condition") (lit "S25R") []]]]]).
Proof.
  split; [|vm_compute; reflexivity].
  apply Forall_cons; [|apply Forall_cons; [|apply Forall_nil]]; unfold plain_egg; cbn -[lit plain];
    repeat apply conj; try (apply plain_dec; reflexivity); try exact I; auto.
  apply Forall_cons; [apply plain_dec; reflexivity|apply Forall_nil].
Qed.

(** Two configurations with the same text are the same in what the text is about. *)
Theorem C90_injective conditions eggs conditions' eggs' :
  Forall plain_condition conditions -> Forall plain_egg eggs ->
  Forall plain_condition conditions' -> Forall plain_egg eggs' ->
  configuration_to_xml None conditions eggs = configuration_to_xml None conditions' eggs' ->
  map (fun k => (k_name k, k_description k)) conditions = map (fun k => (k_name k, k_description k)) conditions' /\
  map (fun e => (e_name e, e_description e, e_enabled e, e_fallback_status e, e_evaluation_mode e,
                 e_connection_spec e, e_command e, e_command_options e, map k_name (e_conditions e))) eggs =
  map (fun e => (e_name e, e_description e, e_enabled e, e_fallback_status e, e_evaluation_mode e,
                 e_connection_spec e, e_command e, e_command_options e, map k_name (e_conditions e))) eggs'.
Proof.
  intros H1 H2 H3 H4 E. apply (f_equal read) in E. rewrite !C90_document in E by assumption.
  apply (f_equal (fun o => match o with Some x => x | None => Elem [] [] [] end)) in E.
  now apply document_injective in E.
Qed.
Print Assumptions C90_injective.
Example C90_injective_example :
  configuration_to_xml None [] [tricky] <> configuration_to_xml None [] [set_description None tricky] /\
  configuration_to_xml None [] [tricky] = configuration_to_xml None [] [set_user_name None tricky].
Proof. split; [vm_compute; discriminate|vm_compute; reflexivity]. Qed.

(** *** Reading it again *)

(** The definitions, in whatever pieces the text comes: each replaces the one of its name and goes to the
    end; what the file says holds, and what it does not say of an older definition is kept. *)
Theorem C90_load valid has_setter takes c es vs :
  Forall (carried valid (ld_conditions c)) es -> NoDup (map e_name es) ->
  Forall (usable valid) (ld_eggs c) -> NoDup (map e_name (ld_eggs c)) ->
  scan InText (configuration_to_xml None [] es) = Some (spelled vs) ->
  load valid has_setter takes c vs =
  (mk_loaded (filter (fun o => negb (existsb (bytes_eqb (e_name o)) (map e_name es))) (ld_eggs c) ++
              map (fun e => overlaid (find (fun o => bytes_eqb (e_name e) (e_name o)) (ld_eggs c)) e) es)
             (ld_conditions c) (ld_settings c),
   None).
Proof. exact (load_definitions valid has_setter takes c es vs). Qed.
Print Assumptions C90_load.

(** New names: all but the user and the timeouts comes back. *)
Theorem C90_load_new valid has_setter takes c es vs :
  Forall (carried valid (ld_conditions c)) es -> NoDup (map e_name es) ->
  Forall (usable valid) (ld_eggs c) -> NoDup (map e_name (ld_eggs c)) ->
  (forall e o, In e es -> In o (ld_eggs c) -> e_name e <> e_name o) ->
  scan InText (configuration_to_xml None [] es) = Some (spelled vs) ->
  load valid has_setter takes c vs =
  (mk_loaded (ld_eggs c ++ map brought_back es) (ld_conditions c) (ld_settings c), None).
Proof.
  intros H1 H2 H3 H4 Hn H5. rewrite (C90_load valid has_setter takes c es vs) by assumption.
  do 3 f_equal.
  - assert (Hf : forall f (l : list egg), (forall o, In o l -> f o = true) -> filter f l = l).
    { clear. intros f l H. induction l as [|o l IH]; [reflexivity|]. cbn [filter]. rewrite H by now left.
      f_equal. apply IH. intros o' Ho. apply H. now right. }
    apply Hf. intros o Ho.
    apply negb_true_iff, not_true_is_false. intros H. apply existsb_exists in H as (n & Hin & E).
    apply bytes_eqb_eq in E. subst n. apply in_map_iff in Hin as (e & E & Hin). now apply (Hn e o).
  - apply map_ext_in. intros e He. destruct (find _ _) as [o|] eqn:F; [|reflexivity].
    apply find_some in F as [Ho E]. apply bytes_eqb_eq in E. now elim (Hn e o).
Qed.
Print Assumptions C90_load_new.

(** The definitions of the manager itself: nothing changes, users, timeouts and order included. *)
Theorem C90_load_own valid has_setter takes c vs :
  Forall (carried valid (ld_conditions c)) (ld_eggs c) -> NoDup (map e_name (ld_eggs c)) ->
  scan InText (configuration_to_xml None [] (ld_eggs c)) = Some (spelled vs) ->
  load valid has_setter takes c vs = (c, None).
Proof.
  intros H1 H2 H5.
  assert (H3 : Forall (usable valid) (ld_eggs c)).
  { eapply Forall_impl; [|exact H1]. intros e (_ & H & _). unfold usable.
    destruct (e_connection_spec e); [apply H|exact I]. }
  rewrite (C90_load valid has_setter takes c (ld_eggs c) vs) by assumption.
  destruct c as [eggs conditions settings]. cbn [ld_eggs ld_conditions ld_settings] in *. do 2 f_equal.
  replace (filter _ eggs) with (@nil egg).
  - cbn [app]. rewrite <- (map_id eggs) at 2. apply map_ext_in. intros e He.
    replace (find _ eggs) with (Some e).
    + pose proof (proj1 (Forall_forall _ _) H1 e He) as (_ & _ & Hc & _). clear - Hc.
      destruct e as [n d en s t1 t2 t3 t4 u cmd opts ks f m]. cbn in Hc |- *.
      destruct d, s, cmd, opts; try contradiction; reflexivity.
    + symmetry. clear - H2 He. induction eggs as [|x l IH]; [destruct He|]. cbn [map] in H2.
      inversion H2 as [|? ? Hx Hl]; subst. cbn [find]. destruct He as [->|He]; [now rewrite bytes_eqb_refl|].
      destruct (bytes_eqb (e_name e) (e_name x)) eqn:E; [|now apply IH].
      apply bytes_eqb_eq in E. elim Hx. rewrite <- E. now apply in_map.
  - symmetry. assert (H : forall l, (forall o, In o l -> In o eggs) ->
      filter (fun o => negb (existsb (bytes_eqb (e_name o)) (map e_name eggs))) l = []).
    { induction l as [|o l IH]; intros Hl; [reflexivity|]. cbn [filter].
      replace (existsb (bytes_eqb (e_name o)) (map e_name eggs)) with true.
      - cbn [negb]. apply IH. intros o' Ho'. apply Hl. now right.
      - symmetry. apply existsb_exists. exists (e_name o). split; [apply in_map, Hl; now left|apply bytes_eqb_refl]. }
    now apply H.
Qed.
Print Assumptions C90_load_own.

Definition S25R : condition := mk_condition (lit "S25R") (Some (lit "selective SMTP rejection")) None.
Definition carried_one : egg :=
  mk_egg (lit "a<b>") (Some (lit "x & y")) false (Some (lit "unix:/run/a.sock")) 300 20 30 400 (Some (lit "mail"))
         (Some (lit "/usr/bin/a")) (Some (lit "-p 1")) [S25R] S_TEMPORARY_FAILURE true.
Definition any_spec : bytes -> bool := fun s => match s with [] => false | _ => true end.
Definition no_setter : section -> bytes -> bool := fun _ _ => false.
Definition no_value : section -> bytes -> bytes -> bool := fun _ _ _ => false.
Definition loads (c : loaded) (text : bytes) : option (loaded * option failure) :=
  match scan InText text with
  | Some vs => Some (load any_spec no_setter no_value c vs)
  | None => None
  end.
Lemma carried_one_carried : carried any_spec [S25R] carried_one.
Proof.
  unfold carried, plain_egg. cbn -[lit plain].
  repeat apply conj; try (apply plain_dec; reflexivity); try discriminate; try reflexivity; try exact I; auto.
  apply Forall_cons; [first [reflexivity|apply plain_dec; reflexivity]|apply Forall_nil].
Qed.
Example C90_load_example :
  (* one definition is replaced and moved, the other stays *)
  loads (mk_loaded [set_user_name (Some (lit "mail")) (set_description (Some (lit "old")) (egg_new (lit "a<b>")));
                    simple] [S25R] [])
        (configuration_to_xml None [] [carried_one]) =
  Some (mk_loaded [simple; set_connection_timeout 297 (set_writing_timeout 7 (set_reading_timeout 7
                     (set_end_of_message_timeout 297 carried_one)))] [S25R] [], None) /\
  (* read by a manager that does not know it *)
  loads (mk_loaded [simple] [S25R] []) (configuration_to_xml None [] [carried_one]) =
  Some (mk_loaded [simple; brought_back carried_one] [S25R] [], None) /\
  (* read by the manager itself *)
  loads (mk_loaded [carried_one; simple] [S25R] []) (configuration_to_xml None [] [carried_one; simple]) =
  Some (mk_loaded [carried_one; simple] [S25R] [], None).
Proof. repeat apply conj; vm_compute; reflexivity. Qed.

(** What the manager says of its whole configuration is not taken when it has conditions or a custom
    configuration file: nothing of it is. *)
Theorem C90_whole_refuted valid has_setter takes c modified conditions eggs vs :
  modified <> None \/ conditions <> [] -> Forall plain_condition conditions -> Forall plain_egg eggs ->
  scan InText (configuration_to_xml modified conditions eggs) = Some (spelled vs) ->
  load valid has_setter takes c vs = (c, Some UnexpectedElement).
Proof. exact (load_refused valid has_setter takes c modified conditions eggs vs). Qed.
Print Assumptions C90_whole_refuted.
Example C90_whole_refuted_example :
  loads (mk_loaded [] [S25R] []) (configuration_to_xml (Some 12) [S25R] [carried_one]) =
  Some (mk_loaded [] [S25R] [], Some UnexpectedElement).
Proof. vm_compute. reflexivity. Qed.

(** *** What is lost *)

(** The user a filter runs as and its timeouts are not in the text. *)
Theorem C90_user_refuted :
  ~ forall e vs, carried any_spec [S25R] e ->
      scan InText (configuration_to_xml None [] [e]) = Some (spelled vs) ->
      load any_spec no_setter no_value (mk_loaded [] [S25R] []) vs = (mk_loaded [e] [S25R] [], None).
Proof.
  intros H. destruct (scan InText (configuration_to_xml None [] [carried_one])) as [vs|] eqn:E; [|vm_compute in E; discriminate].
  assert (Hs : spelled vs = vs).
  { revert E. set (s := configuration_to_xml None [] [carried_one]). intros E.
    assert (F : match scan InText s with Some vs => spelled vs = vs | None => True end) by (vm_compute; reflexivity).
    now rewrite E in F. }
  specialize (H carried_one vs carried_one_carried ltac:(now rewrite Hs)).
  assert (F : match scan InText (configuration_to_xml None [] [carried_one]) with
              | Some vs => fst (load any_spec no_setter no_value (mk_loaded [] [S25R] []) vs) <> mk_loaded [carried_one] [S25R] []
              | None => True
              end) by (vm_compute; discriminate).
  rewrite E, H in F. now apply F.
Qed.
Print Assumptions C90_user_refuted.

(** A filter with a command and no options stops the loading; those before it stay defined. *)
Theorem C90_command_refuted :
  loads (mk_loaded [] [S25R] [])
        (configuration_to_xml None [] [simple; set_command_options None carried_one; egg_new (lit "c")]) =
  Some (mk_loaded [simple] [S25R] [], Some NoMethod).
Proof. vm_compute. reflexivity. Qed.
Print Assumptions C90_command_refuted.
(** So does a fallback status that a filter may have but the loader does not know. *)
Theorem C90_fallback_refuted :
  loads (mk_loaded [] [] []) (configuration_to_xml None [] [simple; set_fallback_status S_CONTINUE (egg_new (lit "c"))]) =
  Some (mk_loaded [simple] [] [], Some InvalidValue).
Proof. vm_compute. reflexivity. Qed.
Print Assumptions C90_fallback_refuted.
(** A condition that is not defined here stops the loading too. *)
Theorem C90_condition_unknown :
  loads (mk_loaded [] [] []) (configuration_to_xml None [] [simple; carried_one]) =
  Some (mk_loaded [simple] [] [], Some InvalidValue).
Proof. vm_compute. reflexivity. Qed.
Print Assumptions C90_condition_unknown.
(** Options without a command, and an empty description read over an older one. *)
Theorem C90_options_refuted :
  loads (mk_loaded [] [] []) (configuration_to_xml None [] [set_command_options (Some (lit "-p")) simple]) =
  Some (mk_loaded [simple] [] [], None) /\
  loads (mk_loaded [set_description (Some (lit "old")) simple] [] []) (configuration_to_xml None [] [simple]) =
  Some (mk_loaded [set_description (Some (lit "old")) simple] [] [], None).
Proof. split; vm_compute; reflexivity. Qed.
Print Assumptions C90_options_refuted.

(** Control characters: the text is no XML, or is read as something else. *)
Theorem C90_control_refuted :
  read (configuration_to_xml None [] [set_description (Some [byte_of 1]) simple]) = None /\
  loads (mk_loaded [] [] []) (configuration_to_xml None [] [set_description (Some [byte_of 13]) simple]) =
  Some (mk_loaded [set_description (Some [byte_of 10]) simple] [] [], None).
Proof. split; vm_compute; reflexivity. Qed.
Print Assumptions C90_control_refuted.
