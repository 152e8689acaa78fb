(** C40, C55, C57: filter definitions, their merging, and the filters of a session. *)
From Verif.Base Require Import Bytes BytesFacts.
From Verif.Model Require Import Status Egg Configuration.
From Verif.Spec Require Import EggSpec.
From Verif.Proofs Require Import EggProofs.
From Coq Require Import ZifyBool ZifyNat ZifyN.

(** *** C40 *)

(** A definition holds what was said last of each setting, and the default of what was not
    mentioned. *)
Theorem C40_definition valid n ops :
  let e := define valid n ops in
  e_name e = n /\
  e_description e = told about_description ops None /\
  e_enabled e = told about_enabled ops true /\
  e_connection_spec e = told (about_spec valid) ops None /\
  e_connection_timeout e = told about_connection_timeout ops 297%Z /\
  e_writing_timeout e = told about_writing_timeout ops 7%Z /\
  e_reading_timeout e = told about_reading_timeout ops 7%Z /\
  e_end_of_message_timeout e = told about_end_of_message_timeout ops 297%Z /\
  e_user_name e = told about_user_name ops None /\
  e_command e = told about_command ops None /\
  e_command_options e = told about_command_options ops None /\
  e_conditions e = conditions_told ops [] /\
  e_fallback_status e = told about_fallback_status ops S_ACCEPT /\
  e_evaluation_mode e = told about_evaluation_mode ops false.
Proof.
  cbv zeta. split; [apply define_name|].
  repeat apply conj;
    first [ apply (field_define valid _ e_description), one_description
          | apply (field_define valid _ e_enabled), one_enabled
          | apply (field_define valid _ e_connection_spec), one_spec
          | apply (field_define valid _ e_connection_timeout), one_connection_timeout
          | apply (field_define valid _ e_writing_timeout), one_writing_timeout
          | apply (field_define valid _ e_reading_timeout), one_reading_timeout
          | apply (field_define valid _ e_end_of_message_timeout), one_end_of_message_timeout
          | apply (field_define valid _ e_user_name), one_user_name
          | apply (field_define valid _ e_command), one_command
          | apply (field_define valid _ e_command_options), one_command_options
          | apply conditions_fold
          | apply (field_define valid _ e_fallback_status), one_fallback_status
          | apply (field_define valid _ e_evaluation_mode), one_evaluation_mode ].
Qed.
Print Assumptions C40_definition.

(** Merging the definition [later] into the definition [first] gives what saying [later] after [first]
    would give: for description, connection spec, user name and command always, unless [later] sets
    them to nothing; for the options when [later] names a command; for whether the filter is enabled and for the timeouts
    when [later] mentions them; for the conditions when [later] clears them; for fallback status and
    evaluation mode when [later] does not mention them. *)
Theorem C40_merge_partial valid n first later :
  let '(m, ok) := merge valid (define valid n first) (define valid n later) in
  let all := define valid n (first ++ later) in
  ok = true /\ e_name m = n /\
  (said about_description later <> Some None -> e_description m = e_description all) /\
  (said (about_spec valid) later <> Some None -> e_connection_spec m = e_connection_spec all) /\
  (said about_user_name later <> Some None -> e_user_name m = e_user_name all) /\
  (said about_command later <> Some None -> e_command m = e_command all) /\
  (match said about_command later with
   | Some (Some _) => said about_command_options later <> None
   | _ => said about_command_options later = None
   end -> e_command_options m = e_command_options all) /\
  (said about_enabled later <> None -> e_enabled m = e_enabled all) /\
  (said about_connection_timeout later <> None -> e_connection_timeout m = e_connection_timeout all) /\
  (said about_writing_timeout later <> None -> e_writing_timeout m = e_writing_timeout all) /\
  (said about_reading_timeout later <> None -> e_reading_timeout m = e_reading_timeout all) /\
  (said about_end_of_message_timeout later <> None -> e_end_of_message_timeout m = e_end_of_message_timeout all) /\
  (In ClearConditions later -> e_conditions m = e_conditions all) /\
  (said about_fallback_status later = None -> e_fallback_status m = e_fallback_status all) /\
  (said about_evaluation_mode later = None -> e_evaluation_mode m = e_evaluation_mode all).
Proof.
  rewrite merge_fields by (apply define_spec_valid).
  destruct (C40_definition valid n first) as (N1 & D1 & E1 & S1 & T1 & T2 & T3 & T4 & U1 & C1 & O1 & K1 & F1 & V1).
  destruct (C40_definition valid n later) as (N2 & D2 & E2 & S2 & P1 & P2 & P3 & P4 & U2 & C2 & O2 & K2 & F2 & V2).
  destruct (C40_definition valid n (first ++ later)) as (N3 & D3 & E3 & S3 & Q1 & Q2 & Q3 & Q4 & U3 & C3 & O3 & K3 & F3 & V3).
  cbv zeta. rewrite N1, D1, S1, U1, C1, O1, F1, V1, D2, E2, S2, P1, P2, P3, P4, U2, C2, O2, K2, D3, E3, S3, Q1, Q2, Q3, Q4, U3, C3, O3, K3, F3, V3.
  cbn [e_name e_description e_enabled e_connection_spec e_connection_timeout e_writing_timeout e_reading_timeout
       e_end_of_message_timeout e_user_name e_command e_command_options e_conditions e_fallback_status e_evaluation_mode].
  rewrite !told_app. split; [reflexivity|]. split; [reflexivity|].
  assert (A : forall (A : Type) (about : egg_op -> option (option A)) (b c : option A),
    said about later <> Some None ->
    match told about later None with Some v => Some v | None => b end = told about later b).
  { intros A about b c H. unfold told. destruct (said about later) as [[v|]|]; congruence. }
  assert (B : forall (A : Type) (about : egg_op -> option A) (b c : A),
    said about later <> None -> told about later b = told about later c).
  { intros A0 about b c H. unfold told. destruct (said about later); congruence. }
  assert (C : forall (A : Type) (about : egg_op -> option A) (b : A), said about later = None -> b = told about later b).
  { intros A0 about b H. unfold told. rewrite H. reflexivity. }
  split; [intros; apply A; auto; exact None|]. split; [intros; apply A; auto; exact None|].
  split; [intros; apply A; auto; exact None|]. split; [intros; apply A; auto; exact None|].
  split.
  { unfold told at 1 2. destruct (said about_command later) as [[v|]|].
    - intros H. apply B, H.
    - intros H. apply C, H.
    - intros H. apply C, H. }
  split; [intros; apply B; assumption|]. split; [intros; apply B; assumption|]. split; [intros; apply B; assumption|].
  split; [intros; apply B; assumption|]. split; [intros; apply B; assumption|].
  split.
  { intros H. assert (X : forall a b, conditions_told (a ++ later) b = conditions_told later []).
    { induction a as [|o a IH]; intros b; cbn [app conditions_told]; [apply conditions_cleared, H|]. destruct o; apply IH. }
    symmetry. apply X. }
  split; intros; apply C; assumption.
Qed.
Print Assumptions C40_merge_partial.

(** A later definition's fallback status and evaluation mode do not take effect. *)
Theorem C40_ignored_refuted valid n :
  let later := define valid n [SetFallbackStatus S_REJECT; SetEvaluationMode true] in
  let '(m, ok) := merge valid (define valid n []) later in
  ok = true /\ e_fallback_status later = S_REJECT /\ e_fallback_status m = S_ACCEPT /\
  e_evaluation_mode later = true /\ e_evaluation_mode m = false.
Proof. repeat split. Qed.
Print Assumptions C40_ignored_refuted.

(** Settings a later definition does not mention are not kept: the filter is switched on again, its
    timeouts go back to the defaults, its conditions are dropped. *)
Theorem C40_not_kept_refuted valid n k :
  let first := define valid n [SetEnabled false; SetReadingTimeout 60; AddCondition k] in
  let '(m, ok) := merge valid first (define valid n [SetDescription (Some (lit "d"))]) in
  ok = true /\ e_enabled first = false /\ e_enabled m = true /\
  e_reading_timeout first = 60%Z /\ e_reading_timeout m = 7%Z /\ e_conditions first = [k] /\ e_conditions m = [].
Proof. repeat split. Qed.
Print Assumptions C40_not_kept_refuted.

(** Options without a command are ignored, and a command without options takes the options away. *)
Theorem C40_options_refuted valid n :
  e_command_options (fst (merge valid (define valid n [SetCommand (Some (lit "c"))])
                                      (define valid n [SetCommandOptions (Some (lit "-x"))]))) = None /\
  e_command_options (fst (merge valid (define valid n [SetCommandOptions (Some (lit "-x"))])
                                      (define valid n [SetCommand (Some (lit "c"))]))) = None.
Proof. split; reflexivity. Qed.
Print Assumptions C40_options_refuted.

(** Conditions merge as they should. *)
Theorem C40_condition c other :
  let m := condition_merge c other in
  k_name m = k_name c /\
  k_description m = match k_description other with Some d => Some d | None => k_description c end /\
  k_data m = match k_data other with Some d => Some d | None => k_data c end.
Proof. unfold condition_merge. destruct (k_description other), (k_data other); repeat split. Qed.
Print Assumptions C40_condition.

Example C40_example :
  let valid s := bytes_eqb s (lit "inet:1") || bytes_eqb s (lit "inet:2") in
  let '(m, ok) := merge valid
    (define valid (lit "f") [SetConnectionSpec (Some (lit "inet:1")); SetUserName (Some (lit "u")); SetEnabled true])
    (define valid (lit "f") [SetConnectionSpec (Some (lit "inet:2")); SetConnectionSpec (Some (lit "bad")); SetEnabled false]) in
  ok = true /\ e_connection_spec m = Some (lit "inet:2") /\ e_user_name m = Some (lit "u") /\ e_enabled m = false.
Proof. repeat split. Qed.

(** *** C55 *)

(** The filters of a session are those of the definitions that are switched on and say where the filter
    is, in the order of the definitions, each with the definition's settings and conditions. *)
Theorem C55_filters valid eggs :
  Forall2 (fun e ck => filter_for e (fst ck) /\ snd ck = e_conditions e) (filter to_run eggs) (setup_children valid eggs).
Proof. apply setup_spec. Qed.
Print Assumptions C55_filters.

Example C55_example :
  let valid s := bytes_eqb s (lit "inet:1") in
  map (fun ck => ch_name (fst ck)) (setup_children valid
    [define valid (lit "a") [SetConnectionSpec (Some (lit "inet:1"))];
     define valid (lit "b") [SetConnectionSpec (Some (lit "inet:1")); SetEnabled false];
     define valid (lit "c") [];
     define valid (lit "d") [SetConnectionSpec (Some (lit "inet:1"))]]) = [lit "a"; lit "d"].
Proof. reflexivity. Qed.

(** *** C57 *)

(** Removing by name removes exactly the definition of that name, if names are distinct; they stay
    so. *)
Theorem C57_removed_partial l name : NoDup (map e_name l) ->
  remove_egg_by_name l name = filter (fun e => negb (bytes_eqb name (e_name e))) l /\
  NoDup (map e_name (remove_egg_by_name l name)).
Proof. intros H. split; [apply remove_exactly, H|apply remove_keeps_distinct, H]. Qed.
Print Assumptions C57_removed_partial.

(** Nothing keeps names distinct: the second definition of a filter is found under the first and still
    there after it was removed. *)
Theorem C57_same_name_refuted valid n :
  let old := define valid n [] in
  let new := define valid n [SetEnabled false] in
  let l := add_egg (add_egg [] old) new in
  find_egg l (e_name new) = Some old /\ remove_egg_by_name l (e_name new) = [new] /\ new <> old.
Proof.
  cbv zeta. cbn. rewrite bytes_eqb_refl. repeat split. discriminate.
Qed.
Print Assumptions C57_same_name_refuted.

Example C57_example :
  let a := egg_new (lit "a") in let b := egg_new (lit "b") in let c := egg_new (lit "c") in
  remove_egg_by_name [a; b; c] (lit "b") = [a; c].
Proof. reflexivity. Qed.
