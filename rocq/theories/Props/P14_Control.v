(** C37, C38, C52, C53, C54: the control protocol, the controller's answers, data in signals, reloading
    and saving. *)
From Verif.Base Require Import Bytes BytesFacts.
From Verif.Model Require Import Status Decoder Encoder Signals Egg Configuration Control.
From Verif.Spec Require Import FrameSpec ControlSpec.
From Verif.Proofs Require Import FramingProofs FieldProofs CommandStream ControlProofs EggProofs.
From Coq Require Import ZifyBool ZifyNat ZifyN.
Local Open Scope Z_scope.

(** *** C37 *)

(** What is sent is a frame with a packet of the protocol in it. *)
Theorem C37_packets :
  (forall c, plain_command c -> exists p, encode_control_command c = frame p /\ command_packet p c) /\
  (forall r, plain_reply r -> exists p, encode_control_reply r = frame p /\ reply_packet p r) /\
  (forall l, plain_launch l -> exists p, encode_launch l = frame p /\ launch_packet p l).
Proof.
  repeat split.
  - intros c H. exists (control_command_payload c). split; [|destruct c; constructor].
    apply pack_frame. destruct c as [t| | |]; cbn [control_command_payload]; [|vm_compute; reflexivity..].
    destruct H as [_ H]. rewrite zlen_app. unfold zlen in *. cbn [length]. change (length W_SET_CONFIGURATION) with 17%nat. lia.
  - intros r H. exists (control_reply_payload r). split; [|destruct r; constructor].
    apply pack_frame. destruct r as [|t|t|t|t]; cbn [control_reply_payload]; [vm_compute; reflexivity|..|destruct H];
      destruct H as [_ H]; rewrite zlen_app; unfold zlen in *; cbn [length].
    + change (length W_FAILURE) with 7%nat. lia.
    + change (length W_ERROR) with 5%nat. lia.
    + change (length W_CONFIGURATION) with 13%nat. lia.
  - intros [line user] H. exists (launch_payload (Launch line user)). split; [|destruct user; constructor].
    apply pack_frame. destruct H as (_ & Hl & _ & Hu). cbn [launch_payload]. rewrite zlen_app. unfold zlen in *. cbn [length].
    rewrite app_length. cbn [length]. change (length W_LAUNCH) with 6%nat. destruct user as [u|]; [destruct Hu as (_ & _ & Hu)|]; cbn [length]; lia.
Qed.
Print Assumptions C37_packets.

(** Commands sent are heard, each once, in order, however the stream is cut into pieces. *)
Theorem C37_commands cs chunks :
  Forall plain_command cs -> fits (concat chunks) ->
  concat chunks = concat (map encode_control_command cs) ->
  heard (feeds control_command_handler decoder_new chunks) cs.
Proof.
  intros H Hf E. rewrite Forall_forall in H.
  assert (D : forall c, In c cs -> forall more,
    control_command_handler (control_command_payload c ++ more) (zlen (control_command_payload c)) = HOk [c] None).
  { intros c I more. apply command_decoded. specialize (H c I). destruct c; try exact Logic.I. apply H. }
  apply (stream_heard _ control_command_handler control_command_payload cs chunks); auto.
  - apply self_contained_settled. apply Forall_forall. intros p I. apply in_map_iff in I as (c & <- & I). intros more.
    rewrite D by exact I. pose proof (D c I []) as X. rewrite app_nil_r in X. symmetry. exact X.
  - apply Forall_forall. intros c I. pose proof (D c I []) as X. rewrite app_nil_r in X. exact X.
  - apply Forall_forall. intros c I. specialize (H c I). destruct c as [t| | |]; cbn [control_command_payload]; [|vm_compute; reflexivity..].
    destruct H as [_ H]. rewrite zlen_app. unfold zlen in *. cbn [length]. change (length W_SET_CONFIGURATION) with 17%nat. lia.
Qed.
Print Assumptions C37_commands.

(** Nothing but the protocol's packets is understood, and each as what it says. *)
Theorem C37_only p evs err :
  control_command_handler p (zlen p) = HOk evs err -> exists c, evs = [c] /\ err = None /\ command_packet p c.
Proof. apply command_only. Qed.
Print Assumptions C37_only.

(** Replies: as the commands, except that "status" is not among them and texts are shorter than 2^24
    bytes. *)
Theorem C37_replies_partial rs chunks :
  Forall plain_reply rs -> fits (concat chunks) ->
  concat chunks = concat (map encode_control_reply rs) ->
  heard (feeds control_reply_handler decoder_new chunks) rs.
Proof.
  intros H Hf E. rewrite Forall_forall in H.
  assert (L : forall r, In r rs -> zlen (control_reply_payload r) < 16777216).
  { intros r I. specialize (H r I). destruct r as [|t|t|t|t]; cbn [control_reply_payload]; [vm_compute; reflexivity|..|destruct H];
      destruct H as [_ H]; rewrite zlen_app; unfold zlen in *; cbn [length].
    + change (length W_FAILURE) with 7%nat. lia.
    + change (length W_ERROR) with 5%nat. lia.
    + change (length W_CONFIGURATION) with 13%nat. lia. }
  assert (D : forall r, In r rs -> forall more, follows more ->
    control_reply_handler (control_reply_payload r ++ more) (zlen (control_reply_payload r)) = HOk [r] None).
  { intros r I more F. apply reply_decoded; [|exact F]. specialize (H r I). destruct r; try exact Logic.I; apply H. }
  apply (stream_heard _ control_reply_handler control_reply_payload rs chunks); auto.
  - apply short_settled. apply Forall_forall. intros r I. auto.
  - apply Forall_forall. intros r I. pose proof (D r I [] (or_introl eq_refl)) as X. rewrite app_nil_r in X. exact X.
  - apply Forall_forall. intros r I. specialize (L r I). lia.
Qed.
Print Assumptions C37_replies_partial.

(** Launch requests, when neither the command line nor the user name is empty. *)
Theorem C37_launch_partial ls chunks :
  Forall plain_launch ls -> fits (concat chunks) ->
  concat chunks = concat (map encode_launch ls) ->
  heard (feeds launch_handler decoder_new chunks) ls.
Proof.
  intros H Hf E. rewrite Forall_forall in H.
  assert (L : forall l, In l ls -> zlen (launch_payload l) < 16777216).
  { intros [line user] I. specialize (H _ I). destruct H as (_ & Hl & _ & Hu). cbn [launch_payload]. rewrite zlen_app. unfold zlen in *. cbn [length].
    rewrite app_length. cbn [length]. change (length W_LAUNCH) with 6%nat. destruct user as [u|]; [destruct Hu as (_ & _ & Hu)|]; cbn [length]; lia. }
  assert (D : forall l, In l ls -> forall more, follows more ->
    launch_handler (launch_payload l ++ more) (zlen (launch_payload l)) = HOk [l] None).
  { intros [line user] I more F. specialize (H _ I). destruct H as (Hn & _ & Hl & Hu). apply launch_decoded; auto.
    destruct user; [|exact Logic.I]. destruct Hu as (? & ? & _). auto. }
  apply (stream_heard _ launch_handler launch_payload ls chunks); auto.
  - apply short_settled. apply Forall_forall. intros r I. auto.
  - apply Forall_forall. intros r I. pose proof (D r I [] (or_introl eq_refl)) as X. rewrite app_nil_r in X. exact X.
  - apply Forall_forall. intros r I. specialize (L r I). lia.
Qed.
Print Assumptions C37_launch_partial.

(** The "status" reply, which the controller sends, is an error to the tool that asked: for every
    status text and whatever follows. *)
Theorem C37_status_refuted t :
  control_reply_handler (control_reply_payload (Status t)) (zlen (control_reply_payload (Status t))) =
  HFail (Some E_UNEXPECTED_COMMAND).
Proof. pose proof (status_refused t [] (or_introl eq_refl)) as X. rewrite app_nil_r in X. exact X. Qed.
Print Assumptions C37_status_refuted.

(** The configuration text is read up to its size from a copy that ends at its first NUL: a text with a
    NUL that is not its last byte makes the controller read outside the copy. *)
Theorem C37_nul_refuted t : ~ no_nul (removelast t) ->
  control_command_handler (control_command_payload (SetConfiguration t)) (zlen (control_command_payload (SetConfiguration t))) = HUB.
Proof.
  intros H. unfold control_command_handler, decode_control_command. cbn [control_command_payload].
  pose proof (split_word_found W_SET_CONFIGURATION t [NUL] ltac:(no_nul_word) ltac:(discriminate)) as X.
  rewrite <- app_assoc. cbn [app]. rewrite X. cbn [bind]. words. cbn [bytes_eqb lit list_ascii_of_string].
  destruct (signal_data_decides t []) as [[Y _]|[_ Y]]; [contradiction|]. cbn [app] in Y. rewrite Y. reflexivity.
Qed.
Print Assumptions C37_nul_refuted.

(** An empty user name is heard as no user name, an empty command line not at all. *)
Theorem C37_launch_refuted :
  (forall line, no_nul line -> line <> [] ->
    launch_handler (launch_payload (Launch line (Some []))) (zlen (launch_payload (Launch line (Some [])))) =
    HOk [Launch line None] None) /\
  (forall user, launch_handler (launch_payload (Launch [] user)) (zlen (launch_payload (Launch [] user))) = HFail None).
Proof.
  split.
  - intros line H N. pose proof (launch_decoded line None [] H N Logic.I (or_introl eq_refl)) as X. rewrite app_nil_r in X. exact X.
  - assert (G : forall u : bytes, launch_handler (W_LAUNCH ++ NUL :: NUL :: u) (zlen (W_LAUNCH ++ NUL :: NUL :: u)) = HFail None).
    { intros u. unfold launch_handler, decode_launch_command.
      pose proof (split_word_found W_LAUNCH (NUL :: u) [NUL] ltac:(no_nul_word) ltac:(discriminate)) as X.
      rewrite <- app_assoc. cbn [app] in *. rewrite X. cbn [bind]. words. cbn [bytes_eqb lit list_ascii_of_string].
      pose proof (dntv_found [] u [NUL] (zlen (NUL :: u)) ltac:(no_nul_word) ltac:(unfold zlen; cbn [length]; lia)) as Y.
      cbn [app] in Y. unfold decode_launch. rewrite Y. reflexivity. }
    intros [u|]; apply G.
Qed.
Print Assumptions C37_launch_refuted.

(** An error message is read up to a NUL, not up to its length: when the next packet is 2^24 bytes or
    longer and arrives with it, the message goes on into that packet's length. *)
Theorem C37_runs_on_refuted m t : no_nul m -> zlen (control_reply_payload (Configuration t)) = 16843009 ->
  control_reply_handler (control_reply_payload (Error m) ++ encode_control_reply (Configuration t))
    (zlen (control_reply_payload (Error m))) =
  HOk [Error (m ++ [ascii_of_N 1; ascii_of_N 1; ascii_of_N 1; ascii_of_N 1] ++ lit "configuration")] None.
Proof.
  intros Hm L. unfold encode_control_reply. rewrite pack_frame by lia. unfold frame.
  replace (N.of_nat (length (control_reply_payload (Configuration t)))) with 16843009%N by (unfold zlen in L; lia).
  change (be32 16843009) with [ascii_of_N 1; ascii_of_N 1; ascii_of_N 1; ascii_of_N 1].
  change (control_reply_payload (Configuration t)) with (lit "configuration" ++ NUL :: t).
  pose proof (failure_runs_on m t ([ascii_of_N 1; ascii_of_N 1; ascii_of_N 1; ascii_of_N 1] ++ lit "configuration") Hm
                ltac:(no_nul_word) ltac:(discriminate)) as X.
  rewrite <- app_assoc in X. exact X.
Qed.
Print Assumptions C37_runs_on_refuted.

Example C37_example :
  feeds control_command_handler decoder_new
    [firstn 3 (encode_control_command Reload);
     skipn 3 (encode_control_command Reload) ++ encode_control_command (SetConfiguration (lit "a = 1"))] =
  (Some (mk_decoder IN_START 23 []), [Reload; SetConfiguration (lit "a = 1")], [(true, None); (true, None)]).
Proof. reflexivity. Qed.
Example C37_replies_example :
  feeds control_reply_handler decoder_new [encode_control_reply (Error (lit "no")) ++ encode_control_reply Success] =
  (Some (mk_decoder IN_START 8 []), [Error (lit "no"); Success], [(true, None)]).
Proof. reflexivity. Qed.
Example C37_launch_example :
  feeds launch_handler decoder_new [encode_launch (Launch (lit "/bin/f -x") (Some (lit "mail")))] =
  (Some (mk_decoder IN_START 21 []), [Launch (lit "/bin/f -x") (Some (lit "mail"))], [(true, None)]).
Proof. reflexivity. Qed.
Example C37_nul_example : control_command_handler (lit "set-configuration" ++ [NUL; "a"; NUL; "b"]%char) 21 = HUB.
Proof. reflexivity. Qed.

(** *** C38 *)

(** Whatever the files and the evaluations do: one reply to each request, in order. *)
Theorem C38_one_reply b evaluate evaluate_custom to_xml reason c rs :
  length (snd (answers b evaluate evaluate_custom to_xml reason c rs)) = length rs /\
  Forall (fun a => length a = 1%nat) (snd (answers b evaluate evaluate_custom to_xml reason c rs)).
Proof. apply answers_each. Qed.
Print Assumptions C38_one_reply.

(** The reply is true: success means that the text is in the file, an error that no file has changed;
    questions change nothing.  Left out: reload. *)
Theorem C38_truth_partial b evaluate evaluate_custom to_xml reason c r c' a :
  r <> Reload -> answer b evaluate evaluate_custom to_xml reason c r = (c', [a]) -> told_truly c c' r a.
Proof. intros N. apply answer_truly. exact N. Qed.
Print Assumptions C38_truth_partial.

(** Reload is answered by success whatever came of it. *)
Theorem C38_reload_refuted b evaluate evaluate_custom to_xml reason c :
  find_file (c_paths c) (c_files c) CONFIG_FILE_NAME = None ->
  snd (reload b evaluate evaluate_custom c) = false /\
  snd (answer b evaluate evaluate_custom to_xml reason c Reload) = [Success].
Proof.
  intros H. cbn [answer]. unfold reload, load. cbn [c_paths c_files with_settings]. rewrite H. split; reflexivity.
Qed.
Print Assumptions C38_reload_refuted.

(** The status is not the status. *)
Theorem C38_status_refuted b evaluate evaluate_custom to_xml reason c :
  snd (answer b evaluate evaluate_custom to_xml reason c GetStatus) = [Status (lit "FIXME")].
Proof. reflexivity. Qed.
Print Assumptions C38_status_refuted.

Definition example_build := mk_build (Some (lit "inet:10025")) (Some (lit "linux")) (Some []) None None None None.
Definition example_files (readonly : bytes) :=
  mk_files (fun p => if bytes_eqb p (lit "/etc/milter-manager.conf") then Some (lit "main")
                     else if bytes_eqb p (lit "/etc/milter-manager.custom.conf") then Some (lit "old") else None)
           (fun p => negb (bytes_eqb p readonly)).
(** A configuration language: a text is the pid file. *)
Definition example_evaluate (t : bytes) (s : settings) : settings * bool :=
  (mk_settings (s_handlers s) (s_eggs s) (s_conditions s) (s_privilege_mode s) (s_controller_connection_spec s)
     (s_manager_connection_spec s) (s_fallback_status s) (s_fallback_status_at_disconnect s) (s_package_platform s)
     (s_package_options s) (s_effective_user s) (s_effective_group s) (s_manager_unix_socket_mode s)
     (s_controller_unix_socket_mode s) (s_manager_unix_socket_group s) (s_controller_unix_socket_group s)
     (s_remove_manager_unix_socket_on_close s) (s_remove_controller_unix_socket_on_close s)
     (s_remove_manager_unix_socket_on_create s) (s_remove_controller_unix_socket_on_create s) (s_daemon s)
     (Some t) (s_maintenance_interval s) (s_suspend_time_on_unacceptable s) (s_max_connections s)
     (s_max_file_descriptors s) (s_custom_configuration_directory s) (s_locations s)
     (s_connection_check_interval s) (s_event_loop_backend s) (s_n_workers s) (s_default_packet_buffer_size s)
     (s_use_syslog s) (s_syslog_facility s) (s_chunk_size s) (s_max_pending_finished_sessions s), true).

Definition example_configuration readonly :=
  mk_configuration [lit "/etc"; lit "/var"] (example_files readonly) (settings_new example_build).
Example C38_example :
  let '(c, rs) := answers example_build example_evaluate example_evaluate (fun _ => []) []
                    (example_configuration []) [SetConfiguration (lit "new"); Reload; GetConfiguration] in
  rs = [[Success]; [Success]; [Configuration []]] /\ s_pid_file (c_settings c) = Some (lit "new").
Proof. split; reflexivity. Qed.

(** *** C52 *)

(** A handler of one of the signals that carry data is given them unchanged exactly when they have no
    NUL before their last byte.  Otherwise it reads outside its copy.  [rest] is what lies in memory
    behind the data: the terminator of the buffer they are in at the latest. *)
Theorem C52_exactly_partial s t rest : s <> Flow ->
  (no_nul (removelast t) /\ hand_over s (t ++ rest ++ [NUL]) (zlen t) = Ok t) \/
  (~ no_nul (removelast t) /\ hand_over s (t ++ rest ++ [NUL]) (zlen t) = UB).
Proof. intros N. destruct s; try congruence; apply signal_data_decides. Qed.
Print Assumptions C52_exactly_partial.

(** The reader's "flow" hands over any data. *)
Theorem C52_flow t rest : hand_over Flow (t ++ rest) (zlen t) = Ok t.
Proof.
  unfold hand_over. cbn [declared]. rewrite zlen_app. pose proof (zlen_nonneg rest).
  destruct (Z.leb_spec (zlen t) (zlen t + zlen rest)); [|lia]. unfold zlen. rewrite Nat2Z.id. f_equal. apply firstn_app_exact.
Qed.
Print Assumptions C52_flow.

(** A message body with a NUL in it, as any sender can send. *)
Theorem C52_body_refuted : hand_over ClientBody (lit "a" ++ [NUL] ++ lit "b" ++ [NUL]) 3 = UB.
Proof. reflexivity. Qed.
Print Assumptions C52_body_refuted.

Example C52_example : hand_over ClientBody (lit "body text" ++ lit "more" ++ [NUL]) 9 = Ok (lit "body text").
Proof. reflexivity. Qed.

(** *** C53 *)

(** What a reload makes of the files does not depend on the settings before, if those still name a
    platform and package options or the program was built without. *)
Definition package_kept (b : build) (s : settings) : Prop :=
  (s_package_platform s = None -> b_platform b = None) /\ (s_package_options s = None -> b_package_options b = None).
Theorem C53_fresh_partial b evaluate evaluate_custom c :
  package_kept b (c_settings c) ->
  reload b evaluate evaluate_custom c =
  reload b evaluate evaluate_custom (mk_configuration (c_paths c) (c_files c) (settings_new b)).
Proof.
  intros [H1 H2]. unfold reload. cbn [c_settings]. rewrite (clear_new b (c_settings c) H1 H2).
  rewrite (clear_new b (settings_new b)) by auto. reflexivity.
Qed.
Print Assumptions C53_fresh_partial.

(** A platform once set to nothing stays nothing after every reload. *)
Theorem C53_platform_refuted b s p : b_platform b = Some p -> s_package_platform s = None ->
  s_package_platform (clear b s) <> s_package_platform (settings_new b).
Proof. intros H1 H2. cbn [clear settings_new s_package_platform]. rewrite H2, H1. discriminate. Qed.
Print Assumptions C53_platform_refuted.

(** A reload that fails because the file is gone leaves no filter and no listening address of the
    running configuration. *)
Theorem C53_failed_reload_refuted b evaluate evaluate_custom c :
  find_file (c_paths c) (c_files c) CONFIG_FILE_NAME = None ->
  let '(c', ok) := reload b evaluate evaluate_custom c in
  ok = false /\ s_eggs (c_settings c') = [] /\ s_manager_connection_spec (c_settings c') = b_connection_spec b /\
  s_controller_connection_spec (c_settings c') = None.
Proof.
  intros H. unfold reload, load. cbn [c_paths c_files with_settings]. rewrite H. repeat split.
Qed.
Print Assumptions C53_failed_reload_refuted.

Example C53_example :
  let c := example_configuration [] in
  let c1 := with_settings c (fst (example_evaluate (lit "other") (c_settings c))) in
  s_pid_file (c_settings c1) = Some (lit "other") /\
  reload example_build example_evaluate example_evaluate c1 = reload example_build example_evaluate example_evaluate c /\
  package_kept example_build (c_settings c1).
Proof. split; [reflexivity|]. split; [reflexivity|]. split; discriminate. Qed.

(** *** C54 *)

(** After a text was saved with success the next reload evaluates that text, if every custom file there
    is in the load paths can be written. *)
Theorem C54_saved_is_loaded_partial b evaluate evaluate_custom to_xml reason c t c' :
  (forall dir, In dir (c_paths c) -> f_content (c_files c) (build_filename dir CUSTOM_CONFIG_FILE_NAME) <> None ->
               f_writable (c_files c) (build_filename dir CUSTOM_CONFIG_FILE_NAME) = true) ->
  answer b evaluate evaluate_custom to_xml reason c (SetConfiguration t) = (c', [Success]) ->
  forall s, load_custom_if_exist evaluate_custom (with_settings c' s) CUSTOM_CONFIG_FILE_NAME = evaluate_custom t s.
Proof.
  intros K. cbn [answer]. destruct (save_custom (c_paths c) (c_files c) t) as [f|] eqn:E; [|discriminate].
  intros H s. injection H as <-. destruct (save_then_find _ _ _ _ E K) as (path & F & C).
  unfold load_custom_if_exist, with_settings. cbn [c_paths c_files c_settings]. rewrite F, C. reflexivity.
Qed.
Print Assumptions C54_saved_is_loaded_partial.

(** A custom file that cannot be written, earlier in the load paths: saving succeeds with the next
    directory and the old file is loaded for ever. *)
Theorem C54_shadowed_refuted :
  let c := example_configuration (lit "/etc/milter-manager.custom.conf") in
  let '(c', rs) := answers example_build example_evaluate example_evaluate (fun _ => []) [] c
                     [SetConfiguration (lit "new"); Reload] in
  rs = [[Success]; [Success]] /\ s_pid_file (c_settings c') = Some (lit "old").
Proof. split; reflexivity. Qed.
Print Assumptions C54_shadowed_refuted.

Example C54_example :
  let c := example_configuration [] in
  exists c', answer example_build example_evaluate example_evaluate (fun _ => []) [] c (SetConfiguration (lit "new")) = (c', [Success]) /\
  s_pid_file (c_settings (fst (reload example_build example_evaluate example_evaluate c'))) = Some (lit "new").
Proof. eexists. split; reflexivity. Qed.
