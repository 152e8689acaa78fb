(** C74-C77: options on the command line and settings in the configuration files. *)
From Verif.Base Require Import Bytes BytesFacts.
From Verif.Model Require Import Status Encoder Egg Configuration FileMode Options.
From Verif.Spec Require Import OptionsSpec.
From Verif.Proofs Require Import OptionsProofs.
From Verif.Props Require Import P14_Control.
Local Open Scope Z_scope.

(** ** C74: what milter-manager was told on the command line stays so, whatever is loaded later and
    whether loading works or not. *)
Definition told (l : list ask) (m : manager) : Prop :=
  (forall v, last_asked pick_spec l = Some v -> get_spec m = Some v) /\
  (forall v, last_asked pick_pid_file l = Some v -> get_pid_file m = Some v) /\
  (forall v, last_asked pick_user l = Some v -> get_user m = Some v) /\
  (forall v, last_asked pick_group l = Some v -> get_group m = Some v) /\
  (forall v, last_asked pick_socket_group l = Some v -> get_socket_group m = Some v) /\
  (forall n, last_asked pick_mode l = Some n -> n <> 0%N -> get_mode m = n) /\
  (forall n, last_asked pick_n_workers l = Some n -> get_n_workers m = n) /\
  (forall k, last_asked pick_backend l = Some k -> get_backend m = k) /\
  (forall d, last_asked pick_daemon l = Some d -> get_daemon m = d) /\
  (forall n, last_asked pick_max_pending l = Some n -> get_max_pending m = n).

(** Left out: the packet buffer size, the facility of the system log, the mode 0. *)
Theorem C74_kept_partial valid_spec user_of group_of b paths f env us m l es :
  manager_parse valid_spec user_of group_of env us (manager_new b paths f) = Some m ->
  map (asked user_of group_of) us = map Some l ->
  told l (reloads b es m).
Proof.
  intros P L. pose proof (parse_keeps _ _ _ _ _ _ _ _ _ _ P L) as K.
  destruct (reloads_keep b es l m K) as (R & A & S). set (m' := reloads b es m) in *. clearbody m'.
  destruct R as (R1 & R2 & R3 & R4 & R5 & R6 & R7 & R8 & R9 & _). destruct A as (A1 & A2 & A3 & A4 & A5 & A6).
  unfold o_spec, o_pid_file, o_user, o_group, o_socket_group, o_n_workers, o_backend, o_daemon, o_max_pending in *.
  unfold told, get_spec, get_pid_file, get_user, get_group, get_socket_group, get_mode, get_n_workers, get_backend, get_daemon,
    get_max_pending.
  split; [intros v V; rewrite (A1 v (S v V)); reflexivity|].
  split; [intros v V; rewrite (A2 v) by congruence; reflexivity|].
  split; [intros v V; rewrite (A3 v) by congruence; reflexivity|].
  split; [intros v V; rewrite (A4 v) by congruence; reflexivity|].
  split; [intros v V; rewrite (A5 v) by congruence; reflexivity|].
  split.
  { intros n V Z. rewrite V in R5. cbn [given] in R5. rewrite A6 by congruence. rewrite R5. apply N.eqb_neq in Z. rewrite Z, Z. reflexivity. }
  split; [intros n V; rewrite V in R6; destruct (m_custom_n_workers m'); [congruence|discriminate]|].
  split; [intros k V; rewrite V in R7; rewrite R7; reflexivity|].
  split; [intros d V; rewrite V in R8; destruct (m_custom_daemon m'); [congruence|discriminate]|].
  intros n V; rewrite V in R9; destruct (m_custom_max_pending m'); [congruence|discriminate].
Qed.
Print Assumptions C74_kept_partial.

Definition ex_build : build :=
  mk_build (Some (lit "inet:10025@[127.0.0.1]")) (Some (lit "debian")) (Some []) (Some (lit "milter-manager")) None None None.
Definition ex_files (t : bytes) : files :=
  mk_files (fun p => if bytes_eqb p (lit "/etc/milter-manager.conf") then Some t else None) (fun _ => false).
(** Scripts: the text names the facility of the system log; empty, it turns the system log off. *)
Definition ex_script (t : bytes) (s : settings) : settings * bool :=
  (mk_settings (s_handlers s) (s_eggs s) (s_conditions s) (s_privilege_mode s)
    (s_controller_connection_spec s) (Some (lit "unix:/file")) (s_fallback_status s) (s_fallback_status_at_disconnect s)
    (s_package_platform s) (s_package_options s) (Some (lit "file")) (s_effective_group s)
    (s_manager_unix_socket_mode s) (s_controller_unix_socket_mode s) (s_manager_unix_socket_group s)
    (s_controller_unix_socket_group s) (s_remove_manager_unix_socket_on_close s)
    (s_remove_controller_unix_socket_on_close s) (s_remove_manager_unix_socket_on_create s)
    (s_remove_controller_unix_socket_on_create s) true (Some (lit "/file.pid")) (s_maintenance_interval s)
    (s_suspend_time_on_unacceptable s) (s_max_connections s) (s_max_file_descriptors s)
    (s_custom_configuration_directory s) (s_locations s) (s_connection_check_interval s)
    (s_event_loop_backend s) 7 4096 (match t with [] => false | _ => true end)
    (match t with [] => None | _ => Some t end) (s_chunk_size s) 9, true).
Definition ex_load (t : bytes) : load_event :=
  mk_load_event [lit "/etc"] (ex_files t) ex_script ex_script.
Definition ex_user (n : N) : option bytes := if (n =? 0)%N then Some (lit "root") else if (n =? 100)%N then Some (lit "milter") else None.
Definition anything (_ : bytes) := true.

Example C74_example :
  let us := [U_spec (lit "unix:/a"); U_user (lit "0144"); U_n_workers (lit "3"); U_no_daemon; U_spec (lit "unix:/b")] in
  exists m, manager_parse anything ex_user ex_user None us (manager_new ex_build [] (ex_files [])) = Some m /\
  let m' := reloads ex_build [ex_load (lit "local1"); ex_load []] m in
  get_spec m' = Some (lit "unix:/b") /\ get_user m' = Some (lit "milter") /\ get_n_workers m' = 3%N /\ get_daemon m' = false /\
  get_pid_file m' = Some (lit "/file.pid") /\ get_max_pending m' = 9%N.
Proof. eexists. split; [vm_compute; reflexivity|]. vm_compute. repeat split. Qed.

(** The packet buffer size given is forgotten at the first reload; indeed no session ever uses any but
    0, whatever the command line and the files say. *)
Theorem C74_packet_buffer_refuted valid_spec user_of group_of b paths f env us m es :
  manager_parse valid_spec user_of group_of env us (manager_new b paths f) = Some m ->
  session_packet_buffer (reloads b es m) = 0%N.
Proof.
  intros P.
  assert (L : exists l, map (asked user_of group_of) us = map Some l).
  { unfold manager_parse in P. destruct (manager_options valid_spec user_of group_of us (manager_new b paths f)) as [m0|] eqn:E; [|discriminate].
    exact (asked_all _ _ _ _ _ _ E). }
  destruct L as [l L]. pose proof (parse_keeps _ _ _ _ _ _ _ _ _ _ P L) as K.
  destruct (reloads_keep b es l m K) as ((_ & _ & _ & _ & _ & _ & _ & _ & _ & Z) & _). exact Z.
Qed.
Print Assumptions C74_packet_buffer_refuted.
Example C74_packet_buffer_example :
  exists m, manager_parse anything ex_user ex_user None [U_packet_buffer (lit "8192")] (manager_new ex_build [] (ex_files [])) = Some m /\
  get_packet_buffer m = 8192%N /\ get_packet_buffer (reloads ex_build [ex_load (lit "local1")] m) = 4096%N /\
  session_packet_buffer (reloads ex_build [ex_load (lit "local1")] m) = 0%N.
Proof. eexists. split; [vm_compute; reflexivity|]. vm_compute. repeat split. Qed.

(** The facility given is forgotten at the first reload, and every start of milter-manager has one. *)
Theorem C74_facility_refuted : exists us m,
  manager_parse anything ex_user ex_user None us (manager_new ex_build [] (ex_files [])) = Some m /\
  us = [U_facility (lit "local7")] /\ log_facility (m_parent m) = Some (lit "local7") /\
  log_facility (m_parent (reloads ex_build [mk_load_event [] (ex_files []) ex_script ex_script] m)) = Some (lit "mail").
Proof. eexists _, _. split; [|split; [reflexivity|]]; [vm_compute; reflexivity | vm_compute; split; reflexivity]. Qed.
Print Assumptions C74_facility_refuted.

(** Mode 0 means no mode. *)
Theorem C74_mode_refuted : exists us m,
  manager_parse anything ex_user ex_user None us (manager_new ex_build [] (ex_files [])) = Some m /\
  us = [U_mode (lit "000")] /\ get_mode m = 432%N.
Proof. eexists _, _. split; [|split; [reflexivity|]]; [vm_compute; reflexivity | vm_compute; reflexivity]. Qed.
Print Assumptions C74_mode_refuted.

(** ** C75: what the command line leaves open is as the files read last say, and otherwise as the program
    was built; what earlier files said is forgotten. *)
Theorem C75_files_partial valid_spec user_of group_of b paths f env us m l es e :
  b_connection_spec b <> None ->
  manager_parse valid_spec user_of group_of env us (manager_new b paths f) = Some m ->
  map (asked user_of group_of) us = map Some l ->
  package_kept b (m_settings (reloads b es m)) ->
  let s := c_settings (fst (reload b (l_evaluate e) (l_evaluate_custom e)
                              (mk_configuration (l_paths e) (l_files e) (settings_new b)))) in
  let m' := reloads b (es ++ [e]) m in
  get_spec m' = or_else (last_asked pick_spec l) (s_manager_connection_spec s) /\
  get_pid_file m' = or_else (last_asked pick_pid_file l) (s_pid_file s) /\
  get_user m' = or_else (last_asked pick_user l) (s_effective_user s) /\
  get_group m' = or_else (last_asked pick_group l) (s_effective_group s) /\
  get_socket_group m' = or_else (last_asked pick_socket_group l) (s_manager_unix_socket_group s) /\
  get_n_workers m' = given (last_asked pick_n_workers l) (s_n_workers s) /\
  get_backend m' = given (last_asked pick_backend l) (s_event_loop_backend s) /\
  get_daemon m' = given (last_asked pick_daemon l) (s_daemon s) /\
  get_max_pending m' = given (last_asked pick_max_pending l) (s_max_pending_finished_sessions s) /\
  get_packet_buffer m' = s_default_packet_buffer_size s /\
  (last_asked pick_mode l = None -> s_manager_unix_socket_mode s <> 0%N -> get_mode m' = s_manager_unix_socket_mode s).
Proof.
  intros B P L K. cbv zeta. rewrite reloads_app. set (m0 := reloads b es m) in *.
  pose proof (reloads_keep b es l m (parse_keeps _ _ _ _ _ _ _ _ _ _ P L)) as (R & _ & _). fold m0 in R.
  assert (S : o_spec m0 = last_asked pick_spec l).
  { unfold m0. rewrite reloads_spec. exact (parse_spec _ _ _ _ _ _ _ _ _ _ B P L). }
  destruct (reload_facts b e m0) as (_ & (G1 & G2 & G3 & G4 & G5 & G6 & G7 & G8 & G9 & G10 & G11) & _).
  assert (E : loaded b e (m_settings m0) =
    c_settings (fst (reload b (l_evaluate e) (l_evaluate_custom e) (mk_configuration (l_paths e) (l_files e) (settings_new b))))).
  { unfold loaded. pose proof (C53_fresh_partial b (l_evaluate e) (l_evaluate_custom e) (mk_configuration (l_paths e) (l_files e) (m_settings m0)) K) as F.
    cbn [c_paths c_files] in F. rewrite F. reflexivity. }
  rewrite E in *. set (s := c_settings _) in *. clearbody s.
  destruct R as (R1 & R2 & R3 & R4 & R5 & R6 & R7 & R8 & R9 & _).
  rewrite G1, G2, G3, G4, G5, G6, G7, G8, G9, G10, G11, S, R1, R2, R3, R4, R6, R7, R8, R9.
  do 10 (split; [reflexivity|]). intros M Z. rewrite R5, M. cbn [given]. apply N.eqb_neq in Z. rewrite Z. reflexivity.
Qed.
Print Assumptions C75_files_partial.

(** The system log, while it is on. *)
Theorem C75_syslog_partial valid_spec user_of group_of b paths f env us m es e :
  manager_parse valid_spec user_of group_of env us (manager_new b paths f) = Some m ->
  package_kept b (m_settings (reloads b es m)) ->
  let s := c_settings (fst (reload b (l_evaluate e) (l_evaluate_custom e)
                              (mk_configuration (l_paths e) (l_files e) (settings_new b)))) in
  log_facility (m_parent (reloads b es m)) <> None ->
  log_facility (m_parent (reloads b (es ++ [e]) m)) =
  if s_use_syslog s then Some (given (s_syslog_facility s) (lit "mail")) else None.
Proof.
  intros P K s N. rewrite reloads_app. set (m0 := reloads b es m) in *.
  assert (L : logs_named (m_parent m0)) by (apply reloads_named, (parse_named _ _ _ _ _ _ _ _ _ P)).
  destruct (reload_log b e m0 L) as (H1 & H2 & _). cbv zeta in H1, H2.
  assert (E : loaded b e (m_settings m0) = s).
  { unfold loaded, s. pose proof (C53_fresh_partial b (l_evaluate e) (l_evaluate_custom e) (mk_configuration (l_paths e) (l_files e) (m_settings m0)) K) as F.
    cbn [c_paths c_files] in F. rewrite F. reflexivity. }
  rewrite E in H1, H2. destruct (s_use_syslog s); [exact (H2 eq_refl N)|exact (H1 eq_refl)].
Qed.
Print Assumptions C75_syslog_partial.

(** Turned on again with a facility, it logs with the one before. *)
Theorem C75_syslog_refuted : exists m,
  manager_parse anything ex_user ex_user None [] (manager_new ex_build [] (ex_files [])) = Some m /\
  log_facility (m_parent (reloads ex_build [ex_load (lit "local1")] m)) = Some (lit "local1") /\
  log_facility (m_parent (reloads ex_build [ex_load (lit "local1"); ex_load []] m)) = None /\
  log_facility (m_parent (reloads ex_build [ex_load (lit "local1"); ex_load []; ex_load (lit "local2")] m)) = Some (lit "local1").
Proof. eexists. split; [vm_compute; reflexivity|]. vm_compute. repeat split. Qed.
Print Assumptions C75_syslog_refuted.

(** ** C76: numbers on the command line are read as the C language writes them, and what is out of range
    or no number is refused. *)
Definition refuses_others {A : Type} (parse : bytes -> option A) : Prop :=
  forall v, v <> [] -> (forall n, ~ integer_text v n) -> parse v = None.

Ltac read_number v :=
  destruct (strtol v) as [[?n ?rest] ?e] eqn:?E.

Lemma no_integer v n rest e : strtol v = (n, rest, e) -> v <> [] -> (forall n, ~ integer_text v n) -> ends rest = false.
Proof.
  intros E N I. destruct rest; [|reflexivity]. destruct (integer_strtol _ _ _ E) as [->|[k K]]; [congruence|]. destruct (I k K).
Qed.

Lemma to_guint_small n : 0 <= n <= G_MAXUINT -> to_guint n = Z.to_N n.
Proof. unfold to_guint, G_MAXUINT. intros H. rewrite Z.mod_small by lia. reflexivity. Qed.

Theorem C76_packet_buffer :
  (forall v n, integer_text v n ->
     parse_packet_buffer v = if (0 <=? n) && (n <=? G_MAXUINT) then Some (Z.to_N n) else None) /\
  refuses_others parse_packet_buffer.
Proof.
  split.
  - intros v n I. unfold parse_packet_buffer. rewrite (strtol_integer v n I). cbn [ends negb]. unfold clamp, out_of_range, LONG_MIN, LONG_MAX, G_MAXUINT.
    destruct (Z.leb_spec 0 n), (Z.leb_spec n 4294967295); cbn [andb];
      destruct (Z.ltb_spec n (-9223372036854775808)); try lia; cbn [orb]; rewrite ?orb_true_r; try reflexivity;
      destruct (Z.ltb_spec 9223372036854775807 n); try lia; rewrite ?orb_true_r; try reflexivity;
      rewrite ?orb_false_r; destruct (Z.ltb_spec 4294967295 n); try lia; try reflexivity;
      destruct (Z.ltb_spec n 0); try lia; try reflexivity. rewrite to_guint_small by (unfold G_MAXUINT; lia). reflexivity.
  - intros v N I. unfold parse_packet_buffer. destruct (strtol v) as [[n rest] e] eqn:E. rewrite (no_integer _ _ _ _ E N I). reflexivity.
Qed.
Print Assumptions C76_packet_buffer.

(** Left out: negative numbers. *)
Theorem C76_n_workers_partial :
  (forall v n, integer_text v n -> 0 <= n -> parse_n_workers v = if n <=? 1000 then Some (Z.to_N n) else None) /\
  refuses_others parse_n_workers.
Proof.
  split.
  - intros v n I P. unfold parse_n_workers. rewrite (strtol_integer v n I). cbn [ends negb]. unfold clamp, out_of_range, LONG_MIN, LONG_MAX.
    destruct (Z.ltb_spec n (-9223372036854775808)); try lia; cbn [orb].
    destruct (Z.ltb_spec 9223372036854775807 n); rewrite ?orb_true_r, ?orb_false_r.
    + destruct (Z.leb_spec n 1000); [lia|reflexivity].
    + destruct (Z.leb_spec n 1000), (Z.ltb_spec 1000 n); try lia; [|reflexivity].
      rewrite to_guint_small by (unfold G_MAXUINT; lia). reflexivity.
  - intros v N I. unfold parse_n_workers. destruct (strtol v) as [[n rest] e] eqn:E. rewrite (no_integer _ _ _ _ E N I). reflexivity.
Qed.
Print Assumptions C76_n_workers_partial.

(** Left out: negative numbers. *)
Theorem C76_max_pending_partial :
  (forall v n, integer_text v n -> 0 <= n -> parse_max_pending v = if n <=? G_MAXUINT then Some (Z.to_N n) else None) /\
  refuses_others parse_max_pending.
Proof.
  split.
  - intros v n I P. unfold parse_max_pending. rewrite (strtol_integer v n I). cbn [ends negb]. unfold clamp, out_of_range, LONG_MIN, LONG_MAX, G_MAXUINT.
    destruct (Z.ltb_spec n (-9223372036854775808)); try lia; cbn [orb].
    destruct (Z.ltb_spec 9223372036854775807 n); rewrite ?orb_true_r, ?orb_false_r.
    + destruct (Z.leb_spec n 4294967295); [lia|reflexivity].
    + destruct (Z.leb_spec n 4294967295), (Z.ltb_spec 4294967295 n); try lia; [|reflexivity].
      rewrite to_guint_small by (unfold G_MAXUINT; lia). reflexivity.
  - intros v N I. unfold parse_max_pending. destruct (strtol v) as [[n rest] e] eqn:E. rewrite (no_integer _ _ _ _ E N I). reflexivity.
Qed.
Print Assumptions C76_max_pending_partial.

(** A user or group by number or by name.  Left out: numbers that are no user or group ID. *)
Theorem C76_account_partial name_of :
  (forall v n, integer_text v n -> 0 <= n <= G_MAXUINT ->
     name_or_id name_of v = given (name_of (Z.to_N n)) v /\ id_only name_of v = name_of (Z.to_N n)) /\
  (forall v, v <> [] -> (forall n, ~ integer_text v n) -> name_or_id name_of v = v) /\
  refuses_others (id_only name_of).
Proof.
  split; [|split].
  - intros v n I R.
    assert (E : strtol v = (n, [], false)).
    { rewrite (strtol_integer v n I). unfold clamp, out_of_range, LONG_MIN, LONG_MAX, G_MAXUINT in *.
      destruct (Z.ltb_spec n (-9223372036854775808)); [lia|]. destruct (Z.ltb_spec 9223372036854775807 n); [lia|]. reflexivity. }
    unfold name_or_id, id_only. rewrite E. cbn [ends]. rewrite to_guint_small by exact R. split; [|reflexivity].
    destruct (name_of (Z.to_N n)); reflexivity.
  - intros v N I. unfold name_or_id. destruct (strtol v) as [[n rest] e] eqn:E. rewrite (no_integer _ _ _ _ E N I). reflexivity.
  - intros v N I. unfold id_only. destruct (strtol v) as [[n rest] e] eqn:E. rewrite (no_integer _ _ _ _ E N I). reflexivity.
Qed.
Print Assumptions C76_account_partial.

Lemma one_text : integer_text (lit "-1") (-1).
Proof.
  apply (I_negative [] (lit "1") 1); [intros x []|]. apply M_decimal; [discriminate|]. apply N_one. split; [lia|reflexivity].
Qed.

Example C76_example :
  integer_text (lit " 0x1F") 31 /\ parse_n_workers (lit " 0x1F") = Some 31%N /\ parse_n_workers (lit "1001") = None /\
  parse_packet_buffer (lit "4k") = None /\ name_or_id ex_user (lit "0144") = lit "milter" /\ name_or_id ex_user (lit "9") = lit "9".
Proof.
  split; [|vm_compute; repeat split].
  apply (I_positive [" "%char] [] (lit "0x1F") 31); [intros x [<-|[]]; left; reflexivity | left; reflexivity |].
  apply (M_hexadecimal "x" (lit "1F") 31); [left; reflexivity|].
  apply (N_more 16 (lit "1") 1 "F" 15); [|split; [lia|reflexivity]]. apply N_one. split; [lia|reflexivity].
Qed.

(** Negative numbers of workers and of sessions are accepted and become huge. *)
Theorem C76_negative_refuted : exists v n, integer_text v n /\ n < 0 /\
  parse_n_workers v = Some 4294967295%N /\ parse_max_pending v = Some 4294967295%N.
Proof. exists (lit "-1"), (-1). split; [exact one_text|]. split; [lia|]. split; reflexivity. Qed.
Print Assumptions C76_negative_refuted.

(** Nothing at all is the number 0, which as a user is root. *)
Theorem C76_empty_refuted name_of root : name_of 0%N = Some root ->
  (forall n, ~ integer_text [] n) /\ parse_n_workers [] = Some 0%N /\ parse_packet_buffer [] = Some 0%N /\
  parse_max_pending [] = Some 0%N /\ name_or_id name_of [] = root /\ id_only name_of [] = Some root.
Proof.
  intros H. split.
  { intros n I. inversion I as [sp sign s v W S M E | sp s v W M E]; subst.
    - apply app_eq_nil in E. destruct E as [-> E]. apply app_eq_nil in E. destruct E as [-> E]. subst s. inversion M.
    - apply app_eq_nil in E. destruct E as [-> E]. discriminate. }
  do 3 (split; [reflexivity|]). unfold name_or_id, id_only. rewrite strtol_empty. cbn [ends]. change (to_guint 0) with 0%N.
  rewrite H. split; reflexivity.
Qed.
Print Assumptions C76_empty_refuted.

(** 2^32 is root too. *)
Theorem C76_wraps_refuted name_of root : name_of 0%N = Some root ->
  name_or_id name_of (lit "4294967296") = root /\ id_only name_of (lit "4294967296") = Some root.
Proof.
  intros H. unfold name_or_id, id_only. change (strtol (lit "4294967296")) with (4294967296, @nil ascii, false).
  cbn [ends]. change (to_guint 4294967296) with 0%N. rewrite H. split; reflexivity.
Qed.
Print Assumptions C76_wraps_refuted.

(** ** C77: other milter programs start exactly if every option has an acceptable value, and then the last
    of each kind counts. *)
Theorem C77_starts valid_spec user_of group_of env us :
  (exists p, client_parse valid_spec user_of group_of env us parent_new = Some p) <->
  (exists l, map (asked user_of group_of) us = map Some l /\ forall v, In (A_spec v) l -> valid_spec v = true).
Proof.
  unfold client_parse. split.
  - intros [p P]. destruct (client_options valid_spec user_of group_of us parent_new) as [p0|] eqn:E; [|discriminate].
    exact (coptions_valid _ _ _ _ _ _ E).
  - intros (l & L & V). destruct (coptions_starts valid_spec user_of group_of us parent_new l L V) as [p E]. rewrite E. eauto.
Qed.
Print Assumptions C77_starts.

Theorem C77_last_partial valid_spec user_of group_of env us p l :
  client_parse valid_spec user_of group_of env us parent_new = Some p ->
  map (asked user_of group_of) us = map Some l ->
  p_spec p = match last_asked pick_spec l with
             | Some v => Some v
             | None => let v := given env (lit "inet:10025@[127.0.0.1]") in if valid_spec v then Some v else None
             end /\
  p_pid_file p = last_asked pick_pid_file l /\ p_user p = last_asked pick_user l /\
  p_group p = last_asked pick_group l /\ p_socket_group p = last_asked pick_socket_group l /\
  (last_asked pick_mode l <> Some 0%N -> client_mode p = given (last_asked pick_mode l) 432%N) /\
  p_n_workers p = given (last_asked pick_n_workers l) 0%N /\ p_backend p = last_asked pick_backend l /\
  p_daemon p = given (last_asked pick_daemon l) false /\
  p_max_pending p = given (last_asked pick_max_pending l) 0%N /\
  p_packet_buffer p = given (last_asked pick_packet_buffer l) 0%N.
Proof.
  intros P L. destruct (cparse_remember _ _ _ _ _ _ _ P L) as ((R1 & R2 & R3 & R4 & R5 & R6 & R7 & R8 & R9 & R10) & S).
  split; [rewrite S; destruct (last_asked pick_spec l); [reflexivity|]; destruct env; reflexivity|].
  do 4 (split; [assumption|]). split; [|do 4 (split; [assumption|]); assumption].
  intros N. unfold client_mode. rewrite R5. destruct (last_asked pick_mode l) as [n|]; [|reflexivity]. cbn [given].
  destruct (N.eqb_spec n 0); [subst n; congruence|reflexivity].
Qed.
Print Assumptions C77_last_partial.

Example C77_example : exists p,
  client_parse (fun s => negb (bytes_eqb s (lit "bad"))) ex_user ex_user (Some (lit "inet:1")) [U_daemon; U_mode (lit "600"); U_no_daemon; U_packet_buffer (lit "10")] parent_new = Some p /\
  p_spec p = Some (lit "inet:1") /\ p_daemon p = false /\ client_mode p = 384%N /\ p_packet_buffer p = 10%N.
Proof. eexists. split; [vm_compute; reflexivity|]. vm_compute. repeat split. Qed.

(** Each option asks for the setting it is named after.  Left out: the mode (C76) and values that are not
    as they should be (C76). *)
Theorem C77_meaning_partial user_of group_of u a : means user_of group_of u a -> asked user_of group_of u = Some a.
Proof.
  assert (AC : forall name_of v name, account name_of v name -> name_or_id name_of v = name).
  { intros name_of v name [(n & I & R & H)|(N & I & ->)].
    - rewrite (proj1 (proj1 (C76_account_partial name_of) v n I R)). destruct H as [-> | [-> ->]]; reflexivity.
    - exact (proj1 (proj2 (C76_account_partial name_of)) v N I). }
  assert (ID : forall name_of v n name, integer_text v n -> 0 <= n <= G_MAXUINT -> name_of (Z.to_N n) = Some name -> id_only name_of v = Some name).
  { intros name_of v n name I R H. rewrite (proj2 (proj1 (C76_account_partial name_of) v n I R)). exact H. }
  intros H. destruct H; cbn [asked]; try reflexivity.
  - rewrite (AC _ _ _ H). reflexivity.
  - rewrite (ID _ _ _ _ H H0 H1). reflexivity.
  - rewrite (AC _ _ _ H). reflexivity.
  - rewrite (ID _ _ _ _ H H0 H1). reflexivity.
  - rewrite (proj1 C76_n_workers_partial v n H) by lia. destruct (Z.leb_spec n 1000); [reflexivity|lia].
  - rewrite (proj1 C76_packet_buffer v n H). destruct (Z.leb_spec 0 n), (Z.leb_spec n G_MAXUINT); try lia. reflexivity.
  - rewrite (proj1 C76_max_pending_partial v n H) by lia. destruct (Z.leb_spec n G_MAXUINT); [reflexivity|lia].
Qed.
Print Assumptions C77_meaning_partial.
Example C77_meaning_example : means ex_user ex_user (U_user (lit "100")) (A_user (lit "milter")) /\ means ex_user ex_user (U_user_name (lit "100")) (A_user (lit "100")).
Proof.
  split; [|constructor]. constructor. left. exists 100. split.
  - apply (I_positive [] [] (lit "100") 100); [intros x []|left; reflexivity|]. apply M_decimal; [discriminate|].
    apply (N_more 10 (lit "10") 10 "0" 0); [|split; [lia|reflexivity]].
    apply (N_more 10 (lit "1") 1 "0" 0); [|split; [lia|reflexivity]]. apply N_one. split; [lia|reflexivity].
  - split; [unfold G_MAXUINT; lia|]. left. reflexivity.
Qed.

(** The program logs to the system log exactly if asked to, with the facility given last, wherever that
    stands. *)
Theorem C77_syslog valid_spec user_of group_of env us p l :
  client_parse valid_spec user_of group_of env us parent_new = Some p ->
  map (asked user_of group_of) us = map Some l ->
  log_facility p = if existsb is_syslog l then Some (given (last_asked pick_facility l) (lit "mail")) else None.
Proof.
  intros P L. destruct (cparse_syslog _ _ _ _ _ _ _ P L) as [F G]. unfold log_facility. rewrite G. destruct (existsb is_syslog l); [|reflexivity].
  destruct (last_asked pick_facility l); reflexivity.
Qed.
Print Assumptions C77_syslog.
Example C77_syslog_example : exists p q,
  client_parse anything ex_user ex_user None [U_syslog; U_facility (lit "local1"); U_facility (lit "local2")] parent_new = Some p /\ log_facility p = Some (lit "local2") /\
  client_parse anything ex_user ex_user None [U_facility (lit "local1")] parent_new = Some q /\ log_facility q = None.
Proof. eexists _, _. split; [vm_compute; reflexivity|]. split; [reflexivity|]. split; [vm_compute; reflexivity|reflexivity]. Qed.

(** A spec that is refused takes the one before with it. *)
Theorem C77_spec_refuted : exists valid_spec p, p_spec p = Some (lit "inet:1") /\
  snd (client_set_spec valid_spec (Some (lit "bad")) p) = false /\ p_spec (fst (client_set_spec valid_spec (Some (lit "bad")) p)) = None.
Proof. exists (fun _ => false), (p_set_spec (Some (lit "inet:1")) parent_new). repeat split. Qed.
Print Assumptions C77_spec_refuted.
