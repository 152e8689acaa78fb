(** Model of the options every milter program has (milter/client/milter-client-main.c), of the settings
    a MilterClient keeps (milter/client/milter-client.c) and of how milter-manager combines them with
    its configuration (milter/manager/milter-manager.c). *)
From Verif.Base Require Import Bytes.
From Verif.Model Require Import Status Encoder Egg Configuration FileMode.
Local Open Scope Z_scope.

(** ** strtol of the C library with base 0 and a 64-bit long, in the C locale *)

Definition is_space (c : byte) : bool := (code c =? 32)%N || ((9 <=? code c)%N && (code c <=? 13)%N).

Fixpoint skip_spaces (s : bytes) : bytes :=
  match s with
  | c :: s' => if is_space c then skip_spaces s' else s
  | [] => []
  end.

Definition digit_value (c : byte) : option Z :=
  let c := Z.of_N (code c) in
  if (48 <=? c) && (c <=? 57) then Some (c - 48)
  else if (65 <=? c) && (c <=? 90) then Some (c - 55)
  else if (97 <=? c) && (c <=? 122) then Some (c - 87)
  else None.

Definition digit_in (base : Z) (c : byte) : option Z :=
  match digit_value c with
  | Some d => if d <? base then Some d else None
  | None => None
  end.

Fixpoint read_digits (base acc : Z) (s : bytes) : Z * bytes :=
  match s with
  | c :: s' => match digit_in base c with
               | Some d => read_digits base (acc * base + d) s'
               | None => (acc, s)
               end
  | [] => (acc, [])
  end.

Definition LONG_MAX : Z := 9223372036854775807.
Definition LONG_MIN : Z := -9223372036854775808.

(** The value, what follows the number (the whole text if there is none), and whether errno is
    ERANGE. *)
Definition strtol (s : bytes) : Z * bytes * bool :=
  let s1 := skip_spaces s in
  let '(negative, s2) :=
    match s1 with
    | c :: s' => if beqb c "-" then (true, s') else if beqb c "+" then (false, s') else (false, s1)
    | [] => (false, s1)
    end in
  let number :=
    match s2 with
    | a :: x :: d :: t =>
        if beqb a "0" && (beqb x "x" || beqb x "X") then
          match digit_in 16 d with
          | Some _ => Some (read_digits 16 0 (d :: t))
          | None => Some (0, x :: d :: t)
          end
        else if beqb a "0" then Some (read_digits 8 0 s2)
        else match digit_in 10 a with Some _ => Some (read_digits 10 0 s2) | None => None end
    | a :: _ =>
        if beqb a "0" then Some (read_digits 8 0 s2)
        else match digit_in 10 a with Some _ => Some (read_digits 10 0 s2) | None => None end
    | [] => None
    end in
  match number with
  | None => (0, s, false)
  | Some (v, rest) =>
      let v := if negative then - v else v in
      if v <? LONG_MIN then (LONG_MIN, rest, true)
      else if LONG_MAX <? v then (LONG_MAX, rest, true)
      else (v, rest, false)
  end.

(** A long handed to a parameter of type guint, uid_t or gid_t. *)
Definition to_guint (v : Z) : N := Z.to_N (v mod 4294967296).
Definition G_MAXUINT : Z := 4294967295.

(** ** A MilterClient's own settings *)

(** MilterClientPrivate, milter-client.c:77-134, as far as options reach it.  [p_backend] is [None] for
    MILTER_CLIENT_EVENT_LOOP_BACKEND_DEFAULT.  [p_logger] is the facility the running MilterSyslogLogger
    was made with. *)
Record parent := mk_parent {
  p_spec : option bytes;
  p_pid_file : option bytes;
  p_user : option bytes;
  p_group : option bytes;
  p_mode : N;
  p_socket_group : option bytes;
  p_n_workers : N;
  p_backend : option backend;
  p_daemon : bool;
  p_max_pending : N;
  p_packet_buffer : N;
  p_facility : option bytes;
  p_logger : option (option bytes)
}.

(** _milter_client_init, milter-client.c:481-543. *)
Definition parent_new : parent :=
  mk_parent None None None None 0 None 0 None false 0 0 None None.

Definition p_set_spec v p := mk_parent v (p_pid_file p) (p_user p) (p_group p) (p_mode p) (p_socket_group p)
  (p_n_workers p) (p_backend p) (p_daemon p) (p_max_pending p) (p_packet_buffer p) (p_facility p) (p_logger p).
(** set_pid_file, milter-client.c:3240-3249. *)
Definition p_set_pid_file v p := mk_parent (p_spec p) v (p_user p) (p_group p) (p_mode p) (p_socket_group p)
  (p_n_workers p) (p_backend p) (p_daemon p) (p_max_pending p) (p_packet_buffer p) (p_facility p) (p_logger p).
(** set_effective_user, 2774-2782. *)
Definition p_set_user v p := mk_parent (p_spec p) (p_pid_file p) v (p_group p) (p_mode p) (p_socket_group p)
  (p_n_workers p) (p_backend p) (p_daemon p) (p_max_pending p) (p_packet_buffer p) (p_facility p) (p_logger p).
(** set_effective_group, 2809-2817. *)
Definition p_set_group v p := mk_parent (p_spec p) (p_pid_file p) (p_user p) v (p_mode p) (p_socket_group p)
  (p_n_workers p) (p_backend p) (p_daemon p) (p_max_pending p) (p_packet_buffer p) (p_facility p) (p_logger p).
(** set_unix_socket_mode, 2594-2601. *)
Definition p_set_mode v p := mk_parent (p_spec p) (p_pid_file p) (p_user p) (p_group p) v (p_socket_group p)
  (p_n_workers p) (p_backend p) (p_daemon p) (p_max_pending p) (p_packet_buffer p) (p_facility p) (p_logger p).
(** set_unix_socket_group, 2647-2656. *)
Definition p_set_socket_group v p := mk_parent (p_spec p) (p_pid_file p) (p_user p) (p_group p) (p_mode p) v
  (p_n_workers p) (p_backend p) (p_daemon p) (p_max_pending p) (p_packet_buffer p) (p_facility p) (p_logger p).
(** set_n_workers, 3089-3096. *)
Definition p_set_n_workers v p := mk_parent (p_spec p) (p_pid_file p) (p_user p) (p_group p) (p_mode p) (p_socket_group p)
  v (p_backend p) (p_daemon p) (p_max_pending p) (p_packet_buffer p) (p_facility p) (p_logger p).
(** set_event_loop_backend, 3054-3062. *)
Definition p_set_backend v p := mk_parent (p_spec p) (p_pid_file p) (p_user p) (p_group p) (p_mode p) (p_socket_group p)
  (p_n_workers p) v (p_daemon p) (p_max_pending p) (p_packet_buffer p) (p_facility p) (p_logger p).
(** set_run_as_daemon, 3287-3291. *)
Definition p_set_daemon v p := mk_parent (p_spec p) (p_pid_file p) (p_user p) (p_group p) (p_mode p) (p_socket_group p)
  (p_n_workers p) (p_backend p) v (p_max_pending p) (p_packet_buffer p) (p_facility p) (p_logger p).
(** set_max_pending_finished_sessions, 3317-3324. *)
Definition p_set_max_pending v p := mk_parent (p_spec p) (p_pid_file p) (p_user p) (p_group p) (p_mode p) (p_socket_group p)
  (p_n_workers p) (p_backend p) (p_daemon p) v (p_packet_buffer p) (p_facility p) (p_logger p).
(** milter_client_set_default_packet_buffer_size without a class function, 3191-3197. *)
Definition p_set_packet_buffer v p := mk_parent (p_spec p) (p_pid_file p) (p_user p) (p_group p) (p_mode p) (p_socket_group p)
  (p_n_workers p) (p_backend p) (p_daemon p) (p_max_pending p) v (p_facility p) (p_logger p).
Definition p_with_syslog f l p := mk_parent (p_spec p) (p_pid_file p) (p_user p) (p_group p) (p_mode p) (p_socket_group p)
  (p_n_workers p) (p_backend p) (p_daemon p) (p_max_pending p) (p_packet_buffer p) f l.

(** milter_client_start_syslog, 2969-2984, and milter_client_stop_syslog, 2986-2993. *)
Definition start_syslog (p : parent) : parent := p_with_syslog (p_facility p) (Some (p_facility p)) p.
Definition stop_syslog (p : parent) : parent := p_with_syslog (p_facility p) None p.

Definition same_facility (a b : option bytes) : bool :=
  match a, b with
  | None, None => true
  | Some a, Some b => bytes_eqb a b
  | _, _ => false
  end.

(** milter_client_set_syslog_facility, 2945-2967. *)
Definition set_syslog_facility (f : option bytes) (p : parent) : parent :=
  if same_facility (p_facility p) f then p
  else
    let p := p_with_syslog f (p_logger p) p in
    match p_logger p with
    | Some _ => start_syslog p
    | None => p
    end.

Section Programs.
  (** milter_connection_parse_spec succeeds; getpwuid and getgrgid. *)
  Variable valid_spec : bytes -> bool.
  Variable user_of : N -> option bytes.
  Variable group_of : N -> option bytes.

  (** set_connection_spec, milter-client.c:1112-1132. *)
  Definition client_set_spec (v : option bytes) (p : parent) : parent * bool :=
    let p := p_set_spec None p in
    match v with
    | None => (p, true)
    | Some s => if valid_spec s then (p_set_spec v p, true) else (p, false)
    end.

  (** ** The options, milter-client-main.c:599-668; those of the logger (log-level, log-path, verbose,
      quiet) are left out. *)
  Inductive use :=
  | U_spec (v : bytes) | U_syslog | U_facility (v : bytes) | U_daemon | U_no_daemon
  | U_user (v : bytes) | U_user_id (v : bytes) | U_user_name (v : bytes)
  | U_group (v : bytes) | U_group_id (v : bytes) | U_group_name (v : bytes)
  | U_socket_group (v : bytes) | U_socket_group_name (v : bytes) | U_mode (v : bytes)
  | U_n_workers (v : bytes) | U_backend (v : bytes) | U_packet_buffer (v : bytes)
  | U_pid_file (v : bytes) | U_max_pending (v : bytes).

  (** The setting an option asks for. *)
  Inductive ask :=
  | A_spec (v : bytes) | A_syslog | A_facility (v : bytes) | A_daemon (b : bool)
  | A_user (v : bytes) | A_group (v : bytes) | A_socket_group (v : bytes) | A_mode (m : N)
  | A_n_workers (n : N) | A_backend (b : backend) | A_packet_buffer (n : N)
  | A_pid_file (v : bytes) | A_max_pending (n : N).

  Definition ends (s : bytes) : bool := match s with [] => true | _ => false end.

  (** parse_user, 215-240, and parse_group, 288-313. *)
  Definition name_or_id (name_of : N -> option bytes) (v : bytes) : bytes :=
    let '(id, rest, _) := strtol v in
    if ends rest then
      match name_of (to_guint id) with Some name => name | None => v end
    else v.

  (** parse_user_id, 242-274, and parse_group_id, 315-347. *)
  Definition id_only (name_of : N -> option bytes) (v : bytes) : option bytes :=
    let '(id, rest, _) := strtol v in
    if ends rest then name_of (to_guint id) else None.

  (** parse_n_workers, 417-450; MILTER_CLIENT_MAX_N_WORKERS is 1000. *)
  Definition parse_n_workers (v : bytes) : option N :=
    let '(n, rest, erange) := strtol v in
    if negb (ends rest) then None
    else if (1000 <? n) || erange then None
    else Some (to_guint n).

  (** parse_packet_buffer_size, 482-527. *)
  Definition parse_packet_buffer (v : bytes) : option N :=
    let '(n, rest, erange) := strtol v in
    if negb (ends rest) then None
    else if (G_MAXUINT <? n) || erange then None
    else if n <? 0 then None
    else Some (to_guint n).

  (** parse_max_pending_finished_sessions, 564-597. *)
  Definition parse_max_pending (v : bytes) : option N :=
    let '(n, rest, erange) := strtol v in
    if negb (ends rest) then None
    else if (G_MAXUINT <? n) || erange then None
    else Some (to_guint n).

  (** parse_event_loop_backend, 452-480; the nick "default", which the enumeration has too, is left
      out. *)
  Definition parse_backend (v : bytes) : option backend :=
    if bytes_eqb v (lit "glib") then Some GLIB
    else if bytes_eqb v (lit "libev") then Some LIBEV
    else None.

  (** What the callbacks ask for; [None] when they fail before they set anything. *)
  Definition asked (u : use) : option ask :=
    match u with
    | U_spec v => Some (A_spec v)
    | U_syslog => Some A_syslog
    | U_facility v => Some (A_facility v)
    | U_daemon => Some (A_daemon true)
    | U_no_daemon => Some (A_daemon false)
    | U_user v => Some (A_user (name_or_id user_of v))
    | U_user_id v => option_map A_user (id_only user_of v)
    | U_user_name v => Some (A_user v)
    | U_group v => Some (A_group (name_or_id group_of v))
    | U_group_id v => option_map A_group (id_only group_of v)
    | U_group_name v => Some (A_group v)
    | U_socket_group v | U_socket_group_name v => Some (A_socket_group v)
    | U_mode v => option_map A_mode (parse_file_mode v)
    | U_n_workers v => option_map A_n_workers (parse_n_workers v)
    | U_backend v => option_map A_backend (parse_backend v)
    | U_packet_buffer v => option_map A_packet_buffer (parse_packet_buffer v)
    | U_pid_file v => Some (A_pid_file v)
    | U_max_pending v => option_map A_max_pending (parse_max_pending v)
    end.

  (** *** A plain milter program *)
  Definition client_set (a : ask) (p : parent) : parent * bool :=
    match a with
    | A_spec v => client_set_spec (Some v) p
    | A_syslog => (start_syslog p, true)
    | A_facility v => (set_syslog_facility (Some v) p, true)
    | A_daemon d => (p_set_daemon d p, true)
    | A_user v => (p_set_user (Some v) p, true)
    | A_group v => (p_set_group (Some v) p, true)
    | A_socket_group v => (p_set_socket_group (Some v) p, true)
    | A_mode m => (p_set_mode m p, true)
    | A_n_workers n => (p_set_n_workers n p, true)
    | A_backend k => (p_set_backend (Some k) p, true)
    | A_packet_buffer n => (p_set_packet_buffer n p, true)
    | A_pid_file v => (p_set_pid_file (Some v) p, true)
    | A_max_pending n => (p_set_max_pending n p, true)
    end.

  (** hook_post_parse, 670-694.  [env] is MILTER_DEFAULT_CONNECTION_SPEC in the environment. *)
  Definition fallback_spec (env : option bytes) : bytes :=
    match env with Some s => s | None => lit "inet:10025@[127.0.0.1]" end.

  (** g_option_context_parse with these options only: the callbacks in the order of the options, the
      first failure ends it and the program exits. *)
  Fixpoint client_options (us : list use) (p : parent) : option parent :=
    match us with
    | [] => Some p
    | u :: us =>
        match asked u with
        | None => None
        | Some a => let '(p, ok) := client_set a p in if ok then client_options us p else None
        end
    end.

  Definition client_parse (env : option bytes) (us : list use) (p : parent) : option parent :=
    match client_options us p with
    | None => None
    | Some p =>
        Some (match p_spec p with
              | Some _ => p
              | None => fst (client_set_spec (Some (fallback_spec env)) p)
              end)
    end.

  (** milter_client_get_unix_socket_mode, milter-client.c:2581-2592, with the default mode 0660, 505. *)
  Definition client_mode (p : parent) : N := if (p_mode p =? 0)%N then 432%N else p_mode p.

  (** *** milter-manager *)

  (** MilterManagerPrivate, milter-manager.c:41-60, as far as settings are concerned. *)
  Record manager := mk_manager {
    m_parent : parent;
    m_conf : configuration;
    m_custom_n_workers : bool;
    m_custom_daemon : bool;
    m_custom_max_pending : bool
  }.

  Definition m_with_parent (m : manager) (p : parent) : manager :=
    mk_manager p (m_conf m) (m_custom_n_workers m) (m_custom_daemon m) (m_custom_max_pending m).
  Definition m_with_settings (m : manager) (s : settings) : manager :=
    mk_manager (m_parent m) (with_settings (m_conf m) s) (m_custom_n_workers m) (m_custom_daemon m)
      (m_custom_max_pending m).
  Definition m_settings (m : manager) : settings := c_settings (m_conf m).

  (** milter_manager_new, 352-361, on a new configuration. *)
  Definition manager_new (b : build) (paths : list bytes) (f : files) : manager :=
    mk_manager (start_syslog (set_syslog_facility (Some (lit "mail")) parent_new))
      (mk_configuration paths f (settings_new b)) false false false.

  Definition with_spec v s := mk_settings (s_handlers s) (s_eggs s) (s_conditions s) (s_privilege_mode s)
    (s_controller_connection_spec s) v (s_fallback_status s) (s_fallback_status_at_disconnect s)
    (s_package_platform s) (s_package_options s) (s_effective_user s) (s_effective_group s)
    (s_manager_unix_socket_mode s) (s_controller_unix_socket_mode s) (s_manager_unix_socket_group s)
    (s_controller_unix_socket_group s) (s_remove_manager_unix_socket_on_close s)
    (s_remove_controller_unix_socket_on_close s) (s_remove_manager_unix_socket_on_create s)
    (s_remove_controller_unix_socket_on_create s) (s_daemon s) (s_pid_file s) (s_maintenance_interval s)
    (s_suspend_time_on_unacceptable s) (s_max_connections s) (s_max_file_descriptors s)
    (s_custom_configuration_directory s) (s_locations s) (s_connection_check_interval s)
    (s_event_loop_backend s) (s_n_workers s) (s_default_packet_buffer_size s) (s_use_syslog s)
    (s_syslog_facility s) (s_chunk_size s) (s_max_pending_finished_sessions s).

  (** milter_manager_configuration_set_effective_user and _group, _set_manager_unix_socket_mode and
      _group, _set_pid_file, milter-manager-configuration.c:1293-1380, 1501-1511. *)
  Definition with_account u g mode sg pid s := mk_settings (s_handlers s) (s_eggs s) (s_conditions s)
    (s_privilege_mode s)
    (s_controller_connection_spec s) (s_manager_connection_spec s) (s_fallback_status s)
    (s_fallback_status_at_disconnect s)
    (s_package_platform s) (s_package_options s) u g
    mode (s_controller_unix_socket_mode s) sg
    (s_controller_unix_socket_group s) (s_remove_manager_unix_socket_on_close s)
    (s_remove_controller_unix_socket_on_close s) (s_remove_manager_unix_socket_on_create s)
    (s_remove_controller_unix_socket_on_create s) (s_daemon s) pid (s_maintenance_interval s)
    (s_suspend_time_on_unacceptable s) (s_max_connections s) (s_max_file_descriptors s)
    (s_custom_configuration_directory s) (s_locations s) (s_connection_check_interval s)
    (s_event_loop_backend s) (s_n_workers s) (s_default_packet_buffer_size s) (s_use_syslog s)
    (s_syslog_facility s) (s_chunk_size s) (s_max_pending_finished_sessions s).
  Definition with_user v s := with_account v (s_effective_group s) (s_manager_unix_socket_mode s)
    (s_manager_unix_socket_group s) (s_pid_file s) s.
  Definition with_group v s := with_account (s_effective_user s) v (s_manager_unix_socket_mode s)
    (s_manager_unix_socket_group s) (s_pid_file s) s.
  Definition with_mode v s := with_account (s_effective_user s) (s_effective_group s) v
    (s_manager_unix_socket_group s) (s_pid_file s) s.
  Definition with_socket_group v s := with_account (s_effective_user s) (s_effective_group s)
    (s_manager_unix_socket_mode s) v (s_pid_file s) s.
  Definition with_pid_file v s := with_account (s_effective_user s) (s_effective_group s)
    (s_manager_unix_socket_mode s) (s_manager_unix_socket_group s) v s.

  (** milter_manager_configuration_set_daemon, 1485-1493, _set_event_loop_backend ...
      _set_default_packet_buffer_size, 2354-2400, _set_max_pending_finished_sessions, 2477-2485. *)
  Definition with_process d k n buffer pending s := mk_settings (s_handlers s) (s_eggs s) (s_conditions s)
    (s_privilege_mode s)
    (s_controller_connection_spec s) (s_manager_connection_spec s) (s_fallback_status s)
    (s_fallback_status_at_disconnect s)
    (s_package_platform s) (s_package_options s) (s_effective_user s) (s_effective_group s)
    (s_manager_unix_socket_mode s) (s_controller_unix_socket_mode s) (s_manager_unix_socket_group s)
    (s_controller_unix_socket_group s) (s_remove_manager_unix_socket_on_close s)
    (s_remove_controller_unix_socket_on_close s) (s_remove_manager_unix_socket_on_create s)
    (s_remove_controller_unix_socket_on_create s) d (s_pid_file s) (s_maintenance_interval s)
    (s_suspend_time_on_unacceptable s) (s_max_connections s) (s_max_file_descriptors s)
    (s_custom_configuration_directory s) (s_locations s) (s_connection_check_interval s)
    k n buffer (s_use_syslog s)
    (s_syslog_facility s) (s_chunk_size s) pending.
  Definition with_daemon v s := with_process v (s_event_loop_backend s) (s_n_workers s)
    (s_default_packet_buffer_size s) (s_max_pending_finished_sessions s) s.
  Definition with_backend v s := with_process (s_daemon s) v (s_n_workers s)
    (s_default_packet_buffer_size s) (s_max_pending_finished_sessions s) s.
  Definition with_n_workers v s := with_process (s_daemon s) (s_event_loop_backend s) v
    (s_default_packet_buffer_size s) (s_max_pending_finished_sessions s) s.
  Definition with_packet_buffer v s := with_process (s_daemon s) (s_event_loop_backend s) (s_n_workers s)
    v (s_max_pending_finished_sessions s) s.
  Definition with_max_pending v s := with_process (s_daemon s) (s_event_loop_backend s) (s_n_workers s)
    (s_default_packet_buffer_size s) v s.

  (** The setters of milter-manager.c: set_connection_spec 851-871, set_unix_socket_mode 895-911,
      set_unix_socket_group 934-950, set_effective_user 1041-1057, set_effective_group 1081-1097,
      set_default_packet_buffer_size 1139-1151, set_pid_file 1174-1189, set_n_workers 1248-1263,
      set_event_loop_backend 1287-1303, set_run_as_daemon 1328-1343, set_max_pending_finished_sessions
      1380-1396.  Syslog is the parent's alone. *)
  Definition manager_set (a : ask) (m : manager) : manager * bool :=
    let '(p, ok) := client_set a (m_parent m) in
    let s := m_settings m in
    match a with
    | A_spec v =>
        (if ok then m_with_settings (m_with_parent m p) (with_spec (Some v) s) else m_with_parent m p, ok)
    | A_syslog | A_facility _ => (m_with_parent m p, true)
    | A_daemon d =>
        (mk_manager p (with_settings (m_conf m) (with_daemon d s)) (m_custom_n_workers m) true
           (m_custom_max_pending m), true)
    | A_user v => (m_with_settings (m_with_parent m p) (with_user (Some v) s), true)
    | A_group v => (m_with_settings (m_with_parent m p) (with_group (Some v) s), true)
    | A_socket_group v => (m_with_settings (m_with_parent m p) (with_socket_group (Some v) s), true)
    | A_mode v => (m_with_settings (m_with_parent m p) (with_mode v s), true)
    | A_n_workers n =>
        (mk_manager p (with_settings (m_conf m) (with_n_workers n s)) true (m_custom_daemon m)
           (m_custom_max_pending m), true)
    | A_backend k => (m_with_settings (m_with_parent m p) (with_backend k s), true)
    | A_packet_buffer n => (m_with_settings m (with_packet_buffer n s), true)
    | A_pid_file v => (m_with_settings (m_with_parent m p) (with_pid_file (Some v) s), true)
    | A_max_pending n =>
        (mk_manager p (with_settings (m_conf m) (with_max_pending n s)) (m_custom_n_workers m)
           (m_custom_daemon m) true, true)
    end.

  (** The getters: get_connection_spec 828-849, get_unix_socket_mode 873-893, get_unix_socket_group
      913-932, get_effective_user 1019-1039, get_effective_group 1059-1079, get_pid_file 1153-1172,
      get_n_workers 1225-1246, get_event_loop_backend 1265-1285, is_run_as_daemon 1305-1326,
      get_max_pending_finished_sessions 1356-1378, get_default_packet_buffer_size 1126-1137; mode and
      socket group through milter_client_get_unix_socket_mode and _group (milter-client.c:2581-2592,
      2633-2645), whose defaults are 0660 and none. *)
  Definition or_else (a b : option bytes) : option bytes := match a with Some _ => a | None => b end.
  Definition get_spec (m : manager) := or_else (s_manager_connection_spec (m_settings m)) (p_spec (m_parent m)).
  Definition get_mode (m : manager) : N :=
    let mode := s_manager_unix_socket_mode (m_settings m) in
    let mode := if (mode =? 0)%N then p_mode (m_parent m) else mode in
    if (mode =? 0)%N then 432%N else mode.
  Definition get_socket_group (m : manager) :=
    or_else (s_manager_unix_socket_group (m_settings m)) (p_socket_group (m_parent m)).
  Definition get_user (m : manager) := or_else (s_effective_user (m_settings m)) (p_user (m_parent m)).
  Definition get_group (m : manager) := or_else (s_effective_group (m_settings m)) (p_group (m_parent m)).
  Definition get_pid_file (m : manager) := or_else (s_pid_file (m_settings m)) (p_pid_file (m_parent m)).
  Definition get_n_workers (m : manager) : N :=
    if m_custom_n_workers m then p_n_workers (m_parent m) else s_n_workers (m_settings m).
  Definition get_backend (m : manager) : backend :=
    match p_backend (m_parent m) with Some k => k | None => s_event_loop_backend (m_settings m) end.
  Definition get_daemon (m : manager) : bool :=
    if m_custom_daemon m then p_daemon (m_parent m) else s_daemon (m_settings m).
  Definition get_max_pending (m : manager) : N :=
    if m_custom_max_pending m then p_max_pending (m_parent m) else s_max_pending_finished_sessions (m_settings m).
  Definition get_packet_buffer (m : manager) : N := s_default_packet_buffer_size (m_settings m).

  (** milter_client_create_context, milter-client.c:1211-1227: the size a session gets. *)
  Definition session_packet_buffer (m : manager) : N := p_packet_buffer (m_parent m).

  (** The facility messages go to the system log with, if they do (setup_logger of
      milter-syslog-logger.c, 214-229, without MILTER_LOG_SYSLOG_FACILITY in the environment; "mail"
      without a facility). *)
  Definition log_facility (p : parent) : option bytes :=
    match p_logger p with
    | None => None
    | Some f => Some (match f with Some f => f | None => lit "mail" end)
    end.

  (** apply_syslog_parameters, 1435-1458. *)
  Definition apply_syslog (m : manager) : manager :=
    m_with_parent m
      (if s_use_syslog (m_settings m) then
         match p_logger (m_parent m) with
         | Some _ => set_syslog_facility (s_syslog_facility (m_settings m)) (m_parent m)
         | None => start_syslog (m_parent m)
         end
       else stop_syslog (m_parent m)).

  (** apply_custom_parameters, 1460-1554; the locations it resets are not modelled. *)
  Definition apply_custom (m : manager) : manager :=
    let p := m_parent m in
    let s := m_settings m in
    let s := match p_spec p with Some v => with_spec (Some v) s | None => s end in
    let s := match p_pid_file p with Some v => with_pid_file (Some v) s | None => s end in
    let s := match p_user p with Some v => with_user (Some v) s | None => s end in
    let s := match p_group p with Some v => with_group (Some v) s | None => s end in
    let s := if (p_mode p =? 0)%N then s else with_mode (p_mode p) s in
    let s := match p_socket_group p with Some v => with_socket_group (Some v) s | None => s end in
    let s := if m_custom_n_workers m then with_n_workers (p_n_workers p) s else s in
    let s := match p_backend p with Some k => with_backend k s | None => s end in
    let s := if m_custom_max_pending m then with_max_pending (p_max_pending p) s else s in
    m_with_settings m s.

  Fixpoint manager_options (us : list use) (m : manager) : option manager :=
    match us with
    | [] => Some m
    | u :: us =>
        match asked u with
        | None => None
        | Some a => let '(m, ok) := manager_set a m in if ok then manager_options us m else None
        end
    end.

  Definition manager_parse (env : option bytes) (us : list use) (m : manager) : option manager :=
    match manager_options us m with
    | None => None
    | Some m =>
        Some (match get_spec m with
              | Some _ => m
              | None => fst (manager_set (A_spec (fallback_spec env)) m)
              end)
    end.

  (** What happens to the running manager: the load paths and the files change and the configuration is
      loaded again, with whatever the scripts do this time (milter_manager_reload, 1556-1567). *)
  Record load_event := mk_load_event {
    l_paths : list bytes;
    l_files : files;
    l_evaluate : bytes -> settings -> settings * bool;
    l_evaluate_custom : bytes -> settings -> settings * bool
  }.

  Definition manager_reload (b : build) (e : load_event) (m : manager) : manager * bool :=
    let '(c, ok) := reload b (l_evaluate e) (l_evaluate_custom e)
                      (mk_configuration (l_paths e) (l_files e) (m_settings m)) in
    (apply_custom (apply_syslog
       (mk_manager (m_parent m) c (m_custom_n_workers m) (m_custom_daemon m) (m_custom_max_pending m))), ok).

  Fixpoint reloads (b : build) (es : list load_event) (m : manager) : manager :=
    match es with
    | [] => m
    | e :: es => reloads b es (fst (manager_reload b e m))
    end.
End Programs.
