(** Model of milter/manager/milter-manager-configuration.c: the settings, the list of filter
    definitions, the configuration files. *)
From Verif.Base Require Import Bytes.
From Verif.Model Require Import Status Encoder Egg.
Local Open Scope Z_scope.

(** The values fixed when the program is built (meson.build:140-190): C strings or NULL. *)
Record build := mk_build {
  b_connection_spec : option bytes; b_platform : option bytes; b_package_options : option bytes;
  b_effective_user : option bytes; b_effective_group : option bytes; b_pid_file : option bytes;
  b_socket_group : option bytes
}.

Inductive backend := GLIB | LIBEV.

(** MilterManagerConfigurationPrivate, milter-manager-configuration.c:45-82, without the load paths,
    which clearing leaves alone, and with the handlers connected to its signals counted. *)
Record settings := mk_settings {
  s_handlers : nat;
  s_eggs : list egg;
  s_conditions : list condition;
  s_privilege_mode : bool;
  s_controller_connection_spec : option bytes;
  s_manager_connection_spec : option bytes;
  s_fallback_status : status;
  s_fallback_status_at_disconnect : status;
  s_package_platform : option bytes;
  s_package_options : option bytes;
  s_effective_user : option bytes;
  s_effective_group : option bytes;
  s_manager_unix_socket_mode : N;
  s_controller_unix_socket_mode : N;
  s_manager_unix_socket_group : option bytes;
  s_controller_unix_socket_group : option bytes;
  s_remove_manager_unix_socket_on_close : bool;
  s_remove_controller_unix_socket_on_close : bool;
  s_remove_manager_unix_socket_on_create : bool;
  s_remove_controller_unix_socket_on_create : bool;
  s_daemon : bool;
  s_pid_file : option bytes;
  s_maintenance_interval : N;
  s_suspend_time_on_unacceptable : N;
  s_max_connections : N;
  s_max_file_descriptors : N;
  s_custom_configuration_directory : option bytes;
  s_locations : list (bytes * (bytes * Z));
  s_connection_check_interval : N;
  s_event_loop_backend : backend;
  s_n_workers : N;
  s_default_packet_buffer_size : N;
  s_use_syslog : bool;
  s_syslog_facility : option bytes;
  s_chunk_size : N;
  s_max_pending_finished_sessions : N
}.

(** A new object: milter_manager_configuration_init (491-528) and then the G_PARAM_CONSTRUCT
    properties' defaults (161-463). *)
Definition settings_new (b : build) : settings :=
  mk_settings 0 [] [] false None (b_connection_spec b) S_ACCEPT S_TEMPORARY_FAILURE (b_platform b)
    (b_package_options b) (b_effective_user b) (b_effective_group b) 432 432 (b_socket_group b) None
    true true true true false (b_pid_file b) 10 5 0 0 None [] 0 GLIB 0 0 true None MILTER_CHUNK_SIZE 0.

(** milter_manager_configuration_clear, 2080-2115, with clear_controller ... clear_log, 1958-2078;
    clear_signal_handlers (1616-1640) disconnects every handler.  The hook of a subclass
    succeeds. *)
Definition clear (b : build) (s : settings) : settings :=
  mk_settings 0 [] [] false None (b_connection_spec b) S_ACCEPT S_TEMPORARY_FAILURE
    (match s_package_platform s with Some _ => b_platform b | None => None end)
    (match s_package_options s with Some _ => b_package_options b | None => None end)
    (b_effective_user b) (b_effective_group b) 432 432 (b_socket_group b) None
    true true true true false (b_pid_file b) 10 5 0 0 None [] 0 GLIB 0 0 true None MILTER_CHUNK_SIZE 0.

(** ** The filter definitions *)

(** milter_manager_configuration_add_egg, 1643-1655. *)
Definition add_egg (l : list egg) (e : egg) : list egg := l ++ [e].

(** milter_manager_configuration_find_egg, 1665-1683. *)
Definition find_egg (l : list egg) (name : bytes) : option egg :=
  find (fun e => bytes_eqb name (e_name e)) l.

(** milter_manager_configuration_remove_egg_by_name, 1707-1725: the first one.  remove_egg (1697-1705)
    goes by the name of the egg given. *)
Fixpoint remove_egg_by_name (l : list egg) (name : bytes) : list egg :=
  match l with
  | [] => []
  | e :: l => if bytes_eqb name (e_name e) then l else e :: remove_egg_by_name l name
  end.

Section Children.
  Variable valid_spec : bytes -> bool.

  (** milter_manager_configuration_setup_children, 1741-1766: the filters added to the session's list,
      each with the conditions attached to it.  Handlers of "hatched" and "attach-to" are the
      configuration script's. *)
  Fixpoint setup_children (eggs : list egg) : list (child * list condition) :=
    match eggs with
    | [] => []
    | e :: eggs =>
        if negb (e_enabled e) then setup_children eggs
        else match hatch valid_spec e with
             | (Some c, _) => (c, e_conditions e) :: setup_children eggs
             | (None, _) => setup_children eggs
             end
    end.
End Children.

(** ** Files *)

(** A file system as far as the configuration looks at it: the content of regular files, and where
    g_file_set_contents succeeds. *)
Record files := mk_files { f_content : bytes -> option bytes; f_writable : bytes -> bool }.

Definition f_set (f : files) (path content : bytes) : files :=
  mk_files (fun p => if bytes_eqb p path then Some content else f_content f p) (f_writable f).

(** configure.ac:230-231. *)
Definition CONFIG_FILE_NAME := lit "milter-manager.conf".
Definition CUSTOM_CONFIG_FILE_NAME := lit "milter-manager.custom.conf".

(** g_build_filename of a directory without trailing separator and a plain name. *)
Definition build_filename (dir name : bytes) : bytes := dir ++ "/"%char :: name.

(** find_file, 1006-1057, for a relative file name. *)
Definition find_file (paths : list bytes) (f : files) (name : bytes) : option bytes :=
  find (fun path => match f_content f path with Some _ => true | None => false end)
       (map (fun dir => build_filename dir name) paths).

(** milter_manager_configuration_save_custom, 1188-1233: the first load path where writing
    succeeds. *)
Definition save_custom (paths : list bytes) (f : files) (content : bytes) : option files :=
  match find (f_writable f) (map (fun dir => build_filename dir CUSTOM_CONFIG_FILE_NAME) paths) with
  | Some path => Some (f_set f path content)
  | None => None
  end.

Record configuration := mk_configuration { c_paths : list bytes; c_files : files; c_settings : settings }.
Definition with_settings (c : configuration) (s : settings) : configuration :=
  mk_configuration (c_paths c) (c_files c) s.

Section Load.
  Variable b : build.
  (** Evaluating a configuration file and a custom file with the loaded module: the settings
      afterwards and whether it went well.  The errors raised are not
      MILTER_MANAGER_CONFIGURATION_ERROR_NOT_EXIST (module/configuration/ruby raises UNKNOWN). *)
  Variable evaluate evaluate_custom : bytes -> settings -> settings * bool.

  (** milter_manager_configuration_load, 1060-1085; the class has a load function. *)
  Definition load (c : configuration) (name : bytes) : settings * bool :=
    match find_file (c_paths c) (c_files c) name with
    | Some path =>
        match f_content (c_files c) path with
        | Some text => evaluate text (c_settings c)
        | None => (c_settings c, false)
        end
    | None => (c_settings c, false)
    end.

  (** milter_manager_configuration_load_custom_if_exist, 1136-1154. *)
  Definition load_custom_if_exist (c : configuration) (name : bytes) : settings * bool :=
    match find_file (c_paths c) (c_files c) name with
    | Some path =>
        match f_content (c_files c) path with
        | Some text => evaluate_custom text (c_settings c)
        | None => (c_settings c, false)
        end
    | None => (c_settings c, true)
    end.

  (** milter_manager_configuration_reload, 1156-1185. *)
  Definition reload (c : configuration) : configuration * bool :=
    let c := with_settings c (clear b (c_settings c)) in
    let '(s, ok) := load c CONFIG_FILE_NAME in
    let c := with_settings c s in
    if ok then
      let '(s, ok) := load_custom_if_exist c CUSTOM_CONFIG_FILE_NAME in
      (with_settings c s, ok)
    else (c, false).
End Load.
