(** What milter-manager --show-config prints (ConfigurationDumper, binding/ruby/lib/milter/manager.rb:
    145-374) and what the statements of such a file do when it is loaded as configuration
    (ConfigurationLoader of the same file and of milter/client/configuration.rb).

    Texts are UTF-8 whose characters beyond ASCII can be printed, and the locale is UTF-8; the names
    given to String#dump are ASCII.  Timeouts are whole seconds below 10^16, as in Egg.  The Ruby objects
    are those of the binding written in C (milter_manager.so). *)
From Verif.Base Require Import Bytes.
From Verif.Model Require Import Status Encoder Egg Configuration.
From Verif.Model Require ConnectionSpec FileMode Logger ConfigXml.
Import List.
Local Open Scope N_scope.

(** ** Ruby values and how they are printed *)

Inductive value :=
| VNil | VBool (b : bool) | VInt (n : N) | VFloat (n : N) | VStr (s : bytes) | VList (l : list value).

Definition upper_hex (n : N) : byte := if n <? 10 then ascii_of_N (48 + n) else ascii_of_N (55 + n).
(** The escapes that String#inspect and String#dump have in common; [next]: the character after it. *)
Definition letter_escape (c : byte) : option byte :=
  let n := code c in
  if n =? 10 then Some "n"%char else if n =? 13 then Some "r"%char else if n =? 9 then Some "t"%char
  else if n =? 12 then Some "f"%char else if n =? 11 then Some "v"%char else if n =? 8 then Some "b"%char
  else if n =? 7 then Some "a"%char else if n =? 27 then Some "e"%char
  else if (n =? 34) || (n =? 92) then Some c else None.
Definition opens_code (next : option byte) : bool :=
  match next with Some d => beqb d "{" || beqb d "$" || beqb d "@" | None => false end.
Definition escaped (unicode : bool) (c : byte) (next : option byte) : bytes :=
  match letter_escape c with
  | Some e => [byte_of 92; e]
  | None =>
      if beqb c "#" && opens_code next then [byte_of 92; c]
      else if (code c <? 32) || (code c =? 127) then
        if unicode && (code c <? 32)
        then lit "\u00" ++ [upper_hex (code c / 16); upper_hex (code c mod 16)]
        else lit "\x" ++ [upper_hex (code c / 16); upper_hex (code c mod 16)]
      else [c]
  end.
Fixpoint escape (unicode : bool) (s : bytes) : bytes :=
  match s with
  | [] => []
  | c :: s' => escaped unicode c (match s' with d :: _ => Some d | [] => None end) ++ escape unicode s'
  end.
Definition quote : bytes := [byte_of 34].
Definition inspect_string (s : bytes) : bytes := quote ++ escape true s ++ quote.
Definition dump_string (s : bytes) : bytes := quote ++ escape false s ++ quote.
Definition inspect_bool (b : bool) : bytes := if b then lit "true" else lit "false".
Definition inspect_option (s : option bytes) : bytes :=
  match s with Some s => inspect_string s | None => lit "nil" end.
(** Float#to_s of a whole number below 10^16. *)
Definition inspect_float (n : N) : bytes := ConnectionSpec.decimal n ++ lit ".0".
Definition inspect (v : value) : bytes :=
  match v with
  | VNil => lit "nil"
  | VBool b => inspect_bool b
  | VInt n => ConnectionSpec.decimal n
  | VFloat n => inspect_float n
  | VStr s => inspect_string s
  | VList _ => lit "[...]"     (* not among the values that are printed *)
  end.
(** "%o". *)
Fixpoint octal_digits (fuel : nat) (n : N) : bytes :=
  match fuel with
  | O => []
  | S fuel => if n <? 8 then [ascii_of_N (48 + n)]
              else octal_digits fuel (n / 8) ++ [ascii_of_N (48 + n mod 8)]
  end.
Definition octal (n : N) : bytes := octal_digits (S (N.size_nat n)) n.

(** ** The configuration *)

(** DatabaseConfiguration, client/configuration.rb:247-268; whether there are extra options. *)
Record database := mk_database {
  d_type : value; d_name : value; d_host : value; d_port : value; d_path : value; d_user : value;
  d_password : value; d_extra : bool
}.
(** The settings, the level and path of the default logger, and the names of the conditions whose
    object has stoppers connected. *)
Record conf := mk_conf {
  cf : settings; cf_level : N; cf_log_path : option bytes; cf_database : database;
  cf_stopping : list bytes
}.

Inductive item :=
| PackagePlatform | PackageOptions
| PrivilegeMode | EffectiveUser | EffectiveGroup
| LogLevel | LogPath | UseSyslog | SyslogFacility
| ManagerSpec | ManagerMode | ManagerGroup | ManagerOnCreate | ManagerOnClose | Daemon | PidFile
| MaintenanceInterval | SuspendTime | MaxConnections | MaxFileDescriptors | CustomDirectory
| Fallback | FallbackAtDisconnect | Backend | NWorkers | PacketBufferSize | CheckInterval | ChunkSize
| MaxPending
| ControllerSpec | ControllerMode | ControllerGroup | ControllerOnCreate | ControllerOnClose
| DatabaseType | DatabaseName | DatabaseHost | DatabasePort | DatabasePath | DatabaseUser
| DatabasePassword.

Definition of_option (s : option bytes) : value := match s with Some s => VStr s | None => VNil end.
Definition backend_nick (b : backend) : bytes :=
  match b with GLIB => lit "glib" | LIBEV => lit "libev" end.

(** What the getters give.  The properties remove-controller-unix-socket-on-close and -on-create are
    installed with the numbers of the manager's (milter-manager-configuration.c:287-315): reading them
    reads the manager's. *)
Definition get (c : conf) (i : item) : value :=
  let s := cf c in let d := cf_database c in
  match i with
  | PackagePlatform => of_option (s_package_platform s)
  | PackageOptions => of_option (s_package_options s)
  | PrivilegeMode => VBool (s_privilege_mode s)
  | EffectiveUser => of_option (s_effective_user s)
  | EffectiveGroup => of_option (s_effective_group s)
  | LogLevel => VInt (cf_level c)
  | LogPath => of_option (cf_log_path c)
  | UseSyslog => VBool (s_use_syslog s)
  | SyslogFacility => of_option (s_syslog_facility s)
  | ManagerSpec => of_option (s_manager_connection_spec s)
  | ManagerMode => VInt (s_manager_unix_socket_mode s)
  | ManagerGroup => of_option (s_manager_unix_socket_group s)
  | ManagerOnCreate => VBool (s_remove_manager_unix_socket_on_create s)
  | ManagerOnClose => VBool (s_remove_manager_unix_socket_on_close s)
  | Daemon => VBool (s_daemon s)
  | PidFile => of_option (s_pid_file s)
  | MaintenanceInterval => VInt (s_maintenance_interval s)
  | SuspendTime => VInt (s_suspend_time_on_unacceptable s)
  | MaxConnections => VInt (s_max_connections s)
  | MaxFileDescriptors => VInt (s_max_file_descriptors s)
  | CustomDirectory => of_option (s_custom_configuration_directory s)
  | Fallback => VStr (ConfigXml.status_nick (s_fallback_status s))
  | FallbackAtDisconnect => VStr (ConfigXml.status_nick (s_fallback_status_at_disconnect s))
  | Backend => VStr (backend_nick (s_event_loop_backend s))
  | NWorkers => VInt (s_n_workers s)
  | PacketBufferSize => VInt (s_default_packet_buffer_size s)
  | CheckInterval => VInt (s_connection_check_interval s)
  | ChunkSize => VInt (s_chunk_size s)
  | MaxPending => VInt (s_max_pending_finished_sessions s)
  | ControllerSpec => of_option (s_controller_connection_spec s)
  | ControllerMode => VInt (s_controller_unix_socket_mode s)
  | ControllerGroup => of_option (s_controller_unix_socket_group s)
  | ControllerOnCreate => VBool (s_remove_manager_unix_socket_on_create s)
  | ControllerOnClose => VBool (s_remove_manager_unix_socket_on_close s)
  | DatabaseType => d_type d
  | DatabaseName => d_name d
  | DatabaseHost => d_host d
  | DatabasePort => d_port d
  | DatabasePath => d_path d
  | DatabaseUser => d_user d
  | DatabasePassword => d_password d
  end.

(** ** Printing *)

(** dump_package_items ... dump_database_items, 169-272: the key and how the value is printed. *)
Definition dump_key (i : item) : bytes :=
  match i with
  | PackagePlatform => lit "package.platform"
  | PackageOptions => lit "package.options"
  | PrivilegeMode => lit "security.privilege_mode"
  | EffectiveUser => lit "security.effective_user"
  | EffectiveGroup => lit "security.effective_group"
  | LogLevel => lit "log.level"
  | LogPath => lit "log.path"
  | UseSyslog => lit "log.use_syslog"
  | SyslogFacility => lit "log.syslog_facility"
  | ManagerSpec => lit "manager.connection_spec"
  | ManagerMode => lit "manager.unix_socket_mode"
  | ManagerGroup => lit "manager.unix_socket_group"
  | ManagerOnCreate => lit "manager.remove_unix_socket_on_create"
  | ManagerOnClose => lit "manager.remove_unix_socket_on_close"
  | Daemon => lit "manager.daemon"
  | PidFile => lit "manager.pid_file"
  | MaintenanceInterval => lit "manager.maintenance_interval"
  | SuspendTime => lit "manager.suspend_time_on_unacceptable"
  | MaxConnections => lit "manager.max_connections"
  | MaxFileDescriptors => lit "manager.max_file_descriptors"
  | CustomDirectory => lit "manager.custom_configuration_directory"
  | Fallback => lit "manager.fallback_status"
  | FallbackAtDisconnect => lit "manager.fallback_status_at_disconnect"
  | Backend => lit "manager.event_loop_backend"
  | NWorkers => lit "manager.n_workers"
  | PacketBufferSize => lit "manager.packet_buffer_size"
  | CheckInterval => lit "manager.connection_check_interval"
  | ChunkSize => lit "manager.chunk_size"
  | MaxPending => lit "manager.max_pending_finished_sessions"
  | ControllerSpec => lit "controller.connection_spec"
  | ControllerMode => lit "controller.unix_socket_mode"
  | ControllerGroup => lit "controller.unix_socket_group"
  | ControllerOnCreate => lit "controller.remove_unix_socket_on_create"
  | ControllerOnClose => lit "controller.remove_unix_socket_on_close"
  | DatabaseType => lit "database.type"
  | DatabaseName => lit "database.name"
  | DatabaseHost => lit "database.host"
  | DatabasePort => lit "database.port"
  | DatabasePath => lit "database.path"
  | DatabaseUser => lit "database.user"
  | DatabasePassword => lit "database.password"
  end.
(** 185-195: the nicks of the flags of the level, joined. *)
Fixpoint joined (l : list bytes) : bytes :=
  match l with [] => [] | [x] => x | x :: l' => x ++ lit "|" ++ joined l' end.
Definition level_names (level : N) : bytes :=
  match map fst (filter (fun f => negb (N.land level (snd f) =? 0)) Logger.level_class) with
  | [] => lit "default"
  | l => joined l
  end.
Definition dump_value (c : conf) (i : item) : bytes :=
  match i with
  | LogLevel => inspect_string (level_names (cf_level c))
  | ManagerMode => match s_manager_unix_socket_mode (cf c) with 0 => lit "0" | n => lit "0" ++ octal n end
  | ControllerMode => lit "0" ++ octal (s_controller_unix_socket_mode (cf c))
  | MaintenanceInterval =>
      if s_maintenance_interval (cf c) =? 0 then lit "nil" else inspect (get c i)
  | Fallback => dump_string (ConfigXml.status_nick (s_fallback_status (cf c)))
  | FallbackAtDisconnect => dump_string (ConfigXml.status_nick (s_fallback_status_at_disconnect (cf c)))
  | Backend => dump_string (backend_nick (s_event_loop_backend (cf c)))
  | _ => inspect (get c i)
  end.
Definition newline : bytes := [byte_of 10].

Definition sections : list (list item) :=
  [[PackagePlatform; PackageOptions];
   [PrivilegeMode; EffectiveUser; EffectiveGroup];
   [LogLevel; LogPath; UseSyslog; SyslogFacility];
   [ManagerSpec; ManagerMode; ManagerGroup; ManagerOnCreate; ManagerOnClose; Daemon; PidFile;
    MaintenanceInterval; SuspendTime; MaxConnections; MaxFileDescriptors; CustomDirectory; Fallback;
    FallbackAtDisconnect; Backend; NWorkers; PacketBufferSize; CheckInterval; ChunkSize; MaxPending];
   [ControllerSpec; ControllerMode; ControllerGroup; ControllerOnCreate; ControllerOnClose];
   [DatabaseType; DatabaseName; DatabaseHost; DatabasePort; DatabasePath; DatabaseUser;
    DatabasePassword]].

(** milter_manager_configuration_get_location, as a hash in Ruby. *)
Definition location (c : conf) (key : bytes) : option (bytes * Z) :=
  option_map snd (find (fun l => bytes_eqb (fst l) key) (s_locations (cf c))).
Definition line_number (z : Z) : bytes :=
  match z with Z.neg p => lit "-" ++ ConnectionSpec.decimal (Npos p) | _ => ConnectionSpec.decimal (Z.to_N z) end.
(** dump_location, 287-298. *)
Definition dump_location (c : conf) (key : option bytes) (indent : bytes) : bytes :=
  match match key with Some k => location c k | None => None end with
  | Some (file, line) => indent ++ lit "# " ++ file ++ lit ":" ++ line_number line ++ newline
  | None => indent ++ lit "# default" ++ newline
  end.
(** dump_item, 300-303. *)
Definition dump_item (c : conf) (key text indent : bytes) (location_key : bytes) : bytes :=
  dump_location c (Some location_key) indent ++ indent ++ key ++ lit " = " ++ text ++ newline.
Definition dump_section (c : conf) (l : list item) : bytes :=
  flat_map (fun i => dump_item c (dump_key i) (dump_value c i) [] (dump_key i)) l ++ newline.

(** dump_applicable_condition, 312-320. *)
Definition dump_condition (c : conf) (k : condition) : bytes :=
  let key := lit "applicable_condition[" ++ k_name k ++ lit "]" in
  dump_location c (Some key) [] ++
  lit "define_applicable_condition(" ++ dump_string (k_name k) ++ lit ") do |condition|" ++ newline ++
  dump_item c (lit "condition.description") (inspect_option (k_description k)) (lit "  ")
            (key ++ lit ".description") ++
  lit "end" ++ newline.

(** dump_egg, 350-372, with dump_egg_item, 322-327, and dump_egg_applicable_conditions, 329-348. *)
Definition egg_items (e : egg) : list (bytes * bytes) :=
  [(lit "connection_spec", inspect_option (e_connection_spec e));
   (lit "description", inspect_option (e_description e));
   (lit "enabled", inspect_bool (e_enabled e));
   (lit "fallback_status", inspect_string (ConfigXml.status_nick (e_fallback_status e)));
   (lit "evaluation_mode", inspect_bool (e_evaluation_mode e))].
Definition egg_items_after (e : egg) : list (bytes * bytes) :=
  [(lit "command", inspect_option (e_command e));
   (lit "command_options", inspect_option (e_command_options e));
   (lit "user_name", inspect_option (e_user_name e));
   (lit "connection_timeout", inspect_float (Z.to_N (e_connection_timeout e)));
   (lit "writing_timeout", inspect_float (Z.to_N (e_writing_timeout e)));
   (lit "reading_timeout", inspect_float (Z.to_N (e_reading_timeout e)));
   (lit "end_of_message_timeout", inspect_float (Z.to_N (e_end_of_message_timeout e)))].
Definition dump_egg (c : conf) (e : egg) : bytes :=
  let key := lit "milter[" ++ e_name e ++ lit "]" in
  let put (i : bytes * bytes) :=
    dump_item c (lit "milter." ++ fst i) (snd i) (lit "  ") (key ++ lit "." ++ fst i) in
  dump_location c (Some key) [] ++
  lit "define_milter(" ++ inspect_string (e_name e) ++ lit ") do |milter|" ++ newline ++
  flat_map put (egg_items e) ++
  (match e_conditions e with
   | [] => dump_location c None (lit "  ") ++ lit "  milter.applicable_conditions = []" ++ newline
   | l => lit "  milter.applicable_conditions = [" ++ newline ++
          flat_map (fun k => dump_location c (Some (key ++ lit ".applicable_condition[" ++ k_name k ++ lit "]"))
                                           (lit "    ") ++
                             lit "    " ++ inspect_string (k_name k) ++ lit "," ++ newline) l ++
          lit "  ]" ++ newline
   end) ++
  flat_map put (egg_items_after e) ++
  lit "end" ++ newline.

(** String#strip, and dump, 151-165. *)
Definition stripped (c : byte) : bool := (code c =? 0) || (code c =? 32) || ((9 <=? code c) && (code c <=? 13)).
Fixpoint strip_left (s : bytes) : bytes :=
  match s with c :: s' => if stripped c then strip_left s' else s | [] => [] end.
Definition strip (s : bytes) : bytes := rev (strip_left (rev (strip_left s))).
Definition dump (c : conf) : bytes :=
  strip (flat_map (dump_section c) sections ++
         flat_map (fun k => dump_condition c k ++ newline) (s_conditions (cf c)) ++
         flat_map (fun e => dump_egg c e ++ newline) (s_eggs (cf c))).

(** ** Loading *)

(** What the program does: sections assigned, conditions and filters defined with the assignments in
    their block. *)
Inductive stmt :=
| Assign (section attribute : bytes) (v : value)
| DefineCondition (name : bytes) (body : list (bytes * value))
| DefineMilter (name : bytes) (body : list (bytes * value)).

(** The setters of the loaders. *)
Definition setters : list (item * (bytes * bytes)) :=
  [(PackagePlatform, (lit "package", lit "platform"));
   (PackageOptions, (lit "package", lit "options"));
   (PrivilegeMode, (lit "security", lit "privilege_mode"));
   (EffectiveUser, (lit "security", lit "effective_user"));
   (EffectiveGroup, (lit "security", lit "effective_group"));
   (LogLevel, (lit "log", lit "level"));
   (LogPath, (lit "log", lit "path"));
   (UseSyslog, (lit "log", lit "use_syslog"));
   (SyslogFacility, (lit "log", lit "syslog_facility"));
   (ManagerSpec, (lit "manager", lit "connection_spec"));
   (ManagerMode, (lit "manager", lit "unix_socket_mode"));
   (ManagerGroup, (lit "manager", lit "unix_socket_group"));
   (ManagerOnCreate, (lit "manager", lit "remove_unix_socket_on_create"));
   (ManagerOnClose, (lit "manager", lit "remove_unix_socket_on_close"));
   (Daemon, (lit "manager", lit "daemon"));
   (PidFile, (lit "manager", lit "pid_file"));
   (MaintenanceInterval, (lit "manager", lit "maintenance_interval"));
   (SuspendTime, (lit "manager", lit "suspend_time_on_unacceptable"));
   (MaxConnections, (lit "manager", lit "max_connections"));
   (MaxFileDescriptors, (lit "manager", lit "max_file_descriptors"));
   (CustomDirectory, (lit "manager", lit "custom_configuration_directory"));
   (Fallback, (lit "manager", lit "fallback_status"));
   (FallbackAtDisconnect, (lit "manager", lit "fallback_status_at_disconnect"));
   (Backend, (lit "manager", lit "event_loop_backend"));
   (NWorkers, (lit "manager", lit "n_workers"));
   (PacketBufferSize, (lit "manager", lit "packet_buffer_size"));
   (CheckInterval, (lit "manager", lit "connection_check_interval"));
   (ChunkSize, (lit "manager", lit "chunk_size"));
   (MaxPending, (lit "manager", lit "max_pending_finished_sessions"));
   (ControllerSpec, (lit "controller", lit "connection_spec"));
   (ControllerMode, (lit "controller", lit "unix_socket_mode"));
   (ControllerGroup, (lit "controller", lit "unix_socket_group"));
   (ControllerOnCreate, (lit "controller", lit "remove_unix_socket_on_create"));
   (ControllerOnClose, (lit "controller", lit "remove_unix_socket_on_close"));
   (DatabaseType, (lit "database", lit "type"));
   (DatabaseName, (lit "database", lit "name"));
   (DatabaseHost, (lit "database", lit "host"));
   (DatabasePort, (lit "database", lit "port"));
   (DatabasePath, (lit "database", lit "path"));
   (DatabaseUser, (lit "database", lit "user"));
   (DatabasePassword, (lit "database", lit "password"))].
Definition setter (section attribute : bytes) : option item :=
  option_map fst (find (fun s => bytes_eqb (fst (snd s)) section && bytes_eqb (snd (snd s)) attribute) setters).

(** The conversions of a Ruby object to the type of a property.  g_object_set_property refuses a number
    out of the range of the property with a warning: [current] stays. *)
Definition to_string (v : value) : option value :=
  match v with VNil | VStr _ => Some v | _ => None end.
Definition to_bool (v : value) : bool := match v with VNil | VBool false => false | _ => true end.
Definition uint_max : N := 4294967295.
Definition to_uint (low high : N) (current v : value) : option value :=
  match v with
  | VInt n | VFloat n =>
      if n <=? uint_max then Some (if (low <=? n) && (n <=? high) then VInt n else current) else None
  | _ => None
  end.
(** [||=] *)
Definition or_default (n : N) (v : value) : value := match v with VNil | VBool false => VInt n | _ => v end.
Definition statuses : list status :=
  [S_DEFAULT; S_NOT_CHANGE; S_CONTINUE; S_REJECT; S_DISCARD; S_ACCEPT; S_TEMPORARY_FAILURE; S_NO_REPLY;
   S_SKIP; S_ALL_OPTIONS; S_PROGRESS; S_ABORT; S_QUARANTINE; S_STOP; S_ERROR].
Definition status_of_nick (s : bytes) : option status :=
  find (fun x => bytes_eqb (ConfigXml.status_nick x) s) statuses.
Definition backend_of_nick (s : bytes) : option backend :=
  find (fun x => bytes_eqb (backend_nick x) s) [GLIB; LIBEV].

(** A configuration like [c] with the values [f], definitions and names of conditions with stoppers
    given.  The setters below write one property (GObject's set_property, milter-manager-configuration.c:
    561-700, through the property numbers of 161-466). *)
Definition as_option (v : value) : option bytes := match v with VStr s => Some s | _ => None end.
Definition as_bool (v : value) : bool := match v with VBool b => b | _ => false end.
Definition as_number (v : value) : N := match v with VInt n => n | _ => 0 end.
Definition as_status (v : value) : status :=
  match v with VStr s => match status_of_nick s with Some x => x | None => S_DEFAULT end | _ => S_DEFAULT end.
Definition as_backend (v : value) : backend :=
  match v with VStr s => match backend_of_nick s with Some x => x | None => GLIB end | _ => GLIB end.
Definition rebuild (c : conf) (f : item -> value) (eggs : list egg) (conditions : list condition)
    (stopping : list bytes) : conf :=
  let s := cf c in
  mk_conf
    (mk_settings (s_handlers s) eggs conditions (as_bool (f PrivilegeMode)) (as_option (f ControllerSpec))
       (as_option (f ManagerSpec)) (as_status (f Fallback)) (as_status (f FallbackAtDisconnect))
       (as_option (f PackagePlatform)) (as_option (f PackageOptions)) (as_option (f EffectiveUser))
       (as_option (f EffectiveGroup)) (as_number (f ManagerMode)) (as_number (f ControllerMode))
       (as_option (f ManagerGroup)) (as_option (f ControllerGroup)) (as_bool (f ManagerOnClose))
       (s_remove_controller_unix_socket_on_close s) (as_bool (f ManagerOnCreate))
       (s_remove_controller_unix_socket_on_create s) (as_bool (f Daemon)) (as_option (f PidFile))
       (as_number (f MaintenanceInterval)) (as_number (f SuspendTime)) (as_number (f MaxConnections))
       (as_number (f MaxFileDescriptors)) (as_option (f CustomDirectory)) (s_locations s)
       (as_number (f CheckInterval)) (as_backend (f Backend)) (as_number (f NWorkers))
       (as_number (f PacketBufferSize)) (as_bool (f UseSyslog)) (as_option (f SyslogFacility))
       (as_number (f ChunkSize)) (as_number (f MaxPending)))
    (as_number (f LogLevel)) (as_option (f LogPath))
    (mk_database (f DatabaseType) (f DatabaseName) (f DatabaseHost) (f DatabasePort) (f DatabasePath)
       (f DatabaseUser) (f DatabasePassword) (d_extra (cf_database c)))
    stopping.
Scheme Boolean Equality for item.
(** The property written: the numbers of the two of the controller are the manager's, 287-315. *)
Definition property (i : item) : item :=
  match i with ControllerOnCreate => ManagerOnCreate | ControllerOnClose => ManagerOnClose | _ => i end.
Definition put (c : conf) (i : item) (v : value) : conf :=
  rebuild c (fun j => if item_beq (property i) j then v else get c j) (s_eggs (cf c)) (s_conditions (cf c))
          (cf_stopping c).

Section Loading.
  (** Whether a connection spec can be parsed, and whether a file for the log can be opened. *)
  Variable valid_spec openable : bytes -> bool.

  (** What a setter stores for a value, [None] if it raises an error: the loaders of manager.rb:709-1055
      and client/configuration.rb:468-690, 717-800.  An enum is given by its nick (Ruby/GLib2 takes its
      other names as well); a wrong facility raises only when the file has been read. *)
  Definition convert (c : conf) (i : item) (v : value) : option value :=
    let cur := get c i in
    match i with
    | PackagePlatform | PackageOptions | EffectiveUser | EffectiveGroup | SyslogFacility | ManagerGroup
    | PidFile | CustomDirectory | ControllerGroup => to_string v
    | PrivilegeMode =>
        match v with
        | VBool b => Some (VBool b)
        | VStr s => if bytes_eqb s (lit "false") then Some (VBool false)
                    else if bytes_eqb s (lit "true") then Some (VBool true) else None
        | _ => None
        end
    | LogLevel =>
        match v with
        | VNil => Some (VInt Logger.LEVEL_DEFAULT)
        | VInt n | VFloat n => Some (VInt n)
        | VList [] => Some (VInt Logger.LEVEL_DEFAULT)
        | VStr s =>
            if bytes_eqb s [] || bytes_eqb s (lit "default") then Some (VInt Logger.LEVEL_DEFAULT)
            else match Logger.level_given (Some s) (cf_level c) with inl l => Some (VInt l) | inr _ => None end
        | _ => None
        end
    | LogPath => match v with VNil => Some v | VStr s => if openable s then Some v else None | _ => None end
    | UseSyslog | ManagerOnCreate | ManagerOnClose | Daemon | ControllerOnCreate | ControllerOnClose =>
        Some (VBool (to_bool v))
    | ManagerSpec | ControllerSpec =>
        match v with VNil => Some v | VStr s => if valid_spec s then Some v else None | _ => None end
    | ManagerMode | ControllerMode => to_uint 0 511 cur v
    | MaintenanceInterval | MaxConnections | MaxFileDescriptors | PacketBufferSize | CheckInterval
    | MaxPending => to_uint 0 uint_max cur (or_default 0 v)
    | SuspendTime => to_uint 0 uint_max cur (or_default 5 v)
    | NWorkers => to_uint 0 1000 cur (or_default 0 v)
    | ChunkSize => to_uint 1 65535 cur (or_default 65535 v)
    | Fallback =>
        match v with
        | VStr s => match ConfigXml.fallback_status_of s with
                    | Some x => Some (VStr (ConfigXml.status_nick x))
                    | None => None
                    end
        | _ => None
        end
    | FallbackAtDisconnect => match v with VStr s => option_map (fun _ => v) (status_of_nick s) | _ => None end
    | Backend => match v with VStr s => option_map (fun _ => v) (backend_of_nick s) | _ => None end
    | DatabaseType | DatabaseName | DatabaseHost | DatabasePort | DatabasePath | DatabaseUser
    | DatabasePassword => Some v
    end.
  Definition assign (c : conf) (section attribute : bytes) (v : value) : option conf :=
    match setter section attribute with
    | Some i => option_map (put c i) (convert c i v)
    | None => None
    end.

  (** define_applicable_condition, manager.rb:474-479, with ApplicableConditionConfigurationLoader,
      1219-1233 and 1289-1305, and milter_manager_applicable_condition_merge.  The new object has no
      handlers but those of stoppers defined in the block. *)
  Definition condition_assign (k : condition) (attribute : bytes) (v : value) : option condition :=
    match to_string v with
    | None => None
    | Some v =>
        if bytes_eqb attribute (lit "description") then Some (mk_condition (k_name k) (as_option v) (k_data k))
        else if bytes_eqb attribute (lit "data") then Some (mk_condition (k_name k) (k_description k) (as_option v))
        else None
    end.
  Fixpoint assign_all {A : Type} (f : A -> bytes -> value -> option A) (a : A) (l : list (bytes * value)) : option A :=
    match l with
    | [] => Some a
    | (n, v) :: l => match f a n v with Some a => assign_all f a l | None => None end
    end.
  Fixpoint remove_condition (l : list condition) (name : bytes) : list condition :=
    match l with
    | [] => []
    | k :: l => if bytes_eqb name (k_name k) then l else k :: remove_condition l name
    end.
  Definition define_condition (c : conf) (name : bytes) (body : list (bytes * value)) : option conf :=
    let l := s_conditions (cf c) in
    let start := match ConfigXml.find_condition l name with
                 | Some old => mk_condition name (k_description old) (k_data old)
                 | None => mk_condition name None None
                 end in
    match assign_all condition_assign start body with
    | Some k => Some (rebuild c (get c) (s_eggs (cf c)) (remove_condition l name ++ [k])
                              (filter (fun n => negb (bytes_eqb name n)) (cf_stopping c)))
    | None => None
    end.

  (** define_milter, 462-467, with EggConfigurationLoader, 1106-1216.  Arrays of command options, which
      are joined, are not written by the dumper; they are refused here. *)
  Definition names_of (v : value) : option (list bytes) :=
    match v with
    | VNil | VBool false => Some []
    | VList l => fold_right (fun x r => match x, r with VStr s, Some r => Some (s :: r) | _, _ => None end) (Some []) l
    | _ => None
    end.
  Definition string_attribute (f : option bytes -> egg -> egg) (v : value) (e : egg) : option egg :=
    option_map (fun v => f (as_option v) e) (to_string v).
  Definition timeout_attribute (f : Z -> egg -> egg) (v : value) (e : egg) : option egg :=
    match v with VInt n | VFloat n => Some (f (Z.of_N n) e) | _ => None end.
  Definition egg_assign (conditions : list condition) (e : egg) (attribute : bytes) (v : value) : option egg :=
    if bytes_eqb attribute (lit "connection_spec") then
      match v with
      | VStr s => match set_connection_spec valid_spec (Some s) e with (e, true) => Some e | _ => None end
      | _ => None       (* RVAL2CSTR(nil) is a TypeError, rb-milter-manager-egg.c:31-42 *)
      end
    else if bytes_eqb attribute (lit "description") then string_attribute set_description v e
    else if bytes_eqb attribute (lit "enabled") then Some (set_enabled (to_bool v) e)
    else if bytes_eqb attribute (lit "fallback_status") then
      match v with
      | VStr s => option_map (fun x => set_fallback_status x e) (ConfigXml.fallback_status_of s)
      | _ => None
      end
    else if bytes_eqb attribute (lit "evaluation_mode") then Some (set_evaluation_mode (to_bool v) e)
    else if bytes_eqb attribute (lit "applicable_conditions") then
      match names_of v with
      | Some names =>
          option_map (fun ks => fold_left (fun e k => add_condition k e) ks (clear_conditions e))
                     (ConfigXml.find_conditions conditions names)
      | None => None
      end
    else if bytes_eqb attribute (lit "command") then string_attribute set_command v e
    else if bytes_eqb attribute (lit "command_options") then
      match v with
      | VStr s => Some (set_command_options (Some s) e)
      | _ => None       (* nil.empty? is a NoMethodError, 1158 *)
      end
    else if bytes_eqb attribute (lit "user_name") then string_attribute set_user_name v e
    else if bytes_eqb attribute (lit "connection_timeout") then timeout_attribute set_connection_timeout v e
    else if bytes_eqb attribute (lit "writing_timeout") then timeout_attribute set_writing_timeout v e
    else if bytes_eqb attribute (lit "reading_timeout") then timeout_attribute set_reading_timeout v e
    else if bytes_eqb attribute (lit "end_of_message_timeout") then
      timeout_attribute set_end_of_message_timeout v e
    else None.
  Definition define_milter (c : conf) (name : bytes) (body : list (bytes * value)) : option conf :=
    let l := s_eggs (cf c) in
    match match find_egg l name with
          | None => Some (egg_new name)
          | Some old => match merge valid_spec (egg_new name) old with (e, true) => Some e | _ => None end
          end with
    | None => None
    | Some start =>
        match assign_all (egg_assign (s_conditions (cf c))) start body with
        | Some e => Some (rebuild c (get c) (add_egg (remove_egg_by_name l name) e) (s_conditions (cf c))
                                  (cf_stopping c))
        | None => None
        end
    end.

  Definition execute (c : conf) (s : stmt) : option conf :=
    match s with
    | Assign section attribute v => assign c section attribute v
    | DefineCondition name body => define_condition c name body
    | DefineMilter name body => define_milter c name body
    end.
  (** The statements up to the first that raises; whether none does. *)
  Fixpoint run (c : conf) (l : list stmt) : conf * bool :=
    match l with
    | [] => (c, true)
    | s :: l => match execute c s with Some c => run c l | None => (c, false) end
    end.
  (** load_configuration of the outermost file, 404-427, by a new loader, 387-403: the loader keeps the
      syslog settings apart ("mail" is its default facility) and apply_log, 515-518, sets them when the whole
      file has been read.  Here they are kept in the places of the configuration's own meanwhile.  What is
      raised is logged (here, or by Callback.guard, 366-371). *)
  Definition load (c : conf) (l : list stmt) : conf * bool :=
    match run (put c SyslogFacility (VStr (lit "mail"))) l with
    | (r, true) => (r, true)
    | (r, false) =>
        (put (put r UseSyslog (get c UseSyslog)) SyslogFacility (get c SyslogFacility), false)
    end.
End Loading.
