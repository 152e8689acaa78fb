(** The logger of the process and the syslog loggers: milter-logger.c and milter-syslog-logger.c.

    [op]s are the calls of the API on the singleton logger and on syslog loggers, and what others do
    to the directory of the log file.  printf is done by the caller: messages are plain texts.  Whether
    fopen works is part of the operation; writing to an open file always works.  The conversion of
    g_print to the charset of the terminal is left out.  A time is its ISO 8601 text. *)
From Verif.Base Require Import Bytes.
From Verif.Model Require Import FileMode.
From Verif.Model Require ConnectionSpec.
Import List.
Local Open Scope N_scope.

(** milter-logger.h:90-113, MilterLogLevelFlags and the nicks of its values. *)
Definition LEVEL_DEFAULT : N := 0.
Definition LEVEL_NONE : N := 1.
Definition LEVEL_CRITICAL : N := 2.
Definition LEVEL_ERROR : N := 4.
Definition LEVEL_WARNING : N := 8.
Definition LEVEL_MESSAGE : N := 16.
Definition LEVEL_INFO : N := 32.
Definition LEVEL_DEBUG : N := 64.
Definition LEVEL_TRACE : N := 128.
Definition LEVEL_STATISTICS : N := 256.
Definition LEVEL_PROFILE : N := 512.
Definition LEVEL_ALL : N := 1022.
Definition level_class : flags_class :=
  [(lit "default", LEVEL_DEFAULT); (lit "none", LEVEL_NONE); (lit "critical", LEVEL_CRITICAL);
   (lit "error", LEVEL_ERROR); (lit "warning", LEVEL_WARNING); (lit "message", LEVEL_MESSAGE);
   (lit "info", LEVEL_INFO); (lit "debug", LEVEL_DEBUG); (lit "trace", LEVEL_TRACE);
   (lit "statistics", LEVEL_STATISTICS); (lit "profile", LEVEL_PROFILE)].
(** milter-logger.c:38-43, DEFAULT_LEVEL. *)
Definition default_level : N := 286.

(** milter-logger.h:117-127, MilterLogItemFlags; DEFAULT_ITEM, milter-logger.c:44-45. *)
Definition ITEM_DOMAIN : N := 2.
Definition ITEM_LEVEL : N := 4.
Definition ITEM_LOCATION : N := 8.
Definition ITEM_TIME : N := 16.
Definition ITEM_NAME : N := 32.
Definition ITEM_PID : N := 64.
Definition item_class : flags_class :=
  [(lit "default", 0); (lit "none", 1); (lit "domain", ITEM_DOMAIN); (lit "level", ITEM_LEVEL);
   (lit "location", ITEM_LOCATION); (lit "time", ITEM_TIME); (lit "name", ITEM_NAME); (lit "pid", ITEM_PID)].
Definition default_item : N := 16.

Definition has (flags f : N) : bool := negb (N.land flags f =? 0).

(** A message as the handlers of "log" get it. *)
Record message := mk_message {
  m_domain : option bytes;
  m_level : N;
  m_file : option bytes;
  m_line : N;
  m_function : option bytes;
  m_time : bytes;
  m_text : bytes
}.

(** Where the output goes: a file, by its identity, or the standard output. *)
Inductive dest := ToFile (file : nat) | ToStdout.
Inductive out :=
| Written (d : dest) (text : bytes)
| SyslogOpened (identity : option bytes) (facility : N)
| SyslogClosed
| Syslogged (priority : N) (text : bytes).

(** The environment: MILTER_LOG_COLORIZE, MILTER_DEBUG, MILTER_LOG_SYSLOG_LEVEL,
    MILTER_LOG_SYSLOG_FACILITY, what is a terminal that shows colors (isatty and
    milter_utils_guess_console_color_usability), g_get_prgname and getpid. *)
Record environment := mk_env {
  e_colorize : option bytes;
  e_debug : option bytes;
  e_syslog_level : option bytes;
  e_syslog_facility : option bytes;
  e_terminal : dest -> bool;
  e_program : option bytes;
  e_pid : N
}.

(** MilterSyslogLoggerPrivate, milter-syslog-logger.c:35-42. *)
Record syslogger := mk_syslogger {
  sl_identity : option bytes;
  sl_target : N;
  sl_facility : option bytes
}.
(** The handlers of "log". *)
Inductive handler := HDefault | HSyslog (i : nat).
(** What libc's syslog holds on to: openlog does not copy the identity. *)
Inductive held := HeldNothing | HeldOf (i : nat) | HeldFreed.
Inductive death := Aborted | Crashed.

(** MilterLoggerPrivate (69-77) with the handlers of the signal; the syslog loggers by the order of
    their creation; the directory: the file at each path; what was written, the latest first. *)
Record logger := mk_logger {
  lg_target : N;
  lg_item : N;
  lg_levels : list (bytes * N);
  lg_interesting : N;
  lg_path : option bytes;
  lg_output : dest;
  lg_handlers : list handler;
  lg_syslogs : list (option syslogger);
  lg_held : held;
  lg_directory : list (bytes * nat);
  lg_files : nat;
  lg_out : list out;
  lg_dead : option death
}.
Definition put_target s x := mk_logger x (lg_item s) (lg_levels s) (lg_interesting s) (lg_path s) (lg_output s) (lg_handlers s) (lg_syslogs s) (lg_held s) (lg_directory s) (lg_files s) (lg_out s) (lg_dead s).
Definition put_item s x := mk_logger (lg_target s) x (lg_levels s) (lg_interesting s) (lg_path s) (lg_output s) (lg_handlers s) (lg_syslogs s) (lg_held s) (lg_directory s) (lg_files s) (lg_out s) (lg_dead s).
Definition put_levels s x y := mk_logger (lg_target s) (lg_item s) x y (lg_path s) (lg_output s) (lg_handlers s) (lg_syslogs s) (lg_held s) (lg_directory s) (lg_files s) (lg_out s) (lg_dead s).
Definition put_path s x y := mk_logger (lg_target s) (lg_item s) (lg_levels s) (lg_interesting s) x y (lg_handlers s) (lg_syslogs s) (lg_held s) (lg_directory s) (lg_files s) (lg_out s) (lg_dead s).
Definition put_handlers s x := mk_logger (lg_target s) (lg_item s) (lg_levels s) (lg_interesting s) (lg_path s) (lg_output s) x (lg_syslogs s) (lg_held s) (lg_directory s) (lg_files s) (lg_out s) (lg_dead s).
Definition put_syslogs s x y := mk_logger (lg_target s) (lg_item s) (lg_levels s) (lg_interesting s) (lg_path s) (lg_output s) (lg_handlers s) x y (lg_directory s) (lg_files s) (lg_out s) (lg_dead s).
Definition put_directory s x y := mk_logger (lg_target s) (lg_item s) (lg_levels s) (lg_interesting s) (lg_path s) (lg_output s) (lg_handlers s) (lg_syslogs s) (lg_held s) x y (lg_out s) (lg_dead s).
Definition put_out s x := mk_logger (lg_target s) (lg_item s) (lg_levels s) (lg_interesting s) (lg_path s) (lg_output s) (lg_handlers s) (lg_syslogs s) (lg_held s) (lg_directory s) (lg_files s) (x :: lg_out s) (lg_dead s).
Definition put_dead s x := mk_logger (lg_target s) (lg_item s) (lg_levels s) (lg_interesting s) (lg_path s) (lg_output s) (lg_handlers s) (lg_syslogs s) (lg_held s) (lg_directory s) (lg_files s) (lg_out s) (Some x).

(** *** Levels *)

Fixpoint set_key (l : list (bytes * N)) (k : bytes) (v : N) : list (bytes * N) :=
  match l with
  | [] => [(k, v)]
  | (k', v') :: l' => if bytes_eqb k' k then (k, v) :: l' else (k', v') :: set_key l' k v
  end.
(** milter_logger_set_interesting_level, milter-logger.c:729-753. *)
Definition set_interesting (s : logger) (name : bytes) (level : N) : logger :=
  let l := set_key (lg_levels s) name level in
  put_levels s l (fold_left (fun a x => N.lor a (snd x)) l 0).

(** milter_logger_get_resolved_target_level, 681-690. *)
Definition resolved (s : logger) : N :=
  if lg_target s =? LEVEL_DEFAULT then default_level else lg_target s.
(** milter_logger_set_target_level, 692-702. *)
Definition set_target (s : logger) (level : N) : logger :=
  set_interesting (put_target s level) (lit "default")
                  (if level =? LEVEL_DEFAULT then default_level else level).

Definition starts_signed (s : bytes) : bool :=
  match s with c :: _ => beqb c "+" || beqb c "-" | [] => false end.
(** milter_log_level_flags_from_string, 303-322, for a name that is not NULL (NULL crashes; nothing
    calls it so): the flags and the unknown names. *)
Definition level_from_string (s : bytes) (base : N) : N * list bytes :=
  if bytes_eqb s (lit "all") then (LEVEL_ALL, [])
  else flags_from_string level_class s
         (if (base =? LEVEL_DEFAULT) && starts_signed s then default_level else base) default_level.
(** milter_log_item_flags_from_string, 324-340. *)
Definition item_from_string (s : bytes) (base : N) : N * list bytes :=
  flags_from_string item_class s (if (base =? 0) && starts_signed s then default_item else base) default_item.

(** milter_logger_set_target_level_by_string, 704-727, and the same of a syslog logger,
    milter-syslog-logger.c:397-420: the level to be set, or the unknown names. *)
Definition level_given (name : option bytes) (current : N) : N + list bytes :=
  match name with
  | None => inl LEVEL_DEFAULT
  | Some n => match level_from_string n current with (l, []) => inl l | (_, unknown) => inr unknown end
  end.
(** milter_logger_set_target_item_by_string, milter-logger.c:774-797. *)
Definition item_given (name : option bytes) (current : N) : N + list bytes :=
  match name with
  | None => inl 0
  | Some n => match item_from_string n current with (l, []) => inl l | (_, unknown) => inr unknown end
  end.
(** The message of the error, milter-utils.c:591-611. *)
Fixpoint quoted (l : list bytes) : bytes :=
  match l with
  | [] => []
  | [x] => lit "<" ++ x ++ lit ">"
  | x :: l' => lit "<" ++ x ++ lit ">|" ++ quoted l'
  end.
Definition unknown_text (unknown : list bytes) (type : bytes) : bytes :=
  lit "unknown flag names: [" ++ quoted unknown ++ lit "](<" ++ type ++ lit ">)".

Section Environment.
  Variable env : environment.

  (** *** The output *)

  Definition ESC : byte := byte_of 27.
  (** log_message_colorize_console, 359-403: the color of a level. *)
  Definition color_of (level : N) : option bytes :=
    let c (front back : bytes) := Some (ESC :: lit "[01;" ++ front ++ lit "m" ++ ESC :: lit "[" ++ back ++ lit "m") in
    if level =? LEVEL_ERROR then c (lit "37") (lit "41")
    else if level =? LEVEL_CRITICAL then c (lit "33") (lit "41")
    else if level =? LEVEL_WARNING then c (lit "37") (lit "01;43")
    else if level =? LEVEL_MESSAGE then c (lit "37") (lit "01;42")
    else if level =? LEVEL_INFO then c (lit "37") (lit "01;46")
    else if level =? LEVEL_DEBUG then c (lit "37") (lit "01;44")
    else if level =? LEVEL_TRACE then c (lit "37") (lit "01;45")
    else if level =? LEVEL_STATISTICS then c (lit "34") (lit "01;47")
    else if level =? LEVEL_PROFILE then c (lit "32") (lit "40")
    else None.
  (** log_message, 405-442. *)
  Definition colorized (d : dest) : bool :=
    let default := e_terminal env d in
    match e_colorize env with
    | None => default
    | Some n => if bytes_eqb n (lit "console") then true else if bytes_eqb n (lit "none") then false else default
    end.
  Definition log_message (d : dest) (level : N) (text : bytes) : bytes :=
    if colorized d then
      match color_of level with
      | Some c => c ++ text ++ ESC :: lit "[00m"
      | None => text
      end
    else text.

  (** check_milter_debug, 444-466: the process is aborted. *)
  Definition fatal (level : N) : bool :=
    (LEVEL_CRITICAL <=? level) && (level <=? LEVEL_WARNING) &&
    match e_debug env with
    | None => false
    | Some d => bytes_eqb d (lit "fatal-warnings") || bytes_eqb d (lit "fatal_warnings") ||
                ((level =? LEVEL_CRITICAL) &&
                 (bytes_eqb d (lit "fatal-criticals") || bytes_eqb d (lit "fatal_criticals")))
    end.

  Definition bracketed (t : bytes) : bytes := lit "[" ++ t ++ lit "]".
  Definition null_text (t : option bytes) : bytes := match t with Some t => t | None => lit "(null)" end.
  (** "%d" of a guint. *)
  Definition signed_decimal (n : N) : bytes :=
    if n <? 2147483648 then ConnectionSpec.decimal n
    else lit "-" ++ ConnectionSpec.decimal (4294967296 - n).
  (** [if (log->len > 0) g_string_append(log, t)]. *)
  Definition sep (log t : bytes) : bytes := match log with [] => log | _ => log ++ t end.

  (** The line of milter_logger_default_log_handler, 486-547. *)
  Definition prefix (item : N) (m : message) : bytes :=
    let log := [] in
    let log :=
      if has item ITEM_LEVEL && has (m_level m) (flags_mask level_class) then
        log ++ flat_map (fun v => if has (m_level m) (snd v) then bracketed (fst v) else []) level_class
      else log in
    let log := match m_domain m with
               | Some d => if has item ITEM_DOMAIN then log ++ bracketed d else log
               | None => log
               end in
    let log := if has item ITEM_TIME then log ++ bracketed (m_time m) else log in
    let log := if has item ITEM_NAME then sep log (lit " ") ++ bracketed (null_text (e_program env)) else log in
    let log := if has item ITEM_PID
               then (if has item ITEM_NAME then log else sep log (lit " ")) ++
                    bracketed (ConnectionSpec.decimal (e_pid env))
               else log in
    match (if has item ITEM_LOCATION then m_file m else None) with
    | Some f => sep log (lit " ") ++ f ++ lit ":" ++ signed_decimal (m_line m) ++ lit ": " ++
                match m_function m with Some g => g ++ lit "(): " | None => [] end
    | None => sep log (lit ": ")
    end.
  Definition line (s : logger) (m : message) : bytes :=
    prefix (if lg_item s =? 0 then default_item else lg_item s) m ++
    log_message (lg_output s) (m_level m) (m_text m) ++ [byte_of 10].

  (** milter_logger_default_log_handler, 468-553. *)
  Definition default_handler (s : logger) (m : message) : logger :=
    if negb (has (m_level m) (resolved s)) then s
    else if fatal (m_level m) then put_dead s Aborted
    else put_out s (Written (lg_output s) (line s m)).

  (** milter_log_level_to_syslog_level, milter-syslog-logger.c:108-130. *)
  Definition priority (level : N) : N :=
    if has level LEVEL_CRITICAL then 2
    else if has level LEVEL_ERROR then 3
    else if has level LEVEL_WARNING then 4
    else if has level LEVEL_MESSAGE then 5
    else if has level LEVEL_INFO then 6
    else if has level LEVEL_DEBUG then 7
    else if has level LEVEL_TRACE then 7
    else if has level LEVEL_STATISTICS then 5
    else 7.
  (** cb_log, 132-161. *)
  Definition syslog_handler (s : logger) (i : nat) (m : message) : logger :=
    match nth i (lg_syslogs s) None with
    | None => s
    | Some y =>
        let target := if sl_target y =? LEVEL_DEFAULT then lg_interesting s else sl_target y in
        if negb (has (m_level m) target) then s
        else match lg_held s with
             | HeldFreed => put_dead s Crashed
             | _ => put_out s (Syslogged (priority (m_level m))
                      ((if has (m_level m) LEVEL_STATISTICS then lit "[statistics] " else []) ++ m_text m))
             end
    end.

  (** milter_logger_log_va_list, milter-logger.c:603-617: g_signal_emit. *)
  Definition run_handler (m : message) (s : logger) (h : handler) : logger :=
    match lg_dead s with
    | Some _ => s
    | None => match h with HDefault => default_handler s m | HSyslog i => syslog_handler s i m end
    end.
  Definition emit (s : logger) (m : message) : logger := fold_left (run_handler m) (lg_handlers s) s.
  (** milter_log, milter-logger.h:30-41. *)
  Definition log (s : logger) (m : message) : logger :=
    if has (lg_interesting s) (m_level m) then emit s m else s.

  (** Messages of the logger itself; their line is the one the call starts at. *)
  Definition own (level line : N) (function time text : bytes) : message :=
    mk_message (Some (lit "milter-core")) level (Some (lit "milter-logger.c")) line (Some function) time text.

  (** *** The path *)

  Inductive fopen_result := Opened | NotOpened (reason : bytes).
  Fixpoint file_at (l : list (bytes * nat)) (p : bytes) : option nat :=
    match l with
    | [] => None
    | (q, f) :: l' => if bytes_eqb q p then Some f else file_at l' p
    end.
  Definition unlinked (l : list (bytes * nat)) (p : bytes) : list (bytes * nat) :=
    filter (fun x => negb (bytes_eqb (fst x) p)) l.
  (** fopen(path, "a") that works. *)
  Definition append_to (s : logger) (p : bytes) : logger :=
    match file_at (lg_directory s) p with
    | Some f => put_path s (Some p) (ToFile f)
    | None => put_path (put_directory s ((p, lg_files s) :: lg_directory s) (S (lg_files s)))
                       (Some p) (ToFile (lg_files s))
    end.
  (** milter_logger_set_path, 816-842, and whether it works. *)
  Definition set_path (s : logger) (path : option bytes) (r : fopen_result) : logger * option bytes :=
    let s := put_path s None ToStdout in
    match path with
    | None => (s, None)
    | Some p =>
        if bytes_eqb p (lit "-") then (s, None)
        else match r with
             | Opened => (append_to s p, None)
             | NotOpened e => (s, Some (lit "failed to set log output path: <" ++ p ++ lit ">: " ++ e))
             end
    end.
  (** milter_logger_reopen, 653-673. *)
  Definition reopen (s : logger) (r : fopen_result) (time : bytes) : logger :=
    match lg_path s with
    | None => s
    | Some p =>
        let f := lit "milter_logger_reopen" in
        let s := log s (own LEVEL_INFO 663 f time (lit "[logger][reopen][close]")) in
        match lg_dead s with
        | Some _ => s
        | None =>
            let s := match r with
                     | Opened => append_to s p
                     | NotOpened e =>
                         put_path (log (put_path s (Some p) ToStdout)
                                       (own LEVEL_WARNING 667 f time
                                            (lit "[logger][reopen][open][warning] <" ++ p ++ lit ">: " ++ e)))
                                  None ToStdout
                     end in
            match lg_dead s with
            | Some _ => s
            | None => log s (own LEVEL_INFO 672 f time (lit "[logger][reopen][open]"))
            end
        end
    end.

  (** *** Syslog *)

  Definition same_name (a b : bytes) : bool := bytes_eqb (map lower a) (map lower b).
  (** The facilities of resolve_syslog_facility, milter-syslog-logger.c:163-212, with the numbers of
      Linux' syslog.h. *)
  Definition facilities : list (bytes * N) :=
    [(lit "auth", 80); (lit "authpriv", 80); (lit "cron", 72); (lit "daemon", 24); (lit "ftp", 88);
     (lit "kern", 0); (lit "local0", 128); (lit "local1", 136); (lit "local2", 144); (lit "local3", 152);
     (lit "local4", 160); (lit "local5", 168); (lit "local6", 176); (lit "local7", 184); (lit "lpr", 48);
     (lit "mail", 16); (lit "news", 56); (lit "user", 8); (lit "uucp", 64)].
  Definition resolve_facility (name : bytes) : N :=
    match find (fun f => same_name name (fst f)) facilities with Some f => snd f | None => 16 end.
  (** setup_logger, 214-229. *)
  Definition facility_of (y : syslogger) : N :=
    match e_syslog_facility env, sl_facility y with
    | Some f, _ | None, Some f => resolve_facility f
    | None, None => 16
    end.
  Definition update (s : logger) (i : nat) (y : option syslogger) : list (option syslogger) :=
    firstn i (lg_syslogs s) ++ y :: skipn (S i) (lg_syslogs s).

  (** milter_syslog_logger_set_target_level, 384-395. *)
  Definition syslog_set_target (s : logger) (i : nat) (level : N) : logger :=
    match nth i (lg_syslogs s) None with
    | None => s
    | Some y =>
        set_interesting (put_syslogs s (update s i (Some (mk_syslogger (sl_identity y) level (sl_facility y))))
                                     (lg_held s))
                        (lit "syslog") level
    end.
  (** milter_syslog_logger_new, 368-375, and constructor, 243-276. *)
  Definition syslog_new (s : logger) (identity facility : option bytes) (time : bytes) : logger :=
    let i := length (lg_syslogs s) in
    let s := put_syslogs s (lg_syslogs s ++ [Some (mk_syslogger identity LEVEL_DEFAULT facility)]) (lg_held s) in
    let s :=
      match e_syslog_level env with
      | Some name =>
          match level_given (Some name) LEVEL_DEFAULT with
          | inl level => syslog_set_target s i level
          | inr unknown =>
              log s (mk_message (Some (lit "milter-core")) LEVEL_WARNING (Some (lit "milter-syslog-logger.c")) 264
                       (Some (lit "constructor")) time
                       (lit "[syslog-logger][level][set][warning] " ++
                        unknown_text unknown (lit "MilterLogLevelFlags")))
          end
      | None => syslog_set_target s i (lg_target s)
      end in
    match lg_dead s with
    | Some _ => s
    | None =>
        let held := match identity with Some _ => HeldOf i | None => lg_held s end in
        let s := put_syslogs s (lg_syslogs s) held in
        put_handlers (put_out s (SyslogOpened identity (facility_of (mk_syslogger identity LEVEL_DEFAULT facility))))
                     (lg_handlers s ++ [HSyslog i])
    end.
  (** dispose, 289-312, and teardown_logger, 231-241. *)
  Definition is_syslog (i : nat) (h : handler) : bool :=
    match h with HSyslog j => Nat.eqb i j | HDefault => false end.
  Definition syslog_dispose (s : logger) (i : nat) : logger :=
    match nth i (lg_syslogs s) None with
    | None => s
    | Some _ =>
        let s := set_interesting s (lit "syslog") LEVEL_DEFAULT in
        let s := put_handlers s (filter (fun h => negb (is_syslog i h)) (lg_handlers s)) in
        put_out (put_syslogs s (update s i None) HeldNothing) SyslogClosed
    end.
  (** set_property, 314-341: the old identity is freed. *)
  Definition syslog_set_identity (s : logger) (i : nat) (identity : option bytes) : logger :=
    match nth i (lg_syslogs s) None with
    | None => s
    | Some y =>
        put_syslogs s (update s i (Some (mk_syslogger identity (sl_target y) (sl_facility y))))
                    (match lg_held s with HeldOf j => if Nat.eqb i j then HeldFreed else HeldOf j | h => h end)
    end.
  Definition syslog_set_property (s : logger) (i : nat) (level : N) : logger :=
    match nth i (lg_syslogs s) None with
    | None => s
    | Some y => put_syslogs s (update s i (Some (mk_syslogger (sl_identity y) level (sl_facility y)))) (lg_held s)
    end.

  (** milter_glib_log_handler, milter-logger.c:858-903; GLib's levels are 4 for an error, 8 critical,
      16 warning, 32 message, 64 info, 128 debug. *)
  Definition glib_level (level : N) : option N :=
    let l := N.ldiff level 3 in
    if l =? 4 then Some LEVEL_ERROR else if l =? 8 then Some LEVEL_CRITICAL
    else if l =? 16 then Some LEVEL_WARNING else if l =? 32 then Some LEVEL_MESSAGE
    else if l =? 64 then Some LEVEL_INFO else if l =? 128 then Some LEVEL_DEBUG else None.
  Definition glib_log (s : logger) (domain : option bytes) (level : N) (time text : bytes) : logger :=
    if fatal level then put_dead s Aborted
    else match glib_level level with
         | None => s
         | Some l =>
             emit s (mk_message (Some (lit "glib-log")) l None 0 None time
                       (match domain with Some d => bracketed d | None => [] end ++ lit " " ++ text))
         end.

  (** *** Runs *)

  Inductive op :=
  | Log (m : message)                        (* milter_log and milter_error .. milter_profile *)
  | LogAnyway (m : message)                  (* milter_logger_log, milter_logger_log_literal *)
  | GLibLog (domain : option bytes) (level : N) (time text : bytes)
  | SetLevel (level : N)
  | SetLevelString (name : option bytes)
  | SetLevelProperty (level : N)             (* set_property, 253-273 *)
  | SetInteresting (name : bytes) (level : N)
  | SetItem (item : N)                       (* 767-772, and the property *)
  | SetItemString (name : option bytes)
  | SetPath (path : option bytes) (r : fopen_result)
  | Reopen (r : fopen_result) (time : bytes)
  | ConnectDefault                           (* 844-849 *)
  | DisconnectDefault                        (* 851-856 *)
  | SyslogNew (identity facility : option bytes) (time : bytes)
  | SyslogDispose (i : nat)
  | SyslogSetLevel (i : nat) (level : N)
  | SyslogSetLevelString (i : nat) (name : option bytes)
  | SyslogSetLevelProperty (i : nat) (level : N)
  | SyslogSetIdentity (i : nat) (identity : option bytes)
  | Renamed (a b : bytes)                    (* by someone else: rename(2) *)
  | Removed (a : bytes).

  Definition is_default (h : handler) : bool := match h with HDefault => true | HSyslog _ => false end.

  (** The state afterwards and what the call returns (true where nothing is). *)
  Definition call (s : logger) (o : op) : logger * bool :=
    match o with
    | Log m => (log s m, true)
    | LogAnyway m => (emit s m, true)
    | GLibLog d l t x => (glib_log s d l t x, true)
    | SetLevel l => (set_target s l, true)
    | SetLevelString n =>
        match level_given n (lg_target s) with inl l => (set_target s l, true) | inr _ => (s, false) end
    | SetLevelProperty l => (put_target s l, true)
    | SetInteresting n l => (set_interesting s n l, true)
    | SetItem i => (put_item s i, true)
    | SetItemString n =>
        match item_given n (lg_item s) with inl i => (put_item s i, true) | inr _ => (s, false) end
    | SetPath p r => let (s', e) := set_path s p r in (s', match e with None => true | Some _ => false end)
    | Reopen r t => (reopen s r t, true)
    | ConnectDefault => (put_handlers s (lg_handlers s ++ [HDefault]), true)
    | DisconnectDefault => (put_handlers s (filter (fun h => negb (is_default h)) (lg_handlers s)), true)
    | SyslogNew i f t => (syslog_new s i f t, true)
    | SyslogDispose i => (syslog_dispose s i, true)
    | SyslogSetLevel i l => (syslog_set_target s i l, true)
    | SyslogSetLevelString i n =>
        match nth i (lg_syslogs s) None with
        | None => (s, true)
        | Some y => match level_given n (sl_target y) with
                    | inl l => (syslog_set_target s i l, true)
                    | inr _ => (s, false)
                    end
        end
    | SyslogSetLevelProperty i l => (syslog_set_property s i l, true)
    | SyslogSetIdentity i x => (syslog_set_identity s i x, true)
    | Renamed a b =>
        (match file_at (lg_directory s) a with
         | None => s
         | Some f => if bytes_eqb a b then s
                     else put_directory s ((b, f) :: unlinked (unlinked (lg_directory s) b) a) (lg_files s)
         end, true)
    | Removed a => (put_directory s (unlinked (lg_directory s) a) (lg_files s), true)
    end.
  Definition step (s : logger) (o : op) : logger :=
    match lg_dead s with Some _ => s | None => fst (call s o) end.
  Definition run (s : logger) (ops : list op) : logger := fold_left step ops s.

  (** milter_logger_init, 208-222. *)
  Definition logger_new : logger :=
    mk_logger LEVEL_DEFAULT 0 [(lit "default", default_level)] default_level None ToStdout [] [] HeldNothing [] 0 []
              None.
  (** milter_logger_internal_init, 111-142: MILTER_LOG_PATH, MILTER_LOG_LEVEL, MILTER_LOG_ITEM. *)
  Definition warn (s : logger) (line : N) (time text : bytes) : logger :=
    match lg_dead s with
    | Some _ => s
    | None => log s (own LEVEL_WARNING line (lit "milter_logger_internal_init") time text)
    end.
  Definition logger_init (path : option bytes) (r : fopen_result) (level item : option bytes) (time : bytes)
      : logger :=
    let s := put_handlers logger_new [HDefault] in
    let (s, e) := set_path s path r in
    let s := match e with Some e => warn s 121 time (lit "[logger][path][set][warning] " ++ e) | None => s end in
    let s := match level_given level (lg_target s) with
             | inl l => match lg_dead s with Some _ => s | None => set_target s l end
             | inr u => warn s 129 time (lit "[logger][level][set][warning] " ++
                                         unknown_text u (lit "MilterLogLevelFlags"))
             end in
    match item_given item (lg_item s) with
    | inl i => match lg_dead s with Some _ => s | None => put_item s i end
    | inr u => warn s 137 time (lit "[logger][item][set][warning] " ++ unknown_text u (lit "MilterLogItemFlags"))
    end.
End Environment.
