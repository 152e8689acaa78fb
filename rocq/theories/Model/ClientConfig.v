(** The settings of a filter written in Ruby: client/command-line.rb and client/configuration.rb of
    binding/ruby/lib/milter.  Left out: names, hooks, log levels and paths, the database, load paths added by the
    program, abbreviations OptionParser completes, and what Ruby code in a file does besides assigning. *)
From Verif.Base Require Import Bytes.
Local Open Scope Z_scope.

Inductive value := Nil | Bool (b : bool) | Int (n : Z) | Text (s : bytes) | Backend (s : bytes).
Inductive setting :=
  ConnectionSpec | SocketMode | SocketGroup | RemoveOnCreate | RemoveOnClose | Daemon | PidFile | MaintenanceInterval
| SuspendTime | MaxConnections | MaxDescriptors | FallbackStatus | EventLoop | Workers | PacketBuffer | MaxPending
| RunGc | HandleSignal | User | Group | Syslog | Facility.
Scheme Equality for setting.

Definition settings := setting -> value.
Definition set (c : settings) (s : setting) (v : value) : settings := fun s' => if setting_beq s s' then v else c s'.
Definition truthy (v : value) : bool := match v with Nil | Bool false => false | _ => true end.
(** [v ||= Int n]. *)
Definition or_int (v : value) (n : Z) : value := if truthy v then v else Int n.

(** clear: configuration.rb:93-116, 179-182, 230-233; DEFAULT_SUSPEND_TIME_ON_UNACCEPTABLE and
    DEFAULT_MAX_CONNECTIONS are milter-client.h:47 and 58. *)
Definition cleared : settings := fun s =>
  match s with
  | ConnectionSpec => Text (lit "inet:20025")
  | SocketMode => Int 504   (* 0770 *)
  | SocketGroup => Nil
  | RemoveOnCreate | RemoveOnClose => Bool true
  | Daemon => Bool false
  | PidFile => Nil
  | MaintenanceInterval => Int 100
  | SuspendTime => Int 5
  | MaxConnections => Int 0
  | MaxDescriptors => Int 0
  | FallbackStatus => Text (lit "accept")
  | EventLoop => Text (lit "glib")
  | Workers => Int 0
  | PacketBuffer => Int 0
  | MaxPending => Int 0
  | RunGc | HandleSignal => Bool true
  | User | Group => Nil
  | Syslog => Bool false
  | Facility => Text (lit "mail")
  end.

(** available_fallback_statuses, 466-467; the nicks of milter-client.h:81-86. *)
Definition statuses : list bytes := [lit "accept"; lit "reject"; lit "temporary-failure"; lit "discard"].
Definition backends : list bytes := [lit "default"; lit "glib"; lit "libev"].
Definition member (b : bytes) (l : list bytes) : bool := existsb (bytes_eqb b) l.
(** [to_s.downcase.gsub(/_/, '-')], 586. *)
Definition normalized (s : bytes) : bytes := map (fun c => if beqb c "_" then "-"%char else lower c) s.

(** What an assignment in a file does: it stores a value, raises InvalidValue, or raises something else. *)
Inductive step := Stored (v : value) | Invalid | Raised.

Section Program.
  Variable parses : bytes -> bool.              (* Milter::Connection.parse_spec does not raise *)
  Variable integer : bytes -> option Z.         (* OptionParser's Integer *)
  Variable facilities : list bytes.             (* of Syslog *)
  Variable files : bytes -> option (list (setting * value)).   (* the assignments of a file that can be read, in order *)

  (** The setters of the loaders, 462-686, 688-716, 718-764.  There is none for handle_signal. *)
  Definition assign (s : setting) (v : value) : step :=
    match s with
    | ConnectionSpec =>
        match v with
        | Nil => Stored Nil
        | Text t => if parses t then Stored v else Raised
        | _ => Raised
        end
    | MaintenanceInterval | MaxDescriptors | Workers | PacketBuffer | MaxPending => Stored (or_int v 0)
    | SuspendTime => Stored (or_int v 5)
    | MaxConnections => Stored (or_int v 0)
    | FallbackStatus =>
        match v with
        | Nil => Stored Nil
        | Text t => if member (normalized t) statuses then Stored (Text (normalized t)) else Invalid
        | _ => Invalid   (* "true", "1", ... *)
        end
    | EventLoop =>
        match v with
        | Text t => if member t backends then Stored (Backend t) else Stored Nil
        | _ => Stored v
        end
    | HandleSignal => Raised
    | _ => Stored v
    end.
  (** load_path, 442-460: InvalidValue is logged and ends the file; [None] is another exception. *)
  Fixpoint evaluate (c : settings) (l : list (setting * value)) : option settings :=
    match l with
    | [] => Some c
    | (s, v) :: l' =>
        match assign s v with
        | Stored v' => evaluate (set c s v') l'
        | Invalid => Some c
        | Raised => None
        end
    end.
  (** load, 421-427, with resolve_path (core/path.rb:20-41) while load_paths is empty: a relative path resolves to
      nothing. *)
  Definition absolute (p : bytes) : bool := match p with c :: _ => beqb c "/" | [] => false end.
  Definition load (c : settings) (p : bytes) : option settings :=
    if absolute p then match files p with Some l => evaluate c l | None => None end else None.

  Inductive argument :=
  | Option (s : setting) (t : bytes)      (* --connection-spec=..., ... *)
  | Switch (s : setting) (b : bool)       (* --[no-]daemon, ... *)
  | StatusOnError (t : bytes)             (* --status-on-error=... *)
  | Configuration (p : bytes).            (* --configuration=... *)

  Definition checked (ok : Z -> bool) (t : bytes) : option value :=
    match integer t with Some n => if ok n then Some (Int n) else None | None => None end.
  (** The options with an argument, command-line.rb:117-238, 273-278; [None] is OptionParser::ParseError. *)
  Definition option_value (s : setting) (t : bytes) : option value :=
    match s with
    | ConnectionSpec | PidFile | User | Group | SocketGroup | SocketMode | MaintenanceInterval => Some (Text t)
    | FallbackStatus => if member t statuses then Some (Text t) else None
    | EventLoop => if member t backends then Some (Text t) else None
    | Facility => if member t facilities then Some (Text t) else None
    | MaxDescriptors => checked (fun _ => true) t
    | Workers => checked (fun n => 0 <? n) t
    | PacketBuffer => checked (fun n => 0 <=? n) t
    | MaxPending => checked (fun n => 0 <? n) t
    | _ => None
    end.
  Definition switched (s : setting) : bool := match s with Daemon | HandleSignal | RunGc | Syslog => true | _ => false end.
  Definition argue (c : settings) (a : argument) : option settings :=
    match a with
    | Option s t => match option_value s t with Some v => Some (set c s v) | None => None end
    | Switch s b => if switched s then Some (set c s (Bool b)) else None
    | StatusOnError t => Some (set c FallbackStatus (Text t))
    | Configuration p => load c p
    end.
  (** parse, command-line.rb:32-43; [None]: the program exits. *)
  Fixpoint parse (c : settings) (l : list argument) : option settings :=
    match l with
    | [] => Some c
    | a :: l' => match argue c a with Some c' => parse c' l' | None => None end
    end.

  (** What the client is told, in order: LogConfiguration 235-237, SecurityConfiguration 184-187,
      MilterConfiguration 118-152, then daemonize and the signal handlers, command-line.rb:56-57.  GC.start on
      maintain, syslog, daemonize and the handlers are told as [Bool true]. *)
  Definition given (s : setting) (c : settings) : list (setting * value) := [(s, c s)].
  Definition when_true (s : setting) (c : settings) : list (setting * value) := if truthy (c s) then [(s, c s)] else [].
  Definition switch_on (s : setting) (c : settings) : list (setting * value) := if truthy (c s) then [(s, Bool true)] else [].
  Definition nonzero (v : value) : bool := match v with Int 0 => false | _ => true end.
  Definition told (c : settings) : list (setting * value) :=
    (if truthy (c Syslog) then when_true Facility c ++ [(Syslog, Bool true)] else []) ++
    when_true User c ++ when_true Group c ++
    given ConnectionSpec c ++ given SocketGroup c ++ when_true SocketMode c ++ given FallbackStatus c ++
    given EventLoop c ++ given PacketBuffer c ++ given PidFile c ++ given MaintenanceInterval c ++
    switch_on RunGc c ++ given Workers c ++ given MaxPending c ++
    (if nonzero (c MaxDescriptors) then given MaxDescriptors c else []) ++
    switch_on Daemon c ++ switch_on HandleSignal c.
  Variable accepts : setting -> value -> bool.   (* the client's setter does not raise *)
  Fixpoint tell (client : settings) (l : list (setting * value)) : option settings :=
    match l with
    | [] => Some client
    | (s, v) :: l' => if accepts s v then tell (set client s v) l' else None
    end.
  (** run, command-line.rb:45-59: the client, [fresh] before, once the settings are made; [None]: it does not run. *)
  Definition run (fresh : settings) (l : list argument) : option settings :=
    match parse cleared l with Some c => tell fresh (told c) | None => None end.
End Program.
