(** The connection checker that asks netstat: milter/manager/netstat-connection-checker.rb of
    binding/ruby/lib, with its use in manager.rb:1037-1060 and core/command-runner.rb. *)
From Verif.Base Require Import Bytes.
From Verif.Model Require Import PostfixTable ConnectionSpec.
Local Open Scope N_scope.

(** *** Texts *)

(** String#split without argument: the pieces without white space. *)
Fixpoint words_from (cur : bytes) (b : bytes) : list bytes :=
  match b with
  | [] => match cur with [] => [] | _ => [cur] end
  | c :: b' =>
      if is_space c then match cur with [] => words_from [] b' | _ => cur :: words_from [] b' end
      else words_from (cur ++ [c]) b'
  end.
Definition words (b : bytes) : list bytes := words_from [] b.

(** The separators of [tcp_address.split(/[:.]/)], 136. *)
Definition is_sep (c : byte) : bool := beqb c ":" || beqb c ".".
Fixpoint pieces (b : bytes) : list bytes :=
  match b with
  | [] => [[]]
  | c :: b' =>
      if is_sep c then [] :: pieces b'
      else match pieces b' with p :: ps => (c :: p) :: ps | [] => [[c]] end
  end.
(** String#split drops the empty pieces at the end. *)
Fixpoint drop_empty_end (l : list bytes) : list bytes :=
  match l with
  | [] => []
  | p :: l' =>
      match drop_empty_end l' with
      | [] => match p with [] => [] | _ => [p] end
      | l'' => p :: l''
      end
  end.
Fixpoint join (sep : bytes) (l : list bytes) : bytes :=
  match l with
  | [] => []
  | p :: l' => match l' with [] => p | _ => p ++ sep ++ join sep l' end
  end.

(** *** One line (124-147) *)

(** ConnectionInfo, 18-29; nil is [None]. *)
Record info := mk_info {
  in_protocol : bytes;
  in_local_ip : bytes; in_local_port : option bytes;
  in_foreign_ip : bytes; in_foreign_port : option bytes;
  in_state : option bytes }.
(** "#{ip}:#{port}": nil is the empty string. *)
Definition tcp_address (ip : bytes) (port : option bytes) : bytes :=
  ip ++ lit ":" ++ match port with Some p => p | None => [] end.

(** parse_tcp_address, 135-145: the port is what [components.pop] gives. *)
Definition parse_tcp_address (protocol address : bytes) : bytes * option bytes :=
  let components := drop_empty_end (pieces address) in
  let port := match components with [] => None | _ => Some (last components []) end in
  let sep := if bytes_eqb protocol (lit "tcp6") then lit ":" else lit "." in
  (join sep (removelast components), port).

Definition starts_with_tcp (line : bytes) : bool := bytes_eqb (firstn 3 line) (lit "tcp").

(** A line of [parse_netstat_result]: [Skipped], 126; an exception when there is no foreign address
    (split of nil); else the information. *)
Inductive parsed := Skipped | Bad | Parsed (i : info).
Definition parse_line (line : bytes) : parsed :=
  if negb (starts_with_tcp line) then Skipped
  else
    let w := words line in
    match nth_error w 0, nth_error w 3, nth_error w 4 with
    | Some protocol, Some local, Some foreign =>
        let protocol := if bytes_eqb protocol (lit "tcp") then lit "tcp4" else protocol in
        let (lip, lport) := parse_tcp_address protocol local in
        let (fip, fport) := parse_tcp_address protocol foreign in
        Parsed (mk_info protocol lip lport fip fport (nth_error w 5))
    | _, _, _ => Bad
    end.

(** *** The database *)

(** Two hashes from the foreign address; a later entry replaces an earlier one, here it hides it. *)
Record database := mk_database { db_tcp4 : list (bytes * info); db_tcp6 : list (bytes * info) }.
Definition empty_database : database := mk_database [] [].
Fixpoint find_info (l : list (bytes * info)) (k : bytes) : option info :=
  match l with
  | [] => None
  | (k', i) :: l' => if bytes_eqb k' k then Some i else find_info l' k
  end.

(** parse_netstat_result, 124-147; [false]: an exception, as for a protocol that is neither tcp4 nor
    tcp6 ([nil[]=], 146). *)
Fixpoint parse_lines (db : database) (lines : list bytes) : database * bool :=
  match lines with
  | [] => (db, true)
  | l :: ls =>
      match parse_line l with
      | Skipped => parse_lines db ls
      | Bad => (db, false)
      | Parsed i =>
          let key := tcp_address (in_foreign_ip i) (in_foreign_port i) in
          if bytes_eqb (in_protocol i) (lit "tcp4") then
            parse_lines (mk_database ((key, i) :: db_tcp4 db) (db_tcp6 db)) ls
          else if bytes_eqb (in_protocol i) (lit "tcp6") then
            parse_lines (mk_database (db_tcp4 db) ((key, i) :: db_tcp6 db)) ls
          else (db, false)
      end
  end.
Definition parse_netstat_result (db : database) (out : bytes) : database * bool :=
  parse_lines db (physical out).

(** *** The checker *)

(** A run of the command: its output, a failure (69-80), or an exception of GLib::Spawn.sync. *)
Inductive ran := Output (out : bytes) | Fails | CannotRun.

(** [ck_found]: whether detect_netstat_command_line (149-181) found a command; [ck_runs]: how
    often netstat was run since. *)
Record checker := mk_checker {
  ck_found : bool;
  ck_database : option database;
  ck_last_update : option N;
  ck_lifetime : N;
  ck_runs : nat }.
(** initialize, 31-36, with database_lifetime, 61-67. *)
Definition new_checker (found : bool) (lifetime : N) : checker := mk_checker found None None lifetime 0.

(** The class of an address decides on the type, 83-89. *)
Inductive family := Inet4 | Inet6 | OtherFamily.
(** [cl_text]: [address.address], the numeric text. *)
Record client := mk_client { cl_family : family; cl_text : bytes; cl_port : N }.
Definition table_of (f : family) (db : database) : list (bytes * info) :=
  match f with Inet4 => db_tcp4 db | Inet6 => db_tcp6 db | OtherFamily => [] end.

Section Checker.
  (** What the n-th run of netstat gives. *)
  Variable netstat : nat -> ran.

  (** need_database_update?, 118-122; [now] in seconds. *)
  Definition need_database_update (now : N) (s : checker) : bool :=
    match ck_database s, ck_last_update s with
    | Some _, Some t => ck_lifetime s <? now - t
    | _, _ => true
    end.
  (** update_database, 112-116; nobody sets @last_update. *)
  Definition update_database (now : N) (s : checker) : checker * bool :=
    if need_database_update now s then
      let with_db db := mk_checker (ck_found s) (Some db) (ck_last_update s) (ck_lifetime s) (S (ck_runs s)) in
      match netstat (ck_runs s) with
      | Output out => let (db, ok) := parse_netstat_result empty_database out in (with_db db, ok)
      | Fails => (with_db empty_database, true)
      | CannotRun => (with_db empty_database, false)
      end
    else (s, true).
  (** purge_cache, 107-110. *)
  Definition purge_cache (s : checker) : checker :=
    mk_checker (ck_found s) None None (ck_lifetime s) (ck_runs s).

  (** What a method gives: a value or an exception. *)
  Inductive gives (A : Type) := Gives (a : A) | Raised.
  Arguments Gives {A}. Arguments Raised {A}.

  Definition lookup (s : checker) (c : client) : option info :=
    match ck_database s with
    | Some db => find_info (table_of (cl_family c) db) (tcp_address (cl_text c) (Some (decimal (cl_port c))))
    | None => None
    end.
  (** connection_info, 82-105. *)
  Definition connection_info (now : N) (s : checker) (c : client) (retry : bool) : checker * gives (option info) :=
    if negb (ck_found s) then (s, Gives None)
    else match cl_family c with
    | OtherFamily => (s, Gives None)
    | _ =>
        if cl_port c =? 0 then (s, Gives None)
        else
          let (s, ok) := update_database now s in
          if negb ok then (s, Raised)
          else match lookup s c with
          | Some i => (s, Gives (Some i))
          | None =>
              if retry then
                let (s, ok) := update_database now (purge_cache s) in
                if negb ok then (s, Raised) else (s, Gives (lookup s c))
              else (s, Gives None)
          end
    end.

  (** connected?, 38-45; [local]: [context.smtp_server_address.local?]. *)
  Definition connected (now : N) (s : checker) (local : bool) (c : client) : checker * gives bool :=
    if negb local then (s, Gives true)
    else
      let (s, r) := connection_info now s c false in
      (s, match r with
          | Raised => Raised
          | Gives None => Gives true
          | Gives (Some i) =>
              Gives (match in_state i with
                     | None => false
                     | Some st => negb (bytes_eqb st (lit "CLOSE_WAIT"))
                     end)
          end).
  (** The block of define_connection_checker, manager.rb:1037-1047: guard(true). *)
  Definition check (now : N) (s : checker) (local : bool) (c : client) : checker * bool :=
    let (s, r) := connected now s local c in
    (s, match r with Gives b => b | Raised => true end).

  (** smtp_server_interface_ip_address, smtp_server_interface_port, 47-59. *)
  Definition established (i : info) : bool :=
    match in_state i with Some st => bytes_eqb st (lit "ESTABLISHED") | None => false end.
  Definition interface (now : N) (s : checker) (c : client) : checker * gives (option (bytes * option bytes)) :=
    let (s, r) := connection_info now s c true in
    (s, match r with
        | Raised => Raised
        | Gives (Some i) => Gives (if established i then Some (in_local_ip i, in_local_port i) else None)
        | Gives None => Gives None
        end).

  (** Any use of the checker: checks and questions for the interface, each at its time. *)
  Inductive use :=
  | Check (now : N) (local : bool) (c : client)
  | Interface (now : N) (c : client).
  Definition do_use (s : checker) (u : use) : checker :=
    match u with
    | Check now local c => fst (check now s local c)
    | Interface now c => fst (interface now s c)
    end.
  Definition do_uses (s : checker) (us : list use) : checker := fold_left do_use us s.
End Checker.
Arguments Gives {A}. Arguments Raised {A}.
