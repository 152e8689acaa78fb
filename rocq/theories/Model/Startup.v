(** Model of the files, sockets and rights of a daemon: milter/client/milter-client.c, milter_client_run
    and what it calls, milter/core/milter-connection.c, milter_connection_listen, and
    milter/manager/milter-manager-main.c. *)
From Verif.Base Require Import Bytes.
Local Open Scope N_scope.

(** ** Rights *)

(** Who a process is: user, group, supplementary groups. *)
Record who := mk_who { w_uid : N; w_gid : N; w_groups : list N }.

(** The entry of a user: name, uid, and the groups the group database has for the user. *)
Record entry := mk_entry { e_name : bytes; e_uid : N; e_member : list N }.

(** What the system says: its databases, and whether chown, setgid, initgroups and setuid work. *)
Record rights := mk_rights {
  t_user : bytes -> option entry;
  t_group : bytes -> option N;
  t_chown : bool;
  t_setgid : bool;
  t_initgroups : bool;
  t_setuid : bool
}.

Definition find_password (t : rights) (user : option bytes) : option entry :=
  t_user t (match user with Some u => u | None => lit "nobody" end).

(** switch_group, milter-client.c:1837-1896. *)
Definition switch_group (t : rights) (user group : option bytes) (w : who) : who * bool :=
  match group with
  | None => (w, true)
  | Some g =>
      match t_group t g with
      | None => (w, false)
      | Some gid =>
          if negb (t_setgid t) then (w, false)
          else
            let w := mk_who (w_uid w) gid (w_groups w) in
            match find_password t user with
            | None => (w, false)
            | Some e =>
                if negb (t_initgroups t) then (w, false)
                else (mk_who (w_uid w) gid (gid :: e_member e), true)
            end
      end
  end.

(** switch_user, milter-client.c:1795-1835: the owner of the UNIX socket afterwards ([None]: not
    changed); a failed chown sets the error and goes on. *)
Definition switch_user (t : rights) (user : option bytes) (unix : bool) (w : who)
  : who * bool * option N :=
  match find_password t user with
  | None => (w, false, None)
  | Some e =>
      let owner := if unix && t_chown t then Some (e_uid e) else None in
      if negb (t_setuid t) then (w, false, owner)
      else (mk_who (e_uid e) (w_gid w) (w_groups w), true, owner)
  end.

(** milter_client_drop_privilege, milter-client.c:1898-1905. *)
Definition drop_privilege (t : rights) (user group : option bytes) (unix : bool) (w : who)
  : who * bool * option N :=
  if negb (w_uid w =? 0) then (w, true, None)
  else
    let '(w, ok) := switch_group t user group w in
    if ok then switch_user t user unix w else (w, false, None).

(** ** The order of events in milter_manager_main, milter-manager-main.c:587-731 *)

(** The settings; they are taken not to change while the files are loaded again. *)
Record settings := mk_settings {
  c_config_dir : option bytes;       (* --config-dir *)
  c_show : bool;                     (* --show-config *)
  c_user : option bytes;
  c_group : option bytes;
  c_privilege : bool;                (* security.privilege_mode *)
  c_daemon : bool;
  c_unix : bool                      (* the connection spec is a UNIX socket *)
}.

(** What works: making the custom directory, forking the launcher, listening, the controller's
    listening, daemonizing, running. *)
Record luck := mk_luck {
  k_custom : bool; k_launcher : bool; k_listen : bool; k_controller : bool; k_daemonize : bool; k_run : bool
}.

Inductive source := ConfigDir (d : bytes) | SystemDir | CustomDir (user : bytes).

Inductive action :=
| Load (s : source)         (* the files there are evaluated *)
| Shown
| Launcher                  (* the launcher process goes on as this *)
| Listens
| ControllerListens
| Daemonizes
| Serves.                   (* milter_client_run got as far as its event loop *)

(** append_custom_configuration_directory, 525-573: the directory of the effective user, if it is set
    and known; it belongs to that user. *)
Definition custom_of (t : rights) (k : luck) (c : settings) : list source :=
  match c_user c with
  | None => []
  | Some u => match t_user t u with
              | None => []
              | Some _ => if k_custom k then [CustomDir u] else []
              end
  end.

Definition base_sources (c : settings) : list source :=
  (match c_config_dir c with Some d => [ConfigDir d] | None => [] end) ++ [SystemDir].

Definition load_all (w : who) (l : list source) : list (who * action) := map (fun s => (w, Load s)) l.

(** The trace with who did it, and the return value.  [privilege] is off for others than root
    (613-614). *)
Definition manager_main (t : rights) (k : luck) (c : settings) (w : who) : list (who * action) * bool :=
  let l1 := match c_config_dir c with Some _ => load_all w (base_sources c) | None => [] end in
  let l2 := load_all w (base_sources c ++ custom_of t k c) in
  if c_show c then (l1 ++ l2 ++ [(w, Shown)], true)
  else
    let privilege := c_privilege c && (w_uid w =? 0) in
    if privilege && negb (k_launcher k) then (l1 ++ l2, false)
    else
      let l3 := if privilege then [(w, Launcher)] else [] in
      if negb (k_listen k) then (l1 ++ l2 ++ l3, false)
      else
        let l4 := [(w, Listens)] in
        let '(w', ok, _) := drop_privilege t (c_user c) (c_group c) (c_unix c) w in
        if negb ok then (l1 ++ l2 ++ l3 ++ l4, false)
        else
          let l5 := if k_controller k then [(w', ControllerListens)] else [] in
          if c_daemon c && negb (k_daemonize k) then (l1 ++ l2 ++ l3 ++ l4 ++ l5, false)
          else
            let l6 := if c_daemon c then [(w', Daemonizes)] else [] in
            let l7 := if k_run k then [(w', Serves)] else [] in
            (l1 ++ l2 ++ l3 ++ l4 ++ l5 ++ l6 ++ l7, true).

(** ** Files and sockets *)

(** What is at a path: the PID file of a process, the socket an instance made, something else. *)
Inductive node := PidOf (pid : N) | SocketOf (instance : nat) | Other.

Inductive address := Unix (path : bytes) | Inet (port : N).

(** The settings that matter; [i_first] when the program calls milter_client_listen before
    milter_client_run, as milter-manager does. *)
Record instance := mk_instance {
  i_address : address;
  i_remove_on_create : bool;
  i_remove_on_close : bool;
  i_pid_file : option bytes;
  i_remove_pid : bool;
  i_first : bool
}.

(** Whether the system allows: removing an old socket, binding, writing the PID file, removing the
    socket, removing the PID file. *)
Record allows := mk_allows {
  a_unlink_old : bool; a_bind : bool; a_write_pid : bool; a_unlink_socket : bool; a_unlink_pid : bool
}.

Definition files := bytes -> option node.
Definition ports := N -> option nat.

Definition put (f : files) (p : bytes) (n : option node) : files :=
  fun q => if bytes_eqb p q then n else f q.
Definition take (b : ports) (p : N) (o : option nat) : ports := fun q => if p =? q then o else b q.

(** The machine: files, ports listened on, running instances with their process number. *)
Record machine := mk_machine {
  h_files : files;
  h_ports : ports;
  h_running : list (nat * (instance * N))
}.

(** milter_connection_listen, milter-connection.c:347-436.  SO_REUSEADDR does not allow two listeners
    on one port. *)
Definition listen (h : machine) (k : nat) (i : instance) (a : allows) : machine * bool :=
  match i_address i with
  | Unix p =>
      let old := match h_files h p with Some _ => i_remove_on_create i | None => false end in
      if old && negb (a_unlink_old a) then (h, false)
      else
        let f := if old then put (h_files h) p None else h_files h in
        match f p with
        | Some _ => (mk_machine f (h_ports h) (h_running h), false)
        | None =>
            if a_bind a then (mk_machine (put f p (Some (SocketOf k))) (h_ports h) (h_running h), true)
            else (mk_machine f (h_ports h) (h_running h), false)
        end
  | Inet n =>
      match h_ports h n with
      | Some _ => (h, false)
      | None => if a_bind a then (mk_machine (h_files h) (take (h_ports h) n (Some k)) (h_running h), true)
                else (h, false)
      end
  end.

(** The listening socket is closed when the process goes; its file stays. *)
Definition close_socket (h : machine) (i : instance) : machine :=
  match i_address i with
  | Unix _ => h
  | Inet n => mk_machine (h_files h) (take (h_ports h) n None) (h_running h)
  end.

(** milter_client_cleanup, milter-client.c:2055-2108; [bound] when priv->address is set.  Whether it
    worked. *)
Definition cleanup (h : machine) (i : instance) (bound created : bool) (a : allows) : machine * bool :=
  let '(f, ok1) :=
    match i_address i with
    | Unix p =>
        if bound && i_remove_on_close i then
          match h_files h p with
          | Some _ => if a_unlink_socket a then (put (h_files h) p None, true) else (h_files h, false)
          | None => (h_files h, false)
          end
        else (h_files h, true)
    | Inet _ => (h_files h, true)
    end in
  let '(f, ok2) :=
    match i_pid_file i with
    | Some p =>
        if created && i_remove_pid i then
          match f p with
          | Some _ => if a_unlink_pid a then (put f p None, true) else (f, false)
          | None => (f, false)
          end
        else (f, true)
    | None => (f, true)
    end in
  (mk_machine f (h_ports h) (h_running h), ok1 && ok2).

Inductive outcome := Runs | Exits (success : bool).

(** The PID file in milter_client_run, milter-client.c:2338-2368: g_file_set_contents replaces what is
    there. *)
Definition write_pid (h : machine) (i : instance) (pid : N) (a : allows) : machine * bool :=
  match i_pid_file i with
  | None => (h, true)
  | Some p => if a_write_pid a then (mk_machine (put (h_files h) p (Some (PidOf pid))) (h_ports h) (h_running h), true)
              else (h, false)
  end.

Definition enter (h : machine) (k : nat) (i : instance) (pid : N) : machine :=
  mk_machine (h_files h) (h_ports h) ((k, (i, pid)) :: h_running h).

(** Starting: milter_manager_main from the listening on, or milter_client_main.  The value the program
    returns if it does not get to its event loop: milter_manager_main says TRUE if milter_client_run
    fails (707-728). *)
Definition start (h : machine) (k : nat) (i : instance) (pid : N) (a : allows) : machine * outcome :=
  if i_first i then
    let '(h, ok) := listen h k i a in
    if ok then
      let '(h, ok) := write_pid h i pid a in
      if ok then (enter h k i pid, Runs) else (close_socket h i, Exits true)
    else (h, Exits false)
  else
    let '(h, ok) := write_pid h i pid a in
    if ok then
      let '(h, ok) := listen h k i a in
      if ok then (enter h k i pid, Runs)
      else let '(h, _) := cleanup h i false true a in (h, Exits false)
    else (h, Exits false).

Definition leave (h : machine) (k : nat) : machine :=
  mk_machine (h_files h) (h_ports h) (filter (fun x => negb (fst x =? k)%nat) (h_running h)).

Fixpoint running (l : list (nat * (instance * N))) (k : nat) : option (instance * N) :=
  match l with
  | [] => None
  | (j, x) :: l => if (j =? k)%nat then Some x else running l k
  end.

Inductive op :=
| Start (k : nat) (i : instance) (pid : N) (a : allows)
| Stop (k : nat) (a : allows)       (* the event loop ends, milter_client_run returns *)
| Crash (k : nat).                  (* the process is killed *)

(** The end of milter_client_run, 2370-2392: the return value is that of the loop. *)
Definition machine_step (h : machine) (o : op) : machine * option outcome :=
  match o with
  | Start k i pid a =>
      match running (h_running h) k with
      | Some _ => (h, None)
      | None => let '(h, r) := start h k i pid a in (h, Some r)
      end
  | Stop k a =>
      match running (h_running h) k with
      | None => (h, None)
      | Some (i, _) =>
          let '(h, _) := cleanup (close_socket (leave h k) i) i true true a in (h, Some (Exits true))
      end
  | Crash k =>
      match running (h_running h) k with
      | None => (h, None)
      | Some (i, _) => (close_socket (leave h k) i, Some (Exits false))
      end
  end.

Fixpoint machine_run (h : machine) (ops : list op) : machine :=
  match ops with
  | [] => h
  | o :: ops => machine_run (fst (machine_step h o)) ops
  end.

Definition fresh_machine (f : files) : machine := mk_machine f (fun _ => None) [].
