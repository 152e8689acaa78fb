(** Model of milter/manager/milter-manager-process-launcher.c. *)
From Verif.Base Require Import Bytes.
From Verif.Model Require Import Control.
Local Open Scope Z_scope.

(** ProcessData, lines 63-72, without the readers of the process' output, which only log. *)
Record process := mk_process { p_pid : Z; p_command_line : bytes; p_user_name : option bytes }.

(** struct passwd as far as it is used. *)
Record passwd := mk_passwd { pw_name : bytes; pw_uid : N; pw_gid : N }.

(** Who a process runs as: user, group, supplementary groups set for a user name. *)
Record identity := mk_identity { i_uid : N; i_gid : N; i_groups : option bytes }.

(** Whether setgid, initgroups and setuid succeed for the child. *)
Record grants := mk_grants { g_setgid : bool; g_initgroups : bool; g_setuid : bool }.

(** setup_child, 254-292: runs in the child before exec; every failure only logs and returns. *)
Definition setup_child (g : grants) (pw : option passwd) (i : identity) : identity :=
  match pw with
  | None => i
  | Some pw =>
      if negb (g_setgid g) then i
      else
        let i := mk_identity (i_uid i) (pw_gid pw) (i_groups i) in
        if negb (g_initgroups g) then i
        else
          let i := mk_identity (i_uid i) (i_gid i) (Some (pw_name pw)) in
          if negb (g_setuid g) then i else mk_identity (pw_uid pw) (i_gid i) (i_groups i)
  end.

(** What the system answers to one launch: getpwnam_r's entry for the user, g_shell_parse_argv's
    verdict, g_spawn_async_with_pipes' new pid or failure, the grants, and the texts of the
    errors. *)
Record system := mk_system {
  y_passwd : bytes -> option passwd;
  y_parses : bytes -> bool;
  y_spawn : option Z;
  y_grants : grants;
  y_message : bytes
}.

Inductive launch_error := AlreadyLaunched | InvalidUserName | BadCommandString | StartFailure.

(** What happened: a process was started as somebody, its exit was seen and it was forgotten, a reply
    was handed to the agent. *)
Inductive launch_event :=
| Started (p : process) (as_who : identity)
| Gone (pid : Z)
| Replied (r : control_reply).

(** launch, 296-383: the list afterwards, and the error or what was started. *)
Definition launch (i : identity) (y : system) (l : list process) (line : bytes) (user : option bytes)
  : list process * (launch_error + (process * identity)) :=
  if existsb (fun p => bytes_eqb (p_command_line p) line) l then (l, inl AlreadyLaunched)
  else
    let go pw :=
      if negb (y_parses y line) then (l, inl BadCommandString)
      else match y_spawn y with
           | None => (l, inl StartFailure)
           | Some pid =>
               let p := mk_process pid line user in
               (p :: l, inr (p, setup_child (y_grants y) pw i))
           end in
    match user with
    | None => go None
    | Some u => match y_passwd y u with
                | None => (l, inl InvalidUserName)
                | Some pw => go (Some pw)
                end
    end.

(** child_watch_func, 205-230: the first process with that pid is dropped. *)
Fixpoint forget (l : list process) (pid : Z) : list process :=
  match l with
  | [] => []
  | p :: l => if p_pid p =? pid then l else p :: forget l pid
  end.

(** A launch request decoded from the manager (cb_decoder_launch, 385-426), and the event loop telling
    of the exit of a child. *)
Inductive launch_op := Request (y : system) (c : launch_command) | Exit (pid : Z).

Definition launcher_step (i : identity) (l : list process) (o : launch_op) : list process * list launch_event :=
  match o with
  | Request y (Launch line user) =>
      match launch i y l line user with
      | (l, inl _) => (l, [Replied (Error (y_message y))])
      | (l, inr (p, who)) => (l, [Started p who; Replied Success])
      end
  | Exit pid =>
      (forget l pid,
       if existsb (fun p => p_pid p =? pid) l then [Gone pid] else [])
  end.

Fixpoint launcher_run (i : identity) (l : list process) (ops : list launch_op)
  : list process * list (list launch_event) :=
  match ops with
  | [] => (l, [])
  | o :: ops => let '(l, e) := launcher_step i l o in
                let '(l, es) := launcher_run i l ops in (l, e :: es)
  end.
