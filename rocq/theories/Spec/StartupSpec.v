(** What the files, sockets and rights of daemons must be. *)
From Verif.Base Require Import Bytes.
From Verif.Model Require Import Startup.
Local Open Scope N_scope.

(** The paths an instance uses. *)
Definition places (i : instance) : list bytes :=
  (match i_address i with Unix p => [p] | Inet _ => [] end) ++
  (match i_pid_file i with Some p => [p] | None => [] end).

(** Two instances that have nothing in common. *)
Definition apart (i j : instance) : Prop :=
  (forall p, In p (places i) -> ~ In p (places j)) /\
  (forall m n, i_address i = Inet m -> i_address j = Inet n -> m <> n).

(** Every service has its own files and ports, and keeps them. *)
Definition separate (conf : nat -> instance) (ops : list op) : Prop :=
  (forall k, NoDup (places (conf k))) /\
  (forall j k, j <> k -> apart (conf j) (conf k)) /\
  Forall (fun o => match o with Start k i _ _ => i = conf k | _ => True end) ops.

(** The files and the port of a running instance. *)
Definition in_place (h : machine) (k : nat) (i : instance) (pid : N) : Prop :=
  match i_address i with
  | Unix p => h_files h p = Some (SocketOf k)
  | Inet n => h_ports h n = Some k
  end /\
  match i_pid_file i with Some p => h_files h p = Some (PidOf pid) | None => True end.

(** The system allows everything. *)
Definition all_allowed (a : allows) : Prop :=
  a_unlink_old a = true /\ a_bind a = true /\ a_write_pid a = true /\ a_unlink_socket a = true /\ a_unlink_pid a = true.

(** Nothing of root is left. *)
Definition unprivileged (w : who) : Prop := w_uid w <> 0 /\ w_gid w <> 0 /\ ~ In 0 (w_groups w).
