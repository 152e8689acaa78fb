(** Specification of the control protocol: packets, what may be sent, and the answers. *)
From Verif.Base Require Import Bytes.
From Verif.Model Require Import Decoder Control Configuration.

(** The packets of the protocol, by their bytes. *)
Inductive command_packet : bytes -> control_command -> Prop :=
| packet_set_configuration t : command_packet (lit "set-configuration" ++ NUL :: t) (SetConfiguration t)
| packet_get_configuration : command_packet (lit "get-configuration" ++ [NUL]) GetConfiguration
| packet_reload : command_packet (lit "reload" ++ [NUL]) Reload
| packet_get_status : command_packet (lit "get-status" ++ [NUL]) GetStatus.

Inductive reply_packet : bytes -> control_reply -> Prop :=
| packet_success : reply_packet (lit "success" ++ [NUL]) Success
| packet_failure m : reply_packet (lit "failure" ++ NUL :: m) (Failure m)
| packet_error m : reply_packet (lit "error" ++ NUL :: m) (Error m)
| packet_configuration t : reply_packet (lit "configuration" ++ NUL :: t) (Configuration t)
| packet_status t : reply_packet (lit "status" ++ NUL :: t) (Status t).

Inductive launch_packet : bytes -> launch_command -> Prop :=
| packet_launch line : launch_packet (lit "launch" ++ NUL :: line ++ [NUL]) (Launch line None)
| packet_launch_as line user :
    launch_packet (lit "launch" ++ NUL :: line ++ NUL :: user) (Launch line (Some user)).

(** Text without NUL, and short enough for the length field: the word and the text together below
    2^31 bytes. *)
Definition plain_text (t : bytes) : Prop := no_nul t /\ (zlen t < 2147483648 - 32)%Z.
(** The same below 2^24 bytes. *)
Definition short_text (t : bytes) : Prop := no_nul t /\ (zlen t < 16777216 - 32)%Z.

Definition plain_command (c : control_command) : Prop :=
  match c with SetConfiguration t => plain_text t | _ => True end.

Definition plain_reply (r : control_reply) : Prop :=
  match r with
  | Success => True
  | Failure m | Error m | Configuration m => short_text m
  | Status _ => False
  end.

Definition plain_launch (l : launch_command) : Prop :=
  match l with
  | Launch line user =>
      line <> [] /\ (zlen line < 8000000)%Z /\ no_nul line /\
      match user with Some u => u <> [] /\ no_nul u /\ (zlen u < 8000000)%Z | None => True end
  end.

(** Everything was heard: the messages in order, every feed accepted, and no packet half received. *)
Definition heard {ev : Type} (o : option decoder * list ev * list (bool * option derror)) (l : list ev) : Prop :=
  let '(d, evs, rs) := o in
  evs = l /\ Forall (fun r => fst r = true) rs /\
  exists d0, d = Some d0 /\ end_decode d0 = (true, None).

(** A request is answered truthfully when success is said only of what happened. *)
Definition told_truly (before after : configuration) (r : control_command) (reply : control_reply) : Prop :=
  match r, reply with
  | SetConfiguration t, Success =>
      exists dir, In dir (c_paths before) /\
                  f_content (c_files after) (dir ++ lit "/milter-manager.custom.conf") = Some t
  | SetConfiguration _, Error _ => forall path, f_content (c_files after) path = f_content (c_files before) path
  | GetConfiguration, Configuration _ => after = before
  | GetStatus, Status _ => after = before
  | _, _ => False
  end.
