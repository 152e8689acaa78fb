(** Specification of the launcher: which processes live, and the answer to a request. *)
From Verif.Base Require Import Bytes.
From Verif.Model Require Import Control Launcher.

Definition started (evs : list launch_event) : list process :=
  flat_map (fun e => match e with Started p _ => [p] | _ => [] end) evs.
Definition replies (evs : list launch_event) : list control_reply :=
  flat_map (fun e => match e with Replied r => [r] | _ => [] end) evs.

(** The children that live: those started whose exit has not come. *)
Definition lives_on (l : list process) (s : launch_op * list launch_event) : list process :=
  match s with
  | (Exit pid, _) => filter (fun p => negb (Z.eqb (p_pid p) pid)) l
  | (Request _ _, evs) => started evs ++ l
  end.
Fixpoint living (l : list process) (h : list (launch_op * list launch_event)) : list process :=
  match h with [] => l | s :: h => living (lives_on l s) h end.

(** The kernel gives no pid of a living child to another one. *)
Fixpoint fresh_pids (l : list process) (h : list (launch_op * list launch_event)) : Prop :=
  match h with
  | [] => True
  | s :: h => Forall (fun p => ~ In (p_pid p) (map p_pid l)) (started (snd s)) /\ fresh_pids (lives_on l s) h
  end.

(** One reply to a request: success with the process asked for, an error with none.  An exit starts
    nothing and is answered by nothing. *)
Definition answered (o : launch_op) (evs : list launch_event) : Prop :=
  match o with
  | Request _ (Launch line user) =>
      (exists p, started evs = [p] /\ p_command_line p = line /\ p_user_name p = user /\ replies evs = [Success]) \/
      (exists m, started evs = [] /\ replies evs = [Error m])
  | Exit _ => started evs = [] /\ replies evs = []
  end.

(** Who the processes run as. *)
Definition runs_as (evs : list launch_event) : list identity :=
  flat_map (fun e => match e with Started _ who => [who] | _ => [] end) evs.
