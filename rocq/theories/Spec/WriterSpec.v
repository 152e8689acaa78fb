(** What the owner of a writer and its peer can count on.  Independent of how the writer works:
    only the visible events are used, latest first. *)
From Verif.Base Require Import Bytes.
From Verif.Model Require Import Writer.
Local Open Scope nat_scope.

(** The bytes given to the writer. *)
Fixpoint queued (t : list wevent) : bytes :=
  match t with
  | [] => []
  | EQueued chunk :: t => queued t ++ chunk
  | _ :: t => queued t
  end.

(** The bytes the peer can read. *)
Fixpoint transmitted (t : list wevent) : bytes :=
  match t with
  | [] => []
  | ETransmitted data :: t => transmitted t ++ data
  | _ :: t => transmitted t
  end.

(** All that was queued before the last flush call. *)
Fixpoint before_last_call (t : list wevent) : bytes :=
  match t with
  | [] => []
  | EFlushCalled :: t => queued t
  | _ :: t => before_last_call t
  end.

(** All that was queued before the last flush call made before the last report. *)
Fixpoint before_last_report (t : list wevent) : bytes :=
  match t with
  | [] => []
  | EFlushed :: t => before_last_call t
  | _ :: t => before_last_report t
  end.

(** [answers t waiting]: every report in [t] can be given flush calls of its own that it answers,
    in the order of the calls, such that all that was queued before these calls is on the wire at
    the report; and so is all that was queued before any flush call made before the previous report.
    [waiting] has for each call not answered how much was queued before it. *)
Inductive answers : list wevent -> list nat -> Prop :=
| answers_start : answers [] []
| answers_call t waiting :
    answers t waiting -> answers (EFlushCalled :: t) (waiting ++ [length (queued t)])
| answers_report t answered waiting :
    answers t (answered ++ waiting) -> answered <> [] ->
    (forall n, List.In n answered -> n <= length (transmitted t)) ->
    length (before_last_report t) <= length (transmitted t) ->
    answers (EFlushed :: t) waiting
| answers_other e t waiting :
    e <> EFlushCalled -> e <> EFlushed -> answers t waiting -> answers (e :: t) waiting.

(** Neither an error nor a shutdown so far. *)
Definition undisturbed (t : list wevent) : Prop := ~ List.In EError t /\ ~ List.In EShutdown t.

Fixpoint count_calls (t : list wevent) : nat :=
  match t with [] => 0 | EFlushCalled :: t => S (count_calls t) | _ :: t => count_calls t end.
Fixpoint count_reports (t : list wevent) : nat :=
  match t with [] => 0 | EFlushed :: t => S (count_reports t) | _ :: t => count_reports t end.

(** What an agent and its handlers do: packets are written and each of them is flushed at once
    (milter-agent.c:522-541), or the writer is shut down. *)
Inductive agent_calls : list wcall -> Prop :=
| agent_none : agent_calls []
| agent_packet p l : p <> [] -> agent_calls l -> agent_calls (Write p :: Flush :: l)
| agent_shutdown wo fo l : agent_calls l -> agent_calls (Shutdown wo fo :: l).

(** The operations of an agent. *)
Inductive agent_ops : list wop -> Prop :=
| ops_none : agent_ops []
| ops_packet p l : p <> [] -> agent_ops l -> agent_ops (Call (Write p) :: Call Flush :: l)
| ops_other o l : (forall c, o = Call c -> exists wo fo, c = Shutdown wo fo) -> agent_ops l -> agent_ops (o :: l).

