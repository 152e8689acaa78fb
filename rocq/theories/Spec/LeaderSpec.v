(** What the MTA gets to see of a session of the manager. *)
From Verif.Base Require Import Bytes.
From Verif.Model Require Import CommandCodec Status Server Children Leader.

(** The answers to the MTA's commands: a response signal for a stage, or a handler that returns a
    final status instead of "the answer comes later". *)
Definition mta_answer (e : levent) : option (option sstate * status) :=
  match e with
  | LResponse x s => Some (Some x, s)
  | LNegotiated _ _ => Some (Some XNegotiate, S_ALL_OPTIONS)
  | LReturn S_PROGRESS => None
  | LReturn S_DEFAULT => None
  | LReturn s => Some (None, s)
  | _ => None
  end.

(** Those of a trace (latest first). *)
Fixpoint mta_answers (t : list levent) : list (option sstate * status) :=
  match t with
  | [] => []
  | e :: t' => match mta_answer e with Some a => a :: mta_answers t' | None => mta_answers t' end
  end.

(** How often the MTA was given a response for stage [x], and how often it asked. *)
Definition responses (x : sstate) (t : list levent) : nat :=
  length (filter (fun e => match e with LResponse y _ => sstate_eqb x y | _ => false end) t).
Definition requested_stage (o : op) : option sstate :=
  match o with
  | Mta (CNegotiate _) => Some XNegotiate
  | Mta (CConnect _ _) => Some XConnect
  | Mta (CHelo _) => Some XHelo
  | Mta (CEnvelopeFrom _) => Some XFrom
  | Mta (CEnvelopeRecipient _) => Some XRcpt
  | Mta CData => Some XData
  | Mta (CUnknown _) => Some XUnknown
  | Mta (CHeader _ _) => Some XHeader
  | Mta CEndOfHeader => Some XEndOfHeader
  | Mta (CBody _) => Some XBody
  | Mta (CEndOfMessage _) => Some XEndOfMessage
  | Mta CQuit => Some XQuit
  | Mta CAbort => Some XAbort
  | _ => None
  end.
Definition times_asked (x : sstate) (ops : list op) : nat :=
  length (filter (fun o => match requested_stage o with Some y => sstate_eqb x y | None => false end) ops).

(** The changes of the message that the filters' answers amount to, and those passed on to the
    MTA, latest first. *)
Definition modification (e : event) : bool :=
  match e with
  | OHeader _ | OChangeFrom _ _ | OAddRecipient _ _ | ODeleteRecipient _ | OReplaceBody _
  | OProgress | OQuarantine _ => true
  | _ => false
  end.
Definition wanted_changes (t : list levent) : list event :=
  flat_map (fun e => match e with LSaw e' => if modification e' then [e'] else [] | _ => [] end) t.
Definition passed_changes (t : list levent) : list event :=
  flat_map (fun e => match e with LPass e' => [e'] | _ => [] end) t.

(** The MTA has not been answered yet. *)
Definition waiting (s : lstate) : bool := match s with LWaiting _ => true | _ => false end.
