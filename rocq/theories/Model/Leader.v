(** Model of milter/manager/milter-manager-leader.c: one session of the manager, between the
    context that talks to the MTA and the children object of Children.v.

    Left out: logging, statistics, connection checks, the launcher channel.  A second
    negotiation, which creates a second children object beside the first, is not modelled:
    it replaces the first one. *)
From Verif.Base Require Import Bytes.
From Verif.Model Require Import Decoder Encoder CommandCodec ReplyCodec Status Option Headers Macros
                                ReplyCode Client Server Children.
Local Open Scope N_scope.

(** MilterManagerLeaderState, milter-manager-leader.h:59-91. *)
Inductive lstate := LStart | LWaiting (x : sstate) | LReplied (x : sstate) | LInvalid.

(** What the leader does.  [LSaw e]: the children object did [e].  [LResponse x s]: the signal
    "<x>-response" with status [s] on the context of the MTA; [LNegotiated]: the
    "negotiate-response" with an option.  [LReturn s]: what the handler of the MTA's command
    returns; [S_PROGRESS] means that the answer comes later, anything else is the answer.
    [LPass e]: the modification [e] is passed on.  [LReplyError]: a reply in a state that has
    none.  [LReplyRefused]: milter_client_context_set_reply refused the reply code. *)
Inductive levent :=
| LSaw (e : event)
| LResponse (x : sstate) (s : status)
| LNegotiated (o : moption) (reqs : requests)
| LReturn (s : status)
| LPass (e : event)
| LReplyError
| LReplyRefused
| LShutdown
| LFinished.

(** MilterManagerLeaderPrivate, milter-manager-leader.c:33-46, with the reply code kept in the
    context of the MTA; newest event first. *)
Record leader := mk_leader {
  l_state : lstate;
  l_sent : bool;
  l_reply : smtp_reply;
  l_trace : list levent
}.
Definition leader_new : leader := mk_leader LStart false no_reply_code [].
Definition put_l_state (l : leader) v := mk_leader v (l_sent l) (l_reply l) (l_trace l).
Definition put_l_sent (l : leader) v := mk_leader (l_state l) v (l_reply l) (l_trace l).
Definition put_l_reply (l : leader) v := mk_leader (l_state l) (l_sent l) v (l_trace l).
Definition tell (l : leader) (e : levent) : leader :=
  mk_leader (l_state l) (l_sent l) (l_reply l) (e :: l_trace l).

(** next_state, milter-manager-leader.c:439-508, for a state that has a response signal. *)
Definition next_lstate (l : leader) : lstate :=
  match l_state l with
  | LWaiting XBody | LReplied XBody =>
      if l_sent l then LWaiting XEndOfMessage else LReplied XBody
  | LWaiting x => LReplied x
  | _ => LInvalid
  end.

(** state_to_response_signal_name, milter-manager-leader.c:384-437. *)
Definition response_stage (x : lstate) : option sstate :=
  match x with
  | LWaiting x => Some x
  | LReplied XBody => Some XBody
  | _ => None
  end.

(** reply, milter-manager-leader.c:525-563. *)
Definition leader_reply (l : leader) (s : status) : leader :=
  match response_stage (l_state l) with
  | Some x => let l1 := tell l (LResponse x s) in put_l_state l1 (next_lstate l1)
  | None => tell l LReplyError
  end.

(** The handlers of the children's signals, milter-manager-leader.c:511-915.  cb_reply_code
    (571-601), cb_error (890-908; [fallback] is the configured status). *)
Definition leader_hear (fallback : status) (l : leader) (e : event) : leader :=
  match e with
  | ONegotiate o reqs => tell l (LNegotiated o reqs)
  | OAnswer s => leader_reply l s
  | OAnswerCode c ext m =>
      let (ok, r) := set_reply (l_reply l) c (Some ext) m in
      let l1 := put_l_reply l r in
      if ok then leader_reply l1 (if c / 100 =? 4 then S_TEMPORARY_FAILURE else S_REJECT)
      else tell l1 LReplyRefused
  | OHeader _ | OChangeFrom _ _ | OAddRecipient _ _ | ODeleteRecipient _ | OReplaceBody _
  | OProgress | OQuarantine _ => tell l (LPass e)
  | OError OtherError => l
  | OError _ => leader_reply l fallback
  | OAbort => tell (tell l LShutdown) LFinished
  | OFinished => tell l LFinished
  | _ => l
  end.

(** is_replied_state, milter-manager-leader.c:1223-1245. *)
Definition is_replied (x : lstate) : bool :=
  match x with LWaiting _ => false | _ => true end.

(** The state of a command. *)
Definition command_stage (c : command) : option sstate :=
  match c with
  | CNegotiate _ => Some XNegotiate
  | CDefineMacro _ _ => None
  | CConnect _ _ => Some XConnect
  | CHelo _ => Some XHelo
  | CEnvelopeFrom _ => Some XFrom
  | CEnvelopeRecipient _ => Some XRcpt
  | CData => Some XData
  | CUnknown _ => Some XUnknown
  | CHeader _ _ => Some XHeader
  | CEndOfHeader => Some XEndOfHeader
  | CBody _ => Some XBody
  | CEndOfMessage _ => Some XEndOfMessage
  | CAbort => Some XAbort
  | CQuit => Some XQuit
  end.

(** The start of each milter_manager_leader_<command>, milter-manager-leader.c:987-1310. *)
Definition leader_enter (l : leader) (c : command) : leader :=
  match command_stage c with
  | None => l
  | Some XEndOfMessage =>
      if is_replied (l_state l) then put_l_state l (LWaiting XEndOfMessage) else put_l_sent l true
  | Some x => put_l_state l (LWaiting x)
  end.

(** The end of each: the status given back (987-1310); define_macro has none. *)
Definition leader_leave (fallback : status) (l : leader) (c : command) (ok : bool) : leader :=
  match c with
  | CDefineMacro _ _ => l
  | CQuit | CAbort => tell l (LReturn S_DEFAULT)
  | _ => tell l (LReturn (if ok then S_PROGRESS else fallback))
  end.

(** What the leader makes of one event of the children object.  It calls the children object
    only to pass on a command of the MTA, so its part can be read off the events in order. *)
Definition leader_event (fallback : status) (l : leader) (current : option command) (e : event)
  : leader :=
  let l1 := tell l (LSaw e) in
  match e, current with
  | OReturn ok, Some c => leader_leave fallback l1 c ok
  | _, _ => leader_hear fallback l1 e
  end.
Definition leader_follow (fallback : status) (l : leader) (current : option command)
  (es : list event) : leader := fold_left (fun l e => leader_event fallback l current e) es l.

(** A session: the leader and, after the negotiation began, the children object. *)
Record manager := mk_manager { g_leader : leader; g_children : option world }.

Section Manager.
  Variable writes : list event -> write_outcome.
  Variable stops : list event -> bool.
  Variable chunk_size : N.
  Variable collate_equal : bytes -> bytes -> bool.
  Variable depth : nat.
  (** The configured fallback status and filters (fallback status, evaluation mode). *)
  Variable fallback : status.
  Variable filters : list (status * bool).

  Definition manager_new : manager := mk_manager leader_new None.

  (** The events of a step are those put in front of the trace. *)
  Definition new_events (w w' : world) : list event :=
    rev (firstn (length (w_trace w') - length (w_trace w)) (w_trace w')).

  Definition op_command (o : op) : option command :=
    match o with Mta c => Some c | _ => None end.

  (** One event from outside: a command of the MTA (milter_manager_leader_<command>, 987-1310),
      or something for the children object. *)
  Definition manager_step (g : manager) (o : op) : manager :=
    let l := match o with Mta c => leader_enter (g_leader g) c | _ => g_leader g end in
    let children := match o with
                    | Mta (CNegotiate _) => Some (world_new filters)
                    | _ => g_children g
                    end in
    match children with
    | None =>
        mk_manager (match o with
                    | Mta c => match c with
                               | CDefineMacro _ _ => l
                               | _ => tell l (LReturn fallback)
                               end
                    | _ => l
                    end) None
    | Some w =>
        let w' := children_step writes stops chunk_size collate_equal depth w o in
        mk_manager (leader_follow fallback l (op_command o) (new_events w w')) (Some w')
    end.
  Definition manager_run (g : manager) (ops : list op) : manager := fold_left manager_step ops g.
End Manager.
