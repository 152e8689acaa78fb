(** What a history of a server context says, independently of the context's fields.  Histories
    are lists of events, latest first. *)
From Verif.Base Require Import Bytes.
From Verif.Model Require Import Decoder Encoder CommandCodec ReplyCodec Status Option Macros Client
                                Server.
Local Open Scope N_scope.

(** Was quit said to the filter (or the context marked as quitted)? *)
Fixpoint quit_said (t : list event) : bool :=
  match t with
  | [] => false
  | In (Call AQuit) :: _ => true
  | In (Call (ASetQuitted b)) :: _ => b
  | _ :: t' => quit_said t'
  end.

(** The current stage of the conversation. *)
Fixpoint stage (t : list event) : sstate :=
  match t with
  | [] => XStart
  | Entered x :: _ => x
  | _ :: t' => stage t'
  end.

(** The option in force: what was offered, cut down by the answer; an answer asking for a newer
    version changes nothing. *)
Definition agree (offer : option moption) (answer : moption) : option moption :=
  match offer with
  | None => Some answer
  | Some o =>
      if o_version o <? o_version answer then Some o
      else Some (mk_option (o_version answer) (N.land (o_action o) (o_action answer))
                           (N.land (o_step o) (o_step answer)))
  end.
Fixpoint session_option (t : list event) : option moption :=
  match t with
  | [] => None
  | In (Call (ANegotiate o)) :: _ => Some o
  | In (Call (ASetOption o)) :: _ => o
  | In (Receive (RNegotiate o _)) :: t' => agree (session_option t') o
  | _ :: t' => session_option t'
  end.

(** Replies that ask for a change of the message or report progress, as opposed to answers. *)
Definition is_modification (r : reply) : bool :=
  match r with
  | RAddHeader _ _ | RInsertHeader _ _ _ | RChangeHeader _ _ _ | RDeleteHeader _ _
  | RChangeFrom _ _ | RAddRecipient _ _ | RDeleteRecipient _ | RReplaceBody _ | RProgress
  | RQuarantine _ => true
  | _ => false
  end.

(** The step bit by which a filter announces that it does not answer a command. *)
Definition silent_step (x : sstate) : N :=
  match x with
  | XConnect => STEP_NO_REPLY_CONNECT
  | XHelo => STEP_NO_REPLY_HELO
  | XFrom => STEP_NO_REPLY_ENVELOPE_FROM
  | XRcpt => STEP_NO_REPLY_ENVELOPE_RECIPIENT
  | XData => STEP_NO_REPLY_DATA
  | XHeader => STEP_NO_REPLY_HEADER
  | XEndOfHeader => STEP_NO_REPLY_END_OF_HEADER
  | XBody => STEP_NO_REPLY_BODY
  | XUnknown => STEP_NO_REPLY_UNKNOWN
  | _ => 0
  end.

(** The commands that may overtake another one. *)
Definition overtakes (x : sstate) : bool :=
  match x with XAbort | XQuit => true | _ => false end.

(** Does the filter answer command [x] under option [o]?  (Body packets are treated apart.) *)
Definition awaits (o : option moption) (x : sstate) : bool :=
  match x with
  | XInvalid | XStart | XDefineMacro | XBody | XQuit | XAbort => false
  | XEndOfMessage => true
  | _ => match o with
         | None => false
         | Some o => N.land (o_step o) (silent_step x) =? 0
         end
  end.

(** The link to the filter: is a command other than a body packet unanswered, which commands
    were sent since the last flush, which flushed ones were not yet reported as delivered.  An
    abort or quit lets go of the command before it. *)
Record link := mk_link { l_busy : bool; l_unflushed : list sstate; l_todo : list sstate }.
Fixpoint link_of (t : list event) : link :=
  match t with
  | [] => mk_link false [] []
  | e :: t' =>
      let l := link_of t' in
      match e with
      | Sent x _ _ | Lost x _ _ =>
          mk_link (if overtakes x then l_busy l
                   else forallb (awaits (session_option t')) (l_todo l))
                  (l_unflushed l ++ [x]) (l_todo l)
      | In Flushed =>
          mk_link (l_busy l && forallb (awaits (session_option t')) (l_unflushed l)) []
                  (l_unflushed l)
      | Delivered _ => mk_link (l_busy l) (l_unflushed l) (tl (l_todo l))
      | In (Receive r) => mk_link (l_busy l && is_modification r) (l_unflushed l) (l_todo l)
      | Error WriteFailed => mk_link false (l_unflushed l) (l_todo l)
      | In (Call (ANegotiate _)) | In (Call (ASetOption _)) =>
          mk_link (l_busy l && match l_todo l with [] => true | _ => false end) (l_unflushed l)
                  (l_todo l)
      | _ => l
      end
  end.

(** Is a command unanswered? *)
Definition outstanding (t : list event) : bool := l_busy (link_of t).

(** The timeout that runs while a command is unanswered: the writing timeout until it is on its
    way, then the one for its reply; progress starts the end-of-message timeout anew. *)
Definition reply_timer (x : sstate) : timer :=
  match x with XEndOfMessage => TEndOfMessageReply | _ => TReading end.
Fixpoint due (t : list event) : timer :=
  match t with
  | [] => TWriting
  | Sent x _ _ :: t' | Lost x _ _ :: t' => if overtakes x then due t' else TWriting
  | Delivered x :: t' => if overtakes x then due t' else reply_timer x
  | Forward RProgress :: _ => TEndOfMessageReply
  | _ :: t' => due t'
  end.

(** Did the filter answer when nothing was on its way to it, and was it sent nothing to be
    answered and did it report no progress since? *)
Fixpoint rests (t : list event) : bool :=
  match t with
  | [] => true
  | In (Receive r) :: t' =>
      match is_modification r, l_unflushed (link_of t'), l_todo (link_of t') with
      | false, [], [] => true
      | _, _, _ => rests t' && match r with RProgress => false | _ => true end
      end
  | Sent x _ _ :: t' | Lost x _ _ :: t' => overtakes x && rests t'
  | _ :: t' => rests t'
  end.

(** The step bit by which a filter declines a command, and the protocol version that has it. *)
Definition decline_step (x : sstate) : N :=
  match x with
  | XConnect => STEP_NO_CONNECT
  | XHelo => STEP_NO_HELO
  | XFrom => STEP_NO_ENVELOPE_FROM
  | XRcpt => STEP_NO_ENVELOPE_RECIPIENT
  | XData => STEP_NO_DATA
  | XUnknown => STEP_NO_UNKNOWN
  | XHeader => STEP_NO_HEADERS
  | XEndOfHeader => STEP_NO_END_OF_HEADER
  | XBody => STEP_NO_BODY
  | _ => 0
  end.
Definition wanted (o : option moption) (x : sstate) : Prop :=
  match x with
  | XNegotiate | XQuit | XAbort | XEndOfMessage => True
  | _ => match o with
         | None => False
         | Some o => N.land (o_step o) (decline_step x) = 0 /\ (x = XData -> 4 <= o_version o)
         end
  end.

(** The filter's verdict on the message. *)
Definition refusal (r : reply) : option status :=
  match r with
  | RTemporaryFailure => Some S_TEMPORARY_FAILURE
  | RReject => Some S_REJECT
  | RReplyCode c _ _ =>
      Some (if (400 <=? c) && (c <? 500) then S_TEMPORARY_FAILURE else S_REJECT)
  | _ => None
  end.

(** The last answer about a recipient in this message, if it was a refusal. *)
Fixpoint recipient_verdict (t : list event) : status :=
  match t with
  | [] => S_DEFAULT
  | In (Receive r) :: t' =>
      match refusal r, stage t' with
      | Some v, XRcpt => v
      | _, _ => recipient_verdict t'
      end
  | In (Call AReset) :: _ => S_DEFAULT
  | Delivered XAbort :: _ => S_DEFAULT
  | _ :: t' => recipient_verdict t'
  end.

(** Is the change to stage abort on top of [t] due to an explicit call? *)
Definition explicit_state (t : list event) : bool :=
  match t with In (Call (ASetState _)) :: _ => true | _ => false end.

Fixpoint verdict (t : list event) : status :=
  match t with
  | [] => S_NOT_CHANGE
  | In (Call (AFrom _)) :: _ => S_NOT_CHANGE
  | Stopped _ :: _ => S_STOP
  | In (Receive r) :: t' =>
      match r with
      | RAccept => S_ACCEPT
      | RDiscard => S_DISCARD
      | RQuarantine _ => S_QUARANTINE
      | RConnectionFailure => S_ERROR
      | _ => match refusal r, stage t' with
             | Some v, XRcpt => verdict t'
             | Some v, _ => v
             | None, _ => verdict t'
             end
      end
  | Entered XAbort :: t' =>
      if negb (explicit_state t') && is_pass (verdict t')
         && (2 <=? sstate_rank (stage t')) && (sstate_rank (stage t') <=? 12)
      then if sstate_eqb (stage t') XRcpt && negb (status_eqb (recipient_verdict t') S_DEFAULT)
           then recipient_verdict t' else S_ABORT
      else verdict t'
  | _ :: t' => verdict t'
  end.

(** The bytes of body packets sent so far, and the body bytes of the body calls that were not
    answered by a stop or a skip. *)
Definition body_payload (packet : bytes) : bytes := skipn 5 packet.
Fixpoint body_sent (t : list event) : bytes :=
  match t with
  | [] => []
  | (Sent XBody _ packet | Lost XBody _ packet) :: t' => body_sent t' ++ body_payload packet
  | _ :: t' => body_sent t'
  end.
Definition chunk_given (e : event) (t : list event) : bytes :=
  match e, t with
  | (Sent XBody _ _ | Lost XBody _ _ | Error _), In (Call (ABody chunk)) :: _ => chunk
  | _, _ => []
  end.
Fixpoint body_given (t : list event) : bytes :=
  match t with
  | [] => []
  | e :: t' => body_given t' ++ chunk_given e t'
  end.

(** The command of a call, with the stage it leads to. *)
Definition command_of (c : api) : option (command * sstate) :=
  match c with
  | ANegotiate o => Some (CNegotiate o, XNegotiate)
  | AConnect h a => Some (CConnect h a, XConnect)
  | AHelo s => Some (CHelo s, XHelo)
  | AFrom s => Some (CEnvelopeFrom s, XFrom)
  | ARcpt s => Some (CEnvelopeRecipient s, XRcpt)
  | AData => Some (CData, XData)
  | AUnknown s => Some (CUnknown s, XUnknown)
  | AHeader n v => Some (CHeader n v, XHeader)
  | AEndOfHeader => Some (CEndOfHeader, XEndOfHeader)
  | ABody b => Some (CBody b, XBody)
  | AEndOfMessage b => Some (CEndOfMessage b, XEndOfMessage)
  | AQuit => Some (CQuit, XQuit)
  | AAbort => Some (CAbort, XAbort)
  | _ => None
  end.

(** What begins the data of a message, or changes it: a message command, a stop, and the replies
    that refuse something or edit the message. *)
Definition touches (e : event) : bool :=
  match e with
  | In (Call (AFrom _)) | In (Call (ARcpt _)) | In (Call AData) | In (Call (AHeader _ _))
  | In (Call AEndOfHeader) | In (Call (ABody _)) | In (Call (AEndOfMessage _)) => true
  | Stopped _ => true
  | In (Receive r) =>
      match r with
      | RAddHeader _ _ | RInsertHeader _ _ _ | RChangeHeader _ _ _ | RDeleteHeader _ _
      | RQuarantine _ | RReplyCode _ _ _ | RTemporaryFailure | RReject => true
      | _ => false
      end
  | _ => false
  end.

(** Replies whose signal comes before the change of the message's data. *)
Definition edits (r : reply) : bool :=
  match r with
  | RAddHeader _ _ | RInsertHeader _ _ _ | RChangeHeader _ _ _ | RDeleteHeader _ _
  | RQuarantine _ => true
  | _ => false
  end.

(** Recipients with the filter's answers: who was accepted, who was put off, who was rejected. *)
Definition answers_recipient (r : reply) : bool :=
  match r with
  | RContinue | RTemporaryFailure | RReject | RReplyCode _ _ _ => true
  | _ => false
  end.
Definition recipients_with (v : option status) (l : list (bytes * reply)) : list bytes :=
  map fst (filter (fun p => match refusal (snd p), v with
                            | None, None => true
                            | Some a, Some b => status_eqb a b
                            | _, _ => false
                            end) l).
