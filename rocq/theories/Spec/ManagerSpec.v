(** What the manager owes the MTA, in terms of the events at its borders: commands from the MTA,
    answers to the MTA, commands to the filters and what the filters do. *)
From Verif.Base Require Import Bytes.
From Verif.Model Require Import Decoder CommandCodec ReplyCodec Status Option Server Children.
From Verif.Spec Require ServerSpec.
Local Open Scope N_scope.

(** *** Answers *)

(** The verdict an event answers the current command with.  When the call for a command fails or
    an error is reported, the caller answers in its own way: [S_ERROR]; the answer to a
    negotiation carries options: [S_ALL_OPTIONS]. *)
Definition answer (e : event) : option status :=
  match e with
  | OAnswer s => Some s
  | OAnswerCode c _ _ =>
      Some (if (400 <=? c) && (c <? 500) then S_TEMPORARY_FAILURE else S_REJECT)
  | ONegotiate _ _ => Some S_ALL_OPTIONS
  | OError OtherError => None
  | OError _ => Some S_ERROR
  | OReturn false => Some S_ERROR
  | _ => None
  end.

(** The verdicts given by the events of a trace (latest first). *)
Fixpoint answers (t : list event) : list status :=
  match t with
  | [] => []
  | e :: t' => match answer e with Some s => s :: answers t' | None => answers t' end
  end.

(** What happened after [before]: [after] is the later trace. *)
Definition since (before after es : list event) : Prop := after = es ++ before.

(** *** What a filter does when it is asked *)

Inductive failure := TimesOut | Breaks | Closes.
Inductive outcome := Says (r : reply) | Fails (f : failure).

(** The verdict of a reply that answers a command. *)
Definition verdict_of (r : reply) : option status :=
  match r with
  | RContinue => Some S_CONTINUE
  | RAccept => Some S_ACCEPT
  | RDiscard => Some S_DISCARD
  | RReject => Some S_REJECT
  | RTemporaryFailure => Some S_TEMPORARY_FAILURE
  | RReplyCode c _ _ =>
      Some (if (400 <=? c) && (c <? 500) then S_TEMPORARY_FAILURE else S_REJECT)
  | _ => None
  end.

Definition negative (s : status) : bool :=
  match s with S_DISCARD | S_REJECT | S_TEMPORARY_FAILURE => true | _ => false end.

(** What an outcome counts for: failing counts as the configured fallback, and what a filter in
    evaluation mode refuses counts as accepted. *)
Definition counts (fallback : status) (evaluation : bool) (o : outcome) : status :=
  match o with
  | Fails _ => fallback
  | Says r =>
      match verdict_of r with
      | Some v => if evaluation && negative v then S_ACCEPT else v
      | None => fallback
      end
  end.

(** The commands answered after all filters answered. *)
Definition stage_of (c : command) : option sstate :=
  match c with
  | CConnect _ _ => Some XConnect
  | CHelo _ => Some XHelo
  | CEnvelopeFrom _ => Some XFrom
  | CEnvelopeRecipient _ => Some XRcpt
  | CData => Some XData
  | CUnknown _ => Some XUnknown
  | _ => None
  end.

(** Outside a message a verdict other than continue makes the manager let the filter go; the
    command is over for that filter when its connection is closed. *)
Definition lets_go (x : sstate) (r : reply) : bool :=
  match x, r with
  | (XConnect | XHelo | XUnknown), RContinue => false
  | (XConnect | XHelo | XUnknown), _ => true
  | _, _ => false
  end.

Definition failure_op (i : nat) (f : failure) : op :=
  match f with TimesOut => KFire i | Breaks => KFail i | Closes => KFinish i end.

(** What the manager sees of filter [i] for one command: the command is on its way, then the
    outcome. *)
Definition script (x : sstate) (i : nat) (o : outcome) : list op :=
  KFlushed i ::
  match o with
  | Says r => KReply i r :: (if lets_go x r then [KFlushed i; KFinish i] else [])
  | Fails f => [failure_op i f]
  end.

Definition op_filter (o : op) : option nat :=
  match o with
  | KReady i | KFlushed i | KReply i _ | KFire i | KFail i | KFinish i => Some i
  | Mta _ | Idle => None
  end.
Definition of_filter (i : nat) (o : op) : bool :=
  match op_filter o with Some j => Nat.eqb i j | None => false end.

(** What filter [i] can still be seen to do: its input arrives, its own packets go out, or the
    process dies of it. *)
Definition own (i : nat) (e : event) : Prop :=
  match e with
  | OIn o => op_filter o = Some i
  | OSent j _ | OLost j _ => j = i
  | OCrash => True
  | _ => False
  end.

(** [ops] is an interleaving of the given scripts of the filters [is]. *)
Definition interleaving (is : list nat) (scripts : nat -> list op) (ops : list op) : Prop :=
  (forall i, List.In i is -> filter (of_filter i) ops = scripts i) /\
  (forall o, List.In o ops -> exists i, op_filter o = Some i /\ List.In i is).

(** *** The filters a command goes to *)

(** Filter [k] has declined the command of stage [x]. *)
Definition declines (o : moption) (x : sstate) : bool :=
  negb (N.land (o_step o) (ServerSpec.decline_step x) =? 0) ||
  match x with XData => o_version o <? 4 | _ => false end.

(** Filter [k] takes part in the message being received. *)
Definition in_message (k : child) : bool :=
  k_negotiated k && negb (k_quitted k) && k_processing k.
(** It refused some recipient and no recipient is left. *)
Definition no_recipient_left (k : child) : bool :=
  match k_message k with Some ([], true) => true | _ => false end.

(** Does the command of stage [x] concern filter [k]? *)
Definition concerned (x : sstate) (k : child) : bool :=
  match x with
  | XRcpt => in_message k
  | XData => in_message k && negb (no_recipient_left k)
  | _ => negb (k_quitted k)
  end.
Definition concerned_filters (x : sstate) (w : world) : list nat :=
  filter (fun i => concerned x (child_of w i)) (seq 0 (length (w_children w))).

(** A filter that is connected, has nothing outstanding and answers the command of stage [x]. *)
Record idle (x : sstate) (k : child) (o : moption) : Prop := {
  idle_connected : k_connected k = true;
  idle_trying : k_trying k = false;
  idle_quitted : k_quitted k = false;
  idle_timer : k_timer k = None;
  idle_next : k_next k = [];
  idle_option : k_option k = Some o;
  idle_answers : N.land (o_step o) (ServerSpec.silent_step x) = 0
}.

(** Requests to change the message. *)
Definition is_edit (r : reply) : bool :=
  match r with
  | RAddHeader _ _ | RInsertHeader _ _ _ | RChangeHeader _ _ _ | RDeleteHeader _ _
  | RChangeFrom _ _ | RAddRecipient _ _ | RDeleteRecipient _ | RReplaceBody _ | RQuarantine _ => true
  | _ => false
  end.
