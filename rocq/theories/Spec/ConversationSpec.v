(** The conversation of a mail server that delivers one message with one filter: what is sent, when
    an answer comes, how it ends. *)
From Verif.Base Require Import Bytes.
From Verif.Model Require Import Decoder CommandCodec ReplyCodec Option Headers Server ConnectionSpec.
From Verif.Spec Require Import ReportSpec.
Import List.
Local Open Scope N_scope.

(** *** The commands *)

Section Wishes.
  (** What the filter asked for at the negotiation. *)
  Variable o : moption.

  Definition asked (bit : N) : bool := negb (N.land (o_step o) bit =? 0).
  Definition unless {A} (b : bool) (cs : list A) : list A := if b then [] else cs.

  (** The commands of a message in the order of SMTP, those left out that the filter does not want or
      its version does not know. *)
  Definition script (host : bytes) (a : address) (helo : bytes) (from : bytes) (recipients : list bytes)
    (other : option bytes) (headers : list (bytes * bytes)) (chunks : list bytes) : list command :=
    unless (asked STEP_NO_CONNECT) [CConnect host a] ++
    unless (asked STEP_NO_HELO) [CHelo helo] ++
    unless (asked STEP_NO_ENVELOPE_FROM) [CEnvelopeFrom from] ++
    unless (asked STEP_NO_ENVELOPE_RECIPIENT) (map CEnvelopeRecipient recipients) ++
    unless (asked STEP_NO_UNKNOWN || (o_version o <? 3))
           (match other with Some c => [CUnknown c] | None => [] end) ++
    unless (asked STEP_NO_DATA || (o_version o <? 4)) [CData] ++
    unless (asked STEP_NO_HEADERS) (map (fun h => CHeader (fst h) (snd h)) headers) ++
    unless (asked STEP_NO_END_OF_HEADER) [CEndOfHeader] ++
    unless (asked STEP_NO_BODY) (map CBody chunks) ++
    [CEndOfMessage None].

  (** The place of a command in a message, and the bit that says that commands of that place get no
      answer. *)
  Definition place (c : command) : N :=
    match c with
    | CNegotiate _ | CDefineMacro _ _ => 0
    | CConnect _ _ => 1
    | CHelo _ => 2
    | CEnvelopeFrom _ => 3
    | CEnvelopeRecipient _ => 4
    | CUnknown _ => 5
    | CData => 6
    | CHeader _ _ => 7
    | CEndOfHeader => 8
    | CBody _ => 9
    | CEndOfMessage _ => 10
    | CAbort | CQuit => 11
    end.
  Definition silent_place (k : N) : bool :=
    existsb (fun x => (fst x =? k) && asked (snd x))
      [(1, STEP_NO_REPLY_CONNECT); (2, STEP_NO_REPLY_HELO); (3, STEP_NO_REPLY_ENVELOPE_FROM);
       (4, STEP_NO_REPLY_ENVELOPE_RECIPIENT); (5, STEP_NO_REPLY_UNKNOWN); (6, STEP_NO_REPLY_DATA);
       (7, STEP_NO_REPLY_HEADER); (8, STEP_NO_REPLY_END_OF_HEADER); (9, STEP_NO_REPLY_BODY)].
  Definition silent (c : command) : bool := silent_place (place c).

  (** Where a command without an answer is not followed by one of the next place, the places left out
      have no answers either; but "unknown" may have before "data". *)
  Definition fluent (cs : list command) : Prop :=
    forall a c d b, cs = a ++ c :: d :: b -> silent c = true ->
    forall k, place c < k < place d -> silent_place k = true \/ (k = 5 /\ place d = 6).

  (** *** The answers *)

  (** Refusals, and the status they lead to. *)
  Inductive refusal : reply -> string -> Prop :=
  | Reject : refusal RReject "reject"
  | TemporaryFailure : refusal RTemporaryFailure "temporary-failure"
  | Code4 c e t : 400 <= c < 500 -> refusal (RReplyCode c e t) "temporary-failure"
  | Code5 c e t : c < 400 \/ 500 <= c -> refusal (RReplyCode c e t) "reject".
  (** Other answers that end the message. *)
  Inductive settled : reply -> string -> Prop :=
  | Accept : settled RAccept "accept"
  | Discard : settled RDiscard "discard"
  | ConnectionFailure : settled RConnectionFailure "error".
  (** Requests for changes. *)
  Definition changing (r : reply) : bool :=
    match r with
    | RAddHeader _ _ | RInsertHeader _ _ _ | RChangeHeader _ _ _ | RDeleteHeader _ _ | RChangeFrom _ _
    | RAddRecipient _ _ | RDeleteRecipient _ | RReplaceBody _ | RProgress | RQuarantine _ => true
    | _ => false
    end.

  (** The reply code given last. *)
  Definition code : Type := option (N * bytes * option bytes).
  Definition say (a : reply) (said : code) : code :=
    match a with RReplyCode c e t => Some (c, e, t) | _ => said end.

  (** The reason of the last quarantine. *)
  Definition reason (requests : list reply) : option bytes :=
    fold_left (fun r x => match x with RQuarantine t => Some t | _ => r end) requests None.

  (** How a conversation ends: the status, the reply code, the recipients not refused and the changes
      asked for; or no answer in time. *)
  Inductive ending :=
  | Ended (status : string) (said : code) (left : list bytes) (requests : list reply)
  | NoAnswer (t : timer).

  (** *** The conversation *)

  (** [talk cs left said ops sent e]: with the commands [cs] to come, the recipients [left] not refused
      and the reply code [said] last, [ops] may happen; then the commands [sent] are sent and the end
      is [e].  The first [Flushed] is that of the first command. *)
  Inductive talk : list command -> list bytes -> code -> list op -> list command -> ending -> Prop :=
  | Silent c cs left said ops sent e :
      silent c = true -> talk cs left said ops sent e ->
      talk (c :: cs) left said (Flushed :: ops) (c :: sent) e
  | GoOn c cs left said ops sent e :
      silent c = false -> cs <> [] -> talk cs left said ops sent e ->
      talk (c :: cs) left said (Flushed :: Receive RContinue :: ops) (c :: sent) e
  | Refused r cs left left' said a word ops sent e :
      silent (CEnvelopeRecipient r) = false -> refusal a word -> without r left left' -> left' <> [] ->
      talk cs left' (say a said) ops sent e ->
      talk (CEnvelopeRecipient r :: cs) left said
           (Flushed :: Receive a :: ops) (CEnvelopeRecipient r :: sent) e
  | AllRefused r cs left said a word :
      silent (CEnvelopeRecipient r) = false -> refusal a word -> without r left [] ->
      talk (CEnvelopeRecipient r :: cs) left said
           [Flushed; Receive a; Flushed] [CEnvelopeRecipient r; CAbort; CQuit]
           (Ended word (say a said) [] [])
  | Refuse c cs left said a word :
      silent c = false -> refusal a word -> place c <> 4 -> cs <> [] ->
      talk (c :: cs) left said [Flushed; Receive a; Flushed] [c; CAbort; CQuit]
           (Ended word (say a said) left [])
  | Settle c cs left said a word :
      silent c = false -> settled a word -> cs <> [] ->
      talk (c :: cs) left said [Flushed; Receive a; Flushed] [c; CAbort; CQuit]
           (Ended word said left [])
  | Shut c cs left said :
      silent c = false -> place c <> 4 -> cs <> [] ->
      talk (c :: cs) left said [Flushed; Receive RShutdown; Flushed] [c; CAbort; CQuit]
           (Ended "abort" said left [])
  | Enough chunk cs left said ops sent e :
      silent (CBody chunk) = false -> talk [CEndOfMessage None] left said ops sent e ->
      talk (CBody chunk :: cs) left said (Flushed :: Receive RSkip :: ops) (CBody chunk :: sent) e
  | Late c cs left said :
      silent c = false -> place c <> 9 -> cs <> [] ->
      talk (c :: cs) left said [Flushed; Fire; Flushed] [c; CAbort; CQuit] (NoAnswer TReading)
  | Pass left said requests :
      Forall (fun r => changing r = true) requests ->
      talk [CEndOfMessage None] left said
           (Flushed :: map Receive requests ++ [Receive RContinue; Flushed])
           [CEndOfMessage None; CQuit]
           (Ended (if reason requests then "quarantine" else "pass") said left requests)
  | RefuseAtEnd left said requests a word :
      Forall (fun r => changing r = true) requests -> refusal a word \/ settled a word ->
      talk [CEndOfMessage None] left said
           (Flushed :: map Receive requests ++ [Receive a; Flushed])
           [CEndOfMessage None; CAbort; CQuit] (Ended word (say a said) left requests)
  | LateAtEnd left said requests :
      Forall (fun r => changing r = true) requests ->
      talk [CEndOfMessage None] left said
           (Flushed :: map Receive requests ++ [Fire; Flushed])
           [CEndOfMessage None; CAbort; CQuit] (NoAnswer TEndOfMessageReply).
End Wishes.

(** The line that tells the status. *)
Definition status_told (word : string) (said : code) : bytes :=
  lit "status: " ++ lit word ++
  match said with
  | None => []
  | Some (c, e, t) =>
      lit " [" ++ decimal c ++ lit "]<" ++ e ++ lit ">(" ++
      (match t with Some t => t | None => lit "(null)" end) ++ lit ")"
  end.
