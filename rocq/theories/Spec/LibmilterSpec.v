(** What a filter written for libmilter is promised: which callback is called with what, what
    its calls and its return value mean.  Only the types of Model.Libmilter are used. *)
From Verif.Base Require Import Bytes.
From Verif.Model Require Import Decoder CommandCodec ReplyCodec Status Client ReplyCode Libmilter.
From Verif.Spec Require Import CommandGrammar ReplyGrammar ReplyCodeSpec ClientSpec.
Local Open Scope Z_scope.

(** The callback for a command and its arguments. *)
Definition concerns (m : command) : option (slot * invocation) :=
  match m with
  | CNegotiate o => Some (FnNegotiate, INegotiate (o_action o) (o_step o))
  | CConnect h a => Some (FnConnect, IConnect h a)
  | CHelo f => Some (FnHelo, IHelo f)
  | CEnvelopeFrom f => Some (FnEnvfrom, IEnvfrom [f])
  | CEnvelopeRecipient r => Some (FnEnvrcpt, IEnvrcpt [r])
  | CData => Some (FnData, IData)
  | CUnknown u => Some (FnUnknown, IUnknown u)
  | CHeader n v => Some (FnHeader, IHeader n v)
  | CEndOfHeader => Some (FnEoh, IEoh)
  | CBody b => Some (FnBody, IBody b)
  | CEndOfMessage _ => Some (FnEom, IEom)
  | CAbort => Some (FnAbort, IAbort)
  | CDefineMacro _ _ | CQuit => None
  end.

(** The last piece of a body may come with the end of the message. *)
Definition last_piece (m : command) : bytes :=
  match m with CEndOfMessage (Some b) => b | _ => [] end.

(** Return values that end the handling of a message: SMFIS_REJECT, SMFIS_DISCARD,
    SMFIS_ACCEPT, SMFIS_TEMPFAIL. *)
Definition decisive (v : Z) : Prop := v = 1 \/ v = 2 \/ v = 3 \/ v = 4.

(** The callbacks called for a command and the value that counts ([None]: no callback has a
    say).  [in_message]: a message is being handled when the command comes. *)
Inductive called (has : slot -> bool) (react : invocation -> reaction) (in_message : bool)
  : command -> list invocation -> option Z -> Prop :=
| cd_nobody m : concerns m = None -> called has react in_message m [] None
| cd_null m s i : concerns m = Some (s, i) -> has s = false -> called has react in_message m [] None
| cd_call m s i :
    concerns m = Some (s, i) -> has s = true ->
    (last_piece m = [] \/ has FnBody = false) -> (m = CAbort -> in_message = true) ->
    called has react in_message m [i] (Some (r_return (react i)))
| cd_no_message : has FnAbort = true -> in_message = false -> called has react in_message CAbort [] None
| cd_piece m :
    has FnEom = true -> has FnBody = true -> last_piece m <> [] ->
    ~ decisive (r_return (react (IBody (last_piece m)))) ->
    called has react in_message m [IBody (last_piece m); IEom] (Some (r_return (react IEom)))
| cd_decided m :
    has FnEom = true -> has FnBody = true -> last_piece m <> [] ->
    decisive (r_return (react (IBody (last_piece m)))) ->
    called has react in_message m [IBody (last_piece m)] (Some (r_return (react (IBody (last_piece m))))).

(** The meaning of a return value. *)
Definition returned (v : option Z) : status :=
  match v with
  | Some 0 => S_CONTINUE
  | Some 1 => S_REJECT
  | Some 2 => S_DISCARD
  | Some 3 => S_ACCEPT
  | Some 4 => S_TEMPORARY_FAILURE
  | Some 7 => S_NO_REPLY
  | Some 8 => S_SKIP
  | Some 10 => S_ALL_OPTIONS
  | _ => S_DEFAULT
  end.

(** Lines separated by newlines. *)
Fixpoint lines_text (ls : list bytes) : bytes :=
  match ls with
  | [] => []
  | [l] => l
  | l :: ls' => l ++ "010"%char :: lines_text ls'
  end.

(** Lines smfi_setmlreply takes. *)
Definition reply_line (l : bytes) : Prop := (length l <= 980)%nat /\ ~ In "013"%char l.

(** A number as filters write codes: three digits. *)
Definition written_code (s : bytes) (c : N) : Prop :=
  exists x y z, s = [byte_of (48 + x); byte_of (48 + y); byte_of (48 + z)] /\
    (x < 10 /\ y < 10 /\ z < 10)%N /\ c = (x * 100 + y * 10 + z)%N.

(** What an smfi_* function asks of the filter's context: nothing, or one call.  Codes are three
    digits, indices are not negative, a replacement body is as long as is claimed. *)
Inductive asks : smfi -> list call -> Prop :=
| as_reply c n e m : written_code c n -> asks (FSetReply (Some c) e m) [KSetReply n e m]
| as_mlreply c n e ls :
    written_code c n -> Forall reply_line ls -> lines_text ls <> [] ->
    asks (FSetMlReply (Some c) e ls) [KSetReply n e (Some (lines_text ls))]
| as_no_lines c e ls : Forall reply_line ls -> lines_text ls = [] -> asks (FSetMlReply c e ls) []
| as_bad_line c e ls : ~ Forall reply_line ls -> asks (FSetMlReply c e ls) []
| as_add n v : asks (FAddHeader n v) [KAddHeader n v]
| as_change n i v : asks (FChgHeader n (Z.of_N i) v) [KChangeHeader n i v]
| as_insert i n v : asks (FInsHeader (Z.of_N i) n v) [KInsertHeader i n v]
| as_from f a : asks (FChgFrom f a) [KChangeFrom f a]
| as_rcpt r : asks (FAddRcpt r) [KAddRecipient r None]
| as_rcpt_par r a : asks (FAddRcptPar r a) [KAddRecipient r a]
| as_delrcpt r : asks (FDelRcpt r) [KDeleteRecipient r]
| as_progress : asks FProgress [KProgress]
| as_body b : asks (FReplaceBody b (Z.of_nat (length b))) [KReplaceBody b]
| as_quarantine r : asks (FQuarantine r) [KQuarantine r]
| as_priv : asks FSetPriv [].

(** Indices that fit into an int. *)
Definition index_fits (f : smfi) : Prop :=
  match f with FChgHeader _ i _ | FInsHeader i _ _ => i < 2147483648 | _ => True end.

Inductive ask_all : list smfi -> list call -> Prop :=
| aa_nil : ask_all [] []
| aa_cons f fs ks ks' : asks f ks -> index_fits f -> ask_all fs ks' -> ask_all (f :: fs) (ks ++ ks').

(** The options given in answer to a negotiation: those the callback leaves in its output
    parameters if it says SMFIS_CONTINUE. *)
Definition option_answer (o : moption) (react : invocation -> reaction) (v : option Z) : moption :=
  match v with
  | Some 0 => mk_option (o_version o) (r_action (react (INegotiate (o_action o) (o_step o))))
                (r_step (react (INegotiate (o_action o) (o_step o))))
  | _ => o
  end.

(** One exchange of the peer with a libmilter filter, as one with the filter's context: the calls
    of the callbacks in order, then the meaning of the value that counts (no answer is given to
    an abort, so that its status does not matter). *)
Inductive exchange_of (has : slot -> bool) (in_message : bool)
  : command -> (invocation -> reaction) -> list invocation -> exchange -> Prop :=
| exchange_is m react is v ks answer s :
    called has react in_message m is v ->
    ask_all (concat (map (fun i => r_calls (react i)) is)) ks ->
    (m <> CAbort -> s = returned v) -> s <> S_PROGRESS ->
    match m with CNegotiate o => answer = option_answer o react v | _ => True end ->
    exchange_of has in_message m react is (XNow m ks answer [] s).

(** A whole session: the commands with what the callbacks do then, the callbacks called and the
    exchanges. *)
Inductive session_of (has : slot -> bool)
  : list (command * (invocation -> reaction)) -> list invocation -> list exchange -> Prop :=
| so_nil : session_of has [] [] []
| so_cons in_message m react is x rest is' xs :
    exchange_of has in_message m react is x -> session_of has rest is' xs ->
    session_of has ((m, react) :: rest) (is ++ is') (x :: xs).

(** Callbacks covered: their calls have a meaning, xxfi_negotiate makes none and leaves 32 bit
    flags. *)
Definition well_behaved (react : invocation -> reaction) : Prop :=
  (forall i, exists ks, ask_all (r_calls (react i)) ks) /\
  (forall a t, r_calls (react (INegotiate a t)) = [] /\
               word (r_action (react (INegotiate a t))) /\ word (r_step (react (INegotiate a t)))).

(** A message is being handled: from the sender on, until its end or an abort. *)
Definition message_open (now : bool) (m : command) : bool :=
  match m with
  | CEnvelopeFrom _ => true
  | CEndOfMessage _ | CAbort => false
  | _ => now
  end.

(** The order of commands in a session: the commands of a message come inside of one, the
    others outside; after quit comes nothing. *)
Inductive ordered : bool -> list command -> Prop :=
| or_nil b : ordered b []
| or_session m ms :
    match m with CNegotiate _ | CConnect _ _ | CHelo _ => True | _ => False end ->
    ordered false ms -> ordered false (m :: ms)
| or_from b f ms : ordered true ms -> ordered b (CEnvelopeFrom f :: ms)
| or_message m ms :
    match m with
    | CEnvelopeRecipient _ | CData | CUnknown _ | CHeader _ _ | CEndOfHeader | CBody _ => True
    | _ => False
    end ->
    ordered true ms -> ordered true (m :: ms)
| or_end b m ms :
    match m with CEndOfMessage _ | CAbort => True | _ => False end ->
    ordered false ms -> ordered b (m :: ms)
| or_macros b x t ms : ordered b ms -> ordered b (CDefineMacro x t :: ms)
| or_quit b : ordered b [CQuit].

(** The callbacks called in a session, a message being handled from its sender on until its end
    or an abort. *)
Inductive calls_of (has : slot -> bool) : bool -> list (command * (invocation -> reaction)) -> list invocation -> Prop :=
| co_nil now : calls_of has now [] []
| co_cons now m react is v rest is' :
    called has react now m is v -> calls_of has (message_open now m) rest is' ->
    calls_of has now ((m, react) :: rest) (is ++ is').

(** The body a filter was given, and the one that was sent. *)
Definition body_given (is : list invocation) : bytes :=
  concat (map (fun i => match i with IBody b => b | _ => [] end) is).
Definition body_sent (ms : list command) : bytes :=
  concat (map (fun m => match m with CBody b | CEndOfMessage (Some b) => b | _ => [] end) ms).

(** The headers a filter was given, and those that were sent. *)
Definition headers_given (is : list invocation) : list (bytes * bytes) :=
  concat (map (fun i => match i with IHeader n v => [(n, v)] | _ => [] end) is).
Definition headers_sent (ms : list command) : list (bytes * bytes) :=
  concat (map (fun m => match m with CHeader n v => [(n, v)] | _ => [] end) ms).

(** The recipients. *)
Definition recipients_given (is : list invocation) : list bytes :=
  concat (map (fun i => match i with IEnvrcpt (r :: _) => [r] | _ => [] end) is).
Definition recipients_sent (ms : list command) : list bytes :=
  concat (map (fun m => match m with CEnvelopeRecipient r => [r] | _ => [] end) ms).

(** How often a callback is called. *)
Definition times (f : invocation -> bool) (is : list invocation) : nat := length (filter f is).

(** The aborts of messages that were begun and not ended. *)
Fixpoint messages_aborted (now : bool) (ms : list command) : nat :=
  match ms with
  | [] => 0
  | m :: ms' =>
      ((match m with CAbort => if now then 1 else 0 | _ => 0 end) + messages_aborted (message_open now m) ms')%nat
  end.

(** RFC 5321, 4.2.1: a reply of several lines; the code is followed by a hyphen on all lines but
    the last one. *)
Definition reply_text (e : option bytes) (l : bytes) : bytes :=
  match e, l with
  | None, l => l
  | Some e, [] => e
  | Some e, l => e ++ " "%char :: l
  end.
Fixpoint smtp_lines (code : bytes) (e : option bytes) (ls : list bytes) : bytes :=
  match ls with
  | [] => []
  | [l] => code ++ " "%char :: reply_text e l
  | l :: ls' => code ++ "-"%char :: reply_text e l ++ "013"%char :: "010"%char :: smtp_lines code e ls'
  end.
