(** Model of milter/client/milter-client-context.c: the filter side of a session. *)
From Verif.Base Require Import Bytes.
From Verif.Model Require Import Decoder Encoder CommandCodec ReplyCodec Status Option Macros ReplyCode.
Local Open Scope N_scope.

(** MilterClientContextState, milter-client-context.h:378-409: a stage is being handled
    ([At]) or was replied to ([Replied]). *)
Inductive stage :=
| TNegotiate | TConnect | THelo | TFrom | TRcpt | TData | TUnknown | THeader | TEndOfHeader
| TBody | TEndOfMessage | TQuit | TAbort.
Inductive client_state := Start | At (s : stage) | Replied (s : stage) | Finished.

Definition at_end_of_message (s : client_state) : bool :=
  match s with At TEndOfMessage => true | _ => false end.

(** The calls a filter may make on its context. NULL pointers are [None]. *)
Inductive call :=
| KAddHeader (name value : option bytes)
| KInsertHeader (index : N) (name value : option bytes)
| KChangeHeader (name : option bytes) (index : N) (value : option bytes)
| KDeleteHeader (name : option bytes) (index : N)
| KChangeFrom (from parameters : option bytes)
| KAddRecipient (recipient parameters : option bytes)
| KDeleteRecipient (recipient : option bytes)
| KReplaceBody (body : bytes)
| KProgress
| KQuarantine (reason : option bytes)
| KSetReply (c : N) (extended message : option bytes)
| KSetPacketBufferSize (size : N)
| KSetOption (o : option moption).

(** MilterClientContextPrivate with the encoder's buffer and the macro store.  The event loop,
    timeouts, private data, shelf and log are not modelled. *)
Record client := mk_client {
  cc_state : client_state;
  cc_last_state : client_state;
  cc_status : status;
  cc_option : option moption;
  cc_reply : smtp_reply;
  cc_quarantine : option bytes;
  cc_buffered : bytes;            (* buffered_packets *)
  cc_buffering : bool;
  cc_buffer_size : N;             (* packet_buffer_size *)
  cc_encoder : bytes;             (* the encoder's buffer *)
  cc_message : bool;              (* message_result exists *)
  cc_macros : pagent;
  cc_attempts : nat               (* writes attempted so far *)
}.

(** milter_client_context_init, milter-client-context.c:2138-2166. *)
Definition client_new : client :=
  mk_client Start Start S_NOT_CHANGE None no_reply_code None [] false 0 [] false pagent_new 0.

(** Record updates. *)
Definition with_state c x := mk_client x (cc_last_state c) (cc_status c) (cc_option c) (cc_reply c) (cc_quarantine c) (cc_buffered c) (cc_buffering c) (cc_buffer_size c) (cc_encoder c) (cc_message c) (cc_macros c) (cc_attempts c).
Definition with_last_state c x := mk_client (cc_state c) x (cc_status c) (cc_option c) (cc_reply c) (cc_quarantine c) (cc_buffered c) (cc_buffering c) (cc_buffer_size c) (cc_encoder c) (cc_message c) (cc_macros c) (cc_attempts c).
Definition with_status c x := mk_client (cc_state c) (cc_last_state c) x (cc_option c) (cc_reply c) (cc_quarantine c) (cc_buffered c) (cc_buffering c) (cc_buffer_size c) (cc_encoder c) (cc_message c) (cc_macros c) (cc_attempts c).
Definition with_option c x := mk_client (cc_state c) (cc_last_state c) (cc_status c) x (cc_reply c) (cc_quarantine c) (cc_buffered c) (cc_buffering c) (cc_buffer_size c) (cc_encoder c) (cc_message c) (cc_macros c) (cc_attempts c).
Definition with_reply c x := mk_client (cc_state c) (cc_last_state c) (cc_status c) (cc_option c) x (cc_quarantine c) (cc_buffered c) (cc_buffering c) (cc_buffer_size c) (cc_encoder c) (cc_message c) (cc_macros c) (cc_attempts c).
Definition with_quarantine c x := mk_client (cc_state c) (cc_last_state c) (cc_status c) (cc_option c) (cc_reply c) x (cc_buffered c) (cc_buffering c) (cc_buffer_size c) (cc_encoder c) (cc_message c) (cc_macros c) (cc_attempts c).
Definition with_buffer c x y := mk_client (cc_state c) (cc_last_state c) (cc_status c) (cc_option c) (cc_reply c) (cc_quarantine c) x y (cc_buffer_size c) (cc_encoder c) (cc_message c) (cc_macros c) (cc_attempts c).
Definition with_buffer_size c x := mk_client (cc_state c) (cc_last_state c) (cc_status c) (cc_option c) (cc_reply c) (cc_quarantine c) (cc_buffered c) (cc_buffering c) x (cc_encoder c) (cc_message c) (cc_macros c) (cc_attempts c).
Definition with_encoder c x := mk_client (cc_state c) (cc_last_state c) (cc_status c) (cc_option c) (cc_reply c) (cc_quarantine c) (cc_buffered c) (cc_buffering c) (cc_buffer_size c) x (cc_message c) (cc_macros c) (cc_attempts c).
Definition with_message c x := mk_client (cc_state c) (cc_last_state c) (cc_status c) (cc_option c) (cc_reply c) (cc_quarantine c) (cc_buffered c) (cc_buffering c) (cc_buffer_size c) (cc_encoder c) x (cc_macros c) (cc_attempts c).
Definition with_macros c x := mk_client (cc_state c) (cc_last_state c) (cc_status c) (cc_option c) (cc_reply c) (cc_quarantine c) (cc_buffered c) (cc_buffering c) (cc_buffer_size c) (cc_encoder c) (cc_message c) x (cc_attempts c).
Definition attempted c := mk_client (cc_state c) (cc_last_state c) (cc_status c) (cc_option c) (cc_reply c) (cc_quarantine c) (cc_buffered c) (cc_buffering c) (cc_buffer_size c) (cc_encoder c) (cc_message c) (cc_macros c) (S (cc_attempts c)).

(** What is observable: bytes handed to the writer, the result of a call, an error signal, the
    message-processed signal, shutdown of the connection, and a crash (NULL dereference). *)
Inductive client_event :=
| EvWrite (p : bytes)
| EvResult (ok : bool)
| EvError
| EvProcessed (s : status)
| EvShutdown
| EvCrash.

(** What milter_agent_write_packet (milter-agent.c:522-541) does at the n-th attempt: the
    writer takes the bytes, there is no writer any more (success), or the writer refuses (shut
    down or not started; error). *)
Inductive write_outcome := Taken | NoWriter | Refused.

Section Client.
  Variable outcome : nat -> write_outcome.

  Definition result : Type := bool * client * list client_event.

  (** flush, milter-client-context.c:4302-4349 (milter_writer_flush itself adds nothing). *)
  Definition flush (c : client) : result :=
    if cc_buffering c then
      let c1 := attempted (with_buffer c [] false) in
      match outcome (cc_attempts c) with
      | Taken => (true, c1, [EvWrite (cc_buffered c)])
      | NoWriter => (true, c1, [])
      | Refused => (false, c1, [EvError])
      end
    else (true, c, []).

  (** milter_agent_write_packet, milter-agent.c:522-541: a written packet is followed by a
      flush of the agent, which writes packets still buffered. *)
  Definition agent_write_packet (c : client) (p : bytes) : result :=
    let c1 := attempted c in
    match outcome (cc_attempts c) with
    | Taken => let '(ok, c2, evs) := flush c1 in (ok, c2, EvWrite p :: evs)
    | NoWriter => (true, c1, [])
    | Refused => (false, c1, [])
    end.

  (** write_packet, milter-client-context.c:2637-2692 for a non-NULL packet. *)
  Definition write_packet (c : client) (p : bytes) : result :=
    let '(ok, c1, evs) := agent_write_packet c p in
    (ok, c1, evs ++ (if ok then [] else [EvError])).

  (** write_packet_on_end_of_message, milter-client-context.c:2763-2804; a NULL packet has size
      0.  The comparison is of [gsize] with [guint]. *)
  Definition write_packet_on_end_of_message (c : client) (p : option bytes) : result :=
    let buffered := cc_buffered c ++ match p with Some b => b | None => [] end in
    let c1 := with_buffer c buffered true in
    if cc_buffer_size c <? N.of_nat (length buffered) then
      let '(ok, c2, evs) := flush c1 in
      (ok, c2, evs ++ (if ok then [] else [EvError]))
    else (true, c1, []).

  (** An encode call. *)
  Definition encode (c : client) (e : reply_call) : option bytes * client :=
    match encode_reply (cc_encoder c) e with
    | Some p => (Some p, with_encoder c p)
    | None => (None, c)
    end.

  Definition encode_and_buffer (c : client) (e : reply_call) : result :=
    let (p, c1) := encode c e in write_packet_on_end_of_message c1 p.

  (** validate_action, milter-client-context.c:2723-2761. *)
  Definition validate_action (c : client) (action : N) : bool :=
    match cc_option c with
    | None => false
    | Some o => N.land (o_action o) action =? action
    end.

  (** The common guard of the modification calls: milter-client-context.c:2827-2838 and its
      copies. *)
  Definition guarded (c : client) (action : N) (k : result) : result :=
    if negb (at_end_of_message (cc_state c)) then (false, c, [])
    else if negb (validate_action c action) then (false, c, [])
    else k.

  (** The loop of milter_client_context_replace_body, milter-client-context.c:3179-3197; every
      round packs at least one byte, so fuel above the body size is never used up. *)
  Fixpoint replace_body_loop (fuel : nat) (c : client) (rest : bytes) : result :=
    match rest, fuel with
    | [], _ => (true, c, [])
    | _ :: _, O => (false, c, [])
    | _ :: _, S fuel' =>
        let '(ok, c1, evs) := encode_and_buffer c (EReplaceBody rest) in
        if ok then
          let '(ok', c2, evs') :=
            replace_body_loop fuel' c1 (skipn (N.to_nat MILTER_CHUNK_SIZE) rest) in
          (ok', c2, evs ++ evs')
        else (false, c1, evs)
    end.

  (** milter_client_context_add_header 2806-2847, insert_header 2849-2892, change_header
      2894-2936, delete_header 2938-2979, change_from 2981-3033, add_recipient 3035-3088,
      delete_recipient 3090-3138, replace_body 3152-3200, progress 3237-3252, quarantine
      3254-3274, set_reply 2568-2614, set_packet_buffer_size 4546-4554, set_option
      4463-4475. *)
  Definition do_call (c : client) (k : call) : result :=
    match k with
    | KAddHeader (Some n) (Some v) => guarded c A_ADD_HEADERS (encode_and_buffer c (EAddHeader n v))
    | KAddHeader _ _ => (false, c, [])
    | KInsertHeader i (Some n) (Some v) =>
        guarded c A_ADD_HEADERS (encode_and_buffer c (EInsertHeader i n (Some v)))
    | KInsertHeader _ _ _ => (false, c, [])
    | KChangeHeader (Some n) i v => guarded c A_CHANGE_HEADERS (encode_and_buffer c (EChangeHeader n i v))
    | KChangeHeader None _ _ => (false, c, [])
    | KDeleteHeader (Some n) i => guarded c A_CHANGE_HEADERS (encode_and_buffer c (EDeleteHeader n i))
    | KDeleteHeader None _ => (false, c, [])
    | KChangeFrom (Some ((_ :: _) as f)) p => guarded c A_CHANGE_FROM (encode_and_buffer c (EChangeFrom f p))
    | KChangeFrom _ _ => (false, c, [])
    | KAddRecipient (Some ((_ :: _) as r)) p => guarded c A_ADD_RECIPIENT (encode_and_buffer c (EAddRecipient r p))
    | KAddRecipient _ _ => (false, c, [])
    | KDeleteRecipient (Some ((_ :: _) as r)) => guarded c A_DELETE_RECIPIENT (encode_and_buffer c (EDeleteRecipient r))
    | KDeleteRecipient _ => (false, c, [])
    | KReplaceBody b => guarded c A_CHANGE_BODY (replace_body_loop (S (length b)) c b)
    | KProgress =>
        let (p, c1) := encode c EProgress in
        match p with Some b => write_packet c1 b | None => (false, c1, []) end
    | KQuarantine r => (true, with_quarantine c r, [])
    | KSetReply code ext msg =>
        let (ok, r) := set_reply (cc_reply c) code ext msg in (ok, with_reply c r, [])
    | KSetPacketBufferSize n => (true, with_buffer_size c n, [])
    | KSetOption o => (true, with_option c o, [])
    end.

  Fixpoint do_calls (c : client) (ks : list call) : client * list client_event :=
    match ks with
    | [] => (c, [])
    | k :: ks' =>
        let '(ok, c1, evs) := do_call c k in
        let (c2, evs') := do_calls c1 ks' in
        (c2, evs ++ EvResult ok :: evs')
    end.

  (** create_reply_packet, milter-client-context.c:3291-3341 ([None]: no packet). *)
  Definition verdict_call (c : client) (s : status) : option reply_call :=
    match s with
    | S_CONTINUE => Some EContinue
    | S_TEMPORARY_FAILURE =>
        match format_reply_code (cc_reply c) with Some t => Some (EReplyCode t) | None => Some ETemporaryFailure end
    | S_REJECT =>
        match format_reply_code (cc_reply c) with Some t => Some (EReplyCode t) | None => Some EReject end
    | S_ACCEPT => Some EAccept
    | S_DISCARD => Some EDiscard
    | S_SKIP => Some ESkip
    | _ => None
    end.
  Definition create_reply_packet (c : client) (s : status) : option bytes * client :=
    match verdict_call c s with Some e => encode c e | None => (None, c) end.

  (** reply, milter-client-context.c:3343-3355. *)
  Definition do_reply (c : client) (s : status) : client * list client_event :=
    let (p, c1) := create_reply_packet c s in
    match p with
    | None => (c1, [])
    | Some b => let '(_, c2, evs) := write_packet c1 b in (c2, evs)
    end.

  (** reply_on_end_of_message, milter-client-context.c:3357-3406. *)
  Definition reply_on_end_of_message (c : client) (s : status) : client * list client_event :=
    let '(ok, c1, evs) := flush c in
    if negb ok then (c1, evs ++ [EvError])
    else
      let (p, c2) := create_reply_packet c1 s in
      match p with
      | None => (c2, evs)
      | Some b =>
          let (b', c3) :=
            match cc_quarantine c2 with
            | None => (b, c2)
            | Some r => let (q, c3) := encode c2 (EQuarantine r) in
                        ((match q with Some q => q | None => [] end) ++ b, c3)
            end in
          let '(_, c4, evs') := write_packet c3 b' in (c4, evs ++ evs')
      end.

  (** negotiate_response, milter-client-context.c:3506-3567: [o] is the option object given to
      the handler, as the handler left it. *)
  Definition negotiate_packet (c : client) (reqs : requests) : option bytes :=
    match encode_requests reqs with
    | Some r => Some (pack (append_negotiate (cc_encoder c) (cc_option c) ++ r))
    | None => None
    end.
  Definition negotiate_response (c : client) (o : moption) (reqs : requests) (s : status)
    : client * list client_event :=
    let s := match s with S_DEFAULT => S_ALL_OPTIONS | _ => s end in
    let c := with_state (with_status c s) (Replied TNegotiate) in
    let send c :=
      match negotiate_packet c reqs with
      | Some p => let '(_, c1, evs) := write_packet (with_encoder c p) p in (c1, evs)
      | None => (c, [EvCrash])
      end in
    match s with
    | S_CONTINUE => send (with_option c (Some o))
    | S_ALL_OPTIONS => send c
    | S_REJECT =>
        let (p, c1) := encode c EReject in
        match p with
        | Some p => let '(_, c2, evs) := write_packet c1 p in (c2, evs)
        | None => (c1, [])
        end
    | _ => (c, [])
    end.

  (** connect_response ... body_response, milter-client-context.c:3569-3810. *)
  Definition plain_response (c : client) (t : stage) (s : status) : client * list client_event :=
    let s := match s with S_DEFAULT => S_CONTINUE | _ => s end in
    do_reply (with_state (with_status c s) (Replied t)) s.

  (** end_of_message_response with emit_message_processed_signal,
      milter-client-context.c:3812-3884. *)
  Definition end_of_message_response (c : client) (s : status) : client * list client_event :=
    let s := match s with S_DEFAULT => S_CONTINUE | _ => s end in
    let (c1, evs) := reply_on_end_of_message (with_state (with_status c s) (Replied TEndOfMessage)) s in
    if cc_message c1 then (with_message c1 false, evs ++ [EvProcessed (cc_status c1)])
    else (c1, evs).

  (** abort_response, milter-client-context.c:3886-3919. *)
  Definition before_end_of_message (s : client_state) : bool :=
    match s with
    | At (TNegotiate | TConnect | THelo | TFrom | TRcpt | TData | TUnknown | THeader | TEndOfHeader | TBody) => true
    | _ => false
    end.
  Definition abort_response (c : client) (s : status) : client * list client_event :=
    let s := match s with S_DEFAULT | S_NOT_CHANGE => S_ABORT | _ => s end in
    let c1 := if is_pass (cc_status c) && before_end_of_message (cc_last_state c)
              then with_status c s else c in
    (with_state c1 (Replied TAbort), []).

  (** milter_client_context_set_state, milter-client-context.c:4393-4418, for a stage. *)
  Definition set_stage (c : client) (t : stage) : client :=
    let c1 := match t with TQuit | TAbort => c | _ => with_last_state c (At t) end in
    with_state c1 (At t).

  (** The response signal of a stage. *)
  Definition respond (c : client) (t : stage) (o : moption) (reqs : requests) (s : status)
    : client * list client_event :=
    match t with
    | TNegotiate => negotiate_response c o reqs s
    | TEndOfMessage => end_of_message_response c s
    | TAbort => abort_response c s
    | TQuit => (c, [])
    | _ => plain_response c t s
    end.

  (** The stage of a command ([None] for define-macro). *)
  Definition command_stage (m : command) : option stage :=
    match m with
    | CNegotiate _ => Some TNegotiate
    | CDefineMacro _ _ => None
    | CConnect _ _ => Some TConnect
    | CHelo _ => Some THelo
    | CEnvelopeFrom _ => Some TFrom
    | CEnvelopeRecipient _ => Some TRcpt
    | CData => Some TData
    | CUnknown _ => Some TUnknown
    | CHeader _ _ => Some THeader
    | CEndOfHeader => Some TEndOfHeader
    | CBody _ => Some TBody
    | CEndOfMessage _ => Some TEndOfMessage
    | CAbort => Some TAbort
    | CQuit => Some TQuit
    end.

  (** The macro context a command sets; unknown commands leave it. *)
  Definition command_context (m : command) : option byte :=
    match m with
    | CConnect _ _ => Some "C" | CHelo _ => Some "H" | CEnvelopeFrom _ => Some "M"
    | CEnvelopeRecipient _ => Some "R" | CData => Some "T" | CHeader _ _ => Some "L"
    | CEndOfHeader => Some "N" | CBody _ => Some "B" | CEndOfMessage _ => Some "E"
    | _ => None
    end%char.

  (** What the cb_decoder_* callbacks do before the filter's handler runs,
      milter-client-context.c:3940-4245. *)
  Definition receive_command (c : client) (m : command) : client :=
    match m with
    | CDefineMacro ctx t => with_macros c (set_macros_hash_table (cc_macros c) ctx t)
    | _ =>
        match command_stage m with
        | None => c
        | Some t =>
            let c1 := set_stage c t in
            let c2 := match t with TAbort | TQuit => c1 | _ => with_message c1 true end in
            let c3 := match command_context m with
                      | Some x => with_macros c2 (set_macro_context (cc_macros c2) x)
                      | None => c2
                      end in
            match m with
            | CNegotiate o => with_option c3 (Some o)
            | CEndOfMessage _ => with_quarantine c3 None
            | _ => c3
            end
        end
    end.

  (** What happens to a context: a command arrives, its handler makes calls and returns a
      status (already accumulated); or, outside any handler, the filter makes a call or emits a
      response signal (after having returned S_PROGRESS); or the agent is flushed. *)
  Inductive client_op :=
  | OpCommand (m : command) (calls : list call) (answer : moption) (reqs : requests) (s : status)
  | OpCall (k : call)
  | OpRespond (t : stage) (answer : moption) (reqs : requests) (s : status)
  | OpFlush.

  (** milter_client_context_reset_message_related_data, milter-client-context.c:3276-3289. *)
  Definition reset_message_related_data (c : client) : client :=
    with_message (with_macros c (clear_message_related_macros (cc_macros c))) false.

  Definition client_step (c : client) (op : client_op) : client * list client_event :=
    match op with
    | OpCommand m ks o reqs s =>
        let c1 := receive_command c m in
        match m with
        | CQuit => (c1, [EvShutdown])               (* cb_decoder_quit, 4228-4240 *)
        | _ =>
            let (c2, evs) := do_calls c1 ks in
            match command_stage m with
            | None => (c2, evs)
            | Some t =>
                let c3 := match m with CAbort => reset_message_related_data c2 | _ => c2 end in
                match s with
                | S_PROGRESS => (c3, evs)
                | _ => let (c4, evs') := respond c3 t o reqs s in (c4, evs ++ evs')
                end
            end
        end
    | OpCall k => do_calls c [k]
    | OpRespond t o reqs s => respond c t o reqs s
    | OpFlush => let '(ok, c1, evs) := flush c in (c1, evs ++ [EvResult ok])
    end.

  Fixpoint client_run (c : client) (ops : list client_op) : client * list client_event :=
    match ops with
    | [] => (c, [])
    | op :: ops' =>
        let (c1, evs) := client_step c op in
        let (c2, evs') := client_run c1 ops' in
        (c2, evs ++ evs')
    end.
End Client.

(** status_accumulator, milter-client-context.c:4351-4367: the return values of the handlers
    connected to a signal, in calling order.  The accumulator starts as 0 (S_DEFAULT); the
    emission stops when it holds a decisive status.  The result is the status and the number
    of handlers called. *)
Definition undecided (s : status) : bool :=
  match s with S_DEFAULT | S_CONTINUE | S_ALL_OPTIONS => true | _ => false end.
Fixpoint accumulate (acc : status) (returns : list status) : status * nat :=
  match returns with
  | [] => (acc, 0%nat)
  | s :: returns' =>
      let acc := match s with S_NOT_CHANGE => acc | _ => s end in
      if undecided acc then let (r, n) := accumulate acc returns' in (r, S n)
      else (acc, 1%nat)
  end.
