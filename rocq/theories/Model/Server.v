(** Model of milter/server/milter-server-context.c: the manager's side of a session with one
    filter, with the message result it keeps (milter/core/milter-message-result.c). *)
From Verif.Base Require Import Bytes.
From Verif.Model Require Import Decoder Encoder CommandCodec ReplyCodec Status Option Headers Macros
                                Client.
Local Open Scope N_scope.

(** MilterServerContextState, milter-server-context.h:139-157. *)
Inductive sstate :=
| XInvalid | XStart | XDefineMacro | XNegotiate | XConnect | XHelo | XFrom | XRcpt | XData
| XUnknown | XHeader | XEndOfHeader | XBody | XEndOfMessage | XQuit | XAbort.

(** The enum value. *)
Definition sstate_rank (x : sstate) : N :=
  match x with
  | XInvalid => 0 | XStart => 1 | XDefineMacro => 2 | XNegotiate => 3 | XConnect => 4
  | XHelo => 5 | XFrom => 6 | XRcpt => 7 | XData => 8 | XUnknown => 9 | XHeader => 10
  | XEndOfHeader => 11 | XBody => 12 | XEndOfMessage => 13 | XQuit => 14 | XAbort => 15
  end.
Definition sstate_eqb (x y : sstate) : bool := sstate_rank x =? sstate_rank y.
Definition sstate_in (lo x hi : sstate) : bool :=
  (sstate_rank lo <=? sstate_rank x) && (sstate_rank x <=? sstate_rank hi).

(** The timeout that timeout_id stands for (the connection timeout is not modelled). *)
Inductive timer := TWriting | TReading | TEndOfMessageReply.

(** MilterMessageResult, milter-message-result.c:30-50, without the times.  The MilterState is
    [None] (invalid), [Some (false, x)] (command [x] issued) or [Some (true, x)] (replied). *)
Record message := mk_message {
  mr_from : option bytes;
  mr_recipients : list bytes;
  mr_tempfailed : list (option bytes);   (* entries are NULL if the current recipient was *)
  mr_rejected : list (option bytes);
  mr_headers : list header;
  mr_body_size : N;
  mr_state : option (bool * sstate);
  mr_status : status;
  mr_added : list header;
  mr_removed : list header;
  mr_quarantine : bool
}.

(** milter_message_result_init, milter-message-result.c:168-188. *)
Definition message_new : message := mk_message None [] [] [] [] 0 None S_DEFAULT [] [] false.

Definition mr_put_from m x := mk_message (Some x) (mr_recipients m) (mr_tempfailed m) (mr_rejected m) (mr_headers m) (mr_body_size m) (mr_state m) (mr_status m) (mr_added m) (mr_removed m) (mr_quarantine m).
Definition mr_put_recipients m a t r := mk_message (mr_from m) a t r (mr_headers m) (mr_body_size m) (mr_state m) (mr_status m) (mr_added m) (mr_removed m) (mr_quarantine m).
Definition mr_put_state m x := mk_message (mr_from m) (mr_recipients m) (mr_tempfailed m) (mr_rejected m) (mr_headers m) (mr_body_size m) (Some x) (mr_status m) (mr_added m) (mr_removed m) (mr_quarantine m).
Definition mr_put_status m x := mk_message (mr_from m) (mr_recipients m) (mr_tempfailed m) (mr_rejected m) (mr_headers m) (mr_body_size m) (mr_state m) x (mr_added m) (mr_removed m) (mr_quarantine m).
(** milter_headers_add_header on the message's headers. *)
Definition mr_add_header m n v := mk_message (mr_from m) (mr_recipients m) (mr_tempfailed m) (mr_rejected m) (headers_add (mr_headers m) n v) (mr_body_size m) (mr_state m) (mr_status m) (mr_added m) (mr_removed m) (mr_quarantine m).
Definition mr_record_added m n v := mk_message (mr_from m) (mr_recipients m) (mr_tempfailed m) (mr_rejected m) (mr_headers m) (mr_body_size m) (mr_state m) (mr_status m) (headers_add (mr_added m) n v) (mr_removed m) (mr_quarantine m).
Definition mr_record_removed m n := mk_message (mr_from m) (mr_recipients m) (mr_tempfailed m) (mr_rejected m) (mr_headers m) (mr_body_size m) (mr_state m) (mr_status m) (mr_added m) (headers_add (mr_removed m) n None) (mr_quarantine m).
Definition mr_set_quarantine m := mk_message (mr_from m) (mr_recipients m) (mr_tempfailed m) (mr_rejected m) (mr_headers m) (mr_body_size m) (mr_state m) (mr_status m) (mr_added m) (mr_removed m) true.
(** milter_message_result_add_body_size, milter-message-result.c:643-651 ([guint64]). *)
Definition mr_add_body_size m n := mk_message (mr_from m) (mr_recipients m) (mr_tempfailed m) (mr_rejected m) (mr_headers m) ((mr_body_size m + n) mod 18446744073709551616) (mr_state m) (mr_status m) (mr_added m) (mr_removed m) (mr_quarantine m).

(** milter_message_result_remove_recipient, milter-message-result.c:486-502:
    g_list_remove_link empties the removed node's links, so the loop ends at the first equal
    string. *)
Fixpoint remove_first (l : list bytes) (r : bytes) : list bytes :=
  match l with
  | [] => []
  | x :: l' => if bytes_eqb x r then l' else x :: remove_first l' r
  end.

(** The calls made on a context.  String arguments are not NULL, except the chunk of
    end-of-message. *)
Inductive api :=
| ANegotiate (o : moption)
| AConnect (host : bytes) (a : address)
| AHelo (fqdn : bytes)
| AFrom (from : bytes)
| ARcpt (recipient : bytes)
| AData
| AUnknown (command : bytes)
| AHeader (name value : bytes)
| AEndOfHeader
| ABody (chunk : bytes)
| AEndOfMessage (chunk : option bytes)
| AQuit
| AAbort
| ASetState (x : sstate)
| ASetQuitted (b : bool)
| ASetProcessing (b : bool)
| ASetOption (o : option moption)
| AReset                          (* milter_server_context_reset_message_related_data *)
| AMacro (o : macro_op).          (* a call on the macro store *)

(** What reaches the context: a call, the completion of a flush, a decoded reply, the expiry of
    the armed timeout. *)
Inductive op :=
| Call (c : api)
| Flushed
| Receive (r : reply)
| Fire.

Inductive serror := Busy | WriteFailed | InvalidState | NewerVersion.

(** What happens, in order.  [Sent x prefix packet]: the writer took [prefix ++ packet] for
    command [x], [prefix] being the macro packet or empty; [Lost]: the same, but there was no
    writer any more (milter-agent.c:522-541 reports success).  [Forward r] is the signal that
    passes reply [r] on; [Unasked x] is the "continue" (for the body "skip") signal emitted
    instead of sending command [x].  [Entered x]: milter_server_context_get_state returns [x] from
    now on.  The other events are the signals of the same name, the
    return of a call, and a crash (NULL dereference). *)
Inductive event :=
| In (o : op)
| Sent (x : sstate) (prefix packet : bytes)
| Lost (x : sstate) (prefix packet : bytes)
| Forward (r : reply)
| Unasked (x : sstate)
| Entered (x : sstate)
| Stopped (x : sstate)
| Expired (t : timer)
| Delivered (x : sstate)            (* state-transited *)
| Processed (m : message)           (* message-processed *)
| Error (e : serror)
| ShutDown
| Return (ok : bool)
| Crash.

(** MilterServerContextPrivate with the encoder's buffer, the macro store and the requests.
    The event loop, sockets, names, lengths of timeouts and elapsed times are not modelled.
    process_body_count and sent_end_of_message are never set to anything but 0 and FALSE
    (milter-server-context.c:103-104,468-469,1352-1355,1840-1841) and left out.  A message
    already logged is kept in [sv_trace]. *)
Record server := mk_server {
  sv_state : sstate;
  sv_last : sstate;   (* last_state *)
  sv_status : status;
  sv_rcpt_status : status;   (* envelope_recipient_status *)
  sv_next : list sstate;   (* next_states *)
  sv_option : option moption;
  sv_timer : option timer;   (* what timeout_id stands for *)
  sv_skip_body : bool;
  sv_body : bytes;   (* body not yet sent *)
  sv_queue : list N;   (* body_response_queue *)
  sv_negotiated : bool;
  sv_processing : bool;   (* processing_message *)
  sv_quitted : bool;
  sv_current : option bytes;   (* current_recipient *)
  sv_message : option message;   (* message_result *)
  sv_encoder : bytes;   (* the encoder's buffer *)
  sv_macros : pagent;
  sv_requests : option requests;
  sv_trace : list event;   (* what happened so far, latest first *)
  sv_crashed : bool
}.

(** Record updates. *)
Definition put_state s x := mk_server x (sv_last s) (sv_status s) (sv_rcpt_status s) (sv_next s) (sv_option s) (sv_timer s) (sv_skip_body s) (sv_body s) (sv_queue s) (sv_negotiated s) (sv_processing s) (sv_quitted s) (sv_current s) (sv_message s) (sv_encoder s) (sv_macros s) (sv_requests s) (sv_trace s) (sv_crashed s).
Definition put_last s x := mk_server (sv_state s) x (sv_status s) (sv_rcpt_status s) (sv_next s) (sv_option s) (sv_timer s) (sv_skip_body s) (sv_body s) (sv_queue s) (sv_negotiated s) (sv_processing s) (sv_quitted s) (sv_current s) (sv_message s) (sv_encoder s) (sv_macros s) (sv_requests s) (sv_trace s) (sv_crashed s).
Definition put_status s x := mk_server (sv_state s) (sv_last s) x (sv_rcpt_status s) (sv_next s) (sv_option s) (sv_timer s) (sv_skip_body s) (sv_body s) (sv_queue s) (sv_negotiated s) (sv_processing s) (sv_quitted s) (sv_current s) (sv_message s) (sv_encoder s) (sv_macros s) (sv_requests s) (sv_trace s) (sv_crashed s).
Definition put_rcpt_status s x := mk_server (sv_state s) (sv_last s) (sv_status s) x (sv_next s) (sv_option s) (sv_timer s) (sv_skip_body s) (sv_body s) (sv_queue s) (sv_negotiated s) (sv_processing s) (sv_quitted s) (sv_current s) (sv_message s) (sv_encoder s) (sv_macros s) (sv_requests s) (sv_trace s) (sv_crashed s).
Definition put_next s x := mk_server (sv_state s) (sv_last s) (sv_status s) (sv_rcpt_status s) x (sv_option s) (sv_timer s) (sv_skip_body s) (sv_body s) (sv_queue s) (sv_negotiated s) (sv_processing s) (sv_quitted s) (sv_current s) (sv_message s) (sv_encoder s) (sv_macros s) (sv_requests s) (sv_trace s) (sv_crashed s).
Definition put_option s x := mk_server (sv_state s) (sv_last s) (sv_status s) (sv_rcpt_status s) (sv_next s) x (sv_timer s) (sv_skip_body s) (sv_body s) (sv_queue s) (sv_negotiated s) (sv_processing s) (sv_quitted s) (sv_current s) (sv_message s) (sv_encoder s) (sv_macros s) (sv_requests s) (sv_trace s) (sv_crashed s).
Definition put_timer s x := mk_server (sv_state s) (sv_last s) (sv_status s) (sv_rcpt_status s) (sv_next s) (sv_option s) x (sv_skip_body s) (sv_body s) (sv_queue s) (sv_negotiated s) (sv_processing s) (sv_quitted s) (sv_current s) (sv_message s) (sv_encoder s) (sv_macros s) (sv_requests s) (sv_trace s) (sv_crashed s).
Definition put_skip_body s x := mk_server (sv_state s) (sv_last s) (sv_status s) (sv_rcpt_status s) (sv_next s) (sv_option s) (sv_timer s) x (sv_body s) (sv_queue s) (sv_negotiated s) (sv_processing s) (sv_quitted s) (sv_current s) (sv_message s) (sv_encoder s) (sv_macros s) (sv_requests s) (sv_trace s) (sv_crashed s).
Definition put_body s x := mk_server (sv_state s) (sv_last s) (sv_status s) (sv_rcpt_status s) (sv_next s) (sv_option s) (sv_timer s) (sv_skip_body s) x (sv_queue s) (sv_negotiated s) (sv_processing s) (sv_quitted s) (sv_current s) (sv_message s) (sv_encoder s) (sv_macros s) (sv_requests s) (sv_trace s) (sv_crashed s).
Definition put_queue s x := mk_server (sv_state s) (sv_last s) (sv_status s) (sv_rcpt_status s) (sv_next s) (sv_option s) (sv_timer s) (sv_skip_body s) (sv_body s) x (sv_negotiated s) (sv_processing s) (sv_quitted s) (sv_current s) (sv_message s) (sv_encoder s) (sv_macros s) (sv_requests s) (sv_trace s) (sv_crashed s).
Definition put_negotiated s x := mk_server (sv_state s) (sv_last s) (sv_status s) (sv_rcpt_status s) (sv_next s) (sv_option s) (sv_timer s) (sv_skip_body s) (sv_body s) (sv_queue s) x (sv_processing s) (sv_quitted s) (sv_current s) (sv_message s) (sv_encoder s) (sv_macros s) (sv_requests s) (sv_trace s) (sv_crashed s).
Definition put_processing s x := mk_server (sv_state s) (sv_last s) (sv_status s) (sv_rcpt_status s) (sv_next s) (sv_option s) (sv_timer s) (sv_skip_body s) (sv_body s) (sv_queue s) (sv_negotiated s) x (sv_quitted s) (sv_current s) (sv_message s) (sv_encoder s) (sv_macros s) (sv_requests s) (sv_trace s) (sv_crashed s).
Definition put_quitted s x := mk_server (sv_state s) (sv_last s) (sv_status s) (sv_rcpt_status s) (sv_next s) (sv_option s) (sv_timer s) (sv_skip_body s) (sv_body s) (sv_queue s) (sv_negotiated s) (sv_processing s) x (sv_current s) (sv_message s) (sv_encoder s) (sv_macros s) (sv_requests s) (sv_trace s) (sv_crashed s).
Definition put_current s x := mk_server (sv_state s) (sv_last s) (sv_status s) (sv_rcpt_status s) (sv_next s) (sv_option s) (sv_timer s) (sv_skip_body s) (sv_body s) (sv_queue s) (sv_negotiated s) (sv_processing s) (sv_quitted s) x (sv_message s) (sv_encoder s) (sv_macros s) (sv_requests s) (sv_trace s) (sv_crashed s).
Definition put_message s x := mk_server (sv_state s) (sv_last s) (sv_status s) (sv_rcpt_status s) (sv_next s) (sv_option s) (sv_timer s) (sv_skip_body s) (sv_body s) (sv_queue s) (sv_negotiated s) (sv_processing s) (sv_quitted s) (sv_current s) x (sv_encoder s) (sv_macros s) (sv_requests s) (sv_trace s) (sv_crashed s).
Definition put_encoder s x := mk_server (sv_state s) (sv_last s) (sv_status s) (sv_rcpt_status s) (sv_next s) (sv_option s) (sv_timer s) (sv_skip_body s) (sv_body s) (sv_queue s) (sv_negotiated s) (sv_processing s) (sv_quitted s) (sv_current s) (sv_message s) x (sv_macros s) (sv_requests s) (sv_trace s) (sv_crashed s).
Definition put_macros s x := mk_server (sv_state s) (sv_last s) (sv_status s) (sv_rcpt_status s) (sv_next s) (sv_option s) (sv_timer s) (sv_skip_body s) (sv_body s) (sv_queue s) (sv_negotiated s) (sv_processing s) (sv_quitted s) (sv_current s) (sv_message s) (sv_encoder s) x (sv_requests s) (sv_trace s) (sv_crashed s).
Definition put_requests s x := mk_server (sv_state s) (sv_last s) (sv_status s) (sv_rcpt_status s) (sv_next s) (sv_option s) (sv_timer s) (sv_skip_body s) (sv_body s) (sv_queue s) (sv_negotiated s) (sv_processing s) (sv_quitted s) (sv_current s) (sv_message s) (sv_encoder s) (sv_macros s) x (sv_trace s) (sv_crashed s).
Definition put_trace s x := mk_server (sv_state s) (sv_last s) (sv_status s) (sv_rcpt_status s) (sv_next s) (sv_option s) (sv_timer s) (sv_skip_body s) (sv_body s) (sv_queue s) (sv_negotiated s) (sv_processing s) (sv_quitted s) (sv_current s) (sv_message s) (sv_encoder s) (sv_macros s) (sv_requests s) x (sv_crashed s).
Definition put_crashed s x := mk_server (sv_state s) (sv_last s) (sv_status s) (sv_rcpt_status s) (sv_next s) (sv_option s) (sv_timer s) (sv_skip_body s) (sv_body s) (sv_queue s) (sv_negotiated s) (sv_processing s) (sv_quitted s) (sv_current s) (sv_message s) (sv_encoder s) (sv_macros s) (sv_requests s) (sv_trace s) x.

(** milter_server_context_init, milter-server-context.c:451-496. *)
Definition server_new : server :=
  mk_server XStart XStart S_NOT_CHANGE S_DEFAULT [] None None false [] [] false false false None
            None [] pagent_new None [] false.

(** Records an event; nothing happens after a crash. *)
Definition log (s : server) (e : event) : server :=
  if sv_crashed s then s else put_trace s (e :: sv_trace s).
Definition crash (s : server) : server := put_crashed (log s Crash) true.

(** milter_server_context_set_state, milter-server-context.c:785-831. *)
Definition set_state (s : server) (x : sstate) : server :=
  log (put_state (if sstate_in XNegotiate x XEndOfMessage then put_last s x else s) x)
      (Entered x).

(** disable_timeout, milter-server-context.c:498-520. *)
Definition disable_timeout (s : server) : server := put_timer s None.

(** milter_server_context_is_processing, milter-server-context.c:960-968. *)
Definition is_processing (s : server) : bool :=
  match sv_timer s with Some _ => true | None => false end.

(** ensure_message_result, milter-server-context.c:545-552, and an update of the result. *)
Definition on_message (s : server) (f : message -> message) : server :=
  put_message s (Some (f (match sv_message s with Some m => m | None => message_new end))).

(** The step bit that turns the reply to a command off; the switch of
    milter_server_context_need_reply, milter-server-context.c:1118-1149. *)
Definition no_reply_step (x : sstate) : N :=
  match x with
  | XConnect => STEP_NO_REPLY_CONNECT
  | XHelo => STEP_NO_REPLY_HELO
  | XFrom => STEP_NO_REPLY_ENVELOPE_FROM
  | XRcpt => STEP_NO_REPLY_ENVELOPE_RECIPIENT
  | XData => STEP_NO_REPLY_DATA
  | XHeader => STEP_NO_REPLY_HEADER
  | XEndOfHeader => STEP_NO_REPLY_END_OF_HEADER
  | XBody => STEP_NO_REPLY_BODY
  | XUnknown => STEP_NO_REPLY_UNKNOWN
  | _ => 0
  end.

(** milter_server_context_need_reply, milter-server-context.c:1108-1150; [None] if there is no
    option (NULL dereference). *)
Definition need_reply (s : server) (x : sstate) : option bool :=
  match sv_option s with
  | None => None
  | Some o => Some (N.land (o_step o) (no_reply_step x) =? 0)
  end.

(** milter_server_context_is_enable_step, milter-server-context.c:1763-1772. *)
Definition is_enable_step (s : server) (step : N) : bool :=
  match sv_option s with
  | None => true
  | Some o => negb (N.land (o_step o) step =? 0)
  end.

(** milter_server_context_reset_message_related_data, milter-server-context.c:1824-1847; the
    body not yet sent stays. *)
Definition reset_message_related_data (s : server) : server :=
  put_message (put_queue (put_rcpt_status (put_processing (put_skip_body
    (put_macros s (clear_message_related_macros (sv_macros s))) false) false) S_DEFAULT) []) None.

(** The letter of the command whose macros are sent before command [x]; the switch of
    write_packet, milter-server-context.c:1556-1589. *)
Definition macro_command (x : sstate) : option byte :=
  match x with
  | XHelo => Some "H"%char
  | XConnect => Some "C"%char
  | XFrom => Some "M"%char
  | XRcpt => Some "R"%char
  | XData => Some "T"%char
  | XHeader => Some "L"%char
  | XEndOfHeader => Some "N"%char
  | XBody => Some "B"%char
  | XEndOfMessage => Some "E"%char
  | _ => None
  end.

(** Commands that may be sent while another one is processed. *)
Definition urgent (x : sstate) : bool :=
  match x with XAbort | XQuit => true | _ => false end.

Section Server.
  Variables (ntop4 ntop6 : bytes -> bytes).
  Variable sort_keys : list bytes -> list bytes.
  (** What milter_agent_write_packet does and what the handlers of the stop-on signals answer,
      depending on all that happened. *)
  Variable writes : list event -> write_outcome.
  Variable stops : list event -> bool.

  Section Handlers.
    (** What the handlers of the signal just recorded do to this context. *)
    Variable react : server -> server.

    Definition emit (s : server) (e : event) : server := react (log s e).

    (** emit_message_processed_signal, milter-server-context.c:1061-1106. *)
    Definition emit_processed (s : server) : server :=
      match sv_message s with
      | None => s
      | Some m =>
          let m1 := match sv_state s with
                    | XFrom | XRcpt | XData | XHeader | XEndOfHeader | XBody | XEndOfMessage =>
                        mr_put_state m (true, sv_state s)
                    | _ => m
                    end in
          let m2 := mr_put_status m1 (sv_status s) in
          put_message (emit (put_message s (Some m2)) (Processed m2)) None
      end.

    (** prepend_macro, milter-server-context.c:997-1059: the bytes put in front of the packet;
        the encoder is used for them. *)
    Definition macro_prefix (s : server) (x : sstate) : bytes * server :=
      match macro_command x with
      | None => ([], s)
      | Some c =>
          let (t, a) := macros_before (sv_macros s) (sv_requests s) c in
          let s1 := put_macros s a in
          match t with
          | None => ([], s1)
          | Some t =>
              let p := encode_command ntop4 ntop6 sort_keys (sv_encoder s1) (CDefineMacro c t) in
              (p, put_encoder s1 p)
          end
      end.

    (** write_packet, milter-server-context.c:1477-1622, for a non-NULL packet. *)
    Definition write_packet (s : server) (packet : bytes) (x : sstate) : bool * server :=
      if negb (urgent x) && is_processing s then (false, emit s (Error Busy))
      else
        let s1 := if urgent x then s else put_timer s (Some TWriting) in
        let (prefix, s2) := macro_prefix s1 x in
        match writes (sv_trace s2) with
        | Taken =>
            let s3 := log s2 (Sent x prefix packet) in
            (true, put_next s3 (sv_next s3 ++ [x]))
        | NoWriter =>
            let s3 := log s2 (Lost x prefix packet) in
            (true, put_next s3 (sv_next s3 ++ [x]))
        | Refused => (false, emit (disable_timeout s2) (Error WriteFailed))
        end.

    (** The encoding of a command followed by write_packet. *)
    Definition send (s : server) (c : command) (x : sstate) : bool * server :=
      let p := encode_command ntop4 ntop6 sort_keys (sv_encoder s) c in
      write_packet (put_encoder s p) p x.

    (** increment_process_body_count, milter-server-context.c:1193-1207 ([guint]). *)
    Fixpoint increment_last (q : list N) : list N :=
      match q with
      | [] => []
      | [n] => [(n + 1) mod 4294967296]
      | n :: q' => n :: increment_last q'
      end.

    (** flush_body, milter-server-context.c:1209-1256. *)
    Definition flush_body (s : server) : bool * server :=
      let s1 := put_queue s (sv_queue s ++ [0]) in
      let sent := packed_chunk (sv_body s1) in
      let (ok, s2) := send s1 (CBody (sv_body s1)) XBody in
      if ok then
        (true, put_queue (put_body s2 (skipn (length sent) (sv_body s2)))
                         (increment_last (sv_queue s2)))
      else (false, s2).

    (** stop_on_state, milter-server-context.c:1624-1652. *)
    Definition stop_on_state (s : server) (x : sstate) : server :=
      let s1 := emit (set_state (put_status s S_STOP) x) (Stopped x) in
      if sstate_in XFrom (sv_state s1) XEndOfMessage then emit_processed s1 else s1.

    (** What the call for a command does after its bookkeeping: the stop-on signal (if the
        command has one), the skip of a command the filter does not want, the send.  Common
        shape of milter-server-context.c:1694-2278.  [context] is the macro context set. *)
    Definition enter (s : server) (context : option byte) : server :=
      match context with
      | Some c => put_macros s (set_macro_context (sv_macros s) c)
      | None => s
      end.

    Definition skip (s : server) (x : sstate) : bool * server :=
      (true, emit (set_state s x) (Unasked x)).

    (** process_next_state_body, milter-server-context.c:1258-1299. *)
    Definition process_next_state_body (s : server) : server :=
      match sv_body s with
      | [] => s
      | _ :: _ =>
          match need_reply s XBody with
          | None => crash s
          | Some false => snd (flush_body s)
          | Some true => put_timer s (Some TReading)
          end
      end.

    (** process_next_state, milter-server-context.c:1301-1418. *)
    Definition process_next_state (s : server) (x : sstate) : server :=
      match x with
      | XInvalid => emit s (Error InvalidState)
      | XEndOfMessage => put_timer (set_state (disable_timeout s) x) (Some TEndOfMessageReply)
      | XBody => process_next_state_body (set_state (disable_timeout s) x)
      | XQuit => set_state (emit (disable_timeout s) ShutDown) x
      | XAbort =>
          let s1 := disable_timeout s in
          let s2 :=
            if is_pass (sv_status s1) && sstate_in XDefineMacro (sv_state s1) XEndOfMessage
               && negb (sstate_eqb (sv_state s1) XEndOfMessage)
            then put_status s1
                   (if sstate_eqb (sv_state s1) XRcpt
                       && negb (status_eqb (sv_rcpt_status s1) S_DEFAULT)
                    then sv_rcpt_status s1 else S_ABORT)
            else s1 in
          reset_message_related_data (emit_processed (set_state s2 x))
      | _ =>
          let s1 := disable_timeout s in
          let s2 := match x with XFrom => put_processing s1 true | _ => s1 end in
          let s3 := set_state s2 x in
          match need_reply s3 x with
          | None => crash s3
          | Some true => put_timer s3 (Some TReading)
          | Some false => s3
          end
      end.

    (** flushed, milter-server-context.c:1420-1475. *)
    Definition deliver (s : server) (x : sstate) : server :=
      emit (process_next_state s x) (Delivered x).
    Definition flushed (s : server) : server :=
      fold_left deliver (sv_next s) (put_next s []).

    (** milter_server_context_negotiate .. milter_server_context_abort and the setters,
        milter-server-context.c:1654-2325, 3640-3760. *)
    Definition call_body (s : server) (c : api) : bool * server :=
      match c with
      | ANegotiate o => send (put_option s (Some o)) (CNegotiate o) XNegotiate
      | AConnect host a =>
          let s1 := enter s (Some "C"%char) in
          if stops (sv_trace s1) then (true, stop_on_state s1 XConnect)
          else if is_enable_step s1 STEP_NO_CONNECT then skip s1 XConnect
          else send s1 (CConnect host a) XConnect
      | AHelo fqdn =>
          if stops (sv_trace s) then (true, stop_on_state s XHelo)
          else if is_enable_step s STEP_NO_HELO then skip s XHelo
          else send s (CHelo fqdn) XHelo
      | AFrom from =>
          let s1 := on_message (put_status s S_NOT_CHANGE)
                      (fun m => mr_put_state (mr_put_from m from) (false, XFrom)) in
          let s2 := enter s1 (Some "M"%char) in
          if stops (sv_trace s2) then (true, stop_on_state s2 XFrom)
          else
            let s3 := put_processing s2 true in
            if is_enable_step s3 STEP_NO_ENVELOPE_FROM then skip s3 XFrom
            else send s3 (CEnvelopeFrom from) XFrom
      | ARcpt r =>
          let s1 := on_message (put_current s (Some r))
                      (fun m => mr_put_state
                         (mr_put_recipients m (mr_recipients m ++ [r]) (mr_tempfailed m)
                                            (mr_rejected m)) (false, XRcpt)) in
          let s2 := enter s1 (Some "R"%char) in
          if stops (sv_trace s2) then (true, stop_on_state s2 XRcpt)
          else if is_enable_step s2 STEP_NO_ENVELOPE_RECIPIENT then skip s2 XRcpt
          else send s2 (CEnvelopeRecipient r) XRcpt
      | AData =>
          let s1 := enter (on_message s (fun m => mr_put_state m (false, XData))) (Some "T"%char) in
          if stops (sv_trace s1) then (true, stop_on_state s1 XData)
          else match sv_option s1 with
               | None => (true, crash s1)
               | Some o =>
                   if (o_version o <? 4) || is_enable_step s1 STEP_NO_DATA then skip s1 XData
                   else send s1 CData XData
               end
      | AUnknown cmd =>
          if is_enable_step s STEP_NO_UNKNOWN then skip s XUnknown
          else send s (CUnknown cmd) XUnknown
      | AHeader n v =>
          let s1 := enter (on_message s (fun m => mr_put_state (mr_add_header m n (Some v))
                                                              (false, XHeader)))
                          (Some "L"%char) in
          if stops (sv_trace s1) then (true, stop_on_state s1 XHeader)
          else if is_enable_step s1 STEP_NO_HEADERS then skip s1 XHeader
          else send s1 (CHeader n v) XHeader
      | AEndOfHeader =>
          let s1 := enter (on_message s (fun m => mr_put_state m (false, XEndOfHeader)))
                          (Some "N"%char) in
          if stops (sv_trace s1) then (true, stop_on_state s1 XEndOfHeader)
          else if is_enable_step s1 STEP_NO_END_OF_HEADER then skip s1 XEndOfHeader
          else send s1 CEndOfHeader XEndOfHeader
      | ABody chunk =>
          let s1 := enter (on_message s (fun m => mr_put_state
                             (mr_add_body_size m (N.of_nat (length chunk))) (false, XBody)))
                          (Some "B"%char) in
          if stops (sv_trace s1) then (true, stop_on_state s1 XBody)
          else if is_enable_step s1 STEP_NO_BODY then skip s1 XBody
          else flush_body (put_body s1 (sv_body s1 ++ chunk))
      | AEndOfMessage chunk =>
          let size := match chunk with Some b => N.of_nat (length b) | None => 0 end in
          let s1 := enter (on_message s (fun m => mr_put_state (mr_add_body_size m size)
                                                               (false, XEndOfMessage)))
                          (Some "E"%char) in
          if stops (sv_trace s1) then (true, stop_on_state s1 XEndOfMessage)
          else send s1 (CEndOfMessage chunk) XEndOfMessage
      | AQuit => send (put_quitted s true) CQuit XQuit
      | AAbort => let (ok, s1) := send s CAbort XAbort in (ok, put_processing s1 false)
      | ASetState x => (true, set_state s x)
      | ASetQuitted b => (true, put_quitted s b)
      | ASetProcessing b => (true, put_processing s b)
      | ASetOption o => (true, put_option s o)
      | AReset => (true, reset_message_related_data s)
      | AMacro o => (true, put_macros s (macro_step (sv_macros s) o))
      end.

    Definition call (s : server) (c : api) : server :=
      let (ok, s1) := call_body (log s (In (Call c))) c in log s1 (Return ok).

    (** The refusal of the current recipient in the state envelope-recipient,
        milter-server-context.c:2614-2629,2683-2692,2745-2754. *)
    Definition refuse_recipient (s : server) (v : status) : server :=
      let s1 := on_message (put_rcpt_status s v)
                  (fun m => match v with
                            | S_TEMPORARY_FAILURE =>
                                mr_put_recipients m (mr_recipients m)
                                  (mr_tempfailed m ++ [sv_current s]) (mr_rejected m)
                            | _ =>
                                mr_put_recipients m (mr_recipients m) (mr_tempfailed m)
                                  (mr_rejected m ++ [sv_current s])
                            end) in
      match sv_current s with
      | Some r =>
          put_current
            (on_message s1 (fun m => mr_put_recipients m (remove_first (mr_recipients m) r)
                                       (mr_tempfailed m) (mr_rejected m)))
            None
      | None =>
          match sv_message s1 with
          | Some m => match mr_recipients m with
                      | [] => s1
                      | _ :: _ => crash s1          (* strcmp(_, NULL) *)
                      end
          | None => s1
          end
      end.

    Definition refuse (s : server) (v : status) : server :=
      match sv_state s with
      | XRcpt => refuse_recipient s v
      | _ => put_status s v
      end.

    (** clear_process_body_count, milter-server-context.c:2462-2476. *)
    Definition clear_body_count (s : server) : server := put_queue s [].

    (** decrement_process_body_count, milter-server-context.c:2478-2519 ([guint]). *)
    Definition decrement_body_count (s : server) : server :=
      match sv_queue s with
      | [] => s
      | n :: q =>
          if n =? 1 then emit (put_queue s q) (Forward RContinue)
          else put_queue s ((n + 4294967295) mod 4294967296 :: q)
      end.

    (** The states in which continue and reply-code are expected. *)
    Definition answerable (x : sstate) : bool :=
      match x with
      | XConnect | XHelo | XFrom | XRcpt | XUnknown | XData | XHeader | XEndOfHeader | XBody
      | XEndOfMessage => true
      | _ => false
      end.

    Definition invalid_state (s : server) : server := emit s (Error InvalidState).

    (** After a reply that may end the message, milter-server-context.c:2659-2663 and the same
        code in 2716-2720, 2778-2782 ([spare]: not in envelope-recipient), 2829-2832,
        2878-2881. *)
    Definition end_message (s : server) (spare : bool) : server :=
      if sstate_in XFrom (sv_state s) XEndOfMessage
         && negb (spare && sstate_eqb (sv_state s) XRcpt)
      then emit_processed s else s.

    (** cb_decoder_temporary_failure, _reject, _accept and _discard,
        milter-server-context.c:2675-2896, after the status update. *)
    Definition final_reply (s : server) (r : reply) (spare : bool) : server :=
      let s1 := disable_timeout s in
      if sv_quitted s1 then s1
      else
        let s2 := end_message (emit s1 (Forward r)) spare in
        match sv_state s2 with XBody => clear_body_count s2 | _ => s2 end.

    (** A modification reply, milter-server-context.c:2898-3183: passed on in the state
        end-of-message, with [before] and [after] around the signal. *)
    Definition modification (s : server) (r : reply) (before after : server -> server) : server :=
      match sv_state s with
      | XEndOfMessage =>
          if sv_quitted s then s else after (emit (before s) (Forward r))
      | _ => invalid_state s
      end.

    Definition receive (s : server) (r : reply) : server :=
      match r with
      | RNegotiate o reqs =>                                  (* 2392-2460 *)
          let s1 := disable_timeout s in
          let (ok, o') := match sv_option s1 with
                          | Some o0 => option_combine o0 o
                          | None => (true, o)
                          end in
          let s2 := put_option s1 (Some o') in
          if ok then
            match sv_state s with
            | XNegotiate =>
                if sv_quitted s2 then s2
                else emit (put_requests (put_negotiated s2 true) reqs) (Forward r)
            | _ => invalid_state s2
            end
          else emit s2 (Error NewerVersion)
      | RContinue =>                                          (* 2521-2585 *)
          let s1 := disable_timeout s in
          match sv_state s1 with
          | XBody =>
              if sv_quitted s1 then s1
              else
                let s2 := decrement_body_count s1 in
                match sv_body s2 with
                | [] => s2
                | _ :: _ => snd (flush_body s2)
                end
          | x =>
              if answerable x then
                if sv_quitted s1 then s1
                else
                  let s2 := emit s1 (Forward r) in
                  match sv_state s2 with
                  | XEndOfMessage => emit_processed s2
                  | _ => s2
                  end
              else invalid_state s1
          end
      | RReplyCode c _ _ =>                                   (* 2587-2673 *)
          let v := if (400 <=? c) && (c <? 500) then S_TEMPORARY_FAILURE else S_REJECT in
          let s0 := refuse s v in
          if sv_crashed s0 then s0 else
          let s1 := disable_timeout s0 in
          if answerable (sv_state s1) then
            let s2 := match sv_state s1 with
                      | XBody => if sv_quitted s1 then s1 else clear_body_count s1
                      | _ => s1
                      end in
            if sv_quitted s2 then s2 else end_message (emit s2 (Forward r)) true
          else invalid_state s1
      | RTemporaryFailure =>                                  (* 2675-2735 *)
          let s0 := refuse s S_TEMPORARY_FAILURE in
          if sv_crashed s0 then s0 else final_reply s0 r true
      | RReject =>                                            (* 2737-2797 *)
          let s0 := refuse s S_REJECT in
          if sv_crashed s0 then s0 else final_reply s0 r true
      | RAccept => final_reply (put_status s S_ACCEPT) r false      (* 2799-2846 *)
      | RDiscard => final_reply (put_status s S_DISCARD) r false    (* 2848-2895 *)
      | RAddHeader n v =>                                     (* 2897-2927 *)
          modification s r (fun s => s) (fun s => on_message s (fun m => mr_record_added m n (Some v)))
      | RInsertHeader _ n v =>                                (* 2929-2962 *)
          modification s r (fun s => s) (fun s => on_message s (fun m => mr_record_added m n v))
      | RChangeHeader n _ v =>                                (* 2964-2997 *)
          modification s r (fun s => s) (fun s => on_message s (fun m => mr_record_added m n (Some v)))
      | RDeleteHeader n _ =>                                  (* 2999-3030 *)
          modification s r (fun s => s) (fun s => on_message s (fun m => mr_record_removed m n))
      | RChangeFrom _ _ | RAddRecipient _ _ | RDeleteRecipient _ | RReplaceBody _ =>
          modification s r (fun s => s) (fun s => s)          (* 3032-3130 *)
      | RProgress =>                                          (* 3132-3153 *)
          modification s r (fun s => put_timer s (Some TEndOfMessageReply)) (fun s => s)
      | RQuarantine _ =>                                      (* 3155-3183 *)
          modification (put_status s S_QUARANTINE) r (fun s => s)
                       (fun s => on_message s mr_set_quarantine)
      | RConnectionFailure =>                                 (* 3185-3214 *)
          let s1 := put_status (disable_timeout s) S_ERROR in
          if sv_quitted s1 then s1 else emit s1 (Forward r)
      | RShutdown =>                                          (* 3216-3242 *)
          let s1 := disable_timeout s in
          if sv_quitted s1 then s1 else emit s1 (Forward r)
      | RSkip =>                                              (* 3244-3275 *)
          let s1 := disable_timeout s in
          match sv_state s1 with
          | XBody =>
              if sv_quitted s1 then s1
              else put_skip_body (clear_body_count (emit s1 (Forward r))) true
          | _ => invalid_state s1
          end
      end.

    (** cb_writing_timeout, cb_end_of_message_timeout and cb_reading_timeout,
        milter-server-context.c:881-957: timeout_id is left as it is. *)
    Definition fire (s : server) : server :=
      match sv_timer s with
      | None => s
      | Some t => emit (emit s (Expired t)) ShutDown
      end.

    Definition step (s : server) (o : op) : server :=
      if sv_crashed s then s
      else match o with
           | Call c => call s c
           | Flushed => flushed (log s (In Flushed))
           | Receive r => receive (log s (In (Receive r))) r
           | Fire => fire (log s (In Fire))
           end.
  End Handlers.

  (** What the handlers of signals do: after each signal, and after each of their own calls,
      they choose the next call on the context or stop, knowing all that happened.  [depth]
      bounds the calls made from within signals; the theorems hold for every depth. *)
  Variable handlers : list event -> option api.
  Fixpoint react (depth : nat) (s : server) : server :=
    match depth with
    | O => s
    | S d =>
        if sv_crashed s then s
        else match handlers (sv_trace s) with
             | None => s
             | Some c => react d (call (react d) s c)
             end
    end.

  Definition server_step (depth : nat) (s : server) (o : op) : server := step (react depth) s o.
  Definition server_run (depth : nat) (s : server) (ops : list op) : server :=
    fold_left (server_step depth) ops s.
End Server.

(** milter_server_context_is_processing_message, milter-server-context.c:3680-3690. *)
Definition is_processing_message (s : server) : bool :=
  sv_negotiated s && negb (sv_quitted s) && sv_processing s.

(** milter_server_context_has_accepted_recipient, milter-server-context.c:3763-3785. *)
Definition has_accepted_recipient (s : server) : bool :=
  match sv_message s with
  | None => true
  | Some m =>
      match mr_tempfailed m, mr_rejected m with
      | [], [] => true
      | _, _ => match mr_recipients m with [] => false | _ :: _ => true end
      end
  end.
