(** milter-test-server: the conversation with the filter.

    The program is the set of signal handlers of one server context (Model/Server.v) and what they
    keep in ProcessData.  [replay] recovers ProcessData and the calls still to be made by the
    handlers now running from what happened so far, so that the program is a [handlers] argument
    of [server_run].  What the handlers do to ProcessData after a call on the context is done
    before it here; nothing looks at it in between.  milter_agent_shutdown, called behind every
    quit, writes what is buffered and emits "flushed" (milter-writer.c:596-673); here it is the
    mark [pd_over] and a [Flushed] that follows.  The timer and the event loop are left out. *)
From Verif.Base Require Import Bytes.
From Verif.Model Require Import Decoder CommandCodec ReplyCodec Option Headers Macros Client Server.
From Verif.Model Require Status ConnectionSpec TestMessage TestReport.
Local Open Scope N_scope.

(** The options, milter-test-server.c:44-82: host and address of connect, host of helo, unknown
    command, the tables of macros, the version offered, the message. *)
Record plan := mk_plan {
  pl_host : bytes;
  pl_address : address;
  pl_helo : bytes;
  pl_unknown : option bytes;
  pl_macros : byte -> table;
  pl_version : N;
  pl_message : TestMessage.message
}.

(** data->error: what it says. *)
Inductive complaint := OfContext (e : serror) | OfTimeout (t : timer).

(** ProcessData, 101-119.  [pd_recipients], [pd_headers] and [pd_chunks] are what has not been sent
    yet, [pd_last] the recipient sent last; [pd_hung]: the program never returns. *)
Record pdata := mk_pdata {
  pd_option : option moption;
  pd_recipients : list bytes;
  pd_last : bytes;
  pd_headers : list header;
  pd_chunks : list bytes;
  pd_mail : TestReport.mail;
  pd_reply : option (N * bytes * option bytes);
  pd_error : option complaint;
  pd_connected : bool;
  pd_over : bool;
  pd_hung : bool
}.

Definition put_opt p x := mk_pdata x (pd_recipients p) (pd_last p) (pd_headers p) (pd_chunks p) (pd_mail p) (pd_reply p) (pd_error p) (pd_connected p) (pd_over p) (pd_hung p).
Definition put_rcpts p x y := mk_pdata (pd_option p) x y (pd_headers p) (pd_chunks p) (pd_mail p) (pd_reply p) (pd_error p) (pd_connected p) (pd_over p) (pd_hung p).
Definition put_hdrs p x := mk_pdata (pd_option p) (pd_recipients p) (pd_last p) x (pd_chunks p) (pd_mail p) (pd_reply p) (pd_error p) (pd_connected p) (pd_over p) (pd_hung p).
Definition put_chunks p x := mk_pdata (pd_option p) (pd_recipients p) (pd_last p) (pd_headers p) x (pd_mail p) (pd_reply p) (pd_error p) (pd_connected p) (pd_over p) (pd_hung p).
Definition put_mail p x := mk_pdata (pd_option p) (pd_recipients p) (pd_last p) (pd_headers p) (pd_chunks p) x (pd_reply p) (pd_error p) (pd_connected p) (pd_over p) (pd_hung p).
Definition put_reply p x := mk_pdata (pd_option p) (pd_recipients p) (pd_last p) (pd_headers p) (pd_chunks p) (pd_mail p) x (pd_error p) (pd_connected p) (pd_over p) (pd_hung p).
Definition put_error p x y := mk_pdata (pd_option p) (pd_recipients p) (pd_last p) (pd_headers p) (pd_chunks p) (pd_mail p) (pd_reply p) x y (pd_over p) (pd_hung p).
Definition put_over p := mk_pdata (pd_option p) (pd_recipients p) (pd_last p) (pd_headers p) (pd_chunks p) (pd_mail p) (pd_reply p) (pd_error p) (pd_connected p) true (pd_hung p).
Definition put_hung p := mk_pdata (pd_option p) (pd_recipients p) (pd_last p) (pd_headers p) (pd_chunks p) (pd_mail p) (pd_reply p) (pd_error p) (pd_connected p) (pd_over p) true.

(** 879-917, negotiate: everything is offered; the actions do not matter here. *)
Definition all_steps : N := 0x1fffff.
Definition all_actions : N := 0x1ff.
Definition offer (pl : plan) : moption := mk_option (pl_version pl) all_actions all_steps.

Section Plan.
  Variable pl : plan.

  (** 1674-1692, init_process_data. *)
  Definition pdata_new : pdata :=
    let m := pl_message pl in
    mk_pdata None (TestMessage.msg_recipients m) [] (TestMessage.msg_headers m)
             (TestMessage.msg_chunks m) (TestReport.mail_new m) None None true false false.

  (** milter_option_get_step(data->option) & flag; the version.  Without an option these dereference
      NULL; the callers below are reached with one only. *)
  Definition flag (p : pdata) (f : N) : bool :=
    match pd_option p with Some o => negb (N.land (o_step o) f =? 0) | None => false end.
  Definition version (p : pdata) : N :=
    match pd_option p with Some o => o_version o | None => 0 end.

  (** 175-246, set_macros_for_*. *)
  Definition macros_for (c : byte) : api := AMacro (ODefine c (pl_macros pl c)).

  (** A handler: the calls made and the data afterwards; [sent] when a command was sent. *)
  Definition part : Type := pdata -> list api * bool * pdata.

  (** 248-283, send_connect. *)
  Definition send_connect : part := fun p =>
    if flag p STEP_NO_CONNECT then ([macros_for "C"%char], false, p)
    else ([macros_for "C"%char; AConnect (pl_host pl) (pl_address pl)], true, p).
  (** 285-294, send_helo. *)
  Definition send_helo : part := fun p =>
    if flag p STEP_NO_HELO then ([macros_for "H"%char], false, p)
    else ([macros_for "H"%char; AHelo (pl_helo pl)], true, p).
  (** 296-306, send_envelope_from. *)
  Definition send_from : part := fun p =>
    if flag p STEP_NO_ENVELOPE_FROM then ([AReset; macros_for "M"%char], false, p)
    else ([AReset; macros_for "M"%char; AFrom (TestMessage.msg_from (pl_message pl))], true, p).
  (** 308-325, send_envelope_recipient. *)
  Definition send_rcpt : part := fun p =>
    match pd_recipients p with
    | [] => ([], false, p)
    | r :: rs =>
        let macros := [macros_for "R"%char;
                       AMacro (OSetMany "R"%char [(lit "{rcpt_addr}", Some r)])] in
        if flag p STEP_NO_ENVELOPE_RECIPIENT then (macros, false, p)
        else (macros ++ [ARcpt r], true, put_rcpts p rs r)
    end.
  (** 327-340, send_unknown. *)
  Definition send_unknown : part := fun p =>
    if flag p STEP_NO_UNKNOWN then ([], false, p)
    else match pl_unknown pl with
         | None => ([], false, p)
         | Some u => if version p <? 3 then ([], false, p) else ([AUnknown u], true, p)
         end.
  (** 342-354, send_data. *)
  Definition send_data : part := fun p =>
    if flag p STEP_NO_DATA then ([macros_for "T"%char], false, p)
    else if version p <? 4 then ([macros_for "T"%char], false, p)
    else ([macros_for "T"%char; AData], true, p).
  (** 356-371, send_header; no value is NULL. *)
  Definition send_header : part := fun p =>
    if flag p STEP_NO_HEADERS then ([], false, p)
    else match pd_headers p with
         | [] => ([], false, p)
         | h :: hs => ([AHeader (h_name h) (match h_value h with Some v => v | None => [] end)], true,
                       put_hdrs p hs)
         end.
  (** 373-382, send_end_of_header. *)
  Definition send_eoh : part := fun p =>
    if flag p STEP_NO_END_OF_HEADER then ([macros_for "N"%char], false, p)
    else ([macros_for "N"%char; AEndOfHeader], true, p).
  (** 384-400, send_body. *)
  Definition send_body : part := fun p =>
    if flag p STEP_NO_BODY then ([], false, p)
    else match pd_chunks p with
         | [] => ([], false, p)
         | c :: cs => ([ABody c], true, put_chunks p cs)
         end.
  (** 402-408, send_end_of_message. *)
  Definition send_eom : part := fun p => ([macros_for "E"%char; AEndOfMessage None], true, p).

  (** [if (f(...)) break;] and what follows. *)
  Definition or_else (f g : part) : part := fun p =>
    let '(calls, sent, p1) := f p in
    if sent then (calls, true, p1)
    else let '(more, sent', p2) := g p1 in (calls ++ more, sent', p2).
  (** [if (!(step & flag)) break;]. *)
  Definition only_if (b : pdata -> bool) (f : part) : part := fun p =>
    if b p then f p else ([], false, p).

  (** 147-159, send_quit and send_abort. *)
  Definition quit : part := fun p => ([AQuit], true, put_over p).
  Definition abort : part := fun p => ([AAbort; AQuit], true, put_over p).

  (** 410-460, cb_continue, by the state of the context. *)
  Definition continue_body : part := or_else send_body send_eom.
  Definition continue_eoh : part := or_else send_body continue_body.
  Definition continue_header : part := or_else send_header (or_else send_eoh continue_eoh).
  Definition continue_data : part := or_else send_header continue_header.
  Definition continue_unknown : part := or_else send_data continue_data.
  Definition continue_rcpt : part := or_else send_rcpt (or_else send_unknown continue_unknown).
  Definition continue_from : part := or_else send_rcpt continue_rcpt.
  Definition continue_helo : part := or_else send_from continue_from.
  Definition continue_connect : part := or_else send_helo continue_helo.
  Definition continue_negotiate : part := or_else send_connect continue_connect.
  Definition on_continue (x : sstate) : part :=
    match x with
    | XNegotiate => continue_negotiate
    | XConnect => continue_connect
    | XHelo => continue_helo
    | XFrom => continue_from
    | XRcpt => continue_rcpt
    | XUnknown => continue_unknown
    | XData => continue_data
    | XHeader => continue_header
    | XEndOfHeader => continue_eoh
    | XBody => continue_body
    | XEndOfMessage => quit
    | _ => abort
    end.

  (** 161-173, set_macro, for one stage: the step of the loop goes to the second symbol each time, so
      that two or more are never done with. *)
  Definition set_macro_loop (c : byte) (symbols : list bytes) : option (list api) :=
    match symbols with
    | [] => Some []
    | [s] => Some [AMacro (OSet c s (Some s))]
    | _ => None
    end.
  Fixpoint request_macros (reqs : requests) : option (list api) :=
    match reqs with
    | [] => Some []
    | (c, symbols) :: reqs' =>
        match set_macro_loop c symbols, request_macros reqs' with
        | Some a, Some b => Some (a ++ b)
        | _, _ => None
        end
    end.

  (** 462-479, cb_negotiate_reply; the context passes the filter's option on. *)
  Definition on_negotiate (x : sstate) (o : moption) (reqs : option requests) : part := fun p =>
    match pd_option p with
    | Some _ => abort p
    | None =>
        let p1 := put_opt p (Some o) in
        match match reqs with Some reqs => request_macros reqs | None => Some [] end with
        | None => ([], false, put_hung p1)
        | Some macros => let '(calls, sent, p2) := on_continue x p1 in (macros ++ calls, sent, p2)
        end
    end.

  (** 481-525, cb_temporary_failure and cb_reject. *)
  Definition on_refusal (x : sstate) : part := fun p =>
    match x with
    | XRcpt =>
        let l := pd_mail p in
        let l1 := TestReport.ml_put_recipients l (remove_first (TestReport.ml_recipients l) (pd_last p)) in
        let p1 := put_mail p l1 in
        match TestReport.ml_recipients l1 with
        | [] => abort p1
        | _ :: _ => on_continue x p1
        end
    | _ => abort p
    end.

  (** 695-703, cb_skip. *)
  Definition on_skip (x : sstate) : part := fun p => on_continue x (put_chunks p []).

  (** 770-838, cb_state_transited. *)
  Definition transited_body : part :=
    only_if (fun p => flag p STEP_NO_REPLY_BODY) (or_else send_body send_eom).
  Definition transited_eoh : part :=
    only_if (fun p => flag p STEP_NO_REPLY_END_OF_HEADER) (or_else send_body transited_body).
  Definition transited_header : part :=
    only_if (fun p => flag p STEP_NO_REPLY_HEADER)
            (or_else send_header (or_else send_eoh transited_eoh)).
  Definition transited_data : part :=
    only_if (fun p => flag p STEP_NO_REPLY_DATA) (or_else send_header transited_header).
  Definition transited_unknown : part :=
    only_if (fun p => flag p STEP_NO_REPLY_UNKNOWN) (or_else send_data transited_data).
  Definition transited_rcpt : part :=
    only_if (fun p => flag p STEP_NO_REPLY_ENVELOPE_RECIPIENT)
            (or_else send_rcpt (or_else send_unknown (or_else send_data transited_unknown))).
  Definition transited_from : part :=
    only_if (fun p => flag p STEP_NO_REPLY_ENVELOPE_FROM) (or_else send_rcpt transited_rcpt).
  Definition transited_helo : part :=
    only_if (fun p => flag p STEP_NO_REPLY_HELO) (or_else send_from transited_from).
  Definition transited_connect : part :=
    only_if (fun p => flag p STEP_NO_REPLY_CONNECT) (or_else send_helo transited_helo).
  Definition on_transited (x : sstate) : part :=
    match x with
    | XConnect => transited_connect
    | XHelo => transited_helo
    | XFrom => transited_from
    | XRcpt => transited_rcpt
    | XUnknown => transited_unknown
    | XData => transited_data
    | XHeader => transited_header
    | XEndOfHeader => transited_eoh
    | XBody => transited_body
    | _ => fun p => ([], false, p)
    end.

  (** The replies: 410-703. *)
  Definition on_reply (x : sstate) (r : reply) : part := fun p =>
    match r with
    | RNegotiate o reqs => on_negotiate x o reqs p
    | RContinue => on_continue x p
    | RReplyCode c e m => on_refusal x (put_reply p (Some (c, e, m)))
    | RTemporaryFailure | RReject => on_refusal x p
    | RAccept | RDiscard | RConnectionFailure | RShutdown => abort p
    | RSkip => on_skip x p
    | _ => ([], false, put_mail p (TestReport.edit (pd_mail p) r))
    end.

  (** The signals; [x] is milter_server_context_get_state.  On an error cb_connection_error (930-940),
      which stays connected, runs before cb_error (705-714); timeouts: 725-768. *)
  Definition on_signal (x : sstate) (e : event) : part := fun p =>
    match e with
    | Forward r => on_reply x r p
    | Unasked XBody => on_skip x p
    | Unasked _ => on_continue x p
    | Delivered y => on_transited y p
    | Expired TWriting => ([], false, put_error p (Some (OfTimeout TWriting)) (pd_connected p))
    | Expired t => abort (put_error p (Some (OfTimeout t)) (pd_connected p))
    | Error err => ([], false, put_over (put_error p (Some (OfContext err)) false))
    | _ => ([], false, p)
    end.

  (** ProcessData, the calls still to be made by each handler now running (innermost first), and the
      state of the context. *)
  Record conv := mk_conv { cv_data : pdata; cv_calls : list (list api); cv_state : sstate }.

  Definition observe (v : conv) (e : event) : conv :=
    match e with
    | In (Call _) =>
        mk_conv (cv_data v)
                ([] :: match cv_calls v with f :: fs => tl f :: fs | [] => [] end) (cv_state v)
    | Return _ => mk_conv (cv_data v) (tl (cv_calls v)) (cv_state v)
    | In _ => mk_conv (cv_data v) [[]] (cv_state v)
    | Entered x => mk_conv (cv_data v) (cv_calls v) x
    | Sent _ _ _ | Lost _ _ _ | Crash => v
    | _ =>
        let '(calls, _, p) := on_signal (cv_state v) e (cv_data v) in
        mk_conv p (calls :: tl (cv_calls v)) (cv_state v)
    end.
  (** The latest event is the first. *)
  Fixpoint replay (t : list event) : conv :=
    match t with
    | [] => mk_conv pdata_new [[]] XStart
    | e :: t' => observe (replay t') e
    end.

  Definition test_handlers (t : list event) : option api :=
    let v := replay t in
    if pd_hung (cv_data v) then None
    else match cv_calls v with (c :: _) :: _ => Some c | _ => None end.
End Plan.

(** The program: cb_ready (919-928) negotiates; no handler is connected to the stop-on signals.
    [depth] bounds the nesting of handlers, see [react]. *)
Definition test_run (ntop4 ntop6 : bytes -> bytes) (sort_keys : list bytes -> list bytes)
  (writes : list event -> write_outcome) (pl : plan) (depth : nat) (ops : list op) : server :=
  server_run ntop4 ntop6 sort_keys writes (fun _ => false) (test_handlers pl) depth server_new
             (Call (ANegotiate (offer pl)) :: ops).

(** start_process and main, 2330-2353, 2371-2442: the exit status is 0. *)
Definition exits_with_success (pl : plan) (s : server) : bool :=
  pd_connected (cv_data (replay pl (sv_trace s))).

(** print_status, 2259-2288: the name of the status. *)
Definition status_word (v : Status.status) : bytes :=
  match v with
  | Status.S_DEFAULT | Status.S_NOT_CHANGE | Status.S_CONTINUE => lit "pass"
  | Status.S_REJECT => lit "reject"
  | Status.S_DISCARD => lit "discard"
  | Status.S_ACCEPT => lit "accept"
  | Status.S_TEMPORARY_FAILURE => lit "temporary-failure"
  | Status.S_NO_REPLY => lit "no-reply"
  | Status.S_SKIP => lit "skip"
  | Status.S_ALL_OPTIONS => lit "all-options"
  | Status.S_PROGRESS => lit "progress"
  | Status.S_ABORT => lit "abort"
  | Status.S_QUARANTINE => lit "quarantine"
  | Status.S_STOP => lit "stop"
  | Status.S_ERROR => lit "error"
  end.
Definition status_line (v : Status.status) (r : option (N * bytes * option bytes)) : bytes :=
  lit "status: " ++ status_word v ++
  match r with
  | None => []
  | Some (code, extended, text) =>
      lit " [" ++ ConnectionSpec.decimal code ++ lit "]<" ++ extended ++ lit ">(" ++
      match text with Some t => t | None => lit "(null)" end ++ lit ")"
  end.

(** print_result, 2290-2308, without the elapsed time: the message of the error and nothing else, or
    the line of the status, the reason of the quarantine, and the mail that print_message gets. *)
Inductive printed :=
| PError (c : complaint)
| PResult (status : bytes) (quarantine : option bytes) (mail : TestReport.mail).
Definition print_result (pl : plan) (s : server) : printed :=
  let p := cv_data (replay pl (sv_trace s)) in
  match pd_error p with
  | Some c => PError c
  | None => PResult (status_line (sv_status s) (pd_reply p)) (TestReport.ml_quarantine (pd_mail p)) (pd_mail p)
  end.
