(** Model of milter/manager/milter-manager-children.c: how the manager drives its filters, one
    session.  Each filter is seen through the part of its context (milter-server-context.c)
    that the children object looks at; the full context is in Server.v.

    Left out: packet bytes, macros, message results other than the recipient lists, the
    context's status, times, logging, smtp_client_address, the launcher.  Establishing a
    connection, with its retries, is reduced to its outcome (ready or failed).  Temporary file
    operations on the body succeed and write at the end of the file. *)
From Verif.Base Require Import Bytes.
From Verif.Model Require Import Decoder Encoder CommandCodec ReplyCodec Status Option Headers Macros
                                Client Server.
Local Open Scope N_scope.

(** PendingMessageRequest, milter-manager-children.c:40-58,329-383: the pending command. *)
Inductive request :=
| PHeader (name : bytes) (value : bytes)
| PEndOfHeader
| PBody (chunk : bytes)
| PEndOfMessage (chunk : option bytes).

(** g_strndup, with which the chunks are kept: what follows a NUL is replaced by NULs. *)
Fixpoint strndup_padded (b : bytes) : bytes :=
  match b with
  | [] => []
  | c :: b' => if beqb c NUL then repeat NUL (length b) else c :: strndup_padded b'
  end.

(** What reaches the children object: a call for a command of the MTA, the idle source of
    milter-manager-children.c:3128, and what happens to the connection to filter [i]: it is
    ready, the written packets are flushed, a reply arrives, the armed timeout expires, an
    error, the end. *)
Inductive op :=
| Mta (c : command)
| Idle
| KReady (i : nat)
| KFlushed (i : nat)
| KReply (i : nat) (r : reply)
| KFire (i : nat)
| KFail (i : nat)
| KFinish (i : nat).

(** The errors emitted: those of the children's own domain and the others. *)
Inductive cerror := NoNegotiation | NoAliveMilter | NoMessageProcessingMilter | OtherError.

(** What happens, in order.  [OSent i c]: the writer to filter [i] took command [c]; [OLost i c]:
    the same, but there was no writer any more.  [OAnswer s] is the signal named by
    status_to_signal_name (milter-manager-children.c:714-747), [OAnswerCode] "reply-code"; the
    others are the signals of that name, the return of a call, and a crash or endless loop. *)
Inductive event :=
| OIn (o : op)
| OSent (i : nat) (c : command)
| OLost (i : nat) (c : command)
| OAnswer (s : status)
| OAnswerCode (code : N) (extended : bytes) (message : option bytes)
| ONegotiate (o : moption) (reqs : requests)
| OHeader (h : header_request)
| OChangeFrom (from : bytes) (parameters : option bytes)
| OAddRecipient (recipient : bytes) (parameters : option bytes)
| ODeleteRecipient (recipient : bytes)
| OReplaceBody (chunk : bytes)
| OProgress
| OQuarantine (reason : bytes)
| OConnectionFailure
| OShutdown
| OError (e : cerror)
| OFinished
| OAbort
| OReturn (ok : bool)
| OCrash.

(** One filter: MilterServerContextPrivate as far as needed, and the child's configuration. *)
Record child := mk_child {
  k_trying : bool;   (* connection being established (try_negotiate_ids) *)
  k_connected : bool;   (* the handlers of the children object are connected *)
  k_state : sstate;
  k_next : list sstate;   (* commands written but not flushed *)
  k_option : option moption;
  k_timer : option timer;
  k_skip : bool;   (* skip_body *)
  k_body : bytes;   (* body not yet written *)
  k_replies : list N;   (* body_response_queue *)
  k_negotiated : bool;
  k_processing : bool;   (* processing_message *)
  k_quitted : bool;
  k_current : option bytes;   (* current_recipient *)
  k_message : option (list bytes * bool);   (* recipients not refused; was one refused *)
  k_fallback : status;   (* configuration *)
  k_evaluation : bool   (* configuration *)
}.

(** MilterManagerChildrenPrivate, milter-manager-children.c:60-112, in four parts. *)
Record nego := mk_nego {
  n_option : option moption;
  n_initial : N;   (* initial_yes_steps *)
  n_requested : N;   (* requested_yes_steps *)
  n_requests : requests;   (* macros_requests *)
  n_negotiated : bool;
  n_expired : bool   (* all_expired_as_fallback_on_negotiated *)
}.

Record flow := mk_flow {
  f_queue : list nat;   (* reply_queue *)
  f_waiting : list nat;   (* command_waiting_child_queue *)
  f_commands : list sstate;   (* command_queue *)
  f_pending : option request;   (* pending_message_request *)
  f_state : sstate;
  f_processing : sstate;   (* processing_state *)
  f_index : N;   (* processing_header_index *)
  f_sending : bool;   (* sending_body *)
  f_offset : N;   (* sent_body_offset *)
  f_emitted : bool;   (* emitted_reply_for_message_oriented_command *)
  f_finished : bool;
  f_statuses : sstate -> option status;   (* reply_statuses *)
  f_code : option (N * bytes * option bytes)   (* reply_code if not 0 *)
}.

Record mail := mk_mail {
  m_original : option (list header);   (* original_headers *)
  m_headers : option (list header);
  m_body : option bytes;
  m_file : option (bytes * N);   (* body_file: contents and position *)
  m_chunk : option bytes;   (* end_of_message_chunk *)
  m_replaced_each : bool;   (* replaced_body_for_each_child *)
  m_replaced : bool;   (* replaced_body *)
  m_from : option (bytes * option bytes);   (* change_from *)
  m_quarantine : option bytes   (* quarantine_reason *)
}.

Record world := mk_world {
  w_children : list child;
  w_nego : nego;
  w_flow : flow;
  w_mail : mail;
  w_trace : list event;   (* latest first *)
  w_crashed : bool
}.

(** Record updates. *)
Definition put_k_trying k x := mk_child x (k_connected k) (k_state k) (k_next k) (k_option k) (k_timer k) (k_skip k) (k_body k) (k_replies k) (k_negotiated k) (k_processing k) (k_quitted k) (k_current k) (k_message k) (k_fallback k) (k_evaluation k).
Definition put_k_connected k x := mk_child (k_trying k) x (k_state k) (k_next k) (k_option k) (k_timer k) (k_skip k) (k_body k) (k_replies k) (k_negotiated k) (k_processing k) (k_quitted k) (k_current k) (k_message k) (k_fallback k) (k_evaluation k).
Definition put_k_state k x := mk_child (k_trying k) (k_connected k) x (k_next k) (k_option k) (k_timer k) (k_skip k) (k_body k) (k_replies k) (k_negotiated k) (k_processing k) (k_quitted k) (k_current k) (k_message k) (k_fallback k) (k_evaluation k).
Definition put_k_next k x := mk_child (k_trying k) (k_connected k) (k_state k) x (k_option k) (k_timer k) (k_skip k) (k_body k) (k_replies k) (k_negotiated k) (k_processing k) (k_quitted k) (k_current k) (k_message k) (k_fallback k) (k_evaluation k).
Definition put_k_option k x := mk_child (k_trying k) (k_connected k) (k_state k) (k_next k) x (k_timer k) (k_skip k) (k_body k) (k_replies k) (k_negotiated k) (k_processing k) (k_quitted k) (k_current k) (k_message k) (k_fallback k) (k_evaluation k).
Definition put_k_timer k x := mk_child (k_trying k) (k_connected k) (k_state k) (k_next k) (k_option k) x (k_skip k) (k_body k) (k_replies k) (k_negotiated k) (k_processing k) (k_quitted k) (k_current k) (k_message k) (k_fallback k) (k_evaluation k).
Definition put_k_skip k x := mk_child (k_trying k) (k_connected k) (k_state k) (k_next k) (k_option k) (k_timer k) x (k_body k) (k_replies k) (k_negotiated k) (k_processing k) (k_quitted k) (k_current k) (k_message k) (k_fallback k) (k_evaluation k).
Definition put_k_body k x := mk_child (k_trying k) (k_connected k) (k_state k) (k_next k) (k_option k) (k_timer k) (k_skip k) x (k_replies k) (k_negotiated k) (k_processing k) (k_quitted k) (k_current k) (k_message k) (k_fallback k) (k_evaluation k).
Definition put_k_replies k x := mk_child (k_trying k) (k_connected k) (k_state k) (k_next k) (k_option k) (k_timer k) (k_skip k) (k_body k) x (k_negotiated k) (k_processing k) (k_quitted k) (k_current k) (k_message k) (k_fallback k) (k_evaluation k).
Definition put_k_negotiated k x := mk_child (k_trying k) (k_connected k) (k_state k) (k_next k) (k_option k) (k_timer k) (k_skip k) (k_body k) (k_replies k) x (k_processing k) (k_quitted k) (k_current k) (k_message k) (k_fallback k) (k_evaluation k).
Definition put_k_processing k x := mk_child (k_trying k) (k_connected k) (k_state k) (k_next k) (k_option k) (k_timer k) (k_skip k) (k_body k) (k_replies k) (k_negotiated k) x (k_quitted k) (k_current k) (k_message k) (k_fallback k) (k_evaluation k).
Definition put_k_quitted k x := mk_child (k_trying k) (k_connected k) (k_state k) (k_next k) (k_option k) (k_timer k) (k_skip k) (k_body k) (k_replies k) (k_negotiated k) (k_processing k) x (k_current k) (k_message k) (k_fallback k) (k_evaluation k).
Definition put_k_current k x := mk_child (k_trying k) (k_connected k) (k_state k) (k_next k) (k_option k) (k_timer k) (k_skip k) (k_body k) (k_replies k) (k_negotiated k) (k_processing k) (k_quitted k) x (k_message k) (k_fallback k) (k_evaluation k).
Definition put_k_message k x := mk_child (k_trying k) (k_connected k) (k_state k) (k_next k) (k_option k) (k_timer k) (k_skip k) (k_body k) (k_replies k) (k_negotiated k) (k_processing k) (k_quitted k) (k_current k) x (k_fallback k) (k_evaluation k).
Definition put_k_fallback k x := mk_child (k_trying k) (k_connected k) (k_state k) (k_next k) (k_option k) (k_timer k) (k_skip k) (k_body k) (k_replies k) (k_negotiated k) (k_processing k) (k_quitted k) (k_current k) (k_message k) x (k_evaluation k).
Definition put_k_evaluation k x := mk_child (k_trying k) (k_connected k) (k_state k) (k_next k) (k_option k) (k_timer k) (k_skip k) (k_body k) (k_replies k) (k_negotiated k) (k_processing k) (k_quitted k) (k_current k) (k_message k) (k_fallback k) x.
Definition put_n_option n x := mk_nego x (n_initial n) (n_requested n) (n_requests n) (n_negotiated n) (n_expired n).
Definition put_n_initial n x := mk_nego (n_option n) x (n_requested n) (n_requests n) (n_negotiated n) (n_expired n).
Definition put_n_requested n x := mk_nego (n_option n) (n_initial n) x (n_requests n) (n_negotiated n) (n_expired n).
Definition put_n_requests n x := mk_nego (n_option n) (n_initial n) (n_requested n) x (n_negotiated n) (n_expired n).
Definition put_n_negotiated n x := mk_nego (n_option n) (n_initial n) (n_requested n) (n_requests n) x (n_expired n).
Definition put_n_expired n x := mk_nego (n_option n) (n_initial n) (n_requested n) (n_requests n) (n_negotiated n) x.
Definition put_f_queue f x := mk_flow x (f_waiting f) (f_commands f) (f_pending f) (f_state f) (f_processing f) (f_index f) (f_sending f) (f_offset f) (f_emitted f) (f_finished f) (f_statuses f) (f_code f).
Definition put_f_waiting f x := mk_flow (f_queue f) x (f_commands f) (f_pending f) (f_state f) (f_processing f) (f_index f) (f_sending f) (f_offset f) (f_emitted f) (f_finished f) (f_statuses f) (f_code f).
Definition put_f_commands f x := mk_flow (f_queue f) (f_waiting f) x (f_pending f) (f_state f) (f_processing f) (f_index f) (f_sending f) (f_offset f) (f_emitted f) (f_finished f) (f_statuses f) (f_code f).
Definition put_f_pending f x := mk_flow (f_queue f) (f_waiting f) (f_commands f) x (f_state f) (f_processing f) (f_index f) (f_sending f) (f_offset f) (f_emitted f) (f_finished f) (f_statuses f) (f_code f).
Definition put_f_state f x := mk_flow (f_queue f) (f_waiting f) (f_commands f) (f_pending f) x (f_processing f) (f_index f) (f_sending f) (f_offset f) (f_emitted f) (f_finished f) (f_statuses f) (f_code f).
Definition put_f_processing f x := mk_flow (f_queue f) (f_waiting f) (f_commands f) (f_pending f) (f_state f) x (f_index f) (f_sending f) (f_offset f) (f_emitted f) (f_finished f) (f_statuses f) (f_code f).
Definition put_f_index f x := mk_flow (f_queue f) (f_waiting f) (f_commands f) (f_pending f) (f_state f) (f_processing f) x (f_sending f) (f_offset f) (f_emitted f) (f_finished f) (f_statuses f) (f_code f).
Definition put_f_sending f x := mk_flow (f_queue f) (f_waiting f) (f_commands f) (f_pending f) (f_state f) (f_processing f) (f_index f) x (f_offset f) (f_emitted f) (f_finished f) (f_statuses f) (f_code f).
Definition put_f_offset f x := mk_flow (f_queue f) (f_waiting f) (f_commands f) (f_pending f) (f_state f) (f_processing f) (f_index f) (f_sending f) x (f_emitted f) (f_finished f) (f_statuses f) (f_code f).
Definition put_f_emitted f x := mk_flow (f_queue f) (f_waiting f) (f_commands f) (f_pending f) (f_state f) (f_processing f) (f_index f) (f_sending f) (f_offset f) x (f_finished f) (f_statuses f) (f_code f).
Definition put_f_finished f x := mk_flow (f_queue f) (f_waiting f) (f_commands f) (f_pending f) (f_state f) (f_processing f) (f_index f) (f_sending f) (f_offset f) (f_emitted f) x (f_statuses f) (f_code f).
Definition put_f_statuses f x := mk_flow (f_queue f) (f_waiting f) (f_commands f) (f_pending f) (f_state f) (f_processing f) (f_index f) (f_sending f) (f_offset f) (f_emitted f) (f_finished f) x (f_code f).
Definition put_f_code f x := mk_flow (f_queue f) (f_waiting f) (f_commands f) (f_pending f) (f_state f) (f_processing f) (f_index f) (f_sending f) (f_offset f) (f_emitted f) (f_finished f) (f_statuses f) x.
Definition put_m_original m x := mk_mail x (m_headers m) (m_body m) (m_file m) (m_chunk m) (m_replaced_each m) (m_replaced m) (m_from m) (m_quarantine m).
Definition put_m_headers m x := mk_mail (m_original m) x (m_body m) (m_file m) (m_chunk m) (m_replaced_each m) (m_replaced m) (m_from m) (m_quarantine m).
Definition put_m_body m x := mk_mail (m_original m) (m_headers m) x (m_file m) (m_chunk m) (m_replaced_each m) (m_replaced m) (m_from m) (m_quarantine m).
Definition put_m_file m x := mk_mail (m_original m) (m_headers m) (m_body m) x (m_chunk m) (m_replaced_each m) (m_replaced m) (m_from m) (m_quarantine m).
Definition put_m_chunk m x := mk_mail (m_original m) (m_headers m) (m_body m) (m_file m) x (m_replaced_each m) (m_replaced m) (m_from m) (m_quarantine m).
Definition put_m_replaced_each m x := mk_mail (m_original m) (m_headers m) (m_body m) (m_file m) (m_chunk m) x (m_replaced m) (m_from m) (m_quarantine m).
Definition put_m_replaced m x := mk_mail (m_original m) (m_headers m) (m_body m) (m_file m) (m_chunk m) (m_replaced_each m) x (m_from m) (m_quarantine m).
Definition put_m_from m x := mk_mail (m_original m) (m_headers m) (m_body m) (m_file m) (m_chunk m) (m_replaced_each m) (m_replaced m) x (m_quarantine m).
Definition put_m_quarantine m x := mk_mail (m_original m) (m_headers m) (m_body m) (m_file m) (m_chunk m) (m_replaced_each m) (m_replaced m) (m_from m) x.
Definition put_w_children w x := mk_world x (w_nego w) (w_flow w) (w_mail w) (w_trace w) (w_crashed w).
Definition put_w_nego w x := mk_world (w_children w) x (w_flow w) (w_mail w) (w_trace w) (w_crashed w).
Definition put_w_flow w x := mk_world (w_children w) (w_nego w) x (w_mail w) (w_trace w) (w_crashed w).
Definition put_w_mail w x := mk_world (w_children w) (w_nego w) (w_flow w) x (w_trace w) (w_crashed w).
Definition put_w_trace w x := mk_world (w_children w) (w_nego w) (w_flow w) (w_mail w) x (w_crashed w).
Definition put_w_crashed w x := mk_world (w_children w) (w_nego w) (w_flow w) (w_mail w) (w_trace w) x.

(** milter_manager_children_init, milter-manager-children.c:254-315, with the filters added. *)
Definition child_new (fallback : status) (evaluation : bool) : child :=
  mk_child false false XStart [] None None false [] [] false false false None None
           fallback evaluation.
Definition world_new (filters : list (status * bool)) : world :=
  mk_world (map (fun fe => child_new (fst fe) (snd fe)) filters)
           (mk_nego None 0 0 [] false false)
           (mk_flow [] [] [] None XStart XStart 0 false 0 false false (fun _ => None) None)
           (mk_mail None None None None None false false None None)
           [] false.

(** Records an event; nothing happens after a crash. *)
Definition log (w : world) (e : event) : world :=
  if w_crashed w then w else put_w_trace w (e :: w_trace w).
Definition crash (w : world) : world := put_w_crashed (log w OCrash) true.

Definition on_flow (w : world) (g : flow -> flow) : world := put_w_flow w (g (w_flow w)).
Definition on_mail (w : world) (g : mail -> mail) : world := put_w_mail w (g (w_mail w)).
Definition on_nego (w : world) (g : nego -> nego) : world := put_w_nego w (g (w_nego w)).

(** The filter numbered [i]; a number without filter stands for one that is gone. *)
Definition no_child : child := child_new S_ACCEPT false.
Definition child_of (w : world) (i : nat) : child := nth i (w_children w) no_child.
Fixpoint set_nth (l : list child) (i : nat) (k : child) : list child :=
  match l, i with
  | [], _ => []
  | _ :: l', O => k :: l'
  | x :: l', S i' => x :: set_nth l' i' k
  end.
Definition on_child (w : world) (i : nat) (g : child -> child) : world :=
  put_w_children w (set_nth (w_children w) i (g (child_of w i))).
Definition indices (w : world) : list nat := seq 0 (length (w_children w)).

(** *** Questions about a filter *)

(** milter_server_context_is_processing, milter-server-context.c:960-968. *)
Definition k_is_processing (k : child) : bool :=
  match k_timer k with Some _ => true | None => false end.

(** milter_server_context_need_reply, milter-server-context.c:1108-1150; [None] if there is no
    option (NULL dereference). *)
Definition k_need_reply (k : child) (x : sstate) : option bool :=
  match k_option k with
  | None => None
  | Some o => Some (N.land (o_step o) (no_reply_step x) =? 0)
  end.

(** milter_server_context_is_enable_step, milter-server-context.c:1763-1772. *)
Definition k_is_enable_step (k : child) (step : N) : bool :=
  match k_option k with
  | None => true
  | Some o => negb (N.land (o_step o) step =? 0)
  end.

(** milter_server_context_is_processing_message, milter-server-context.c:3680-3690. *)
Definition k_is_processing_message (k : child) : bool :=
  k_negotiated k && negb (k_quitted k) && k_processing k.

(** milter_server_context_has_accepted_recipient, milter-server-context.c:3763-3785. *)
Definition k_has_accepted_recipient (k : child) : bool :=
  match k_message k with
  | None => true
  | Some (_, false) => true
  | Some ([], true) => false
  | Some (_ :: _, true) => true
  end.

(** ensure_message_result, milter-server-context.c:545-552. *)
Definition k_ensure_message (k : child) : child :=
  match k_message k with
  | Some _ => k
  | None => put_k_message k (Some ([], false))
  end.

(** milter_server_context_reset_message_related_data, milter-server-context.c:1824-1847. *)
Definition k_reset (k : child) : child :=
  put_k_message (put_k_replies (put_k_processing (put_k_skip k false) false) []) None.

(** emit_message_processed_signal, milter-server-context.c:1061-1106 (the signal has no handler
    here). *)
Definition k_processed (k : child) : child := put_k_message k None.

(** *** Verdicts *)

(** The hash table reply_statuses. *)
Definition status_put (t : sstate -> option status) (x : sstate) (v : option status)
  : sstate -> option status := fun y => if sstate_eqb x y then v else t y.

(** get_reply_status_for_state, milter-manager-children.c:776-791. *)
Definition reply_status (w : world) (x : sstate) : status :=
  stored_status (f_statuses (w_flow w) x).

(** compile_reply_status, milter-manager-children.c:793-807. *)
Definition compile_reply (w : world) (x : sstate) (s : status) : world :=
  on_flow w (fun f => put_f_statuses f
    (status_put (f_statuses f) x (compile_status (f_statuses f x) s))).

(** status_to_signal_name, milter-manager-children.c:714-747. *)
Definition signal_of (s : status) : event :=
  match s with
  | S_REJECT | S_DISCARD | S_ACCEPT | S_TEMPORARY_FAILURE | S_SKIP => OAnswer s
  | S_PROGRESS => OProgress
  | _ => OAnswer S_CONTINUE
  end.

(** dispose_body_related_data, milter-manager-children.c:414-434. *)
Definition dispose_body (w : world) : world :=
  on_mail (on_flow w (fun f => put_f_emitted f false))
          (fun m => put_m_file (put_m_body m None) None).

(** dispose_message_related_data, milter-manager-children.c:452-498. *)
Definition dispose_message (w : world) : world :=
  let w1 := on_flow w (fun f => put_f_commands (put_f_waiting (put_f_pending f None) []) []) in
  let w2 := on_mail w1 (fun m => put_m_headers (put_m_original m None) None) in
  on_mail (dispose_body w2)
          (fun m => put_m_quarantine (put_m_from (put_m_chunk m None) None) None).

(** emit_reply_status_of_state, milter-manager-children.c:928-960. *)
Definition emit_reply_status (w : world) (x : sstate) : world :=
  let s := reply_status w x in
  let code := match f_code (w_flow w) with Some (c, _, _) => c / 100 | None => 0 end in
  let w1 :=
    if ((code =? 4) && status_eqb s S_TEMPORARY_FAILURE) || ((code =? 5) && status_eqb s S_REJECT)
    then
      match f_code (w_flow w) with
      | Some (c, e, m) => on_flow (log w (OAnswerCode c e m)) (fun f => put_f_code f None)
      | None => w
      end
    else if status_eqb s S_NOT_CHANGE then w
    else log w (signal_of s) in
  match x with XEndOfMessage => dispose_message w1 | _ => w1 end.

(** set_state, milter-manager-children.c:3063-3073. *)
Definition set_both (w : world) (x : sstate) : world :=
  on_flow w (fun f => put_f_processing (put_f_state f x) x).

(** init_reply_queue, milter-manager-children.c:3075-3088. *)
Definition init_reply_queue (w : world) (x : sstate) : world :=
  on_flow (set_both w x)
    (fun f => put_f_statuses (put_f_queue f [])
                             (status_put (f_statuses f) x (Some S_NOT_CHANGE))).

(** expire_child, milter-manager-children.c:913-920. *)
Definition expire (w : world) (i : nat) : world :=
  on_child w i (fun k => put_k_connected (put_k_quitted k true) false).

(** g_queue_remove and g_list_remove: the first occurrence. *)
Fixpoint remove_nat (l : list nat) (i : nat) : list nat :=
  match l with
  | [] => []
  | j :: l' => if Nat.eqb j i then l' else j :: remove_nat l' i
  end.

(** get_first_child_in_command_waiting_child_queue, milter-manager-children.c:3033-3043. *)
Definition first_waiting (w : world) : option nat := hd_error (f_waiting (w_flow w)).

(** get_next_command, milter-manager-children.c:2960-2979; the command queue holds what
    state_to_command (749-774) gives, [None] is -1.  A state without command (for which
    state_to_command gives MILTER_COMMAND_UNKNOWN) is never in the queue. *)
Fixpoint next_after (l : list sstate) (x : sstate) : option sstate :=
  match l with
  | [] => None
  | y :: l' => if sstate_eqb y x then hd_error l' else next_after l' x
  end.

(** milter_manager_children_check_alive, milter-manager-children.c:3210-3244. *)
Definition check_alive (w : world) : bool * world :=
  if n_expired (w_nego w) then (false, w)
  else if existsb (fun k => negb (k_quitted k)) (w_children w) then (true, w)
  else (false, log w (OError NoAliveMilter)).

(** milter_manager_children_check_processing_message, milter-manager-children.c:3246-3273. *)
Definition check_processing (w : world) : bool * world :=
  if existsb k_is_processing_message (w_children w) then (true, w)
  else (false, log w (OError NoMessageProcessingMilter)).

(** need_header_value_leading_space_conversion, milter-manager-children.c:1732-1747; [None] if
    there is no option. *)
Definition space_conversion (w : world) (i : nat) : option bool :=
  if k_is_enable_step (child_of w i) STEP_HEADER_LEADING_SPACE then Some false
  else match n_option (w_nego w) with
       | None => None
       | Some o => Some (negb (N.land (o_step o) STEP_HEADER_LEADING_SPACE =? 0))
       end.

(** normalize_header_value, milter-manager-children.c:1749-1760, and its use. *)
Definition normalized (convert : bool) (v : option bytes) : option bytes :=
  match v with
  | Some b =>
      if convert then
        match b with
        | c :: _ => if beqb c " "%char then v else Some (" "%char :: b)
        | [] => Some [" "%char]
        end
      else v
  | None => None
  end.

(** The value sent to a filter, milter-manager-children.c:3576-3583. *)
Definition stripped (convert : bool) (v : option bytes) : bytes :=
  match v with
  | Some (c :: b) => if convert && beqb c " "%char then b else c :: b
  | Some [] => []
  | None => []
  end.

(** write_body, milter-manager-children.c:3712-3785, with MAX_ON_MEMORY_BODY_SIZE (31). *)
Definition MAX_ON_MEMORY_BODY_SIZE : N := 5242880.
Definition write_body (w : world) (chunk : bytes) : world :=
  on_mail w (fun m =>
    match m_file m with
    | Some (b, p) =>
        match chunk with
        | [] => m
        | _ :: _ => put_m_file m (Some (b ++ chunk, N.of_nat (length (b ++ chunk))))
        end
    | None =>
        let b := match m_body m with Some b => b ++ chunk | None => chunk end in
        if MAX_ON_MEMORY_BODY_SIZE <? N.of_nat (length b)
        then put_m_file (put_m_body m None) (Some (b, N.of_nat (length b)))
        else put_m_body m (Some b)
    end).

(** reply_negotiate with check_fallback_status_on_negotiate, milter-manager-children.c:
    2615-2708. *)
Definition negotiate_fallback (ks : list child) : status :=
  fold_left (fun s k => if k_negotiated k then s
                        else if (status_compare s (k_fallback k) <? 0)%Z then k_fallback k else s)
            ks S_CONTINUE.
Definition check_fallback (w : world) : world :=
  match negotiate_fallback (w_children w) with
  | S_REJECT | S_TEMPORARY_FAILURE | S_DISCARD =>
      fold_left (fun w i => if k_negotiated (child_of w i)
                            then expire (on_nego w (fun n => put_n_expired n true)) i else w)
                (indices w) w
  | _ => w
  end.
Definition reply_negotiate (w : world) : world :=
  match n_option (w_nego w) with
  | None => log w OAbort
  | Some o =>
      let n := w_nego w in
      let o' := option_remove_step o
                  (N.lor STEP_NO_EVENT_MASK
                     (N.ldiff STEP_YES_MASK (N.land (n_initial n) (n_requested n)))) in
      check_fallback (log (on_nego w (fun n => put_n_option n (Some o')))
                          (ONegotiate o' (n_requests n)))
  end.

(** remove_queue_in_negotiate, milter-manager-children.c:2710-2727. *)
Definition remove_queue_in_negotiate (w : world) (i : nat) : world :=
  let w1 := on_flow w (fun f => put_f_queue f (remove_nat (f_queue f) i)) in
  match f_queue (w_flow w1) with
  | [] => if f_finished (w_flow w1) then w1 else reply_negotiate w1
  | _ :: _ => w1
  end.

(** clear_try_negotiate_data, milter-manager-children.c:2729-2739. *)
Definition clear_try_negotiate (w : world) (i : nat) : world :=
  on_child (expire (remove_queue_in_negotiate w i) i) i (fun k => put_k_trying k false).

(** The signals of a filter's context that have handlers here
    (milter-manager-children.c:2437-2475): a reply passed on, the stop, a timeout, an error, the
    end.  "continue" or "skip" in place of a command not sent are [GReply] too. *)
Inductive ksignal := GReply (r : reply) | GStopped | GTimeout | GError | GFinished.

Section Children.
  (** What milter_agent_write_packet does and what the handlers of the stop-on signals answer,
      depending on all that happened; the configured chunk size
      (milter-manager-configuration.c:2450-2466); g_utf8_collate. *)
  Variable writes : list event -> write_outcome.
  Variable stops : list event -> bool.
  Variable chunk_size : N.
  Variable collate_equal : bytes -> bytes -> bool.

  Section Handlers.
    (** The emission of a signal by the context of filter [i], with its handlers; a direct call of
        cb_continue. *)
    Variable emit_k : world -> nat -> ksignal -> world.
    Variable continue_k : world -> nat -> world.

    (** *** The context of a filter (milter-server-context.c; see Server.v) *)

    (** write_packet, milter-server-context.c:1477-1622. *)
    Definition k_write (w : world) (i : nat) (c : command) (x : sstate) : bool * world :=
      if negb (urgent x) && k_is_processing (child_of w i) then (false, emit_k w i GError)
      else
        let w1 := if urgent x then w
                  else on_child w i (fun k => put_k_timer k (Some TWriting)) in
        match writes (w_trace w1) with
        | Taken => (true, on_child (log w1 (OSent i c)) i (fun k => put_k_next k (k_next k ++ [x])))
        | NoWriter =>
            (true, on_child (log w1 (OLost i c)) i (fun k => put_k_next k (k_next k ++ [x])))
        | Refused => (false, emit_k (on_child w1 i (fun k => put_k_timer k None)) i GError)
        end.

    (** flush_body, milter-server-context.c:1209-1256. *)
    Definition k_flush_body (w : world) (i : nat) : bool * world :=
      let w1 := on_child w i (fun k => put_k_replies k (k_replies k ++ [0])) in
      let sent := packed_chunk (k_body (child_of w1 i)) in
      let (ok, w2) := k_write w1 i (CBody sent) XBody in
      if ok then
        (true, on_child w2 i (fun k => put_k_replies
                                 (put_k_body k (skipn (length sent) (k_body k)))
                                 (increment_last (k_replies k))))
      else (false, w2).

    (** stop_on_state, milter-server-context.c:1624-1652. *)
    Definition k_stop (w : world) (i : nat) (x : sstate) : bool * world :=
      let w1 := emit_k (on_child w i (fun k => put_k_state k x)) i GStopped in
      (true, if sstate_in XFrom (k_state (child_of w1 i)) XEndOfMessage
             then on_child w1 i k_processed else w1).

    (** A command that the filter does not want. *)
    Definition k_skip_command (w : world) (i : nat) (x : sstate) : bool * world :=
      (true, emit_k (on_child w i (fun k => put_k_state k x)) i
                    (GReply (match x with XBody => RSkip | _ => RContinue end))).

    (** The common shape of milter-server-context.c:1694-2278: the stop-on signal, the skip, the
        send. *)
    Definition k_command (w : world) (i : nat) (c : command) (x : sstate) (unwanted : bool)
      : bool * world :=
      if stops (w_trace w) then k_stop w i x
      else if unwanted then k_skip_command w i x
      else k_write w i c x.

    Definition k_call (w : world) (i : nat) (c : command) : bool * world :=
      let off := k_is_enable_step (child_of w i) in
      match c with
      | CNegotiate o =>
          k_write (on_child w i (fun k => put_k_option k (Some o))) i c XNegotiate
      | CDefineMacro _ _ => (true, w)
      | CConnect _ _ => k_command w i c XConnect (off STEP_NO_CONNECT)
      | CHelo _ => k_command w i c XHelo (off STEP_NO_HELO)
      | CEnvelopeFrom _ =>
          let w1 := on_child w i k_ensure_message in
          if stops (w_trace w1) then k_stop w1 i XFrom
          else
            let w2 := on_child w1 i (fun k => put_k_processing k true) in
            if off STEP_NO_ENVELOPE_FROM then k_skip_command w2 i XFrom
            else k_write w2 i c XFrom
      | CEnvelopeRecipient r =>
          let w1 := on_child w i (fun k =>
            let k1 := put_k_current (k_ensure_message k) (Some r) in
            match k_message k1 with
            | Some (rs, refused) => put_k_message k1 (Some (rs ++ [r], refused))
            | None => k1
            end) in
          k_command w1 i c XRcpt (off STEP_NO_ENVELOPE_RECIPIENT)
      | CData =>
          let w1 := on_child w i k_ensure_message in
          if stops (w_trace w1) then k_stop w1 i XData
          else match k_option (child_of w1 i) with
               | None => (true, crash w1)
               | Some o =>
                   if (o_version o <? 4) || off STEP_NO_DATA then k_skip_command w1 i XData
                   else k_write w1 i c XData
               end
      | CUnknown _ =>
          if off STEP_NO_UNKNOWN then k_skip_command w i XUnknown else k_write w i c XUnknown
      | CHeader _ _ => k_command (on_child w i k_ensure_message) i c XHeader (off STEP_NO_HEADERS)
      | CEndOfHeader =>
          k_command (on_child w i k_ensure_message) i c XEndOfHeader (off STEP_NO_END_OF_HEADER)
      | CBody chunk =>
          let w1 := on_child w i k_ensure_message in
          if stops (w_trace w1) then k_stop w1 i XBody
          else if off STEP_NO_BODY then k_skip_command w1 i XBody
          else k_flush_body (on_child w1 i (fun k => put_k_body k (k_body k ++ chunk))) i
      | CEndOfMessage _ =>
          k_command (on_child w i k_ensure_message) i c XEndOfMessage false
      | CQuit => k_write (on_child w i (fun k => put_k_quitted k true)) i c XQuit
      | CAbort =>
          let (ok, w1) := k_write w i c XAbort in
          (ok, on_child w1 i (fun k => put_k_processing k false))
      end.

    (** process_next_state and process_next_state_body, milter-server-context.c:1258-1418. *)
    Definition k_next_state (i : nat) (w : world) (x : sstate) : world :=
      let w1 := on_child w i (fun k => put_k_timer k None) in
      match x with
      | XInvalid => emit_k w i GError
      | XEndOfMessage =>
          on_child w1 i (fun k => put_k_timer (put_k_state k x) (Some TEndOfMessageReply))
      | XBody =>
          let w2 := on_child w1 i (fun k => put_k_state k x) in
          match k_body (child_of w2 i) with
          | [] => w2
          | _ :: _ =>
              match k_need_reply (child_of w2 i) XBody with
              | None => crash w2
              | Some false => snd (k_flush_body w2 i)
              | Some true => on_child w2 i (fun k => put_k_timer k (Some TReading))
              end
          end
      | XQuit => on_child w1 i (fun k => put_k_state k x)
      | XAbort => on_child w1 i (fun k => k_reset (k_processed (put_k_state k x)))
      | _ =>
          let w2 := on_child w1 i (fun k =>
                      put_k_state (match x with XFrom => put_k_processing k true | _ => k end) x) in
          match k_need_reply (child_of w2 i) x with
          | None => crash w2
          | Some true => on_child w2 i (fun k => put_k_timer k (Some TReading))
          | Some false => w2
          end
      end.

    (** flushed, milter-server-context.c:1420-1475. *)
    Definition k_flushed (w : world) (i : nat) : world :=
      fold_left (k_next_state i) (k_next (child_of w i))
                (on_child w i (fun k => put_k_next k [])).

    (** The refusal of the current recipient, milter-server-context.c:2614-2629,2683-2692,
        2745-2754. *)
    Definition k_refuse (w : world) (i : nat) : world :=
      let k := k_ensure_message (child_of w i) in
      match k_state k, k_message k with
      | XRcpt, Some (rs, _) =>
          match k_current k with
          | Some r => on_child w i (fun _ =>
                        put_k_current (put_k_message k (Some (remove_first rs r, true))) None)
          | None =>
              match rs with
              | [] => on_child w i (fun _ => put_k_message k (Some (rs, true)))
              | _ :: _ => crash w
              end
          end
      | _, _ => w
      end.

    (** After a reply that may end the message; [spare]: not in envelope-recipient. *)
    Definition k_end_message (w : world) (i : nat) (spare : bool) : world :=
      let x := k_state (child_of w i) in
      if sstate_in XFrom x XEndOfMessage && negb (spare && sstate_eqb x XRcpt)
      then on_child w i k_processed else w.

    (** milter-server-context.c:2675-2896. *)
    Definition k_final_reply (w : world) (i : nat) (r : reply) (spare : bool) : world :=
      let w1 := on_child w i (fun k => put_k_timer k None) in
      if k_quitted (child_of w1 i) then w1
      else
        let w2 := k_end_message (emit_k w1 i (GReply r)) i spare in
        match k_state (child_of w2 i) with
        | XBody => on_child w2 i (fun k => put_k_replies k [])
        | _ => w2
        end.

    (** milter-server-context.c:2898-3183. *)
    Definition k_modification (w : world) (i : nat) (r : reply) : world :=
      match k_state (child_of w i) with
      | XEndOfMessage =>
          if k_quitted (child_of w i) then w
          else emit_k (match r with
                       | RProgress => on_child w i (fun k => put_k_timer k (Some TEndOfMessageReply))
                       | _ => w
                       end) i (GReply r)
      | _ => emit_k w i GError
      end.

    (** The handlers of the reply decoder's signals, milter-server-context.c:2392-3275. *)
    Definition k_receive (w : world) (i : nat) (r : reply) : world :=
      let w1 := on_child w i (fun k => put_k_timer k None) in
      match r with
      | RNegotiate o reqs =>
          let (ok, o') := match k_option (child_of w1 i) with
                          | Some o0 => option_combine o0 o
                          | None => (true, o)
                          end in
          let w2 := on_child w1 i (fun k => put_k_option k (Some o')) in
          if ok then
            match k_state (child_of w2 i) with
            | XNegotiate =>
                if k_quitted (child_of w2 i) then w2
                else emit_k (on_child w2 i (fun k => put_k_negotiated k true)) i (GReply r)
            | _ => emit_k w2 i GError
            end
          else emit_k w2 i GError
      | RContinue =>
          match k_state (child_of w1 i) with
          | XBody =>
              if k_quitted (child_of w1 i) then w1
              else
                let w2 :=
                  match k_replies (child_of w1 i) with
                  | [] => w1
                  | n :: q =>
                      if n =? 1
                      then emit_k (on_child w1 i (fun k => put_k_replies k q)) i (GReply r)
                      else on_child w1 i (fun k =>
                             put_k_replies k ((n + 4294967295) mod 4294967296 :: q))
                  end in
                match k_body (child_of w2 i) with
                | [] => w2
                | _ :: _ => snd (k_flush_body w2 i)
                end
          | x =>
              if answerable x then
                if k_quitted (child_of w1 i) then w1
                else
                  let w2 := emit_k w1 i (GReply r) in
                  match k_state (child_of w2 i) with
                  | XEndOfMessage => on_child w2 i k_processed
                  | _ => w2
                  end
              else emit_k w1 i GError
          end
      | RReplyCode _ _ _ =>
          let w0 := k_refuse w i in
          if w_crashed w0 then w0 else
          let w1 := on_child w0 i (fun k => put_k_timer k None) in
          if answerable (k_state (child_of w1 i)) then
            if k_quitted (child_of w1 i) then w1
            else
              let w2 := match k_state (child_of w1 i) with
                        | XBody => on_child w1 i (fun k => put_k_replies k [])
                        | _ => w1
                        end in
              k_end_message (emit_k w2 i (GReply r)) i true
          else emit_k w1 i GError
      | RTemporaryFailure | RReject =>
          let w0 := k_refuse w i in
          if w_crashed w0 then w0 else k_final_reply w0 i r true
      | RAccept | RDiscard => k_final_reply w i r false
      | RConnectionFailure | RShutdown =>
          if k_quitted (child_of w1 i) then w1 else emit_k w1 i (GReply r)
      | RSkip =>
          match k_state (child_of w1 i) with
          | XBody =>
              if k_quitted (child_of w1 i) then w1
              else on_child (emit_k w1 i (GReply r)) i
                            (fun k => put_k_skip (put_k_replies k []) true)
          | _ => emit_k w1 i GError
          end
      | _ => k_modification w i r
      end.

    (** *** Sending to the filters one after the other *)

    (** milter_manager_children_abort, milter-manager-children.c:4118-4152. *)
    Definition abort_children (w : world) : bool * world :=
      let w1 := set_both w XAbort in
      let (ok, w2) :=
        fold_left (fun '(ok, w) i =>
                     let k := child_of w i in
                     if k_is_processing_message k || sstate_eqb (k_state k) XFrom
                     then let (ok', w') := k_call w i CAbort in (ok && ok', w')
                     else (ok, w))
                  (indices w1) (true, w1) in
      let w3 := dispose_message w2 in
      (ok, put_w_children w3 (map (fun k => if k_quitted k then k else k_reset k) (w_children w3))).

    (** init_command_waiting_child_queue, milter-manager-children.c:3003-3031. *)
    Definition init_waiting (w : world) (x : sstate) : world :=
      let w1 := on_flow w (fun f =>
        if existsb (sstate_eqb x) (f_commands f) then f
        else put_f_commands f (f_commands f ++ [x])) in
      match f_waiting (w_flow w1) with
      | _ :: _ => w1
      | [] =>
          fold_left (fun w i =>
                       let k := child_of w i in
                       if k_is_processing_message k then
                         if k_has_accepted_recipient k
                         then on_flow w (fun f => put_f_waiting f (f_waiting f ++ [i]))
                         else snd (k_call w i CAbort)
                       else w)
                    (indices w1) w1
      end.

    (** A reply the filter will not send, e.g. milter-manager-children.c:1199-1202,3585-3587. *)
    Definition unless_reply (w : world) (i : nat) (x : sstate) : world :=
      match k_need_reply (child_of w i) x with
      | None => crash w
      | Some true => w
      | Some false => emit_k w i (GReply RContinue)
      end.

    (** send_next_header_to_child, milter-manager-children.c:3560-3595.  [headers] is not NULL
        where it is called, except after the message is disposed of. *)
    Definition send_next_header (w : world) (i : nat) : status * world :=
      let w1 := on_flow w (fun f => put_f_index (put_f_processing f XHeader) (f_index f + 1)) in
      match m_headers (w_mail w1) with
      | None => (S_NOT_CHANGE, crash w1)
      | Some hs =>
          match headers_get_nth hs (f_index (w_flow w1)) with
          | None => (S_NOT_CHANGE, w1)
          | Some h =>
              match space_conversion w1 i with
              | None => (S_NOT_CHANGE, crash w1)
              | Some convert =>
                  let (ok, w2) := k_call w1 i (CHeader (h_name h) (stripped convert (h_value h))) in
                  if ok then (S_PROGRESS, unless_reply w2 i (f_processing (w_flow w2)))
                  else (k_fallback (child_of w2 i), w2)
              end
          end
      end.

    (** send_body_to_child_file and _string, milter-manager-children.c:3914-4002.  A chunk size
        of 0 makes emit_replace_body_signal loop; here it sends an empty chunk. *)
    Definition send_body_file (w : world) (i : nat) : status * world :=
      match m_file (w_mail w) with
      | None => (S_NOT_CHANGE, w)
      | Some (b, p) =>
          match firstn (N.to_nat chunk_size) (skipn (N.to_nat p) b) with
          | [] => (S_NOT_CHANGE, w)
          | chunk =>
              let w1 := on_mail w (fun m => put_m_file m (Some (b, p + N.of_nat (length chunk)))) in
              let (ok, w2) := k_call w1 i (CBody chunk) in
              (if ok then S_PROGRESS else k_fallback (child_of w2 i), w2)
          end
      end.
    Definition send_body_string (w : world) (i : nat) (b : bytes) : status * world :=
      let offset := f_offset (w_flow w) in
      if N.of_nat (length b) <=? offset then (S_NOT_CHANGE, w)
      else
        let chunk := firstn (N.to_nat chunk_size) (skipn (N.to_nat offset) b) in
        let (ok, w1) := k_call w i (CBody chunk) in
        if ok then
          (S_PROGRESS,
           init_waiting (on_flow w1 (fun f => put_f_offset f
                                       (f_offset f + N.of_nat (length chunk)))) XBody)
        else (k_fallback (child_of w1 i), w1).

    (** send_body_to_child, milter-manager-children.c:4004-4032. *)
    Definition send_body (w : world) (i : nat) : status * world :=
      let w1 := on_flow w (fun f => put_f_processing f XBody) in
      if k_skip (child_of w1 i) then
        (S_NOT_CHANGE, on_flow w1 (fun f => put_f_sending f false))
      else
        let (s, w2) := match m_body (w_mail w1) with
                       | Some b => send_body_string w1 i b
                       | None => send_body_file w1 i
                       end in
        match s with
        | S_PROGRESS => (s, unless_reply w2 i (f_processing (w_flow w2)))
        | _ => (s, on_flow w2 (fun f => put_f_sending f false))
        end.

    (** init_child_for_body, milter-manager-children.c:3849-3912. *)
    Definition init_child_for_body (w : world) : world :=
      let w1 := on_flow w (fun f => put_f_sending (put_f_processing f XBody) true) in
      let w2 := on_mail w1 (fun m => put_m_replaced_each m false) in
      match m_body (w_mail w2), m_file (w_mail w2) with
      | Some _, _ => on_flow w2 (fun f => put_f_offset f 0)
      | None, Some (b, _) => on_mail w2 (fun m => put_m_file m (Some (b, 0)))
      | None, None => w2
      end.

    (** send_command_to_child, milter-manager-children.c:1178-1221.  The end-of-message chunk is
        copied up to its first NUL but sent with its full size. *)
    Definition send_command (w : world) (i : nat) (x : sstate) : status * world :=
      match x with
      | XHeader => send_next_header w i
      | XEndOfHeader =>
          let w1 := on_flow w (fun f => put_f_processing f XEndOfHeader) in
          let (ok, w2) := k_call w1 i CEndOfHeader in
          if ok then (S_PROGRESS, unless_reply w2 i (f_processing (w_flow w2)))
          else (k_fallback (child_of w i), w2)
      | XBody => send_body w i
      | XEndOfMessage =>
          let w1 := on_flow w (fun f => put_f_processing (put_f_index f 0) XEndOfMessage) in
          match m_chunk (w_mail w1) with
          | Some b =>
              if no_nulb b then
                let (ok, w2) := k_call w1 i (CEndOfMessage (Some b)) in
                (if ok then S_PROGRESS else k_fallback (child_of w i), w2)
              else (S_PROGRESS, crash w1)
          | None =>
              let (ok, w2) := k_call w1 i (CEndOfMessage None) in
              (if ok then S_PROGRESS else k_fallback (child_of w i), w2)
          end
      | _ => (k_fallback (child_of w i), w)
      end.

    (** send_next_command, milter-manager-children.c:2981-3001. *)
    Definition send_next_command (w : world) (i : nat) (x : sstate) : status * world :=
      match next_after (f_commands (w_flow w)) x with
      | None => (S_NOT_CHANGE, w)
      | Some XBody =>
          send_command (match x with XBody => w | _ => init_child_for_body w end) i XBody
      | Some y => send_command w i y
      end.

    (** emit_replace_body_signal, milter-manager-children.c:1098-1176. *)
    Fixpoint body_chunks (fuel : nat) (b : bytes) : list bytes :=
      match b, fuel with
      | [], _ => []
      | _ :: _, O => [b]
      | _ :: _, S n =>
          firstn (N.to_nat chunk_size) b :: body_chunks n (skipn (N.to_nat chunk_size) b)
      end.
    Definition emit_replace_body (w : world) : world :=
      let b := match m_body (w_mail w), m_file (w_mail w) with
               | Some b, _ => b
               | None, Some (b, _) => b
               | None, None => []
               end in
      if (chunk_size =? 0) && negb (N.of_nat (length b) =? 0) then crash w
      else
        fold_left (fun w c => log w (OReplaceBody c)) (body_chunks (length b) b)
                  (on_mail w (fun m => match m_body m, m_file m with
                                       | None, Some (f, _) =>
                                           put_m_file m (Some (f, N.of_nat (length f)))
                                       | _, _ => m
                                       end)).

    (** emit_signals_on_end_of_message, milter-manager-children.c:1287-1304. *)
    Definition emit_end_of_message (w : world) : world :=
      let w1 := if m_replaced (w_mail w) then emit_replace_body w else w in
      let w2 := match m_original (w_mail w1), m_headers (w_mail w1) with
                | None, _ => w1
                | Some _, None => crash w1
                | Some original, Some final =>
                    fold_left (fun w h => log w (OHeader h)) (header_changes original final) w1
                end in
      let w3 := match m_from (w_mail w2) with
                | Some (f, p) => log w2 (OChangeFrom f p)
                | None => w2
                end in
      match m_quarantine (w_mail w3) with
      | Some r => log w3 (OQuarantine r)
      | None => w3
      end.

    (** emit_reply_for_message_oriented_command, milter-manager-children.c:1306-1323. *)
    Definition emit_message_reply (w : world) (x : sstate) : world :=
      if f_emitted (w_flow w) then w
      else
        let w1 := on_flow w (fun f => put_f_emitted f true) in
        emit_reply_status (match x with XEndOfMessage => emit_end_of_message w1 | _ => w1 end) x.

    (** send_first_command_to_next_child, milter-manager-children.c:1341-1370 (always
        PROGRESS). *)
    Definition send_first_to_next (w : world) (i : nat) : world :=
      let w1 := on_flow w (fun f => put_f_waiting (put_f_index f 0) (remove_nat (f_waiting f) i)) in
      match first_waiting w1 with
      | None => emit_message_reply w1 (f_state (w_flow w1))
      | Some j =>
          match f_commands (w_flow w1) with
          | [] => log w1 (OAnswer S_CONTINUE)
          | x :: _ => snd (send_command w1 j x)
          end
      end.

    (** handle_status, milter-manager-children.c:1372-1380. *)
    Definition handle_status (w : world) (s : status) : world :=
      match s with S_PROGRESS => w | _ => log w (signal_of s) end.

    (** *** The calls for the commands of the MTA *)

    (** connect, helo, envelope_from, unknown (3275-3412, 3517-3558) and envelope_recipient, data
        (3414-3502) after the check: fill the reply queue, send, go on for those not replying. *)
    Definition fan_out (w : world) (x : sstate) (c : command) (wanted : child -> bool)
      (accepted : bool) : bool * world :=
      let w1 := init_reply_queue w x in
      let w2 := fold_left (fun w i =>
                  let k := child_of w i in
                  if wanted k then
                    if negb accepted || k_has_accepted_recipient k
                    then on_flow w (fun f => put_f_queue f (f_queue f ++ [i]))
                    else snd (k_call w i CAbort)
                  else w) (indices w1) w1 in
      let targets := f_queue (w_flow w2) in
      let (success, w3) := fold_left (fun '(ok, w) i =>
                             let (ok', w') := k_call w i c in (ok || ok', w')) targets (false, w2) in
      (success,
       fold_left (fun w i => match k_need_reply (child_of w i) x with
                             | None => crash w
                             | Some true => w
                             | Some false => continue_k w i
                             end) targets w3).

    Definition alive_command (w : world) (x : sstate) (c : command) : bool * world :=
      let (ok, w1) := check_alive w in
      if ok then fan_out w1 x c (fun k => negb (k_quitted k)) false else (false, w1).
    Definition message_command (w : world) (x : sstate) (c : command) (accepted : bool)
      : bool * world :=
      let (ok, w1) := check_processing w in
      if ok then fan_out w1 x c k_is_processing_message accepted else (false, w1).

    (** need_data_commmand_emulation, milter-manager-children.c:3597-3602. *)
    Definition need_data_emulation (w : world) : option bool :=
      match f_state (w_flow w) with
      | XRcpt => match n_option (w_nego w) with
                 | None => None
                 | Some o => Some (4 <=? o_version o)
                 end
      | _ => Some false
      end.

    (** The start of header, end_of_header, body and end_of_message,
        milter-manager-children.c:3604-3630 and the same code in the others. *)
    Definition message_content (w : world) (p : request) (go : world -> bool * world)
      : bool * world :=
      let (ok, w1) := check_processing w in
      if negb ok then (false, w1)
      else match need_data_emulation w1 with
           | None => (false, crash w1)
           | Some true =>
               let (success, w2) := message_command w1 XData CData true in
               (success, if success then on_flow w2 (fun f => put_f_pending f (Some p)) else w2)
           | Some false => go w1
           end.

    Definition is_progress (r : status * world) : bool * world :=
      let (s, w) := r in (status_eqb s S_PROGRESS, w).

    (** send_command_to_first_waiting_child, milter-manager-children.c:3504-3515. *)
    Definition send_to_first (w : world) (x : sstate) : bool * world :=
      match first_waiting w with
      | None => (false, w)
      | Some i => is_progress (send_command w i x)
      end.

    (** milter_manager_children_header, milter-manager-children.c:3604-3641. *)
    Definition mta_header (w : world) (n v : bytes) : bool * world :=
      message_content w (PHeader n v) (fun w =>
        let w1 := on_mail (set_both w XHeader) (fun m =>
                    put_m_headers m (Some (headers_append
                      (match m_headers m with Some hs => hs | None => [] end) n (Some v)))) in
        send_to_first (init_waiting w1 XHeader) XHeader).

    (** milter_manager_children_end_of_header, milter-manager-children.c:3643-3676. *)
    Definition mta_end_of_header (w : world) : bool * world :=
      message_content w PEndOfHeader (fun w =>
        send_to_first (init_waiting (set_both w XEndOfHeader) XEndOfHeader) XEndOfHeader).

    (** milter_manager_children_body, milter-manager-children.c:3787-3847. *)
    Definition mta_body (w : world) (chunk : bytes) : bool * world :=
      message_content w (PBody (strndup_padded chunk)) (fun w =>
        let w1 := init_waiting w XBody in
        match first_waiting w1 with
        | None => (false, w1)
        | Some i =>
            let w2 := set_both (write_body w1 chunk) XBody in
            let w3 := on_flow (on_mail w2 (fun m => put_m_replaced_each m false))
                              (fun f => put_f_sending f false) in
            if k_skip (child_of w3 i) then
              (true, emit_k (on_child w3 i (fun k => put_k_state k XBody)) i (GReply RContinue))
            else k_call w3 i (CBody chunk)
        end).

    (** milter_manager_children_end_of_message, milter-manager-children.c:4034-4083. *)
    Definition mta_end_of_message (w : world) (chunk : option bytes) : bool * world :=
      message_content w (PEndOfMessage (option_map strndup_padded chunk)) (fun w =>
        let w1 := init_waiting w XEndOfMessage in
        let w2 := on_flow w1 (fun f => put_f_index f 0) in
        let w3 := on_mail w2 (fun m =>
                    let hs := match m_headers m with Some hs => hs | None => [] end in
                    let m1 := put_m_headers m (Some hs) in
                    let m2 := match m_original m1 with
                              | Some _ => m1
                              | None => put_m_original m1 (Some hs)
                              end in
                    let m3 := put_m_chunk m2 chunk in
                    match m_file m3 with
                    | Some (b, _) => put_m_file m3 (Some (b, 0))
                    | None => m3
                    end) in
        send_to_first (set_both w3 XEndOfMessage) XEndOfMessage).

    (** milter_manager_children_negotiate, milter-manager-children.c:3099-3160, with
        MAX_SUPPORTED_MILTER_PROTOCOL_VERSION (33). *)
    Definition mta_negotiate (w : world) (o : moption) : bool * world :=
      let o' := if 6 <? o_version o then mk_option 6 (o_action o) (o_step o) else o in
      let w1 := on_nego w (fun n => put_n_initial (put_n_option n (Some o')) (option_step_yes o')) in
      match w_children w1 with
      | [] => (true, on_nego w1 (fun n => put_n_negotiated n true))
      | _ :: _ =>
          let w2 := init_reply_queue w1 XNegotiate in
          (true, put_w_children (on_flow w2 (fun f => put_f_queue f (indices w2)))
                                (map (fun k => put_k_trying k true) (w_children w2)))
      end.

    (** milter_manager_children_quit, milter-manager-children.c:4085-4116. *)
    Definition mta_quit (w : world) : bool * world :=
      let w1 := set_both w XQuit in
      let (ok, w2) :=
        fold_left (fun '(ok, w) i =>
                     let k := child_of w i in
                     if k_quitted k || sstate_eqb (k_state k) XQuit then (ok, w)
                     else let (ok', w') := k_call w i CQuit in (ok && ok', w'))
                  (indices w1) (true, w1) in
      (ok, if f_finished (w_flow w2) then w2
           else log (on_flow w2 (fun f => put_f_finished f true)) OFinished).

    (** The call for command [c] of the MTA (define_macro, 3162-3208, only stores macros). *)
    Definition mta (w : world) (c : command) : bool * world :=
      match c with
      | CNegotiate o => mta_negotiate w o
      | CDefineMacro _ _ => (true, w)
      | CConnect _ _ => alive_command w XConnect c
      | CHelo _ => alive_command w XHelo c
      | CEnvelopeFrom _ => alive_command w XFrom c
      | CEnvelopeRecipient _ => message_command w XRcpt c false
      | CData => message_command w XData c true
      | CUnknown _ => alive_command w XUnknown c
      | CHeader n v => mta_header w n v
      | CEndOfHeader => mta_end_of_header w
      | CBody chunk => mta_body w chunk
      | CEndOfMessage chunk => mta_end_of_message w chunk
      | CAbort => abort_children w
      | CQuit => mta_quit w
      end.

    (** *** The handlers of a filter's signals *)

    (** process_pending_message_request, milter-manager-children.c:994-1052. *)
    Definition process_pending (w : world) (p : request) : bool * world :=
      match p with
      | PHeader n v => mta_header w n v
      | PEndOfHeader => mta_end_of_header w
      | PBody chunk => mta_body w chunk
      | PEndOfMessage chunk => mta_end_of_message w chunk
      end.

    (** remove_child_from_queue, milter-manager-children.c:1054-1096 (its value is not used). *)
    Definition remove_from_queue (w : world) (i : nat) : world :=
      let w1 := on_flow w (fun f => put_f_queue f (remove_nat (f_queue f) i)) in
      match f_queue (w_flow w1) with
      | _ :: _ => w1
      | [] =>
          let s := reply_status w1 (f_processing (w_flow w1)) in
          let (processed, w2) :=
            match f_pending (w_flow w1) with
            | None => (false, w1)
            | Some p =>
                let (done, w2) :=
                  if status_eqb s S_CONTINUE then process_pending w1 p else (false, w1) in
                (done || status_eqb s S_PROGRESS, on_flow w2 (fun f => put_f_pending f None))
            end in
          if processed then w2
          else
            let x := f_processing (w_flow w2) in
            let w3 := emit_reply_status w2 x in
            match s with
            | S_REJECT | S_TEMPORARY_FAILURE =>
                match f_processing (w_flow w3) with
                | XRcpt => w3
                | _ => snd (abort_children w3)
                end
            | S_DISCARD => snd (abort_children w3)
            | _ => w3
            end
      end.

    (** cb_continue, milter-manager-children.c:1382-1430. *)
    Definition cb_continue (w : world) (i : nat) : world :=
      let x := k_state (child_of w i) in
      let w1 := compile_reply w x S_CONTINUE in
      let behind := sstate_rank (f_state (w_flow w1)) <? sstate_rank x in
      match x with
      | XEndOfHeader => let (s, w2) := send_next_command w1 i x in handle_status w2 s
      | XHeader =>
          if behind then handle_status w1 S_NOT_CHANGE
          else match m_headers (w_mail w1) with
               | None => crash w1
               | Some hs =>
                   let (s, w2) :=
                     if f_index (w_flow w1) <? N.of_nat (length hs)
                     then send_next_header w1 i else send_next_command w1 i x in
                   handle_status w2 s
               end
      | XBody =>
          if behind then handle_status w1 S_NOT_CHANGE
          else
            let (s, w2) := if f_sending (w_flow w1) then send_body w1 i else (S_NOT_CHANGE, w1) in
            let (s', w3) := match s with
                            | S_NOT_CHANGE => send_next_command w2 i x
                            | _ => (s, w2)
                            end in
            handle_status w3 s'
      | XEndOfMessage => send_first_to_next w1 i
      | _ => remove_from_queue w1 i
      end.

    Definition stop_message (w : world) (i : nat) : world :=
      on_child w i (fun k => put_k_processing k false).

    (** cb_temporary_failure and cb_reject, milter-manager-children.c:1432-1571. *)
    Definition cb_refuse (w : world) (i : nat) (v : status) : world :=
      let x := k_state (child_of w i) in
      let w1 := compile_reply w x (if k_evaluation (child_of w i) then S_ACCEPT else v) in
      match x with
      | XConnect | XHelo => snd (k_call w1 i CQuit)
      | XFrom | XData => remove_from_queue (stop_message w1 i) i
      | XRcpt => remove_from_queue w1 i
      | XHeader | XEndOfHeader | XBody | XEndOfMessage =>
          snd (abort_children (emit_message_reply (stop_message w1 i) x))
      | _ => snd (k_call w1 i CQuit)
      end.

    (** cb_reply_code, milter-manager-children.c:1573-1595; code 0 is no code. *)
    Definition cb_reply_code (w : world) (i : nat) (c : N) (e : bytes) (m : option bytes) : world :=
      let w1 := on_flow w (fun f => put_f_code f (if c =? 0 then None else Some (c, e, m))) in
      cb_refuse w1 i (if c / 100 =? 4 then S_TEMPORARY_FAILURE else S_REJECT).

    (** cb_accept, milter-manager-children.c:1597-1645. *)
    Definition cb_accept (w : world) (i : nat) : world :=
      let x := k_state (child_of w i) in
      let w1 := compile_reply w x S_ACCEPT in
      match x with
      | XFrom | XData | XRcpt => remove_from_queue (stop_message w1 i) i
      | XHeader | XEndOfHeader | XBody | XEndOfMessage => send_first_to_next (stop_message w1 i) i
      | _ => snd (k_call w1 i CQuit)
      end.

    (** cb_discard, milter-manager-children.c:1647-1711. *)
    Definition cb_discard (w : world) (i : nat) : world :=
      let x := k_state (child_of w i) in
      let w1 := compile_reply w x (if k_evaluation (child_of w i) then S_ACCEPT else S_DISCARD) in
      match x with
      | XFrom | XData => remove_from_queue (stop_message w1 i) i
      | XRcpt => remove_from_queue w1 i
      | XHeader | XEndOfHeader | XBody | XEndOfMessage =>
          snd (abort_children (emit_message_reply (stop_message w1 i) x))
      | _ => snd (k_call w1 i CQuit)
      end.

    (** cb_skip, milter-manager-children.c:1713-1730. *)
    Definition cb_skip (w : world) (i : nat) : world :=
      let x := k_state (child_of w i) in
      let w1 := compile_reply w x S_SKIP in
      if sstate_rank (f_state (w_flow w1)) <? sstate_rank XEndOfMessage
      then log w1 (OAnswer S_CONTINUE)
      else snd (send_next_command w1 i x).

    (** The modification handlers, milter-manager-children.c:1762-2138: only at end of message
        (otherwise the filter is quit), not in evaluation mode. *)
    Definition edit_headers (w : world) (i : nat) (v : option bytes)
      (edit : list header -> option bytes -> list header) : world :=
      match space_conversion w i with
      | None => crash w
      | Some convert =>
          match m_headers (w_mail w) with
          | None => crash w
          | Some hs => on_mail w (fun m => put_m_headers m (Some (edit hs (normalized convert v))))
          end
      end.
    Definition cb_modification (w : world) (i : nat) (r : reply) : world :=
      match k_state (child_of w i) with
      | XEndOfMessage =>
          match r with
          | RProgress => log w OProgress
          | _ =>
              if k_evaluation (child_of w i) then w
              else match r with
                   | RAddHeader n v =>
                       edit_headers w i (Some v) (fun hs v => headers_add hs n v)
                   | RInsertHeader p n v =>
                       edit_headers w i v (fun hs v => headers_insert hs p n v)
                   | RChangeHeader n p v =>
                       edit_headers w i (Some v) (fun hs v => snd (headers_change hs n p v))
                   | RDeleteHeader n p =>
                       match m_headers (w_mail w) with
                       | None => crash w
                       | Some hs =>
                           on_mail w (fun m => put_m_headers m (Some (snd (headers_delete hs n p))))
                       end
                   | RChangeFrom f p => on_mail w (fun m => put_m_from m (Some (f, p)))
                   | RAddRecipient a p => log w (OAddRecipient a p)
                   | RDeleteRecipient a => log w (ODeleteRecipient a)
                   | RReplaceBody b =>
                       let w1 := if m_replaced_each (w_mail w) then w else dispose_body w in
                       on_mail (write_body w1 b)
                               (fun m => put_m_replaced (put_m_replaced_each m true) true)
                   | RQuarantine reason => on_mail w (fun m => put_m_quarantine m (Some reason))
                   | _ => w
                   end
          end
      | _ => snd (k_call w i CQuit)
      end.

    (** cb_stopped, milter-manager-children.c:2154-2208. *)
    Definition cb_stopped (w : world) (i : nat) : world :=
      let x := k_state (child_of w i) in
      match x with
      | XConnect | XHelo =>
          snd (k_call (snd (k_call (compile_reply w x S_ACCEPT) i CAbort)) i CQuit)
      | XFrom => cb_continue (compile_reply w x S_ACCEPT) i
      | XRcpt => cb_continue w i
      | XData | XHeader | XEndOfHeader | XBody | XEndOfMessage =>
          send_first_to_next (snd (k_call (compile_reply w x S_ACCEPT) i CAbort)) i
      | _ =>
          snd (k_call (snd (k_call (compile_reply w x S_TEMPORARY_FAILURE) i CAbort)) i CQuit)
      end.

    (** The three timeouts and cb_error, milter-manager-children.c:2210-2372. *)
    Definition cb_failure (w : world) (i : nat) : world :=
      let k := child_of w i in
      remove_from_queue (expire (compile_reply w (k_state k) (k_fallback k)) i) i.

    (** cb_finished, milter-manager-children.c:2374-2435. *)
    Definition cb_finished (w : world) (i : nat) : world :=
      let k := child_of w i in
      let w1 := expire (if k_is_processing k then compile_reply w (k_state k) (k_fallback k) else w) i in
      match f_processing (w_flow w1) with
      | XNegotiate => remove_queue_in_negotiate w1 i
      | XHeader | XEndOfHeader | XBody | XEndOfMessage =>
          if negb (f_emitted (w_flow w1)) && k_is_processing (child_of w1 i)
          then send_first_to_next w1 i else w1
      | _ => remove_from_queue w1 i
      end.

    (** cb_negotiate_reply, milter-manager-children.c:827-859. *)
    Definition cb_negotiate_reply (w : world) (i : nat) (o : moption) (reqs : option requests)
      : world :=
      let w1 := match reqs with
                | Some r => on_nego w (fun n =>
                              put_n_requests n (requests_merge collate_equal (n_requests n) r))
                | None => w
                end in
      let w2 := match n_option (w_nego w1) with
                | Some o0 =>
                    on_nego w1 (fun n => put_n_negotiated
                      (put_n_requested (put_n_option n (Some (snd (option_merge o0 o))))
                                       (N.lor (n_requested n) (option_step_yes o))) true)
                | None => log w1 (OError NoNegotiation)
                end in
      remove_queue_in_negotiate w2 i.

    (** cb_ready, milter-manager-children.c:809-825: the option offered is the object kept in
        [n_option], which the replies of other filters may have changed already. *)
    Definition cb_ready (w : world) (i : nat) : world :=
      match n_option (w_nego w) with
      | None => w
      | Some o =>
          let w1 := on_child w i (fun k => put_k_connected k true) in
          on_child (snd (k_call w1 i (CNegotiate o))) i (fun k => put_k_trying k false)
      end.

    (** The handler of a signal.  While the connection is being established an error goes to
        cb_connection_error (2755-2802), connected first, which disconnects the others. *)
    Definition handle (w : world) (i : nat) (g : ksignal) : world :=
      let k := child_of w i in
      if w_crashed w then w
      else match g with
           | GError => if k_trying k then clear_try_negotiate w i
                       else if k_connected k then cb_failure w i else w
           | _ =>
               if negb (k_connected k) then w
               else match g with
                    | GReply (RNegotiate o reqs) => cb_negotiate_reply w i o reqs
                    | GReply RContinue => cb_continue w i
                    | GReply (RReplyCode c e m) => cb_reply_code w i c e m
                    | GReply RTemporaryFailure => cb_refuse w i S_TEMPORARY_FAILURE
                    | GReply RReject => cb_refuse w i S_REJECT
                    | GReply RAccept => cb_accept w i
                    | GReply RDiscard => cb_discard w i
                    | GReply RSkip => cb_skip w i
                    | GReply RConnectionFailure => log w OConnectionFailure
                    | GReply RShutdown => log w OShutdown
                    | GReply r => cb_modification w i r
                    | GStopped => cb_stopped w i
                    | GFinished => cb_finished w i
                    | GTimeout | GError => cb_failure w i
                    end
           end.
  End Handlers.

  (** Signals are emitted from within handlers of signals; [depth] bounds the nesting, going
      deeper is counted as a crash.  The theorems say for which depths they hold. *)
  Fixpoint emit (depth : nat) (w : world) (i : nat) (g : ksignal) {struct depth} : world :=
    match depth with
    | O => crash w
    | S d => handle (emit d) (resume d) w i g
    end
  with resume (depth : nat) (w : world) (i : nat) {struct depth} : world :=
    match depth with
    | O => crash w
    | S d => if w_crashed w then w else cb_continue (emit d) (resume d) w i
    end.

  Definition children_step (depth : nat) (w : world) (o : op) : world :=
    if w_crashed w then w
    else
      let w0 := log w (OIn o) in
      match o with
      | Mta c => let (ok, w1) := mta (emit depth) (resume depth) w0 c in log w1 (OReturn ok)
      | Idle => reply_negotiate w0
      | KReady i => if k_trying (child_of w0 i) then cb_ready (emit depth) w0 i else w0
      | KFlushed i => k_flushed (emit depth) w0 i
      | KReply i r => k_receive (emit depth) w0 i r
      | KFire i => match k_timer (child_of w0 i) with
                   | Some _ => emit depth w0 i GTimeout
                   | None => w0
                   end
      | KFail i => emit depth w0 i GError
      | KFinish i => emit depth w0 i GFinished
      end.
  Definition children_run (depth : nat) (w : world) (ops : list op) : world :=
    fold_left (children_step depth) ops w.
End Children.
