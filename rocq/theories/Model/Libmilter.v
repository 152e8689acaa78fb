(** Model of libmilter/libmilter-compatible.c: the smfi_* functions and the xxfi_* callbacks of
    filters written for Sendmail's libmilter, on top of the filter's context (Model.Client). *)
From Verif.Base Require Import Bytes.
From Verif.Model Require Import Decoder CommandCodec ReplyCodec Status Option Macros ReplyCode Client.
Local Open Scope Z_scope.

(** libmilter_compatible_convert_status_to, libmilter-compatible.c:1075-1100; the values are
    those of mfapi.h:1497-1579. *)
Definition status_to (v : Z) : status :=
  if v =? 0 then S_CONTINUE
  else if v =? 1 then S_REJECT
  else if v =? 2 then S_DISCARD
  else if v =? 3 then S_ACCEPT
  else if v =? 4 then S_TEMPORARY_FAILURE
  else if v =? 7 then S_NO_REPLY
  else if v =? 8 then S_SKIP
  else if v =? 10 then S_ALL_OPTIONS
  else S_DEFAULT.

(** libmilter_compatible_convert_status_from, libmilter-compatible.c:1102-1127. *)
Definition status_from (s : status) : Z :=
  match s with
  | S_CONTINUE => 0
  | S_REJECT => 1
  | S_DISCARD => 2
  | S_ACCEPT => 3
  | S_TEMPORARY_FAILURE => 4
  | S_NO_REPLY => 7
  | S_SKIP => 8
  | S_ALL_OPTIONS => 10
  | _ => 0
  end.

(** atoi of the C library: white space, a sign, digits; what follows is not looked at.  Values
    outside of long are clamped, then the value is converted to int. *)
Definition is_c_space (c : byte) : bool := beqb c " "%char || ((9 <=? code c) && (code c <=? 13))%N.
Fixpoint skip_c_space (s : bytes) : bytes :=
  match s with c :: s' => if is_c_space c then skip_c_space s' else s | [] => [] end.
Fixpoint leading_digits (v : Z) (s : bytes) : Z :=
  match s with
  | c :: s' => if is_digit c then leading_digits (v * 10 + Z.of_N (code c - 48)) s' else v
  | [] => v
  end.
Definition as_int (v : Z) : Z := (v + 2147483648) mod 4294967296 - 2147483648.
Definition atoi (s : bytes) : Z :=
  as_int
    (match skip_c_space s with
     | c :: s' =>
         if beqb c "-"%char then Z.max (- leading_digits 0 s') (- 9223372036854775808)
         else if beqb c "+"%char then Z.min (leading_digits 0 s') 9223372036854775807
         else Z.min (leading_digits 0 (c :: s')) 9223372036854775807
     | [] => 0
     end).

(** Conversion of an int to guint / guint32. *)
Definition as_uint (v : Z) : N := Z.to_N (v mod 4294967296).

(** The calls a filter makes on its SMFICTX.  NULL pointers are [None]; a replacement body is
    the buffer and the size that is claimed. *)
Inductive smfi :=
| FSetReply (return_code extended_code message : option bytes)
| FSetMlReply (return_code extended_code : option bytes) (lines : list bytes)
| FAddHeader (name value : option bytes)
| FChgHeader (name : option bytes) (index : Z) (value : option bytes)
| FInsHeader (index : Z) (name value : option bytes)
| FChgFrom (mail arguments : option bytes)
| FAddRcpt (recipient : option bytes)
| FAddRcptPar (recipient arguments : option bytes)
| FDelRcpt (recipient : option bytes)
| FProgress
| FReplaceBody (body : bytes) (size : Z)
| FQuarantine (reason : option bytes)
| FSetSymList (state : Z) (macros : option bytes)
| FSetPriv.

(** What a call comes to: it returns at once with success or failure, or it is a call on the
    filter's context, or its behaviour is undefined. *)
Inductive meaning := Returns (ok : bool) | Calls (k : call) | Undefined.

(** smfi_setreply, libmilter-compatible.c:736-763: atoi of a NULL pointer is undefined. *)
Definition smfi_setreply (return_code extended message : option bytes) : meaning :=
  match return_code with
  | None => Undefined
  | Some c => Calls (KSetReply (as_uint (atoi c)) extended message)
  end.

(** The loop of smfi_setmlreply, libmilter-compatible.c:775-799: [None] if a line is too long or
    has a carriage return. *)
Definition MAXREPLYLEN : Z := 980.
Fixpoint join_lines (ls : list bytes) : option bytes :=
  match ls with
  | [] => Some []
  | l :: ls' =>
      if (MAXREPLYLEN <? Z.of_nat (length l)) then None
      else if existsb (beqb CR) l then None
      else match join_lines ls' with
           | Some t => Some (l ++ match ls' with [] => [] | _ :: _ => LF :: t end)
           | None => None
           end
  end.

(** smfi_setmlreply, libmilter-compatible.c:767-809: with nothing to say nothing is set. *)
Definition smfi_setmlreply (return_code extended : option bytes) (ls : list bytes) : meaning :=
  match join_lines ls with
  | None => Returns false
  | Some [] => Returns true
  | Some t => smfi_setreply return_code extended (Some t)
  end.

(** smfi_addheader 811-831, smfi_chgheader 833-853, smfi_insheader 855-875, smfi_chgfrom
    877-897, smfi_addrcpt 899-919, smfi_addrcpt_par 921-941, smfi_delrcpt 943-963, smfi_progress
    965-978, smfi_replacebody 980-1001 (the int is converted to gsize; a size beyond the buffer
    reads outside of it), smfi_quarantine 1003-1016, smfi_setsymlist 1031-1057, smfi_setpriv
    1018-1023 of libmilter-compatible.c.

    smfi_setsymlist takes the macro requests of the filter's context, which nothing ever sets
    (milter_protocol_agent_set_macros_requests is called by the server context only), makes new
    ones instead, sets the symbols there and forgets them; g_strsplit of NULL is undefined. *)
Definition smfi_meaning (f : smfi) : meaning :=
  match f with
  | FSetReply c e m => smfi_setreply c e m
  | FSetMlReply c e ls => smfi_setmlreply c e ls
  | FAddHeader n v => Calls (KAddHeader n v)
  | FChgHeader n i v => Calls (KChangeHeader n (as_uint i) v)
  | FInsHeader i n v => Calls (KInsertHeader (as_uint i) n v)
  | FChgFrom f a => Calls (KChangeFrom f a)
  | FAddRcpt r => Calls (KAddRecipient r None)
  | FAddRcptPar r a => Calls (KAddRecipient r a)
  | FDelRcpt r => Calls (KDeleteRecipient r)
  | FProgress => Calls KProgress
  | FReplaceBody b n =>
      if (0 <=? n) && (n <=? Z.of_nat (length b)) then Calls (KReplaceBody (firstn (Z.to_nat n) b))
      else Undefined
  | FQuarantine r => Calls (KQuarantine r)
  | FSetSymList _ (Some _) => Returns true
  | FSetSymList _ None => Undefined
  | FSetPriv => Returns true
  end.

(** The callbacks of struct smfiDesc, mfapi.h:231-1370. *)
Inductive slot :=
| FnNegotiate | FnConnect | FnHelo | FnEnvfrom | FnEnvrcpt | FnData | FnUnknown | FnHeader | FnEoh
| FnBody | FnEom | FnAbort | FnClose.

(** struct smfiDesc: the flags and which callbacks are not NULL (name and version are not used
    after smfi_register). *)
Record desc := mk_desc { d_flags : N; d_has : slot -> bool }.

(** A callback is called with its arguments, the context aside. *)
Inductive invocation :=
| INegotiate (action step : N)
| IConnect (host : bytes) (a : address)
| IHelo (fqdn : bytes)
| IEnvfrom (argv : list bytes)
| IEnvrcpt (argv : list bytes)
| IData
| IUnknown (command : bytes)
| IHeader (name value : bytes)
| IEoh
| IBody (chunk : bytes)
| IEom
| IAbort
| IClose.

(** The object a callback gets as its SMFICTX.  cb_negotiate (libmilter-compatible.c:263-288)
    is declared with three parameters, but the signal has two arguments besides the emitter
    (milter-client-context.c:395-403), so that its third parameter is the macro requests and
    not the filter's context. *)
Inductive smfictx := OwnContext | MacrosRequests.
Definition context_of (i : invocation) : smfictx :=
  match i with INegotiate _ _ => MacrosRequests | _ => OwnContext end.

(** What a callback does: its calls, its return value, and, for xxfi_negotiate, the values it
    leaves in the output parameters. *)
Record reaction := mk_reaction {
  r_calls : list smfi;
  r_return : Z;
  r_action : N;
  r_step : N
}.

(** A libmilter session: the filter's context; whether xxfi_close was called (the SMFICTX is then
    freed and no handler is connected any more, libmilter-compatible.c:457-466); whether the
    behaviour is still defined. *)
Record lib := mk_lib { l_client : client; l_closed : bool; l_defined : bool }.
Definition lib_new : lib := mk_lib client_new false true.

Section Libmilter.
  Variable outcome : nat -> write_outcome.

  (** One call on the SMFICTX [x]: private data of an object of another type is not there. *)
  Definition do_smfi (c : client) (x : smfictx) (f : smfi) : client * list client_event * bool :=
    match x, smfi_meaning f with
    | MacrosRequests, _ | _, Undefined => (c, [EvCrash], false)
    | OwnContext, Returns ok => (c, [EvResult ok], true)
    | OwnContext, Calls k =>
        let '(ok, c1, evs) := do_call outcome c k in (c1, evs ++ [EvResult ok], true)
    end.
  Fixpoint do_smfis (c : client) (x : smfictx) (fs : list smfi) : client * list client_event * bool :=
    match fs with
    | [] => (c, [], true)
    | f :: fs' =>
        let '(c1, evs, ok) := do_smfi c x f in
        if ok then let '(c2, evs', ok') := do_smfis c1 x fs' in (c2, evs ++ evs', ok')
        else (c1, evs, false)
    end.

  (** Calling a callback: what was called, and its return value. *)
  Definition invoke (react : invocation -> reaction) (c : client) (i : invocation)
    : client * list client_event * bool * Z :=
    let '(c1, evs, ok) := do_smfis c (context_of i) (r_calls (react i)) in
    (c1, evs, ok, r_return (react i)).

  (** SMFIS_REJECT, SMFIS_DISCARD, SMFIS_ACCEPT, SMFIS_TEMPFAIL. *)
  Definition is_final (v : Z) : bool := (v =? 1) || (v =? 2) || (v =? 3) || (v =? 4).

  (** MILTER_CLIENT_CONTEXT_STATE_IN_MESSAGE_PROCESSING, milter-client-context.h:411-413. *)
  Definition in_message_processing (s : client_state) : bool :=
    match s with
    | At (TFrom | TRcpt | TData | TUnknown | THeader | TEndOfHeader | TBody)
    | Replied (TFrom | TRcpt | TData | TUnknown | THeader | TEndOfHeader | TBody) => true
    | _ => false
    end.

  (** The handler connected for a command, cb_negotiate ... cb_abort,
      libmilter-compatible.c:263-455, and smfi_context_attach_to_client_context 468-501: none if
      the callback is NULL.  The result is what is called, in order; for the end of the message
      the second callback depends on what the first one returned.  [before] is the context's
      state before the command. *)
  Definition plain_invocation (m : command) : option (slot * invocation) :=
    match m with
    | CNegotiate o => Some (FnNegotiate, INegotiate (o_action o) (o_step o))
    | CConnect h a => Some (FnConnect, IConnect h a)
    | CHelo f => Some (FnHelo, IHelo f)
    | CEnvelopeFrom f => Some (FnEnvfrom, IEnvfrom [f])
    | CEnvelopeRecipient r => Some (FnEnvrcpt, IEnvrcpt [r])
    | CData => Some (FnData, IData)
    | CUnknown u => Some (FnUnknown, IUnknown u)
    | CHeader n v => Some (FnHeader, IHeader n v)
    | CEndOfHeader => Some (FnEoh, IEoh)
    | CBody b => Some (FnBody, IBody b)
    | _ => None
    end.

  (** The end of cb_end_of_message, libmilter-compatible.c:425-436: xxfi_eom, after what [is] and
      [evs] say has been called before. *)
  Definition run_eom (react : invocation -> reaction) (is : list invocation) (c : client)
      (evs : list client_event) : list invocation * client * list client_event * bool * option status :=
    let '(c2, evs', ok', v) := invoke react c IEom in
    (is ++ [IEom], c2, evs ++ evs', ok', Some (status_to v)).
  (** The invocations made, the context, the events, whether the behaviour is defined, and the
      status of the handler ([None]: no handler is connected). *)
  Definition run_handler (d : desc) (react : invocation -> reaction) (before : client_state)
      (c : client) (m : command)
    : list invocation * client * list client_event * bool * option status :=
    match m with
    | CEndOfMessage chunk =>
        if d_has d FnEom then
          match chunk with
          | Some ((_ :: _) as b) =>
              if d_has d FnBody then
                let '(c1, evs, ok, v) := invoke react c (IBody b) in
                if negb ok then ([IBody b], c1, evs, false, None)
                else if is_final v then ([IBody b], c1, evs, true, Some (status_to v))
                else run_eom react [IBody b] c1 evs
              else run_eom react [] c []
          | _ => run_eom react [] c []
          end
        else ([], c, [], true, None)
    | CAbort =>
        if d_has d FnAbort then
          if in_message_processing before then
            let '(c1, evs, ok, v) := invoke react c IAbort in
            ([IAbort], c1, evs, ok, Some (status_to v))
          else ([], c, [], true, Some S_DEFAULT)
        else ([], c, [], true, None)
    | _ =>
        match plain_invocation m with
        | Some (f, i) =>
            if d_has d f then
              let '(c1, evs, ok, v) := invoke react c i in
              ([i], c1, evs, ok, Some (status_to v))
            else ([], c, [], true, None)
        | None => ([], c, [], true, None)
        end
    end.

  (** The option object after the handler of a negotiation: the output parameters are stored in
      it if the callback returned SMFIS_CONTINUE (libmilter-compatible.c:274-287); flags are 32
      bit. *)
  Definition answered_option (d : desc) (react : invocation -> reaction) (o : moption) : moption :=
    let r := react (INegotiate (o_action o) (o_step o)) in
    if d_has d FnNegotiate && (r_return r =? 0)
    then mk_option (o_version o) (r_action r mod 4294967296)%N (r_step r mod 4294967296)%N
    else o.

  (** The status of the signal: the handler's, then the default handler's
      (milter-client-context.c:3409-3496). *)
  Definition signal_status (m : command) (s : option status) : status :=
    let default := match m with CAbort => S_DEFAULT | _ => S_NOT_CHANGE end in
    fst (accumulate S_DEFAULT (match s with Some s => [s; default] | None => [default] end)).

  (** A command arrives: the cb_decoder_* callbacks, milter-client-context.c:3940-4262, with the
      handlers above.  The macro requests given with a negotiation are those made by
      cb_decoder_negotiate, to which a libmilter filter has no access. *)
  Definition lib_command (d : desc) (l : lib) (m : command) (react : invocation -> reaction)
    : lib * list invocation * list client_event :=
    let before := cc_state (l_client l) in
    let c1 := receive_command (l_client l) m in
    match m with
    | CQuit => (mk_lib c1 (l_closed l) true, [], [EvShutdown])
    | _ =>
        match command_stage m with
        | None => (mk_lib c1 (l_closed l) true, [], [])
        | Some t =>
            let '(is, c2, evs, ok, s) :=
              if l_closed l then ([], c1, [], true, None) else run_handler d react before c1 m in
            if ok then
              let c3 := match m with CAbort => reset_message_related_data c2 | _ => c2 end in
              let s := signal_status m s in
              let o := match m with
                       | CNegotiate o => if l_closed l then o else answered_option d react o
                       | _ => mk_option 0 0 0
                       end in
              match s with
              | S_PROGRESS => (mk_lib c3 (l_closed l) true, is, evs)
              | _ => let (c4, evs') := respond outcome c3 t o [] s in
                     (mk_lib c4 (l_closed l) true, is, evs ++ evs')
              end
            else (mk_lib c2 (l_closed l) false, is, evs)
        end
    end.

  (** The connection ends: milter-client-context.c:3921-3939 and cb_finished,
      libmilter-compatible.c:457-466 (calls in xxfi_close are those of the context). *)
  Definition lib_finish (d : desc) (l : lib) (react : invocation -> reaction)
    : lib * list invocation * list client_event :=
    if l_closed l then (mk_lib (with_state (l_client l) Finished) true true, [], [])
    else if d_has d FnClose then
      let '(c1, evs, ok, _) := invoke react (l_client l) IClose in
      (mk_lib (if ok then with_state c1 Finished else c1) true ok, [IClose], evs)
    else (mk_lib (with_state (l_client l) Finished) true true, [], []).

  (** What happens to a session. *)
  Inductive lib_op :=
  | LCommand (m : command) (react : invocation -> reaction)
  | LFinish (react : invocation -> reaction).

  Definition lib_step (d : desc) (l : lib) (op : lib_op) : lib * list invocation * list client_event :=
    if l_defined l then
      match op with
      | LCommand m react => lib_command d l m react
      | LFinish react => lib_finish d l react
      end
    else (l, [], []).

  Fixpoint lib_run (d : desc) (l : lib) (ops : list lib_op)
    : lib * list invocation * list client_event :=
    match ops with
    | [] => (l, [], [])
    | op :: ops' =>
        let '(l1, is, evs) := lib_step d l op in
        let '(l2, is', evs') := lib_run d l1 ops' in
        (l2, is ++ is', evs ++ evs')
    end.
End Libmilter.
