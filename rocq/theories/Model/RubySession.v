(** Model of filters written with the Ruby library: binding/ruby/lib/milter/client.rb,
    client/session.rb, client/session-context.rb, client/fallback-session.rb and
    client/composite-session.rb, above the context of Model/Client.v.  Line numbers are those of
    these files. *)
From Verif.Base Require Import Bytes.
From Verif.Model Require Import Decoder Encoder CommandCodec ReplyCodec Status Option Client.
Local Open Scope N_scope.

(** *** Statuses as Ruby values *)

(** What a session may give as a status: a String or a Symbol, a Milter::Status, nil, or any
    other object. *)
Inductive rvalue := VName (n : bytes) | VStatus (s : status) | VNil | VOther.

(** The constants of Milter::Status (milter/core/milter-protocol.h:99-116 without the prefix).
    Constants of Ruby's Object in capital letters ("ENV"), which const_defined? finds as well,
    are not modelled. *)
Definition status_constants : list (bytes * status) :=
  [(lit "DEFAULT", S_DEFAULT); (lit "NOT_CHANGE", S_NOT_CHANGE); (lit "CONTINUE", S_CONTINUE);
   (lit "REJECT", S_REJECT); (lit "DISCARD", S_DISCARD); (lit "ACCEPT", S_ACCEPT);
   (lit "TEMPORARY_FAILURE", S_TEMPORARY_FAILURE); (lit "NO_REPLY", S_NO_REPLY);
   (lit "SKIP", S_SKIP); (lit "ALL_OPTIONS", S_ALL_OPTIONS); (lit "PROGRESS", S_PROGRESS);
   (lit "ABORT", S_ABORT); (lit "QUARANTINE", S_QUARANTINE); (lit "STOP", S_STOP);
   (lit "ERROR", S_ERROR)].
Fixpoint constant_in (table : list (bytes * status)) (n : bytes) : option status :=
  match table with
  | [] => None
  | (x, s) :: table' => if bytes_eqb x n then Some s else constant_in table' n
  end.
Definition status_constant (n : bytes) : option status := constant_in status_constants n.

(** String#upcase, for ASCII. *)
Definition upcase_byte (b : byte) : byte :=
  let n := code b in if (97 <=? n) && (n <=? 122) then byte_of (n - 32) else b.
Definition upcase (s : bytes) : bytes := map upcase_byte s.
Definition underscored (s : bytes) : bytes :=
  map (fun b => if beqb b "-"%char then "_"%char else b) s.

(** session-context.rb:206-210. *)
Definition named_status (n : bytes) : option status := status_constant (underscored (upcase n)).

(** ClientSessionContext#status=, session-context.rb:25-41: what is stored, which is the value
    as given; [None] is an ArgumentError. *)
Definition status_given (v : rvalue) : option rvalue :=
  match v with
  | VName n => match named_status n with Some _ => Some v | None => None end
  | VStatus _ | VNil => Some v
  | VOther => None
  end.

(** ClientSessionContext#status, session-context.rb:43-45. *)
Definition status_read (v : rvalue) : rvalue :=
  match v with VNil => VStatus S_DEFAULT | _ => v end.

(** The conversion of a handler's return value to MilterStatus, done by the Ruby binding of
    GObject (not part of the project): a name stands for the constant of that name. *)
Definition status_returned (v : rvalue) : status :=
  match v with
  | VName n => match named_status n with Some s => s | None => S_DEFAULT end
  | VStatus s => s
  | VNil | VOther => S_DEFAULT
  end.

(** *** What a session's methods can do *)

(** The options of reject and temporary_failure. *)
Record reply_options := mk_reply_options {
  ro_code : option N;
  ro_extended : option bytes;
  ro_reason : option bytes
}.
Definition no_options : reply_options := mk_reply_options None None None.

(** The private methods of ClientSession, session.rb:43-140, and direct uses of the session's
    context. *)
Inductive action :=
| AAccept | ADiscard | AContinue | ADelay
| AReject (o : reply_options)
| ATemporaryFailure (o : reply_options)
| AQuarantine (reason : bytes)
| AStatus (v : rvalue)                              (* @context.status = v *)
| ASetReply (c : N) (extended reason : bytes)       (* @context.set_reply *)
| ACall (k : call).                                 (* add_header ... progress: passed on *)

(** What the calling method gets back: a value (true or false matters for quarantine and
    progress only), or an exception, which it may rescue. *)
Inductive answer := Given (v : bool) | Raised.

(** A method of a session, up to what it does with the library: it ends, it ends with an
    exception, or it does something and goes on, depending on what it gets back and on anything
    it can see.  [U] is the session's own data (its instance variables). *)
Inductive method (U : Type) :=
| Done (u : U)
| Raise (u : U)
| Act (u : U) (a : action) (next : client -> rvalue -> U -> answer -> method U).
Arguments Done {U} _. Arguments Raise {U} _. Arguments Act {U} _ _ _.

(** A session: the methods it responds to for a command (as in client.rb:150-174 and 186-194:
    nothing for define-macro and quit); the option and the macro requests as its negotiate
    method leaves them; and its reset method, which touches only its own data ([true]: it
    raises an exception).  The argument of abort and the notification "finished", which has no
    answer, are not modelled. *)
Record rsession (U : Type) := mk_session {
  s_method : command -> option (client -> U -> method U);
  s_answer : U -> moption -> moption * requests;
  s_reset : U -> U * bool
}.
Arguments mk_session {U} _ _ _. Arguments s_method {U} _ _. Arguments s_answer {U} _ _ _.
Arguments s_reset {U} _ _.

(** The library's state for one connection: the C context, ClientSessionContext's @status, and
    the session. *)
Record world (U : Type) := mk_world { w_client : client; w_status : rvalue; w_own : U }.
Arguments mk_world {U} _ _ _. Arguments w_client {U} _. Arguments w_status {U} _.
Arguments w_own {U} _.

Section Ruby.
  Variable outcome : nat -> write_outcome.

  Definition w_with_client {U} (w : world U) c := mk_world c (w_status w) (w_own w).
  Definition w_with_status {U} (w : world U) v := mk_world (w_client w) v (w_own w).
  Definition w_with_own {U} (w : world U) (u : U) := mk_world (w_client w) (w_status w) u.

  (** A method of the C context called from Ruby, ext/client/rb-milter-client-context.c:51-213:
      progress and quarantine give back the result, the others raise an exception when they
      fail. *)
  Definition context_call {U} (w : world U) (k : call) : world U * answer * list client_event :=
    let '(ok, c, evs) := do_call outcome (w_client w) k in
    let answer := match k with
                  | KProgress | KQuarantine _ => Given ok
                  | _ => if ok then Given true else Raised
                  end in
    (w_with_client w c, answer, evs ++ [EvResult ok]).

  (** @context.status = v. *)
  Definition give_status {U} (w : world U) (v : rvalue) : world U * answer :=
    match status_given v with
    | Some v => (w_with_status w v, Given true)
    | None => (w, Raised)
    end.

  (** ClientSessionContext#set_reply, session-context.rb:47-54. *)
  Definition context_set_reply {U} (w : world U) (c : N) (e r : bytes)
    : world U * answer * list client_event :=
    let '(w1, a, evs) := context_call w (KSetReply c (Some e) (Some r)) in
    match a with
    | Raised => (w1, Raised, evs)
    | Given _ =>
        if (400 <=? c) && (c <? 500) then (fst (give_status w1 (VName (lit "temporary_failure"))), Given true, evs)
        else if (500 <=? c) && (c <? 600) then (fst (give_status w1 (VName (lit "reject"))), Given true, evs)
        else (w1, Given true, evs)
    end.

  Definition do_reset {U} (reset : U -> U * bool) (w : world U) : world U * answer :=
    let (u, raised) := reset (w_own w) in
    (w_with_own w u, if raised then Raised else Given true).

  (** "reset unless @context.state.envelope_recipient?", session.rb:82 and 98. *)
  Definition reset_unless_recipient {U} (reset : U -> U * bool) (w : world U) : world U * answer :=
    match cc_state (w_client w) with
    | At TRcpt => (w, Given true)
    | _ => do_reset reset w
    end.

  Definition option_given (o : reply_options) : bool :=
    match o with mk_reply_options None None None => false | _ => true end.
  Definition or_default {A} (x : option A) (d : A) : A := match x with Some a => a | None => d end.

  (** reject and temporary_failure, session.rb:69-99. *)
  Definition refuse {U} (reset : U -> U * bool) (w : world U) (o : reply_options)
             (plain : bytes) (c : N) (e r : bytes) : world U * answer * list client_event :=
    if option_given o then
      let '(w1, a, evs) := context_set_reply w (or_default (ro_code o) c)
                             (or_default (ro_extended o) e) (or_default (ro_reason o) r) in
      match a with
      | Raised => (w1, Raised, evs)
      | Given _ => let (w2, a2) := reset_unless_recipient reset w1 in (w2, a2, evs)
      end
    else
      let (w1, a) := reset_unless_recipient reset (fst (give_status w (VName plain))) in (w1, a, []).

  (** session.rb:47-140. *)
  Definition perform {U} (reset : U -> U * bool) (w : world U) (a : action)
    : world U * answer * list client_event :=
    match a with
    | AAccept => let (w1, a) := do_reset reset (fst (give_status w (VName (lit "accept")))) in (w1, a, [])
    | ADiscard => let (w1, a) := do_reset reset (fst (give_status w (VName (lit "discard")))) in (w1, a, [])
    | AContinue => let (w1, a) := give_status w (VName (lit "continue")) in (w1, a, [])
    | ADelay => let (w1, a) := give_status w (VName (lit "progress")) in (w1, a, [])
    | AReject o => refuse reset w o (lit "reject") 550 (lit "5.7.1") (lit "Command rejected")
    | ATemporaryFailure o =>
        refuse reset w o (lit "temporary_failure") 451 (lit "4.7.1")
               (lit "Service unavailable - try again later")
    | AQuarantine reason =>
        let '(w1, a1, evs) := context_call w (KQuarantine (Some reason)) in
        match a1 with
        | Given true =>
            let (w2, a2) := do_reset reset (fst (give_status w1 (VName (lit "accept")))) in (w2, a2, evs)
        | _ => (w1, a1, evs)
        end
    | AStatus v => let (w1, a) := give_status w v in (w1, a, [])
    | ASetReply c e r => context_set_reply w c e r
    | ACall k => context_call w k
    end.

  (** What running a method does: the state afterwards, whether it ended with an exception,
      what it did in order, and the events of the context. *)
  Definition ran (U : Type) : Type := world U * bool * list action * list client_event.

  Fixpoint run_method {U} (reset : U -> U * bool) (w : world U) (p : method U) : ran U :=
    match p with
    | Done u => (w_with_own w u, false, [], [])
    | Raise u => (w_with_own w u, true, [], [])
    | Act u a next =>
        let '(w1, b, evs) := perform reset (w_with_own w u) a in
        let '(w2, raised, did, evs') :=
          run_method reset w1 (next (w_client w1) (status_read (w_status w1)) (w_own w1) b) in
        (w2, raised, a :: did, evs ++ evs')
    end.

  (** The body of a handler block; [None]: the session does not respond to the event and no
      handler is connected. *)
  Definition session_event {U} (s : rsession U) (m : command) (w : world U) : option (ran U) :=
    match s_method s m with
    | Some f => Some (run_method (s_reset s) w (f (w_client w) (w_own w)))
    | None => None
    end.

  (** *** The library: client.rb:145-211 *)

  (** What a session object is to setup_session. *)
  Record program (U : Type) := mk_program {
    p_event : command -> world U -> option (ran U);
    p_answer : U -> moption -> moption * requests;
    p_reset : U -> U * bool
  }.
  Arguments p_event {U} _ _ _. Arguments p_answer {U} _ _ _. Arguments p_reset {U} _ _.
  Definition session_program {U} (s : rsession U) : program U :=
    mk_program U (session_event s) (s_answer s) (s_reset s).

  (** The end of a handler block, client.rb:176-182: [None] is an exception that leaves the
      handler, because the fallback status is not a status. *)
  Definition block_end {U} (fallback : rvalue) (w : world U) (raised : bool)
    : option (world U * status) :=
    let finish w := (w_with_status w VNil, status_returned (status_read (w_status w))) in
    if raised then
      match status_given fallback with
      | Some v => Some (finish (w_with_status w v))
      | None => None
      end
    else Some (finish w).

  (** What the session is told of a command: the chunk that may come with end-of-message is
      left out (client.rb:171-172). *)
  Definition told_of_command (m : command) : command :=
    match m with CEndOfMessage _ => CEndOfMessage None | _ => m end.

  (** What a command led to: what the session did, whether an exception was caught by the
      library, and the status the library's handler gave back ([S_DEFAULT] when none is
      connected). *)
  Record entry := mk_entry { l_did : list action; l_raised : bool; l_status : status }.

  (** The handler of an event, client.rb:161-183. *)
  Definition event_block {U} (fallback : rvalue) (p : program U) (m : command) (w : world U)
    : option (world U * entry * list client_event) :=
    match p_event p (told_of_command m) w with
    | None => Some (w, mk_entry [] false S_DEFAULT, [])
    | Some (w1, raised, did, evs) =>
        match block_end fallback w1 raised with
        | Some (w2, s) => Some (w2, mk_entry did raised s, evs)
        | None => None
        end
    end.

  (** The handler of abort, client.rb:186-204. *)
  Definition abort_block {U} (fallback : rvalue) (p : program U) (w : world U)
    : option (world U * entry * list client_event) :=
    let '(w1, raised, did, evs) :=
      match p_event p CAbort w with Some r => r | None => (w, false, [], []) end in
    match (if raised then status_given fallback else Some (w_status w1)) with
    | None => None
    | Some v =>
        let (u, raised') := p_reset p (w_own w1) in
        match block_end fallback (w_with_own (w_with_status w1 v) u) raised' with
        | Some (w2, s) => Some (w2, mk_entry did (raised || raised') s, evs)
        | None => None
        end
    end.

  (** What the class's own handler of a signal adds, milter-client-context.c:3409-3495. *)
  Definition class_status (m : command) : status :=
    match m with CAbort => S_DEFAULT | _ => S_NOT_CHANGE end.

  (** One command.  For define-macro and quit there is no handler. *)
  Definition ruby_step {U} (fallback : rvalue) (p : program U) (w : world U) (m : command)
    : option (world U * entry * list client_event) :=
    let w1 := w_with_client w (receive_command (w_client w) m) in
    match m with
    | CQuit => Some (w1, mk_entry [] false S_DEFAULT, [EvShutdown])
    | CDefineMacro _ _ => Some (w1, mk_entry [] false S_DEFAULT, [])
    | _ =>
        let (o, reqs) := match m with
                         | CNegotiate o => p_answer p (w_own w1) o
                         | _ => (mk_option 0 0 0, [])
                         end in
        match (match m with CAbort => abort_block fallback p w1 | _ => event_block fallback p m w1 end) with
        | None => None
        | Some (w2, e, evs) =>
            let s := fst (accumulate S_DEFAULT [l_status e; class_status m]) in
            let c3 := match m with CAbort => reset_message_related_data (w_client w2) | _ => w_client w2 end in
            match s, command_stage m with
            | S_PROGRESS, _ | _, None => Some (w_with_client w2 c3, e, evs)
            | _, Some t =>
                let (c4, evs') := respond outcome c3 t o reqs s in
                Some (w_with_client w2 c4, e, evs ++ evs')
            end
        end
    end.

  (** A connection. *)
  Fixpoint ruby_run {U} (fallback : rvalue) (p : program U) (w : world U) (ms : list command)
    : option (world U * list entry * list client_event) :=
    match ms with
    | [] => Some (w, [], [])
    | m :: ms' =>
        match ruby_step fallback p w m with
        | None => None
        | Some (w1, e, evs) =>
            match ruby_run fallback p w1 ms' with
            | None => None
            | Some (w2, log, evs') => Some (w2, e :: log, evs ++ evs')
            end
        end
    end.

  (** Milter::Client#fallback_status, client.rb:84-90. *)
  Definition fallback_status (set : rvalue) : rvalue :=
    match set with VNil => VName (lit "accept") | _ => set end.

  (** ClientSession#negotiate, session.rb:23-37: [defines] says which methods the session
      has (public ones), [leading_space] is need_header_value_with_leading_space?. *)
  Inductive method_name := MConnect | MHelo | MFrom | MRcpt | MBody | MUnknown | MHeader | MEndOfHeader | MData.
  Definition step_of (n : method_name) : N :=
    match n with
    | MConnect => STEP_NO_CONNECT | MHelo => STEP_NO_HELO | MFrom => STEP_NO_ENVELOPE_FROM
    | MRcpt => STEP_NO_ENVELOPE_RECIPIENT | MBody => STEP_NO_BODY | MUnknown => STEP_NO_UNKNOWN
    | MHeader => STEP_NO_HEADERS | MEndOfHeader => STEP_NO_END_OF_HEADER | MData => STEP_NO_DATA
    end.
  Definition inherited_answer (defines : method_name -> bool) (leading_space : bool) (o : moption) : moption :=
    let o1 := fold_left (fun o n => if defines n then option_remove_step o (step_of n) else o)
                [MConnect; MHelo; MFrom; MRcpt; MBody; MUnknown; MHeader; MEndOfHeader; MData] o in
    let o2 := if leading_space then o1 else option_remove_step o1 STEP_HEADER_LEADING_SPACE in
    option_remove_step o2 STEP_NO_REPLY_MASK.

  (** ClientFallbackSession, fallback-session.rb:19-28 (lines of that file), used when the
      session could not be made (client.rb:98-103). *)
  Definition fallback_session (fallback : rvalue) : rsession unit :=
    mk_session
      (fun m => match m with
                | CNegotiate _ => Some (fun _ _ => Act tt AContinue (fun _ _ u _ => Done u))
                | CConnect _ _ =>
                    Some (fun _ _ => Act tt (AStatus fallback)
                                       (fun _ _ u b => match b with Raised => Raise u | Given _ => Done u end))
                | _ => None
                end)
      (fun _ o => (inherited_answer (fun n => match n with MConnect => true | _ => false end) false o, []))
      (fun u => (u, false)).

  (** *** CompositeSession, composite-session.rb *)

  (** ensure_status, composite-session.rb:106-109: [None] is a NameError. *)
  Definition ensure_status (v : rvalue) : option status :=
    match v with
    | VStatus s => Some s
    | VName n => status_constant (upcase n)
    | VNil | VOther => None
    end.

  (** resolve_status, composite-session.rb:95-104. *)
  Definition resolve_status (current : option rvalue) (new : rvalue) : option rvalue :=
    match current with
    | None => Some new
    | Some current =>
        match ensure_status current, ensure_status new with
        | Some c, Some n => Some (VStatus (if (status_compare c n <? 0)%Z then n else c))
        | _, _ => None
        end
    end.

  (** The loop of apply_sessions, composite-session.rb:86-91.  The sessions share one context;
      [us] are their own data, in order. *)
  Fixpoint apply_each {U} (m : command) (c : client) (v : rvalue) (acc : option rvalue)
           (ss : list (rsession U)) (us : list U)
    : client * rvalue * list U * option rvalue * bool * list action * list client_event :=
    match ss, us with
    | s :: ss', u :: us' =>
        match session_event s m (mk_world c v u) with
        | None =>
            let '(c2, v2, us2, acc2, raised, did, evs) := apply_each m c v acc ss' us' in
            (c2, v2, u :: us2, acc2, raised, did, evs)
        | Some (w1, raised, did, evs) =>
            if raised then (w_client w1, w_status w1, w_own w1 :: us', acc, true, did, evs)
            else
              match resolve_status acc (status_read (w_status w1)) with
              | None => (w_client w1, w_status w1, w_own w1 :: us', acc, true, did, evs)
              | Some r =>
                  let '(c2, v2, us2, acc2, raised', did', evs') :=
                    apply_each m (w_client w1) (w_status w1) (Some r) ss' us' in
                  (c2, v2, w_own w1 :: us2, acc2, raised', did ++ did', evs ++ evs')
              end
        end
    | _, _ => (c, v, us, acc, false, [], [])
    end.

  (** composite-session.rb:30-76 and 92. *)
  Definition default_status (m : command) : rvalue :=
    match m with CNegotiate _ => VName (lit "reject") | _ => VName (lit "continue") end.
  Definition apply_sessions {U} (ss : list (rsession U)) (m : command) (w : world (list U)) : ran (list U) :=
    let '(c, v, us, acc, raised, did, evs) := apply_each m (w_client w) (w_status w) None ss (w_own w) in
    if raised then (mk_world c v us, true, did, evs)
    else (fst (give_status (mk_world c v us) (or_default acc (default_status m))), false, did, evs).

  (** The negotiate methods of the sessions change the same option and requests in turn; that
      those behind one that raises an exception are not called is left out. *)
  Fixpoint answer_each {U} (ss : list (rsession U)) (us : list U) (o : moption) (q : requests) : moption * requests :=
    match ss, us with
    | s :: ss', u :: us' =>
        match s_method s (CNegotiate o) with
        | None => answer_each ss' us' o q
        | Some _ => let (o1, q1) := s_answer s u o in answer_each ss' us' o1 (q ++ q1)
        end
    | _, _ => (o, q)
    end.

  (** The class responds to every event; it has no reset method, so that client.rb:196 raises a
      NoMethodError. *)
  Definition composite_program {U} (ss : list (rsession U)) : program (list U) :=
    mk_program (list U)
      (fun m w => Some (apply_sessions ss m w))
      (fun us o => answer_each ss us o [])
      (fun us => (us, true)).
End Ruby.
