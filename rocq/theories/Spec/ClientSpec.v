(** What a filter's calls mean to the peer, written without the context's functions: only its
    types of calls, replies and statuses are used. *)
From Verif.Base Require Import Bytes.
From Verif.Model Require Import Decoder CommandCodec ReplyCodec Status Client ReplyCode.
From Verif.Spec Require Import CommandGrammar ReplyGrammar ReplyCodeSpec.
From Coq Require Import Permutation.
Local Open Scope Z_scope.

(** A body cut into packets. *)
Definition body_chunks (b : bytes) (cs : list bytes) : Prop :=
  concat cs = b /\ Forall (fun c => 1 <= zlen c <= 65535) cs.

(** The modification calls, and the number of the protocol's action bit that permits each. *)
Definition action_bit (k : call) : option N :=
  match k with
  | KAddHeader _ _ | KInsertHeader _ _ _ => Some 0%N
  | KReplaceBody _ => Some 1%N
  | KAddRecipient _ _ => Some 2%N
  | KDeleteRecipient _ => Some 3%N
  | KChangeHeader _ _ _ | KDeleteHeader _ _ => Some 4%N
  | KChangeFrom _ _ => Some 6%N
  | _ => None
  end.

Definition negotiated (o : option moption) (bit : N) : Prop :=
  exists x, o = Some x /\ N.testbit (o_action x) bit = true.

(** The arguments that must be given. *)
Definition given (s : option bytes) : Prop := s <> None.
Definition given_text (s : option bytes) : Prop := s <> None /\ s <> Some [].
Definition arguments_given (k : call) : Prop :=
  match k with
  | KAddHeader n v | KInsertHeader _ n v => given n /\ given v
  | KChangeHeader n _ _ | KDeleteHeader n _ => given n
  | KChangeFrom f _ => given_text f
  | KAddRecipient r _ | KDeleteRecipient r => given_text r
  | _ => True
  end.

(** The change a modification call asks for, as the peer should see it. *)
Inductive change : call -> list reply -> Prop :=
| ch_add n v : change (KAddHeader (Some n) (Some v)) [RAddHeader n v]
| ch_insert i n v v' : optional (Some v) v' ->
    change (KInsertHeader i (Some n) (Some v)) [RInsertHeader i n v']
| ch_change n i v : v <> [] -> change (KChangeHeader (Some n) i (Some v)) [RChangeHeader n i v]
| ch_clear n i v : optional v None -> change (KChangeHeader (Some n) i v) [RDeleteHeader n i]
| ch_delete n i : change (KDeleteHeader (Some n) i) [RDeleteHeader n i]
| ch_from f p p' : optional p p' -> change (KChangeFrom (Some f) p) [RChangeFrom f p']
| ch_add_recipient r p p' : optional p p' ->
    change (KAddRecipient (Some r) p) [RAddRecipient r p']
| ch_delete_recipient r : change (KDeleteRecipient (Some r)) [RDeleteRecipient r]
| ch_body b cs : body_chunks b cs -> change (KReplaceBody b) (map RReplaceBody cs).

(** Strings a filter may pass: no NUL inside, below 2^29 bytes, and texts that must not be
    empty.  A custom reply must have an extended code and a one-line message to survive (see
    C12). *)
Definition text (s : bytes) : Prop := no_nul s /\ zlen s < 536870912.
Definition opt_text (s : option bytes) : Prop := match s with Some s => text s | None => True end.
Definition good_option (o : moption) : Prop := word (o_version o) /\ word (o_action o) /\ word (o_step o).
Definition good_call (k : call) : Prop :=
  match k with
  | KAddHeader n v => n <> Some [] /\ opt_text n /\ opt_text v
  | KInsertHeader i n v => word i /\ n <> Some [] /\ opt_text n /\ opt_text v
  | KChangeHeader n i v => word i /\ n <> Some [] /\ opt_text n /\ opt_text v
  | KDeleteHeader n i => word i /\ n <> Some [] /\ opt_text n
  | KChangeFrom f p => opt_text f /\ opt_text p
  | KAddRecipient r p => opt_text r /\ opt_text p
  | KDeleteRecipient r => opt_text r
  | KReplaceBody b => True
  | KQuarantine r => r <> Some [] /\ opt_text r
  | KSetReply c e m =>
      acceptable c e -> exists e' m', e = Some e' /\ m = Some m' /\ one_line m' /\ zlen m' < 536870912
  | KSetOption o => exists x, o = Some x /\ good_option x
  | KProgress | KSetPacketBufferSize _ => True
  end.

(** What a filter has told its context so far. *)
Record told := mk_told {
  t_option : option moption;
  t_reply : smtp_reply;
  t_quarantine : option bytes
}.

Definition effective (eom : bool) (o : option moption) (k : call) : Prop :=
  eom = true /\ (exists bit, action_bit k = Some bit /\ negotiated o bit) /\ arguments_given k.

(** The replies a sequence of calls asks for. *)
Inductive issue (eom : bool) : told -> list call -> list reply -> told -> Prop :=
| is_nil t : issue eom t [] [] t
| is_change t k ks rs rs' t' :
    effective eom (t_option t) k -> change k rs -> issue eom t ks rs' t' ->
    issue eom t (k :: ks) (rs ++ rs') t'
| is_not_allowed t k bit ks rs t' :
    action_bit k = Some bit -> ~ effective eom (t_option t) k -> issue eom t ks rs t' ->
    issue eom t (k :: ks) rs t'
| is_progress t ks rs t' : issue eom t ks rs t' -> issue eom t (KProgress :: ks) (RProgress :: rs) t'
| is_quarantine t r ks rs t' :
    issue eom (mk_told (t_option t) (t_reply t) r) ks rs t' ->
    issue eom t (KQuarantine r :: ks) rs t'
| is_reply t c e m ks rs t' :
    acceptable c e -> issue eom (mk_told (t_option t) (mk_smtp_reply c e m) (t_quarantine t)) ks rs t' ->
    issue eom t (KSetReply c e m :: ks) rs t'
| is_bad_reply t c e m ks rs t' :
    ~ acceptable c e -> issue eom t ks rs t' -> issue eom t (KSetReply c e m :: ks) rs t'
| is_size t n ks rs t' : issue eom t ks rs t' -> issue eom t (KSetPacketBufferSize n :: ks) rs t'
| is_option t o ks rs t' :
    issue eom (mk_told o (t_reply t) (t_quarantine t)) ks rs t' ->
    issue eom t (KSetOption o :: ks) rs t'.

(** The verdict packet for a status; no packet for statuses that are not verdicts. *)
Definition verdict (r : smtp_reply) (s : status) : list reply :=
  let coded otherwise :=
    match r with
    | mk_smtp_reply 0 _ _ => [otherwise]
    | mk_smtp_reply c (Some e) m => [RReplyCode c e m]
    | mk_smtp_reply c None m => [RReplyCode c [] m]
    end in
  match s with
  | S_DEFAULT | S_CONTINUE => [RContinue]
  | S_REJECT => coded RReject
  | S_TEMPORARY_FAILURE => coded RTemporaryFailure
  | S_ACCEPT => [RAccept]
  | S_DISCARD => [RDiscard]
  | S_SKIP => [RSkip]
  | _ => []
  end.

(** The replies that end the handling of a message: a quarantine request goes directly before
    the verdict. *)
Definition conclusion (t : told) (s : status) : list reply :=
  match verdict (t_reply t) s with
  | [] => []
  | v => (match t_quarantine t with Some r => [RQuarantine r] | None => [] end) ++ v
  end.

Definition is_progress_reply (r : reply) : bool :=
  match r with RProgress => true | _ => false end.

(** The received replies are the expected ones in order, except that progress notifications
    may have been moved. *)
Definition same_order (received expected : list reply) : Prop :=
  Permutation received expected /\
  filter (fun r => negb (is_progress_reply r)) received =
  filter (fun r => negb (is_progress_reply r)) expected.

(** Everything handed to the writer. *)
Definition sent (evs : list client_event) : bytes :=
  concat (map (fun e => match e with EvWrite p => p | _ => [] end) evs).

(** The results of the calls made, in order. *)
Definition results (evs : list client_event) : list bool :=
  concat (map (fun e => match e with EvResult b => [b] | _ => [] end) evs).

(** *** Sessions *)

(** One command from the peer and the filter's handling of it: the handler makes calls and
    returns a status, or it says it will answer later, and then makes calls ([None]: flushes
    its output) until it answers.  [answer] and [reqs] are the options and the macro requests
    given in answer to a negotiation. *)
Inductive exchange :=
| XNow (m : command) (ks : list call) (answer : moption) (reqs : requests) (s : status)
| XLater (m : command) (ks : list call) (later : list (option call))
         (answer : moption) (reqs : requests) (s : status).

Definition x_command (x : exchange) : command :=
  match x with XNow m _ _ _ _ => m | XLater m _ _ _ _ _ => m end.
Definition x_answer (x : exchange) : moption :=
  match x with XNow _ _ o _ _ => o | XLater _ _ _ o _ _ => o end.
Definition x_requests (x : exchange) : requests :=
  match x with XNow _ _ _ q _ => q | XLater _ _ _ _ q _ => q end.
Definition x_status (x : exchange) : status :=
  match x with XNow _ _ _ _ s => s | XLater _ _ _ _ _ s => s end.

Fixpoint somes {A} (l : list (option A)) : list A :=
  match l with [] => [] | Some a :: l' => a :: somes l' | None :: l' => somes l' end.
Definition x_calls (x : exchange) : list call :=
  match x with XNow _ ks _ _ _ => ks | XLater _ ks later _ _ _ => ks ++ somes later end.

(** As operations of the context. *)
Definition ops_of (x : exchange) : list client_op :=
  match x with
  | XNow m ks o q s => [OpCommand m ks o q s]
  | XLater m ks later o q s =>
      OpCommand m ks o q S_PROGRESS ::
      map (fun k => match k with Some k => OpCall k | None => OpFlush end) later ++
      match command_stage m with Some t => [OpRespond t o q s] | None => [] end
  end.

Definition is_end_of_message (m : command) : bool :=
  match m with CEndOfMessage _ => true | _ => false end.

(** A negotiation offers the peer's options; a message starts without a quarantine reason. *)
Definition started (t : told) (m : command) : told :=
  match m with
  | CNegotiate o => mk_told (Some o) (t_reply t) (t_quarantine t)
  | CEndOfMessage _ => mk_told (t_option t) (t_reply t) None
  | _ => t
  end.

Definition some_requests (q : requests) : option requests :=
  match q with [] => None | _ :: _ => Some q end.

(** The answer to a command once its handler's calls were made: the replies, and what the
    filter has told so far. *)
Definition answered (t : told) (x : exchange) : list reply * told :=
  match x_command x with
  | CNegotiate _ =>
      match x_status x with
      | S_CONTINUE =>
          ([RNegotiate (x_answer x) (some_requests (x_requests x))],
           mk_told (Some (x_answer x)) (t_reply t) (t_quarantine t))
      | S_DEFAULT | S_ALL_OPTIONS =>
          (match t_option t with
           | Some o => [RNegotiate o (some_requests (x_requests x))]
           | None => []
           end, t)
      | S_REJECT => ([RReject], t)
      | _ => ([], t)
      end
  | CDefineMacro _ _ | CAbort | CQuit => ([], t)
  | CEndOfMessage _ => (conclusion t (x_status x), t)
  | _ => (verdict (t_reply t) (x_status x), t)
  end.

Inductive exchanged : told -> exchange -> list reply -> told -> Prop :=
| ex_quit t x : x_command x = CQuit -> exchanged t x [] t
| ex_command t x rs t' :
    x_command x <> CQuit ->
    issue (is_end_of_message (x_command x)) (started t (x_command x)) (x_calls x) rs t' ->
    exchanged t x (rs ++ fst (answered t' x)) (snd (answered t' x)).

Inductive session : told -> list exchange -> list reply -> told -> Prop :=
| se_nil t : session t [] [] t
| se_more t x xs rs rs' t' t'' :
    exchanged t x rs t' -> session t' xs rs' t'' -> session t (x :: xs) (rs ++ rs') t''.

(** The exchanges covered: every exchange ends with an answer (S_PROGRESS is not one),
    definitions of macros and quit are not answered. *)
Definition requests_size (q : requests) : Z :=
  fold_right (fun r n => 5 + fold_right (fun s n => zlen s + 1 + n) 0 (snd r) + n) 0 q.

Definition good_exchange (x : exchange) : Prop :=
  Forall good_call (x_calls x) /\
  x_status x <> S_PROGRESS /\
  match x with XLater m _ _ _ _ _ => m <> CQuit /\ forall c t, m <> CDefineMacro c t | _ => True end.

(** A negotiation: as above; no progress notification before the answer. *)
Definition good_negotiation (x : exchange) : Prop :=
  (exists o, x_command x = CNegotiate o /\ good_option o) /\
  ~ In KProgress (x_calls x) /\ good_option (x_answer x) /\
  sendable_requests (x_requests x) /\ requests_size (x_requests x) < 536870912.

Definition is_negotiation (x : exchange) : Prop := exists o, x_command x = CNegotiate o.
