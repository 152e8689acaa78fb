(** What a filter written in Ruby says, written without the library's functions: only its types
    of actions and values are used. *)
From Verif.Base Require Import Bytes.
From Verif.Model Require Import Decoder CommandCodec ReplyCodec Status Client RubySession.
From Verif.Spec Require Import ReplyCodeSpec.
Local Open Scope N_scope.

(** The names of statuses, as documented: in lower case with dashes. *)
Definition nicks : list (bytes * status) :=
  [(lit "default", S_DEFAULT); (lit "not-change", S_NOT_CHANGE); (lit "continue", S_CONTINUE);
   (lit "reject", S_REJECT); (lit "discard", S_DISCARD); (lit "accept", S_ACCEPT);
   (lit "temporary-failure", S_TEMPORARY_FAILURE); (lit "no-reply", S_NO_REPLY);
   (lit "skip", S_SKIP); (lit "all-options", S_ALL_OPTIONS); (lit "progress", S_PROGRESS);
   (lit "abort", S_ABORT); (lit "quarantine", S_QUARANTINE); (lit "stop", S_STOP);
   (lit "error", S_ERROR)].
Definition as_nick (b : byte) : byte := if beqb b "_"%char then "-"%char else lower b.

(** [n] names [s]: upper and lower case, dash and underscore do not matter. *)
Definition names (n : bytes) (s : status) : Prop := In (map as_nick n, s) nicks.

(** What giving a value as a status means; [None]: the value is not one. *)
Inductive value_means : rvalue -> option status -> Prop :=
| vm_name n s : names n s -> value_means (VName n) (Some s)
| vm_no_name n : (forall s, ~ names n s) -> value_means (VName n) None
| vm_status s : value_means (VStatus s) (Some s)
| vm_nil : value_means VNil (Some S_DEFAULT)
| vm_other : value_means VOther None.

(** What a reply code chosen by the filter says. *)
Inductive code_means : N -> bytes -> option status -> Prop :=
| cm_temporary c e : acceptable c (Some e) -> c < 500 -> code_means c e (Some S_TEMPORARY_FAILURE)
| cm_permanent c e : acceptable c (Some e) -> 500 <= c -> code_means c e (Some S_REJECT)
| cm_wrong c e : ~ acceptable c (Some e) -> code_means c e None.

(** An option that was given, or the documented default. *)
Inductive chosen {A} : option A -> A -> A -> Prop :=
| ch_given a d : chosen (Some a) d a
| ch_default d : chosen None d d.
Definition nothing_given (o : reply_options) : Prop :=
  ro_code o = None /\ ro_extended o = None /\ ro_reason o = None.

(** What an action says about the command; [None]: nothing. *)
Inductive means : action -> option status -> Prop :=
| me_accept : means AAccept (Some S_ACCEPT)
| me_discard : means ADiscard (Some S_DISCARD)
| me_continue : means AContinue (Some S_CONTINUE)
| me_delay : means ADelay (Some S_PROGRESS)
| me_reject o : nothing_given o -> means (AReject o) (Some S_REJECT)
| me_reject_with o c e s :
    ~ nothing_given o -> chosen (ro_code o) 550 c -> chosen (ro_extended o) (lit "5.7.1") e ->
    code_means c e s -> means (AReject o) s
| me_fail o : nothing_given o -> means (ATemporaryFailure o) (Some S_TEMPORARY_FAILURE)
| me_fail_with o c e s :
    ~ nothing_given o -> chosen (ro_code o) 451 c -> chosen (ro_extended o) (lit "4.7.1") e ->
    code_means c e s -> means (ATemporaryFailure o) s
| me_quarantine r : means (AQuarantine r) (Some S_ACCEPT)
| me_status v s : value_means v s -> means (AStatus v) s
| me_set_reply c e r s : code_means c e s -> means (ASetReply c e r) s
| me_call k : means (ACall k) None.

(** What a method said with all it did: the last thing said counts. *)
Inductive decided : list action -> status -> Prop :=
| de_nothing did : Forall (fun a => means a None) did -> decided did S_DEFAULT
| de_last before a after s :
    means a (Some s) -> Forall (fun b => means b None) after -> decided (before ++ a :: after) s.

(** The answer to a command: what the session said, or the fallback status after an exception
    the session did not rescue. *)
Definition answer_to (fallback : rvalue) (e : entry) : Prop :=
  match l_raised e with
  | true => value_means fallback (Some (l_status e))
  | false => decided (l_did e) (l_status e)
  end.

(** The calls of the context an action makes. *)
Inductive asks : action -> list call -> Prop :=
| as_reply_reject o c e r :
    ~ nothing_given o -> chosen (ro_code o) 550 c -> chosen (ro_extended o) (lit "5.7.1") e ->
    chosen (ro_reason o) (lit "Command rejected") r ->
    asks (AReject o) [KSetReply c (Some e) (Some r)]
| as_reply_fail o c e r :
    ~ nothing_given o -> chosen (ro_code o) 451 c -> chosen (ro_extended o) (lit "4.7.1") e ->
    chosen (ro_reason o) (lit "Service unavailable - try again later") r ->
    asks (ATemporaryFailure o) [KSetReply c (Some e) (Some r)]
| as_set_reply c e r : asks (ASetReply c e r) [KSetReply c (Some e) (Some r)]
| as_quarantine r : asks (AQuarantine r) [KQuarantine (Some r)]
| as_call k : asks (ACall k) [k]
| as_accept : asks AAccept []
| as_discard : asks ADiscard []
| as_continue : asks AContinue []
| as_delay : asks ADelay []
| as_reject o : nothing_given o -> asks (AReject o) []
| as_fail o : nothing_given o -> asks (ATemporaryFailure o) []
| as_status v : asks (AStatus v) [].
Inductive ask_all : list action -> list call -> Prop :=
| aa_nil : ask_all [] []
| aa_cons a did ks ks' : asks a ks -> ask_all did ks' -> ask_all (a :: did) (ks ++ ks').

(** The status with which the context answers: no answer and "not changed" are the default; an
    abort has no answer, "continue" says nothing more than the default there. *)
Definition settled (m : command) (s : status) : status :=
  match m, s with
  | CAbort, (S_CONTINUE | S_ALL_OPTIONS) => S_DEFAULT
  | _, S_NOT_CHANGE => S_DEFAULT
  | _, _ => s
  end.

(** The actions after which the session's own data are reset: those that end the message.  A
    recipient that is refused does not end it. *)
Inductive ends_message (recipient : bool) : action -> Prop :=
| em_accept : ends_message recipient AAccept
| em_discard : ends_message recipient ADiscard
| em_quarantine r : ends_message recipient (AQuarantine r)
| em_reject o s : recipient = false -> means (AReject o) (Some s) -> ends_message recipient (AReject o)
| em_fail o s :
    recipient = false -> means (ATemporaryFailure o) (Some s) -> ends_message recipient (ATemporaryFailure o).

(** What a method did is what it is written to do: it gets an exception where the library cannot
    do what it says, and finds its data reset after an action that ends the message. *)
Inductive follows {U} (reset : U -> U) (recipient : bool) : method U -> list action -> bool -> U -> Prop :=
| fo_done u : follows reset recipient (Done u) [] false u
| fo_raise u : follows reset recipient (Raise u) [] true u
| fo_act u a next c v u' b did raised u'' :
    (ends_message recipient a -> u' = reset u) -> (~ ends_message recipient a -> u' = u) ->
    ((forall k, a <> ACall k) -> means a None -> b = Raised) ->
    follows reset recipient (next c v u' b) did raised u'' ->
    follows reset recipient (Act u a next) (a :: did) raised u''.

(** The operations of the context a connection amounts to. *)
Inductive amounts_to : list command -> list entry -> list client_op -> Prop :=
| am_nil : amounts_to [] [] []
| am_more m ms e log ks o q ops :
    ask_all (l_did e) ks -> amounts_to ms log ops ->
    amounts_to (m :: ms) (e :: log) (OpCommand m ks o q (settled m (l_status e)) :: ops).

(** *** Negotiation *)

(** The protocol's numbers of the "do not send" bits. *)
Definition no_send_bit (n : method_name) : N :=
  match n with
  | MConnect => 0 | MHelo => 1 | MFrom => 2 | MRcpt => 3 | MBody => 4 | MHeader => 5
  | MEndOfHeader => 6 | MUnknown => 8 | MData => 9
  end.
(** Those of the "no reply" bits and of the one that asks for leading spaces in header values. *)
Definition no_reply_bit (i : N) : Prop := i = 7 \/ (12 <= i <= 19).
Definition leading_space_bit : N := 20.

(** *** Several sessions in one *)

(** How severe an answer is; the others ([0]) are not compared. *)
Definition severity (s : status) : N :=
  match s with
  | S_DISCARD => 6 | S_REJECT => 5 | S_TEMPORARY_FAILURE => 4 | S_CONTINUE => 3 | S_SKIP => 2
  | S_ACCEPT => 1 | _ => 0
  end.

(** The severest of several answers; without one that can be compared, the last. *)
Definition severest (vs : list status) (s : status) : Prop :=
  (In s vs /\ 0 < severity s /\ Forall (fun x => severity x <= severity s) vs) \/
  (Forall (fun x => severity x = 0) vs /\ s = last vs S_DEFAULT).

(** What the sessions said that said something, in order. *)
Inductive said_all : list (list action) -> list status -> Prop :=
| sa_nil : said_all [] []
| sa_silent did parts vs :
    Forall (fun a => means a None) did -> said_all parts vs -> said_all (did :: parts) vs
| sa_said before a after s parts vs :
    means a (Some s) -> Forall (fun b => means b None) after -> said_all parts vs ->
    said_all ((before ++ a :: after) :: parts) (s :: vs).

(** The sessions run one after the other, each with its own data; those that do not respond to
    the command are left out, and one that raises an exception is the last.  [parts] are what
    they did. *)
Inductive one_by_one {U} (recipient : bool) (m : command) :
  list (rsession U) -> list U -> list (list action) -> bool -> list U -> Prop :=
| ob_end us : one_by_one recipient m [] us [] false us
| ob_deaf s ss u us parts raised us' :
    s_method s m = None -> one_by_one recipient m ss us parts raised us' ->
    one_by_one recipient m (s :: ss) (u :: us) parts raised (u :: us')
| ob_raised s ss f c u us did u' :
    s_method s m = Some f -> follows (fun u => fst (s_reset s u)) recipient (f c u) did true u' ->
    one_by_one recipient m (s :: ss) (u :: us) [did] true (u' :: us)
| ob_ran s ss f c u us did u' parts raised us' :
    s_method s m = Some f -> follows (fun u => fst (s_reset s u)) recipient (f c u) did false u' ->
    one_by_one recipient m ss us parts raised us' ->
    one_by_one recipient m (s :: ss) (u :: us) (did :: parts) raised (u' :: us').

(** The answer to an offer is made by the sessions that respond to the negotiation, each from what
    the one before left; their requests for macros are all kept. *)
Inductive answered_in_turn {U} : list (rsession U) -> list U -> moption -> moption -> requests -> Prop :=
| at_end us o : answered_in_turn [] us o o []
| at_deaf s ss u us o o' q :
    s_method s (CNegotiate o) = None -> answered_in_turn ss us o o' q ->
    answered_in_turn (s :: ss) (u :: us) o o' q
| at_answers s ss u us o o1 q1 o' q :
    s_method s (CNegotiate o) <> None -> s_answer s u o = (o1, q1) -> answered_in_turn ss us o1 o' q ->
    answered_in_turn (s :: ss) (u :: us) o o' (q1 ++ q).

(** A status given by a name with a dash in it. *)
Definition dashed (a : action) : Prop := exists n, a = AStatus (VName n) /\ In "-"%char n.
