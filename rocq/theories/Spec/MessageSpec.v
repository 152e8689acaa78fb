(** What a message goes through: the filters get it one after the other, each as the ones before
    it left it, and in the end the MTA is told the difference. *)
From Coq Require Import Permutation.
From Verif.Base Require Import Bytes.
From Verif.Model Require Import Decoder CommandCodec ReplyCodec Status Option Headers Server Children.
From Verif.Spec Require Import HeaderSpec ManagerSpec.
Local Open Scope N_scope.

Record content := mk_content {
  c_headers : list header;
  c_body : bytes;
  c_replaced : bool;   (* some filter replaced the body *)
  c_from : option (bytes * option bytes);   (* the last change of the sender *)
  c_quarantine : option bytes   (* the last quarantine reason *)
}.
Definition with_headers (c : content) (hs : list header) : content :=
  mk_content hs (c_body c) (c_replaced c) (c_from c) (c_quarantine c).

(** A header value has a leading space where the MTA and the manager keep it ([convert]) and none
    where the filter does not. *)
Definition shown (convert : bool) (v : option bytes) : bytes :=
  match v, convert with
  | None, _ => []
  | Some (" "%char :: b), true => b
  | Some b, _ => b
  end.
Definition entered (convert : bool) (v : option bytes) : option bytes :=
  match v, convert with
  | Some (" "%char :: b), true => v
  | Some b, true => Some (" "%char :: b)
  | _, _ => v
  end.

(** [edits convert again rs c es c']: the requests [rs] of one filter make [c'] out of [c], and
    the events [es] are passed on at once.  [again]: the filter has replaced the body before, so
    that more of it follows. *)
Inductive edits (convert : bool) : bool -> list reply -> content -> list event -> content -> Prop :=
| edits_nil again c : edits convert again [] c [] c
| edits_add again n v rs c hs es c' :
    added n (entered convert (Some v)) (c_headers c) hs ->
    edits convert again rs (with_headers c hs) es c' ->
    edits convert again (RAddHeader n v :: rs) c es c'
| edits_insert again p n v rs c hs es c' :
    p < 4294967296 -> (Z.of_nat (length (c_headers c)) < 2147483648)%Z ->
    inserted p (mk_header n (entered convert v)) (c_headers c) hs ->
    edits convert again rs (with_headers c hs) es c' ->
    edits convert again (RInsertHeader p n v :: rs) c es c'
| edits_change again n p v v' rs c hs es c' :
    entered convert (Some v) = Some v' -> changed n p v' (c_headers c) hs ->
    edits convert again rs (with_headers c hs) es c' ->
    edits convert again (RChangeHeader n p v :: rs) c es c'
| edits_delete again n p (found : bool) rs c hs es c' :
    deleted n p (c_headers c) found hs ->
    edits convert again rs (with_headers c hs) es c' ->
    edits convert again (RDeleteHeader n p :: rs) c es c'
| edits_from again f p rs c es c' :
    edits convert again rs
      (mk_content (c_headers c) (c_body c) (c_replaced c) (Some (f, p)) (c_quarantine c)) es c' ->
    edits convert again (RChangeFrom f p :: rs) c es c'
| edits_quarantine again reason rs c es c' :
    edits convert again rs
      (mk_content (c_headers c) (c_body c) (c_replaced c) (c_from c) (Some reason)) es c' ->
    edits convert again (RQuarantine reason :: rs) c es c'
| edits_body (again : bool) b rs c es c' :
    edits convert true rs
      (mk_content (c_headers c) (if again then c_body c ++ b else b) true (c_from c)
                  (c_quarantine c)) es c' ->
    edits convert again (RReplaceBody b :: rs) c es c'
| edits_add_recipient again a p rs c es c' :
    edits convert again rs c es c' ->
    edits convert again (RAddRecipient a p :: rs) c (OAddRecipient a p :: es) c'
| edits_delete_recipient again a rs c es c' :
    edits convert again rs c es c' ->
    edits convert again (RDeleteRecipient a :: rs) c (ODeleteRecipient a :: es) c'
| edits_progress again rs c es c' :
    edits convert again rs c es c' ->
    edits convert again (RProgress :: rs) c (OProgress :: es) c'.

(** A filter in evaluation mode changes nothing, only its signs of life are passed on. *)
Inductive ignored : list reply -> list event -> Prop :=
| ignored_nil : ignored [] []
| ignored_progress rs es : ignored rs es -> ignored (RProgress :: rs) (OProgress :: es)
| ignored_edit r rs es : is_edit r = true -> ignored rs es -> ignored (r :: rs) es.

(** One filter: its number, is its space converted, is it evaluated, what it asks to change. *)
Record worker := mk_worker {
  wk_filter : nat;
  wk_convert : bool;
  wk_evaluated : bool;
  wk_requests : list reply
}.
Definition works (k : worker) (c : content) (es : list event) (c' : content) : Prop :=
  if wk_evaluated k then ignored (wk_requests k) es /\ c' = c
  else edits (wk_convert k) false (wk_requests k) c es c'.

(** [b] in pieces of [size] bytes; only the last is shorter. *)
Inductive chunked (size : N) : bytes -> list bytes -> Prop :=
| chunked_none : chunked size [] []
| chunked_last b : b <> [] -> N.of_nat (length b) <= size -> chunked size b [b]
| chunked_more a b cs : N.of_nat (length a) = size -> b <> [] ->
    chunked size b cs -> chunked size (a ++ b) (a :: cs).

(** The commands by which a filter is given a message. *)
Definition commands (convert : bool) (hs : list header) (chunks : list bytes) : list command :=
  map (fun h => CHeader (h_name h) (shown convert (h_value h))) hs ++
  CEndOfHeader :: map CBody chunks ++ [CEndOfMessage None].

(** The filter [i] goes on with a command. *)
Definition goes_on_with (i : nat) : list op := [KFlushed i; KReply i RContinue].

(** At the end of the message a filter asks for its changes and goes on. *)
Definition last_answer (k : worker) : list op :=
  KFlushed (wk_filter k) :: map (KReply (wk_filter k)) (wk_requests k) ++
  [KReply (wk_filter k) RContinue].

(** The filters behind the first one: each gets the message as it is then, goes on with every
    command but the last, and makes its changes.  [size]: the configured chunk size. *)
Inductive relayed (size : N) : list worker -> content -> list op -> list event -> content -> Prop :=
| relayed_done c : relayed size [] c [] [] c
| relayed_next k ks c chunks es c' ops es' c'' :
    c_headers c <> [] -> c_body c <> [] -> chunked size (c_body c) chunks ->
    works k c es c' -> relayed size ks c' ops es' c'' ->
    let cmds := commands (wk_convert k) (c_headers c) chunks in
    relayed size (k :: ks) c
      (concat (repeat (goes_on_with (wk_filter k)) (length cmds - 1)) ++ last_answer k ++ ops)
      (map (OSent (wk_filter k)) cmds ++ es ++ es') c''.

(** The first filter gets the commands of the MTA as they come, each answered before the next
    comes. *)
Definition sent_by_mta (hs : list header) (chunks : list bytes) : list command :=
  map (fun h => CHeader (h_name h) (match h_value h with Some v => v | None => [] end)) hs ++
  CEndOfHeader :: map CBody chunks.
Definition first_ops (k : worker) (hs : list header) (chunks : list bytes) : list op :=
  concat (map (fun c => Mta c :: goes_on_with (wk_filter k)) (sent_by_mta hs chunks)) ++
  Mta (CEndOfMessage None) :: last_answer k.
Definition first_events (k : worker) (hs : list header) (chunks : list bytes) : list event :=
  concat (map (fun c => [OSent (wk_filter k) c; OAnswer S_CONTINUE])
              (map (fun h => CHeader (h_name h) (shown (wk_convert k) (h_value h))) hs ++
               CEndOfHeader :: map CBody chunks)) ++
  [OSent (wk_filter k) (CEndOfMessage None)].

(** What the MTA is told in the end.  The header requests, when names and values are regular
    (see C17), turn the original headers into the final ones. *)
Definition told (size : N) (original : list header) (c : content) (es : list event) : Prop :=
  exists chunks requests,
    (if c_replaced c then chunked size (c_body c) chunks else chunks = []) /\
    (NoDup original -> case_consistent (original ++ c_headers c) -> Forall has_text (c_headers c) ->
     Permutation (mta_run original requests) (c_headers c)) /\
    es = map OReplaceBody chunks ++ map OHeader requests ++
         match c_from c with Some (f, p) => [OChangeFrom f p] | None => [] end ++
         match c_quarantine c with Some r => [OQuarantine r] | None => [] end ++
         [OAnswer S_CONTINUE].

(** The events that someone else sees. *)
Definition visible (e : event) : bool :=
  match e with OIn _ | OReturn _ => false | _ => true end.

(** *** The filters before a message *)

(** A filter that takes the whole message and answers every command. *)
Record takes_all (o : moption) : Prop := {
  takes_headers : N.land (o_step o) STEP_NO_HEADERS = 0;
  takes_end_of_header : N.land (o_step o) STEP_NO_END_OF_HEADER = 0;
  takes_body : N.land (o_step o) STEP_NO_BODY = 0;
  answers_header : N.land (o_step o) STEP_NO_REPLY_HEADER = 0;
  answers_end_of_header : N.land (o_step o) STEP_NO_REPLY_END_OF_HEADER = 0;
  answers_body : N.land (o_step o) STEP_NO_REPLY_BODY = 0
}.
(** It has negotiated [o], takes part in the message and did not ask to skip the body. *)
Record fits (o : moption) (ev : bool) (k : child) : Prop := {
  fits_connected : k_connected k = true;
  fits_quitted : k_quitted k = false;
  fits_negotiated : k_negotiated k = true;
  fits_processing : k_processing k = true;
  fits_option : k_option k = Some o;
  fits_skip : k_skip k = false;
  fits_body : k_body k = [];
  fits_evaluation : k_evaluation k = ev
}.
(** No command is on its way and no answer is awaited. *)
Definition free (k : child) : Prop := k_next k = [] /\ k_timer k = None /\ k_replies k = [].
(** The leading space is kept by the MTA and not by this filter. *)
Definition converts (negotiated o : moption) : bool :=
  (N.land (o_step o) STEP_HEADER_LEADING_SPACE =? 0) &&
  negb (N.land (o_step negotiated) STEP_HEADER_LEADING_SPACE =? 0).
Definition able (negotiated : moption) (k : worker) (w : world) : Prop :=
  (wk_filter k < length (w_children w))%nat /\
  exists o, takes_all o /\ converts negotiated o = wk_convert k /\
            fits o (wk_evaluated k) (child_of w (wk_filter k)) /\ free (child_of w (wk_filter k)).
(** No filter refused at the end of a message before (see C32). *)
Definition unrefused (s : option status) : Prop :=
  match stored_status s with S_NOT_CHANGE | S_CONTINUE | S_ACCEPT => True | _ => False end.

(** The envelope is done, the content is about to come; [ks] are the filters taking part. *)
Record begins (negotiated : moption) (ks : list worker) (w : world) : Prop := {
  begins_crashed : w_crashed w = false;
  begins_nego : n_option (w_nego w) = Some negotiated;
  begins_able : Forall (fun k => able negotiated k w) ks;
  begins_all : map wk_filter ks =
               filter (fun i => k_is_processing_message (child_of w i)) (indices w);
  begins_accepted : Forall (fun k => k_has_accepted_recipient (child_of w (wk_filter k)) = true) ks;
  begins_state : f_state (w_flow w) <> XRcpt;
  begins_waiting : f_waiting (w_flow w) = [];
  begins_commands : f_commands (w_flow w) = [];
  begins_index : f_index (w_flow w) = 0;
  begins_emitted : f_emitted (w_flow w) = false;
  begins_status : unrefused (f_statuses (w_flow w) XEndOfMessage);
  begins_original : m_original (w_mail w) = None;
  begins_headers : m_headers (w_mail w) = None;
  begins_body : m_body (w_mail w) = None;
  begins_file : m_file (w_mail w) = None;
  begins_replaced : m_replaced (w_mail w) = false;
  begins_from : m_from (w_mail w) = None;
  begins_quarantine : m_quarantine (w_mail w) = None
}.
