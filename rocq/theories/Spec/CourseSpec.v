(** The course of a message whose filters may leave it or refuse it at any command of it. *)
From Coq Require Import Permutation.
From Verif.Base Require Import Bytes.
From Verif.Model Require Import Decoder CommandCodec ReplyCodec Status Option Headers Server Children.
From Verif.Spec Require Import HeaderSpec ManagerSpec MessageSpec.
Local Open Scope N_scope.

Definition command_stage (c : command) : sstate :=
  match c with
  | CHeader _ _ => XHeader
  | CEndOfHeader => XEndOfHeader
  | CBody _ => XBody
  | _ => XEndOfMessage
  end.
Definition content_stages : list sstate := [XHeader; XEndOfHeader; XBody; XEndOfMessage].

(** The commands by which a filter is given a message of which the MTA has sent everything up to
    the stage [x]. *)
Definition handed (convert : bool) (x : sstate) (hs : list header) (chunks : list bytes)
  : list command :=
  map (fun h => CHeader (h_name h) (shown convert (h_value h))) hs ++
  match x with
  | XEndOfHeader => [CEndOfHeader]
  | XBody => CEndOfHeader :: map CBody chunks
  | XEndOfMessage => CEndOfHeader :: map CBody chunks ++ [CEndOfMessage None]
  | _ => []
  end.
(** A command of the MTA as the filter gets it. *)
Definition shown_command (convert : bool) (c : command) : command :=
  match c with CHeader n v => CHeader n (shown convert (Some v)) | _ => c end.

(** How a refusal is passed on to the MTA.  [clean]: no reply code is kept from an earlier answer
    (see C31_reply_code_shown_refuted). *)
Definition refusal (clean : bool) (r : reply) : option event :=
  match r with
  | RReject => if clean then Some (OAnswer S_REJECT) else None
  | RTemporaryFailure => if clean then Some (OAnswer S_TEMPORARY_FAILURE) else None
  | RDiscard => Some (OAnswer S_DISCARD)
  | RReplyCode c e m => if (400 <=? c) && (c <? 600) then Some (OAnswerCode c e m) else None
  | _ => None
  end.

(** Filter [k] goes on with [n] commands; it gives one answer. *)
Definition goes_on_times (k : worker) (n : nat) : list op :=
  concat (repeat (goes_on_with (wk_filter k)) n).
Definition replies (k : worker) (r : reply) : list op :=
  [KFlushed (wk_filter k); KReply (wk_filter k) r].
Definition sent (k : worker) (cs : list command) : list event := map (OSent (wk_filter k)) cs.

(** What the MTA is told about the changes. *)
Definition changes (size : N) (original : list header) (c : content) (es : list event) : Prop :=
  exists chunks requests,
    (if c_replaced c then chunked size (c_body c) chunks else chunks = []) /\
    (NoDup original -> case_consistent (original ++ c_headers c) -> Forall has_text (c_headers c) ->
     Permutation (mta_run original requests) (c_headers c)) /\
    es = map OReplaceBody chunks ++ map OHeader requests ++
         match c_from c with Some (f, p) => [OChangeFrom f p] | None => [] end ++
         match c_quarantine c with Some r => [OQuarantine r] | None => [] end.

Section Course.
  (** The configured chunk size, the number of filters, which of the filters not taking part left
      the message at envelope-from, the stages at which no filter refused an earlier message, and
      whether no reply code is kept from an earlier answer. *)
  Variable size : N.
  Variable total : nat.
  Variable early : nat -> bool.
  Variable fresh : list sstate.
  Variable clean : bool.
  (** What the MTA is told about the changes, from the headers it sent and the final content. *)
  Variable final : list header -> content -> list event.

  (** When a message is refused the filters [stay] still taking part are told to abort it, and so
      are those that left at envelope-from. *)
  Definition aborts (stay : list nat) : list event :=
    map (fun i => OSent i CAbort)
        (filter (fun i => existsb (Nat.eqb i) stay || early i) (seq 0 total)).

  (** *** Before the end of the message *)

  (** The MTA has sent the message up to the stage [x], with the headers [hs] and the body [body]
      so far; [k] is now given the commands [cmds] and [ks] wait behind it.  [said]: the stages in
      which some filter went on, in this message or an earlier one.  In the end the MTA's command is answered and another filter may
      be the one in front, or the message is over ([None]). *)
  Inductive heard (x : sstate) (hs : list header) (body : bytes)
    : list sstate -> worker -> list worker -> list command -> list op -> list event ->
      option (worker * list worker * list sstate) -> Prop :=
  | heard_all said k ks cmds :
      heard x hs body said k ks cmds
        (goes_on_times k (length cmds)) (sent k cmds ++ [OAnswer S_CONTINUE])
        (Some (k, ks, said ++ map command_stage cmds))
  | heard_leaves said k k' ks before c after chunks ops es result :
      (x = XBody -> body <> []) -> chunked size body chunks ->
      heard x hs body (said ++ map command_stage before) k' ks
            (handed (wk_convert k') x hs chunks) ops es result ->
      heard x hs body said k (k' :: ks) (before ++ c :: after)
        (goes_on_times k (length before) ++ replies k RAccept ++ ops)
        (sent k (before ++ [c]) ++ es) result
  | heard_last_leaves said k before c after :
      List.In x fresh -> ~ List.In x (said ++ map command_stage before) ->
      heard x hs body said k [] (before ++ c :: after)
        (goes_on_times k (length before) ++ replies k RAccept)
        (sent k (before ++ [c]) ++ [OAnswer S_ACCEPT]) None
  | heard_refuses said k ks before c after r e :
      wk_evaluated k = false -> refusal clean r = Some e -> List.In (command_stage c) fresh ->
      heard x hs body said k ks (before ++ c :: after)
        (goes_on_times k (length before) ++ replies k r)
        (sent k (before ++ [c]) ++ e :: aborts (map wk_filter ks)) None.

  (** *** At the end of the message *)

  (** [original]: the headers as the MTA sent them; [stay]: the filters that are through with the
      message and still take part; [k] is given [cmds], the last of which is end-of-message. *)
  Inductive ends (original : list header)
    : list sstate -> list nat -> worker -> list worker -> content -> list command ->
      list op -> list event -> Prop :=
  | ends_on said stay k ks c cmds es c' ops es' :
      works k c es c' ->
      rest original (said ++ map command_stage cmds) (stay ++ [wk_filter k]) ks c' ops es' ->
      ends original said stay k ks c cmds
        (goes_on_times k (length cmds - 1) ++ last_answer k ++ ops) (sent k cmds ++ es ++ es')
  | ends_agreed said stay k ks c before last es c' ops es' :
      works k c es c' ->
      rest original (said ++ map command_stage before) stay ks c' ops es' ->
      ends original said stay k ks c (before ++ [last])
        (goes_on_times k (length before) ++
         (KFlushed (wk_filter k) :: map (KReply (wk_filter k)) (wk_requests k) ++
          [KReply (wk_filter k) RAccept]) ++ ops)
        (sent k (before ++ [last]) ++ es ++ es')
  | ends_left said stay k ks c before cmd after ops es :
      after <> [] ->
      rest original (said ++ map command_stage before) stay ks c ops es ->
      ends original said stay k ks c (before ++ cmd :: after)
        (goes_on_times k (length before) ++ replies k RAccept ++ ops)
        (sent k (before ++ [cmd]) ++ es)
  | ends_refused said stay k ks c before cmd after r e :
      after <> [] ->
      wk_evaluated k = false -> refusal clean r = Some e -> List.In (command_stage cmd) fresh ->
      ends original said stay k ks c (before ++ cmd :: after)
        (goes_on_times k (length before) ++ replies k r)
        (sent k (before ++ [cmd]) ++ e :: aborts (stay ++ map wk_filter ks))
  | ends_refused_last said stay k ks c before last es c' r e :
      works k c es c' ->
      wk_evaluated k = false -> refusal clean r = Some e -> List.In XEndOfMessage fresh ->
      ends original said stay k ks c (before ++ [last])
        (goes_on_times k (length before) ++
         KFlushed (wk_filter k) :: map (KReply (wk_filter k)) (wk_requests k) ++
         [KReply (wk_filter k) r])
        (sent k (before ++ [last]) ++ es ++ final original c' ++ e :: aborts (stay ++ map wk_filter ks))
  (** The filters behind, each given the message as it is then; when there are no more the MTA is
      told the changes and that the message passes. *)
  with rest (original : list header)
    : list sstate -> list nat -> list worker -> content -> list op -> list event -> Prop :=
  | rest_none said stay c v :
      List.In XEndOfMessage fresh ->
      (List.In XEndOfMessage said -> v = S_CONTINUE) ->
      (~ List.In XEndOfMessage said -> v = S_ACCEPT) ->
      rest original said stay [] c [] (final original c ++ [OAnswer v])
  | rest_next said stay k ks c chunks ops es :
      c_headers c <> [] -> c_body c <> [] -> chunked size (c_body c) chunks ->
      ends original said stay k ks c (commands (wk_convert k) (c_headers c) chunks) ops es ->
      rest original said stay (k :: ks) c ops es.

  (** *** The whole message *)

  (** The MTA's command [c] adds to the message. *)
  Inductive grows : sstate -> list header -> bytes -> command -> sstate -> list header -> bytes -> Prop :=
  | grows_header x hs n v : x = XData \/ x = XHeader ->
      grows x hs [] (CHeader n v) XHeader (hs ++ [mk_header n (Some v)]) []
  | grows_end hs : grows XHeader hs [] CEndOfHeader XEndOfHeader hs []
  | grows_body x hs body b : x = XEndOfHeader \/ x = XBody -> N.of_nat (length b) <= 65535 ->
      grows x hs body (CBody b) XBody hs (body ++ b).

  (** The MTA sends the commands [cs], each after the one before it was answered, until the message
      is over. *)
  Inductive course : list sstate -> sstate -> list header -> bytes -> worker -> list worker ->
    list command -> list op -> list event -> Prop :=
  | course_so_far said x hs body k ks : course said x hs body k ks [] [] []
  | course_on said x hs body k ks c x' hs' body' cs ops es k' ks' said' ops' es' :
      grows x hs body c x' hs' body' ->
      heard x' hs' body' said k ks [shown_command (wk_convert k) c] ops es (Some (k', ks', said')) ->
      course said' x' hs' body' k' ks' cs ops' es' ->
      course said x hs body k ks (c :: cs) (Mta c :: ops ++ ops') (es ++ es')
  | course_over said x hs body k ks c x' hs' body' ops es :
      grows x hs body c x' hs' body' ->
      heard x' hs' body' said k ks [shown_command (wk_convert k) c] ops es None ->
      course said x hs body k ks [c] (Mta c :: ops) es
  | course_end said hs body k ks ops es :
      ends hs said [] k ks (mk_content hs body false None None) [CEndOfMessage None] ops es ->
      course said XBody hs body k ks [CEndOfMessage None] (Mta (CEndOfMessage None) :: ops) es.
End Course.

(** What is left of earlier messages when this one begins: at the stages [fresh] no refusal, and
    of these stages filters went on in exactly [said]. *)
Definition remembers (fresh said : list sstate) (w : world) : Prop :=
  forall x, List.In x fresh ->
    unrefused (f_statuses (w_flow w) x) /\
    (stored_status (f_statuses (w_flow w) x) = S_CONTINUE <-> List.In x said).
Definition no_code (w : world) : bool := match f_code (w_flow w) with None => true | Some _ => false end.
(** The filter is out of the message since envelope-from. *)
Definition left_at_from (w : world) (i : nat) : bool :=
  negb (k_is_processing_message (child_of w i)) && sstate_eqb (k_state (child_of w i)) XFrom.

(** *** What can be relied on in every course *)

(** The answers the MTA gets, and those that let the message pass. *)
Definition is_answer (e : event) : bool :=
  match e with OAnswer _ | OAnswerCode _ _ _ => true | _ => false end.
Definition lets_pass (e : event) : bool :=
  match e with OAnswer S_CONTINUE | OAnswer S_ACCEPT => true | _ => false end.
(** A filter says no. *)
Definition says_no (o : op) : bool :=
  match o with
  | KReply _ (RReject | RTemporaryFailure | RDiscard | RReplyCode _ _ _) => true
  | _ => false
  end.

(** The order of the content of a message, with [None] before its first command. *)
Definition may_follow (previous : option command) (c : command) : bool :=
  match previous, c with
  | (None | Some (CHeader _ _)), CHeader _ _ => true
  | Some (CHeader _ _), CEndOfHeader => true
  | Some (CEndOfHeader | CBody _), (CBody _ | CEndOfMessage _) => true
  | (None | Some (CHeader _ _ | CEndOfHeader | CBody _ | CEndOfMessage _)), CAbort => true
  | _, _ => false
  end.
Fixpoint in_order (previous : option command) (cs : list command) : bool :=
  match cs with
  | [] => true
  | c :: cs => may_follow previous c && in_order (Some c) cs
  end.
Definition sent_to (i : nat) (es : list event) : list command :=
  flat_map (fun e => match e with OSent j c => if Nat.eqb i j then [c] else [] | _ => [] end) es.
