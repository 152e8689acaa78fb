(** C23 (manager side), C24, C25, C26, C27, C41, C47, C48: the manager's context for one filter.

    Each theorem is about the history of a context after any sequence of calls, flushes, replies
    and timeouts, with any outcome of the writes, any answers of the stop handlers and any
    handlers that call back into the context.  Histories are latest first. *)
From Verif.Base Require Import Bytes BytesFacts.
From Verif.Model Require Import Decoder Encoder CommandCodec ReplyCodec Status Option Macros Client
                                Server.
From Verif.Spec Require Import ServerSpec.
From Verif.Proofs Require Import ExampleOracles ServerInv ServerFacts ServerAnswers ServerOnce
                                 ServerRecipients ServerBody.
From Coq Require Import ZifyBool ZifyNat ZifyN Permutation.
Local Open Scope N_scope.

(** For the examples and refutations: a context whose writes succeed and that is left alone. *)
Definition plain_run (ops : list op) : server :=
  server_run toy_ntop toy_ntop (fun l => l) (fun _ => Taken) (fun _ => false) (fun _ => None) 0
             server_new ops.
Definition plain (ops : list op) : list event := sv_trace (plain_run ops).
(** Everything is wanted and answered. *)
Definition all_steps : moption := mk_option 6 511 0.
Definition negotiated : list op :=
  [Call (ANegotiate all_steps); Flushed; Receive (RNegotiate all_steps None)].

Section Server.
  Variables (ntop4 ntop6 : bytes -> bytes).
  Variable sort_keys : list bytes -> list bytes.
  Variable writes : list event -> write_outcome.
  Variable stops : list event -> bool.
  Variable handlers : list event -> option api.
  Variable depth : nat.

  Notation after := (server_run ntop4 ntop6 sort_keys writes stops handlers depth server_new).
  Notation history ops := (sv_trace (after ops)).
  Notation before_event e ops t := (exists later, history ops = later ++ e :: t).

  Lemma history_ok e ops t : before_event e ops t -> event_ok ntop4 ntop6 sort_keys e t.
  Proof.
    intros [later E]. destruct (run_ok ntop4 ntop6 sort_keys writes stops handlers depth ops) as [H _].
    rewrite E in H. now apply trace_ok_split in H as [H _].
  Qed.

  (** *** C24 *)

  (** No command other than abort and quit goes out while one is unanswered. *)
  Theorem C24_no_second_command ops t x prefix packet :
    before_event (Sent x prefix packet) ops t \/ before_event (Lost x prefix packet) ops t ->
    overtakes x = false -> outstanding t = false.
  Proof. intros [H|H]; apply history_ok in H; exact (proj1 H). Qed.

  (** Between two commands there is an answer, if the first one calls for one and neither a body
      packet, an abort, a quit, a failed write nor a change of the option comes in between. *)
  Theorem C24_answer_between_partial ops later f between e before x y :
    history ops = later ++ f :: between ++ e :: before ->
    command_sent e = Some x -> command_sent f = Some y -> overtakes x = false -> overtakes y = false ->
    awaits (session_option before) x = true ->
    l_unflushed (link_of before) = [] -> l_todo (link_of before) = [] ->
    forallb (fun e => negb (disturbs e)) between = true ->
    exists r, List.In (In (Receive r)) between /\ is_modification r = false.
  Proof.
    intros E. destruct (run_ok ntop4 ntop6 sort_keys writes stops handlers depth ops) as [H _].
    rewrite E in H. exact (answer_between ntop4 ntop6 sort_keys x y e f later between before H).
  Qed.

  (** A call for a command the filter wants, made while an answer is outstanding, is refused and
      sends nothing. *)
  Theorem C24_refused ops c cmd x :
    sv_crashed (after ops) = false ->
    outstanding (history ops) = true -> command_of c = Some (cmd, x) -> overtakes x = false ->
    stops (In (Call c) :: history ops) = false ->
    wanted (session_option (In (Call c) :: history ops)) x ->
    exists l, history (ops ++ [Call c]) = l ++ Error Busy :: In (Call c) :: history ops /\
              (sv_crashed (after (ops ++ [Call c])) = false -> exists l', l = Return false :: l').
  Proof.
    intros Hc Ho Hcmd Hu Hst Hw.
    destruct (run_ok ntop4 ntop6 sort_keys writes stops handlers depth ops) as [_ H].
    rewrite run_step. unfold server_step, step. rewrite Hc.
    apply (refused_call ntop4 ntop6 sort_keys writes stops _ _ c cmd x []); auto.
    apply react_extends.
  Qed.

  (** *** C25 *)

  (** A modification is passed on exactly if the stage is end of message and quit was not said;
      at any other stage it is reported as an error. *)
  Theorem C25_modification ops r :
    sv_crashed (after ops) = false -> is_modification r = true ->
    let t := history ops in
    exists l, forallb nested l = true /\
      history (ops ++ [Receive r]) =
        l ++ (if sstate_eqb (stage t) XEndOfMessage then if quit_said t then [] else [Forward r]
              else [Error InvalidState])
          ++ In (Receive r) :: t /\
      (sstate_eqb (stage t) XEndOfMessage && quit_said t = true -> l = []).
  Proof.
    intros Hc Hm t.
    destruct (run_ok ntop4 ntop6 sort_keys writes stops handlers depth ops) as [_ H].
    pose proof (modification_step ntop4 ntop6 sort_keys writes
                  (Server.react ntop4 ntop6 sort_keys writes stops handlers depth) (after ops) r []
                  (react_extends ntop4 ntop6 sort_keys writes stops handlers depth) Hm Hc (H Hc)) as Hs.
    rewrite run_step. unfold server_step, step. rewrite Hc. fold t in Hs. cbn zeta in Hs.
    destruct (sstate_eqb (stage t) XEndOfMessage), (quit_said t).
    - exists []. rewrite Hs. auto.
    - destruct Hs as (l & Hn & E). exists l. rewrite E. split; [exact Hn|]. split; [reflexivity|discriminate].
    - destruct Hs as (l & Hn & E). exists l. rewrite E. split; [exact Hn|]. split; [reflexivity|discriminate].
    - destruct Hs as (l & Hn & E). exists l. rewrite E. split; [exact Hn|]. split; [reflexivity|discriminate].
  Qed.

  (** Nothing is passed on but the reply that was just received, and a modification only at end
      of message. *)
  Theorem C25_only_at_end_of_message ops t r :
    before_event (Forward r) ops t ->
    (exists t', t = In (Receive r) :: t') /\
    (is_modification r = true -> stage t = XEndOfMessage /\ quit_said t = false).
  Proof. intros H. apply history_ok in H as (H1 & H2 & H3 & _). auto. Qed.

  (** *** C26 *)

  Theorem C26_silent_after_quit ops t r : before_event (Forward r) ops t -> quit_said t = false.
  Proof. intros H. apply history_ok in H. apply H. Qed.

  (** Quit stays said unless the owner of the context takes it back. *)
  Theorem C26_quit_lasts t later :
    quit_said t = true -> (forall b, List.In (In (Call (ASetQuitted b))) later -> b = true) ->
    quit_said (later ++ t) = true.
  Proof.
    intros H Hl. induction later as [|e l IH]; [exact H|].
    assert (IH' : quit_said (l ++ t) = true) by (apply IH; intros b Hb; apply Hl; now right).
    cbn [app quit_said]. destruct e; try exact IH'. destruct o; try exact IH'.
    destruct c; try exact IH'; [reflexivity|]. apply Hl. now left.
  Qed.

  (** *** C27 *)

  (** The report carries the filter's verdict and the stage that ended the message. *)
  Theorem C27_report ops t m :
    before_event (Processed m) ops t ->
    mr_status m = verdict t /\
    (XFrom = stage t \/ XRcpt = stage t \/ XData = stage t \/ XHeader = stage t \/
     XEndOfHeader = stage t \/ XBody = stage t \/ XEndOfMessage = stage t ->
     mr_state m = Some (true, stage t)).
  Proof.
    intros H. apply history_ok in H as [H1 H2]. split; [exact H1|]. revert H2.
    intros H2 H. destruct (stage t); auto; exfalso; intuition congruence.
  Qed.

  (** Between two reports the message was touched again: by a message command, a stop, a refusal
      or an edit. *)
  Theorem C27_once_partial ops later m between m' before :
    (forall r t, edits r = true -> handlers (Forward r :: t) = None) ->
    history ops = later ++ Processed m :: between ++ Processed m' :: before ->
    exists e, List.In e between /\ touches e = true.
  Proof.
    intros Hq E.
    pose proof (run_once ntop4 ntop6 sort_keys writes stops handlers Hq depth ops) as H.
    rewrite E in H. exact (once_split later m between m' before H).
  Qed.

  (** *** C23 *)

  (** Body packets carry at most 65535 bytes; what was sent is a prefix of what was given. *)
  Theorem C23_body_packet ops t prefix packet :
    before_event (Sent XBody prefix packet) ops t \/ before_event (Lost XBody prefix packet) ops t ->
    exists b, (zlen b <= 65535)%Z /\ packet = pack ("B"%char :: b).
  Proof. intros [H|H]; apply history_ok in H as (_ & H & _); exact H. Qed.

  Theorem C23_body_prefix ops :
    sv_crashed (after ops) = false ->
    exists rest, body_given (history ops) = body_sent (history ops) ++ rest.
  Proof.
    intros Hc. destruct (run_ok ntop4 ntop6 sort_keys writes stops handlers depth ops) as [_ H].
    destruct (H Hc) as [_ [He _]]. exists (sv_body (after ops)). exact He.
  Qed.

  (** A filter that answers every body packet by continue gets all of it. *)
  Theorem C23_body_complete ops o n :
    (forall t, writes t <> Refused) -> (forall t, handlers t = None) ->
    sv_crashed (after ops) = false -> stage (history ops) = XBody -> quit_said (history ops) = false ->
    l_unflushed (link_of (history ops)) = [] -> session_option (history ops) = Some o ->
    N.land (o_step o) STEP_NO_REPLY_BODY = 0 ->
    N.of_nat (length (body_given (history ops))) <= N.of_nat (length (body_sent (history ops)))
                                                    + N.of_nat n * 65535 ->
    let t := history (ops ++ body_rounds n) in body_sent t = body_given t.
  Proof.
    intros Hw Hh Hc Hs Hq Hu Ho Hr Hl t.
    destruct (run_ok ntop4 ntop6 sort_keys writes stops handlers depth ops) as [_ H].
    destruct (H Hc) as [[] [Hb _]]. clear H. unfold body_eq in Hb.
    assert (HS : sending (after ops)).
    { constructor; try congruence. exists o. split; [congruence|exact Hr]. }
    destruct (rounds_sending ntop4 ntop6 sort_keys writes stops handlers Hw Hh depth n _ HS) as [HS' E].
    assert (Ea : after (ops ++ body_rounds n)
                 = server_run ntop4 ntop6 sort_keys writes stops handlers depth (after ops) (body_rounds n))
      by (unfold server_run; now rewrite fold_left_app).
    rewrite <- Ea in HS', E.
    destruct (run_ok ntop4 ntop6 sort_keys writes stops handlers depth (ops ++ body_rounds n)) as [_ H].
    destruct (H (sg_crashed _ HS')) as [_ [Hb' _]]. unfold body_eq in Hb'. fold t in Hb'.
    rewrite E, skipn_all2, app_nil_r in Hb'; [now symmetry|].
    apply (f_equal (@length byte)) in Hb. rewrite app_length in Hb.
    assert (Es : N.of_nat size = 65535) by (vm_compute; reflexivity).
    assert (Em : N.of_nat (n * size) = N.of_nat n * 65535) by (rewrite Nat2N.inj_mul, Es; reflexivity).
    lia.
  Qed.

  (** *** C47 *)

  (** A command the filter declined is not sent, a command it did not decline is not left out.  A
      rest of a body is sent without looking at the option again. *)
  Theorem C47_only_wanted ops t x prefix packet :
    before_event (Sent x prefix packet) ops t \/ before_event (Lost x prefix packet) ops t ->
    x <> XBody \/ (exists chunk t', t = In (Call (ABody chunk)) :: t') ->
    wanted (session_option t) x.
  Proof.
    intros H Hx.
    assert (Hs : sent_ok ntop4 ntop6 sort_keys x packet t) by (destruct H as [H|H]; exact (history_ok _ _ _ H)).
    destruct Hs as [_ Hs]. destruct (sstate_eqb x XBody) eqn:E.
    - destruct Hx as [Hx|(chunk & t' & ->)].
      + elim Hx. destruct x; discriminate E || reflexivity.
      + destruct Hs as [_ [Hs|Hs]]; [discriminate Hs|exact Hs].
    - apply Hs.
  Qed.

  Theorem C47_left_out_unwanted ops t x :
    before_event (Unasked x) ops t -> ~ wanted (session_option t) x.
  Proof. intros H. exact (history_ok _ _ _ H). Qed.

  (** Every command is the encoding of the call that was made. *)
  Theorem C47_command_of_call ops t x prefix packet :
    before_event (Sent x prefix packet) ops t \/ before_event (Lost x prefix packet) ops t ->
    x <> XBody -> x <> XNegotiate ->
    exists c cmd t', t = In (Call c) :: t' /\ command_of c = Some (cmd, x) /\
                     packet = pack (command_payload ntop4 ntop6 sort_keys cmd).
  Proof.
    intros H Hx Hn.
    assert (Hs : sent_ok ntop4 ntop6 sort_keys x packet t) by (destruct H as [H|H]; exact (history_ok _ _ _ H)).
    destruct Hs as [_ Hs]. destruct (sstate_eqb x XBody) eqn:E.
    - elim Hx. destruct x; discriminate E || reflexivity.
    - destruct Hs as [_ (c & cmd & t' & E1 & E2 & E3)]. exists c, cmd, t'. auto.
  Qed.

  (** *** C48 *)

  Theorem C48_fits_stage ops t r :
    before_event (Forward r) ops t ->
    match r with
    | RNegotiate _ _ => stage t = XNegotiate
    | RContinue | RReplyCode _ _ _ =>
        List.In (stage t) [XConnect; XHelo; XFrom; XRcpt; XUnknown; XData; XHeader; XEndOfHeader;
                           XBody; XEndOfMessage]
    | RSkip => stage t = XBody
    | _ => True
    end.
  Proof.
    intros H. apply history_ok in H as (_ & _ & _ & H).
    assert (Ha : answerable (stage t) = true ->
                 List.In (stage t) [XConnect; XHelo; XFrom; XRcpt; XUnknown; XData; XHeader;
                                    XEndOfHeader; XBody; XEndOfMessage])
      by (destruct (stage t); intros Hx; try discriminate Hx; cbn; intuition).
    destruct r; auto.
  Qed.
End Server.

Print Assumptions C24_no_second_command.
Print Assumptions C24_answer_between_partial.
Print Assumptions C24_refused.
Print Assumptions C25_modification.
Print Assumptions C25_only_at_end_of_message.
Print Assumptions C26_silent_after_quit.
Print Assumptions C26_quit_lasts.
Print Assumptions C27_report.
Print Assumptions C27_once_partial.
Print Assumptions C23_body_packet.
Print Assumptions C23_body_prefix.
Print Assumptions C23_body_complete.
Print Assumptions C47_only_wanted.
Print Assumptions C47_left_out_unwanted.
Print Assumptions C47_command_of_call.
Print Assumptions C48_fits_stage.

(** *** Examples *)

Definition helo_ops : list op := negotiated ++ [Call (AHelo (lit "h")); Flushed].
Definition from_ops : list op :=
  helo_ops ++ [Receive RContinue; Call (AFrom (lit "<a@b>")); Flushed].


(** A history cut at its [i]th and [j]th event. *)
Ltac cut_at t i j :=
  exists (firstn i t), (nth i t Crash), (firstn (j - i - 1) (skipn (S i) t)), (nth j t Crash),
         (skipn (S j) t).
Ltac computed := vm_compute; repeat split; auto.

Example C24_example :
  exists later f between e before,
    plain from_ops = later ++ f :: between ++ e :: before /\
    command_sent e = Some XHelo /\ command_sent f = Some XFrom /\
    awaits (session_option before) XHelo = true /\
    l_unflushed (link_of before) = [] /\ l_todo (link_of before) = [] /\
    forallb (fun e => negb (disturbs e)) between = true.
Proof. cut_at (plain from_ops) 4%nat 12%nat. computed. Qed.

Example C24_refused_example :
  outstanding (plain helo_ops) = true /\ sv_crashed (plain_run helo_ops) = false /\
  plain (helo_ops ++ [Call (AFrom (lit "<a@b>"))]) =
    [Return false; Error Busy; In (Call (AFrom (lit "<a@b>")))] ++ plain helo_ops.
Proof. computed. Qed.

(** A filter that answers body packets has not answered, and still gets the next command. *)
Theorem C24_body_refuted :
  exists ops later f between e before,
    plain ops = later ++ f :: between ++ e :: before /\
    command_sent e = Some XBody /\ command_sent f = Some XEndOfMessage /\
    session_option before = Some all_steps /\
    forallb (fun e => negb (is_answer e)) between = true.
Proof.
  pose (ops := negotiated ++ [Call (ABody (lit "x")); Flushed; Call (AEndOfMessage None)]).
  exists ops. cut_at (plain ops) 1%nat 7%nat. computed.
Qed.
Print Assumptions C24_body_refuted.

(** After an abort the answer to the aborted command is taken for that to the next one. *)
Theorem C24_abort_refuted :
  exists ops later f between e before,
    plain ops = later ++ f :: between ++ e :: before /\
    command_sent e = Some XFrom /\ command_sent f = Some XFrom /\
    awaits (session_option before) XFrom = true /\
    forallb (fun e => negb (is_answer e)) between = true /\
    List.In (Forward RReject) later /\ verdict (plain ops) = S_REJECT.
Proof.
  pose (ops := from_ops ++ [Call AAbort; Flushed; Call (AFrom (lit "<c@d>")); Flushed; Receive RReject]).
  exists ops. cut_at (plain ops) 7%nat 20%nat. computed.
Qed.
Print Assumptions C24_abort_refuted.

(** An abort that cannot be written stops the waiting for the answer, too. *)
Theorem C24_failed_abort_refuted :
  exists writes ops,
    let t := sv_trace (server_run toy_ntop toy_ntop (fun l => l) writes (fun _ => false)
                         (fun _ => None) 0 server_new ops) in
    exists later f between e before,
      t = later ++ f :: between ++ e :: before /\
      command_sent e = Some XHelo /\ command_sent f = Some XFrom /\
      awaits (session_option before) XHelo = true /\
      forallb (fun e => negb (is_answer e)) between = true.
Proof.
  pose (writes := fun t => match t with In (Call AAbort) :: _ => Refused | _ => Taken end).
  pose (ops := helo_ops ++ [Call AAbort; Call (AFrom (lit "<c@d>"))]).
  exists writes, ops. intros t. cut_at t 1%nat 10%nat. computed.
Qed.
Print Assumptions C24_failed_abort_refuted.

Definition eom_ops : list op := from_ops ++ [Receive RContinue; Call (AEndOfMessage None); Flushed].

Example C25_example :
  stage (plain eom_ops) = XEndOfMessage /\ quit_said (plain eom_ops) = false /\
  plain (eom_ops ++ [Receive (RAddRecipient (lit "<c@d>") None)]) =
    Forward (RAddRecipient (lit "<c@d>") None) :: In (Receive (RAddRecipient (lit "<c@d>") None)) ::
    plain eom_ops /\
  plain (from_ops ++ [Receive (RAddRecipient (lit "<c@d>") None)]) =
    Error InvalidState :: In (Receive (RAddRecipient (lit "<c@d>") None)) :: plain from_ops.
Proof. computed. Qed.

(** A modification that comes after the answer to end of message is still passed on. *)
Theorem C25_late_refuted :
  exists ops r, is_modification r = true /\ outstanding (plain ops) = false /\
    (exists t, plain ops = Forward RContinue :: t \/ exists m, plain ops = Processed m :: Forward RContinue :: t) /\
    plain (ops ++ [Receive r]) = Forward r :: In (Receive r) :: plain ops.
Proof.
  exists (eom_ops ++ [Receive RContinue]), (RAddRecipient (lit "<c@d>") None).
  split; [reflexivity|]. split; [vm_compute; reflexivity|]. split; [|vm_compute; reflexivity].
  exists (skipn 2 (plain (eom_ops ++ [Receive RContinue]))). right. eexists. vm_compute. reflexivity.
Qed.
Print Assumptions C25_late_refuted.

Example C26_example :
  quit_said (plain (eom_ops ++ [Call AQuit])) = true /\
  plain (eom_ops ++ [Call AQuit; Receive RReject]) =
    In (Receive RReject) :: plain (eom_ops ++ [Call AQuit]).
Proof. computed. Qed.

Example C27_example :
  exists m, plain (eom_ops ++ [Receive RReject]) =
              Processed m :: Forward RReject :: In (Receive RReject) :: plain eom_ops /\
            mr_status m = S_REJECT /\ mr_state m = Some (true, XEndOfMessage) /\
            mr_from m = Some (lit "<a@b>").
Proof. eexists. split; [vm_compute; reflexivity|]. computed. Qed.

Example C27_once_example :
  let second := [Call (AFrom (lit "<c@d>")); Flushed; Receive RReject] in
  exists later f between e before,
    plain (eom_ops ++ [Receive RReject] ++ second) = later ++ f :: between ++ e :: before /\
    is_processed f = true /\ is_processed e = true /\
    List.In (In (Call (AFrom (lit "<c@d>")))) between.
Proof.
  intros second. cut_at (plain (eom_ops ++ [Receive RReject] ++ second)) 0%nat 9%nat.
  vm_compute. repeat split. intuition.
Qed.

Definition begins_message (e : event) : bool :=
  match e with In (Call (AFrom _)) => true | _ => false end.

(** A header edit after the final answer, then an abort: the message is reported twice. *)
Theorem C27_late_edit_refuted :
  exists ops later f between e before,
    plain ops = later ++ f :: between ++ e :: before /\
    is_processed f = true /\ is_processed e = true /\
    forallb (fun e => negb (begins_message e)) between = true.
Proof.
  pose (ops := eom_ops ++ [Receive RContinue; Receive (RAddHeader (lit "a") (lit "b")); Call AAbort; Flushed]).
  exists ops. cut_at (plain ops) 1%nat 9%nat. computed.
Qed.
Print Assumptions C27_late_edit_refuted.

(** An acceptance at a recipient, then another recipient: reported twice. *)
Theorem C27_accept_refuted :
  exists ops later f between e before,
    plain ops = later ++ f :: between ++ e :: before /\
    is_processed f = true /\ is_processed e = true /\
    forallb (fun e => negb (begins_message e)) between = true.
Proof.
  pose (ops := from_ops ++ [Receive RContinue; Call (ARcpt (lit "<c@d>")); Flushed; Receive RAccept;
                            Call (ARcpt (lit "<e@f>")); Flushed; Receive RAccept]).
  exists ops. cut_at (plain ops) 0%nat 9%nat. computed.
Qed.
Print Assumptions C27_accept_refuted.

(** *** C41 *)

Section Recipients.
  Variables (ntop4 ntop6 : bytes -> bytes).
  Variable sort_keys : list bytes -> list bytes.
  Variable depth : nat.
  Notation run := (server_run ntop4 ntop6 sort_keys (fun _ => Taken) (fun _ => false) (fun _ => None) depth).

  (** Recipients are named one after the other and each is answered.  Those refused are listed in
      order; the others, as often as they were named, are the remaining recipients. *)
  Theorem C41_accounting_partial s m l :
    ready m s -> mr_recipients m = [] -> mr_tempfailed m = [] -> mr_rejected m = [] ->
    (forall p, List.In p l -> answers_recipient (snd p) = true) ->
    exists m', sv_message (run s (concat (map round l))) = Some m' /\
      Permutation (mr_recipients m') (recipients_with None l) /\
      mr_tempfailed m' = map Some (recipients_with (Some S_TEMPORARY_FAILURE) l) /\
      mr_rejected m' = map Some (recipients_with (Some S_REJECT) l).
  Proof.
    intros Hr E1 E2 E3 Hl. destruct (rounds ntop4 ntop6 sort_keys depth l s m Hr Hl) as (m' & Hr' & P1 & P2 & P3).
    exists m'. rewrite E1 in P1. rewrite E2 in P2. rewrite E3 in P3. split; [apply Hr'|auto].
  Qed.

  (** Without repetitions the remaining recipients are in order. *)
  Theorem C41_distinct_partial s m l :
    ready m s -> mr_recipients m = [] ->
    (forall p, List.In p l -> answers_recipient (snd p) = true) -> NoDup (map fst l) ->
    exists m', sv_message (run s (concat (map round l))) = Some m' /\
      mr_recipients m' = recipients_with None l.
  Proof.
    intros Hr E1 Hl Hd. destruct (rounds_distinct ntop4 ntop6 sort_keys depth l s m Hr Hl) as (m' & Hr' & E).
    { now rewrite E1. }
    exists m'. rewrite E1 in E. split; [apply Hr'|exact E].
  Qed.

  (** The context has an accepted recipient exactly if some answer was not a refusal or none came. *)
  Theorem C41_has_accepted_partial s m l :
    ready m s -> mr_recipients m = [] -> mr_tempfailed m = [] -> mr_rejected m = [] ->
    (forall p, List.In p l -> answers_recipient (snd p) = true) ->
    has_accepted_recipient (run s (concat (map round l))) = true <->
    l = [] \/ exists p, List.In p l /\ refusal (snd p) = None.
  Proof.
    intros Hr E1 E2 E3 Hl.
    destruct (C41_accounting_partial s m l Hr E1 E2 E3 Hl) as (m' & Em & P1 & P2 & P3).
    unfold has_accepted_recipient. rewrite Em.
    assert (Hrefused : forall p, List.In p l -> refusal (snd p) <> None ->
              mr_tempfailed m' <> [] \/ mr_rejected m' <> []).
    { intros p Hp Hv. rewrite P2, P3. unfold recipients_with.
      assert (Hv' : refusal (snd p) = Some S_TEMPORARY_FAILURE \/ refusal (snd p) = Some S_REJECT).
      { destruct (snd p); cbn in *; try congruence; auto. destruct (_ && _); auto. }
      destruct Hv' as [Hv'|Hv']; [left|right]; rewrite map_map;
        intros E; apply map_eq_nil in E;
        match type of E with filter ?f l = [] =>
          assert (Hi : List.In p (filter f l)) by (apply filter_In; split; [exact Hp|]; now rewrite Hv') end;
        rewrite E in Hi; exact Hi. }
    assert (Haccepted : mr_recipients m' <> [] <-> exists p, List.In p l /\ refusal (snd p) = None).
    { unfold recipients_with in P1. split.
      - intros H. destruct (mr_recipients m') as [|r rs]; [congruence|].
        assert (Hi : List.In r (map fst (filter (fun p => match refusal (snd p), (None : option status) with
                            | None, None => true | Some a, Some b => status_eqb a b | _, _ => false end) l)))
          by (apply (Permutation_in _ P1); now left).
        apply in_map_iff in Hi as (p & _ & Hi). apply filter_In in Hi as [Hi Hf].
        exists p. split; [exact Hi|]. destruct (refusal (snd p)); [discriminate|reflexivity].
      - intros (p & Hp & Hv) E. rewrite E in P1. apply Permutation_nil in P1. apply map_eq_nil in P1.
        match type of P1 with filter ?f l = [] =>
          assert (Hi : List.In p (filter f l)) by (apply filter_In; split; [exact Hp|]; now rewrite Hv) end.
        rewrite P1 in Hi. exact Hi. }
    split.
    - intros H. destruct l as [|p0 l0] eqn:El; [now left|right]. rewrite <- El in *.
      destruct (refusal (snd p0)) as [v|] eqn:Ev; [|exists p0; split; [rewrite El; now left|exact Ev]].
      apply Haccepted. intros E. rewrite E in H.
      destruct (Hrefused p0) as [Hn|Hn]; [rewrite El; now left|congruence| |];
        destruct (mr_tempfailed m'), (mr_rejected m'); congruence.
    - intros [->|H].
      + cbn in P2, P3. rewrite P2, P3. reflexivity.
      + apply Haccepted in H. destruct (mr_tempfailed m'), (mr_rejected m'), (mr_recipients m'); congruence.
  Qed.
End Recipients.
Print Assumptions C41_accounting_partial.
Print Assumptions C41_distinct_partial.
Print Assumptions C41_has_accepted_partial.

Definition rcpt_ops : list op := from_ops ++ [Receive RContinue].

Example C41_example :
  exists m, ready m (plain_run rcpt_ops) /\ mr_recipients m = [] /\ mr_tempfailed m = [] /\
    mr_rejected m = [] /\
    let l := [(lit "<a@a>", RContinue); (lit "<b@b>", RReject); (lit "<c@c>", RTemporaryFailure)] in
    exists m', sv_message (plain_run (rcpt_ops ++ concat (map round l))) = Some m' /\
      mr_recipients m' = [lit "<a@a>"] /\ mr_tempfailed m' = [Some (lit "<c@c>")] /\
      mr_rejected m' = [Some (lit "<b@b>")].
Proof.
  eexists. split.
  - constructor; try (vm_compute; reflexivity).
    exists all_steps. vm_compute. auto.
  - split; [reflexivity|]. split; [reflexivity|]. split; [reflexivity|]. intros l.
    eexists. split; [vm_compute; reflexivity|]. cbn. auto.
Qed.

(** A recipient named twice, accepted and then rejected, is in two lists. *)
Theorem C41_duplicates_refuted :
  exists m r, sv_message (plain_run (rcpt_ops ++ concat (map round [(r, RContinue); (r, RReject)]))) = Some m /\
    List.In r (mr_recipients m) /\ List.In (Some r) (mr_rejected m).
Proof. eexists. exists (lit "<a@a>"). split; [vm_compute; reflexivity|]. cbn. auto. Qed.
Print Assumptions C41_duplicates_refuted.

(** A filter that rejects the same recipient twice brings the process down. *)
Theorem C41_second_refusal_refuted :
  sv_crashed (plain_run (rcpt_ops ++ concat (map round [(lit "<a@a>", RContinue); (lit "<b@b>", RReject)])
                         ++ [Receive RReject])) = true.
Proof. vm_compute. reflexivity. Qed.
Print Assumptions C41_second_refusal_refuted.

(** *** C23: examples and refutations *)

Definition long_body : bytes := repeat "a"%char (N.to_nat 65535) ++ lit "bc".
Definition body_ops (b : bytes) : list op := negotiated ++ [Call (ABody b); Flushed].

Example C23_example :
  let t := plain (body_ops long_body) in
  sv_crashed (plain_run (body_ops long_body)) = false /\ stage t = XBody /\ quit_said t = false /\
  l_unflushed (link_of t) = [] /\ session_option t = Some all_steps /\
  N.of_nat (length (body_sent t)) = 65535 /\ body_given t = long_body /\
  body_sent (plain (body_ops long_body ++ body_rounds 1)) = long_body.
Proof.
  intros t. unfold t.
  split; [vm_compute; reflexivity|]. split; [vm_compute; reflexivity|].
  split; [vm_compute; reflexivity|]. split; [vm_compute; reflexivity|].
  split; [vm_compute; reflexivity|]. split; [vm_compute; reflexivity|].
  split; apply bytes_eqb_eq; vm_compute; reflexivity.
Qed.

(** What the latest body packet carries. *)
Fixpoint last_body (t : list event) : bytes :=
  match t with
  | [] => []
  | Sent XBody _ packet :: _ => body_payload packet
  | _ :: t' => last_body t'
  end.

(** The rest of a body left over after an acceptance goes into the next message. *)
Theorem C23_leak_refuted :
  exists first second,
    first = body_ops long_body ++ [Receive RAccept; Call AAbort; Flushed] /\
    second = [Call (AFrom (lit "<c@d>")); Flushed; Receive RContinue; Call (ABody (lit "y"))] /\
    last_body (plain (first ++ second)) = lit "bcy".
Proof. do 2 eexists. split; [reflexivity|]. split; [reflexivity|]. vm_compute. reflexivity. Qed.
Print Assumptions C23_leak_refuted.

(** A body call that was refused keeps its chunk, so that a repeated call sends it twice. *)
Theorem C23_refused_call_refuted :
  plain (helo_ops ++ [Call (ABody (lit "x"))]) =
    [Return false; Error Busy; In (Call (ABody (lit "x")))] ++ plain helo_ops /\
  last_body (plain (helo_ops ++ [Call (ABody (lit "x")); Receive RContinue; Call (ABody (lit "x"))]))
    = lit "xx".
Proof. computed. Qed.
Print Assumptions C23_refused_call_refuted.

(** *** C47, C48: examples and refutations *)

Definition no_helo : moption := mk_option 6 511 STEP_NO_HELO.

Example C47_example :
  let ops := [Call (ANegotiate no_helo); Flushed; Receive (RNegotiate no_helo None)] in
  ~ wanted (session_option (plain ops)) XHelo /\ wanted (session_option (plain ops)) XConnect /\
  plain (ops ++ [Call (AHelo (lit "h"))]) =
    [Return true; Unasked XHelo; Entered XHelo; In (Call (AHelo (lit "h")))] ++ plain ops.
Proof. vm_compute. intuition congruence. Qed.

(** Without an option the data call dereferences a null pointer. *)
Theorem C47_data_before_negotiation_refuted : sv_crashed (plain_run [Call AData]) = true.
Proof. reflexivity. Qed.
Print Assumptions C47_data_before_negotiation_refuted.

Example C48_example :
  plain (helo_ops ++ [Receive RSkip]) = Error InvalidState :: In (Receive RSkip) :: plain helo_ops /\
  plain (helo_ops ++ [Receive RContinue]) = Forward RContinue :: In (Receive RContinue) :: plain helo_ops.
Proof. computed. Qed.

(** A negotiation answer at the wrong time is reported as an error, but takes effect: a command
    the filter had declined is sent from then on. *)
Theorem C48_late_negotiation_refuted :
  exists ops late h l,
    plain (ops ++ [Receive late]) = Error InvalidState :: In (Receive late) :: plain ops /\
    plain (ops ++ [Call (AHelo h)]) =
      [Return true; Unasked XHelo; Entered XHelo; In (Call (AHelo h))] ++ plain ops /\
    plain (ops ++ [Receive late; Call (AHelo h)]) =
      [Return true; Sent XHelo [] l; In (Call (AHelo h))] ++ plain (ops ++ [Receive late]).
Proof.
  exists [Call (ANegotiate no_helo); Flushed; Receive (RNegotiate no_helo None);
          Call (AUnknown (lit "x")); Flushed; Receive RContinue], (RNegotiate all_steps None), (lit "h").
  eexists. split; [vm_compute; reflexivity|]. split; [vm_compute; reflexivity|]. vm_compute. reflexivity.
Qed.
Print Assumptions C48_late_negotiation_refuted.
