(** C86: milter-test-server delivers its message to the filter as a mail server would, and tells what
    the filter decided. *)
From Verif.Base Require Import Bytes BytesFacts.
From Verif.Model Require Import Decoder CommandCodec ReplyCodec Status Option Headers Macros Client Server TestServer.
From Verif.Model Require TestMessage TestReport.
From Verif.Spec Require Import HeaderSpec MailSpec ReportSpec ConversationSpec.
From Verif.Proofs Require Import ReportProofs ConversationProofs ConversationRun.
From Coq Require Import ZifyBool ZifyNat ZifyN Lia.
Import List.
Local Open Scope N_scope.

(** The commands of the message of a plan. *)
Definition commands_of (o : moption) (pl : plan) : list command :=
  let m := pl_message pl in
  script o (pl_host pl) (pl_address pl) (pl_helo pl) (TestMessage.msg_from m) (TestMessage.msg_recipients m)
         (pl_unknown pl)
         (map (fun h => (h_name h, match h_value h with Some v => v | None => [] end)) (TestMessage.msg_headers m))
         (TestMessage.msg_chunks m).

(** The letter a report is about. *)
Definition is_letter (l : TestReport.mail) (replaced : bool) (x : letter) : Prop :=
  TestReport.ml_from l = lt_from x /\ TestReport.ml_recipients l = lt_recipients x /\
  TestReport.ml_headers l = lt_headers x /\
  (if replaced then TestReport.ml_replaced l else TestReport.ml_body l) = lt_body x.

(** However the filter answers: the commands of the message go out in their order, each after the
    answer to the one before unless that one gets none, up to the answer that decides; then abort and
    quit, or only quit when the message passes.  The status told is the filter's decision, the mail
    shown the one that its requests make of the message, without the refused recipients.  When an
    answer does not come in time that is what is told. *)
Theorem C86_conversation ntop4 ntop6 sort_keys pl depth o (reqs : option requests) ops sent e :
  let m := pl_message pl in
  let s := test_run ntop4 ntop6 sort_keys (fun _ => Taken) pl depth
                    (Flushed :: Receive (RNegotiate o reqs) :: ops) in
  o_version o <= pl_version pl ->
  (forall stage symbols, In (stage, symbols) (match reqs with Some r => r | None => [] end) ->
                         (length symbols <= 1)%nat) ->
  (11 + length (match reqs with Some r => r | None => [] end) < depth)%nat ->
  fluent o (commands_of o pl) ->
  Forall (fun chunk => N.of_nat (length chunk) <= 65535) (TestMessage.msg_chunks m) ->
  talk o (commands_of o pl) (TestMessage.msg_recipients m) None ops sent e ->
  packets (sv_trace s)
  = map (encode_command ntop4 ntop6 sort_keys [])
        (CNegotiate (mk_option (pl_version pl) 0x1ff 0x1fffff) :: sent) /\
  Forall (fun e => faulty e = false) (sv_trace s) /\
  exits_with_success pl s = true /\
  match e with
  | NoAnswer t => print_result pl s = PError (OfTimeout t)
  | Ended word said others requests =>
      exists mail, print_result pl s = PResult (status_told word said) (reason requests) mail /\
        ((forall i n v, In (RInsertHeader i n v) requests -> i < 4294967296) ->
         (Z.of_nat (length (TestMessage.msg_headers m) + length requests) < 2147483648)%Z ->
         exists replaced result,
           all_requested requests
             (false, mk_letter (TestMessage.msg_from m) others (TestMessage.msg_headers m)
                               (concat (TestMessage.msg_chunks m)))
             (replaced, result) /\
           is_letter mail replaced result)
  end.
Proof.
  intros m s Hv Hr Hd F Fi T.
  assert (Es : commands_of o pl = r_connect pl o (pdata_new pl)).
  { unfold commands_of, script, r_connect, r_helo, r_from, r_rcpt, r_unknown, r_data, r_header, r_eoh, r_body.
    reflexivity. }
  rewrite Es in F, T.
  assert (Fit : Forall fits (r_connect pl o (pdata_new pl))).
  { rewrite <- Es. unfold commands_of, script. unfold unless.
    repeat (apply Forall_app; split).
    all: match goal with |- Forall _ (if ?b then _ else _) => destruct b | _ => idtac end.
    all: try apply Forall_nil.
    all: try (apply Forall_cons; [exact I|apply Forall_nil]).
    - apply Forall_forall. intros c Hc. apply in_map_iff in Hc as (y & <- & _). exact I.
    - destruct (pl_unknown pl); [apply Forall_cons; [exact I|]|]; apply Forall_nil.
    - apply Forall_forall. intros c Hc. apply in_map_iff in Hc as (y & <- & _). exact I.
    - apply Forall_forall. intros c Hc. apply in_map_iff in Hc as (y & <- & Hy).
      exact (proj1 (Forall_forall _ _) Fi y Hy). }
  assert (Hreq : match reqs with
                 | Some reqs => Forall (fun x : byte * list bytes => (length (snd x) <= 1)%nat) reqs /\ (11 + length reqs < depth)%nat
                 | None => (11 < depth)%nat end).
  { destruct reqs as [reqs|]; [|cbn in Hd; lia]. split; [|exact Hd].
    apply Forall_forall. intros [stage symbols] H. exact (Hr stage symbols H). }
  destruct (conversation ntop4 ntop6 sort_keys pl o depth reqs ops sent e Hv Hreq F Fit T) as (H1 & H2 & H3 & H4).
  split; [exact H1|]. split.
  { apply Forall_forall. intros ev Hev. rewrite forallb_forall in H2. specialize (H2 ev Hev). now destruct (faulty ev). }
  split; [exact H3|].
  destruct e as [word said others requests|t]; [|exact H4].
  eexists. split; [exact H4|]. intros Hi Hl.
  set (l0 := TestReport.ml_put_recipients _ others).
  destruct (edits_requested requests l0
              (false, mk_letter (TestMessage.msg_from m) others (TestMessage.msg_headers m)
                               (concat (TestMessage.msg_chunks m)))) as ([b y] & Hy & T1 & T2 & T3 & T4).
  - repeat split.
  - apply Forall_forall. intros r Hin. destruct r; try exact I. exact (Hi _ _ _ Hin).
  - exact Hl.
  - exists b, y. split; [exact Hy|]. cbn [fst snd] in *. repeat apply conj; try congruence.
    destruct b; [congruence|]. destruct T4; congruence.
Qed.
Print Assumptions C86_conversation.

(** *** Conversations *)

Definition toy (b : bytes) : bytes := b.
Definition the_mail : TestMessage.message :=
  TestMessage.mk_message (lit "<a@b>") [lit "<c@d>"; lit "<e@f>"]
    [mk_header (lit "Subject") (Some (lit "hi"))] [lit "body"; lit "more"].
Definition the_plan : plan :=
  mk_plan (lit "mx") (AInet ("1"%char, "2"%char) (lit "1234")) (lit "delian") (Some (lit "FOO"))
          (fun _ => [(lit "j", lit "x")]) 6 the_mail.
Definition wishes (steps : N) : moption := mk_option 6 0x1ff steps.
Definition hold (steps : N) (ops : list op) : server :=
  test_run toy toy (fun l => l) (fun _ => Taken) the_plan 30
           (Flushed :: Receive (RNegotiate (wishes steps) None) :: ops).
Definition sent_by (s : server) : list sstate :=
  flat_map (fun e => match e with Sent x _ _ => [x] | _ => [] end) (rev (sv_trace s)).

Lemma fluent_one o c : fluent o [c].
Proof. intros [|y [|z a]] c1 d b E; discriminate E. Qed.
Lemma fluent_more o c d b :
  (silent o c = true -> forall k, place c < k < place d -> silent_place o k = true \/ (k = 5 /\ place d = 6)) ->
  fluent o (d :: b) -> fluent o (c :: d :: b).
Proof.
  intros H F [|y a] c1 d1 b1 E.
  - injection E as <- <- <-. exact H.
  - injection E as <- E. exact (F a c1 d1 b1 E).
Qed.

(** A recipient is refused, the body is cut short, headers get no answer, and the message is put into
    quarantine. *)
Definition some_ops : list op :=
  [Flushed; Receive RContinue; Flushed; Receive RContinue; Flushed; Receive RContinue;
   Flushed; Receive (RReplyCode 550 (lit "5.1.1") (Some (lit "no"))); Flushed; Receive RContinue;
   Flushed; Receive RContinue; Flushed; Receive RContinue; Flushed; Flushed; Receive RContinue;
   Flushed; Receive RSkip;
   Flushed; Receive (RQuarantine (lit "virus")); Receive (RDeleteHeader (lit "Subject") 1);
   Receive RContinue; Flushed].
Example C86_conversation_example :
  fluent (wishes 0x80) (commands_of (wishes 0x80) the_plan) /\
  Forall (fun chunk => N.of_nat (length chunk) <= 65535) (TestMessage.msg_chunks the_mail) /\
  talk (wishes 0x80) (commands_of (wishes 0x80) the_plan) [lit "<c@d>"; lit "<e@f>"] None some_ops
       [CConnect (lit "mx") (AInet ("1"%char, "2"%char) (lit "1234")); CHelo (lit "delian");
        CEnvelopeFrom (lit "<a@b>"); CEnvelopeRecipient (lit "<c@d>"); CEnvelopeRecipient (lit "<e@f>");
        CUnknown (lit "FOO"); CData; CHeader (lit "Subject") (lit "hi"); CEndOfHeader;
        CBody (lit "body"); CEndOfMessage None; CQuit]
       (Ended "quarantine" (Some (550, lit "5.1.1", Some (lit "no"))) [lit "<e@f>"]
              [RQuarantine (lit "virus"); RDeleteHeader (lit "Subject") 1]) /\
  (exists mail, print_result the_plan (hold 0x80 some_ops)
    = PResult (lit "status: quarantine [550]<5.1.1>(no)") (Some (lit "virus")) mail /\
      TestReport.ml_recipients mail = [lit "<e@f>"] /\ TestReport.ml_headers mail = []).
Proof.
  split; [|split; [|split]].
  - unfold commands_of. cbn [the_plan the_mail pl_host pl_address pl_helo pl_unknown pl_message
      TestMessage.msg_from TestMessage.msg_recipients TestMessage.msg_headers TestMessage.msg_chunks].
    match goal with |- fluent _ ?l => let l' := eval vm_compute in l in change l with l' end.
    repeat (apply fluent_more; [first [intros S; vm_compute in S; discriminate S|intros _ k Hk; cbn [place] in Hk; lia]|]).
    apply fluent_one.
  - repeat apply Forall_cons; try apply Forall_nil; cbn; lia.
  - change (commands_of (wishes 0x80) the_plan) with
      [CConnect (lit "mx") (AInet ("1"%char, "2"%char) (lit "1234")); CHelo (lit "delian");
        CEnvelopeFrom (lit "<a@b>"); CEnvelopeRecipient (lit "<c@d>"); CEnvelopeRecipient (lit "<e@f>");
        CUnknown (lit "FOO"); CData; CHeader (lit "Subject") (lit "hi"); CEndOfHeader;
        CBody (lit "body"); CBody (lit "more"); CEndOfMessage None].
    unfold some_ops.
    do 3 (apply GoOn; [reflexivity|discriminate|]).
    eapply Refused with (word := "reject"%string) (left' := [lit "<e@f>"]); [reflexivity|constructor; lia| |discriminate|].
    { apply (WithoutFirst (lit "<c@d>") [] [lit "<e@f>"]). now intros []. }
    do 3 (apply GoOn; [reflexivity|discriminate|]).
    apply Silent; [reflexivity|].
    apply GoOn; [reflexivity|discriminate|].
    apply Enough; [reflexivity|].
    apply (Pass (wishes 0x80) [lit "<e@f>"] (Some (550, lit "5.1.1", Some (lit "no")))
                [RQuarantine (lit "virus"); RDeleteHeader (lit "Subject") 1]).
    repeat apply Forall_cons; try apply Forall_nil; reflexivity.
  - eexists. split; [vm_compute; reflexivity|]. now split.
Qed.

(** *** What the conversation does not do *)

(** A filter that asks for two macros at one stage: the program goes round a list for ever and sends
    nothing. *)
Theorem C86_macros_refuted :
  let s := test_run toy toy (fun l => l) (fun _ => Taken) the_plan 30
             [Flushed; Receive (RNegotiate (wishes 0) (Some [("C"%char, [lit "j"; lit "{if_name}"])]))] in
  sent_by s = [XNegotiate] /\ pd_hung (cv_data (replay the_plan (sv_trace s))) = true.
Proof. vm_compute. now split. Qed.
Print Assumptions C86_macros_refuted.

(** A filter that answers no connect and wants no helo: the next command is never sent, and nothing
    watches the time.  So it is with no answers to recipients and no data. *)
Definition stuck (s : server) : Prop :=
  sv_next s = [] /\ sv_timer s = None /\ pd_over (cv_data (replay the_plan (sv_trace s))) = false.
Theorem C86_stalls_refuted :
  (sent_by (hold (N.lor STEP_NO_REPLY_CONNECT STEP_NO_HELO) [Flushed]) = [XNegotiate; XConnect] /\
   stuck (hold (N.lor STEP_NO_REPLY_CONNECT STEP_NO_HELO) [Flushed])) /\
  (let s := hold (N.lor STEP_NO_REPLY_ENVELOPE_RECIPIENT (N.lor STEP_NO_UNKNOWN STEP_NO_DATA))
                 [Flushed; Receive RContinue; Flushed; Receive RContinue; Flushed; Receive RContinue;
                  Flushed; Flushed] in
   sent_by s = [XNegotiate; XConnect; XHelo; XFrom; XRcpt; XRcpt] /\ stuck s).
Proof. vm_compute. repeat split; reflexivity. Qed.
Print Assumptions C86_stalls_refuted.

(** The program succeeds although the filter did not answer or rejected the message. *)
Theorem C86_exit_refuted :
  (print_result the_plan (hold 0 [Flushed; Fire; Flushed]) = PError (OfTimeout TReading) /\
   exits_with_success the_plan (hold 0 [Flushed; Fire; Flushed]) = true) /\
  (exists mail, print_result the_plan (hold 0 [Flushed; Receive RReject; Flushed])
                = PResult (lit "status: reject") None mail /\
   exits_with_success the_plan (hold 0 [Flushed; Receive RReject; Flushed]) = true).
Proof. split; [vm_compute; now split|]. eexists. vm_compute. now split. Qed.
Print Assumptions C86_exit_refuted.

(** A message passes, and the reply code of a refused recipient is told as if it were its. *)
Definition passed_ops : list op :=
  [Flushed; Receive RContinue; Flushed; Receive RContinue; Flushed; Receive RContinue;
   Flushed; Receive (RReplyCode 550 (lit "5.1.1") (Some (lit "no"))); Flushed; Receive RContinue;
   Flushed; Receive RContinue; Flushed; Receive RContinue; Flushed; Receive RContinue;
   Flushed; Receive RContinue; Flushed; Receive RSkip; Flushed].
Theorem C86_code_refuted :
  exists mail, print_result the_plan (hold 0 (passed_ops ++ [Receive RContinue; Flushed]))
               = PResult (lit "status: pass [550]<5.1.1>(no)") None mail.
Proof. eexists. vm_compute. reflexivity. Qed.
Print Assumptions C86_code_refuted.

(** A filter that shuts the conversation down at the end of the message is told to pass it. *)
Theorem C86_shutdown_refuted :
  exists mail, print_result the_plan (hold 0 (passed_ops ++ [Receive RShutdown; Flushed]))
               = PResult (lit "status: pass [550]<5.1.1>(no)") None mail.
Proof. eexists. vm_compute. reflexivity. Qed.
Print Assumptions C86_shutdown_refuted.

(** A chunk of more than 65535 bytes: its rest is refused by the context that is still writing, and
    what is told is that error. *)
Definition long_plan : plan :=
  mk_plan (lit "mx") (AInet ("1"%char, "2"%char) (lit "1234")) (lit "delian") None (fun _ => []) 6
    (TestMessage.mk_message (lit "<a@b>") [lit "<c@d>"] [] [repeat "x"%char (N.to_nat 65536)]).
Theorem C86_long_chunk_refuted :
  let s := test_run toy toy (fun l => l) (fun _ => Taken) long_plan 30
             [Flushed; Receive (RNegotiate (wishes 0x36f) None);
              Flushed; Receive RContinue; Flushed; Receive RContinue; Flushed] in
  sent_by s = [XNegotiate; XBody; XEndOfMessage; XQuit] /\ sv_body s = lit "x" /\
  print_result long_plan s = PError (OfContext Busy) /\ exits_with_success long_plan s = false.
Proof. vm_compute. repeat split; reflexivity. Qed.
Print Assumptions C86_long_chunk_refuted.
