(** C98-C100: filters written with the Ruby library. *)
From Verif.Base Require Import Bytes BytesFacts.
From Verif.Model Require Import Decoder Encoder CommandCodec ReplyCodec Status Option ReplyCode Client RubySession.
From Verif.Spec Require Import FrameSpec CommandGrammar ReplyGrammar ReplyCodeSpec ClientSpec RubySessionSpec.
From Verif.Proofs Require Import RubySessionProofs RubyCompositeProofs RubyMethodProofs.
From Verif.Props Require Import P06_Client.
Import List.
Local Open Scope N_scope.

(** What the peer decodes of everything written. *)
Definition received (evs : list client_event) : list reply :=
  snd (fst (feeds reply_handler decoder_new [sent evs])).

(** *** C98 *)

(** Every command is answered with what the session's method said last, with the default if it
    said nothing, and with the fallback status if an exception left it; nothing of an earlier
    command counts.  The connection is what the operations of the context make of it. *)
Theorem C98_answers : forall U outcome fallback (s : rsession U) ms w w' log evs,
  w_status w = VNil ->
  ruby_run outcome fallback (session_program outcome s) w ms = Some (w', log, evs) ->
  Forall (answer_to fallback) log /\
  exists ops, amounts_to ms log ops /\ client_run outcome (w_client w) ops = (w_client w', evs).
Proof.
  intros U outcome fallback s ms w w' log evs Hv H.
  destruct (run_spec outcome (fun _ => decided) fallback (session_program outcome s) ms w w' log evs (session_lawful outcome s)) as [F O]; auto.
  - intros m. apply de_nothing. constructor.
  - split; [|exact O]. clear - F. remember (map told_of_command ms) as ts. clear Heqts.
    induction F as [|t e ts log H F IH]; constructor; assumption.
Qed.
Print Assumptions C98_answers.

(** What is done for a command is what the session's method for it is written to do; its data
    are reset after each action that ends the message. *)
Theorem C98_method : forall U outcome fallback (s : rsession U) w m w' e evs,
  m <> CQuit -> m <> CAbort -> (forall c t, m <> CDefineMacro c t) ->
  ruby_step outcome fallback (session_program outcome s) w m = Some (w', e, evs) ->
  match s_method s (match m with CEndOfMessage _ => CEndOfMessage None | _ => m end) with
  | Some f => exists c, follows (fun u => fst (s_reset s u)) (match m with CEnvelopeRecipient _ => true | _ => false end)
                          (f c (w_own w)) (l_did e) (l_raised e) (w_own w')
  | None => e = mk_entry [] false S_DEFAULT /\ w_own w' = w_own w
  end.
Proof.
  intros U outcome fallback s w m w' e evs H1 H2 H3. apply step_method.
  destruct m; try reflexivity; congruence.
Qed.
Print Assumptions C98_method.

(** An abort runs the session's method for it, then resets its data. *)
Theorem C98_abort : forall U outcome fallback (s : rsession U) w w' e evs,
  ruby_step outcome fallback (session_program outcome s) w CAbort = Some (w', e, evs) ->
  exists u, w_own w' = fst (s_reset s u) /\
    match s_method s CAbort with
    | Some f => exists c raised, follows (fun u => fst (s_reset s u)) false (f c (w_own w)) (l_did e) raised u /\
                                 l_raised e = raised || snd (s_reset s u)
    | None => u = w_own w /\ l_did e = [] /\ l_raised e = snd (s_reset s u)
    end.
Proof. intros U outcome fallback s w w' e evs. apply step_abort. Qed.
Print Assumptions C98_abort.

Lemma amounts_now ms log ops : amounts_to ms log ops ->
  exists xs, ops = concat (map ops_of xs) /\ map x_command xs = ms /\
    Forall2 (fun x e => ask_all (l_did e) (x_calls x) /\ x_status x = settled (x_command x) (l_status e)) xs log /\
    Forall (fun x => exists m ks o q s, x = XNow m ks o q s) xs.
Proof.
  induction 1 as [|m ms e log ks o q ops A H (xs & -> & <- & F & G)].
  - exists []. repeat split; constructor.
  - exists (XNow m ks o q (settled m (l_status e)) :: xs). split; [reflexivity|]. split; [reflexivity|].
    split; constructor; cbn; eauto 10.
Qed.

(** What the MTA receives, if everything can be written: exactly the replies the actions and the
    answers ask for, in order (only progress notifications may have moved).  The exchanges [xs]
    are the commands with the calls and the answer of the session. *)
Theorem C98_received_partial : forall U outcome fallback (s : rsession U) ms u w' log evs,
  (forall n, outcome n = Taken) ->
  ruby_run outcome fallback (session_program outcome s) (mk_world client_new VNil u) ms = Some (w', log, evs) ->
  exists xs, map x_command xs = ms /\
    Forall2 (fun x e => ask_all (l_did e) (x_calls x) /\ x_status x = settled (x_command x) (l_status e)) xs log /\
    (Forall good_exchange xs ->
     match xs with
     | [] => True
     | x :: xs' => (is_negotiation x -> good_negotiation x) /\ Forall (fun x => ~ is_negotiation x) xs'
     end ->
     fits (sent evs) ->
     exists expected t in_order,
       session (mk_told None no_reply_code None) xs expected t /\
       same_order in_order expected /\ Forall2 same_reply in_order (received evs)).
Proof.
  intros U outcome fallback s ms u w' log evs Ht H.
  destruct (C98_answers U outcome fallback s ms (mk_world client_new VNil u) w' log evs eq_refl H) as [_ (ops & A & R)].
  destruct (amounts_now _ _ _ A) as (xs & -> & M & F & _). exists xs. split; [exact M|]. split; [exact F|].
  intros G N Hf. cbn [w_client] in R.
  destruct (C22_session_partial outcome xs [sent evs] Ht G N) as (ex & t & io & rv & d & res & S1 & S2 & S3 & S4 & _).
  - rewrite R. cbn [snd concat]. apply app_nil_r.
  - cbn [concat]. rewrite app_nil_r. exact Hf.
  - exists ex, t, io. split; [exact S1|]. split; [exact S2|]. unfold received. rewrite S4. exact S3.
Qed.
Print Assumptions C98_received_partial.

(** A filter that refuses a sender with a reason, counts recipients, refuses the third, and marks
    the message. *)
Definition says_only {U} (u : U) (a : action) : method U :=
  Act u a (fun _ _ u b => match b with Raised => Raise u | Given _ => Done u end).
Definition because (r : bytes) : reply_options := mk_reply_options None None (Some r).
Definition marker : rsession nat :=
  mk_session
    (fun m => match m with
              | CNegotiate _ => Some (fun _ u => says_only u AContinue)
              | CEnvelopeFrom f =>
                  Some (fun _ u => if bytes_eqb f (lit "<spam@example.com>") then says_only u (AReject (because (lit "no spam")))
                                   else Done u)
              | CEnvelopeRecipient _ =>
                  Some (fun _ u => if (2 <=? u)%nat then says_only u (ATemporaryFailure no_options) else Done (S u))
              | CEndOfMessage _ =>
                  Some (fun _ u => Act u (ACall (KAddHeader (Some (lit "X-Mark")) (Some (lit "1"))))
                                     (fun _ _ u b => match b with Raised => Raise u | Given _ => says_only u AAccept end))
              | _ => None
              end)
    (fun _ o => (inherited_answer (fun n => match n with MFrom | MRcpt => true | _ => false end) false o, []))
    (fun _ => (O, false)).
Definition taken : nat -> write_outcome := fun _ => Taken.
Definition default_fallback : rvalue := fallback_status VNil.
Definition marked_session : list command :=
  [CNegotiate (mk_option 6 511 0x1fffff); CEnvelopeFrom (lit "<spam@example.com>"); CEnvelopeFrom (lit "<a@example.com>");
   CEnvelopeRecipient (lit "<b@example.com>"); CEnvelopeRecipient (lit "<c@example.com>"); CEnvelopeRecipient (lit "<d@example.com>");
   CEndOfMessage None; CAbort; CQuit].
Example C98_example :
  match ruby_run taken default_fallback (session_program taken marker) (mk_world client_new VNil O) marked_session with
  | Some (w, log, evs) =>
      received evs = [RNegotiate (mk_option 6 511 0x000f73) None; RReplyCode 550 (lit "5.7.1") (Some (lit "no spam"));
                      RContinue; RContinue; RContinue; RReplyCode 550 (lit "5.7.1") (Some (lit "no spam"));
                      RAddHeader (lit "X-Mark") (lit "1"); RAccept] /\
      map l_status log = [S_CONTINUE; S_REJECT; S_DEFAULT; S_DEFAULT; S_DEFAULT; S_TEMPORARY_FAILURE; S_ACCEPT; S_DEFAULT; S_DEFAULT] /\
      w_own w = O
  | None => False
  end.
Proof. vm_compute. repeat split. Qed.
(** The exchanges of such a connection are among those covered. *)
Example C98_received_example :
  let xs := [XNow (CNegotiate (mk_option 6 511 0x1fffff)) [] (mk_option 6 511 0x000f73) [] S_CONTINUE;
             XNow (CEnvelopeFrom (lit "<spam@example.com>")) [KSetReply 550 (Some (lit "5.7.1")) (Some (lit "no spam"))]
                  (mk_option 0 0 0) [] S_REJECT;
             XNow (CEndOfMessage None) [KAddHeader (Some (lit "X-Mark")) (Some (lit "1"))] (mk_option 0 0 0) [] S_ACCEPT] in
  Forall good_exchange xs /\
  match xs with
  | [] => True
  | x :: xs' => (is_negotiation x -> good_negotiation x) /\ Forall (fun x => ~ is_negotiation x) xs'
  end.
Proof.
  cbn zeta. split.
  - assert (T : forall t, no_nulb t = true -> (zlen t <? 536870912)%Z = true -> text t).
    { intros t H1 H2. split; [|apply Z.ltb_lt; exact H2]. intros H3. unfold no_nulb in H1. rewrite forallb_forall in H1.
      specialize (H1 _ H3). discriminate. }
    constructor; [|constructor; [|constructor; [|constructor]]]; (split; [|split; [discriminate|exact I]]).
    + constructor.
    + constructor; [|constructor]. intros _. exists (lit "5.7.1"), (lit "no spam").
      split; [reflexivity|]. split; [reflexivity|]. split; [|reflexivity].
      split; [discriminate|]. split; [apply T; reflexivity|].
      split; [vm_compute; intuition discriminate|vm_compute; discriminate].
    + constructor; [|constructor]. split; [discriminate|]. split; apply T; reflexivity.
  - split.
    + intros _. split; [exists (mk_option 6 511 0x1fffff); split; [reflexivity|]; repeat split; reflexivity|].
      split; [intros []|]. split; [repeat split; reflexivity|]. split; [repeat constructor|reflexivity].
    + repeat constructor; intros [o H]; discriminate.
Qed.

(** A session with one method that does nothing but say [a] for the command [m]. *)
Definition only_at (at_command : command -> bool) (a : action) : rsession unit :=
  mk_session (fun m => if at_command m then Some (fun _ u => says_only u a) else None)
             (fun _ o => (o, [])) (fun u => (u, false)).
Definition is_mail (m : command) : bool := match m with CEnvelopeFrom _ => true | _ => false end.
Definition is_rcpt (m : command) : bool := match m with CEnvelopeRecipient _ => true | _ => false end.
Definition is_eom (m : command) : bool := match m with CEndOfMessage _ => true | _ => false end.
Definition is_neg (m : command) : bool := match m with CNegotiate _ => true | _ => false end.
Definition run_one {U} fallback (s : rsession U) u ms :=
  ruby_run taken fallback (session_program taken s) (mk_world client_new VNil u) ms.

(** A refusal with a code of its own that does not go with the default extended code
    (reject(:code => 450), temporary_failure(:code => 550)), or that is no refusal, raises an
    exception: with the default fallback status the sender is accepted. *)
Theorem C98_own_code_refuted :
  Forall (fun a => match run_one default_fallback (only_at is_mail a) tt [CEnvelopeFrom (lit "<a@b>")] with
                   | Some (_, log, evs) => log = [mk_entry [a] true S_ACCEPT] /\ received evs = [RAccept]
                   | None => False
                   end)
    [AReject (mk_reply_options (Some 450) None None); ATemporaryFailure (mk_reply_options (Some 550) None None);
     AReject (mk_reply_options (Some 250) None (Some (lit "no"))); AReject (mk_reply_options None (Some (lit "4.7.1")) None)].
Proof. repeat (apply Forall_cons; [vm_compute; split; reflexivity|]). constructor. Qed.
Print Assumptions C98_own_code_refuted.

(** A reply set once stays: a later refusal without a reason, even a temporary one, is sent with
    the code and the text of the one before (see C98_example as well). *)
Theorem C98_stored_reply_refuted :
  exists (s : rsession unit) log w evs,
    run_one default_fallback s tt [CEnvelopeFrom (lit "<a@b>"); CAbort; CEnvelopeFrom (lit "<c@d>"); CEnvelopeRecipient (lit "<e@f>")]
      = Some (w, log, evs) /\
    map l_did log = [[AReject (because (lit "no spam"))]; []; [ATemporaryFailure no_options]; [ATemporaryFailure no_options]] /\
    received evs = [RReplyCode 550 (lit "5.7.1") (Some (lit "no spam")); RReplyCode 550 (lit "5.7.1") (Some (lit "no spam"));
                    RReplyCode 550 (lit "5.7.1") (Some (lit "no spam"))].
Proof.
  exists (mk_session
            (fun m => match m with
                      | CEnvelopeFrom f => Some (fun _ u => says_only u (if bytes_eqb f (lit "<a@b>") then AReject (because (lit "no spam"))
                                                                     else ATemporaryFailure no_options))
                      | CEnvelopeRecipient _ => Some (fun _ u => says_only u (ATemporaryFailure no_options))
                      | _ => None
                      end)
            (fun _ o => (o, [])) (fun u => (u, false))).
  do 3 eexists. split; [vm_compute; reflexivity|]. split; vm_compute; reflexivity.
Qed.
Print Assumptions C98_stored_reply_refuted.

(** The last part of the body, when it comes with the end of the message, is not given to any
    session: the two commands cannot be told apart. *)
Theorem C98_last_chunk_refuted : forall U outcome fallback (s : rsession U) w chunk,
  ruby_step outcome fallback (session_program outcome s) w (CEndOfMessage (Some chunk)) =
  ruby_step outcome fallback (session_program outcome s) w (CEndOfMessage None).
Proof. reflexivity. Qed.
Print Assumptions C98_last_chunk_refuted.

(** After an exception in negotiate the default fallback status is no answer to a negotiation:
    the MTA gets nothing. *)
Theorem C98_negotiate_refuted :
  exists (s : rsession unit) w evs,
    run_one default_fallback s tt [CNegotiate (mk_option 6 511 0)] = Some (w, [mk_entry [] true S_ACCEPT], evs) /\ sent evs = [].
Proof.
  exists (mk_session (fun m => if is_neg m then Some (fun _ u => Raise u) else None) (fun _ o => (o, [])) (fun u => (u, false))).
  do 2 eexists. split; vm_compute; reflexivity.
Qed.
Print Assumptions C98_negotiate_refuted.

(** With a fallback status that is none, an exception leaves the library's handler. *)
Theorem C98_fallback_refuted : forall U outcome fallback (s : rsession U) w m f u,
  value_means fallback None ->
  s_method s m = Some f -> is_mail m = true -> f (receive_command (w_client w) m) (w_own w) = Raise u ->
  ruby_step outcome fallback (session_program outcome s) w m = None.
Proof.
  intros U outcome fallback s w m f u Hf Hm Hk Hr. destruct m; try discriminate Hk.
  unfold ruby_step. cbv zeta. unfold event_block. cbn [session_program p_event told_of_command]. unfold session_event.
  rewrite Hm. cbn [w_client w_own w_with_client]. rewrite Hr. cbn [run_method]. unfold block_end.
  destruct (status_given fallback) as [v|] eqn:E; [|reflexivity].
  destruct (status_given_some _ _ E) as [_ (x & Hx)]. pose proof (value_means_fun _ _ _ Hf Hx). discriminate.
Qed.
Print Assumptions C98_fallback_refuted.
Example C98_fallback_example : value_means (VName (lit "tempfail")) None /\ value_means (VName (lit "Temporary-Failure")) (Some S_TEMPORARY_FAILURE).
Proof.
  split.
  - apply vm_no_name. intros s H. unfold names in H. revert H. vm_compute. intuition discriminate.
  - apply vm_name. vm_compute. tauto.
Qed.

(** If the session cannot be made, a connection is answered with the fallback status, and
    nothing else is said. *)
Theorem C98_no_session : forall outcome set s w m w' e evs,
  value_means (fallback_status set) (Some s) -> w_status w = VNil -> m <> CAbort ->
  ruby_step outcome (fallback_status set) (session_program outcome (fallback_session (fallback_status set))) w m = Some (w', e, evs) ->
  l_raised e = false /\
  l_status e = match m with CNegotiate _ => S_CONTINUE | CConnect _ _ => s | _ => S_DEFAULT end.
Proof.
  intros outcome set s w m w' e evs Hf Hv Ha H.
  assert (Hg : status_given (fallback_status set) = Some (fallback_status set)) by exact (means_given _ _ Hf).
  assert (Hret : status_returned (status_read (fallback_status set)) = s) by exact (means_returned _ _ Hf).
  set (fb := fallback_status set) in *. clearbody fb.
  destruct (handled m) eqn:Hm.
  - destruct (step_event outcome _ _ _ _ _ _ _ Hm H) as (w2 & evs0 & E & _). clear H.
    set (w1 := w_with_client w (receive_command (w_client w) m)) in E. assert (Hv1 : w_status w1 = VNil) by exact Hv. clearbody w1.
    unfold event_block in E. cbn [session_program p_event] in E. unfold session_event in E.
    destruct m; try discriminate Hm; cbn [told_of_command fallback_session s_method s_reset run_method perform] in E;
      try (injection E as <- <- <-; split; reflexivity).
    unfold give_status in E. rewrite Hg in E. unfold block_end in E. cbn [w_status w_with_own w_with_status] in E.
      apply (f_equal (option_map (fun x => (l_raised (snd (fst x)), l_status (snd (fst x)))))) in E.
      cbn [run_method option_map fst snd l_raised l_status w_with_own w_with_status w_status w_own] in E. rewrite Hret in E.
      injection E as <- <-. split; reflexivity.
  - destruct m; try discriminate Hm; try (elim Ha; reflexivity); injection H as <- <- <-; split; reflexivity.
Qed.
Print Assumptions C98_no_session.
Example C98_no_session_example :
  match run_one (fallback_status (VName (lit "temporary-failure"))) (fallback_session (fallback_status (VName (lit "temporary-failure")))) tt
          [CNegotiate (mk_option 6 511 0x1fffff); CConnect (lit "h") (AUnix (lit "/x")); CHelo (lit "x")] with
  | Some (_, log, evs) => map l_status log = [S_CONTINUE; S_TEMPORARY_FAILURE; S_DEFAULT] /\
                          received evs = [RNegotiate (mk_option 6 511 0x000f7e) None; RTemporaryFailure; RContinue]
  | None => False
  end.
Proof. vm_compute. split; reflexivity. Qed.

(** *** C99 *)

(** A session with the inherited negotiate method takes the peer's version and actions as they
    are.  Of the offered steps it gives up exactly those that keep back a command it has a method
    for, the spaces in front of header values unless it needs them, and all that would leave a
    command without answer. *)
Theorem C99_negotiation : forall U outcome fallback (s : rsession U) defines leading w w' o e evs,
  w_status w = VNil ->
  s_method s (CNegotiate o) = Some (fun _ u => says_only u AContinue) ->
  s_answer s (w_own w) o = (inherited_answer defines leading o, []) ->
  ruby_step outcome fallback (session_program outcome s) w (CNegotiate o) = Some (w', e, evs) ->
  l_status e = S_CONTINUE /\
  exists o', client_step outcome (w_client w) (OpCommand (CNegotiate o) [] o' [] S_CONTINUE) = (w_client w', evs) /\
    o_version o' = o_version o /\ o_action o' = o_action o /\
    forall i, N.testbit (o_step o') i = true <->
      N.testbit (o_step o) i = true /\ (forall n, defines n = true -> no_send_bit n <> i) /\
      (leading = false -> i <> leading_space_bit) /\ ~ no_reply_bit i.
Proof.
  intros U outcome fallback s defines leading w w' o e evs Hv Hm Ha H.
  pose proof (C98_method U outcome fallback s w (CNegotiate o) w' e evs ltac:(discriminate) ltac:(discriminate) ltac:(discriminate) H) as F.
  cbn beta iota in F. rewrite Hm in F. destruct F as (c & F).
  destruct (step_event outcome fallback (session_program outcome s) w (CNegotiate o) w' e evs eq_refl H) as (w2 & evs0 & E & _).
  assert (R : l_raised e = false /\ l_status e = S_CONTINUE /\ l_did e = [AContinue]).
  { unfold event_block in E. cbn [session_program p_event told_of_command] in E. unfold session_event in E. rewrite Hm in E.
    unfold says_only in E. cbn [run_method perform] in E.
    injection E as _ <- _. repeat split. }
  destruct R as (R1 & R2 & R3).
  destruct (step_spec outcome (fun _ => decided) fallback _ w (CNegotiate o) w' e evs (session_lawful outcome s)) as (_ & _ & ks & o' & q & A & P & C);
    [intros m; apply de_nothing; constructor|exact Hv|exact H|].
  specialize (P o eq_refl). cbn [session_program p_answer] in P. rewrite Ha in P. injection P as -> ->.
  rewrite R2 in C. cbn [settled] in C. rewrite R3 in A.
  assert (ks = []) as ->.
  { inversion A as [|? ? k1 k2 A1 A2]; subst. inversion A1; subst. inversion A2; subst. reflexivity. }
  split; [exact R2|]. exists (inherited_answer defines leading o). split; [exact C|].
  exact (inherited_answer_spec defines leading o).
Qed.
Print Assumptions C99_negotiation.
Example C99_example :
  match run_one default_fallback marker O [CNegotiate (mk_option 6 0x3f 0x1fffff)] with
  | Some (_, _, evs) => received evs = [RNegotiate (mk_option 6 0x3f (0x1fffff - 4 - 8 - 0x80 - 0xff000 - 0x100000)) None]
  | None => False
  end.
Proof. vm_compute. reflexivity. Qed.

(** *** C100 *)

(** Several sessions in one: all that respond to the command run one after the other, unless one
    raises an exception.  The answer is the severest of what they said (the default is continue,
    for a negotiation reject, if none responds), after an exception the fallback status. *)
Theorem C100_answers : forall U outcome fallback (ss : list (rsession U)) w m w' e evs,
  m <> CQuit -> m <> CAbort -> (forall c t, m <> CDefineMacro c t) ->
  length (w_own w) = length ss -> w_status w = VNil ->
  ruby_step outcome fallback (composite_program outcome ss) w m = Some (w', e, evs) ->
  Forall (fun a => ~ dashed a) (l_did e) ->
  exists parts,
    one_by_one (match m with CEnvelopeRecipient _ => true | _ => false end)
      (match m with CEndOfMessage _ => CEndOfMessage None | _ => m end) ss (w_own w) parts (l_raised e) (w_own w') /\
    l_did e = concat parts /\
    match l_raised e with
    | true => value_means fallback (Some (l_status e))
    | false => exists vs, said_all parts vs /\
        match parts with
        | [] => l_status e = match m with CNegotiate _ => S_REJECT | _ => S_CONTINUE end
        | _ :: _ => severest vs (l_status e)
        end
    end.
Proof.
  intros U outcome fallback ss w m w' e evs H1 H2 H3 Hl Hv H Hd. apply (step_composite outcome fallback ss w m w' e evs); auto.
  destruct m; try reflexivity; congruence.
Qed.
Print Assumptions C100_answers.
Theorem C100_one_answer : forall vs a b, severest vs a -> severest vs b -> a = b.
Proof. exact severest_unique. Qed.
Print Assumptions C100_one_answer.

(** The calls of all the sessions, in order, and the answer are what the context is told. *)
Theorem C100_operations : forall U outcome fallback (ss : list (rsession U)) ms w w' log evs,
  w_status w = VNil ->
  ruby_run outcome fallback (composite_program outcome ss) w ms = Some (w', log, evs) ->
  exists ops, amounts_to ms log ops /\ client_run outcome (w_client w) ops = (w_client w', evs).
Proof.
  intros U outcome fallback ss ms w w' log evs Hv H.
  apply (run_spec outcome (fun _ _ _ => True) fallback (composite_program outcome ss) ms w w' log evs (composite_lawful outcome ss)); auto.
Qed.
Print Assumptions C100_operations.

(** The option and the macros a composite asks for. *)
Lemma answer_each_spec {U} (ss : list (rsession U)) : forall us o q0, length us = length ss ->
  exists q, answered_in_turn ss us o (fst (answer_each ss us o q0)) q /\ snd (answer_each ss us o q0) = q0 ++ q.
Proof.
  induction ss as [|s ss IH]; intros [|u us] o q0 L; try discriminate L; cbn [answer_each].
  - exists []. split; [constructor|]. symmetry. apply app_nil_r.
  - injection L as L. destruct (s_method s (CNegotiate o)) as [f|] eqn:E.
    + destruct (s_answer s u o) as [o1 q1] eqn:A. destruct (IH us o1 (q0 ++ q1) L) as (q & H1 & H2).
      exists (q1 ++ q). split; [apply (at_answers s ss u us o o1 q1); [rewrite E; discriminate|exact A|exact H1]|].
      rewrite H2, <- app_assoc. reflexivity.
    + destruct (IH us o q0 L) as (q & H1 & H2). exists q. split; [apply at_deaf; assumption|exact H2].
Qed.
Theorem C100_negotiation : forall U outcome fallback (ss : list (rsession U)) w o w' e evs,
  length (w_own w) = length ss -> w_status w = VNil ->
  ruby_step outcome fallback (composite_program outcome ss) w (CNegotiate o) = Some (w', e, evs) ->
  exists ks o' q, ask_all (l_did e) ks /\ answered_in_turn ss (w_own w) o o' q /\
    client_step outcome (w_client w) (OpCommand (CNegotiate o) ks o' q (settled (CNegotiate o) (l_status e))) = (w_client w', evs).
Proof.
  intros U outcome fallback ss w o w' e evs L Hv H.
  destruct (step_spec outcome (fun _ _ _ => True) fallback _ w (CNegotiate o) w' e evs (composite_lawful outcome ss)) as (_ & _ & ks & o' & q & A & P & C);
    [intros m; exact I|exact Hv|exact H|].
  specialize (P o eq_refl). cbn [composite_program p_answer] in P.
  destruct (answer_each_spec ss (w_own w) o [] L) as (q' & T & E). rewrite <- P in T, E. cbn [fst snd app] in T, E. subst q'.
  exists ks, o', q. auto.
Qed.
Print Assumptions C100_negotiation.
Example C100_negotiation_example :
  match ruby_step taken default_fallback (composite_program taken [marker; marker]) (mk_world client_new VNil [O; O]) (CNegotiate (mk_option 6 0x3f 0x1fffff)) with
  | Some (_, _, evs) => received evs = [RNegotiate (mk_option 6 0x3f (0x1fffff - 4 - 8 - 0x80 - 0xff000 - 0x100000)) None]
  | None => False
  end.
Proof. vm_compute. reflexivity. Qed.

Definition run_all {U} fallback (ss : list (rsession U)) us ms :=
  ruby_run taken fallback (composite_program taken ss) (mk_world client_new VNil us) ms.
Example C100_example :
  match run_all default_fallback
          [only_at is_mail AAccept; only_at is_eom AAccept; only_at is_mail (ATemporaryFailure no_options); only_at is_mail AContinue]
          [tt; tt; tt; tt] [CEnvelopeFrom (lit "<a@b>"); CEnvelopeRecipient (lit "<c@d>"); CEndOfMessage None] with
  | Some (_, log, evs) => map l_status log = [S_TEMPORARY_FAILURE; S_CONTINUE; S_ACCEPT] /\
                          map l_did log = [[AAccept; ATemporaryFailure no_options; AContinue]; []; [AAccept]] /\
                          received evs = [RTemporaryFailure; RContinue; RAccept]
  | None => False
  end.
Proof. vm_compute. repeat split. Qed.

(** A status given by its documented name with a dash raises an exception as soon as a second
    session responds: what should be a temporary failure is accepted. *)
Theorem C100_dash_refuted :
  let s := only_at is_mail (AStatus (VName (lit "temporary-failure"))) in
  match run_one default_fallback s tt [CEnvelopeFrom (lit "<a@b>")], run_all default_fallback [s; s] [tt; tt] [CEnvelopeFrom (lit "<a@b>")] with
  | Some (_, log1, _), Some (_, log2, _) =>
      map l_status log1 = [S_TEMPORARY_FAILURE] /\ map l_status log2 = [S_ACCEPT] /\ map l_raised log2 = [true]
  | _, _ => False
  end.
Proof. vm_compute. repeat split. Qed.
Print Assumptions C100_dash_refuted.

(** The answer is the severest, the reply sent with it is the last that was set: a session's
    permanent refusal goes out with the temporary code of another. *)
Theorem C100_reply_refuted :
  match run_all default_fallback
          [only_at is_mail (AReject (because (lit "spam"))); only_at is_mail (ATemporaryFailure (because (lit "greylisted")))]
          [tt; tt] [CEnvelopeFrom (lit "<a@b>")] with
  | Some (_, log, evs) => map l_status log = [S_REJECT] /\
                          received evs = [RReplyCode 451 (lit "4.7.1") (Some (lit "greylisted"))]
  | None => False
  end.
Proof. vm_compute. split; reflexivity. Qed.
Print Assumptions C100_reply_refuted.

(** An abort does not reset the sessions' data: the composite has no reset, and the exception is
    taken for one of the session's. *)
Theorem C100_abort_refuted :
  match run_one default_fallback marker O [CEnvelopeRecipient (lit "<a@b>"); CAbort],
        run_all default_fallback [marker] [O] [CEnvelopeRecipient (lit "<a@b>"); CAbort] with
  | Some (w1, log1, _), Some (w2, log2, _) =>
      w_own w1 = O /\ map l_raised log1 = [false; false] /\ w_own w2 = [1%nat] /\ map l_raised log2 = [false; true]
  | _, _ => False
  end.
Proof. vm_compute. repeat split. Qed.
Print Assumptions C100_abort_refuted.

(** A session that has asked for time is answered for by another. *)
Theorem C100_delay_refuted :
  match run_all default_fallback [only_at is_mail ADelay; only_at is_mail AContinue] [tt; tt] [CEnvelopeFrom (lit "<a@b>")] with
  | Some (_, log, evs) => map l_did log = [[ADelay; AContinue]] /\ received evs = [RContinue]
  | None => False
  end.
Proof. vm_compute. split; reflexivity. Qed.
Print Assumptions C100_delay_refuted.
