(** Proofs about the methods of a session and the resetting of its data. *)
From Verif.Base Require Import Bytes BytesFacts.
From Verif.Model Require Import Decoder Encoder CommandCodec ReplyCodec Status Option ReplyCode Client RubySession.
From Verif.Spec Require Import ReplyCodeSpec RubySessionSpec.
From Verif.Proofs Require Import RubySessionProofs RubyCompositeProofs.
Import List.
Local Open Scope N_scope.

Lemma value_means_fun v x y : value_means v x -> value_means v y -> x = y.
Proof.
  intros H K. destruct v; inversion H; subst; inversion K; subst; try reflexivity;
    repeat match goal with A : names _ _ |- _ => apply named_status_spec in A end; try congruence.
  - match goal with A : named_status n = Some ?s, B : forall s, ~ names n s |- _ => elim (B s); apply named_status_spec; exact A end.
  - match goal with A : named_status n = Some ?s, B : forall s, ~ names n s |- _ => elim (B s); apply named_status_spec; exact A end.
Qed.
Lemma code_means_fun c e x y : code_means c e x -> code_means c e y -> x = y.
Proof. intros H K. inversion H; subst; inversion K; subst; try reflexivity; try lia; tauto. Qed.
Lemma chosen_fun {A} (x : option A) d a b : chosen x d a -> chosen x d b -> a = b.
Proof. intros H K. destruct x; inversion H; subst; inversion K; subst; reflexivity. Qed.
Lemma means_fun a x y : means a x -> means a y -> x = y.
Proof.
  intros H K. destruct a; inversion H; subst; inversion K; subst; try reflexivity; try tauto;
    try (repeat match goal with
         | A : chosen ?o ?d ?a, B : chosen ?o ?d ?b |- _ =>
             lazymatch a with b => fail | _ => pose proof (chosen_fun o d a b A B); subst a end
         end;
         match goal with A : code_means _ _ _, B : code_means _ _ _ |- _ => exact (code_means_fun _ _ _ _ A B) end).
  match goal with A : value_means _ _, B : value_means _ _ |- _ => exact (value_means_fun _ _ _ A B) end.
Qed.

Section Ruby.
  Variable outcome : nat -> write_outcome.

  (** No call changes the stage. *)
  Lemma flush_state c : cc_state (snd (fst (flush outcome c))) = cc_state c.
  Proof. unfold flush. destruct (cc_buffering c); [|reflexivity]. destruct (outcome _); reflexivity. Qed.
  Lemma write_buffered_state c p : cc_state (snd (fst (write_packet_on_end_of_message outcome c p))) = cc_state c.
  Proof.
    unfold write_packet_on_end_of_message. cbv zeta. destruct (_ <? _); [|reflexivity].
    pose proof (flush_state (with_buffer c (cc_buffered c ++ match p with Some b => b | None => [] end) true)) as H.
    destruct (flush outcome _) as [[ok c2] evs]. exact H.
  Qed.
  Lemma encode_state c e : cc_state (snd (encode c e)) = cc_state c.
  Proof. unfold encode. destruct (encode_reply _ _); reflexivity. Qed.
  Lemma encode_and_buffer_state c e : cc_state (snd (fst (encode_and_buffer outcome c e))) = cc_state c.
  Proof.
    unfold encode_and_buffer. pose proof (encode_state c e) as H. destruct (encode c e) as [p c1]. cbn [snd] in H.
    rewrite write_buffered_state. exact H.
  Qed.
  Lemma replace_body_state fuel : forall c rest, cc_state (snd (fst (replace_body_loop outcome fuel c rest))) = cc_state c.
  Proof.
    induction fuel as [|fuel IH]; intros c rest; destruct rest as [|b rest]; try reflexivity. cbn [replace_body_loop].
    pose proof (encode_and_buffer_state c (EReplaceBody (b :: rest))) as H.
    destruct (encode_and_buffer outcome c _) as [[ok c1] evs]. cbn [fst snd] in H. destruct ok; [|exact H].
    specialize (IH c1 (skipn (N.to_nat MILTER_CHUNK_SIZE) (b :: rest))).
    destruct (replace_body_loop outcome fuel c1 _) as [[ok' c2] evs']. cbn [fst snd] in *. congruence.
  Qed.
  Lemma guarded_state c a k : cc_state (snd (fst k)) = cc_state c -> cc_state (snd (fst (guarded c a k))) = cc_state c.
  Proof. intros H. unfold guarded. destruct (negb _); [reflexivity|]. destruct (negb _); [reflexivity|exact H]. Qed.
  Lemma do_call_state c k : cc_state (snd (fst (do_call outcome c k))) = cc_state c.
  Proof.
    destruct k as [[n|] [v|]|i [n|] [v|]|[n|] i v|[n|] i|[[|x f]|] p|[[|x r]|] p|[[|x r]|]|b| |r|x e r|n|o];
      cbn [do_call]; try reflexivity;
      try (apply guarded_state; first [apply encode_and_buffer_state | apply replace_body_state]).
    - pose proof (encode_state c EProgress) as H. destruct (encode c EProgress) as [p c1]. cbn [snd] in H.
      destruct p as [b|]; [|exact H]. unfold write_packet, agent_write_packet. destruct (outcome (cc_attempts c1)).
      + pose proof (flush_state (attempted c1)) as F. destruct (flush outcome (attempted c1)) as [[ok c2] evs].
        cbn [fst snd] in *. rewrite F. exact H.
      + exact H.
      + exact H.
    - destruct (set_reply (cc_reply c) x e r). reflexivity.
  Qed.
  Lemma context_call_state {U} (w : world U) k : cc_state (w_client (fst (fst (context_call outcome w k)))) = cc_state (w_client w).
  Proof.
    unfold context_call. pose proof (do_call_state (w_client w) k) as H.
    destruct (do_call outcome (w_client w) k) as [[ok c] evs]. exact H.
  Qed.

  Definition at_recipient (c : client) : bool := match cc_state c with At TRcpt => true | _ => false end.

  Lemma set_reply_own {U} (w : world U) c e r w' b evs :
    context_set_reply outcome w c e r = (w', b, evs) ->
    w_own w' = w_own w /\ at_recipient (w_client w') = at_recipient (w_client w) /\
    ((b = Given true /\ exists s, code_means c e (Some s)) \/ (b = Raised /\ code_means c e None)).
  Proof.
    intros H. destruct (context_set_reply_spec _ _ _ _ _ _ _ _ H) as (_ & H1 & H2). split; [exact H1|]. split.
    - unfold context_set_reply in H. pose proof (context_call_state w (KSetReply c (Some e) (Some r))) as S.
      destruct (context_call outcome w _) as [[w1 a] evs1]. cbn [fst] in S.
      assert (G : forall v, w_client (fst (give_status w1 v)) = w_client w1).
      { intros v. unfold give_status. destruct (status_given v); reflexivity. }
      apply (f_equal (fun x => w_client (fst (fst x)))) in H. unfold at_recipient.
      destruct a; [|cbn [fst] in H; rewrite <- H, S; reflexivity].
      destruct (_ && _); [cbn [fst] in H; rewrite G in H; rewrite <- H, S; reflexivity|].
      destruct (_ && _); cbn [fst] in H; rewrite ?G in H; rewrite <- H, S; reflexivity.
    - destruct H2 as [[-> (s & Hs & _)]|[-> [Hs _]]]; [left; eauto|right; auto].
  Qed.
  Lemma give_own {U} (w : world U) v : w_own (fst (give_status w v)) = w_own w /\ w_client (fst (give_status w v)) = w_client w.
  Proof. unfold give_status. destruct (status_given v); auto. Qed.
  Lemma do_reset_own {U} reset (w : world U) w' b : do_reset reset w = (w', b) ->
    w_own w' = fst (reset (w_own w)) /\ w_client w' = w_client w.
  Proof. unfold do_reset. destruct (reset (w_own w)). intros H. injection H as <- _. auto. Qed.
  Lemma reset_unless_own {U} reset (w : world U) w' b : reset_unless_recipient reset w = (w', b) ->
    w_own w' = (if at_recipient (w_client w) then w_own w else fst (reset (w_own w))) /\ w_client w' = w_client w.
  Proof.
    unfold reset_unless_recipient, at_recipient. destruct (cc_state (w_client w)) as [|[]| |]; try exact (do_reset_own reset w w' b).
    intros H. injection H as <- _. auto.
  Qed.

  (** A refusal: what it says, the data afterwards, and what comes back. *)
  Lemma refuse_own {U} reset (w : world U) o plain c e r w' b evs :
    refuse outcome reset w o plain c e r = (w', b, evs) ->
    at_recipient (w_client w') = at_recipient (w_client w) /\
    (((nothing_given o \/ (~ nothing_given o /\ exists s, code_means (or_default (ro_code o) c) (or_default (ro_extended o) e) (Some s))) /\
      w_own w' = if at_recipient (w_client w) then w_own w else fst (reset (w_own w))) \/
     ((~ nothing_given o /\ code_means (or_default (ro_code o) c) (or_default (ro_extended o) e) None) /\
      w_own w' = w_own w /\ b = Raised)).
  Proof.
    unfold refuse. pose proof (option_given_spec o) as Ho. destruct (option_given o).
    - destruct (context_set_reply outcome w _ _ _) as [[w1 a] evs1] eqn:E.
      destruct (set_reply_own _ _ _ _ _ _ _ E) as (O1 & S1 & [[-> Hs]|[-> Hs]]); intros H.
      + destruct (reset_unless_recipient reset w1) as [w2 a2] eqn:Er. injection H as <- _ _.
        destruct (reset_unless_own _ _ _ _ Er) as [O2 C2]. rewrite C2. split; [exact S1|]. left.
        split; [right; auto|]. rewrite O2, S1, O1. reflexivity.
      + injection H as <- <- _. split; [exact S1|]. right. auto.
    - destruct (reset_unless_recipient reset _) as [w2 a2] eqn:Er. intros H. injection H as <- _ _.
      destruct (reset_unless_own _ _ _ _ Er) as [O2 C2]. destruct (give_own w (VName plain)) as [G1 G2].
      rewrite C2, O2, G1, G2. split; [reflexivity|]. left. auto.
  Qed.

  Lemma perform_own {U} reset (w : world U) a w' b evs rcpt :
    at_recipient (w_client w) = rcpt ->
    perform outcome reset w a = (w', b, evs) ->
    at_recipient (w_client w') = rcpt /\
    (ends_message rcpt a -> w_own w' = fst (reset (w_own w))) /\ (~ ends_message rcpt a -> w_own w' = w_own w) /\
    ((forall k, a <> ACall k) -> means a None -> b = Raised).
  Proof.
    intros Hr. destruct a as [| | | |o|o|r|v|c e r|k]; cbn [perform]; intros H.
    - destruct (do_reset reset _) as [w1 a] eqn:E. injection H as <- <- <-.
      destruct (do_reset_own _ _ _ _ E) as [-> ->]. split; [exact Hr|]. split; [reflexivity|].
      split; [intros N; elim N; constructor|]. intros _ M. inversion M.
    - destruct (do_reset reset _) as [w1 a] eqn:E. injection H as <- <- <-.
      destruct (do_reset_own _ _ _ _ E) as [-> ->]. split; [exact Hr|]. split; [reflexivity|].
      split; [intros N; elim N; constructor|]. intros _ M. inversion M.
    - injection H as <- <- <-. split; [exact Hr|]. split; [intros X; inversion X|]. split; [reflexivity|]. intros _ M. inversion M.
    - injection H as <- <- <-. split; [exact Hr|]. split; [intros X; inversion X|]. split; [reflexivity|]. intros _ M. inversion M.
    - destruct (refuse_own _ _ _ _ _ _ _ _ _ _ H) as (S1 & H1). rewrite Hr in *. split; [exact S1|].
      assert (M : nothing_given o \/ ~ nothing_given o /\
                  (exists s, code_means (or_default (ro_code o) 550) (or_default (ro_extended o) (lit "5.7.1")) (Some s)) ->
                  exists s, means (AReject o) (Some s)).
      { intros [Hn|[Hn (s & Hs)]]; [exists S_REJECT; constructor; exact Hn|]. exists s.
        eapply me_reject_with; [exact Hn|apply or_default_chosen|apply or_default_chosen|exact Hs]. }
      destruct H1 as [[Hs Ho]|[[Hn Hs] [Ho Hb]]].
      + destruct (M Hs) as (s & Ms). destruct rcpt.
        * split; [intros X; inversion X; discriminate|]. split; [intros _; exact Ho|].
          intros _ N. pose proof (means_fun _ _ _ Ms N). discriminate.
        * split; [intros _; exact Ho|]. split; [intros N; elim N; econstructor; [reflexivity|exact Ms]|].
          intros _ N. pose proof (means_fun _ _ _ Ms N). discriminate.
      + assert (N : means (AReject o) None).
        { eapply me_reject_with; [exact Hn|apply or_default_chosen|apply or_default_chosen|exact Hs]. }
        split; [|split; [intros _; exact Ho|intros _ _; exact Hb]].
        intros X. inversion X; subst. match goal with Y : means _ (Some _) |- _ => pose proof (means_fun _ _ _ N Y) end. discriminate.
    - destruct (refuse_own _ _ _ _ _ _ _ _ _ _ H) as (S1 & H1). rewrite Hr in *. split; [exact S1|].
      assert (M : nothing_given o \/ ~ nothing_given o /\
                  (exists s, code_means (or_default (ro_code o) 451) (or_default (ro_extended o) (lit "4.7.1")) (Some s)) ->
                  exists s, means (ATemporaryFailure o) (Some s)).
      { intros [Hn|[Hn (s & Hs)]]; [exists S_TEMPORARY_FAILURE; constructor; exact Hn|]. exists s.
        eapply me_fail_with; [exact Hn|apply or_default_chosen|apply or_default_chosen|exact Hs]. }
      destruct H1 as [[Hs Ho]|[[Hn Hs] [Ho Hb]]].
      + destruct (M Hs) as (s & Ms). destruct rcpt.
        * split; [intros X; inversion X; discriminate|]. split; [intros _; exact Ho|].
          intros _ N. pose proof (means_fun _ _ _ Ms N). discriminate.
        * split; [intros _; exact Ho|]. split; [intros N; elim N; econstructor; [reflexivity|exact Ms]|].
          intros _ N. pose proof (means_fun _ _ _ Ms N). discriminate.
      + assert (N : means (ATemporaryFailure o) None).
        { eapply me_fail_with; [exact Hn|apply or_default_chosen|apply or_default_chosen|exact Hs]. }
        split; [|split; [intros _; exact Ho|intros _ _; exact Hb]].
        intros X. inversion X; subst. match goal with Y : means _ (Some _) |- _ => pose proof (means_fun _ _ _ N Y) end. discriminate.
    - unfold context_call in H. cbn [do_call] in H.
      destruct (do_reset reset _) as [w2 a2] eqn:Er. injection H as <- <- <-.
      destruct (do_reset_own _ _ _ _ Er) as [-> ->]. split; [exact Hr|]. split; [reflexivity|].
      split; [intros N; elim N; constructor|]. intros _ M. inversion M.
    - unfold give_status in H. destruct (status_given v) as [v'|] eqn:E.
      + injection H as <- <- <-. split; [exact Hr|]. split; [intros X; inversion X|]. split; [reflexivity|].
        intros _ M. inversion M; subst. destruct (status_given_some _ _ E) as [_ (s & Hs)].
        match goal with A : value_means v None |- _ => pose proof (value_means_fun _ _ _ Hs A) end. discriminate.
      + injection H as <- <- <-. split; [exact Hr|]. split; [intros X; inversion X|]. split; reflexivity.
    - destruct (set_reply_own _ _ _ _ _ _ _ H) as (O1 & S1 & H2). rewrite S1. split; [exact Hr|].
      split; [intros X; inversion X|]. split; [intros _; exact O1|]. intros _ M. inversion M; subst.
      destruct H2 as [[_ (s & Hs)]|[-> _]]; [|reflexivity].
      match goal with A : code_means _ _ None |- _ => pose proof (code_means_fun _ _ _ _ Hs A) end. discriminate.
    - pose proof (context_call_state w k) as S. destruct (context_call_spec _ _ _ _ _ _ H) as (_ & _ & O).
      rewrite H in S. cbn [fst] in S. unfold at_recipient in *. rewrite S. split; [exact Hr|].
      split; [intros X; inversion X|]. split; [intros _; exact O|]. intros N. elim (N k). reflexivity.
  Qed.

  Lemma run_method_follows {U} reset rcpt (p : method U) : forall (w : world U) w' raised did evs,
    at_recipient (w_client w) = rcpt ->
    run_method outcome reset w p = (w', raised, did, evs) ->
    follows (fun u => fst (reset u)) rcpt p did raised (w_own w').
  Proof.
    induction p as [u|u|u a next IH]; intros w w' raised did evs Hr H; cbn [run_method] in H.
    - injection H as <- <- <- <-. constructor.
    - injection H as <- <- <- <-. constructor.
    - destruct (perform outcome reset (w_with_own w u) a) as [[w1 b] evs1] eqn:E.
      destruct (run_method outcome reset w1 _) as [[[w2 raised2] did2] evs2] eqn:E2.
      injection H as <- <- <- <-.
      destruct (perform_own _ (w_with_own w u) _ _ _ _ rcpt Hr E) as (S1 & A & B & C). cbn [w_own w_with_own] in A, B.
      eapply fo_act; [exact A|exact B|exact C|]. exact (IH _ _ _ _ _ _ _ _ _ S1 E2).
  Qed.

  Lemma receive_recipient c m : command_stage m <> None ->
    at_recipient (receive_command c m) = match m with CEnvelopeRecipient _ => true | _ => false end.
  Proof. destruct m; try reflexivity; intros H; elim H; reflexivity. Qed.

  Lemma block_own {U} fallback (w : world U) raised w' s : block_end fallback w raised = Some (w', s) -> w_own w' = w_own w.
  Proof. intros H. apply (block_end_spec fallback w raised w' s H). Qed.

  Definition handled (m : command) : bool := match m with CQuit | CDefineMacro _ _ | CAbort => false | _ => true end.

  (** A command with a handler is answered by the event's block. *)
  Lemma step_event {U} fallback (p : program U) w m w' e evs :
    handled m = true -> ruby_step outcome fallback p w m = Some (w', e, evs) ->
    exists w2 evs0, event_block fallback p m (w_with_client w (receive_command (w_client w) m)) = Some (w2, e, evs0) /\
                    w_own w' = w_own w2.
  Proof.
    intros Hm H. unfold ruby_step in H. cbv zeta in H.
    set (w1 := w_with_client w (receive_command (w_client w) m)) in *. clearbody w1.
    destruct m; try discriminate Hm;
      try (match type of H with context [p_answer ?a ?b ?c ?d] => destruct (p_answer a b c d) as [o' reqs] end);
      (destruct (event_block fallback p _ w1) as [[[w2 e0] evs0]|]; [|discriminate]);
      cbv zeta in H;
      (match type of H with match ?a with _ => _ end = _ => destruct a end); cbn [command_stage] in H;
      try (destruct (respond outcome _ _ _ _ _) as [c4 evs4]); injection H as <- <- <-; eauto.
  Qed.

  Lemma step_method {U} fallback (s : rsession U) w m w' e evs :
    handled m = true -> ruby_step outcome fallback (session_program outcome s) w m = Some (w', e, evs) ->
    match s_method s (match m with CEndOfMessage _ => CEndOfMessage None | _ => m end) with
    | Some f => exists c, follows (fun u => fst (s_reset s u)) (match m with CEnvelopeRecipient _ => true | _ => false end)
                            (f c (w_own w)) (l_did e) (l_raised e) (w_own w')
    | None => e = mk_entry [] false S_DEFAULT /\ w_own w' = w_own w
    end.
  Proof.
    intros Hm H. unfold ruby_step in H. cbv zeta in H.
    set (w1 := w_with_client w (receive_command (w_client w) m)) in *.
    assert (Hs : command_stage m <> None) by (destruct m; discriminate).
    pose proof (receive_recipient (w_client w) m Hs) as Hr. change (receive_command (w_client w) m) with (w_client w1) in Hr.
    assert (Ho : w_own w1 = w_own w) by reflexivity. rewrite <- Ho. clearbody w1.
    assert (X : exists w2 evs0, event_block fallback (session_program outcome s) m w1 = Some (w2, e, evs0) /\ w_own w' = w_own w2).
    { destruct m; try discriminate Hm;
        try (match type of H with context [p_answer ?a ?b ?c ?d] => destruct (p_answer a b c d) as [o' reqs] end);
        (destruct (event_block fallback (session_program outcome s) _ w1) as [[[w2 e0] evs0]|]; [|discriminate]);
        cbv zeta in H;
        (match type of H with match ?a with _ => _ end = _ => destruct a end); cbn [command_stage] in H;
        try (destruct (respond outcome _ _ _ _ _) as [c4 evs4]); injection H as <- <- <-; eauto. }
    clear H. destruct X as (w2 & evs0 & H & ->). unfold event_block in H. cbn [session_program p_event] in H.
    unfold session_event, told_of_command in H.
    destruct (s_method s _) as [f|].
    - destruct (run_method outcome (s_reset s) w1 _) as [[[w3 raised] did] evs3] eqn:E.
      destruct (block_end fallback w3 raised) as [[w4 st]|] eqn:B; [|discriminate]. injection H as <- <- <-.
      rewrite (block_own _ _ _ _ _ B). exists (w_client w1). cbn [l_did l_raised].
      exact (run_method_follows _ _ _ _ _ _ _ _ Hr E).
    - injection H as <- <- <-. auto.
  Qed.

  Lemma step_abort {U} fallback (s : rsession U) w w' e evs :
    ruby_step outcome fallback (session_program outcome s) w CAbort = Some (w', e, evs) ->
    exists u, w_own w' = fst (s_reset s u) /\
      match s_method s CAbort with
      | Some f => exists c raised, follows (fun u => fst (s_reset s u)) false (f c (w_own w)) (l_did e) raised u /\
                                   l_raised e = raised || snd (s_reset s u)
      | None => u = w_own w /\ l_did e = [] /\ l_raised e = snd (s_reset s u)
      end.
  Proof.
    intros H. unfold ruby_step in H. cbv zeta in H.
    set (w1 := w_with_client w (receive_command (w_client w) CAbort)) in *.
    pose proof (receive_recipient (w_client w) CAbort ltac:(discriminate)) as Hr.
    change (receive_command (w_client w) CAbort) with (w_client w1) in Hr.
    assert (Ho : w_own w1 = w_own w) by reflexivity. rewrite <- Ho. clearbody w1.
    destruct (abort_block fallback (session_program outcome s) w1) as [[[w2 e0] evs0]|] eqn:B; [|discriminate].
    assert (X : e0 = e /\ w_own w' = w_own w2).
    { match type of H with match ?a with _ => _ end = _ => destruct a end; cbn [command_stage] in H;
        try (destruct (respond outcome _ _ _ _ _) as [c4 evs4]); injection H as <- <- <-; auto. }
    clear H. destruct X as [-> ->]. unfold abort_block in B. cbn [session_program p_event p_reset] in B. unfold session_event in B.
    destruct (s_method s CAbort) as [f|].
    - destruct (run_method outcome (s_reset s) w1 _) as [[[w3 raised] did] evs3] eqn:E.
      destruct (if raised then _ else _) as [v|]; [|discriminate].
      destruct (s_reset s (w_own w3)) as [u raised'] eqn:R.
      destruct (block_end fallback _ raised') as [[w4 st]|] eqn:K; [|discriminate]. injection B as <- <- <-.
      exists (w_own w3). rewrite R, (block_own _ _ _ _ _ K). split; [reflexivity|].
      exists (w_client w1), raised. split; [exact (run_method_follows _ _ _ _ _ _ _ _ Hr E)|reflexivity].
    - destruct (s_reset s (w_own w1)) as [u raised'] eqn:R.
      destruct (block_end fallback _ raised') as [[w4 st]|] eqn:K; [|discriminate]. injection B as <- <- <-.
      exists (w_own w1). rewrite R, (block_own _ _ _ _ _ K). auto.
  Qed.

  (** *** Several sessions *)

  Lemma in_turn_one_by_one {U} rcpt m (ss : list (rsession U)) us c v parts raised us' c' v' evs :
    at_recipient c = rcpt ->
    in_turn outcome m ss us c v parts raised us' c' v' evs -> one_by_one rcpt m ss us parts raised us'.
  Proof.
    intros Hr T. revert Hr.
    induction T as [|s ss u us c v parts raised us' c' v' evs E T IH|s ss u us c v w1 did evs E|s ss u us c v w1 did evs parts raised us' c' v' evs' E T IH];
      intros Hr.
    - constructor.
    - unfold session_event in E. destruct (s_method s m) eqn:M; [discriminate|]. apply ob_deaf; auto.
    - unfold session_event in E. destruct (s_method s m) as [f|] eqn:M; [|discriminate]. injection E as E.
      eapply ob_raised; [exact M|]. exact (run_method_follows _ rcpt _ (mk_world c v u) _ _ _ _ Hr E).
    - unfold session_event in E. destruct (s_method s m) as [f|] eqn:M; [|discriminate]. injection E as E.
      eapply ob_ran; [exact M|exact (run_method_follows _ rcpt _ (mk_world c v u) _ _ _ _ Hr E)|].
      apply IH. destruct (run_method_spec _ _ _ _ _ _ _ _ E) as (ks & _ & C & _). cbn [w_client] in C.
      rewrite <- Hr. unfold at_recipient. replace (cc_state (w_client w1)) with (cc_state c); [reflexivity|].
      clear - C. revert c evs C. induction ks as [|k ks IH]; intros c evs C; cbn [do_calls] in C; [injection C as -> _; reflexivity|].
      pose proof (do_call_state c k) as S. destruct (do_call outcome c k) as [[ok c1] evs1]. cbn [fst snd] in S.
      destruct (do_calls outcome c1 ks) as [c2 evs2] eqn:D. injection C as -> _. rewrite <- S. exact (IH _ _ D).
  Qed.

  Lemma ask_all_app a b ka kb : ask_all a ka -> ask_all b kb -> ask_all (a ++ b) (ka ++ kb).
  Proof. intros Ha Hb. induction Ha; cbn [app]; [exact Hb|]. rewrite <- app_assoc. constructor; assumption. Qed.

  Lemma apply_each_calls {U} m (ss : list (rsession U)) : forall us c v acc c' v' us' acc' raised did evs,
    apply_each outcome m c v acc ss us = (c', v', us', acc', raised, did, evs) ->
    exists ks, ask_all did ks /\ do_calls outcome c ks = (c', evs).
  Proof.
    induction ss as [|s ss IH]; intros us c v acc c' v' us' acc' raised did evs H; cbn [apply_each] in H.
    - injection H as <- <- <- <- <- <- <-. exists []. split; [constructor|reflexivity].
    - destruct us as [|u us]; [injection H as <- <- <- <- <- <- <-; exists []; split; [constructor|reflexivity]|].
      unfold session_event in H. destruct (s_method s m) as [f|].
      + destruct (run_method outcome (s_reset s) _ _) as [[[w1 r1] did1] evs1] eqn:E.
        destruct (run_method_spec _ _ _ _ _ _ _ _ E) as (ks & A & C & _). cbn [w_client] in C.
        destruct r1; [injection H as <- <- <- <- <- <- <-; eauto|].
        destruct (resolve_status acc _) as [r|]; [|injection H as <- <- <- <- <- <- <-; eauto].
        destruct (apply_each outcome m (w_client w1) (w_status w1) (Some r) ss us) as [[[[[[c2 v2] us2] acc2] r2] did2] evs2] eqn:E2.
        injection H as <- <- <- <- <- <- <-. destruct (IH _ _ _ _ _ _ _ _ _ _ _ E2) as (ks2 & A2 & C2).
        exists (ks ++ ks2). split; [apply ask_all_app; assumption|exact (do_calls_app _ _ _ _ _ _ _ _ C C2)].
      + destruct (apply_each outcome m c v acc ss us) as [[[[[[c2 v2] us2] acc2] r2] did2] evs2] eqn:E2.
        injection H as <- <- <- <- <- <- <-. exact (IH _ _ _ _ _ _ _ _ _ _ _ E2).
  Qed.

  Lemma composite_lawful {U} (ss : list (rsession U)) : lawful outcome (fun _ _ _ => True) (composite_program outcome ss).
  Proof.
    intros m w w' raised did evs H. split; [|intros _ _; exact I].
    cbn [composite_program p_event] in H. injection H as H. unfold apply_sessions in H.
    destruct (apply_each outcome m (w_client w) (w_status w) None ss (w_own w)) as [[[[[[c v] us] acc] r] did0] evs0] eqn:E.
    destruct (apply_each_calls _ _ _ _ _ _ _ _ _ _ _ _ _ E) as (ks & A & C).
    apply (f_equal (fun x => (w_client (fst (fst (fst x))), snd (fst x), snd x))) in H. exists ks.
    destruct r; cbn [fst snd w_client] in H.
    - injection H as <- <- <-. split; assumption.
    - rewrite (proj2 (give_own (mk_world c v us) _)) in H. cbn [w_client] in H. injection H as <- <- <-. split; assumption.
  Qed.

  Lemma step_composite {U} fallback (ss : list (rsession U)) w m w' e evs :
    handled m = true -> length (w_own w) = length ss -> w_status w = VNil ->
    ruby_step outcome fallback (composite_program outcome ss) w m = Some (w', e, evs) ->
    Forall (fun a => ~ dashed a) (l_did e) ->
    exists parts,
      one_by_one (match m with CEnvelopeRecipient _ => true | _ => false end)
        (match m with CEndOfMessage _ => CEndOfMessage None | _ => m end) ss (w_own w) parts (l_raised e) (w_own w') /\
      l_did e = concat parts /\
      match l_raised e with
      | true => value_means fallback (Some (l_status e))
      | false => exists vs, said_all parts vs /\
          match parts with
          | [] => l_status e = match m with CNegotiate _ => S_REJECT | _ => S_CONTINUE end
          | _ :: _ => severest vs (l_status e)
          end
      end.
  Proof.
    intros Hm Hl Hv H Hd. unfold ruby_step in H. cbv zeta in H.
    set (w1 := w_with_client w (receive_command (w_client w) m)) in *.
    assert (Hs : command_stage m <> None) by (destruct m; discriminate).
    pose proof (receive_recipient (w_client w) m Hs) as Hr. change (receive_command (w_client w) m) with (w_client w1) in Hr.
    assert (Ho : w_own w1 = w_own w) by reflexivity. rewrite <- Ho in *.
    assert (Hv1 : w_status w1 = VNil) by exact Hv. clearbody w1.
    assert (X : exists w2 evs0, event_block fallback (composite_program outcome ss) m w1 = Some (w2, e, evs0) /\ w_own w' = w_own w2).
    { destruct m; try discriminate Hm;
        try (match type of H with context [p_answer ?a ?b ?c ?d] => destruct (p_answer a b c d) as [o' reqs] end);
        (destruct (event_block fallback (composite_program outcome ss) _ w1) as [[[w2 e0] evs0]|]; [|discriminate]);
        cbv zeta in H;
        (match type of H with match ?a with _ => _ end = _ => destruct a end); cbn [command_stage] in H;
        try (destruct (respond outcome _ _ _ _ _) as [c4 evs4]); injection H as <- <- <-; eauto. }
    clear H. destruct X as (w2 & evs0 & H & ->). unfold event_block in H. cbn [composite_program p_event] in H.
    change (told_of_command m) with (match m with CEndOfMessage _ => CEndOfMessage None | _ => m end) in H.
    set (m' := match m with CEndOfMessage _ => CEndOfMessage None | _ => m end) in *.
    destruct (apply_sessions outcome ss m' w1) as [[[w3 raised] did] evs3] eqn:E.
    destruct (block_end fallback w3 raised) as [[w4 st]|] eqn:B; [|discriminate]. injection H as <- <- <-.
    cbn [l_did l_raised l_status] in *. destruct (block_end_spec _ _ _ _ _ B) as (_ & _ & Bo & Bs).
    destruct (apply_sessions_spec outcome m' ss w1 w3 raised did evs3 Hl Hv1 E Hd) as (parts & v' & T & Hp & Q).
    exists parts. rewrite Bo. split; [exact (in_turn_one_by_one _ _ _ _ _ _ _ _ _ _ _ _ Hr T)|]. split; [exact Hp|].
    destruct raised; [exact Bs|]. destruct (Q eq_refl) as (vs & S & R). exists vs. split; [exact S|].
    rewrite Bs. destruct parts; [|exact R]. rewrite R. unfold m'. destruct m; reflexivity.
  Qed.
End Ruby.
