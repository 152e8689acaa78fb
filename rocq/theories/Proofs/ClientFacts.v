(** Facts about the filter context that hold whatever the writer does. *)
From Verif.Base Require Import Bytes BytesFacts.
From Verif.Model Require Import Decoder Encoder CommandCodec ReplyCodec Status Option Macros ReplyCode Client.
From Verif.Spec Require Import FrameSpec CommandGrammar ReplyGrammar ReplyCodeSpec ClientSpec.
From Verif.Proofs Require Import CommandStream CodecLemmas ReplyStream ReplyCodeProofs ClientProofs.
From Coq Require Import ZifyBool ZifyNat ZifyN Permutation.
Local Open Scope Z_scope.

Definition processed (evs : list client_event) : list status :=
  concat (map (fun e => match e with EvProcessed s => [s] | _ => [] end) evs).

Lemma processed_app a b : processed (a ++ b) = processed a ++ processed b.
Proof. unfold processed. rewrite map_app, concat_app. reflexivity. Qed.

(** A result that changes nothing but buffers and what is sent. *)
Definition quietly (c : client) (r : result) : Prop :=
  told_of (snd (fst r)) = told_of c /\ kept c (snd (fst r)) /\ processed (snd r) = [].

Section Any.
  Variable outcome : nat -> write_outcome.

  Lemma flush_quietly c : quietly c (flush outcome c).
  Proof.
    unfold flush. destruct (cc_buffering c); [|repeat split].
    destruct (outcome (cc_attempts c)); repeat split.
  Qed.

  Lemma quietly_events c ok c' evs more :
    quietly c (ok, c', evs) -> processed more = [] -> quietly c (ok, c', evs ++ more).
  Proof. intros (H1 & H2 & H3) H. repeat split; try apply H2; auto. cbn [snd] in *. rewrite processed_app, H3, H. reflexivity. Qed.

  Lemma quietly_from c c0 r : told_of c0 = told_of c -> kept c c0 -> quietly c0 r -> quietly c r.
  Proof.
    intros H1 H2 (H3 & H4 & H5). split; [congruence|]. split; [eapply kept_trans; eauto|exact H5].
  Qed.

  Lemma write_packet_quietly c p : quietly c (write_packet outcome c p).
  Proof.
    unfold write_packet, agent_write_packet. destruct (outcome (cc_attempts c)); try solve [repeat split].
    pose proof (flush_quietly (attempted c)) as H. destruct (flush outcome (attempted c)) as [[ok c2] evs].
    change (EvWrite p :: evs) with ([EvWrite p] ++ evs). rewrite <- app_assoc.
    destruct H as (H1 & H2 & H3). split; [exact H1|]. split; [exact H2|].
    cbn [snd] in *. rewrite !processed_app, H3. destruct ok; reflexivity.
  Qed.

  Lemma encode_told c e p c1 : encode c e = (p, c1) -> told_of c1 = told_of c /\ kept c c1.
  Proof.
    unfold encode. destruct (encode_reply (cc_encoder c) e); intros H; injection H as <- <-; repeat split.
  Qed.

  Lemma encode_and_buffer_quietly c e : quietly c (encode_and_buffer outcome c e).
  Proof.
    unfold encode_and_buffer. destruct (encode c e) as [p c1] eqn:E. destruct (encode_told _ _ _ _ E) as [H1 H2].
    eapply quietly_from; [exact H1|exact H2|]. unfold write_packet_on_end_of_message.
    set (b := cc_buffered c1 ++ _). destruct (cc_buffer_size c1 <? N.of_nat (length b))%N; [|repeat split].
    pose proof (flush_quietly (with_buffer c1 b true)) as H.
    destruct (flush outcome (with_buffer c1 b true)) as [[ok c2] evs].
    apply quietly_events; [|destruct ok; reflexivity]. exact H.
  Qed.

  Lemma replace_body_quietly : forall fuel c b, quietly c (replace_body_loop outcome fuel c b).
  Proof.
    induction fuel as [|fuel IH]; intros c b; destruct b as [|b0 b]; try solve [repeat split].
    cbn [replace_body_loop].
    pose proof (encode_and_buffer_quietly c (EReplaceBody (b0 :: b))) as H.
    destruct (encode_and_buffer outcome c (EReplaceBody (b0 :: b))) as [[ok c1] evs].
    destruct ok; [|exact H].
    specialize (IH c1 (skipn (N.to_nat MILTER_CHUNK_SIZE) (b0 :: b))).
    destruct (replace_body_loop outcome fuel c1 (skipn (N.to_nat MILTER_CHUNK_SIZE) (b0 :: b))) as [[ok' c2] evs'].
    destruct H as (H1 & H2 & H3), IH as (I1 & I2 & I3). cbn [fst snd] in *.
    split; [cbn; congruence|]. split; [eapply kept_trans; eauto|]. cbn [snd]. rewrite processed_app, H3, I3. reflexivity.
  Qed.

  Lemma guarded_quietly c a r : quietly c r -> quietly c (guarded c a r).
  Proof.
    intros H. unfold guarded. destruct (negb (at_end_of_message (cc_state c))); [repeat split|].
    destruct (negb (validate_action c a)); [repeat split|exact H].
  Qed.

  (** The reply a call leaves stored. *)
  Definition reply_after (r : smtp_reply) (k : call) : smtp_reply :=
    match k with KSetReply a e m => snd (set_reply r a e m) | _ => r end.

  Lemma do_call_facts c k :
    cc_reply (snd (fst (do_call outcome c k))) = reply_after (cc_reply c) k /\
    kept c (snd (fst (do_call outcome c k))) /\ processed (snd (do_call outcome c k)) = [].
  Proof.
    assert (Q : forall r, quietly c r -> cc_reply (snd (fst r)) = cc_reply c /\ kept c (snd (fst r)) /\ processed (snd r) = []).
    { intros r (H1 & H2 & H3). split; [exact (f_equal t_reply H1)|auto]. }
    destruct k as [n v|i n v|n i v|n i|f p|r p|r|b| |r|a e m|n|o]; cbn [do_call reply_after].
    - destruct n, v; try solve [repeat split]; apply Q, guarded_quietly, encode_and_buffer_quietly.
    - destruct n, v; try solve [repeat split]; apply Q, guarded_quietly, encode_and_buffer_quietly.
    - destruct n; try solve [repeat split]; apply Q, guarded_quietly, encode_and_buffer_quietly.
    - destruct n; try solve [repeat split]; apply Q, guarded_quietly, encode_and_buffer_quietly.
    - destruct f as [[|f0 f]|]; try solve [repeat split]; apply Q, guarded_quietly, encode_and_buffer_quietly.
    - destruct r as [[|f0 f]|]; try solve [repeat split]; apply Q, guarded_quietly, encode_and_buffer_quietly.
    - destruct r as [[|f0 f]|]; try solve [repeat split]; apply Q, guarded_quietly, encode_and_buffer_quietly.
    - apply Q, guarded_quietly, replace_body_quietly.
    - destruct (encode c EProgress) as [p c1] eqn:E. destruct (encode_told _ _ _ _ E) as [H1 H2].
      destruct p as [p|]; apply Q; eapply quietly_from; eauto; [apply write_packet_quietly|repeat split].
    - repeat split.
    - destruct (set_reply (cc_reply c) a e m) as [ok r]. repeat split.
    - repeat split.
    - repeat split.
  Qed.

  Lemma do_calls_facts ks : forall c c' evs, do_calls outcome c ks = (c', evs) ->
    cc_reply c' = fold_left reply_after ks (cc_reply c) /\ kept c c' /\ processed evs = [].
  Proof.
    induction ks as [|k ks IH]; intros c c' evs H; cbn [do_calls] in H.
    - injection H as <- <-. repeat split.
    - pose proof (do_call_facts c k) as (H1 & H2 & H3).
      destruct (do_call outcome c k) as [[ok c1] evs1]. cbn [fst snd] in *.
      destruct (do_calls outcome c1 ks) as [c2 evs2] eqn:E. injection H as <- <-.
      destruct (IH _ _ _ E) as (I1 & I2 & I3). cbn [fold_left]. rewrite I1, H1.
      split; [reflexivity|]. split; [eapply kept_trans; eauto|].
      rewrite processed_app, H3. exact I3.
  Qed.

  Lemma create_reply_told c s p c1 : create_reply_packet c s = (p, c1) -> told_of c1 = told_of c /\ kept c c1.
  Proof.
    unfold create_reply_packet. destruct (verdict_call c s); [apply encode_told|].
    intros H. injection H as <- <-. repeat split.
  Qed.

  Lemma do_reply_facts c s c' evs : do_reply outcome c s = (c', evs) ->
    cc_reply c' = cc_reply c /\ cc_message c' = cc_message c /\ processed evs = [].
  Proof.
    unfold do_reply. destruct (create_reply_packet c s) as [p c1] eqn:E.
    destruct (create_reply_told _ _ _ _ E) as [H1 H2]. pose proof (f_equal t_reply H1) as H3. cbn in H3.
    assert (H4 : cc_message c1 = cc_message c) by apply H2.
    destruct p as [b|].
    - pose proof (write_packet_quietly c1 b) as (W1 & W2 & W3).
      destruct (write_packet outcome c1 b) as [[ok c2] evs2]. intros H. injection H as <- <-.
      pose proof (f_equal t_reply W1) as W4. cbn in W1, W2, W3, W4.
      split; [congruence|]. split; [|exact W3]. destruct W2 as (_ & _ & _ & W5 & _). congruence.
    - intros H. injection H as <- <-. auto.
  Qed.

  Lemma reply_on_end_of_message_facts c s c' evs : reply_on_end_of_message outcome c s = (c', evs) ->
    cc_reply c' = cc_reply c /\ cc_message c' = cc_message c /\ cc_status c' = cc_status c /\ processed evs = [].
  Proof.
    unfold reply_on_end_of_message. pose proof (flush_quietly c) as (F1 & F2 & F3).
    destruct (flush outcome c) as [[ok c1] evs1]. cbn [fst snd] in *.
    pose proof (f_equal t_reply F1) as F4. cbn in F4.
    destruct F2 as (_ & _ & F5 & F6 & _).
    destruct ok; cbn [negb].
    - destruct (create_reply_packet c1 s) as [p c2] eqn:E. destruct (create_reply_told _ _ _ _ E) as [H1 H2].
      pose proof (f_equal t_reply H1) as H3. cbn in H3. destruct H2 as (_ & _ & H4 & H5 & _).
      destruct p as [b|].
      + assert (Hq : exists b' c3, match cc_quarantine c2 with
                       | None => (b, c2)
                       | Some r => let (q, c3) := encode c2 (EQuarantine r) in
                                   ((match q with Some q => q | None => [] end) ++ b, c3)
                       end = (b', c3) /\ told_of c3 = told_of c2 /\ kept c2 c3).
        { destruct (cc_quarantine c2) as [r|]; [|do 2 eexists; repeat split].
          destruct (encode c2 (EQuarantine r)) as [q c3] eqn:Eq. destruct (encode_told _ _ _ _ Eq) as [Q1 Q2].
          do 2 eexists. split; [reflexivity|]. auto. }
        destruct Hq as (b' & c3 & -> & Q1 & Q2). pose proof (f_equal t_reply Q1) as Q3. cbn in Q3.
        destruct Q2 as (_ & _ & Q4 & Q5 & _).
        pose proof (write_packet_quietly c3 b') as (W1 & W2 & W3).
        destruct (write_packet outcome c3 b') as [[ok' c4] evs4]. intros H. injection H as <- <-.
        cbn [fst snd] in *. pose proof (f_equal t_reply W1) as W4. cbn in W4.
        destruct W2 as (_ & _ & W5 & W6 & _).
        split; [congruence|]. split; [congruence|]. split; [congruence|]. rewrite processed_app, F3, W3. reflexivity.
      + intros H. injection H as <- <-. split; [congruence|]. split; [congruence|]. split; [congruence|]. exact F3.
    - intros H. injection H as <- <-. split; [exact F4|]. split; [exact F6|]. split; [exact F5|].
      rewrite processed_app, F3. reflexivity.
  Qed.

  Definition answered_status (s : status) : status := match s with S_DEFAULT => S_CONTINUE | _ => s end.

  Lemma respond_facts c t o q s c' evs : respond outcome c t o q s = (c', evs) ->
    cc_reply c' = cc_reply c /\
    processed evs =
      match t with TEndOfMessage => if cc_message c then [answered_status s] else [] | _ => [] end /\
    cc_message c' = match t with TEndOfMessage => false | _ => cc_message c end.
  Proof.
    assert (plain : forall t0, plain_response outcome c t0 s = (c', evs) ->
              cc_reply c' = cc_reply c /\ processed evs = [] /\ cc_message c' = cc_message c).
    { intros t0 H. unfold plain_response in H. apply do_reply_facts in H. destruct H as (H1 & H2 & H3). auto. }
    assert (neg : negotiate_response outcome c o q s = (c', evs) ->
              cc_reply c' = cc_reply c /\ processed evs = [] /\ cc_message c' = cc_message c).
    { unfold negotiate_response.
      set (s' := match s with S_DEFAULT => S_ALL_OPTIONS | _ => s end).
      assert (send : forall c0, cc_reply c0 = cc_reply c -> cc_message c0 = cc_message c ->
                match negotiate_packet c0 q with
                | Some p => let '(_, c1, evs) := write_packet outcome (with_encoder c0 p) p in (c1, evs)
                | None => (c0, [EvCrash])
                end = (c', evs) ->
                cc_reply c' = cc_reply c /\ processed evs = [] /\ cc_message c' = cc_message c).
      { intros c0 H1 H2. destruct (negotiate_packet c0 q) as [p|].
        - pose proof (write_packet_quietly (with_encoder c0 p) p) as (W1 & W2 & W3).
          destruct (write_packet outcome (with_encoder c0 p) p) as [[ok c1] evs1].
          intros H. injection H as <- <-. cbn [fst snd] in *. pose proof (f_equal t_reply W1) as W4. cbn in W4.
          destruct W2 as (_ & _ & _ & W5 & _). cbn in W5. split; [congruence|]. split; [exact W3|congruence].
        - intros H. injection H as <- <-. auto. }
      destruct s'; try (intros H; injection H as <- <-; repeat split); try (apply send; reflexivity).
      destruct (encode (with_state (with_status c S_REJECT) (Replied TNegotiate)) EReject) as [p c1] eqn:E.
      destruct (encode_told _ _ _ _ E) as [H1 H2]. pose proof (f_equal t_reply H1) as H3. cbn in H3.
      destruct H2 as (_ & _ & _ & H4 & _). cbn in H4.
      destruct p as [p|].
      - pose proof (write_packet_quietly c1 p) as (W1 & W2 & W3).
        destruct (write_packet outcome c1 p) as [[ok c2] evs1].
        intros H. injection H as <- <-. cbn [fst snd] in *. pose proof (f_equal t_reply W1) as W4. cbn in W4.
        destruct W2 as (_ & _ & _ & W5 & _). split; [congruence|]. split; [exact W3|congruence].
      - intros H. injection H as <- <-. auto. }
    assert (eom : end_of_message_response outcome c s = (c', evs) ->
              cc_reply c' = cc_reply c /\
              processed evs = (if cc_message c then [answered_status s] else []) /\ cc_message c' = false).
    { unfold end_of_message_response.
      match goal with |- context [reply_on_end_of_message outcome ?a ?b] =>
        destruct (reply_on_end_of_message outcome a b) as [c1 evs1] eqn:E end.
      apply reply_on_end_of_message_facts in E. cbn in E. destruct E as (E1 & E2 & E3 & E4).
      rewrite E2. destruct (cc_message c) eqn:Em; intros H; injection H as <- <-.
      - split; [exact E1|]. rewrite processed_app, E4, E3. split; reflexivity.
      - split; [exact E1|]. split; [exact E4|exact E2]. }
    destruct t; cbn [respond]; try solve [auto | apply plain].
    - intros H. injection H as <- <-. repeat split.
    - unfold abort_response. intros H. injection H as <- <-.
      destruct (is_pass (cc_status c) && before_end_of_message (cc_last_state c)); repeat split.
  Qed.

  Lemma receive_command_facts c m : m <> CQuit ->
    cc_reply (receive_command c m) = cc_reply c /\
    (command_stage m <> None -> m <> CAbort -> cc_message (receive_command c m) = true).
  Proof. intros Hq. destruct m; cbn; split; congruence. Qed.

  (** The calls an operation makes. *)
  Definition calls_made (op : client_op) : list call :=
    match op with
    | OpCommand CQuit _ _ _ _ => []
    | OpCommand _ ks _ _ _ => ks
    | OpCall k => [k]
    | _ => []
    end.

  Lemma step_reply c op c' evs : client_step outcome c op = (c', evs) ->
    cc_reply c' = fold_left reply_after (calls_made op) (cc_reply c).
  Proof.
    destruct op as [m ks o q s|k|t o q s|]; cbn [client_step].
    - assert (Hm : m = CQuit \/ m <> CQuit) by (destruct m; auto; right; discriminate).
      destruct Hm as [->|Hm]; [intros H; injection H as <- <-; reflexivity|].
      destruct (receive_command_facts c m Hm) as [R1 _].
      destruct (do_calls outcome (receive_command c m) ks) as [c2 evs2] eqn:E.
      destruct (do_calls_facts _ _ _ _ E) as (D1 & _).
      assert (Hgoal : forall c3, cc_reply c3 = cc_reply c2 ->
                cc_reply c3 = fold_left reply_after (calls_made (OpCommand m ks o q s)) (cc_reply c)).
      { intros c3 H3. rewrite H3, D1, R1. destruct m; try congruence; reflexivity. }
      assert (Hres : forall t c3, cc_reply c3 = cc_reply c2 ->
                match s with
                | S_PROGRESS => (c3, evs2)
                | _ => let (c4, evs') := respond outcome c3 t o q s in (c4, evs2 ++ evs')
                end = (c', evs) ->
                cc_reply c' = fold_left reply_after (calls_made (OpCommand m ks o q s)) (cc_reply c)).
      { intros t c3 H3. destruct (respond outcome c3 t o q s) as [c4 evs4] eqn:Er.
        destruct (respond_facts _ _ _ _ _ _ _ Er) as (F1 & _).
        destruct s; intros H; injection H as <- <-; apply Hgoal; congruence. }
      destruct m; try congruence; cbn [command_stage];
        try (apply Hres; reflexivity).
      intros H. injection H as <- <-. apply Hgoal. reflexivity.
    - intros H. destruct (do_calls_facts _ _ _ _ H) as (D1 & _). exact D1.
    - intros H. apply (respond_facts _ _ _ _ _ _ _ H).
    - pose proof (flush_quietly c) as (F1 & _). destruct (flush outcome c) as [[ok c1] evs1].
      intros H. injection H as <- <-. exact (f_equal t_reply F1).
  Qed.

  Lemma run_reply ops : forall c c' evs, client_run outcome c ops = (c', evs) ->
    cc_reply c' = fold_left reply_after (concat (map calls_made ops)) (cc_reply c).
  Proof.
    induction ops as [|op ops IH]; intros c c' evs H; cbn [client_run] in H.
    - injection H as <- <-. reflexivity.
    - destruct (client_step outcome c op) as [c1 evs1] eqn:E1.
      destruct (client_run outcome c1 ops) as [c2 evs2] eqn:E2. injection H as <- <-.
      cbn [map concat]. rewrite fold_left_app, (IH _ _ _ E2), (step_reply _ _ _ _ E1). reflexivity.
  Qed.

  Lemma step_processed c op c' evs : client_step outcome c op = (c', evs) ->
    processed evs =
      match op with
      | OpCommand (CEndOfMessage _) _ _ _ S_PROGRESS => []
      | OpCommand (CEndOfMessage _) _ _ _ s => [answered_status s]
      | OpRespond TEndOfMessage _ _ s => if cc_message c then [answered_status s] else []
      | _ => []
      end /\
    cc_message c' =
      match op with
      | OpCommand (CEndOfMessage _) _ _ _ S_PROGRESS => true
      | OpCommand (CEndOfMessage _ | CAbort) _ _ _ _ => false
      | OpCommand (CDefineMacro _ _ | CQuit) _ _ _ _ => cc_message c
      | OpCommand _ _ _ _ _ => true
      | OpRespond TEndOfMessage _ _ s => false
      | _ => cc_message c
      end.
  Proof.
    destruct op as [m ks o q s|k|t o q s|]; cbn [client_step].
    - assert (Hm : m = CQuit \/ m <> CQuit) by (destruct m; auto; right; discriminate).
      destruct Hm as [->|Hm]; [intros H; injection H as <- <-; split; reflexivity|].
      destruct (do_calls outcome (receive_command c m) ks) as [c2 evs2] eqn:E.
      destruct (do_calls_facts _ _ _ _ E) as (_ & D2 & D3). destruct D2 as (_ & _ & _ & D2 & _).
      assert (Hres : forall t c3,
                match s with
                | S_PROGRESS => (c3, evs2)
                | _ => let (c4, evs') := respond outcome c3 t o q s in (c4, evs2 ++ evs')
                end = (c', evs) ->
                processed evs =
                  match s with S_PROGRESS => [] | _ =>
                    match t with TEndOfMessage => if cc_message c3 then [answered_status s] else [] | _ => [] end
                  end /\
                cc_message c' =
                  match s with S_PROGRESS => cc_message c3 | _ =>
                    match t with TEndOfMessage => false | _ => cc_message c3 end
                  end).
      { intros t c3. destruct (respond outcome c3 t o q s) as [c4 evs4] eqn:Er.
        destruct (respond_facts _ _ _ _ _ _ _ Er) as (_ & F2 & F3).
        destruct s; intros H; injection H as <- <-; rewrite ?processed_app, D3; auto. }
      assert (Hrec := receive_command_facts c m Hm). destruct Hrec as [_ Hrec].
      destruct m; try congruence; cbn [command_stage] in *;
        try (intros H; apply Hres in H; destruct H as [H1 H2]; rewrite H1, H2, ?D2, ?Hrec by discriminate;
             destruct s; split; reflexivity).
      intros H. injection H as <- <-. split; [exact D3|]. rewrite D2. reflexivity.
    - intros H. destruct (do_calls_facts _ _ _ _ H) as (_ & D2 & D3). split; [exact D3|apply D2].
    - intros H. destruct (respond_facts _ _ _ _ _ _ _ H) as (_ & F2 & F3). rewrite F2, F3.
      destruct t; split; reflexivity.
    - pose proof (flush_quietly c) as (_ & F2 & F3). destruct (flush outcome c) as [[ok c1] evs1].
      intros H. injection H as <- <-. cbn [fst snd] in *. rewrite processed_app, F3.
      split; [reflexivity|apply F2].
  Qed.
End Any.

(** *** Several handlers *)

Lemma accumulate_decisive pre : forall acc s post,
  undecided acc = true ->
  Forall (fun x => x = S_NOT_CHANGE \/ undecided x = true) pre ->
  s <> S_NOT_CHANGE -> undecided s = false ->
  accumulate acc (pre ++ s :: post) = (s, S (length pre)).
Proof.
  induction pre as [|x pre IH]; intros acc s post Ha Hp Hs Hu; cbn [app accumulate length].
  - assert (E : match s with S_NOT_CHANGE => acc | _ => s end = s) by (destruct s; congruence).
    rewrite E, Hu. reflexivity.
  - inversion Hp as [|? ? Hx Hp']; subst.
    assert (E : undecided (match x with S_NOT_CHANGE => acc | _ => x end) = true).
    { destruct Hx as [->|Hx]; [exact Ha|]. destruct x; auto. }
    rewrite E. rewrite (IH _ s post E Hp' Hs Hu). reflexivity.
Qed.

Lemma accumulate_undecided rets : forall acc,
  undecided acc = true ->
  Forall (fun x => x = S_NOT_CHANGE \/ undecided x = true) rets ->
  accumulate acc rets =
  (last (filter (fun x => negb (status_eqb x S_NOT_CHANGE)) rets) acc, length rets).
Proof.
  induction rets as [|x rets IH]; intros acc Ha Hr; cbn [accumulate filter length]; [reflexivity|].
  inversion Hr as [|? ? Hx Hr']; subst.
  assert (E : undecided (match x with S_NOT_CHANGE => acc | _ => x end) = true).
  { destruct Hx as [->|Hx]; [exact Ha|]. destruct x; auto. }
  rewrite E, (IH _ E Hr').
  assert (last_cons : forall (a d d' : status) l, last (a :: l) d = last l a).
  { intros a d d' l. revert a. induction l as [|b l IHl]; intros a; [reflexivity|].
    change (last (a :: b :: l) d) with (last (b :: l) d). rewrite IHl.
    change (last (b :: l) a) with (match l with [] => b | _ :: _ => last l a end).
    destruct l as [|b' l]; [reflexivity|]. clear. revert b b' a. induction l; intros b b' a0; [reflexivity|]. cbn. apply (IHl b). }
  destruct Hx as [->|Hx]; [reflexivity|].
  destruct x; try discriminate Hx; cbn [status_eqb negb]; rewrite (last_cons _ acc acc); reflexivity.
Qed.
