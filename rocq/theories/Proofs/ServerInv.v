(** Invariant of a server context: its fields agree with its history, and every event of the
    history is justified by what came before it. *)
From Verif.Base Require Import Bytes BytesFacts.
From Verif.Model Require Import Decoder Encoder CommandCodec ReplyCodec Status Option Macros Client
                                Server.
From Verif.Spec Require Import ServerSpec.
From Coq Require Import ZifyBool ZifyNat ZifyN.
Local Open Scope N_scope.

Section Inv.
  Variables (ntop4 ntop6 : bytes -> bytes).
  Variable sort_keys : list bytes -> list bytes.
  Variable writes : list event -> write_outcome.
  Variable stops : list event -> bool.

  (** No body call or explicit change of state has just begun. *)
  Definition settled (t : list event) : bool :=
    match t with In (Call (ABody _)) :: _ | In (Call (ASetState _)) :: _ => false | _ => true end.

  (** Justification of an event by the history before it. *)
  Definition sent_ok (x : sstate) (packet : bytes) (t : list event) : Prop :=
    (overtakes x = false -> outstanding t = false) /\
    (if sstate_eqb x XBody then
       (exists b, (zlen b <= 65535)%Z /\ packet = pack ("B"%char :: b)) /\
       (settled t = true \/ wanted (session_option t) x)
     else
       wanted (session_option t) x /\
       exists c cmd t', t = In (Call c) :: t' /\ command_of c = Some (cmd, x) /\
         (x <> XNegotiate -> packet = pack (command_payload ntop4 ntop6 sort_keys cmd))).

  Definition forward_ok (r : reply) (t : list event) : Prop :=
    (exists t', t = In (Receive r) :: t') /\
    quit_said t = false /\
    (is_modification r = true -> stage t = XEndOfMessage) /\
    match r with
    | RNegotiate _ _ => stage t = XNegotiate
    | RContinue | RReplyCode _ _ _ => answerable (stage t) = true
    | RSkip => stage t = XBody
    | _ => True
    end.

  Definition entered_ok (x : sstate) (t : list event) : Prop :=
    (exists todo, l_todo (link_of t) = x :: todo) \/
    (exists c t', t = In (Call c) :: t' /\
       (c = ASetState x \/ exists cmd, command_of c = Some (cmd, x))).

  Definition processed_ok (m : message) (t : list event) : Prop :=
    mr_status m = verdict t /\
    match stage t with
    | XFrom | XRcpt | XData | XHeader | XEndOfHeader | XBody | XEndOfMessage =>
        mr_state m = Some (true, stage t)
    | _ => True
    end.

  Definition event_ok (e : event) (t : list event) : Prop :=
    match e with
    | Sent x _ p | Lost x _ p => sent_ok x p t
    | Forward r => forward_ok r t
    | Entered x => entered_ok x t
    | Processed m => processed_ok m t
    | Unasked x => ~ wanted (session_option t) x
    | _ => True
    end.

  Fixpoint trace_ok (t : list event) : Prop :=
    match t with
    | [] => True
    | e :: t' => event_ok e t' /\ trace_ok t'
    end.

  (** The fields against the history. *)
  Record view_ok (k : list sstate) (quitted : bool) (st : sstate) (o : option moption)
      (v rv : status) (next : list sstate) (timer : option timer) (t : list event) : Prop := {
    ag_quit : quitted = quit_said t;
    ag_state : st = stage t;
    ag_option : o = session_option t;
    ag_status : v = verdict t;
    ag_rcpt : rv = recipient_verdict t;
    ag_next : next = l_unflushed (link_of t);
    ag_todo : l_todo (link_of t) = k;
    ag_await : outstanding t = true -> forallb (awaits (session_option t)) k = true;
    ag_timer : outstanding t = true -> timer <> None;
    ag_due : outstanding t = true -> k = [] -> timer = Some (due t);
    ag_trace : trace_ok t
  }.
  Definition base (k : list sstate) (s : server) : Prop :=
    view_ok k (sv_quitted s) (sv_state s) (sv_option s) (sv_status s) (sv_rcpt_status s)
            (sv_next s) (sv_timer s) (sv_trace s).
  (** The chunk of a body call just begun. *)
  Definition pending_chunk (t : list event) : bytes :=
    match t with In (Call (ABody chunk)) :: _ => chunk | _ => [] end.
  Definition body_eq (s : server) : Prop :=
    body_given (sv_trace s) = body_sent (sv_trace s) ++ sv_body s.
  (** The same when the chunk of the call was already put into the body. *)
  Definition body_pre (s : server) : Prop :=
    body_given (sv_trace s) ++ pending_chunk (sv_trace s) = body_sent (sv_trace s) ++ sv_body s.
  Definition body_ok (s : server) : Prop := body_eq s /\ settled (sv_trace s) = true.
  Definition agrees (k : list sstate) (s : server) : Prop := base k s /\ body_ok s.
  Definition Inv (k : list sstate) (s : server) : Prop :=
    trace_ok (sv_trace s) /\ (sv_crashed s = false -> agrees k s).

  (** Events that say nothing about the fields. *)
  Definition neutral (e : event) : bool :=
    match e with
    | Forward RProgress => false
    | Unasked _ | Expired _ | Processed _ | ShutDown | Return _ | Crash | Forward _ => true
    | Error WriteFailed => false
    | Error _ => true
    | _ => false
    end.

  Lemma log_crashed s e : sv_crashed (log s e) = sv_crashed s.
  Proof. unfold log. destruct (sv_crashed s) eqn:E; cbn; auto. Qed.
  Lemma log_eq s e : sv_crashed s = false -> log s e = put_trace s (e :: sv_trace s).
  Proof. unfold log. intros ->. reflexivity. Qed.

  Lemma Inv_intro k s : agrees k s -> Inv k s.
  Proof. intros H. split; [apply H|auto]. Qed.

  Lemma Inv_elim k s : Inv k s -> sv_crashed s = false -> agrees k s.
  Proof. intros H. apply H. Qed.

  Lemma Inv_log k s e :
    Inv k s -> (sv_crashed s = false -> agrees k s -> agrees k (log s e)) -> Inv k (log s e).
  Proof.
    intros [Ht HI] H. destruct (sv_crashed s) eqn:Hc.
    - split; [|rewrite log_crashed; congruence]. unfold log. now rewrite Hc.
    - apply Inv_intro. auto.
  Qed.

  Lemma Inv_crash k s : trace_ok (sv_trace s) -> Inv k (crash s).
  Proof.
    intros H. split; [|discriminate]. unfold crash, log. cbn. destruct (sv_crashed s); cbn; auto.
  Qed.

  (** Nothing more happens. *)
  Definition frozen (s s' : server) : Prop :=
    sv_crashed s' = true /\ sv_trace s' = sv_trace s.
  Lemma Inv_frozen k k' s s' : Inv k s -> frozen s s' -> Inv k' s'.
  Proof. intros [Ht _] [Hc E]. split; [now rewrite E|congruence]. Qed.
  Lemma frozen_trans s1 s2 s3 : frozen s1 s2 -> frozen s2 s3 -> frozen s1 s3.
  Proof. intros [] []. split; congruence. Qed.
  Lemma frozen_log s e : sv_crashed s = true -> frozen s (log s e).
  Proof. intros H. unfold log. rewrite H. now split. Qed.

  Lemma chunk_given_error e t : chunk_given (Error e) t = pending_chunk t.
  Proof. reflexivity. Qed.

  Lemma log_neutral k s e :
    neutral e = true -> event_ok e (sv_trace s) ->
    base k s -> sv_crashed s = false -> base k (log s e).
  Proof.
    intros Hn Hok [] Hc. rewrite log_eq by exact Hc.
    destruct e; try discriminate Hn; try (destruct e; try discriminate Hn);
      try (destruct r; try discriminate Hn);
      constructor; cbn in *; try assumption; try (split; assumption).
  Qed.

  Lemma body_eq_log s e :
    sv_crashed s = false -> body_eq s ->
    chunk_given e (sv_trace s) = [] -> (forall t, body_sent (e :: t) = body_sent t) ->
    settled [e] = true ->
    body_ok (log s e).
  Proof.
    intros Hc Hb Hg Hs Hp. split; [|rewrite log_eq by exact Hc; destruct e; try reflexivity; exact Hp]. rewrite log_eq by exact Hc. unfold body_eq in *.
    cbn [sv_trace put_trace sv_body body_given]. now rewrite Hg, app_nil_r, Hs.
  Qed.

  Lemma body_pre_error s e :
    sv_crashed s = false -> body_pre s -> body_ok (log s (Error e)).
  Proof.
    intros Hc Hb. split; [|rewrite log_eq by exact Hc; reflexivity]. rewrite log_eq by exact Hc. unfold body_eq, body_pre in *.
    cbn [sv_trace put_trace sv_body body_given body_sent]. now rewrite chunk_given_error.
  Qed.

  Lemma body_eq_pre s : body_eq s -> pending_chunk (sv_trace s) = [] -> body_pre s.
  Proof. unfold body_eq, body_pre. intros H ->. now rewrite app_nil_r. Qed.

  Lemma settled_chunk t : settled t = true -> pending_chunk t = [].
  Proof.
    destruct t as [|e t]; [reflexivity|]. destruct e; try reflexivity.
    destruct o; try reflexivity. destruct c; try reflexivity. discriminate.
  Qed.
  Lemma settled_explicit t : settled t = true -> explicit_state t = false.
  Proof.
    destruct t as [|e t]; [reflexivity|]. destruct e; try reflexivity.
    destruct o; try reflexivity. destruct c; try reflexivity. discriminate.
  Qed.

  Section Step.
    Variable react : server -> server.
    Hypothesis react_inv : forall k s, Inv k s -> Inv k (react s).

    Lemma emit_neutral k s e :
      neutral e = true ->
      (sv_crashed s = false -> event_ok e (sv_trace s) /\ chunk_given e (sv_trace s) = []) ->
      Inv k s -> Inv k (emit react s e).
    Proof.
      intros Hn He HI. apply react_inv, Inv_log; [exact HI|]. intros Hc [Hb [Hy Hp]].
      destruct (He Hc) as [Hok Hg]. split.
      - now apply log_neutral.
      - apply body_eq_log; auto; destruct e; try discriminate Hn; reflexivity.
    Qed.

    Lemma emit_processed_inv k s : Inv k s -> Inv k (emit_processed react s).
    Proof.
      intros HI. unfold emit_processed. destruct (sv_message s) as [m|]; [|exact HI].
      set (m1 := match sv_state s with
                 | XFrom | XRcpt | XData | XHeader | XEndOfHeader | XBody | XEndOfMessage =>
                     mr_put_state m (true, sv_state s)
                 | _ => m
                 end).
      assert (Inv k (emit react (put_message s (Some (mr_put_status m1 (sv_status s))))
                          (Processed (mr_put_status m1 (sv_status s))))) as H.
      { apply emit_neutral; [reflexivity| |exact HI].
        intros Hc. destruct (Inv_elim _ _ HI Hc) as [[] _]. split; [|reflexivity].
        cbn [event_ok]. split; [exact ag_status0|].
        cbn [sv_trace put_message]. rewrite <- ag_state0. unfold m1.
        destruct (sv_state s); exact I || reflexivity. }
      exact H.
    Qed.

    (** A successful write, and a failed one. *)
    Lemma base_sent k s x prefix packet (taken : bool) :
      sv_crashed s = false -> base k s ->
      (overtakes x = false -> sv_timer s = Some TWriting) ->
      sent_ok x packet (sv_trace s) ->
      let e := if taken then Sent x prefix packet else Lost x prefix packet in
      base k (put_next (log s e) (sv_next (log s e) ++ [x])).
    Proof.
      intros Hc [] Ht Hok e. unfold e.
      destruct taken; rewrite log_eq by exact Hc; constructor; cbn in *; try assumption;
        try (now rewrite ag_next0); try (split; assumption); unfold outstanding in *; cbn;
        destruct (overtakes x) eqn:Eu; auto; intros H; rewrite ?Ht by auto; try discriminate;
        rewrite ag_todo0 in H; auto.
    Qed.

    Lemma macro_prefix_view s x :
      let s' := snd (macro_prefix ntop4 ntop6 sort_keys s x) in
      sv_trace s' = sv_trace s /\ sv_crashed s' = sv_crashed s /\ sv_timer s' = sv_timer s /\
      sv_body s' = sv_body s /\ sv_queue s' = sv_queue s /\
      (forall k, base k s -> base k s').
    Proof.
      unfold macro_prefix. destruct (macro_command x) as [c|]; [|cbn; auto 10].
      destruct (macros_before (sv_macros s) (sv_requests s) c) as [t a].
      destruct t; cbn; auto 10.
    Qed.

    Definition sent_pre (x : sstate) (packet : bytes) (t : list event) : Prop :=
      if sstate_eqb x XBody then
        (exists b, (zlen b <= 65535)%Z /\ packet = pack ("B"%char :: b)) /\
        (settled t = true \/ wanted (session_option t) x)
      else
        wanted (session_option t) x /\
        exists c cmd t', t = In (Call c) :: t' /\ command_of c = Some (cmd, x) /\
          (x <> XNegotiate -> packet = pack (command_payload ntop4 ntop6 sort_keys cmd)).

    (** write_packet: either the packet is taken, or an error is emitted. *)
    Lemma write_packet_inv k s packet x ok s' :
      sv_crashed s = false -> base k s -> body_pre s -> sent_pre x packet (sv_trace s) ->
      write_packet ntop4 ntop6 sort_keys writes react s packet x = (ok, s') ->
      (ok = false /\ Inv k s') \/
      (ok = true /\ sv_crashed s' = false /\ base k s' /\ sv_body s' = sv_body s /\
       exists prefix e, (e = Sent x prefix packet \/ e = Lost x prefix packet) /\
         sv_trace s' = e :: sv_trace s).
    Proof.
      intros Hc Hb Hy Hpre. unfold write_packet. change (urgent x) with (overtakes x).
      destruct (negb (overtakes x) && is_processing s) eqn:Ep.
      - intros [= <- <-]. left. split; [reflexivity|]. apply react_inv, Inv_intro. split.
        + now apply log_neutral.
        + now apply body_pre_error.
      - set (s1 := if overtakes x then s else put_timer s (Some TWriting)).
        assert (Hout : overtakes x = false -> outstanding (sv_trace s) = false).
        { intros Eu. rewrite Eu in Ep. cbn in Ep. unfold is_processing in Ep.
          destruct (outstanding (sv_trace s)) eqn:Eo; [|reflexivity].
          destruct Hb. specialize (ag_timer0 Eo). destruct (sv_timer s); [discriminate|].
          elim ag_timer0; reflexivity. }
        assert (Hs1 : sv_trace s1 = sv_trace s /\ sv_crashed s1 = false /\
                      sv_body s1 = sv_body s /\
                      (overtakes x = false -> sv_timer s1 = Some TWriting) /\ base k s1).
        { unfold s1. destruct (overtakes x) eqn:Eu.
          - repeat split; auto; try discriminate; destruct Hb; assumption.
          - cbn. repeat split; auto; destruct Hb; cbn; auto; rewrite Hout by reflexivity;
              discriminate. }
        destruct Hs1 as (Et & Ec & Eb & Htm & Hb1).
        pose proof (macro_prefix_view s1 x) as Hv.
        destruct (macro_prefix ntop4 ntop6 sort_keys s1 x) as [prefix s2]. cbn [snd] in Hv.
        destruct Hv as (Et2 & Ec2 & Etm2 & Eb2 & _ & Hbase).
        specialize (Hbase k Hb1).
        assert (Hc2 : sv_crashed s2 = false) by congruence.
        assert (Hok : sent_ok x packet (sv_trace s2)).
        { rewrite Et2, Et. split; [exact Hout|exact Hpre]. }
        assert (Htm2 : overtakes x = false -> sv_timer s2 = Some TWriting)
          by (intros Eu; rewrite Etm2; auto).
        destruct (writes (sv_trace s2)).
        + intros [= <- <-]. right. split; [reflexivity|].
          pose proof (base_sent k s2 x prefix packet true Hc2 Hbase Htm2 Hok) as Hs. cbn zeta iota in Hs.
          split; [|split; [exact Hs|split]].
          * cbn. now rewrite log_crashed.
          * cbn. rewrite log_eq by exact Hc2. cbn. congruence.
          * exists prefix, (Sent x prefix packet). split; [auto|].
            cbn. rewrite log_eq by exact Hc2. cbn. congruence.
        + intros [= <- <-]. right. split; [reflexivity|].
          pose proof (base_sent k s2 x prefix packet false Hc2 Hbase Htm2 Hok) as Hs. cbn zeta iota in Hs.
          split; [|split; [exact Hs|split]].
          * cbn. now rewrite log_crashed.
          * cbn. rewrite log_eq by exact Hc2. cbn. congruence.
          * exists prefix, (Lost x prefix packet). split; [auto|].
            cbn. rewrite log_eq by exact Hc2. cbn. congruence.
        + intros [= <- <-]. left. split; [reflexivity|]. apply react_inv, Inv_intro. split.
          * rewrite log_eq by exact Hc2. destruct Hbase.
            constructor; cbn in *; try assumption; try (split; [exact I|assumption]);
              unfold outstanding; cbn; discriminate.
          * apply body_pre_error; [exact Hc2|]. unfold body_pre in *. cbn.
            now rewrite Et2, Et, Eb2, Eb.
    Qed.

    Lemma chunk_given_sent x prefix packet t e :
      (e = Sent x prefix packet \/ e = Lost x prefix packet) ->
      chunk_given e t = if sstate_eqb x XBody then pending_chunk t else [].
    Proof. intros [-> | ->]; destruct x; reflexivity. Qed.

    Lemma body_sent_sent x prefix packet t e :
      (e = Sent x prefix packet \/ e = Lost x prefix packet) ->
      body_sent (e :: t) = body_sent t ++ if sstate_eqb x XBody then body_payload packet else [].
    Proof. intros [-> | ->]; destruct x; cbn; now rewrite ?app_nil_r. Qed.

    (** Sending any command but body. *)
    Lemma send_inv k s c cmd t x :
      sv_crashed s = false -> base k s -> body_eq s ->
      sv_trace s = In (Call c) :: t -> command_of c = Some (cmd, x) -> x <> XBody ->
      wanted (session_option (sv_trace s)) x ->
      Inv k (snd (send ntop4 ntop6 sort_keys writes react s cmd x)).
    Proof.
      intros Hc Hb Hy Ht Hcmd Hx Hw. unfold send.
      set (p := encode_command ntop4 ntop6 sort_keys (sv_encoder s) cmd).
      destruct (write_packet ntop4 ntop6 sort_keys writes react (put_encoder s p) p x)
        as [ok s'] eqn:E.
      assert (Ebx : sstate_eqb x XBody = false) by (destruct x; congruence || reflexivity).
      assert (Hpend : pending_chunk (sv_trace s) = []).
      { rewrite Ht. cbn. destruct c; try reflexivity. cbn in Hcmd. congruence. }
      eapply (write_packet_inv k) in E; [| exact Hc | | | ].
      - cbn [snd]. destruct E as [[_ HI]|(_ & Hc' & Hb' & Eb & prefix & e & He & Et)]; [exact HI|].
        apply Inv_intro. split; [exact Hb'|].
        split; [|rewrite Et; destruct He as [-> | ->]; reflexivity].
        unfold body_eq. rewrite Et, Eb. cbn [body_given].
        rewrite (chunk_given_sent _ _ _ _ _ He), (body_sent_sent _ _ _ _ _ He), Ebx.
        cbn [sv_trace put_encoder sv_body]. rewrite !app_nil_r. exact Hy.
      - destruct Hb; constructor; assumption.
      - apply body_eq_pre; [exact Hy|exact Hpend].
      - unfold sent_pre. rewrite Ebx. cbn [sv_trace put_encoder]. split; [exact Hw|].
        exists c, cmd, t. split; [exact Ht|]. split; [exact Hcmd|].
        intros Hn. unfold p. destruct c; cbn in Hcmd; try discriminate Hcmd;
          injection Hcmd as <- <-; congruence || reflexivity.
    Qed.

    Lemma packed_chunk_length b : (zlen (packed_chunk b) <= 65535)%Z.
    Proof.
      unfold zlen, packed_chunk, MILTER_CHUNK_SIZE. rewrite firstn_length. lia.
    Qed.

    Lemma body_payload_pack c b : body_payload (pack (c :: b)) = b.
    Proof. reflexivity. Qed.

    Lemma flush_body_inv k s :
      sv_crashed s = false -> base k s -> body_pre s ->
      settled (sv_trace s) = true \/ wanted (session_option (sv_trace s)) XBody ->
      Inv k (snd (flush_body ntop4 ntop6 sort_keys writes react s)).
    Proof.
      intros Hc Hb Hy Hw. unfold flush_body, send.
      set (s1 := put_queue s (sv_queue s ++ [0])).
      set (p := encode_command ntop4 ntop6 sort_keys (sv_encoder s1) (CBody (sv_body s1))).
      destruct (write_packet ntop4 ntop6 sort_keys writes react (put_encoder s1 p) p XBody)
        as [ok s'] eqn:E.
      eapply (write_packet_inv k) in E; [| exact Hc | | exact Hy | ].
      - destruct E as [[-> HI]|(-> & Hc' & Hb' & Eb & prefix & e & He & Et)]; [exact HI|].
        cbn [snd]. apply Inv_intro. split; [destruct Hb'; constructor; assumption|].
        split; [|cbn; rewrite Et; destruct He as [-> | ->]; reflexivity].
        unfold body_eq. cbn [sv_trace sv_body put_queue put_body].
        rewrite Et, Eb. cbn [body_given].
        rewrite (chunk_given_sent _ _ _ _ _ He), (body_sent_sent _ _ _ _ _ He).
        cbn [sstate_eqb sstate_rank N.eqb Pos.eqb].
        replace (body_payload p) with (packed_chunk (sv_body s)) by reflexivity.
        change (sv_trace (put_encoder s1 p)) with (sv_trace s).
        change (sv_body (put_encoder s1 p)) with (sv_body s).
        unfold body_pre in Hy. rewrite Hy, <- app_assoc. f_equal.
        unfold packed_chunk. rewrite firstn_length.
        rewrite <- (firstn_skipn (N.to_nat MILTER_CHUNK_SIZE) (sv_body s)) at 1. f_equal.
        destruct (Nat.le_ge_cases (N.to_nat MILTER_CHUNK_SIZE) (length (sv_body s))) as [Hl|Hl].
        + now rewrite Nat.min_l by exact Hl.
        + rewrite Nat.min_r by exact Hl. now rewrite !skipn_all2 by (exact Hl || apply le_n).
      - destruct Hb; constructor; assumption.
      - unfold sent_pre. cbn [sstate_eqb sstate_rank N.eqb Pos.eqb].
        split; [|exact Hw].
        exists (packed_chunk (sv_body s)). split; [apply packed_chunk_length|reflexivity].
    Qed.

    (** *** Changes of state *)

    Lemma set_state_crashed s x : sv_crashed (set_state s x) = sv_crashed s.
    Proof.
      unfold set_state. rewrite log_crashed. cbn. now destruct (sstate_in XNegotiate x XEndOfMessage).
    Qed.

    Lemma set_state_view s x :
      sv_crashed s = false ->
      let s' := set_state s x in
      sv_trace s' = Entered x :: sv_trace s /\ sv_state s' = x /\ sv_quitted s' = sv_quitted s /\
      sv_option s' = sv_option s /\ sv_status s' = sv_status s /\
      sv_rcpt_status s' = sv_rcpt_status s /\ sv_next s' = sv_next s /\
      sv_timer s' = sv_timer s /\ sv_body s' = sv_body s.
    Proof.
      intros Hc. unfold set_state.
      destruct (sstate_in XNegotiate x XEndOfMessage); rewrite log_eq by exact Hc; cbn; auto 10.
    Qed.

    Lemma verdict_entered x t :
      (x = XAbort -> explicit_state t = true) -> verdict (Entered x :: t) = verdict t.
    Proof.
      intros Hx. destruct x; try reflexivity. cbn [verdict]. rewrite Hx by reflexivity. reflexivity.
    Qed.

    Lemma set_state_base k s x :
      sv_crashed s = false -> base k s -> entered_ok x (sv_trace s) ->
      (x = XAbort -> explicit_state (sv_trace s) = true) -> base k (set_state s x).
    Proof.
      intros Hc Hb He Hx.
      destruct (set_state_view s x Hc) as (Et & Es & Eq & Eo & Ev & Er & En & Em & _).
      unfold base. rewrite Et, Es, Eq, Eo, Ev, Er, En, Em. destruct Hb.
      constructor; try assumption; try reflexivity.
      - rewrite verdict_entered; assumption.
      - split; assumption.
    Qed.

    Lemma set_state_body s x : sv_crashed s = false -> body_eq s -> body_ok (set_state s x).
    Proof.
      intros Hc Hy. destruct (set_state_view s x Hc) as (Et & _ & _ & _ & _ & _ & _ & _ & Eb).
      split; [|rewrite Et; reflexivity].
      unfold body_eq in *. rewrite Et, Eb. cbn [body_given body_sent chunk_given].
      now rewrite app_nil_r.
    Qed.

    (** A state right after the beginning of call [c]. *)
    Definition begun (k : list sstate) (c : api) (s : server) : Prop :=
      sv_crashed s = false /\ base k s /\ body_eq s /\ exists t, sv_trace s = In (Call c) :: t.

    Lemma skip_inv k c cmd s x :
      begun k c s -> command_of c = Some (cmd, x) -> x <> XAbort ->
      ~ wanted (session_option (sv_trace s)) x ->
      Inv k (snd (skip react s x)).
    Proof.
      intros (Hc & Hb & Hy & t & Ht) Hcmd Hx Hw. cbn [skip snd].
      apply emit_neutral; [reflexivity| |].
      - intros _. destruct (set_state_view s x Hc) as (-> & _). split; [exact Hw|reflexivity].
      - apply Inv_intro. split; [|now apply set_state_body].
        apply set_state_base; [exact Hc|exact Hb| |congruence].
        right. exists c, t. split; [exact Ht|]. right. now exists cmd.
    Qed.

    Lemma stop_inv k c cmd s x :
      begun k c s -> command_of c = Some (cmd, x) -> x <> XAbort ->
      Inv k (stop_on_state react s x).
    Proof.
      intros (Hc & Hb & Hy & t & Ht) Hcmd Hx. unfold stop_on_state.
      assert (HI : Inv k (emit react (set_state (put_status s S_STOP) x) (Stopped x))).
      { apply react_inv, Inv_intro.
        destruct (set_state_view (put_status s S_STOP) x Hc)
          as (Et & Es & Eq & Eo & Ev & Er & En & Em & Eb).
        assert (Hc2 : sv_crashed (set_state (put_status s S_STOP) x) = false)
          by (rewrite set_state_crashed; exact Hc).
        rewrite log_eq by exact Hc2. split.
        - unfold base. cbn. rewrite Et, Es, Eq, Eo, Ev, Er, En, Em. destruct Hb. cbn in *.
          constructor; try assumption; try reflexivity.
          cbn. split; [exact I|]. split; [|assumption].
          right. exists c, t. split; [exact Ht|]. right. now exists cmd.
        - split; [|reflexivity]. unfold body_eq in *. cbn. rewrite Et, Eb. cbn. now rewrite !app_nil_r. }
      destruct (sstate_in XFrom _ XEndOfMessage); [now apply emit_processed_inv|exact HI].
    Qed.

    Lemma enable_step_wanted s x step :
      sv_option s = session_option (sv_trace s) ->
      step = decline_step x -> x <> XData ->
      match x with XNegotiate | XQuit | XAbort | XEndOfMessage => False | _ => True end ->
      if is_enable_step s step then ~ wanted (session_option (sv_trace s)) x
      else wanted (session_option (sv_trace s)) x.
    Proof.
      intros <- -> Hd Hx. unfold is_enable_step, wanted.
      destruct x; try contradiction; destruct (sv_option s) as [o|]; auto;
        cbn [decline_step]; match goal with
        | |- context [N.land (o_step o) ?st =? 0] =>
            destruct (N.eqb_spec (N.land (o_step o) st) 0) as [E|E]; cbn [negb];
            [split; [exact E|congruence]| intros []; contradiction]
        end.
    Qed.

    Lemma begin_plain k s c :
      sv_crashed s = false -> agrees k s ->
      match c with
      | ANegotiate _ | ASetOption _ | AQuit | ASetQuitted _ | AFrom _ | AReset => False
      | _ => True
      end ->
      begun k c (log s (In (Call c))).
    Proof.
      intros Hc [Hb [Hy _]] Hk. split; [now rewrite log_crashed|].
      rewrite log_eq by exact Hc. split; [|split].
      - destruct Hb. destruct c; try contradiction; constructor; cbn in *; try assumption;
          try (split; [exact I|assumption]).
      - unfold body_eq in *. destruct c; cbn in *; now rewrite app_nil_r.
      - exists (sv_trace s). reflexivity.
    Qed.

    Lemma call_inv k s c : Inv k s -> sv_crashed s = false ->
      Inv k (call ntop4 ntop6 sort_keys writes stops react s c).
    Proof.
      intros HI Hc. pose proof (Inv_elim _ _ HI Hc) as HA. clear HI. rename HA into HI. unfold call.
      destruct (call_body ntop4 ntop6 sort_keys writes stops react (log s (In (Call c))) c)
        as [ok s'] eqn:E.
      cut (Inv k s').
      { intros H. apply Inv_log; [exact H|]. intros Hc' [? [? ?]]. split.
        - now apply log_neutral.
        - apply body_eq_log; auto. }
      replace s' with (snd (call_body ntop4 ntop6 sort_keys writes stops react
                              (log s (In (Call c))) c)) by (now rewrite E).
      clear E ok s'.
      assert (Hplain : match c with
                       | ANegotiate _ | ASetOption _ | AQuit | ASetQuitted _ | AFrom _
                       | AReset => False
                       | _ => True
                       end -> begun k c (log s (In (Call c)))) by (apply begin_plain; auto).
      set (s0 := log s (In (Call c))) in *.
      assert (Ht0 : sv_trace s0 = In (Call c) :: sv_trace s)
        by (unfold s0; rewrite log_eq by exact Hc; reflexivity).
      assert (Hc0 : sv_crashed s0 = false) by (unfold s0; now rewrite log_crashed).
      (* the common part of the commands *)
      assert (Hcommand : forall s1 cmd x step,
        begun k c s1 -> command_of c = Some (cmd, x) -> step = decline_step x ->
        x <> XData -> x <> XBody ->
        match x with XNegotiate | XQuit | XAbort | XEndOfMessage => False | _ => True end ->
        Inv k (snd (if is_enable_step s1 step then skip react s1 x
                    else send ntop4 ntop6 sort_keys writes react s1 cmd x))).
      { intros s1 cmd x step Hbg Hcmd Hst Hd Hbx Hx.
        pose proof Hbg as (Hc1 & Hb1 & Hy1 & t & Ht1).
        pose proof (enable_step_wanted s1 x step (ag_option _ _ _ _ _ _ _ _ _ Hb1) Hst Hd Hx) as Hw.
        destruct (is_enable_step s1 step).
        - eapply skip_inv; eauto. destruct x; try contradiction; discriminate.
        - eapply send_inv; eauto. }
      assert (Hstop : forall s1 cmd x, begun k c s1 -> command_of c = Some (cmd, x) ->
                x <> XAbort -> Inv k (stop_on_state react s1 x)) by (intros; eapply stop_inv; eauto).
      destruct c; cbn [call_body]; cbn [enter].
      - (* negotiate *)
        assert (Hbg : begun k (ANegotiate o) (put_option s0 (Some o))).
        { split; [exact Hc0|]. destruct HI as [Hb [Hy _]]. unfold s0. rewrite log_eq by exact Hc.
          split; [|split].
          - destruct Hb. constructor; cbn in *; try assumption; try reflexivity;
              try (split; [exact I|assumption]); unfold outstanding in *; cbn;
              rewrite andb_true_iff; intros [H1 H2]; auto.
            destruct (l_todo (link_of (sv_trace s))); [|discriminate]. now subst k.
          - unfold body_eq in *. cbn in *. now rewrite app_nil_r.
          - now exists (sv_trace s). }
        destruct Hbg as (Hc1 & Hb1 & Hy1 & t & Ht1).
        eapply send_inv with (c := ANegotiate o); [exact Hc1|exact Hb1|exact Hy1|exact Ht1|reflexivity|discriminate|exact I].
      - specialize (Hplain I).
        destruct (stops _).
        + cbn [snd]. eapply Hstop; [exact Hplain|reflexivity|discriminate].
        + apply Hcommand; try discriminate; auto.
      - specialize (Hplain I).
        destruct (stops _).
        + cbn [snd]. eapply Hstop; [exact Hplain|reflexivity|discriminate].
        + apply Hcommand; try discriminate; auto.
      - (* envelope-from *)
        assert (Hbg : begun k (AFrom from) (put_status s0 S_NOT_CHANGE)).
        { split; [exact Hc0|]. destruct HI as [Hb [Hy _]]. unfold s0. rewrite log_eq by exact Hc.
          split; [|split].
          - destruct Hb. constructor; cbn in *; try assumption; try reflexivity;
              try (split; [exact I|assumption]).
          - unfold body_eq in *. cbn in *. now rewrite app_nil_r.
          - now exists (sv_trace s). }
        destruct (stops _).
        + cbn [snd]. eapply Hstop; [exact Hbg|reflexivity|discriminate].
        + apply Hcommand; try discriminate; auto.
      - specialize (Hplain I).
        destruct (stops _).
        + cbn [snd]. eapply Hstop; [exact Hplain|reflexivity|discriminate].
        + apply Hcommand; try discriminate; auto.
      - (* data *)
        specialize (Hplain I).
        set (s1 := put_macros _ _).
        assert (Hbg : begun k AData s1) by exact Hplain.
        destruct (stops _).
        + cbn [snd]. eapply Hstop; [exact Hbg|reflexivity|discriminate].
        + destruct Hbg as (Hc1 & Hb1 & Hy1 & t & Ht1).
          pose proof (ag_option _ _ _ _ _ _ _ _ _ Hb1) as Eo.
          destruct (sv_option s1) as [o|] eqn:Eo1; [|apply Inv_crash, Hb1].
          assert (Hw : if (o_version o <? 4) || is_enable_step s1 STEP_NO_DATA
                       then ~ wanted (session_option (sv_trace s1)) XData
                       else wanted (session_option (sv_trace s1)) XData).
          { rewrite <- Eo. unfold is_enable_step. rewrite Eo1. cbn [wanted decline_step].
            destruct (N.ltb_spec (o_version o) 4) as [Hv|Hv]; cbn [orb].
            - intros [_ H]. specialize (H eq_refl). lia.
            - destruct (N.eqb_spec (N.land (o_step o) STEP_NO_DATA) 0); cbn [negb].
              + auto.
              + intros [H _]. contradiction. }
          destruct ((o_version o <? 4) || is_enable_step s1 STEP_NO_DATA).
          * eapply skip_inv with (c := AData); [exact Hplain|reflexivity|discriminate|exact Hw].
          * eapply send_inv with (c := AData); [exact Hc1|exact Hb1|exact Hy1|exact Ht1|reflexivity|discriminate|exact Hw].
      - apply Hcommand; try discriminate; auto.
      - specialize (Hplain I).
        destruct (stops _).
        + cbn [snd]. eapply Hstop; [exact Hplain|reflexivity|discriminate].
        + apply Hcommand; try discriminate; auto.
      - specialize (Hplain I).
        destruct (stops _).
        + cbn [snd]. eapply Hstop; [exact Hplain|reflexivity|discriminate].
        + apply Hcommand; try discriminate; auto.
      - (* body *)
        specialize (Hplain I).
        set (s1 := put_macros _ _).
        assert (Hbg : begun k (ABody chunk) s1) by exact Hplain.
        destruct (stops _).
        + cbn [snd]. eapply Hstop; [exact Hbg|reflexivity|discriminate].
        + destruct Hbg as (Hc1 & Hb1 & Hy1 & t & Ht1).
          pose proof (enable_step_wanted s1 XBody STEP_NO_BODY (ag_option _ _ _ _ _ _ _ _ _ Hb1) eq_refl
                        ltac:(discriminate) I) as Hw.
          destruct (is_enable_step s1 STEP_NO_BODY).
          * eapply skip_inv with (c := ABody chunk); [exact Hplain|reflexivity|discriminate|exact Hw].
          * apply flush_body_inv; [exact Hc1|exact Hb1| |right; exact Hw].
            unfold body_pre, body_eq in *. cbn [sv_trace put_body sv_body].
            change (sv_trace s1) with (sv_trace s0) in *. rewrite Ht0 in *. cbn [pending_chunk].
            rewrite Hy1. now rewrite app_assoc.
      - (* end-of-message *)
        specialize (Hplain I).
        destruct (stops _).
        + cbn [snd]. eapply Hstop; [exact Hplain|reflexivity|discriminate].
        + destruct Hplain as (Hc1 & Hb1 & Hy1 & t & Ht1).
          eapply send_inv with (c := AEndOfMessage chunk); [exact Hc1|exact Hb1|exact Hy1|exact Ht1|reflexivity|discriminate|exact I].
      - (* quit *)
        assert (Hbg : begun k AQuit (put_quitted s0 true)).
        { split; [exact Hc0|]. destruct HI as [Hb [Hy _]]. unfold s0. rewrite log_eq by exact Hc.
          split; [|split].
          - destruct Hb. constructor; cbn in *; try assumption; try reflexivity;
              try (split; [exact I|assumption]).
          - unfold body_eq in *. cbn in *. now rewrite app_nil_r.
          - now exists (sv_trace s). }
        destruct Hbg as (Hc1 & Hb1 & Hy1 & t & Ht1).
        eapply send_inv with (c := AQuit); [exact Hc1|exact Hb1|exact Hy1|exact Ht1|reflexivity|discriminate|exact I].
      - (* abort *)
        destruct (Hplain I) as (Hc1 & Hb1 & Hy1 & t & Ht1).
        assert (Inv k (snd (send ntop4 ntop6 sort_keys writes react s0 CAbort XAbort))) as H
          by (eapply send_inv with (c := AAbort); [exact Hc1|exact Hb1|exact Hy1|exact Ht1|reflexivity|discriminate|exact I]).
        destruct (send ntop4 ntop6 sort_keys writes react s0 CAbort XAbort). exact H.
      - (* set-state *)
        destruct (Hplain I) as (Hc1 & Hb1 & Hy1 & t & Ht1). apply Inv_intro. split.
        + apply set_state_base; auto.
          * right. exists (ASetState x), (sv_trace s). split; [exact Ht0|now left].
          * intros _. now rewrite Ht0.
        + now apply set_state_body.
      - (* set-quitted *)
        apply Inv_intro. destruct HI as [Hb [Hy _]]. unfold s0. rewrite log_eq by exact Hc. split.
        + destruct Hb. constructor; cbn in *; try assumption; try reflexivity;
            try (split; [exact I|assumption]).
        + split; [|reflexivity]. unfold body_eq in *. cbn in *. now rewrite app_nil_r.
      - destruct (Hplain I) as (Hc1 & Hb1 & Hy1 & t & Ht1). apply Inv_intro. split; [exact Hb1|]. split; [exact Hy1|]. cbn. now rewrite Ht0.
      - (* set-option *)
        apply Inv_intro. destruct HI as [Hb [Hy _]]. unfold s0. rewrite log_eq by exact Hc. split.
        + destruct Hb. constructor; cbn in *; try assumption; try reflexivity;
            try (split; [exact I|assumption]); unfold outstanding in *; cbn;
            rewrite andb_true_iff; intros [H1 H2]; auto.
          destruct (l_todo (link_of (sv_trace s))); [|discriminate]. now subst k.
        + split; [|reflexivity]. unfold body_eq in *. cbn in *. now rewrite app_nil_r.
      - (* reset *)
        apply Inv_intro. destruct HI as [Hb [Hy _]]. unfold s0. rewrite log_eq by exact Hc. split.
        + destruct Hb. constructor; cbn in *; try assumption; try reflexivity;
            try (split; [exact I|assumption]).
        + split; [|reflexivity]. unfold body_eq in *. cbn in *. now rewrite app_nil_r.
      - destruct (Hplain I) as (Hc1 & Hb1 & Hy1 & t & Ht1). apply Inv_intro. split; [exact Hb1|]. split; [exact Hy1|]. cbn. now rewrite Ht0.
    Qed.
    (** *** A crash is final *)

    Hypothesis react_frozen : forall s, sv_crashed s = true -> frozen s (react s).

    Lemma emit_frozen s e : sv_crashed s = true -> frozen s (emit react s e).
    Proof.
      intros H. unfold emit. eapply frozen_trans; [now apply (frozen_log s e)|].
      apply react_frozen. now rewrite log_crashed.
    Qed.

    Lemma emit_processed_frozen s :
      sv_crashed s = true -> frozen s (emit_processed react s).
    Proof.
      intros H. unfold emit_processed. destruct (sv_message s); [|now split].
      match goal with |- frozen s (put_message (emit react ?s1 ?e) None) =>
        destruct (emit_frozen s1 e H) end.
      now split.
    Qed.

    Lemma write_packet_frozen s p x :
      sv_crashed s = true ->
      frozen s (snd (write_packet ntop4 ntop6 sort_keys writes react s p x)).
    Proof.
      intros H. unfold write_packet.
      destruct (negb (urgent x) && is_processing s); [now apply emit_frozen|].
      set (s1 := if urgent x then s else put_timer s (Some TWriting)).
      assert (H1 : sv_crashed s1 = true /\ sv_trace s1 = sv_trace s)
        by (unfold s1; destruct (urgent x); now split).
      destruct H1 as [H1 E1].
      pose proof (macro_prefix_view s1 x) as Hv.
      destruct (macro_prefix ntop4 ntop6 sort_keys s1 x) as [prefix s2]. cbn [snd] in Hv.
      destruct Hv as (Et & Hc & _). rewrite H1 in Hc.
      destruct (writes (sv_trace s2)); cbn [snd].
      - destruct (frozen_log s2 (Sent x prefix p) Hc). split; cbn; congruence.
      - destruct (frozen_log s2 (Lost x prefix p) Hc). split; cbn; congruence.
      - destruct (emit_frozen (disable_timeout s2) (Error WriteFailed) Hc) as [A B]. cbn in B.
        split; congruence.
    Qed.

    Lemma flush_body_frozen s :
      sv_crashed s = true ->
      frozen s (snd (flush_body ntop4 ntop6 sort_keys writes react s)).
    Proof.
      intros H. unfold flush_body, send.
      set (p := encode_command _ _ _ _ _).
      pose proof (write_packet_frozen
                    (put_encoder (put_queue s (sv_queue s ++ [0])) p) p XBody H) as Hw.
      destruct (write_packet _ _ _ _ _ _ _ _) as [ok s2]. cbn [snd] in Hw.
      destruct ok; exact Hw.
    Qed.

    Lemma set_state_frozen s x : sv_crashed s = true -> frozen s (set_state s x).
    Proof.
      intros H. unfold set_state. destruct (sstate_in XNegotiate x XEndOfMessage);
        unfold log; cbn; rewrite H; now split.
    Qed.

    Lemma crash_frozen s : sv_crashed s = true -> frozen s (crash s).
    Proof. intros H. unfold crash, log. rewrite H. now split. Qed.

    Lemma deliver_frozen s x :
      sv_crashed s = true -> frozen s (deliver ntop4 ntop6 sort_keys writes react s x).
    Proof.
      intros H. unfold deliver.
      cut (frozen s (process_next_state ntop4 ntop6 sort_keys writes react s x)).
      { intros HF. eapply frozen_trans; [exact HF|]. apply emit_frozen, HF. }
      unfold process_next_state.
      assert (Hset : forall s' y, frozen s s' -> frozen s (set_state s' y)).
      { intros s' y H'. eapply frozen_trans; [exact H'|]. apply set_state_frozen, H'. }
      assert (Hdef : forall s' y, frozen s s' ->
                frozen s (match need_reply (set_state s' y) y with
                          | None => crash (set_state s' y)
                          | Some true => put_timer (set_state s' y) (Some TReading)
                          | Some false => set_state s' y
                          end)).
      { intros s' y H'. specialize (Hset s' y H'). destruct (need_reply _ _) as [[]|].
        - exact Hset.
        - exact Hset.
        - eapply frozen_trans; [exact Hset|]. apply crash_frozen, Hset. }
      assert (Hd : frozen s (disable_timeout s)) by (now split).
      destruct x; try (apply Hdef; exact Hd).
      - now apply emit_frozen.
      - unfold process_next_state_body.
        assert (H1 : frozen s (set_state (disable_timeout s) XBody)) by (now apply Hset).
        destruct (sv_body _); [exact H1|].
        destruct (need_reply _ _) as [[]|]; [exact H1| |].
        + eapply frozen_trans; [exact H1|]. apply flush_body_frozen, H1.
        + eapply frozen_trans; [exact H1|]. apply crash_frozen, H1.
      - apply (Hset _ XEndOfMessage Hd).
      - apply Hset. exact (emit_frozen (disable_timeout s) ShutDown H).
      - match goal with |- frozen s (reset_message_related_data (emit_processed _ (set_state ?s2 _))) =>
          assert (H2 : frozen s s2) by (now destruct (is_pass _ && _ && _));
          pose proof (Hset s2 XAbort H2) as H3 end.
        eapply frozen_trans; [exact H3|].
        destruct (emit_processed_frozen _ (proj1 H3)). now split.
    Qed.

    (** *** Delivered commands *)

    Lemma delivered_inv k s x :
      x <> XAbort -> Inv (x :: k) s ->
      (sv_crashed s = false -> outstanding (sv_trace s) = true ->
       sv_timer s = Some (reply_timer x)) ->
      Inv k (emit react s (Delivered x)).
    Proof.
      intros Hx HI Hd. destruct (sv_crashed s) eqn:Hc.
      { eapply Inv_frozen; [exact HI|]. now apply emit_frozen. }
      apply react_inv, Inv_intro. destruct (Inv_elim _ _ HI Hc) as [Hb [Hy Hp]]. split.
      - rewrite log_eq by exact Hc. destruct Hb.
        constructor; cbn in *; try assumption; try (split; [exact I|assumption]).
        + destruct x; try congruence; assumption.
        + now rewrite ag_todo0.
        + intros H. specialize (ag_await0 H). cbn in ag_await0.
          apply andb_true_iff in ag_await0. tauto.
        + intros H _. specialize (ag_await0 H). cbn in ag_await0.
          apply andb_true_iff in ag_await0 as [Ha _].
          destruct x; try discriminate Ha; exact (Hd eq_refl H).
      - apply body_eq_log; auto.
    Qed.

    (** With a command that is not answered among the flushed ones, nothing is outstanding. *)
    Lemma unanswered k s x :
      base (x :: k) s -> awaits (session_option (sv_trace s)) x = false ->
      outstanding (sv_trace s) = false.
    Proof.
      intros [] Ha. destruct (outstanding (sv_trace s)); [|reflexivity].
      specialize (ag_await0 eq_refl). cbn in ag_await0. rewrite Ha in ag_await0. discriminate.
    Qed.

    Lemma delivered_silent k s x :
      match x with XInvalid | XBody | XQuit => True | _ => False end ->
      Inv (x :: k) s -> Inv k (emit react s (Delivered x)).
    Proof.
      intros Hx HI. apply delivered_inv; [destruct x; contradiction || discriminate|exact HI|].
      intros Hc Ho. destruct (Inv_elim _ _ HI Hc) as [Hb _].
      rewrite (unanswered k s x Hb) in Ho; [discriminate|]. destruct x; contradiction || reflexivity.
    Qed.

    Lemma base_timer k s tm :
      base k s -> (outstanding (sv_trace s) = true -> tm <> None) ->
      (outstanding (sv_trace s) = true -> k = [] -> tm = Some (due (sv_trace s))) ->
      base k (put_timer s tm).
    Proof. intros [] H. constructor; assumption. Qed.

    Lemma entered_todo k s x : base (x :: k) s -> entered_ok x (sv_trace s).
    Proof. intros []. left. now exists k. Qed.

    (** [set_state] followed by a timer that is armed if the command is answered. *)
    Lemma set_state_timer k s x tm :
      sv_crashed s = false -> base (x :: k) s -> body_eq s -> x <> XAbort ->
      (awaits (session_option (sv_trace s)) x = true -> tm <> None) ->
      agrees (x :: k) (put_timer (set_state s x) tm).
    Proof.
      intros Hc Hb Hy Hx Ht.
      assert (Hb2 : base (x :: k) (set_state s x)).
      { apply set_state_base; [exact Hc|exact Hb|now apply (entered_todo k)|congruence]. }
      split.
      - apply base_timer; [exact Hb2| |discriminate].
        destruct (set_state_view s x Hc) as (Et & _). rewrite Et. intros Ho.
        apply Ht. destruct Hb2. rewrite Et in ag_await0. specialize (ag_await0 Ho). cbn in ag_await0.
        apply andb_true_iff in ag_await0. tauto.
      - now apply set_state_body.
    Qed.

    Lemma set_state_put_timer s x tm :
      put_timer (set_state (disable_timeout s) x) tm = put_timer (set_state s x) tm.
    Proof.
      unfold set_state, log, disable_timeout. cbn.
      destruct (sstate_in XNegotiate x XEndOfMessage); cbn; destruct (sv_crashed s); reflexivity.
    Qed.

    Lemma disable_set_state s x :
      set_state (disable_timeout s) x = put_timer (set_state s x) None.
    Proof.
      unfold set_state, log, disable_timeout. cbn.
      destruct (sstate_in XNegotiate x XEndOfMessage); cbn; destruct (sv_crashed s); reflexivity.
    Qed.

    Lemma deliver_inv k s x :
      Inv (x :: k) s -> Inv k (deliver ntop4 ntop6 sort_keys writes react s x).
    Proof.
      intros HI. destruct (sv_crashed s) eqn:Hc.
      { eapply Inv_frozen; [exact HI|]. now apply deliver_frozen. }
      destruct (Inv_elim _ _ HI Hc) as [Hb [Hy Hp]]. clear HI. unfold deliver.
      assert (Hplain : forall s',
                sv_crashed s' = false -> base (x :: k) s' -> body_eq s' -> x <> XAbort ->
                (awaits (session_option (sv_trace s')) x = true ->
                 need_reply (set_state (disable_timeout s') x) x = Some true \/
                 need_reply (set_state (disable_timeout s') x) x = None) ->
                x <> XEndOfMessage ->
                Inv k (emit react (match need_reply (set_state (disable_timeout s') x) x with
                              | None => crash (set_state (disable_timeout s') x)
                              | Some true =>
                                  put_timer (set_state (disable_timeout s') x) (Some TReading)
                              | Some false => set_state (disable_timeout s') x
                              end) (Delivered x))).
      { intros s' Hc' Hb' Hy' Hx Ha Hm.
        destruct (need_reply (set_state (disable_timeout s') x) x) as [[]|] eqn:En;
          (apply delivered_inv; [exact Hx| |]).
        - apply Inv_intro. rewrite set_state_put_timer. apply set_state_timer; auto. discriminate.
        - intros _ _. destruct x; try reflexivity. congruence.
        - apply Inv_intro. rewrite disable_set_state. apply set_state_timer; auto.
          intros H. destruct (Ha H); discriminate.
        - rewrite disable_set_state. cbn. destruct (set_state_view s' x Hc') as (-> & _).
          intros _ H. change (outstanding (sv_trace s') = true) in H.
          destruct (awaits (session_option (sv_trace s')) x) eqn:Eaw.
          + destruct (Ha eq_refl); discriminate.
          + rewrite (unanswered k s' x Hb' Eaw) in H. discriminate.
        - apply Inv_crash. rewrite disable_set_state. cbn.
          destruct (set_state_view s' x Hc') as (-> & _). split; [|apply Hb'].
          cbn. now apply (entered_todo k).
        - discriminate. }
      assert (Hneed : forall s', sv_crashed s' = false -> sv_option s' = session_option (sv_trace s') ->
                awaits (session_option (sv_trace s')) x = true ->
                need_reply (set_state (disable_timeout s') x) x = Some true \/
                need_reply (set_state (disable_timeout s') x) x = None).
      { intros s' Hc' Ho' Ha. rewrite disable_set_state. unfold need_reply. cbn [sv_option put_timer].
        destruct (set_state_view s' x Hc') as (_ & _ & _ & Eo & _). rewrite Eo, Ho'.
        destruct (session_option (sv_trace s')) as [o|]; [|now right]. left. f_equal.
        unfold awaits in Ha. destruct x; try discriminate Ha; try exact Ha.
        cbn [no_reply_step]. now rewrite N.land_0_r. }
      pose proof (ag_option _ _ _ _ _ _ _ _ _ Hb) as Ho.
      destruct x; cbn [process_next_state].
      - (* invalid *)
        assert (HI : Inv (XInvalid :: k) (emit react s (Error InvalidState))).
        { apply emit_neutral; [reflexivity| |].
          - intros _. split; [exact I|]. rewrite chunk_given_error. now apply settled_chunk.
          - apply Inv_intro. split; [exact Hb|]. now split. }
        now apply delivered_silent.
      - apply (Hplain s); auto; try discriminate.
      - apply (Hplain s); auto; try discriminate.
      - apply (Hplain s); auto; try discriminate.
      - apply (Hplain s); auto; try discriminate.
      - apply (Hplain s); auto; try discriminate.
      - apply (Hplain (put_processing s true)); auto; try discriminate.
      - apply (Hplain s); auto; try discriminate.
      - apply (Hplain s); auto; try discriminate.
      - apply (Hplain s); auto; try discriminate.
      - apply (Hplain s); auto; try discriminate.
      - apply (Hplain s); auto; try discriminate.
      - (* body *)
        apply delivered_silent; [exact I|]. unfold process_next_state_body.
        assert (HA : agrees (XBody :: k) (set_state (disable_timeout s) XBody)).
        { rewrite disable_set_state. apply set_state_timer; auto; try discriminate. }
        assert (HC : sv_crashed (set_state (disable_timeout s) XBody) = false)
          by (rewrite set_state_crashed; exact Hc).
        remember (set_state (disable_timeout s) XBody) as s1 eqn:E1. clear E1.
        destruct HA as [Hb1 [Hy1 Hp1]].
        destruct (sv_body s1) eqn:Eb; [apply Inv_intro; split; [exact Hb1|now split]|].
        destruct (need_reply s1 XBody) as [[]|].
        + apply Inv_intro. split; [apply base_timer; [exact Hb1|discriminate|discriminate]|now split].
        + apply flush_body_inv; [exact HC|exact Hb1|apply body_eq_pre; [exact Hy1|now apply settled_chunk]|now left].
        + apply Inv_crash, Hb1.
      - (* end-of-message *)
        apply delivered_inv; [discriminate| |reflexivity]. apply Inv_intro.
        rewrite set_state_put_timer. apply set_state_timer; auto; discriminate.
      - (* quit *)
        apply delivered_silent; [exact I|].
        assert (HI : Inv (XQuit :: k) (emit react (disable_timeout s) ShutDown)).
        { apply emit_neutral; [reflexivity|intros _; split; [exact I|reflexivity]|].
          apply Inv_intro. split; [|now split]. apply base_timer; [exact Hb| |];
          rewrite (unanswered k s XQuit Hb eq_refl); discriminate. }
        destruct (sv_crashed (emit react (disable_timeout s) ShutDown)) eqn:Hc2.
        { eapply Inv_frozen; [exact HI|]. now apply set_state_frozen. }
        destruct (Inv_elim _ _ HI Hc2) as [Hb2 [Hy2 Hp2]]. apply Inv_intro.
        split; [|now apply set_state_body].
        apply set_state_base; [exact Hc2|exact Hb2|now apply (entered_todo k)|discriminate].
      - (* abort *)
        set (s1 := disable_timeout s).
        set (s2 := if is_pass (sv_status s1) && sstate_in XDefineMacro (sv_state s1) XEndOfMessage
                      && negb (sstate_eqb (sv_state s1) XEndOfMessage)
                   then put_status s1
                          (if sstate_eqb (sv_state s1) XRcpt
                              && negb (status_eqb (sv_rcpt_status s1) S_DEFAULT)
                           then sv_rcpt_status s1 else S_ABORT)
                   else s1).
        assert (HI : Inv (XAbort :: k) (emit_processed react (set_state s2 XAbort))).
        { apply emit_processed_inv, Inv_intro.
          assert (Hc2 : sv_crashed s2 = false)
            by (unfold s2; destruct (is_pass _ && _ && _); exact Hc).
          destruct (set_state_view s2 XAbort Hc2) as (Et & Es & Eq & Eo & Ev & Er & En & Em & Ebb).
          assert (Et2 : sv_trace s2 = sv_trace s)
            by (unfold s2; destruct (is_pass _ && _ && _); reflexivity).
          split.
          - unfold base. rewrite Et, Es, Eq, Eo, Ev, Er, En, Em, Et2.
            assert (Hv : sv_status s2 = verdict (Entered XAbort :: sv_trace s)).
            { cbn [verdict]. rewrite (settled_explicit _ Hp). destruct Hb. cbn [negb andb].
              rewrite <- ag_status0, <- ag_state0, <- ag_rcpt0.
              unfold s2, s1, disable_timeout. cbn [sv_status sv_state sv_rcpt_status put_timer].
              destruct (is_pass (sv_status s)); [|reflexivity].
              destruct (sv_state s); cbn; reflexivity. }
            pose proof (unanswered k s XAbort Hb eq_refl) as Hout.
            assert (E2 : sv_quitted s2 = sv_quitted s /\ sv_option s2 = sv_option s /\
                         sv_rcpt_status s2 = sv_rcpt_status s /\ sv_next s2 = sv_next s)
              by (unfold s2; destruct (is_pass _ && _ && _); cbn; auto).
            destruct E2 as (-> & -> & -> & ->).
            destruct Hb. constructor; try assumption; try reflexivity.
            + intros H. change (outstanding (sv_trace s) = true) in H. congruence.
            + discriminate.
            + split; [|assumption]. left. now exists k.
          - apply set_state_body; [exact Hc2|].
            unfold body_eq in *. rewrite Et2.
            replace (sv_body s2) with (sv_body s)
              by (unfold s2; destruct (is_pass _ && _ && _); reflexivity). exact Hy. }
        remember (emit_processed react (set_state s2 XAbort)) as s3 eqn:E3. clear E3.
        destruct (sv_crashed s3) eqn:Hc3.
        { eapply Inv_frozen; [exact HI|].
          now apply (emit_frozen (reset_message_related_data s3)). }
        destruct (Inv_elim _ _ HI Hc3) as [Hb3 [Hy3 Hp3]]. apply react_inv, Inv_intro.
        rewrite log_eq by exact Hc3.
        split; [|split; [|reflexivity]].
        + destruct Hb3. constructor; cbn in *; try assumption; try reflexivity;
            try (split; [exact I|assumption]).
          * now rewrite ag_todo0.
          * intros H. specialize (ag_await0 H). discriminate.
          * intros H. specialize (ag_await0 H). discriminate.
        + unfold body_eq in *. cbn in *. now rewrite app_nil_r.
    Qed.

    Lemma flushed_inv s :
      sv_crashed s = false -> Inv [] s ->
      Inv [] (flushed ntop4 ntop6 sort_keys writes react (log s (In Flushed))).
    Proof.
      intros Hc HI. destruct (Inv_elim _ _ HI Hc) as [Hb [Hy Hp]]. unfold flushed.
      rewrite log_eq by exact Hc. cbn [sv_next put_trace].
      set (s1 := put_next (put_trace s (In Flushed :: sv_trace s)) []).
      assert (H1 : Inv (sv_next s) s1).
      { apply Inv_intro. split; [|split; [|reflexivity]].
        - destruct Hb. constructor; cbn in *; try assumption; try reflexivity;
            try (split; [exact I|assumption]).
          + now rewrite ag_next0.
          + unfold outstanding. cbn. rewrite andb_true_iff. intros [_ H]. now rewrite ag_next0.
          + unfold outstanding in *. cbn. rewrite andb_true_iff. intros [H _]. auto.
          + unfold outstanding in *. cbn. rewrite andb_true_iff. intros [H _] _. auto.
        - unfold body_eq in *. cbn in *. now rewrite app_nil_r. }
      clearbody s1. revert s1 H1. induction (sv_next s) as [|x k IH]; intros s1 H1; cbn [fold_left].
      - exact H1.
      - apply IH, deliver_inv, H1.
    Qed.

    (** *** Replies *)

    Lemma received_view k s r tm :
      base k s -> (outstanding (sv_trace s) = true -> is_modification r = true -> tm <> None) ->
      (outstanding (sv_trace s) = true -> is_modification r = true -> k = [] ->
       tm = Some (due (sv_trace s))) ->
      let t := In (Receive r) :: sv_trace s in
      view_ok k (sv_quitted s) (sv_state s) (session_option t) (verdict t) (recipient_verdict t)
              (sv_next s) tm t.
    Proof.
      intros [] Ht Hd t. constructor; cbn in *; try assumption; try reflexivity;
        try (split; [exact I|assumption]); unfold t, outstanding in *; cbn;
        rewrite andb_true_iff; intros [H1 H2]; auto.
      destruct r; try discriminate H2; auto.
    Qed.

    Lemma received_body s r :
      body_eq s -> body_eq (put_trace s (In (Receive r) :: sv_trace s)).
    Proof. unfold body_eq. intros H. cbn in *. now rewrite app_nil_r. Qed.

    Lemma end_message_inv k s spare : Inv k s -> Inv k (end_message react s spare).
    Proof.
      intros H. unfold end_message. destruct (sstate_in _ _ _ && _); [|exact H].
      now apply emit_processed_inv.
    Qed.

    (** The state after the reception of [r] and the updates that go with it. *)
    Definition taken k (r : reply) (s : server) : Prop :=
      agrees k s /\ exists t, sv_trace s = In (Receive r) :: t.

    Lemma forward_inv k s r :
      sv_crashed s = false -> taken k r s -> sv_quitted s = false -> r <> RProgress ->
      (is_modification r = true -> sv_state s = XEndOfMessage) ->
      match r with
      | RNegotiate _ _ => sv_state s = XNegotiate
      | RContinue | RReplyCode _ _ _ => answerable (sv_state s) = true
      | RSkip => sv_state s = XBody
      | _ => True
      end ->
      Inv k (emit react s (Forward r)).
    Proof.
      intros Hc [HA [t Ht]] Hq Hp Hm Hs.
      apply emit_neutral; [destruct r; congruence || reflexivity| |apply Inv_intro; exact HA].
      intros _. split; [|reflexivity]. destruct HA as [[] _]. cbn [event_ok]. unfold forward_ok.
      rewrite <- ag_state0, <- ag_quit0. split; [now exists t|]. auto.
    Qed.

    Lemma invalid_inv k s : Inv k s -> Inv k (invalid_state react s).
    Proof.
      intros HI. apply emit_neutral; [reflexivity| |exact HI]. intros Hc.
      destruct (Inv_elim _ _ HI Hc) as [_ [_ Hp]]. split; [exact I|]. rewrite chunk_given_error.
      now apply settled_chunk.
    Qed.

    Lemma final_reply_inv k s r spare :
      sv_crashed s = false -> taken k r (disable_timeout s) ->
      match r with
      | RTemporaryFailure | RReject | RAccept | RDiscard => True | _ => False
      end ->
      Inv k (final_reply react s r spare).
    Proof.
      intros Hc HT Hr. unfold final_reply.
      destruct (sv_quitted (disable_timeout s)) eqn:Eq; [apply Inv_intro, HT|].
      assert (H : Inv k (end_message react (emit react (disable_timeout s) (Forward r)) spare)).
      { apply end_message_inv, forward_inv; auto; destruct r; try contradiction; auto; discriminate. }
      destruct (sv_state (end_message _ _ _)); exact H.
    Qed.

    Lemma modification_inv k s r before after :
      sv_crashed s = false -> taken k r s -> is_modification r = true ->
      (before = (fun s => s) /\ r <> RProgress \/
       before = (fun s => put_timer s (Some TEndOfMessageReply)) /\ r = RProgress) ->
      (forall s, sv_crashed (after s) = sv_crashed s /\ sv_trace (after s) = sv_trace s /\
                 (agrees k s -> agrees k (after s))) ->
      Inv k (modification react s r before after).
    Proof.
      intros Hc HT Hm Hbefore Hafter. unfold modification.
      assert (HI : Inv k s) by (apply Inv_intro, HT).
      assert (HF : sv_state s = XEndOfMessage ->
                   Inv k (if sv_quitted s then s else after (emit react (before s) (Forward r)))).
      { intros Es. destruct (sv_quitted s) eqn:Eq; [exact HI|].
        assert (H : Inv k (emit react (before s) (Forward r))).
        { destruct HT as [[Hb Hy] [t Ht]].
          destruct Hbefore as [(-> & Hp) | (-> & ->)].
          - apply forward_inv; auto; try (destruct r; try discriminate Hm; exact I).
            split; [now split|now exists t].
          - apply react_inv, Inv_intro. rewrite log_eq by exact Hc. split.
            + destruct Hb. constructor; cbn in *; try assumption; try discriminate; try reflexivity.
              split; [|assumption]. cbn [event_ok]. unfold forward_ok.
              rewrite <- ag_state0, <- ag_quit0. split; [now exists t|auto].
            + destruct Hy as [Hy1 Hy2].
              apply (body_eq_log (put_timer s (Some TEndOfMessageReply)) (Forward RProgress)) in Hy1;
                [|exact Hc|reflexivity|reflexivity|reflexivity].
              rewrite log_eq in Hy1 by exact Hc. exact Hy1. }
        destruct (Hafter (emit react (before s) (Forward r))) as (E1 & E3 & E2).
        destruct (sv_crashed (emit react (before s) (Forward r))) eqn:Ec.
        - eapply Inv_frozen; [exact H|]. split; congruence.
        - apply Inv_intro, E2, (Inv_elim _ _ H Ec). }
      destruct (sv_state s); try (now apply invalid_inv). now apply HF.
    Qed.

    (** Refusals: the recipient's or the message's status. *)
    Lemma refuse_taken k s r v :
      sv_crashed s = false -> agrees k s -> refusal r = Some v ->
      let s1 := refuse (log s (In (Receive r))) v in
      sv_crashed s1 = false -> taken k r (disable_timeout s1).
    Proof.
      intros Hc [Hb [Hy _]] Hr s1. unfold s1. rewrite log_eq by exact Hc.
      assert (Hm : is_modification r = false) by (destruct r; discriminate Hr || reflexivity).
      pose proof (received_view k s r None Hb) as Hv.
      specialize (Hv ltac:(intros _ H; congruence) ltac:(intros _ H; congruence)). cbn zeta in Hv.
      pose proof (received_body s r Hy) as Hy'.
      pose proof (ag_state _ _ _ _ _ _ _ _ _ Hb) as Est.
      pose proof (ag_rcpt _ _ _ _ _ _ _ _ _ Hb) as Erv.
      pose proof (ag_status _ _ _ _ _ _ _ _ _ Hb) as Ev.
      pose proof (ag_option _ _ _ _ _ _ _ _ _ Hb) as Eo.
      assert (Eopt : session_option (In (Receive r) :: sv_trace s) = sv_option s).
      { rewrite Eo. destruct r; discriminate Hr || reflexivity. }
      rewrite Eopt in Hv.
      assert (Hst : if sstate_eqb (sv_state s) XRcpt
                    then verdict (In (Receive r) :: sv_trace s) = sv_status s /\
                         recipient_verdict (In (Receive r) :: sv_trace s) = v
                    else verdict (In (Receive r) :: sv_trace s) = v /\
                         recipient_verdict (In (Receive r) :: sv_trace s) = sv_rcpt_status s).
      { cbn [verdict recipient_verdict]. rewrite Hr, <- Est.
        destruct (sv_state s); cbn; destruct r; try discriminate Hr; now split. }
      assert (Hother : sstate_eqb (sv_state s) XRcpt = false ->
                taken k r (disable_timeout
                             (put_status (put_trace s (In (Receive r) :: sv_trace s)) v))).
      { intros E. rewrite E in Hst. destruct Hst as [H1 H2]. rewrite H1, H2 in Hv.
        split; [split; [exact Hv|]|now exists (sv_trace s)]. split; [exact Hy'|reflexivity]. }
      assert (Hrcpt : sstate_eqb (sv_state s) XRcpt = true -> forall m c,
                taken k r (disable_timeout (put_current (put_message (put_rcpt_status
                             (put_trace s (In (Receive r) :: sv_trace s)) v) m) c))).
      { intros E m c. rewrite E in Hst. destruct Hst as [H1 H2]. rewrite H1, H2 in Hv.
        split; [split; [exact Hv|]|now exists (sv_trace s)]. split; [exact Hy'|reflexivity]. }
      unfold refuse. cbn [sv_state put_trace].
      destruct (sv_state s) eqn:Es; try (intros _; apply Hother; reflexivity).
      specialize (Hrcpt eq_refl). unfold refuse_recipient. cbn [sv_current put_trace].
      destruct (sv_current s) as [c|] eqn:Ec.
      - intros _. exact (Hrcpt None None).
      - unfold on_message. cbn [sv_message put_message].
        destruct (mr_recipients _).
        + intros _. exact (Hrcpt None None).
        + discriminate.
    Qed.

    Lemma received k s r :
      sv_crashed s = false -> agrees k s ->
      session_option (In (Receive r) :: sv_trace s) = session_option (sv_trace s) ->
      verdict (In (Receive r) :: sv_trace s) = verdict (sv_trace s) ->
      recipient_verdict (In (Receive r) :: sv_trace s) = recipient_verdict (sv_trace s) ->
      taken k r (log s (In (Receive r))) /\
      (is_modification r = false -> taken k r (disable_timeout (log s (In (Receive r))))).
    Proof.
      intros Hc [Hb [Hy _]] Ho Hve Hre. rewrite log_eq by exact Hc.
      assert (Hv : forall tm,
                (outstanding (sv_trace s) = true -> is_modification r = true -> tm <> None) ->
                (outstanding (sv_trace s) = true -> is_modification r = true -> k = [] ->
                 tm = Some (due (sv_trace s))) ->
                base k (put_timer (put_trace s (In (Receive r) :: sv_trace s)) tm)).
      { intros tm Htm Htd. pose proof (received_view k s r tm Hb Htm Htd) as Hv. cbn zeta in Hv.
        rewrite Ho, Hve, Hre in Hv. destruct Hb. rewrite <- ag_option0, <- ag_status0, <- ag_rcpt0 in Hv.
        exact Hv. }
      pose proof (received_body s r Hy) as Hy'. split.
      - split; [split|now exists (sv_trace s)]; [|split; [exact Hy'|reflexivity]].
        apply (Hv (sv_timer s)); intros H _; destruct Hb; auto.
      - intros Hm. split; [split|now exists (sv_trace s)]; [|split; [exact Hy'|reflexivity]].
        apply (Hv None); congruence.
    Qed.

    Lemma receive_inv k s r :
      sv_crashed s = false -> Inv k s ->
      Inv k (receive ntop4 ntop6 sort_keys writes react (log s (In (Receive r))) r).
    Proof.
      intros Hc HI. pose proof (Inv_elim _ _ HI Hc) as HA. clear HI. rename HA into HI.
      assert (Hc0 : sv_crashed (log s (In (Receive r))) = false) by (rewrite log_crashed; exact Hc).
      pose proof (received k s r Hc HI) as Hplain.
      assert (Hrefuse : forall v, refusal r = Some v ->
                sv_crashed (refuse (log s (In (Receive r))) v) = false ->
                taken k r (disable_timeout (refuse (log s (In (Receive r))) v)))
        by (intros v Hv; now apply refuse_taken).
      assert (Hdead : forall v, sv_crashed (refuse (log s (In (Receive r))) v) = true ->
                Inv k (refuse (log s (In (Receive r))) v)).
      { intros v. rewrite log_eq by exact Hc. unfold refuse. cbn [sv_state put_trace].
        destruct (sv_state s); cbn [sv_crashed put_status put_trace]; try congruence.
        unfold refuse_recipient. cbn [sv_current put_trace].
        destruct (sv_current s); [cbn; congruence|].
        cbn [sv_message on_message put_message].
        destruct (mr_recipients _); [cbn; congruence|]. intros _. apply Inv_crash.
        split; [exact I|apply HI]. }
      assert (Hmod : forall before after,
                session_option (In (Receive r) :: sv_trace s) = session_option (sv_trace s) ->
                verdict (In (Receive r) :: sv_trace s) = verdict (sv_trace s) ->
                recipient_verdict (In (Receive r) :: sv_trace s) = recipient_verdict (sv_trace s) ->
                is_modification r = true ->
                (before = (fun s => s) /\ r <> RProgress \/
                 before = (fun s => put_timer s (Some TEndOfMessageReply)) /\ r = RProgress) ->
                (forall s, sv_crashed (after s) = sv_crashed s /\ sv_trace (after s) = sv_trace s /\
                 (agrees k s -> agrees k (after s))) ->
                Inv k (modification react (log s (In (Receive r))) r before after)).
      { intros before after H1 H2 H3 Hm Hbe Haf. apply modification_inv; auto.
        now apply Hplain. }
      assert (Hmsg : forall f s, sv_crashed (on_message s f) = sv_crashed s /\
                sv_trace (on_message s f) = sv_trace s /\
                (agrees k s -> agrees k (on_message s f))) by (split; [reflexivity|split; [reflexivity|intros []; now split]]).
      (* replies that change only the status *)
      assert (Hstatus : forall v,
                session_option (In (Receive r) :: sv_trace s) = session_option (sv_trace s) ->
                verdict (In (Receive r) :: sv_trace s) = v ->
                recipient_verdict (In (Receive r) :: sv_trace s) = recipient_verdict (sv_trace s) ->
                forall tm,
                (outstanding (sv_trace s) = true -> is_modification r = true -> tm <> None) ->
                (outstanding (sv_trace s) = true -> is_modification r = true -> k = [] ->
                 tm = Some (due (sv_trace s))) ->
                taken k r (put_timer (put_status (log s (In (Receive r))) v) tm)).
      { intros v H1 H2 H3 tm Htm Htd. destruct HI as [Hb [Hy _]]. rewrite log_eq by exact Hc.
        pose proof (received_view k s r tm Hb Htm Htd) as Hv. cbn zeta in Hv.
        rewrite H1, H2, H3 in Hv. split; [split; [|split]|].
        - destruct Hb. rewrite <- ag_option0, <- ag_rcpt0 in Hv. exact Hv.
        - now apply received_body.
        - reflexivity.
        - now exists (sv_trace s). }
      destruct r; cbn [receive];
        try (apply Hmod; auto;
             (left; split; [reflexivity|discriminate]) || (right; split; reflexivity); fail).
      - (* negotiate *)
        destruct HI as [Hb [Hy _]].
        pose proof (received_view k s (RNegotiate o reqs) None Hb ltac:(discriminate)
                     ltac:(discriminate)) as Hv.
        cbn zeta in Hv. pose proof (received_body s (RNegotiate o reqs) Hy) as Hy'.
        rewrite log_eq in * by exact Hc. cbn [sv_option disable_timeout put_timer put_trace].
        set (co := match sv_option s with Some o0 => option_combine o0 o | None => (true, o) end).
        assert (Eo : session_option (In (Receive (RNegotiate o reqs)) :: sv_trace s)
                     = Some (snd co)).
        { cbn [session_option]. destruct Hb. rewrite <- ag_option0. unfold co, agree, option_combine.
          destruct (sv_option s) as [o0|]; [|reflexivity].
          now destruct (o_version o0 <? o_version o). }
        destruct co as [ok o'] eqn:Eco. cbn [snd] in Eo. rewrite Eo in Hv.
        set (s2 := put_option _ (Some o')).
        assert (HT : taken k (RNegotiate o reqs) s2).
        { split; [split; [|split]|]; [|exact Hy'|reflexivity|now exists (sv_trace s)].
          destruct Hb. cbn [verdict refusal recipient_verdict] in Hv.
          rewrite <- ag_status0, <- ag_rcpt0 in Hv. exact Hv. }
        destruct ok.
        + cbn [sv_state put_trace].
          destruct (sv_state s) eqn:Es; try (apply invalid_inv, Inv_intro, HT).
          destruct (sv_quitted s2) eqn:Eq; [apply Inv_intro, HT|].
          apply forward_inv; auto; discriminate.
        + apply emit_neutral; [reflexivity|split; [exact I|reflexivity]|]. apply Inv_intro, HT.
      - (* continue *)
        destruct (Hplain eq_refl eq_refl eq_refl) as [_ HT]. specialize (HT eq_refl).
        cbn in HT.
        set (s1 := disable_timeout (log s (In (Receive RContinue)))) in *.
        assert (Hother : Inv k (if answerable (sv_state s1) then
                  if sv_quitted s1 then s1
                  else let s2 := emit react s1 (Forward RContinue) in
                       match sv_state s2 with XEndOfMessage => emit_processed react s2 | _ => s2 end
                 else invalid_state react s1)).
        { destruct (answerable (sv_state s1)) eqn:Ea.
          - destruct (sv_quitted s1) eqn:Eq; [apply Inv_intro, HT|].
            assert (H : Inv k (emit react s1 (Forward RContinue))).
            { apply forward_inv; auto; discriminate. }
            cbn zeta. destruct (sv_state (emit react s1 (Forward RContinue))); try exact H.
            now apply emit_processed_inv.
          - apply invalid_inv, Inv_intro, HT. }
        destruct (sv_state s1) eqn:Es; try exact Hother. clear Hother.
        destruct (sv_quitted s1) eqn:Eq; [apply Inv_intro, HT|].
        assert (H : Inv k (decrement_body_count react s1)).
        { unfold decrement_body_count. destruct (sv_queue s1) as [|n q]; [apply Inv_intro, HT|].
          destruct (n =? 1); [|apply Inv_intro, HT].
          apply forward_inv; [exact Hc0|exact HT|exact Eq|discriminate|discriminate|]. cbn. cbn in Es. now rewrite Es. }
        cbn zeta.
        destruct (sv_body (decrement_body_count react s1)); [exact H|].
        destruct (sv_crashed (decrement_body_count react s1)) eqn:Ec.
        { eapply Inv_frozen; [exact H|]. now apply flush_body_frozen. }
        destruct (Inv_elim _ _ H Ec) as [Hb2 [Hy2 Hp2]]. apply flush_body_inv; [exact Ec|exact Hb2| |now left].
        apply body_eq_pre; [exact Hy2|now apply settled_chunk].
      - (* reply-code *)
        set (v := if (400 <=? code) && (code <? 500) then S_TEMPORARY_FAILURE else S_REJECT).
        specialize (Hrefuse v eq_refl). specialize (Hdead v).
        remember (refuse (log s (In (Receive (RReplyCode code extended message)))) v) as s0 eqn:E0.
        clear E0 Hplain Hmod Hstatus Hc0.
        destruct (sv_crashed s0) eqn:Ec; [now apply Hdead|]. specialize (Hrefuse eq_refl).
        destruct (answerable (sv_state (disable_timeout s0))) eqn:Ea.
        + set (s2 := match sv_state (disable_timeout s0) with
                     | XBody => if sv_quitted (disable_timeout s0) then disable_timeout s0
                                else clear_body_count (disable_timeout s0)
                     | _ => disable_timeout s0
                     end).
          assert (H2 : taken k (RReplyCode code extended message) s2 /\ sv_crashed s2 = false /\
                       sv_state s2 = sv_state s0).
          { unfold s2. change (sv_state (disable_timeout s0)) with (sv_state s0).
            destruct (sv_state s0) eqn:Es0; try (split; [exact Hrefuse|split; [exact Ec|exact Es0]]).
            destruct (sv_quitted (disable_timeout s0));
              (split; [exact Hrefuse|split; [exact Ec|exact Es0]]). }
          destruct H2 as (HT & Ec2 & Es2). cbn zeta.
          destruct (sv_quitted s2) eqn:Eq; [apply Inv_intro, HT|].
          apply end_message_inv, forward_inv; auto; [discriminate|discriminate|]. now rewrite Es2.
        + apply invalid_inv, Inv_intro, Hrefuse.
      - (* temporary-failure *)
        specialize (Hrefuse _ eq_refl).
        destruct (sv_crashed (refuse _ _)) eqn:Ec; [now apply Hdead|].
        apply final_reply_inv; auto.
      - specialize (Hrefuse _ eq_refl).
        destruct (sv_crashed (refuse _ _)) eqn:Ec; [now apply Hdead|].
        apply final_reply_inv; auto.
      - (* accept *)
        apply final_reply_inv; [exact Hc0| |exact I].
        apply (Hstatus S_ACCEPT eq_refl eq_refl eq_refl None); discriminate.
      - apply final_reply_inv; [exact Hc0| |exact I].
        apply (Hstatus S_DISCARD eq_refl eq_refl eq_refl None); discriminate.
      - (* quarantine *)
        apply modification_inv; auto; [|left; split; [reflexivity|discriminate]].
        apply (Hstatus S_QUARANTINE eq_refl eq_refl eq_refl
                       (sv_timer (log s (In (Receive (RQuarantine reason)))))).
        all: intros H _; rewrite log_eq by exact Hc; cbn; destruct HI as [[] _]; auto.
      - (* connection-failure *)
        pose proof (Hstatus S_ERROR eq_refl eq_refl eq_refl None ltac:(discriminate)
                      ltac:(discriminate)) as HT.
        set (s1 := put_status (disable_timeout _) S_ERROR).
        assert (HT' : taken k RConnectionFailure s1) by exact HT.
        destruct (sv_quitted s1) eqn:Eq; [apply Inv_intro, HT'|].
        apply forward_inv; auto; discriminate.
      - (* shutdown *)
        destruct (Hplain eq_refl eq_refl eq_refl) as [_ HT]. specialize (HT eq_refl).
        set (s1 := disable_timeout _) in *.
        destruct (sv_quitted s1) eqn:Eq; [apply Inv_intro, HT|].
        apply forward_inv; auto; discriminate.
      - (* skip *)
        destruct (Hplain eq_refl eq_refl eq_refl) as [_ HT]. specialize (HT eq_refl).
        set (s1 := disable_timeout _) in *.
        destruct (sv_state s1) eqn:Es; try (apply invalid_inv, Inv_intro, HT).
        destruct (sv_quitted s1) eqn:Eq; [apply Inv_intro, HT|].
        assert (H : Inv k (emit react s1 (Forward RSkip))).
        { apply forward_inv; auto; discriminate. }
        exact H.
    Qed.

    Lemma fire_inv k s :
      sv_crashed s = false -> Inv k s -> Inv k (fire react (log s (In Fire))).
    Proof.
      intros Hc HI. destruct (Inv_elim _ _ HI Hc) as [Hb [Hy _]]. rewrite log_eq by exact Hc.
      assert (H : Inv k (put_trace s (In Fire :: sv_trace s))).
      { apply Inv_intro. split; [|split; [|reflexivity]].
        - destruct Hb. constructor; cbn in *; try assumption; split; [exact I|assumption].
        - unfold body_eq in *. cbn in *. now rewrite app_nil_r. }
      unfold fire. destruct (sv_timer _); [|exact H].
      apply emit_neutral; [reflexivity|intros _; split; [exact I|reflexivity]|].
      apply emit_neutral; [reflexivity|intros _; split; [exact I|reflexivity]|exact H].
    Qed.

    Lemma step_inv s o :
      Inv [] s -> Inv [] (step ntop4 ntop6 sort_keys writes stops react s o).
    Proof.
      intros HI. unfold step. destruct (sv_crashed s) eqn:Hc; [exact HI|].
      destruct o; [now apply call_inv|now apply flushed_inv|now apply receive_inv|now apply fire_inv].
    Qed.

    Lemma call_frozen s c :
      sv_crashed s = true -> frozen s (call ntop4 ntop6 sort_keys writes stops react s c).
    Proof.
      intros Hc. unfold call.
      assert (Hsend : forall s cmd x, sv_crashed s = true ->
                frozen s (snd (send ntop4 ntop6 sort_keys writes react s cmd x)))
        by (intros s' cmd x H; exact (write_packet_frozen (put_encoder s' _) _ x H)).
      assert (Hskip : forall s x, sv_crashed s = true -> frozen s (snd (skip react s x))).
      { intros s' x H. cbn [skip snd]. pose proof (set_state_frozen s' x H) as H1.
        eapply frozen_trans; [exact H1|]. apply emit_frozen, H1. }
      assert (Hstop : forall s x, sv_crashed s = true -> frozen s (stop_on_state react s x)).
      { intros s' x H. unfold stop_on_state.
        pose proof (set_state_frozen (put_status s' S_STOP) x H) as H0.
        pose proof (emit_frozen _ (Stopped x) (proj1 H0)) as H1.
        pose proof (frozen_trans _ _ _ H0 H1) as H2.
        destruct (sstate_in _ _ _); [|exact H2].
        exact (frozen_trans _ _ _ H2 (emit_processed_frozen _ (proj1 H2))). }
      assert (Hvia : forall a b c, frozen b c -> sv_trace b = sv_trace a -> frozen a c)
        by (intros a b d [] E; split; congruence).
      set (s0 := log s (In (Call c))).
      assert (H0 : frozen s s0) by (now apply frozen_log).
      assert (H : frozen s0 (snd (call_body ntop4 ntop6 sort_keys writes stops react s0 c))).
      { pose proof (proj1 H0) as H0'. destruct c; cbn [call_body];
          try (destruct (stops _); [cbn [snd]; eapply Hvia; [apply Hstop; exact H0'|reflexivity]|]);
          try (destruct (is_enable_step _ _); [eapply Hvia; [apply Hskip; exact H0'|reflexivity]|]);
          try (eapply Hvia; [apply Hsend; exact H0'|reflexivity]); try (now split).
        - destruct (sv_option _); [|eapply Hvia; [apply crash_frozen; exact H0'|reflexivity]].
          destruct (_ || _); (eapply Hvia; [(apply Hskip || apply Hsend); exact H0'|reflexivity]).
        - eapply Hvia; [apply flush_body_frozen; exact H0'|reflexivity].
        - specialize (Hsend s0 CAbort XAbort H0').
          destruct (send _ _ _ _ _ _ _ _). exact Hsend.
        - cbn [snd]. now apply set_state_frozen. }
      destruct (call_body _ _ _ _ _ _ _ _) as [ok s1]. cbn [snd] in H.
      pose proof (frozen_trans _ _ _ H0 H) as H1.
      exact (frozen_trans _ _ _ H1 (frozen_log _ (Return ok) (proj1 H1))).
    Qed.
  End Step.

  (** *** Runs *)

  Variable handlers : list event -> option api.
  Notation React := (Server.react ntop4 ntop6 sort_keys writes stops handlers).

  Lemma react_preserves depth :
    (forall s, sv_crashed s = true -> frozen s (React depth s)) /\
    (forall k s, Inv k s -> Inv k (React depth s)).
  Proof.
    induction depth as [|d [IH1 IH2]]; cbn [Server.react]; [now split|]. split.
    - intros s H. rewrite H. now split.
    - intros k s HI. destruct (sv_crashed s) eqn:Hc; [exact HI|].
      destruct (handlers (sv_trace s)); [|exact HI].
      apply IH2. now apply call_inv.
  Qed.

  Lemma run_inv depth ops s :
    Inv [] s -> Inv [] (server_run ntop4 ntop6 sort_keys writes stops handlers depth s ops).
  Proof.
    destruct (react_preserves depth) as [H1 H2]. revert s.
    induction ops as [|o ops IH]; intros s HI; [exact HI|].
    apply IH. unfold server_step. now apply step_inv.
  Qed.

  Lemma new_inv : Inv [] server_new.
  Proof. apply Inv_intro. split; [|now split]. constructor; cbn; auto; discriminate. Qed.
End Inv.
