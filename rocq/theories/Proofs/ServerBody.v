(** A body that does not fit into one packet is sent completely. *)
From Verif.Base Require Import Bytes BytesFacts.
From Verif.Model Require Import Decoder Encoder CommandCodec ReplyCodec Status Option Macros Client
                                Server.
From Verif.Spec Require Import ServerSpec.
From Verif.Proofs Require Import ServerInv ServerFacts.
From Coq Require Import ZifyBool ZifyNat ZifyN.
Local Open Scope N_scope.

Section Body.
  Variables (ntop4 ntop6 : bytes -> bytes).
  Variable sort_keys : list bytes -> list bytes.
  Variable writes : list event -> write_outcome.
  Variable stops : list event -> bool.
  Variable handlers : list event -> option api.
  Hypothesis accepts : forall t, writes t <> Refused.
  Hypothesis quiet : forall t, handlers t = None.

  Notation React := (Server.react ntop4 ntop6 sort_keys writes stops handlers).
  Notation step := (server_step ntop4 ntop6 sort_keys writes stops handlers).
  Notation run := (server_run ntop4 ntop6 sort_keys writes stops handlers).

  Lemma react_quiet depth s : React depth s = s.
  Proof. destruct depth; cbn; [reflexivity|]. rewrite quiet. now destruct (sv_crashed s). Qed.
  Lemma emit_quiet depth s e : emit (React depth) s e = log s e.
  Proof. apply react_quiet. Qed.

  Record sending (s : server) : Prop := {
    sg_crashed : sv_crashed s = false;
    sg_state : sv_state s = XBody;
    sg_quitted : sv_quitted s = false;
    sg_next : sv_next s = [];
    sg_option : exists o, sv_option s = Some o /\ N.land (o_step o) STEP_NO_REPLY_BODY = 0
  }.

  Definition size : nat := N.to_nat MILTER_CHUNK_SIZE.

  Local Opaque size.

  Lemma packed_skip b : skipn (length (packed_chunk b)) b = skipn size b.
  Proof.
    unfold packed_chunk. change size with (N.to_nat MILTER_CHUNK_SIZE). rewrite firstn_length.
    destruct (Nat.le_ge_cases (N.to_nat MILTER_CHUNK_SIZE) (length b)) as [H|H].
    - now rewrite Nat.min_l by exact H.
    - rewrite Nat.min_r by exact H. now rewrite !skipn_all2 by (exact H || apply le_n).
  Qed.

  Lemma flush_body_fields depth s :
    sv_crashed s = false -> sv_timer s = None ->
    let s' := snd (flush_body ntop4 ntop6 sort_keys writes (React depth) s) in
    sv_crashed s' = false /\ sv_state s' = sv_state s /\ sv_quitted s' = sv_quitted s /\
    sv_next s' = sv_next s ++ [XBody] /\ sv_option s' = sv_option s /\
    sv_body s' = skipn size (sv_body s).
  Proof.
    intros Hc Ht s'. unfold s', flush_body, send, write_packet, is_processing.
    cbn [urgent negb andb sv_timer put_encoder put_queue]. rewrite Ht. cbn [andb negb].
    match goal with |- context [macro_prefix _ _ _ ?x XBody] => set (s1 := x) end.
    assert (Hc1 : sv_crashed s1 = false) by exact Hc.
    assert (H1 : sv_state s1 = sv_state s /\ sv_quitted s1 = sv_quitted s /\ sv_next s1 = sv_next s /\
                 sv_option s1 = sv_option s /\ sv_body s1 = sv_body s) by (cbn; auto).
    clearbody s1.
    assert (H2 : let s2 := snd (macro_prefix ntop4 ntop6 sort_keys s1 XBody) in
                 sv_crashed s2 = sv_crashed s1 /\ sv_state s2 = sv_state s1 /\
                 sv_quitted s2 = sv_quitted s1 /\ sv_next s2 = sv_next s1 /\
                 sv_option s2 = sv_option s1 /\ sv_body s2 = sv_body s1).
    { unfold macro_prefix. cbn [macro_command]. destruct (macros_before _ _ _) as [[] a]; cbn; auto 10. }
    cbn zeta in H2.
    destruct (macro_prefix ntop4 ntop6 sort_keys s1 XBody) as [prefix s2]. cbn [snd] in H2.
    destruct H1 as (A1 & A2 & A3 & A4 & A5), H2 as (B0 & B1 & B2 & B3 & B4 & B5).
    pose proof (accepts (sv_trace s2)) as Hw.
    destruct (writes (sv_trace s2)); [| |congruence];
      rewrite log_eq by congruence;
      cbn [snd sv_crashed sv_state sv_quitted sv_next sv_option sv_body put_queue put_body put_next put_trace];
      rewrite ?B0, ?B1, ?B2, ?B3, ?B4, ?B5, ?A1, ?A2, ?A3, ?A4, ?A5, ?Hc1, packed_skip; auto 10.
  Qed.

  Lemma flush_round depth s o :
    sv_crashed s = false -> sv_next s = [XBody] -> sv_option s = Some o ->
    N.land (o_step o) STEP_NO_REPLY_BODY = 0 ->
    let s' := step depth s Flushed in
    sv_crashed s' = false /\ sv_state s' = XBody /\ sv_quitted s' = sv_quitted s /\ sv_next s' = [] /\
    sv_option s' = Some o /\ sv_body s' = sv_body s.
  Proof.
    intros Hc Hn Ho Hs s'. unfold s', server_step, Server.step. rewrite Hc. rewrite log_eq by exact Hc.
    unfold flushed. cbn [sv_next put_trace]. rewrite Hn. cbn [fold_left]. unfold deliver.
    rewrite emit_quiet. cbn [process_next_state]. unfold process_next_state_body.
    set (s1 := set_state _ _).
    assert (H1 : sv_crashed s1 = false /\ sv_state s1 = XBody /\ sv_quitted s1 = sv_quitted s /\
                 sv_next s1 = [] /\ sv_option s1 = Some o /\ sv_body s1 = sv_body s).
    { unfold s1, set_state. cbn [sstate_in sstate_rank N.leb N.compare Pos.compare Pos.compare_cont andb].
      rewrite log_eq by exact Hc. cbn. auto 10. }
    clearbody s1. destruct H1 as (A0 & A1 & A2 & A3 & A4 & A5). unfold need_reply. rewrite A4.
    cbn [no_reply_step]. rewrite Hs. cbn [N.eqb].
    destruct (sv_body s1) eqn:Eb; rewrite log_eq by exact A0; cbn; rewrite ?Eb; auto 10.
  Qed.

  Lemma chunk_round depth s :
    sending s ->
    let s' := run depth s [Receive RContinue; Flushed] in
    sending s' /\ sv_body s' = skipn size (sv_body s).
  Proof.
    intros [Hc Hs Hq Hn (o & Ho & Hr)] s'. unfold s'. cbn [server_run fold_left]. clear s'.
    set (s1 := step depth s (Receive RContinue)).
    assert (H1 : sv_crashed s1 = false /\ sv_state s1 = XBody /\ sv_quitted s1 = false /\
                 sv_option s1 = Some o /\ sv_body s1 = skipn size (sv_body s) /\
                 (sv_next s1 = [XBody] \/ sv_next s1 = [])).
    { unfold s1, server_step, Server.step. rewrite Hc. rewrite log_eq by exact Hc. cbn [receive].
      cbn [sv_state disable_timeout put_timer put_trace]. rewrite Hs.
      cbn [sv_quitted disable_timeout put_timer put_trace]. rewrite Hq. cbn zeta.
      set (s0 := put_trace _ _).
      assert (Hd : let s2 := decrement_body_count (React depth) (disable_timeout s0) in
                   sv_crashed s2 = false /\ sv_state s2 = XBody /\ sv_quitted s2 = false /\
                   sv_option s2 = Some o /\ sv_body s2 = sv_body s /\ sv_next s2 = [] /\
                   sv_timer s2 = None).
      { unfold decrement_body_count. cbn [sv_queue disable_timeout put_timer put_trace s0].
        destruct (sv_queue s) as [|n q]; [cbn; auto 10|].
        destruct (n =? 1); [|cbn; auto 10].
        rewrite emit_quiet, log_eq by exact Hc. cbn. auto 10. }
      clearbody s0.
      remember (decrement_body_count (React depth) (disable_timeout s0)) as s2 eqn:E2. clear E2.
      cbn zeta in Hd. destruct Hd as (A0 & A1 & A2 & A3 & A4 & A5 & A6).
      destruct (sv_body s2) as [|b0 rest] eqn:Eb.
      - rewrite <- A4. rewrite skipn_nil. auto 10.
      - destruct (flush_body_fields depth s2 A0 A6) as (B0 & B1 & B2 & B3 & B4 & B5).
        rewrite B0, B1, B2, B3, B4, B5, A5, Eb, A4. auto 10. }
    clearbody s1. destruct H1 as (A0 & A1 & A2 & A3 & A4 & [A5|A5]).
    - destruct (flush_round depth s1 o A0 A5 A3 Hr) as (B0 & B1 & B2 & B3 & B4 & B5).
      split; [constructor; [exact B0|exact B1|exact (eq_trans B2 A2)|exact B3|now exists o]
             |exact (eq_trans B5 A4)].
    - unfold server_step, Server.step. rewrite A0. rewrite log_eq by exact A0. unfold flushed.
      cbn [sv_next put_trace]. rewrite A5. cbn [fold_left].
      split; [constructor; [exact A0|exact A1|exact A2|reflexivity|now exists o]|exact A4].
  Qed.

  Lemma skipn_skipn {A} (n m : nat) (l : list A) : skipn n (skipn m l) = skipn (m + n) l.
  Proof.
    revert l. induction m as [|m IH]; intros [|x l]; cbn; rewrite ?skipn_nil; auto.
  Qed.

  Fixpoint body_rounds (n : nat) : list op :=
    match n with O => [] | S n => Receive RContinue :: Flushed :: body_rounds n end.

  Lemma rounds_sending depth n : forall s,
    sending s ->
    sending (run depth s (body_rounds n)) /\ sv_body (run depth s (body_rounds n)) = skipn (n * size) (sv_body s).
  Proof.
    induction n as [|n IH]; intros s Hs; [now split|].
    change (body_rounds (S n)) with ([Receive RContinue; Flushed] ++ body_rounds n).
    unfold server_run. rewrite fold_left_app. fold (run depth s [Receive RContinue; Flushed]).
    destruct (chunk_round depth s Hs) as [H1 E1]. destruct (IH _ H1) as [H2 E2].
    split; [exact H2|]. cbn zeta in E1. fold (run depth (run depth s [Receive RContinue; Flushed]) (body_rounds n)).
    rewrite E2, E1, skipn_skipn. reflexivity.
  Qed.
End Body.
