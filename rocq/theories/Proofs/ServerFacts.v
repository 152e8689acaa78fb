(** Consequences of the invariant of a server context, and facts about single steps. *)
From Verif.Base Require Import Bytes BytesFacts.
From Verif.Model Require Import Decoder Encoder CommandCodec ReplyCodec Status Option Macros Client
                                Server.
From Verif.Spec Require Import ServerSpec.
From Verif.Proofs Require Import ServerInv.
From Coq Require Import ZifyBool ZifyNat ZifyN.
Local Open Scope N_scope.

(** Events that occur within a step. *)
Definition nested (e : event) : bool :=
  match e with In (Call _) => true | In _ => false | _ => true end.

(** The history of [s'] continues that of [s] within the same step. *)
Definition extends (s s' : server) : Prop :=
  exists l, sv_trace s' = l ++ sv_trace s /\ forallb nested l = true.

Lemma extends_refl s s' : sv_trace s' = sv_trace s -> extends s s'.
Proof. intros H. now exists []. Qed.
Lemma extends_trans s1 s2 s3 : extends s1 s2 -> extends s2 s3 -> extends s1 s3.
Proof.
  intros [l1 [E1 N1]] [l2 [E2 N2]]. exists (l2 ++ l1). rewrite E2, E1. split; [apply app_assoc|].
  now rewrite forallb_app, N1, N2.
Qed.
Lemma extends_log s e : nested e = true -> extends s (log s e).
Proof.
  intros H. unfold log. destruct (sv_crashed s); [now exists []|exists [e]].
  cbn. now rewrite H.
Qed.
Lemma extends_via s s1 s2 : sv_trace s1 = sv_trace s -> extends s1 s2 -> extends s s2.
Proof. intros E [l [H N]]. exists l. split; congruence. Qed.
Lemma extends_to s s1 s2 : extends s s1 -> sv_trace s2 = sv_trace s1 -> extends s s2.
Proof. intros [l [H N]] E. exists l. split; congruence. Qed.

Section Facts.
  Variables (ntop4 ntop6 : bytes -> bytes).
  Variable sort_keys : list bytes -> list bytes.
  Variable writes : list event -> write_outcome.
  Variable stops : list event -> bool.

  Section Step.
    Variable react : server -> server.
    Hypothesis react_extends : forall s, extends s (react s).

    Lemma emit_extends s e : extends (log s e) (emit react s e).
    Proof. apply react_extends. Qed.
    Lemma emit_extends' s e : nested e = true -> extends s (emit react s e).
    Proof. intros H. eapply extends_trans; [apply extends_log; exact H|apply emit_extends]. Qed.

    Lemma emit_processed_extends s : extends s (emit_processed react s).
    Proof.
      unfold emit_processed. destruct (sv_message s); [|now apply extends_refl].
      match goal with |- extends s (put_message (emit react ?s1 ?e) None) =>
        apply (extends_to s (emit react s1 e)); [|reflexivity];
        apply (extends_via s s1); [reflexivity|now apply emit_extends'] end.
    Qed.

    Lemma write_packet_extends s p x :
      extends s (snd (write_packet ntop4 ntop6 sort_keys writes react s p x)).
    Proof.
      unfold write_packet. destruct (negb (urgent x) && is_processing s); [now apply emit_extends'|].
      set (s1 := if urgent x then s else put_timer s (Some TWriting)).
      assert (E1 : sv_trace s1 = sv_trace s) by (unfold s1; now destruct (urgent x)).
      pose proof (macro_prefix_view ntop4 ntop6 sort_keys s1 x) as Hv.
      destruct (macro_prefix ntop4 ntop6 sort_keys s1 x) as [prefix s2]. cbn [snd] in Hv.
      destruct Hv as (E2 & _). apply (extends_via s s2); [congruence|].
      destruct (writes (sv_trace s2)); cbn [snd].
      - eapply extends_to; [apply (extends_log s2 (Sent x prefix p) eq_refl)|reflexivity].
      - eapply extends_to; [apply (extends_log s2 (Lost x prefix p) eq_refl)|reflexivity].
      - apply (extends_via s2 (disable_timeout s2)); [reflexivity|now apply emit_extends'].
    Qed.

    Lemma send_extends s c x :
      extends s (snd (send ntop4 ntop6 sort_keys writes react s c x)).
    Proof.
      unfold send. eapply extends_via; [|apply write_packet_extends]. reflexivity.
    Qed.

    Lemma flush_body_extends s :
      extends s (snd (flush_body ntop4 ntop6 sort_keys writes react s)).
    Proof.
      unfold flush_body.
      pose proof (send_extends (put_queue s (sv_queue s ++ [0]))
                    (CBody (sv_body (put_queue s (sv_queue s ++ [0])))) XBody) as H.
      destruct (send _ _ _ _ _ _ _ _) as [[] s2]; cbn [snd] in *; exact H.
    Qed.

    Lemma set_state_extends s x : extends s (set_state s x).
    Proof.
      unfold set_state. eapply extends_via; [|now apply extends_log].
      now destruct (sstate_in _ _ _).
    Qed.

    Lemma stop_extends s x : extends s (stop_on_state react s x).
    Proof.
      unfold stop_on_state.
      assert (H : extends s (emit react (set_state (put_status s S_STOP) x) (Stopped x))).
      { eapply extends_trans; [|now apply emit_extends'].
        exact (set_state_extends (put_status s S_STOP) x). }
      destruct (sstate_in _ _ _); [|exact H].
      eapply extends_trans; [exact H|apply emit_processed_extends].
    Qed.

    Lemma skip_extends s x : extends s (snd (skip react s x)).
    Proof. cbn [skip snd]. eapply extends_trans; [apply set_state_extends|now apply emit_extends']. Qed.

    Lemma crash_extends s : extends s (crash s).
    Proof. exact (extends_log s Crash eq_refl). Qed.

    Lemma call_body_extends s c :
      extends s (snd (call_body ntop4 ntop6 sort_keys writes stops react s c)).
    Proof.
      destruct c; cbn [call_body];
        try (destruct (stops _);
               [cbn [snd]; eapply extends_via; [|apply stop_extends]; reflexivity|]);
        try (destruct (is_enable_step _ _);
               [eapply extends_via; [|apply skip_extends]; reflexivity|]);
        try (eapply extends_via; [|apply send_extends]; reflexivity);
        try (now apply extends_refl).
      - destruct (sv_option _);
          [|cbn [snd]; eapply extends_via; [|apply crash_extends]; reflexivity].
        destruct (_ || _); (eapply extends_via; [|(apply skip_extends || apply send_extends)]; reflexivity).
      - eapply extends_via; [|apply flush_body_extends]. reflexivity.
      - pose proof (send_extends s CAbort XAbort) as H.
        destruct (send _ _ _ _ _ _ _ _). exact H.
      - apply set_state_extends.
    Qed.

    (** A call begins with its own event. *)
    Lemma call_extends s c :
      extends (log s (In (Call c))) (call ntop4 ntop6 sort_keys writes stops react s c).
    Proof.
      unfold call. pose proof (call_body_extends (log s (In (Call c))) c) as H.
      destruct (call_body _ _ _ _ _ _ _ _) as [ok s1]. cbn [snd] in H.
      eapply extends_trans; [exact H|now apply extends_log].
    Qed.

    Lemma process_extends s x :
      extends s (process_next_state ntop4 ntop6 sort_keys writes react s x).
    Proof.
      assert (Hset : forall s' y, sv_trace s' = sv_trace s -> extends s (set_state s' y)).
      { intros s' y E. eapply extends_via; [exact E|apply set_state_extends]. }
      assert (Hdef : forall s' y, sv_trace s' = sv_trace s ->
                extends s (match need_reply (set_state s' y) y with
                          | None => crash (set_state s' y)
                          | Some true => put_timer (set_state s' y) (Some TReading)
                          | Some false => set_state s' y
                          end)).
      { intros s' y E. destruct (need_reply _ _) as [[]|].
        - exact (Hset s' y E).
        - exact (Hset s' y E).
        - eapply extends_trans; [exact (Hset s' y E)|apply crash_extends]. }
      unfold process_next_state. destruct x; try (apply Hdef; reflexivity).
      - now apply emit_extends'.
      - unfold process_next_state_body.
        assert (H1 : extends s (set_state (disable_timeout s) XBody)) by (now apply Hset).
        destruct (sv_body _); [exact H1|].
        destruct (need_reply _ _) as [[]|]; [exact H1| |].
        + eapply extends_trans; [exact H1|apply flush_body_extends].
        + eapply extends_trans; [exact H1|apply crash_extends].
      - exact (Hset (disable_timeout s) XEndOfMessage eq_refl).
      - eapply extends_trans; [|apply set_state_extends].
        exact (emit_extends' (disable_timeout s) ShutDown eq_refl).
      - eapply extends_to; [|reflexivity].
        eapply extends_trans; [|apply emit_processed_extends]. apply Hset.
        now destruct (is_pass _ && _ && _).
    Qed.

    Lemma flushed_extends s : extends s (flushed ntop4 ntop6 sort_keys writes react s).
    Proof.
      unfold flushed. generalize (sv_next s) as k. intros k.
      assert (H : extends s (put_next s [])) by (now apply extends_refl).
      revert H. generalize (put_next s []) as s1.
      induction k as [|x k IH]; intros s1 H; cbn [fold_left]; [exact H|].
      apply IH. eapply extends_trans; [exact H|]. unfold deliver.
      eapply extends_trans; [apply process_extends|now apply emit_extends'].
    Qed.

    Lemma refuse_extends s v : extends s (refuse s v).
    Proof.
      unfold refuse, refuse_recipient.
      destruct (sv_state s); try (now apply extends_refl).
      destruct (sv_current s); [now apply extends_refl|].
      cbn [sv_message on_message put_message].
      destruct (mr_recipients _); [now apply extends_refl|].
      eapply extends_via; [|apply crash_extends]. reflexivity.
    Qed.

    Lemma end_message_extends s b : extends s (end_message react s b).
    Proof.
      unfold end_message. destruct (_ && _); [apply emit_processed_extends|now apply extends_refl].
    Qed.

    Lemma final_reply_extends s r b : extends s (final_reply react s r b).
    Proof.
      unfold final_reply. destruct (sv_quitted _); [now apply extends_refl|].
      assert (H : extends s (end_message react (emit react (disable_timeout s) (Forward r)) b)).
      { eapply extends_trans; [|apply end_message_extends].
        exact (emit_extends' (disable_timeout s) (Forward r) eq_refl). }
      destruct (sv_state (end_message _ _ _)); exact H.
    Qed.

    Lemma modification_extends s r before after :
      (forall s, sv_trace (before s) = sv_trace s) -> (forall s, sv_trace (after s) = sv_trace s) ->
      extends s (modification react s r before after).
    Proof.
      intros H1 H2. unfold modification, invalid_state.
      destruct (sv_state s); try (now apply emit_extends').
      destruct (sv_quitted s); [now apply extends_refl|].
      eapply extends_to; [|apply H2]. eapply extends_via; [apply H1|now apply emit_extends'].
    Qed.

    Lemma receive_extends s r :
      extends s (receive ntop4 ntop6 sort_keys writes react s r).
    Proof.
      assert (Hdis : forall e, nested e = true -> extends s (emit react (disable_timeout s) e))
        by (intros e; exact (emit_extends' (disable_timeout s) e)).
      destruct r; cbn [receive]; try (apply modification_extends; reflexivity).
      - destruct (match sv_option _ with Some _ => _ | None => _ end) as [[] o'].
        + destruct (sv_state s);
            try (exact (emit_extends' (put_option (disable_timeout s) (Some o')) (Error InvalidState) eq_refl)).
          destruct (sv_quitted _); [now apply extends_refl|].
          eapply extends_via; [|now apply emit_extends']. reflexivity.
        + exact (emit_extends' (put_option (disable_timeout s) (Some o')) (Error NewerVersion) eq_refl).
      - cbn zeta.
        assert (H : forall x, extends s (if answerable x then
                  if sv_quitted (disable_timeout s) then disable_timeout s
                  else match sv_state (emit react (disable_timeout s) (Forward RContinue)) with
                       | XEndOfMessage =>
                           emit_processed react (emit react (disable_timeout s) (Forward RContinue))
                       | _ => emit react (disable_timeout s) (Forward RContinue)
                       end
                 else invalid_state react (disable_timeout s))).
        { intros x. destruct (answerable x); [|now apply Hdis].
          destruct (sv_quitted _); [now apply extends_refl|].
          destruct (sv_state (emit _ _ _)); try (now apply Hdis).
          eapply extends_trans; [apply (Hdis (Forward RContinue) eq_refl)|apply emit_processed_extends]. }
        destruct (sv_state (disable_timeout s)); try (apply H).
        destruct (sv_quitted _); [now apply extends_refl|].
        assert (Hd : extends s (decrement_body_count react (disable_timeout s))).
        { unfold decrement_body_count. destruct (sv_queue _) as [|n q]; [now apply extends_refl|].
          destruct (n =? 1); [|now apply extends_refl].
          exact (emit_extends' (put_queue (disable_timeout s) q) (Forward RContinue) eq_refl). }
        destruct (sv_body _); [exact Hd|].
        eapply extends_trans; [exact Hd|apply flush_body_extends].
      - match goal with |- context [refuse s ?v] => set (s0 := refuse s v) end.
        pose proof (refuse_extends s _ : extends s s0) as H0. clearbody s0.
        destruct (sv_crashed s0); [exact H0|].
        destruct (answerable _).
        + set (s2 := match sv_state (disable_timeout s0) with
                     | XBody => if sv_quitted (disable_timeout s0) then disable_timeout s0
                                else clear_body_count (disable_timeout s0)
                     | _ => disable_timeout s0
                     end).
          assert (E2 : sv_trace s2 = sv_trace s0)
            by (unfold s2; destruct (sv_state _); try reflexivity; now destruct (sv_quitted _)).
          cbn zeta. destruct (sv_quitted s2); [now apply (extends_to s s0)|].
          eapply extends_trans; [|apply end_message_extends].
          eapply extends_trans; [exact H0|]. eapply extends_via; [exact E2|now apply emit_extends'].
        + eapply extends_trans; [exact H0|]. exact (emit_extends' (disable_timeout s0) (Error InvalidState) eq_refl).
      - pose proof (refuse_extends s S_TEMPORARY_FAILURE) as H0.
        destruct (sv_crashed _); [exact H0|]. eapply extends_trans; [exact H0|apply final_reply_extends].
      - pose proof (refuse_extends s S_REJECT) as H0.
        destruct (sv_crashed _); [exact H0|]. eapply extends_trans; [exact H0|apply final_reply_extends].
      - exact (final_reply_extends (put_status s S_ACCEPT) RAccept false).
      - exact (final_reply_extends (put_status s S_DISCARD) RDiscard false).
      - eapply extends_via; [|apply modification_extends; reflexivity]. reflexivity.
      - destruct (sv_quitted _); [now apply extends_refl|].
        exact (emit_extends' (put_status (disable_timeout s) S_ERROR) (Forward RConnectionFailure) eq_refl).
      - destruct (sv_quitted _); [now apply extends_refl|now apply Hdis].
      - destruct (sv_state _); try (now apply Hdis).
        destruct (sv_quitted _); [now apply extends_refl|]. exact (Hdis (Forward RSkip) eq_refl).
    Qed.

    (** Every step begins with its own event. *)
    Lemma step_extends s o :
      extends (log s (In o)) (step ntop4 ntop6 sort_keys writes stops react s o).
    Proof.
      unfold step. destruct (sv_crashed s) eqn:Hc.
      - apply extends_refl. unfold log. now rewrite Hc.
      - destruct o; [apply call_extends|apply flushed_extends|apply receive_extends|].
        unfold fire. destruct (sv_timer _); [|now apply extends_refl].
        eapply extends_trans; now apply emit_extends'.
    Qed.
  End Step.

  Variable handlers : list event -> option api.
  Notation React := (Server.react ntop4 ntop6 sort_keys writes stops handlers).
  Notation run := (server_run ntop4 ntop6 sort_keys writes stops handlers).

  Lemma react_extends depth s : extends s (React depth s).
  Proof.
    revert s. induction depth as [|d IH]; intros s; cbn [Server.react]; [now apply extends_refl|].
    destruct (sv_crashed s); [now apply extends_refl|].
    destruct (handlers (sv_trace s)) as [c|]; [|now apply extends_refl].
    eapply extends_trans; [|apply IH]. eapply extends_trans; [apply (extends_log s (In (Call c)) eq_refl)|].
    now apply call_extends.
  Qed.

  Lemma run_step depth s ops o :
    run depth s (ops ++ [o])
    = server_step ntop4 ntop6 sort_keys writes stops handlers depth (run depth s ops) o.
  Proof. unfold server_run. now rewrite fold_left_app. Qed.

  Lemma server_step_extends depth s o :
    extends (log s (In o)) (server_step ntop4 ntop6 sort_keys writes stops handlers depth s o).
  Proof. apply step_extends, react_extends. Qed.

  (** *** Consequences of the invariant *)

  Lemma run_ok depth ops :
    trace_ok ntop4 ntop6 sort_keys (sv_trace (run depth server_new ops)) /\
    (sv_crashed (run depth server_new ops) = false ->
     agrees ntop4 ntop6 sort_keys [] (run depth server_new ops)).
  Proof. apply run_inv, new_inv. Qed.

  Lemma trace_ok_split later e before :
    trace_ok ntop4 ntop6 sort_keys (later ++ e :: before) ->
    event_ok ntop4 ntop6 sort_keys e before /\ trace_ok ntop4 ntop6 sort_keys before.
  Proof. induction later as [|e' l IH]; cbn; [auto|intros [_ H]; auto]. Qed.
End Facts.
