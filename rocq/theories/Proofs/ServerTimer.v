(** No timeout runs while the filter has answered everything. *)
From Verif.Base Require Import Bytes BytesFacts.
From Verif.Model Require Import Decoder Encoder CommandCodec ReplyCodec Status Option Macros Client
                                Server.
From Verif.Spec Require Import ServerSpec.
From Verif.Proofs Require Import ServerInv ServerFacts.
Local Open Scope N_scope.

(** *** Histories *)

Lemma rests_nested l t : forallb nested l = true -> rests t = false -> rests (l ++ t) = false.
Proof.
  intros Hl Ht. induction l as [|e l IH]; [exact Ht|]. cbn in Hl.
  apply andb_true_iff in Hl as [He Hl]. specialize (IH Hl). rewrite <- app_comm_cons.
  destruct e; cbn [rests]; try exact IH; try (now rewrite IH, andb_false_r).
  destruct o; cbn in He; try discriminate He. exact IH.
Qed.

Lemma rests_link t :
  rests t = true -> forallb overtakes (l_unflushed (link_of t) ++ l_todo (link_of t)) = true.
Proof.
  induction t as [|e t IH]; [reflexivity|].
  assert (Hsent : forall x, overtakes x && rests t = true ->
            forallb overtakes ((l_unflushed (link_of t) ++ [x]) ++ l_todo (link_of t)) = true).
  { intros x H. apply andb_true_iff in H as [Hx H]. specialize (IH H).
    rewrite !forallb_app in *. cbn. rewrite Hx. apply andb_true_iff in IH as [-> ->]. reflexivity. }
  destruct e; cbn [rests link_of l_unflushed l_todo]; try exact IH; try (apply Hsent).
  - destruct o; try exact IH.
    + intros H. specialize (IH H). destruct c; exact IH.
    + intros H. specialize (IH H). cbn. rewrite !forallb_app in IH.
      apply andb_true_iff in IH as [IH _]. exact IH.
    + intros H. cbn [l_unflushed l_todo].
      destruct (is_modification r), (l_unflushed (link_of t)), (l_todo (link_of t));
        try reflexivity; apply andb_true_iff in H as [H _]; exact (IH H).
  - intros H. specialize (IH H). rewrite !forallb_app in *.
    apply andb_true_iff in IH as [-> IH]. destruct (l_todo (link_of t)); [reflexivity|].
    cbn in IH. apply andb_true_iff in IH as [_ IH]. exact IH.
  - destruct e; exact IH.
Qed.

(** *** The invariant *)

Definition R (s : server) : Prop :=
  sv_crashed s = false -> rests (sv_trace s) = true -> sv_timer s = None.

(** Events that leave it as it is. *)
Definition plain (e : event) : bool :=
  match e with In (Receive _) | Sent _ _ _ | Lost _ _ _ => false | _ => true end.

Lemma R_same s s' :
  sv_crashed s' = sv_crashed s -> sv_trace s' = sv_trace s -> sv_timer s' = sv_timer s ->
  R s -> R s'.
Proof. unfold R. intros -> -> ->. auto. Qed.
Lemma R_none s : sv_timer s = None -> R s.
Proof. unfold R. auto. Qed.
Lemma R_busy s : rests (sv_trace s) = false -> R s.
Proof. unfold R. congruence. Qed.
Lemma R_crashed s : sv_crashed s = true -> R s.
Proof. unfold R. congruence. Qed.

Lemma log_R s e : plain e = true -> R s -> R (log s e).
Proof.
  intros He H. unfold log. destruct (sv_crashed s) eqn:Hc; [exact H|].
  intros _ Hr. apply (H Hc). cbn [sv_trace put_trace] in Hr.
  destruct e; try discriminate He; try exact Hr. destruct o; try discriminate He; exact Hr.
Qed.

Section Timer.
  Variables (ntop4 ntop6 : bytes -> bytes).
  Variable sort_keys : list bytes -> list bytes.
  Variable writes : list event -> write_outcome.
  Variable stops : list event -> bool.

  Section Step.
    Variable react : server -> server.
    Hypothesis react_R : forall s, R s -> R (react s).
    Hypothesis react_ext : forall s, extends s (react s).

    Lemma emit_R s e : plain e = true -> R s -> R (emit react s e).
    Proof. intros He H. now apply react_R, log_R. Qed.

    Lemma emit_processed_R s : R s -> R (emit_processed react s).
    Proof.
      intros H. unfold emit_processed. destruct (sv_message s) as [m|]; [|exact H].
      match goal with |- R (put_message ?s1 None) => apply (R_same s1); [reflexivity..|] end.
      now apply emit_R.
    Qed.

    Lemma write_packet_R s p x :
      R s -> R (snd (write_packet ntop4 ntop6 sort_keys writes react s p x)).
    Proof.
      intros H. unfold write_packet.
      destruct (negb (urgent x) && is_processing s); [now apply emit_R|].
      set (s1 := if urgent x then s else put_timer s (Some TWriting)).
      pose proof (macro_prefix_view ntop4 ntop6 sort_keys s1 x) as Hv.
      destruct (macro_prefix ntop4 ntop6 sort_keys s1 x) as [prefix s2]. cbn [snd] in Hv.
      destruct Hv as (Et & Ec & Em & _).
      assert (Hsent : forall e, e = Sent x prefix p \/ e = Lost x prefix p -> R (log s2 e)).
      { intros e He. unfold log. destruct (sv_crashed s2) eqn:Hc2; [now apply R_crashed|].
        intros _ Hr. cbn [sv_trace put_trace sv_timer] in *.
        assert (Hx : urgent x = true /\ rests (sv_trace s2) = true).
        { destruct He as [-> | ->]; cbn in Hr; apply andb_true_iff in Hr as [A B]; now split. }
        destruct Hx as [Hx Hr2]. rewrite Em. unfold s1 in *. rewrite Hx in *.
        apply H; congruence. }
      destruct (writes (sv_trace s2)); cbn [snd].
      - apply (R_same (log s2 (Sent x prefix p))); [reflexivity..|]. auto.
      - apply (R_same (log s2 (Lost x prefix p))); [reflexivity..|]. auto.
      - apply emit_R; [reflexivity|]. now apply R_none.
    Qed.
    Lemma send_R s c x : R s -> R (snd (send ntop4 ntop6 sort_keys writes react s c x)).
    Proof. intros H. exact (write_packet_R (put_encoder s _) _ x H). Qed.
    Lemma flush_body_R s : R s -> R (snd (flush_body ntop4 ntop6 sort_keys writes react s)).
    Proof.
      intros H. unfold flush_body.
      pose proof (send_R (put_queue s (sv_queue s ++ [0]))
                    (CBody (sv_body (put_queue s (sv_queue s ++ [0])))) XBody H) as H1.
      destruct (send _ _ _ _ _ _ _ _) as [[] s2]; exact H1.
    Qed.
    Lemma set_state_R s x : R s -> R (set_state s x).
    Proof.
      intros H. unfold set_state. apply log_R; [reflexivity|].
      now destruct (sstate_in _ _ _).
    Qed.
    Lemma crash_R s : R (crash s).
    Proof. apply R_crashed. reflexivity. Qed.
    Lemma skip_R s x : R s -> R (snd (skip react s x)).
    Proof. intros H. apply emit_R; [reflexivity|]. now apply set_state_R. Qed.
    Lemma stop_R s x : R s -> R (stop_on_state react s x).
    Proof.
      intros H. unfold stop_on_state.
      assert (H1 : R (emit react (set_state (put_status s S_STOP) x) (Stopped x)))
        by (apply emit_R; [reflexivity|now apply set_state_R]).
      destruct (sstate_in _ _ _); [now apply emit_processed_R|exact H1].
    Qed.

    Lemma call_R s c : R s -> R (call ntop4 ntop6 sort_keys writes stops react s c).
    Proof.
      intros H. unfold call.
      set (s0 := log s (In (Call c))).
      assert (H0 : R s0) by (apply log_R; [reflexivity|exact H]).
      clearbody s0.
      cut (R (snd (call_body ntop4 ntop6 sort_keys writes stops react s0 c))).
      { destruct (call_body _ _ _ _ _ _ _ _) as [ok s1]. now apply (log_R s1 (Return ok)). }
      destruct c; cbn [call_body];
        try (destruct (stops _); [cbn [snd]; apply stop_R; exact H0|]);
        try (destruct (is_enable_step _ _); [apply skip_R; exact H0|]);
        try (apply send_R; exact H0); try exact H0.
      - destruct (sv_option _); [|apply crash_R].
        destruct (_ || _); (apply skip_R || apply send_R); exact H0.
      - apply flush_body_R; exact H0.
      - pose proof (send_R s0 CAbort XAbort H0) as H1. destruct (send _ _ _ _ _ _ _ _). exact H1.
      - now apply set_state_R.
    Qed.

    Lemma deliver_R s x :
      (overtakes x = false -> rests (sv_trace s) = false) ->
      R (deliver ntop4 ntop6 sort_keys writes react s x).
    Proof.
      intros Hx. destruct (overtakes x) eqn:Eo.
      - apply emit_R; [reflexivity|]. destruct x; try discriminate Eo; cbn [process_next_state].
        + apply set_state_R, emit_R; [reflexivity|]. now apply R_none.
        + match goal with |- R (reset_message_related_data ?s1) =>
            apply (R_same s1); [reflexivity..|] end.
          apply emit_processed_R, set_state_R, R_none. now destruct (is_pass _ && _ && _).
      - specialize (Hx eq_refl). apply R_busy.
        assert (He : extends s (deliver ntop4 ntop6 sort_keys writes react s x)).
        { unfold deliver. eapply extends_trans; [|now apply emit_extends'].
          now apply process_extends. }
        destruct He as (l & -> & Hl). now apply rests_nested.
    Qed.

    Lemma flushed_R s :
      R s -> forallb overtakes (sv_next s) = true \/ rests (sv_trace s) = false ->
      R (flushed ntop4 ntop6 sort_keys writes react s).
    Proof.
      intros H Hn. unfold flushed.
      assert (H1 : R (put_next s [])) by exact H.
      assert (H2 : forallb overtakes (sv_next s) = true \/ rests (sv_trace (put_next s [])) = false)
        by exact Hn.
      revert H1 H2. generalize (put_next s []) as s1. clear H Hn.
      induction (sv_next s) as [|x k IH]; intros s1 H1 H2; cbn [fold_left]; [exact H1|].
      apply IH.
      - apply deliver_R. destruct H2 as [H2|H2]; [|auto]. cbn in H2.
        apply andb_true_iff in H2 as [-> _]. discriminate.
      - destruct H2 as [H2|H2].
        + left. cbn in H2. apply andb_true_iff in H2. tauto.
        + right. assert (He : extends s1 (deliver ntop4 ntop6 sort_keys writes react s1 x)).
          { unfold deliver. eapply extends_trans; [|now apply emit_extends'].
            now apply process_extends. }
          destruct He as (l & -> & Hl). now apply rests_nested.
    Qed.

    Lemma end_message_R s b : R s -> R (end_message react s b).
    Proof. intros H. unfold end_message. destruct (_ && _); [now apply emit_processed_R|exact H]. Qed.

    Lemma final_reply_R s r b : R (final_reply react s r b).
    Proof.
      unfold final_reply. assert (H0 : R (disable_timeout s)) by (now apply R_none).
      destruct (sv_quitted _); [exact H0|].
      assert (H1 : R (end_message react (emit react (disable_timeout s) (Forward r)) b))
        by (apply end_message_R, emit_R; [reflexivity|exact H0]).
      destruct (sv_state (end_message _ _ _)); exact H1.
    Qed.

    Lemma modification_R s r before after :
      R s -> (forall s, R s -> R (after s)) -> R (before s) ->
      R (modification react s r before after).
    Proof.
      intros H Ha Hb. unfold modification, invalid_state.
      destruct (sv_state s); try (now apply emit_R).
      destruct (sv_quitted s); [exact H|]. now apply Ha, emit_R.
    Qed.

    Lemma receive_R s r :
      R s -> R (receive ntop4 ntop6 sort_keys writes react (log s (In (Receive r))) r).
    Proof.
      intros H. set (s0 := log s (In (Receive r))).
      assert (Hmod : is_modification r = true -> r <> RProgress -> R s0).
      { intros Hm Hp. unfold s0, log. destruct (sv_crashed s) eqn:Hc; [exact H|].
        intros _ Hr. apply (H Hc). cbn [sv_trace put_trace rests] in Hr. rewrite Hm in Hr.
        apply andb_true_iff in Hr. tauto. }
      assert (Hpro : r = RProgress -> forall tm, R (put_timer s0 tm)).
      { intros -> tm. unfold s0, log. destruct (sv_crashed s) eqn:Hc; [now apply R_crashed|].
        apply R_busy. cbn. now rewrite andb_false_r. }
      assert (Hmsg : forall f s, R s -> R (on_message s f)) by (intros f s'; exact (fun H => H)).
      assert (Hdis : forall s, R (disable_timeout s)) by (intros s'; now apply R_none).
      clearbody s0. clear H s.
      destruct r; cbn [receive];
        try (apply modification_R; [apply Hmod; [reflexivity|discriminate]|auto|
                                    apply Hmod; [reflexivity|discriminate]]; fail);
        try (apply final_reply_R).
      - (* negotiate *)
        destruct (match sv_option (disable_timeout s0) with
                  | Some o0 => option_combine o0 o
                  | None => (true, o)
                  end) as [ok o'].
        assert (H2 : R (put_option (disable_timeout s0) (Some o'))) by (now apply R_none).
        destruct ok; [|now apply emit_R].
        destruct (sv_state s0); try (now apply emit_R).
        destruct (sv_quitted _); [exact H2|]. now apply emit_R.
      - (* continue *)
        cbn zeta. set (s1 := disable_timeout s0).
        assert (H1 : R s1) by apply Hdis.
        assert (Hother : R (if answerable (sv_state s1) then
                  if sv_quitted s1 then s1
                  else let s2 := emit react s1 (Forward RContinue) in
                       match sv_state s2 with XEndOfMessage => emit_processed react s2 | _ => s2 end
                 else invalid_state react s1)).
        { destruct (answerable (sv_state s1)); [|now apply emit_R].
          destruct (sv_quitted s1); [exact H1|]. cbn zeta.
          assert (H2 : R (emit react s1 (Forward RContinue))) by (now apply emit_R).
          destruct (sv_state (emit react s1 (Forward RContinue))); try exact H2.
          now apply emit_processed_R. }
        destruct (sv_state s1); try exact Hother. clear Hother.
        destruct (sv_quitted s1); [exact H1|].
        assert (H2 : R (decrement_body_count react s1)).
        { unfold decrement_body_count. destruct (sv_queue s1) as [|n q]; [exact H1|].
          destruct (n =? 1); [|exact H1]. apply emit_R; [reflexivity|exact H1]. }
        destruct (sv_body (decrement_body_count react s1)); [exact H2|]. now apply flush_body_R.
      - (* reply-code *)
        cbn zeta.
        set (s1 := refuse s0 (if (400 <=? code) && (code <? 500) then S_TEMPORARY_FAILURE else S_REJECT)).
        destruct (sv_crashed s1) eqn:Hc; [now apply R_crashed|].
        destruct (answerable _); [|now apply emit_R].
        set (s2 := match sv_state (disable_timeout s1) with XBody => _ | _ => _ end).
        assert (H2 : R s2).
        { unfold s2. destruct (sv_state (disable_timeout s1)); try apply Hdis.
          destruct (sv_quitted _); apply R_none; reflexivity. }
        destruct (sv_quitted s2); [exact H2|]. apply end_message_R. now apply emit_R.
      - destruct (sv_crashed _) eqn:Hc; [now apply R_crashed|apply final_reply_R].
      - destruct (sv_crashed _) eqn:Hc; [now apply R_crashed|apply final_reply_R].
      - (* progress *)
        unfold modification, invalid_state.
        assert (H1 : R s0) by (apply (R_same (put_timer s0 (sv_timer s0))); auto).
        destruct (sv_state s0); try (now apply emit_R).
        destruct (sv_quitted s0); [exact H1|]. apply emit_R; [reflexivity|]. now apply Hpro.
      - (* connection-failure *)
        destruct (sv_quitted _); [apply R_none; reflexivity|]. apply emit_R; [reflexivity|].
        apply R_none; reflexivity.
      - (* shutdown *)
        destruct (sv_quitted _); [apply Hdis|]. apply emit_R; [reflexivity|apply Hdis].
      - (* skip *)
        cbn zeta. destruct (sv_state _); try (apply emit_R; [reflexivity|apply Hdis]).
        destruct (sv_quitted _); [apply Hdis|].
        assert (H2 : R (emit react (disable_timeout s0) (Forward RSkip)))
          by (apply emit_R; [reflexivity|apply Hdis]). exact H2.
    Qed.

    Lemma fire_R s : R s -> R (fire react s).
    Proof.
      intros H. unfold fire. destruct (sv_timer s); [|exact H].
      apply emit_R; [reflexivity|]. now apply emit_R.
    Qed.

    Lemma step_R s o :
      R s -> (sv_crashed s = false -> sv_next s = l_unflushed (link_of (sv_trace s))) ->
      R (step ntop4 ntop6 sort_keys writes stops react s o).
    Proof.
      intros H Hn. unfold step. destruct (sv_crashed s) eqn:Hc; [exact H|].
      destruct o.
      - now apply call_R.
      - apply flushed_R; [now apply log_R|]. rewrite log_eq by exact Hc. cbn [sv_next put_trace sv_trace].
        rewrite Hn by reflexivity. cbn [rests].
        destruct (rests (sv_trace s)) eqn:Er; [left|now right].
        apply rests_link in Er. rewrite forallb_app in Er. apply andb_true_iff in Er. tauto.
      - now apply receive_R.
      - apply fire_R. now apply log_R.
    Qed.
  End Step.

  Variable handlers : list event -> option api.
  Notation React := (Server.react ntop4 ntop6 sort_keys writes stops handlers).
  Notation run := (server_run ntop4 ntop6 sort_keys writes stops handlers).

  Lemma react_R depth s : R s -> R (React depth s).
  Proof.
    revert s. induction depth as [|d IH]; intros s H; cbn [Server.react]; [exact H|].
    destruct (sv_crashed s); [exact H|]. destruct (handlers (sv_trace s)); [|exact H].
    apply IH, call_R; [exact IH|exact H].
  Qed.

  Lemma run_R depth ops : R (run depth server_new ops).
  Proof.
    induction ops as [|o ops IH] using rev_ind; [now apply R_none|].
    rewrite run_step. unfold server_step.
    apply step_R; [intros; now apply react_R|intros; apply react_extends|exact IH|].
    intros Hc.
    destruct (run_ok ntop4 ntop6 sort_keys writes stops handlers depth ops) as [_ HA].
    destruct (HA Hc) as [[] _]. assumption.
  Qed.
End Timer.
