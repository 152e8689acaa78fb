(** Where the calls in the history of a server context come from. *)
From Verif.Base Require Import Bytes BytesFacts.
From Verif.Model Require Import Decoder Encoder CommandCodec ReplyCodec Status Option Macros Client
                                Server.
From Verif.Proofs Require Import ServerInv.
Import List.
Local Open Scope N_scope.

(** Calls that do nothing but change data: no handler runs. *)
Definition quiet (c : api) : bool := match c with AReset | AMacro _ => true | _ => false end.

Section Calls.
  Variables (ntop4 ntop6 : bytes -> bytes).
  Variable sort_keys : list bytes -> list bytes.
  Variable writes : list event -> write_outcome.
  Variable stops : list event -> bool.
  Variable handlers : list event -> option api.
  (** What else happens: calls from outside at a point of the history, and operations. *)
  Variable user : api -> list event -> Prop.
  Variable allowed : op -> Prop.

  Definition from (c : api) (t : list event) : Prop := handlers t = Some c \/ user c t.
  Inductive called : list event -> Prop :=
  | CalledNew : called []
  | CalledEvent e t :
      match e with Server.In (Call _) => False | Server.In o => allowed o | _ => True end ->
      called t -> called (e :: t)
  | CalledLoud c t : quiet c = false -> from c t -> called t -> called (Server.In (Call c) :: t)
  | CalledQuiet c t ok : quiet c = true -> from c t -> called t ->
      called (Return ok :: Server.In (Call c) :: t).

  Definition M (s : server) : Prop := called (sv_trace s).
  Lemma M_same s s' : sv_trace s' = sv_trace s -> M s -> M s'.
  Proof. unfold M. now intros ->. Qed.
  Definition plain (e : event) : bool := match e with Server.In _ => false | _ => true end.
  Lemma log_M s e : plain e = true -> M s -> M (log s e).
  Proof.
    intros He H. unfold log. destruct (sv_crashed s); [exact H|].
    apply CalledEvent; [|exact H]. destruct e; try discriminate He; exact I.
  Qed.
  Lemma crash_M s : M s -> M (crash s).
  Proof. intros H. unfold crash. exact (log_M s Crash eq_refl H). Qed.

  Section Step.
    Variable react : server -> server.
    Hypothesis react_M : forall s, M s -> M (react s).

    Lemma emit_M s e : plain e = true -> M s -> M (emit react s e).
    Proof. intros He H. now apply react_M, log_M. Qed.

    Lemma emit_processed_M s : M s -> M (emit_processed react s).
    Proof.
      intros H. unfold emit_processed. destruct (sv_message s) as [m|]; [|exact H].
      now apply emit_M.
    Qed.

    Lemma write_packet_M s p x :
      M s -> M (snd (write_packet ntop4 ntop6 sort_keys writes react s p x)).
    Proof.
      intros H. unfold write_packet.
      destruct (negb (urgent x) && is_processing s); [now apply emit_M|].
      set (s1 := if urgent x then s else put_timer s (Some TWriting)).
      assert (H1 : M s1) by (unfold s1; destruct (urgent x); exact H).
      clearbody s1. clear H s.
      pose proof (macro_prefix_view ntop4 ntop6 sort_keys s1 x) as (E1 & _).
      destruct (macro_prefix ntop4 ntop6 sort_keys s1 x) as [prefix s2]. cbn [fst snd] in E1.
      assert (H2 : M s2) by (unfold M; rewrite E1; exact H1).
      destruct (writes (sv_trace s2)); cbn [snd].
      - exact (log_M s2 (Sent x prefix p) eq_refl H2).
      - exact (log_M s2 (Lost x prefix p) eq_refl H2).
      - apply emit_M; [reflexivity|]. exact H2.
    Qed.
    Lemma send_M s c x : M s -> M (snd (send ntop4 ntop6 sort_keys writes react s c x)).
    Proof. intros H. exact (write_packet_M (put_encoder s _) _ x H). Qed.
    Lemma flush_body_M s : M s -> M (snd (flush_body ntop4 ntop6 sort_keys writes react s)).
    Proof.
      intros H. unfold flush_body.
      pose proof (send_M (put_queue s (sv_queue s ++ [0]))
                    (CBody (sv_body (put_queue s (sv_queue s ++ [0])))) XBody H) as H1.
      destruct (send _ _ _ _ _ _ _ _) as [[] s2]; exact H1.
    Qed.
    Lemma set_state_M s x : M s -> M (set_state s x).
    Proof.
      intros H. unfold set_state. apply log_M; [reflexivity|].
      now destruct (sstate_in _ _ _).
    Qed.
    Lemma skip_M s x : M s -> M (snd (skip react s x)).
    Proof. intros H. apply emit_M; [reflexivity|]. now apply set_state_M. Qed.
    Lemma stop_M s x : M s -> M (stop_on_state react s x).
    Proof.
      intros H. unfold stop_on_state.
      assert (H1 : M (emit react (set_state (put_status s S_STOP) x) (Stopped x)))
        by (apply emit_M; [reflexivity|now apply set_state_M]).
      destruct (sstate_in _ _ _); [now apply emit_processed_M|exact H1].
    Qed.
    Lemma enter_M s c : M s -> M (enter s c).
    Proof. intros H. destruct c; [|exact H]. exact H. Qed.

    Lemma call_M s c : M s -> sv_crashed s = true \/ from c (sv_trace s) ->
      M (call ntop4 ntop6 sort_keys writes stops react s c).
    Proof.
      intros H Hf. unfold call.
      destruct (quiet c) eqn:Hq.
      - destruct c; try discriminate Hq; cbn [call_body]; unfold M, log.
        + cbn [sv_crashed reset_message_related_data put_message put_queue put_rcpt_status put_processing put_skip_body put_macros].
          destruct (sv_crashed s) eqn:Hc; cbn; rewrite Hc; [exact H|]. apply CalledQuiet; [reflexivity| |exact H].
          destruct Hf; [congruence|assumption].
        + cbn [sv_crashed put_macros].
          destruct (sv_crashed s) eqn:Hc; cbn; rewrite Hc; [exact H|]. apply CalledQuiet; [reflexivity| |exact H].
          destruct Hf; [congruence|assumption].
      - cut (M (snd (call_body ntop4 ntop6 sort_keys writes stops react (log s (Server.In (Call c))) c))).
        { destruct (call_body _ _ _ _ _ _ _ _) as [ok s1]. now apply (log_M s1 (Return ok)). }
        set (s0 := log s (Server.In (Call c))).
        assert (H0 : M s0).
        { unfold s0, log. destruct (sv_crashed s); [exact H|]. apply CalledLoud; [exact Hq| |exact H].
          destruct Hf; [discriminate|assumption]. }
        clearbody s0. clear s H Hf.
        assert (Hon : forall s f, M s -> M (on_message s f)) by (intros s1 f; exact (fun H => H)).
        destruct c; try discriminate Hq; cbn [call_body]; cbv zeta;
          try match goal with |- context[enter ?s ?c] =>
                let H9 := fresh in assert (H9 : M (enter s c)) by (apply enter_M; exact H0);
                revert H9; generalize (enter s c); clear H0; intros s9 H0 end;
          try (destruct (stops _); [cbn [snd]; apply stop_M; exact H0|]);
          try (destruct (is_enable_step _ _); [apply skip_M; exact H0|]);
          try (apply send_M; exact H0); try exact H0.
        + destruct (sv_option _); [|apply crash_M; exact H0].
          destruct (_ || _); (apply skip_M || apply send_M); exact H0.
        + apply flush_body_M; exact H0.
        + pose proof (send_M s0 CAbort XAbort H0) as H1. destruct (send _ _ _ _ _ _ _ _). exact H1.
        + now apply set_state_M.
    Qed.

    Lemma process_M s x : M s -> x <> XAbort ->
      M (process_next_state ntop4 ntop6 sort_keys writes react s x).
    Proof.
      intros H Hx.
      assert (Hd : M (disable_timeout s)) by exact H.
      assert (Hother : M (let s2 := match x with XFrom => put_processing (disable_timeout s) true | _ => disable_timeout s end in
                          let s3 := set_state s2 x in
                          match need_reply s3 x with
                          | None => crash s3
                          | Some true => put_timer s3 (Some TReading)
                          | Some false => s3
                          end)).
      { cbv zeta. set (s2 := match x with XFrom => _ | _ => _ end).
        assert (H2 : M (set_state s2 x)) by (apply set_state_M; unfold s2; destruct x; exact Hd).
        destruct (need_reply _ _) as [[]|]; [exact H2|exact H2|now apply crash_M]. }
      destruct x; try exact Hother; cbn [process_next_state].
      - now apply emit_M.
      - assert (H2 : M (set_state (disable_timeout s) XBody)) by now apply set_state_M.
        revert H2. generalize (set_state (disable_timeout s) XBody). intros s2 H2.
        unfold process_next_state_body. destruct (sv_body s2); [exact H2|].
        destruct (need_reply _ _) as [[]|]; [exact H2|now apply flush_body_M|now apply crash_M].
      - exact (set_state_M _ XEndOfMessage Hd).
      - apply set_state_M, emit_M; [reflexivity|exact Hd].
      - now destruct Hx.
    Qed.

    Lemma deliver_M s x : M s -> M (deliver ntop4 ntop6 sort_keys writes react s x).
    Proof.
      intros H. unfold deliver. destruct (sstate_eqb x XAbort) eqn:E.
      - destruct x; try discriminate E. clear E. cbn [process_next_state]. apply emit_M; [reflexivity|].
        match goal with |- M (reset_message_related_data ?s1) => assert (H1 : M s1) end.
        { apply emit_processed_M, set_state_M. now destruct (is_pass _ && _ && _). }
        exact H1.
      - assert (Hx : x <> XAbort) by (intros ->; discriminate E).
        apply emit_M; [reflexivity|now apply process_M].
    Qed.
    Lemma flushed_M s : M s -> M (flushed ntop4 ntop6 sort_keys writes react s).
    Proof.
      intros H. unfold flushed. assert (H1 : M (put_next s [])) by exact H.
      revert H1. generalize (put_next s []). clear H.
      induction (sv_next s) as [|x k IH]; intros s1 H1; cbn [fold_left]; [exact H1|].
      apply IH. now apply deliver_M.
    Qed.

    Lemma end_message_M s b : M s -> M (end_message react s b).
    Proof. intros H. unfold end_message. destruct (_ && _); [now apply emit_processed_M|exact H]. Qed.
    Definition negotiation (r : reply) : bool := match r with RNegotiate _ _ => true | _ => false end.
    Lemma forward_M s r : negotiation r = false -> M s -> M (emit react s (Forward r)).
    Proof. intros Hr H. apply emit_M; [|exact H]. reflexivity. Qed.
    Lemma final_reply_M s r b : negotiation r = false -> M s -> M (final_reply react s r b).
    Proof.
      intros Hr H. unfold final_reply. assert (H0 : M (disable_timeout s)) by exact H.
      destruct (sv_quitted _); [exact H0|].
      assert (H1 : M (end_message react (emit react (disable_timeout s) (Forward r)) b))
        by (apply end_message_M; now apply forward_M).
      destruct (sv_state (end_message _ _ _)); exact H1.
    Qed.
    Lemma modification_M s r before after : negotiation r = false ->
      M s -> (forall s, M s -> M (after s)) -> (forall s, M s -> M (before s)) ->
      M (modification react s r before after).
    Proof.
      intros Hr H Ha Hb. unfold modification, invalid_state.
      destruct (sv_state s); try (now apply emit_M).
      destruct (sv_quitted s); [exact H|]. apply Ha, forward_M; auto.
    Qed.
    Lemma refuse_M s v : M s -> M (refuse s v).
    Proof.
      intros H. unfold refuse. destruct (sv_state s); try exact H.
      unfold refuse_recipient. cbv zeta.
      match goal with |- context[on_message (put_rcpt_status s v) ?f] =>
        assert (H1 : M (on_message (put_rcpt_status s v) f)) by exact H;
        revert H1; generalize (on_message (put_rcpt_status s v) f) end.
      intros s1 H1. destruct (sv_current s); [exact H1|].
      destruct (sv_message s1) as [m|]; [|exact H1].
      destruct (mr_recipients m); [exact H1|now apply crash_M].
    Qed.

    Lemma receive_M s r :
      M s -> M (receive ntop4 ntop6 sort_keys writes react s r).
    Proof.
      intros H.
      assert (Hmsg : forall f s, M s -> M (on_message s f)) by (intros f s'; exact (fun H => H)).
      assert (Hd : M (disable_timeout s)) by exact H.
      assert (Hrf : forall v, M (refuse s v)) by (intros v; now apply refuse_M).
      destruct r; cbn [receive];
        try (apply modification_M; [reflexivity|exact H|auto|auto]; fail);
        try (apply final_reply_M; [reflexivity|exact H]).
      - (* negotiate *)
        cbv zeta.
        destruct (match sv_option (disable_timeout s) with
                  | Some o0 => option_combine o0 o
                  | None => (true, o)
                  end) as [ok o'].
        set (s2 := put_option (disable_timeout s) (Some o')).
        assert (H2 : M s2) by exact H. clearbody s2.
        destruct ok; [|now apply emit_M].
        destruct (sv_state s); try (now apply emit_M).
        destruct (sv_quitted s2); [exact H2|]. now apply emit_M.
      - (* continue *)
        cbv zeta. set (s1 := disable_timeout s) in *. clearbody s1.
        assert (Hother : M (if answerable (sv_state s1) then
                  if sv_quitted s1 then s1
                  else let s2 := emit react s1 (Forward RContinue) in
                       match sv_state s2 with XEndOfMessage => emit_processed react s2 | _ => s2 end
                else invalid_state react s1)).
        { destruct (answerable _); [|now apply emit_M]. destruct (sv_quitted s1); [exact Hd|].
          assert (H2 : M (emit react s1 (Forward RContinue))) by now apply emit_M.
          cbv zeta. destruct (sv_state _); try exact H2. now apply emit_processed_M. }
        destruct (sv_state s1); try exact Hother.
        destruct (sv_quitted s1); [exact Hd|].
        assert (H2 : M (decrement_body_count react s1)).
        { unfold decrement_body_count. destruct (sv_queue s1); [exact Hd|]. destruct (_ =? 1); [|exact Hd].
          now apply emit_M. }
        destruct (sv_body _); [exact H2|now apply flush_body_M].
      - (* reply code *)
        cbv zeta. match goal with |- M (if sv_crashed ?s0 then _ else _) => assert (H0 : M s0) by apply Hrf; revert H0; generalize s0 end.
        intros s0 H0. destruct (sv_crashed s0); [exact H0|].
        assert (H1 : M (disable_timeout s0)) by exact H0. revert H1. generalize (disable_timeout s0). intros s1 H1.
        destruct (answerable _); [|now apply emit_M].
        match goal with |- context[sv_quitted ?s2] => assert (H2 : M s2) end.
        { destruct (sv_state s1); try exact H1. destruct (sv_quitted s1); exact H1. }
        revert H2. match goal with |- M ?s2 -> _ => generalize s2 end. intros s2 H2.
        destruct (sv_quitted s2); [exact H2|]. apply end_message_M. now apply forward_M.
      - cbv zeta. destruct (sv_crashed _); [apply Hrf|]. apply final_reply_M; [reflexivity|apply Hrf].
      - cbv zeta. destruct (sv_crashed _); [apply Hrf|]. apply final_reply_M; [reflexivity|apply Hrf].
      - cbv zeta. destruct (sv_quitted _); [exact H|]. now apply forward_M.
      - cbv zeta. destruct (sv_quitted _); [exact H|]. now apply forward_M.
      - cbv zeta. set (s1 := disable_timeout s) in *. clearbody s1.
        destruct (sv_state s1); try (now apply emit_M).
        destruct (sv_quitted s1); [exact Hd|]. exact (forward_M s1 RSkip eq_refl Hd).
    Qed.

    Lemma step_M s o : M s ->
      match o with Call c => sv_crashed s = true \/ from c (sv_trace s) | _ => allowed o end ->
      M (step ntop4 ntop6 sort_keys writes stops react s o).
    Proof.
      intros H Ho. unfold step. destruct (sv_crashed s) eqn:Hc; [exact H|].
      assert (Hl : match o with Call _ => True | _ => M (log s (Server.In o)) end).
      { unfold log. rewrite Hc. destruct o; try exact I; (apply CalledEvent; [exact Ho|exact H]). }
      destruct o.
      - apply call_M; [exact H|]. now destruct Ho; [discriminate|right].
      - now apply flushed_M.
      - now apply receive_M.
      - unfold fire. destruct (sv_timer _); [|exact Hl]. apply emit_M; [reflexivity|]. now apply emit_M.
    Qed.
  End Step.

  Lemma react_M depth : forall s, M s -> M (react ntop4 ntop6 sort_keys writes stops handlers depth s).
  Proof.
    induction depth as [|d IH]; intros s H; cbn [react]; [exact H|].
    destruct (sv_crashed s); [exact H|]. destruct (handlers (sv_trace s)) eqn:E; [|exact H].
    apply IH. apply call_M; [exact IH|exact H|]. right. now left.
  Qed.
  Lemma server_step_M depth s o : M s ->
    match o with Call c => sv_crashed s = true \/ from c (sv_trace s) | _ => allowed o end ->
    M (server_step ntop4 ntop6 sort_keys writes stops handlers depth s o).
  Proof. intros H Ho. unfold server_step. apply step_M; [|exact H|exact Ho]. intros s1. apply react_M. Qed.
End Calls.
