(** The macros that go before a command are those of the history. *)
From Verif.Base Require Import Bytes BytesFacts.
From Verif.Model Require Import Decoder Encoder CommandCodec ReplyCodec Status Option Macros Client
                                Server.
From Verif.Spec Require Import MacroSpec MacroHistorySpec.
From Verif.Proofs Require Import MacroProofs ServerInv.
Import List.
Local Open Scope N_scope.

Definition lawful (t : list event) : Prop :=
  forall o, In (Server.In (Call (AMacro o))) t -> is_table o.

Lemma lawful_calls t : lawful t -> Forall is_table (macro_calls t).
Proof.
  intros H. apply Forall_forall. intros o Ho. apply in_flat_map in Ho as (e & He & Ho).
  destruct e as [[c| | |]| | | | | | | |x| | | | |]; try now destruct Ho.
  - destruct c; try now destruct Ho. + destruct Ho as [<-|[]]. exact I. + destruct Ho as [<-|[]]. now apply H.
  - destruct x; try now destruct Ho. destruct Ho as [<-|[]]. exact I.
Qed.

Lemma macros_before_same a a' r c : pa_macros a = pa_macros a' ->
  fst (macros_before a r c) = fst (macros_before a' r c).
Proof.
  intros E. unfold macros_before, get_macros. cbn [set_macro_context pa_macros pa_context]. rewrite E.
  destruct (stage_lookup (pa_macros a') c) as [[|]|]; try reflexivity. now destruct r.
Qed.
Lemma macros_before_keeps a r c : pa_macros (snd (macros_before a r c)) = pa_macros a.
Proof.
  unfold macros_before. destruct (get_macros _) as [[|]|]; try reflexivity. now destruct r.
Qed.

(** The tables depend on the tables only. *)
Lemma step_macros a a' o : pa_macros a = pa_macros a' ->
  pa_macros (macro_step a o) = pa_macros (macro_step a' o).
Proof.
  intros E. destruct o; cbn [macro_step set_macros_hash_table set_macro set_macros set_macro_context
    clear_macros clear_message_related_macros pa_macros]; rewrite ?E; try reflexivity; try exact E.
  rewrite !get_macro_macros. exact E.
Qed.

Section Macros.
  Variables (ntop4 ntop6 : bytes -> bytes).
  Variable sort_keys : list bytes -> list bytes.
  Variable writes : list event -> write_outcome.
  Variable stops : list event -> bool.

  Fixpoint all_carry (t : list event) : Prop :=
    match t with
    | [] => True
    | e :: t' =>
        match e with
        | Sent x prefix _ | Lost x prefix _ =>
            lawful t' -> carries ntop4 ntop6 sort_keys t' x prefix
        | _ => True
        end /\ all_carry t'
    end.

  Definition stored (t : list event) : stages := pa_macros (agent_after (macro_calls t)).
  Definition M (s : server) : Prop :=
    all_carry (sv_trace s) /\
    (sv_crashed s = false ->
     pa_macros (sv_macros s) = stored (sv_trace s) /\ sv_requests s = asked_macros (sv_trace s)).

  Lemma M_same s s' :
    sv_crashed s' = sv_crashed s -> sv_trace s' = sv_trace s ->
    pa_macros (sv_macros s') = pa_macros (sv_macros s) -> sv_requests s' = sv_requests s ->
    M s -> M s'.
  Proof. unfold M. intros -> -> -> ->. auto. Qed.

  (** Events that say nothing about macros. *)
  Definition plain (e : event) : bool :=
    match e with
    | Server.In (Call (AMacro _)) | Server.In (Call AReset) | Delivered XAbort
    | Sent _ _ _ | Lost _ _ _ | Forward (RNegotiate _ _) => false
    | _ => true
    end.
  Lemma log_M s e : plain e = true -> M s -> M (log s e).
  Proof.
    intros He [H1 H2]. unfold log. destruct (sv_crashed s) eqn:Hc; [split; [exact H1|congruence]|].
    destruct (H2 eq_refl) as [H3 H4]. split.
    - cbn [sv_trace put_trace all_carry]. split; [|exact H1]. destruct e; try discriminate He; exact I.
    - intros _. cbn [sv_trace put_trace sv_macros sv_requests]. split.
      + rewrite H3. unfold stored. cbn [macro_calls flat_map].
        replace (macro_calls_of e) with (@nil macro_op); [reflexivity|].
        destruct e as [[c| | |]| | | | | | | |x| | | | |]; try discriminate He; try reflexivity;
          [destruct c|destruct x]; try discriminate He; reflexivity.
      + rewrite H4. destruct e as [| | |r| | | | | | | | | |]; try reflexivity. destruct r; try reflexivity. discriminate He.
  Qed.
  Lemma crash_M s : M s -> M (crash s).
  Proof.
    intros [H1 _]. split; [|cbn; discriminate]. unfold crash, log. cbn. destruct (sv_crashed s); cbn; auto.
  Qed.

  Section Step.
    Variable react : server -> server.
    Hypothesis react_M : forall s, M s -> M (react s).

    Lemma emit_M s e : plain e = true -> M s -> M (emit react s e).
    Proof. intros He H. now apply react_M, log_M. Qed.

    Lemma emit_processed_M s : M s -> M (emit_processed react s).
    Proof.
      intros H. unfold emit_processed. destruct (sv_message s) as [m|]; [|exact H].
      match goal with |- M (put_message ?s1 None) => apply (M_same s1); [reflexivity..|] end.
      now apply emit_M.
    Qed.

    Lemma prefix_carries s x :
      M s -> sv_crashed s = false ->
      (lawful (sv_trace s) ->
       carries ntop4 ntop6 sort_keys (sv_trace s) x (fst (macro_prefix ntop4 ntop6 sort_keys s x))) /\
      M (snd (macro_prefix ntop4 ntop6 sort_keys s x)) /\
      sv_crashed (snd (macro_prefix ntop4 ntop6 sort_keys s x)) = false /\
      sv_trace (snd (macro_prefix ntop4 ntop6 sort_keys s x)) = sv_trace s.
    Proof.
      intros H Hc. destruct (proj2 H Hc) as [Em Er]. unfold macro_prefix, carries.
      replace (stage_of x) with (macro_command x) by now destruct x.
      destruct (macro_command x) as [c|]; [|cbn [fst snd]; auto].
      pose proof (macros_before_same (sv_macros s) (agent_after (macro_calls (sv_trace s))) (sv_requests s) c Em) as Eb.
      pose proof (macros_before_keeps (sv_macros s) (sv_requests s) c) as Ek.
      destruct (macros_before (sv_macros s) (sv_requests s) c) as [t a]. cbn [fst snd] in Eb, Ek.
      assert (Ht : lawful (sv_trace s) ->
                   match t with
                   | Some t => t <> [] /\ NoDup (map fst t) /\
                               forall n v, lookup t n = Some v <-> due_macro (sv_trace s) c n v
                   | None => forall n v, ~ due_macro (sv_trace s) c n v
                   end).
      { intros L. pose proof (macros_before_spec (macro_calls (sv_trace s)) (sv_requests s) c (lawful_calls _ L)) as Hs.
        rewrite <- Eb in Hs. unfold due_macro. rewrite Er in Hs. destruct t as [t|]; [exact Hs|].
        intros n v [Hl Hq]. specialize (Hs n v Hl). destruct (asked_macros (sv_trace s)); auto. }
      destruct t as [t|]; cbn [fst snd].
      - split; [|split; [|split; [exact Hc|reflexivity]]].
        + intros L. right. exists t. destruct (Ht L) as (A & B & C). repeat apply conj; auto.
        + now apply (M_same s).
      - split; [|split; [|split; [exact Hc|reflexivity]]].
        + intros L. left. split; [reflexivity|exact (Ht L)].
        + now apply (M_same s).
    Qed.
    Lemma prefix_crashed s x :
      sv_crashed s = true -> sv_crashed (snd (macro_prefix ntop4 ntop6 sort_keys s x)) = true /\
      sv_trace (snd (macro_prefix ntop4 ntop6 sort_keys s x)) = sv_trace s.
    Proof.
      intros Hc. pose proof (macro_prefix_view ntop4 ntop6 sort_keys s x) as (E1 & E2 & _). now rewrite E2.
    Qed.

    Lemma write_packet_M s p x :
      M s -> M (snd (write_packet ntop4 ntop6 sort_keys writes react s p x)).
    Proof.
      intros H. unfold write_packet.
      destruct (negb (urgent x) && is_processing s); [now apply emit_M|].
      set (s1 := if urgent x then s else put_timer s (Some TWriting)).
      assert (H1 : M s1) by (unfold s1; destruct (urgent x); [exact H|now apply (M_same s)]).
      clearbody s1. clear H s.
      pose proof (prefix_carries s1 x H1) as Hp. pose proof (prefix_crashed s1 x) as Hq.
      destruct (macro_prefix ntop4 ntop6 sort_keys s1 x) as [prefix s2]. cbn [fst snd] in Hp, Hq.
      assert (H2 : M s2 /\ forall e, e = Sent x prefix p \/ e = Lost x prefix p -> M (log s2 e)).
      { destruct (sv_crashed s1) eqn:Hc.
        - destruct (Hq eq_refl) as [E1 E2].
          assert (M s2) by (split; [rewrite E2; apply H1|congruence]). split; [assumption|].
          intros e _. unfold log. now rewrite E1.
        - destruct (Hp eq_refl) as (Hcar & Hm & Ec & Et). split; [exact Hm|].
          intros e He. destruct Hm as [Ha Hb]. destruct (Hb Ec) as [Hb1 Hb2].
          unfold log. rewrite Ec. split.
          + cbn [sv_trace put_trace all_carry]. split; [|exact Ha].
            rewrite Et. destruct He as [-> | ->]; exact Hcar.
          + intros _. cbn [sv_trace put_trace sv_macros sv_requests]. rewrite Hb1, Hb2.
            destruct He as [-> | ->]; now split. }
      destruct H2 as [H2 Hs].
      destruct (writes (sv_trace s2)); cbn [snd].
      - apply (M_same (log s2 (Sent x prefix p))); [reflexivity..|]. auto.
      - apply (M_same (log s2 (Lost x prefix p))); [reflexivity..|]. auto.
      - apply emit_M; [reflexivity|]. now apply (M_same s2).
    Qed.
    Lemma send_M s c x : M s -> M (snd (send ntop4 ntop6 sort_keys writes react s c x)).
    Proof. intros H. exact (write_packet_M (put_encoder s _) _ x H). Qed.
    Lemma flush_body_M s : M s -> M (snd (flush_body ntop4 ntop6 sort_keys writes react s)).
    Proof.
      intros H. unfold flush_body.
      pose proof (send_M (put_queue s (sv_queue s ++ [0]))
                    (CBody (sv_body (put_queue s (sv_queue s ++ [0])))) XBody H) as H1.
      destruct (send _ _ _ _ _ _ _ _) as [[] s2]; exact H1.
    Qed.
    Lemma set_state_M s x : M s -> M (set_state s x).
    Proof.
      intros H. unfold set_state. apply log_M; [reflexivity|].
      now destruct (sstate_in _ _ _).
    Qed.
    Lemma skip_M s x : M s -> M (snd (skip react s x)).
    Proof. intros H. apply emit_M; [reflexivity|]. now apply set_state_M. Qed.
    Lemma stop_M s x : M s -> M (stop_on_state react s x).
    Proof.
      intros H. unfold stop_on_state.
      assert (H1 : M (emit react (set_state (put_status s S_STOP) x) (Stopped x)))
        by (apply emit_M; [reflexivity|now apply set_state_M]).
      destruct (sstate_in _ _ _); [now apply emit_processed_M|exact H1].
    Qed.
    Lemma enter_M s c : M s -> M (enter s c).
    Proof. intros H. destruct c; [|exact H]. now apply (M_same s). Qed.

    (** A call on the store. *)
    Lemma store_M s c o s' :
      M s -> macro_calls_of (Server.In (Call c)) = [o] ->
      (forall e, Server.In (Call c) = e -> asked_macros (e :: sv_trace s) = asked_macros (sv_trace s)) ->
      sv_crashed s' = sv_crashed (log s (Server.In (Call c))) ->
      sv_trace s' = sv_trace (log s (Server.In (Call c))) ->
      pa_macros (sv_macros s') = pa_macros (macro_step (sv_macros s) o) ->
      sv_requests s' = sv_requests s ->
      M s'.
    Proof.
      intros [H1 H2] Ho Ha E1 E2 E3 E4. unfold M. rewrite E1, E2. clear E1 E2.
      unfold log. destruct (sv_crashed s) eqn:Hc.
      - split; [exact H1|congruence].
      - destruct (H2 eq_refl) as [H3 H5]. cbn [sv_trace put_trace sv_crashed all_carry].
        split; [split; [exact I|exact H1]|]. intros _. split.
        + rewrite E3. unfold stored, macro_calls. cbn [flat_map]. rewrite Ho. cbn [app agent_after fold_right].
          now apply step_macros.
        + rewrite E4, H5. reflexivity.
    Qed.

    Lemma call_M s c : M s -> M (call ntop4 ntop6 sort_keys writes stops react s c).
    Proof.
      intros H. unfold call.
      cut (M (snd (call_body ntop4 ntop6 sort_keys writes stops react (log s (Server.In (Call c))) c))).
      { destruct (call_body _ _ _ _ _ _ _ _) as [ok s1]. now apply (log_M s1 (Return ok)). }
      destruct (plain (Server.In (Call c))) eqn:Hp.
      - set (s0 := log s (Server.In (Call c))).
        assert (H0 : M s0) by (apply log_M; [exact Hp|exact H]).
        clearbody s0.
        assert (Hon : forall s f, M s -> M (on_message s f)) by (intros s1 f; exact (fun H => H)).
        destruct c; try discriminate Hp; cbn [call_body]; cbv zeta;
          try match goal with |- context[enter ?s ?c] =>
                let H9 := fresh in assert (H9 : M (enter s c)) by (apply enter_M; exact H0);
                revert H9; generalize (enter s c); clear H0; intros s9 H0 end;
          try (destruct (stops _); [cbn [snd]; apply stop_M; exact H0|]);
          try (destruct (is_enable_step _ _); [apply skip_M; exact H0|]);
          try (apply send_M; exact H0); try exact H0.
        + destruct (sv_option _); [|apply crash_M; exact H0].
          destruct (_ || _); (apply skip_M || apply send_M); exact H0.
        + apply flush_body_M; exact H0.
        + pose proof (send_M s0 CAbort XAbort H0) as H1. destruct (send _ _ _ _ _ _ _ _). exact H1.
        + now apply set_state_M.
      - destruct c; try discriminate Hp; cbn [call_body snd].
        + eapply (store_M s AReset OClearMessage); try reflexivity; try exact H.
          * intros e <-. reflexivity.
          * cbn. unfold log. now destruct (sv_crashed s).
          * cbn. unfold log. now destruct (sv_crashed s).
        + eapply (store_M s (AMacro o) o); try reflexivity; try exact H.
          * intros e <-. reflexivity.
          * cbn. unfold log. now destruct (sv_crashed s).
          * cbn. unfold log. now destruct (sv_crashed s).
    Qed.

    Lemma process_M s x : M s -> x <> XAbort ->
      M (process_next_state ntop4 ntop6 sort_keys writes react s x).
    Proof.
      intros H Hx.
      assert (Hd : M (disable_timeout s)) by now apply (M_same s).
      assert (Hother : M (let s2 := match x with XFrom => put_processing (disable_timeout s) true | _ => disable_timeout s end in
                          let s3 := set_state s2 x in
                          match need_reply s3 x with
                          | None => crash s3
                          | Some true => put_timer s3 (Some TReading)
                          | Some false => s3
                          end)).
      { cbv zeta. set (s2 := match x with XFrom => _ | _ => _ end).
        assert (H2 : M (set_state s2 x)) by (apply set_state_M; unfold s2; destruct x; exact Hd).
        destruct (need_reply _ _) as [[]|]; [exact H2|exact H2|now apply crash_M]. }
      destruct x; try exact Hother; cbn [process_next_state].
      - now apply emit_M.
      - assert (H2 : M (set_state (disable_timeout s) XBody)) by now apply set_state_M.
        revert H2. generalize (set_state (disable_timeout s) XBody). intros s2 H2.
        unfold process_next_state_body. destruct (sv_body s2); [exact H2|].
        destruct (need_reply _ _) as [[]|]; [exact H2|now apply flush_body_M|now apply crash_M].
      - exact (set_state_M _ XEndOfMessage Hd).
      - apply set_state_M, emit_M; [reflexivity|exact Hd].
      - now destruct Hx.
    Qed.

    Lemma deliver_M s x : M s -> M (deliver ntop4 ntop6 sort_keys writes react s x).
    Proof.
      intros H. unfold deliver. destruct (sstate_eqb x XAbort) eqn:E.
      - destruct x; try discriminate E. clear E. cbn [process_next_state]. unfold emit. apply react_M.
        match goal with |- M (log (reset_message_related_data ?s1) _) => assert (H1 : M s1) end.
        { apply emit_processed_M, set_state_M. now destruct (is_pass _ && _ && _). }
        revert H1. match goal with |- M ?s1 -> _ => generalize s1 end. clear s H. intros s [H1 H2].
        unfold M, log. cbn [reset_message_related_data sv_crashed put_message put_queue put_rcpt_status put_processing put_skip_body put_macros].
        destruct (sv_crashed s) eqn:Hc; cbn [sv_trace put_trace sv_crashed sv_macros sv_requests all_carry].
        + split; [exact H1|]. cbn. congruence.
        + destruct (H2 eq_refl) as [H3 H4]. split; [now split|]. intros _. split; [|exact H4].
          unfold stored, macro_calls. cbn [flat_map macro_calls_of app agent_after fold_right].
          now apply (step_macros _ _ OClearMessage).
      - assert (Hx : x <> XAbort) by (intros ->; discriminate E).
        apply emit_M; [|now apply process_M]. destruct x; try reflexivity. now destruct Hx.
    Qed.
    Lemma flushed_M s : M s -> M (flushed ntop4 ntop6 sort_keys writes react s).
    Proof.
      intros H. unfold flushed. assert (H1 : M (put_next s [])) by exact H.
      revert H1. generalize (put_next s []). clear H.
      induction (sv_next s) as [|x k IH]; intros s1 H1; cbn [fold_left]; [exact H1|].
      apply IH. now apply deliver_M.
    Qed.

    Lemma end_message_M s b : M s -> M (end_message react s b).
    Proof. intros H. unfold end_message. destruct (_ && _); [now apply emit_processed_M|exact H]. Qed.
    Definition negotiation (r : reply) : bool := match r with RNegotiate _ _ => true | _ => false end.
    Lemma forward_M s r : negotiation r = false -> M s -> M (emit react s (Forward r)).
    Proof. intros Hr H. apply emit_M; [|exact H]. now destruct r. Qed.
    Lemma final_reply_M s r b : negotiation r = false -> M s -> M (final_reply react s r b).
    Proof.
      intros Hr H. unfold final_reply. assert (H0 : M (disable_timeout s)) by exact H.
      destruct (sv_quitted _); [exact H0|].
      assert (H1 : M (end_message react (emit react (disable_timeout s) (Forward r)) b))
        by (apply end_message_M; now apply forward_M).
      destruct (sv_state (end_message _ _ _)); exact H1.
    Qed.
    Lemma modification_M s r before after : negotiation r = false ->
      M s -> (forall s, M s -> M (after s)) -> (forall s, M s -> M (before s)) ->
      M (modification react s r before after).
    Proof.
      intros Hr H Ha Hb. unfold modification, invalid_state.
      destruct (sv_state s); try (now apply emit_M).
      destruct (sv_quitted s); [exact H|]. apply Ha, forward_M; auto.
    Qed.
    Lemma refuse_M s v : M s -> M (refuse s v).
    Proof.
      intros H. unfold refuse. destruct (sv_state s); try exact H.
      unfold refuse_recipient. cbv zeta.
      match goal with |- context[on_message (put_rcpt_status s v) ?f] =>
        assert (H1 : M (on_message (put_rcpt_status s v) f)) by exact H;
        revert H1; generalize (on_message (put_rcpt_status s v) f) end.
      intros s1 H1. destruct (sv_current s); [exact H1|].
      destruct (sv_message s1) as [m|]; [|exact H1].
      destruct (mr_recipients m); [exact H1|now apply crash_M].
    Qed.

    Lemma receive_M s r :
      M s -> M (receive ntop4 ntop6 sort_keys writes react s r).
    Proof.
      intros H.
      assert (Hmsg : forall f s, M s -> M (on_message s f)) by (intros f s'; exact (fun H => H)).
      assert (Hd : M (disable_timeout s)) by exact H.
      assert (Hrf : forall v, M (refuse s v)) by (intros v; now apply refuse_M).
      destruct r; cbn [receive];
        try (apply modification_M; [reflexivity|exact H|auto|auto]; fail);
        try (apply final_reply_M; [reflexivity|exact H]).
      - (* negotiate *)
        cbv zeta.
        destruct (match sv_option (disable_timeout s) with
                  | Some o0 => option_combine o0 o
                  | None => (true, o)
                  end) as [ok o'].
        set (s2 := put_option (disable_timeout s) (Some o')).
        assert (H2 : M s2) by exact H. clearbody s2.
        destruct ok; [|now apply emit_M].
        destruct (sv_state s); try (now apply emit_M).
        destruct (sv_quitted s2); [exact H2|]. apply react_M.
        destruct H2 as [H2 H3]. unfold M, log. cbn [sv_crashed put_requests put_negotiated].
        destruct (sv_crashed s2) eqn:Hc; cbn [sv_trace put_trace sv_crashed sv_macros sv_requests all_carry put_requests put_negotiated].
        + split; [exact H2|]. cbn. congruence.
        + destruct (H3 eq_refl) as [H4 H5]. split; [now split|]. intros _. split; [exact H4|reflexivity].
      - (* continue *)
        cbv zeta. set (s1 := disable_timeout s) in *. clearbody s1.
        assert (Hother : M (if answerable (sv_state s1) then
                  if sv_quitted s1 then s1
                  else let s2 := emit react s1 (Forward RContinue) in
                       match sv_state s2 with XEndOfMessage => emit_processed react s2 | _ => s2 end
                else invalid_state react s1)).
        { destruct (answerable _); [|now apply emit_M]. destruct (sv_quitted s1); [exact Hd|].
          assert (H2 : M (emit react s1 (Forward RContinue))) by now apply emit_M.
          cbv zeta. destruct (sv_state _); try exact H2. now apply emit_processed_M. }
        destruct (sv_state s1); try exact Hother.
        destruct (sv_quitted s1); [exact Hd|].
        assert (H2 : M (decrement_body_count react s1)).
        { unfold decrement_body_count. destruct (sv_queue s1); [exact Hd|]. destruct (_ =? 1); [|exact Hd].
          now apply emit_M. }
        destruct (sv_body _); [exact H2|now apply flush_body_M].
      - (* reply code *)
        cbv zeta. match goal with |- M (if sv_crashed ?s0 then _ else _) => assert (H0 : M s0) by apply Hrf; revert H0; generalize s0 end.
        intros s0 H0. destruct (sv_crashed s0); [exact H0|].
        assert (H1 : M (disable_timeout s0)) by exact H0. revert H1. generalize (disable_timeout s0). intros s1 H1.
        destruct (answerable _); [|now apply emit_M].
        match goal with |- context[sv_quitted ?s2] => assert (H2 : M s2) end.
        { destruct (sv_state s1); try exact H1. destruct (sv_quitted s1); exact H1. }
        revert H2. match goal with |- M ?s2 -> _ => generalize s2 end. intros s2 H2.
        destruct (sv_quitted s2); [exact H2|]. apply end_message_M. now apply forward_M.
      - cbv zeta. destruct (sv_crashed _); [apply Hrf|]. apply final_reply_M; [reflexivity|apply Hrf].
      - cbv zeta. destruct (sv_crashed _); [apply Hrf|]. apply final_reply_M; [reflexivity|apply Hrf].
      - cbv zeta. destruct (sv_quitted _); [exact H|]. now apply forward_M.
      - cbv zeta. destruct (sv_quitted _); [exact H|]. now apply forward_M.
      - cbv zeta. set (s1 := disable_timeout s) in *. clearbody s1.
        destruct (sv_state s1); try (now apply emit_M).
        destruct (sv_quitted s1); [exact Hd|]. exact (forward_M s1 RSkip eq_refl Hd).
    Qed.

    Lemma step_M s o : M s -> M (step ntop4 ntop6 sort_keys writes stops react s o).
    Proof.
      intros H. unfold step. destruct (sv_crashed s); [exact H|]. destruct o.
      - now apply call_M.
      - apply flushed_M. now apply log_M.
      - apply receive_M. now apply log_M.
      - unfold fire. assert (H1 : M (log s (Server.In Fire))) by now apply log_M.
        destruct (sv_timer _); [|exact H1]. apply emit_M; [reflexivity|]. now apply emit_M.
    Qed.
  End Step.

  Variable handlers : list event -> option api.
  Lemma react_M depth : forall s, M s -> M (react ntop4 ntop6 sort_keys writes stops handlers depth s).
  Proof.
    induction depth as [|d IH]; intros s H; cbn [react]; [exact H|].
    destruct (sv_crashed s); [exact H|]. destruct (handlers _); [|exact H].
    apply IH. now apply call_M.
  Qed.
  Lemma run_M depth ops : M (server_run ntop4 ntop6 sort_keys writes stops handlers depth server_new ops).
  Proof.
    unfold server_run. assert (H : M server_new) by (split; [exact I|now split]).
    revert H. generalize server_new. induction ops as [|o ops IH]; intros s H; cbn [fold_left]; [exact H|].
    apply IH. unfold server_step. apply step_M; [|exact H]. intros s1. apply react_M.
  Qed.

  Lemma all_carry_at t : all_carry t -> forall later x prefix packet before,
    t = later ++ Sent x prefix packet :: before \/ t = later ++ Lost x prefix packet :: before ->
    lawful before -> carries ntop4 ntop6 sort_keys before x prefix.
  Proof.
    induction t as [|e t IH]; intros H later x prefix packet before E; [destruct E as [E|E]; now destruct later|].
    destruct later as [|e' later].
    - destruct E as [[= -> ->]|[= -> ->]]; exact (proj1 H).
    - destruct H as [_ H]. apply (IH H later x prefix packet).
      destruct E as [[= _ ->]|[= _ ->]]; auto.
  Qed.
End Macros.
