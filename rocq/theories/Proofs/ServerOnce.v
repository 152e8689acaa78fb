(** How often a message is reported as processed. *)
From Verif.Base Require Import Bytes BytesFacts.
From Verif.Model Require Import Decoder Encoder CommandCodec ReplyCodec Status Option Macros Client
                                Server.
From Verif.Spec Require Import ServerSpec.
From Verif.Proofs Require Import ServerInv.
From Coq Require Import ZifyBool ZifyNat ZifyN.
Local Open Scope N_scope.

(** Was the message touched since it was last reported? *)
Fixpoint fresh (t : list event) : bool :=
  match t with
  | [] => false
  | Processed _ :: _ => false
  | e :: t' => touches e || fresh t'
  end.
Fixpoint once_ok (t : list event) : Prop :=
  match t with
  | [] => True
  | Processed _ :: t' => fresh t' = true /\ once_ok t'
  | _ :: t' => once_ok t'
  end.

(** [b]: not within the handlers of the notification itself. *)
Definition F (b : bool) (s : server) : Prop :=
  once_ok (sv_trace s) /\
  (b = true -> sv_crashed s = false -> sv_message s <> None -> fresh (sv_trace s) = true).

Definition is_processed (e : event) : bool := match e with Processed _ => true | _ => false end.

Lemma F_fresh b s : once_ok (sv_trace s) -> (sv_crashed s = false -> fresh (sv_trace s) = true) -> F b s.
Proof. intros H1 H2. split; auto. Qed.
Lemma F_none b s : once_ok (sv_trace s) -> sv_message s = None -> F b s.
Proof. intros H1 H2. split; [exact H1|congruence]. Qed.
Lemma F_same b s s' :
  sv_trace s' = sv_trace s -> sv_message s' = sv_message s -> sv_crashed s' = sv_crashed s ->
  F b s -> F b s'.
Proof. intros E1 E2 E3 [H1 H2]. split; rewrite E1; [exact H1|]. rewrite E2, E3. exact H2. Qed.

Lemma log_once s e : is_processed e = false -> once_ok (sv_trace s) -> once_ok (sv_trace (log s e)).
Proof.
  intros He H. unfold log. destruct (sv_crashed s); [exact H|].
  destruct e; try discriminate He; exact H.
Qed.
Lemma fresh_cons e t : is_processed e = false -> fresh (e :: t) = touches e || fresh t.
Proof. intros He. destruct e; discriminate He || reflexivity. Qed.
Lemma log_F b s e : is_processed e = false -> F b s -> F b (log s e).
Proof.
  intros He [H1 H2]. split; [now apply log_once|].
  intros Hb Hc Hm. rewrite log_crashed in Hc. rewrite log_eq in * by exact Hc. cbn in Hm |- *.
  specialize (H2 Hb Hc Hm).
  change (fresh (e :: sv_trace s) = true). rewrite fresh_cons, H2 by exact He. apply orb_true_r.
Qed.
Lemma log_touch b s e :
  is_processed e = false -> touches e = true -> once_ok (sv_trace s) -> F b (log s e).
Proof.
  intros He Ht H. apply F_fresh; [now apply log_once|].
  intros Hc. rewrite log_crashed in Hc. rewrite log_eq by exact Hc. cbn [sv_trace put_trace].
  now rewrite fresh_cons, Ht.
Qed.

Section Once.
  Variables (ntop4 ntop6 : bytes -> bytes).
  Variable sort_keys : list bytes -> list bytes.
  Variable writes : list event -> write_outcome.
  Variable stops : list event -> bool.

  Section Step.
    Variable react : server -> server.
    Hypothesis react_F : forall b s, F b s -> F b (react s).

    Lemma emit_F b s e : is_processed e = false -> F b s -> F b (emit react s e).
    Proof. intros He H. now apply react_F, log_F. Qed.

    Lemma emit_processed_F s : F true s -> F true (emit_processed react s).
    Proof.
      intros HF. unfold emit_processed. destruct (sv_message s) as [m|] eqn:Em; [|exact HF].
      match goal with |- F true (put_message (emit react ?s1 ?e) None) =>
        apply (F_none true (put_message (emit react s1 e) None)); [|reflexivity];
        cut (F false (emit react s1 e)); [intros [H _]; exact H|];
        apply react_F; split; [|discriminate]; unfold log; cbn
      end.
      destruct HF as [H1 H2]. destruct (sv_crashed s) eqn:Hc; [exact H1|].
      cbn. split; [|exact H1]. apply H2; congruence.
    Qed.

    Lemma write_packet_F b s p x :
      F b s -> F b (snd (write_packet ntop4 ntop6 sort_keys writes react s p x)).
    Proof.
      intros HF. unfold write_packet.
      destruct (negb (urgent x) && is_processing s); [now apply emit_F|].
      set (s1 := if urgent x then s else put_timer s (Some TWriting)).
      assert (H1 : F b s1) by (unfold s1; destruct (urgent x); exact HF).
      assert (H2 : F b (snd (macro_prefix ntop4 ntop6 sort_keys s1 x))).
      { unfold macro_prefix. destruct (macro_command x); [|exact H1].
        destruct (macros_before _ _ _) as [[]]; exact H1. }
      destruct (macro_prefix ntop4 ntop6 sort_keys s1 x) as [prefix s2]. cbn [snd] in H2.
      destruct (writes (sv_trace s2)); cbn [snd].
      - exact (log_F b s2 (Sent x prefix p) eq_refl H2).
      - exact (log_F b s2 (Lost x prefix p) eq_refl H2).
      - apply emit_F; [reflexivity|exact H2].
    Qed.
    Lemma send_F b s c x :
      F b s -> F b (snd (send ntop4 ntop6 sort_keys writes react s c x)).
    Proof. intros H. exact (write_packet_F b (put_encoder s _) _ x H). Qed.
    Lemma flush_body_F b s :
      F b s -> F b (snd (flush_body ntop4 ntop6 sort_keys writes react s)).
    Proof.
      intros H. unfold flush_body.
      pose proof (send_F b (put_queue s (sv_queue s ++ [0]))
                    (CBody (sv_body (put_queue s (sv_queue s ++ [0])))) XBody H) as H1.
      destruct (send _ _ _ _ _ _ _ _) as [[] s2]; exact H1.
    Qed.
    Lemma set_state_F b s x : F b s -> F b (set_state s x).
    Proof.
      intros H. unfold set_state. apply log_F; [reflexivity|].
      now destruct (sstate_in _ _ _).
    Qed.
    Lemma crash_F b s : F b s -> F b (crash s).
    Proof.
      intros H. split; [|discriminate]. apply (log_F b s Crash eq_refl H).
    Qed.
    Lemma skip_F b s x : F b s -> F b (snd (skip react s x)).
    Proof. intros H. apply emit_F; [reflexivity|]. now apply set_state_F. Qed.
    Lemma stop_F b b' s x : F b s -> F b' (stop_on_state react s x).
    Proof.
      intros H. unfold stop_on_state.
      assert (H1 : F true (emit react (set_state (put_status s S_STOP) x) (Stopped x))).
      { apply react_F, log_touch; [reflexivity|reflexivity|].
        assert (H1 : F b (set_state (put_status s S_STOP) x)) by (now apply set_state_F).
        apply H1. }
      match goal with |- F b' ?s' => cut (F true s'); [intros [A B]; split; auto|] end.
      destruct (sstate_in _ _ _); [now apply emit_processed_F|exact H1].
    Qed.

    Lemma call_F b s c : F b s -> F b (call ntop4 ntop6 sort_keys writes stops react s c).
    Proof.
      intros H. unfold call.
      set (s0 := log s (In (Call c))).
      assert (H0 : F b s0) by (apply log_F; [reflexivity|exact H]).
      assert (Ht : touches (In (Call c)) = true ->
                   once_ok (sv_trace s0) /\ (sv_crashed s0 = false -> fresh (sv_trace s0) = true)).
      { intros Htc. split; [apply H0|]. unfold s0. rewrite log_crashed. intros Hc.
        rewrite log_eq by exact Hc. cbn [sv_trace put_trace]. rewrite fresh_cons, Htc; reflexivity. }
      clearbody s0.
      cut (F b (snd (call_body ntop4 ntop6 sort_keys writes stops react s0 c))).
      { destruct (call_body _ _ _ _ _ _ _ _) as [ok s1]. apply (log_F b s1 (Return ok)). reflexivity. }
      destruct c; cbn [call_body];
        try (assert (H1 : forall s1, sv_trace s1 = sv_trace s0 -> sv_crashed s1 = sv_crashed s0 -> F b s1)
               by (intros s1 E1 E2; destruct (Ht eq_refl) as [A B];
                   apply F_fresh; rewrite E1; [exact A|rewrite E2; exact B]));
        try (destruct (stops _);
               [cbn [snd]; apply (stop_F b); first [exact H0 | apply H1; reflexivity]|]);
        try (destruct (is_enable_step _ _);
               [apply skip_F; first [exact H0 | apply H1; reflexivity]|]);
        try (apply send_F; first [exact H0 | apply H1; reflexivity]).
      - destruct (sv_option _); [|apply crash_F, H1; reflexivity].
        destruct (_ || _); (apply skip_F || apply send_F); apply H1; reflexivity.
      - apply flush_body_F, H1; reflexivity.
      - pose proof (send_F b s0 CAbort XAbort H0) as H1. destruct (send _ _ _ _ _ _ _ _). exact H1.
      - now apply set_state_F.
      - exact H0.
      - exact H0.
      - exact H0.
      - apply F_none; [apply H0|reflexivity].
      - exact H0.
    Qed.

    Lemma deliver_F s x :
      F true s -> F true (deliver ntop4 ntop6 sort_keys writes react s x).
    Proof.
      intros H. apply emit_F; [reflexivity|].
      assert (Hset : forall y, F true (set_state (disable_timeout s) y))
        by (intros y; apply set_state_F; exact H).
      assert (Hdef : forall s' y, F true s' ->
                F true (match need_reply (set_state s' y) y with
                        | None => crash (set_state s' y)
                        | Some true => put_timer (set_state s' y) (Some TReading)
                        | Some false => set_state s' y
                        end)).
      { intros s' y H'. pose proof (set_state_F true s' y H') as H1.
        destruct (need_reply _ _) as [[]|]; [exact H1|exact H1|now apply crash_F]. }
      unfold process_next_state. destruct x; try (apply Hdef; exact H).
      - now apply emit_F.
      - unfold process_next_state_body. specialize (Hset XBody).
        destruct (sv_body _); [exact Hset|].
        destruct (need_reply _ _) as [[]|]; [exact Hset|now apply flush_body_F|now apply crash_F].
      - exact (Hset XEndOfMessage).
      - apply set_state_F, emit_F; [reflexivity|exact H].
      - apply F_none; [|reflexivity]. cbn [sv_trace reset_message_related_data put_message put_queue
          put_rcpt_status put_processing put_skip_body put_macros].
        match goal with |- once_ok (sv_trace ?s1) => cut (F true s1); [intros [A _]; exact A|] end.
        apply emit_processed_F, set_state_F. now destruct (is_pass _ && _ && _).
    Qed.

    Lemma flushed_F s : F true s -> F true (flushed ntop4 ntop6 sort_keys writes react s).
    Proof.
      intros H. unfold flushed. assert (H1 : F true (put_next s [])) by exact H.
      revert H1. generalize (put_next s []) as s1.
      induction (sv_next s) as [|x k IH]; intros s1 H1; cbn [fold_left]; [exact H1|].
      now apply IH, deliver_F.
    Qed.

    (** The handlers of the signals of edits make no calls. *)
    Hypothesis react_edits : forall s r t,
      edits r = true -> sv_trace s = Forward r :: t -> react s = s.

    Lemma end_message_F s b : F true s -> F true (end_message react s b).
    Proof. intros H. unfold end_message. destruct (_ && _); [now apply emit_processed_F|exact H]. Qed.

    Lemma final_reply_F s r b : F true s -> F true (final_reply react s r b).
    Proof.
      intros H. unfold final_reply. destruct (sv_quitted _); [exact H|].
      assert (H1 : F true (end_message react (emit react (disable_timeout s) (Forward r)) b)).
      { apply end_message_F, emit_F; [reflexivity|exact H]. }
      destruct (sv_state (end_message _ _ _)); exact H1.
    Qed.

    (** Right after the reception of a reply that touches the message. *)
    Definition touched s := once_ok (sv_trace s) /\ (sv_crashed s = false -> fresh (sv_trace s) = true).
    Lemma touched_F b s : touched s -> F b s.
    Proof. intros [A B]. now apply F_fresh. Qed.

    Lemma refuse_F s v : touched s -> touched (refuse s v).
    Proof.
      intros [A B]. unfold refuse. destruct (sv_state s); try (now split).
      unfold refuse_recipient. destruct (sv_current s); [now split|].
      cbn [sv_message on_message put_message].
      destruct (mr_recipients _); [now split|].
      assert (HF : F true (on_message (put_rcpt_status s v) (fun m => m)))
        by (apply F_fresh; auto).
      split; [|discriminate].
      unfold crash. cbn [sv_trace put_crashed]. now apply log_once.
    Qed.

    Lemma edit_F s r f :
      edits r = true -> sv_crashed s = false -> touched s ->
      F true (modification react s r (fun s => s) (fun s => on_message s f)).
    Proof.
      intros He Hc Ht. unfold modification.
      assert (Hinv : F true (invalid_state react s)) by (apply emit_F; [reflexivity|now apply touched_F]).
      destruct (sv_state s); try exact Hinv.
      destruct (sv_quitted s); [now apply touched_F|].
      unfold emit. destruct Ht as [A B].
      rewrite (react_edits _ r (sv_trace s)); [|exact He|rewrite log_eq by exact Hc; reflexivity].
      apply F_fresh; [now apply (log_once s)|].
      intros _. rewrite log_eq by exact Hc. cbn [sv_trace put_trace put_message on_message fresh touches orb]. auto.
    Qed.

    Lemma plain_F s r before :
      (forall s, F true s -> F true (before s)) ->
      F true s -> F true (modification react s r before (fun s => s)).
    Proof.
      intros Hb H. unfold modification, invalid_state.
      destruct (sv_state s); try (apply emit_F; [reflexivity|exact H]).
      destruct (sv_quitted s); [exact H|]. apply emit_F; [reflexivity|auto].
    Qed.

    Lemma receive_F s r :
      sv_crashed s = false -> F true s ->
      F true (receive ntop4 ntop6 sort_keys writes react (log s (In (Receive r))) r).
    Proof.
      intros Hc H.
      assert (H0 : F true (log s (In (Receive r)))) by (apply log_F; [reflexivity|exact H]).
      assert (Hc0 : sv_crashed (log s (In (Receive r))) = false) by (rewrite log_crashed; exact Hc).
      assert (Ht : touches (In (Receive r)) = true -> touched (log s (In (Receive r)))).
      { intros Hr. split; [apply H0|]. intros _. rewrite log_eq by exact Hc.
        cbn [sv_trace put_trace]. now rewrite fresh_cons, Hr. }
      remember (log s (In (Receive r))) as s0 eqn:E0. clear E0.
      assert (Hf : forall e, is_processed e = false -> F true (emit react (disable_timeout s0) e))
        by (intros e He; apply emit_F; [exact He|exact H0]).
      destruct r; cbn [receive];
        try (apply edit_F; [reflexivity|exact Hc0|exact (Ht eq_refl)]);
        try (apply plain_F; [intros s' Hs'; exact Hs'|exact H0]).
      - destruct (match sv_option _ with Some _ => _ | None => _ end) as [[] o'].
        + assert (Hi : F true (invalid_state react (put_option (disable_timeout s0) (Some o'))))
            by (apply emit_F; [reflexivity|exact H0]).
          destruct (sv_state s0); try exact Hi.
          destruct (sv_quitted _); [exact H0|]. apply emit_F; [reflexivity|exact H0].
        + apply emit_F; [reflexivity|exact H0].
      - cbn zeta.
        assert (Ho : forall x, F true (if answerable x then
                  if sv_quitted (disable_timeout s0) then disable_timeout s0
                  else match sv_state (emit react (disable_timeout s0) (Forward RContinue)) with
                       | XEndOfMessage =>
                           emit_processed react (emit react (disable_timeout s0) (Forward RContinue))
                       | _ => emit react (disable_timeout s0) (Forward RContinue)
                       end
                 else invalid_state react (disable_timeout s0))).
        { intros x. destruct (answerable x); [|now apply Hf].
          destruct (sv_quitted _); [exact H0|].
          specialize (Hf (Forward RContinue) eq_refl).
          destruct (sv_state (emit _ _ _)); try exact Hf. now apply emit_processed_F. }
        destruct (sv_state (disable_timeout s0)); try (apply Ho).
        destruct (sv_quitted _); [exact H0|].
        assert (Hd : F true (decrement_body_count react (disable_timeout s0))).
        { unfold decrement_body_count. destruct (sv_queue _) as [|n q]; [exact H0|].
          destruct (n =? 1); [|exact H0]. apply emit_F; [reflexivity|exact H0]. }
        destruct (sv_body _); [exact Hd|]. now apply flush_body_F.
      - match goal with |- context [refuse s0 ?v] => pose proof (refuse_F s0 v (Ht eq_refl)) as H1;
          set (s1 := refuse s0 v) in * end. clearbody s1.
        destruct (sv_crashed s1); [now apply touched_F|]. apply (touched_F true) in H1.
        destruct (answerable _); [|apply emit_F; [reflexivity|exact H1]].
        set (s2 := match sv_state (disable_timeout s1) with
                   | XBody => if sv_quitted (disable_timeout s1) then disable_timeout s1
                              else clear_body_count (disable_timeout s1)
                   | _ => disable_timeout s1
                   end).
        assert (H2 : F true s2)
          by (unfold s2; destruct (sv_state _); try exact H1; destruct (sv_quitted _); exact H1).
        cbn zeta. destruct (sv_quitted s2); [exact H2|].
        apply end_message_F, emit_F; [reflexivity|exact H2].
      - pose proof (refuse_F s0 S_TEMPORARY_FAILURE (Ht eq_refl)) as H1. apply (touched_F true) in H1.
        destruct (sv_crashed (refuse _ _)); [exact H1|now apply final_reply_F].
      - pose proof (refuse_F s0 S_REJECT (Ht eq_refl)) as H1. apply (touched_F true) in H1.
        destruct (sv_crashed (refuse _ _)); [exact H1|now apply final_reply_F].
      - now apply final_reply_F.
      - now apply final_reply_F.
      - destruct (sv_quitted _); [exact H0|apply emit_F; [reflexivity|exact H0]].
      - destruct (sv_quitted _); [exact H0|now apply Hf].
      - assert (Hi : F true (invalid_state react (disable_timeout s0))) by (now apply Hf).
        destruct (sv_state _); try exact Hi.
        destruct (sv_quitted _); [exact H0|]. exact (Hf (Forward RSkip) eq_refl).
    Qed.

    Lemma step_F s o : F true s -> F true (step ntop4 ntop6 sort_keys writes stops react s o).
    Proof.
      intros H. unfold step. destruct (sv_crashed s) eqn:Hc; [exact H|].
      destruct o.
      - now apply call_F.
      - apply flushed_F, log_F; [reflexivity|exact H].
      - now apply receive_F.
      - unfold fire. destruct (sv_timer _); [|now apply log_F].
        apply emit_F, emit_F, log_F; auto.
    Qed.
  End Step.

  Variable handlers : list event -> option api.
  Hypothesis quiet_edits : forall r t, edits r = true -> handlers (Forward r :: t) = None.
  Notation React := (Server.react ntop4 ntop6 sort_keys writes stops handlers).

  Lemma react_F depth b s : F b s -> F b (React depth s).
  Proof.
    revert b s. induction depth as [|d IH]; intros b s H; cbn [Server.react]; [exact H|].
    destruct (sv_crashed s); [exact H|]. destruct (handlers (sv_trace s)); [|exact H].
    now apply IH, call_F.
  Qed.

  Lemma react_edits depth s r t :
    edits r = true -> sv_trace s = Forward r :: t -> React depth s = s.
  Proof.
    intros He Et. destruct depth as [|d]; cbn [Server.react]; [reflexivity|].
    rewrite Et, quiet_edits by exact He. now destruct (sv_crashed s).
  Qed.

  Lemma run_once depth ops :
    once_ok (sv_trace (server_run ntop4 ntop6 sort_keys writes stops handlers depth server_new ops)).
  Proof.
    cut (F true (server_run ntop4 ntop6 sort_keys writes stops handlers depth server_new ops));
      [intros []; auto|].
    assert (H : F true server_new) by (split; [exact I|cbn; congruence]).
    revert H. generalize server_new as s.
    induction ops as [|o ops IH]; intros s H; [exact H|].
    apply IH. unfold server_step. apply step_F; [intros; now apply react_F| |exact H].
    intros s' r t He Et. eapply react_edits; eauto.
  Qed.

  Lemma once_split later m between m' before :
    once_ok (later ++ Processed m :: between ++ Processed m' :: before) ->
    exists e, List.In e between /\ touches e = true.
  Proof.
    intros H.
    assert (Hf : fresh (between ++ Processed m' :: before) = true).
    { induction later as [|e l IH]; cbn in H; [apply H|].
      apply IH. destruct e; try exact H. apply H. }
    clear H. induction between as [|e l IH]; cbn [app] in Hf; [discriminate|].
    destruct e; try discriminate Hf;
      cbn [fresh] in Hf; apply orb_true_iff in Hf as [Hf|Hf];
      try (eexists; split; [left; reflexivity|exact Hf]);
      destruct (IH Hf) as (e' & Hi & He'); exists e'; (split; [right; exact Hi|exact He']).
  Qed.
End Once.
