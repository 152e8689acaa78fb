(** Where the recipients of a message are listed. *)
From Verif.Base Require Import Bytes BytesFacts.
From Verif.Model Require Import Decoder Encoder CommandCodec ReplyCodec Status Option Macros
                                Client Server.
From Verif.Spec Require Import ServerSpec MessageReportSpec RecipientSpec.
From Coq Require Import ZifyBool ZifyNat ZifyN Permutation.
Local Open Scope N_scope.

(** *** The lists kept for a message and those the history asks for *)

Record lists := mk_lists {
  k_left : list bytes; k_temp : list (option bytes); k_rejected : list (option bytes) }.
Definition of_lists (m : message) : lists :=
  mk_lists (mr_recipients m) (mr_tempfailed m) (mr_rejected m).
Definition kept (s : server) : lists :=
  of_lists (match sv_message s with Some m => m | None => message_new end).

(** A refusal of [w]. *)
Definition strike (k : lists) (v : status) (w : option bytes) : lists :=
  mk_lists (match w with Some r => remove_first (k_left k) r | None => k_left k end)
           (if status_eqb v S_TEMPORARY_FAILURE then k_temp k ++ [w] else k_temp k)
           (if status_eqb v S_REJECT then k_rejected k ++ [w] else k_rejected k).
Definition no_lists : lists := mk_lists [] [] [].

Fixpoint ledger (t : list event) : lists :=
  match t with
  | [] => no_lists
  | Processed _ :: _ | In (Call AReset) :: _ => no_lists
  | In (Call (ARcpt r)) :: t' =>
      mk_lists (k_left (ledger t') ++ [r]) (k_temp (ledger t')) (k_rejected (ledger t'))
  | In (Receive a) :: t' =>
      match refuses t' a with
      | Some v => strike (ledger t') v (whom t')
      | None => ledger t'
      end
  | _ :: t' => ledger t'
  end.

Fixpoint reports_ok (t : list event) : Prop :=
  match t with
  | [] => True
  | e :: t' => match e with Processed m => of_lists m = ledger t' | _ => True end /\ reports_ok t'
  end.

(** The invariant: the lists, the recipient named last, the stage. *)
Definition R (s : server) : Prop :=
  reports_ok (sv_trace s) /\
  (sv_crashed s = false ->
   kept s = ledger (sv_trace s) /\ sv_current s = whom (sv_trace s) /\ sv_state s = stage (sv_trace s)).

(** Events that change none of these. *)
Definition still (e : event) : bool :=
  match e with
  | Processed _ | Entered _ | In (Call (ARcpt _)) | In (Call AReset) | In (Receive _) => false
  | _ => true
  end.
Lemma still_all e t :
  still e = true -> ledger (e :: t) = ledger t /\ whom (e :: t) = whom t /\ stage (e :: t) = stage t.
Proof.
  intros H. destruct e as [o| | | | | | | | |m| | | |]; try (repeat split; reflexivity); try discriminate H.
  destruct o as [c| | |]; try (repeat split; reflexivity); try discriminate H.
  destruct c; try (repeat split; reflexivity); discriminate H.
Qed.

Lemma R_same s s' :
  sv_trace s' = sv_trace s -> kept s' = kept s -> sv_current s' = sv_current s ->
  sv_state s' = sv_state s -> (sv_crashed s' = false -> sv_crashed s = false) -> R s -> R s'.
Proof.
  intros E1 E2 E3 E4 E5 [H1 H2]. split; rewrite E1; [exact H1|]. rewrite E2, E3, E4. auto.
Qed.
Lemma log_R s e : still e = true -> R s -> R (log s e).
Proof.
  intros He [H1 H2]. unfold log. destruct (sv_crashed s) eqn:Hc; [split; [exact H1|congruence]|].
  split; cbn [sv_trace put_trace].
  - split; [|exact H1]. destruct e; try exact I. discriminate He.
  - intros _. destruct (still_all e (sv_trace s) He) as (-> & -> & ->). exact (H2 eq_refl).
Qed.

Lemma log_keeps_crashed s e : sv_crashed (log s e) = sv_crashed s.
Proof. unfold log. destruct (sv_crashed s) eqn:E; [exact E|exact E]. Qed.

Section Lists.
  Variables (ntop4 ntop6 : bytes -> bytes).
  Variable sort_keys : list bytes -> list bytes.
  Variable writes : list event -> write_outcome.
  Variable stops : list event -> bool.

  Section Step.
    Variable react : server -> server.
    Hypothesis react_R : forall s, R s -> R (react s).
    Hypothesis react_crashed : forall s, sv_crashed s = true -> react s = s.
    Hypothesis react_quiet : forall s m t, sv_trace s = Processed m :: t -> react s = s.

    Lemma emit_R s e : still e = true -> R s -> R (emit react s e).
    Proof. intros He H. now apply react_R, log_R. Qed.

    Lemma emit_processed_R s : R s -> R (emit_processed react s).
    Proof.
      intros [H1 H2]. unfold emit_processed. destruct (sv_message s) as [m|] eqn:Em; [|now split].
      set (m2 := mr_put_status _ (sv_status s)).
      assert (E2 : of_lists m2 = of_lists m).
      { unfold m2. destruct (sv_state s); reflexivity. }
      clearbody m2. unfold emit, log.
      destruct (sv_crashed (put_message s (Some m2))) eqn:Hc; cbn in Hc.
      - rewrite react_crashed by exact Hc. split; [exact H1|]. cbn. congruence.
      - rewrite (react_quiet _ m2 (sv_trace s)) by reflexivity. cbn [sv_trace put_trace put_message].
        destruct (H2 Hc) as (H3 & H4 & H5).
        split; cbn [sv_trace put_message put_trace reports_ok].
        + split; [|exact H1]. rewrite E2. unfold kept in H3. now rewrite Em in H3.
        + intros _. repeat split; [exact H4|exact H5].
    Qed.

    Lemma write_packet_R s p x :
      R s -> R (snd (write_packet ntop4 ntop6 sort_keys writes react s p x)).
    Proof.
      intros HF. unfold write_packet.
      destruct (negb (urgent x) && is_processing s); [now apply emit_R|].
      set (s1 := if urgent x then s else put_timer s (Some TWriting)).
      assert (H1 : R s1) by (unfold s1; destruct (urgent x); exact HF).
      assert (H2 : R (snd (macro_prefix ntop4 ntop6 sort_keys s1 x))).
      { unfold macro_prefix. destruct (macro_command x); [|exact H1].
        destruct (macros_before _ _ _) as [[]]; exact H1. }
      destruct (macro_prefix ntop4 ntop6 sort_keys s1 x) as [prefix s2]. cbn [snd] in H2.
      destruct (writes (sv_trace s2)); cbn [snd].
      - exact (log_R s2 (Sent x prefix p) eq_refl H2).
      - exact (log_R s2 (Lost x prefix p) eq_refl H2).
      - apply emit_R; [reflexivity|exact H2].
    Qed.
    Lemma send_R s c x :
      R s -> R (snd (send ntop4 ntop6 sort_keys writes react s c x)).
    Proof. intros H. exact (write_packet_R (put_encoder s _) _ x H). Qed.
    Lemma flush_body_R s :
      R s -> R (snd (flush_body ntop4 ntop6 sort_keys writes react s)).
    Proof.
      intros H. unfold flush_body.
      pose proof (send_R (put_queue s (sv_queue s ++ [0]))
                    (CBody (sv_body (put_queue s (sv_queue s ++ [0])))) XBody H) as H1.
      destruct (send _ _ _ _ _ _ _ _) as [[] s2]; exact H1.
    Qed.
    Lemma set_state_R s x : R s -> R (set_state s x).
    Proof.
      intros [H1 H2]. unfold set_state, log.
      assert (Hc : sv_crashed (put_state (if sstate_in XNegotiate x XEndOfMessage then put_last s x else s) x)
                   = sv_crashed s) by (now destruct (sstate_in _ _ _)).
      assert (Ht : sv_trace (put_state (if sstate_in XNegotiate x XEndOfMessage then put_last s x else s) x)
                   = sv_trace s) by (now destruct (sstate_in _ _ _)).
      assert (Hk : kept (put_state (if sstate_in XNegotiate x XEndOfMessage then put_last s x else s) x)
                   = kept s) by (now destruct (sstate_in _ _ _)).
      assert (Hr : sv_current (put_state (if sstate_in XNegotiate x XEndOfMessage then put_last s x else s) x)
                   = sv_current s) by (now destruct (sstate_in _ _ _)).
      rewrite Hc. destruct (sv_crashed s) eqn:E.
      - split; [now rewrite Ht|]. rewrite Hc. discriminate.
      - split; cbn [sv_trace put_trace]; rewrite Ht; [split; [exact I|exact H1]|]. intros _.
        destruct (H2 eq_refl) as (H3 & H4 & _).
        repeat split; [change (kept (put_state (if sstate_in XNegotiate x XEndOfMessage then put_last s x else s) x) = ledger (sv_trace s)); now rewrite Hk|].
        change (sv_current (put_state (if sstate_in XNegotiate x XEndOfMessage then put_last s x else s) x) = whom (sv_trace s)).
        now rewrite Hr.
    Qed.
    Lemma crash_R s : R s -> R (crash s).
    Proof. intros H. split; [|discriminate]. apply (log_R s Crash eq_refl H). Qed.
    Lemma skip_R s x : R s -> R (snd (skip react s x)).
    Proof. intros H. apply emit_R; [reflexivity|]. now apply set_state_R. Qed.
    Lemma stop_R s x : R s -> R (stop_on_state react s x).
    Proof.
      intros H. unfold stop_on_state.
      assert (H1 : R (emit react (set_state (put_status s S_STOP) x) (Stopped x))).
      { apply emit_R; [reflexivity|]. now apply set_state_R. }
      destruct (sstate_in _ _ _); [now apply emit_processed_R|exact H1].
    Qed.

    Lemma call_R s c : sv_crashed s = false -> R s -> R (call ntop4 ntop6 sort_keys writes stops react s c).
    Proof.
      intros Hc [H1 H2]. unfold call. destruct (H2 Hc) as (H3 & H4 & H5).
      assert (E0 : log s (In (Call c)) = put_trace s (In (Call c) :: sv_trace s)) by (unfold log; now rewrite Hc).
      rewrite E0. set (s0 := put_trace s (In (Call c) :: sv_trace s)).
      assert (R0 : reports_ok (In (Call c) :: sv_trace s)) by (split; [exact I|exact H1]).
      assert (Hs : still (In (Call c)) = true -> forall s1, sv_trace s1 = sv_trace s0 -> kept s1 = kept s0 ->
                   sv_current s1 = sv_current s0 -> sv_state s1 = sv_state s0 -> R s1).
      { intros He s1 E1 E2 E3 E4. split; rewrite E1; [exact R0|]. intros _. rewrite E2, E3, E4.
        unfold s0. cbn [sv_trace put_trace].
        destruct (still_all _ (sv_trace s) He) as (-> & -> & ->). repeat split; assumption. }
      cut (R (snd (call_body ntop4 ntop6 sort_keys writes stops react s0 c))).
      { destruct (call_body _ _ _ _ _ _ _ _) as [ok s1]. apply (log_R s1 (Return ok)). reflexivity. }
      destruct c; cbn [call_body];
        try (assert (Hg : forall s1, sv_trace s1 = sv_trace s0 -> kept s1 = kept s0 ->
                   sv_current s1 = sv_current s0 -> sv_state s1 = sv_state s0 -> R s1) by (exact (Hs eq_refl)));
        try (destruct (stops _); [cbn [snd]; apply stop_R; apply Hg; reflexivity|]);
        try (destruct (is_enable_step _ _); [apply skip_R; apply Hg; reflexivity|]);
        try (apply send_R; apply Hg; reflexivity).
      - assert (Hr : forall s1, sv_trace s1 = sv_trace s0 ->
                  kept s1 = mk_lists (k_left (kept s) ++ [recipient]) (k_temp (kept s)) (k_rejected (kept s)) ->
                  sv_current s1 = Some recipient -> sv_state s1 = sv_state s -> R s1).
        { intros s1 E1 E2 E3 E4. split; rewrite E1; [exact R0|]. intros _. rewrite E2, E3, E4, H3.
          unfold s0. cbn [sv_trace put_trace ledger whom stage]. repeat split. exact H5. }
        destruct (stops _); [cbn [snd]; apply stop_R; apply Hr; reflexivity|].
        destruct (is_enable_step _ _); [apply skip_R; apply Hr; reflexivity|].
        apply send_R; apply Hr; reflexivity.
      - destruct (sv_option _); [|apply crash_R, Hg; reflexivity].
        destruct (_ || _); (apply skip_R || apply send_R); apply Hg; reflexivity.
      - apply flush_body_R. apply Hg; reflexivity.
      - pose proof (send_R s0 CAbort XAbort (Hg s0 eq_refl eq_refl eq_refl eq_refl)) as H6.
        destruct (send _ _ _ _ _ _ _ _). exact H6.
      - apply set_state_R. apply Hg; reflexivity.
      - apply Hg; reflexivity.
      - apply Hg; reflexivity.
      - apply Hg; reflexivity.
      - split; [exact R0|]. intros _. repeat split; [exact H4|exact H5].
      - apply Hg; reflexivity.
    Qed.

    Lemma deliver_R s x :
      R s -> R (deliver ntop4 ntop6 sort_keys writes react s x).
    Proof.
      intros H. apply emit_R; [reflexivity|].
      assert (Hset : forall y, R (set_state (disable_timeout s) y))
        by (intros y; apply set_state_R; exact H).
      assert (Hdef : forall s' y, R s' ->
                R (match need_reply (set_state s' y) y with
                        | None => crash (set_state s' y)
                        | Some true => put_timer (set_state s' y) (Some TReading)
                        | Some false => set_state s' y
                        end)).
      { intros s' y H'. pose proof (set_state_R s' y H') as H1.
        destruct (need_reply _ _) as [[]|]; [exact H1|exact H1|now apply crash_R]. }
      unfold process_next_state. destruct x; try (apply Hdef; exact H).
      - now apply emit_R.
      - unfold process_next_state_body. specialize (Hset XBody).
        destruct (sv_body _); [exact Hset|].
        destruct (need_reply _ _) as [[]|]; [exact Hset|now apply flush_body_R|now apply crash_R].
      - exact (Hset XEndOfMessage).
      - apply set_state_R, emit_R; [reflexivity|exact H].
      - match goal with |- R (reset_message_related_data (emit_processed react ?s2)) =>
          assert (H2 : R s2) by (apply set_state_R; now destruct (is_pass _ && _ && _));
          generalize dependent s2 end.
        intros s2 H2. pose proof (emit_processed_R s2 H2) as [H3 H4].
        split; [exact H3|]. intros Hc. destruct (H4 Hc) as (H5 & H6 & H7).
        split; [|split; [exact H6|exact H7]].
        change (no_lists = ledger (sv_trace (emit_processed react s2))). rewrite <- H5.
        unfold kept. replace (sv_message (emit_processed react s2)) with (@None message); [reflexivity|].
        unfold emit_processed. destruct (sv_message s2) eqn:Em; [reflexivity|now rewrite Em].
    Qed.

    Lemma flushed_R s : R s -> R (flushed ntop4 ntop6 sort_keys writes react s).
    Proof.
      intros H. unfold flushed. assert (H1 : R (put_next s [])) by exact H.
      revert H1. generalize (put_next s []) as s1.
      induction (sv_next s) as [|x k IH]; intros s1 H1; cbn [fold_left]; [exact H1|].
      now apply IH, deliver_R.
    Qed.

    Lemma end_message_R s b : R s -> R (end_message react s b).
    Proof. intros H. unfold end_message. destruct (_ && _); [now apply emit_processed_R|exact H]. Qed.

    Lemma final_reply_R s r b : R s -> R (final_reply react s r b).
    Proof.
      intros H. unfold final_reply. destruct (sv_quitted _); [exact H|].
      assert (H1 : R (end_message react (emit react (disable_timeout s) (Forward r)) b)).
      { apply end_message_R, emit_R; [reflexivity|exact H]. }
      destruct (sv_state (end_message _ _ _)); exact H1.
    Qed.

    (** A reply that refuses something, with its record. *)
    Lemma refuse_R s a v :
      refusal a = Some v -> sv_crashed s = false -> R s -> R (refuse (log s (In (Receive a))) v).
    Proof.
      intros Ha Hc [H1 H2]. destruct (H2 Hc) as (H3 & H4 & H5).
      assert (E0 : log s (In (Receive a)) = put_trace s (In (Receive a) :: sv_trace s))
        by (unfold log; now rewrite Hc).
      assert (R0 : reports_ok (In (Receive a) :: sv_trace s)) by (split; [exact I|exact H1]).
      rewrite E0. unfold refuse. cbn [sv_state put_trace].
      assert (Hv : v = S_TEMPORARY_FAILURE \/ v = S_REJECT).
      { destruct a; cbn [refusal] in Ha; try discriminate Ha; injection Ha as <-; auto.
        destruct (_ && _); auto. }
      assert (Hother : sv_state s <> XRcpt ->
                R (put_status (put_trace s (In (Receive a) :: sv_trace s)) v)).
      { intros Hn. split; [exact R0|]. intros _. cbn [sv_trace put_trace put_status].
        assert (En : refuses (sv_trace s) a = None).
        { unfold refuses. rewrite <- H5. destruct (sv_state s); try reflexivity. congruence. }
        cbn [ledger whom stage]. rewrite En. repeat split; assumption. }
      destruct (sv_state s) eqn:Es; try (apply Hother; discriminate).
      assert (En : refuses (sv_trace s) a = Some v).
      { unfold refuses. now rewrite <- H5. }
      unfold refuse_recipient. cbn [sv_current put_trace]. rewrite H4.
      destruct (whom (sv_trace s)) as [w|] eqn:Ew.
      - split; [exact R0|]. intros _.
        cbn [sv_trace put_trace put_current put_message on_message put_rcpt_status sv_current sv_state].
        cbn [ledger whom stage]. rewrite En, <- H3, Ew. unfold kept. cbn.
        destruct Hv as [-> | ->]; (split; [reflexivity|split; [reflexivity|]]); rewrite Es; exact H5.
      - assert (Hnone : forall s1, sv_trace s1 = In (Receive a) :: sv_trace s ->
                  kept s1 = strike (kept s) v None -> sv_current s1 = None -> sv_state s1 = XRcpt ->
                  R s1).
        { intros s1 E1 E2 E3 E4. split; rewrite E1; [exact R0|]. intros _. rewrite E2, E3, E4.
          cbn [ledger whom stage]. rewrite En, <- H3, Ew. repeat split. exact H5. }
        destruct Hv as [-> | ->].
        + cbn [sv_message on_message put_message].
          destruct (mr_recipients _); [|apply crash_R]; apply Hnone; try reflexivity; cbn; auto.
        + cbn [sv_message on_message put_message].
          destruct (mr_recipients _); [|apply crash_R]; apply Hnone; try reflexivity; cbn; auto.
    Qed.

    (** A modification changes none of the lists. *)
    Lemma edit_R s r before after :
      (forall s, R s -> R (before s)) -> (forall s, R s -> R (after s)) ->
      R s -> R (modification react s r before after).
    Proof.
      intros Hb Ha H. unfold modification, invalid_state.
      destruct (sv_state s); try (apply emit_R; [reflexivity|exact H]).
      destruct (sv_quitted s); [exact H|]. apply Ha, emit_R; [reflexivity|auto].
    Qed.
    Lemma on_message_R s f : (forall m, of_lists (f m) = of_lists m) -> R s -> R (on_message s f).
    Proof.
      intros Hf H. apply (R_same s); [reflexivity| |reflexivity|reflexivity|auto|exact H].
      unfold kept. cbn [sv_message on_message put_message]. apply Hf.
    Qed.

    Lemma receive_R s r :
      sv_crashed s = false -> R s ->
      R (receive ntop4 ntop6 sort_keys writes react (log s (In (Receive r))) r).
    Proof.
      intros Hc H.
      assert (Hr : forall v, refusal r = Some v -> R (refuse (log s (In (Receive r))) v))
        by (intros v Hv; now apply refuse_R).
      assert (H0 : refusal r = None -> R (log s (In (Receive r)))).
      { intros Hn. destruct H as [H1 H2]. destruct (H2 Hc) as (H3 & H4 & H5).
        unfold log. rewrite Hc. split; [split; [exact I|exact H1]|]. intros _.
        cbn [sv_trace put_trace ledger whom stage].
        assert (En : refuses (sv_trace s) r = None).
        { unfold refuses. destruct (stage _); auto. }
        rewrite En. repeat split; assumption. }
      remember (log s (In (Receive r))) as s0 eqn:E0. clear E0.
      destruct (refusal r) as [v|] eqn:Er.
      { specialize (Hr v eq_refl). clear H0.
        destruct r; cbn [refusal] in Er; try discriminate Er; injection Er as <-; cbn [receive].
        + cbn zeta.
          match goal with |- context [refuse s0 ?v] => set (s1 := refuse s0 v) in * end. clearbody s1.
          destruct (sv_crashed s1); [exact Hr|].
          destruct (answerable _); [|apply emit_R; [reflexivity|exact Hr]].
          set (s2 := match sv_state (disable_timeout s1) with
                     | XBody => if sv_quitted (disable_timeout s1) then disable_timeout s1
                                else clear_body_count (disable_timeout s1)
                     | _ => disable_timeout s1
                     end).
          assert (H2 : R s2)
            by (unfold s2; destruct (sv_state _); try exact Hr; destruct (sv_quitted _); exact Hr).
          cbn zeta. destruct (sv_quitted s2); [exact H2|].
          apply end_message_R, emit_R; [reflexivity|exact H2].
        + destruct (sv_crashed (refuse _ _)); [exact Hr|now apply final_reply_R].
        + destruct (sv_crashed (refuse _ _)); [exact Hr|now apply final_reply_R].
      }
      specialize (H0 eq_refl). clear Hr.
      assert (Hf : forall e, still e = true -> R (emit react (disable_timeout s0) e))
        by (intros e He; apply emit_R; [exact He|exact H0]).
      destruct r; cbn [refusal] in Er; try discriminate Er; clear Er; cbn [receive];
        try (apply edit_R; [intros s' Hs'; exact Hs'|intros s' Hs'; first [exact Hs'|
               now apply on_message_R]|exact H0]).
      - destruct (match sv_option _ with Some _ => _ | None => _ end) as [[] o'].
        + assert (Hi : R (invalid_state react (put_option (disable_timeout s0) (Some o'))))
            by (apply emit_R; [reflexivity|exact H0]).
          destruct (sv_state s0); try exact Hi.
          destruct (sv_quitted _); [exact H0|]. apply emit_R; [reflexivity|exact H0].
        + apply emit_R; [reflexivity|exact H0].
      - cbn zeta.
        assert (Ho : forall x, R (if answerable x then
                  if sv_quitted (disable_timeout s0) then disable_timeout s0
                  else match sv_state (emit react (disable_timeout s0) (Forward RContinue)) with
                       | XEndOfMessage =>
                           emit_processed react (emit react (disable_timeout s0) (Forward RContinue))
                       | _ => emit react (disable_timeout s0) (Forward RContinue)
                       end
                 else invalid_state react (disable_timeout s0))).
        { intros x. destruct (answerable x); [|now apply Hf].
          destruct (sv_quitted _); [exact H0|].
          specialize (Hf (Forward RContinue) eq_refl).
          destruct (sv_state (emit _ _ _)); try exact Hf. now apply emit_processed_R. }
        destruct (sv_state (disable_timeout s0)); try (apply Ho).
        destruct (sv_quitted _); [exact H0|].
        assert (Hd : R (decrement_body_count react (disable_timeout s0))).
        { unfold decrement_body_count. destruct (sv_queue _) as [|n q]; [exact H0|].
          destruct (n =? 1); [|exact H0]. apply emit_R; [reflexivity|exact H0]. }
        destruct (sv_body _); [exact Hd|]. now apply flush_body_R.
      - now apply final_reply_R.
      - now apply final_reply_R.
      - destruct (sv_quitted _); [exact H0|apply emit_R; [reflexivity|exact H0]].
      - destruct (sv_quitted _); [exact H0|now apply Hf].
      - assert (Hi : R (invalid_state react (disable_timeout s0))) by (now apply Hf).
        destruct (sv_state _); try exact Hi.
        destruct (sv_quitted _); [exact H0|]. exact (Hf (Forward RSkip) eq_refl).
    Qed.

    Lemma step_R s o : R s -> R (step ntop4 ntop6 sort_keys writes stops react s o).
    Proof.
      intros H. unfold step. destruct (sv_crashed s) eqn:Hc; [exact H|].
      destruct o.
      - now apply call_R.
      - apply flushed_R, log_R; [reflexivity|exact H].
      - now apply receive_R.
      - unfold fire. destruct (sv_timer _); [|now apply log_R].
        apply emit_R; [reflexivity|]. apply emit_R; [reflexivity|]. now apply log_R.
    Qed.
  End Step.

  Variable handlers : list event -> option api.
  Hypothesis quiet_reports : forall m t, handlers (Processed m :: t) = None.
  Notation React := (Server.react ntop4 ntop6 sort_keys writes stops handlers).

  Lemma react_crashed depth s : sv_crashed s = true -> React depth s = s.
  Proof. intros H. destruct depth; cbn [Server.react]; [reflexivity|]. now rewrite H. Qed.
  Lemma react_quiet depth s m t : sv_trace s = Processed m :: t -> React depth s = s.
  Proof.
    intros Et. destruct depth as [|d]; cbn [Server.react]; [reflexivity|].
    rewrite Et, quiet_reports. now destruct (sv_crashed s).
  Qed.
  Lemma react_R depth s : R s -> R (React depth s).
  Proof.
    revert s. induction depth as [|d IH]; intros s H; cbn [Server.react]; [exact H|].
    destruct (sv_crashed s) eqn:Hc; [exact H|]. destruct (handlers (sv_trace s)); [|exact H].
    apply IH, call_R; auto.
    - intros; now apply react_crashed.
    - intros; eapply react_quiet; eassumption.
  Qed.

  Lemma run_R depth ops :
    R (server_run ntop4 ntop6 sort_keys writes stops handlers depth server_new ops).
  Proof.
    assert (H : R server_new) by (split; [exact I|repeat split]).
    revert H. generalize server_new as s.
    induction ops as [|o ops IH]; intros s H; [exact H|].
    apply IH. unfold server_step. apply step_R; [| | |exact H].
    - intros; now apply react_R.
    - intros; now apply react_crashed.
    - intros; eapply react_quiet; eassumption.
  Qed.
End Lists.

Lemma reports_at later m t : reports_ok (later ++ Processed m :: t) -> of_lists m = ledger t.
Proof. induction later as [|e l IH]; cbn [app reports_ok]; [intros [H _]; exact H|]. intros [_ H]. auto. Qed.

(** *** What the lists say *)

Lemma ledger_refused t :
  k_temp (ledger t) = refused S_TEMPORARY_FAILURE t /\ k_rejected (ledger t) = refused S_REJECT t.
Proof.
  induction t as [|e t [IH1 IH2]]; [split; reflexivity|].
  destruct e as [o| | | | | | | | |m| | | |]; try (split; assumption); [|split; reflexivity].
  destruct o as [c| |a|]; try (split; assumption).
  - destruct c; try (split; assumption). split; reflexivity.
  - cbn [ledger refused]. destruct (refuses t a) as [v|]; [|split; assumption].
    cbn [strike k_temp k_rejected]. rewrite IH1, IH2.
    destruct (status_eqb v S_TEMPORARY_FAILURE), (status_eqb v S_REJECT); split; reflexivity.
Qed.

Definition boundary (e : event) : bool :=
  match e with Processed _ => true | In (Call AReset) => true | _ => false end.
Lemma episode_cons e t : boundary e = false -> episode (e :: t) = episode t ++ [e].
Proof.
  intros H. destruct e as [o| | | | | | | | |m| | | |]; try reflexivity; [|discriminate H].
  destruct o as [c| | |]; try reflexivity. destruct c; try reflexivity. discriminate H.
Qed.
Lemma named_step e t :
  named_in (e :: t) = match e with
                      | Processed _ | In (Call AReset) => []
                      | _ => named_in t ++ recipient_named e
                      end.
Proof.
  unfold named_in. destruct (boundary e) eqn:Hb.
  - destruct e as [o| | | | | | | | |m| | | |]; try discriminate Hb; [|reflexivity].
    destruct o as [c| | |]; try discriminate Hb. destruct c; try discriminate Hb. reflexivity.
  - rewrite episode_cons by exact Hb. rewrite flat_map_app. cbn [flat_map]. rewrite app_nil_r.
    destruct e as [o| | | | | | | | |m| | | |]; try reflexivity; [|discriminate Hb].
    destruct o as [c| | |]; try reflexivity. destruct c; try reflexivity. discriminate Hb.
Qed.

Lemma remove_first_perm (l : list bytes) r : List.In r l -> Permutation l (r :: remove_first l r).
Proof.
  induction l as [|x l IH]; intros H; [destruct H|]. cbn [remove_first].
  destruct (bytes_eqb x r) eqn:E.
  - apply bytes_eqb_eq in E. now subst.
  - destruct H as [->|H]; [rewrite bytes_eqb_refl in E; discriminate E|].
    rewrite (IH H) at 1. apply perm_swap.
Qed.
Lemma remove_first_filter (l : list bytes) r :
  NoDup l -> remove_first l r = filter (fun x => negb (bytes_eqb x r)) l.
Proof.
  induction l as [|x l IH]; intros H; [reflexivity|]. inversion H; subst. cbn [remove_first filter].
  destruct (bytes_eqb x r) eqn:E; cbn [negb].
  - apply bytes_eqb_eq in E. subst x. symmetry.
    clear IH H H3. induction l as [|y l IH]; [reflexivity|]. cbn [filter].
    destruct (bytes_eqb y r) eqn:E.
    + apply bytes_eqb_eq in E. subst y. destruct H2. now left.
    + cbn [negb]. f_equal. apply IH. intros Hi. apply H2. now right.
  - now rewrite IH.
Qed.
Lemma known_app a b : known (a ++ b) = known a ++ known b.
Proof. induction a as [|[x|] a IH]; cbn [app known]; [reflexivity| |exact IH]. now rewrite IH. Qed.

Lemma whom_left t r :
  named_in t <> [] -> whom t = Some r -> List.In r (k_left (ledger t)).
Proof.
  induction t as [|e t IH]; intros Hn Hw; [discriminate Hw|].
  rewrite named_step in Hn.
  destruct e as [o| | | | | | | | |m| | | |]; cbn [recipient_named] in Hn; rewrite ?app_nil_r in Hn;
    try (apply IH; assumption); [|congruence].
  destruct o as [c| |a|]; cbn [recipient_named] in Hn; rewrite ?app_nil_r in Hn; try (apply IH; assumption).
  - destruct c; rewrite ?app_nil_r in Hn; try (apply IH; assumption); [|congruence].
    cbn [whom] in Hw. injection Hw as ->. cbn [ledger k_left]. apply in_or_app. right. now left.
  - cbn [whom ledger] in *. destruct (refuses t a) as [v|]; [discriminate Hw|]. now apply IH.
Qed.

Definition struck (t : list event) : list bytes :=
  known (refused S_TEMPORARY_FAILURE t) ++ known (refused S_REJECT t).

Lemma refuses_status t a v : refuses t a = Some v -> v = S_TEMPORARY_FAILURE \/ v = S_REJECT.
Proof.
  unfold refuses. destruct (stage t); try discriminate. intros Ha.
  destruct a; cbn [refusal] in Ha; try discriminate Ha; injection Ha as <-; auto.
  destruct (_ && _); auto.
Qed.
Lemma struck_refusal t a v :
  refuses t a = Some v ->
  Permutation (struck (In (Receive a) :: t)) (known [whom t] ++ struck t).
Proof.
  intros E. unfold struck. cbn [refused]. rewrite E.
  destruct (refuses_status t a v E) as [-> | ->]; cbn [status_eqb]; rewrite known_app.
  - rewrite <- app_assoc. rewrite (app_assoc (known [whom t])).
    rewrite (app_assoc (known (refused S_TEMPORARY_FAILURE t))). apply Permutation_app_tail, Permutation_app_comm.
  - rewrite app_assoc. apply Permutation_app_comm.
Qed.

Lemma ledger_conserved t :
  orderly t -> Permutation (k_left (ledger t) ++ struck t) (named_in t).
Proof.
  induction t as [|e t IH]; intros Ho; [constructor|]. rewrite named_step.
  destruct e as [o| | | | | | | | |m| | | |]; cbn [recipient_named]; rewrite ?app_nil_r;
    try (exact (IH Ho)); [|constructor].
  destruct o as [c| |a|]; rewrite ?app_nil_r; try (exact (IH Ho)).
  - destruct c; rewrite ?app_nil_r; try (exact (IH Ho)); [|constructor].
    cbn [ledger k_left]. rewrite <- app_assoc.
    rewrite (Permutation_app_comm [recipient]), app_assoc.
    apply Permutation_app_tail. exact (IH Ho).
  - destruct Ho as [Ha Ho]. specialize (IH Ho).
    destruct (refuses t a) as [v|] eqn:E.
    + destruct Ha as [Ha|Ha]; [discriminate Ha|].
      rewrite (struck_refusal t a v E). cbn [ledger]. rewrite E. cbn [strike k_left].
      destruct (whom t) as [w|] eqn:Ew; cbn [known app]; [|exact IH].
      rewrite <- IH. rewrite <- Permutation_middle.
      change (w :: remove_first (k_left (ledger t)) w ++ struck t)
        with ((w :: remove_first (k_left (ledger t)) w) ++ struck t).
      apply Permutation_app_tail. symmetry. apply remove_first_perm. now apply whom_left.
    + unfold struck in *. cbn [ledger refused]. rewrite E. exact IH.
Qed.

Definition listed (l : list bytes) (r : bytes) : bool := existsb (bytes_eqb r) l.
Lemma listed_in l r : listed l r = true <-> List.In r l.
Proof.
  unfold listed. rewrite existsb_exists. split.
  - intros (x & Hx & E). apply bytes_eqb_eq in E. now subst.
  - intros H. exists r. split; [exact H|apply bytes_eqb_refl].
Qed.
Lemma listed_perm a b r : Permutation a b -> listed a r = listed b r.
Proof.
  intros H. destruct (listed b r) eqn:E.
  - apply listed_in in E. apply listed_in. now apply (Permutation_in _ (Permutation_sym H)).
  - destruct (listed a r) eqn:E'; [|reflexivity]. apply listed_in in E'.
    apply (Permutation_in _ H) in E'. apply listed_in in E'. congruence.
Qed.
Lemma filter_snoc (f : bytes -> bool) l x :
  filter f (l ++ [x]) = filter f l ++ (if f x then [x] else []).
Proof. rewrite filter_app. cbn [filter]. reflexivity. Qed.
Lemma filter_filter (f g : bytes -> bool) l : filter f (filter g l) = filter (fun x => g x && f x) l.
Proof.
  induction l as [|x l IH]; [reflexivity|]. cbn [filter]. destruct (g x); cbn [filter andb]; rewrite IH; reflexivity.
Qed.

Lemma ledger_distinct t :
  orderly t -> NoDup (named_in t) ->
  k_left (ledger t) = filter (fun r => negb (listed (struck t) r)) (named_in t).
Proof.
  induction t as [|e t IH]; intros Ho Hd; [reflexivity|]. rewrite named_step in *.
  destruct e as [o| | | | | | | | |m| | | |]; cbn [recipient_named] in *; rewrite ?app_nil_r in *;
    try (exact (IH Ho Hd)); [|reflexivity].
  destruct o as [c| |a|]; rewrite ?app_nil_r in *; try (exact (IH Ho Hd)).
  - destruct c; rewrite ?app_nil_r in *; try (exact (IH Ho Hd)); [|reflexivity].
    cbn [ledger k_left].
    assert (Hd' : NoDup (named_in t) /\ ~ List.In recipient (named_in t)).
    { apply (Permutation_NoDup (l' := recipient :: named_in t)) in Hd;
        [|symmetry; apply Permutation_cons_append]. inversion Hd; auto. }
    destruct Hd' as [Hd1 Hd2].
    change (struck (In (Call (ARcpt recipient)) :: t)) with (struck t).
    rewrite filter_snoc, (IH Ho Hd1).
    destruct (listed (struck t) recipient) eqn:E; [|reflexivity]. exfalso. apply Hd2.
    apply listed_in in E. apply (Permutation_in _ (ledger_conserved t Ho)). apply in_or_app. now right.
  - destruct Ho as [Ha Ho]. specialize (IH Ho Hd).
    destruct (refuses t a) as [v|] eqn:E.
    + cbn [ledger]. rewrite E. cbn [strike k_left].
      pose proof (struck_refusal t a v E) as P.
      destruct (whom t) as [w|] eqn:Ew; cbn [known app] in P.
      * rewrite remove_first_filter.
        2:{ rewrite IH. now apply NoDup_filter. }
        rewrite IH, filter_filter. apply filter_ext. intros x.
        rewrite (listed_perm _ _ x P). unfold listed. cbn [existsb].
        destruct (bytes_eqb x w), (existsb (bytes_eqb x) (struck t)); reflexivity.
      * rewrite IH. apply filter_ext. intros x. now rewrite (listed_perm _ _ x P).
    + unfold struck in *. cbn [ledger refused]. rewrite E. exact IH.
Qed.

Lemma times_app r a b : times r (a ++ b) = (times r a + times r b)%nat.
Proof. unfold times. now rewrite filter_app, app_length. Qed.
Lemma times_perm r a b : Permutation a b -> times r a = times r b.
Proof.
  unfold times. induction 1 as [|x a b H IH|x y a|a b c H1 IH1 H2 IH2]; [reflexivity| | |congruence].
  - cbn [filter]. destruct (bytes_eqb r x); cbn [length]; congruence.
  - cbn [filter]. destruct (bytes_eqb r x), (bytes_eqb r y); reflexivity.
Qed.
Lemma ledger_left t :
  orderly t -> k_left (ledger t) <> [] <-> exists r, (times r (struck t) < times r (named_in t))%nat.
Proof.
  intros Ho. pose proof (ledger_conserved t Ho) as P. split.
  - intros Hn. destruct (k_left (ledger t)) as [|r l]; [congruence|]. exists r.
    rewrite <- (times_perm r _ _ P), times_app. unfold times at 2. cbn [filter].
    rewrite bytes_eqb_refl. cbn [length]. lia.
  - intros (r & Hr) E. rewrite E in P. cbn [app] in P. rewrite (times_perm r _ _ P) in Hr. lia.
Qed.
