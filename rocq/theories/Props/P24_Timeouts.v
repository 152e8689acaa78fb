(** C83: how long the manager waits for a filter.

    The theorems are about the history of a context after any sequence of calls, flushes, replies
    and timeouts, with any outcome of the writes, any answers of the stop handlers and any
    handlers that call back into the context.  Histories are latest first.  [Fire] is the moment
    when the timeout that is running, if any, runs out. *)
From Verif.Base Require Import Bytes BytesFacts.
From Verif.Model Require Import Decoder Encoder CommandCodec ReplyCodec Status Option Macros Client
                                Server.
From Verif.Spec Require Import ServerSpec.
From Verif.Proofs Require Import ExampleOracles ServerInv ServerFacts ServerTimer.
From Verif.Props Require Import P07_Server.
Local Open Scope N_scope.

Section Timeouts.
  Variables (ntop4 ntop6 : bytes -> bytes).
  Variable sort_keys : list bytes -> list bytes.
  Variable writes : list event -> write_outcome.
  Variable stops : list event -> bool.
  Variable handlers : list event -> option api.
  Variable depth : nat.

  Notation after := (server_run ntop4 ntop6 sort_keys writes stops handlers depth server_new).
  Notation history ops := (sv_trace (after ops)).

  (** While an answer is outstanding a timeout is running: that of writing until the command is
      on its way, then that of its reply.  When it runs out this is announced, and the connection
      to the filter is shut down whatever the handlers of the announcement call (short of the
      call that brings the process down). *)
  Theorem C83_given_up ops :
    sv_crashed (after ops) = false -> outstanding (history ops) = true ->
    exists l, history (ops ++ [Fire]) = l ++ Expired (due (history ops)) :: In Fire :: history ops /\
      forallb nested l = true /\
      (sv_crashed (after (ops ++ [Fire])) = true \/
       exists later mid, l = later ++ ShutDown :: mid).
  Proof.
    intros Hc Ho.
    destruct (run_ok ntop4 ntop6 sort_keys writes stops handlers depth ops) as [_ HA].
    destruct (HA Hc) as [Hv _]. pose proof (ag_due _ _ _ _ _ _ _ _ _ _ _ _ Hv Ho eq_refl) as Ht.
    rewrite run_step. unfold server_step, step. rewrite Hc. set (s := after ops) in *.
    rewrite log_eq by exact Hc. unfold fire. cbn [sv_timer put_trace]. rewrite Ht.
    set (react := Server.react _ _ _ _ _ _ _). unfold emit at 1.
    unfold emit. rewrite (log_eq _ (Expired _)) by exact Hc.
    match goal with |- context [log (react ?s) ShutDown] => set (s1 := s) end.
    destruct (react_extends ntop4 ntop6 sort_keys writes stops handlers depth s1) as (l1 & E1 & Hl1).
    fold react in E1. cbn [s1 sv_trace put_trace] in E1.
    destruct (react_extends ntop4 ntop6 sort_keys writes stops handlers depth
                (log (react s1) ShutDown)) as (l2 & E2 & Hl2). fold react in E2. rewrite E2.
    destruct (sv_crashed (react s1)) eqn:Hc1.
    - exists (l2 ++ l1). unfold log at 1. rewrite Hc1, E1, <- app_assoc. split; [reflexivity|].
      rewrite forallb_app, Hl1, Hl2. split; [reflexivity|]. left.
      unfold log. rewrite Hc1. subst react. destruct depth; cbn [Server.react] in *; [exact Hc1|].
      now rewrite Hc1.
    - exists (l2 ++ ShutDown :: l1). rewrite log_eq by exact Hc1. cbn [sv_trace put_trace].
      rewrite E1, <- app_assoc. split; [reflexivity|]. split.
      + rewrite forallb_app. cbn. now rewrite Hl1, Hl2.
      + right. eauto.
  Qed.

  (** A filter that has answered and was sent nothing to be answered since is left alone. *)
  Theorem C83_left_alone ops :
    sv_crashed (after ops) = false -> rests (history ops) = true ->
    history (ops ++ [Fire]) = In Fire :: history ops.
  Proof.
    intros Hc Hr.
    pose proof (run_R ntop4 ntop6 sort_keys writes stops handlers depth ops Hc Hr) as Ht.
    rewrite run_step. unfold server_step, step. rewrite Hc. rewrite log_eq by exact Hc.
    unfold fire. cbn [sv_timer put_trace]. now rewrite Ht.
  Qed.
  (** A body packet that is on its way: the reading timeout runs if the filter answers body packets
      and there is more of the body to be sent, and none runs if there is not. *)
  Theorem C83_body ops o :
    let t := Delivered XBody :: Entered XBody :: In Flushed :: history ops in
    sv_crashed (after ops) = false -> l_unflushed (link_of (history ops)) = [XBody] ->
    session_option (history ops) = Some o -> N.land (o_step o) STEP_NO_REPLY_BODY = 0 ->
    handlers t = None ->
    if list_eq_dec ascii_dec (body_given (history ops)) (body_sent (history ops))
    then history (ops ++ [Flushed; Fire]) = In Fire :: t
    else exists l, history (ops ++ [Flushed; Fire]) = l ++ Expired TReading :: In Fire :: t.
  Proof.
    intros t Hc Hu Ho Hr Hh.
    destruct (run_ok ntop4 ntop6 sort_keys writes stops handlers depth ops) as [_ HA].
    destruct (HA Hc) as [[] [Hb _]]. clear HA. unfold body_eq in Hb.
    change [Flushed; Fire] with ([Flushed] ++ [Fire]). rewrite app_assoc.
    set (s := after ops) in *.
    assert (Es : exists s1, (after (ops ++ [Flushed])) = s1 /\ (sv_trace s1 = t) /\ sv_crashed s1 = false /\
      sv_timer s1 = match sv_body s with [] => None | _ => Some TReading end).
    { eexists. split; [reflexivity|]. rewrite run_step. fold s. unfold server_step, step. rewrite Hc.
      set (react := Server.react _ _ _ _ _ _ _).
      assert (Hq : forall s', sv_trace s' = t -> react s' = s').
      { intros s' E'. subst react. destruct depth; [reflexivity|]. cbn [Server.react]. rewrite E', Hh.
        now destruct (sv_crashed s'). }
      rewrite log_eq by exact Hc. unfold flushed. cbn [sv_next put_trace]. rewrite ag_next, Hu.
      cbn [fold_left]. unfold deliver, process_next_state, process_next_state_body, disable_timeout.
      set (s2 := set_state _ XBody).
      assert (E2 : sv_trace s2 = Entered XBody :: In Flushed :: history ops /\ sv_crashed s2 = false /\
      sv_timer s2 = None /\ sv_body s2 = sv_body s /\ sv_option s2 = sv_option s).
      { subst s2. unfold set_state. rewrite log_eq by exact Hc. repeat apply conj; try reflexivity. exact Hc. }
      clearbody s2. destruct E2 as (Et & Ec & Em & Eb & Eo). unfold need_reply.
      rewrite Eb, Eo, ag_option, Ho. cbn [no_reply_step]. rewrite Hr. cbn [N.eqb].
      unfold emit. destruct (sv_body s) as [|c b].
      - rewrite log_eq by exact Ec. rewrite Et, Hq by reflexivity. cbn [sv_trace put_trace sv_crashed sv_timer].
        auto.
      - rewrite log_eq by exact Ec. cbn [sv_trace put_timer]. rewrite Et, Hq by reflexivity.
        cbn [sv_trace put_trace sv_crashed sv_timer put_timer]. auto. }
    destruct Es as (s1 & E1 & Et & Ec & Em). rewrite run_step, E1. unfold server_step, step. rewrite Ec.
    rewrite log_eq by exact Ec. unfold fire. cbn [sv_timer put_trace]. rewrite Em.
    destruct (list_eq_dec _ _ _) as [E|E].
    - assert (sv_body s = []) as ->.
      { fold s in E. rewrite Hb in E.
        apply (app_inv_head (body_sent (sv_trace s))). now rewrite app_nil_r. }
      cbn [sv_trace put_trace]. now rewrite Et.
    - destruct (sv_body s) as [|c b]; [elim E; rewrite Hb; apply app_nil_r|].
      set (react := Server.react _ _ _ _ _ _ _). unfold emit. rewrite (log_eq _ (Expired _)) by exact Ec.
      match goal with |- context [log (react ?s) ShutDown] => set (s3 := s) end.
      destruct (react_extends ntop4 ntop6 sort_keys writes stops handlers depth s3) as (l1 & E3 & _).
      fold react in E3. cbn [s3 sv_trace put_trace] in E3.
      destruct (react_extends ntop4 ntop6 sort_keys writes stops handlers depth
                  (log (react s3) ShutDown)) as (l2 & E4 & _). fold react in E4. rewrite E4.
      unfold log at 1. destruct (sv_crashed (react s3)); cbn [sv_trace put_trace]; rewrite E3, Et.
      + exists (l2 ++ l1). now rewrite <- app_assoc.
      + exists (l2 ++ ShutDown :: l1). now rewrite <- app_assoc.
  Qed.
End Timeouts.
Print Assumptions C83_body.
Print Assumptions C83_given_up.
Print Assumptions C83_left_alone.

(** A helo: the writing timeout runs until the command is on its way, then the one for reading,
    then none.  At the end of a message the end-of-message timeout runs. *)
Example C83_example :
  let written := plain (negotiated ++ [Call (AHelo (lit "h"))]) in
  (outstanding written = true /\ due written = TWriting) /\
  (outstanding (plain helo_ops) = true /\ due (plain helo_ops) = TReading) /\
  plain (helo_ops ++ [Fire]) = ShutDown :: Expired TReading :: In Fire :: plain helo_ops /\
  rests (plain helo_ops) = false /\ rests (plain (helo_ops ++ [Receive RContinue])) = true /\
  (outstanding (plain eom_ops) = true /\ due (plain eom_ops) = TEndOfMessageReply).
Proof. vm_compute. auto 10. Qed.

(** A body of 65537 bytes of which one packet is on its way. *)
Example C83_body_example :
  let ops := negotiated ++ [Call (ABody long_body)] in
  sv_crashed (plain_run ops) = false /\ l_unflushed (link_of (plain ops)) = [XBody] /\
  session_option (plain ops) = Some all_steps /\ N.land (o_step all_steps) STEP_NO_REPLY_BODY = 0 /\
  N.of_nat (length (body_sent (plain ops))) = 65535 /\ body_given (plain ops) = long_body /\
  firstn 3 (plain (ops ++ [Flushed; Fire])) = [ShutDown; Expired TReading; In Fire].
Proof.
  intros ops. unfold ops.
  split; [vm_compute; reflexivity|]. split; [vm_compute; reflexivity|].
  split; [vm_compute; reflexivity|]. split; [vm_compute; reflexivity|].
  split; [vm_compute; reflexivity|]. split; [apply bytes_eqb_eq; vm_compute; reflexivity|].
  vm_compute. reflexivity.
Qed.

Lemma idle_fires n : forall s,
  sv_timer s = None -> sv_crashed s = false ->
  sv_trace (fold_left (server_step toy_ntop toy_ntop (fun l => l) (fun _ => Taken) (fun _ => false)
                                   (fun _ => None) 0) (repeat Fire n) s)
  = repeat (In Fire) n ++ sv_trace s.
Proof.
  induction n as [|n IH]; intros s Ht Hc; [reflexivity|].
  cbn [repeat fold_left app]. unfold server_step at 2. unfold step. rewrite Hc, log_eq by exact Hc.
  unfold fire. cbn [sv_timer put_trace]. rewrite Ht, IH by assumption.
  cbn [sv_trace put_trace]. change (In Fire :: sv_trace s) with ([In Fire] ++ sv_trace s).
  now rewrite app_assoc, <- repeat_cons.
Qed.

(** A filter that never answers a chunk of the body is waited for for ever: no timeout runs once
    the chunk is on its way. *)
Theorem C83_body_refuted :
  exists ops chunk, ops = body_ops chunk /\ chunk <> [] /\
    body_sent (plain ops) = chunk /\ session_option (plain ops) = Some all_steps /\
    (forall n, plain (ops ++ repeat Fire n) = repeat (In Fire) n ++ plain ops).
Proof.
  exists (body_ops (lit "x")), (lit "x"). split; [reflexivity|]. split; [discriminate|].
  split; [vm_compute; reflexivity|]. split; [vm_compute; reflexivity|].
  intros n. unfold plain, plain_run, server_run. rewrite fold_left_app.
  apply idle_fires; vm_compute; reflexivity.
Qed.
Print Assumptions C83_body_refuted.

(** A progress report that comes after the answer to the end of the message starts a timeout
    although nothing is outstanding: the connection is shut down when it runs out, and a command
    that comes before is refused. *)
Theorem C83_late_progress_refuted :
  let ops := eom_ops ++ [Receive RContinue; Receive RProgress] in
  outstanding (plain ops) = false /\
  plain (ops ++ [Fire]) = ShutDown :: Expired TEndOfMessageReply :: In Fire :: plain ops /\
  plain (ops ++ [Call (AFrom (lit "<a@b>"))]) =
    [Return false; Error Busy; In (Call (AFrom (lit "<a@b>")))] ++ plain ops.
Proof. vm_compute. auto. Qed.
Print Assumptions C83_late_progress_refuted.
