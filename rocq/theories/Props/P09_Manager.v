(** C29, C30, C31, C32: the manager between the MTA and its filters. *)
From Verif.Base Require Import Bytes.
From Verif.Model Require Import Decoder Encoder CommandCodec ReplyCodec Status Option Headers Macros
                                ReplyCode Client Server Children Leader.
From Verif.Spec Require Import ReplyCodeSpec VerdictSpec ManagerSpec LeaderSpec.
From Verif.Proofs Require Import VerdictProofs ChildrenLemmas ChildrenStage ChildrenOut LeaderProofs.
Local Open Scope N_scope.

(** *** For the examples and refutations *)

(** Writes succeed, no stop handler interferes. *)
Definition plain_run (filters : list (status * bool)) (ops : list op) : manager :=
  manager_run (fun _ => Taken) (fun _ => false) 520 bytes_eqb 60 S_TEMPORARY_FAILURE filters
              manager_new ops.
(** What the MTA gets, in order. *)
Definition mta_sees (filters : list (status * bool)) (ops : list op) : list (option sstate * status) :=
  rev (mta_answers (l_trace (g_leader (plain_run filters ops)))).
(** What goes to the filters, in order. *)
Definition filters_see (filters : list (status * bool)) (ops : list op) : list (nat * command) :=
  rev (flat_map (fun e => match e with LSaw (OSent i c) => [(i, c)] | _ => [] end)
                (l_trace (g_leader (plain_run filters ops)))).

Definition seen_by (i : nat) (filters : list (status * bool)) (ops : list op) : list command :=
  map snd (filter (fun p => Nat.eqb (fst p) i) (filters_see filters ops)).

Definition full : moption := mk_option 6 0x1ff 0.
Definition negotiated (i : nat) : list op := [KReady i; KFlushed i; KReply i (RNegotiate full None)].
Definition says (i : nat) (r : reply) : list op := [KFlushed i; KReply i r].
Definition goes_on (i : nat) : list op := says i RContinue.

Definition one : list (status * bool) := [(S_ACCEPT, false)].
Definition two : list (status * bool) := [(S_ACCEPT, false); (S_REJECT, false)].
Definition start1 : list op :=
  [Mta (CNegotiate full)] ++ negotiated 0 ++ [Mta (CConnect (lit "h") AUnspec)] ++ goes_on 0.
Definition start2 : list op :=
  [Mta (CNegotiate full)] ++ negotiated 0 ++ negotiated 1 ++
  [Mta (CConnect (lit "h") AUnspec)] ++ goes_on 0 ++ goes_on 1.
Definition both_on : list op := goes_on 0 ++ goes_on 1.
Definition envelope1 : list op :=
  [Mta (CEnvelopeFrom (lit "f"))] ++ goes_on 0 ++ [Mta (CEnvelopeRecipient (lit "r"))] ++ goes_on 0 ++
  [Mta CData] ++ goes_on 0.
Definition envelope2 : list op :=
  [Mta (CEnvelopeFrom (lit "f"))] ++ both_on ++ [Mta (CEnvelopeRecipient (lit "r"))] ++ both_on ++
  [Mta CData] ++ both_on.
Definition content : list op :=
  [Mta (CHeader (lit "a") (lit "b"))] ++ goes_on 0 ++ [Mta CEndOfHeader] ++ goes_on 0 ++
  [Mta (CBody (lit "body"))] ++ goes_on 0 ++ [Mta (CEndOfMessage None)].

Lemma verdict_of_verdict r s : verdict_of r = Some s -> verdict s.
Proof.
  unfold verdict, priority. intros V.
  destruct r; try discriminate V; cbn [verdict_of] in V; injection V as <-; cbn [List.In]; auto 10.
  match goal with |- context [if ?b then _ else _] => destruct b end; auto 10.
Qed.

Section Manager.
  (** The writes to the filters, the stop handlers, the configuration. *)
  Variable writes : list event -> write_outcome.
  Variable stops : list event -> bool.
  Variable chunk_size : N.
  Variable collate_equal : bytes -> bytes -> bool.
  Variable depth : nat.
  Variable fallback : status.
  Variable filters : list (status * bool).
  Notation after := (manager_run writes stops chunk_size collate_equal (S depth) fallback filters).
  Notation children_after := (children_run writes stops chunk_size collate_equal (S depth)).

  (** *** C29, C30, C31 and C32 for the commands that go to all filters at once *)

  (** The circumstances: the command [c] of stage [x] arrives and concerns some filters; each of
      these is connected, has nothing outstanding, and answers the command unless it declined it
      in its negotiation; what the MTA's context is told about reply codes is acceptable. *)
  Record asked (w : world) (c : command) (x : sstate) (opts : nat -> moption)
    (outs : nat -> outcome) : Prop := {
    asked_stage : stage_of c = Some x;
    asked_sane : w_crashed w = false;
    asked_pending : f_pending (w_flow w) = None;
    asked_negotiated : n_expired (w_nego w) = false;
    asked_some : concerned_filters x w <> [];
    asked_idle : forall i, List.In i (concerned_filters x w) -> idle x (child_of w i) (opts i);
    asked_fallback : forall i, List.In i (concerned_filters x w) -> verdict (k_fallback (child_of w i));
    asked_outcome : forall i r, List.In i (concerned_filters x w) -> declines (opts i) x = false ->
      outs i = Says r -> verdict_of r <> None;
    asked_code : forall n e m, f_code (w_flow w) = Some (n, e, m) -> acceptable n (Some e);
    asked_codes : forall i n e m, List.In i (concerned_filters x w) ->
      outs i = Says (RReplyCode n e m) -> acceptable n (Some e)
  }.

  (** What filter [i] counts for: continue if it declined the command, its fallback if it fails,
      accept instead of a refusal if it is only evaluated. *)
  Definition counted (w : world) (x : sstate) (opts : nat -> moption) (outs : nat -> outcome)
    (i : nat) : status :=
    if declines (opts i) x then S_CONTINUE
    else counts (k_fallback (child_of w i)) (k_evaluation (child_of w i)) (outs i).

  (** The filters that the command is sent to. *)
  Definition sent_to (w : world) (x : sstate) (opts : nat -> moption) : list nat :=
    filter (fun i => negb (declines (opts i) x)) (concerned_filters x w).

  Section Command.
    Hypothesis Hwrites : forall t, writes t <> Refused.
    Hypothesis Hstops : forall t, stops t = false.
    Variables (w : world) (l : leader) (c : command) (x : sstate).
    Variables (opts : nat -> moption) (outs : nat -> outcome).
    Hypothesis Hasked : asked w c x opts outs.
    Variable ops : list op.
    (** The filters' outcomes arrive in any order. *)
    Hypothesis Hops : interleaving (sent_to w x opts) (fun i => script x i (outs i)) ops.

    Lemma asked_says i : List.In i (concerned_filters x w) -> declined x opts i = false ->
      match outs i with Says r => verdict_of r <> None | Fails _ => True end.
    Proof using Hasked.
      intros Hi Hd. destruct (outs i) as [r|f] eqn:E; [|exact I].
      exact (asked_outcome _ _ _ _ _ Hasked i r Hi Hd E).
    Qed.

    (** The MTA gets exactly one answer, for the stage it is in, and it is the strongest of what
        the filters count for. *)
    Theorem C29_answered_once :
      exists v earlier,
        strongest (map (counted w x opts outs) (concerned_filters x w)) v /\
        l_trace (g_leader (after (mk_manager l (Some w)) (Mta c :: ops))) = earlier ++ l_trace l /\
        mta_answers earlier = [(Some x, v)].
    Proof using Hasked Hops Hstops Hwrites.
      destruct (session_answered writes stops chunk_size collate_equal Hwrites Hstops depth fallback filters
                  w l c x opts outs) with (ops := ops) as ((v & S & _ & fs & T & A) & _);
        try apply Hasked; auto.
      - exact asked_says.
      - exists v, fs. auto.
    Qed.

    (** No answer is given before the last filter is done. *)
    Theorem C29_not_before_all_answered ops1 ops2 : ops = ops1 ++ ops2 -> ops2 <> [] ->
      mta_answers (l_trace (g_leader (after (mk_manager l (Some w)) (Mta c :: ops1)))) =
      mta_answers (l_trace l).
    Proof using Hasked Hops Hstops Hwrites.
      intros E Hne.
      destruct (session_answered writes stops chunk_size collate_equal Hwrites Hstops depth fallback filters
                  w l c x opts outs) with (ops := ops) as (_ & H);
        try apply Hasked; auto.
      - exact asked_says.
      - exact (H ops1 ops2 E Hne).
    Qed.

    Lemma out_afterwards i : List.In i (sent_to w x opts) ->
      match outs i with Says r => lets_go x r = true | Fails _ => True end ->
      out_for_good (child_of (children_after w (Mta c :: ops)) i).
    Proof using Hasked Hops Hstops Hwrites.
      intros Hi Ho. apply filter_In in Hi as (Hi & Hd). apply negb_true_iff in Hd.
      destruct (command_answered writes stops chunk_size collate_equal Hwrites Hstops depth
                  w c x opts outs takes_code) with (ops := ops) as (F & _);
        try apply Hasked; auto.
      - exact asked_says.
      - apply (final_gone _ _ _ _ _ _ _ F i Hi). unfold leaves_for, declined. rewrite Hd.
        destruct (outs i); [exact Ho|reflexivity].
    Qed.

    (** A filter that failed, or was let go, is not asked again: no later command concerns it. *)
    Theorem C30_failed_filter_is_out i : List.In i (sent_to w x opts) ->
      match outs i with Says r => lets_go x r = true | Fails _ => True end ->
      forall y, concerned y (child_of (children_after w (Mta c :: ops)) i) = false.
    Proof using Hasked Hops Hstops Hwrites.
      intros Hi Ho y. pose proof (out_afterwards i Hi Ho) as G.
      revert G. generalize (child_of (children_after w (Mta c :: ops)) i). intros k G.
      unfold out_for_good, standing in G. injection G as G _ _.
      unfold concerned, in_message. rewrite G, ?andb_false_r. destruct y; reflexivity.
    Qed.

    (** Whatever still comes from it, in any number, concerns neither the MTA nor the other
        filters: only things of its own happen, what the manager knows of the command, the
        message and the other filters stays as it is. *)
    Theorem C30_failed_filter_is_ignored i later : List.In i (sent_to w x opts) ->
      match outs i with Says r => lets_go x r = true | Fails _ => True end ->
      (forall o, List.In o later -> op_filter o = Some i) ->
      let g := after (mk_manager l (Some w)) (Mta c :: ops) in
      let g' := after g later in
      (exists es, l_trace (g_leader g') = map LSaw es ++ l_trace (g_leader g) /\ Forall (own i) es) /\
      l_state (g_leader g') = l_state (g_leader g) /\
      exists w1 w2, g_children g = Some w1 /\ g_children g' = Some w2 /\
        w_flow w2 = w_flow w1 /\ w_mail w2 = w_mail w1 /\ w_nego w2 = w_nego w1 /\
        forall j, j <> i -> child_of w2 j = child_of w1 j.
    Proof using Hasked Hops Hstops Hwrites.
      intros Hi Ho Hl g g'.
      assert (E : g_children g = Some (children_after w (Mta c :: ops))).
      { apply children_of_run. intros o [<-|Hin] v.
        - intros [= ->]. assert (S := asked_stage _ _ _ _ _ Hasked). discriminate S.
        - destruct (proj2 Hops o Hin) as (j & Hj & _). intros ->. discriminate Hj. }
      assert (G := out_afterwards i Hi Ho).
      destruct g as [lg cg] eqn:Eg. cbn [g_children] in E. subst cg.
      destruct (manager_out writes stops chunk_size collate_equal depth fallback filters i later lg _ G Hl)
        as (es & w' & R & F & A).
      subst g'. rewrite R. cbn [g_leader g_children l_trace l_state]. split; [eauto|]. split; [reflexivity|].
      eexists _, _. split; [reflexivity|]. split; [reflexivity|]. destruct A. auto.
    Qed.
  End Command.

  (** The answer the MTA gets to a command is determined by what the filters count for, whatever
      happened before: two sessions in which the same verdicts count give the same answer. *)
  Lemma same_answer w l w' l' c x opts outs opts' outs' ops ops' :
    (forall t, writes t <> Refused) -> (forall t, stops t = false) ->
    asked w c x opts outs -> asked w' c x opts' outs' ->
    interleaving (sent_to w x opts) (fun i => script x i (outs i)) ops ->
    interleaving (sent_to w' x opts') (fun i => script x i (outs' i)) ops' ->
    map (counted w x opts outs) (concerned_filters x w) =
    map (counted w' x opts' outs') (concerned_filters x w') ->
    exists v earlier earlier',
      l_trace (g_leader (after (mk_manager l (Some w)) (Mta c :: ops))) = earlier ++ l_trace l /\
      mta_answers earlier = [(Some x, v)] /\
      l_trace (g_leader (after (mk_manager l' (Some w')) (Mta c :: ops'))) = earlier' ++ l_trace l' /\
      mta_answers earlier' = [(Some x, v)].
  Proof.
    intros Hw Hs A A' I I' E.
    destruct (C29_answered_once Hw Hs w l c x opts outs A ops I) as (v & e & S & T & M).
    destruct (C29_answered_once Hw Hs w' l' c x opts' outs' A' ops' I') as (v' & e' & S' & T' & M').
    exists v, e, e'. rewrite <- E in S'.
    assert (v' = v) as ->; [|auto].
    refine (strongest_unique _ _ _ _ S' S).
    apply Forall_forall. intros s Hin. apply in_map_iff in Hin as (i & <- & Hi).
    unfold counted. destruct (declines (opts i) x) eqn:D; [vm_compute; auto 10|].
    unfold counts. pose proof (asked_fallback _ _ _ _ _ A i Hi) as F.
    destruct (outs i) as [r|f] eqn:O; [|exact F].
    destruct (verdict_of r) as [s|] eqn:V; [|exact F].
    destruct (k_evaluation (child_of w i) && negative s); [vm_compute; auto 10|].
    exact (verdict_of_verdict r s V).
  Qed.

  Lemma counted_ext w x opts outs outs' :
    (forall i, List.In i (concerned_filters x w) -> counted w x opts outs i = counted w x opts outs' i) ->
    map (counted w x opts outs) (concerned_filters x w) =
    map (counted w x opts outs') (concerned_filters x w).
  Proof. intros H. apply map_ext_in. exact H. Qed.

  (** C30: a filter that fails counts as one that gives its configured fallback as its verdict;
      what the others say still counts. *)
  Theorem C30_failure_is_fallback w l c x opts outs outs' ops ops' :
    (forall t, writes t <> Refused) -> (forall t, stops t = false) ->
    asked w c x opts outs -> asked w c x opts outs' ->
    interleaving (sent_to w x opts) (fun i => script x i (outs i)) ops ->
    interleaving (sent_to w x opts) (fun i => script x i (outs' i)) ops' ->
    (forall i, List.In i (concerned_filters x w) ->
       outs i = outs' i \/
       exists f r, outs i = Fails f /\ outs' i = Says r /\
                   verdict_of r = Some (k_fallback (child_of w i)) /\
                   k_evaluation (child_of w i) = false) ->
    exists v earlier earlier',
      l_trace (g_leader (after (mk_manager l (Some w)) (Mta c :: ops))) = earlier ++ l_trace l /\
      mta_answers earlier = [(Some x, v)] /\
      l_trace (g_leader (after (mk_manager l (Some w)) (Mta c :: ops'))) = earlier' ++ l_trace l /\
      mta_answers earlier' = [(Some x, v)].
  Proof.
    intros Hw Hs A A' I I' H.
    apply (same_answer w l w l c x opts outs opts outs' ops ops' Hw Hs A A' I I').
    apply counted_ext. intros i Hi. unfold counted. destruct (declines (opts i) x); [reflexivity|].
    destruct (H i Hi) as [->|(f & r & -> & -> & V & E)]; [reflexivity|].
    cbn [counts]. rewrite V, E. reflexivity.
  Qed.

  (** C31: replacing what a filter in evaluation mode refuses by accept does not change the
      answer. *)
  Theorem C31_refusals_do_not_count w l c x opts outs outs' ops ops' :
    (forall t, writes t <> Refused) -> (forall t, stops t = false) ->
    asked w c x opts outs -> asked w c x opts outs' ->
    interleaving (sent_to w x opts) (fun i => script x i (outs i)) ops ->
    interleaving (sent_to w x opts) (fun i => script x i (outs' i)) ops' ->
    (forall i, List.In i (concerned_filters x w) ->
       outs i = outs' i \/
       exists r v, outs i = Says r /\ verdict_of r = Some v /\ negative v = true /\
                   outs' i = Says RAccept /\ k_evaluation (child_of w i) = true) ->
    exists v earlier earlier',
      l_trace (g_leader (after (mk_manager l (Some w)) (Mta c :: ops))) = earlier ++ l_trace l /\
      mta_answers earlier = [(Some x, v)] /\
      l_trace (g_leader (after (mk_manager l (Some w)) (Mta c :: ops'))) = earlier' ++ l_trace l /\
      mta_answers earlier' = [(Some x, v)].
  Proof.
    intros Hw Hs A A' I I' H.
    apply (same_answer w l w l c x opts outs opts outs' ops ops' Hw Hs A A' I I').
    apply counted_ext. intros i Hi. unfold counted. destruct (declines (opts i) x); [reflexivity|].
    destruct (H i Hi) as [->|(r & v & -> & V & N & -> & E)]; [reflexivity|].
    cbn [counts verdict_of]. rewrite V, E, N. reflexivity.
  Qed.

  (** C31: nor does it change the message: what a filter in evaluation mode asks to change is
      dropped, nothing is kept of it and nothing is passed on. *)
  Theorem C31_modifications_ignored w i r :
    is_edit r = true -> w_crashed w = false -> k_state (child_of w i) = XEndOfMessage ->
    k_evaluation (child_of w i) = true ->
    children_after w [KReply i r] = log w (OIn (KReply i r)).
  Proof. exact (evaluated_edit writes stops chunk_size collate_equal depth w i r). Qed.

  (** C32: the answer to a command depends only on what the filters say to it: whatever happened
      in the sessions before (the verdicts of earlier messages included), the same filters with
      the same outcomes give the same answer. *)
  Theorem C32_earlier_messages_do_not_count w w' l l' c x opts opts' outs ops ops' :
    (forall t, writes t <> Refused) -> (forall t, stops t = false) ->
    asked w c x opts outs -> asked w' c x opts' outs ->
    interleaving (sent_to w x opts) (fun i => script x i (outs i)) ops ->
    interleaving (sent_to w' x opts') (fun i => script x i (outs i)) ops' ->
    concerned_filters x w = concerned_filters x w' ->
    (forall i, List.In i (concerned_filters x w) ->
       declines (opts i) x = declines (opts' i) x /\
       k_fallback (child_of w i) = k_fallback (child_of w' i) /\
       k_evaluation (child_of w i) = k_evaluation (child_of w' i)) ->
    exists v earlier earlier',
      l_trace (g_leader (after (mk_manager l (Some w)) (Mta c :: ops))) = earlier ++ l_trace l /\
      mta_answers earlier = [(Some x, v)] /\
      l_trace (g_leader (after (mk_manager l' (Some w')) (Mta c :: ops'))) = earlier' ++ l_trace l' /\
      mta_answers earlier' = [(Some x, v)].
  Proof.
    intros Hw Hs A A' I I' E H.
    apply (same_answer w l w' l' c x opts outs opts' outs ops ops' Hw Hs A A' I I').
    rewrite <- E. apply map_ext_in. intros i Hi. destruct (H i Hi) as (D & F & V).
    unfold counted. rewrite D, F, V. reflexivity.
  Qed.

  (** However the filters and the MTA behave, no command but body and end of message gets more
      responses than it was sent times. *)
  Theorem C29_never_answered_twice x ops : x <> XBody -> x <> XEndOfMessage ->
    (responses x (l_trace (g_leader (after manager_new ops))) <= times_asked x ops)%nat.
  Proof.
    intros H1 H2.
    pose proof (owed_run writes stops chunk_size collate_equal (S depth) fallback filters x ops manager_new) as H.
    unfold owed in H. cbn in H. unfold manager_run.
    assert (counted_stage x = true) by (destruct x; try reflexivity; congruence). lia.
  Qed.

  (** The same for the end of the message, if the MTA announces it only when it has an answer to
      what it said before. *)
  Theorem C29_end_not_before_asked ops :
    (forall ops1 b ops2, ops = ops1 ++ Mta (CEndOfMessage b) :: ops2 ->
       waiting (l_state (g_leader (after manager_new ops1))) = false) ->
    (responses XEndOfMessage (l_trace (g_leader (after manager_new ops)))
       <= times_asked XEndOfMessage ops)%nat.
  Proof.
    intros H. destruct (eom_run writes stops chunk_size collate_equal (S depth) fallback filters ops 0
                          manager_new H) as (_ & B).
    - split; [reflexivity|]. apply Nat.le_refl.
    - unfold owed in B. lia.
  Qed.

  (** However the filters and the MTA behave, every change of the message that the filters want
      is passed on to the MTA, once and in their order, and no other. *)
  Theorem C33_changes_passed_on ops :
    passed_changes (l_trace (g_leader (after manager_new ops))) =
    wanted_changes (l_trace (g_leader (after manager_new ops))).
  Proof. apply passing_run. reflexivity. Qed.
End Manager.
Print Assumptions C29_never_answered_twice.
Print Assumptions C29_end_not_before_asked.
Print Assumptions C33_changes_passed_on.
Print Assumptions C30_failed_filter_is_ignored.
Print Assumptions C29_answered_once.
Print Assumptions C29_not_before_all_answered.
Print Assumptions C30_failed_filter_is_out.
Print Assumptions C30_failure_is_fallback.
Print Assumptions C31_refusals_do_not_count.
Print Assumptions C31_modifications_ignored.
Print Assumptions C32_earlier_messages_do_not_count.

(** *** Examples *)

Definition world_of (filters : list (status * bool)) (ops : list op) : world :=
  match g_children (plain_run filters ops) with Some w => w | None => world_new filters end.
Definition helo : command := CHelo (lit "h").

(** Two filters are asked about HELO: the first, in evaluation mode, refuses, the second times
    out. *)
Definition outcomes (i : nat) : outcome :=
  match i with O => Says RReject | _ => Fails TimesOut end.
Definition judged : list (status * bool) := [(S_ACCEPT, true); (S_TEMPORARY_FAILURE, false)].
Definition judged_world : world := Eval vm_compute in world_of judged start2.
Example C29_example_asked :
  judged_world = world_of judged start2 /\
  asked judged_world helo XHelo (fun _ => full) outcomes.
Proof.
  split; [vm_compute; reflexivity|].
  constructor; try reflexivity; try discriminate.
  - intros i H. cbv in H. destruct H as [<-|[<-|[]]]; constructor; reflexivity.
  - intros i H. cbv in H. destruct H as [<-|[<-|[]]]; vm_compute; auto 10.
  - intros i r H _. cbv in H. destruct H as [<-|[<-|[]]]; intros [= <-]; discriminate.
  - intros i n e m H. cbv in H. destruct H as [<-|[<-|[]]]; discriminate.
Qed.
Example C29_example_interleaving :
  interleaving (sent_to judged_world XHelo (fun _ => full))
               (fun i => script XHelo i (outcomes i))
               [KFlushed 1; KFlushed 0; KReply 0 RReject; KFlushed 0; KFire 1; KFinish 0].
Proof.
  split.
  - intros i H. cbv in H. destruct H as [<-|[<-|[]]]; reflexivity.
  - intros o H. cbn in H.
    repeat (destruct H as [<-|H]; [eexists; split; [reflexivity|cbv; auto]|]). destruct H.
Qed.
Example C29_example :
  mta_sees judged (start2 ++ Mta helo ::
                   [KFlushed 1; KFlushed 0; KReply 0 RReject; KFlushed 0; KFire 1; KFinish 0]) =
  [(Some XNegotiate, S_ALL_OPTIONS); (Some XConnect, S_CONTINUE); (Some XHelo, S_TEMPORARY_FAILURE)].
Proof. vm_compute. reflexivity. Qed.
(** With its failure replaced by its fallback, and the refusal of the evaluated filter by accept
    (C30, C31), after another history (C32). *)
Example C30_example :
  mta_sees judged (start2 ++ Mta helo ::
                   [KFlushed 1; KFlushed 0; KReply 0 RAccept; KFlushed 0; KFinish 0;
                    KReply 1 RTemporaryFailure; KFlushed 1; KFinish 1]) =
  [(Some XNegotiate, S_ALL_OPTIONS); (Some XConnect, S_CONTINUE); (Some XHelo, S_TEMPORARY_FAILURE)].
Proof. vm_compute. reflexivity. Qed.
Example C31_example :
  let w := world_of judged (start2 ++ envelope2 ++ content ++ [KFlushed 0]) in
  k_state (child_of w 0) = XEndOfMessage /\ k_evaluation (child_of w 0) = true /\
  w_crashed w = false /\
  (** the same request of a filter that counts *)
  m_headers (w_mail (world_of two (start2 ++ envelope2 ++ content ++
                                   says 0 (RAddHeader (lit "x") (lit "y"))))) =
  Some [mk_header (lit "a") (Some (lit "b")); mk_header (lit "x") (Some (lit "y"))].
Proof. vm_compute. auto. Qed.
Example C32_example :
  mta_sees two (start2 ++ [Mta (CEnvelopeFrom (lit "f"))] ++ goes_on 0 ++ says 1 RReject ++
                [KFlushed 0; KFlushed 1] ++ [Mta (CEnvelopeFrom (lit "g"))] ++ both_on) =
  [(Some XNegotiate, S_ALL_OPTIONS); (Some XConnect, S_CONTINUE); (Some XFrom, S_REJECT);
   (Some XFrom, S_CONTINUE)].
Proof. vm_compute. reflexivity. Qed.

(** C29, C33: a whole message with a change, each command answered before the next. *)
Definition changed_message : list op :=
  start1 ++ envelope1 ++ content ++ [KFlushed 0; KReply 0 (RAddHeader (lit "x") (lit "y")); KReply 0 RContinue].
Example C29_end_example :
  waiting (l_state (g_leader (plain_run one (start1 ++ envelope1 ++ removelast content)))) = false /\
  responses XEndOfMessage (l_trace (g_leader (plain_run one changed_message))) = 1%nat /\
  passed_changes (l_trace (g_leader (plain_run one changed_message))) =
    [OHeader (HInsert 1 (lit "x") (Some (lit "y")))].
Proof. vm_compute. split; [reflexivity|]. split; reflexivity. Qed.
(** C30: what the filter that timed out says later. *)
Example C30_ignored_example :
  let ops := start2 ++ Mta helo ::
             [KFlushed 1; KFlushed 0; KReply 0 RReject; KFlushed 0; KFire 1; KFinish 0] in
  mta_sees judged (ops ++ [KReply 1 RReject; KReply 1 RContinue; KFail 1; KFinish 1]) = mta_sees judged ops.
Proof. vm_compute. reflexivity. Qed.

(** *** Where the properties fail *)

(** C29: the connection of the only filter breaks before the command has been written to it: the
    MTA never gets an answer. *)
Theorem C29_failure_while_writing_refuted :
  mta_sees one start1 = [(Some XNegotiate, S_ALL_OPTIONS); (Some XConnect, S_CONTINUE)] /\
  mta_sees one (start1 ++ [Mta helo; KFail 0]) = mta_sees one start1.
Proof. vm_compute. auto. Qed.
Print Assumptions C29_failure_while_writing_refuted.

(** C29: a filter answers "550 User unknown" without an enhanced status code: the text is taken
    for one, the MTA's context refuses it, and no answer is given. *)
Theorem C29_plain_reply_code_refuted :
  mta_sees one (start1 ++ Mta helo ::
                says 0 (RReplyCode 550 (lit "User") (Some (lit "unknown"))) ++ [KFlushed 0; KFinish 0]) =
  mta_sees one start1.
Proof. vm_compute. reflexivity. Qed.
Print Assumptions C29_plain_reply_code_refuted.

(** C29: once the last filter has failed the next command gets two answers. *)
Theorem C29_two_answers_refuted :
  mta_sees one (start1 ++ [Mta helo; KFlushed 0; KFail 0; Mta (CEnvelopeFrom (lit "f"))]) =
  mta_sees one start1 ++ [(Some XHelo, S_ACCEPT); (Some XFrom, S_TEMPORARY_FAILURE);
                          (None, S_TEMPORARY_FAILURE)].
Proof. vm_compute. reflexivity. Qed.
Print Assumptions C29_two_answers_refuted.

(** C30: when a filter times out at the end of the message the filters behind it do not get the
    message at all; with the fallback "accept" it is accepted unseen, whatever they would say. *)
Theorem C30_later_filters_bypassed_refuted :
  let ops := start2 ++ envelope2 ++ content ++ [KFlushed 0; KFire 0] in
  last (mta_sees two ops) (None, S_DEFAULT) = (Some XEndOfMessage, S_ACCEPT) /\
  seen_by 1 two ops = [CNegotiate full; CConnect (lit "h") AUnspec; CEnvelopeFrom (lit "f");
                       CEnvelopeRecipient (lit "r"); CData].
Proof. vm_compute. auto. Qed.
Print Assumptions C30_later_filters_bypassed_refuted.

(** C31: a filter in evaluation mode that refuses the message at its end makes the manager accept
    it without showing it to the filters behind. *)
Theorem C31_later_filters_bypassed_refuted :
  let filters := [(S_ACCEPT, true); (S_REJECT, false)] in
  let message := start2 ++ envelope2 ++ content in
  let envelope := [CNegotiate full; CConnect (lit "h") AUnspec; CEnvelopeFrom (lit "f");
                   CEnvelopeRecipient (lit "r"); CData] in
  last (mta_sees filters (message ++ says 0 RReject)) (None, S_DEFAULT) = (Some XEndOfMessage, S_ACCEPT) /\
  seen_by 1 filters (message ++ says 0 RReject) = envelope ++ [CAbort] /\
  seen_by 1 filters (message ++ says 0 RAccept) = envelope ++ [CHeader (lit "a") (lit "b")].
Proof. vm_compute. auto. Qed.
Print Assumptions C31_later_filters_bypassed_refuted.

(** C31: a filter in evaluation mode that fails still counts as its fallback. *)
Theorem C31_failure_counts_refuted :
  mta_sees [(S_REJECT, true)] (start1 ++ [Mta helo; KFlushed 0; KFire 0]) =
  mta_sees [(S_REJECT, true)] start1 ++ [(Some XHelo, S_REJECT)].
Proof. vm_compute. reflexivity. Qed.
Print Assumptions C31_failure_counts_refuted.

(** C31: the reply code of a filter in evaluation mode is what the MTA is shown when another
    filter refuses. *)
Definition codes (filters : list (status * bool)) (ops : list op) : list (N * bytes * option bytes) :=
  flat_map (fun e => match e with LSaw (OAnswerCode c e m) => [(c, e, m)] | _ => [] end)
           (l_trace (g_leader (plain_run filters ops))).
Theorem C31_reply_code_shown_refuted :
  let filters := [(S_ACCEPT, true); (S_REJECT, false)] in
  let session r := start2 ++ [Mta (CEnvelopeFrom (lit "f"))] ++ says 0 r ++ says 1 RReject in
  codes filters (session (RReplyCode 550 (lit "5.7.1") (Some (lit "spam")))) =
    [(550, lit "5.7.1", Some (lit "spam"))] /\
  codes filters (session RAccept) = [].
Proof. vm_compute. auto. Qed.
Print Assumptions C31_reply_code_shown_refuted.

(** C32: once a message has been refused at its end all later messages of the connection are, for
    the verdict is kept. *)
Theorem C32_refused_once_refused_ever_refuted :
  let message v := envelope1 ++ content ++ says 0 v in
  last (mta_sees one (start1 ++ message RContinue)) (None, S_DEFAULT) = (Some XEndOfMessage, S_CONTINUE) /\
  last (mta_sees one (start1 ++ message RReject ++ [KFlushed 0] ++ message RContinue)) (None, S_DEFAULT)
    = (Some XEndOfMessage, S_REJECT).
Proof. vm_compute. auto. Qed.
Print Assumptions C32_refused_once_refused_ever_refuted.

(** C25, C30: a header edit after the final answer dereferences NULL. *)
Theorem C30_late_edit_crash_refuted :
  w_crashed (world_of one (start1 ++ envelope1 ++ content ++ goes_on 0)) = false /\
  w_crashed (world_of one (start1 ++ envelope1 ++ content ++ goes_on 0 ++
                           [KReply 0 (RAddHeader (lit "x") (lit "y"))])) = true.
Proof. vm_compute. auto. Qed.
Print Assumptions C30_late_edit_crash_refuted.

(** C29: with "no reply to body" negotiated the MTA announces the end of the message without
    waiting.  What the filter says to that is given to the MTA as its answer to the body; there is
    never one for the end of the message. *)
Definition silent_body : moption := mk_option 6 0x1ff 0x80000.
Theorem C29_end_answered_as_body_refuted :
  let ops := [Mta (CNegotiate silent_body); KReady 0; KFlushed 0; KReply 0 (RNegotiate silent_body None);
              Mta (CConnect (lit "h") AUnspec)] ++ goes_on 0 ++ envelope1 ++
             [Mta (CHeader (lit "a") (lit "b"))] ++ goes_on 0 ++ [Mta CEndOfHeader] ++ goes_on 0 ++
             [Mta (CBody (lit "body")); KFlushed 0; Mta (CEndOfMessage None)] ++ says 0 RReject in
  filter (fun e => match e with LNegotiated _ _ => true | _ => false end)
         (l_trace (g_leader (plain_run one ops))) = [LNegotiated silent_body []] /\
  last (mta_sees one ops) (None, S_DEFAULT) = (Some XBody, S_REJECT) /\
  responses XEndOfMessage (l_trace (g_leader (plain_run one ops))) = 0%nat /\
  times_asked XEndOfMessage ops = 1%nat.
Proof. vm_compute. auto. Qed.
Print Assumptions C29_end_answered_as_body_refuted.
