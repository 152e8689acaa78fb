(** C43, C44: what the MTA and the filters are told in a negotiation. *)
From Verif.Base Require Import Bytes.
From Verif.Model Require Import Decoder CommandCodec ReplyCodec Status Option Headers Macros ReplyCode
                                Client Server Children.
From Verif.Spec Require Import NegotiationSpec.
From Verif.Proofs Require Import NegotiationProofs.
Local Open Scope N_scope.

(** Whatever the MTA, the filters and the network do: whenever the MTA is answered, the answer is
    one to its last offer; the version is the offered one but at most 6; the steps are offered
    ones, none of them declines commands, and those to be wanted were asked for by a filter; the
    actions are all the offered ones and those that some filter asked for since.  Not covered: that
    the actions are offered ones, which is false. *)
Theorem C43_answer_partial writes stops chunk_size collate_equal depth filters ops later a reqs earlier :
  w_trace (children_run writes stops chunk_size collate_equal depth (world_new filters) ops) =
  later ++ ONegotiate a reqs :: earlier ->
  exists o since, since_offer earlier = Some (o, since) /\ fair earlier o since a.
Proof. exact (run_events writes stops chunk_size collate_equal depth filters ops later _ earlier). Qed.
Print Assumptions C43_answer_partial.

(** If the filters keep to the offer the answer does. *)
Theorem C43_honest_filters_partial writes stops chunk_size collate_equal depth filters ops later a reqs
  earlier o since :
  w_trace (children_run writes stops chunk_size collate_equal depth (world_new filters) ops) =
  later ++ ONegotiate a reqs :: earlier ->
  since_offer earlier = Some (o, since) ->
  (forall h, List.In h (heard since) -> within (o_action h) (o_action o)) ->
  o_version a <= o_version o /\ o_action a = o_action o /\ within (o_step a) (o_step o).
Proof.
  intros E S H. destruct (C43_answer_partial _ _ _ _ _ _ _ _ _ _ _ E) as (o' & es & S' & F).
  rewrite S in S'. injection S' as <- <-. split; [rewrite (fair_version _ _ _ _ F); apply N.le_min_l|].
  split; [|exact (fair_steps _ _ _ _ F)]. apply N.bits_inj. intros n.
  destruct (N.testbit (o_action o) n) eqn:B; [exact (fair_offered _ _ _ _ F n B)|].
  destruct (N.testbit (o_action a) n) eqn:C; [|reflexivity].
  destruct (fair_actions _ _ _ _ F n C) as [D|(h & Hh & D)]; [congruence|].
  rewrite (H h Hh n D) in B. discriminate.
Qed.
Print Assumptions C43_honest_filters_partial.

(** Two filters, one that wants skip and declines connect, one that wants neither and changes
    nothing; the MTA speaks version 7. *)
Definition run2 (ops : list op) : world :=
  children_run (fun _ => Taken) (fun _ => false) 520 bytes_eqb 10
               (world_new [(S_ACCEPT, false); (S_ACCEPT, false)]) ops.
Definition answered (w : world) : list moption :=
  flat_map (fun e => match e with ONegotiate a _ => [a] | _ => [] end) (w_trace w).
Definition offered_to (i : nat) (w : world) : list moption :=
  flat_map (fun e => match e with OSent j (CNegotiate a) => if Nat.eqb i j then [a] else [] | _ => [] end)
           (w_trace w).
Definition connects (i : nat) : list op := [KReady i; KFlushed i].
Definition offer7 : moption := mk_option 7 0x1f (N.lor STEP_SKIP (N.lor STEP_NO_CONNECT STEP_NO_REPLY_HELO)).
Example C43_two_filters :
  answered (run2 ([Mta (CNegotiate offer7)] ++ connects 0 ++ connects 1 ++
    [KReply 0 (RNegotiate (mk_option 6 0x3 (N.lor STEP_SKIP (N.lor STEP_NO_CONNECT STEP_NO_REPLY_HELO))) None);
     KReply 1 (RNegotiate (mk_option 2 0 STEP_NO_REPLY_HELO) None)])) =
  [mk_option 6 0x1f (N.lor STEP_SKIP STEP_NO_REPLY_HELO)].
Proof. vm_compute. reflexivity. Qed.

(** A filter asks for actions beyond the offer: so does the manager. *)
Theorem C43_actions_refuted :
  answered (run2 ([Mta (CNegotiate (mk_option 6 A_ADD_HEADERS 0))] ++ connects 0 ++ connects 1 ++
    [KReply 0 (RNegotiate (mk_option 6 A_ADD_HEADERS 0) None);
     KReply 1 (RNegotiate (mk_option 6 A_CHANGE_BODY 0) None)])) =
  [mk_option 6 (N.lor A_ADD_HEADERS A_CHANGE_BODY) 0].
Proof. vm_compute. reflexivity. Qed.
Print Assumptions C43_actions_refuted.

(** What is offered to a filter is the last offer of the MTA, version at most 6, as long as no
    filter has answered it.  Not covered: the filters that are connected later. *)
Theorem C44_offered_partial writes stops chunk_size collate_equal depth filters ops later i a earlier :
  w_trace (children_run writes stops chunk_size collate_equal depth (world_new filters) ops) =
  later ++ OSent i (CNegotiate a) :: earlier ->
  exists o since, since_offer earlier = Some (o, since) /\
    (unanswered since = true -> a = mk_option (N.min (o_version o) 6) (o_action o) (o_step o)).
Proof. exact (run_events writes stops chunk_size collate_equal depth filters ops later _ earlier). Qed.
Print Assumptions C44_offered_partial.

Example C44_two_filters :
  let w := run2 ([Mta (CNegotiate offer7)] ++ connects 0 ++ connects 1) in
  offered_to 0 w = [mk_option 6 0x1f (o_step offer7)] /\ offered_to 1 w = [mk_option 6 0x1f (o_step offer7)].
Proof. vm_compute. auto. Qed.

(** A filter that is connected after another one has answered is not offered the steps this one
    did not ask for, and offered actions the MTA does not support. *)
Theorem C44_late_filter_refuted :
  let offer := mk_option 6 A_ADD_HEADERS (N.lor STEP_SKIP STEP_NO_HELO) in
  offered_to 1 (run2 ([Mta (CNegotiate offer)] ++ connects 0 ++
    [KReply 0 (RNegotiate (mk_option 6 A_CHANGE_BODY STEP_SKIP) None)] ++ connects 1)) =
  [mk_option 6 (N.lor A_ADD_HEADERS A_CHANGE_BODY) STEP_SKIP].
Proof. vm_compute. reflexivity. Qed.
Print Assumptions C44_late_filter_refuted.
