(** C41: the recipients of a message are accounted for, over whole histories.

    Each theorem is about the history of the context of one filter after any sequence of calls,
    flushes, replies and timeouts, with any outcome of the writes, any answers of the stop handlers
    and handlers that call back into the context, except from the report itself.  Recipients may be
    named before the one before them is answered, more than once, and refused late.  Histories are
    latest first. *)
From Verif.Base Require Import Bytes.
From Verif.Model Require Import Decoder Encoder CommandCodec ReplyCodec Status Option Macros Client
                                Server.
From Verif.Spec Require Import ServerSpec MessageReportSpec RecipientSpec.
From Verif.Proofs Require Import ExampleOracles RecipientReport.
From Coq Require Import Permutation.
Local Open Scope N_scope.

Section Recipients.
  Variables (ntop4 ntop6 : bytes -> bytes).
  Variable sort_keys : list bytes -> list bytes.
  Variable writes : list event -> write_outcome.
  Variable stops : list event -> bool.
  Variable handlers : list event -> option api.
  Variable depth : nat.
  Notation after ops :=
    (server_run ntop4 ntop6 sort_keys writes stops handlers depth server_new ops).
  Notation history ops := (sv_trace (after ops)).

  (** Every refusal in the message is in the list for its kind, in order, with the recipient named
      last if it was not refused before. *)
  Theorem C41_refused ops later m t :
    (forall m t, handlers (Processed m :: t) = None) ->
    history ops = later ++ Processed m :: t ->
    mr_tempfailed m = refused S_TEMPORARY_FAILURE t /\ mr_rejected m = refused S_REJECT t.
  Proof.
    intros Hq E.
    destruct (run_R ntop4 ntop6 sort_keys writes stops handlers Hq depth ops) as [H _].
    rewrite E in H. apply reports_at in H. destruct (ledger_refused t) as [H1 H2].
    rewrite <- H1, <- H2, <- H. split; reflexivity.
  Qed.

  (** Nobody is lost or made up: the three lists together are the recipients named, each as often
      as it was named.  If nobody was named twice everybody is in exactly one list, and the
      recipients left are in the order in which they were named. *)
  Theorem C41_conserved ops later m t :
    (forall m t, handlers (Processed m :: t) = None) ->
    history ops = later ++ Processed m :: t -> orderly t ->
    let gone := known (mr_tempfailed m) ++ known (mr_rejected m) in
    Permutation (mr_recipients m ++ gone) (named_in t) /\
    (NoDup (named_in t) ->
     NoDup (mr_recipients m ++ gone) /\
     mr_recipients m = filter (fun r => negb (existsb (bytes_eqb r) gone)) (named_in t)).
  Proof.
    intros Hq E Ho gone. destruct (C41_refused ops later m t Hq E) as [E1 E2].
    destruct (run_R ntop4 ntop6 sort_keys writes stops handlers Hq depth ops) as [H _].
    rewrite E in H. apply reports_at in H.
    assert (E3 : mr_recipients m = k_left (ledger t)) by (now rewrite <- H).
    assert (E4 : gone = struck t) by (unfold gone, struck; now rewrite E1, E2).
    rewrite E3, E4. pose proof (ledger_conserved t Ho) as P.
    split; [exact P|]. intros Hd. split.
    - exact (Permutation_NoDup (Permutation_sym P) Hd).
    - exact (ledger_distinct t Ho Hd).
  Qed.

  (** At any time the context has an accepted recipient exactly if none was refused in the message
      so far or somebody was named more often than refused. *)
  Theorem C41_has_accepted ops :
    (forall m t, handlers (Processed m :: t) = None) ->
    sv_crashed (after ops) = false -> let t := history ops in orderly t ->
    let temp := refused S_TEMPORARY_FAILURE t in
    let rejected := refused S_REJECT t in
    has_accepted_recipient (after ops) = true <->
    (temp = [] /\ rejected = []) \/
    exists r, (times r (known temp ++ known rejected) < times r (named_in t))%nat.
  Proof.
    intros Hq Hc t Ho temp rejected.
    destruct (run_R ntop4 ntop6 sort_keys writes stops handlers Hq depth ops) as [_ H].
    destruct (H Hc) as (Hk & _). fold t in Hk. destruct (ledger_refused t) as [E1 E2].
    fold temp in E1. fold rejected in E2.
    pose proof (ledger_left t Ho) as HL. unfold struck in HL. fold temp rejected in HL. rewrite <- HL. clear HL.
    unfold has_accepted_recipient. rewrite <- Hk in E1, E2 |- *. unfold kept in *.
    destruct (sv_message (after ops)) as [m|]; cbn [of_lists k_temp k_rejected k_left] in *.
    - rewrite <- E1, <- E2.
      destruct (mr_tempfailed m), (mr_rejected m), (mr_recipients m);
        split; intros HH; try reflexivity; try discriminate HH;
        try (left; split; reflexivity); try (right; discriminate);
        destruct HH as [[]|]; congruence.
    - split; [intros _; left; split; [now rewrite <- E1|now rewrite <- E2]|reflexivity].
  Qed.
End Recipients.
Print Assumptions C41_refused.
Print Assumptions C41_conserved.
Print Assumptions C41_has_accepted.

Definition plain_run (ops : list op) : server :=
  server_run toy_ntop toy_ntop (fun l => l) (fun _ => Taken) (fun _ => false) (fun _ => None) 0
             server_new ops.
Definition plain (ops : list op) : list event := sv_trace (plain_run ops).
Definition all_steps : moption := mk_option 6 511 0.
Definition greeting : list op :=
  [Call (ANegotiate all_steps); Flushed; Receive (RNegotiate all_steps None);
   Call (AFrom (lit "<s@t>")); Flushed; Receive RContinue].
Definition to (r : string) : op := Call (ARcpt (lit r)).
Definition finish : list op := [Call (AEndOfMessage None); Flushed; Receive RContinue].

(** Accepted, rejected, named twice and refused once; a refusal that comes late. *)
Definition busy_ops : list op :=
  greeting ++ [to "<a>"; Flushed; Receive RContinue; to "<b>"; Flushed; Receive RReject;
               to "<a>"; Flushed; Receive RContinue; Receive RTemporaryFailure;
               to "<c>"; Flushed; Receive RContinue] ++ finish.

Example C41_history_example :
  exists m t, plain busy_ops = [] ++ Processed m :: t /\ orderly t /\
    named_in t = [lit "<a>"; lit "<b>"; lit "<a>"; lit "<c>"] /\
    mr_recipients m = [lit "<a>"; lit "<c>"] /\ mr_tempfailed m = [Some (lit "<a>")] /\
    mr_rejected m = [Some (lit "<b>")] /\ has_accepted_recipient (plain_run busy_ops) = true.
Proof.
  do 2 eexists. split; [vm_compute; reflexivity|].
  split; [cbn; repeat split; auto; right; discriminate|]. repeat split.
Qed.
Example C41_distinct_example :
  exists m t,
    plain (greeting ++ [to "<a>"; Flushed; Receive RContinue; to "<b>"; Flushed; Receive RReject;
                        to "<c>"; Flushed; Receive RContinue] ++ finish) = [] ++ Processed m :: t /\
    orderly t /\ named_in t = [lit "<a>"; lit "<b>"; lit "<c>"] /\
    mr_recipients m = [lit "<a>"; lit "<c>"].
Proof.
  do 2 eexists. split; [vm_compute; reflexivity|].
  split; [cbn; repeat split; auto; right; discriminate|]. repeat split.
Qed.
(** All were refused. *)
Example C41_none_accepted_example :
  let ops := greeting ++ [to "<a>"; Flushed; Receive RReject; to "<b>"; Flushed; Receive RTemporaryFailure] in
  sv_crashed (plain_run ops) = false /\ orderly (plain ops) /\
  named_in (plain ops) = [lit "<a>"; lit "<b>"] /\ has_accepted_recipient (plain_run ops) = false.
Proof.
  cbn zeta. split; [reflexivity|]. split; [|split; reflexivity].
  match goal with |- orderly ?t => let t' := eval vm_compute in t in change (orderly t') end.
  cbn. repeat split; auto; right; discriminate.
Qed.

(** A refusal that comes after the report of the message is charged to the next message: its report
    lists as rejected a recipient it never had. *)
Definition late_ops : list op :=
  greeting ++ [to "<a>"; Flushed; Receive RDiscard; Receive RReject;
               Call (AFrom (lit "<s@t>")); Flushed; Receive RContinue;
               to "<b>"; Flushed; Receive RContinue] ++ finish.
Theorem C41_late_refuted :
  exists m t, plain late_ops = Processed m :: t /\ named_in t = [lit "<b>"] /\
    mr_recipients m = [lit "<b>"] /\ mr_rejected m = [Some (lit "<a>")].
Proof. do 2 eexists. split; [vm_compute; reflexivity|]. repeat split. Qed.
Print Assumptions C41_late_refuted.

(** A recipient named while the one before is not answered yet is not sent to the filter, and the
    call says so; all the same it is listed, and the refusal of the one before is charged to it. *)
Definition hasty_ops : list op :=
  greeting ++ [to "<a>"; Flushed; to "<b>"; Receive RReject] ++ finish.
Definition sent_recipient (e : event) : bool :=
  match e with Sent XRcpt _ _ | Lost XRcpt _ _ => true | _ => false end.
Theorem C41_hasty_refuted :
  exists m t, plain hasty_ops = Processed m :: t /\ named_in t = [lit "<a>"; lit "<b>"] /\
    length (filter sent_recipient t) = 1%nat /\ List.In (Return false) t /\
    mr_recipients m = [lit "<a>"] /\ mr_rejected m = [Some (lit "<b>")].
Proof. do 2 eexists. split; [vm_compute; reflexivity|]. repeat split. cbn. auto 20. Qed.
Print Assumptions C41_hasty_refuted.
