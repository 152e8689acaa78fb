(** C28: the bytes given to a writer and the reports that they are flushed. *)
From Verif.Base Require Import Bytes.
From Verif.Model Require Import Writer.
From Verif.Spec Require Import WriterSpec.
From Verif.Proofs Require Import WriterProofs.
Local Open Scope nat_scope.

(** Whatever the channel does, whatever the owner and the handlers of the signals call, after
    errors and shutdowns too: what is on the wire is a beginning of what was queued. *)
Theorem C28_order react d ops :
  exists rest, queued (wr_trace (writer_run react d ops)) = transmitted (wr_trace (writer_run react d ops)) ++ rest.
Proof.
  exists (wr_taken (writer_run react d ops) ++ wr_buffer (writer_run react d ops)).
  symmetry. exact (run_whole react d ops).
Qed.
Print Assumptions C28_order.

(** Up to the first error or shutdown every report answers flush calls of its own, and what was
    queued before them is on the wire.  Not covered: reports after an error and at a shutdown, for
    which this is false. *)
Theorem C28_reports_partial react d ops later t :
  wr_trace (writer_run react d ops) = later ++ t -> undisturbed t -> exists waiting, answers t waiting.
Proof. intros E U. exact (fine_safe _ _ _ (fine_run react d ops) later t E U). Qed.
Print Assumptions C28_reports_partial.

(** In particular there are not more reports than calls, and at a report all that was queued before
    any flush call made before the previous report is on the wire. *)
Lemma answers_count t waiting : answers t waiting -> count_reports t + length waiting <= count_calls t.
Proof.
  induction 1 as [|t ms A IH|t a ms A IH N F P|e t ms N1 N2 A IH]; cbn [count_calls count_reports length].
  - apply le_n.
  - rewrite app_length. cbn [length]. lia.
  - rewrite app_length in IH. destruct a; [congruence|]. cbn [length] in IH. lia.
  - destruct e; congruence || exact IH.
Qed.
Theorem C28_report_count_partial react d ops later t :
  wr_trace (writer_run react d ops) = later ++ t -> undisturbed t -> count_reports t <= count_calls t.
Proof.
  intros E U. destruct (C28_reports_partial react d ops later t E U) as (m & A).
  apply answers_count in A. lia.
Qed.
Print Assumptions C28_report_count_partial.

(** What the only user of writers, the agent, does: each packet is written and flushed at once, also
    by handlers.  Then, as long as nothing fails, bytes not on the wire are never forgotten: if the
    channel takes them, they get there and this is reported. *)
Theorem C28_agent_progress_partial react d ops :
  (forall t, agent_calls (react t)) -> agent_ops ops ->
  let w := writer_run react d ops in
  undisturbed (wr_trace w) -> transmitted (wr_trace w) <> queued (wr_trace w) ->
  forall n, length (queued (wr_trace w)) <= n ->
  let w' := writer_run react d (ops ++ [CanWrite (mk_write_out n 0 false); CanFlush Done]) in
  exists later t, wr_trace w' = later ++ EFlushed :: t /\ transmitted t = queued t /\
    exists l, t = l ++ wr_trace w.
Proof. exact (agent_progress react d ops). Qed.
Print Assumptions C28_agent_progress_partial.

(** Two packets over a slow channel; the report of the first makes the owner send a third. *)
Definition answer_once (t : list wevent) : list wcall :=
  match t with
  | EFlushed :: t => if 0 <? count_reports t then [] else [Write (lit "third"); Flush]
  | _ => []
  end.
Definition slow (n : nat) : wop := CanWrite (mk_write_out n 1 false).
Definition slow_run : list wop :=
  [Start; Call (Write (lit "first")); Call Flush; slow 2; Call (Write (lit "second")); Call Flush;
   slow 0; slow 4; slow 9; CanFlush (Again 3); CanFlush Done; slow 2; slow 3].
Example C28_slow :
  let w := writer_run answer_once 3 slow_run in
  count_reports (wr_trace w) = 1 /\ count_calls (wr_trace w) = 3 /\
  queued (wr_trace w) = lit "firstsecondthird" /\ transmitted (wr_trace w) = lit "firstsecondth" /\
  undisturbed (wr_trace w).
Proof. vm_compute. repeat split; try reflexivity; intuition discriminate. Qed.
Example C28_slow_agent : (forall t, agent_calls (answer_once t)) /\ agent_ops slow_run.
Proof.
  split.
  - intros t. unfold answer_once. destruct t as [|e t]; [constructor|]. destruct e; try constructor.
    destruct (0 <? count_reports t); [constructor|]. apply agent_packet; [discriminate|constructor].
  - unfold slow_run. apply ops_other; [discriminate|]. apply ops_packet; [discriminate|].
    apply ops_other; [discriminate|]. apply ops_packet; [discriminate|].
    repeat (apply ops_other; [discriminate|]). constructor.
Qed.

(** At a shutdown one attempt is made to write what is left.  The rest is dropped, and this is
    reported as flushed. *)
Definition cut_short : list wop :=
  [Start; Call (Write (lit "goodbye")); Call Flush; Call (Shutdown (mk_write_out 4 0 false) Done)].
Theorem C28_shutdown_refuted :
  wr_trace (writer_run (fun _ => []) 3 cut_short) =
    [EFlushed; ETransmitted (lit "good"); EShutdown; EFlushCalled; EQueued (lit "goodbye")] /\
  forall ops, let t := wr_trace (writer_run (fun _ => []) 3 (cut_short ++ ops)) in
    queued t = lit "goodbye" /\ transmitted t = lit "good".
Proof.
  split; [reflexivity|]. intros ops. unfold writer_run. rewrite fold_left_app.
  assert (H : forall ops w, (exists t, queued t = lit "goodbye" /\ transmitted t = lit "good" /\
            w = mk_writer false false (lit "bye") 7 false false false [] t) ->
            queued (wr_trace (fold_left (writer_step (fun _ => []) 3) ops w)) = lit "goodbye" /\
            transmitted (wr_trace (fold_left (writer_step (fun _ => []) 3) ops w)) = lit "good").
  { clear ops. induction ops as [|o ops IH]; intros w (t & A & B & ->); [split; [exact A|exact B]|].
    cbn [fold_left]. apply IH. destruct o as [|[c| |a b]|o|o|].
    2, 3: exists (ERefused :: t); split; [exact A|split; [exact B|reflexivity]].
    all: exists t; split; [exact A|split; [exact B|reflexivity]]. }
  apply H. exists [EFlushed; ETransmitted (lit "good"); EShutdown; EFlushCalled; EQueued (lit "goodbye")].
  split; [reflexivity|]. split; [reflexivity|]. vm_compute. reflexivity.
Qed.
Print Assumptions C28_shutdown_refuted.

(** A flush asked for when the bytes were taken but the watch is still there is forgotten: nothing
    is left to be done and the bytes are not on the wire. *)
Theorem C28_forgotten_flush_refuted :
  let w := writer_run (fun _ => []) 3
    [Start; Call (Write (lit "data")); CanWrite (mk_write_out 4 0 false); Call Flush; CanWrite (mk_write_out 4 0 false)] in
  wr_write_watch w = false /\ wr_flush_watch w = false /\ transmitted (wr_trace w) = [] /\
  queued (wr_trace w) = lit "data" /\ count_calls (wr_trace w) = 1 /\ count_reports (wr_trace w) = 0 /\
  undisturbed (wr_trace w).
Proof. vm_compute. repeat split; try reflexivity; intuition discriminate. Qed.
Print Assumptions C28_forgotten_flush_refuted.

(** So is one asked for by a handler of the report. *)
Theorem C28_forgotten_nested_refuted :
  let w := writer_run (fun t => match t with EFlushed :: _ => [Flush] | _ => [] end) 3
    [Start; Call Flush; CanFlush Done] in
  wr_write_watch w = false /\ wr_flush_watch w = false /\ wr_loop w = true /\
  wr_trace w = [EFlushCalled; EFlushed; EFlushCalled].
Proof. vm_compute. repeat split; reflexivity. Qed.
Print Assumptions C28_forgotten_nested_refuted.

(** After a failed write a flush is reported though the bytes are not on the wire. *)
Theorem C28_flushed_after_error_refuted :
  let w := writer_run (fun _ => []) 3
    [Start; Call (Write (lit "data")); CanWrite (mk_write_out 0 0 true); Call Flush; CanFlush Done] in
  wr_trace w = [EFlushed; EFlushCalled; EError; EQueued (lit "data")].
Proof. reflexivity. Qed.
Print Assumptions C28_flushed_after_error_refuted.
