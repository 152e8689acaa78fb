(** C81, C82: the course of a message whose filters leave it or refuse it. *)
From Verif.Base Require Import Bytes.
From Verif.Model Require Import Decoder Encoder CommandCodec ReplyCodec Status Option Headers Macros
                                ReplyCode Client Server Children Leader.
From Verif.Props Require Import P09_Manager P10_Message.
From Verif.Spec Require Import HeaderSpec ManagerSpec MessageSpec CourseSpec LeaderSpec.
From Verif.Proofs Require Import MessageProofs CourseProofs.
Local Open Scope N_scope.

(** The filters [k :: ks] take part in the message; each may at every command go on, leave the
    message ("accept") or refuse it.  [course] says what everyone then sees: the MTA gets one answer
    to each command; the next filter is given the message as it is when the one before leaves or is
    through; a refusal is the MTA's answer and ends the message, those still taking part are told to
    abort it; without a refusal the MTA is told the changes and that the message passes.  Nothing
    else is sent to anyone.
    Missing, hence "partial": messages without headers, or without body when a filter is given one
    that another left; "skip"; filters that negotiated not to get some commands or not to answer
    them; failures and timeouts during the content. *)
Theorem C81_course_partial
  (writes : list event -> write_outcome) (stops : list event -> bool) (chunk_size : N)
  (collate_equal : bytes -> bytes -> bool) (depth : nat) negotiated fresh said k ks w :
  (forall t, writes t = Taken) -> (forall t, stops t = false) -> 0 < chunk_size <= 65535 ->
  begins negotiated (k :: ks) w -> remembers fresh said w ->
  exists final, (forall original c, changes chunk_size original c (final original c)) /\
    forall cs ops es,
    course chunk_size (length (w_children w)) (left_at_from w) fresh (no_code w) final
           said XData [] [] k ks cs ops es ->
    let w' := children_run writes stops chunk_size collate_equal (S depth) w ops in
    w_crashed w' = false /\
    filter visible (rev (w_trace w')) = filter visible (rev (w_trace w)) ++ es.
Proof.
  intros Hw Hs Hc B R. exists (final_events chunk_size).
  split; [exact (final_changes chunk_size collate_equal Hc)|].
  intros cs ops es Co. cbv zeta.
  destruct (course_from_the_start writes stops chunk_size collate_equal Hw Hs Hc (f_code (w_flow w)) negotiated
              (length (w_children w)) (left_at_from w) fresh depth said k ks cs ops es w B eq_refl R eq_refl
              (fun _ => eq_refl) Co) as (Cr & all & Ha & Ht).
  split; [exact Cr|]. rewrite Ht, rev_app_distr, rev_involutive, filter_app, Ha. reflexivity.
Qed.
Print Assumptions C81_course_partial.

(** Three filters (see P10_Message): the first leaves at the end of the headers, the second is only
    evaluated and goes on, the third asks for a quarantine and then refuses. *)
Definition leaver : worker := mk_worker 0 false false [].
Definition refuser : worker := mk_worker 2 false false [RQuarantine (lit "why")].
Definition refused_ops : list op :=
  [Mta (CHeader (lit "a") (lit " 1"))] ++ goes_on_with 0 ++
  [Mta CEndOfHeader] ++ [KFlushed 0; KReply 0 RAccept] ++ goes_on_with 1 ++ goes_on_with 1 ++
  [Mta (CBody (lit "bodyend"))] ++ goes_on_with 1 ++
  [Mta (CEndOfMessage None)] ++ [KFlushed 1; KReply 1 (RDeleteHeader (lit "a") 1); KReply 1 RProgress; KReply 1 RContinue] ++
  goes_on_with 2 ++ goes_on_with 2 ++ goes_on_with 2 ++ goes_on_with 2 ++
  [KFlushed 2; KReply 2 (RQuarantine (lit "why")); KReply 2 (RReplyCode 550 (lit "5.7.1") (Some (lit "no")))].
Definition refused_events (final : list event) : list event :=
  [OSent 0 (CHeader (lit "a") (lit " 1")); OAnswer S_CONTINUE;
   OSent 0 CEndOfHeader; OSent 1 (CHeader (lit "a") (lit "1")); OSent 1 CEndOfHeader; OAnswer S_CONTINUE;
   OSent 1 (CBody (lit "bodyend")); OAnswer S_CONTINUE;
   OSent 1 (CEndOfMessage None); OProgress;
   OSent 2 (CHeader (lit "a") (lit " 1")); OSent 2 CEndOfHeader; OSent 2 (CBody (lit "body"));
   OSent 2 (CBody (lit "end")); OSent 2 (CEndOfMessage None)] ++ final ++
  [OAnswerCode 550 (lit "5.7.1") (Some (lit "no")); OSent 1 CAbort].
Example C81_example : exists final,
  changes 4 [header_a] (mk_content [header_a] (lit "bodyend") false None (Some (lit "why"))) final /\
  let w' := children_run (fun _ => Taken) (fun _ => false) 4 bytes_eqb 3 three_before refused_ops in
  w_crashed w' = false /\
  filter visible (rev (w_trace w')) = filter visible (rev (w_trace three_before)) ++ refused_events final.
Proof.
  destruct three_begin as (negotiated & B0).
  assert (B : begins negotiated [leaver; worker1; refuser] three_before).
  { destruct B0. constructor; try assumption.
    - apply Forall_cons_iff in begins_able as (A1 & begins_able). apply Forall_cons_iff in begins_able as (A2 & begins_able).
      apply Forall_cons_iff in begins_able as (A3 & _).
      apply Forall_cons; [exact A1|apply Forall_cons; [exact A2|apply Forall_cons; [exact A3|apply Forall_nil]]].
    - repeat constructor. }
  assert (Hs : 0 < 4 <= 65535) by (split; [reflexivity|discriminate]).
  assert (R : remembers content_stages [] three_before).
  { intros x Hx. cbn [content_stages List.In] in Hx.
    destruct Hx as [<-|[<-|[<-|[<-|[]]]]]; vm_compute; intuition congruence. }
  destruct (C81_course_partial (fun _ => Taken) (fun _ => false) 4 bytes_eqb 2 negotiated content_stages [] leaver
              [worker1; refuser] three_before (fun _ => eq_refl) (fun _ => eq_refl) Hs B R) as (final & Hf & H).
  set (c := mk_content [header_a] (lit "bodyend") false None (Some (lit "why"))).
  exists (final [header_a] c). split; [apply Hf|].
  assert (Chunks : chunked 4 (lit "bodyend") [lit "body"; lit "end"]).
  { change (lit "bodyend") with (lit "body" ++ lit "end").
    constructor; [reflexivity|discriminate|]. constructor; [discriminate|vm_compute; discriminate]. }
  apply (H [CHeader (lit "a") (lit " 1"); CEndOfHeader; CBody (lit "bodyend"); CEndOfMessage None]).
  change (refused_events (final [header_a] c)) with
    ([OSent 0 (CHeader (lit "a") (lit " 1")); OAnswer S_CONTINUE] ++
     ([OSent 0 CEndOfHeader; OSent 1 (CHeader (lit "a") (lit "1")); OSent 1 CEndOfHeader; OAnswer S_CONTINUE] ++
      ([OSent 1 (CBody (lit "bodyend")); OAnswer S_CONTINUE] ++
       (sent worker1 [CEndOfMessage None] ++ [OProgress] ++
        (sent refuser ([CHeader (lit "a") (lit " 1"); CEndOfHeader; CBody (lit "body"); CBody (lit "end")] ++ [CEndOfMessage None]) ++
         [] ++ final [header_a] c ++
         OAnswerCode 550 (lit "5.7.1") (Some (lit "no")) ::
         aborts (length (w_children three_before)) (left_at_from three_before) ([1%nat] ++ []))))))%list.
  change refused_ops with
    (Mta (CHeader (lit "a") (lit " 1")) :: goes_on_with 0 ++
     (Mta CEndOfHeader :: ([] ++ replies leaver RAccept ++ goes_on_times worker1 2) ++
      (Mta (CBody (lit "bodyend")) :: goes_on_times worker1 1 ++
       (Mta (CEndOfMessage None) :: goes_on_times worker1 0 ++ last_answer worker1 ++
        (goes_on_times refuser 4 ++ KFlushed 2 :: map (KReply 2) (wk_requests refuser) ++
         [KReply 2 (RReplyCode 550 (lit "5.7.1") (Some (lit "no")))])))))%list.
  eapply course_on.
  { apply (grows_header XData [] (lit "a") (lit " 1")). now left. }
  { apply (heard_all _ _ _ _ _ _ _ _ _ leaver [worker1; refuser] [CHeader (lit "a") (lit " 1")]). }
  eapply course_on.
  { apply grows_end. }
  { apply (heard_leaves _ _ _ _ _ _ _ _ _ leaver worker1 [refuser] [] CEndOfHeader [] []); [discriminate|constructor|].
    apply (heard_all _ _ _ _ _ _ _ _ _ worker1 [refuser] [CHeader (lit "a") (lit "1"); CEndOfHeader]). }
  eapply course_on.
  { apply (grows_body XEndOfHeader [header_a] [] (lit "bodyend")); [now left|vm_compute; discriminate]. }
  { apply (heard_all _ _ _ _ _ _ _ _ _ worker1 [refuser] [CBody (lit "bodyend")]). }
  apply course_end.
  apply (ends_on _ _ _ _ _ _ _ _ [] worker1 [refuser] (mk_content [header_a] (lit "bodyend") false None None)
           [CEndOfMessage None] [OProgress] (mk_content [header_a] (lit "bodyend") false None None)).
  { split; [|reflexivity]. apply ignored_edit; [reflexivity|]. apply ignored_progress, ignored_nil. }
  eapply rest_next; [discriminate|vm_compute; discriminate|exact Chunks|].
  apply (ends_refused_last _ _ _ _ _ _ _ _ [1%nat] refuser [] (mk_content [header_a] (lit "bodyend") false None None)
           [CHeader (lit "a") (lit " 1"); CEndOfHeader; CBody (lit "body"); CBody (lit "end")] (CEndOfMessage None)
           [] c (RReplyCode 550 (lit "5.7.1") (Some (lit "no")))).
  - unfold works. cbn [refuser wk_evaluated wk_convert wk_requests]. apply edits_quarantine, edits_nil.
  - reflexivity.
  - reflexivity.
  - cbn. auto.
Qed.

(** C82: in every course each command of the MTA gets one answer, the message passes exactly if no
    filter says no, a no is the last answer, and every filter gets the content in order, nothing
    after it is told to abort. *)
Theorem C82_reliable_partial
  (writes : list event -> write_outcome) (stops : list event -> bool) (chunk_size : N)
  (collate_equal : bytes -> bytes -> bool) (depth : nat) negotiated fresh said k ks w :
  (forall t, writes t = Taken) -> (forall t, stops t = false) -> 0 < chunk_size <= 65535 ->
  begins negotiated (k :: ks) w -> remembers fresh said w ->
  exists final, (forall original c, changes chunk_size original c (final original c)) /\
    forall cs ops es,
    course chunk_size (length (w_children w)) (left_at_from w) fresh (no_code w) final
           said XData [] [] k ks cs ops es ->
    let w' := children_run writes stops chunk_size collate_equal (S depth) w ops in
    w_crashed w' = false /\
    exists seen,
      filter visible (rev (w_trace w')) = filter visible (rev (w_trace w)) ++ seen /\
      let answers := filter is_answer seen in
      length answers = length cs /\
      (existsb says_no ops = false -> forallb lets_pass answers = true) /\
      (existsb says_no ops = true ->
       exists before e, answers = before ++ [e] /\ forallb lets_pass before = true /\ lets_pass e = false) /\
      forall i, in_order None (sent_to i seen) = true.
Proof.
  intros Hw Hs Hc B R.
  destruct (C81_course_partial writes stops chunk_size collate_equal depth negotiated fresh said k ks w Hw Hs Hc B R)
    as (final & Hf & H).
  exists final. split; [exact Hf|]. intros cs ops es Co. cbv zeta.
  destruct (H cs ops es Co) as (Cr & Tr). split; [exact Cr|]. exists es. split; [exact Tr|].
  destruct (course_verdict _ _ _ _ _ _ Hf _ _ _ _ _ _ _ _ _ Co) as (V1 & V2).
  split; [exact (course_answers _ _ _ _ _ _ Hf _ _ _ _ _ _ _ _ _ Co)|].
  split; [exact V1|]. split.
  { intros N. destruct (V2 N) as (e & E & Pe & F). exists (removelast (answers es)), e. auto. }
  intros i. refine (course_order _ _ _ _ _ _ Hf i _ _ _ _ _ _ _ _ _ None Co _ (or_introl eq_refl) _).
  - destruct B. change (wk_filter k :: map wk_filter ks) with (map wk_filter (k :: ks)). rewrite begins_all. split.
    + apply NoDup_filter, seq_NoDup.
    + apply Forall_forall. intros j Hj. apply filter_In in Hj as (_ & Hj). unfold left_at_from. rewrite Hj. reflexivity.
  - constructor; auto.
    + intros _. exact I.
    + intros [].
Qed.
Print Assumptions C82_reliable_partial.
(** The course of C81_example: four commands, the last answered with the refusal; the first filter
    is given the headers only and no abort. *)
Example C82_example :
  let w' := children_run (fun _ => Taken) (fun _ => false) 4 bytes_eqb 3 three_before refused_ops in
  let seen := skipn (length (filter visible (rev (w_trace three_before)))) (filter visible (rev (w_trace w'))) in
  existsb says_no refused_ops = true /\
  filter is_answer seen = [OAnswer S_CONTINUE; OAnswer S_CONTINUE; OAnswer S_CONTINUE;
                           OAnswerCode 550 (lit "5.7.1") (Some (lit "no"))] /\
  sent_to 0 seen = [CHeader (lit "a") (lit " 1"); CEndOfHeader] /\
  sent_to 1 seen = [CHeader (lit "a") (lit "1"); CEndOfHeader; CBody (lit "bodyend"); CEndOfMessage None; CAbort].
Proof. vm_compute. auto. Qed.

(** *** Where it fails *)

(** C32: the headers already given to the filters are counted; an aborted message leaves the count
    as it is.  The first header of the next message is given to no filter, and a manager whose
    fallback is "accept" accepts that message unseen. *)
Definition accepting (ops : list op) : manager :=
  manager_run (fun _ => Taken) (fun _ => false) 520 bytes_eqb 60 S_ACCEPT one manager_new ops.
Definition header_only (a : bytes) : list op := [Mta (CHeader a (lit "b"))].
Theorem C32_first_header_lost_refuted :
  let ops := start1 ++ envelope1 ++ header_only (lit "first") ++ goes_on 0 ++ [Mta CAbort; KFlushed 0] ++
             envelope1 ++ header_only (lit "second") in
  content_of (seen_by 0 one ops) = [CHeader (lit "first") (lit "b")] /\
  content_of (seen_by 0 one (start1 ++ envelope1 ++ header_only (lit "second"))) = [CHeader (lit "second") (lit "b")] /\
  last (rev (mta_answers (l_trace (g_leader (accepting ops))))) (None, S_NOT_CHANGE) = (None, S_ACCEPT).
Proof. vm_compute. auto. Qed.
Print Assumptions C32_first_header_lost_refuted.

(** C32: a filter that accepts a message at its header leaves that header behind: it is given to
    the filter as a header of the next message, which is then one answer behind for ever; the end of
    the message is never answered and no timeout is pending. *)
Theorem C32_header_of_earlier_message_refuted :
  let ops := start1 ++ envelope1 ++ header_only (lit "a") ++ says 0 RAccept ++
             envelope1 ++ header_only (lit "c") ++ goes_on 0 ++ goes_on 0 ++
             [Mta CEndOfHeader] ++ goes_on 0 ++ [Mta (CEndOfMessage None)] ++ goes_on 0 in
  content_of (seen_by 0 one ops) =
    [CHeader (lit "a") (lit "b");
     CHeader (lit "a") (lit "b"); CHeader (lit "c") (lit "b"); CEndOfHeader; CEndOfMessage None] /\
  last (mta_sees one ops) (None, S_DEFAULT) = (Some XEndOfHeader, S_CONTINUE) /\
  map k_timer (w_children (world_of one ops)) = [None].
Proof. vm_compute. auto. Qed.
Print Assumptions C32_header_of_earlier_message_refuted.

(** C32: a filter that wants no more of the body of one message gets no body of the later ones. *)
Theorem C32_body_skipped_for_ever_refuted :
  let before := header_only (lit "a") ++ goes_on 0 ++ [Mta CEndOfHeader] ++ goes_on 0 in
  let first := envelope1 ++ before ++ [Mta (CBody (lit "one"))] ++ says 0 RSkip ++
               [Mta (CEndOfMessage None)] ++ goes_on 0 in
  let second := envelope1 ++ before ++ [Mta (CBody (lit "two")); Mta (CEndOfMessage None)] ++ goes_on 0 in
  content_of (seen_by 0 one (start1 ++ first ++ second)) =
    [CHeader (lit "a") (lit "b"); CEndOfHeader; CBody (lit "one"); CEndOfMessage None;
     CHeader (lit "a") (lit "b"); CEndOfHeader; CEndOfMessage None] /\
  last (mta_sees one (start1 ++ first ++ second)) (None, S_DEFAULT) = (Some XEndOfMessage, S_CONTINUE).
Proof. vm_compute. auto. Qed.
Print Assumptions C32_body_skipped_for_ever_refuted.

(** C29: a filter that accepts at a header after it has let one pass is answered with "continue";
    the next header gets two answers, both "temporary failure". *)
Theorem C29_late_accept_refuted :
  let ops := start1 ++ envelope1 ++ header_only (lit "a") ++ goes_on 0 ++ header_only (lit "c") in
  mta_sees one (ops ++ says 0 RAccept) = mta_sees one ops ++ [(Some XHeader, S_CONTINUE)] /\
  mta_sees one (ops ++ says 0 RAccept ++ header_only (lit "e")) =
    mta_sees one ops ++ [(Some XHeader, S_CONTINUE); (Some XHeader, S_TEMPORARY_FAILURE);
                         (None, S_TEMPORARY_FAILURE)].
Proof. vm_compute. auto. Qed.
Print Assumptions C29_late_accept_refuted.

(** C30: a filter closes its connection while an earlier one has the message.  At the end of the
    message it is still asked; nobody listens to it any more, so neither its answer nor its timeout
    is heard and the MTA waits for ever. *)
Theorem C30_closed_while_waiting_refuted :
  let ops := start2 ++ envelope2 ++ header_only (lit "a") ++ [KFlushed 0; KFinish 1; KReply 0 RContinue] ++
             [Mta CEndOfHeader] ++ goes_on 0 ++ [Mta (CBody (lit "body"))] ++ goes_on 0 ++
             [Mta (CEndOfMessage None)] ++ goes_on 0 in
  content_of (seen_by 1 two ops) = [CHeader (lit "a") (lit "b")] /\
  last (mta_sees two ops) (None, S_DEFAULT) = (Some XBody, S_CONTINUE) /\
  mta_sees two (ops ++ [KFire 1; KFail 1; KFlushed 1; KReply 1 RContinue]) = mta_sees two ops /\
  f_waiting (w_flow (world_of two ops)) = [1%nat].
Proof. vm_compute. auto. Qed.
Print Assumptions C30_closed_while_waiting_refuted.
