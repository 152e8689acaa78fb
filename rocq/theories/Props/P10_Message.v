(** C33: the filters get the message one after the other, each as the ones before it left it. *)
From Verif.Base Require Import Bytes.
From Verif.Model Require Import Decoder Encoder CommandCodec ReplyCodec Status Option Headers Macros
                                ReplyCode Client Server Children Leader.
From Verif.Props Require Import P09_Manager.
From Verif.Spec Require Import HeaderSpec ManagerSpec MessageSpec.
From Verif.Proofs Require Import MessageProofs.
Local Open Scope N_scope.

(** All filters [k :: ks] taking part take the whole message and answer every command.  The MTA
    sends the headers [hs] and the body in the pieces [chunks]; [k] gets these and asks for its
    changes, which make [c] of the message.  Each of [ks] then gets the message as it is when its
    turn comes ([relayed]), in the end the MTA is told what changed ([told]) and only then is its
    end-of-message answered.  Nothing else is sent to anyone. *)
Theorem C33_filters_see_the_changes_partial
  (writes : list event -> write_outcome) (stops : list event -> bool) (chunk_size : N)
  (collate_equal : bytes -> bytes -> bool) (depth : nat) negotiated k ks hs chunks es c ops es' c' w :
  (forall t, writes t = Taken) -> (forall t, stops t = false) -> 0 < chunk_size <= 65535 ->
  begins negotiated (k :: ks) w ->
  hs <> [] -> Forall (fun h => h_value h <> None) hs ->
  chunks <> [] -> Forall (fun b => N.of_nat (length b) <= 65535) chunks ->
  works k (mk_content hs (concat chunks) false None None) es c ->
  relayed chunk_size ks c ops es' c' ->
  exists final, told chunk_size hs c' final /\
    let w' := children_run writes stops chunk_size collate_equal (S depth) w
                           (first_ops k hs chunks ++ ops) in
    w_crashed w' = false /\
    filter visible (rev (w_trace w')) =
    filter visible (rev (w_trace w)) ++ first_events k hs chunks ++ es ++ es' ++ final.
Proof. intros. eapply message_goes_round; eassumption. Qed.
Print Assumptions C33_filters_see_the_changes_partial.

(** Three filters; the MTA keeps the space before a header value, the second filter does not and
    is only evaluated. *)
Definition spaced : moption := mk_option 6 0x1ff STEP_HEADER_LEADING_SPACE.
Definition three_before : world := Eval vm_compute in
  children_run (fun _ => Taken) (fun _ => false) 4 bytes_eqb 60
    (world_new [(S_ACCEPT, false); (S_ACCEPT, true); (S_REJECT, false)])
    ([Mta (CNegotiate spaced); KReady 0; KReady 1; KReady 2;
      KFlushed 0; KReply 0 (RNegotiate spaced None); KFlushed 1; KReply 1 (RNegotiate full None);
      KFlushed 2; KReply 2 (RNegotiate spaced None); Mta (CConnect (lit "h") AUnspec)] ++
     goes_on 0 ++ goes_on 1 ++ goes_on 2 ++
     [Mta (CEnvelopeFrom (lit "f"))] ++ goes_on 0 ++ goes_on 1 ++ goes_on 2 ++
     [Mta (CEnvelopeRecipient (lit "r"))] ++ goes_on 0 ++ goes_on 1 ++ goes_on 2 ++
     [Mta CData] ++ goes_on 0 ++ goes_on 1 ++ goes_on 2).
Definition worker0 : worker :=
  mk_worker 0 false false [RAddHeader (lit "b") (lit " new"); RReplaceBody (lit "chan");
                           RReplaceBody (lit "ged"); RAddRecipient (lit "x") None].
Definition worker1 : worker := mk_worker 1 true true [RDeleteHeader (lit "a") 1; RProgress].
Definition worker2 : worker :=
  mk_worker 2 false false [RDeleteHeader (lit "a") 1; RQuarantine (lit "why")].
Definition header_a : header := mk_header (lit "a") (Some (lit " 1")).
Definition header_b : header := mk_header (lit "b") (Some (lit " new")).

Example three_begin : exists negotiated, begins negotiated [worker0; worker1; worker2] three_before.
Proof.
  eexists. constructor; try reflexivity.
  - assert (A : forall k o, In (k, o) [(worker0, spaced); (worker1, full); (worker2, spaced)] ->
                            able spaced k three_before).
    { intros k o [E|[E|[E|[]]]]; injection E as <- <-;
        (split; [vm_compute; repeat constructor|]);
        [exists spaced|exists full|exists spaced];
        (split; [constructor; vm_compute; reflexivity|]); (split; [vm_compute; reflexivity|]);
        (split; [constructor; vm_compute; reflexivity|]); repeat split; vm_compute; reflexivity. }
    apply Forall_cons; [|apply Forall_cons; [|apply Forall_cons; [|apply Forall_nil]]];
      eapply A; cbn; auto.
  - repeat constructor.
  - vm_compute. discriminate.
Qed.

Example C33_three_filters : exists final,
  told 4 [header_a] (mk_content [header_b] (lit "changed") true None (Some (lit "why"))) final /\
  let w' := children_run (fun _ => Taken) (fun _ => false) 4 bytes_eqb 3 three_before
    (first_ops worker0 [header_a] [lit "bo"; lit "dy"] ++
     concat (repeat (goes_on_with 1) 5) ++ last_answer worker1 ++
     concat (repeat (goes_on_with 2) 5) ++ last_answer worker2) in
  w_crashed w' = false /\
  filter visible (rev (w_trace w')) =
  filter visible (rev (w_trace three_before)) ++
  [OSent 0 (CHeader (lit "a") (lit " 1")); OAnswer S_CONTINUE; OSent 0 CEndOfHeader; OAnswer S_CONTINUE;
   OSent 0 (CBody (lit "bo")); OAnswer S_CONTINUE; OSent 0 (CBody (lit "dy")); OAnswer S_CONTINUE;
   OSent 0 (CEndOfMessage None); OAddRecipient (lit "x") None;
   OSent 1 (CHeader (lit "a") (lit "1")); OSent 1 (CHeader (lit "b") (lit "new")); OSent 1 CEndOfHeader;
   OSent 1 (CBody (lit "chan")); OSent 1 (CBody (lit "ged")); OSent 1 (CEndOfMessage None); OProgress;
   OSent 2 (CHeader (lit "a") (lit " 1")); OSent 2 (CHeader (lit "b") (lit " new")); OSent 2 CEndOfHeader;
   OSent 2 (CBody (lit "chan")); OSent 2 (CBody (lit "ged")); OSent 2 (CEndOfMessage None)] ++ final.
Proof.
  destruct three_begin as (negotiated & B).
  assert (A : ~ caseless (lit "a") (lit "b")) by (intros E; vm_compute in E; discriminate E).
  assert (Chunks : chunked 4 (lit "changed") [lit "chan"; lit "ged"]).
  { change (lit "changed") with (lit "chan" ++ lit "ged").
    constructor; [reflexivity|discriminate|]. constructor; [discriminate|vm_compute; discriminate]. }
  assert (Del : deleted (lit "a") 1 [header_a; header_b] true [header_b]).
  { apply (deleted_found _ _ _ [] header_a [header_b]). repeat split. }
  set (c1 := mk_content [header_a; header_b] (lit "changed") true None None).
  assert (W : works worker0 (mk_content [header_a] (concat [lit "bo"; lit "dy"]) false None None)
                    [OAddRecipient (lit "x") None] c1).
  { unfold works. cbn [worker0 wk_evaluated wk_convert wk_requests].
    apply edits_add with (hs := [header_a; header_b]).
    { apply (added_end (lit "b") (Some (lit " new")) [header_a]). intros x [<-|[]]. exact A. }
    apply edits_body, edits_body, edits_add_recipient, edits_nil. }
  pose proof (relayed_done 4 (mk_content [header_b] (lit "changed") true None (Some (lit "why")))) as R.
  assert (W2 : works worker2 c1 [] (mk_content [header_b] (lit "changed") true None (Some (lit "why")))).
  { unfold works. cbn [worker2 wk_evaluated wk_convert wk_requests].
    apply (edits_delete false false _ _ true _ c1 [header_b] _ _ Del).
    apply edits_quarantine, edits_nil. }
  assert (W1 : works worker1 c1 [OProgress] c1).
  { split; [|reflexivity]. apply ignored_edit; [reflexivity|]. apply ignored_progress, ignored_nil. }
  assert (Hh : c_headers c1 <> []) by discriminate.
  assert (Hb : c_body c1 <> []) by (vm_compute; discriminate).
  pose proof (relayed_next 4 worker1 [worker2] c1 _ _ _ _ _ _ Hh Hb Chunks W1
                (relayed_next 4 worker2 [] c1 _ _ _ _ _ _ Hh Hb Chunks W2 R)) as R'.
  assert (Hs : 0 < 4 <= 65535) by (split; [reflexivity|discriminate]).
  assert (Hv : Forall (fun h => h_value h <> None) [header_a]) by (repeat constructor; discriminate).
  assert (Hl : Forall (fun b => N.of_nat (length b) <= 65535) [lit "bo"; lit "dy"])
    by (repeat constructor; vm_compute; discriminate).
  destruct (C33_filters_see_the_changes_partial (fun _ => Taken) (fun _ => false) 4 bytes_eqb 2 _ _ _
              [header_a] [lit "bo"; lit "dy"] _ _ _ _ _ _ (fun _ => eq_refl) (fun _ => eq_refl) Hs B
              ltac:(discriminate) Hv ltac:(discriminate) Hl W R') as (final & T & C & E).
  exists final. split; [exact T|]. split; [exact C|exact E].
Qed.

(** *** Where it fails *)

Definition before_end : list op := start2 ++ envelope2 ++ P09_Manager.content.
Definition content_of (cs : list command) : list command :=
  filter (fun c => match c with CHeader _ _ | CEndOfHeader | CBody _ | CEndOfMessage _ => true
                              | _ => false end) cs.

(** A filter makes the body empty: the next one gets the headers and then nothing more, and the MTA
    is told that all is well. *)
Theorem C33_emptied_body_refuted :
  let ops := before_end ++ [KFlushed 0; KReply 0 (RReplaceBody []); KReply 0 RContinue] ++
             goes_on 1 ++ goes_on 1 ++ goes_on 1 in
  content_of (seen_by 1 two ops) = [CHeader (lit "a") (lit "b"); CEndOfHeader] /\
  last (mta_sees two ops) (None, S_NOT_CHANGE) = (Some XEndOfMessage, S_CONTINUE).
Proof. vm_compute. auto. Qed.
Print Assumptions C33_emptied_body_refuted.

(** A filter deletes the only header: the next filter gets nothing and the MTA no answer, nobody
    has to answer anything any more. *)
Theorem C33_no_header_left_refuted :
  let ops := before_end ++ [KFlushed 0; KReply 0 (RDeleteHeader (lit "a") 1); KReply 0 RContinue] in
  content_of (seen_by 1 two ops) = [] /\
  last (mta_sees two ops) (None, S_NOT_CHANGE) = (Some XBody, S_CONTINUE) /\
  option_map (fun w => map k_timer (w_children w)) (g_children (plain_run two ops)) = Some [None; None].
Proof. vm_compute. auto. Qed.
Print Assumptions C33_no_header_left_refuted.

(** What the MTA sends together with end-of-message reaches the later filters in spite of the
    body being replaced. *)
Theorem C33_last_piece_refuted :
  let ops := start2 ++ envelope2 ++ [Mta (CHeader (lit "a") (lit "b"))] ++ goes_on 0 ++
             [Mta CEndOfHeader] ++ goes_on 0 ++ [Mta (CBody (lit "body"))] ++ goes_on 0 ++
             [Mta (CEndOfMessage (Some (lit "rest")))] ++
             [KFlushed 0; KReply 0 (RReplaceBody (lit "new")); KReply 0 RContinue] ++
             goes_on 1 ++ goes_on 1 ++ goes_on 1 ++ goes_on 1 in
  content_of (seen_by 1 two ops) =
  [CHeader (lit "a") (lit "b"); CEndOfHeader; CBody (lit "new"); CEndOfMessage (Some (lit "rest"))] /\
  last (mta_sees two ops) (None, S_NOT_CHANGE) = (Some XEndOfMessage, S_CONTINUE).
Proof. vm_compute. auto. Qed.
Print Assumptions C33_last_piece_refuted.

(** A message without body to which a filter gives one: the next filter does not get it. *)
Theorem C33_added_body_refuted :
  let ops := start2 ++ envelope2 ++ [Mta (CHeader (lit "a") (lit "b"))] ++ goes_on 0 ++
             [Mta CEndOfHeader] ++ goes_on 0 ++ [Mta (CEndOfMessage None)] ++
             [KFlushed 0; KReply 0 (RReplaceBody (lit "new")); KReply 0 RContinue] ++
             goes_on 1 ++ goes_on 1 ++ goes_on 1 in
  content_of (seen_by 1 two ops) =
  [CHeader (lit "a") (lit "b"); CEndOfHeader; CEndOfMessage None] /\
  last (mta_sees two ops) (None, S_NOT_CHANGE) = (Some XEndOfMessage, S_CONTINUE).
Proof. vm_compute. auto. Qed.
Print Assumptions C33_added_body_refuted.

(** Once a filter replaced a body, the MTA is told to replace the body of every later message on
    the connection, though no filter asked for it. *)
Definition replacements (ops : list op) : list bytes :=
  rev (flat_map (fun e => match e with LSaw (OReplaceBody b) => [b] | _ => [] end)
                (l_trace (g_leader (plain_run one ops)))).
Theorem C33_replaced_for_ever_refuted :
  let first := start1 ++ envelope1 ++ P09_Manager.content ++
               [KFlushed 0; KReply 0 (RReplaceBody (lit "new")); KReply 0 RContinue] in
  replacements first = [lit "new"] /\
  replacements (first ++ envelope1 ++ P09_Manager.content ++ goes_on 0) = [lit "new"; lit "body"].
Proof. vm_compute. auto. Qed.
Print Assumptions C33_replaced_for_ever_refuted.
