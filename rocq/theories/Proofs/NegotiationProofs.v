(** Negotiation: an invariant of all that happens in the manager. *)
From Coq Require Import ZifyBool ZifyNat ZifyN.
From Verif.Base Require Import Bytes.
From Verif.Model Require Import Decoder CommandCodec ReplyCodec Status Option Headers Macros ReplyCode
                                Client
                                Server Children.
From Verif.Spec Require Import NegotiationSpec.
Local Open Scope N_scope.
Notation In := List.In.

(** Events that have nothing to do with the negotiation. *)
Definition other (e : event) : bool :=
  match e with
  | OIn (Mta (CNegotiate _)) | ONegotiate _ _ | OSent _ (CNegotiate _) => false
  | OIn (KReply _ (RNegotiate _ _)) => false
  | _ => true
  end.

(** What is required of an event when it happens. *)
Definition event_ok (e : event) (t : list event) : Prop :=
  match e with
  | ONegotiate a _ => exists o es, since_offer t = Some (o, es) /\ fair t o es a
  | OSent _ (CNegotiate a) =>
      exists o es, since_offer t = Some (o, es) /\
        (unanswered es = true -> a = mk_option (N.min (o_version o) 6) (o_action o) (o_step o))
  | _ => True
  end.
Fixpoint trace_ok (t : list event) : Prop :=
  match t with [] => True | e :: t' => event_ok e t' /\ trace_ok t' end.

Record kept (n : nego) (t : list event) : Prop := {
  kept_requested : forall b, N.testbit (n_requested n) b = true ->
    exists h, In h (heard t) /\ N.testbit (o_step h) b = true;
  kept_option : forall x, n_option n = Some x -> exists o es,
    since_offer t = Some (o, es) /\
    o_version x = N.min (o_version o) 6 /\
    within (o_action o) (o_action x) /\
    (forall b, N.testbit (o_action x) b = true -> N.testbit (o_action o) b = true \/
       exists h, In h (heard es) /\ N.testbit (o_action h) b = true) /\
    (forall b, N.testbit STEP_YES_MASK b = false -> N.testbit (o_step x) b = true ->
       N.testbit (o_step o) b = true) /\
    n_initial n = N.land (o_step o) STEP_YES_MASK /\
    (unanswered es = true -> x = mk_option (N.min (o_version o) 6) (o_action o) (o_step o))
}.
Definition Inv (w : world) : Prop :=
  (w_crashed w = false -> kept (w_nego w) (w_trace w)) /\ trace_ok (w_trace w).

Ltac by_event e :=
  destruct e; try reflexivity; try discriminate; try exact (fun _ => I);
  repeat match goal with
         | o : op |- _ => destruct o; try reflexivity; try discriminate
         | c : command |- _ => destruct c; try reflexivity; try discriminate; try exact (fun _ => I)
         | r : reply |- _ => destruct r; try reflexivity; try discriminate
         end.
Lemma since_other e t : other e = true ->
  since_offer (e :: t) = option_map (fun p => (fst p, e :: snd p)) (since_offer t).
Proof. by_event e. Qed.
Lemma heard_other e t : other e = true -> heard (e :: t) = heard t.
Proof. by_event e. Qed.
Lemma unanswered_other e t : other e = true -> unanswered (e :: t) = unanswered t.
Proof. by_event e. Qed.

Lemma kept_other n e t : other e = true -> kept n t -> kept n (e :: t).
Proof.
  intros O [R K]. constructor.
  - rewrite heard_other by assumption. exact R.
  - intros x Hx. destruct (K x Hx) as (o & es & S & P). exists o, (e :: es).
    rewrite since_other, S, heard_other, unanswered_other by assumption. split; [reflexivity|exact P].
Qed.
Lemma event_ok_other e t : other e = true -> event_ok e t.
Proof. by_event e. Qed.

Lemma inv_log w e : other e = true -> Inv w -> Inv (log w e).
Proof.
  intros O [K T]. unfold log. destruct (w_crashed w) eqn:C; [split; [congruence|assumption]|]. split.
  - intros _. exact (kept_other _ _ _ O (K eq_refl)).
  - split; [exact (event_ok_other _ _ O)|exact T].
Qed.

Lemma inv_child w i g : Inv w -> Inv (on_child w i g). Proof. exact (fun H => H). Qed.
Lemma inv_flow w g : Inv w -> Inv (on_flow w g). Proof. exact (fun H => H). Qed.
Lemma inv_mail w g : Inv w -> Inv (on_mail w g). Proof. exact (fun H => H). Qed.
Lemma inv_children w ks : Inv w -> Inv (put_w_children w ks). Proof. exact (fun H => H). Qed.
Lemma inv_crash w : Inv w -> Inv (crash w).
Proof. intros H. apply (inv_log w OCrash eq_refl) in H. split; [discriminate|exact (proj2 H)]. Qed.
Lemma inv_fold (A : Type) (f : world -> A -> world) l : (forall w a, Inv w -> Inv (f w a)) ->
  forall w, Inv w -> Inv (fold_left f l w).
Proof. intros F. induction l as [|a l IH]; intros w H; cbn; auto. Qed.
Lemma inv_fold_pair (A : Type) (f : bool * world -> A -> bool * world) l :
  (forall p a, Inv (snd p) -> Inv (snd (f p a))) -> forall p, Inv (snd p) -> Inv (snd (fold_left f l p)).
Proof. intros F. induction l as [|a l IH]; intros w H; cbn; auto. Qed.

(** A command other than negotiate. *)
Definition plain (c : command) : bool := match c with CNegotiate _ => false | _ => true end.
Lemma other_sent i c : plain c = true -> other (OSent i c) = true.
Proof. destruct c; reflexivity || discriminate. Qed.
#[local] Hint Resolve other_sent : inv.

Local Opaque Inv on_child on_flow on_mail put_w_children log crash.
Ltac more := fail.
Ltac pres :=
  repeat first
    [ assumption
    | progress cbv zeta
    | progress cbn [snd fst]
    | progress intros
    | apply inv_log; [solve [reflexivity | auto with inv]|]
    | apply inv_child | apply inv_flow | apply inv_mail | apply inv_crash | apply inv_children
    | solve [auto with inv]
    | more
    | apply inv_fold | apply inv_fold_pair
    | match goal with
      | |- context [match ?p with (_, _) => _ end] =>
          let H := fresh "H" in let E := fresh "E" in
          assert (H : Inv (snd p)); [|destruct p eqn:E; cbn [snd] in H; clear E]
      | |- context [let (_, _) := ?p in _] =>
          let H := fresh "H" in let E := fresh "E" in
          assert (H : Inv (snd p)); [|destruct p eqn:E; cbn [snd] in H; clear E]
      | |- Inv (match ?x with _ => _ end) => destruct x
      | |- Inv (snd (match ?x with _ => _ end)) => destruct x
      end ].

Lemma inv_compile w x s : Inv w -> Inv (compile_reply w x s). Proof. unfold compile_reply. pres. Qed.
Lemma inv_dispose_body w : Inv w -> Inv (dispose_body w). Proof. unfold dispose_body. pres. Qed.
Ltac more1 := first [apply inv_compile | apply inv_dispose_body].
Ltac more ::= more1.
Lemma inv_dispose w : Inv w -> Inv (dispose_message w). Proof. unfold dispose_message. pres. Qed.
Ltac more2 := first [more1 | apply inv_dispose].
Ltac more ::= more2.
Lemma inv_signal w s : Inv w -> Inv (log w (signal_of s)).
Proof. intros H. apply inv_log; [destruct s; reflexivity|exact H]. Qed.
Ltac more3 := first [more2 | apply inv_signal].
Ltac more ::= more3.
Lemma inv_emit_reply w x : Inv w -> Inv (emit_reply_status w x).
Proof. unfold emit_reply_status. pres. Qed.
Lemma inv_set_both w x : Inv w -> Inv (set_both w x). Proof. unfold set_both. pres. Qed.
Ltac more4 := first [more3 | apply inv_emit_reply | apply inv_set_both].
Ltac more ::= more4.
Lemma inv_init_queue w x : Inv w -> Inv (init_reply_queue w x). Proof. unfold init_reply_queue. pres. Qed.
Lemma inv_expire w i : Inv w -> Inv (expire w i). Proof. unfold expire. pres. Qed.
Lemma inv_alive w : Inv w -> Inv (snd (check_alive w)). Proof. unfold check_alive. pres. Qed.
Lemma inv_check_processing w : Inv w -> Inv (snd (check_processing w)).
Proof. unfold check_processing. pres. Qed.
Lemma inv_write_body w b : Inv w -> Inv (write_body w b). Proof. unfold write_body. pres. Qed.
Ltac more5 := first [more4 | apply inv_init_queue | apply inv_expire | apply inv_alive
   | apply inv_check_processing | apply inv_write_body].
Ltac more ::= more5.

(** *** The negotiation itself *)

Transparent Inv log.
Lemma inv_nego w g : n_option (g (w_nego w)) = n_option (w_nego w) ->
  n_initial (g (w_nego w)) = n_initial (w_nego w) ->
  n_requested (g (w_nego w)) = n_requested (w_nego w) -> Inv w -> Inv (on_nego w g).
Proof.
  intros E1 E2 E3 [K T]. split; [|exact T]. cbn [on_nego put_w_nego w_nego w_trace w_crashed].
  intros C. destruct (K C) as [R K']. constructor; rewrite ?E1, ?E2, ?E3; assumption.
Qed.

Lemma yes_mask b : N.testbit STEP_YES_MASK b = wanted_step b.
Proof.
  change STEP_YES_MASK with 0x100c00. destruct b as [|p]; [reflexivity|].
  do 5 (destruct p as [p|p|]; try reflexivity).
Qed.
Lemma no_event_mask b : N.testbit STEP_NO_EVENT_MASK b = declining b.
Proof.
  change STEP_NO_EVENT_MASK with 0x37f. destruct b as [|p]; [reflexivity|].
  do 4 (destruct p as [p|p|]; try reflexivity).
Qed.

Lemma inv_reply_negotiate w : Inv w -> Inv (reply_negotiate w).
Proof.
  intros H. unfold reply_negotiate. destruct (n_option (w_nego w)) as [x|] eqn:Ex; [|apply inv_log; [reflexivity|exact H]].
  cbv zeta. unfold check_fallback.
  set (mask := N.lor STEP_NO_EVENT_MASK _).
  set (w1 := log (on_nego w _) _).
  assert (H1 : Inv w1).
  { destruct H as [K0 T]. destruct (w_crashed w) eqn:Cr.
    { unfold w1, log. cbn [on_nego put_w_nego w_crashed]. rewrite Cr. split; [|exact T].
      cbn [on_nego put_w_nego w_crashed]. congruence. }
    destruct (K0 eq_refl) as [R K]. destruct (K x Ex) as (o & es & S & V & A1 & A2 & St & Ini & U).
    assert (F : fair (w_trace w) o es (option_remove_step x mask)).
    { constructor; cbn [option_remove_step o_version o_action o_step]; try assumption.
      - intros b. unfold mask. rewrite N.ldiff_spec, N.lor_spec, N.ldiff_spec, N.land_spec, Ini, N.land_spec.
        specialize (St b). destruct (N.testbit STEP_YES_MASK b) eqn:Y.
        + destruct (N.testbit (o_step o) b); [reflexivity|]. cbn. rewrite orb_true_r. cbn.
          rewrite andb_false_r. discriminate.
        + intros Hb. apply andb_true_iff in Hb. apply St; tauto.
      - intros b D. unfold mask. rewrite N.ldiff_spec, N.lor_spec, no_event_mask, D. cbn. apply andb_false_r.
      - intros b D. unfold mask. rewrite N.ldiff_spec, N.lor_spec, N.ldiff_spec, N.land_spec, yes_mask, D.
        intros Hb. apply R. destruct (N.testbit (n_requested (w_nego w)) b); [reflexivity|].
        rewrite andb_false_r in Hb. cbn in Hb. rewrite orb_true_r, andb_false_r in Hb. discriminate. }
    unfold w1, log. cbn [on_nego put_w_nego w_crashed w_nego w_trace].
    assert (K' : kept (put_n_option (w_nego w) (Some (option_remove_step x mask)))
                      (ONegotiate (option_remove_step x mask) (n_requests (w_nego w)) :: w_trace w)).
    { constructor; cbn [put_n_option n_requested n_option n_initial].
      - exact R.
      - intros y E. injection E as <-. exists o, (ONegotiate (option_remove_step x mask) (n_requests (w_nego w)) :: es).
        cbn [since_offer]. rewrite S. cbn [option_map fst snd option_remove_step o_version o_action o_step].
        repeat (split; [try reflexivity; try assumption|]); [|discriminate].
        intros b Y Hb. apply (St b Y). rewrite N.ldiff_spec in Hb. apply andb_true_iff in Hb. tauto. }
    rewrite Cr. split; [intros _; exact K'|]. cbn [put_w_trace w_trace trace_ok event_ok]. split; [|exact T].
    exists o, es. split; [exact S|exact F]. }
  clearbody w1. destruct (negotiate_fallback (w_children w1)); try exact H1.
  all: apply inv_fold; [|exact H1]; intros v i Hv; destruct (k_negotiated (child_of v i)); [|exact Hv].
  all: apply inv_expire, inv_nego; [reflexivity..|exact Hv].
Qed.

Local Opaque Inv log.
Section Children.
  Variable writes : list event -> write_outcome.
  Variable stops : list event -> bool.
  Variable chunk_size : N.
  Variable collate_equal : bytes -> bytes -> bool.

  (** The signal of a negotiation answer carries one that was heard. *)
  Definition good (w : world) (g : ksignal) : Prop :=
    match g with
    | GReply (RNegotiate a _) =>
        In a (heard (w_trace w)) /\
        forall o es, since_offer (w_trace w) = Some (o, es) -> In a (heard es)
    | _ => True
    end.

  Section Handlers.
    Variable emit_k : world -> nat -> ksignal -> world.
    Variable continue_k : world -> nat -> world.
    Hypothesis Hemit : forall w i g, good w g -> Inv w -> Inv (emit_k w i g).
    Hypothesis Hcontinue : forall w i, Inv w -> Inv (continue_k w i).

    Lemma inv_plain w i g : (forall a r, g <> GReply (RNegotiate a r)) -> Inv w -> Inv (emit_k w i g).
    Proof using Hemit.
      intros N. apply Hemit. destruct g as [[]| | | |]; try exact I. elim (N _ _ eq_refl).
    Qed.
    Lemma inv_error w i : Inv w -> Inv (emit_k w i GError).
    Proof using Hemit. apply inv_plain. discriminate. Qed.
    Lemma inv_stopped w i : Inv w -> Inv (emit_k w i GStopped).
    Proof using Hemit. apply inv_plain. discriminate. Qed.
    Ltac more6 := first [more5 | apply inv_error | apply inv_stopped].
    Ltac more ::= more6.
    Lemma inv_write w i c x : plain c = true -> Inv w -> Inv (snd (k_write writes emit_k w i c x)).
    Proof using Hemit.
      intros P H. unfold k_write. pres.
    Qed.
    Ltac more7 := first [more6 | apply inv_write].
    Ltac more ::= more7.
    Lemma inv_flush_body w i : Inv w -> Inv (snd (k_flush_body writes emit_k w i)).
    Proof using Hemit. unfold k_flush_body. pres. Qed.
    Lemma inv_stop w i x : Inv w -> Inv (snd (k_stop emit_k w i x)).
    Proof using Hemit. unfold k_stop. pres. Qed.
    Lemma inv_skip w i x : Inv w -> Inv (snd (k_skip_command emit_k w i x)).
    Proof using Hemit.
      unfold k_skip_command. intros H. cbn [snd]. apply inv_plain; [|pres]. destruct x; discriminate.
    Qed.
    Ltac more8 := first [more7 | apply inv_flush_body | apply inv_stop | apply inv_skip].
    Ltac more ::= more8.
    Lemma inv_command w i c x b : plain c = true -> Inv w ->
      Inv (snd (k_command writes stops emit_k w i c x b)).
    Proof using Hemit. unfold k_command. pres. Qed.
    Ltac more9 := first [more8 | apply inv_command].
    Ltac more ::= more9.
    Lemma inv_call w i c : plain c = true -> Inv w -> Inv (snd (k_call writes stops emit_k w i c)).
    Proof using Hemit. intros P H. destruct c; try discriminate P; unfold k_call; pres. Qed.
    Ltac more10 := first [more9 | apply inv_call].
    Ltac more ::= more10.
    Lemma inv_next_state i w x : Inv w -> Inv (k_next_state writes emit_k i w x).
    Proof using Hemit. unfold k_next_state. pres. Qed.
    Ltac more11 := first [more10 | apply inv_next_state].
    Ltac more ::= more11.
    Lemma inv_flushed w i : Inv w -> Inv (k_flushed writes emit_k w i).
    Proof using Hemit. unfold k_flushed. pres. Qed.
    Lemma inv_refuse w i : Inv w -> Inv (k_refuse w i).
    Proof. unfold k_refuse. pres. Qed.
    Lemma inv_end_message w i b : Inv w -> Inv (k_end_message w i b).
    Proof. unfold k_end_message. pres. Qed.
    Ltac more12 := first [more11 | apply inv_refuse | apply inv_end_message].
    Ltac more ::= more12.
    Lemma inv_reply w i r : (forall a q, r <> RNegotiate a q) -> Inv w -> Inv (emit_k w i (GReply r)).
    Proof using Hemit. intros N. apply inv_plain. intros a q E. injection E as E. exact (N _ _ E). Qed.
    Ltac more13 := first [more12 | apply inv_reply; [solve [assumption | discriminate]|]].
    Ltac more ::= more13.
    Lemma inv_final w i r b : (forall a q, r <> RNegotiate a q) -> Inv w ->
      Inv (k_final_reply emit_k w i r b).
    Proof using Hemit. intros N H. unfold k_final_reply. pres. Qed.
    Lemma inv_modification w i r : (forall a q, r <> RNegotiate a q) -> Inv w ->
      Inv (k_modification emit_k w i r).
    Proof using Hemit. intros N H. unfold k_modification. pres. Qed.
    Ltac more14 := first [more13 | apply inv_final; [solve [assumption | discriminate]|]
       | apply inv_modification; [solve [assumption | discriminate]|]].
    Ltac more ::= more14.
    Lemma inv_receive w i r : good w (GReply r) -> Inv w -> Inv (k_receive writes emit_k w i r).
    Proof using Hemit.
      intros G H. destruct r; unfold k_receive; pres.
    Qed.
    Lemma inv_abort w : Inv w -> Inv (snd (abort_children writes stops emit_k w)).
    Proof using Hemit.
      intros H. unfold abort_children. cbv zeta.
      match goal with |- context [let (_, _) := ?p in _] => assert (Q : Inv (snd p)); [|destruct p; cbn [snd] in *] end.
      - apply inv_fold_pair; [|pres]. intros [ok v] a Hv. cbn [snd] in *. pres.
      - pres.
    Qed.
    Ltac more15 := first [more14 | apply inv_abort].
    Ltac more ::= more15.
    Lemma inv_init_waiting w x : Inv w -> Inv (init_waiting writes stops emit_k w x).
    Proof using Hemit Hcontinue. intros H. unfold init_waiting. pres. Qed.
    Lemma inv_unless w i x : Inv w -> Inv (unless_reply emit_k w i x).
    Proof using Hemit Hcontinue. intros H. unfold unless_reply. pres. Qed.
    Ltac more16 := first [more15 | apply inv_init_waiting | apply inv_unless].
    Ltac more ::= more16.
    Lemma inv_next_header w i : Inv w -> Inv (snd (send_next_header writes stops emit_k w i)).
    Proof using Hemit Hcontinue. intros H. unfold send_next_header. pres. Qed.
    Lemma inv_body_file w i : Inv w -> Inv (snd (send_body_file writes stops chunk_size emit_k w i)).
    Proof using Hemit Hcontinue. intros H. unfold send_body_file. pres. Qed.
    Lemma inv_body_string w i b : Inv w -> Inv (snd (send_body_string writes stops chunk_size emit_k w i b)).
    Proof using Hemit Hcontinue. intros H. unfold send_body_string. pres. Qed.
    Ltac more17 := first [more16 | apply inv_next_header | apply inv_body_file
       | apply inv_body_string].
    Ltac more ::= more17.
    Lemma inv_send_body w i : Inv w -> Inv (snd (send_body writes stops chunk_size emit_k w i)).
    Proof using Hemit Hcontinue. intros H. unfold send_body. pres. Qed.
    Lemma inv_init_child w : Inv w -> Inv (init_child_for_body w).
    Proof using Hemit Hcontinue. intros H. unfold init_child_for_body. pres. Qed.
    Ltac more18 := first [more17 | apply inv_send_body | apply inv_init_child].
    Ltac more ::= more18.
    Lemma inv_send_command w i x : Inv w -> Inv (snd (send_command writes stops chunk_size emit_k w i x)).
    Proof using Hemit Hcontinue. intros H. unfold send_command. pres. Qed.
    Ltac more19 := first [more18 | apply inv_send_command].
    Ltac more ::= more19.
    Lemma inv_send_next w i x : Inv w -> Inv (snd (send_next_command writes stops chunk_size emit_k w i x)).
    Proof using Hemit Hcontinue. intros H. unfold send_next_command. pres. Qed.
    Lemma inv_replace w : Inv w -> Inv (emit_replace_body chunk_size w).
    Proof using Hemit Hcontinue. intros H. unfold emit_replace_body. pres. Qed.
    Ltac more20 := first [more19 | apply inv_send_next | apply inv_replace].
    Ltac more ::= more20.
    Lemma inv_emit_end w : Inv w -> Inv (emit_end_of_message chunk_size w).
    Proof using Hemit Hcontinue. intros H. unfold emit_end_of_message. pres. Qed.
    Ltac more21 := first [more20 | apply inv_emit_end].
    Ltac more ::= more21.
    Lemma inv_message_reply w x : Inv w -> Inv (emit_message_reply chunk_size w x).
    Proof using Hemit Hcontinue. intros H. unfold emit_message_reply. pres. Qed.
    Ltac more22 := first [more21 | apply inv_message_reply].
    Ltac more ::= more22.
    Lemma inv_first_to_next w i : Inv w -> Inv (send_first_to_next writes stops chunk_size emit_k w i).
    Proof using Hemit Hcontinue. intros H. unfold send_first_to_next. pres. Qed.
    Lemma inv_handle_status w s : Inv w -> Inv (handle_status w s).
    Proof using Hemit Hcontinue. intros H. unfold handle_status. pres. Qed.
    Ltac more23 := first [more22 | apply inv_first_to_next | apply inv_handle_status].
    Ltac more ::= more23.
    Lemma inv_fan_out w x c wanted accepted : plain c = true -> Inv w ->
      Inv (snd (fan_out writes stops emit_k continue_k w x c wanted accepted)).
    Proof using Hemit Hcontinue. intros P H. unfold fan_out. pres. Qed.
    Lemma inv_alive_command w x c : plain c = true -> Inv w ->
      Inv (snd (alive_command writes stops emit_k continue_k w x c)).
    Proof using Hemit Hcontinue. intros P H. unfold alive_command. pres. apply inv_fan_out; assumption. Qed.
    Lemma inv_message_command w x c a : plain c = true -> Inv w ->
      Inv (snd (message_command writes stops emit_k continue_k w x c a)).
    Proof using Hemit Hcontinue. intros P H. unfold message_command. pres. apply inv_fan_out; assumption. Qed.
    Lemma inv_content w p go : (forall w, Inv w -> Inv (snd (go w))) -> Inv w ->
      Inv (snd (message_content writes stops emit_k continue_k w p go)).
    Proof using Hemit Hcontinue.
      intros G H. unfold message_content. pres. apply inv_message_command; [reflexivity|assumption].
    Qed.
    Lemma inv_to_first w x : Inv w -> Inv (snd (send_to_first writes stops chunk_size emit_k w x)).
    Proof using Hemit Hcontinue. intros H. unfold send_to_first, is_progress. pres. Qed.
    Ltac more24 := first [more23 | apply inv_to_first].
    Ltac more ::= more24.
    Lemma inv_header w n v : Inv w -> Inv (snd (mta_header writes stops chunk_size emit_k continue_k w n v)).
    Proof using Hemit Hcontinue. intros H. unfold mta_header. apply inv_content; [|exact H]. clear w H. intros w H. pres. Qed.
    Lemma inv_end_of_header w  : Inv w -> Inv (snd (mta_end_of_header writes stops chunk_size emit_k continue_k w )).
    Proof using Hemit Hcontinue. intros H. unfold mta_end_of_header. apply inv_content; [|exact H]. clear w H. intros w H. pres. Qed.
    Lemma inv_body w b : Inv w -> Inv (snd (mta_body writes stops emit_k continue_k w b)).
    Proof using Hemit Hcontinue. intros H. unfold mta_body. apply inv_content; [|exact H]. clear w H. intros w H. pres. Qed.
    Lemma inv_end_of_message w b : Inv w -> Inv (snd (mta_end_of_message writes stops chunk_size emit_k continue_k w b)).
    Proof using Hemit Hcontinue. intros H. unfold mta_end_of_message. apply inv_content; [|exact H]. clear w H. intros w H. pres. Qed.
    Ltac more25 := first [more24 | apply inv_header | apply inv_end_of_header | apply inv_body
       | apply inv_end_of_message | apply inv_alive_command; [reflexivity|]
       | apply inv_message_command; [reflexivity|]].
    Ltac more ::= more25.
    Lemma inv_quit w : Inv w -> Inv (snd (mta_quit writes stops emit_k w)).
    Proof using Hemit.
      intros H. unfold mta_quit. cbv zeta.
      match goal with |- context [let (_, _) := ?p in _] => assert (Q : Inv (snd p)); [|destruct p; cbn [snd] in *] end.
      - apply inv_fold_pair; [|pres]. intros [ok v] a Hv. cbn [snd] in *. pres.
      - pres.
    Qed.
    Lemma inv_mta w c : plain c = true -> Inv w -> Inv (snd (mta writes stops chunk_size emit_k continue_k w c)).
    Proof using Hemit Hcontinue. intros P H. destruct c; try discriminate P; unfold mta; pres. apply inv_quit, H. Qed.
    Lemma inv_pending w p : Inv w -> Inv (snd (process_pending writes stops chunk_size emit_k continue_k w p)).
    Proof using Hemit Hcontinue. intros H. unfold process_pending. pres. Qed.
    Ltac more26 := first [more25 | apply inv_pending].
    Ltac more ::= more26.
    Lemma inv_remove w i : Inv w -> Inv (remove_from_queue writes stops chunk_size emit_k continue_k w i).
    Proof using Hemit Hcontinue. intros H. unfold remove_from_queue. pres. Qed.
    Ltac more27 := first [more26 | apply inv_remove].
    Ltac more ::= more27.
    Lemma inv_cb_continue w i : Inv w -> Inv (cb_continue writes stops chunk_size emit_k continue_k w i).
    Proof using Hemit Hcontinue. intros H. unfold cb_continue. pres. Qed.
    Lemma inv_stop_message w i : Inv w -> Inv (stop_message w i).
    Proof. apply inv_child. Qed.
    Ltac more28 := first [more27 | apply inv_cb_continue | apply inv_stop_message].
    Ltac more ::= more28.
    Lemma inv_cb_refuse w i v : Inv w -> Inv (cb_refuse writes stops chunk_size emit_k continue_k w i v).
    Proof using Hemit Hcontinue. intros H. unfold cb_refuse. pres. Qed.
    Ltac more29 := first [more28 | apply inv_cb_refuse].
    Ltac more ::= more29.
    Lemma inv_cb_code w i c e m : Inv w -> Inv (cb_reply_code writes stops chunk_size emit_k continue_k w i c e m).
    Proof using Hemit Hcontinue. intros H. unfold cb_reply_code. pres. Qed.
    Lemma inv_cb_accept w i : Inv w -> Inv (cb_accept writes stops chunk_size emit_k continue_k w i).
    Proof using Hemit Hcontinue. intros H. unfold cb_accept. pres. Qed.
    Lemma inv_cb_discard w i : Inv w -> Inv (cb_discard writes stops chunk_size emit_k continue_k w i).
    Proof using Hemit Hcontinue. intros H. unfold cb_discard. pres. Qed.
    Lemma inv_cb_skip w i : Inv w -> Inv (cb_skip writes stops chunk_size emit_k w i).
    Proof using Hemit Hcontinue. intros H. unfold cb_skip. pres. Qed.
    Lemma inv_edit w i v e : Inv w -> Inv (edit_headers w i v e).
    Proof using Hemit Hcontinue. intros H. unfold edit_headers. pres. Qed.
    Ltac more30 := first [more29 | apply inv_cb_code | apply inv_cb_accept
       | apply inv_cb_discard | apply inv_cb_skip | apply inv_edit].
    Ltac more ::= more30.
    Lemma inv_cb_modification w i r : Inv w -> Inv (cb_modification writes stops emit_k w i r).
    Proof using Hemit Hcontinue. intros H. unfold cb_modification. pres. Qed.
    Lemma inv_cb_stopped w i : Inv w -> Inv (cb_stopped writes stops chunk_size emit_k continue_k w i).
    Proof using Hemit Hcontinue. intros H. unfold cb_stopped. pres. Qed.
    Lemma inv_cb_failure w i : Inv w -> Inv (cb_failure writes stops chunk_size emit_k continue_k w i).
    Proof using Hemit Hcontinue. intros H. unfold cb_failure. pres. Qed.
    Lemma inv_queue_nego w i : Inv w -> Inv (remove_queue_in_negotiate w i).
    Proof. intros H. unfold remove_queue_in_negotiate. pres. apply inv_reply_negotiate. pres. Qed.
    Lemma inv_clear w i : Inv w -> Inv (clear_try_negotiate w i).
    Proof. intros H. unfold clear_try_negotiate. pres. apply inv_queue_nego, H. Qed.
    Lemma inv_cb_finished w i : Inv w -> Inv (cb_finished writes stops chunk_size emit_k continue_k w i).
    Proof using Hemit Hcontinue. intros H. unfold cb_finished. pres. apply inv_queue_nego. pres. Qed.

    Lemma good_nego w g x : good w x -> good (on_nego w g) x.
    Proof. exact (fun H => H). Qed.
    Lemma inv_cb_negotiate w i a r : good w (GReply (RNegotiate a r)) -> Inv w ->
      Inv (cb_negotiate_reply collate_equal w i a r).
    Proof.
      intros G H. unfold cb_negotiate_reply. apply inv_queue_nego.
      set (w1 := match r with Some _ => _ | None => w end).
      assert (H1 : Inv w1) by (unfold w1; destruct r; [apply inv_nego; [reflexivity..|exact H]|exact H]).
      assert (G1 : good w1 (GReply (RNegotiate a r))) by (unfold w1; destruct r; exact G).
      clearbody w1. clear w H G.
      destruct (n_option (w_nego w1)) as [x|] eqn:Ex; [|apply inv_log; [reflexivity|exact H1]].
      destruct H1 as [K0 T], G1 as [G1 G2]. split; [|exact T].
      cbn [on_nego put_w_nego w_crashed w_nego w_trace]. intros Cr. destruct (K0 Cr) as [R K].
      destruct (K x Ex) as (o & es & S & V & A1 & A2 & St & Ini & U). constructor.
      - cbn [put_n_negotiated put_n_requested put_n_option n_requested]. intros b.
        rewrite N.lor_spec. intros Hb. apply orb_true_iff in Hb. destruct Hb as [Hb|Hb]; [exact (R b Hb)|].
        exists a. split; [exact G1|]. unfold option_step_yes in Hb. rewrite N.land_spec in Hb.
        apply andb_true_iff in Hb. tauto.
      - cbn [put_n_negotiated put_n_requested put_n_option n_option n_initial]. intros y E.
        injection E as <-. exists o, es. split; [exact S|].
        assert (Un : unanswered es = false).
        { specialize (G2 _ _ S). clear -G2. induction es as [|e es IH]; [destruct G2|].
          unfold heard in G2. cbn [flat_map] in G2. apply in_app_or in G2. cbn [unanswered forallb].
          destruct G2 as [G2|G2]; [|apply andb_false_iff; right; exact (IH G2)].
          apply andb_false_iff. left. destruct e; try destruct G2. destruct o; try destruct G2.
          destruct r; try destruct G2; reflexivity. }
        unfold option_merge. destruct (o_version x <? o_version a); cbn [snd o_version o_action o_step];
          (split; [exact V|]).
        + repeat (split; [assumption|]). congruence.
        + split; [intros b Hb; rewrite N.lor_spec, (A1 b Hb); reflexivity|].
          split. { intros b. rewrite N.lor_spec. intros Hb. apply orb_true_iff in Hb.
                   destruct Hb as [Hb|Hb]; [exact (A2 b Hb)|]. right. exists a. split; [exact (G2 _ _ S)|exact Hb]. }
          split. { intros b Y. unfold step_flags_merge. rewrite !N.lor_spec, !N.land_spec, Y, !andb_false_r.
                   cbn. rewrite orb_false_r. intros Hb. apply (St b Y).
                   destruct (N.testbit (o_step x) b); [reflexivity|exact Hb]. }
          split; [exact Ini|]. congruence.
    Qed.

    Lemma inv_sent w i x : n_option (w_nego w) = Some x -> Inv w -> Inv (log w (OSent i (CNegotiate x))).
    Proof.
      Local Transparent log.
      intros Ex [K0 T]. unfold log. destruct (w_crashed w) eqn:Cr; [split; [congruence|exact T]|].
      destruct (K0 eq_refl) as [R K]. destruct (K x Ex) as (o & es & S & P & U). split.
      - intros _. cbn [put_w_trace w_nego w_trace]. constructor; [exact R|].
        intros y Ey. assert (y = x) by congruence. subst y.
        exists o, (OSent i (CNegotiate x) :: es). cbn [since_offer]. rewrite S. split; [reflexivity|].
        split; [exact P|exact U].
      - cbn [put_w_trace w_trace trace_ok event_ok]. split; [|exact T]. exists o, es.
        split; [exact S|apply U].
      Local Opaque log.
    Qed.
    Lemma nego_log w e : w_nego (log w e) = w_nego w.
    Proof. Local Transparent log. unfold log. destruct (w_crashed w); reflexivity. Local Opaque log. Qed.

    Lemma inv_ready w i : Inv w -> Inv (cb_ready writes stops emit_k w i).
    Proof using Hemit.
      intros H. unfold cb_ready. destruct (n_option (w_nego w)) as [x|] eqn:Ex; [|exact H].
      cbv zeta. apply inv_child. unfold k_call, k_write. cbv zeta. cbn [urgent negb andb].
      match goal with |- context [k_is_processing ?k] => destruct (k_is_processing k) end; cbn [snd].
      { apply inv_error. exact H. }
      match goal with |- context [writes ?t] => destruct (writes t) end; cbn [snd].
      - apply inv_child, inv_sent; [exact Ex|exact H].
      - apply inv_child, inv_log; [reflexivity|exact H].
      - apply inv_error. exact H.
    Qed.

    Lemma inv_handle w i g : good w g -> Inv w ->
      Inv (handle writes stops chunk_size collate_equal emit_k continue_k w i g).
    Proof using Hemit Hcontinue.
      intros G H. unfold handle. cbv zeta. destruct (w_crashed w); [exact H|].
      destruct g as [r| | | |].
      - destruct (negb _); [exact H|]. destruct r; try solve [pres].
        all: try (apply inv_cb_modification; exact H). apply inv_cb_negotiate; assumption.
      - destruct (negb _); [exact H|]. apply inv_cb_stopped, H.
      - destruct (negb _); [exact H|]. apply inv_cb_failure, H.
      - destruct (k_trying _); [apply inv_clear, H|]. destruct (k_connected _); [|exact H]. apply inv_cb_failure, H.
      - destruct (negb _); [exact H|]. apply inv_cb_finished, H.
    Qed.
  End Handlers.

  Lemma inv_emit d : (forall w i g, good w g -> Inv w ->
                        Inv (emit writes stops chunk_size collate_equal d w i g)) /\
                     (forall w i, Inv w -> Inv (resume writes stops chunk_size collate_equal d w i)).
  Proof.
    induction d as [|d [IHe IHr]].
    - split; intros; apply inv_crash; assumption.
    - split.
      + intros w i g G H. cbn [emit]. apply inv_handle; assumption.
      + intros w i H. cbn [resume]. destruct (w_crashed w); [exact H|]. apply inv_cb_continue; assumption.
  Qed.

  Lemma inv_offer d w o : w_crashed w = false -> Inv w ->
    Inv (snd (mta writes stops chunk_size (emit writes stops chunk_size collate_equal d)
                  (resume writes stops chunk_size collate_equal d) (log w (OIn (Mta (CNegotiate o)))) (CNegotiate o))).
  Proof.
    Local Transparent log Inv.
    intros Cr [K0 T]. destruct (K0 Cr) as [R K]. cbn [mta]. unfold mta_negotiate. cbv zeta.
    set (o' := if 6 <? o_version o then mk_option 6 (o_action o) (o_step o) else o).
    assert (E : o' = mk_option (N.min (o_version o) 6) (o_action o) (o_step o)).
    { unfold o'. destruct (6 <? o_version o) eqn:L; [f_equal; lia|]. destruct o; cbn in *. f_equal. lia. }
    set (w1 := on_nego _ _).
    assert (H1 : Inv w1).
    { unfold w1, log. rewrite Cr. split.
      - intros _. cbn [on_nego put_w_nego put_w_trace w_nego w_trace]. constructor.
        + exact R.
        + cbn [put_n_initial put_n_option n_option n_initial]. intros x Ex. injection Ex as <-.
          exists o, []. split; [reflexivity|]. rewrite E. cbn [o_version o_action o_step].
          split; [reflexivity|]. split; [exact (fun b h => h)|]. split; [auto|]. split; [auto|].
          split; [reflexivity|auto].
      - split; [exact I|exact T]. }
    clearbody w1. destruct (w_children w1) as [|k l]; cbn [snd].
    - apply inv_nego; [reflexivity..|exact H1].
    - cbv zeta. apply inv_children, inv_flow, inv_init_queue, H1.
    Local Opaque log Inv.
  Qed.
  Lemma inv_heard w i a r : w_crashed w = false -> Inv w ->
    Inv (log w (OIn (KReply i (RNegotiate a r)))) /\
    good (log w (OIn (KReply i (RNegotiate a r)))) (GReply (RNegotiate a r)).
  Proof.
    Local Transparent log Inv.
    intros Cr [K0 T]. unfold log. rewrite Cr. destruct (K0 Cr) as [R K]. split; [split|].
    - intros _. cbn [put_w_trace w_nego w_trace]. constructor.
      + intros b Hb. destruct (R b Hb) as (h & Hh & E). exists h. split; [right; exact Hh|exact E].
      + intros x Ex. destruct (K x Ex) as (o & es & S & V & A1 & A2 & St & Ini & U).
        exists o, (OIn (KReply i (RNegotiate a r)) :: es). cbn [since_offer]. rewrite S.
        repeat (split; [assumption || reflexivity|]). split.
        { intros b Hb. destruct (A2 b Hb) as [|(h & Hh & E)]; [auto|]. right. exists h.
          split; [right; exact Hh|exact E]. }
        repeat (split; [assumption|]). discriminate.
    - split; [exact I|exact T].
    - cbn [good put_w_trace w_trace]. split; [left; reflexivity|]. intros o es. cbn [since_offer].
      destruct (since_offer (w_trace w)) as [[o1 es1]|]; [|discriminate].
      intros E. injection E as <- <-. left. reflexivity.
    Local Opaque log Inv.
  Qed.

  Lemma inv_step d w o : Inv w -> Inv (children_step writes stops chunk_size collate_equal d w o).
  Proof.
    intros H. unfold children_step. destruct (w_crashed w) eqn:Cr; [exact H|]. cbv zeta.
    destruct (inv_emit d) as [He Hr].
    destruct o as [c| |i|i|i r|i|i|i].
    - destruct (plain c) eqn:P.
      + pose proof (inv_mta _ _ He Hr (log w (OIn (Mta c))) c P) as M.
        destruct (mta _ _ _ _ _ _ c) as [ok w1]. cbn [snd] in M. apply inv_log; [reflexivity|].
        apply M. apply inv_log; [destruct c; reflexivity || discriminate P|exact H].
      + destruct c; try discriminate P. pose proof (inv_offer d w o Cr H) as M.
        destruct (mta _ _ _ _ _ _ _) as [ok w1]. apply inv_log; [reflexivity|exact M].
    - apply inv_reply_negotiate, inv_log; [reflexivity|exact H].
    - destruct (k_trying _); [|apply inv_log; [reflexivity|exact H]].
      apply inv_ready; [exact He|]. apply inv_log; [reflexivity|exact H].
    - apply inv_flushed; [exact He|]. apply inv_log; [reflexivity|exact H].
    - assert (Q : Inv (log w (OIn (KReply i r))) /\ good (log w (OIn (KReply i r))) (GReply r)).
      { destruct r; try (split; [apply inv_log; [reflexivity|exact H]|exact I]). apply inv_heard; assumption. }
      destruct Q as [Q G]. apply inv_receive; assumption.
    - destruct (k_timer _); [apply He; [exact I|]|]; apply inv_log; reflexivity || exact H.
    - apply He; [exact I|]. apply inv_log; [reflexivity|exact H].
    - apply He; [exact I|]. apply inv_log; [reflexivity|exact H].
  Qed.
  Lemma inv_run d ops : forall w, Inv w -> Inv (children_run writes stops chunk_size collate_equal d w ops).
  Proof.
    unfold children_run. induction ops as [|o ops IH]; intros w H; [exact H|]. apply IH, inv_step, H.
  Qed.

  Lemma inv_new filters : Inv (world_new filters).
  Proof.
    Local Transparent Inv. split; [|exact I]. intros _. constructor.
    - intros b Hb. change (N.testbit 0 b = true) in Hb. rewrite N.bits_0 in Hb. discriminate.
    - discriminate.
    Local Opaque Inv.
  Qed.
End Children.

Lemma trace_ok_at t later e earlier : trace_ok t -> t = later ++ e :: earlier -> event_ok e earlier.
Proof.
  intros T ->. induction later as [|x later IH]; cbn in T; [exact (proj1 T)|exact (IH (proj2 T))].
Qed.

Lemma run_events writes stops chunk_size collate_equal d filters ops later e earlier :
  w_trace (children_run writes stops chunk_size collate_equal d (world_new filters) ops) = later ++ e :: earlier ->
  event_ok e earlier.
Proof.
  intros E. refine (trace_ok_at _ _ _ _ _ E). apply inv_run, inv_new.
Qed.
