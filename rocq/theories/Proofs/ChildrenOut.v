(** A filter that is out: whatever still comes from it is ignored. *)
From Verif.Base Require Import Bytes.
From Verif.Model Require Import Decoder Encoder CommandCodec ReplyCodec Status Option Headers Macros
                                Client Server Children.
From Verif.Spec Require Import ManagerSpec.
From Verif.Proofs Require Import ChildrenLemmas ChildrenStage.
Local Open Scope N_scope.

Record aside (i : nat) (w w' : world) : Prop := {
  aside_trace : exists es, w_trace w' = es ++ w_trace w /\ Forall (own i) es;
  aside_flow : w_flow w' = w_flow w;
  aside_mail : w_mail w' = w_mail w;
  aside_nego : w_nego w' = w_nego w;
  aside_other : forall j, j <> i -> child_of w' j = child_of w j;
  aside_out : out_for_good (child_of w' i)
}.

Lemma aside_refl i w : out_for_good (child_of w i) -> aside i w w.
Proof. intros H. constructor; auto. exists []. now split. Qed.
Lemma aside_trans i a b c : aside i a b -> aside i b c -> aside i a c.
Proof.
  intros [(es & E & F) ? ? ? O ?] [(es' & E' & F') ? ? ? O' ?]. constructor; try congruence.
  - exists (es' ++ es). rewrite E', E, app_assoc. split; [reflexivity|]. apply Forall_app. auto.
  - intros j Hj. now rewrite O', O.
Qed.
Lemma out_has w i : out_for_good (child_of w i) -> has w i.
Proof.
  intros H. unfold has. destruct (Nat.lt_ge_cases i (length (w_children w))) as [L|L]; [exact L|].
  exfalso. unfold out_for_good, child_of in H. rewrite nth_overflow in H by exact L. discriminate H.
Qed.
Lemma aside_child i w g : out_for_good (child_of w i) ->
  (forall k, standing (g k) = standing k) -> aside i w (on_child w i g).
Proof.
  intros H Hg. constructor; try reflexivity.
  - exists []. now split.
  - intros j Hj. now apply child_other, not_eq_sym.
  - unfold out_for_good. rewrite child_same by (now apply out_has). now rewrite Hg.
Qed.
Lemma aside_log i w e : out_for_good (child_of w i) -> own i e -> aside i w (log w e).
Proof.
  intros H He. unfold log. destruct (w_crashed w); [now apply aside_refl|].
  constructor; auto. exists [e]. split; [reflexivity|]. now repeat constructor.
Qed.
Lemma aside_crash i w : out_for_good (child_of w i) -> aside i w (crash w).
Proof.
  intros H. eapply aside_trans; [apply (aside_log _ _ OCrash H I)|].
  constructor; try reflexivity.
  - exists []. now split.
  - change (out_for_good (child_of (log w OCrash) i)). now rewrite child_log.
Qed.

Section Out.
  Variable writes : list event -> write_outcome.
  Variable stops : list event -> bool.
  Variable chunk_size : N.
  Variable collate_equal : bytes -> bytes -> bool.
  Variable d : nat.
  Variable i : nat.
  Notation Emit := (emit writes stops chunk_size collate_equal (S d)).
  Notation out w := (out_for_good (child_of w i)).

  Lemma emit_out w g : out w -> Emit w i g = w.
  Proof.
    unfold out_for_good, standing. intros [= _ H1 H2]. cbn [emit]. unfold handle.
    destruct (w_crashed w); [reflexivity|]. rewrite H1, H2. cbn [negb]. destruct g; reflexivity.
  Qed.
  Lemma quitted_out w : out w -> k_quitted (child_of w i) = true.
  Proof. unfold out_for_good, standing. now intros [= H _ _]. Qed.

  Ltac child := match goal with
    | |- aside _ ?w (on_child ?v _ _) =>
        apply (aside_trans _ w v); [|apply aside_child; [|intros []; reflexivity]]
    end.

  Lemma write_out w c x : out w -> aside i w (snd (k_write writes Emit w i c x)).
  Proof.
    intros H. unfold k_write.
    destruct (negb (urgent x) && k_is_processing (child_of w i)).
    { cbn [snd]. rewrite emit_out by exact H. now apply aside_refl. }
    set (w1 := if urgent x then w else _).
    assert (A : aside i w w1).
    { subst w1. destruct (urgent x); [now apply aside_refl|].
      apply aside_child; [exact H|]. intros []; reflexivity. }
    clearbody w1. assert (H1 := aside_out _ _ _ A).
    assert (L : forall e, own i e ->
      aside i w (on_child (log w1 e) i (fun k => put_k_next k (k_next k ++ [x])))).
    { intros e He. assert (B := aside_log i w1 e H1 He). child; [eapply aside_trans; eassumption|].
      apply B. }
    destruct (writes (w_trace w1)); cbn [snd]; try (now apply L).
    - assert (B : aside i w1 (on_child w1 i (fun k => put_k_timer k None)))
        by (apply aside_child; [exact H1|intros []; reflexivity]).
      rewrite emit_out by apply B. eapply aside_trans; eassumption.
  Qed.

  Lemma flush_body_out w : out w -> aside i w (snd (k_flush_body writes Emit w i)).
  Proof.
    intros H. unfold k_flush_body.
    set (w1 := on_child w i _).
    assert (A : aside i w w1) by (apply aside_child; [exact H|intros []; reflexivity]).
    clearbody w1. assert (H1 := aside_out _ _ _ A).
    pose proof (write_out w1 (CBody (packed_chunk (k_body (child_of w1 i)))) XBody H1) as B.
    destruct (k_write _ _ w1 i _ _) as [[] w2]; cbn [snd] in *.
    - child; [eapply aside_trans; eassumption|apply B].
    - eapply aside_trans; eassumption.
  Qed.

  Lemma next_state_out w x : out w -> aside i w (k_next_state writes Emit i w x).
  Proof.
    intros H. unfold k_next_state.
    set (w1 := on_child w i (fun k => put_k_timer k None)).
    assert (A : aside i w w1) by (apply aside_child; [exact H|intros []; reflexivity]).
    clearbody w1. assert (H1 := aside_out _ _ _ A).
    assert (C : forall g, (forall k, standing (g k) = standing k) ->
                aside i w (on_child w1 i g)).
    { intros g Hg. eapply aside_trans; [exact A|]. now apply aside_child. }
    assert (D : forall g, (forall k, standing (g k) = standing k) -> out (on_child w1 i g)).
    { intros g Hg. apply (C g Hg). }
    assert (Usual : aside i w
      (let w2 := on_child w1 i (fun k =>
                   put_k_state (match x with XFrom => put_k_processing k true | _ => k end) x) in
       match k_need_reply (child_of w2 i) x with
       | None => crash w2
       | Some true => on_child w2 i (fun k => put_k_timer k (Some TReading))
       | Some false => w2
       end)).
    { cbv zeta. set (g := fun k => put_k_state (match x with XFrom => put_k_processing k true | _ => k end) x).
      assert (Hg : forall k, standing (g k) = standing k) by (intros []; unfold g; destruct x; reflexivity).
      destruct (k_need_reply _ _) as [[]|].
      - child; [now apply C|now apply D].
      - now apply C.
      - eapply aside_trans; [now apply C|]. apply aside_crash. now apply D. }
    destruct x; try exact Usual.
    - rewrite emit_out by exact H. now apply aside_refl.
    - (* body *)
      set (g := fun k => put_k_state k XBody).
      assert (Hg : forall k, standing (g k) = standing k) by (intros []; reflexivity).
      destruct (k_body (child_of (on_child w1 i g) i)); [now apply C|].
      destruct (k_need_reply _ _) as [[]|].
      + child; [now apply C|now apply D].
      + eapply aside_trans; [now apply C|]. apply flush_body_out. now apply D.
      + eapply aside_trans; [now apply C|]. apply aside_crash. now apply D.
    - apply C. intros []; reflexivity.
    - apply C. intros []; reflexivity.
    - apply C. intros []; reflexivity.
  Qed.

  Lemma flushed_out w : out w -> aside i w (k_flushed writes Emit w i).
  Proof.
    intros H. unfold k_flushed. generalize (k_next (child_of w i)). intros l.
    assert (A : aside i w (on_child w i (fun k => put_k_next k [])))
      by (apply aside_child; [exact H|intros []; reflexivity]).
    revert A. generalize (on_child w i (fun k => put_k_next k [])). clear H.
    induction l as [|x l IH]; intros v A; cbn [fold_left]; [exact A|].
    apply IH. eapply aside_trans; [exact A|]. apply next_state_out. apply A.
  Qed.

  Lemma refuse_out w : out w -> aside i w (k_refuse w i).
  Proof.
    intros H. unfold k_refuse. set (k := k_ensure_message (child_of w i)).
    assert (Hk : standing k = standing (child_of w i)).
    { subst k. unfold k_ensure_message. destruct (k_message (child_of w i)); reflexivity. }
    assert (U : forall k', standing k' = standing k -> aside i w (on_child w i (fun _ => k'))).
    { intros k' E. constructor; try reflexivity.
      - exists []. now split.
      - intros j Hj. now apply child_other, not_eq_sym.
      - unfold out_for_good. rewrite child_same by (now apply out_has). rewrite E, Hk. exact H. }
    assert (R := aside_refl i w H).
    destruct (k_state k); try exact R. destruct (k_message k) as [(rs, b)|]; [|exact R].
    destruct (k_current k); [now apply U|]. destruct rs; [now apply U|now apply aside_crash].
  Qed.

  Lemma final_out w r b : out w -> aside i w (k_final_reply Emit w i r b).
  Proof.
    intros H. unfold k_final_reply. set (w1 := on_child w i _).
    assert (A : aside i w w1) by (apply aside_child; [exact H|intros []; reflexivity]).
    clearbody w1. rewrite quitted_out by apply A. exact A.
  Qed.

  Lemma modification_out w r : out w -> aside i w (k_modification Emit w i r).
  Proof.
    intros H. unfold k_modification. rewrite (emit_out w GError H), (quitted_out w H).
    destruct (k_state _); now apply aside_refl.
  Qed.

  Lemma receive_out w r : out w -> aside i w (k_receive writes Emit w i r).
  Proof.
    intros H. unfold k_receive. set (w1 := on_child w i (fun k => put_k_timer k None)).
    assert (A : aside i w w1) by (apply aside_child; [exact H|intros []; reflexivity]).
    clearbody w1. assert (H1 := aside_out _ _ _ A).
    destruct r; try (now apply modification_out); try (now apply final_out).
    - (* negotiate *)
      destruct (match k_option (child_of w1 i) with Some o0 => _ | None => _ end) as [ok o'].
      set (w2 := on_child w1 i _).
      assert (B : aside i w w2).
      { eapply aside_trans; [exact A|]. apply aside_child; [exact H1|intros []; reflexivity]. }
      clearbody w2. rewrite (emit_out w2 GError) by apply B. rewrite quitted_out by apply B.
      destruct ok; [|exact B]. destruct (k_state _); exact B.
    - (* continue *)
      rewrite (emit_out w1 GError H1), (quitted_out w1 H1).
      destruct (k_state (child_of w1 i)); try (destruct (answerable _)); exact A.
    - (* reply code *)
      assert (B := refuse_out w H). destruct (w_crashed _); [exact B|].
      set (w2 := on_child (k_refuse w i) i _).
      assert (C : aside i w w2).
      { eapply aside_trans; [exact B|]. apply aside_child; [apply B|intros []; reflexivity]. }
      clearbody w2. rewrite (emit_out w2 GError) by apply C. rewrite quitted_out by apply C.
      destruct (answerable _); exact C.
    - (* temporary failure *)
      assert (B := refuse_out w H). destruct (w_crashed _); [exact B|].
      eapply aside_trans; [exact B|]. apply final_out. apply B.
    - assert (B := refuse_out w H). destruct (w_crashed _); [exact B|].
      eapply aside_trans; [exact B|]. apply final_out. apply B.
    - rewrite (quitted_out w1 H1). exact A.
    - rewrite (quitted_out w1 H1). exact A.
    - rewrite (emit_out w1 GError H1), (quitted_out w1 H1). destruct (k_state _); exact A.
  Qed.

  Lemma step_out w o : out w -> op_filter o = Some i ->
    aside i w (children_step writes stops chunk_size collate_equal (S d) w o).
  Proof.
    intros H Ho. unfold children_step. destruct (w_crashed w); [now apply aside_refl|].
    assert (A := aside_log i w (OIn o) H Ho). set (w0 := log w (OIn o)) in *. clearbody w0.
    assert (H0 := aside_out _ _ _ A).
    destruct o; try discriminate Ho; cbn [op_filter] in Ho; injection Ho as ->.
    - unfold out_for_good, standing in H0. injection H0 as _ _ T. rewrite T. exact A.
    - eapply aside_trans; [exact A|]. now apply flushed_out.
    - eapply aside_trans; [exact A|]. now apply receive_out.
    - rewrite emit_out by exact H0. destruct (k_timer _); exact A.
    - rewrite emit_out by exact H0. exact A.
    - rewrite emit_out by exact H0. exact A.
  Qed.

  Lemma run_out ops : forall w, out w -> (forall o, List.In o ops -> op_filter o = Some i) ->
    aside i w (children_run writes stops chunk_size collate_equal (S d) w ops).
  Proof.
    induction ops as [|o ops IH]; intros w H Ho; cbn [children_run fold_left].
    - now apply aside_refl.
    - assert (A := step_out w o H (Ho o (or_introl eq_refl))).
      eapply aside_trans; [exact A|]. apply IH; [apply A|]. intros o' H'. apply Ho. now right.
  Qed.
End Out.
