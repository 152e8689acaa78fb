(** Proofs about several Ruby sessions in one, and about what a Ruby session negotiates. *)
From Verif.Base Require Import Bytes BytesFacts.
From Verif.Model Require Import Decoder Encoder CommandCodec ReplyCodec Status Option Macros ReplyCode Client RubySession.
From Verif.Spec Require Import ReplyCodeSpec RubySessionSpec.
From Verif.Proofs Require Import ReplyCodeProofs RubySessionProofs.
From Coq Require Import Lia.
Local Open Scope N_scope.

(** *** Severity *)

Definition worse (c n : status) : status := if (status_compare c n <? 0)%Z then n else c.

Lemma worse_spec c n :
  (0 < severity c /\ severity n <= severity c /\ worse c n = c) \/
  ((severity c = 0 \/ severity c < severity n) /\ worse c n = n).
Proof. destruct c, n; vm_compute; auto; left; repeat split; discriminate. Qed.
Lemma severity_inj a b : 0 < severity a -> severity a = severity b -> a = b.
Proof. destruct a, b; vm_compute; congruence. Qed.

Lemma severest_fold vs : severest vs (fold_left worse vs S_DEFAULT).
Proof.
  induction vs as [|v vs IH] using rev_ind.
  - right. split; [constructor|reflexivity].
  - rewrite fold_left_app. cbn [fold_left]. set (r := fold_left worse vs S_DEFAULT) in *.
    destruct IH as [(Hi & Hp & Hf)|[Hf Hl]].
    + destruct (worse_spec r v) as [(A & B & ->)|[[A|A] ->]].
      * left. split; [apply in_or_app; auto|]. split; [exact Hp|]. apply Forall_app. split; [exact Hf|]. constructor; [exact B|constructor].
      * lia.
      * left. split; [apply in_or_app; right; left; reflexivity|]. split; [lia|]. apply Forall_app. split; [|constructor; [lia|constructor]].
        eapply Forall_impl; [|exact Hf]. cbn. intros. lia.
    + assert (Hr : severity r = 0).
      { rewrite Hl. destruct vs as [|x vs] using rev_ind; [reflexivity|]. rewrite last_last. apply Forall_app in Hf. destruct Hf as [_ Hf]. apply Forall_inv in Hf. exact Hf. }
      destruct (worse_spec r v) as [(A & B & E)|[A ->]]; [lia|].
      destruct (N.eq_0_gt_0_cases (severity v)) as [Hv|Hv].
      * right. split; [apply Forall_app; split; [exact Hf|constructor; [exact Hv|constructor]]|]. rewrite last_last. reflexivity.
      * left. split; [apply in_or_app; right; left; reflexivity|]. split; [exact Hv|].
        apply Forall_app. split; [|constructor; [lia|constructor]]. eapply Forall_impl; [|exact Hf]. cbn. intros. lia.
Qed.

Lemma severest_unique vs s s' : severest vs s -> severest vs s' -> s = s'.
Proof.
  intros [(Hi & Hp & Hf)|[Hf Hl]] [(Hi' & Hp' & Hf')|[Hf' Hl']].
  - rewrite Forall_forall in Hf, Hf'. specialize (Hf _ Hi'). specialize (Hf' _ Hi). apply severity_inj; lia.
  - rewrite Forall_forall in Hf'. specialize (Hf' _ Hi). lia.
  - rewrite Forall_forall in Hf. specialize (Hf _ Hi'). lia.
  - congruence.
Qed.

(** An answer heard again changes nothing if it was the last. *)
Lemma worse_again vs v : worse (fold_left worse (vs ++ [v]) S_DEFAULT) v = fold_left worse (vs ++ [v]) S_DEFAULT.
Proof.
  rewrite fold_left_app. cbn [fold_left]. set (r := fold_left worse vs S_DEFAULT).
  destruct r, v; vm_compute; reflexivity.
Qed.
Lemma worse_default : worse S_DEFAULT S_DEFAULT = S_DEFAULT.
Proof. reflexivity. Qed.
Lemma worse_from_default s : worse S_DEFAULT s = s.
Proof. destruct s; reflexivity. Qed.

(** *** Names without dashes *)

Definition undashed (v : rvalue) : Prop := forall n, v = VName n -> ~ In "-"%char n.

Lemma upcase_dash b : upcase_byte b = "-"%char -> b = "-"%char.
Proof.
  intros H. assert (E : (negb (beqb (upcase_byte b) "-"%char) || beqb b "-"%char) = true).
  { revert b H. intros b _. revert b. apply every_byte. vm_compute. reflexivity. }
  rewrite H in E. apply beqb_eq. exact E.
Qed.
Lemma underscored_same n : ~ In "-"%char n -> underscored (upcase n) = upcase n.
Proof.
  induction n as [|b n IH]; intros H; [reflexivity|]. unfold underscored, upcase in *. cbn [map].
  rewrite IH by (intros X; apply H; right; exact X).
  destruct (beqb (upcase_byte b) "-"%char) eqn:E; [|reflexivity].
  apply beqb_eq, upcase_dash in E. elim H. left. exact E.
Qed.

Lemma ensure_status_spec v s : value_means v (Some s) -> undashed v -> v <> VNil -> ensure_status v = Some s.
Proof.
  intros H Hu Hn. destruct v as [n|x| |]; cbn [ensure_status]; inversion H; subst; try reflexivity.
  - match goal with X : names _ _ |- _ => apply named_status_spec in X; unfold named_status in X;
      rewrite underscored_same in X; [exact X|apply Hu; reflexivity] end.
  - congruence.
Qed.

Section Composite.
  Variable outcome : nat -> write_outcome.

  Lemma undashed_lib n : existsb (fun b => beqb b "-"%char) n = false -> undashed (VName n).
  Proof.
    intros H m E Hi. injection E as <-. apply Bool.not_true_iff_false in H. apply H.
    apply existsb_exists. exists "-"%char. split; [exact Hi|apply beqb_refl].
  Qed.

  Lemma give_status_undashed {U} (w : world U) v : undashed v -> undashed (w_status w) -> undashed (w_status (fst (give_status w v))).
  Proof.
    intros Hv Hw. unfold give_status. destruct (status_given v) as [v'|] eqn:E; [|exact Hw].
    destruct (status_given_some _ _ E) as [-> _]. exact Hv.
  Qed.
  Lemma context_set_reply_undashed {U} (w : world U) c e r w' b evs :
    context_set_reply outcome w c e r = (w', b, evs) -> undashed (w_status w) -> undashed (w_status w').
  Proof.
    unfold context_set_reply. destruct (context_call outcome w _) as [[w1 a] evs1] eqn:E.
    destruct (context_call_spec _ _ _ _ _ _ E) as (_ & H2 & _).
    intros H Hw. rewrite <- H2 in Hw. destruct a as [x|]; [|injection H as <- _ _; exact Hw].
    destruct ((400 <=? c) && (c <? 500)); [|destruct ((500 <=? c) && (c <? 600))]; injection H as <- _ _;
      try exact Hw; (apply undashed_lib; reflexivity).
  Qed.
  Lemma do_reset_status {U} reset (w w' : world U) b : do_reset reset w = (w', b) -> w_status w' = w_status w.
  Proof. intros H. destruct (do_reset_spec _ _ _ _ H); assumption. Qed.

  Lemma refuse_undashed {U} reset (w : world U) o plain c e r w' b evs :
    undashed (VName plain) -> refuse outcome reset w o plain c e r = (w', b, evs) -> undashed (w_status w) -> undashed (w_status w').
  Proof.
    intros Hp. unfold refuse. destruct (option_given o).
    - destruct (context_set_reply outcome w _ _ _) as [[w1 a] evs1] eqn:E. intros H Hw.
      pose proof (context_set_reply_undashed _ _ _ _ _ _ _ E Hw) as H1.
      destruct a; [|injection H as <- _ _; exact H1].
      destruct (reset_unless_recipient reset w1) as [w2 a2] eqn:Er. injection H as <- _ _.
      destruct (reset_unless_recipient_spec _ _ _ _ Er) as [_ ->]. exact H1.
    - destruct (reset_unless_recipient reset _) as [w1 a] eqn:Er. intros H Hw. injection H as <- _ _.
      destruct (reset_unless_recipient_spec _ _ _ _ Er) as [_ ->]. apply give_status_undashed; assumption.
  Qed.

  Lemma perform_undashed {U} reset (w : world U) a w' b evs :
    perform outcome reset w a = (w', b, evs) -> ~ dashed a -> undashed (w_status w) -> undashed (w_status w').
  Proof.
    intros H Hd Hw. destruct a as [| | | |o|o|r|v|c e r|k]; cbn [perform] in H.
    - destruct (do_reset reset _) as [w1 a] eqn:E. injection H as <- _ _. rewrite (do_reset_status _ _ _ _ E).
      apply give_status_undashed; [apply undashed_lib; reflexivity|exact Hw].
    - destruct (do_reset reset _) as [w1 a] eqn:E. injection H as <- _ _. rewrite (do_reset_status _ _ _ _ E).
      apply give_status_undashed; [apply undashed_lib; reflexivity|exact Hw].
    - injection H as <- _ _. apply undashed_lib. reflexivity.
    - injection H as <- _ _. apply undashed_lib. reflexivity.
    - eapply refuse_undashed; [|exact H|exact Hw]. apply undashed_lib. reflexivity.
    - eapply refuse_undashed; [|exact H|exact Hw]. apply undashed_lib. reflexivity.
    - destruct (context_call outcome w (KQuarantine (Some r))) as [[w1 a1] evs1] eqn:E.
      unfold context_call in E. cbn [do_call] in E. injection E as <- <- <-.
      destruct (do_reset reset _) as [w2 a2] eqn:Er. injection H as <- <- <-. rewrite (do_reset_status _ _ _ _ Er).
      apply undashed_lib. reflexivity.
    - pose proof (give_status_undashed w v) as G. destruct (give_status w v) as [w1 a]. injection H as <- _ _.
      apply G; [|exact Hw]. intros n -> Hi. apply Hd. exists n. auto.
    - eapply context_set_reply_undashed; eassumption.
    - destruct (context_call_spec _ _ _ _ _ _ H) as (_ & -> & _). exact Hw.
  Qed.
  Lemma run_method_undashed {U} reset (p : method U) : forall (w : world U) w' raised did evs,
    run_method outcome reset w p = (w', raised, did, evs) -> Forall (fun a => ~ dashed a) did ->
    undashed (w_status w) -> undashed (w_status w').
  Proof.
    induction p as [u|u|u a next IH]; intros w w' raised did evs H Hd Hw; cbn [run_method] in H.
    - injection H as <- _ _ _. exact Hw.
    - injection H as <- _ _ _. exact Hw.
    - destruct (perform outcome reset (w_with_own w u) a) as [[w1 b] evs1] eqn:E.
      destruct (run_method outcome reset w1 _) as [[[w2 r2] d2] e2] eqn:E2. injection H as <- <- <- <-.
      inversion Hd; subst. eapply IH; [exact E2|assumption|]. eapply perform_undashed; [exact E|assumption|exact Hw].
  Qed.

  (** *** The sessions in turn *)

  (** The sessions that respond to the event, each run with the context as the one before it
      left it; [parts]: what each did.  The run ends with an exception in the last part when
      [raised]. *)
  Inductive in_turn {U} (m : command) :
    list (rsession U) -> list U -> client -> rvalue ->
    list (list action) -> bool -> list U -> client -> rvalue -> list client_event -> Prop :=
  | it_end us c v : in_turn m [] us c v [] false us c v []
  | it_deaf s ss u us c v parts raised us' c' v' evs :
      session_event outcome s m (mk_world c v u) = None ->
      in_turn m ss us c v parts raised us' c' v' evs ->
      in_turn m (s :: ss) (u :: us) c v parts raised (u :: us') c' v' evs
  | it_raised s ss u us c v w1 did evs :
      session_event outcome s m (mk_world c v u) = Some (w1, true, did, evs) ->
      in_turn m (s :: ss) (u :: us) c v [did] true (w_own w1 :: us) (w_client w1) (w_status w1) evs
  | it_ran s ss u us c v w1 did evs parts raised us' c' v' evs' :
      session_event outcome s m (mk_world c v u) = Some (w1, false, did, evs) ->
      in_turn m ss us (w_client w1) (w_status w1) parts raised us' c' v' evs' ->
      in_turn m (s :: ss) (u :: us) c v (did :: parts) raised (w_own w1 :: us') c' v' (evs ++ evs').

  (** What was said so far: [v] is the context's status, [vs] the answers. *)
  Definition heard_so_far (v : rvalue) (vs : list status) : Prop :=
    (v = VNil /\ vs = []) \/ (exists vs' s, vs = vs' ++ [s] /\ value_means v (Some s)).
  Definition acc_so_far (acc : option rvalue) (vs : list status) : Prop :=
    match acc with
    | None => vs = []
    | Some r => exists s, value_means r (Some s) /\ undashed r /\ r <> VNil /\ s = fold_left worse vs S_DEFAULT
    end.

  Lemma event_spec {U} (s : rsession U) m w w' raised did evs :
    session_event outcome s m w = Some (w', raised, did, evs) ->
    status_after_all did (w_status w) (w_status w') /\
    (exists ks, ask_all did ks /\ do_calls outcome (w_client w) ks = (w_client w', evs)) /\
    (Forall (fun a => ~ dashed a) did -> undashed (w_status w) -> undashed (w_status w')).
  Proof.
    unfold session_event. destruct (s_method s m); [|discriminate]. intros H. injection H as H.
    destruct (run_method_spec _ _ _ _ _ _ _ _ H) as (ks & A & C & S).
    split; [exact S|]. split; [eauto|]. intros Hd. eapply run_method_undashed; [exact H|exact Hd].
  Qed.

  Lemma read_undashed v : undashed v -> undashed (status_read v).
  Proof. destruct v; auto. intros _ n E. discriminate. Qed.
  Lemma read_not_nil v : status_read v <> VNil.
  Proof. destruct v; discriminate. Qed.
  Lemma read_means v s : value_means v (Some s) -> value_means (status_read v) (Some s).
  Proof. destruct v; auto. intros H. inversion H. constructor. Qed.

  Lemma resolve_spec acc vs v vs' s :
    acc_so_far acc vs -> value_means v (Some s) -> undashed v -> v <> VNil ->
    worse (fold_left worse vs S_DEFAULT) s = fold_left worse vs' S_DEFAULT ->
    exists r, resolve_status acc v = Some r /\ acc_so_far (Some r) vs'.
  Proof.
    intros Ha Hm Hu Hn Hw. destruct acc as [cur|]; cbn [resolve_status acc_so_far] in *.
    - destruct Ha as (x & Hx & Hux & Hnx & ->).
      rewrite (ensure_status_spec _ _ Hx Hux Hnx), (ensure_status_spec _ _ Hm Hu Hn).
      eexists. split; [reflexivity|]. eexists. split; [apply vm_status|]. split; [intros n E; discriminate|].
      split; [discriminate|]. exact Hw.
    - subst vs. eexists. split; [reflexivity|]. exists s. split; [exact Hm|]. split; [exact Hu|]. split; [exact Hn|].
      cbn [fold_left] in Hw. rewrite worse_from_default in Hw. exact Hw.
  Qed.

  (** apply_each runs the sessions in turn; without dashed names only sessions raise
      exceptions, and the status is the severest. *)
  Lemma apply_each_spec {U} m (ss : list (rsession U)) : forall us c v acc vs c' v' us' acc' raised did evs,
    length us = length ss ->
    apply_each outcome m c v acc ss us = (c', v', us', acc', raised, did, evs) ->
    Forall (fun a => ~ dashed a) did ->
    undashed v -> heard_so_far v vs -> acc_so_far acc vs ->
    exists parts vs', in_turn m ss us c v parts raised us' c' v' evs /\ did = concat parts /\
      (raised = false -> said_all parts vs' /\
         (acc' = None <-> acc = None /\ parts = []) /\ acc_so_far acc' (vs ++ vs')).
  Proof.
    induction ss as [|s ss IH]; intros us c v acc vs c' v' us' acc' raised did evs Hl H Hd Hu Hh Ha;
      destruct us as [|u us]; try discriminate Hl; cbn [apply_each] in H.
    - injection H as <- <- <- <- <- <- <-. exists [], []. split; [constructor|]. split; [reflexivity|].
      intros _. split; [constructor|]. rewrite app_nil_r. split; [tauto|exact Ha].
    - injection Hl as Hl. destruct (session_event outcome s m (mk_world c v u)) as [[[[w1 r1] did1] evs1]|] eqn:E.
      + destruct (event_spec _ _ _ _ _ _ _ E) as (S1 & _ & D1). cbn [w_status] in S1, D1.
        destruct r1.
        { injection H as <- <- <- <- <- <- <-. exists [did1], []. split; [apply it_raised; exact E|].
          split; [cbn; rewrite app_nil_r; reflexivity|]. discriminate. }
        (* the answers after this session *)
        assert (Hsub : Forall (fun a => ~ dashed a) did1).
        { destruct (resolve_status acc (status_read (w_status w1))) as [r|].
          - destruct (apply_each outcome m (w_client w1) (w_status w1) (Some r) ss us) as [[[[[[c2 v2] us2] acc2] r2] did2] evs2].
            injection H as _ _ _ _ _ <- _. apply Forall_app in Hd. tauto.
          - injection H as _ _ _ _ _ <- _. exact Hd. }
        specialize (D1 Hsub Hu).
        assert (X : exists vs1 x, heard_so_far (w_status w1) (vs ++ vs1) /\
                      value_means (status_read (w_status w1)) (Some x) /\
                      worse (fold_left worse vs S_DEFAULT) x = fold_left worse (vs ++ vs1) S_DEFAULT /\
                      (forall parts vs', said_all parts vs' -> said_all (did1 :: parts) (vs1 ++ vs'))).
        { destruct S1 as [[N1 V1]|(bf & x & af & sx & -> & Hx & Haf & Hv)].
          - destruct Hh as [[-> ->]|(vs0 & s0 & -> & Hs0)].
            + exists [], S_DEFAULT. rewrite V1. split; [left; auto|]. split; [constructor|]. split; [reflexivity|].
              intros. apply sa_silent; assumption.
            + exists [], s0. rewrite V1, app_nil_r. split; [right; eauto|]. split; [apply read_means; exact Hs0|].
              split; [apply worse_again|]. intros. apply sa_silent; assumption.
          - exists [sx], sx. split; [right; exists vs, sx; auto|]. split; [apply read_means; exact Hv|].
            split; [rewrite fold_left_app; reflexivity|]. intros. apply sa_said; assumption. }
        destruct X as (vs1 & x & Hh1 & Hx & Hw & Hp).
        destruct (resolve_spec acc vs (status_read (w_status w1)) (vs ++ vs1) x Ha Hx (read_undashed _ D1) (read_not_nil _) Hw)
          as (r & Er & Ar).
        rewrite Er in H.
        destruct (apply_each outcome m (w_client w1) (w_status w1) (Some r) ss us) as [[[[[[c2 v2] us2] acc2] r2] did2] evs2] eqn:E2.
        injection H as <- <- <- <- <- <- <-. apply Forall_app in Hd. destruct Hd as [_ Hd2].
        destruct (IH _ _ _ _ _ _ _ _ _ _ _ _ Hl E2 Hd2 D1 Hh1 Ar) as (parts & vs' & T & -> & Q).
        exists (did1 :: parts), (vs1 ++ vs'). split; [eapply it_ran; eassumption|]. split; [reflexivity|].
        intros Hr. destruct (Q Hr) as (Q1 & Q2 & Q3). split; [apply Hp; exact Q1|].
        split; [|rewrite app_assoc; exact Q3].
        split; [intros X; apply Q2 in X; destruct X as [X _]; discriminate|intros [_ X]; discriminate].
      + destruct (apply_each outcome m c v acc ss us) as [[[[[[c2 v2] us2] acc2] r2] did2] evs2] eqn:E2.
        injection H as <- <- <- <- <- <- <-.
        destruct (IH _ _ _ _ _ _ _ _ _ _ _ _ Hl E2 Hd Hu Hh Ha) as (parts & vs' & T & -> & Q).
        exists parts, vs'. split; [apply it_deaf; assumption|]. split; [reflexivity|]. exact Q.
  Qed.

  (** What the event of a composite session gives. *)
  Lemma apply_sessions_spec {U} m (ss : list (rsession U)) w w' raised did evs :
    length (w_own w) = length ss -> w_status w = VNil ->
    apply_sessions outcome ss m w = (w', raised, did, evs) -> Forall (fun a => ~ dashed a) did ->
    exists parts v', in_turn m ss (w_own w) (w_client w) VNil parts raised (w_own w') (w_client w') v' evs /\
      did = concat parts /\
      (raised = false -> exists vs, said_all parts vs /\
         match parts with
         | [] => status_returned (status_read (w_status w')) =
                 match m with CNegotiate _ => S_REJECT | _ => S_CONTINUE end
         | _ :: _ => severest vs (status_returned (status_read (w_status w')))
         end).
  Proof.
    intros Hl Hv H Hd. unfold apply_sessions in H.
    destruct (apply_each outcome m (w_client w) (w_status w) None ss (w_own w)) as [[[[[[c v] us] acc] r] did0] evs0] eqn:E.
    rewrite Hv in E.
    assert (Ed : did0 = did) by (destruct r; injection H as _ _ <- _; reflexivity). subst did0.
    destruct (apply_each_spec m ss _ _ _ None [] _ _ _ _ _ _ _ Hl E Hd) as (parts & vs & T & Hp & Q).
    { intros n X. discriminate. } { left. auto. } { reflexivity. }
    destruct r.
    - injection H as <- <- <-. exists parts, v. split; [exact T|]. split; [exact Hp|]. discriminate.
    - injection H as <- <- <-. exists parts, v.
      assert (G : forall x, w_own (fst (give_status (mk_world c v us) x)) = us /\
                            w_client (fst (give_status (mk_world c v us) x)) = c).
      { intros x. unfold give_status. destruct (status_given x); auto. }
      destruct (G (or_default acc (default_status m))) as [-> ->].
      split; [exact T|]. split; [exact Hp|]. intros _. destruct (Q eq_refl) as (Q1 & Q2 & Q3).
      exists vs. split; [exact Q1|]. destruct acc as [a|].
      + cbn [or_default]. destruct Q3 as (x & Hx & _ & _ & Ex). unfold give_status. rewrite (means_given _ _ Hx).
        cbn [fst w_with_status w_status]. rewrite (means_returned _ _ Hx).
        destruct parts; [destruct Q2 as [_ Q2]; discriminate Q2; auto|].
        rewrite Ex. apply severest_fold.
      + destruct Q2 as [Q2 _]. destruct (Q2 eq_refl) as [_ ->]. cbn [or_default].
        unfold default_status. destruct m; reflexivity.
  Qed.

  Lemma in_turn_calls {U} m (ss : list (rsession U)) us c v parts raised us' c' v' evs :
    in_turn m ss us c v parts raised us' c' v' evs ->
    exists ks, ask_all (concat parts) ks /\ do_calls outcome c ks = (c', evs).
  Proof.
    assert (App : forall a b ka kb, ask_all a ka -> ask_all b kb -> ask_all (a ++ b) (ka ++ kb)).
    { intros a b ka kb Ha Hb. induction Ha; cbn [app]; [exact Hb|]. rewrite <- app_assoc. constructor; assumption. }
    induction 1 as [|? ? ? ? ? ? ? ? ? ? ? ? ? ? IH|? ? ? ? ? ? ? ? ? E|? ? ? ? ? ? w1 ? ? ? ? ? ? ? ? E T IH].
    - exists []. split; [constructor|reflexivity].
    - exact IH.
    - destruct (event_spec _ _ _ _ _ _ _ E) as (_ & K & _). cbn [concat]. rewrite app_nil_r. exact K.
    - destruct (event_spec _ _ _ _ _ _ _ E) as (_ & (ks & A & C) & _). destruct IH as (ks' & A' & C').
      exists (ks ++ ks'). split; [apply App; assumption|]. cbn [w_client] in C. exact (do_calls_app _ _ _ _ _ _ _ _ C C').
  Qed.
End Composite.

(** *** Negotiation *)

Lemma remove_step_bit o s i : N.testbit (o_step (option_remove_step o s)) i = N.testbit (o_step o) i && negb (N.testbit s i).
Proof. cbn [option_remove_step o_step]. apply N.ldiff_spec. Qed.
Lemma step_of_pow n : step_of n = 2 ^ no_send_bit n.
Proof. destruct n; reflexivity. Qed.
Lemma no_reply_mask_bit i : N.testbit STEP_NO_REPLY_MASK i = true <-> no_reply_bit i.
Proof.
  unfold no_reply_bit. destruct (N.ltb_spec i 20) as [L|L].
  - assert (X : forallb (fun j => Bool.eqb (N.testbit STEP_NO_REPLY_MASK j) ((j =? 7) || ((12 <=? j) && (j <=? 19))))
                  (map N.of_nat (List.seq 0 20)) = true) by (vm_compute; reflexivity).
    rewrite forallb_forall in X. specialize (X i). rewrite Bool.eqb_true_iff in X.
    rewrite X.
    + rewrite Bool.orb_true_iff, Bool.andb_true_iff, N.eqb_eq, !N.leb_le. tauto.
    + apply in_map_iff. exists (N.to_nat i). split; [apply N2Nat.id|]. apply in_seq. lia.
  - rewrite N.bits_above_log2; [split; [discriminate|lia]|].
    replace (N.log2 STEP_NO_REPLY_MASK) with 19 by reflexivity. lia.
Qed.

Lemma fold_steps (defines : method_name -> bool) ns : forall o i,
  N.testbit (o_step (fold_left (fun o n => if defines n then option_remove_step o (step_of n) else o) ns o)) i = true <->
  N.testbit (o_step o) i = true /\ (forall n, In n ns -> defines n = true -> no_send_bit n <> i).
Proof.
  induction ns as [|n ns IH]; intros o i; cbn [fold_left].
  - split; [intros H; split; [exact H|intros n []]|tauto].
  - rewrite IH. destruct (defines n) eqn:En.
    + rewrite remove_step_bit, Bool.andb_true_iff, Bool.negb_true_iff, step_of_pow, N.pow2_bits_eqb, N.eqb_neq.
      split.
      * intros [[H1 H2] H3]. split; [exact H1|]. intros x [<-|Hx]; auto.
      * intros [H1 H2]. split; [split; [exact H1|]|]; [apply H2; [left; reflexivity|exact En]|]. intros x Hx. apply H2. right. exact Hx.
    + split; intros [H1 H2]; (split; [exact H1|]).
      * intros x [<-|Hx]; [congruence|auto].
      * intros x Hx. apply H2. right. exact Hx.
Qed.
Lemma fold_steps_rest (defines : method_name -> bool) ns : forall o,
  let o' := fold_left (fun o n => if defines n then option_remove_step o (step_of n) else o) ns o in
  o_version o' = o_version o /\ o_action o' = o_action o.
Proof.
  induction ns as [|n ns IH]; intros o; cbn [fold_left]; [auto|].
  specialize (IH (if defines n then option_remove_step o (step_of n) else o)). cbn zeta in *.
  destruct IH as [-> ->]. destruct (defines n); auto.
Qed.

Lemma inherited_answer_spec defines leading o :
  let o' := inherited_answer defines leading o in
  o_version o' = o_version o /\ o_action o' = o_action o /\
  forall i, N.testbit (o_step o') i = true <->
    N.testbit (o_step o) i = true /\ (forall n, defines n = true -> no_send_bit n <> i) /\
    (leading = false -> i <> leading_space_bit) /\ ~ no_reply_bit i.
Proof.
  unfold inherited_answer. cbn zeta.
  set (ns := [MConnect; MHelo; MFrom; MRcpt; MBody; MUnknown; MHeader; MEndOfHeader; MData]).
  destruct (fold_steps_rest defines ns o) as [V A]. cbn zeta in V, A.
  set (o1 := fold_left _ ns o) in *.
  split; [destruct leading; exact V|]. split; [destruct leading; exact A|]. intros i.
  rewrite remove_step_bit, Bool.andb_true_iff, Bool.negb_true_iff, <- Bool.not_true_iff_false, no_reply_mask_bit.
  assert (F : N.testbit (o_step o1) i = true <-> N.testbit (o_step o) i = true /\ (forall n, defines n = true -> no_send_bit n <> i)).
  { unfold o1. rewrite fold_steps. split; intros [H1 H2]; (split; [exact H1|]); intros n.
    - apply H2. unfold ns. destruct n; cbn; tauto.
    - intros _. apply H2. }
  destruct leading.
  - rewrite F. split; [intros [[H1 H2] H3]|intros (H1 & H2 & H3 & H4)]; repeat split; auto; discriminate.
  - rewrite remove_step_bit, Bool.andb_true_iff, Bool.negb_true_iff, F.
    change STEP_HEADER_LEADING_SPACE with (2 ^ leading_space_bit).
    rewrite N.pow2_bits_eqb, N.eqb_neq.
    split; [intros [[[H1 H2] H3] H4]|intros (H1 & H2 & H3 & H4)]; repeat split; auto.
    intros X. apply (H3 eq_refl). congruence.
Qed.
