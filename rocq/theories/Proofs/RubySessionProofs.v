(** Proofs about filters written with the Ruby library. *)
From Verif.Base Require Import Bytes BytesFacts.
From Verif.Model Require Import Decoder Encoder CommandCodec ReplyCodec Status Option Macros ReplyCode Client RubySession.
From Verif.Spec Require Import ReplyCodeSpec RubySessionSpec.
From Verif.Proofs Require Import ReplyCodeProofs.
From Coq Require Import Lia.
Local Open Scope N_scope.

(** *** Names *)

Definition all_bytes : list byte := map (fun n => byte_of (N.of_nat n)) (List.seq 0 256).
Lemma every_byte (P : byte -> bool) : forallb P all_bytes = true -> forall b, P b = true.
Proof.
  intros H b. rewrite forallb_forall in H. apply H. unfold all_bytes. apply in_map_iff.
  exists (N.to_nat (N_of_ascii b)). split.
  - rewrite N2Nat.id. unfold byte_of. rewrite N.mod_small by (pose proof (N_ascii_bounded b); lia).
    apply ascii_N_embedding.
  - apply in_seq. pose proof (N_ascii_bounded b). lia.
Qed.

Definition const_byte (b : byte) : byte := if beqb (upcase_byte b) "-"%char then "_"%char else upcase_byte b.
Lemma underscored_upcase n : underscored (upcase n) = map const_byte n.
Proof. unfold underscored, upcase. rewrite map_map. reflexivity. Qed.
Lemma nick_of_const b : as_nick (const_byte b) = as_nick b.
Proof. apply beqb_eq. revert b. apply every_byte. vm_compute. reflexivity. Qed.
Lemma const_of_nick b : const_byte (as_nick b) = const_byte b.
Proof. apply beqb_eq. revert b. apply every_byte. vm_compute. reflexivity. Qed.

Lemma map_nick_const n : map as_nick (map const_byte n) = map as_nick n.
Proof. rewrite map_map. apply map_ext. exact nick_of_const. Qed.
Lemma map_const_nick n : map const_byte (map as_nick n) = map const_byte n.
Proof. rewrite map_map. apply map_ext. exact const_of_nick. Qed.

Lemma constant_in_some t : forall n s, constant_in t n = Some s -> In (n, s) t.
Proof.
  induction t as [|[x y] t IH]; intros n s H; cbn [constant_in] in H; [discriminate|].
  destruct (bytes_eqb x n) eqn:E.
  - injection H as <-. left. apply bytes_eqb_eq in E. congruence.
  - right. auto.
Qed.
Lemma constant_in_none t : forall n, constant_in t n = None -> forall s, ~ In (n, s) t.
Proof.
  induction t as [|[x y] t IH]; intros n H s Hi; cbn [constant_in] in H; [destruct Hi|].
  destruct (bytes_eqb x n) eqn:E; [discriminate|]. destruct Hi as [Hi|Hi].
  - injection Hi as -> _. rewrite bytes_eqb_refl in E. discriminate.
  - exact (IH n H s Hi).
Qed.
Lemma constants_nicks : map (fun p => (map as_nick (fst p), snd p)) status_constants = nicks.
Proof. vm_compute. reflexivity. Qed.
Lemma nicks_constants : map (fun p => (map const_byte (fst p), snd p)) nicks = status_constants.
Proof. vm_compute. reflexivity. Qed.

Lemma constant_unique n s : In (n, s) status_constants -> status_constant n = Some s.
Proof.
  unfold status_constants. cbn [In]. intros H.
  repeat (destruct H as [H|H]; [injection H as <- <-; vm_compute; reflexivity|]). destruct H.
Qed.

Lemma named_status_spec n s : named_status n = Some s <-> names n s.
Proof.
  unfold named_status, names. rewrite underscored_upcase. split; intros H.
  - apply constant_in_some in H. rewrite <- constants_nicks, <- map_nick_const.
    exact (in_map (fun p => (map as_nick (fst p), snd p)) _ _ H).
  - apply constant_unique. rewrite <- nicks_constants, <- map_const_nick.
    exact (in_map (fun p => (map const_byte (fst p), snd p)) _ _ H).
Qed.
Lemma named_status_none n : named_status n = None <-> (forall s, ~ names n s).
Proof.
  split; intros H.
  - intros s Hs. apply named_status_spec in Hs. congruence.
  - destruct (named_status n) as [s|] eqn:E; [|reflexivity]. apply named_status_spec in E. elim (H s E).
Qed.

Lemma status_given_some v v' : status_given v = Some v' ->
  v' = v /\ exists s, value_means v (Some s).
Proof.
  destruct v; cbn [status_given]; intros H.
  - destruct (named_status n) as [s|] eqn:E; [|discriminate]. injection H as <-. split; [reflexivity|].
    exists s. constructor. apply named_status_spec. exact E.
  - injection H as <-. split; [reflexivity|]. eexists. constructor.
  - injection H as <-. split; [reflexivity|]. eexists. constructor.
  - discriminate.
Qed.
Lemma status_given_none v : status_given v = None -> value_means v None.
Proof.
  destruct v; cbn [status_given]; intros H; try discriminate; [|constructor].
  destruct (named_status n) eqn:E; [discriminate|]. constructor. apply named_status_none. exact E.
Qed.
Lemma means_returned v s : value_means v (Some s) -> status_returned (status_read v) = s.
Proof.
  intros H. destruct v as [n|s'| |]; cbn [status_read status_returned status_given]; inversion H; subst; try reflexivity.
  match goal with Hn : names _ _ |- _ => apply named_status_spec in Hn; rewrite Hn end. reflexivity.
Qed.
Lemma means_given v s : value_means v (Some s) -> status_given v = Some v.
Proof.
  intros H. destruct v as [n|s'| |]; cbn [status_read status_returned status_given]; inversion H; subst; try reflexivity.
  match goal with Hn : names _ _ |- _ => apply named_status_spec in Hn; rewrite Hn end. reflexivity.
Qed.

(** *** Codes *)

Lemma or_default_chosen {A} (x : option A) d : chosen x d (or_default x d).
Proof. destruct x; constructor. Qed.
Lemma option_given_spec o : if option_given o then ~ nothing_given o else nothing_given o.
Proof.
  destruct o as [[c|] [e|] [r|]]; cbn; unfold nothing_given; cbn; try (intros (? & ? & ?); discriminate).
  auto.
Qed.

Section Ruby.
  Variable outcome : nat -> write_outcome.

  Lemma do_calls_app ks : forall c ks' c1 evs1 c2 evs2,
    do_calls outcome c ks = (c1, evs1) -> do_calls outcome c1 ks' = (c2, evs2) ->
    do_calls outcome c (ks ++ ks') = (c2, evs1 ++ evs2).
  Proof.
    induction ks as [|k ks IH]; intros c ks' c1 evs1 c2 evs2 H1 H2; cbn [do_calls app] in *.
    - injection H1 as <- <-. exact H2.
    - destruct (do_call outcome c k) as [[ok d] evs]. destruct (do_calls outcome d ks) as [d' evs'] eqn:E.
      injection H1 as <- <-. rewrite (IH _ _ _ _ _ _ E H2). rewrite <- app_assoc. reflexivity.
  Qed.

  Lemma context_call_spec {U} (w : world U) k w' b evs :
    context_call outcome w k = (w', b, evs) ->
    do_calls outcome (w_client w) [k] = (w_client w', evs) /\ w_status w' = w_status w /\ w_own w' = w_own w.
  Proof.
    unfold context_call. cbn [do_calls]. destruct (do_call outcome (w_client w) k) as [[ok c] evs0].
    intros H. injection H as <- _ <-. auto.
  Qed.

  Lemma context_set_reply_spec {U} (w : world U) c e r w' b evs :
    context_set_reply outcome w c e r = (w', b, evs) ->
    do_calls outcome (w_client w) [KSetReply c (Some e) (Some r)] = (w_client w', evs) /\
    w_own w' = w_own w /\
    ((b = Given true /\ exists s, code_means c e (Some s) /\ value_means (w_status w') (Some s)) \/
     (b = Raised /\ code_means c e None /\ w_status w' = w_status w)).
  Proof.
    unfold context_set_reply. destruct (context_call outcome w _) as [[w1 a] evs1] eqn:E.
    destruct (context_call_spec _ _ _ _ _ E) as (H1 & H2 & H3).
    unfold context_call in E. cbn [do_call] in E.
    destruct (set_reply_spec (cc_reply (w_client w)) c (Some e) (Some r)) as [[Ha Es]|[Ha Es]]; rewrite Es in E.
    - injection E as <- <- <-. cbn [w_status w_own w_with_client w_client] in *.
      assert (Hr : 400 <= c < 600) by (destruct Ha; assumption).
      destruct (N.leb_spec 400 c) as [L1|L1]; [|lia]. cbn [andb].
      destruct (N.ltb_spec c 500) as [L2|L2].
      + intros H. injection H as <- <- <-. split; [exact H1|]. split; [reflexivity|]. left.
        split; [reflexivity|]. exists S_TEMPORARY_FAILURE. split; [constructor; assumption|].
        apply vm_name. apply named_status_spec. vm_compute. reflexivity.
      + destruct (N.leb_spec 500 c) as [L3|L3]; [|lia]. destruct (N.ltb_spec c 600) as [L4|L4]; [|lia]. cbn [andb].
        intros H. injection H as <- <- <-. split; [exact H1|]. split; [reflexivity|]. left.
        split; [reflexivity|]. exists S_REJECT. split; [constructor; assumption|].
        apply vm_name. apply named_status_spec. vm_compute. reflexivity.
    - injection E as <- <- <-. intros H. injection H as <- <- <-.
      split; [exact H1|]. split; [reflexivity|]. right. split; [reflexivity|]. split; [constructor; exact Ha|reflexivity].
  Qed.

  Lemma do_reset_spec {U} reset (w : world U) w' b : do_reset reset w = (w', b) ->
    w_client w' = w_client w /\ w_status w' = w_status w.
  Proof. unfold do_reset. destruct (reset (w_own w)) as [u r]. intros H. injection H as <- _. auto. Qed.
  Lemma reset_unless_recipient_spec {U} reset (w : world U) w' b : reset_unless_recipient reset w = (w', b) ->
    w_client w' = w_client w /\ w_status w' = w_status w.
  Proof.
    unfold reset_unless_recipient. destruct (cc_state (w_client w)) as [|[]| |]; try exact (do_reset_spec reset w w' b).
    intros H. injection H as <- _. auto.
  Qed.

  (** What an action did to the status. *)
  Definition status_after (a : action) (v v' : rvalue) : Prop :=
    (means a None /\ v' = v) \/ (exists s, means a (Some s) /\ value_means v' (Some s)).

  Ltac named := apply vm_name; apply named_status_spec; vm_compute; reflexivity.

  Lemma refuse_spec {U} reset (w : world U) o plain s c e r w' b evs :
    value_means (VName plain) (Some s) ->
    refuse outcome reset w o plain c e r = (w', b, evs) ->
    (nothing_given o /\ do_calls outcome (w_client w) [] = (w_client w', evs) /\
     value_means (w_status w') (Some s)) \/
    (~ nothing_given o /\
     do_calls outcome (w_client w) [KSetReply (or_default (ro_code o) c) (Some (or_default (ro_extended o) e))
                                      (Some (or_default (ro_reason o) r))] = (w_client w', evs) /\
     ((exists s, code_means (or_default (ro_code o) c) (or_default (ro_extended o) e) (Some s) /\
                 value_means (w_status w') (Some s)) \/
      (code_means (or_default (ro_code o) c) (or_default (ro_extended o) e) None /\ w_status w' = w_status w))).
  Proof.
    intros Hp. unfold refuse. pose proof (option_given_spec o) as Ho. destruct (option_given o).
    - destruct (context_set_reply outcome w _ _ _) as [[w1 a] evs1] eqn:E.
      destruct (context_set_reply_spec _ _ _ _ _ _ _ E) as (H1 & _ & H2).
      intros H. right. split; [exact Ho|].
      destruct H2 as [[-> (s' & Hs & Hv)]|[-> [Hs Hv]]].
      + destruct (reset_unless_recipient reset w1) as [w2 a2] eqn:Er. injection H as <- <- <-.
        destruct (reset_unless_recipient_spec _ _ _ _ Er) as [-> ->]. split; [exact H1|]. left. eauto.
      + injection H as <- <- <-. split; [exact H1|]. right. auto.
    - destruct (reset_unless_recipient reset _) as [w1 a] eqn:Er. intros H. injection H as <- <- <-.
      destruct (reset_unless_recipient_spec _ _ _ _ Er) as [-> ->]. left. split; [exact Ho|].
      unfold give_status. rewrite (means_given _ _ Hp). cbn. auto.
  Qed.

  Lemma perform_spec {U} reset (w : world U) a w' b evs :
    perform outcome reset w a = (w', b, evs) ->
    exists ks, asks a ks /\ do_calls outcome (w_client w) ks = (w_client w', evs) /\
      status_after a (w_status w) (w_status w').
  Proof.
    destruct a as [| | | |o|o|r|v|c e r|k]; cbn [perform]; intros H.
    - destruct (do_reset reset _) as [w1 a] eqn:E. injection H as <- <- <-.
      destruct (do_reset_spec _ _ _ _ E) as [-> ->]. exists []. split; [constructor|]. split; [reflexivity|].
      right. exists S_ACCEPT. split; [constructor|]. named.
    - destruct (do_reset reset _) as [w1 a] eqn:E. injection H as <- <- <-.
      destruct (do_reset_spec _ _ _ _ E) as [-> ->]. exists []. split; [constructor|]. split; [reflexivity|].
      right. exists S_DISCARD. split; [constructor|]. named.
    - injection H as <- <- <-. exists []. split; [constructor|]. split; [reflexivity|].
      right. exists S_CONTINUE. split; [constructor|]. named.
    - injection H as <- <- <-. exists []. split; [constructor|]. split; [reflexivity|].
      right. exists S_PROGRESS. split; [constructor|]. named.
    - destruct (refuse_spec reset w o (lit "reject") S_REJECT 550 (lit "5.7.1") (lit "Command rejected") w' b evs)
        as [(Ho & H1 & H2)|(Ho & H1 & H2)]; [named|exact H| |].
      + exists []. split; [constructor; exact Ho|]. split; [exact H1|]. right. exists S_REJECT.
        split; [apply me_reject; exact Ho|exact H2].
      + eexists. split; [apply as_reply_reject; [exact Ho|apply or_default_chosen..]|]. split; [exact H1|].
        destruct H2 as [(s & Hs & Hv)|[Hs Hv]]; [right; exists s; split; [|exact Hv]|left; split; [|exact Hv]];
          (eapply me_reject_with; [exact Ho|apply or_default_chosen|apply or_default_chosen|exact Hs]).
    - destruct (refuse_spec reset w o (lit "temporary_failure") S_TEMPORARY_FAILURE 451 (lit "4.7.1")
                  (lit "Service unavailable - try again later") w' b evs)
        as [(Ho & H1 & H2)|(Ho & H1 & H2)]; [named|exact H| |].
      + exists []. split; [constructor; exact Ho|]. split; [exact H1|]. right. exists S_TEMPORARY_FAILURE.
        split; [apply me_fail; exact Ho|exact H2].
      + eexists. split; [apply as_reply_fail; [exact Ho|apply or_default_chosen..]|]. split; [exact H1|].
        destruct H2 as [(s & Hs & Hv)|[Hs Hv]]; [right; exists s; split; [|exact Hv]|left; split; [|exact Hv]];
          (eapply me_fail_with; [exact Ho|apply or_default_chosen|apply or_default_chosen|exact Hs]).
    - destruct (context_call outcome w (KQuarantine (Some r))) as [[w1 a1] evs1] eqn:E.
      destruct (context_call_spec _ _ _ _ _ E) as (H1 & H2 & _).
      unfold context_call in E. cbn [do_call] in E. injection E as <- <- <-.
      destruct (do_reset reset _) as [w2 a2] eqn:Er. injection H as <- <- <-.
      destruct (do_reset_spec _ _ _ _ Er) as [-> ->].
      eexists. split; [apply as_quarantine|]. split; [exact H1|].
      right. exists S_ACCEPT. split; [constructor|]. named.
    - unfold give_status in H. destruct (status_given v) as [v'|] eqn:E.
      + injection H as <- <- <-. destruct (status_given_some _ _ E) as [-> (s & Hs)].
        exists []. split; [constructor|]. split; [reflexivity|]. right. exists s. split; [constructor; exact Hs|exact Hs].
      + injection H as <- <- <-. exists []. split; [constructor|]. split; [reflexivity|]. left.
        split; [|reflexivity]. constructor. apply status_given_none. exact E.
    - destruct (context_set_reply_spec _ _ _ _ _ _ _ H) as (H1 & _ & H2).
      eexists. split; [apply as_set_reply|]. split; [exact H1|].
      destruct H2 as [[_ (s & Hs & Hv)]|[_ [Hs Hv]]]; [right; exists s|left]; (split; [constructor; exact Hs|exact Hv]).
    - destruct (context_call_spec _ _ _ _ _ H) as (H1 & H2 & _).
      exists [k]. split; [constructor|]. split; [exact H1|]. left. split; [constructor|exact H2].
  Qed.

  Definition status_after_all (did : list action) (v v' : rvalue) : Prop :=
    (Forall (fun a => means a None) did /\ v' = v) \/
    (exists before a after s, did = before ++ a :: after /\ means a (Some s) /\
       Forall (fun b => means b None) after /\ value_means v' (Some s)).

  Lemma run_method_spec {U} reset (p : method U) : forall (w : world U) w' raised did evs,
    run_method outcome reset w p = (w', raised, did, evs) ->
    exists ks, ask_all did ks /\ do_calls outcome (w_client w) ks = (w_client w', evs) /\
      status_after_all did (w_status w) (w_status w').
  Proof.
    induction p as [u|u|u a next IH]; intros w w' raised did evs H; cbn [run_method] in H.
    - injection H as <- <- <- <-. exists []. split; [constructor|]. split; [reflexivity|]. left. split; [constructor|reflexivity].
    - injection H as <- <- <- <-. exists []. split; [constructor|]. split; [reflexivity|]. left. split; [constructor|reflexivity].
    - destruct (perform outcome reset (w_with_own w u) a) as [[w1 b] evs1] eqn:E.
      destruct (run_method outcome reset w1 _) as [[[w2 raised2] did2] evs2] eqn:E2.
      injection H as <- <- <- <-.
      destruct (perform_spec _ _ _ _ _ _ E) as (ks1 & A1 & C1 & S1).
      destruct (IH _ _ _ _ _ _ _ _ _ E2) as (ks2 & A2 & C2 & S2).
      exists (ks1 ++ ks2). split; [constructor; assumption|].
      split; [exact (do_calls_app _ _ _ _ _ _ _ C1 C2)|].
      destruct S2 as [[N2 V2]|(bf & x & af & s & -> & Hx & Ha & Hv)].
      + destruct S1 as [[N1 V1]|(s & Hs & Hv)].
        * left. split; [constructor; assumption|]. rewrite V2, V1. reflexivity.
        * right. exists [], a, did2, s. rewrite V2. auto.
      + right. exists (a :: bf), x, af, s. auto.
  Qed.

  Lemma status_decided did v' : status_after_all did VNil v' ->
    decided did (status_returned (status_read v')) /\ exists s, value_means v' (Some s).
  Proof.
    intros [[N ->]|(bf & x & af & s & -> & Hx & Ha & Hv)].
    - split; [apply de_nothing; exact N|]. eexists. constructor.
    - rewrite (means_returned _ _ Hv). split; [apply de_last; assumption|eauto].
  Qed.

  (** *** The library *)

  (** A session object: what its methods do are calls of the context, and what they say is
      [said]. *)
  Definition lawful {U} (said : command -> list action -> status -> Prop) (p : program U) : Prop :=
    forall m w w' raised did evs,
      p_event _ p m w = Some (w', raised, did, evs) ->
      (exists ks, ask_all did ks /\ do_calls outcome (w_client w) ks = (w_client w', evs)) /\
      (raised = false -> w_status w = VNil -> said m did (status_returned (status_read (w_status w')))).

  Lemma block_end_spec {U} fallback (w : world U) raised w' s :
    block_end fallback w raised = Some (w', s) ->
    w_client w' = w_client w /\ w_status w' = VNil /\ w_own w' = w_own w /\
    match raised with
    | true => value_means fallback (Some s)
    | false => s = status_returned (status_read (w_status w))
    end.
  Proof.
    unfold block_end. destruct raised.
    - destruct (status_given fallback) as [v|] eqn:E; [|discriminate]. intros H. injection H as <- <-.
      destruct (status_given_some _ _ E) as [-> (s & Hs)]. cbn [w_client w_status w_own w_with_status].
      rewrite (means_returned _ _ Hs). auto.
    - intros H. injection H as <- <-. auto.
  Qed.

  Lemma settled_spec m s : fst (accumulate S_DEFAULT [s; class_status m]) = settled m s.
  Proof. destruct m, s; reflexivity. Qed.

  Definition handler_said (said : command -> list action -> status -> Prop) (fallback : rvalue) (m : command) (e : entry) : Prop :=
    match l_raised e with
    | true => value_means fallback (Some (l_status e))
    | false => said m (l_did e) (l_status e)
    end.

  Lemma step_spec {U} said fallback (p : program U) w m w' e evs :
    lawful said p -> (forall m, said m [] S_DEFAULT) ->
    w_status w = VNil -> ruby_step outcome fallback p w m = Some (w', e, evs) ->
    w_status w' = VNil /\ handler_said said fallback (told_of_command m) e /\
    exists ks o q, ask_all (l_did e) ks /\
      (forall o0, m = CNegotiate o0 -> (o, q) = p_answer _ p (w_own w) o0) /\
      client_step outcome (w_client w) (OpCommand m ks o q (settled m (l_status e))) = (w_client w', evs).
  Proof.
    intros L D0 Hv H. unfold ruby_step in H. cbn zeta in H.
    set (w1 := w_with_client w (receive_command (w_client w) m)) in *.
    assert (Hv1 : w_status w1 = VNil) by exact Hv.
    assert (Ho1 : w_own w1 = w_own w) by reflexivity.
    assert (Hc1 : w_client w1 = receive_command (w_client w) m) by reflexivity.
    destruct (match m with CQuit => true | CDefineMacro _ _ => true | _ => false end) eqn:Hm.
    - destruct m; try discriminate Hm; injection H as <- <- <-.
      + split; [exact Hv1|]. split; [apply D0|]. exists [], (mk_option 0 0 0), [].
        split; [constructor|]. split; [discriminate|]. reflexivity.
      + split; [exact Hv1|]. split; [apply D0|]. exists [], (mk_option 0 0 0), [].
        split; [constructor|]. split; [discriminate|]. reflexivity.
    - set (oq := match m with CNegotiate o => p_answer U p (w_own w1) o | _ => (mk_option 0 0 0, []) end) in *.
      set (blk := match m with CAbort => abort_block fallback p w1 | _ => event_block fallback p m w1 end) in *.
      assert (H' : (let (o, reqs) := oq in
        match blk with
        | None => None
        | Some (w2, e, evs) =>
            match fst (accumulate S_DEFAULT [l_status e; class_status m]), command_stage m with
            | S_PROGRESS, _ | _, None =>
                Some (w_with_client w2 (match m with CAbort => reset_message_related_data (w_client w2) | _ => w_client w2 end), e, evs)
            | _, Some t =>
                let (c4, evs') := respond outcome (match m with CAbort => reset_message_related_data (w_client w2) | _ => w_client w2 end) t o reqs (fst (accumulate S_DEFAULT [l_status e; class_status m])) in
                Some (w_with_client w2 c4, e, evs ++ evs')
            end
        end) = Some (w', e, evs)).
      { destruct m; try discriminate Hm; exact H. }
      clear H. rename H' into H.
      destruct oq as [o q] eqn:Eoq. destruct blk as [[[w2 e2] evs2]|] eqn:Eb; [|discriminate].
      assert (B : w_status w2 = VNil /\ handler_said said fallback (told_of_command m) e2 /\
                  exists ks, ask_all (l_did e2) ks /\
                    do_calls outcome (receive_command (w_client w) m) ks = (w_client w2, evs2)).
      { destruct (match m with CAbort => true | _ => false end) eqn:Ha.
        - destruct m; try discriminate Ha. unfold blk in Eb. unfold abort_block in Eb.
          remember (match p_event U p CAbort w1 with Some r => r | None => (w1, false, [], []) end) as r eqn:Er.
          destruct r as [[[wa ra] da] ea].
          assert (R : (exists ks, ask_all da ks /\ do_calls outcome (w_client w1) ks = (w_client wa, ea)) /\
                      (ra = false -> said CAbort da (status_returned (status_read (w_status wa))))).
          { destruct (p_event U p CAbort w1) as [[[[wb rb] db] eb]|] eqn:Ep; injection Er as -> -> -> ->.
            - destruct (L _ _ _ _ _ _ Ep) as [K S]. split; [exact K|]. intros Hra. exact (S Hra Hv1).
            - split; [exists []; split; [constructor|reflexivity]|]. intros _. rewrite Hv1. apply D0. }
          destruct R as [(ks & Ak & Ck) S].
          destruct (if ra then status_given fallback else Some (w_status wa)) as [v|] eqn:Ev; [|discriminate].
          destruct (p_reset U p (w_own wa)) as [u ru] eqn:Eu.
          destruct (block_end fallback (w_with_own (w_with_status wa v) u) ru) as [[w3 s3]|] eqn:Ee; [|discriminate].
          injection Eb as <- <- <-.
          destruct (block_end_spec _ _ _ _ _ Ee) as (B1 & B2 & B3 & B4).
          split; [exact B2|]. split; [|exists ks; split; [exact Ak|]; rewrite B1; exact Ck].
          unfold handler_said. cbn [l_raised l_status l_did]. destruct ra, ru; cbn [orb]; try exact B4.
          + cbn [w_status w_with_own w_with_status] in B4. destruct (status_given_some _ _ Ev) as [-> (s & Hs)].
            rewrite B4, (means_returned _ _ Hs). exact Hs.
          + injection Ev as <-. rewrite B4. apply S. reflexivity.
        - assert (Eb' : event_block fallback p m w1 = Some (w2, e2, evs2)) by (destruct m; try discriminate Ha; exact Eb).
          clear Eb. unfold event_block in Eb'.
          destruct (p_event U p (told_of_command m) w1) as [[[[wb rb] db] eb]|] eqn:Ep.
          + destruct (block_end fallback wb rb) as [[w3 s3]|] eqn:Ee; [|discriminate]. injection Eb' as <- <- <-.
            destruct (block_end_spec _ _ _ _ _ Ee) as (B1 & B2 & B3 & B4).
            destruct (L _ _ _ _ _ _ Ep) as [(ks & Ak & Ck) S].
            split; [exact B2|]. split; [|exists ks; split; [exact Ak|]; rewrite B1, <- Hc1; exact Ck].
            unfold handler_said. cbn [l_raised l_status l_did]. destruct rb; [exact B4|].
            rewrite B4. apply S; [reflexivity|exact Hv1].
          + injection Eb' as <- <- <-. split; [exact Hv1|]. split; [apply D0|].
            exists []. split; [constructor|reflexivity]. }
      destruct B as (B1 & B2 & ks & Ak & Ck).
      rewrite settled_spec in H.
      assert (Hn : forall o0, m = CNegotiate o0 -> (o, q) = p_answer U p (w_own w) o0).
      { intros o0 ->. symmetry. exact Eoq. }
      destruct (command_stage m) as [t|] eqn:Et.
      2:{ destruct m; discriminate. }
      set (c3 := match m with CAbort => reset_message_related_data (w_client w2) | _ => w_client w2 end) in *.
      assert (Hstep : forall s, client_step outcome (w_client w) (OpCommand m ks o q s) =
                match s with
                | S_PROGRESS => (c3, evs2)
                | _ => let (c4, evs') := respond outcome c3 t o q s in (c4, evs2 ++ evs')
                end).
      { intros s. unfold client_step. rewrite Ck, Et. destruct m; try discriminate Hm; reflexivity. }
      assert (HE : e2 = e).
      { destruct (settled m (l_status e2)); try (destruct (respond outcome c3 t o q _)); injection H; auto. }
      subst e2.
      specialize (Hstep (settled m (l_status e))).
      destruct (settled m (l_status e)) eqn:Es;
        try (destruct (respond outcome c3 t o q _) as [c4 evs4] eqn:Er);
        injection H as <- <-; (split; [exact B1|]); (split; [exact B2|]); exists ks, o, q;
        (split; [exact Ak|]); (split; [exact Hn|]); rewrite Hstep; reflexivity.
  Qed.

  Lemma run_spec {U} said fallback (p : program U) ms : forall w w' log evs,
    lawful said p -> (forall m, said m [] S_DEFAULT) ->
    w_status w = VNil -> ruby_run outcome fallback p w ms = Some (w', log, evs) ->
    Forall2 (handler_said said fallback) (map told_of_command ms) log /\
    exists ops, amounts_to ms log ops /\ client_run outcome (w_client w) ops = (w_client w', evs).
  Proof.
    induction ms as [|m ms IH]; intros w w' log evs L D0 Hv H; cbn [ruby_run] in H.
    - injection H as <- <- <-. split; [constructor|]. exists []. split; [constructor|reflexivity].
    - destruct (ruby_step outcome fallback p w m) as [[[w1 e] evs1]|] eqn:E; [|discriminate].
      destruct (ruby_run outcome fallback p w1 ms) as [[[w2 log2] evs2]|] eqn:E2; [|discriminate].
      injection H as <- <- <-.
      destruct (step_spec said fallback p w m w1 e evs1 L D0 Hv E) as (V1 & S1 & ks & o & q & A1 & _ & C1).
      destruct (IH _ _ _ _ L D0 V1 E2) as (F & ops & A2 & C2).
      split; [cbn [map]; constructor; assumption|].
      eexists. split; [apply am_more with (o := o) (q := q); eassumption|].
      cbn [client_run]. rewrite C1, C2. reflexivity.
  Qed.

  Lemma session_lawful {U} (s : rsession U) :
    lawful (fun _ => decided) (session_program outcome s).
  Proof.
    intros m w w' raised did evs H. cbn [session_program p_event] in H. unfold session_event in H.
    destruct (s_method s m) as [f|]; [|discriminate]. injection H as H.
    destruct (run_method_spec _ _ _ _ _ _ _ H) as (ks & A & C & S).
    split; [eauto|]. intros _ Hv. rewrite Hv in S. destruct (status_decided _ _ S) as [D _]. exact D.
  Qed.
End Ruby.
