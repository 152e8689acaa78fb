(** The commands that go to all filters at once: one answer, the strongest verdict. *)
From Verif.Base Require Import Bytes.
From Verif.Model Require Import Decoder Encoder CommandCodec ReplyCodec Status Option Headers Macros
                                Client Server Children.
From Verif.Spec Require ServerSpec.
From Verif.Spec Require Import VerdictSpec ManagerSpec.
From Verif.Proofs Require Import VerdictProofs ChildrenLemmas.
Local Open Scope N_scope.

Notation In := List.In.

(** The stages in question. *)
Definition fan_stage (x : sstate) : bool :=
  match x with XConnect | XHelo | XFrom | XRcpt | XData | XUnknown => true | _ => false end.

Lemma need_reply_silent k o x : fan_stage x = true -> k_option k = Some o ->
  N.land (o_step o) (ServerSpec.silent_step x) = 0 -> k_need_reply k x = Some true.
Proof.
  unfold k_need_reply. intros Hx -> H. destruct x; try discriminate Hx; cbn in *; now rewrite H.
Qed.

Lemma compile_verdict_end vs v : Forall verdict vs -> vs <> [] ->
  compile_statuses (Some S_NOT_CHANGE) vs = Some v -> strongest vs v.
Proof.
  intros Hv Hne H. apply (compile_strongest vs v Hv). rewrite <- H.
  destruct vs as [|a vs]; [congruence|]. unfold compile_statuses. cbn [fold_left].
  f_equal. inversion_clear Hv. apply verdict_rank in H0. destruct a; cbn in *; try lia; reflexivity.
Qed.

Lemma compile_verdict_some vs : Forall verdict vs -> vs <> [] ->
  exists v, compile_statuses (Some S_NOT_CHANGE) vs = Some v /\ verdict v.
Proof.
  intros Hv Hne. destruct (compile_strongest_from vs None) as (v & H & Hw & _); auto.
  exists v. split; [|exact Hw]. rewrite <- H.
  destruct vs as [|a vs]; [congruence|]. unfold compile_statuses. cbn [fold_left].
  f_equal. inversion_clear Hv. apply verdict_rank in H0. destruct a; cbn in *; try lia; reflexivity.
Qed.

Lemma emit_reply_processing w y :
  f_processing (w_flow (emit_reply_status w y)) = f_processing (w_flow w).
Proof.
  unfold emit_reply_status.
  assert (H : forall u, f_processing (w_flow (match y with XEndOfMessage => dispose_message u | _ => u end))
                        = f_processing (w_flow u)) by (intros u; destruct y; reflexivity).
  rewrite H. destruct (f_code (w_flow w)) as [[[? ?] ?]|];
    repeat match goal with |- context [if ?b then _ else _] => destruct b end;
    rewrite ?flow_log; try reflexivity.
  cbn [on_flow put_w_flow w_flow put_f_code f_processing]. now rewrite flow_log.
Qed.

Section Stage.
  Variable writes : list event -> write_outcome.
  Variable stops : list event -> bool.
  Variable chunk_size : N.
  Variable collate_equal : bytes -> bytes -> bool.
  Hypothesis Hwrites : forall t, writes t <> Refused.
  Hypothesis Hstops : forall t, stops t = false.

  Notation kcall e := (k_call writes stops e).
  Notation kwrite e := (k_write writes e).

  (** A write that is not refused. *)
  Lemma write_taken emit_k w i c x :
    w_crashed w = false -> has w i -> (urgent x = true \/ k_timer (child_of w i) = None) ->
    exists w', kwrite emit_k w i c x = (true, w') /\ only i w w' /\
      child_of w' i =
        put_k_next (if urgent x then child_of w i else put_k_timer (child_of w i) (Some TWriting))
                   (k_next (child_of w i) ++ [x]).
  Proof.
    intros Hc Hi Ht. unfold k_write.
    assert (E : negb (urgent x) && k_is_processing (child_of w i) = false).
    { destruct Ht as [->|Ht]; [reflexivity|]. unfold k_is_processing. rewrite Ht. apply andb_false_r. }
    rewrite E. clear E Ht.
    set (w1 := if urgent x then w else on_child w i (fun k => put_k_timer k (Some TWriting))).
    assert (H1 : only i w w1).
    { unfold w1. destruct (urgent x); [now apply only_refl|now apply only_child]. }
    assert (Hs : child_of w1 i = if urgent x then child_of w i
                                 else put_k_timer (child_of w i) (Some TWriting)).
    { unfold w1; destruct (urgent x); [reflexivity|]. now rewrite child_same. }
    clearbody w1.
    assert (G : forall e, answer e = None ->
      let w' := on_child (log w1 e) i (fun k => put_k_next k (k_next k ++ [x])) in
      only i w w' /\
      child_of w' i =
        put_k_next (if urgent x then child_of w i else put_k_timer (child_of w i) (Some TWriting))
                   (k_next (child_of w i) ++ [x])).
    { intros e He w'. assert (Hc1 := only_crashed _ _ _ H1). split.
      - eapply only_trans; [exact H1|]. eapply only_trans; [exact (only_log i w1 e Hc1 He)|].
        apply only_child. now rewrite crashed_log.
      - unfold w'. rewrite child_same by (apply has_log; eapply only_has; eauto).
        rewrite child_log, Hs. destruct (urgent x); reflexivity. }
    destruct (writes (w_trace w1)) eqn:Ew.
    - eexists. split; [reflexivity|]. now apply G.
    - eexists. split; [reflexivity|]. now apply G.
    - elim (Hwrites _ Ew).
  Qed.

  (** *** Aborting all filters *)

  Definition standing (k : child) : bool * bool * bool := (k_quitted k, k_connected k, k_trying k).
  (** Let go for good: no command goes to it, none of its signals is listened to. *)
  Definition out_for_good (k : child) : Prop := standing k = (true, false, false).

  (** What an abort leaves alone. *)
  Record mostly (w w' : world) : Prop := {
    mostly_quiet : quiet w w';
    mostly_length : length (w_children w') = length (w_children w);
    mostly_option : forall j, k_option (child_of w' j) = k_option (child_of w j);
    mostly_quitted : forall j, standing (child_of w' j) = standing (child_of w j)
  }.
  Lemma mostly_refl w : w_crashed w = false -> mostly w w.
  Proof. intros H. constructor; auto. now apply quiet_refl. Qed.
  Lemma mostly_trans a b c : mostly a b -> mostly b c -> mostly a c.
  Proof.
    intros [] []. constructor; try congruence. eapply quiet_trans; eassumption.
  Qed.

  Lemma only_mostly i w w' : only i w w' -> k_option (child_of w' i) = k_option (child_of w i) ->
    standing (child_of w' i) = standing (child_of w i) -> mostly w w'.
  Proof.
    intros [] H H'. constructor; auto; intros j;
      (destruct (Nat.eq_dec j i) as [->|Hj]; [assumption|]); now rewrite only_other.
  Qed.

  Lemma abort_one emit_k w i : w_crashed w = false -> has w i ->
    exists w', kcall emit_k w i CAbort = (true, w') /\ only i w w' /\
      k_option (child_of w' i) = k_option (child_of w i) /\
      standing (child_of w' i) = standing (child_of w i).
  Proof.
    intros Hc Hi. cbn [k_call].
    destruct (write_taken emit_k w i CAbort XAbort Hc Hi) as (w1 & E & H1 & H2); [now left|].
    rewrite E. eexists. split; [reflexivity|]. split.
    - eapply only_trans; [exact H1|]. apply only_child. eapply only_crashed; eauto.
    - rewrite child_same by (eapply only_has; eauto). rewrite H2. split; reflexivity.
  Qed.

  Lemma abort_quiet emit_k w : w_crashed w = false ->
    mostly w (snd (abort_children writes stops emit_k w)).
  Proof.
    intros Hc. unfold abort_children.
    set (w1 := set_both w XAbort).
    assert (H1 : mostly w w1).
    { constructor; try reflexivity. apply quiet_flow. now apply quiet_refl. }
    assert (L : forall l ok v, mostly w v -> (forall i, In i l -> has v i) ->
      mostly w (snd (fold_left (fun '(ok, w) i =>
                     let k := child_of w i in
                     if k_is_processing_message k || sstate_eqb (k_state k) XFrom
                     then let (ok', w') := kcall emit_k w i CAbort in (ok && ok', w')
                     else (ok, w)) l (ok, v)))).
    { induction l as [|i l IH]; intros ok v Hv Hl; [exact Hv|]. cbn [fold_left].
      destruct (k_is_processing_message (child_of v i) || sstate_eqb (k_state (child_of v i)) XFrom).
      - destruct (abort_one emit_k v i) as (v' & E & Ho & Hk & Hq).
        { apply Hv. } { apply Hl. now left. }
        rewrite E. apply IH.
        + eapply mostly_trans; [exact Hv|]. eapply only_mostly; eauto.
        + intros j Hj. eapply only_has; [exact Ho|]. apply Hl. now right.
      - apply IH; [exact Hv|]. intros j Hj. apply Hl. now right. }
    specialize (L (indices w1) true w1 H1).
    destruct (fold_left _ (indices w1) (true, w1)) as [ok w2]. cbn [snd] in *.
    assert (H2 : mostly w w2).
    { apply L. intros i Hi. unfold indices in Hi. apply in_seq in Hi. unfold has. lia. }
    eapply mostly_trans; [exact H2|].
    set (w3 := dispose_message w2).
    assert (H3 : mostly w2 w3).
    { constructor; try reflexivity.
      apply (quiet_same w2 w2); try reflexivity. apply quiet_refl. apply H2. }
    eapply mostly_trans; [exact H3|].
    constructor.
    - apply (quiet_same w3 w3); try reflexivity. apply quiet_refl. apply H3.
    - apply map_length.
    - intros j. unfold child_of. cbn [w_children put_w_children].
      destruct (Nat.lt_ge_cases j (length (w_children w3))) as [Hj|Hj].
      + rewrite (nth_indep _ _ (if k_quitted no_child then no_child else k_reset no_child))
          by (now rewrite map_length).
        rewrite (map_nth (fun k => if k_quitted k then k else k_reset k)).
        destruct (k_quitted _); reflexivity.
      + rewrite !nth_overflow by (rewrite ?map_length; exact Hj). reflexivity.
    - intros j. unfold child_of. cbn [w_children put_w_children].
      destruct (Nat.lt_ge_cases j (length (w_children w3))) as [Hj|Hj].
      + rewrite (nth_indep _ _ (if k_quitted no_child then no_child else k_reset no_child))
          by (now rewrite map_length).
        rewrite (map_nth (fun k => if k_quitted k then k else k_reset k)).
        destruct (k_quitted (nth j (w_children w3) no_child)) eqn:E; reflexivity.
      + rewrite !nth_overflow by (rewrite ?map_length; exact Hj). reflexivity.
  Qed.

  (** *** Choosing the filters *)

  Lemma fill_queue emit_k (wanted : child -> bool) (accepted : bool) w l v :
    let tgt i := wanted (child_of w i) && (negb accepted || k_has_accepted_recipient (child_of w i)) in
    NoDup l -> (forall i, In i l -> has v i) -> w_crashed v = false ->
    (forall i, In i l -> child_of v i = child_of w i) ->
    exists v', fold_left (fun w i =>
                  let k := child_of w i in
                  if wanted k then
                    if negb accepted || k_has_accepted_recipient k
                    then on_flow w (fun f => put_f_queue f (f_queue f ++ [i]))
                    else snd (kcall emit_k w i CAbort)
                  else w) l v = v' /\
      quiet v v' /\ length (w_children v') = length (w_children v) /\
      w_flow v' = put_f_queue (w_flow v) (f_queue (w_flow v) ++ filter tgt l) /\
      (forall i, (In i l -> tgt i = true) -> child_of v' i = child_of v i).
  Proof.
    intros tgt. revert v. induction l as [|i l IH]; intros v Hl Hh Hc Hk.
    - exists v. cbn. split; [reflexivity|]. split; [now apply quiet_refl|]. split; [reflexivity|].
      split; [|reflexivity]. rewrite app_nil_r. now destruct (w_flow v).
    - inversion_clear Hl as [|? ? Hi Hl']. cbn [fold_left filter].
      assert (Hki := Hk i (or_introl eq_refl)).
      assert (Rest : forall v1, w_crashed v1 = false -> only i v v1 -> tgt i = false ->
        fold_left (fun w i =>
                  let k := child_of w i in
                  if wanted k then
                    if negb accepted || k_has_accepted_recipient k
                    then on_flow w (fun f => put_f_queue f (f_queue f ++ [i]))
                    else snd (kcall emit_k w i CAbort)
                  else w) l v1 = fold_left (fun w i =>
                  let k := child_of w i in
                  if wanted k then
                    if negb accepted || k_has_accepted_recipient k
                    then on_flow w (fun f => put_f_queue f (f_queue f ++ [i]))
                    else snd (kcall emit_k w i CAbort)
                  else w) l v1 ->
        exists v', fold_left (fun w i =>
                  let k := child_of w i in
                  if wanted k then
                    if negb accepted || k_has_accepted_recipient k
                    then on_flow w (fun f => put_f_queue f (f_queue f ++ [i]))
                    else snd (kcall emit_k w i CAbort)
                  else w) l v1 = v' /\
          quiet v v' /\ length (w_children v') = length (w_children v) /\
          w_flow v' = put_f_queue (w_flow v) (f_queue (w_flow v) ++ filter tgt l) /\
          (forall j, (In j (i :: l) -> tgt j = true) -> child_of v' j = child_of v j)).
      { intros v1 Hc1 Ho Ht _. destruct (IH v1) as (v' & E & Q & L & F & K); auto.
        - intros j Hj. eapply only_has; eauto. apply Hh. now right.
        - intros j Hj. rewrite (only_other _ _ _ Ho) by (intros ->; contradiction). apply Hk. now right.
        - exists v'. split; [exact E|]. split; [eapply quiet_trans; [apply Ho|exact Q]|].
          split; [rewrite L; apply Ho|]. rewrite (only_flow _ _ _ Ho) in F. split; [exact F|].
          intros j Hj. assert (j <> i) by (intros ->; rewrite Hj in Ht; [discriminate|now left]).
          rewrite K by (intros; apply Hj; now right). now apply Ho. }
      unfold tgt at 1. rewrite Hki.
      destruct (wanted (child_of w i)) eqn:Ew; cbn [andb].
      + destruct (negb accepted || k_has_accepted_recipient (child_of w i)) eqn:Ea.
        * destruct (IH (on_flow v (fun f => put_f_queue f (f_queue f ++ [i])))) as (v' & E & Q & L & F & K); auto.
          { intros j Hj. apply Hh. now right. }
          { intros j Hj. apply Hk. now right. }
          exists v'. split; [exact E|]. split; [eapply quiet_trans; [|exact Q]; apply quiet_flow; now apply quiet_refl|].
          split; [exact L|]. split.
          -- rewrite F. cbn [on_flow put_w_flow w_flow put_f_queue f_queue]. rewrite <- app_assoc. reflexivity.
          -- intros j Hj. rewrite K by (intros; apply Hj; now right). reflexivity.
        * destruct (abort_one emit_k v i Hc (Hh i (or_introl eq_refl))) as (v1 & E & Ho & _ & _).
          rewrite E. cbn [snd]. apply Rest; auto.
          -- eapply only_crashed; eauto.
          -- unfold tgt. now rewrite Ew, Ea.
      + apply Rest; auto; [now apply only_refl|]. unfold tgt. now rewrite Ew.
  Qed.

  (** *** The filters while a command waits for its answers *)

  (** Not yet called; the command on its way; the answer awaited; told to quit, the message on its
      way; told to quit; verdict given but still in the queue; done. *)
  Inductive phase := Uncalled | OnItsWay | Asked | Leaving | Closing | Spoken | Over | Done.
  Definition is_done (p : phase) : bool := match p with Done => true | _ => false end.
  Definition spoke (p : phase) : bool :=
    match p with Leaving | Closing | Spoken | Over | Done => true | _ => false end.

  Section Command.
    Variable w0 : world.
    Variable x : sstate.
    Hypothesis Hx : fan_stage x = true.
    Variable ts : list nat.
    Hypothesis Hts : NoDup ts.
    Variable fb : nat -> status.
    Variable ev : nat -> bool.
    Variable V : nat -> status.
    Hypothesis HV : forall i, In i ts -> verdict (V i).
    (** The filters that are gone afterwards. *)
    Variable gone : nat -> bool.
    (** What is known of the reply codes. *)
    Variable ok_code : N -> bytes -> option bytes -> Prop.

    Definition opt_ok (k : child) : Prop :=
      exists o, k_option k = Some o /\ N.land (o_step o) (ServerSpec.silent_step x) = 0.

    Definition phase_ok (i : nat) (k : child) (p : phase) : Prop :=
      opt_ok k /\
      match p with
      | Spoken => True
      | Over | Done => gone i = true -> out_for_good k
      | _ => k_connected k = true /\ k_trying k = false /\ k_fallback k = fb i /\
             k_evaluation k = ev i /\
             match p with
             | Uncalled => k_quitted k = false /\ k_timer k = None /\ k_next k = []
             | OnItsWay => k_quitted k = false /\ k_timer k = Some TWriting /\ k_next k = [x] /\
                           (x = XRcpt -> k_current k <> None)
             | Asked => k_quitted k = false /\ k_timer k = Some TReading /\ k_next k = [] /\
                        k_state k = x /\ (x = XRcpt -> k_current k <> None)
             | Leaving => k_timer k = None /\ k_next k = [XQuit]
             | _ => k_timer k = None /\ k_next k = []
             end
      end.

    Record Inv (w : world) (ph : nat -> phase) (vs : list status) : Prop := {
      inv_quiet : quiet w0 w;
      inv_pending : f_pending (w_flow w) = None;
      inv_processing : f_processing (w_flow w) = x;
      inv_queue : f_queue (w_flow w) = filter (fun i => negb (is_done (ph i))) ts;
      inv_has : forall i, In i ts -> has w i;
      inv_phase : forall i, In i ts -> phase_ok i (child_of w i) (ph i);
      inv_codes : forall c e m, f_code (w_flow w) = Some (c, e, m) -> ok_code c e m;
      inv_status : f_statuses (w_flow w) x = compile_statuses (Some S_NOT_CHANGE) vs;
      inv_vs : forall v, In v vs <-> exists i, In i ts /\ spoke (ph i) = true /\ v = V i
    }.

    Record Final (w : world) : Prop := {
      final_crashed : w_crashed w = false;
      final_answer : exists es v, w_trace w = es ++ w_trace w0 /\ answers es = [v] /\
                                  strongest (map V ts) v /\
                                  (forall c e m, In (OAnswerCode c e m) es -> ok_code c e m);
      final_has : forall i, In i ts -> has w i;
      final_option : forall i, In i ts -> opt_ok (child_of w i);
      final_gone : forall i, In i ts -> gone i = true -> out_for_good (child_of w i)
    }.

    Definition all_done (ph : nat -> phase) : bool := forallb (fun i => is_done (ph i)) ts.

    (** The outcome of a step. *)
    Definition Res (w : world) (ph : nat -> phase) : Prop :=
      if all_done ph then Final w else exists vs, Inv w ph vs.

    Definition upd (ph : nat -> phase) (i : nat) (p : phase) : nat -> phase :=
      fun j => if Nat.eqb j i then p else ph j.

    Lemma upd_same ph i p : upd ph i p i = p.
    Proof. unfold upd. now rewrite Nat.eqb_refl. Qed.
    Lemma upd_other ph i p j : j <> i -> upd ph i p j = ph j.
    Proof. intros H. unfold upd. apply Nat.eqb_neq in H. now rewrite H. Qed.

    Lemma inv_crashed w ph vs : Inv w ph vs -> w_crashed w = false.
    Proof. intros []. apply inv_quiet0. Qed.

    Lemma inv_verdicts w ph vs : Inv w ph vs -> Forall verdict vs.
    Proof.
      intros []. apply Forall_forall. intros v Hv. apply inv_vs0 in Hv as (i & Hi & _ & ->). auto.
    Qed.

    (** Filter [i] changes and moves to a phase that is no less advanced. *)
    Lemma inv_move w ph vs w' i p : Inv w ph vs -> In i ts -> only i w w' ->
      phase_ok i (child_of w' i) p -> spoke p = spoke (ph i) -> is_done p = is_done (ph i) ->
      Inv w' (upd ph i p) vs.
    Proof.
      intros HI Hi Ho Hp Hs Hd.
      assert (Ed : forall j, is_done (upd ph i p j) = is_done (ph j)).
      { intros j. destruct (Nat.eq_dec j i) as [->|Hj];
          [rewrite upd_same; exact Hd|rewrite upd_other; auto]. }
      assert (Es : forall j, spoke (upd ph i p j) = spoke (ph j)).
      { intros j. destruct (Nat.eq_dec j i) as [->|Hj];
          [rewrite upd_same; exact Hs|rewrite upd_other; auto]. }
      destruct HI, Ho. constructor.
      - eapply quiet_trans; eassumption.
      - congruence.
      - congruence.
      - rewrite only_flow, inv_queue0. apply filter_ext. intros j. now rewrite Ed.
      - intros j Hj. unfold has in *. rewrite only_length. now apply inv_has0.
      - intros j Hj. destruct (Nat.eq_dec j i) as [->|Hn].
        + now rewrite upd_same.
        + rewrite upd_other, only_other by auto. auto.
      - rewrite only_flow. exact inv_codes0.
      - congruence.
      - intros v. rewrite inv_vs0. split; intros (j & A & B & C); exists j.
        + rewrite Es. auto.
        + rewrite Es in B. auto.
    Qed.

    (** Filter [i] gives its verdict. *)
    Lemma inv_speak w ph vs i p : Inv w ph vs -> In i ts ->
      phase_ok i (child_of w i) p -> spoke (ph i) = false -> spoke p = true -> is_done p = false ->
      Inv (compile_reply w x (V i)) (upd ph i p) (vs ++ [V i]).
    Proof.
      intros HI Hi Hp Hs Hs' Hd. destruct HI. constructor; try assumption.
      - cbn [compile_reply on_flow put_w_flow put_f_statuses f_queue w_flow]. rewrite inv_queue0.
        apply filter_ext_in. intros j Hj. destruct (Nat.eq_dec j i) as [->|Hn].
        + rewrite upd_same, Hd. destruct (ph i); try discriminate Hs; reflexivity.
        + now rewrite upd_other.
      - intros j Hj. change (phase_ok j (child_of w j) (upd ph i p j)).
        destruct (Nat.eq_dec j i) as [->|Hn]; [now rewrite upd_same|rewrite upd_other; auto].
      - cbn [compile_reply on_flow put_w_flow put_f_statuses f_statuses w_flow].
        unfold status_put. rewrite sstate_eqb_refl, inv_status0. unfold compile_statuses.
        rewrite fold_left_app. reflexivity.
      - intros v. rewrite in_app_iff, inv_vs0. split.
        + intros [(j & A & B & C)|[<-|[]]].
          * exists j. destruct (Nat.eq_dec j i) as [->|Hn]; [congruence|]. rewrite upd_other; auto.
          * exists i. rewrite upd_same. auto.
        + intros (j & A & B & ->). destruct (Nat.eq_dec j i) as [->|Hn].
          * right. now left.
          * left. rewrite upd_other in B by auto. eauto.
    Qed.

    Lemma all_done_true ph : all_done ph = true -> forall i, In i ts -> ph i = Done.
    Proof.
      unfold all_done. rewrite forallb_forall. intros H i Hi. specialize (H i Hi).
      destruct (ph i); try discriminate H; reflexivity.
    Qed.

    (** The answer once the queue is empty. *)
    Lemma emit_reply_answer w v : w_crashed w = false -> reply_status w x = v -> verdict v ->
      let w' := emit_reply_status w x in
      w_crashed w' = false /\ w_children w' = w_children w /\
      (exists e, w_trace w' = e :: w_trace w /\ answer e = Some v /\
         forall c s m, e = OAnswerCode c s m -> f_code (w_flow w) = Some (c, s, m)).
    Proof.
      intros Hc Hr Hv w'. subst w'. unfold emit_reply_status. rewrite Hr.
      assert (HX : forall (u : world), match x with XEndOfMessage => dispose_message u | _ => u end = u)
        by (intros u; destruct x; try discriminate Hx; reflexivity).
      rewrite HX. clear HX.
      assert (Hne : status_eqb v S_NOT_CHANGE = false).
      { apply verdict_rank in Hv. destruct v; cbn in *; try lia; reflexivity. }
      assert (Hsig : answer (signal_of v) = Some v).
      { apply verdict_rank in Hv. destruct v; cbn in *; try lia; reflexivity. }
      rewrite Hne.
      assert (Plain : w_crashed (log w (signal_of v)) = false /\
                      w_children (log w (signal_of v)) = w_children w /\
                      exists e, w_trace (log w (signal_of v)) = e :: w_trace w /\ answer e = Some v /\
                        forall c s m, e = OAnswerCode c s m -> f_code (w_flow w) = Some (c, s, m)).
      { rewrite crashed_log, children_log, trace_log by exact Hc. split; [exact Hc|]. split; [reflexivity|].
        exists (signal_of v). split; [reflexivity|]. split; [exact Hsig|].
        intros c s m Hsc. destruct v; discriminate Hsc. }
      destruct (f_code (w_flow w)) as [[[c e] m]|]; [|exact Plain].
      destruct ((c / 100 =? 4) && status_eqb v S_TEMPORARY_FAILURE
                || (c / 100 =? 5) && status_eqb v S_REJECT) eqn:E; [|exact Plain].
      cbn [w_crashed w_children w_trace on_flow put_w_flow].
      rewrite crashed_log, children_log, trace_log by exact Hc.
      split; [exact Hc|]. split; [reflexivity|]. eexists. split; [reflexivity|].
      split; [|intros c' s' m' [= <- <- <-]; reflexivity]. cbn [answer]. f_equal.
      apply orb_true_iff in E as [E|E]; apply andb_true_iff in E as [E1 E2]; apply N.eqb_eq in E1.
      - assert (400 <= c /\ c < 500).
        { pose proof (N.div_mod c 100). pose proof (N.mod_lt c 100). lia. }
        replace ((400 <=? c) && (c <? 500)) with true by lia.
        destruct v; try discriminate E2; reflexivity.
      - assert (500 <= c /\ c < 600).
        { pose proof (N.div_mod c 100). pose proof (N.mod_lt c 100). lia. }
        replace ((400 <=? c) && (c <? 500)) with false by lia.
        destruct v; try discriminate E2; reflexivity.
    Qed.

    (** Leaving the queue after the verdict. *)
    Lemma inv_remove emit_k resume_k w ph vs i : Inv w ph vs -> In i ts -> ph i = Over ->
      Res (remove_from_queue writes stops chunk_size emit_k resume_k w i) (upd ph i Done).
    Proof.
      intros HI Hi Hp. unfold remove_from_queue.
      set (w1 := on_flow w (fun f => put_f_queue f (remove_nat (f_queue f) i))).
      assert (Hq : f_queue (w_flow w1) = filter (fun j => negb (is_done (upd ph i Done j))) ts).
      { cbn [w1 on_flow put_w_flow w_flow put_f_queue f_queue]. destruct HI. rewrite inv_queue0.
        rewrite remove_nat_filter by now apply NoDup_filter.
        clear -Hi. induction ts as [|j l IH]; [reflexivity|]. cbn [filter].
        destruct (Nat.eqb_spec j i) as [->|Hn].
        - rewrite upd_same. cbn [is_done negb].
          destruct (negb (is_done (ph i))); cbn [filter]; rewrite ?Nat.eqb_refl; cbn [negb];
            (destruct (in_dec Nat.eq_dec i l) as [Hl|Hl]; [exact (IH Hl)|]);
            clear IH Hi; induction l as [|k l IH]; try reflexivity; cbn [filter];
            (destruct (Nat.eqb_spec k i) as [->|Hk]; [elim Hl; now left|]);
            rewrite upd_other by exact Hk;
            (destruct (negb (is_done (ph k))); cbn [filter];
             [apply Nat.eqb_neq in Hk; rewrite Hk; cbn [negb]; f_equal|];
             apply IH; intros H; apply Hl; now right).
        - rewrite upd_other by exact Hn. apply Nat.eqb_neq in Hn.
          destruct Hi as [->|Hi]; [rewrite Nat.eqb_refl in Hn; discriminate|].
          destruct (negb (is_done (ph j))); cbn [filter]; rewrite ?Hn; cbn [negb]; rewrite IH; auto. }
      assert (HI1 : Inv w1 (upd ph i Done) vs).
      { destruct HI. constructor; try assumption.
        - intros j Hj. change (phase_ok j (child_of w j) (upd ph i Done j)).
          destruct (Nat.eq_dec j i) as [->|Hn]; [|rewrite upd_other; auto].
          rewrite upd_same. specialize (inv_phase0 i Hi). rewrite Hp in inv_phase0. exact inv_phase0.
        - intros v. rewrite inv_vs0. split; intros (j & A & B & C); exists j; (split; [exact A|]);
            (destruct (Nat.eq_dec j i) as [->|Hn];
             [rewrite upd_same in *; rewrite Hp in *; auto|rewrite upd_other in * by auto; auto]). }
      clearbody w1. clear HI. unfold Res.
      destruct (all_done (upd ph i Done)) eqn:Ed.
      - assert (Hd := all_done_true _ Ed).
        assert (Hq0 : f_queue (w_flow w1) = []).
        { rewrite Hq. clear -Hd. induction ts as [|j l IH]; [reflexivity|]. cbn [filter].
          rewrite (Hd j) by now left. cbn. apply IH. intros. apply Hd. now right. }
        rewrite Hq0. assert (Hv := inv_verdicts _ _ _ HI1). destruct HI1 as [Q P R _ Hh Hph Hcd Hst Hvs].
        rewrite P, R.
        assert (Hne : vs <> []).
        { intros ->. apply (proj2 (Hvs (V i))). exists i. rewrite (Hd i Hi). auto. }
        destruct (compile_verdict_some vs Hv Hne) as (v & Ev & Hvv).
        assert (Hr : reply_status w1 x = v).
        { unfold reply_status. rewrite Hst, Ev. apply verdict_rank in Hvv.
          destruct v; cbn in *; try lia; reflexivity. }
        assert (Hstr : strongest (map V ts) v).
        { apply compile_verdict_end in Ev; auto. destruct Ev as [A B]. split.
          - apply Hvs in A as (j & Hj & _ & ->). now apply in_map.
          - intros u Hu. apply in_map_iff in Hu as (j & <- & Hj). apply B. apply Hvs. exists j.
            rewrite (Hd j Hj). auto. }
        destruct Q as (Hc & es & He & Na).
        destruct (emit_reply_answer w1 v Hc Hr Hvv) as (Hc2 & Hk2 & a & Ht2 & Ha & Hac).
        set (w2 := emit_reply_status w1 x) in *.
        assert (Hp2 : f_processing (w_flow w2) = x).
        { unfold w2. rewrite emit_reply_processing. exact R. }
        assert (Base : Final w2).
        { constructor; [exact Hc2| | | |].
          - exists (a :: es), v. rewrite Ht2, He. cbn [answers]. rewrite Ha, Na.
            split; [reflexivity|]. split; [reflexivity|]. split; [exact Hstr|].
            intros c s m [H|H]; [apply Hcd, Hac; exact H|elim (no_code _ Na _ _ _ H)].
          - intros j Hj. unfold has. rewrite Hk2. now apply Hh.
          - intros j Hj. unfold child_of. rewrite Hk2. apply (Hph j Hj).
          - intros j Hj. unfold child_of. rewrite Hk2. destruct (Hph j Hj) as (_ & G).
            rewrite (Hd j Hj) in G. exact G. }
        assert (Ab : Final (snd (abort_children writes stops emit_k w2))).
        { destruct Base as [B1 (es' & v' & B2 & B3 & B4 & B8) B5 B6 B7].
          destruct (abort_quiet emit_k w2 Hc2) as [(M1 & ms & M2 & M3) M4 M5 M6].
          constructor; [exact M1| | | |].
          - exists (ms ++ es'), v'. rewrite M2, B2, app_assoc, answers_app, M3, B3.
            split; [reflexivity|]. split; [reflexivity|]. split; [exact B4|].
            intros c s m H. apply in_app_iff in H as [H|H]; [elim (no_code _ M3 _ _ _ H)|eauto].
          - intros j Hj. unfold has. rewrite M4. now apply B5.
          - intros j Hj. destruct (B6 j Hj) as (o & O1 & O2). exists o. rewrite M5. auto.
          - intros j Hj Hg. unfold out_for_good. rewrite M6. now apply B7. }
        rewrite Hp2, Hr. destruct v; try exact Base; try exact Ab;
          destruct x; try discriminate Hx; assumption.
      - assert (Hq1 : f_queue (w_flow w1) <> []).
        { rewrite Hq. clear -Ed. unfold all_done in Ed. induction ts as [|j l IH]; [discriminate|].
          cbn [filter forallb] in *. destruct (is_done (upd ph i Done j)); cbn in *; [auto|discriminate]. }
        destruct (f_queue (w_flow w1)); [congruence|]. eauto.
    Qed.

    Lemma inv_ext w ph ph' vs : (forall i, In i ts -> ph i = ph' i) -> Inv w ph vs -> Inv w ph' vs.
    Proof.
      intros E []. constructor; auto.
      - rewrite inv_queue0. apply filter_ext_in. intros j Hj. now rewrite E.
      - intros j Hj. rewrite <- E by exact Hj. auto.
      - intros v. rewrite inv_vs0. split; intros (j & A & B & C); exists j; (split; [exact A|]);
          [rewrite <- E|rewrite E]; auto.
    Qed.
    Lemma res_ext w ph ph' : (forall i, In i ts -> ph i = ph' i) -> Res w ph -> Res w ph'.
    Proof.
      intros E. unfold Res. assert (Ea : all_done ph = all_done ph').
      { unfold all_done. clear -E. induction ts as [|j l IH]; [reflexivity|]. cbn. rewrite E by now left.
        f_equal. apply IH. intros. apply E. now right. }
      rewrite Ea. destruct (all_done ph'); [auto|]. intros (vs & H). exists vs.
      eapply inv_ext; eauto.
    Qed.
    Lemma upd_upd ph i p q j : upd (upd ph i p) i q j = upd ph i q j.
    Proof. unfold upd. destruct (Nat.eqb j i); reflexivity. Qed.

    (** A filter that is done may change. *)
    Lemma res_only w ph w' i : Res w ph -> In i ts -> ph i = Done -> only i w w' ->
      k_option (child_of w' i) = k_option (child_of w i) ->
      standing (child_of w' i) = standing (child_of w i) -> Res w' ph.
    Proof.
      unfold Res. destruct (all_done ph).
      - intros [C (es & v & T & A & S) H O G] Hi _ [Q F M N' L R] Ho Hq.
        destruct Q as (Qc & fs & Qt & Qa). constructor; [exact Qc| | | |].
        + exists (fs ++ es), v. rewrite Qt, T, app_assoc, answers_app, Qa, A.
          split; [reflexivity|]. split; [reflexivity|]. split; [apply S|].
          intros c s m Hm. apply in_app_iff in Hm as [Hm|Hm]; [elim (no_code _ Qa _ _ _ Hm)|now apply S].
        + intros j Hj. unfold has. rewrite L. now apply H.
        + intros j Hj. destruct (Nat.eq_dec j i) as [->|Hn].
          * destruct (O i Hi) as (o & O1 & O2). exists o. rewrite Ho. auto.
          * rewrite R by exact Hn. auto.
        + intros j Hj Hg. destruct (Nat.eq_dec j i) as [->|Hn].
          * unfold out_for_good. rewrite Hq. now apply G.
          * rewrite R by exact Hn. auto.
      - intros (vs & HI) Hi Hd Hw Ho Hq. exists vs.
        apply (inv_ext w' (upd ph i Done)).
        { intros j Hj. destruct (Nat.eq_dec j i) as [->|Hn]; [now rewrite upd_same|now rewrite upd_other]. }
        apply (inv_move w ph vs); auto; rewrite ?Hd; try reflexivity.
        destruct (inv_phase _ _ _ HI i Hi) as ((o & O1 & O2) & P). rewrite Hd in P. split.
        { exists o. rewrite Ho. auto. }
        cbn in *. unfold out_for_good. now rewrite Hq.
    Qed.

    Lemma res_crashed w ph : Res w ph -> w_crashed w = false.
    Proof.
      unfold Res. destruct (all_done ph).
      - intros []. assumption.
      - intros (vs & H). eapply inv_crashed; eauto.
    Qed.
    Lemma res_has w ph i : Res w ph -> In i ts -> has w i.
    Proof.
      unfold Res. destruct (all_done ph).
      - intros []. auto.
      - intros (vs & []). auto.
    Qed.

    (** Verdict and leaving in one go. *)
    Lemma speak_remove emit_k resume_k w ph vs i w' : Inv w ph vs -> In i ts -> spoke (ph i) = false ->
      only i (compile_reply w x (V i)) w' ->
      k_option (child_of w' i) = k_option (child_of w i) ->
      (gone i = true -> out_for_good (child_of w' i)) ->
      Res (remove_from_queue writes stops chunk_size emit_k resume_k w' i) (upd ph i Done).
    Proof.
      intros HI Hi Hs Ho Hk Hgone.
      assert (Hopt : opt_ok (child_of w i)) by (apply (inv_phase _ _ _ HI i Hi)).
      assert (HI1 : Inv (compile_reply w x (V i)) (upd ph i Spoken) (vs ++ [V i])).
      { apply inv_speak; auto. split; [exact Hopt|exact I]. }
      assert (HI2 : Inv w' (upd (upd ph i Spoken) i Over) (vs ++ [V i])).
      { apply (inv_move _ _ _ _ _ _ HI1 Hi Ho).
        - split; [|exact Hgone]. destruct Hopt as (o & O1 & O2). exists o. rewrite Hk. auto.
        - rewrite upd_same. reflexivity.
        - rewrite upd_same. reflexivity. }
      eapply res_ext; [|apply (inv_remove emit_k resume_k _ _ _ _ HI2 Hi)].
      - intros j _. now rewrite !upd_upd.
      - rewrite upd_same. reflexivity.
    Qed.

    (** *** The steps *)
    Section Steps.
      Variable d : nat.
      Notation Step := (children_step writes stops chunk_size collate_equal (S d)).
      Notation Emit := (emit writes stops chunk_size collate_equal).
      Notation Resume := (resume writes stops chunk_size collate_equal).

      Lemma emit_step w i g : w_crashed w = false ->
        Emit (S d) w i g = handle writes stops chunk_size collate_equal (Emit d) (Resume d) w i g.
      Proof. reflexivity. Qed.

      Lemma inv_log w ph vs e : answer e = None -> Inv w ph vs -> Inv (log w e) ph vs.
      Proof.
        intros He HI. assert (Hc := inv_crashed _ _ _ HI). destruct HI. constructor.
        - eapply quiet_trans; [eassumption|]. now apply quiet_log.
        - now rewrite flow_log.
        - now rewrite flow_log.
        - now rewrite flow_log.
        - intros j Hj. apply has_log. auto.
        - intros j Hj. rewrite child_log. auto.
        - now rewrite flow_log.
        - now rewrite flow_log.
        - auto.
      Qed.

      Lemma step_flush w ph vs i : Inv w ph vs -> In i ts -> ph i = OnItsWay ->
        Inv (Step w (KFlushed i)) (upd ph i Asked) vs.
      Proof.
        intros HI Hi Hp. unfold children_step. rewrite (inv_crashed _ _ _ HI).
        apply (inv_log _ _ _ (OIn (KFlushed i)) eq_refl) in HI. set (w1 := log w _) in *. clearbody w1.
        assert (Hc := inv_crashed _ _ _ HI). assert (Hh := inv_has _ _ _ HI i Hi).
        destruct (inv_phase _ _ _ HI i Hi) as (O & P). rewrite Hp in P.
        destruct P as (P1 & P2 & P3 & P4 & P5 & P6 & P7 & P8). unfold k_flushed. rewrite P7.
        cbn [fold_left]. destruct O as (o & O1 & O2).
        set (w2 := on_child w1 i (fun k => put_k_next k [])).
        set (w3 := on_child w2 i (fun k => put_k_timer k None)).
        set (g := fun k => put_k_state (match x with XFrom => put_k_processing k true | _ => k end) x).
        assert (E : k_next_state writes (Emit (S d)) i w2 x =
                    on_child (on_child w3 i g) i (fun k => put_k_timer k (Some TReading))).
        { assert (Hn : k_need_reply (child_of (on_child w3 i g) i) x = Some true).
          { unfold w3, w2. rewrite !child_same by (rewrite ?has_child; exact Hh).
            apply (need_reply_silent _ o); auto.
            unfold g. destruct x; exact O1. }
          unfold k_next_state. fold w3. destruct x; try discriminate Hx; fold g; rewrite Hn; reflexivity. }
        rewrite E. apply (inv_move w1 ph vs); auto; try (rewrite Hp; reflexivity).
        - unfold w3, w2. repeat (eapply only_trans; [|apply only_child; exact Hc]). now apply only_refl.
        - unfold w3, w2. rewrite !child_same by (rewrite ?has_child; exact Hh). unfold g.
          split.
          + exists o. split; [|exact O2]. destruct x; exact O1.
          + destruct x; try discriminate Hx; cbn; repeat split; auto; discriminate.
      Qed.

      Lemma step_flush_quit w ph vs i : Inv w ph vs -> In i ts -> ph i = Leaving ->
        Inv (Step w (KFlushed i)) (upd ph i Closing) vs.
      Proof.
        intros HI Hi Hp. unfold children_step. rewrite (inv_crashed _ _ _ HI).
        apply (inv_log _ _ _ (OIn (KFlushed i)) eq_refl) in HI. set (w1 := log w _) in *. clearbody w1.
        assert (Hc := inv_crashed _ _ _ HI). assert (Hh := inv_has _ _ _ HI i Hi).
        destruct (inv_phase _ _ _ HI i Hi) as (O & P). rewrite Hp in P.
        destruct P as (P1 & P2 & P3 & P4 & P5 & P6). unfold k_flushed. rewrite P6.
        cbn [fold_left k_next_state].
        apply (inv_move w1 ph vs); auto; try (rewrite Hp; reflexivity).
        - repeat (eapply only_trans; [|apply only_child; exact Hc]). now apply only_refl.
        - rewrite !child_same by (rewrite ?has_child; exact Hh). split; [exact O|]. cbn. repeat split; auto.
      Qed.

      Lemma step_close w ph vs i : Inv w ph vs -> In i ts -> ph i = Closing ->
        Res (Step w (KFinish i)) (upd ph i Done).
      Proof.
        intros HI Hi Hp. unfold children_step. rewrite (inv_crashed _ _ _ HI).
        apply (inv_log _ _ _ (OIn (KFinish i)) eq_refl) in HI. set (w1 := log w _) in *. clearbody w1.
        assert (Hc := inv_crashed _ _ _ HI). assert (Hh := inv_has _ _ _ HI i Hi).
        destruct (inv_phase _ _ _ HI i Hi) as (O & P). rewrite Hp in P.
        destruct P as (P1 & P2 & P3 & P4 & P5 & P6).
        rewrite emit_step by exact Hc. unfold handle. rewrite Hc, P1. cbn [negb].
        unfold cb_finished, k_is_processing. rewrite P5.
        assert (HI2 : Inv (expire w1 i) (upd ph i Over) vs).
        { apply (inv_move w1 ph vs); auto; try (rewrite Hp; reflexivity).
          - now apply only_child.
          - unfold expire. rewrite child_same by exact Hh. split; [exact O|unfold out_for_good, standing; cbn; now rewrite P2]. }
        rewrite (inv_processing _ _ _ HI2).
        assert (G : Res (remove_from_queue writes stops chunk_size (Emit d) (Resume d) (expire w1 i) i)
                        (upd ph i Done)).
        { eapply res_ext; [|apply (inv_remove _ _ _ _ _ _ HI2 Hi)].
          - intros j _. now rewrite upd_upd.
          - apply upd_same. }
        destruct x; try discriminate Hx; exact G.
      Qed.

      Lemma step_fail w ph vs i f : Inv w ph vs -> In i ts -> ph i = Asked -> V i = fb i ->
        Res (Step w (failure_op i f)) (upd ph i Done).
      Proof.
        intros HI Hi Hp HVi. unfold children_step. rewrite (inv_crashed _ _ _ HI).
        apply (inv_log _ _ _ (OIn (failure_op i f)) eq_refl) in HI. set (w1 := log w _) in *. clearbody w1.
        assert (Hc := inv_crashed _ _ _ HI). assert (Hh := inv_has _ _ _ HI i Hi).
        destruct (inv_phase _ _ _ HI i Hi) as (O & P). rewrite Hp in P.
        destruct P as (P1 & P2 & P3 & P4 & P5 & P6 & P7 & P8 & P9).
        assert (G : Res (remove_from_queue writes stops chunk_size (Emit d) (Resume d)
                           (expire (compile_reply w1 x (fb i)) i) i) (upd ph i Done)).
        { rewrite <- HVi. apply (speak_remove _ _ w1 ph vs); auto.
          - rewrite Hp. reflexivity.
          - now apply only_child.
          - unfold expire. rewrite child_same by exact Hh. reflexivity.
          - unfold expire. rewrite child_same by exact Hh. unfold out_for_good, standing; intros _; apply (f_equal (pair (true, false)) P2). }
        destruct f; cbn [failure_op].
        - rewrite P6, emit_step by exact Hc. unfold handle. rewrite Hc, P1. cbn [negb].
          unfold cb_failure. rewrite P8, P3. exact G.
        - rewrite emit_step by exact Hc. unfold handle. rewrite Hc, P2, P1.
          unfold cb_failure. rewrite P8, P3. exact G.
        - rewrite emit_step by exact Hc. unfold handle. rewrite Hc, P1. cbn [negb].
          unfold cb_finished, k_is_processing. rewrite P6, P8, P3.
          assert (Ep : f_processing (w_flow (expire (compile_reply w1 x (fb i)) i)) = x)
            by apply (inv_processing _ _ _ HI).
          rewrite Ep. destruct x; try discriminate Hx; exact G.
      Qed.

      (** The stages at which a filter that does not say continue is let go. *)
      Definition leaves : bool := match x with XConnect | XHelo | XUnknown => true | _ => false end.

      Definition Concl (w : world) (ph : nat -> phase) (i : nat) : Prop :=
        if leaves then exists vs, Inv w (upd ph i Leaving) vs else Res w (upd ph i Done).

      Lemma inv_code w ph vs c : Inv w ph vs -> (forall n e m, c = Some (n, e, m) -> ok_code n e m) ->
        Inv (on_flow w (fun f => put_f_code f c)) ph vs.
      Proof. intros [] H. constructor; assumption. Qed.

      Section Heard.
        Variables (w1 : world) (ph : nat -> phase) (vs : list status) (i : nat) (w3 : world).
        Hypothesis HI : Inv w1 ph vs.
        Hypothesis Hi : In i ts.
        Hypothesis Hp : ph i = Asked.
        Hypothesis Ho : only i w1 w3.
        Hypothesis Hcore : core (child_of w1 i) (child_of w3 i).
        Hypothesis Htimer : k_timer (child_of w3 i) = None.

        Lemma heard_state : k_state (child_of w3 i) = x.
        Proof.
          rewrite (core_state _ _ Hcore). destruct (inv_phase _ _ _ HI i Hi) as (O & P).
          rewrite Hp in P. apply P.
        Qed.
        Lemma heard_evaluation : k_evaluation (child_of w3 i) = ev i.
        Proof.
          rewrite (core_evaluation _ _ Hcore). destruct (inv_phase _ _ _ HI i Hi) as (O & P).
          rewrite Hp in P. apply P.
        Qed.
        Lemma heard_compile : only i (compile_reply w1 x (V i)) (compile_reply w3 x (V i)).
        Proof. unfold compile_reply. now apply only_flow_map. Qed.
        Lemma heard_crashed : w_crashed w3 = false.
        Proof. eapply only_crashed; eauto. Qed.
        Lemma heard_has : has w3 i.
        Proof. eapply only_has; eauto. apply (inv_has _ _ _ HI i Hi). Qed.

        Lemma heard_remove e r g : gone i = false -> (forall k, k_option (g k) = k_option k) ->
          Res (remove_from_queue writes stops chunk_size e r (on_child (compile_reply w3 x (V i)) i g) i)
              (upd ph i Done).
        Proof.
          intros Hgi Hg. apply (speak_remove _ _ w1 ph vs); auto.
          - rewrite Hp. reflexivity.
          - eapply only_trans; [exact heard_compile|]. apply only_child. exact heard_crashed.
          - rewrite child_same by exact heard_has. rewrite Hg.
            exact (core_option _ _ Hcore).
          - rewrite Hgi. discriminate.
        Qed.
        Lemma heard_remove0 e r : gone i = false ->
          Res (remove_from_queue writes stops chunk_size e r (compile_reply w3 x (V i)) i)
              (upd ph i Done).
        Proof.
          intros Hgi. apply (speak_remove _ _ w1 ph vs); auto.
          - rewrite Hp. reflexivity.
          - exact heard_compile.
          - exact (core_option _ _ Hcore).
          - rewrite Hgi. discriminate.
        Qed.

        Lemma heard_quit e :
          exists vs', Inv (snd (kcall e (compile_reply w3 x (V i)) i CQuit)) (upd ph i Leaving) vs'.
        Proof.
          cbn [k_call].
          set (w4 := on_child (compile_reply w3 x (V i)) i (fun k => put_k_quitted k true)).
          assert (H4 : only i (compile_reply w1 x (V i)) w4).
          { eapply only_trans; [exact heard_compile|]. apply only_child. exact heard_crashed. }
          assert (Hh4 : has w4 i) by (apply has_child; exact heard_has).
          assert (Hk4 : child_of w4 i = put_k_quitted (child_of w3 i) true)
            by (unfold w4; rewrite child_same by exact heard_has; reflexivity).
          destruct (write_taken e w4 i CQuit XQuit) as (w5 & E & H5 & K5);
            [eapply only_crashed; eauto|exact Hh4|now left|].
          rewrite E. cbn [snd]. cbn [urgent] in K5. rewrite Hk4 in K5.
          destruct (inv_phase _ _ _ HI i Hi) as (O & P). rewrite Hp in P.
          destruct P as (P1 & P2 & P3 & P4 & P5 & P6 & P7 & P8 & P9).
          pose proof Hcore as [C1 C2 C3 C4 C5 C6 C7 C8].
          exists (vs ++ [V i]).
          apply (inv_ext _ (upd (upd ph i Spoken) i Leaving)); [intros; apply upd_upd|].
          apply (inv_move (compile_reply w1 x (V i)) (upd ph i Spoken)).
          - apply inv_speak; auto.
            + split; [exact O|exact I].
            + now rewrite Hp.
          - exact Hi.
          - eapply only_trans; eassumption.
          - rewrite K5. split.
            + destruct O as (o & O1 & O2). exists o. split; [|exact O2]. cbn. congruence.
            + cbn. rewrite C8, P7. repeat split; congruence.
          - rewrite upd_same. reflexivity.
          - rewrite upd_same. reflexivity.
        Qed.

        Lemma heard_continue e r : gone i = false -> V i = S_CONTINUE ->
          Res (cb_continue writes stops chunk_size e r w3 i) (upd ph i Done).
        Proof.
          intros Hgi HVi. unfold cb_continue. rewrite heard_state. rewrite <- HVi.
          assert (R0 := heard_remove0 e r Hgi). destruct x; try discriminate Hx; exact R0.
        Qed.

        Lemma heard_refuse e r v : (leaves = false -> gone i = false) -> V i = (if ev i then S_ACCEPT else v) ->
          Concl (cb_refuse writes stops chunk_size e r w3 i v) ph i.
        Proof.
          intros Hgi HVi. unfold cb_refuse. rewrite heard_state, heard_evaluation, <- HVi. unfold Concl.
          assert (Q := heard_quit e).
          assert (R0 := heard_remove0 e r).
          assert (R1 := heard_remove e r (fun k => put_k_processing k false)).
          unfold leaves in *. destruct x eqn:Ex; try discriminate Hx; try exact Q;
            (specialize (Hgi eq_refl); first [exact (R0 Hgi)|apply (R1 Hgi); intros; reflexivity]).
        Qed.

        Lemma heard_accept e r : (leaves = false -> gone i = false) -> V i = S_ACCEPT ->
          Concl (cb_accept writes stops chunk_size e r w3 i) ph i.
        Proof.
          intros Hgi HVi. unfold cb_accept. rewrite heard_state, <- HVi. unfold Concl.
          assert (Q := heard_quit e).
          assert (R1 := heard_remove e r (fun k => put_k_processing k false)).
          unfold leaves in *. destruct x eqn:Ex; try discriminate Hx; try exact Q;
            (apply (R1 (Hgi eq_refl)); intros; reflexivity).
        Qed.

        Lemma heard_discard e r : (leaves = false -> gone i = false) -> V i = (if ev i then S_ACCEPT else S_DISCARD) ->
          Concl (cb_discard writes stops chunk_size e r w3 i) ph i.
        Proof.
          intros Hgi HVi. unfold cb_discard. rewrite heard_state, heard_evaluation, <- HVi. unfold Concl.
          assert (Q := heard_quit e).
          assert (R0 := heard_remove0 e r).
          assert (R1 := heard_remove e r (fun k => put_k_processing k false)).
          unfold leaves in *. destruct x eqn:Ex; try discriminate Hx; try exact Q;
            (specialize (Hgi eq_refl); first [exact (R0 Hgi)|apply (R1 Hgi); intros; reflexivity]).
        Qed.
      End Heard.

      Lemma concl_crashed w ph i : Concl w ph i -> w_crashed w = false.
      Proof.
        unfold Concl. destruct leaves.
        - intros (vs & H). eapply inv_crashed; eauto.
        - apply res_crashed.
      Qed.
      Lemma concl_has w ph i : Concl w ph i -> In i ts -> has w i.
      Proof.
        unfold Concl. destruct leaves.
        - intros (vs & []) Hi. auto.
        - apply res_has.
      Qed.

      (** What happens to the filter afterwards. *)
      Lemma concl_touch w ph i g : Concl w ph i -> In i ts ->
        (forall k, core k (g k) /\ k_timer (g k) = k_timer k) -> Concl (on_child w i g) ph i.
      Proof.
        intros H Hi Hg. assert (Hc := concl_crashed _ _ _ H). assert (Hh := concl_has _ _ _ H Hi).
        assert (Hs := child_same w i g Hh). destruct (Hg (child_of w i)) as ([] & Ht).
        unfold Concl in *. destruct leaves.
        - destruct H as (vs & HI). exists vs.
          apply (inv_ext _ (upd (upd ph i Leaving) i Leaving)); [intros; apply upd_upd|].
          apply (inv_move w); auto; try (rewrite upd_same; reflexivity).
          + now apply only_child.
          + destruct (inv_phase _ _ _ HI i Hi) as ((o & O1 & O2) & P). rewrite upd_same in P.
            cbn in P. rewrite Hs. split.
            * exists o. split; [congruence|exact O2].
            * cbn. intuition congruence.
        - apply (res_only w _ _ i H Hi).
          + apply upd_same.
          + now apply only_child.
          + rewrite Hs. congruence.
          + rewrite Hs. unfold standing. congruence.
      Qed.

      Lemma concl_end_message w ph i b : Concl w ph i -> In i ts -> Concl (k_end_message w i b) ph i.
      Proof.
        intros H Hi. unfold k_end_message. destruct (_ && _); [|exact H].
        apply concl_touch; auto. intros k. split; [constructor|]; reflexivity.
      Qed.

      Lemma core_ensure k : core k (k_ensure_message k) /\
        k_timer (k_ensure_message k) = k_timer k /\ k_current (k_ensure_message k) = k_current k.
      Proof.
        unfold k_ensure_message. destruct (k_message k); (split; [constructor; reflexivity|]); split;
          reflexivity.
      Qed.

      (** The refused recipient is taken off the list. *)
      Lemma refuse_only w i : w_crashed w = false -> has w i -> k_state (child_of w i) = x ->
        (x = XRcpt -> k_current (child_of w i) <> None) ->
        only i w (k_refuse w i) /\ core (child_of w i) (child_of (k_refuse w i) i).
      Proof.
        intros Hc Hh Hs Hr. unfold k_refuse.
        destruct (core_ensure (child_of w i)) as (K & _ & Kc).
        set (k := k_ensure_message (child_of w i)) in *. clearbody k.
        assert (Ks : k_state k = x) by (destruct K; congruence).
        assert (Same : only i w w /\ core (child_of w i) (child_of w i))
          by (split; [now apply only_refl|apply core_refl]).
        destruct (k_state k) eqn:E; try exact Same. symmetry in Ks. specialize (Hr Ks).
        destruct (k_message k) as [[rs b]|]; [|exact Same].
        destruct (k_current k) as [r|] eqn:Ec; [|congruence].
        split; [now apply only_child|]. rewrite child_same by exact Hh.
        eapply core_trans; [exact K|]. constructor; reflexivity.
      Qed.

      Lemma step_reply w ph vs i r v : Inv w ph vs -> In i ts -> ph i = Asked ->
        verdict_of r = Some v -> V i = (if ev i && negative v then S_ACCEPT else v) ->
        gone i = lets_go x r -> (forall c e m, r = RReplyCode c e m -> ok_code c e m) ->
        if lets_go x r then exists vs', Inv (Step w (KReply i r)) (upd ph i Leaving) vs'
        else Res (Step w (KReply i r)) (upd ph i Done).
      Proof.
        intros HI Hi Hp Hv HVi Hgi Hcode. unfold children_step. rewrite (inv_crashed _ _ _ HI).
        apply (inv_log _ _ _ (OIn (KReply i r)) eq_refl) in HI. set (w1 := log w _) in *. clearbody w1.
        assert (Hc := inv_crashed _ _ _ HI). assert (Hh := inv_has _ _ _ HI i Hi).
        destruct (inv_phase _ _ _ HI i Hi) as (O & P). rewrite Hp in P.
        destruct P as (P1 & P2 & P3 & P4 & P5 & P6 & P7 & P8 & P9).
        assert (HT : forall u, only i w1 u -> core (child_of w1 i) (child_of u i) ->
                     let u' := on_child u i (fun k => put_k_timer k None) in
                     only i w1 u' /\ core (child_of w1 i) (child_of u' i) /\
                     k_timer (child_of u' i) = None).
        { intros u U1 U2 u'. assert (has u i) by (eapply only_has; eauto). unfold u'.
          rewrite child_same by assumption. split; [|split].
          - eapply only_trans; [exact U1|]. apply only_child. eapply only_crashed; eauto.
          - eapply core_trans; [exact U2|]. constructor; reflexivity.
          - reflexivity. }
        destruct (HT w1 (only_refl i w1 Hc) (core_refl _)) as (T1 & T2 & T3).
        destruct (refuse_only w1 i Hc Hh P8 P9) as (F1 & F2).
        destruct (HT _ F1 F2) as (G1 & G2 & G3).
        assert (Hans : answerable x = true) by (destruct x; try discriminate Hx; reflexivity).
        assert (Hfc : w_crashed (k_refuse w1 i) = false) by (eapply only_crashed; eauto).
        assert (Lg : r <> RContinue -> lets_go x r = leaves).
        { intros Hr. unfold leaves. destruct x; try discriminate Hx; try reflexivity;
            destruct r; try congruence; reflexivity. }
        assert (Fin : forall u r', verdict_of r' = Some v -> only i w1 u ->
                  core (child_of w1 i) (child_of u i) ->
                  k_timer (child_of (on_child u i (fun k => put_k_timer k None)) i) = None ->
                  only i w1 (on_child u i (fun k => put_k_timer k None)) ->
                  core (child_of w1 i) (child_of (on_child u i (fun k => put_k_timer k None)) i) ->
                  forall sp,
                  Concl (Emit (S d) (on_child u i (fun k => put_k_timer k None)) i (GReply r')) ph i ->
                  Concl (k_final_reply (Emit (S d)) u i r' sp) ph i).
        { intros u r' _ U1 U2 U3 U4 U5 sp HC. unfold k_final_reply.
          rewrite (core_quitted _ _ U5), P5.
          set (z := k_end_message _ _ _).
          assert (Z : Concl z ph i) by (apply concl_end_message; auto).
          destruct (k_state (child_of z i)); try exact Z.
          apply concl_touch; auto. intros k. split; [constructor|]; reflexivity. }
        destruct r; try discriminate Hv; cbn [verdict_of] in Hv; injection Hv as <-.
        - (* continue *)
          assert (Lx : lets_go x RContinue = false) by (destruct x; try discriminate Hx; reflexivity).
          rewrite Lx in *. cbn [k_receive]. set (w3 := on_child w1 i (fun k => put_k_timer k None)) in *.
          rewrite andb_false_r in HVi.
          assert (Es : k_state (child_of w3 i) = x) by (rewrite (core_state _ _ T2); exact P8).
          assert (Eq : k_quitted (child_of w3 i) = false) by (rewrite (core_quitted _ _ T2); exact P5).
          assert (R : Res (Emit (S d) w3 i (GReply RContinue)) (upd ph i Done)).
          { rewrite emit_step by (eapply only_crashed; eauto). unfold handle.
            rewrite (only_crashed _ _ _ T1), (core_connected _ _ T2), P1. cbn [negb].
            apply (heard_continue w1 ph vs i w3); auto. }
          rewrite Es, Eq.
          assert (R' : Res (match k_state (child_of (Emit (S d) w3 i (GReply RContinue)) i) with
                            | XEndOfMessage =>
                                on_child (Emit (S d) w3 i (GReply RContinue)) i k_processed
                            | _ => Emit (S d) w3 i (GReply RContinue)
                            end) (upd ph i Done)).
          { set (z := Emit (S d) w3 i (GReply RContinue)) in *.
            destruct (k_state (child_of z i)); try exact R.
            apply (res_only z _ _ i); auto.
            - apply upd_same.
            - apply only_child. eapply res_crashed; eauto.
            - rewrite child_same by (eapply res_has; eauto). reflexivity.
            - rewrite child_same by (eapply res_has; eauto). reflexivity. }
          destruct x; try discriminate Hx; exact R'.
        - (* reply code *)
          rewrite Lg in * by discriminate.
          assert (Hl : leaves = false -> gone i = false) by congruence. cbn [k_receive]. rewrite Hfc.
          set (u := k_refuse w1 i) in *.
          set (w3 := on_child u i (fun k => put_k_timer k None)) in *.
          assert (Es : k_state (child_of w3 i) = x) by (rewrite (core_state _ _ G2); exact P8).
          assert (Eq : k_quitted (child_of w3 i) = false) by (rewrite (core_quitted _ _ G2); exact P5).
          rewrite Es, Hans, Eq.
          assert (Eb : match x with XBody => on_child w3 i (fun k => put_k_replies k []) | _ => w3 end = w3)
            by (destruct x; try discriminate Hx; reflexivity).
          rewrite Eb. change (Concl (k_end_message (Emit (S d) w3 i (GReply (RReplyCode code extended message))) i true) ph i).
          apply concl_end_message; auto.
          rewrite emit_step by (eapply only_crashed; eauto). unfold handle.
          rewrite (only_crashed _ _ _ G1), (core_connected _ _ G2), P1. cbn [negb].
          unfold cb_reply_code.
          set (cd := if code =? 0 then None else Some (code, extended, message)).
          apply (heard_refuse (on_flow w1 (fun f => put_f_code f cd)) ph vs i); auto.
          + apply inv_code; [exact HI|]. intros n e m. unfold cd.
            destruct (code =? 0); [discriminate|]. intros [= <- <- <-]. now apply Hcode.
          + now apply only_flow_map.
          + rewrite HVi.
            assert (Ec : (code / 100 =? 4) = ((400 <=? code) && (code <? 500))).
            { pose proof (N.div_mod code 100). pose proof (N.mod_lt code 100). lia. }
            rewrite Ec. destruct ((400 <=? code) && (code <? 500)); cbn [negative];
              rewrite andb_true_r; reflexivity.
        - (* temporary failure *)
          rewrite Lg in * by discriminate.
          assert (Hl : leaves = false -> gone i = false) by congruence. cbn [k_receive]. rewrite Hfc.
          apply (Fin (k_refuse w1 i) RTemporaryFailure); auto.
          rewrite emit_step by (eapply only_crashed; eauto). unfold handle.
          rewrite (only_crashed _ _ _ G1), (core_connected _ _ G2), P1. cbn [negb].
          apply (heard_refuse w1 ph vs i); auto. rewrite HVi. cbn [negative]. now rewrite andb_true_r.
        - rewrite Lg in * by discriminate.
          assert (Hl : leaves = false -> gone i = false) by congruence. cbn [k_receive]. rewrite Hfc.
          apply (Fin (k_refuse w1 i) RReject); auto.
          rewrite emit_step by (eapply only_crashed; eauto). unfold handle.
          rewrite (only_crashed _ _ _ G1), (core_connected _ _ G2), P1. cbn [negb].
          apply (heard_refuse w1 ph vs i); auto. rewrite HVi. cbn [negative]. now rewrite andb_true_r.
        - rewrite Lg in * by discriminate.
          assert (Hl : leaves = false -> gone i = false) by congruence. cbn [k_receive].
          apply (Fin w1 RAccept); auto; [now apply only_refl|apply core_refl|].
          rewrite emit_step by (eapply only_crashed; eauto). unfold handle.
          rewrite (only_crashed _ _ _ T1), (core_connected _ _ T2), P1. cbn [negb].
          apply (heard_accept w1 ph vs i); auto. rewrite HVi. cbn [negative]. now rewrite andb_false_r.
        - rewrite Lg in * by discriminate.
          assert (Hl : leaves = false -> gone i = false) by congruence. cbn [k_receive].
          apply (Fin w1 RDiscard); auto; [now apply only_refl|apply core_refl|].
          rewrite emit_step by (eapply only_crashed; eauto). unfold handle.
          rewrite (only_crashed _ _ _ T1), (core_connected _ _ T2), P1. cbn [negb].
          apply (heard_discard w1 ph vs i); auto. rewrite HVi. cbn [negative]. now rewrite andb_true_r.
      Qed.

      (** *** Passing the command on *)

      Lemma call_shape e w i c o : stage_of c = Some x -> w_crashed w = false -> has w i ->
        k_option (child_of w i) = Some o ->
        exists w1, only i w w1 /\ core (child_of w i) (child_of w1 i) /\
          k_timer (child_of w1 i) = k_timer (child_of w i) /\
          (x = XRcpt -> k_current (child_of w1 i) <> None) /\
          kcall e w i c = if declines o x then k_skip_command e w1 i x else kwrite e w1 i c x.
      Proof.
        intros Hc Hw Hh Ho.
        assert (Same : only i w w /\ core (child_of w i) (child_of w i) /\
                       k_timer (child_of w i) = k_timer (child_of w i))
          by (split; [now apply only_refl|]; split; [apply core_refl|reflexivity]).
        assert (Touch : forall g, (forall k, core k (g k) /\ k_timer (g k) = k_timer k) ->
          only i w (on_child w i g) /\ core (child_of w i) (child_of (on_child w i g) i) /\
          k_timer (child_of (on_child w i g) i) = k_timer (child_of w i)).
        { intros g Hg. rewrite child_same by exact Hh. destruct (Hg (child_of w i)) as (G1 & G2).
          split; [now apply only_child|]. auto. }
        assert (Ens : forall k, core k (k_ensure_message k) /\ k_timer (k_ensure_message k) = k_timer k)
          by (intros k; destruct (core_ensure k) as (A & B & _); auto).
        destruct c; try discriminate Hc; injection Hc as Hc; rewrite <- Hc; cbn [k_call];
          unfold k_command, k_is_enable_step; rewrite ?Hstops, ?Ho; unfold declines;
          cbn [ServerSpec.decline_step]; rewrite ?orb_false_r.
        - exists w. destruct Same as (A & B & C). repeat (split; [assumption|]). split; [discriminate|].
          reflexivity.
        - exists w. destruct Same as (A & B & C). repeat (split; [assumption|]). split; [discriminate|].
          reflexivity.
        - exists (on_child (on_child w i k_ensure_message) i (fun k => put_k_processing k true)).
          destruct (Touch _ Ens) as (A & B & C).
          split; [eapply only_trans; [exact A|]; apply only_child; eapply only_crashed; eauto|].
          rewrite child_same by (apply has_child; exact Hh).
          split; [eapply core_trans; [exact B|]; constructor; reflexivity|].
          split; [exact C|]. split; [discriminate|reflexivity].
        - match goal with |- context [on_child w i ?g] =>
            exists (on_child w i g); destruct (Touch g) as (A & B & C) end.
          { intros k. destruct (core_ensure k) as (K1 & K2 & _). cbn [put_k_current k_message].
            destruct (k_message (k_ensure_message k)) as [[rs b]|]; (split; [|exact K2]);
              (eapply core_trans; [exact K1|]; constructor; reflexivity). }
          split; [exact A|]. split; [exact B|]. split; [exact C|]. split; [|rewrite ?Hstops; reflexivity].
          intros _. rewrite child_same by exact Hh. cbn [put_k_current k_message].
          destruct (k_message (k_ensure_message (child_of w i))) as [[rs b]|]; discriminate.
        - exists (on_child w i k_ensure_message). destruct (Touch _ Ens) as (A & B & C).
          split; [exact A|]. split; [exact B|]. split; [exact C|]. split; [discriminate|].
          rewrite (core_option _ _ B), Ho, orb_comm. reflexivity.
        - exists w. destruct Same as (A & B & C). repeat (split; [assumption|]). split; [discriminate|].
          reflexivity.
      Qed.

      Variable decl : nat -> bool.
      Hypothesis HVdecl : forall i, In i ts -> decl i = true -> V i = S_CONTINUE.
      Hypothesis Hgdecl : forall i, In i ts -> decl i = true -> gone i = false.

      Lemma call_one w ph vs i c o : stage_of c = Some x -> Inv w ph vs -> In i ts ->
        ph i = Uncalled -> k_option (child_of w i) = Some o -> declines o x = decl i ->
        exists w', kcall (Emit (S d)) w i c = (true, w') /\
          Res w' (upd ph i (if decl i then Done else OnItsWay)) /\
          (forall j, In j ts -> j <> i -> ph j = Uncalled -> child_of w' j = child_of w j).
      Proof.
        intros Hc HI Hi Hp Ho Hd.
        assert (Hw := inv_crashed _ _ _ HI). assert (Hh := inv_has _ _ _ HI i Hi).
        destruct (inv_phase _ _ _ HI i Hi) as (O & P). rewrite Hp in P.
        destruct P as (P1 & P2 & P3 & P4 & P5 & P6 & P7).
        destruct (call_shape (Emit (S d)) w i c o Hc Hw Hh Ho) as (w1 & A & B & C & D & E).
        rewrite E, Hd. clear E.
        assert (Hw1 := only_crashed _ _ _ A). assert (Hh1 : has w1 i) by (eapply only_has; eauto).
        destruct (decl i) eqn:Ed.
        - unfold k_skip_command.
          assert (Es : (match x with XBody => RSkip | _ => RContinue end) = RContinue)
            by (destruct x; try discriminate Hx; reflexivity).
          rewrite Es. eexists. split; [reflexivity|].
          set (w2 := on_child w1 i (fun k => put_k_state k x)).
          assert (A2 : only i w w2) by (eapply only_trans; [exact A|]; now apply only_child).
          assert (K2 : child_of w2 i = put_k_state (child_of w1 i) x)
            by (unfold w2; now rewrite child_same).
          assert (Hw2 : w_crashed w2 = false) by (eapply only_crashed; eauto).
          rewrite emit_step by exact Hw2. unfold handle. rewrite Hw2.
          assert (Ec : k_connected (child_of w2 i) = true)
            by (rewrite K2; cbn; rewrite (core_connected _ _ B); exact P1).
          rewrite Ec. cbn [negb]. unfold cb_continue.
          assert (Ek : k_state (child_of w2 i) = x) by (rewrite K2; reflexivity).
          rewrite Ek.
          assert (A3 : only i (compile_reply w x (V i)) (compile_reply w2 x S_CONTINUE)).
          { rewrite (HVdecl i Hi Ed). unfold compile_reply. now apply only_flow_map. }
          assert (R : Res (remove_from_queue writes stops chunk_size (Emit d) (Resume d)
                             (compile_reply w2 x S_CONTINUE) i) (upd ph i Done)).
          { apply (speak_remove _ _ w ph vs); auto.
            - now rewrite Hp.
            - change (k_option (child_of w2 i) = k_option (child_of w i)). rewrite K2. cbn.
              apply (core_option _ _ B).
            - rewrite (Hgdecl i Hi Ed). discriminate. }
          assert (N' : forall j, In j ts -> j <> i -> ph j = Uncalled ->
            child_of (remove_from_queue writes stops chunk_size (Emit d) (Resume d)
                       (compile_reply w2 x S_CONTINUE) i) j = child_of w j).
          { intros j Hj Hn Hu. unfold remove_from_queue.
            set (w4 := on_flow _ _).
            assert (Hq : In j (f_queue (w_flow w4))).
            { unfold w4. cbn [on_flow put_w_flow w_flow put_f_queue f_queue compile_reply put_f_statuses].
              rewrite (only_flow _ _ _ A2), (inv_queue _ _ _ HI).
              rewrite remove_nat_filter by (now apply NoDup_filter). apply filter_In. split.
              - apply filter_In. split; [exact Hj|]. rewrite Hu. reflexivity.
              - apply Nat.eqb_neq in Hn. now rewrite Hn. }
            destruct (f_queue (w_flow w4)); [destruct Hq|].
            change (child_of w4 j) with (child_of w2 j). apply (only_other _ _ _ A2 j Hn). }
          destruct x; try discriminate Hx; (split; [exact R|exact N']).
        - destruct (write_taken (Emit (S d)) w1 i c x) as (w2 & E & A2 & K2); auto.
          { right. rewrite C. exact P6. }
          rewrite E. eexists. split; [reflexivity|].
          assert (A3 : only i w w2) by (eapply only_trans; eassumption).
          split; [|intros j _ Hn _; apply (only_other _ _ _ A3 j Hn)].
          assert (HI2 : Inv w2 (upd ph i OnItsWay) vs).
          { apply (inv_move w ph vs); auto; try (rewrite Hp; reflexivity).
            assert (Eu : urgent x = false) by (destruct x; try discriminate Hx; reflexivity).
            rewrite Eu in K2. rewrite K2. destruct B as [B1 B2 B3 B4 B5 B6 B7 B8].
            destruct O as (o' & O1 & O2). split.
            - exists o'. split; [|exact O2]. cbn. congruence.
            - cbn. rewrite B8, P7. repeat split; try congruence. exact D. }
          unfold Res. replace (all_done (upd ph i OnItsWay)) with false; [eauto|].
          symmetry. unfold all_done. apply Bool.not_true_is_false. intros H.
          rewrite forallb_forall in H. specialize (H i Hi). rewrite upd_same in H. discriminate.
      Qed.

      Lemma call_all c l : stage_of c = Some x -> forall ok w ph vs, Inv w ph vs -> NoDup l ->
        (forall i, In i l -> In i ts /\ ph i = Uncalled /\
           exists o, k_option (child_of w i) = Some o /\ declines o x = decl i) ->
        l <> [] ->
        exists w', fold_left (fun '(ok, w) i =>
                     let (ok', w') := kcall (Emit (S d)) w i c in (ok || ok', w')) l (ok, w) = (true, w') /\
          Res w' (fun i => if existsb (Nat.eqb i) l then (if decl i then Done else OnItsWay) else ph i).
      Proof.
        intros Hc. induction l as [|i l IH]; intros ok w ph vs HI Hl Hu Hne; [congruence|].
        inversion_clear Hl as [|? ? Hi Hl']. cbn [fold_left].
        destruct (Hu i (or_introl eq_refl)) as (It & Iu & o & Io & Id).
        destruct (call_one w ph vs i c o) as (w1 & E & R & N'); auto.
        rewrite E, orb_true_r.
        destruct l as [|j l].
        - exists w1. split; [reflexivity|]. eapply res_ext; [|exact R].
          intros j _. unfold upd. cbn [existsb]. rewrite orb_false_r. destruct (Nat.eqb_spec j i) as [->|]; reflexivity.
        - assert (Hj : In j ts /\ ph j = Uncalled) by (destruct (Hu j) as (A & B & _); [right; now left|auto]).
          assert (Hji : j <> i) by (intros ->; apply Hi; now left).
          assert (Hnd : all_done (upd ph i (if decl i then Done else OnItsWay)) = false).
          { apply Bool.not_true_is_false. intros H. apply all_done_true with (i := j) in H; [|apply Hj].
            rewrite upd_other in H by exact Hji. destruct Hj. congruence. }
          unfold Res in R. rewrite Hnd in R. destruct R as (vs1 & HI1).
          destruct (IH true w1 (upd ph i (if decl i then Done else OnItsWay)) vs1 HI1 Hl') as (w2 & E2 & R2);
            [| discriminate |].
          { intros k Hk. assert (k <> i) by (intros ->; contradiction).
            destruct (Hu k (or_intror Hk)) as (A & B & o' & C & D). rewrite upd_other by assumption.
            split; [exact A|]. split; [exact B|]. exists o'. rewrite N' by assumption. auto. }
          exists w2. split; [exact E2|]. eapply res_ext; [|exact R2].
          intros k _. cbn [existsb]. unfold upd. destruct (Nat.eqb_spec k i) as [->|Hk].
          + cbn [orb]. destruct (Nat.eqb i j || existsb (Nat.eqb i) l); reflexivity.
          + cbn [orb]. reflexivity.
      Qed.

      Lemma res_need_reply w ph i : Res w ph -> In i ts -> k_need_reply (child_of w i) x = Some true.
      Proof.
        intros R Hi. assert (O : opt_ok (child_of w i)).
        { unfold Res in R. destruct (all_done ph).
          - now apply final_option.
          - destruct R as (vs & HI). apply (inv_phase _ _ _ HI i Hi). }
        destruct O as (o & O1 & O2). exact (need_reply_silent _ o x Hx O1 O2).
      Qed.

      Lemma res_log w ph e : answer e = None -> Res w ph -> Res (log w e) ph.
      Proof.
        intros He R. assert (Hc := res_crashed _ _ R). unfold Res in *. destruct (all_done ph).
        - destruct R as [C (es & v & T & A & S) H O G]. constructor.
          + now rewrite crashed_log.
          + exists (e :: es), v. rewrite trace_log by exact C. rewrite T. cbn [answers]. rewrite He.
            split; [reflexivity|]. split; [exact A|]. split; [apply S|].
            intros c s m [->|Hm]; [discriminate He|now apply S].
          + intros j Hj. apply has_log. auto.
          + intros j Hj. rewrite child_log. auto.
          + intros j Hj. rewrite child_log. auto.
        - destruct R as (vs & HI). exists vs. now apply inv_log.
      Qed.

      (** *** The answers of the filters, in any order *)

      Variable outs : nat -> outcome.
      Hypothesis Houts : forall i, In i ts -> decl i = false ->
        match outs i with Says r => verdict_of r <> None | Fails _ => True end /\
        V i = counts (fb i) (ev i) (outs i) /\
        gone i = match outs i with Says r => lets_go x r | Fails _ => true end /\
        (forall c e m, outs i = Says (RReplyCode c e m) -> ok_code c e m).

      Definition rest (i : nat) (p : phase) : list op :=
        match p with
        | OnItsWay => script x i (outs i)
        | Asked => tl (script x i (outs i))
        | Leaving => [KFlushed i; KFinish i]
        | Closing => [KFinish i]
        | _ => []
        end.
      Definition running (i : nat) (p : phase) : bool :=
        match p with
        | OnItsWay | Asked | Leaving | Closing => negb (decl i)
        | Done => true
        | _ => false
        end.

      Lemma upd_rest ph i p ops o : (forall j, In j ts -> filter (of_filter j) (o :: ops) = rest j (ph j)) ->
        op_filter o = Some i -> filter (of_filter i) ops = rest i p ->
        forall j, In j ts -> filter (of_filter j) ops = rest j (upd ph i p j).
      Proof.
        intros H Ho Hr j Hj. destruct (Nat.eq_dec j i) as [->|Hn]; [now rewrite upd_same|].
        rewrite upd_other, <- H by assumption. cbn [filter]. unfold of_filter at 2. rewrite Ho.
        apply Nat.eqb_neq in Hn. now rewrite Hn.
      Qed.
      Lemma upd_running ph i p : (forall j, In j ts -> running j (ph j) = true) ->
        running i p = true -> forall j, In j ts -> running j (upd ph i p j) = true.
      Proof.
        intros H Hr j Hj. destruct (Nat.eq_dec j i) as [->|Hn]; [now rewrite upd_same|].
        now rewrite upd_other; auto.
      Qed.

      Lemma res_of_inv w ph vs i : Inv w ph vs -> In i ts -> is_done (ph i) = false -> Res w ph.
      Proof.
        intros HI Hi Hd. unfold Res. replace (all_done ph) with false; [eauto|].
        symmetry. apply Bool.not_true_is_false. intros H. apply all_done_true with (i := i) in H; auto.
        rewrite H in Hd. discriminate.
      Qed.

      Lemma next_step w ph vs i o ops : Inv w ph vs -> In i ts -> running i (ph i) = true ->
        op_filter o = Some i -> o :: filter (of_filter i) ops = rest i (ph i) ->
        exists p, Res (Step w o) (upd ph i p) /\ running i p = true /\
                  filter (of_filter i) ops = rest i p.
      Proof.
        intros HI Hi Hri Ho Hio.
        destruct (ph i) eqn:Ep; try discriminate Hri; try discriminate Hio;
          cbn [running] in Hri; apply negb_true_iff in Hri.
        - cbn [rest script] in Hio. injection Hio as -> Hio. exists Asked.
          split; [|split; [cbn; now rewrite Hri|exact Hio]].
          apply (res_of_inv _ _ vs i); [now apply step_flush|exact Hi|now rewrite upd_same].
        - destruct (Houts i Hi Hri) as (O1 & O2 & O3 & O4). cbn [rest script tl] in Hio.
          destruct (outs i) as [r|f] eqn:Eo.
          + injection Hio as -> Hio. destruct (verdict_of r) as [v|] eqn:Ev; [|congruence].
            cbn [counts] in O2. rewrite Ev in O2.
            assert (S := step_reply w ph vs i r v HI Hi Ep Ev O2 O3
                         (fun c e m Er => O4 c e m (f_equal Says Er))).
            destruct (lets_go x r).
            * exists Leaving. destruct S as (vs' & S). split; [|split; [cbn; now rewrite Hri|exact Hio]].
              apply (res_of_inv _ _ vs' i); [exact S|exact Hi|now rewrite upd_same].
            * exists Done. split; [exact S|]. split; [reflexivity|exact Hio].
          + injection Hio as -> Hio. exists Done. split; [|split; [reflexivity|exact Hio]].
            apply (step_fail w ph vs i f); auto.
        - cbn [rest] in Hio. injection Hio as -> Hio. exists Closing.
          split; [|split; [cbn; now rewrite Hri|exact Hio]].
          apply (res_of_inv _ _ vs i); [now apply step_flush_quit|exact Hi|now rewrite upd_same].
        - cbn [rest] in Hio. injection Hio as -> Hio. exists Done.
          split; [|split; [reflexivity|exact Hio]]. now apply (step_close w ph vs).
      Qed.

      Lemma rest_none ph : (forall i, In i ts -> running i (ph i) = true) ->
        (forall i, In i ts -> [] = rest i (ph i)) -> all_done ph = true.
      Proof.
        intros Hrun Hops. unfold all_done. apply forallb_forall. intros i Hi.
        specialize (Hrun i Hi). specialize (Hops i Hi).
        destruct (ph i); try discriminate Hrun; try discriminate Hops; try reflexivity.
        unfold rest, script in Hops. destruct (outs i) as [r|f] in Hops; discriminate Hops.
      Qed.

      Lemma run_ops ops : forall w ph, Res w ph ->
        (forall i, In i ts -> running i (ph i) = true) ->
        (forall i, In i ts -> filter (of_filter i) ops = rest i (ph i)) ->
        (forall o, In o ops -> exists i, op_filter o = Some i /\ In i ts) ->
        Final (fold_left Step ops w) /\
        forall ops1 ops2, ops = ops1 ++ ops2 -> ops2 <> [] ->
          exists ph' vs, Inv (fold_left Step ops1 w) ph' vs.
      Proof.
        induction ops as [|o ops IH]; intros w ph R Hrun Hops Hin.
        - split.
          + cbn [fold_left]. unfold Res in R. replace (all_done ph) with true in R; [exact R|].
            symmetry. now apply rest_none.
          + intros [|? ?] ops2 E Hne; [|discriminate]. cbn in E. congruence.
        - destruct (Hin o (or_introl eq_refl)) as (i & Ho & Hi).
          assert (Hio := Hops i Hi). cbn [filter] in Hio. unfold of_filter at 1 in Hio.
          rewrite Ho, Nat.eqb_refl in Hio.
          assert (HI : exists vs, Inv w ph vs).
          { unfold Res in R. destruct (all_done ph) eqn:Ed; [|exact R].
            apply all_done_true with (i := i) in Ed; [|exact Hi]. rewrite Ed in Hio. discriminate. }
          destruct HI as (vs & HI).
          assert (Next : exists p, Res (Step w o) (upd ph i p) /\ running i p = true /\
                                   filter (of_filter i) ops = rest i p).
          { apply (next_step w ph vs); auto. }
          destruct Next as (p & R' & Hp' & Hf).
          destruct (IH (Step w o) (upd ph i p) R') as (F & G).
          + now apply upd_running.
          + eapply upd_rest; eauto.
          + intros o' Ho'. apply Hin. now right.
          + split; [exact F|]. intros [|o1 ops1] ops2 E Hne.
            * exists ph, vs. exact HI.
            * cbn in E. injection E as -> ->. cbn [fold_left]. now apply (G ops1 ops2).
      Qed.
    End Steps.
  End Command.

  (** *** One command from the MTA *)

  Lemma concerned_nodup x w : NoDup (concerned_filters x w).
  Proof. apply NoDup_filter, seq_NoDup. Qed.

  Lemma concerned_in x w i : In i (concerned_filters x w) ->
    has w i /\ concerned x (child_of w i) = true.
  Proof.
    unfold concerned_filters. rewrite filter_In, in_seq. intros [H1 H2]. split; [|exact H2].
    unfold has. lia.
  Qed.

  Definition declined (x : sstate) (opts : nat -> moption) (i : nat) : bool := declines (opts i) x.
  Definition verdict_for (x : sstate) (w : world) (opts : nat -> moption) (outs : nat -> outcome)
    (i : nat) : status :=
    if declined x opts i then S_CONTINUE
    else counts (k_fallback (child_of w i)) (k_evaluation (child_of w i)) (outs i).
  Definition leaves_for (x : sstate) (opts : nat -> moption) (outs : nat -> outcome) (i : nat) : bool :=
    negb (declined x opts i) &&
    match outs i with Says r => lets_go x r | Fails _ => true end.

  Section One.
    Variables (d : nat) (w : world) (c : command) (x : sstate).
    Variables (opts : nat -> moption) (outs : nat -> outcome).
    Notation ts := (concerned_filters x w).
    Notation fb := (fun i => k_fallback (child_of w i)).
    Notation ev := (fun i => k_evaluation (child_of w i)).
    Notation V := (verdict_for x w opts outs).
    Notation gone := (leaves_for x opts outs).
    Variable ok_code : N -> bytes -> option bytes -> Prop.
    Notation R0 := (Res w x ts fb ev V gone ok_code).
    Notation Step := (children_step writes stops chunk_size collate_equal (S d)).
    Notation Emit := (emit writes stops chunk_size collate_equal).
    Notation Resume := (resume writes stops chunk_size collate_equal).

    Hypothesis Hc : stage_of c = Some x.
    Hypothesis Hcrash : w_crashed w = false.
    Hypothesis Hpending : f_pending (w_flow w) = None.
    Hypothesis Hexpired : n_expired (w_nego w) = false.
    Hypothesis Hne : ts <> [].
    Hypothesis Hidle : forall i, In i ts -> idle x (child_of w i) (opts i).
    Hypothesis Hfallback : forall i, In i ts -> verdict (k_fallback (child_of w i)).
    Hypothesis Hsays : forall i, In i ts -> declined x opts i = false ->
      match outs i with Says r => verdict_of r <> None | Fails _ => True end.
    Hypothesis Hcode : forall c e m, f_code (w_flow w) = Some (c, e, m) -> ok_code c e m.
    Hypothesis Hcodes : forall i c e m, In i ts -> outs i = Says (RReplyCode c e m) -> ok_code c e m.

    Lemma stage_fan : fan_stage x = true.
    Proof using Hc.
      assert (H : forall y, stage_of c = Some y -> fan_stage y = true)
        by (intros y E; destruct c; try discriminate E; injection E as <-; reflexivity).
      exact (H x Hc).
    Qed.

    Lemma V_verdict i : In i ts -> verdict (V i).
    Proof using Hfallback Hsays.
      clear -Hfallback Hsays. intros Hi. unfold verdict_for.
      destruct (declined x opts i) eqn:E; [apply verdict_rank; cbn; lia|].
      specialize (Hsays i Hi E). destruct (outs i) as [r|f]; [|now apply Hfallback]. cbn [counts].
      destruct (verdict_of r) as [v|] eqn:Ev; [|congruence].
      destruct (k_evaluation (child_of w i) && negative v) eqn:En; [apply verdict_rank; cbn; lia|].
      apply verdict_rank. destruct r; try discriminate Ev; cbn in Ev; injection Ev as <-;
        try (cbn; lia); destruct (_ && _); cbn; lia.
    Qed.

    Lemma fan_out_ok v wanted accepted : 
      (forall k, wanted k && (negb accepted || k_has_accepted_recipient k) = concerned x k) ->
      quiet w v -> w_children v = w_children w -> w_flow v = w_flow w ->
      exists v', fan_out writes stops (Emit (S d)) (Resume (S d)) v x c wanted accepted = (true, v') /\
        R0 v' (fun i => if declined x opts i then Done else OnItsWay).
    Proof.
      intros Hw Qv Cv Pv. unfold fan_out. cbv zeta. set (w1 := init_reply_queue v x).
      assert (Q1 : quiet w w1) by (apply quiet_flow; exact Qv).
      assert (K1 : forall i, child_of w1 i = child_of w i).
      { intros i. unfold child_of. change (w_children w1) with (w_children v). now rewrite Cv. }
      assert (I1 : indices w1 = seq 0 (length (w_children w))).
      { unfold indices. change (w_children w1) with (w_children v). now rewrite Cv. }
      destruct (fill_queue (Emit (S d)) wanted accepted w (indices w1) w1)
        as (w2 & E2 & Q2 & L2 & F2 & K2).
      { rewrite I1. apply seq_NoDup. }
      { intros i Hi. unfold indices in Hi. apply in_seq in Hi. unfold has. lia. }
      { apply Q1. }
      { intros i _. apply K1. }
      cbv zeta in E2. rewrite E2. clear E2.
      assert (T2 : f_queue (w_flow w2) = ts).
      { rewrite F2. cbn [put_f_queue f_queue w1 init_reply_queue on_flow put_w_flow w_flow put_f_statuses app].
        rewrite I1. apply filter_ext. intros i. apply Hw. }
      assert (HI : Inv w x ts fb ev V gone ok_code w2 (fun _ => Uncalled) []).
      { constructor.
        - eapply quiet_trans; [exact Q1|exact Q2].
        - rewrite F2. cbn. rewrite Pv. exact Hpending.
        - rewrite F2. reflexivity.
        - rewrite T2. clear. induction ts as [|i l IH]; [reflexivity|]. cbn [filter is_done negb]. now f_equal.
        - intros i Hi. unfold has. rewrite L2. change (w_children w1) with (w_children v). rewrite Cv.
          now apply concerned_in in Hi.
        - intros i Hi. assert (Kc := proj2 (concerned_in _ _ _ Hi)).
          rewrite K2 by (intros _; rewrite Hw; exact Kc). rewrite K1.
          destruct (Hidle i Hi). split.
          + exists (opts i). auto.
          + repeat split; assumption.
        - rewrite F2. cbn. rewrite Pv. exact Hcode.
        - rewrite F2. cbn [put_f_queue f_statuses w1 init_reply_queue on_flow put_w_flow w_flow put_f_statuses].
          unfold status_put. rewrite sstate_eqb_refl. reflexivity.
        - intros u. split; [intros []|]. intros (i & _ & Hf & _). discriminate. }
      destruct (call_all w x stage_fan ts (concerned_nodup x w) fb ev V V_verdict gone ok_code d (declined x opts))
        with (c := c) (l := ts) (ok := false) (w := w2) (ph := fun _ : nat => Uncalled) (vs := @nil status)
        as (w3 & E3 & R3); auto.
      { intros i Hi Hd. unfold verdict_for. now rewrite Hd. }
      { intros i Hi Hd. unfold leaves_for. now rewrite Hd. }
      { apply concerned_nodup. }
      { intros i Hi. split; [exact Hi|]. split; [reflexivity|]. exists (opts i).
        assert (Kc := proj2 (concerned_in _ _ _ Hi)).
        rewrite K2 by (intros _; rewrite Hw; exact Kc). rewrite K1. split; [|reflexivity].
        apply (Hidle i Hi). }
      rewrite T2, E3. eexists. split; [reflexivity|].
      assert (R3' : R0 w3 (fun i => if declined x opts i then Done else OnItsWay)).
      { eapply res_ext; [|exact R3]. intros i Hi. cbn.
        replace (existsb (Nat.eqb i) ts) with true; [reflexivity|].
        symmetry. apply existsb_exists. exists i. split; [exact Hi|apply Nat.eqb_refl]. }
      assert (E4 : forall l, incl l ts ->
        fold_left (fun w i => match k_need_reply (child_of w i) x with
                             | None => crash w
                             | Some true => w
                             | Some false => Resume (S d) w i
                             end) l w3 = w3).
      { induction l as [|i l IH]; intros Hl; [reflexivity|]. cbn [fold_left].
        rewrite (res_need_reply w x stage_fan ts fb ev V gone ok_code w3 _ i R3'); [|apply Hl; now left].
        apply IH. intros j Hj. apply Hl. now right. }
      rewrite E4 by apply incl_refl. exact R3'.
    Qed.

    Lemma some_child (p : child -> bool) v : w_children v = w_children w ->
      (forall k, concerned x k = true -> p k = true) -> existsb p (w_children v) = true.
    Proof.
      intros Hv Hp. rewrite Hv. destruct ts as [|i l] eqn:E; [congruence|].
      assert (Hi : In i ts) by (rewrite E; now left). apply concerned_in in Hi as (Hh & Hk).
      apply existsb_exists. exists (child_of w i). split; [|now apply Hp].
      unfold child_of. apply nth_In. exact Hh.
    Qed.

    Lemma concerned_alive k : match x with XRcpt | XData => False | _ => True end ->
      negb (k_quitted k) && (negb false || k_has_accepted_recipient k) = concerned x k.
    Proof. intros H. cbn [negb orb]. rewrite andb_true_r. unfold concerned. destruct x; try reflexivity; destruct H. Qed.

    Lemma mta_ok : exists v', mta writes stops chunk_size (Emit (S d)) (Resume (S d)) (log w (OIn (Mta c))) c = (true, v') /\
      R0 v' (fun i => if declined x opts i then Done else OnItsWay).
    Proof.
      set (v := log w (OIn (Mta c))).
      assert (Qv : quiet w v) by now apply quiet_log.
      assert (Cv : w_children v = w_children w) by apply children_log.
      assert (Pv : w_flow v = w_flow w) by (unfold v; now rewrite flow_log).
      assert (Alive : forall x', x' = x -> match x with XRcpt | XData => False | _ => True end ->
        exists v', alive_command writes stops (Emit (S d)) (Resume (S d)) v x' c = (true, v') /\
          R0 v' (fun i => if declined x opts i then Done else OnItsWay)).
      { intros x' -> Hm. unfold alive_command, check_alive.
        assert (Ev : n_expired (w_nego v) = false) by (unfold v; now rewrite nego_log).
        rewrite Ev. rewrite (some_child (fun k => negb (k_quitted k)) v Cv).
        - apply fan_out_ok; auto. intros k. now apply concerned_alive.
        - intros k Hk. rewrite <- (concerned_alive k Hm) in Hk. now apply andb_true_iff in Hk. }
      assert (Msg : forall x' a, x' = x ->
        (forall k, k_is_processing_message k && (negb a || k_has_accepted_recipient k) = concerned x k) ->
        exists v', message_command writes stops (Emit (S d)) (Resume (S d)) v x' c a = (true, v') /\
          R0 v' (fun i => if declined x opts i then Done else OnItsWay)).
      { intros x' a -> Hm. unfold message_command, check_processing.
        rewrite (some_child k_is_processing_message v Cv).
        - apply fan_out_ok; auto.
        - intros k Hk. rewrite <- Hm in Hk. now apply andb_true_iff in Hk. }
      assert (Hx := Hc).
      destruct c; try discriminate Hx; injection Hx as Hx; cbn [mta];
        try (apply Alive; [exact Hx|rewrite <- Hx; exact I]).
      - apply Msg; [exact Hx|]. intros k. rewrite <- Hx. cbn [negb orb]. apply andb_true_r.
      - apply Msg; [exact Hx|]. intros k. rewrite <- Hx. cbn [negb orb concerned].
        unfold k_is_processing_message, in_message, k_has_accepted_recipient, no_recipient_left.
        destruct (k_message k) as [[[|r rs] [|]]|]; reflexivity.
    Qed.

    Lemma command_answered ops :
      interleaving (filter (fun i => negb (declined x opts i)) ts) (fun i => script x i (outs i)) ops ->
      Final w x ts V gone ok_code (fold_left Step (Mta c :: ops) w) /\
      forall ops1 ops2, ops = ops1 ++ ops2 -> ops2 <> [] ->
        exists ph' vs, Inv w x ts fb ev V gone ok_code (fold_left Step (Mta c :: ops1) w) ph' vs.
    Proof.
      intros [Hf Ho]. destruct mta_ok as (v' & E & R).
      assert (ES : Step w (Mta c) = log v' (OReturn true)).
      { unfold children_step. rewrite Hcrash, E. reflexivity. }
      cbn [fold_left]. rewrite ES.
      apply (run_ops w x stage_fan ts (concerned_nodup x w) fb ev V V_verdict gone ok_code d (declined x opts))
        with (outs := outs) (ph := fun i => if declined x opts i then Done else OnItsWay).
      - intros i Hi Hd. split; [now apply Hsays|]. unfold verdict_for, leaves_for. rewrite Hd. repeat split; eauto.
      - apply (res_log w x ts fb ev V gone ok_code); [reflexivity|exact R].
      - intros i Hi. cbn. unfold running. destruct (declined x opts i) eqn:Ed; [reflexivity|].
        reflexivity.
      - intros i Hi. cbn. destruct (declined x opts i) eqn:Ed.
        + cbn [rest].
          assert (L : forall l, (forall o, In o l -> In o ops) -> filter (of_filter i) l = []).
          { induction l as [|o l IH]; intros Hl; [reflexivity|]. cbn [filter].
            destruct (Ho o (Hl o (or_introl eq_refl))) as (j & Hj & Hjt).
            apply filter_In in Hjt as (_ & Hjd).
            unfold of_filter. rewrite Hj.
            destruct (Nat.eqb_spec i j) as [->|Hn]; [rewrite Ed in Hjd; discriminate|].
            apply IH. intros o' Ho'. apply Hl. now right. }
          apply L. auto.
        + cbn [rest]. apply Hf. apply filter_In. rewrite Ed. auto.
      - intros o Hin. destruct (Ho o Hin) as (j & Hj & Hjt). apply filter_In in Hjt as (Hjt & _). eauto.
    Qed.
  End One.
End Stage.
