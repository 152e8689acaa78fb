(** The session of the manager: the leader answers the MTA once when the children object does. *)
From Verif.Base Require Import Bytes.
From Verif.Model Require Import Decoder Encoder CommandCodec ReplyCodec Status Option Headers Macros
                                ReplyCode Client Server Children Leader.
From Verif.Spec Require ServerSpec ReplyCodeSpec.
From Verif.Spec Require Import VerdictSpec ManagerSpec LeaderSpec.
From Verif.Proofs Require Import VerdictProofs ReplyCodeProofs ChildrenLemmas ChildrenStage
                                 ChildrenOut.
Local Open Scope N_scope.
Notation In := List.In.

Lemma mta_answers_app a b : mta_answers (a ++ b) = mta_answers a ++ mta_answers b.
Proof.
  induction a as [|e a IH]; [reflexivity|]. cbn. destruct (mta_answer e); cbn; now rewrite IH.
Qed.

(** The leader did not answer and its state did not change. *)
Definition calm (l l' : leader) : Prop :=
  l_state l' = l_state l /\ exists fs, l_trace l' = fs ++ l_trace l /\ mta_answers fs = [].
Lemma calm_refl l : calm l l.
Proof. split; [reflexivity|]. exists []. auto. Qed.
Lemma calm_trans a b c : calm a b -> calm b c -> calm a c.
Proof.
  intros (A1 & fs & A2 & A3) (B1 & gs & B2 & B3). split; [congruence|].
  exists (gs ++ fs). rewrite B2, A2, app_assoc, mta_answers_app, A3, B3. auto.
Qed.
Lemma calm_tell l e : mta_answer e = None -> calm l (tell l e).
Proof. intros H. split; [reflexivity|]. exists [e]. cbn. rewrite H. auto. Qed.

Lemma hear_calm fb l e : answer e = None -> calm l (leader_hear fb l e).
Proof.
  intros H. destruct e; try discriminate H; cbn [leader_hear]; try apply calm_refl;
    try (now apply calm_tell).
  - destruct e; try discriminate H. apply calm_refl.
  - eapply calm_trans; apply calm_tell; reflexivity.
Qed.

Lemma event_calm fb l cur e : answer e = None -> calm l (leader_event fb l cur e).
Proof.
  intros H. unfold leader_event. eapply calm_trans; [now apply (calm_tell l (LSaw e))|].
  assert (G : calm (tell l (LSaw e)) (leader_hear fb (tell l (LSaw e)) e)) by now apply hear_calm.
  destruct e; try exact G. destruct ok; [|discriminate H]. destruct cur as [c|]; [|exact G].
  destruct c; try (now apply calm_tell). apply calm_refl.
Qed.

Lemma follow_calm fb cur es : forall l, (forall e, In e es -> answer e = None) ->
  calm l (leader_follow fb l cur es).
Proof.
  induction es as [|e es IH]; intros l H; [apply calm_refl|]. cbn [leader_follow fold_left].
  eapply calm_trans; [apply (event_calm fb l cur e); apply H; now left|].
  apply IH. intros e' He'. apply H. now right.
Qed.

Lemma answers_none es : answers es = [] -> forall e, In e es -> answer e = None.
Proof.
  induction es as [|a es IH]; intros H e He; [destruct He|]. cbn in H.
  destruct (answer a) eqn:E; [discriminate|]. destruct He as [<-|He]; [exact E|auto].
Qed.

Lemma answers_one es v : answers es = [v] ->
  exists a e b, es = a ++ e :: b /\ answers a = [] /\ answers b = [] /\ answer e = Some v.
Proof.
  induction es as [|e es IH]; intros H; [discriminate|]. cbn in H. destruct (answer e) eqn:E.
  - injection H as <- H. exists [], e, es. auto.
  - destruct (IH H) as (a & e' & b & -> & A & B & C). exists (e :: a), e', b. cbn. rewrite E. auto.
Qed.

(** Acceptable reply codes are taken. *)
Definition takes_code (c : N) (e : bytes) (m : option bytes) : Prop :=
  ReplyCodeSpec.acceptable c (Some e).

(** One answer. *)
Definition answered (x : sstate) (v : status) (l l' : leader) : Prop :=
  l_state l' = LReplied x /\
  exists fs, l_trace l' = fs ++ l_trace l /\ mta_answers fs = [(Some x, v)].

Lemma reply_answered l x s : fan_stage x = true -> l_state l = LWaiting x -> answered x s l (leader_reply l s).
Proof.
  intros Hx Hl. unfold leader_reply. rewrite Hl. cbn [response_stage]. split.
  - cbn [put_l_state l_state]. unfold next_lstate. cbn [tell l_state]. rewrite Hl.
    destruct x; try discriminate Hx; reflexivity.
  - exists [LResponse x s]. split; reflexivity.
Qed.

Lemma hear_answered fb l x e v : fan_stage x = true -> l_state l = LWaiting x -> answer e = Some v ->
  verdict v -> (forall c s m, e = OAnswerCode c s m -> takes_code c s m) ->
  answered x v l (leader_hear fb l e).
Proof.
  intros Hx Hl He Hv Hc. destruct e; try discriminate He; cbn [leader_hear answer] in *.
  - injection He as <-. now apply reply_answered.
  - specialize (Hc _ _ _ eq_refl). unfold takes_code in Hc.
    destruct (set_reply (l_reply l) code (Some extended) message) as [ok r] eqn:E.
    assert (Hok : ok = true).
    { assert (S := set_reply_spec (l_reply l) code (Some extended) message). rewrite E in S.
      destruct S as [(_ & S)|(S & _)]; [congruence|contradiction]. }
    subst ok. injection He as <-.
    assert (Ec : (code / 100 =? 4) = ((400 <=? code) && (code <? 500))).
    { pose proof (N.div_mod code 100). pose proof (N.mod_lt code 100). lia. }
    rewrite Ec.
    destruct (reply_answered (put_l_reply l r) x
                (if (400 <=? code) && (code <? 500) then S_TEMPORARY_FAILURE else S_REJECT) Hx Hl)
      as (A & B). split; [exact A|exact B].
  - injection He as <-. apply verdict_rank in Hv. cbn in Hv. lia.
  - destruct e; try discriminate He; injection He as <-; apply verdict_rank in Hv; cbn in Hv; lia.
  - destruct ok; [discriminate|]. injection He as <-. apply verdict_rank in Hv. cbn in Hv. lia.
Qed.

Lemma event_answered fb l cur x e v : fan_stage x = true -> l_state l = LWaiting x -> answer e = Some v ->
  verdict v -> (forall c s m, e = OAnswerCode c s m -> takes_code c s m) ->
  answered x v l (leader_event fb l cur e).
Proof.
  intros Hx Hl He Hv Hc. unfold leader_event.
  assert (G : answered x v (tell l (LSaw e)) (leader_hear fb (tell l (LSaw e)) e)).
  { now apply hear_answered. }
  assert (G' : answered x v l (leader_hear fb (tell l (LSaw e)) e)).
  { destruct G as (A & fs & B & C). split; [exact A|]. exists (fs ++ [LSaw e]).
    rewrite B, mta_answers_app, C, <- app_assoc. auto. }
  destruct e; try exact G'. destruct ok; [discriminate He|]. injection He as <-.
  apply verdict_rank in Hv. cbn in Hv. lia.
Qed.

Lemma follow_answered fb cur es v l x : fan_stage x = true -> l_state l = LWaiting x ->
  answers es = [v] -> verdict v -> (forall c s m, In (OAnswerCode c s m) es -> takes_code c s m) ->
  answered x v l (leader_follow fb l cur (rev es)).
Proof.
  intros Hx Hl Ha Hv Hc. destruct (answers_one es v Ha) as (a & e & b & -> & A & B & C).
  rewrite rev_app_distr. cbn [rev]. unfold leader_follow. rewrite !fold_left_app.
  assert (C1 : calm l (leader_follow fb l cur (rev b))).
  { apply follow_calm. intros e' H. apply in_rev in H. exact (answers_none b B e' H). }
  unfold leader_follow in C1. set (l1 := fold_left _ (rev b) l) in *. clearbody l1.
  destruct C1 as (S1 & f1 & T1 & N1). cbn [fold_left].
  assert (S1' : l_state l1 = LWaiting x) by congruence.
  destruct (event_answered fb l1 cur x e v Hx S1' C Hv) as (S2 & f2 & T2 & N2).
  { intros c s m ->. apply Hc. apply in_app_iff. right. now left. }
  set (l2 := leader_event fb l1 cur e) in *. clearbody l2.
  assert (C3 : calm l2 (leader_follow fb l2 cur (rev a))).
  { apply follow_calm. intros e' H. apply in_rev in H. exact (answers_none a A e' H). }
  unfold leader_follow in C3. set (l3 := fold_left _ (rev a) l2) in *. clearbody l3.
  destruct C3 as (S3 & f3 & T3 & N3). split; [congruence|].
  exists (f3 ++ f2 ++ f1). rewrite T3, T2, T1, !app_assoc, !mta_answers_app, N1, N2, N3. auto.
Qed.

Lemma new_events_app w w' es : w_trace w' = es ++ w_trace w -> new_events w w' = rev es.
Proof.
  intros H. unfold new_events. rewrite H, app_length, Nat.add_sub, firstn_app, Nat.sub_diag.
  rewrite firstn_all. cbn [firstn]. now rewrite app_nil_r.
Qed.

Section Session.
  Variable writes : list event -> write_outcome.
  Variable stops : list event -> bool.
  Variable chunk_size : N.
  Variable collate_equal : bytes -> bytes -> bool.
  Hypothesis Hwrites : forall t, writes t <> Refused.
  Hypothesis Hstops : forall t, stops t = false.
  Variable d : nat.
  Variable fallback : status.
  Variable filters : list (status * bool).

  Notation Step := (children_step writes stops chunk_size collate_equal (S d)).
  Notation GStep := (manager_step writes stops chunk_size collate_equal (S d) fallback filters).

  Section Stage.
    Variables (x : sstate) (ts : list nat) (fb : nat -> status) (ev : nat -> bool) (V : nat -> status)
              (gone decl : nat -> bool) (outs : nat -> outcome).
    Hypothesis Hx : fan_stage x = true.
    Hypothesis Hts : NoDup ts.
    Hypothesis HV : forall i, In i ts -> verdict (V i).
    Hypothesis Houts : forall i, In i ts -> decl i = false ->
        match outs i with Says r => verdict_of r <> None | Fails _ => True end /\
        V i = counts (fb i) (ev i) (outs i) /\
        gone i = match outs i with Says r => lets_go x r | Fails _ => true end /\
        (forall c e m, outs i = Says (RReplyCode c e m) -> takes_code c e m).
    Notation INV w := (Inv w x ts fb ev V gone takes_code).
    Notation RES w := (Res w x ts fb ev V gone takes_code).

    Lemma inv_rebase w0 w ph vs : INV w0 w ph vs -> INV w w ph vs.
    Proof. intros HI. assert (C := inv_crashed _ _ _ _ _ _ _ _ _ _ _ HI). destruct HI. constructor; auto. now apply quiet_refl. Qed.

    Definition op_is_child (o : op) : Prop := forall c, o <> Mta c.

    (** What a step means for the leader. *)
    Lemma step_leader w l cur w' ph : l_state l = LWaiting x -> RES w w' ph ->
      let l' := leader_follow fallback l cur (new_events w w') in
      if all_done ts ph
      then exists v, strongest (map V ts) v /\ answered x v l l'
      else calm l l' /\ exists vs, INV w' w' ph vs.
    Proof.
      intros Hl R l'. unfold Res in R. destruct (all_done ts ph).
      - destruct R as [C (es & v & T & A & S & Cd) H O G]. exists v. split; [exact S|].
        unfold l'. rewrite (new_events_app w w' es T). apply follow_answered; auto.
        destruct S as [S _]. apply in_map_iff in S as (i & <- & Hi). auto.
      - destruct R as (vs & HI). split; [|exists vs; eapply inv_rebase; eauto].
        destruct (inv_quiet _ _ _ _ _ _ _ _ _ _ _ HI) as (_ & es & T & A).
        unfold l'. rewrite (new_events_app w w' es T). apply follow_calm.
        intros e He. apply in_rev in He. exact (answers_none es A e He).
    Qed.

    Definition quiet_leader (l l' : leader) : Prop := calm l l'.

    Lemma run_leader ops : forall w ph vs l, INV w w ph vs -> all_done ts ph = false ->
      l_state l = LWaiting x ->
      (forall i, In i ts -> running decl i (ph i) = true) ->
      (forall i, In i ts -> filter (of_filter i) ops = rest x outs i (ph i)) ->
      (forall o, In o ops -> exists i, op_filter o = Some i /\ In i ts) ->
      (exists v, strongest (map V ts) v /\
                 answered x v l (g_leader (fold_left GStep ops (mk_manager l (Some w))))) /\
      (forall ops1 ops2, ops = ops1 ++ ops2 -> ops2 <> [] ->
         calm l (g_leader (fold_left GStep ops1 (mk_manager l (Some w))))).
    Proof.
      induction ops as [|o ops IH]; intros w ph vs l HI Hnd Hl Hrun Hops Hin.
      - exfalso. rewrite (rest_none x ts decl outs ph Hrun) in Hnd; [discriminate|]. exact Hops.
      - destruct (Hin o (or_introl eq_refl)) as (i & Ho & Hi).
        assert (Hio := Hops i Hi). cbn [filter] in Hio. unfold of_filter at 1 in Hio.
        rewrite Ho, Nat.eqb_refl in Hio.
        destruct (next_step writes stops chunk_size collate_equal Hwrites w x Hx ts Hts fb ev V HV
                    gone takes_code d decl outs Houts w ph vs i o ops HI Hi (Hrun i Hi) Ho Hio)
          as (p & R & Hp & Hf).
        assert (Hstep : GStep (mk_manager l (Some w)) o =
          mk_manager (leader_follow fallback l None (new_events w (Step w o))) (Some (Step w o))).
        { destruct o; try discriminate Ho; reflexivity. }
        assert (SL := step_leader w l None (Step w o) (upd ph i p) Hl R). cbv zeta in SL.
        assert (Hrun' := upd_running ts decl ph i p Hrun Hp).
        assert (Hops' := upd_rest x ts outs ph i p ops o Hops Ho Hf).
        assert (Hin' : forall o', In o' ops -> exists i, op_filter o' = Some i /\ In i ts)
          by (intros o' Ho'; apply Hin; now right).
        cbn [fold_left]. rewrite Hstep.
        set (l1 := leader_follow fallback l None (new_events w (Step w o))) in *.
        destruct (all_done ts (upd ph i p)) eqn:Ed.
        + assert (E0 : ops = []).
          { destruct ops as [|o' ops']; [reflexivity|].
            destruct (Hin' o' (or_introl eq_refl)) as (j & Hj & Hjt).
            specialize (Hops' j Hjt). rewrite (all_done_true ts _ Ed j Hjt) in Hops'.
            cbn [filter rest] in Hops'. unfold of_filter in Hops' at 1. rewrite Hj, Nat.eqb_refl in Hops'.
            discriminate. }
          subst ops. split; [exact SL|]. intros [|a [|b q]] ops2 E Hne; [apply calm_refl| |];
            cbn in E; injection E as E1 E2; [congruence|discriminate].
        + destruct SL as (SL & vs' & HI'). assert (Hl1 : l_state l1 = LWaiting x)
            by (destruct SL; congruence).
          destruct (IH (Step w o) (upd ph i p) vs' l1 HI' Ed Hl1 Hrun' Hops' Hin') as ((v & S & An) & Pre).
          split.
          * exists v. split; [exact S|]. destruct An as (A1 & fs & A2 & A3). split; [exact A1|].
            destruct SL as (_ & gs & G2 & G3). exists (fs ++ gs).
            rewrite A2, G2, app_assoc, mta_answers_app, A3, G3. auto.
          * intros [|a q] ops2 E Hne; [apply calm_refl|]. cbn in E. injection E as -> ->.
            cbn [fold_left]. rewrite Hstep. eapply calm_trans; [exact SL|]. now apply (Pre q ops2).
    Qed.
  End Stage.

  Section One.
    Variables (w : world) (l : leader) (c : command) (x : sstate).
    Variables (opts : nat -> moption) (outs : nat -> outcome).
    Notation ts := (concerned_filters x w).
    Hypothesis Hc : stage_of c = Some x.
    Hypothesis Hcrash : w_crashed w = false.
    Hypothesis Hpending : f_pending (w_flow w) = None.
    Hypothesis Hexpired : n_expired (w_nego w) = false.
    Hypothesis Hne : ts <> [].
    Hypothesis Hidle : forall i, In i ts -> idle x (child_of w i) (opts i).
    Hypothesis Hfallback : forall i, In i ts -> verdict (k_fallback (child_of w i)).
    Hypothesis Hsays : forall i, In i ts -> declined x opts i = false ->
      match outs i with Says r => verdict_of r <> None | Fails _ => True end.
    Hypothesis Hcode : forall n e m, f_code (w_flow w) = Some (n, e, m) -> takes_code n e m.
    Hypothesis Hcodes : forall i n e m, In i ts -> outs i = Says (RReplyCode n e m) -> takes_code n e m.

    Lemma session_answered ops :
      interleaving (filter (fun i => negb (declined x opts i)) ts) (fun i => script x i (outs i)) ops ->
      let g := mk_manager l (Some w) in
      (exists v, strongest (map (verdict_for x w opts outs) ts) v /\
                 answered x v l (g_leader (fold_left GStep (Mta c :: ops) g))) /\
      (forall ops1 ops2, ops = ops1 ++ ops2 -> ops2 <> [] ->
         mta_answers (l_trace (g_leader (fold_left GStep (Mta c :: ops1) g))) =
         mta_answers (l_trace l)).
    Proof.
      intros [Hf Ho] g.
      destruct (mta_ok writes stops chunk_size collate_equal Hwrites Hstops d w c x opts outs takes_code Hc
                  Hcrash Hpending Hexpired Hne Hidle Hfallback Hsays Hcode Hcodes) as (v' & E & R).
      assert (ES : Step w (Mta c) = log v' (OReturn true)).
      { unfold children_step. rewrite Hcrash, E. reflexivity. }
      assert (R' := res_log w x ts (fun i => k_fallback (child_of w i)) (fun i => k_evaluation (child_of w i))
                      (verdict_for x w opts outs) (leaves_for x opts outs) takes_code v' _
                      (OReturn true) eq_refl R).
      rewrite <- ES in R'. clear E R ES v'.
      set (l0 := put_l_state l (LWaiting x)).
      assert (Hl0 : leader_enter l c = l0).
      { destruct c; try discriminate Hc; injection Hc as <-; reflexivity. }
      assert (Hstep : GStep g (Mta c) =
        mk_manager (leader_follow fallback l0 (Some c) (new_events w (Step w (Mta c)))) (Some (Step w (Mta c)))).
      { rewrite <- Hl0. destruct c; try discriminate Hc; reflexivity. }
      assert (Hfan := stage_fan c x Hc).
      assert (HVv := V_verdict w x opts outs Hfallback Hsays).
      assert (SL := step_leader x ts (fun i => k_fallback (child_of w i)) (fun i => k_evaluation (child_of w i))
                      (verdict_for x w opts outs) (leaves_for x opts outs) Hfan HVv w l0 (Some c)
                      (Step w (Mta c)) _ eq_refl R').
      cbv zeta in SL. cbn [fold_left]. rewrite Hstep.
      set (l1 := leader_follow fallback l0 (Some c) (new_events w (Step w (Mta c)))) in *.
      set (ph := fun i => if declined x opts i then Done else OnItsWay) in *.
      assert (Hrun : forall i, In i ts -> running (declined x opts) i (ph i) = true).
      { intros i Hi. unfold ph, running. destruct (declined x opts i) eqn:Ed; [reflexivity|].
        reflexivity. }
      assert (Hops : forall i, In i ts -> filter (of_filter i) ops = rest x outs i (ph i)).
      { intros i Hi. unfold ph. destruct (declined x opts i) eqn:Ed.
        + cbn [rest].
          assert (L : forall l, (forall o, In o l -> In o ops) -> filter (of_filter i) l = []).
          { induction l2 as [|o l2 IH]; intros Hl; [reflexivity|]. cbn [filter].
            destruct (Ho o (Hl o (or_introl eq_refl))) as (j & Hj & Hjt).
            apply filter_In in Hjt as (_ & Hjd).
            unfold of_filter. rewrite Hj.
            destruct (Nat.eqb_spec i j) as [->|Hn]; [rewrite Ed in Hjd; discriminate|].
            apply IH. intros o' Ho'. apply Hl. now right. }
          apply L. auto.
        + cbn [rest]. apply Hf. apply filter_In. rewrite Ed. auto. }
      assert (Hin : forall o, In o ops -> exists i, op_filter o = Some i /\ In i ts).
      { intros o Hio. destruct (Ho o Hio) as (j & Hj & Hjt). apply filter_In in Hjt as (Hjt & _). eauto. }
      assert (Base : forall v l', answered x v l0 l' -> answered x v l l') by (intros v l' A; exact A).
      destruct (all_done ts ph) eqn:Ed.
      - assert (E0 : ops = []).
        { destruct ops as [|o' ops']; [reflexivity|].
          destruct (Hin o' (or_introl eq_refl)) as (j & Hj & Hjt).
          specialize (Hops j Hjt). rewrite (all_done_true ts _ Ed j Hjt) in Hops.
          cbn [filter rest] in Hops. unfold of_filter in Hops at 1. rewrite Hj, Nat.eqb_refl in Hops.
          discriminate. }
        subst ops. split; [exact SL|]. intros [|a q] ops2 E Hne2; [cbn in E; congruence|discriminate].
      - destruct SL as (SL & vs & HI).
        assert (Hl1 : l_state l1 = LWaiting x) by exact (proj1 SL).
        destruct (run_leader x ts (fun i => k_fallback (child_of w i)) (fun i => k_evaluation (child_of w i))
                    (verdict_for x w opts outs) (leaves_for x opts outs) (declined x opts) outs Hfan
                    (concerned_nodup x w) HVv) with (ops := ops) (w := Step w (Mta c)) (ph := ph) (vs := vs) (l := l1)
          as ((v & S & An) & Pre); auto.
        { intros i Hi Hd. split; [now apply Hsays|]. unfold verdict_for, leaves_for. rewrite Hd.
          split; [reflexivity|]. split; [reflexivity|]. intros n e m. now apply Hcodes. }
        split.
        + exists v. split; [exact S|]. destruct An as (A1 & fs & A2 & A3). split; [exact A1|].
          destruct SL as (_ & gs & G2 & G3). exists (fs ++ gs).
          rewrite A2, G2, app_assoc, mta_answers_app, A3, G3. auto.
        + intros ops1 ops2 E Hne2. destruct (Pre ops1 ops2 E Hne2) as (_ & fs & T & N').
          destruct SL as (_ & gs & G2 & G3).
          rewrite T, mta_answers_app, N', G2, mta_answers_app, G3. reflexivity.
    Qed.
  End One.
End Session.

(** *** No more responses than commands *)
Definition waiting_for (x : sstate) (s : lstate) : nat :=
  match s with LWaiting y => if sstate_eqb x y then 1 else 0 | _ => 0 end.
Definition owed (x : sstate) (l : leader) : nat := responses x (l_trace l) + waiting_for x (l_state l).

Lemma responses_cons x e t : responses x (e :: t) =
  ((match e with LResponse y _ => if sstate_eqb x y then 1 else 0 | _ => 0 end) + responses x t)%nat.
Proof. unfold responses. cbn [filter]. destruct e; try reflexivity. destruct (sstate_eqb x x0); reflexivity. Qed.

Lemma owed_tell x l e : (forall y s, e <> LResponse y s) -> owed x (tell l e) = owed x l.
Proof.
  intros H. unfold owed. cbn [tell l_trace l_state]. rewrite responses_cons.
  destruct e; try reflexivity. now destruct (H x0 s).
Qed.

Definition counted_stage (x : sstate) : bool :=
  match x with XBody | XEndOfMessage => false | _ => true end.

Lemma owed_reply x l s : counted_stage x = true -> (owed x (leader_reply l s) <= owed x l)%nat.
Proof.
  intros Hx. unfold leader_reply. destruct (response_stage (l_state l)) as [y|] eqn:E.
  2: { rewrite owed_tell; [lia|discriminate]. }
  unfold owed. cbn [put_l_state tell l_trace l_state]. rewrite responses_cons.
  unfold next_lstate. cbn [tell l_state l_sent].
  destruct (l_state l) as [|z|z|]; try discriminate E; cbn [response_stage] in E.
  - injection E as <-. destruct z, x; try discriminate Hx; cbn; try lia; destruct (l_sent l); cbn; lia.
  - destruct z; try discriminate E. injection E as <-.
    destruct x; try discriminate Hx; cbn; destruct (l_sent l); cbn; lia.
Qed.

Lemma owed_hear x fb l e : counted_stage x = true -> (owed x (leader_hear fb l e) <= owed x l)%nat.
Proof.
  intros Hx. destruct e; cbn [leader_hear]; try lia;
    try (rewrite !owed_tell by discriminate; lia); try (apply owed_reply; exact Hx).
  - destruct (set_reply _ _ _ _) as [[] r]; cbn [fst snd].
    + etransitivity; [apply owed_reply; exact Hx|]. apply Nat.le_refl.
    + rewrite owed_tell by discriminate. apply Nat.le_refl.
  - destruct e; try lia; apply owed_reply; exact Hx.
Qed.

Lemma owed_event x fb l cur e : counted_stage x = true ->
  (owed x (leader_event fb l cur e) <= owed x l)%nat.
Proof.
  intros Hx. unfold leader_event.
  assert (H : owed x (tell l (LSaw e)) = owed x l) by (apply owed_tell; discriminate).
  assert (G : (owed x (leader_hear fb (tell l (LSaw e)) e) <= owed x l)%nat)
    by (rewrite <- H; apply owed_hear; exact Hx).
  destruct e; try exact G. destruct cur as [c|]; [|exact G].
  unfold leader_leave. destruct c; rewrite ?owed_tell by discriminate; lia.
Qed.

Lemma owed_follow x fb cur es : forall l, counted_stage x = true ->
  (owed x (leader_follow fb l cur es) <= owed x l)%nat.
Proof.
  induction es as [|e es IH]; intros l Hx; cbn [leader_follow fold_left]; [lia|].
  etransitivity; [apply IH; exact Hx|]. apply owed_event. exact Hx.
Qed.

Lemma times_asked_cons x o ops : times_asked x (o :: ops) =
  ((match requested_stage o with Some y => if sstate_eqb x y then 1 else 0 | None => 0 end)
   + times_asked x ops)%nat.
Proof.
  unfold times_asked. cbn [filter]. destruct (requested_stage o) as [y|]; [|reflexivity].
  destruct (sstate_eqb x y); reflexivity.
Qed.

Lemma owed_enter x l c : counted_stage x = true ->
  (owed x (leader_enter l c) <= owed x l +
     match requested_stage (Mta c) with Some y => if sstate_eqb x y then 1 else 0 | None => 0 end)%nat.
Proof.
  intros Hx. unfold leader_enter.
  destruct c; cbn [command_stage requested_stage]; try destruct (is_replied (l_state l));
    unfold owed; cbn [put_l_state put_l_sent l_state l_trace waiting_for];
    destruct x; try discriminate Hx; cbn; lia.
Qed.

Section Counting.
  Variable writes : list event -> write_outcome.
  Variable stops : list event -> bool.
  Variable chunk_size : N.
  Variable collate_equal : bytes -> bytes -> bool.
  Variable depth : nat.
  Variable fallback : status.
  Variable filters : list (status * bool).
  Notation step := (manager_step writes stops chunk_size collate_equal depth fallback filters).

  Lemma owed_step x g o : counted_stage x = true ->
    (owed x (g_leader (step g o)) <= owed x (g_leader g) +
       match requested_stage o with Some y => if sstate_eqb x y then 1 else 0 | None => 0 end)%nat.
  Proof.
    intros Hx. unfold manager_step.
    set (l := match o with Mta c => leader_enter (g_leader g) c | _ => g_leader g end).
    assert (L : (owed x l <= owed x (g_leader g) +
       match requested_stage o with Some y => if sstate_eqb x y then 1 else 0 | None => 0 end)%nat).
    { subst l. destruct o; try (cbn [requested_stage]; lia). apply owed_enter. exact Hx. }
    set (children := match o with Mta (CNegotiate _) => _ | _ => _ end).
    destruct children as [w|].
    - cbn [g_leader]. etransitivity; [apply owed_follow; exact Hx|exact L].
    - cbn [g_leader]. destruct o; try exact L. destruct c; rewrite ?owed_tell by discriminate; exact L.
  Qed.

  Lemma owed_run x ops : forall g, counted_stage x = true ->
    (owed x (g_leader (fold_left step ops g)) <= owed x (g_leader g) + times_asked x ops)%nat.
  Proof.
    induction ops as [|o ops IH]; intros g Hx; cbn [fold_left]; [lia|].
    rewrite times_asked_cons. pose proof (IH (step g o) Hx). pose proof (owed_step x g o Hx). lia.
  Qed.
End Counting.

(** *** Nothing answers the end of a message before it is announced *)
Definition eom_ok (n : nat) (l : leader) : Prop :=
  l_sent l = false /\ (owed XEndOfMessage l <= n)%nat.

Lemma eom_tell n l e : (forall y s, e <> LResponse y s) -> eom_ok n l -> eom_ok n (tell l e).
Proof. intros H (A & B). split; [exact A|]. now rewrite owed_tell. Qed.

Lemma eom_reply n l s : eom_ok n l -> eom_ok n (leader_reply l s).
Proof.
  intros (A & B). unfold leader_reply. destruct (response_stage (l_state l)) as [y|] eqn:E.
  2: { apply eom_tell; [discriminate|]. now split. }
  split; [exact A|]. revert B.
  unfold owed. cbn [put_l_state tell l_trace l_state]. rewrite responses_cons.
  unfold next_lstate. cbn [tell l_state l_sent]. rewrite A.
  destruct (l_state l) as [|z|z|]; try discriminate E; cbn [response_stage] in E.
  - injection E as <-. destruct z; cbn; lia.
  - destruct z; try discriminate E. injection E as <-. cbn. lia.
Qed.

Lemma eom_hear n fb l e : eom_ok n l -> eom_ok n (leader_hear fb l e).
Proof.
  intros H. destruct e; cbn [leader_hear]; try exact H; try (apply eom_reply; exact H);
    try (apply eom_tell; [discriminate|]; exact H).
  - destruct (set_reply _ _ _ _) as [[] r].
    + apply eom_reply. exact H.
    + apply eom_tell; [discriminate|]. exact H.
  - destruct e; try exact H; now apply eom_reply.
Qed.

Lemma eom_event n fb l cur e : eom_ok n l -> eom_ok n (leader_event fb l cur e).
Proof.
  intros H. unfold leader_event.
  assert (G : eom_ok n (tell l (LSaw e))) by (apply eom_tell; [discriminate|exact H]).
  assert (G' := eom_hear n fb _ e G).
  destruct e; try exact G'. destruct cur as [c|]; [|exact G'].
  unfold leader_leave. destruct c; try exact G; (apply eom_tell; [discriminate|exact G]).
Qed.

Lemma eom_follow n fb cur es : forall l, eom_ok n l -> eom_ok n (leader_follow fb l cur es).
Proof.
  induction es as [|e es IH]; intros l H; cbn [leader_follow fold_left]; [exact H|].
  apply IH. now apply eom_event.
Qed.

Lemma eom_enter n l c : waiting (l_state l) = false \/ (forall b, c <> CEndOfMessage b) -> eom_ok n l ->
  eom_ok (n + match requested_stage (Mta c) with
              | Some y => if sstate_eqb XEndOfMessage y then 1 else 0 | None => 0 end) (leader_enter l c).
Proof.
  intros Hw (A & B). unfold leader_enter.
  destruct c; cbn [command_stage requested_stage sstate_eqb];
    unfold eom_ok, owed in *; cbn [put_l_state put_l_sent l_state l_trace l_sent waiting_for sstate_eqb];
    try (split; [exact A|lia]).
  assert (W : is_replied (l_state l) = true).
  { destruct Hw as [Hw|Hw]; [|exfalso; eapply Hw; reflexivity]. destruct (l_state l); try reflexivity. discriminate Hw. }
  rewrite W. split; [exact A|]. cbn [put_l_state l_state l_trace waiting_for sstate_eqb]. lia.
Qed.

(** *** Changes are passed on one by one *)
Definition passing (l : leader) : Prop := passed_changes (l_trace l) = wanted_changes (l_trace l).

Lemma passing_tell l e : (forall e', e <> LPass e') ->
  (forall e', e = LSaw e' -> modification e' = false) -> passing l -> passing (tell l e).
Proof.
  intros H1 H2 H. unfold passing. cbn [tell l_trace passed_changes wanted_changes flat_map].
  destruct e; try exact H.
  - rewrite (H2 _ eq_refl). exact H.
  - now elim (H1 e).
Qed.
Lemma passing_reply l s : passing l -> passing (leader_reply l s).
Proof.
  intros H. unfold leader_reply. destruct (response_stage _).
  - change (passing (tell l (LResponse s0 s))). now apply passing_tell.
  - now apply passing_tell.
Qed.
Lemma passing_event fb l cur e : passing l -> passing (leader_event fb l cur e).
Proof.
  intros H. destruct (modification e) eqn:M.
  - unfold leader_event. destruct e; try discriminate M; destruct cur;
      cbn [leader_hear]; unfold passing;
      cbn [tell l_trace passed_changes wanted_changes flat_map modification app];
      f_equal; exact H.
  - assert (G : passing (tell l (LSaw e))).
    { apply passing_tell; [discriminate| |exact H]. now intros e' [= <-]. }
    unfold leader_event. set (l1 := tell l (LSaw e)) in *. clearbody l1.
    assert (G' : passing (leader_hear fb l1 e)).
    { destruct e; try discriminate M; cbn [leader_hear]; try exact G; try (now apply passing_reply);
        try (now apply passing_tell).
      - destruct (set_reply _ _ _ _) as [[] r]; [now apply passing_reply|now apply passing_tell].
      - destruct e; try exact G; now apply passing_reply. }
    destruct e; try exact G'. destruct cur as [c|]; [|exact G'].
    unfold leader_leave. destruct c; try exact G; (now apply passing_tell).
Qed.
Lemma passing_follow fb cur es : forall l, passing l -> passing (leader_follow fb l cur es).
Proof.
  induction es as [|e es IH]; intros l H; cbn [leader_follow fold_left]; [exact H|].
  apply IH. now apply passing_event.
Qed.

Lemma follow_own fb i cur es : (forall c, cur <> Some c) -> Forall (own i) es -> forall l,
  leader_follow fb l cur es = mk_leader (l_state l) (l_sent l) (l_reply l) (map LSaw (rev es) ++ l_trace l).
Proof.
  intros Hc F. induction F as [|e es He _ IH]; intros l; cbn [leader_follow fold_left].
  - destruct l; reflexivity.
  - unfold leader_follow in IH. rewrite IH.
    assert (E : leader_event fb l cur e = tell l (LSaw e)).
    { unfold leader_event. destruct e; try contradiction He; reflexivity. }
    rewrite E. cbn [tell l_state l_sent l_reply l_trace rev]. rewrite map_app, <- app_assoc. reflexivity.
Qed.

Section Runs.
  Variable writes : list event -> write_outcome.
  Variable stops : list event -> bool.
  Variable chunk_size : N.
  Variable collate_equal : bytes -> bytes -> bool.
  Variable depth : nat.
  Variable fallback : status.
  Variable filters : list (status * bool).
  Notation step := (manager_step writes stops chunk_size collate_equal depth fallback filters).
  Notation run := (manager_run writes stops chunk_size collate_equal depth fallback filters).

  Lemma passing_step g o : passing (g_leader g) -> passing (g_leader (step g o)).
  Proof.
    intros H. unfold manager_step.
    set (l := match o with Mta c => leader_enter (g_leader g) c | _ => g_leader g end).
    assert (L : passing l).
    { subst l. destruct o; try exact H. unfold leader_enter.
      destruct (command_stage c) as [[]|]; try exact H; destruct (is_replied _); exact H. }
    destruct (match o with Mta (CNegotiate _) => _ | _ => _ end) as [w|]; cbn [g_leader].
    - now apply passing_follow.
    - destruct o; try exact L. destruct c; try exact L; now apply passing_tell.
  Qed.
  Lemma passing_run ops : forall g, passing (g_leader g) -> passing (g_leader (run g ops)).
  Proof.
    induction ops as [|o ops IH]; intros g H; [exact H|]. cbn [manager_run fold_left].
    apply IH. now apply passing_step.
  Qed.

  Lemma eom_step n g o :
    (forall b, o = Mta (CEndOfMessage b) -> waiting (l_state (g_leader g)) = false) ->
    eom_ok n (g_leader g) ->
    eom_ok (n + match requested_stage o with
                | Some y => if sstate_eqb XEndOfMessage y then 1 else 0 | None => 0 end)
           (g_leader (step g o)).
  Proof.
    intros Hw H. unfold manager_step.
    set (l := match o with Mta c => leader_enter (g_leader g) c | _ => g_leader g end).
    set (n' := (n + _)%nat).
    assert (L : eom_ok n' l).
    { subst l n'. destruct o; try (cbn [requested_stage]; rewrite Nat.add_0_r; exact H).
      apply eom_enter; [|exact H].
      destruct c; try (right; discriminate). left. exact (Hw _ eq_refl). }
    destruct (match o with Mta (CNegotiate _) => _ | _ => _ end) as [w|]; cbn [g_leader].
    - now apply eom_follow.
    - destruct o; try exact L. destruct c; try exact L; (apply eom_tell; [discriminate|exact L]).
  Qed.
  Lemma eom_run ops : forall n g,
    (forall ops1 b ops2, ops = ops1 ++ Mta (CEndOfMessage b) :: ops2 ->
       waiting (l_state (g_leader (run g ops1))) = false) ->
    eom_ok n (g_leader g) ->
    eom_ok (n + times_asked XEndOfMessage ops) (g_leader (run g ops)).
  Proof.
    induction ops as [|o ops IH]; intros n g Hw H.
    - cbn. now rewrite Nat.add_0_r.
    - rewrite times_asked_cons, Nat.add_assoc. cbn [manager_run fold_left]. apply IH.
      + intros ops1 b ops2 E. apply (Hw (o :: ops1) b ops2). cbn. now rewrite E.
      + apply eom_step; [|exact H]. intros b E. apply (Hw [] b ops). now rewrite E.
  Qed.

  Lemma children_of_run ops : forall l w, (forall o, In o ops -> forall v, o <> Mta (CNegotiate v)) ->
    g_children (run (mk_manager l (Some w)) ops) =
    Some (children_run writes stops chunk_size collate_equal depth w ops).
  Proof.
    induction ops as [|o ops IH]; intros l w H; [reflexivity|]. cbn [manager_run fold_left children_run].
    assert (E : step (mk_manager l (Some w)) o =
      mk_manager (g_leader (step (mk_manager l (Some w)) o))
                 (Some (children_step writes stops chunk_size collate_equal depth w o))).
    { unfold manager_step at 1 2. cbn [g_children g_leader].
      destruct o as [c| | | | | | |]; try reflexivity. destruct c; try reflexivity.
      exfalso; eapply (H _ (or_introl eq_refl)); reflexivity. }
    rewrite E. apply IH. intros o' Ho'. apply H. now right.
  Qed.
End Runs.

Section Out.
  Variable writes : list event -> write_outcome.
  Variable stops : list event -> bool.
  Variable chunk_size : N.
  Variable collate_equal : bytes -> bytes -> bool.
  Variable d : nat.
  Variable fallback : status.
  Variable filters : list (status * bool).
  Notation run := (manager_run writes stops chunk_size collate_equal (S d) fallback filters).

  Lemma manager_out i ops : forall l w, out_for_good (child_of w i) ->
    (forall o, In o ops -> op_filter o = Some i) ->
    exists es w',
      run (mk_manager l (Some w)) ops =
        mk_manager (mk_leader (l_state l) (l_sent l) (l_reply l) (map LSaw es ++ l_trace l)) (Some w') /\
      Forall (own i) es /\ aside i w w'.
  Proof.
    induction ops as [|o ops IH]; intros l w Hw Ho.
    - exists [], w. split; [destruct l; reflexivity|]. split; [constructor|]. now apply aside_refl.
    - assert (A := step_out writes stops chunk_size collate_equal d i w o Hw (Ho o (or_introl eq_refl))).
      cbn [manager_run fold_left].
      assert (E : manager_step writes stops chunk_size collate_equal (S d) fallback filters
                    (mk_manager l (Some w)) o =
        let w' := children_step writes stops chunk_size collate_equal (S d) w o in
        mk_manager (leader_follow fallback l None (new_events w w')) (Some w')).
      { specialize (Ho o (or_introl eq_refl)). destruct o; try discriminate Ho; reflexivity. }
      rewrite E. cbv zeta. set (w1 := children_step _ _ _ _ _ w o) in *. clearbody w1.
      destruct A as [(es & T & F) A2 A3 A4 A5 A6] eqn:EA. rewrite (new_events_app w w1 es T).
      rewrite (follow_own fallback i) by (try discriminate; now apply Forall_rev).
      rewrite rev_involutive.
      destruct (IH (mk_leader (l_state l) (l_sent l) (l_reply l) (map LSaw es ++ l_trace l)) w1 A6)
        as (es' & w' & R & F' & A').
      { intros o' H. apply Ho. now right. }
      exists (es' ++ es), w'. unfold manager_run in R. rewrite R. cbn [l_state l_sent l_reply l_trace].
      split; [now rewrite map_app, <- app_assoc|]. split; [apply Forall_app; auto|].
      eapply aside_trans; [|exact A']. constructor; eauto.
  Qed.
End Out.
