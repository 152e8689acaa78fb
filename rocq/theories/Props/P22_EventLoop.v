(** C78-C80: the event loop. *)
From Verif.Base Require Import Bytes.
From Verif.Model Require Import EventLoop.
From Verif.Spec Require Import EventLoopSpec.
From Verif.Proofs Require Import EventLoopProofs.
Local Open Scope Z_scope.

(** ** C78: every source has an ID of its own, is called only between its addition and its destruction,
    and its data is released exactly once. *)
Theorem C78_ids es l tr k l' o :
  steps loop_new es = Some (l, tr) -> (N.of_nat (length (there tr)) < 4294967295)%N -> step l (Add true k) = Some (l', o) ->
  exists n id, o = [Added n id k] /\ (0 < id < 4294967296)%N /\ life n tr = [] /\ forall s, In s (there tr) -> snd (fst s) <> id.
Proof.
  intros H B S. destruct (sources_hold _ _ _ H) as (T & E & L). rewrite E, map_length in B. unfold step in S.
  destruct (l_dead l); [discriminate|]. destruct (in_program (l_stack l)); [|discriminate].
  assert (C : Some (add_watcher k l) = Some (l', o)) by (destruct k; exact S). unfold add_watcher in C.
  destruct (next_id (Datatypes.S (Datatypes.S (length (l_watchers l)))) (l_id l) (l_watchers l)) as [id|] eqn:X.
  - injection C as <- <-. exists (l_added l), id. destruct (next_id_sound _ _ _ _ X) as (X1 & X2).
    split; [reflexivity|]. split; [unfold two32 in *; lia|]. split.
    + apply (L (l_added l)). lia.
    + intros s I. rewrite E in I. apply in_map_iff in I. destruct I as (w & <- & W). cbn. exact (X2 _ W).
  - exfalso. revert X. apply next_id_complete. unfold two32. lia.
Qed.
Print Assumptions C78_ids.

Theorem C78_life es l tr : steps loop_new es = Some (l, tr) ->
  (forall n, proper n (life n tr)) /\
  forall n, (exists id k, In (n, id, k) (there tr)) <-> life n tr <> [] /\ ~ In (Destroyed n) tr.
Proof.
  intros H. destruct (sources_hold _ _ _ H) as (T & E & L).
  assert (D : forall n, In (Destroyed n) tr <-> In (Destroyed n) (life n tr)).
  { intros n. unfold life. rewrite filter_In. cbn [about]. rewrite Nat.eqb_refl. tauto. }
  assert (C : forall n calls, calls_of n calls -> ~ In (Destroyed n) calls).
  { intros n calls Q I. unfold calls_of in Q. rewrite Forall_forall in Q. destruct (Q _ I) as (c & X). discriminate. }
  assert (A : forall n, In n (map w_serial (l_watchers l)) \/ ~ In n (map w_serial (l_watchers l))) by (intros n; destruct (in_dec Nat.eq_dec n (map w_serial (l_watchers l))); auto).
  split; intros n; destruct (L n) as (L1 & L2 & L3).
  - destruct (Nat.le_gt_cases (l_added l) n) as [Q|Q]; [rewrite (L1 Q); constructor|].
    destruct (A n) as [I|I].
    + destruct (L2 I) as (id & k & calls & X & ->). constructor. exact X.
    + destruct (L3 Q I) as (id & k & calls & X & ->). apply P_gone. exact X.
  - rewrite D, E. split.
    + intros (id & k & I). apply in_map_iff in I. destruct I as (w & X & W). unfold seen in X. injection X as X1 X2 X3.
      destruct L2 as (id' & k' & calls & Q & ->); [rewrite <- X1; exact (in_map w_serial _ _ W)|]. split; [discriminate|].
      intros [Y|Y]; [discriminate|exact (C _ _ Q Y)].
    + intros [N X]. destruct (A n) as [I|I].
      * apply in_map_iff in I. destruct I as (w & <- & W). exists (w_id w), (w_kind w). exact (in_map seen _ _ W).
      * destruct (Nat.le_gt_cases (l_added l) n) as [Q|Q]; [contradiction (N (L1 Q))|].
        destruct (L3 Q I) as (id & k & calls & Y & Z). exfalso. apply X. rewrite Z. right. apply in_app_iff. right. left. reflexivity.
Qed.
Print Assumptions C78_life.

(** A channel that has no descriptor gets no source, whatever is watched for; the loop is as before. *)
Theorem C78_refused l c l' o : step l (Add false (Io c)) = Some (l', o) -> l' = l /\ o = [Refused].
Proof. unfold step. destruct (l_dead l); [discriminate|]. destruct (in_program (l_stack l)); [|discriminate]. intros S. injection S as <- <-. auto. Qed.
Print Assumptions C78_refused.
Example C78_refused_example : exists l, step loop_new (Add false (Io 1)) = Some (l, [Refused]).
Proof. eexists. reflexivity. Qed.

(** Removing: the source is destroyed if there is one, and it is said whether; a callback that returns
    FALSE and a child that ended destroy their source; disposing of the loop destroys all. *)
Theorem C78_removal es l tr : steps loop_new es = Some (l, tr) ->
  (forall id l' o, step l (Remove id) = Some (l', o) ->
     (exists n k, In (n, id, k) (there tr) /\ o = [Removed id true; Destroyed n]) \/
     ((forall n k, ~ In (n, id, k) (there tr)) /\ o = [Removed id false])) /\
  (forall b l' n o, step l (Return b) = Some (l', Returned n b :: o) ->
     forall id k, In (n, id, k) (there tr) -> b = false \/ k = Child -> o = [Destroyed n]) /\
  (forall l' o n id k, step l Dispose = Some (l', o) -> In (n, id, k) (there tr) -> In (Destroyed n) o).
Proof.
  intros H. destruct (sources_hold _ _ _ H) as (T & E & L). pose proof (kinds_hold _ _ _ H) as K. destruct T as (T1 & T2 & _).
  rewrite E. split; [|split].
  - intros id l' o S. unfold step in S. destruct (l_dead l); [discriminate|]. destruct (in_program (l_stack l)); [|discriminate].
    unfold remove_watcher in S. destruct (find_watcher id (l_watchers l)) as [w|] eqn:F; injection S as <- <-.
    + left. destruct (find_watcher_some _ _ _ F) as [W <-]. exists (w_serial w), (w_kind w). split; [exact (in_map seen _ _ W)|reflexivity].
    + right. split; [|reflexivity]. intros n k I. apply in_map_iff in I. destruct I as (w & X & W). unfold seen in X. injection X as X1 X2 X3.
      exact (find_watcher_none _ _ F w W X2).
  - intros b l' n o S id k I C. unfold step in S. destruct (l_dead l); [discriminate|].
    destruct (l_stack l) as [|[id' m k'| | |] s] eqn:ST; try discriminate. cbv zeta in S.
    apply in_map_iff in I. destruct I as (w & X & W). unfold seen in X. injection X as X1 X2 X3.
    assert (M : m = n).
    { destruct (match k' with Child => true | _ => negb b end).
      - destruct (remove_watcher id' (with_stack l s)) as [[l1 o1] f]. injection S as _ S _. exact S.
      - injection S as _ S _. exact S. }
    subst m. destruct (K id' n k' w) as [K1 K2]; [rewrite ST; left; reflexivity|exact W|exact X1|].
    assert (G : match k' with Child => true | _ => negb b end = true).
    { destruct C as [->|C]; [destruct k'; reflexivity|]. replace k' with Child by congruence. reflexivity. }
    rewrite G in S. unfold remove_watcher in S. cbn [with_stack l_watchers] in S.
    destruct (find_watcher id' (l_watchers l)) as [y|] eqn:F; [|exfalso; exact (find_watcher_none _ _ F w W K2)].
    injection S as _ S. rewrite <- S. destruct (find_watcher_some _ _ _ F) as [Y YI].
    assert (Q : y = w); [|rewrite Q, X1; reflexivity].
    assert (Z : forall (ws : list watcher), NoDup (map w_id ws) -> In y ws -> In w ws -> w_id y = w_id w -> y = w).
    { clear. induction ws as [|x ws IH]; intros D A B Q; [destruct A|]. cbn in D. apply NoDup_cons_iff in D. destruct D as [D1 D2].
      destruct A as [->|A], B as [B|B]; [congruence| | |auto].
      - exfalso. apply D1. rewrite Q. exact (in_map w_id _ _ B).
      - subst x. exfalso. apply D1. rewrite <- Q. exact (in_map w_id _ _ A). }
    apply (Z (l_watchers l)); congruence.
  - intros l' o n id k S I. unfold step in S. destruct (l_dead l); [discriminate|]. destruct (l_stack l); [|discriminate]. injection S as <- <-.
    apply in_map_iff in I. destruct I as (w & X & W). unfold seen in X. injection X as <- _ _. apply (in_map (fun w => Destroyed (w_serial w)) _ _ W).
Qed.
Print Assumptions C78_removal.

(** Nothing else destroys a source, as long as fewer than 2^32 sources were added.  Left out: histories
    with more, where it is not so (below). *)
Theorem C78_stays_partial es l tr e l' o n :
  steps loop_new es = Some (l, tr) -> (N.of_nat (length (filter is_added tr)) < 4294967296)%N ->
  step l e = Some (l', o) -> In (Destroyed n) o ->
  exists id k, In (n, id, k) (there tr) /\
    (e = Remove id \/ (exists b, e = Return b /\ In (Returned n b) o /\ (b = false \/ k = Child)) \/ e = Dispose).
Proof.
  intros H B S I. rewrite (added_counts _ _ _ H) in B. exact (gone_because _ _ _ _ _ _ _ B H S I).
Qed.
Print Assumptions C78_stays_partial.

Example C78_example : exists l tr,
  steps loop_new [Add true (Io 1); Add true (Timer false); Iterate; Ready 0 1; Remove 2; Return true; Return false; Return true; Leave; Remove 2] = Some (l, tr) /\
  tr = [Added 0 1 (Io 1); Added 1 2 (Timer false); Called 0 1; Removed 2 true; Destroyed 1; Returned 0 false; Destroyed 0; Iterated true; Removed 2 false] /\
  there tr = [].
Proof. eexists _, _. split; [vm_compute; reflexivity|]. split; reflexivity. Qed.

(** A callback removes its own source, an ID later is taken again, and then the callback returns FALSE:
    the other source goes. *)
Theorem C78_stays_refuted : exists es l tr l' o n id k,
  steps loop_new es = Some (l, tr) /\ step l (Return false) = Some (l', o) /\ In (n, id, k) (there tr) /\
  In (Destroyed n) o /\ ~ In (Returned n false) o /\ ~ In (Destroyed n) tr.
Proof.
  destruct (around (N.to_nat 4294967294) 1 ltac:(lia) ltac:(unfold two32; lia) 1%nat 1%N 0%N [Callback 1 0 Idle; Iterating] eq_refl) as (es & tr & E & _).
  rewrite N2Nat.id in E. change (1 + 4294967294)%N with 4294967295%N in E. remember (1 + N.to_nat 4294967294)%nat as added eqn:AD.
  set (pre := [Add true Idle; Iterate; Ready 0 0; Remove 1; Return true]).
  assert (P : exists tr0, steps loop_new pre = Some (mk_loop 1 [] 1 1 0 [Callback 1 0 Idle; Iterating] false, tr0)) by (eexists; vm_compute; reflexivity).
  destruct P as (tr0 & P).
  assert (H : steps loop_new ((pre ++ es) ++ [Add true Idle]) =
    Some (mk_loop 1 [mk_watcher 1 added Idle true] (Datatypes.S added) 1 0 [Callback 1 0 Idle; Iterating] false, (tr0 ++ tr) ++ [Added added 1 Idle])).
  { rewrite !steps_app, P, E. reflexivity. }
  exists ((pre ++ es) ++ [Add true Idle]). eexists _, _, _, _, added, 1%N, Idle. split; [exact H|]. split; [reflexivity|].
  destruct (sources_hold _ _ _ H) as (_ & T & _). split; [rewrite T; left; reflexivity|]. split; [right; left; reflexivity|]. split.
  - intros [X|[X|[]]]; [injection X as X; lia|discriminate].
  - apply (proj2 (C78_life _ _ _ H) added). exists 1%N, Idle. rewrite T. left. reflexivity.
Qed.
Print Assumptions C78_stays_refuted.

(** ** C79: a watched channel that is ready is reported with the conditions it is ready for. *)
Theorem C79_conditions es l tr n r l' o :
  steps loop_new es = Some (l, tr) -> step l (Ready n r) = Some (l', o) ->
  exists id k c, In (n, id, k) (there tr) /\ o = [Called n c] /\
    match k with
    | Io asked => has c G_IO_IN = has r EV_READ /\ has c G_IO_OUT = has r EV_WRITE /\
                  (has c G_IO_IN = true -> has asked (Z.lor G_IO_IN G_IO_PRI) = true) /\
                  (has c G_IO_OUT = true -> has asked G_IO_OUT = true)
    | _ => c = 0
    end.
Proof.
  intros H S. destruct (sources_hold _ _ _ H) as (_ & E & _). destruct (ready_called _ _ _ _ _ S) as (w & c & W & <- & -> & K).
  exists (w_id w), (w_kind w), c. rewrite E. split; [exact (in_map seen _ _ W)|]. split; [reflexivity|]. destruct (w_kind w); tauto.
Qed.
Print Assumptions C79_conditions.

(** A source that is there is called whenever it is ready.  Left out: timers of interval 0 (below) and
    channels whose descriptor was closed behind the loop's back. *)
Theorem C79_again_partial es l tr n id k r :
  steps loop_new es = Some (l, tr) -> In (n, id, k) (there tr) -> k <> Timer true -> ~ In (Broken n) es ->
  step l Leave <> None ->
  match k with
  | Io asked => r = EV_READ /\ (has asked G_IO_IN = true \/ has asked G_IO_PRI = true) \/ r = EV_WRITE /\ has asked G_IO_OUT = true
  | _ => True
  end ->
  exists l' c, step l (Ready n r) = Some (l', [Called n c]).
Proof.
  intros H I K B P R. apply (ready_again _ _ _ _ _ _ r H I K B P). destruct k as [asked| | |]; try exact Logic.I.
  rewrite events_of_cases. destruct R as [[-> R]|[-> R]].
  - assert (Q : has asked (Z.lor G_IO_IN G_IO_PRI) = true).
    { unfold has in *. apply negb_true_iff, Z.eqb_neq. intros Z. rewrite Z.land_lor_distr_r in Z. apply Z.lor_eq_0_iff in Z. destruct Z as [Z1 Z2].
      rewrite Z1, Z2 in R. destruct R; discriminate. }
    rewrite Q. destruct (has asked G_IO_OUT); reflexivity.
  - rewrite R. destruct (has asked (Z.lor G_IO_IN G_IO_PRI)); reflexivity.
Qed.
Print Assumptions C79_again_partial.

Example C79_example : exists l tr,
  steps loop_new [Add true (Io 5); Add true Idle; Iterate; Ready 0 3; Return true; Ready 1 0; Return true; Ready 0 2; Return true; Leave] = Some (l, tr) /\
  filter is_call tr = [Called 0 5; Called 1 0; Called 0 4].
Proof. eexists _, _. split; [vm_compute; reflexivity|reflexivity]. Qed.

(** Errors and hangups are never reported, and whoever asks for them alone is never called unless the
    descriptor was closed, and then is told that it can read and write. *)
Theorem C79_errors_refuted :
  (forall es l tr n c, steps loop_new es = Some (l, tr) -> In (Called n c) tr -> has c (Z.lor G_IO_ERR (Z.lor G_IO_HUP G_IO_NVAL)) = false) /\
  (forall es l tr n id asked r, steps loop_new es = Some (l, tr) -> In (n, id, Io asked) (there tr) ->
     has asked (Z.lor G_IO_IN (Z.lor G_IO_PRI G_IO_OUT)) = false -> step l (Ready n r) = None) /\
  (exists es l tr, steps loop_new es = Some (l, tr) /\ In (Added 0 1 (Io G_IO_HUP)) tr /\ In (Called 0 (Z.lor G_IO_IN G_IO_OUT)) tr).
Proof.
  split; [|split].
  - intros es l tr n c H. revert n c.
    refine (steps_invariant (fun _ tr => forall n c, In (Called n c) tr -> has c (Z.lor G_IO_ERR (Z.lor G_IO_HUP G_IO_NVAL)) = false) _ _ es l tr H); [intros n c []|].
    intros l0 tr0 e l1 o IH S n c I. apply in_app_iff in I. destruct I as [I|I]; [exact (IH n c I)|].
    destruct (called_no_error _ _ _ _ _ _ S I) as [->|[->|[->| ->]]]; reflexivity.
  - intros es l tr n id asked r H I A. destruct (sources_hold _ _ _ H) as (T & E & _). rewrite E in I. apply in_map_iff in I.
    destruct I as (w & X & W). unfold seen in X. injection X as X1 X2 X3. unfold step. destruct (l_dead l); [reflexivity|].
    destruct (l_stack l) as [|[| | |] s]; try reflexivity. rewrite (find_serial_in _ _ _ (proj1 T) W X1). destruct (w_active w); [|reflexivity]. rewrite X3.
    destruct ((Z.land r (events_of asked) =? r) && negb (r =? 0)) eqn:R; [exfalso|reflexivity].
    destruct (revents_cases _ _ R) as (C & C1 & C2). unfold has in A. apply negb_false_iff, Z.eqb_eq in A. rewrite !Z.land_lor_distr_r in A.
    apply Z.lor_eq_0_iff in A. destruct A as [A1 A2]. apply Z.lor_eq_0_iff in A2. destruct A2 as [A2 A3].
    assert (Q1 : has asked (Z.lor G_IO_IN G_IO_PRI) = false) by (unfold has; rewrite Z.land_lor_distr_r, A1, A2; reflexivity).
    assert (Q2 : has asked G_IO_OUT = false) by (unfold has; rewrite A3; reflexivity).
    rewrite Q1 in C1. rewrite Q2 in C2. destruct C as [->|[->| ->]]; [discriminate (C1 eq_refl)|discriminate (C2 eq_refl)|discriminate (C1 eq_refl)].
  - exists [Add true (Io G_IO_HUP); Iterate; Broken 0]. eexists _, _. split; [vm_compute; reflexivity|]. cbn. auto.
Qed.
Print Assumptions C79_errors_refuted.

(** Whoever asks for urgent data is told of any data. *)
Theorem C79_pri_refuted : exists es l tr,
  steps loop_new es = Some (l, tr) /\ In (Added 0 1 (Io G_IO_PRI)) tr /\ In (Called 0 G_IO_IN) tr.
Proof. exists [Add true (Io G_IO_PRI); Iterate; Ready 0 EV_READ]. eexists _, _. split; [vm_compute; reflexivity|]. cbn. auto. Qed.
Print Assumptions C79_pri_refuted.

(** A timer of interval 0 is called once, even if it returns TRUE; it stays there. *)
Theorem C79_zero_refuted : exists l tr,
  steps loop_new [Add true (Timer true); Iterate; Ready 0 0; Return true] = Some (l, tr) /\ In (0%nat, 1%N, Timer true) (there tr) /\
  forall es l' tr', steps l es = Some (l', tr') -> forall c, ~ In (Called 0 c) tr'.
Proof.
  eexists _, _. split; [vm_compute; reflexivity|]. split; [left; reflexivity|]. intros es l' tr' H. refine (silent_steps 0 es _ l' tr' _ _ H).
  - split; [repeat constructor; intros []|]. split; [repeat constructor; intros []|]. cbn. split; [|split; [reflexivity|]].
    + intros w [<-|[]]. cbn. split; [lia|]. split; reflexivity.
    + intros id n k [X|[]]. discriminate.
  - split; [cbn; lia|]. cbn. intros w [<-|[]] _. reflexivity.
Qed.
Print Assumptions C79_zero_refuted.

(** ** C80: a run ends exactly if it was told to: each quit is for the innermost run that was not told
    yet, and is refused if there is none. *)
Theorem C80_run es l tr l' o : steps loop_new es = Some (l, tr) ->
  (step l Turn = Some (l', o) -> exists told rest, runs tr = told :: rest /\ if (told : bool) then o = [Ended] else o = []) /\
  (step l Quit = Some (l', o) -> if existsb negb (runs tr) then o = [Quitted] else l' = l /\ o = [Critical]) /\
  is_running l = existsb negb (runs tr).
Proof.
  intros H. destruct (running_holds _ _ _ H) as [A D].
  assert (R : (0 <? l_depth l)%N = existsb negb (runs tr)).
  { rewrite D. clear. induction (runs tr) as [|[|] rs IH]; cbn [waiting existsb negb orb]; [reflexivity|exact IH|]. apply N.ltb_lt. lia. }
  split; [|split].
  - unfold step. destruct (l_dead l); [discriminate|]. destruct (l_stack l) as [|[| | |d] s]; try discriminate. cbn [depths] in A.
    inversion A as [|ds rs A' E1 E2|d' ds rs A' L' E1 E2]; subst; intros S.
    + exists false, rs. split; [auto|]. rewrite D, <- E2 in S. cbn [waiting] in S. destruct (N.ltb_spec (waiting rs) (waiting rs + 1)); [|lia]. injection S as _ <-. reflexivity.
    + exists true, rs. split; [auto|]. rewrite D, <- E2 in S. cbn [waiting] in S. destruct (N.ltb_spec d (waiting rs)); [lia|]. injection S as _ <-. reflexivity.
  - unfold step. destruct (l_dead l); [discriminate|]. destruct (in_program (l_stack l)); [|discriminate]. rewrite <- R.
    destruct (N.eqb_spec (l_depth l) 0) as [Z|Z], (N.ltb_spec 0 (l_depth l)) as [Q|Q]; try lia; intros S; injection S as <- <-; auto.
  - exact R.
Qed.
Print Assumptions C80_run.

(** One iteration, asked for or made by a run, says whether a callback was called in it.  Left out:
    callbacks that iterate or run the loop themselves. *)
Theorem C80_iterate_partial es e l0 before l2 mid l during l1 o1 :
  steps loop_new es = Some (l0, before) -> e = Iterate \/ e = Turn -> step l0 e = Some (l2, []) ->
  steps l2 mid = Some (l, during) -> forallb (fun e => negb (nested e)) mid = true -> step l Leave = Some (l1, o1) ->
  o1 = [Iterated (existsb is_call during)].
Proof.
  intros H EE Q E3 M S.
  assert (ST : exists s, l_stack l2 = [] ++ Iterating :: s /\ l_called l2 = 0%N).
  { destruct EE as [-> | ->]; unfold step in Q; destruct (l_dead l0); try discriminate.
    - destruct (in_program (l_stack l0)); [|discriminate]. injection Q as <-. eexists. split; reflexivity.
    - destruct (l_stack l0) as [|[| | |d] s] eqn:K; try discriminate. destruct (d <? l_depth l0)%N; [|discriminate].
      injection Q as <-. eexists. split; [cbn; f_equal; symmetry; exact K|reflexivity]. }
  destruct ST as (s0 & ST & Z).
  destruct (iteration_counts mid l2 l during [] s0 ST) as (s' & S1 & S2 & S3 & S4); [intros d []|intros []|exact M|exact E3|].
  rewrite Z in S4.
  unfold step in S. destruct (l_dead l); [discriminate|]. destruct (l_stack l) as [|[| | |] s]; try discriminate. injection S as _ <-.
  rewrite S4, N.add_0_l. f_equal. f_equal. clear. induction during as [|x d IH]; [reflexivity|]. cbn [filter existsb]. destruct (is_call x); [reflexivity|exact IH].
Qed.
Print Assumptions C80_iterate_partial.

Example C80_example : exists l tr,
  steps loop_new [Add true Idle; Run; Turn; Ready 0 0; Run; Turn; Ready 0 0; Quit; Quit; Return true; Leave; Turn; Return true; Leave; Turn; Quit] = Some (l, tr) /\
  tr = [Added 0 1 Idle; Started; Called 0 0; Started; Called 0 0; Quitted; Quitted; Returned 0 true; Iterated true; Ended; Returned 0 true; Iterated true; Ended; Critical].
Proof. eexists _, _. split; [vm_compute; reflexivity|reflexivity]. Qed.

(** A callback that iterates the loop itself makes the iteration it is called from forget it. *)
Theorem C80_iterate_refuted : exists es l tr,
  steps loop_new es = Some (l, tr) /\ tr = [Added 0 1 Idle; Called 0 0; Iterated false; Returned 0 true; Iterated false].
Proof. exists [Add true Idle; Iterate; Ready 0 0; Iterate; Leave; Return true; Leave]. eexists _, _. split; [vm_compute; reflexivity|reflexivity]. Qed.
Print Assumptions C80_iterate_refuted.
