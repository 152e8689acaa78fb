(** Lemmas about the daemon's sessions. *)
From Coq Require Import Arith NArith List Bool Lia.
From Coq Require Import ZifyNat ZifyN.
From Verif.Model Require Import Service.
From Verif.Spec Require Import ServiceSpec.
Import ListNotations.
Local Open Scope N_scope.

(** ** Lists *)

Lemma taken_app : forall a b, taken (a ++ b) = taken a ++ taken b.
Proof. induction a as [|e a IH]; intros b; [reflexivity|]. destruct e; cbn [taken app]; rewrite IH; reflexivity. Qed.
Lemma served_app : forall a b, served (a ++ b) = served a ++ served b.
Proof. induction a as [|e a IH]; intros b; [reflexivity|]. destruct e; cbn [served app]; rewrite IH; reflexivity. Qed.
Lemma over_app : forall a b, over (a ++ b) = over a ++ over b.
Proof. induction a as [|e a IH]; intros b; [reflexivity|]. destruct e; cbn [over app]; rewrite IH; reflexivity. Qed.
Lemma reported_app : forall a b, reported (a ++ b) = reported a + reported b.
Proof. induction a as [|e a IH]; intros b; [reflexivity|]. destruct e; cbn [reported app]; rewrite IH; lia. Qed.

Lemma remove_In : forall i j (l : list nat), In j (remove Nat.eq_dec i l) <-> In j l /\ j <> i.
Proof.
  intros i j l. split.
  - intros H. apply in_remove in H. exact H.
  - intros [H1 H2]. apply in_in_remove; [congruence | exact H1].
Qed.

Lemma remove_NoDup : forall i (l : list nat), NoDup l -> NoDup (remove Nat.eq_dec i l).
Proof.
  induction l as [|a l IH]; intros H; cbn [remove]; [constructor|].
  inversion H; subst. destruct (Nat.eq_dec i a) as [_|N]; [auto|].
  constructor; [|auto]. rewrite remove_In. tauto.
Qed.

Lemma remove_out : forall i (l : list nat), ~ In i l -> remove Nat.eq_dec i l = l.
Proof.
  induction l as [|a l IH]; intros H; cbn [remove]; [reflexivity|].
  destruct (Nat.eq_dec i a) as [->|N]; [exfalso; apply H; left; reflexivity|].
  rewrite IH; [reflexivity | intros X; apply H; right; exact X].
Qed.

Lemma remove_length_in : forall i (l : list nat), NoDup l -> In i l ->
  S (length (remove Nat.eq_dec i l)) = length l.
Proof.
  induction l as [|a l IH]; intros H I; [destruct I|]. inversion H; subst. cbn [remove].
  destruct (Nat.eq_dec i a) as [->|N].
  - rewrite remove_out by assumption. reflexivity.
  - destruct I as [E|I]; [congruence|]. cbn [length]. rewrite (IH H3 I). reflexivity.
Qed.

Lemma holds_true : forall q i, holds q i = true <-> In i q.
Proof. intros. unfold holds. destruct (in_dec Nat.eq_dec i q); split; intros; auto; discriminate. Qed.
Lemma holds_false : forall q i, holds q i = false <-> ~ In i q.
Proof. intros. unfold holds. destruct (in_dec Nat.eq_dec i q); split; intros; auto; try discriminate; contradiction. Qed.

(** ** Numbers *)

Lemma inc_small : forall n, n + 1 < GUINT -> inc n = n + 1.
Proof. intros. unfold inc. apply N.mod_small. assumption. Qed.
Lemma dec_small : forall n, 0 < n -> n < GUINT -> dec n = n - 1.
Proof.
  intros n P L. unfold dec. replace (n + (GUINT - 1)) with ((n - 1) + 1 * GUINT) by (unfold GUINT in *; lia).
  rewrite N.mod_add by discriminate. apply N.mod_small. lia.
Qed.
Lemma minus_small : forall a n, a + n < GUINT -> minus (a + n) a = n.
Proof.
  intros a n L. unfold minus. replace (a + n + (GUINT - a)) with (n + 1 * GUINT) by (unfold GUINT in *; lia).
  rewrite N.mod_add by discriminate. apply N.mod_small. lia.
Qed.

(** A multiple of the interval lies in (before, before + n] exactly when the remainder is below n. *)
Lemma multiple_passed : forall i b n, i <> 0 -> 0 < n ->
  ((b + n) mod i < n <-> exists k, b < k * i /\ k * i <= b + n).
Proof.
  intros i b n I P. pose proof (N.div_mod (b + n) i I) as D. pose proof (N.mod_lt (b + n) i I) as M.
  split.
  - intros L. exists ((b + n) / i). rewrite (N.mul_comm _ i). lia.
  - intros (k & K1 & K2).
    assert (Q : k <= (b + n) / i) by (apply N.div_le_lower_bound; [exact I | lia]).
    assert (k * i <= (b + n) / i * i) by (apply N.mul_le_mono_r; exact Q).
    rewrite (N.mul_comm i) in D. lia.
Qed.

(** ** Upkeep *)

Lemma upkeep_iff : forall i l t o (P Q : Prop), (P <-> Q) -> (upkeep i t o P l <-> upkeep i t o Q l).
Proof. intros i l t o P Q H. destruct l as [|e l]; [|destruct e]; cbn [upkeep]; rewrite H; reflexivity. Qed.

Lemma upkeep_app : forall i a b t o P,
  upkeep i t o P a -> upkeep i (t + reported a) (o + N.of_nat (length (taken a)) - reported a) False b ->
  (forall p q, a = p ++ q -> reported p <= o + N.of_nat (length (taken p))) ->
  upkeep i t o P (a ++ b).
Proof.
  induction a as [|e a IH]; intros b t o P H1 H2 L.
  - cbn [upkeep app reported taken length] in *. rewrite N.add_0_r, N.sub_0_r in H2.
    replace (o + N.of_nat 0) with o in H2 by lia.
    eapply upkeep_iff; [|exact H2]. tauto.
  - destruct e; cbn [upkeep app reported taken length] in *; destruct H1 as [N1 H1]; (split; [exact N1|]);
    (apply IH; [exact H1 | |]);
    try (first [exact H2
      | replace (o + 1 + N.of_nat (length (taken a))) with (o + N.of_nat (S (length (taken a)))) by lia;
        exact H2
      | pose proof (L [SessionsFinished n] a eq_refl) as L0; cbn [reported taken length] in L0;
        replace (t + n + reported a) with (t + (n + reported a)) by lia;
        replace (o - n + N.of_nat (length (taken a)) - reported a)
          with (o + N.of_nat (length (taken a)) - (n + reported a)) by lia; exact H2]);
    intros p q E; subst a;
    match type of L with forall p0 q0, ?x :: _ = _ -> _ => specialize (L (x :: p) q eq_refl) end;
    cbn [reported taken length] in L; try lia;
    match type of L with context [SessionsFinished] => idtac | _ => idtac end; lia.
Qed.

(** ** The invariant *)

Definition sane (outs : list service_event) : Prop :=
  forall p q, outs = p ++ q -> reported p <= N.of_nat (length (taken p)).

Lemma sane_app : forall a b, sane a ->
  (forall p q, b = p ++ q -> reported a + reported p <= N.of_nat (length (taken a) + length (taken p))) ->
  sane (a ++ b).
Proof.
  intros a b H1 H2 p q E. apply app_eq_app in E as (l & [[E1 E2] | [E1 E2]]).
  - apply (H1 p l E1).
  - rewrite E1, reported_app, taken_app, app_length. apply (H2 l q E2).
Qed.

(** What holds of the state alone; [a] connections were taken, [e] sessions reported. *)
Record core (l : limits) (s : service) (a e : N) : Prop := mk_core {
  c_next : N.of_nat (v_next s) = a;
  c_small : a < GUINT;
  c_count : v_n_processing s = N.of_nat (length (v_setup s) + length (v_processing s));
  c_done : v_n_processed s = e;
  c_total : a = e + v_n_processing s;
  c_nodup : NoDup (v_setup s ++ v_processing s);
  c_fresh : forall i, In i (v_setup s ++ v_processing s) -> (i < v_next s)%nat;
  c_fin_nodup : NoDup (v_finished s);
  c_fin : incl (v_finished s) (v_processing s)
}.

(** What holds whenever no session is being finished. *)
Record weak (m : mode) (l : limits) (s : service) (outs : list service_event) : Prop := mk_weak {
  i_core : core l s (N.of_nat (length (taken outs))) (reported outs);
  i_taken : taken outs = seq 0 (v_next s);
  i_served : taken outs = served outs ++ v_setup s;
  i_single : m = SingleLoop -> v_setup s = [];
  i_over_len : N.of_nat (length (over outs)) = reported outs + N.of_nat (length (v_finished s));
  i_over_nodup : NoDup (over outs);
  i_over_served : incl (over outs) (served outs);
  i_over : forall i, In i (over outs) -> In i (v_processing s) -> In i (v_finished s);
  i_over_back : incl (v_finished s) (over outs);
  i_served_all : forall i, In i (served outs) -> In i (v_processing s) \/ In i (over outs);
  i_watching : v_quitting s = true -> v_watching s = false;
  i_running : v_running s = negb (v_quitting s && (v_n_processing s =? 0));
  i_limit : 0 < l_max_connections l -> v_n_processing s <= l_max_connections l;
  i_upkeep : upkeep (l_interval l) 0 0 False outs;
  i_sane : sane outs;
  i_resting : v_acceptor s = Resting;
  i_defined : v_undefined s = false;
  i_stuck : v_stuck s = true -> 0 < l_max_connections l
}.

(** What holds between two turns. *)
Record inv (m : mode) (l : limits) (s : service) (outs : list service_event) : Prop := mk_inv {
  i_weak : weak m l s outs;
  i_finisher : v_finished s <> [] -> v_finisher s = true;
  i_pending : 0 < l_max_pending l -> N.of_nat (length (v_finished s)) <= l_max_pending l
}.


Definition only_quits (es : list service_event) : Prop := Forall (fun e => e = Quit) es.

Lemma only_quits_plain : forall es, only_quits es ->
  taken es = [] /\ served es = [] /\ over es = [] /\ reported es = 0.
Proof.
  induction 1 as [|e es E H IH]; [repeat split; reflexivity|]. subst e. exact IH.
Qed.

Lemma only_quits_upkeep : forall i t o es, only_quits es -> upkeep i t o False es.
Proof.
  intros i t o es H. induction H as [|e es E H IH]; cbn [upkeep]; [tauto|]. subst e.
  split; [tauto | exact IH].
Qed.

(** finish_processing of a session in progress. *)
Lemma finish_processing_core : forall l s a e i s' es,
  core l s a e -> In i (v_processing s) -> finish_processing s i = (s', es) ->
  v_next s' = v_next s /\ v_setup s' = v_setup s /\
  v_processing s' = remove Nat.eq_dec i (v_processing s) /\
  v_n_processing s' + 1 = v_n_processing s /\ v_n_processed s' = v_n_processed s + 1 /\
  v_finished s' = v_finished s /\ v_finisher s' = v_finisher s /\ v_quitting s' = v_quitting s /\
  v_watching s' = v_watching s /\ v_stuck s' = v_stuck s /\ v_undefined s' = v_undefined s /\
  v_acceptor s' = v_acceptor s /\
  v_running s' = (v_running s && negb (v_quitting s && (v_n_processing s' =? 0)))%bool /\
  only_quits es.
Proof.
  intros l s a e i s' es C I F.
  assert (P : 0 < v_n_processing s).
  { rewrite (c_count _ _ _ _ C). destruct (v_processing s); [destruct I | cbn [length]; lia]. }
  pose proof (c_total _ _ _ _ C) as T. pose proof (c_small _ _ _ _ C) as S.
  pose proof (c_done _ _ _ _ C) as D.
  unfold finish_processing in F. cbn [v_quitting v_n_processing set_counts set_processing v_n_processed v_processing] in F.
  rewrite (dec_small (v_n_processing s)) in F by lia. rewrite inc_small in F by (unfold GUINT in *; lia).
  destruct (v_quitting s && (v_n_processing s - 1 =? 0)) eqn:Q; injection F as <- <-;
    cbn [v_next v_setup v_processing v_n_processing v_n_processed v_finished v_finisher v_quitting
         v_watching v_stuck v_undefined v_acceptor v_running set_running set_counts set_processing];
    rewrite Q; repeat (split; [first [reflexivity | lia]|]); try (split; [destruct (v_running s); reflexivity|]);
    unfold only_quits; repeat constructor.
Qed.

Lemma nodup_app_remove : forall i (x y : list nat), NoDup (x ++ y) -> NoDup (x ++ remove Nat.eq_dec i y).
Proof.
  induction x as [|b x IH]; intros y H; cbn [app] in *; [apply remove_NoDup; exact H|].
  inversion H; subst. constructor; [|apply IH; assumption].
  rewrite in_app_iff, remove_In. rewrite in_app_iff in H2. tauto.
Qed.

Lemma nodup_app_r : forall (x y : list nat), NoDup (x ++ y) -> NoDup y.
Proof. induction x as [|b x IH]; intros y H; [exact H|]. inversion H; auto. Qed.

Lemma finish_all_core : forall l ids s a e s' es,
  core l s a e -> NoDup ids -> incl ids (v_processing s) -> finish_all s ids = (s', es) ->
  v_next s' = v_next s /\ v_setup s' = v_setup s /\
  (forall i, In i (v_processing s') <-> In i (v_processing s) /\ ~ In i ids) /\
  NoDup (v_setup s' ++ v_processing s') /\
  v_n_processing s' = N.of_nat (length (v_setup s') + length (v_processing s')) /\
  v_n_processing s' + N.of_nat (length ids) = v_n_processing s /\
  v_n_processed s' = v_n_processed s + N.of_nat (length ids) /\
  v_finished s' = v_finished s /\ v_finisher s' = v_finisher s /\ v_quitting s' = v_quitting s /\
  v_watching s' = v_watching s /\ v_stuck s' = v_stuck s /\ v_undefined s' = v_undefined s /\
  v_acceptor s' = v_acceptor s /\
  (ids <> [] -> v_running s = true ->
     v_running s' = negb (v_quitting s && (v_n_processing s' =? 0))) /\
  only_quits es.
Proof.
  intros l ids. induction ids as [|i ids IH]; intros s a e s' es C D I F.
  - cbn [finish_all] in F. injection F as <- <-.
    repeat (split; [first [reflexivity | exact (c_nodup _ _ _ _ C) | exact (c_count _ _ _ _ C)
                           | cbn [length]; lia | intros j; cbn [In]; tauto]|]).
    try (split; [intros X; congruence|]). constructor.
  - cbn [finish_all] in F. destruct (finish_processing s i) as [s1 e1] eqn:F1.
    destruct (finish_all s1 ids) as [s2 e2] eqn:F2. injection F as <- <-.
    inversion D as [|? ? D1 D2]; subst.
    assert (Ii : In i (v_processing s)) by (apply I; left; reflexivity).
    destruct (finish_processing_core _ _ _ _ _ _ _ C Ii F1)
      as (A1 & A2 & A3 & A4 & A5 & A6 & A7 & A8 & A9 & A10 & A11 & A12 & A13 & A14).
    assert (C1 : core l (set_finished s1 [] (v_finisher s1)) a (e + 1)).
    { pose proof (c_total _ _ _ _ C). pose proof (c_done _ _ _ _ C). pose proof (c_count _ _ _ _ C) as CC.
      pose proof (c_nodup _ _ _ _ C) as ND. pose proof (nodup_app_r _ _ ND) as NP.
      pose proof (remove_length_in i _ NP Ii) as RL.
      constructor; cbn [v_next v_setup v_processing v_n_processing v_n_processed v_finished set_finished].
      - rewrite A1. apply (c_next _ _ _ _ C).
      - apply (c_small _ _ _ _ C).
      - rewrite A2, A3. lia.
      - lia.
      - lia.
      - rewrite A2, A3. apply nodup_app_remove. exact ND.
      - intros j J. rewrite A1. apply (c_fresh _ _ _ _ C). rewrite A2, A3, in_app_iff, remove_In in J.
        rewrite in_app_iff. tauto.
      - constructor.
      - intros j []. }
    assert (F2' : finish_all (set_finished s1 [] (v_finisher s1)) ids =
                  (set_finished s2 [] (v_finisher s1), e2)).
    { clear - F2. revert s1 s2 e2 F2. induction ids as [|j ids IH]; intros s1 s2 e2 F2.
      - cbn [finish_all] in *. injection F2 as <- <-. reflexivity.
      - cbn [finish_all] in *. destruct (finish_processing s1 j) as [t te] eqn:T.
        destruct (finish_all t ids) as [u ue] eqn:U. injection F2 as <- <-.
        assert (T' : finish_processing (set_finished s1 [] (v_finisher s1)) j
                     = (set_finished t [] (v_finisher s1), te) /\ v_finisher t = v_finisher s1).
        { unfold finish_processing in *.
          cbn [v_quitting v_n_processing set_counts set_processing v_n_processed v_processing set_finished] in *.
          destruct (v_quitting s1 && (dec (v_n_processing s1) =? 0)); injection T as <- <-; split; reflexivity. }
        destruct T' as [T' TF]. rewrite T'. rewrite <- TF. rewrite (IH _ _ _ U). reflexivity. }
    assert (I1 : incl ids (v_processing (set_finished s1 [] (v_finisher s1)))).
    { intros j J. cbn [v_processing set_finished]. rewrite A3, remove_In. split; [apply I; right; exact J|].
      intros ->. contradiction. }
    destruct (IH _ _ _ _ _ C1 D2 I1 F2')
      as (B1 & B2 & B3 & B4 & B5 & B6 & B7 & B8 & B9 & B10 & B11 & B12 & B13 & B14 & B15 & B16).
    cbn [v_next v_setup v_processing v_n_processing v_n_processed v_finished v_finisher v_quitting
         v_watching v_stuck v_undefined v_acceptor v_running set_finished] in *.
    assert (Fin : v_finished s2 = v_finished s1 /\ v_finisher s2 = v_finisher s1).
    { clear - F2. revert s1 s2 e2 F2. induction ids as [|j ids IH]; intros s1 s2 e2 F2; cbn [finish_all] in F2.
      - injection F2 as <- <-. split; reflexivity.
      - destruct (finish_processing s1 j) as [t te] eqn:T. destruct (finish_all t ids) as [u ue] eqn:U.
        injection F2 as <- <-. destruct (IH _ _ _ U) as [X Y]. rewrite X, Y.
        unfold finish_processing in T.
        cbn [v_quitting v_n_processing set_counts set_processing v_n_processed v_processing] in T.
        destruct (v_quitting s1 && (dec (v_n_processing s1) =? 0)); injection T as <- <-; split; reflexivity. }
    destruct Fin as [Fin1 Fin2].
    split; [congruence|]. split; [congruence|].
    split. { intros j. rewrite B3, A3, remove_In. cbn [In]. intuition congruence. }
    split; [exact B4|]. split; [exact B5|].
    split; [cbn [length]; lia|]. split; [cbn [length]; lia|].
    repeat (split; [congruence|]).
    split.
    + intros _ R. destruct ids as [|j ids].
      * cbn [finish_all] in F2. injection F2 as <- <-. rewrite A13, R. reflexivity.
      * destruct (v_running s1) eqn:R1.
        -- rewrite (B15 ltac:(discriminate) eq_refl), A8. reflexivity.
        -- (* the loop cannot have quit while sessions were left *)
           exfalso. rewrite R in A13. cbn [andb] in A13. symmetry in A13. apply negb_false_iff in A13.
           apply andb_true_iff in A13 as [_ Z]. apply N.eqb_eq in Z. cbn [length] in B6. lia.
    + apply Forall_app. split; assumption.
Qed.

Lemma need_maintain_due : forall l s t n, v_n_processed s = t + n -> 0 < n ->
  (need_maintain l s n = true <-> due (l_interval l) t n (v_n_processing s)).
Proof.
  intros l s t n E P. unfold need_maintain, due. rewrite E.
  assert (P' : (0 <? n) = true) by (apply N.ltb_lt; exact P). rewrite P', andb_true_r.
  destruct (v_n_processing s =? 0) eqn:Z.
  - apply N.eqb_eq in Z. split; [|reflexivity]. intros _. split; [exact P | left; exact Z].
  - apply N.eqb_neq in Z. destruct (l_interval l =? 0) eqn:I.
    + apply N.eqb_eq in I. split; [discriminate|]. intros [_ [X | (k & K1 & K2)]]; [contradiction|].
      rewrite I, N.mul_0_r in K1. lia.
    + apply N.eqb_neq in I. rewrite N.ltb_lt, multiple_passed by assumption. tauto.
Qed.

Lemma dispose_inv : forall m l s outs s' es,
  weak m l s outs -> v_running s = true -> v_finished s <> [] ->
  dispose_finished_data l s = (s', es) -> inv m l s' (outs ++ es).
Proof.
  intros m l s outs s' es W R NE F. pose proof (i_core _ _ _ _ W) as C.
  unfold dispose_finished_data in F. destruct (v_finished s) as [|x fs] eqn:Fs; [congruence|].
  rewrite <- Fs in F. replace (x :: fs) with (v_finished s) in F by exact Fs.
  destruct (finish_all s (v_finished s)) as [s1 e1] eqn:FA.
  destruct (finish_all_core l _ _ _ _ _ _ C (c_fin_nodup _ _ _ _ C) (c_fin _ _ _ _ C) FA)
    as (B1 & B2 & B3 & B4 & B5 & B6 & B7 & B8 & B9 & B10 & B11 & B12 & B13 & B14 & B15 & B16).
  cbn [v_n_processed set_finished] in F.
  pose proof (c_total _ _ _ _ C) as CT. pose proof (c_small _ _ _ _ C) as CS.
  pose proof (c_done _ _ _ _ C) as CD. pose proof (c_next _ _ _ _ C) as CN.
  set (n := N.of_nat (length (v_finished s))) in *.
  assert (P : 0 < n) by (unfold n; rewrite Fs; cbn [length]; lia).
  rewrite B7, minus_small in F by lia.
  destruct (only_quits_plain _ B16) as (Q1 & Q2 & Q3 & Q4).
  set (s2 := set_finished s1 [] (v_finisher s1)) in *.
  set (mt := if need_maintain l s2 n then [Maintain] else []) in *.
  injection F as <- <-.
  assert (Mt : taken mt = [] /\ served mt = [] /\ over mt = [] /\ reported mt = 0).
  { unfold mt. destruct (need_maintain l s2 n); repeat split; reflexivity. }
  destruct Mt as (M1 & M2 & M3 & M4).
  assert (T : taken (outs ++ e1 ++ SessionsFinished n :: mt) = taken outs).
  { rewrite !taken_app. cbn [taken]. rewrite Q1, M1, !app_nil_r. reflexivity. }
  assert (Sv : served (outs ++ e1 ++ SessionsFinished n :: mt) = served outs).
  { rewrite !served_app. cbn [served]. rewrite Q2, M2, !app_nil_r. reflexivity. }
  assert (Ov : over (outs ++ e1 ++ SessionsFinished n :: mt) = over outs).
  { rewrite !over_app. cbn [over]. rewrite Q3, M3, !app_nil_r. reflexivity. }
  assert (Rp : reported (outs ++ e1 ++ SessionsFinished n :: mt) = reported outs + n).
  { rewrite !reported_app. cbn [reported]. rewrite Q4, M4. lia. }
  assert (U : upkeep (l_interval l) (reported outs) (N.of_nat (length (taken outs)) - reported outs) False
                     (e1 ++ SessionsFinished n :: mt)).
  { assert (U1 : forall t o, upkeep (l_interval l) t o False (SessionsFinished n :: mt) ->
                             upkeep (l_interval l) t o False (e1 ++ SessionsFinished n :: mt)).
    { intros t o. clear - B16. induction B16 as [|e es E H IH]; [tauto|]. subst e. cbn [app upkeep].
      intros X. split; [tauto | exact (IH X)]. }
    apply U1. cbn [upkeep]. split; [tauto|].
    assert (L : N.of_nat (length (taken outs)) - reported outs - n = v_n_processing s2).
    { unfold s2. cbn [v_n_processing set_finished]. lia. }
    rewrite L. pose proof (need_maintain_due l s2 (reported outs) n) as ND.
    specialize (ND ltac:(unfold s2; cbn [v_n_processed set_finished]; lia) P).
    unfold mt. destruct (need_maintain l s2 n) eqn:Nm; cbn [upkeep].
    - split; [apply ND; reflexivity | tauto].
    - intros X. apply ND in X. discriminate. }
  constructor.
  - constructor; rewrite ?T, ?Sv, ?Ov, ?Rp; unfold s2;
      cbn [v_next v_setup v_processing v_n_processing v_n_processed v_finished v_finisher v_quitting
           v_watching v_stuck v_undefined v_acceptor v_running set_finished].
    + constructor; cbn [v_next v_setup v_processing v_n_processing v_n_processed v_finished set_finished].
      * rewrite B1. exact CN.
      * exact CS.
      * exact B5.
      * lia.
      * lia.
      * exact B4.
      * intros j J. rewrite B1. apply (c_fresh _ _ _ _ C). rewrite in_app_iff in *. rewrite B2, B3 in J. tauto.
      * constructor.
      * intros j [].
    + rewrite B1. apply (i_taken _ _ _ _ W).
    + rewrite B2. apply (i_served _ _ _ _ W).
    + rewrite B2. apply (i_single _ _ _ _ W).
    + rewrite (i_over_len _ _ _ _ W). cbn [length]. fold n. lia.
    + apply (i_over_nodup _ _ _ _ W).
    + apply (i_over_served _ _ _ _ W).
    + intros j J1 J2. rewrite B3 in J2. exfalso. apply J2. apply (i_over _ _ _ _ W); tauto.
    + intros j [].
    + intros j J. rewrite B3. destruct (i_served_all _ _ _ _ W j J) as [X|X]; [|right; exact X].
      destruct (in_dec Nat.eq_dec j (v_finished s)) as [Y|Y].
      * right. apply (i_over_back _ _ _ _ W). exact Y.
      * left. split; assumption.
    + rewrite B10, B11. apply (i_watching _ _ _ _ W).
    + rewrite B10. apply B15; [rewrite Fs; discriminate | exact R].
    + intros X. pose proof (i_limit _ _ _ _ W X). lia.
    + apply upkeep_app; [apply (i_upkeep _ _ _ _ W) | exact U |].
      intros p q E. rewrite N.add_0_l. exact (i_sane _ _ _ _ W p q E).
    + apply sane_app; [apply (i_sane _ _ _ _ W)|].
      assert (TE : taken (e1 ++ SessionsFinished n :: mt) = []).
      { rewrite taken_app. cbn [taken]. rewrite Q1, M1. reflexivity. }
      assert (RE : reported (e1 ++ SessionsFinished n :: mt) = n).
      { rewrite reported_app. cbn [reported]. rewrite Q4, M4. lia. }
      intros p q E. rewrite E, taken_app in TE. rewrite E, reported_app in RE.
      apply app_eq_nil in TE as [TE _]. rewrite TE. cbn [length]. lia.
    + rewrite B14. apply (i_resting _ _ _ _ W).
    + rewrite B13. apply (i_defined _ _ _ _ W).
    + rewrite B12. apply (i_stuck _ _ _ _ W).
  - unfold s2. cbn [v_finished set_finished]. congruence.
  - unfold s2. cbn [v_finished set_finished length]. lia.
Qed.

Ltac fields := cbn [v_next v_setup v_processing v_n_processing v_n_processed v_finished v_finisher v_quitting
  v_watching v_listen_channel v_listening_channel v_stuck v_undefined v_acceptor v_running set_finished
  set_setup set_processing set_counts set_next set_running set_watching set_quitting set_stuck
  set_listen_channel count_connection] in *.

(** A step that only says something of no account. *)
Lemma weak_say : forall m l s outs e,
  weak m l s outs -> (e = Suspended \/ e = AcceptError \/ e = Quit) -> weak m l s (outs ++ [e]).
Proof.
  intros m l s outs e W E.
  assert (X : taken (outs ++ [e]) = taken outs /\ served (outs ++ [e]) = served outs /\
              over (outs ++ [e]) = over outs /\ reported (outs ++ [e]) = reported outs).
  { rewrite taken_app, served_app, over_app, reported_app.
    destruct E as [-> | [-> | ->]]; cbn [taken served over reported];
      rewrite ?app_nil_r, ?N.add_0_r; repeat split; reflexivity. }
  destruct X as (T & Sv & Ov & Rp).
  destruct W. constructor; rewrite ?T, ?Sv, ?Ov, ?Rp; try assumption.
  - apply upkeep_app; [assumption | |intros p q Q; rewrite N.add_0_l; apply (i_sane0 p q Q)].
    destruct E as [-> | [-> | ->]]; cbn [upkeep]; tauto.
  - apply sane_app; [assumption|]. intros p q Q.
    assert (reported p = 0).
    { destruct p as [|p0 [|p1 p]]; cbn [app] in Q; [reflexivity | |].
      - injection Q as <- _. destruct E as [-> | [-> | ->]]; reflexivity.
      - exfalso. injection Q as _ Q. discriminate. }
    pose proof (i_sane0 outs [] ltac:(rewrite app_nil_r; reflexivity)). lia.
Qed.

Lemma sane_plain : forall a e, sane a -> reported [e] = 0 -> sane (a ++ [e]).
Proof.
  intros a e H R. apply sane_app; [exact H|]. intros p q Q.
  assert (reported p = 0).
  { destruct p as [|p0 [|p1 p]]; cbn [app] in Q; [reflexivity | |].
    - injection Q as <- _. exact R.
    - exfalso. injection Q as _ Q. discriminate. }
  pose proof (H a [] ltac:(rewrite app_nil_r; reflexivity)). lia.
Qed.

Lemma weak_connected : forall m l s outs,
  weak m l s outs -> v_running s = true -> at_limit l s = false -> N.of_nat (S (v_next s)) < GUINT ->
  weak Worker l (set_setup (count_connection s) (v_setup s ++ [v_next s])) (outs ++ [Connected (v_next s)]).
Proof.
  intros m l s outs W R L G. pose proof (i_core _ _ _ _ W) as C.
  pose proof (c_total _ _ _ _ C) as CT. pose proof (c_next _ _ _ _ C) as CN.
  pose proof (c_count _ _ _ _ C) as CC.
  assert (T : taken (outs ++ [Connected (v_next s)]) = taken outs ++ [v_next s]) by (rewrite taken_app; reflexivity).
  assert (Sv : served (outs ++ [Connected (v_next s)]) = served outs)
    by (rewrite served_app; cbn [served]; apply app_nil_r).
  assert (Ov : over (outs ++ [Connected (v_next s)]) = over outs)
    by (rewrite over_app; cbn [over]; apply app_nil_r).
  assert (Rp : reported (outs ++ [Connected (v_next s)]) = reported outs)
    by (rewrite reported_app; cbn [reported]; lia).
  assert (I : inc (v_n_processing s) = v_n_processing s + 1) by (apply inc_small; lia).
  assert (Nw : ~ In (v_next s) (v_setup s ++ v_processing s)).
  { intros X. apply (c_fresh _ _ _ _ C) in X. lia. }
  constructor; rewrite ?T, ?Sv, ?Ov, ?Rp; fields; rewrite ?I.
  - constructor; fields; rewrite ?I, ?app_length; cbn [length].
    + lia.
    + lia.
    + lia.
    + apply (c_done _ _ _ _ C).
    + lia.
    + rewrite <- app_assoc. cbn [app]. apply NoDup_Add with (a := v_next s) (l := v_setup s ++ v_processing s).
      * apply Add_app.
      * split; [apply (c_nodup _ _ _ _ C) | exact Nw].
    + intros j J. rewrite <- app_assoc in J. cbn [app] in J. rewrite in_app_iff in J. cbn [In] in J.
      destruct J as [J | [J | J]]; try lia;
        (apply Nat.lt_lt_succ_r; apply (c_fresh _ _ _ _ C); rewrite in_app_iff; tauto).
    + apply (c_fin_nodup _ _ _ _ C).
    + apply (c_fin _ _ _ _ C).
  - rewrite (i_taken _ _ _ _ W), seq_S. reflexivity.
  - rewrite (i_served _ _ _ _ W), <- app_assoc. reflexivity.
  - discriminate.
  - apply (i_over_len _ _ _ _ W).
  - apply (i_over_nodup _ _ _ _ W).
  - apply (i_over_served _ _ _ _ W).
  - apply (i_over _ _ _ _ W).
  - apply (i_over_back _ _ _ _ W).
  - apply (i_served_all _ _ _ _ W).
  - apply (i_watching _ _ _ _ W).
  - rewrite R. assert (Z : (v_n_processing s + 1 =? 0) = false) by (apply N.eqb_neq; lia).
    rewrite Z, andb_false_r. reflexivity.
  - intros P. unfold at_limit in L. apply andb_false_iff in L as [L|L].
    + apply N.ltb_ge in L. lia.
    + apply N.leb_gt in L. lia.
  - apply upkeep_app; [apply (i_upkeep _ _ _ _ W) | cbn [upkeep]; tauto |].
    intros p q Q. rewrite N.add_0_l. apply (i_sane _ _ _ _ W p q Q).
  - apply sane_plain; [apply (i_sane _ _ _ _ W) | reflexivity].
  - apply (i_resting _ _ _ _ W).
  - apply (i_defined _ _ _ _ W).
  - apply (i_stuck _ _ _ _ W).
Qed.

Lemma weak_setup : forall m m' l s outs i q e,
  weak m l s outs -> v_setup s = i :: q -> (m' = SingleLoop -> q = []) ->
  (e = Established i \/ e = StartFailed i) ->
  weak m' l (set_processing (set_setup s q) (i :: v_processing s)) (outs ++ [e]) /\
  In i (served (outs ++ [e])) /\ ~ In i (over (outs ++ [e])).
Proof.
  intros m m' l s outs i q e W Q M E. pose proof (i_core _ _ _ _ W) as C.
  assert (T : taken (outs ++ [e]) = taken outs)
    by (rewrite taken_app; destruct E as [-> | ->]; cbn [taken]; apply app_nil_r).
  assert (Sv : served (outs ++ [e]) = served outs ++ [i])
    by (rewrite served_app; destruct E as [-> | ->]; reflexivity).
  assert (Ov : over (outs ++ [e]) = over outs)
    by (rewrite over_app; destruct E as [-> | ->]; cbn [over]; apply app_nil_r).
  assert (Rp : reported (outs ++ [e]) = reported outs)
    by (rewrite reported_app; destruct E as [-> | ->]; cbn [reported]; lia).
  pose proof (c_nodup _ _ _ _ C) as ND. rewrite Q in ND. cbn [app] in ND. inversion ND as [|? ? N1 N2]; subst.
  assert (NDs : NoDup (taken outs)) by (rewrite (i_taken _ _ _ _ W); apply seq_NoDup).
  assert (Ns : ~ In i (served outs)).
  { intros X. rewrite (i_served _ _ _ _ W), Q in NDs. apply NoDup_remove_2 in NDs. apply NDs.
    rewrite in_app_iff. left. exact X. }
  assert (No : ~ In i (over outs)).
  { intros X. apply Ns. apply (i_over_served _ _ _ _ W). exact X. }
  split; [|split; [rewrite Sv, in_app_iff; right; left; reflexivity | rewrite Ov; exact No]].
  constructor; rewrite ?T, ?Sv, ?Ov, ?Rp; fields.
  - constructor; fields; cbn [length].
    + apply (c_next _ _ _ _ C).
    + apply (c_small _ _ _ _ C).
    + pose proof (c_count _ _ _ _ C) as CC. rewrite Q in CC. cbn [length] in CC. lia.
    + apply (c_done _ _ _ _ C).
    + apply (c_total _ _ _ _ C).
    + apply NoDup_Add with (a := i) (l := q ++ v_processing s); [apply Add_app | split; assumption].
    + intros j J. apply (c_fresh _ _ _ _ C). rewrite Q. rewrite in_app_iff in *. cbn [In] in *. tauto.
    + apply (c_fin_nodup _ _ _ _ C).
    + intros j J. right. apply (c_fin _ _ _ _ C). exact J.
  - apply (i_taken _ _ _ _ W).
  - rewrite (i_served _ _ _ _ W), Q, <- app_assoc. reflexivity.
  - exact M.
  - apply (i_over_len _ _ _ _ W).
  - apply (i_over_nodup _ _ _ _ W).
  - intros j J. rewrite in_app_iff. left. apply (i_over_served _ _ _ _ W). exact J.
  - intros j J1 [J2|J2]; [subst j; contradiction|]. apply (i_over _ _ _ _ W); assumption.
  - apply (i_over_back _ _ _ _ W).
  - intros j J. rewrite in_app_iff in J. destruct J as [J | [J | []]].
    + destruct (i_served_all _ _ _ _ W j J); [left; right; assumption | right; assumption].
    + left. left. exact J.
  - apply (i_watching _ _ _ _ W).
  - apply (i_running _ _ _ _ W).
  - apply (i_limit _ _ _ _ W).
  - apply upkeep_app; [apply (i_upkeep _ _ _ _ W) | destruct E as [-> | ->]; cbn [upkeep]; tauto |].
    intros a b X. rewrite N.add_0_l. apply (i_sane _ _ _ _ W a b X).
  - apply sane_plain; [apply (i_sane _ _ _ _ W) | destruct E as [-> | ->]; reflexivity].
  - apply (i_resting _ _ _ _ W).
  - apply (i_defined _ _ _ _ W).
  - apply (i_stuck _ _ _ _ W).
Qed.

Lemma weak_flag : forall m l s outs b, weak m l s outs -> weak m l (set_finished s (v_finished s) b) outs.
Proof.
  intros m l s outs b W. destruct W as [C]. constructor; fields; try assumption.
  destruct C. constructor; fields; assumption.
Qed.

Lemma weak_ended : forall m l s outs i,
  weak m l s outs -> In i (v_processing s) -> ~ In i (v_finished s) ->
  ~ In i (over outs) -> In i (served outs) ->
  weak m l (set_finished s (v_finished s ++ [i]) (v_finisher s)) (outs ++ [Ended i]).
Proof.
  intros m l s outs i W P F O V. pose proof (i_core _ _ _ _ W) as C.
  assert (T : taken (outs ++ [Ended i]) = taken outs) by (rewrite taken_app; cbn [taken]; apply app_nil_r).
  assert (Sv : served (outs ++ [Ended i]) = served outs) by (rewrite served_app; cbn [served]; apply app_nil_r).
  assert (Ov : over (outs ++ [Ended i]) = over outs ++ [i]) by (rewrite over_app; reflexivity).
  assert (Rp : reported (outs ++ [Ended i]) = reported outs) by (rewrite reported_app; cbn [reported]; lia).
  assert (Snoc : forall x : list nat, NoDup x -> ~ In i x -> NoDup (x ++ [i])).
  { intros x H1 H2. apply NoDup_Add with (a := i) (l := x).
    - pose proof (Add_app i x []) as X. rewrite app_nil_r in X. exact X.
    - split; assumption. }
  constructor; rewrite ?T, ?Sv, ?Ov, ?Rp; fields.
  - destruct C. constructor; fields; try assumption.
    + apply Snoc; assumption.
    + intros j J. rewrite in_app_iff in J. destruct J as [J | [J | []]]; [apply c_fin0; exact J | subst j; exact P].
  - apply (i_taken _ _ _ _ W).
  - apply (i_served _ _ _ _ W).
  - apply (i_single _ _ _ _ W).
  - rewrite !app_length. cbn [length]. pose proof (i_over_len _ _ _ _ W). lia.
  - apply Snoc; [apply (i_over_nodup _ _ _ _ W) | exact O].
  - intros j J. rewrite in_app_iff in J. destruct J as [J | [J | []]];
      [apply (i_over_served _ _ _ _ W); exact J | subst j; exact V].
  - intros j J1 J2. rewrite in_app_iff in *. destruct J1 as [J1 | [J1 | []]].
    + left. apply (i_over _ _ _ _ W); assumption.
    + right. left. exact J1.
  - intros j J. rewrite in_app_iff in *. destruct J as [J | J]; [left; apply (i_over_back _ _ _ _ W); exact J | right; exact J].
  - intros j J. rewrite in_app_iff. destruct (i_served_all _ _ _ _ W j J); tauto.
  - apply (i_watching _ _ _ _ W).
  - apply (i_running _ _ _ _ W).
  - apply (i_limit _ _ _ _ W).
  - apply upkeep_app; [apply (i_upkeep _ _ _ _ W) | cbn [upkeep]; tauto |].
    intros a b X. rewrite N.add_0_l. apply (i_sane _ _ _ _ W a b X).
  - apply sane_plain; [apply (i_sane _ _ _ _ W) | reflexivity].
  - apply (i_resting _ _ _ _ W).
  - apply (i_defined _ _ _ _ W).
  - apply (i_stuck _ _ _ _ W).
Qed.

Lemma cb_finished_inv : forall m l s outs i s' es,
  weak m l s outs -> v_running s = true -> In i (v_processing s) -> ~ In i (v_finished s) ->
  ~ In i (over outs) -> In i (served outs) ->
  cb_finished l s i = (s', es) -> inv m l s' (outs ++ es).
Proof.
  intros m l s outs i s' es W R P F O V E. unfold cb_finished in E.
  pose proof (weak_ended _ _ _ _ _ W P F O V) as W1. fields.
  destruct ((0 <? l_max_pending l) && (l_max_pending l <? N.of_nat (length (v_finished s ++ [i])))) eqn:B.
  - match type of E with context [dispose_finished_data l ?x] => set (s1 := x) in * end.
    destruct (dispose_finished_data l s1) as [s2 e2] eqn:D. injection E as <- <-.
    replace (outs ++ Ended i :: e2) with ((outs ++ [Ended i]) ++ e2) by (rewrite <- app_assoc; reflexivity).
    eapply dispose_inv; [| | |exact D].
    + apply (weak_flag _ _ _ _ false W1).
    + exact R.
    + unfold s1. fields. intros X. apply app_eq_nil in X as [_ X]. discriminate.
  - injection E as <- <-. constructor; fields.
    + apply (weak_flag _ _ _ _ true W1).
    + reflexivity.
    + intros M. apply andb_false_iff in B as [B|B]; [apply N.ltb_ge in B; lia | apply N.ltb_ge in B; exact B].
Qed.

Lemma channel_setup_inv : forall m m' l s outs i q starts s' es,
  weak m l s outs -> v_running s = true -> v_setup s = i :: q -> (m' = SingleLoop -> q = []) ->
  (v_finished s <> [] -> v_finisher s = true) ->
  (0 < l_max_pending l -> N.of_nat (length (v_finished s)) <= l_max_pending l) ->
  channel_setup l (set_setup s q) i starts = (s', es) -> inv m' l s' (outs ++ es).
Proof.
  intros m m' l s outs i q starts s' es W R Q M H1 H2 E. unfold channel_setup in E. fields.
  destruct starts.
  - injection E as <- <-. destruct (weak_setup _ m' _ _ _ _ _ (Established i) W Q M (or_introl eq_refl)) as (W1 & _).
    constructor; fields; assumption.
  - destruct (weak_setup _ m' _ _ _ _ _ (StartFailed i) W Q M (or_intror eq_refl)) as (W1 & V & O).
    match type of E with context [cb_finished l ?x i] => set (s1 := x) in * end.
    destruct (cb_finished l s1 i) as [s2 e2] eqn:D. injection E as <- <-.
    replace (outs ++ StartFailed i :: e2) with ((outs ++ [StartFailed i]) ++ e2) by (rewrite <- app_assoc; reflexivity).
    eapply cb_finished_inv; [exact W1 | exact R | left; reflexivity | | exact O | exact V | exact D].
    fields. intros X. apply (c_fin _ _ _ _ (i_core _ _ _ _ W)) in X.
    pose proof (c_nodup _ _ _ _ (i_core _ _ _ _ W)) as ND. rewrite Q in ND. cbn [app] in ND.
    inversion ND as [|? ? N1 N2]; subst. apply N1. rewrite in_app_iff. right. exact X.
Qed.

Lemma shutdown_inv : forall m l s outs s' es,
  inv m l s outs -> v_running s = true -> shutdown s = (s', es) -> inv m l s' (outs ++ es).
Proof.
  intros m l s outs s' es I R E. unfold shutdown in E. destruct (v_quitting s) eqn:Q.
  - injection E as <- <-. rewrite app_nil_r. exact I.
  - destruct I as [W H1 H2]. fields. destruct (v_n_processing s =? 0) eqn:Z; injection E as <- <-.
    + constructor; fields; [|assumption|assumption].
      apply weak_say; [|tauto]. destruct W as [C]. constructor; fields; try assumption; try reflexivity.
      * destruct C. constructor; fields; assumption.
      * rewrite Z. reflexivity.
    + rewrite app_nil_r. constructor; fields; [|assumption|assumption].
      destruct W as [C]. constructor; fields; try assumption; try reflexivity.
      * destruct C. constructor; fields; assumption.
      * rewrite Z. exact R.
Qed.

Lemma weak_channels : forall m l s outs a b, weak m l s outs -> weak m l (set_listen_channel s a b) outs.
Proof.
  intros m l s outs a b W. destruct W as [C]. constructor; fields; try assumption.
  destruct C. constructor; fields; assumption.
Qed.

Lemma set_setup_nil : forall s q, v_setup s = [] -> set_setup (set_setup s q) [] = s.
Proof. intros [? ? ? st ? ? ? ? ? ? ? ? ? ? ?] q H. cbn in H. subst st. reflexivity. Qed.

Lemma step_inv : forall m l s outs o s' es,
  loops m -> inv m l s outs -> N.of_nat (S (v_next s)) < GUINT ->
  service_step m l s o = (s', es) -> inv m l s' (outs ++ es).
Proof.
  intros m l s outs o s' es M I G E. unfold service_step in E.
  destruct (negb (v_running s) || v_stuck s || v_undefined s) eqn:B.
  { injection E as <- <-. rewrite app_nil_r. exact I. }
  apply orb_false_iff in B as [B B3]. apply orb_false_iff in B as [B1 B2]. apply negb_false_iff in B1.
  pose proof (i_weak _ _ _ _ I) as W. pose proof (i_core _ _ _ _ W) as C.
  assert (Same : forall x, (x, []) = (s', es) -> x = s -> inv m l s' (outs ++ es)).
  { intros x X1 X2. injection X1 as <- <-. rewrite app_nil_r, X2. exact I. }
  destruct o as [r|starts|i| | | | | |r|].
  - (* Incoming *)
    destruct (v_watching s && negb (threaded m)) eqn:Wt; [|eapply Same; [exact E | reflexivity]].
    unfold incoming in E. destruct (at_limit l s) eqn:L.
    { assert (X : (set_stuck s, [Suspended]) = (s', es)) by (destruct M as [-> | ->]; exact E).
      injection X as <- <-. constructor; fields; [|apply (i_finisher _ _ _ _ I)|apply (i_pending _ _ _ _ I)].
      apply weak_say; [|tauto]. clear C. destruct W as [C]. constructor; fields; try assumption.
      - destruct C. constructor; fields; assumption.
      - intros _. unfold at_limit in L. apply andb_true_iff in L as [L _]. apply N.ltb_lt in L. exact L. }
    destruct r as [starts| |].
    + pose proof (weak_connected _ _ _ _ W B1 L G) as W1.
      destruct M as [-> | ->].
      * match type of E with context [channel_setup l ?x ?i ?st] =>
          destruct (channel_setup l x i st) as [s2 e2] eqn:D end.
        injection E as <- <-.
        replace (outs ++ Connected (v_next s) :: e2) with ((outs ++ [Connected (v_next s)]) ++ e2)
          by (rewrite <- app_assoc; reflexivity).
        eapply channel_setup_inv with (q := []) (m := Worker).
        -- exact W1.
        -- exact B1.
        -- fields. rewrite (i_single _ _ _ _ W eq_refl). reflexivity.
        -- reflexivity.
        -- apply (i_finisher _ _ _ _ I).
        -- apply (i_pending _ _ _ _ I).
        -- rewrite set_setup_nil; [exact D|]. fields. apply (i_single _ _ _ _ W eq_refl).
      * injection E as <- <-. constructor; fields; [exact W1|apply (i_finisher _ _ _ _ I)|apply (i_pending _ _ _ _ I)].
    + eapply Same; [exact E | reflexivity].
    + destruct M as [-> | ->]; injection E as <- <-.
      * constructor; [|apply (i_finisher _ _ _ _ I)|apply (i_pending _ _ _ _ I)]. apply weak_say; [exact W | tauto].
      * constructor; fields; [|apply (i_finisher _ _ _ _ I)|apply (i_pending _ _ _ _ I)].
        apply weak_say; [|tauto]. clear C. destruct W as [C]. constructor; fields; try assumption; try reflexivity.
        destruct C. constructor; fields; assumption.
  - (* Setup *)
    destruct (v_setup s) as [|i q] eqn:Q; [eapply Same; [exact E | reflexivity]|].
    eapply channel_setup_inv with (q := q);
      [exact W | exact B1 | exact Q | | apply (i_finisher _ _ _ _ I) | apply (i_pending _ _ _ _ I) | exact E].
    intros X. pose proof (i_single _ _ _ _ W X) as Sg. rewrite Q in Sg. discriminate.
  - (* Finish *)
    assert (X0 : (if holds (v_processing s) i && negb (holds (v_finished s) i) then cb_finished l s i else (s, [])) = (s', es))
      by (destruct M as [-> | ->]; exact E).
    clear E. rename X0 into E.
    destruct (holds (v_processing s) i && negb (holds (v_finished s) i)) eqn:H;
      [|eapply Same; [exact E | reflexivity]].
    apply andb_true_iff in H as [H1 H2]. apply holds_true in H1. apply negb_true_iff in H2.
    rewrite holds_false in H2.
    assert (O : ~ In i (over outs)) by (intros X; apply H2; apply (i_over _ _ _ _ W); assumption).
    eapply cb_finished_inv; [exact W | exact B1 | exact H1 | exact H2 | exact O | | exact E].
    assert (X : In i (taken outs)).
    { rewrite (i_taken _ _ _ _ W), in_seq. split; [lia|]. apply (c_fresh _ _ _ _ C). rewrite in_app_iff. tauto. }
    rewrite (i_served _ _ _ _ W), in_app_iff in X. destruct X as [X|X]; [exact X|].
    exfalso. pose proof (c_nodup _ _ _ _ C) as ND. clear - X H1 ND.
    induction (v_setup s) as [|b x IH]; [destruct X|]. cbn [app] in ND. inversion ND; subst.
    destruct X as [->|X]; [apply H2; rewrite in_app_iff; tauto | auto].
  - (* Idle *)
    destruct (v_finisher s) eqn:Fi; [|eapply Same; [exact E | reflexivity]].
    destruct (v_finished s) as [|x fs] eqn:Fs.
    + unfold dispose_finished_data in E. fields. injection E as <- <-. rewrite app_nil_r.
      pose proof (weak_flag _ _ _ _ false W) as W1. rewrite Fs in W1.
      constructor; fields; [exact W1 | congruence | cbn [length]; lia].
    + eapply dispose_inv; [| | |exact E].
      * rewrite <- Fs. apply weak_flag. exact W.
      * exact B1.
      * fields. discriminate.
  - (* Shutdown *) eapply shutdown_inv; eassumption.
  - (* MasterGone *)
    destruct M as [-> | ->]; [eapply Same; [exact E | reflexivity]|].
    eapply shutdown_inv with (s := set_listen_channel s false false); [| exact B1 | exact E].
    constructor; fields; [apply weak_channels; exact W |apply (i_finisher _ _ _ _ I)|apply (i_pending _ _ _ _ I)].
  - (* ListenError *)
    destruct (v_quitting s) eqn:Q; [eapply Same; [exact E | reflexivity]|].
    destruct (shutdown s) as [s2 e2] eqn:D. injection E as <- <-.
    replace (outs ++ AcceptError :: e2) with ((outs ++ [AcceptError]) ++ e2) by (rewrite <- app_assoc; reflexivity).
    eapply shutdown_inv; [| exact B1 | exact D].
    constructor; [apply weak_say; [exact W | tauto] |apply (i_finisher _ _ _ _ I)|apply (i_pending _ _ _ _ I)].
  - (* the accepting thread *)
    rewrite (i_resting _ _ _ _ W) in E. destruct M as [-> | ->]; cbn [threaded andb] in E;
      (eapply Same; [exact E | reflexivity]).
  - rewrite (i_resting _ _ _ _ W) in E. eapply Same; [exact E | reflexivity].
  - rewrite (i_resting _ _ _ _ W) in E. eapply Same; [exact E | reflexivity].
Qed.

Lemma start_inv : forall m l listened, inv m l (service_start listened) [].
Proof.
  intros m l listened. unfold service_start. constructor; fields; [|congruence|cbn [length]; lia].
  constructor; fields; cbn [taken served over reported length app upkeep]; try reflexivity; try discriminate; try lia;
    try tauto.
  - constructor; fields; cbn [length app]; try reflexivity; try constructor; try (intros ? []).
  - constructor.
  - intros ? [].
  - intros ? [].
  - intros p q E. symmetry in E. apply app_eq_nil in E as [-> _]. cbn [reported]. lia.
Qed.

(** ** Further facts about one turn *)

Lemma finish_all_plain : forall ids s s' es, finish_all s ids = (s', es) ->
  v_next s' = v_next s /\ v_watching s' = v_watching s /\ v_quitting s' = v_quitting s /\
  v_listen_channel s' = v_listen_channel s /\ v_listening_channel s' = v_listening_channel s /\
  v_stuck s' = v_stuck s /\
  (v_running s = false -> v_running s' = false) /\
  (v_running s = true -> (In Quit es <-> v_running s' = false)).
Proof.
  induction ids as [|i ids IH]; intros s s' es E; cbn [finish_all] in E.
  - injection E as <- <-. repeat (split; [reflexivity|]). split; [tauto|]. intros R. rewrite R. split; [intros [] | discriminate].
  - destruct (finish_processing s i) as [t te] eqn:T. destruct (finish_all t ids) as [u ue] eqn:U.
    injection E as <- <-. destruct (IH _ _ _ U) as (H1 & H2 & H3 & H4 & H5 & H6 & H7 & H8).
    assert (X : v_next t = v_next s /\ v_watching t = v_watching s /\ v_quitting t = v_quitting s /\
      v_listen_channel t = v_listen_channel s /\ v_listening_channel t = v_listening_channel s /\
      v_stuck t = v_stuck s /\
      ((te = [Quit] /\ v_running t = false) \/ (te = [] /\ v_running t = v_running s))).
    { unfold finish_processing in T. fields.
      destruct (v_quitting s && (dec (v_n_processing s) =? 0)); injection T as <- <-; fields;
        repeat (split; [reflexivity|]); [left | right]; split; reflexivity. }
    destruct X as (X1 & X2 & X3 & X4 & X5 & X6 & X7).
    repeat (split; [congruence|]). split.
    + intros R. apply H7. destruct X7 as [[_ X] | [_ X]]; congruence.
    + intros R. rewrite in_app_iff. destruct X7 as [[Q X] | [Q X]]; subst te.
      * split; [intros _; apply H7; exact X | intros _; left; left; reflexivity].
      * rewrite (X : v_running t = v_running s) in H8. rewrite <- (H8 R). cbn [In]. tauto.
Qed.

(** What a turn does to the rest of the state. *)
Definition modest (s s' : service) (es : list service_event) : Prop :=
  v_next s' = v_next s /\ (v_watching s = false -> v_watching s' = false) /\
  (v_quitting s = true -> v_quitting s' = true) /\
  (v_listen_channel s = false -> v_listen_channel s' = false) /\
  (v_listening_channel s = false -> v_listening_channel s' = false) /\
  (v_running s = true -> (In Quit es <-> v_running s' = false)).

Lemma dispose_modest : forall l s s' es, dispose_finished_data l s = (s', es) -> modest s s' es.
Proof.
  intros l s s' es E. unfold dispose_finished_data in E. destruct (v_finished s) as [|x fs].
  - injection E as <- <-. unfold modest. repeat (split; [tauto|]). intros R. rewrite R. split; [intros [] | discriminate].
  - destruct (finish_all s (x :: fs)) as [s1 e1] eqn:F.
    destruct (finish_all_plain _ _ _ _ F) as (H1 & H2 & H3 & H4 & H5 & H6 & H7 & H8).
    injection E as <- <-. unfold modest. fields. rewrite H1, H2, H3, H4, H5.
    repeat (split; [tauto|]). intros R. rewrite <- (H8 R), in_app_iff.
    match goal with |- context [if ?b then _ else _] => destruct b end; cbn [In]; intuition discriminate.
Qed.

Lemma cb_finished_modest : forall l s i s' es, cb_finished l s i = (s', es) -> modest s s' es.
Proof.
  intros l s i s' es E. unfold cb_finished in E.
  match type of E with context [if ?b then _ else _] => destruct b end.
  - match type of E with context [dispose_finished_data l ?x] => set (s1 := x) in * end.
    destruct (dispose_finished_data l s1) as [s2 e2] eqn:D. injection E as <- <-.
    pose proof (dispose_modest _ _ _ _ D) as M. unfold modest in *. unfold s1 in M. fields.
    destruct M as (M1 & M2 & M3 & M4 & M5 & M6). repeat (split; [assumption|]).
    intros R. rewrite <- (M6 R). cbn [In]. intuition discriminate.
  - injection E as <- <-. unfold modest. fields. repeat (split; [tauto|]). intros R. rewrite R. cbn [In].
    intuition discriminate.
Qed.

Lemma channel_setup_modest : forall l s i starts s' es, channel_setup l s i starts = (s', es) -> modest s s' es.
Proof.
  intros l s i starts s' es E. unfold channel_setup in E. destruct starts.
  - injection E as <- <-. unfold modest. fields. repeat (split; [tauto|]). intros R. rewrite R. cbn [In].
    intuition discriminate.
  - match type of E with context [cb_finished l ?x i] => set (s1 := x) in * end.
    destruct (cb_finished l s1 i) as [s2 e2] eqn:D. injection E as <- <-.
    pose proof (cb_finished_modest _ _ _ _ _ D) as M. unfold modest in *. unfold s1 in M. fields.
    destruct M as (M1 & M2 & M3 & M4 & M5 & M6). repeat (split; [assumption|]).
    intros R. rewrite <- (M6 R). cbn [In]. intuition discriminate.
Qed.

Lemma shutdown_modest : forall s s' es, shutdown s = (s', es) -> modest s s' es.
Proof.
  intros s s' es E. unfold shutdown in E. destruct (v_quitting s) eqn:Q.
  - injection E as <- <-. unfold modest. repeat (split; [tauto|]). intros R. rewrite R. cbn [In]. intuition discriminate.
  - fields. destruct (v_n_processing s =? 0); injection E as <- <-; unfold modest; fields;
      repeat (split; [tauto|]); intros R; rewrite ?R; cbn [In]; intuition discriminate.
Qed.

Lemma step_modest : forall m l s o s' es,
  loops m -> v_acceptor s = Resting -> service_step m l s o = (s', es) ->
  (v_next s' <= S (v_next s))%nat /\
  (v_watching s = false -> v_next s' = v_next s /\ v_watching s' = false) /\
  (v_quitting s = true -> v_quitting s' = true) /\
  (v_listen_channel s = false -> v_listen_channel s' = false) /\
  (v_listening_channel s = false -> v_listening_channel s' = false) /\
  (v_running s = true -> (In Quit es <-> v_running s' = false)) /\
  (v_running s = false -> es = [] /\ s' = s).
Proof.
  intros m l s o s' es M A E. unfold service_step in E.
  assert (Lift : modest s s' es -> v_running s = true ->
    (v_next s' <= S (v_next s))%nat /\
    (v_watching s = false -> v_next s' = v_next s /\ v_watching s' = false) /\
    (v_quitting s = true -> v_quitting s' = true) /\
    (v_listen_channel s = false -> v_listen_channel s' = false) /\
    (v_listening_channel s = false -> v_listening_channel s' = false) /\
    (v_running s = true -> (In Quit es <-> v_running s' = false)) /\
    (v_running s = false -> es = [] /\ s' = s)).
  { intros (M1 & M2 & M3 & M4 & M5 & M6) R. split; [lia|]. split; [tauto|]. repeat (split; [assumption|]).
    intros R'. congruence. }
  assert (Same : (s, []) = (s', es) -> modest s s' es).
  { intros X. injection X as <- <-. unfold modest. repeat (split; [tauto|]). intros R. rewrite R. cbn [In].
    intuition discriminate. }
  destruct (negb (v_running s) || v_stuck s || v_undefined s) eqn:B.
  { injection E as <- <-. split; [lia|]. do 4 (split; [tauto|]). split; [|tauto].
    intros R. rewrite R. cbn [In]. intuition discriminate. }
  apply orb_false_iff in B as [B B3]. apply orb_false_iff in B as [B1 B2]. apply negb_false_iff in B1.
  destruct o as [r|starts|i| | | | | |r|].
  - destruct (v_watching s) eqn:Wt; [|apply Lift; [apply Same; exact E | exact B1]].
    assert (Th : negb (threaded m) = true) by (destruct M as [-> | ->]; reflexivity).
    rewrite Th in E. cbn [andb] in E. unfold incoming in E.
    destruct (at_limit l s).
    { assert (X : (set_stuck s, [Suspended]) = (s', es)) by (destruct M as [-> | ->]; exact E).
      injection X as <- <-. fields. split; [lia|]. split; [discriminate|]. repeat (split; [tauto|]).
      rewrite B1. cbn [In]. split; [intuition discriminate | discriminate]. }
    destruct r as [starts| |].
    + destruct M as [-> | ->].
      * match type of E with context [channel_setup l ?x ?i ?st] => set (s1 := x) in *;
          destruct (channel_setup l s1 i st) as [s2 e2] eqn:D end.
        injection E as <- <-. pose proof (channel_setup_modest _ _ _ _ _ _ D) as (M1 & M2 & M3 & M4 & M5 & M6).
        unfold s1 in *. fields. split; [lia|]. split; [discriminate|]. repeat (split; [assumption|]).
        split; [|congruence]. intros R. rewrite <- (M6 R). cbn [In]. intuition discriminate.
      * injection E as <- <-. fields. split; [lia|]. split; [discriminate|]. repeat (split; [tauto|]).
        rewrite B1. cbn [In]. split; [intuition discriminate | discriminate].
    + apply Lift; [apply Same; exact E | exact B1].
    + destruct M as [-> | ->]; injection E as <- <-; fields; (split; [lia|]; split; [discriminate|]; repeat (split; [tauto|]);
        rewrite B1; cbn [In]; split; [intuition discriminate | discriminate]).
  - destruct (v_setup s) as [|i q]; [apply Lift; [apply Same; exact E | exact B1]|].
    apply Lift; [|exact B1]. apply channel_setup_modest in E. unfold modest in *. fields. exact E.
  - assert (X0 : (if holds (v_processing s) i && negb (holds (v_finished s) i) then cb_finished l s i else (s, [])) = (s', es))
      by (destruct M as [-> | ->]; exact E).
    clear E. rename X0 into E.
    destruct (holds (v_processing s) i && negb (holds (v_finished s) i));
      [|apply Lift; [apply Same; exact E | exact B1]].
    apply Lift; [|exact B1]. apply cb_finished_modest in E. exact E.
  - destruct (v_finisher s); [|apply Lift; [apply Same; exact E | exact B1]].
    apply Lift; [|exact B1]. apply dispose_modest in E. unfold modest in *. fields. exact E.
  - apply Lift; [|exact B1]. apply shutdown_modest. exact E.
  - destruct M as [-> | ->]; [apply Lift; [apply Same; exact E | exact B1]|].
    apply Lift; [|exact B1]. apply shutdown_modest in E. unfold modest in *. fields.
    destruct E as (M1 & M2 & M3 & M4 & M5 & M6). do 5 (split; [tauto|]). exact M6.
  - destruct (v_quitting s); [apply Lift; [apply Same; exact E | exact B1]|].
    destruct (shutdown s) as [s2 e2] eqn:D. injection E as <- <-. apply Lift; [|exact B1].
    apply shutdown_modest in D. destruct D as (M1 & M2 & M3 & M4 & M5 & M6). repeat (split; [assumption|]).
    intros R. rewrite <- (M6 R). cbn [In]. intuition discriminate.
  - rewrite A in E. destruct M as [-> | ->]; cbn [threaded andb] in E; (apply Lift; [apply Same; exact E | exact B1]).
  - rewrite A in E. apply Lift; [apply Same; exact E | exact B1].
  - rewrite A in E. apply Lift; [apply Same; exact E | exact B1].
Qed.

(** ** Runs *)

Lemma run_inv : forall m l ops s outs s' es,
  loops m -> inv m l s outs -> N.of_nat (v_next s + length ops) < GUINT ->
  service_run m l s ops = (s', es) -> inv m l s' (outs ++ es).
Proof.
  intros m l ops. induction ops as [|o ops IH]; intros s outs s' es M I G E; cbn [service_run] in E.
  - injection E as <- <-. rewrite app_nil_r. exact I.
  - destruct (service_step m l s o) as [t te] eqn:T. destruct (service_run m l t ops) as [u ue] eqn:U.
    injection E as <- <-. cbn [length] in G. rewrite app_assoc.
    pose proof (i_resting _ _ _ _ (i_weak _ _ _ _ I)) as A.
    destruct (step_modest _ _ _ _ _ _ M A T) as (Nx & _).
    eapply IH; [exact M | eapply step_inv; [exact M | exact I | lia | exact T] | lia | exact U].
Qed.

Lemma run_next : forall m l ops s outs s' es,
  loops m -> inv m l s outs -> N.of_nat (v_next s + length ops) < GUINT ->
  service_run m l s ops = (s', es) -> (v_next s' <= v_next s + length ops)%nat.
Proof.
  intros m l ops. induction ops as [|o ops IH]; intros s outs s' es M I G E; cbn [service_run] in E.
  - injection E as <- <-. lia.
  - destruct (service_step m l s o) as [t te] eqn:T. destruct (service_run m l t ops) as [u ue] eqn:U.
    injection E as <- <-. cbn [length] in G |- *.
    pose proof (i_resting _ _ _ _ (i_weak _ _ _ _ I)) as A.
    destruct (step_modest _ _ _ _ _ _ M A T) as (Nx & _).
    assert (I' : inv m l t (outs ++ te)) by (eapply step_inv; [exact M | exact I | lia | exact T]).
    pose proof (IH t (outs ++ te) u ue M I' ltac:(lia) U). lia.
Qed.

Lemma run_app : forall m l a b s,
  service_run m l s (a ++ b) =
  let '(s1, e1) := service_run m l s a in let '(s2, e2) := service_run m l s1 b in (s2, e1 ++ e2).
Proof.
  intros m l a b. induction a as [|o a IH]; intros s; cbn [app service_run].
  - destruct (service_run m l s b); reflexivity.
  - destruct (service_step m l s o) as [t te]. rewrite IH. destruct (service_run m l t a) as [u ue].
    destruct (service_run m l u b) as [v ve]. rewrite app_assoc. reflexivity.
Qed.

(** The event loop ends exactly when it is told to. *)
Lemma run_quit : forall m l ops s outs s' es,
  loops m -> inv m l s outs -> N.of_nat (v_next s + length ops) < GUINT ->
  (In Quit outs <-> v_running s = false) -> service_run m l s ops = (s', es) ->
  (In Quit (outs ++ es) <-> v_running s' = false).
Proof.
  intros m l ops. induction ops as [|o ops IH]; intros s outs s' es M I G Q E; cbn [service_run] in E.
  - injection E as <- <-. rewrite app_nil_r. exact Q.
  - destruct (service_step m l s o) as [t te] eqn:T. destruct (service_run m l t ops) as [u ue] eqn:U.
    injection E as <- <-. cbn [length] in G. rewrite app_assoc.
    pose proof (i_resting _ _ _ _ (i_weak _ _ _ _ I)) as A.
    destruct (step_modest _ _ _ _ _ _ M A T) as (Nx & _ & _ & _ & _ & Qt & Qf).
    eapply IH; [exact M | eapply step_inv; [exact M | exact I | lia | exact T] | lia | | exact U].
    destruct (v_running s) eqn:R.
    + rewrite in_app_iff, <- (Qt eq_refl). split; [intros [X|X]; [apply Q in X; discriminate | exact X] | tauto].
    + destruct (Qf eq_refl) as [-> ->]. rewrite app_nil_r, R. exact Q.
Qed.

(** Once nobody watches the listening socket no connection is taken any more. *)
Lemma run_unwatched : forall m l ops s outs s' es,
  loops m -> inv m l s outs -> N.of_nat (v_next s + length ops) < GUINT -> v_watching s = false ->
  service_run m l s ops = (s', es) -> taken es = [] /\ v_next s' = v_next s.
Proof.
  intros m l ops. induction ops as [|o ops IH]; intros s outs s' es M I G Wt E; cbn [service_run] in E.
  - injection E as <- <-. split; reflexivity.
  - destruct (service_step m l s o) as [t te] eqn:T. destruct (service_run m l t ops) as [u ue] eqn:U.
    injection E as <- <-. cbn [length] in G.
    pose proof (i_resting _ _ _ _ (i_weak _ _ _ _ I)) as A.
    destruct (step_modest _ _ _ _ _ _ M A T) as (_ & W & _). destruct (W Wt) as [Nx Wt'].
    assert (I' : inv m l t (outs ++ te)) by (eapply step_inv; [exact M | exact I | lia | exact T]).
    destruct (IH t (outs ++ te) u ue M I' ltac:(lia) Wt' U) as [Tu Nu].
    pose proof (i_taken _ _ _ _ (i_weak _ _ _ _ I)) as T1.
    pose proof (i_taken _ _ _ _ (i_weak _ _ _ _ I')) as T2.
    rewrite taken_app, T1, Nx in T2. rewrite <- app_nil_r in T2. apply app_inv_head in T2.
    rewrite taken_app, T2, Tu. split; [reflexivity | congruence].
Qed.

(** ** What starts the end, and what stops the loop *)

Lemma finish_all_same : forall ids s s' es, finish_all s ids = (s', es) ->
  v_quitting s' = v_quitting s /\ v_stuck s' = v_stuck s /\ v_listen_channel s' = v_listen_channel s.
Proof.
  intros ids s s' es E. destruct (finish_all_plain _ _ _ _ E) as (_ & _ & Q & L & _ & St & _). tauto.
Qed.

Definition steady (s s' : service) : Prop :=
  v_quitting s' = v_quitting s /\ v_stuck s' = v_stuck s /\ v_listen_channel s' = v_listen_channel s.

Lemma dispose_steady : forall l s s' es, dispose_finished_data l s = (s', es) -> steady s s'.
Proof.
  intros l s s' es E. unfold dispose_finished_data in E. destruct (v_finished s) as [|x fs].
  - injection E as <- <-. repeat split.
  - destruct (finish_all s (x :: fs)) as [s1 e1] eqn:F.
    apply finish_all_same in F. injection E as <- <-. unfold steady. fields. exact F.
Qed.

Lemma cb_finished_steady : forall l s i s' es, cb_finished l s i = (s', es) -> steady s s'.
Proof.
  intros l s i s' es E. unfold cb_finished in E.
  match type of E with context [if ?b then _ else _] => destruct b end.
  - match type of E with context [dispose_finished_data l ?x] => destruct (dispose_finished_data l x) as [s2 e2] eqn:D end.
    injection E as <- <-. apply dispose_steady in D. unfold steady in *. fields. exact D.
  - injection E as <- <-. repeat split.
Qed.

Lemma channel_setup_steady : forall l s i starts s' es, channel_setup l s i starts = (s', es) -> steady s s'.
Proof.
  intros l s i starts s' es E. unfold channel_setup in E. destruct starts.
  - injection E as <- <-. repeat split.
  - match type of E with context [cb_finished l ?x i] => destruct (cb_finished l x i) as [s2 e2] eqn:D end.
    injection E as <- <-. apply cb_finished_steady in D. unfold steady in *. fields. exact D.
Qed.

Lemma shutdown_ends : forall s s' es, shutdown s = (s', es) ->
  v_quitting s' = true /\ v_stuck s' = v_stuck s /\ v_listen_channel s' = v_listen_channel s.
Proof.
  intros s s' es E. unfold shutdown in E. destruct (v_quitting s) eqn:Q.
  - injection E as <- <-. auto.
  - fields. destruct (v_n_processing s =? 0); injection E as <- <-; fields; auto.
Qed.

Lemma step_ends : forall m l s o s' es,
  loops m -> v_acceptor s = Resting -> service_step m l s o = (s', es) ->
  (v_quitting s' = true -> v_quitting s = true \/ ends o = true) /\
  (v_stuck s' = true -> v_stuck s = true \/ In Suspended es) /\
  (m = SingleLoop -> v_listen_channel s' = v_listen_channel s).
Proof.
  intros m l s o s' es M A E. unfold service_step in E.
  assert (Lift : steady s s' ->
    (v_quitting s' = true -> v_quitting s = true \/ ends o = true) /\
    (v_stuck s' = true -> v_stuck s = true \/ In Suspended es) /\
    (m = SingleLoop -> v_listen_channel s' = v_listen_channel s)).
  { intros (X1 & X2 & X3). rewrite X1, X2, X3. tauto. }
  assert (Same : (s, []) = (s', es) -> steady s s').
  { intros X. injection X as <- <-. repeat split. }
  destruct (negb (v_running s) || v_stuck s || v_undefined s); [apply Lift, Same, E|].
  destruct o as [r|starts|i| | | | | |r|].
  - assert (Th : negb (threaded m) = true) by (destruct M as [-> | ->]; reflexivity).
    rewrite Th, andb_true_r in E. destruct (v_watching s); [|apply Lift, Same, E]. unfold incoming in E.
    destruct (at_limit l s).
    { assert (X : (set_stuck s, [Suspended]) = (s', es)) by (destruct M as [-> | ->]; exact E).
      injection X as <- <-. fields. split; [tauto|]. split; [right; left; reflexivity | tauto]. }
    destruct r as [starts| |].
    + destruct M as [-> | ->].
      * match type of E with context [channel_setup l ?x ?i ?st] => destruct (channel_setup l x i st) as [s2 e2] eqn:D end.
        injection E as <- <-. apply Lift. apply channel_setup_steady in D. exact D.
      * injection E as <- <-. apply Lift. repeat split.
    + apply Lift, Same, E.
    + apply Lift. destruct M as [-> | ->]; injection E as <- <-; repeat split.
  - destruct (v_setup s) as [|i q]; [apply Lift, Same, E|]. apply Lift. apply channel_setup_steady in E. exact E.
  - assert (X0 : (if holds (v_processing s) i && negb (holds (v_finished s) i) then cb_finished l s i else (s, [])) = (s', es))
      by (destruct M as [-> | ->]; exact E).
    clear E. rename X0 into E.
    destruct (holds (v_processing s) i && negb (holds (v_finished s) i)); [|apply Lift, Same, E].
    apply Lift. apply cb_finished_steady in E. exact E.
  - destruct (v_finisher s); [|apply Lift, Same, E]. apply Lift. apply dispose_steady in E. exact E.
  - apply shutdown_ends in E as (X1 & X2 & X3). cbn [ends]. rewrite X2, X3. tauto.
  - destruct M as [-> | ->]; [apply Lift, Same, E|].
    apply shutdown_ends in E as (X1 & X2 & X3). cbn [ends]. rewrite X2. fields. split; [tauto|]. split; [tauto|discriminate].
  - destruct (v_quitting s); [apply Lift, Same, E|].
    destruct (shutdown s) as [s2 e2] eqn:D. injection E as <- <-.
    apply shutdown_ends in D as (X1 & X2 & X3). cbn [ends]. rewrite X2, X3. tauto.
  - rewrite A in E. destruct M as [-> | ->]; cbn [threaded andb] in E; apply Lift, Same, E.
  - rewrite A in E. apply Lift, Same, E.
  - rewrite A in E. apply Lift, Same, E.
Qed.

Lemma run_ends : forall m l ops s outs s' es,
  loops m -> inv m l s outs -> N.of_nat (v_next s + length ops) < GUINT ->
  service_run m l s ops = (s', es) ->
  (v_quitting s' = true -> v_quitting s = true \/ existsb ends ops = true) /\
  (v_stuck s' = true -> v_stuck s = true \/ In Suspended es) /\
  (m = SingleLoop -> v_listen_channel s' = v_listen_channel s) /\
  (v_quitting s = true -> v_quitting s' = true) /\
  (v_listen_channel s = false -> v_listen_channel s' = false) /\
  (v_listening_channel s = false -> v_listening_channel s' = false).
Proof.
  intros m l ops. induction ops as [|o ops IH]; intros s outs s' es M I G E; cbn [service_run] in E.
  - injection E as <- <-. tauto.
  - destruct (service_step m l s o) as [t te] eqn:T. destruct (service_run m l t ops) as [u ue] eqn:U.
    injection E as <- <-. cbn [length] in G.
    pose proof (i_resting _ _ _ _ (i_weak _ _ _ _ I)) as A.
    destruct (step_modest _ _ _ _ _ _ M A T) as (Nx & _ & Q & L1 & L2 & _).
    destruct (step_ends _ _ _ _ _ _ M A T) as (S1 & S2 & S3).
    assert (I' : inv m l t (outs ++ te)) by (eapply step_inv; [exact M | exact I | lia | exact T]).
    destruct (IH t (outs ++ te) u ue M I' ltac:(lia) U) as (R1 & R2 & R3 & R4 & R5 & R6).
    cbn [existsb]. rewrite orb_true_iff, in_app_iff.
    split; [|split; [|split; [|tauto]]].
    + intros X. destruct (R1 X) as [Y|Y]; [apply S1 in Y; tauto | tauto].
    + intros X. destruct (R2 X) as [Y|Y]; [apply S2 in Y; tauto | tauto].
    + intros X. rewrite (R3 X). apply S3. exact X.
Qed.

(** The watch of the listening socket, and the socket the loop opened itself. *)
Definition watchful (s s' : service) : Prop :=
  v_watching s' = v_watching s /\ v_quitting s' = v_quitting s /\ v_listening_channel s' = v_listening_channel s.

Lemma dispose_watchful : forall l s s' es, dispose_finished_data l s = (s', es) -> watchful s s'.
Proof.
  intros l s s' es E. unfold dispose_finished_data in E. destruct (v_finished s) as [|x fs].
  - injection E as <- <-. repeat split.
  - destruct (finish_all s (x :: fs)) as [s1 e1] eqn:F.
    apply finish_all_plain in F. injection E as <- <-. unfold watchful. fields. tauto.
Qed.

Lemma cb_finished_watchful : forall l s i s' es, cb_finished l s i = (s', es) -> watchful s s'.
Proof.
  intros l s i s' es E. unfold cb_finished in E.
  match type of E with context [if ?b then _ else _] => destruct b end.
  - match type of E with context [dispose_finished_data l ?x] => destruct (dispose_finished_data l x) as [s2 e2] eqn:D end.
    injection E as <- <-. apply dispose_watchful in D. unfold watchful in *. fields. exact D.
  - injection E as <- <-. repeat split.
Qed.

Lemma channel_setup_watchful : forall l s i starts s' es, channel_setup l s i starts = (s', es) -> watchful s s'.
Proof.
  intros l s i starts s' es E. unfold channel_setup in E. destruct starts.
  - injection E as <- <-. repeat split.
  - match type of E with context [cb_finished l ?x i] => destruct (cb_finished l x i) as [s2 e2] eqn:D end.
    injection E as <- <-. apply cb_finished_watchful in D. unfold watchful in *. fields. exact D.
Qed.

Lemma shutdown_closes : forall s s' es, shutdown s = (s', es) ->
  (v_quitting s = true -> v_listening_channel s = false) -> v_listening_channel s' = false.
Proof.
  intros s s' es E X. unfold shutdown in E. destruct (v_quitting s) eqn:Q.
  - injection E as <- <-. auto.
  - fields. destruct (v_n_processing s =? 0); injection E as <- <-; fields; auto.
Qed.

Lemma step_watch : forall m l s o s' es,
  loops m -> v_acceptor s = Resting -> service_step m l s o = (s', es) ->
  (v_watching s = true -> v_watching s' = true \/ ends o = true \/ In AcceptError es) /\
  ((v_quitting s = true -> v_listening_channel s = false) ->
   (v_quitting s' = true -> v_listening_channel s' = false)).
Proof.
  intros m l s o s' es M A E. unfold service_step in E.
  assert (Lift : watchful s s' ->
    (v_watching s = true -> v_watching s' = true \/ ends o = true \/ In AcceptError es) /\
    ((v_quitting s = true -> v_listening_channel s = false) ->
     (v_quitting s' = true -> v_listening_channel s' = false))).
  { intros (X1 & X2 & X3). rewrite X1, X2, X3. tauto. }
  assert (Same : (s, []) = (s', es) -> watchful s s').
  { intros X. injection X as <- <-. repeat split. }
  destruct (negb (v_running s) || v_stuck s || v_undefined s); [apply Lift, Same, E|].
  destruct o as [r|starts|i| | | | | |r|].
  - assert (Th : negb (threaded m) = true) by (destruct M as [-> | ->]; reflexivity).
    rewrite Th, andb_true_r in E. destruct (v_watching s) eqn:Wt; [|apply Lift, Same, E]. unfold incoming in E.
    destruct (at_limit l s).
    { assert (X : (set_stuck s, [Suspended]) = (s', es)) by (destruct M as [-> | ->]; exact E).
      injection X as <- <-. fields. split; tauto. }
    destruct r as [starts| |].
    + destruct M as [-> | ->].
      * match type of E with context [channel_setup l ?x ?i ?st] => destruct (channel_setup l x i st) as [s2 e2] eqn:D end.
        injection E as <- <-. apply channel_setup_watchful in D. unfold watchful in D. fields.
        destruct D as (X1 & X2 & X3). rewrite X1, X2, X3. tauto.
      * injection E as <- <-. fields. tauto.
    + apply Lift, Same, E.
    + destruct M as [-> | ->]; injection E as <- <-; fields; cbn [In]; tauto.
  - destruct (v_setup s) as [|i q]; [apply Lift, Same, E|]. apply Lift. apply channel_setup_watchful in E. exact E.
  - assert (X0 : (if holds (v_processing s) i && negb (holds (v_finished s) i) then cb_finished l s i else (s, [])) = (s', es))
      by (destruct M as [-> | ->]; exact E).
    clear E. rename X0 into E.
    destruct (holds (v_processing s) i && negb (holds (v_finished s) i)); [|apply Lift, Same, E].
    apply Lift. apply cb_finished_watchful in E. exact E.
  - destruct (v_finisher s); [|apply Lift, Same, E]. apply Lift. apply dispose_watchful in E. exact E.
  - cbn [ends]. split; [tauto|]. intros X _. apply (shutdown_closes _ _ _ E X).
  - destruct M as [-> | ->]; [apply Lift, Same, E|].
    cbn [ends]. split; [tauto|]. intros X _. apply (shutdown_closes _ _ _ E). fields. reflexivity.
  - destruct (v_quitting s) eqn:Q; [apply Lift, Same, E|].
    destruct (shutdown s) as [s2 e2] eqn:D. injection E as <- <-.
    cbn [ends]. split; [tauto|]. intros X _. apply (shutdown_closes _ _ _ D). rewrite Q. exact X.
  - rewrite A in E. destruct M as [-> | ->]; cbn [threaded andb] in E; apply Lift, Same, E.
  - rewrite A in E. apply Lift, Same, E.
  - rewrite A in E. apply Lift, Same, E.
Qed.

Lemma run_watch : forall m l ops s outs s' es,
  loops m -> inv m l s outs -> N.of_nat (v_next s + length ops) < GUINT ->
  service_run m l s ops = (s', es) ->
  (v_watching s = true -> v_watching s' = true \/ existsb ends ops = true \/ In AcceptError es) /\
  ((v_quitting s = true -> v_listening_channel s = false) ->
   (v_quitting s' = true -> v_listening_channel s' = false)).
Proof.
  intros m l ops. induction ops as [|o ops IH]; intros s outs s' es M I G E; cbn [service_run] in E.
  - injection E as <- <-. tauto.
  - destruct (service_step m l s o) as [t te] eqn:T. destruct (service_run m l t ops) as [u ue] eqn:U.
    injection E as <- <-. cbn [length] in G.
    pose proof (i_resting _ _ _ _ (i_weak _ _ _ _ I)) as A.
    destruct (step_modest _ _ _ _ _ _ M A T) as (Nx & _).
    destruct (step_watch _ _ _ _ _ _ M A T) as (S1 & S2).
    assert (I' : inv m l t (outs ++ te)) by (eapply step_inv; [exact M | exact I | lia | exact T]).
    destruct (IH t (outs ++ te) u ue M I' ltac:(lia) U) as (R1 & R2).
    cbn [existsb]. rewrite orb_true_iff, in_app_iff. split; [|tauto].
    intros X. destruct (S1 X) as [Y|[Y|Y]]; [destruct (R1 Y) as [Z|[Z|Z]]| |]; tauto.
Qed.

(** A loop that sleeps for good, or has ended, does nothing. *)
Lemma run_still : forall m l ops s, v_running s = false \/ v_stuck s = true -> service_run m l s ops = (s, []).
Proof.
  intros m l ops s X. induction ops as [|o ops IH]; cbn [service_run]; [reflexivity|].
  unfold service_step. replace (negb (v_running s) || v_stuck s || v_undefined s)%bool with true.
  - rewrite IH. reflexivity.
  - destruct X as [-> | ->]; [|rewrite orb_true_r]; reflexivity.
Qed.

(** ** The statements about whole runs *)

Section Run.
  Variable m : mode.
  Variable l : limits.
  Variable listened : bool.
  Variable ops : list service_op.
  Variable s : service.
  Variable outs : list service_event.
  Hypothesis M : loops m.
  Hypothesis G : N.of_nat (length ops) < GUINT.
  Hypothesis E : service_run m l (service_start listened) ops = (s, outs).

  Lemma whole_inv : inv m l s outs.
  Proof. exact (run_inv m l ops _ [] s outs M (start_inv m l listened) G E). Qed.

  Lemma whole_quit : In Quit outs <-> v_running s = false.
  Proof.
    apply (run_quit m l ops _ [] s outs M (start_inv m l listened) G); [|exact E].
    unfold service_start. fields. split; [intros [] | discriminate].
  Qed.

  Lemma whole_stuck : v_stuck s = true -> In Suspended outs.
  Proof.
    intros X. destruct (run_ends m l ops _ [] s outs M (start_inv m l listened) G E) as (_ & R & _).
    destruct (R X) as [Y|Y]; [discriminate Y | exact Y].
  Qed.

  Lemma whole_open : open outs = v_n_processing s.
  Proof.
    pose proof (i_core _ _ _ _ (i_weak _ _ _ _ whole_inv)) as C. pose proof (c_total _ _ _ _ C) as T.
    unfold open. lia.
  Qed.

  Lemma whole_next : N.of_nat (v_next s) = N.of_nat (length (taken outs)).
  Proof. apply (c_next _ _ _ _ (i_core _ _ _ _ (i_weak _ _ _ _ whole_inv))). Qed.

  Lemma whole_accounting :
    taken outs = seq 0 (length (taken outs)) /\
    (exists waiting, taken outs = served outs ++ waiting /\ (m = SingleLoop -> waiting = [])) /\
    NoDup (over outs) /\ incl (over outs) (served outs) /\
    reported outs <= N.of_nat (length (over outs)) /\
    (0 < l_max_pending l -> N.of_nat (length (over outs)) <= reported outs + l_max_pending l).
  Proof.
    pose proof whole_inv as [W F P].
    split; [rewrite (i_taken _ _ _ _ W), seq_length; reflexivity|].
    split; [exists (v_setup s); split; [apply (i_served _ _ _ _ W) | apply (i_single _ _ _ _ W)]|].
    split; [apply (i_over_nodup _ _ _ _ W)|]. split; [apply (i_over_served _ _ _ _ W)|].
    pose proof (i_over_len _ _ _ _ W) as L. split; [lia|]. intros X. specialize (P X). lia.
  Qed.

  Lemma whole_limit : 0 < l_max_connections l ->
    open outs <= l_max_connections l /\
    N.of_nat (length (taken outs)) <= N.of_nat (length (over outs)) + l_max_connections l.
  Proof.
    intros X. rewrite whole_open. pose proof (i_limit _ _ _ _ (i_weak _ _ _ _ whole_inv) X) as L. split; [exact L|].
    pose proof (i_over_len _ _ _ _ (i_weak _ _ _ _ whole_inv)) as O.
    pose proof (c_total _ _ _ _ (i_core _ _ _ _ (i_weak _ _ _ _ whole_inv))) as T. lia.
  Qed.

  Lemma whole_running : v_quitting s = false -> v_running s = true.
  Proof. intros Q. rewrite (i_running _ _ _ _ (i_weak _ _ _ _ whole_inv)), Q. reflexivity. Qed.

  (** After a turn of the finisher nothing is pending. *)
  (** After a turn of the finisher nothing is pending. *)
  Lemma whole_idle : forall s' es, N.of_nat (S (length ops)) < GUINT -> ~ In Suspended outs ->
    service_step m l s Idle = (s', es) -> N.of_nat (length (over (outs ++ es))) = reported (outs ++ es).
  Proof.
    intros s' es G' NS T. pose proof whole_inv as I. pose proof (i_weak _ _ _ _ I) as W.
    pose proof (i_core _ _ _ _ W) as C.
    assert (Nx : (v_next s <= length ops)%nat).
    { exact (run_next m l ops (service_start listened) [] s outs M (start_inv m l listened) G E). }
    assert (I' : inv m l s' (outs ++ es)) by (eapply step_inv; [exact M | exact I | lia | exact T]).
    assert (Fin : v_finished s' = []).
    { unfold service_step in T. destruct (v_stuck s) eqn:St; [destruct NS; apply whole_stuck; exact St|].
      rewrite (i_defined _ _ _ _ W), !orb_false_r in T. destruct (v_running s) eqn:R; cbn [negb] in T.
      - destruct (v_finisher s) eqn:F.
        + unfold dispose_finished_data in T. cbn [v_finished set_finished] in T.
          destruct (v_finished s) as [|x fs] eqn:Fs; [injection T as <- <-; fields; reflexivity|].
          destruct (finish_all _ _) as [s1 e1]. injection T as <- <-. fields. reflexivity.
        + injection T as <- <-. destruct (v_finished s) as [|x fs] eqn:Fs; [reflexivity|].
          rewrite (i_finisher _ _ _ _ I) in F; [discriminate | rewrite Fs; discriminate].
      - injection T as <- <-. rewrite (i_running _ _ _ _ W) in R. apply negb_false_iff, andb_true_iff in R as [_ R].
        apply N.eqb_eq in R. pose proof (c_count _ _ _ _ C) as K. pose proof (c_fin _ _ _ _ C) as X.
        destruct (v_processing s) as [|y ys]; [|cbn [length] in K; lia].
        destruct (v_finished s) as [|x fs]; [reflexivity|]. destruct (X x (or_introl eq_refl)). }
    pose proof (i_over_len _ _ _ _ (i_weak _ _ _ _ I')) as L. rewrite Fin in L. cbn [length] in L. lia.
  Qed.

  (** A shutdown. *)
  Lemma whole_shutdown : forall ops2 s2 outs2, N.of_nat (length ops + S (length ops2)) < GUINT ->
    ~ In Suspended outs ->
    service_run m l s (Shutdown :: ops2) = (s2, outs2) ->
    taken outs2 = [] /\
    (In Quit (outs ++ outs2) <-> open (outs ++ outs2) = 0) /\
    v_listening_channel s2 = false /\
    (listened = false -> v_listen_channel s2 = false).
  Proof.
    intros ops2 s2 outs2 G2 NS R. pose proof whole_inv as I.
    assert (Nx : (v_next s <= length ops)%nat).
    { exact (run_next m l ops (service_start listened) [] s outs M (start_inv m l listened) G E). }
    pose proof (i_resting _ _ _ _ (i_weak _ _ _ _ I)) as A.
    cbn [service_run] in R. destruct (service_step m l s Shutdown) as [t te] eqn:T.
    destruct (service_run m l t ops2) as [u ue] eqn:U. injection R as <- <-.
    assert (I' : inv m l t (outs ++ te)) by (eapply step_inv; [exact M | exact I | lia | exact T]).
    destruct (step_modest _ _ _ _ _ _ M A T) as (_ & Wm & Qm & L1 & _ & Qt & Qf).
    assert (Q : v_quitting t = true).
    { unfold service_step in T. destruct (v_stuck s) eqn:St; [destruct NS; apply whole_stuck; exact St|].
      rewrite (i_defined _ _ _ _ (i_weak _ _ _ _ I)), !orb_false_r in T.
      destruct (v_running s) eqn:Rs; cbn [negb] in T.
      - apply shutdown_ends in T. tauto.
      - injection T as <- <-. rewrite (i_running _ _ _ _ (i_weak _ _ _ _ I)) in Rs.
        apply negb_false_iff, andb_true_iff in Rs. tauto. }
    assert (Nt : v_next t = v_next s).
    { unfold service_step in T.
      destruct (negb (v_running s) || v_stuck s || v_undefined s); [injection T as <- <-; reflexivity|].
      apply shutdown_modest in T. unfold modest in T. tauto. }
    pose proof (i_watching _ _ _ _ (i_weak _ _ _ _ I') Q) as Wt.
    assert (Gt : N.of_nat (v_next t + length ops2) < GUINT) by lia.
    destruct (run_unwatched _ _ _ _ _ _ _ M I' Gt Wt U) as [Tu Nu].
    pose proof (run_inv _ _ _ _ _ _ _ M I' Gt U) as Iu.
    assert (Qi : In Quit (outs ++ te) <-> v_running t = false).
    { rewrite in_app_iff. pose proof whole_quit as X. destruct (v_running s) eqn:Rs.
      - rewrite <- (Qt eq_refl). rewrite X. intuition discriminate.
      - destruct (Qf eq_refl) as [-> ->]. rewrite Rs. cbn [In]. rewrite X. tauto. }
    pose proof (run_quit _ _ _ _ _ _ _ M I' Gt Qi U) as Qu.
    destruct (run_ends _ _ _ _ _ _ _ M I' Gt U) as (_ & _ & _ & Qu' & Lc & _).
    destruct (run_watch _ _ _ _ _ _ _ M I' Gt U) as (_ & Lg).
    split; [|split; [|split]].
    - rewrite taken_app, Tu, app_nil_r.
      pose proof (i_taken _ _ _ _ (i_weak _ _ _ _ I)) as T1. pose proof (i_taken _ _ _ _ (i_weak _ _ _ _ I')) as T2.
      rewrite taken_app, T1, Nt in T2. rewrite <- app_nil_r in T2. apply app_inv_head in T2. exact T2.
    - rewrite app_assoc. rewrite Qu, (i_running _ _ _ _ (i_weak _ _ _ _ Iu)), (Qu' Q). cbn [andb].
      rewrite negb_false_iff, N.eqb_eq.
      pose proof (c_total _ _ _ _ (i_core _ _ _ _ (i_weak _ _ _ _ Iu))) as K. unfold open. split; lia.
    - apply Lg; [|apply Qu'; exact Q].
      destruct (step_watch _ _ _ _ _ _ M A T) as (_ & X). apply X.
      destruct (run_watch _ _ _ _ _ _ _ M (start_inv m l listened) G E) as (_ & Y).
      intros Z. apply Y; [unfold service_start; fields; discriminate | exact Z].
    - intros X. apply Lc, L1.
      destruct (run_ends _ _ _ _ _ _ _ M (start_inv m l listened) G E) as (_ & _ & _ & _ & Y & _).
      apply Y. exact X.
  Qed.

  (** Nobody but a shutdown ends the loop. *)
  Lemma whole_unasked : existsb ends ops = false -> ~ In Quit outs.
  Proof.
    intros X Y. apply whole_quit in Y.
    destruct (v_quitting s) eqn:Q; [|rewrite (whole_running Q) in Y; discriminate].
    destruct (run_ends _ _ _ _ _ _ _ M (start_inv m l listened) G E) as (Z & _).
    destruct (Z Q) as [K|K]; [discriminate K | congruence].
  Qed.

  Lemma whole_listening : m = SingleLoop -> listened = true -> v_listen_channel s = true.
  Proof.
    intros X Y. destruct (run_ends _ _ _ _ _ _ _ M (start_inv m l listened) G E) as (_ & _ & Z & _).
    rewrite (Z X). exact Y.
  Qed.

  (** At the limit one more connection stops everything. *)
  Lemma whole_frozen : forall r ops2,
    0 < l_max_connections l -> open outs = l_max_connections l -> ~ In Suspended outs ->
    existsb ends ops = false -> ~ In AcceptError outs ->
    snd (service_run m l s (Incoming r :: ops2)) = [Suspended].
  Proof.
    intros r ops2 L O NS NE NA. pose proof whole_inv as I. rewrite whole_open in O.
    assert (Wt : v_watching s = true).
    { destruct (run_watch _ _ _ _ _ _ _ M (start_inv m l listened) G E) as (X & _).
      destruct (X eq_refl) as [Y|[Y|Y]]; [exact Y | congruence | tauto]. }
    assert (R : v_running s = true).
    { destruct (v_running s) eqn:R; [reflexivity|]. destruct (whole_unasked NE). apply whole_quit. exact R. }
    assert (St : v_stuck s = false).
    { destruct (v_stuck s) eqn:St; [destruct NS; apply whole_stuck; exact St | reflexivity]. }
    cbn [service_run]. unfold service_step. rewrite R, St, (i_defined _ _ _ _ (i_weak _ _ _ _ I)), Wt.
    cbn [negb orb andb]. assert (Th : threaded m = false) by (destruct M as [-> | ->]; reflexivity).
    rewrite Th. cbn [negb]. unfold incoming, at_limit. rewrite O, N.leb_refl.
    apply N.ltb_lt in L. rewrite L. cbn [andb].
    assert (X : match m with MultiThread => (s, [Suspended]) | _ => (set_stuck s, [Suspended]) end
                = (set_stuck s, [Suspended])) by (destruct M as [-> | ->]; reflexivity).
    rewrite X, run_still; [reflexivity | right; fields; reflexivity].
  Qed.
End Run.
