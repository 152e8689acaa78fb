(** Proofs about the event loop. *)
From Verif.Base Require Import Bytes BytesFacts.
From Verif.Model Require Import EventLoop.
From Verif.Spec Require Import EventLoopSpec.
Local Open Scope Z_scope.

(** ** Histories *)
Lemma steps_app es : forall l es', steps l (es ++ es') =
  match steps l es with
  | None => None
  | Some (l, o) => match steps l es' with None => None | Some (l, o') => Some (l, o ++ o') end
  end.
Proof.
  induction es as [|e es IH]; intros l es'; cbn [steps app].
  - destruct (steps l es') as [[l1 o1]|]; reflexivity.
  - destruct (step l e) as [[l1 o1]|]; [|reflexivity]. rewrite IH. destruct (steps l1 es) as [[l2 o2]|]; [|reflexivity].
    destruct (steps l2 es') as [[l3 o3]|]; [|reflexivity]. rewrite app_assoc. reflexivity.
Qed.

Section Invariants.
  Variable I : loop -> list out -> Prop.
  Hypothesis start : I loop_new [].
  Hypothesis keep : forall l tr e l' o, I l tr -> step l e = Some (l', o) -> I l' (tr ++ o).
  Lemma steps_invariant es l tr : steps loop_new es = Some (l, tr) -> I l tr.
  Proof.
    revert l tr. induction es as [|e es IH] using rev_ind; intros l tr H.
    - injection H as <- <-. exact start.
    - rewrite steps_app in H. destruct (steps loop_new es) as [[l1 o1]|]; [|discriminate]. cbn [steps] in H.
      destruct (step l1 e) as [[l2 o2]|] eqn:E; [|discriminate]. injection H as <- <-. rewrite app_nil_r.
      exact (keep _ _ _ _ _ (IH _ _ eq_refl) E).
  Qed.
End Invariants.

Lemma there_app tr o : there (tr ++ o) = fold_left note o (there tr).
Proof. unfold there. apply fold_left_app. Qed.
Lemma runs_app tr o : runs (tr ++ o) = fold_left note_run o (runs tr).
Proof. unfold runs. apply fold_left_app. Qed.
Lemma life_app n tr o : life n (tr ++ o) = life n tr ++ life n o.
Proof. apply filter_app. Qed.

(** ** Watchers *)
Definition seen (w : watcher) : nat * N * kind := (w_serial w, w_id w, w_kind w).

Definition tables (l : loop) : Prop :=
  NoDup (map w_serial (l_watchers l)) /\ NoDup (map w_id (l_watchers l)) /\
  (forall w, In w (l_watchers l) -> (w_serial w < l_added l)%nat /\ (0 < w_id w < two32)%N) /\
  (l_id l < two32)%N /\
  (forall id n k, In (Callback id n k) (l_stack l) -> (n < l_added l)%nat).

Lemma find_watcher_some id ws w : find_watcher id ws = Some w -> In w ws /\ w_id w = id.
Proof. unfold find_watcher. intros H. apply find_some in H. destruct H as [H E]. split; [exact H|]. apply N.eqb_eq, E. Qed.
Lemma find_watcher_none id ws : find_watcher id ws = None -> forall w, In w ws -> w_id w <> id.
Proof. unfold find_watcher. intros H w I E. apply (find_none _ _ H) in I. apply N.eqb_neq in I. congruence. Qed.
Lemma find_serial_some n ws w : find_serial n ws = Some w -> In w ws /\ w_serial w = n.
Proof. unfold find_serial. intros H. apply find_some in H. destruct H as [H E]. split; [exact H|]. apply Nat.eqb_eq, E. Qed.
Lemma find_serial_in n ws w : NoDup (map w_serial ws) -> In w ws -> w_serial w = n -> find_serial n ws = Some w.
Proof.
  intros D H E. destruct (find_serial n ws) as [w'|] eqn:F.
  - destruct (find_serial_some _ _ _ F) as [H' E']. f_equal. subst n. clear F.
    induction ws as [|x ws IH]; [destruct H|]. cbn in D. apply NoDup_cons_iff in D. destruct D as [D1 D2].
    destruct H as [->|H], H' as [->|H']; [reflexivity | | | exact (IH D2 H H')]; destruct D1.
    + rewrite <- E'. apply in_map, H'.
    + rewrite E'. apply in_map, H.
  - unfold find_serial in F. apply (find_none _ _ F) in H. apply Nat.eqb_neq in H. congruence.
Qed.

Lemma drop_unique ws w : NoDup (map w_serial ws) -> NoDup (map w_id ws) -> In w ws ->
  drop_watcher (w_id w) ws = filter (fun x => negb (Nat.eqb (w_serial x) (w_serial w))) ws.
Proof.
  intros D1 D2 H. unfold drop_watcher. apply filter_ext_in. intros x X. f_equal.
  destruct (N.eqb_spec (w_id x) (w_id w)) as [E|E], (Nat.eqb_spec (w_serial x) (w_serial w)) as [E'|E']; try reflexivity; exfalso.
  - apply E'. clear E'. induction ws as [|y ws IH]; [destruct H|]. cbn in D1, D2. apply NoDup_cons_iff in D1, D2.
    destruct D1 as [D1 D1'], D2 as [D2 D2']. destruct H as [->|H], X as [->|X]; [reflexivity | | | exact (IH D1' D2' H X)]; destruct D2.
    + rewrite <- E. apply in_map, X.
    + rewrite E. apply in_map, H.
  - apply E. clear E. induction ws as [|y ws IH]; [destruct H|]. cbn in D1, D2. apply NoDup_cons_iff in D1, D2.
    destruct D1 as [D1 D1'], D2 as [D2 D2']. destruct H as [->|H], X as [->|X]; [reflexivity | | | exact (IH D1' D2' H X)]; destruct D1.
    + rewrite <- E'. apply in_map, X.
    + rewrite E'. apply in_map, H.
Qed.

Lemma NoDup_filter_map {A B} (f : A -> B) (p : A -> bool) l : NoDup (map f l) -> NoDup (map f (filter p l)).
Proof.
  induction l as [|a l IH]; intros H; [constructor|]. cbn in H. apply NoDup_cons_iff in H. destruct H as [H1 H2].
  cbn [filter]. destruct (p a); [|exact (IH H2)]. cbn. constructor; [|exact (IH H2)].
  intros X. apply H1. apply in_map_iff in X. destruct X as (b & E & X). apply filter_In in X. rewrite <- E. apply in_map, X.
Qed.

Lemma NoDup_snoc {A} (l : list A) a : NoDup l -> ~ In a l -> NoDup (l ++ [a]).
Proof.
  intros H N. apply NoDup_rev in H. rewrite <- (rev_involutive (l ++ [a])). apply NoDup_rev. rewrite rev_app_distr. cbn.
  constructor; [|exact H]. intros X. apply N. apply in_rev, X.
Qed.

(** *** IDs *)
Lemma next_id_sound fuel : forall id ws i, next_id fuel id ws = Some i ->
  (0 < i < two32)%N /\ forall w, In w ws -> w_id w <> i.
Proof.
  induction fuel as [|fuel IH]; intros id ws i H; [discriminate|]. cbn [next_id] in H. cbv zeta in H.
  assert (B : ((id + 1) mod two32 < two32)%N) by (apply N.mod_lt; discriminate).
  set (j := ((id + 1) mod two32)%N) in *. clearbody j. destruct (N.eqb_spec j 0) as [Z|Z]; [exact (IH _ _ _ H)|].
  destruct (find_watcher j ws) eqn:F; [exact (IH _ _ _ H)|]. injection H as <-. split; [lia|]. exact (find_watcher_none _ _ F).
Qed.

(** The IDs tried one after the other. *)
Fixpoint tried (fuel : nat) (id : N) : list N :=
  match fuel with
  | O => []
  | S fuel => let id := ((id + 1) mod two32)%N in id :: tried fuel id
  end.

Lemma tried_nth fuel : forall id i, In i (tried fuel id) -> exists k, (1 <= k <= N.of_nat fuel)%N /\ i = ((id + k) mod two32)%N.
Proof.
  induction fuel as [|fuel IH]; intros id i H; [destruct H|]. cbn [tried] in H. destruct H as [<-|H].
  - exists 1%N. split; [lia|reflexivity].
  - destruct (IH _ _ H) as (k & K & ->). exists (k + 1)%N. split; [lia|].
    rewrite N.add_mod_idemp_l by discriminate. f_equal. lia.
Qed.

Lemma tried_nodup fuel : forall id, (N.of_nat fuel <= two32)%N -> NoDup (tried fuel id).
Proof.
  induction fuel as [|fuel IH]; intros id B; [constructor|]. cbn [tried]. constructor; [|apply IH; lia].
  intros H. destruct (tried_nth _ _ _ H) as (k & K & E). rewrite N.add_mod_idemp_l in E by discriminate.
  assert (two32 <> 0)%N by discriminate. clear IH H. set (a := (id + 1)%N) in *. clearbody a.
  pose proof (N.div_mod a two32 H0). pose proof (N.div_mod (a + k) two32 H0). pose proof (N.mod_lt a two32 H0).
  rewrite E in H. set (q := (a / two32)%N) in *. set (q' := ((a + k) / two32)%N) in *. set (r := ((a + k) mod two32)%N) in *.
  clearbody q q' r. unfold two32 in *. assert (k = 4294967296 * (q' - q))%N by nia. nia.
Qed.

Lemma next_id_none fuel : forall id ws, next_id fuel id ws = None ->
  forall i, In i (tried fuel id) -> i = 0%N \/ In i (map w_id ws).
Proof.
  induction fuel as [|fuel IH]; intros id ws H i I; [destruct I|]. cbn [next_id] in H. cbn [tried] in I. cbv zeta in H, I.
  set (j := ((id + 1) mod two32)%N) in *. clearbody j. destruct I as [<-|I].
  - destruct (N.eqb_spec j 0) as [Z|Z]; [left; exact Z|]. destruct (find_watcher j ws) as [w|] eqn:F; [|discriminate].
    destruct (find_watcher_some _ _ _ F) as [W <-]. right. apply in_map, W.
  - apply (IH j ws); [|exact I]. destruct (N.eqb_spec j 0); [exact H|]. destruct (find_watcher j ws); [exact H|discriminate].
Qed.

Lemma next_id_complete id ws : (N.of_nat (length ws) < two32 - 1)%N -> next_id (S (S (length ws))) id ws <> None.
Proof.
  intros B H. pose proof (next_id_none _ _ _ H) as K.
  assert (D : NoDup (tried (S (S (length ws))) id)) by (apply tried_nodup; unfold two32 in *; lia).
  assert (L : (length (tried (S (S (length ws))) id) <= length (0%N :: map w_id ws))%nat).
  { apply NoDup_incl_length; [exact D|]. intros i I. destruct (K i I) as [->|X]; [left; reflexivity|right; exact X]. }
  assert (forall f i, length (tried f i) = f) as T by (induction f; intros; cbn; [|rewrite IHf]; reflexivity).
  rewrite T in L. cbn [length] in L. rewrite map_length in L. lia.
Qed.

(** *** The invariant *)
Ltac break :=
  repeat match goal with
  | H : Some _ = Some _ |- _ => injection H as H; try subst
  | H : (_, _) = (_, _) |- _ => injection H as H; try subst
  | H : None = Some _ |- _ => discriminate H
  | H : (if ?b then _ else _) = Some _ |- _ => destruct b eqn:?
  | H : match ?x with _ => _ end = Some _ |- _ => destruct x eqn:?
  end.

Lemma set_inactive_serial n ws : map w_serial (set_inactive n ws) = map w_serial ws.
Proof. unfold set_inactive. rewrite map_map. apply map_ext. intros w. destruct (Nat.eqb (w_serial w) n); reflexivity. Qed.
Lemma set_inactive_id n ws : map w_id (set_inactive n ws) = map w_id ws.
Proof. unfold set_inactive. rewrite map_map. apply map_ext. intros w. destruct (Nat.eqb (w_serial w) n); reflexivity. Qed.
Lemma set_inactive_seen n ws : map seen (set_inactive n ws) = map seen ws.
Proof. unfold set_inactive. rewrite map_map. apply map_ext. intros w. unfold seen. destruct (Nat.eqb (w_serial w) n); reflexivity. Qed.
Lemma set_inactive_in n ws w : In w (set_inactive n ws) -> exists w', In w' ws /\ w_serial w = w_serial w' /\ w_id w = w_id w'.
Proof.
  unfold set_inactive. intros H. apply in_map_iff in H. destruct H as (x & <- & H). exists x. split; [exact H|].
  destruct (Nat.eqb (w_serial x) n); split; reflexivity.
Qed.

(** What an event does to the sources. *)
Definition quiet (o : out) : bool := match o with Added _ _ _ | Destroyed _ | Called _ _ => false | _ => true end.

Inductive effect (l l' : loop) (o : list out) : Prop :=
| E_add id k : next_id (S (S (length (l_watchers l)))) (l_id l) (l_watchers l) = Some id ->
    l_watchers l' = l_watchers l ++ [mk_watcher id (l_added l) k true] -> l_added l' = S (l_added l) -> l_id l' = id ->
    o = [Added (l_added l) id k] -> l_stack l' = l_stack l -> effect l l' o
| E_remove w x : In w (l_watchers l) -> quiet x = true -> l_watchers l' = drop_watcher (w_id w) (l_watchers l) ->
    l_added l' = l_added l -> l_id l' = l_id l -> o = [x; Destroyed (w_serial w)] ->
    (forall id n k, In (Callback id n k) (l_stack l') -> In (Callback id n k) (l_stack l)) -> effect l l' o
| E_call w c : In w (l_watchers l) ->
    (l_watchers l' = l_watchers l \/ l_watchers l' = set_inactive (w_serial w) (l_watchers l)) ->
    l_added l' = l_added l -> l_id l' = l_id l -> o = [Called (w_serial w) c] ->
    l_stack l' = Callback (w_id w) (w_serial w) (w_kind w) :: l_stack l -> effect l l' o
| E_dispose : l_watchers l' = [] -> l_added l' = l_added l -> l_id l' = l_id l ->
    o = map (fun w => Destroyed (w_serial w)) (l_watchers l) -> l_stack l' = l_stack l -> effect l l' o
| E_quiet : l_watchers l' = l_watchers l -> l_added l' = l_added l -> l_id l' = l_id l -> forallb quiet o = true ->
    (forall id n k, In (Callback id n k) (l_stack l') -> In (Callback id n k) (l_stack l)) -> effect l l' o.

Lemma add_effect k l l' o : add_watcher k l = (l', o) -> effect l l' o.
Proof.
  unfold add_watcher. destruct (next_id _ _ _) as [id|] eqn:E; intros H; injection H as <- <-.
  - eapply E_add; [exact E | reflexivity..].
  - apply E_quiet; try reflexivity. auto.
Qed.

Lemma remove_effect id l s l' o b x : remove_watcher id (with_stack l s) = (l', o, b) -> quiet x = true ->
  (forall id n k, In (Callback id n k) s -> In (Callback id n k) (l_stack l)) -> effect l l' (x :: o).
Proof.
  unfold remove_watcher. cbn [l_watchers l_stack with_stack].
  destruct (find_watcher id (l_watchers l)) as [w|] eqn:E; intros H X S; injection H as <- <- <-.
  - destruct (find_watcher_some _ _ _ E) as [W <-]. eapply E_remove; try reflexivity; try eassumption.
    intros i n k [H|H]; [discriminate|exact (S _ _ _ H)].
  - apply E_quiet; try reflexivity; [cbn; rewrite X; reflexivity|exact S].
Qed.

Lemma step_effect l e l' o : step l e = Some (l', o) -> effect l l' o.
Proof.
  unfold step. destruct (l_dead l); [discriminate|].
  assert (Q : forall l' o, l_watchers l' = l_watchers l -> l_added l' = l_added l -> l_id l' = l_id l -> forallb quiet o = true ->
     (forall id n k, In (Callback id n k) (l_stack l') -> In (Callback id n k) (l_stack l)) -> Some (l', o) = Some (l', o) -> effect l l' o)
    by (intros; apply E_quiet; assumption).
  destruct e as [fd k|id| | | | |n r|n|b| |]; intros H.
  - destruct (in_program (l_stack l)); [|discriminate].
    assert (C : Some (add_watcher k l) = Some (l', o) \/ Some (l, [Refused]) = Some (l', o)) by (destruct k, fd; auto).
    destruct C as [C|C]; [|injection C as <- <-; apply Q; auto].
    destruct (add_watcher k l) as [l1 o1] eqn:E; injection C as <- <-; exact (add_effect _ _ _ _ E).
  - destruct (in_program (l_stack l)); [|discriminate]. destruct (remove_watcher id l) as [[l1 o1] b] eqn:E.
    injection H as <- <-. apply (remove_effect id l (l_stack l) _ _ b); [|reflexivity|auto]. destruct l; exact E.
  - destruct (in_program (l_stack l)); [|discriminate]. destruct (l_depth l =? 0)%N; injection H as <- <-; apply Q; auto.
  - destruct (in_program (l_stack l)); [|discriminate]. injection H as <- <-. apply Q; auto. intros i n k [H|H]; [discriminate|exact H].
  - destruct (l_stack l) as [|[| | |d] s] eqn:S; try discriminate. destruct (d <? l_depth l)%N; injection H as <- <-; apply Q; auto.
    + cbn. rewrite ?S. intros i n k [H|H]; [discriminate|exact H].
    + cbn. rewrite ?S. intros i n k H. right. exact H.
  - destruct (in_program (l_stack l)); [|discriminate]. injection H as <- <-. apply Q; auto. intros i n k [H|H]; [discriminate|exact H].
  - destruct (l_stack l) as [|[| | |] s] eqn:S; try discriminate. destruct (find_serial n (l_watchers l)) as [w|] eqn:F; [|discriminate].
    destruct (find_serial_some _ _ _ F) as [W <-]. destruct (w_active w); [|discriminate].
    destruct (w_kind w) as [c| |[|]|] eqn:K.
    + destruct ((Z.land r (events_of c) =? r) && negb (r =? 0)); [|discriminate]. injection H as <- <-.
      apply (E_call _ _ _ w (condition_of r)); try reflexivity; auto; cbn; rewrite K; try rewrite S; reflexivity.
    + injection H as <- <-. apply (E_call _ _ _ w 0); try reflexivity; auto; cbn; rewrite K; try rewrite S; reflexivity.
    + injection H as <- <-. apply (E_call _ _ _ w 0); try reflexivity; auto; cbn; rewrite K; try rewrite S; reflexivity.
    + injection H as <- <-. apply (E_call _ _ _ w 0); try reflexivity; auto; cbn; rewrite K; try rewrite S; reflexivity.
    + injection H as <- <-. apply (E_call _ _ _ w 0); try reflexivity; auto; cbn; rewrite K; try rewrite S; reflexivity.
  - destruct (l_stack l) as [|[| | |] s] eqn:S; try discriminate. destruct (find_serial n (l_watchers l)) as [w|] eqn:F; [|discriminate].
    destruct (find_serial_some _ _ _ F) as [W <-]. destruct (w_active w); [|discriminate].
    destruct (w_kind w) as [c| | |] eqn:K; try discriminate. injection H as <- <-.
    eapply (E_call _ _ _ w); try reflexivity; auto; cbn; rewrite K; try rewrite S; reflexivity.
  - destruct (l_stack l) as [|[id n k| | |] s] eqn:S; try discriminate.
    + assert (I : forall id0 n0 k0, In (Callback id0 n0 k0) s -> In (Callback id0 n0 k0) (l_stack l)) by (intros; rewrite S; right; assumption).
      cbv zeta in H. destruct (match k with Child => true | _ => negb b end).
      * destruct (remove_watcher id (with_stack l s)) as [[l1 o1] f] eqn:E. injection H as <- <-.
        exact (remove_effect _ _ _ _ _ _ (Returned n b) E eq_refl I).
      * injection H as <- <-. apply E_quiet; auto.
    + injection H as <- <-. apply Q; auto. cbn. rewrite ?S. intros i m k H. right. exact H.
  - destruct (l_stack l) as [|[| | |] s] eqn:S; try discriminate. injection H as <- <-. apply Q; auto. cbn. rewrite ?S. intros i n k H. right. exact H.
  - destruct (l_stack l) eqn:S; [|discriminate]. injection H as <- <-. apply E_dispose; try reflexivity; cbn; rewrite ?S; reflexivity.
Qed.

Lemma drop_in id ws w : In w (drop_watcher id ws) -> In w ws.
Proof. unfold drop_watcher. intros H. apply filter_In in H. apply H. Qed.

Lemma tables_keep l e l' o : tables l -> step l e = Some (l', o) -> tables l'.
Proof.
  intros (T1 & T2 & T3 & T4 & T5) H. apply step_effect in H. unfold tables.
  destruct H as [id k A1 A2 A3 A4 A5 A6|w x A1 A2 A3 A4 A5 A6 A7|w c A1 A2 A3 A4 A5 A6|A1 A2 A3 A4 A5|A1 A2 A3 A4 A5].
  - destruct (next_id_sound _ _ _ _ A1) as [B F]. rewrite A2, A3, A4, A6. rewrite !map_app. cbn [map w_serial w_id].
    split; [apply NoDup_snoc; [exact T1|]; intros X; apply in_map_iff in X; destruct X as (w & E & W); apply T3 in W; lia|].
    split; [apply NoDup_snoc; [exact T2|]; intros X; apply in_map_iff in X; destruct X as (w & E & W); exact (F w W E)|].
    split; [intros w W; apply in_app_iff in W; destruct W as [W|[<-|[]]]; [apply T3 in W; lia|cbn; lia]|].
    split; [lia|]. intros i n kk C. apply T5 in C. lia.
  - rewrite A3, A4, A5. unfold drop_watcher. split; [apply NoDup_filter_map, T1|]. split; [apply NoDup_filter_map, T2|].
    split; [intros y Y; apply filter_In in Y; apply T3, Y|]. split; [exact T4|]. intros i n kk C. apply A7 in C. apply T5 in C. exact C.
  - rewrite A3, A4, A6. assert (W := T3 _ A1). destruct A2 as [-> | ->].
    + do 4 (split; [assumption|]). intros i n k [C|C]; [injection C as <- <- <-; lia|]. exact (T5 _ _ _ C).
    + rewrite set_inactive_serial, set_inactive_id. do 2 (split; [assumption|]).
      split; [intros y Y; destruct (set_inactive_in _ _ _ Y) as (z & Z & -> & ->); exact (T3 _ Z)|]. split; [exact T4|].
      intros i n k [C|C]; [injection C as <- <- <-; lia|]. exact (T5 _ _ _ C).
  - rewrite A1, A2, A3, A5. split; [constructor|]. split; [constructor|]. split; [intros w []|]. split; [exact T4|exact T5].
  - rewrite A1, A2, A3. do 4 (split; [assumption|]). intros i n k C. exact (T5 _ _ _ (A5 _ _ _ C)).
Qed.

Lemma note_quiet o : forall t, forallb quiet o = true -> fold_left note o t = t.
Proof.
  induction o as [|x o IH]; intros t H; [reflexivity|]. cbn in H. apply andb_prop in H. destruct H as [Q H].
  cbn [fold_left]. rewrite IH by exact H. destruct x; try reflexivity; discriminate.
Qed.

Lemma note_destroyed ws : forall (us : list watcher), fold_left note (map (fun w => Destroyed (w_serial w)) ws) (map seen us) =
  map seen (filter (fun u => negb (existsb (fun w => Nat.eqb (w_serial u) (w_serial w)) ws)) us).
Proof.
  induction ws as [|w ws IH]; intros us; cbn [map fold_left existsb].
  - f_equal. induction us as [|u us IHu]; [reflexivity|]. cbn. f_equal. exact IHu.
  - assert (E : note (map seen us) (Destroyed (w_serial w)) = map seen (filter (fun u => negb (Nat.eqb (w_serial u) (w_serial w))) us)).
    { cbn [note]. induction us as [|u us IHu]; [reflexivity|]. cbn [map filter]. cbn [seen fst].
      destruct (Nat.eqb (w_serial u) (w_serial w)); cbn [negb]; [exact IHu|]. cbn [map]. f_equal. exact IHu. }
    rewrite E, IH. f_equal. clear. induction us as [|u us IHu]; [reflexivity|]. cbn [filter].
    destruct (Nat.eqb (w_serial u) (w_serial w)); cbn [negb orb]; [exact IHu|]. cbn [filter]. destruct (negb _); [f_equal|]; exact IHu.
Qed.

Lemma seen_drop ws w : NoDup (map w_serial ws) -> NoDup (map w_id ws) -> In w ws ->
  filter (fun s => negb (Nat.eqb (fst (fst s)) (w_serial w))) (map seen ws) = map seen (drop_watcher (w_id w) ws).
Proof.
  intros D1 D2 W. rewrite (drop_unique _ _ D1 D2 W). generalize (w_serial w) as n. intros n. clear.
  induction ws as [|u us IHu]; [reflexivity|]. cbn [map filter]. cbn [seen fst].
  destruct (Nat.eqb (w_serial u) n); cbn [negb]; [exact IHu|]. cbn [map]. f_equal. exact IHu.
Qed.

Lemma there_keep l tr e l' o : tables l -> there tr = map seen (l_watchers l) -> step l e = Some (l', o) ->
  there (tr ++ o) = map seen (l_watchers l').
Proof.
  intros (T1 & T2 & _) H S. apply step_effect in S. rewrite there_app, H. clear H.
  destruct S as [id k A1 A2 A3 A4 A5 A6|w x A1 A2 A3 A4 A5 A6 A7|w c A1 A2 A3 A4 A5 A6|A1 A2 A3 A4 A5|A1 A2 A3 A4 A5].
  - rewrite A2, A5, map_app. reflexivity.
  - rewrite A3, A6. cbn [fold_left]. replace (note (map seen (l_watchers l)) x) with (map seen (l_watchers l)) by (destruct x; try reflexivity; discriminate).
    cbn [note]. apply seen_drop; assumption.
  - rewrite A5. cbn [fold_left note]. destruct A2 as [-> | ->]; [reflexivity|]. rewrite set_inactive_seen. reflexivity.
  - rewrite A1, A4, note_destroyed. cbn [map]. clear. apply (f_equal (map seen) (y := [])).
    assert (H : forall us, incl us (l_watchers l) -> filter (fun u => negb (existsb (fun w => Nat.eqb (w_serial u) (w_serial w)) (l_watchers l))) us = []).
    { induction us as [|u us IHu]; intros I; [reflexivity|]. cbn [filter].
      assert (X : existsb (fun w => Nat.eqb (w_serial u) (w_serial w)) (l_watchers l) = true).
      { apply existsb_exists. exists u. split; [apply I; left; reflexivity|apply Nat.eqb_refl]. }
      rewrite X. cbn [negb]. apply IHu. intros y Y. apply I. right. exact Y. }
    apply H, incl_refl.
  - rewrite A1. apply note_quiet, A4.
Qed.

(** *** Lives *)
Definition lived (n : nat) (l : loop) (tr : list out) : Prop :=
  ((l_added l <= n)%nat -> life n tr = []) /\
  (In n (map w_serial (l_watchers l)) -> exists id k calls, calls_of n calls /\ life n tr = Added n id k :: calls) /\
  ((n < l_added l)%nat -> ~ In n (map w_serial (l_watchers l)) ->
     exists id k calls, calls_of n calls /\ life n tr = Added n id k :: calls ++ [Destroyed n]).

Lemma life_quiet n o : forallb quiet o = true -> life n o = [].
Proof.
  induction o as [|x o IH]; intros H; [reflexivity|]. cbn in H. apply andb_prop in H. destruct H as [Q H].
  unfold life in *. cbn [filter]. rewrite (IH H). destruct x; try reflexivity; discriminate.
Qed.

Lemma life_destroyed n ws : NoDup (map w_serial ws) ->
  life n (map (fun w => Destroyed (w_serial w)) ws) = if existsb (Nat.eqb n) (map w_serial ws) then [Destroyed n] else [].
Proof.
  induction ws as [|w ws IH]; intros D; [reflexivity|]. cbn in D. apply NoDup_cons_iff in D. destruct D as [D1 D2].
  unfold life in *. cbn [map filter about existsb]. rewrite (IH D2), (Nat.eqb_sym n (w_serial w)). destruct (Nat.eqb_spec (w_serial w) n) as [E|E]; [|reflexivity].
  cbn [orb]. subst n. replace (existsb (Nat.eqb (w_serial w)) (map w_serial ws)) with false; [reflexivity|].
  symmetry. apply Bool.not_true_is_false. intros X. apply existsb_exists in X. destruct X as (m & M & X). apply Nat.eqb_eq in X. subst m. exact (D1 M).
Qed.

Lemma lived_keep n l tr e l' o : tables l -> lived n l tr -> step l e = Some (l', o) -> lived n l' (tr ++ o).
Proof.
  intros (T1 & T2 & T3 & _ & _) (L1 & L2 & L3) S. apply step_effect in S. unfold lived. rewrite life_app.
  destruct S as [id k A1 A2 A3 A4 A5 A6|w x A1 A2 A3 A4 A5 A6 A7|w c A1 A2 A3 A4 A5 A6|A1 A2 A3 A4 A5|A1 A2 A3 A4 A5].
  - rewrite A2, A3, A5, map_app. cbn [map w_serial]. unfold life at 2 4 6. cbn [filter about].
    destruct (Nat.eqb_spec (l_added l) n) as [E|E].
    + subst n. rewrite (L1 (Nat.le_refl _)). split; [intros X; lia|]. split.
      * intros _. exists id, k, []. split; [constructor|reflexivity].
      * intros _ X. destruct X. apply in_app_iff. right. left. reflexivity.
    + rewrite app_nil_r. split; [intros X; apply L1; lia|]. split.
      * intros X. apply in_app_iff in X. destruct X as [X|[X|[]]]; [exact (L2 X)|congruence].
      * intros X Y. apply L3; [lia|]. intros Z. apply Y, in_app_iff. left. exact Z.
  - rewrite A3, A4, A6. assert (Q : life n [x; Destroyed (w_serial w)] = if Nat.eqb (w_serial w) n then [Destroyed n] else []).
    { unfold life. cbn [filter]. replace (about n x) with false by (destruct x; try reflexivity; discriminate). cbn [about].
      destruct (Nat.eqb_spec (w_serial w) n) as [->|]; reflexivity. }
    rewrite Q, (drop_unique _ _ T1 T2 A1). destruct (Nat.eqb_spec (w_serial w) n) as [E|E].
    + split; [intros X; apply T3 in A1; lia|]. split.
      * intros X. apply in_map_iff in X. destruct X as (y & Y1 & Y2). apply filter_In in Y2. destruct Y2 as [_ Y2].
        rewrite Y1, <- E, Nat.eqb_refl in Y2. discriminate.
      * intros _ _. destruct (L2 ltac:(rewrite <- E; apply in_map, A1)) as (id & k & calls & C & ->). exists id, k, calls. split; [exact C|reflexivity].
    + rewrite app_nil_r. split; [exact L1|]. split.
      * intros X. apply L2. apply in_map_iff in X. destruct X as (y & <- & Y2). apply filter_In in Y2. apply in_map, Y2.
      * intros X Y. apply L3; [exact X|]. intros Z. apply Y. apply in_map_iff in Z. destruct Z as (y & <- & Z). apply in_map_iff. exists y.
        split; [reflexivity|]. apply filter_In. split; [exact Z|]. destruct (Nat.eqb_spec (w_serial y) (w_serial w)); [congruence|reflexivity].
  - assert (W : map w_serial (l_watchers l') = map w_serial (l_watchers l)) by (destruct A2 as [-> | ->]; [reflexivity|apply set_inactive_serial]).
    rewrite W, A3, A5. unfold life at 2 4 6. cbn [filter about]. destruct (Nat.eqb_spec (w_serial w) n) as [E|E].
    + split; [intros X; apply T3 in A1; lia|]. split.
      * intros X. destruct (L2 X) as (id & k & calls & C & ->). exists id, k, (calls ++ [Called (w_serial w) c]). split; [|reflexivity].
        apply Forall_app. split; [exact C|]. constructor; [|constructor]. exists c. rewrite E. reflexivity.
      * intros _ X. destruct X. rewrite <- E. apply in_map, A1.
    + rewrite app_nil_r. split; [exact L1|]. split; [exact L2|exact L3].
  - rewrite A1, A2, A4, (life_destroyed n _ T1). cbn [map]. split.
    + intros X. rewrite (L1 X). destruct (existsb (Nat.eqb n) (map w_serial (l_watchers l))) eqn:B; [|reflexivity].
      apply existsb_exists in B. destruct B as (m & M & B). apply Nat.eqb_eq in B. subst m. apply in_map_iff in M. destruct M as (w & E & W). apply T3 in W. lia.
    + split; [intros []|]. intros X _. destruct (existsb (Nat.eqb n) (map w_serial (l_watchers l))) eqn:B.
      * apply existsb_exists in B. destruct B as (m & M & B). apply Nat.eqb_eq in B. subst m. destruct (L2 M) as (id & k & calls & C & ->).
        exists id, k, calls. split; [exact C|reflexivity].
      * rewrite app_nil_r. apply L3; [exact X|]. intros M. apply Bool.not_true_iff_false in B. apply B. apply existsb_exists. exists n. split; [exact M|apply Nat.eqb_refl].
  - rewrite A1, A2, (life_quiet n o A4), app_nil_r. split; [exact L1|]. split; [exact L2|exact L3].
Qed.

Definition sources (l : loop) (tr : list out) : Prop :=
  tables l /\ there tr = map seen (l_watchers l) /\ forall n, lived n l tr.

Lemma sources_hold es l tr : steps loop_new es = Some (l, tr) -> sources l tr.
Proof.
  apply steps_invariant.
  - split; [|split].
    + split; [constructor|]. split; [constructor|]. split; [intros w []|]. split; [reflexivity|intros id n k []].
    + reflexivity.
    + intros n. split; [reflexivity|]. split; [intros []|]. cbn. lia.
  - intros l0 tr0 e l1 o (T & H & L) S. split; [exact (tables_keep _ _ _ _ T S)|]. split; [exact (there_keep _ _ _ _ _ T H S)|].
    intros n. exact (lived_keep _ _ _ _ _ _ T (L n) S).
Qed.

(** *** IDs while they do not wrap *)
Definition plain (l : loop) : Prop :=
  (N.of_nat (l_added l) < two32)%N ->
  l_id l = N.of_nat (l_added l) /\
  (forall w, In w (l_watchers l) -> w_id w = (N.of_nat (w_serial w) + 1)%N) /\
  (forall id n k, In (Callback id n k) (l_stack l) -> id = (N.of_nat n + 1)%N).

Lemma plain_keep l e l' o : tables l -> plain l -> step l e = Some (l', o) -> plain l'.
Proof.
  intros (T1 & T2 & T3 & _ & _) P S. apply step_effect in S. unfold plain in *.
  destruct S as [id k A1 A2 A3 A4 A5 A6|w x A1 A2 A3 A4 A5 A6 A7|w c A1 A2 A3 A4 A5 A6|A1 A2 A3 A4 A5|A1 A2 A3 A4 A5].
  - rewrite A2, A3, A4, A6. intros B. destruct (P ltac:(lia)) as (P1 & P2 & P3).
    cbn [next_id] in A1. cbv zeta in A1. rewrite P1 in A1. rewrite N.mod_small in A1 by lia.
    destruct (N.eqb_spec (N.of_nat (l_added l) + 1) 0) as [Z|Z]; [lia|].
    destruct (find_watcher (N.of_nat (l_added l) + 1) (l_watchers l)) as [w|] eqn:F.
    + destruct (find_watcher_some _ _ _ F) as [W E]. pose proof (T3 _ W). pose proof (P2 _ W). lia.
    + injection A1 as <-. split; [lia|]. split; [|exact P3]. intros w W. apply in_app_iff in W. destruct W as [W|[<-|[]]]; [exact (P2 _ W)|reflexivity].
  - rewrite A3, A4, A5. intros B. destruct (P B) as (P1 & P2 & P3). split; [exact P1|]. split; [intros y Y; exact (P2 _ (drop_in _ _ _ Y))|].
    intros i n k C. exact (P3 _ _ _ (A7 _ _ _ C)).
  - rewrite A3, A4, A6. intros B. destruct (P B) as (P1 & P2 & P3). split; [exact P1|]. split.
    + destruct A2 as [-> | ->]; [exact P2|]. intros y Y. destruct (set_inactive_in _ _ _ Y) as (z & Z & -> & ->). exact (P2 _ Z).
    + intros i n k [C|C]; [injection C as <- <- <-; exact (P2 _ A1)|exact (P3 _ _ _ C)].
  - rewrite A1, A2, A3, A5. intros B. destruct (P B) as (P1 & P2 & P3). split; [exact P1|]. split; [intros w []|exact P3].
  - rewrite A1, A2, A3. intros B. destruct (P B) as (P1 & P2 & P3). split; [exact P1|]. split; [exact P2|]. intros i n k C. exact (P3 _ _ _ (A5 _ _ _ C)).
Qed.

Lemma plain_holds es l tr : steps loop_new es = Some (l, tr) -> tables l /\ plain l.
Proof.
  apply (steps_invariant (fun l _ => tables l /\ plain l)).
  - split; [|intros _; split; [reflexivity|]; split; [intros w []|intros id n k []]].
    split; [constructor|]. split; [constructor|]. split; [intros w []|]. split; [reflexivity|intros id n k []].
  - intros l0 tr0 e l1 o (T & P) S. split; [exact (tables_keep _ _ _ _ T S)|exact (plain_keep _ _ _ _ T P S)].
Qed.

(** ** Runs *)
Fixpoint waiting (rs : list bool) : N :=
  match rs with [] => 0 | true :: rs => waiting rs | false :: rs => (waiting rs + 1)%N end.

Fixpoint depths (s : list frame) : list N :=
  match s with [] => [] | Running d :: s => d :: depths s | _ :: s => depths s end.

Inductive agree : list N -> list bool -> Prop :=
| A_nil : agree [] []
| A_waiting ds rs : agree ds rs -> agree (waiting rs :: ds) (false :: rs)
| A_told d ds rs : agree ds rs -> (waiting rs <= d)%N -> agree (d :: ds) (true :: rs).

Lemma waiting_tell rs : waiting (tell rs) = (waiting rs - 1)%N.
Proof. induction rs as [|[|] rs IH]; cbn [tell waiting]; [reflexivity|exact IH|lia]. Qed.

Lemma agree_tell ds rs : agree ds rs -> agree ds (tell rs).
Proof.
  induction 1 as [|ds rs H IH|d ds rs H IH L]; cbn [tell].
  - constructor.
  - constructor; [exact H|lia].
  - constructor; [exact IH|]. rewrite waiting_tell. lia.
Qed.

Definition running (l : loop) (tr : list out) : Prop :=
  agree (depths (l_stack l)) (runs tr) /\ l_depth l = waiting (runs tr).

Lemma add_run k l : let '(l', o) := add_watcher k l in l_stack l' = l_stack l /\ l_depth l' = l_depth l /\ forall rs, fold_left note_run o rs = rs.
Proof. unfold add_watcher. destruct (next_id _ _ _); cbn; auto. Qed.
Lemma remove_run id l : let '(l', o, _) := remove_watcher id l in
  depths (l_stack l') = depths (l_stack l) /\ l_depth l' = l_depth l /\ forall rs, fold_left note_run o rs = rs.
Proof. unfold remove_watcher. destruct (find_watcher _ _); cbn; auto. Qed.
Lemma destroyed_run ws : forall rs, fold_left note_run (map (fun w => Destroyed (w_serial w)) ws) rs = rs.
Proof. induction ws; intros rs; cbn; auto. Qed.

Lemma running_keep l tr e l' o : running l tr -> step l e = Some (l', o) -> running l' (tr ++ o).
Proof.
  unfold running. rewrite runs_app. intros [A D]. unfold step. destruct (l_dead l); [discriminate|].
  destruct e as [fd k|id| | | | |n r|n|b| |]; intros H.
  - destruct (in_program (l_stack l)); [|discriminate].
    assert (C : Some (add_watcher k l) = Some (l', o) \/ Some (l, [Refused]) = Some (l', o)) by (destruct k, fd; auto).
    destruct C as [C|C]; [|injection C as <- <-; cbn; auto]. pose proof (add_run k l) as R. destruct (add_watcher k l) as [l1 o1]. injection C as <- <-.
    destruct R as (-> & -> & R). rewrite R. auto.
  - destruct (in_program (l_stack l)); [|discriminate]. pose proof (remove_run id l) as R. destruct (remove_watcher id l) as [[l1 o1] b].
    injection H as <- <-. destruct R as (R1 & R2 & R3). cbn [fold_left note_run]. rewrite R1, R2, R3. auto.
  - destruct (in_program (l_stack l)); [|discriminate]. destruct (N.eqb_spec (l_depth l) 0); injection H as <- <-; cbn [fold_left note_run]; [auto|].
    cbn. split; [apply agree_tell, A|]. rewrite waiting_tell. lia.
  - destruct (in_program (l_stack l)); [|discriminate]. injection H as <- <-. cbn. rewrite D. split; [constructor; exact A|reflexivity].
  - destruct (l_stack l) as [|[| | |d] s] eqn:S; try discriminate. destruct (N.ltb_spec d (l_depth l)) as [L|L]; injection H as <- <-; cbn [fold_left note_run].
    + cbn. rewrite ?S. cbn [depths] in *. auto.
    + cbn [depths] in A. rewrite D in L. cbn. inversion A as [|ds rs A' E1 E2|d' ds rs A' L' E1 E2]; subst.
      * rewrite <- E2 in L. cbn [waiting] in L. lia.
      * cbn [tl]. split; [exact A'|]. rewrite D, <- E2. reflexivity.
  - destruct (in_program (l_stack l)); [|discriminate]. injection H as <- <-. cbn. auto.
  - destruct (l_stack l) as [|[| | |] s] eqn:S; try discriminate. destruct (find_serial n (l_watchers l)) as [w|]; [|discriminate].
    destruct (w_active w); [|discriminate].
    assert (C : exists ws r', Some (call w r' (with_watchers l ws)) = Some (l', o)).
    { destruct (w_kind w) as [c| |[|]|]; try destruct (_ && _); try discriminate; try (exists (l_watchers l), r; destruct l; exact H); eauto. }
    destruct C as (ws & r' & C). injection C as <- <-. cbn. rewrite ?S. cbn. auto.
  - destruct (l_stack l) as [|[| | |] s] eqn:S; try discriminate. destruct (find_serial n (l_watchers l)) as [w|]; [|discriminate].
    destruct (w_active w); [|discriminate]. destruct (w_kind w); try discriminate. injection H as <- <-. cbn. rewrite ?S. cbn. auto.
  - destruct (l_stack l) as [|[id n k| | |] s] eqn:S; try discriminate.
    + cbv zeta in H. destruct (match k with Child => true | _ => negb b end).
      * pose proof (remove_run id (with_stack l s)) as R. destruct (remove_watcher id (with_stack l s)) as [[l1 o1] f].
        injection H as <- <-. destruct R as (R1 & R2 & R3). cbn [fold_left note_run]. rewrite R1, R2, R3. cbn. auto.
      * injection H as <- <-. cbn. auto.
    + injection H as <- <-. cbn. auto.
  - destruct (l_stack l) as [|[| | |] s] eqn:S; try discriminate. injection H as <- <-. cbn. auto.
  - destruct (l_stack l) eqn:S; [|discriminate]. injection H as <- <-. rewrite destroyed_run. cbn. rewrite ?S. auto.
Qed.

Lemma running_holds es l tr : steps loop_new es = Some (l, tr) -> running l tr.
Proof. apply steps_invariant; [split; [constructor|reflexivity]|exact running_keep]. Qed.

(** ** Conditions *)
Lemma events_of_cases c : events_of c =
  (if has c (Z.lor G_IO_IN G_IO_PRI) then 1 else 0) + (if has c G_IO_OUT then 2 else 0).
Proof.
  unfold events_of. destruct (has c (Z.lor G_IO_IN G_IO_PRI)), (has c G_IO_OUT), (has c (Z.lor G_IO_ERR (Z.lor G_IO_HUP G_IO_NVAL))); reflexivity.
Qed.

Lemma revents_cases c r : (Z.land r (events_of c) =? r) && negb (r =? 0) = true ->
  (r = 1 \/ r = 2 \/ r = 3) /\ (has r 1 = true -> has c (Z.lor G_IO_IN G_IO_PRI) = true) /\ (has r 2 = true -> has c G_IO_OUT = true).
Proof.
  intros H. apply andb_prop in H. destruct H as [H1 H2]. apply Z.eqb_eq in H1. apply negb_true_iff, Z.eqb_neq in H2. rewrite events_of_cases in H1.
  assert (B : forall k, 0 <= k < 4 -> Z.land r k = r -> r = 0 \/ r = 1 \/ r = 2 \/ r = 3).
  { intros k K E. pose proof (Z.land_nonneg r k) as P. assert (0 <= r) by (rewrite <- E; apply P; right; lia).
    assert (r < 4); [|lia]. pose proof (Z.land_ones r 2 ltac:(lia)) as O. change (Z.ones 2) with 3 in O.
    assert (Q : Z.land r 3 = r). { rewrite <- E at 1. rewrite <- Z.land_assoc. replace (Z.land k 3) with k; [exact E|].
      assert (k = 0 \/ k = 1 \/ k = 2 \/ k = 3) as [->|[->|[->| ->]]] by lia; reflexivity. }
    rewrite Q in O. rewrite O. change (2 ^ 2) with 4. apply Z.mod_pos_bound. lia. }
  destruct (has c (Z.lor G_IO_IN G_IO_PRI)), (has c G_IO_OUT);
    (pose proof (fun K => B _ K H1) as D; specialize (D ltac:(lia)); destruct D as [->|[->|[->| ->]]]; try (exfalso; apply H2; reflexivity); try discriminate H1;
     (split; [auto|split; intros X; try reflexivity; discriminate X])).
Qed.

(** What a ready source is called with. *)
Lemma ready_called l n r l' o : step l (Ready n r) = Some (l', o) -> exists w c, In w (l_watchers l) /\ w_serial w = n /\ o = [Called n c] /\
  match w_kind w with
  | Io asked => (c = 1 \/ c = 4 \/ c = 5) /\ has c G_IO_IN = has r EV_READ /\ has c G_IO_OUT = has r EV_WRITE /\ (has c G_IO_IN = true -> has asked (Z.lor G_IO_IN G_IO_PRI) = true) /\
                (has c G_IO_OUT = true -> has asked G_IO_OUT = true)
  | _ => c = 0
  end.
Proof.
  unfold step. destruct (l_dead l); [discriminate|]. destruct (l_stack l) as [|[| | |] s] eqn:S; try discriminate.
  destruct (find_serial n (l_watchers l)) as [w|] eqn:F; [|discriminate]. destruct (find_serial_some _ _ _ F) as [W <-].
  destruct (w_active w); [|discriminate]. intros H. exists w. destruct (w_kind w) as [asked| |[|]|] eqn:K.
  - destruct ((Z.land r (events_of asked) =? r) && negb (r =? 0)) eqn:R; [|discriminate]. injection H as <- <-.
    destruct (revents_cases _ _ R) as (C & C1 & C2). exists (condition_of r). rewrite K. do 3 (split; [auto|]).
    destruct C as [->|[->| ->]]; (split; [vm_compute; auto|]; split; [reflexivity|]; split; [reflexivity|]; split; intros X; try (vm_compute in X; discriminate X); auto).
  - injection H as <- <-. exists 0. rewrite K. auto.
  - injection H as <- <-. exists 0. rewrite K. auto.
  - injection H as <- <-. exists 0. rewrite K. auto.
  - injection H as <- <-. exists 0. rewrite K. auto.
Qed.

(** Errors are in no condition ever. *)
Lemma called_no_error l e l' o n c : step l e = Some (l', o) -> In (Called n c) o -> c = 0 \/ c = 1 \/ c = 4 \/ c = 5.
Proof.
  intros H I. assert (E := step_effect _ _ _ _ H). destruct e as [fd k|id| | | | |m r|m|b| |].
  1-6: exfalso; unfold step in H; destruct (l_dead l); [discriminate|].
  - destruct (in_program (l_stack l)); [|discriminate].
    assert (C : Some (add_watcher k l) = Some (l', o) \/ Some (l, [Refused]) = Some (l', o)) by (destruct k, fd; auto).
    destruct C as [C|C]; [|injection C as <- <-; destruct I as [I|[]]; discriminate]. unfold add_watcher in C.
    destruct (next_id _ _ _); injection C as <- <-; cbn in I; intuition discriminate.
  - destruct (in_program (l_stack l)); [|discriminate]. unfold remove_watcher in H. destruct (find_watcher _ _); injection H as <- <-;
      cbn in I; intuition discriminate.
  - destruct (in_program (l_stack l)); [|discriminate]. destruct (_ =? _)%N; injection H as <- <-; destruct I as [I|[]]; discriminate.
  - destruct (in_program (l_stack l)); [|discriminate]. injection H as <- <-; destruct I as [I|[]]; discriminate.
  - destruct (l_stack l) as [|[| | |d] s]; try discriminate. destruct (_ <? _)%N; injection H as <- <-; [destruct I|destruct I as [I|[]]; discriminate].
  - destruct (in_program (l_stack l)); [|discriminate]. injection H as <- <-; destruct I.
  - destruct (ready_called _ _ _ _ _ H) as (w & c' & _ & _ & -> & K). destruct I as [I|[]]. injection I as <- <-.
    destruct (w_kind w); [|auto..]. destruct K as (K & _). tauto.
  - unfold step in H. destruct (l_dead l); [discriminate|]. destruct (l_stack l) as [|[| | |] s]; try discriminate.
    destruct (find_serial m (l_watchers l)) as [w|]; [|discriminate]. destruct (w_active w); [|discriminate].
    destruct (w_kind w) eqn:K; try discriminate. injection H as <- <-. destruct I as [I|[]]. injection I as _ I. right. right. right. rewrite <- I, K. reflexivity.
  - exfalso. unfold step in H. destruct (l_dead l); [discriminate|]. destruct (l_stack l) as [|[id m k| | |] s]; try discriminate.
    + cbv zeta in H. destruct (match k with Child => true | _ => negb b end).
      * unfold remove_watcher in H. destruct (find_watcher _ _); injection H as <- <-; cbn in I; intuition discriminate.
      * injection H as <- <-. destruct I as [I|[]]. discriminate.
    + injection H as <- <-. destruct I.
  - exfalso. unfold step in H. destruct (l_dead l); [discriminate|]. destruct (l_stack l) as [|[| | |] s]; try discriminate.
    injection H as <- <-. destruct I as [I|[]]. discriminate.
  - exfalso. unfold step in H. destruct (l_dead l); [discriminate|]. destruct (l_stack l); [|discriminate]. injection H as <- <-.
    apply in_map_iff in I. destruct I as (w & I & _). discriminate.
Qed.

(** *** Sources that can be called again *)
Definition lively (es : list event) (l : loop) : Prop :=
  forall w, In w (l_watchers l) -> w_active w = true \/ w_kind w = Timer true \/ In (Broken (w_serial w)) es.

Lemma lively_keep es l e l' o : tables l -> lively es l -> step l e = Some (l', o) -> lively (es ++ [e]) l'.
Proof.
  intros T L S. assert (M : forall w, In w (l_watchers l) -> w_active w = true \/ w_kind w = Timer true \/ In (Broken (w_serial w)) (es ++ [e])).
  { intros w W. destruct (L w W) as [X|[X|X]]; [auto..|]. right. right. apply in_app_iff. auto. }
  unfold step in S. destruct (l_dead l); [discriminate|].
  destruct e as [fd k|id| | | | |n r|n|b| |].
  - destruct (in_program (l_stack l)); [|discriminate].
    assert (C : Some (add_watcher k l) = Some (l', o) \/ Some (l, [Refused]) = Some (l', o)) by (destruct k, fd; auto).
    destruct C as [C|C]; [|injection C as <- <-; exact M]. unfold add_watcher in C. destruct (next_id _ _ _); injection C as <- <-; [|exact M].
    intros w W. cbn in W. apply in_app_iff in W. destruct W as [W|[<-|[]]]; [exact (M w W)|left; reflexivity].
  - destruct (in_program (l_stack l)); [|discriminate]. unfold remove_watcher in S. destruct (find_watcher _ _); injection S as <- <-; [|exact M].
    intros x X. cbn in X. exact (M x (drop_in _ _ _ X)).
  - destruct (in_program (l_stack l)); [|discriminate]. destruct (_ =? _)%N; injection S as <- <-; exact M.
  - destruct (in_program (l_stack l)); [|discriminate]. injection S as <- <-; exact M.
  - destruct (l_stack l) as [|[| | |d] s]; try discriminate. destruct (_ <? _)%N; injection S as <- <-; exact M.
  - destruct (in_program (l_stack l)); [|discriminate]. injection S as <- <-; exact M.
  - destruct (l_stack l) as [|[| | |] s]; try discriminate. destruct (find_serial n (l_watchers l)) as [w|] eqn:F; [|discriminate].
    destruct (find_serial_some _ _ _ F) as [W <-]. destruct (w_active w); [|discriminate].
    destruct (w_kind w) as [c| |[|]|] eqn:K; [destruct (_ && _); [|discriminate]|..]; injection S as <- <-; try exact M.
    intros x X. cbn in X. unfold set_inactive in X. apply in_map_iff in X. destruct X as (y & <- & Y).
    destruct (Nat.eqb_spec (w_serial y) (w_serial w)) as [E|E]; [|exact (M y Y)]. right. left. cbn [w_kind].
    destruct T as (T1 & _). pose proof (find_serial_in _ _ y T1 Y E) as F'. rewrite F' in F. injection F as ->. exact K.
  - destruct (l_stack l) as [|[| | |] s]; try discriminate. destruct (find_serial n (l_watchers l)) as [w|] eqn:F; [|discriminate].
    destruct (find_serial_some _ _ _ F) as [W <-]. destruct (w_active w); [|discriminate].
    destruct (w_kind w) as [c| | |]; try discriminate. injection S as <- <-.
    intros x X. cbn in X. unfold set_inactive in X. apply in_map_iff in X. destruct X as (y & <- & Y).
    destruct (Nat.eqb_spec (w_serial y) (w_serial w)) as [E|E]; [|exact (M y Y)]. right. right. cbn [w_serial]. rewrite E. apply in_app_iff. right. left. reflexivity.
  - destruct (l_stack l) as [|[id m k| | |] s]; try discriminate.
    + cbv zeta in S. destruct (match k with Child => true | _ => negb b end).
      * unfold remove_watcher in S. destruct (find_watcher _ _); injection S as <- <-; [|exact M]. intros x X. cbn in X. exact (M x (drop_in _ _ _ X)).
      * injection S as <- <-. exact M.
    + injection S as <- <-. exact M.
  - destruct (l_stack l) as [|[| | |] s]; try discriminate. injection S as <- <-. exact M.
  - destruct (l_stack l); [|discriminate]. injection S as <- <-. intros w [].
Qed.

Lemma lively_holds es : forall l tr, steps loop_new es = Some (l, tr) -> lively es l.
Proof.
  induction es as [|e es IH] using rev_ind; intros l tr H.
  - injection H as <- <-. intros w [].
  - rewrite steps_app in H. destruct (steps loop_new es) as [[l1 o1]|] eqn:E; [|discriminate]. cbn [steps] in H.
    destruct (step l1 e) as [[l2 o2]|] eqn:E2; [|discriminate]. injection H as <- <-.
    exact (lively_keep _ _ _ _ _ (proj1 (sources_hold _ _ _ E)) (IH _ _ eq_refl) E2).
Qed.

Lemma ready_again es l tr n id k r : steps loop_new es = Some (l, tr) -> In (n, id, k) (there tr) -> k <> Timer true -> ~ In (Broken n) es ->
  step l Leave <> None -> match k with Io c => (Z.land r (events_of c) =? r) && negb (r =? 0) = true | _ => True end ->
  exists l' c, step l (Ready n r) = Some (l', [Called n c]).
Proof.
  intros H I K B P R. destruct (sources_hold _ _ _ H) as (T & E & _). pose proof (lively_holds _ _ _ H) as L. rewrite E in I.
  apply in_map_iff in I. destruct I as (w & W1 & W). unfold seen in W1. injection W1 as <- <- <-.
  unfold step in *. destruct (l_dead l); [congruence|]. destruct (l_stack l) as [|[| | |] s]; try congruence.
  rewrite (find_serial_in _ _ _ (proj1 T) W eq_refl). destruct (L w W) as [A|[A|A]]; [|congruence|contradiction]. rewrite A.
  destruct (w_kind w) as [c| |[|]|]; [rewrite R| |congruence|..]; eexists _, _; reflexivity.
Qed.

(** A source that is not active is not called any more. *)
Definition silent (n : nat) (l : loop) : Prop :=
  (n < l_added l)%nat /\ forall w, In w (l_watchers l) -> w_serial w = n -> w_active w = false.

Lemma silent_keep n l e l' o : tables l -> silent n l -> step l e = Some (l', o) -> silent n l' /\ forall c, ~ In (Called n c) o.
Proof.
  intros T [B L] S. assert (E := step_effect _ _ _ _ S).
  assert (C : forall c, ~ In (Called n c) o).
  { intros c I. destruct E as [id k A1 A2 A3 A4 A5 A6|w x A1 A2 A3 A4 A5 A6 A7|w c' A1 A2 A3 A4 A5 A6|A1 A2 A3 A4 A5|A1 A2 A3 A4 A5]; subst.
    - destruct I as [I|[]]; discriminate.
    - destruct I as [I|[I|[]]]; subst; discriminate.
    - destruct I as [I|[]]. injection I as I1 I2. pose proof (L w A1 I1) as X.
      destruct e as [fd k|id| | | | |m r|m|b| |]; unfold step in S; destruct (l_dead l); try discriminate.
      + destruct (in_program (l_stack l)); [|discriminate].
        assert (C : Some (add_watcher k l) = Some (l', [Called (w_serial w) c']) \/ Some (l, [Refused]) = Some (l', [Called (w_serial w) c'])) by (destruct k, fd; auto).
        destruct C as [C|C]; [|discriminate]. unfold add_watcher in C. destruct (next_id _ _ _); discriminate.
      + destruct (in_program (l_stack l)); [|discriminate]. unfold remove_watcher in S. destruct (find_watcher _ _); discriminate.
      + destruct (in_program (l_stack l)); [|discriminate]. destruct (_ =? _)%N; discriminate.
      + destruct (in_program (l_stack l)); discriminate.
      + destruct (l_stack l) as [|[| | |d] s]; try discriminate. destruct (_ <? _)%N; discriminate.
      + destruct (in_program (l_stack l)); discriminate.
      + destruct (l_stack l) as [|[| | |] s]; try discriminate. destruct (find_serial m (l_watchers l)) as [y|] eqn:F; [|discriminate].
        destruct (find_serial_some _ _ _ F) as [Y YM]. destruct (w_active y) eqn:AY; [|discriminate].
        assert (Q : w_serial y = w_serial w).
        { destruct (w_kind y) as [cc| |[|]|]; [destruct (_ && _); [|discriminate]|..]; injection S as _ S1 _; exact S1. }
        rewrite (L y Y) in AY; [discriminate|]. congruence.
      + destruct (l_stack l) as [|[| | |] s]; try discriminate. destruct (find_serial m (l_watchers l)) as [y|] eqn:F; [|discriminate].
        destruct (find_serial_some _ _ _ F) as [Y YM]. destruct (w_active y) eqn:AY; [|discriminate]. destruct (w_kind y); try discriminate.
        injection S as _ S1 _. rewrite (L y Y) in AY; [discriminate|]. congruence.
      + destruct (l_stack l) as [|[id mm k| | |] s]; try discriminate. cbv zeta in S. destruct (match k with Child => true | _ => negb b end); [|discriminate].
        unfold remove_watcher in S. destruct (find_watcher _ _); discriminate.
      + destruct (l_stack l) as [|[| | |] s]; discriminate.
      + destruct (l_stack l); [|discriminate]. injection S as _ S. destruct (l_watchers l); discriminate.
    - apply in_map_iff in I. destruct I as (w & I & _). discriminate.
    - rewrite forallb_forall in A4. apply A4 in I. discriminate. }
  split; [|exact C].
  destruct E as [id k A1 A2 A3 A4 A5 A6|w x A1 A2 A3 A4 A5 A6 A7|w c' A1 A2 A3 A4 A5 A6|A1 A2 A3 A4 A5|A1 A2 A3 A4 A5]; unfold silent.
  - rewrite A2, A3. split; [lia|]. intros y Y. apply in_app_iff in Y. destruct Y as [Y|[<-|[]]]; [exact (L y Y)|cbn; lia].
  - rewrite A3, A4. split; [exact B|]. intros y Y. exact (L y (drop_in _ _ _ Y)).
  - rewrite A3. split; [exact B|]. destruct A2 as [-> | ->]; [exact L|]. intros y Y N. unfold set_inactive in Y. apply in_map_iff in Y.
    destruct Y as (z & <- & Z). destruct (Nat.eqb (w_serial z) (w_serial w)); [reflexivity|exact (L z Z N)].
  - rewrite A1, A2. split; [exact B|]. intros y [].
  - rewrite A1, A2. split; [exact B|exact L].
Qed.

Lemma silent_steps n es : forall l l' tr, tables l -> silent n l -> steps l es = Some (l', tr) -> forall c, ~ In (Called n c) tr.
Proof.
  induction es as [|e es IH]; intros l l' tr T L H c I; cbn [steps] in H.
  - injection H as <- <-. destruct I.
  - destruct (step l e) as [[l1 o1]|] eqn:E; [|discriminate]. destruct (steps l1 es) as [[l2 o2]|] eqn:E2; [|discriminate]. injection H as <- <-.
    destruct (silent_keep _ _ _ _ _ T L E) as [L' C]. apply in_app_iff in I. destruct I as [I|I]; [exact (C c I)|].
    exact (IH _ _ _ (tables_keep _ _ _ _ T E) L' E2 c I).
Qed.

(** ** When sources go *)
Definition kinds (l : loop) : Prop :=
  forall id n k w, In (Callback id n k) (l_stack l) -> In w (l_watchers l) -> w_serial w = n -> w_kind w = k /\ w_id w = id.

Lemma kinds_keep l e l' o : tables l -> kinds l -> step l e = Some (l', o) -> kinds l'.
Proof.
  intros T K S. apply step_effect in S. unfold kinds in *. assert (T' := T). destruct T' as (T1 & _ & _ & _ & T5).
  destruct S as [id k A1 A2 A3 A4 A5 A6|w x A1 A2 A3 A4 A5 A6 A7|w c A1 A2 A3 A4 A5 A6|A1 A2 A3 A4 A5|A1 A2 A3 A4 A5].
  - rewrite A2, A6. intros i n kk w C W E. apply in_app_iff in W. destruct W as [W|[<-|[]]]; [exact (K _ _ _ _ C W E)|].
    apply T5 in C. cbn in E. lia.
  - rewrite A3. intros i n kk y C W E. exact (K _ _ _ _ (A7 _ _ _ C) (drop_in _ _ _ W) E).
  - intros i n kk y C W E.
    assert (Y : exists z, In z (l_watchers l) /\ w_serial z = n /\ w_kind z = w_kind y /\ w_id z = w_id y).
    { destruct A2 as [A2|A2]; rewrite A2 in W; [exists y; auto|]. unfold set_inactive in W. apply in_map_iff in W. destruct W as (z & <- & Z).
      exists z. destruct (Nat.eqb (w_serial z) (w_serial w)); auto. }
    destruct Y as (z & Z & Z1 & <- & <-). rewrite A6 in C. destruct C as [C|C]; [|exact (K _ _ _ _ C Z Z1)]. injection C as <- <- <-.
    pose proof (find_serial_in _ _ z T1 Z Z1) as F1. pose proof (find_serial_in _ _ w T1 A1 eq_refl) as F2. split; congruence.
  - rewrite A1. intros i n k w _ [].
  - rewrite A1. intros i n k w C W E. exact (K _ _ _ _ (A5 _ _ _ C) W E).
Qed.

Lemma kinds_hold es l tr : steps loop_new es = Some (l, tr) -> kinds l.
Proof.
  intros H. apply (steps_invariant (fun l _ => tables l /\ kinds l)) in H; [apply H|..].
  - split; [|intros id n k w []]. split; [constructor|]. split; [constructor|]. split; [intros w []|]. split; [reflexivity|intros id n k []].
  - intros l0 tr0 e l1 o (T & P) S. split; [exact (tables_keep _ _ _ _ T S)|exact (kinds_keep _ _ _ _ T P S)].
Qed.

Lemma gone_because es l tr e l' o n : (N.of_nat (l_added l) < two32)%N -> steps loop_new es = Some (l, tr) -> step l e = Some (l', o) ->
  In (Destroyed n) o ->
  exists id k, In (n, id, k) (there tr) /\ (e = Remove id \/ (exists b, e = Return b /\ In (Returned n b) o /\ (b = false \/ k = Child)) \/ e = Dispose).
Proof.
  intros B H S I. destruct (sources_hold _ _ _ H) as (T & E & _). destruct (plain_holds _ _ _ H) as (_ & P). destruct (P B) as (_ & P2 & P3).
  rewrite E.
  assert (D : forall id l1 s o1 f, remove_watcher id (with_stack l s) = (l1, o1, f) -> In (Destroyed n) o1 -> exists w, In w (l_watchers l) /\ w_id w = id /\ w_serial w = n).
  { intros id l1 s o1 f R I1. unfold remove_watcher in R. cbn [l_watchers with_stack] in R. destruct (find_watcher id (l_watchers l)) as [w|] eqn:F; injection R as <- <- <-; [|destruct I1].
    destruct I1 as [I1|[]]. injection I1 as I1. exists w. destruct (find_watcher_some _ _ _ F). auto. }
  assert (S0 := S). unfold step in S. destruct (l_dead l); [discriminate|].
  destruct e as [fd k|id| | | | |m r|m|b| |].
  - destruct (in_program (l_stack l)); [|discriminate].
    assert (C : Some (add_watcher k l) = Some (l', o) \/ Some (l, [Refused]) = Some (l', o)) by (destruct k, fd; auto).
    destruct C as [C|C]; [|injection C as <- <-; destruct I as [I|[]]; discriminate]. unfold add_watcher in C.
    destruct (next_id _ _ _); injection C as <- <-; cbn in I; intuition discriminate.
  - destruct (in_program (l_stack l)); [|discriminate]. destruct (remove_watcher id l) as [[l1 o1] f] eqn:R. injection S as <- <-.
    destruct I as [I|I]; [discriminate|]. destruct (D id l1 (l_stack l) o1 f ltac:(destruct l; exact R) I) as (w & W & <- & <-).
    exists (w_id w), (w_kind w). split; [apply (in_map seen _ _ W)|auto].
  - destruct (in_program (l_stack l)); [|discriminate]. destruct (_ =? _)%N; injection S as <- <-; destruct I as [I|[]]; discriminate.
  - destruct (in_program (l_stack l)); [|discriminate]. injection S as <- <-; destruct I as [I|[]]; discriminate.
  - destruct (l_stack l) as [|[| | |d] s]; try discriminate. destruct (_ <? _)%N; injection S as <- <-; [destruct I|destruct I as [I|[]]; discriminate].
  - destruct (in_program (l_stack l)); [|discriminate]. injection S as <- <-; destruct I.
  - destruct (ready_called l m r l' o) as (w & c' & _ & _ & -> & K). { exact S0. }
    destruct I as [I|[]]. discriminate.
  - destruct (l_stack l) as [|[| | |] s]; try discriminate. destruct (find_serial m (l_watchers l)) as [w|]; [|discriminate].
    destruct (w_active w); [|discriminate]. destruct (w_kind w) eqn:K; try discriminate. injection S as <- <-. destruct I as [I|[]]. discriminate.
  - destruct (l_stack l) as [|[id m k| | |] s] eqn:ST; try discriminate.
    + cbv zeta in S. destruct (match k with Child => true | _ => negb b end) eqn:G.
      * destruct (remove_watcher id (with_stack l s)) as [[l1 o1] f] eqn:R. injection S as <- <-. destruct I as [I|I]; [discriminate|].
        destruct (D _ _ _ _ _ R I) as (w & W & E1 & E2). pose proof (P2 _ W) as Q. pose proof (P3 id m k (or_introl eq_refl)) as Q'.
        assert (m = n) as -> by lia. destruct (kinds_hold _ _ _ H id n k w ltac:(rewrite ST; left; reflexivity) W E2) as [KK _]. exists id, (w_kind w). split; [apply in_map_iff; exists w; split; [unfold seen; congruence|exact W]|].
        right. left. exists b. split; [reflexivity|]. split; [left; reflexivity|]. rewrite KK. destruct k; try (right; reflexivity);
          destruct b; auto; discriminate.
      * injection S as <- <-. destruct I as [I|[]]. discriminate.
    + injection S as <- <-. destruct I.
  - destruct (l_stack l) as [|[| | |] s]; try discriminate. injection S as <- <-. destruct I as [I|[]]. discriminate.
  - destruct (l_stack l); [|discriminate]. injection S as <- <-. apply in_map_iff in I. destruct I as (w & I & W). injection I as <-.
    exists (w_id w), (w_kind w). split; [apply (in_map seen _ _ W)|auto].
Qed.

(** ** Counting *)
Lemma added_counts es l tr : steps loop_new es = Some (l, tr) -> length (filter is_added tr) = l_added l.
Proof.
  apply (steps_invariant (fun l tr => length (filter is_added tr) = l_added l)); [reflexivity|].
  intros l0 tr0 e l1 o E S. rewrite filter_app, app_length, E. apply step_effect in S.
  destruct S as [id k A1 A2 A3 A4 A5 A6|w x A1 A2 A3 A4 A5 A6 A7|w c A1 A2 A3 A4 A5 A6|A1 A2 A3 A4 A5|A1 A2 A3 A4 A5]; subst; cbn [filter is_added length].
  - rewrite A3. lia.
  - destruct x; cbn in *; try discriminate; lia.
  - rewrite A3. lia.
  - rewrite A2. induction (l_watchers l0); cbn in *; auto.
  - rewrite A2. assert (F : filter is_added o = []); [|rewrite F; cbn; lia].
    revert A4. clear. induction o as [|x o IH]; [reflexivity|]. cbn. intros Q. apply andb_prop in Q. destruct x; cbn in *; try (apply IH, Q); destruct Q; discriminate.
Qed.

Lemma iteration_counts mid : forall l l' tr s s0, l_stack l = s ++ Iterating :: s0 -> (forall d, ~ In (Running d) s) -> ~ In Iterating s ->
  forallb (fun e => negb (nested e)) mid = true -> steps l mid = Some (l', tr) ->
  exists s', l_stack l' = s' ++ Iterating :: s0 /\ (forall d, ~ In (Running d) s') /\ ~ In Iterating s' /\
    l_called l' = (l_called l + N.of_nat (length (filter is_call tr)))%N.
Proof.
  induction mid as [|e mid IH]; intros l l' tr s s0 S NR NI M H; cbn [steps] in H.
  - injection H as <- <-. exists s. cbn. rewrite N.add_0_r. auto.
  - cbn [forallb] in M. apply andb_prop in M. destruct M as [Me M].
    destruct (step l e) as [[l1 o1]|] eqn:E; [|discriminate]. destruct (steps l1 mid) as [[l2 o2]|] eqn:E2; [|discriminate]. injection H as <- <-.
    assert (G : exists s1, l_stack l1 = s1 ++ Iterating :: s0 /\ (forall d, ~ In (Running d) s1) /\ ~ In Iterating s1 /\
                  l_called l1 = (l_called l + N.of_nat (length (filter is_call o1)))%N).
    { assert (NN : (forall d, ~ In (Running d) (Notifying :: s)) /\ ~ In Iterating (Notifying :: s))
        by (split; [intros d [X|X]; [discriminate|exact (NR d X)]|intros [X|X]; [discriminate|exact (NI X)]]).
      unfold step in E. destruct (l_dead l); [discriminate|]. destruct e as [fd k|id| | | | |n r|n|b| |]; try discriminate Me.
      - destruct (in_program (l_stack l)); [|discriminate].
        assert (C : Some (add_watcher k l) = Some (l1, o1) \/ Some (l, [Refused]) = Some (l1, o1)) by (destruct k, fd; auto).
        destruct C as [C|C]; [|injection C as <- <-; exists s; cbn; rewrite N.add_0_r; auto]. unfold add_watcher in C.
        destruct (next_id _ _ _); injection C as <- <-; exists s; cbn; rewrite N.add_0_r; auto.
      - destruct (in_program (l_stack l)); [|discriminate]. unfold remove_watcher in E. destruct (find_watcher _ _); injection E as <- <-.
        + exists (Notifying :: s). cbn. rewrite N.add_0_r, S. destruct NN. auto.
        + exists s. cbn. rewrite N.add_0_r. auto.
      - destruct (in_program (l_stack l)); [|discriminate]. destruct (_ =? _)%N; injection E as <- <-; exists s; cbn; rewrite N.add_0_r; auto.
      - rewrite S in E. destruct s as [|[| | |d] s]; try discriminate. exfalso. apply (NR d). left. reflexivity.
      - rewrite S in E. destruct s as [|[| | |d] s]; try discriminate; [|exfalso; apply NI; left; reflexivity]. cbn [app] in E, S.
        destruct (find_serial n (l_watchers l)) as [w|]; [|discriminate]. destruct (w_active w); [|discriminate].
        assert (C : exists ws r', Some (call w r' (with_watchers l ws)) = Some (l1, o1)).
        { destruct (w_kind w) as [c| |[|]|]; try destruct (_ && _); try discriminate; try (exists (l_watchers l), r; destruct l; exact E); eauto. }
        destruct C as (ws & r' & C). injection C as <- <-. exists [Callback (w_id w) (w_serial w) (w_kind w)]. cbn. rewrite S.
        split; [reflexivity|]. split; [intros d [X|[]]; discriminate|]. split; [intros [X|[]]; discriminate|]. reflexivity.
      - rewrite S in E. destruct s as [|[| | |d] s]; try discriminate; [|exfalso; apply NI; left; reflexivity]. cbn [app] in E, S.
        destruct (find_serial n (l_watchers l)) as [w|]; [|discriminate]. destruct (w_active w); [|discriminate].
        destruct (w_kind w) eqn:K; try discriminate. injection E as <- <-. exists [Callback (w_id w) (w_serial w) (w_kind w)]. cbn. rewrite S, K.
        split; [reflexivity|]. split; [intros d [X|[]]; discriminate|]. split; [intros [X|[]]; discriminate|]. reflexivity.
      - rewrite S in E. destruct s as [|[id n k| | |d] s]; cbn [app] in E; try discriminate.
        + assert (NR' : forall d, ~ In (Running d) s) by (intros d X; apply (NR d); right; exact X). assert (NI' : ~ In Iterating s) by (intros X; apply NI; right; exact X).
          destruct (match k with Child => true | _ => negb b end).
          * unfold remove_watcher in E. destruct (find_watcher _ _); injection E as <- <-.
            -- exists (Notifying :: s). cbn. rewrite N.add_0_r. split; [reflexivity|].
               split; [intros d [X|X]; [discriminate|exact (NR' d X)]|]. split; [intros [X|X]; [discriminate|exact (NI' X)]|reflexivity].
            -- exists s. cbn. rewrite N.add_0_r. auto.
          * injection E as <- <-. exists s. cbn. rewrite N.add_0_r. auto.
        + injection E as <- <-. exists s. cbn. rewrite N.add_0_r. split; [reflexivity|].
          split; [intros d X; apply (NR d); right; exact X|]. split; [intros X; apply NI; right; exact X|reflexivity].
      - rewrite S in E. destruct s; discriminate. }
    destruct G as (s1 & G1 & G2 & G3 & G4). destruct (IH _ _ _ _ _ G1 G2 G3 M E2) as (s2 & Q1 & Q2 & Q3 & Q4).
    exists s2. do 3 (split; [assumption|]). rewrite Q4, G4, filter_app, app_length. lia.
Qed.

(** *** A source whose ID is taken again *)
Lemma around m : forall id, (1 <= id)%N -> (id + N.of_nat m < two32)%N -> forall added called depth s, in_program s = true ->
  exists es tr, steps (mk_loop id [] added called depth s false) es = Some (mk_loop (id + N.of_nat m) [] (added + m) called depth s false, tr) /\
    forallb (fun o => negb (is_call o)) tr = true.
Proof.
  induction m as [|m IH]; intros id L B added called depth s P.
  - exists [], []. split; [|reflexivity]. cbn [steps]. rewrite N.add_0_r, Nat.add_0_r. reflexivity.
  - destruct (IH (id + 1)%N ltac:(lia) ltac:(lia) (added + 1)%nat called depth s P) as (es & tr & E & C).
    exists (Add true Idle :: Remove (id + 1) :: Return true :: es), ([Added added (id + 1) Idle] ++ [Removed (id + 1) true; Destroyed added] ++ [] ++ tr).
    split; [|cbn; exact C]. cbn [steps]. unfold step at 1. cbn [l_dead l_stack]. rewrite P. unfold add_watcher. cbn [l_watchers length l_id next_id l_added l_called l_depth l_stack l_dead].
    cbv zeta. rewrite (N.mod_small (id + 1) two32) by lia. destruct (N.eqb_spec (id + 1) 0); [lia|]. cbn [find_watcher find List.find app].
    unfold step at 1. cbn [l_dead l_stack]. rewrite P. unfold remove_watcher. cbn [l_watchers find_watcher find List.find w_id].
    unfold find_watcher. cbn [List.find w_id]. rewrite N.eqb_refl. cbn [with_stack with_watchers l_id l_watchers l_added l_called l_depth l_stack l_dead].
    unfold step at 1. cbn [l_dead l_stack]. unfold drop_watcher. cbn [filter w_id]. rewrite N.eqb_refl. cbn [negb with_stack l_id l_watchers l_added l_called l_depth l_stack l_dead].
    replace (Datatypes.S added) with (added + 1)%nat by lia. unfold with_stack, with_watchers. cbn [l_id l_watchers l_added l_called l_depth l_stack l_dead w_serial]. rewrite E. replace (id + 1 + N.of_nat m)%N with (id + N.of_nat (S m))%N by lia.
    replace (added + 1 + m)%nat with (added + S m)%nat by lia. reflexivity.
Qed.
