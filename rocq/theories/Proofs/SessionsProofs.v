(** Lemmas about sessions. *)
From Coq Require Import Arith NArith List Bool Lia Permutation.
From Verif.Model Require Import Sessions.
From Verif.Spec Require Import SessionsSpec.
Import ListNotations.
Local Open Scope N_scope.

Lemma ended_app a b : ended (a ++ b) = ended a ++ ended b.
Proof. unfold ended. apply flat_map_app. Qed.
Lemma freed_app a b : freed (a ++ b) = freed a ++ freed b.
Proof. unfold freed. apply flat_map_app. Qed.

Lemma in_remove s t l : In t (remove s l) <-> In t l /\ t <> s.
Proof.
  unfold remove. rewrite filter_In. destruct (Nat.eqb_spec t s) as [->|H]; cbn [negb]; intuition congruence.
Qed.

Lemma remove_app s a b : remove s (a ++ b) = remove s a ++ remove s b.
Proof. unfold remove. apply filter_app. Qed.

Lemma remove_absent s l : ~ In s l -> remove s l = l.
Proof.
  induction l as [|t l IH]; intros H; [reflexivity|]. cbn. destruct (Nat.eqb_spec t s) as [->|E].
  - destruct H. left. reflexivity.
  - cbn [negb]. f_equal. apply IH. intros I. apply H. right. exact I.
Qed.

Lemma remove_head s l : NoDup (s :: l) -> remove s (s :: l) = l.
Proof.
  intros N. inversion N as [|x y A B]; subst. cbn. rewrite Nat.eqb_refl. cbn [negb]. exact (remove_absent s l A).
Qed.

Lemma nodup_remove s l : NoDup l -> NoDup (remove s l).
Proof. apply NoDup_filter. Qed.

Lemma from_middle a s l : ~ In s a -> from s (a ++ s :: l) = s :: l.
Proof.
  induction a as [|t a IH]; intros H; cbn [app from].
  - rewrite Nat.eqb_refl. reflexivity.
  - destruct (Nat.eqb_spec t s) as [->|E]; [destruct H; left; reflexivity|]. apply IH. intros I. apply H. right. exact I.
Qed.

Lemma nodup_middle (a : list nat) s l : NoDup (a ++ s :: l) -> ~ In s a /\ ~ In s l /\ NoDup (a ++ l).
Proof.
  intros H. pose proof (NoDup_remove _ _ _ H) as [A B]. rewrite in_app_iff in B. tauto.
Qed.

(** ** What is true of the state *)
Record sane (b : book) : Prop := mk_sane {
  n_nodup : NoDup (b_leaders b);
  n_in : forall s, In s (b_leaders b) <-> (s < b_count b)%nat /\ b_over b s = false;
  n_over : forall s, b_over b s = true -> (s < b_count b)%nat;
  n_proc : forall s, b_processing b s = true -> b_children b s = true /\ b_over b s = false /\ (s < b_count b)%nat;
  n_child : forall s, b_children b s = true -> (s < b_count b)%nat;
  n_timer : forall i, b_timer b = Some i -> b_id b = true /\ b_interval b = i /\ 0 < i;
  n_id : b_id b = true -> 0 < b_interval b
}.

(** The pointer of the check splits the list. *)
Definition split_at (b : book) (bef aft : list nat) : Prop :=
  b_leaders b = bef ++ aft /\ b_next b = hd_error aft.

(** What a step says against what it changes. *)
Record tells (b b' : book) (e : list event) : Prop := mk_tells {
  u_over : forall s, b_over b' s = true <-> b_over b s = true \/ In s (ended e);
  u_new : forall s, In s (ended e) -> b_over b s = false;
  u_nodup : NoDup (ended e);
  u_freed : Permutation (freed e ++ b_done b') (ended e ++ b_done b)
}.

Lemma tells_refl b b' : b_over b' = b_over b -> b_done b' = b_done b -> tells b b' [].
Proof.
  intros O D. constructor; cbn.
  - intros s. rewrite O. tauto.
  - intros s [].
  - constructor.
  - rewrite D. reflexivity.
Qed.

Lemma tells_trans a b c e f : tells a b e -> tells b c f -> tells a c (e ++ f).
Proof.
  intros [A1 A2 A3 A4] [B1 B2 B3 B4]. constructor.
  - intros s. rewrite B1, A1, ended_app, in_app_iff. tauto.
  - intros s. rewrite ended_app, in_app_iff. intros [H|H]; [apply A2, H|].
    apply B2 in H. destruct (b_over a s) eqn:E; [|reflexivity].
    assert (X : b_over b s = true) by (apply A1; left; exact E). congruence.
  - rewrite ended_app. clear A4 B4. revert A3. assert (D : forall s, In s (ended e) -> ~ In s (ended f)).
    { intros s H1 H2. apply B2 in H2. assert (X : b_over b s = true) by (apply A1; right; exact H1). congruence. }
    clear A1 A2 B1 B2. induction (ended e) as [|x l IH]; intros N; [exact B3|]. inversion N as [|y z N1 N2]; subst. cbn. constructor.
    + rewrite in_app_iff. intros [H|H]; [contradiction|]. exact (D x (or_introl eq_refl) H).
    + apply IH; [|exact N2]. intros s H. apply D. right. exact H.
  - rewrite freed_app, ended_app, <- !app_assoc.
    eapply Permutation_trans; [apply Permutation_app_head, B4|].
    rewrite !app_assoc. eapply Permutation_trans; [apply Permutation_app_tail, Permutation_app_comm|].
    rewrite <- !app_assoc. eapply Permutation_trans; [apply Permutation_app_head, A4|].
    rewrite !app_assoc. apply Permutation_app_tail, Permutation_app_comm.
Qed.

Lemma set_at_same f s v : set_at f s v s = v.
Proof. unfold set_at. rewrite Nat.eqb_refl. reflexivity. Qed.
Lemma set_at_other f s v t : t <> s -> set_at f s v t = f t.
Proof. intros H. unfold set_at. destruct (Nat.eqb_spec s t); [congruence | reflexivity]. Qed.

Lemma dispose_facts b : let b' := dispose_checker b in
  b_count b' = b_count b /\ b_leaders b' = b_leaders b /\ b_next b' = b_next b /\ b_done b' = b_done b /\
  b_children b' = b_children b /\ b_processing b' = b_processing b /\ b_over b' = b_over b /\ b_id b' = false /\
  (b_id b = true \/ b_timer b = None -> b_timer b' = None).
Proof.
  unfold dispose_checker. destruct (b_id b) eqn:I; cbn; repeat split; auto. intros [H|H]; [discriminate | exact H].
Qed.

Lemma start_facts b i : let b' := start_checker b i in
  b_count b' = b_count b /\ b_leaders b' = b_leaders b /\ b_next b' = b_next b /\ b_done b' = b_done b /\
  b_children b' = b_children b /\ b_processing b' = b_processing b /\ b_over b' = b_over b.
Proof.
  cbv zeta. unfold start_checker. pose proof (dispose_facts b) as D. cbv zeta in D.
  destruct (0 <? i); [destruct (negb (b_id b) || negb (i =? b_interval b))|]; cbn; intuition.
Qed.

Lemma start_timer b i : sane b ->
  (forall j, b_timer (start_checker b i) = Some j -> b_id (start_checker b i) = true /\ b_interval (start_checker b i) = j /\ 0 < j) /\
  (b_id (start_checker b i) = true -> 0 < b_interval (start_checker b i)).
Proof.
  intros S. unfold start_checker. destruct (N.ltb_spec 0 i) as [L|L].
  - destruct (negb (b_id b) || negb (i =? b_interval b)); cbn.
    + split; [intros j H; injection H as <-; auto | auto].
    + split; [apply (n_timer _ S) | apply (n_id _ S)].
  - pose proof (dispose_facts b) as D. cbv zeta in D. destruct D as (_ & _ & _ & _ & _ & _ & _ & I & T).
    rewrite I. split; [|discriminate]. intros j H. rewrite T in H; [discriminate|].
    destruct (b_timer b) as [k|] eqn:E; [left; apply (n_timer _ S k E) | right; reflexivity].
Qed.

(** ** A session that ends *)
Lemma finished_facts b s : sane b -> (s < b_count b)%nat -> b_over b s = false ->
  exists b', leader_finished b s false = (b', [Over s]) /\ sane b' /\ tells b b' [Over s] /\
    b_leaders b' = remove s (b_leaders b) /\ b_count b' = b_count b /\ b_children b' = b_children b /\
    (forall t, t <> s -> b_processing b' t = b_processing b t) /\
    b_next b' = match b_next b with Some n => if (n =? s)%nat then after s (b_leaders b) else Some n | None => None end.
Proof.
  intros S C O. unfold leader_finished. rewrite O.
  assert (I : In s (b_leaders b)) by (apply (n_in _ S); auto).
  assert (E : existsb (Nat.eqb s) (b_leaders b) = true) by (apply existsb_exists; exists s; split; [exact I | apply Nat.eqb_refl]).
  rewrite E. set (next := match b_next b with Some n => _ | None => _ end).
  set (b1 := mk_book (b_count b) (remove s (b_leaders b)) next (b_done b) (b_id b) (b_interval b) (b_timer b)
                     (b_children b) (b_processing b) (b_over b)).
  set (b2 := match b_leaders b1 with [] => dispose_checker b1 | _ :: _ => b1 end).
  assert (F : b_count b2 = b_count b /\ b_leaders b2 = remove s (b_leaders b) /\ b_next b2 = next /\ b_done b2 = b_done b /\
              b_children b2 = b_children b /\ b_processing b2 = b_processing b /\ b_over b2 = b_over b).
  { unfold b2. pose proof (dispose_facts b1) as D. cbv zeta in D. destruct (b_leaders b1) eqn:L; [|repeat split; auto].
    destruct D as (D1 & D2 & D3 & D4 & D5 & D6 & D7 & _). rewrite D1, D2, D3, D4, D5, D6, D7. repeat split; auto. }
  destruct F as (F1 & F2 & F3 & F4 & F5 & F6 & F7).
  eexists. split; [reflexivity|]. split; [constructor; cbn [b_leaders b_count b_over b_processing b_children b_timer b_id b_interval]|].
  - rewrite F2. apply nodup_remove, (n_nodup _ S).
  - intros t. rewrite F2, in_remove, (n_in _ S), F1, F7. destruct (Nat.eq_dec t s) as [->|N].
    + rewrite set_at_same. intuition congruence.
    + rewrite set_at_other by exact N. intuition.
  - intros t. rewrite F7, F1. destruct (Nat.eq_dec t s) as [->|N]; [auto|]. rewrite set_at_other by exact N. apply (n_over _ S).
  - intros t. rewrite F6, F5, F7, F1. destruct (Nat.eq_dec t s) as [->|N]; [rewrite set_at_same; discriminate|].
    rewrite !set_at_other by exact N. apply (n_proc _ S).
  - intros t. rewrite F5, F1. apply (n_child _ S).
  - unfold b2. pose proof (dispose_facts b1) as D. cbv zeta in D.
    destruct (b_leaders b1) eqn:L; [|apply (n_timer _ S)].
    intros i H. destruct D as (_ & _ & _ & _ & _ & _ & _ & _ & T). rewrite T in H; [discriminate|].
    unfold b1. cbn [b_id b_timer]. destruct (b_timer b) as [k|] eqn:K; [left; apply (n_timer _ S k K) | right; reflexivity].
  - unfold b2. pose proof (dispose_facts b1) as D. cbv zeta in D.
    destruct (b_leaders b1) eqn:L; [|apply (n_id _ S)].
    destruct D as (_ & _ & _ & _ & _ & _ & _ & X & _). rewrite X. discriminate.
  - split; [constructor; cbn [ended flat_map app b_over b_done freed]|].
    + intros t. rewrite F7. destruct (Nat.eq_dec t s) as [->|N].
      * rewrite set_at_same. intuition.
      * rewrite set_at_other by exact N. cbn. intuition congruence.
    + intros t [<-|[]]. exact O.
    + repeat constructor. intros [].
    + rewrite F4. reflexivity.
    + cbn [b_leaders b_count b_children b_processing b_next]. split; [exact F2|]. split; [exact F1|]. split; [exact F5|].
      split; [|exact F3]. intros t N. rewrite set_at_other by exact N. rewrite F6. reflexivity.
Qed.

(** ** The check *)
Lemma visit_facts waiting gone b s : sane b -> In s (b_leaders b) ->
  exists b' c e, check_connection waiting gone b s = (b', c, e) /\
  let b'' := if c then b' else mk_book (b_count b') (remove s (b_leaders b')) (b_next b') (b_done b') (b_id b') (b_interval b')
                            (b_timer b') (b_children b') (b_processing b') (b_over b') in
  sane b'' /\ tells b b'' e /\ b_count b'' = b_count b /\ b_children b'' = b_children b /\
  b_id b'' = b_id b /\ b_interval b'' = b_interval b /\ b_timer b'' = b_timer b /\
  (forall t, t <> s -> b_processing b'' t = b_processing b t) /\
  b_leaders b'' = (if c then b_leaders b else remove s (b_leaders b)) /\
  (In (Checked s) e <-> b_processing b s = true /\ waiting s = true) /\
  (c = false <-> b_processing b s = true /\ waiting s = true /\ gone s = true) /\
  (In (Lost s) e <-> c = false) /\ (forall t, In (Checked t) e \/ In (Lost t) e -> t = s).
Proof.
  intros S I. unfold check_connection.
  destruct (b_processing b s) eqn:P; cbn [andb]; [destruct (waiting s) eqn:W; [destruct (gone s) eqn:G|]|].
  - destruct (n_proc _ S s P) as (C & O & L). unfold leader_finished. rewrite O.
    eexists _, false, _. split; [reflexivity|]. cbv zeta.
    cbn [b_count b_leaders b_next b_done b_id b_interval b_timer b_children b_processing b_over].
    split; [constructor; cbn [b_leaders b_count b_over b_processing b_children b_timer b_id b_interval]|].
    + apply nodup_remove, (n_nodup _ S).
    + intros t. rewrite in_remove, (n_in _ S). destruct (Nat.eq_dec t s) as [->|N].
      * rewrite set_at_same. intuition congruence.
      * rewrite set_at_other by exact N. intuition.
    + intros t. destruct (Nat.eq_dec t s) as [->|N]; [auto|]. rewrite set_at_other by exact N. apply (n_over _ S).
    + intros t. destruct (Nat.eq_dec t s) as [->|N]; [rewrite set_at_same; discriminate|].
      rewrite !set_at_other by exact N. apply (n_proc _ S).
    + apply (n_child _ S).
    + apply (n_timer _ S).
    + apply (n_id _ S).
    + split; [constructor; cbn [ended flat_map app b_over b_done freed]|].
      * intros t. destruct (Nat.eq_dec t s) as [->|N].
        -- rewrite set_at_same. intuition.
        -- rewrite set_at_other by exact N. cbn. intuition congruence.
      * intros t [<-|[]]. exact O.
      * repeat constructor. intros [].
      * reflexivity.
      * do 5 (split; [reflexivity|]). split; [intros t N; apply set_at_other; exact N|]. split; [reflexivity|].
        split; [split; auto; left; reflexivity|]. split; [tauto|]. split; [split; auto; intros; right; left; reflexivity|].
        intros t [[H|[H|[H|[]]]]|[H|[H|[H|[]]]]]; congruence.
  - eexists _, true, _. split; [reflexivity|]. cbv zeta.
    split; [exact S|]. split; [|].
    { constructor; cbn; try tauto; [constructor | reflexivity]. }
    do 5 (split; [reflexivity|]). split; [reflexivity|]. split; [reflexivity|].
    split; [cbn; tauto|]. split; [split; [discriminate | intros (_ & _ & H); congruence]|].
    split; [split; [intros [H|[]]; discriminate | discriminate]|].
    intros t [[H|[]]|[H|[]]]; congruence.
  - eexists _, true, _. split; [reflexivity|]. cbv zeta.
    split; [exact S|]. split; [apply tells_refl; reflexivity|]. do 7 (split; [reflexivity|]).
    split; [split; [intros [] | intros [_ H]; discriminate]|].
    split; [split; [discriminate | intros (_ & H & _); discriminate]|].
    split; [split; [intros [] | discriminate]|]. intros t [[]|[]].
  - eexists _, true, _. split; [reflexivity|]. cbv zeta.
    split; [exact S|]. split; [apply tells_refl; reflexivity|]. do 7 (split; [reflexivity|]).
    split; [split; [intros [] | intros [H _]; discriminate]|].
    split; [split; [discriminate | intros (H & _); discriminate]|].
    split; [split; [intros [] | discriminate]|]. intros t [[]|[]].
Qed.

(** Sessions that stay when they are looked at. *)
Definition stays (waiting gone : nat -> bool) (b : book) (s : nat) : bool :=
  negb (b_processing b s && waiting s && gone s).

Lemma loop_facts waiting gone n : forall rest b bef, sane b -> b_leaders b = bef ++ rest ->
  exists b' e, check_loop waiting gone n rest b = (b', e) /\ sane b' /\ tells b b' e /\
    b_count b' = b_count b /\ b_children b' = b_children b /\
    b_id b' = b_id b /\ b_interval b' = b_interval b /\ b_timer b' = b_timer b /\
    split_at b' (bef ++ filter (stays waiting gone b) (firstn n rest)) (skipn n rest) /\
    (forall t, ~ In t (firstn n rest) -> b_processing b' t = b_processing b t) /\
    (forall t, In (Checked t) e <-> In t (firstn n rest) /\ b_processing b t = true /\ waiting t = true) /\
    (forall t, In (Lost t) e <-> In t (firstn n rest) /\ stays waiting gone b t = false).
Proof.
  induction n as [|n IH]; intros rest b bef S L.
  - cbn [check_loop firstn skipn filter]. eexists _, _. split; [reflexivity|].
    split; [destruct S; constructor; assumption|]. split; [apply tells_refl; reflexivity|].
    do 5 (split; [reflexivity|]). split; [split; [rewrite app_nil_r; exact L | reflexivity]|].
    split; [reflexivity|]. split; cbn; tauto.
  - destruct rest as [|s rest].
    + cbn [check_loop firstn skipn filter]. eexists _, _. split; [reflexivity|].
      split; [destruct S; constructor; assumption|]. split; [apply tells_refl; reflexivity|].
      do 5 (split; [reflexivity|]). split; [split; [rewrite app_nil_r; exact L | reflexivity]|].
      split; [reflexivity|]. split; cbn; tauto.
    + cbn [check_loop]. assert (I : In s (b_leaders b)) by (rewrite L; apply in_or_app; right; left; reflexivity).
      destruct (visit_facts waiting gone b s S I) as (b1 & c & e & E & V). rewrite E. cbv zeta in V |- *.
      set (b2 := if c then b1 else _) in *.
      destruct V as (S2 & T2 & C2 & Ch2 & I2 & In2 & Ti2 & P2 & L2 & K2 & G2 & Lo2 & Only2).
      pose proof (n_nodup _ S) as N. rewrite L in N. destruct (nodup_middle _ _ _ N) as (N1 & N2 & N3).
      assert (St : stays waiting gone b s = c).
      { unfold stays. destruct c.
        - destruct (b_processing b s && waiting s && gone s) eqn:X; [|reflexivity].
          rewrite !andb_true_iff in X. destruct X as [[X1 X2] X3]. assert (true = false) by (apply G2; auto). discriminate.
        - destruct (proj1 G2 eq_refl) as (X1 & X2 & X3). rewrite X1, X2, X3. reflexivity. }
      assert (L' : b_leaders b2 = (bef ++ (if c then [s] else [])) ++ rest).
      { rewrite L2, L. destruct c; [rewrite <- app_assoc; reflexivity|]. rewrite app_nil_r, remove_app.
        rewrite remove_absent by exact N1. f_equal. apply remove_head. constructor; [exact N2|].
        clear - N3. induction bef as [|x l IHl]; [exact N3|]. inversion N3. auto. }
      destruct (IH rest b2 _ S2 L') as (b3 & e3 & E3 & S3 & T3 & C3 & Ch3 & I3 & In3 & Ti3 & Sp3 & P3 & K3 & Lo3).
      rewrite E3. eexists _, _. split; [reflexivity|]. split; [exact S3|].
      split; [exact (tells_trans _ _ _ _ _ T2 T3)|].
      do 5 (split; [congruence|]). cbn [firstn skipn filter]. rewrite St.
      assert (Sx : filter (stays waiting gone b2) (firstn n rest) = filter (stays waiting gone b) (firstn n rest)).
      { apply filter_ext_in. intros t Ht. unfold stays. rewrite P2; [reflexivity|]. intros ->.
        apply N2. rewrite <- (firstn_skipn n rest). apply in_or_app. left. exact Ht. }
      rewrite Sx in Sp3.
      assert (D : forall t, In t (firstn n rest) -> t <> s).
      { intros t Ht ->. apply N2. rewrite <- (firstn_skipn n rest). apply in_or_app. left. exact Ht. }
      split; [destruct c; cbn [app] in *; rewrite <- ?app_assoc in Sp3; cbn [app] in Sp3; exact Sp3|].
      split; [intros t Ht; rewrite P3, P2; [reflexivity | |]; intros X; apply Ht; [left; congruence | right; exact X]|].
      split.
      * intros t. rewrite in_app_iff, K3. split.
        -- intros [H|(H1 & H2 & H3)].
           ++ pose proof (Only2 t (or_introl H)) as ->. apply K2 in H. split; [left; reflexivity | exact H].
           ++ split; [right; exact H1|]. rewrite P2 in H2 by (apply D, H1). auto.
        -- intros [[<-|H1] H2]; [left; apply K2; exact H2|]. right. rewrite P2 by (apply D, H1). auto.
      * intros t. rewrite in_app_iff, Lo3. split.
        -- intros [H|(H1 & H2)].
           ++ pose proof (Only2 t (or_intror H)) as ->. apply Lo2 in H. split; [left; reflexivity | congruence].
           ++ split; [right; exact H1|]. unfold stays in *. rewrite P2 in H2 by (apply D, H1). exact H2.
        -- intros [[<-|H1] H2]; [left; apply Lo2; congruence|]. right. split; [exact H1|].
           unfold stays in *. rewrite P2 by (apply D, H1). exact H2.
Qed.

Lemma check_facts waiting gone b bef aft : sane b -> split_at b bef aft ->
  let rest := match aft with [] => b_leaders b | _ => aft end in
  let bef0 := match aft with [] => [] | _ => bef end in
  exists b' e, connection_check waiting gone b = (b', e) /\ sane b' /\ tells b b' e /\
    b_count b' = b_count b /\ b_children b' = b_children b /\ b_id b' = b_id b /\ b_interval b' = b_interval b /\
    b_timer b' = (match b_leaders b' with [] => None | _ => b_timer b end) /\
    split_at b' (bef0 ++ filter (stays waiting gone b) (firstn per_check rest)) (skipn per_check rest) /\
    (forall t, ~ In t (firstn per_check rest) -> b_processing b' t = b_processing b t) /\
    (forall t, In (Checked t) e <-> In t (firstn per_check rest) /\ b_processing b t = true /\ waiting t = true) /\
    (forall t, In (Lost t) e <-> In t (firstn per_check rest) /\ stays waiting gone b t = false).
Proof.
  intros S [L X] rest bef0. unfold connection_check.
  assert (R : match b_next b with Some s => from s (b_leaders b) | None => b_leaders b end = rest).
  { unfold rest. rewrite X. destruct aft as [|s a]; [reflexivity|]. cbn [hd_error]. rewrite L. apply from_middle.
    pose proof (n_nodup _ S) as N. rewrite L in N. apply nodup_middle in N. apply N. }
  rewrite R. assert (L0 : b_leaders b = bef0 ++ rest).
  { unfold rest, bef0. destruct aft; [reflexivity | exact L]. }
  destruct (loop_facts waiting gone per_check rest b bef0 S L0) as (b1 & e & E & S1 & T1 & C1 & Ch1 & I1 & In1 & Ti1 & Sp1 & P1 & K1 & Lo1).
  rewrite E. destruct (b_leaders b1) as [|x l] eqn:LL.
  - eexists _, _. split; [reflexivity|].
    split; [destruct S1; constructor; cbn [b_leaders b_count b_over b_processing b_children b_timer b_id b_interval]; try assumption; [rewrite <- LL; assumption | rewrite <- LL; assumption | discriminate]|].
    split; [destruct T1; constructor; assumption|]. do 4 (split; [assumption|]). cbn [b_timer b_leaders b_processing].
    split; [reflexivity|]. split; [destruct Sp1 as [Sp Sq]; split; [cbn [b_leaders]; rewrite <- LL; exact Sp | exact Sq]|].
    split; [exact P1|]. split; assumption.
  - eexists _, _. split; [reflexivity|]. rewrite LL. split; [exact S1|]. split; [exact T1|]. do 5 (split; [assumption|]).
    split; [exact Sp1|]. split; [exact P1|]. split; assumption.
Qed.

(** ** One step *)
Definition born (o : op) : nat := match o with Establish _ => 1 | _ => 0 end.

Lemma finish_split b s bef aft b' : sane b -> split_at b bef aft ->
  b_leaders b' = remove s (b_leaders b) ->
  b_next b' = match b_next b with Some n => if (n =? s)%nat then after s (b_leaders b) else Some n | None => None end ->
  split_at b' (remove s bef) (remove s aft).
Proof.
  intros S [L X] L' N'. pose proof (n_nodup _ S) as N. rewrite L in N. split.
  - rewrite L', L, remove_app. reflexivity.
  - rewrite N', X. destruct aft as [|n a]; [reflexivity|]. cbn [hd_error].
    destruct (Nat.eqb_spec n s) as [->|E].
    + destruct (nodup_middle _ _ _ N) as (N1 & N2 & N3). unfold after. rewrite L, from_middle by exact N1. cbn [tl].
      f_equal. symmetry. apply remove_head. constructor; [exact N2|].
      clear - N3. induction bef as [|x l IHl]; [exact N3|]. inversion N3. auto.
    + cbn. destruct (Nat.eqb_spec n s); [congruence|]. reflexivity.
Qed.

Lemma step_facts b o bef aft : sane b -> split_at b bef aft ->
  exists b' e bef' aft', book_step b o = (b', e) /\ sane b' /\ tells b b' e /\ split_at b' bef' aft' /\
    b_count b' = (born o + b_count b)%nat.
Proof.
  intros S X. destruct o as [i|s|s|s|s|w g|]; cbn [book_step born].
  - set (b1 := mk_book _ _ _ _ _ _ _ _ _ _). pose proof (start_facts b1 i) as F. cbv zeta in F.
    destruct F as (F1 & F2 & F3 & F4 & F5 & F6 & F7).
    assert (S1 : sane b1).
    { constructor; cbn [b1 b_leaders b_count b_over b_processing b_children b_timer b_id b_interval].
      - constructor; [|apply (n_nodup _ S)]. rewrite (n_in _ S). lia.
      - intros s. cbn [In]. rewrite (n_in _ S). split.
        + intros [<-|[A B]]; [|split; [lia | exact B]]. split; [lia|].
          destruct (b_over b (b_count b)) eqn:O; [apply (n_over _ S) in O; lia | reflexivity].
        + intros [A B]. destruct (Nat.eq_dec (b_count b) s); [left; assumption | right; split; [lia | exact B]].
      - intros s O. apply (n_over _ S) in O. lia.
      - intros s P. destruct (n_proc _ S s P) as (A & B & C). repeat split; auto.
      - intros s C. apply (n_child _ S) in C. lia.
      - apply (n_timer _ S).
      - apply (n_id _ S). }
    eexists _, _, (b_count b :: bef), aft. split; [reflexivity|].
    destruct (start_timer b1 i S1) as [T1 T2].
    split; [destruct S1; constructor; rewrite ?F1, ?F2, ?F5, ?F6, ?F7; assumption|].
    split; [apply tells_refl; [rewrite F7 | rewrite F4]; reflexivity|].
    split; [destruct X as [L N]; split; [rewrite F2; cbn [b1 b_leaders]; rewrite L; reflexivity | rewrite F3; exact N] | rewrite F1; reflexivity].
  - destruct ((s <? b_count b)%nat && negb (b_over b s)) eqn:Q.
    + apply andb_true_iff in Q as [Q1 Q2]. apply Nat.ltb_lt in Q1.
      eexists _, _, bef, aft. split; [reflexivity|]. split; [|split; [apply tells_refl; reflexivity | split; [exact X | reflexivity]]].
      destruct S; constructor; cbn [b_leaders b_count b_over b_processing b_children b_timer b_id b_interval]; try assumption.
      * intros t P. destruct (n_proc0 t P) as (A & B & C). split; [|auto].
        unfold set_at. destruct (s =? t)%nat; [reflexivity | exact A].
      * intros t. unfold set_at. destruct (Nat.eqb_spec s t) as [->|E]; [intros _; exact Q1 | apply n_child0].
    + exists b, [], bef, aft. split; [reflexivity|]. split; [exact S|]. split; [apply tells_refl; reflexivity | split; [exact X | reflexivity]].
  - destruct ((s <? b_count b)%nat && negb (b_over b s) && b_children b s) eqn:Q.
    + rewrite !andb_true_iff in Q. destruct Q as [[Q1 Q2] Q3]. apply Nat.ltb_lt in Q1. apply negb_true_iff in Q2.
      eexists _, _, bef, aft. split; [reflexivity|]. split; [|split; [apply tells_refl; reflexivity | split; [exact X | reflexivity]]].
      destruct S; constructor; cbn [b_leaders b_count b_over b_processing b_children b_timer b_id b_interval]; try assumption.
      intros t. unfold set_at. destruct (Nat.eqb_spec s t) as [->|E]; [auto | apply n_proc0].
    + exists b, [], bef, aft. split; [reflexivity|]. split; [exact S|]. split; [apply tells_refl; reflexivity | split; [exact X | reflexivity]].
  - destruct ((s <? b_count b)%nat && b_children b s) eqn:Q; [destruct (b_over b s) eqn:O|].
    + unfold leader_finished. rewrite O.
      exists b, [], bef, aft. split; [reflexivity|]. split; [exact S|]. split; [apply tells_refl; reflexivity | split; [exact X | reflexivity]].
    + apply andb_true_iff in Q as [Q1 Q2]. apply Nat.ltb_lt in Q1.
      destruct (finished_facts b s S Q1 O) as (b' & E & S' & T' & L' & C' & _ & _ & N').
      eexists _, _, (remove s bef), (remove s aft). split; [exact E|]. split; [exact S'|]. split; [exact T'|].
      split; [exact (finish_split b s bef aft b' S X L' N') | exact C'].
    + exists b, [], bef, aft. split; [reflexivity|]. split; [exact S|]. split; [apply tells_refl; reflexivity | split; [exact X | reflexivity]].
  - destruct ((s <? b_count b)%nat && b_children b s) eqn:Q; [destruct (b_over b s) eqn:O|].
    + unfold leader_finished. rewrite O.
      exists b, [], bef, aft. split; [reflexivity|]. split; [exact S|]. split; [apply tells_refl; reflexivity | split; [exact X | reflexivity]].
    + apply andb_true_iff in Q as [Q1 Q2]. apply Nat.ltb_lt in Q1.
      destruct (finished_facts b s S Q1 O) as (b' & E & S' & T' & L' & C' & _ & _ & N').
      eexists _, _, (remove s bef), (remove s aft). split; [exact E|]. split; [exact S'|]. split; [exact T'|].
      split; [exact (finish_split b s bef aft b' S X L' N') | exact C'].
    + exists b, [], bef, aft. split; [reflexivity|]. split; [exact S|]. split; [apply tells_refl; reflexivity | split; [exact X | reflexivity]].
  - destruct (b_timer b).
    + destruct (check_facts w g b bef aft S X) as (b' & e & E & S' & T' & C' & _ & _ & _ & _ & Sp & _).
      eexists _, _, _, _. split; [exact E|]. split; [exact S'|]. split; [exact T'|]. split; [exact Sp | exact C'].
    + exists b, [], bef, aft. split; [reflexivity|]. split; [exact S|]. split; [apply tells_refl; reflexivity | split; [exact X | reflexivity]].
  - eexists _, _, bef, aft. split; [reflexivity|]. split; [destruct S; constructor; assumption|]. split; [|split; [exact X | reflexivity]].
    assert (E : ended (map Freed (b_done b)) = []) by (clear; induction (b_done b) as [|x l IHl]; [reflexivity | exact IHl]).
    assert (F : freed (map Freed (b_done b)) = b_done b) by (clear; induction (b_done b) as [|x l IHl]; [reflexivity | cbn; f_equal; exact IHl]).
    constructor; rewrite ?E, ?F; cbn.
    + tauto.
    + intros t [].
    + constructor.
    + rewrite app_nil_r. reflexivity.
Qed.

Lemma run_facts ops : forall b bef aft, sane b -> split_at b bef aft ->
  exists b' e bef' aft', book_run b ops = (b', e) /\ sane b' /\ tells b b' e /\ split_at b' bef' aft' /\
    b_count b' = (established ops + b_count b)%nat.
Proof.
  induction ops as [|o ops IH]; intros b bef aft S X.
  - exists b, [], bef, aft. split; [reflexivity|]. split; [exact S|]. split; [apply tells_refl; reflexivity | split; [exact X | reflexivity]].
  - cbn [book_run]. destruct (step_facts b o bef aft S X) as (b1 & e1 & bf & af & E1 & S1 & T1 & X1 & C1). rewrite E1.
    destruct (IH b1 bf af S1 X1) as (b2 & e2 & bf2 & af2 & E2 & S2 & T2 & X2 & C2). rewrite E2.
    eexists _, _, bf2, af2. split; [reflexivity|]. split; [exact S2|]. split; [exact (tells_trans _ _ _ _ _ T1 T2)|].
    split; [exact X2|]. rewrite C2, C1. unfold established. cbn [filter]. destruct o; cbn [born length]; lia.
Qed.

Lemma new_sane : sane new_book.
Proof. constructor; cbn; try discriminate; [constructor|]. intros s. split; [intros [] | intros [H _]; lia]. Qed.

Lemma new_split : split_at new_book [] [].
Proof. split; reflexivity. Qed.

Lemma run_app a : forall b c, book_run b (a ++ c) =
  (let '(b1, e1) := book_run b a in let '(b2, e2) := book_run b1 c in (b2, e1 ++ e2)).
Proof.
  induction a as [|o a IH]; intros b c; cbn [app book_run].
  - destruct (book_run b c). reflexivity.
  - destruct (book_step b o) as [b1 e1]. rewrite IH. destruct (book_run b1 a) as [b2 e2].
    destruct (book_run b2 c) as [b3 e3]. rewrite app_assoc. reflexivity.
Qed.

(** ** The round *)
Fixpoint index (s : nat) (l : list nat) : nat :=
  match l with [] => 0 | t :: l => if (t =? s)%nat then 0 else S (index s l) end.

Lemma index_lt s l : In s l -> (index s l < length l)%nat.
Proof.
  induction l as [|t l IH]; intros H; [destruct H|]. cbn. destruct (Nat.eqb_spec t s) as [E|E]; [lia|].
  destruct H as [H|H]; [contradiction|]. apply IH in H. lia.
Qed.

Lemma index_remove s t l : t <> s -> (index s (remove t l) <= index s l)%nat.
Proof.
  intros H. induction l as [|x l IH]; [reflexivity|]. cbn [remove filter]. unfold remove in IH.
  destruct (Nat.eqb_spec x t) as [->|E]; cbn [negb index].
  - destruct (Nat.eqb_spec t s); [contradiction|]. lia.
  - destruct (x =? s)%nat; lia.
Qed.

Lemma index_first n : forall s l, In s l -> In s (firstn n l) \/
  (~ In s (firstn n l) /\ In s (skipn n l) /\ index s l = (n + index s (skipn n l))%nat).
Proof.
  induction n as [|n IH]; intros s l H; [right; cbn; auto|]. destruct l as [|t l]; [destruct H|].
  cbn [firstn skipn index]. destruct (Nat.eqb_spec t s) as [->|E]; [left; left; reflexivity|].
  destruct H as [H|H]; [contradiction|]. destruct (IH s l H) as [A|(A & B & C)]; [left; right; exact A|].
  right. split; [intros [X|X]; contradiction|]. split; [exact B | cbn; f_equal; exact C].
Qed.

Definition batches (n : nat) : nat := S (n / per_check).

Definition phi (M s : nat) (aft : list nat) : nat :=
  match aft with
  | [] => batches M
  | _ => if existsb (Nat.eqb s) aft then batches (index s aft) else (batches (length aft) + batches M)%nat
  end.

Lemma batches_le a b : (a <= b)%nat -> (batches a <= batches b)%nat.
Proof. intros H. unfold batches. apply le_n_S, Nat.div_le_mono; [discriminate | exact H]. Qed.

Lemma batches_minus a : (S (batches a) = batches (per_check + a))%nat.
Proof. unfold batches. replace (per_check + a)%nat with (a + 1 * per_check)%nat by lia. rewrite Nat.div_add by discriminate. lia. Qed.

Lemma existsb_in s l : existsb (Nat.eqb s) l = true <-> In s l.
Proof.
  rewrite existsb_exists. split; [intros (x & A & B); apply Nat.eqb_eq in B; subst; exact A | intros H; exists s; split; [exact H | apply Nat.eqb_refl]].
Qed.

Lemma length_remove s l : (length (remove s l) <= length l)%nat.
Proof. unfold remove. induction l as [|x l IH]; cbn; [lia|]. destruct (negb (x =? s)%nat); cbn; lia. Qed.

Lemma phi_remove M s t aft : t <> s -> (phi M s (remove t aft) <= phi M s aft)%nat.
Proof.
  intros H. unfold phi. destruct aft as [|x a]; [reflexivity|]. set (l := x :: a).
  pose proof (index_remove s t l H) as I. pose proof (length_remove t l) as Le.
  assert (E : existsb (Nat.eqb s) (remove t l) = existsb (Nat.eqb s) l).
  { destruct (existsb (Nat.eqb s) l) eqn:X.
    - apply existsb_in, in_remove. split; [apply existsb_in, X | congruence].
    - destruct (existsb (Nat.eqb s) (remove t l)) eqn:Y; [|reflexivity]. apply existsb_in, in_remove in Y as [Y _].
      apply existsb_in in Y. congruence. }
  destruct (remove t l) as [|y r] eqn:R.
  - cbn [existsb] in E. rewrite <- E. lia.
  - rewrite <- R in *. rewrite E. destruct (existsb (Nat.eqb s) l); [apply batches_le, I|].
    apply batches_le in Le. lia.
Qed.

Definition is_tick (o : op) : nat := match o with Tick _ _ => 1 | _ => 0 end.

Lemma phi_step b o bef aft s M : sane b -> split_at b bef aft ->
  In s (b_leaders b) -> b_processing b s = true -> b_timer b <> None ->
  (length (b_leaders b) <= M)%nat ->
  match o with Tick w _ => w s = true | Establish i => 0 < i | _ => True end ->
  b_over (fst (book_step b o)) s = false ->
  In (Checked s) (snd (book_step b o)) \/
  exists bef' aft', split_at (fst (book_step b o)) bef' aft' /\ (is_tick o + phi M s aft' <= phi M s aft)%nat /\
    b_processing (fst (book_step b o)) s = true /\ b_timer (fst (book_step b o)) <> None.
Proof.
  intros S X I P T Len A O. destruct o as [i|t|t|t|t|w g|]; cbn [book_step is_tick].
  - right. set (b1 := mk_book _ _ _ _ _ _ _ _ _ _). pose proof (start_facts b1 i) as F. cbv zeta in F.
    destruct F as (F1 & F2 & F3 & F4 & F5 & F6 & F7). cbn [fst].
    exists (b_count b :: bef), aft. destruct X as [L N].
    split; [split; [rewrite F2; cbn [b1 b_leaders]; rewrite L; reflexivity | rewrite F3; exact N]|].
    split; [cbn; lia|]. split; [rewrite F6; exact P|]. unfold start_checker. apply N.ltb_lt in A. rewrite A.
    destruct (negb (b_id b1) || negb (i =? b_interval b1)); cbn; [discriminate | exact T].
  - right. exists bef, aft. destruct ((t <? b_count b)%nat && negb (b_over b t)); cbn [fst]; auto.
  - right. exists bef, aft. destruct ((t <? b_count b)%nat && negb (b_over b t) && b_children b t); cbn [fst]; [|auto].
    split; [exact X|]. split; [cbn; lia|]. split; [|exact T]. cbn [b_processing]. unfold set_at. destruct (t =? s)%nat; [reflexivity | exact P].
  - right. destruct ((t <? b_count b)%nat && b_children b t) eqn:Q; [destruct (b_over b t) eqn:Ot|].
    + unfold leader_finished. rewrite Ot. exists bef, aft. auto.
    + apply andb_true_iff in Q as [Q1 Q2]. apply Nat.ltb_lt in Q1. cbn [book_step] in O.
      destruct (finished_facts b t S Q1 Ot) as (b' & E & S' & T' & L' & C' & _ & P' & N'). rewrite E.
      assert (D : t <> s).
      { intros ->. cbn [fst] in O. assert (Y : b_over (fst (leader_finished b s false)) s = true).
        { rewrite E. cbn [fst]. apply (u_over _ _ _ T'). right. left. reflexivity. }
        apply Nat.ltb_lt in Q1. rewrite Q1, Q2 in O. cbn [andb] in O. congruence. }
      exists (remove t bef), (remove t aft). cbn [fst]. split; [exact (finish_split b t bef aft b' S X L' N')|].
      split; [apply phi_remove, D|]. split; [rewrite P' by congruence; exact P|].
      unfold leader_finished in E. rewrite Ot in E.
      assert (Ex : existsb (Nat.eqb t) (b_leaders b) = true) by (apply existsb_in, (n_in _ S); auto).
      rewrite Ex in E. cbn [b_leaders] in E.
      assert (Ne : In s (remove t (b_leaders b))) by (apply in_remove; auto).
      destruct (remove t (b_leaders b)) eqn:R; [destruct Ne|]. injection E as <-. exact T.
    + exists bef, aft. auto.
  - right. destruct ((t <? b_count b)%nat && b_children b t) eqn:Q; [destruct (b_over b t) eqn:Ot|].
    + unfold leader_finished. rewrite Ot. exists bef, aft. auto.
    + apply andb_true_iff in Q as [Q1 Q2]. apply Nat.ltb_lt in Q1. cbn [book_step] in O.
      destruct (finished_facts b t S Q1 Ot) as (b' & E & S' & T' & L' & C' & _ & P' & N'). rewrite E.
      assert (D : t <> s).
      { intros ->. cbn [fst] in O. assert (Y : b_over (fst (leader_finished b s false)) s = true).
        { rewrite E. cbn [fst]. apply (u_over _ _ _ T'). right. left. reflexivity. }
        apply Nat.ltb_lt in Q1. rewrite Q1, Q2 in O. cbn [andb] in O. congruence. }
      exists (remove t bef), (remove t aft). cbn [fst]. split; [exact (finish_split b t bef aft b' S X L' N')|].
      split; [apply phi_remove, D|]. split; [rewrite P' by congruence; exact P|].
      unfold leader_finished in E. rewrite Ot in E.
      assert (Ex : existsb (Nat.eqb t) (b_leaders b) = true) by (apply existsb_in, (n_in _ S); auto).
      rewrite Ex in E. cbn [b_leaders] in E.
      assert (Ne : In s (remove t (b_leaders b))) by (apply in_remove; auto).
      destruct (remove t (b_leaders b)) eqn:R; [destruct Ne|]. injection E as <-. exact T.
    + exists bef, aft. auto.
  - cbn [book_step] in O. destruct (b_timer b) as [i|] eqn:Ti; [|congruence].
    destruct (check_facts w g b bef aft S X) as (b' & e & E & S' & T' & C' & _ & _ & _ & Ti' & Sp & P' & K' & _).
    rewrite E in *. cbn [fst snd] in *.
    set (rest := match aft with [] => b_leaders b | _ :: _ => aft end) in *.
    set (bef0 := match aft with [] => [] | _ :: _ => bef end) in *.
    assert (Tm : b_timer b' <> None).
    { rewrite Ti'. assert (Is : In s (b_leaders b')).
      { apply (n_in _ S'). split; [|exact O]. rewrite C'. apply (n_proc _ S s P). }
      destruct (b_leaders b'); [destruct Is | rewrite Ti; discriminate]. }
    destruct (in_dec Nat.eq_dec s (firstn per_check rest)) as [F|F].
    { left. apply K'. auto. }
    right. eexists _, _. split; [exact Sp|]. split; [|split; [rewrite P' by exact F; exact P | exact Tm]].
    destruct (in_dec Nat.eq_dec s rest) as [R|R].
    + destruct (index_first per_check s rest R) as [Y|(_ & Y & Z)]; [contradiction|].
      assert (B : phi M s (skipn per_check rest) = batches (index s (skipn per_check rest))).
      { unfold phi. destruct (skipn per_check rest) eqn:Q; [destruct Y|]. rewrite (proj2 (existsb_in _ _) Y). reflexivity. }
      rewrite B. cbn [Nat.add]. rewrite batches_minus, <- Z. unfold rest. destruct aft as [|x a] eqn:Ea.
      * cbn [phi]. apply batches_le. pose proof (index_lt s (b_leaders b) I). lia.
      * unfold phi. unfold rest in R. rewrite (proj2 (existsb_in _ _) R). reflexivity.
    + destruct aft as [|x a] eqn:Ea; [destruct (R I)|].
      unfold rest in *. clear rest. unfold phi at 2.
      destruct (existsb (Nat.eqb s) (x :: a)) eqn:Ex; [apply existsb_in in Ex; contradiction|].
      unfold phi. destruct (skipn per_check (x :: a)) as [|y r] eqn:Q; [cbn [length]; unfold batches at 2; lia|].
      rewrite <- Q. destruct (existsb (Nat.eqb s) (skipn per_check (x :: a))) eqn:Ey.
      { apply existsb_in in Ey. destruct R. rewrite <- (firstn_skipn per_check (x :: a)). apply in_or_app. right. exact Ey. }
      pose proof (skipn_length per_check (x :: a)) as Ls.
      assert (Lq : (length (skipn per_check (x :: a)) > 0)%nat) by (rewrite Q; cbn; lia).
      replace (length (x :: a)) with (per_check + length (skipn per_check (x :: a)))%nat by lia.
      rewrite <- batches_minus. lia.
  - right. exists bef, aft. auto.
Qed.

Lemma over_monotone ops : forall b bef aft s, sane b -> split_at b bef aft -> b_over b s = true -> b_over (fst (book_run b ops)) s = true.
Proof.
  intros b bef aft s S X O. destruct (run_facts ops b bef aft S X) as (b' & e & _ & _ & E & _ & T & _). rewrite E. cbn [fst].
  apply (u_over _ _ _ T). left. exact O.
Qed.

Lemma round ops : forall b bef aft s M, sane b -> split_at b bef aft ->
  In s (b_leaders b) -> b_processing b s = true -> b_timer b <> None ->
  (forall pre suf, ops = pre ++ suf -> (length (b_leaders (fst (book_run b pre))) <= M)%nat) ->
  Forall (fun o => match o with Establish i => 0 < i | _ => True end) ops -> busy s ops ->
  b_over (fst (book_run b ops)) s = false -> (phi M s aft <= ticks ops)%nat ->
  In (Checked s) (snd (book_run b ops)).
Proof.
  induction ops as [|o ops IH]; intros b bef aft s M S X I P T Len F B O Ph.
  - cbn in Ph. unfold phi in Ph. destruct aft; [unfold batches in Ph; lia|].
    destruct (existsb (Nat.eqb s) (n :: aft)); unfold batches in Ph; lia.
  - cbn [book_run] in *. inversion F as [|x y F1 F2]; subst. inversion B as [|x y B1 B2]; subst.
    destruct (step_facts b o bef aft S X) as (b1 & e1 & bf & af & E1 & S1 & T1 & X1 & C1).
    assert (O1 : b_over b1 s = false).
    { destruct (b_over b1 s) eqn:Q; [|reflexivity]. apply (over_monotone ops _ _ _ _ S1 X1) in Q.
      rewrite E1 in O. destruct (book_run b1 ops). cbn [fst] in *. congruence. }
    assert (St := phi_step b o bef aft s M S X I P T).
    rewrite E1 in St. cbn [fst snd] in St.
    assert (Le : (length (b_leaders b) <= M)%nat) by exact (Len [] (o :: ops) eq_refl).
    assert (Ok : match o with Tick w _ => w s = true | Establish i => 0 < i | _ => True end) by (destruct o; auto).
    specialize (St Le Ok O1). rewrite E1 in O |- *. destruct (book_run b1 ops) as [b2 e2] eqn:E2. cbn [fst snd] in *.
    apply in_or_app. destruct St as [St|(bf' & af' & Sp & Ph' & P' & T')]; [left; exact St|]. right.
    change e2 with (snd (b2, e2)). rewrite <- E2. apply (IH b1 bf' af' s M); auto.
    + apply (n_in _ S1). split; [|exact O1]. rewrite C1. pose proof (n_proc _ S s P). lia.
    + intros pre suf ->. specialize (Len (o :: pre) suf eq_refl). cbn [book_run] in Len. rewrite E1 in Len.
      destruct (book_run b1 pre). cbn [fst] in *. exact Len.
    + rewrite E2. exact O.
    + unfold ticks in *. cbn [filter] in Ph. destruct o; cbn [length is_tick] in *; lia.
Qed.

Lemma now_facts ops : exists bef aft, sane (now ops) /\ tells new_book (now ops) (history ops) /\
  split_at (now ops) bef aft /\ b_count (now ops) = established ops.
Proof.
  destruct (run_facts ops new_book [] [] new_sane new_split) as (b & e & bef & aft & E & S & T & X & C).
  unfold now, history. rewrite E. exists bef, aft. cbn [fst snd]. rewrite C. cbn. rewrite Nat.add_0_r. auto.
Qed.

Lemma now_app a c : now (a ++ c) = fst (book_run (now a) c).
Proof. unfold now. rewrite run_app. destruct (book_run new_book a) as [b e]. cbn [fst]. destruct (book_run b c). reflexivity. Qed.

Lemma history_app a c : history (a ++ c) = history a ++ snd (book_run (now a) c).
Proof. unfold now, history. rewrite run_app. destruct (book_run new_book a) as [b e]. cbn [fst snd]. destruct (book_run b c). reflexivity. Qed.

(** *** Lost connections *)
Lemma tick_lost b bef aft w g s : sane b -> split_at b bef aft ->
  In (Checked s) (snd (book_step b (Tick w g))) ->
  (g s = true <-> In (Lost s) (snd (book_step b (Tick w g)))) /\
  (g s = true <-> In s (ended (snd (book_step b (Tick w g))))).
Proof.
  intros S X. cbn [book_step]. destruct (b_timer b) as [i|]; [|intros []].
  destruct (check_facts w g b bef aft S X) as (b' & e & E & S' & T' & C' & _ & _ & _ & _ & Sp & _ & K & L).
  rewrite E. cbn [snd]. intros H. apply K in H as (H1 & H2 & H3).
  assert (Y : stays w g b s = negb (g s)) by (unfold stays; rewrite H2, H3; reflexivity).
  split.
  - rewrite L, Y. destruct (g s); cbn; intuition congruence.
  - set (rest := match aft with [] => b_leaders b | _ :: _ => aft end) in *.
    set (bef0 := match aft with [] => [] | _ :: _ => bef end) in *.
    assert (L0 : b_leaders b = bef0 ++ rest) by (unfold rest, bef0; destruct aft; [reflexivity | apply X]).
    destruct (n_proc _ S s H2) as (_ & O & Cn).
    assert (Z : In s (ended e) <-> ~ In s (b_leaders b')).
    { rewrite (n_in _ S'), C'. pose proof (u_over _ _ _ T' s) as U. split.
      - intros I [_ N]. assert (b_over b' s = true) by (apply U; right; exact I). congruence.
      - intros N. destruct (b_over b' s) eqn:Q; [|destruct N; auto]. destruct (proj1 U eq_refl) as [V|V]; [congruence | exact V]. }
    rewrite Z, (proj1 Sp). rewrite !in_app_iff, filter_In, Y. split.
    + intros G. rewrite G. pose proof (n_nodup _ S) as N. rewrite L0 in N.
      assert (D : ~ In s bef0 /\ ~ In s (skipn per_check rest)).
      { rewrite <- (firstn_skipn per_check rest) in N. apply in_split in H1 as (l1 & l2 & R). rewrite R in N.
        rewrite <- app_assoc, app_assoc in N. cbn [app] in N. apply nodup_middle in N as (N1 & N2 & _).
        rewrite in_app_iff in N1, N2. split; tauto. }
      cbn. intuition discriminate.
    + intros N. destruct (g s); [reflexivity|]. destruct N. left. right. auto.
Qed.

(** *** The timer *)
Lemma step_idle b o : sane b -> (b_leaders b = [] -> b_timer b = None) ->
  b_leaders (fst (book_step b o)) = [] -> b_timer (fst (book_step b o)) = None.
Proof.
  intros S Q. destruct o as [i|s|s|s|s|w g|]; cbn [book_step].
  - set (b1 := mk_book _ _ _ _ _ _ _ _ _ _). pose proof (start_facts b1 i) as F. cbv zeta in F. cbn [fst].
    destruct F as (_ & F & _). rewrite F. discriminate.
  - destruct ((s <? b_count b)%nat && negb (b_over b s)); exact Q.
  - destruct ((s <? b_count b)%nat && negb (b_over b s) && b_children b s); exact Q.
  - destruct ((s <? b_count b)%nat && b_children b s); [|exact Q]. unfold leader_finished. destruct (b_over b s); [exact Q|].
    set (b1 := if existsb _ _ then _ else _). cbn [fst b_leaders b_timer].
    assert (T : b_timer b1 = b_timer b /\ b_id b1 = b_id b) by (unfold b1; destruct (existsb (Nat.eqb s) (b_leaders b)); auto).
    pose proof (dispose_facts b1) as D. cbv zeta in D. destruct (b_leaders b1) eqn:L.
    + intros _. destruct D as (_ & _ & _ & _ & _ & _ & _ & _ & D). apply D. rewrite (proj1 T), (proj2 T).
      destruct (b_timer b) as [k|] eqn:K; [left; apply (n_timer _ S k K) | right; reflexivity].
    + rewrite L. discriminate.
  - destruct ((s <? b_count b)%nat && b_children b s); [|exact Q]. unfold leader_finished. destruct (b_over b s); [exact Q|].
    set (b1 := if existsb _ _ then _ else _). cbn [fst b_leaders b_timer].
    assert (T : b_timer b1 = b_timer b /\ b_id b1 = b_id b) by (unfold b1; destruct (existsb (Nat.eqb s) (b_leaders b)); auto).
    pose proof (dispose_facts b1) as D. cbv zeta in D. destruct (b_leaders b1) eqn:L.
    + intros _. destruct D as (_ & _ & _ & _ & _ & _ & _ & _ & D). apply D. rewrite (proj1 T), (proj2 T).
      destruct (b_timer b) as [k|] eqn:K; [left; apply (n_timer _ S k K) | right; reflexivity].
    + rewrite L. discriminate.
  - destruct (b_timer b) eqn:T; [|intros _; exact T]. unfold connection_check.
    destruct (check_loop w g per_check match b_next b with Some s => from s (b_leaders b) | None => b_leaders b end b) as [b1 e].
    destruct (b_leaders b1) eqn:L; cbn [fst b_timer]; [reflexivity|]. rewrite L. discriminate.
  - exact Q.
Qed.

Lemma run_idle ops : forall b bef aft, sane b -> split_at b bef aft -> (b_leaders b = [] -> b_timer b = None) ->
  b_leaders (fst (book_run b ops)) = [] -> b_timer (fst (book_run b ops)) = None.
Proof.
  induction ops as [|o ops IH]; intros b bef aft S X Q; [exact Q|]. cbn [book_run].
  pose proof (step_idle b o S Q) as Q1.
  destruct (step_facts b o bef aft S X) as (b1 & e1 & bf & af & E1 & S1 & _ & X1 & _). rewrite E1 in *. cbn [fst] in Q1.
  specialize (IH b1 bf af S1 X1 Q1). destruct (book_run b1 ops). exact IH.
Qed.

(** The id is only of a living timer, as long as no check empties the list. *)
Lemma step_live b bef aft o : sane b -> split_at b bef aft -> (b_id b = true -> b_timer b <> None) ->
  match o with Tick w g => b_timer b <> None -> b_leaders (fst (book_step b o)) <> [] | _ => True end ->
  b_id (fst (book_step b o)) = true -> b_timer (fst (book_step b o)) <> None.
Proof.
  intros S X Q H. destruct o as [i|s|s|s|s|w g|]; cbn [book_step] in *.
  - set (b1 := mk_book _ _ _ _ _ _ _ _ _ _). cbn [fst]. unfold start_checker.
    pose proof (dispose_facts b1) as D. cbv zeta in D. destruct D as (_ & _ & _ & _ & _ & _ & _ & D & _).
    destruct (0 <? i); [destruct (negb (b_id b1) || negb (i =? b_interval b1)); [discriminate | exact Q]|].
    rewrite D. discriminate.
  - destruct ((s <? b_count b)%nat && negb (b_over b s)); exact Q.
  - destruct ((s <? b_count b)%nat && negb (b_over b s) && b_children b s); exact Q.
  - destruct ((s <? b_count b)%nat && b_children b s); [|exact Q]. unfold leader_finished. destruct (b_over b s); [exact Q|].
    set (b1 := if existsb _ _ then _ else _). cbn [fst b_id b_timer].
    assert (T : b_timer b1 = b_timer b /\ b_id b1 = b_id b) by (unfold b1; destruct (existsb (Nat.eqb s) (b_leaders b)); auto).
    pose proof (dispose_facts b1) as D. cbv zeta in D. destruct (b_leaders b1) eqn:L.
    + destruct D as (_ & _ & _ & _ & _ & _ & _ & D & _). rewrite D. discriminate.
    + rewrite (proj1 T), (proj2 T). exact Q.
  - destruct ((s <? b_count b)%nat && b_children b s); [|exact Q]. unfold leader_finished. destruct (b_over b s); [exact Q|].
    set (b1 := if existsb _ _ then _ else _). cbn [fst b_id b_timer].
    assert (T : b_timer b1 = b_timer b /\ b_id b1 = b_id b) by (unfold b1; destruct (existsb (Nat.eqb s) (b_leaders b)); auto).
    pose proof (dispose_facts b1) as D. cbv zeta in D. destruct (b_leaders b1) eqn:L.
    + destruct D as (_ & _ & _ & _ & _ & _ & _ & D & _). rewrite D. discriminate.
    + rewrite (proj1 T), (proj2 T). exact Q.
  - destruct (b_timer b) as [j|] eqn:Tj; [|intros I; destruct (Q I); reflexivity].
    destruct (check_facts w g b bef aft S X) as (b' & e & E & _ & _ & _ & _ & I' & _ & T' & _). rewrite E in *. cbn [fst] in *.
    intros _. rewrite T'. specialize (H ltac:(discriminate)). destruct (b_leaders b'); [contradiction|]. rewrite Tj. discriminate.
  - exact Q.
Qed.

Lemma run_live ops : forall b bef aft, sane b -> split_at b bef aft -> (b_id b = true -> b_timer b <> None) ->
  (forall pre w g suf, ops = pre ++ Tick w g :: suf -> b_timer (fst (book_run b pre)) <> None ->
     b_leaders (fst (book_run b (pre ++ [Tick w g]))) <> []) ->
  b_id (fst (book_run b ops)) = true -> b_timer (fst (book_run b ops)) <> None.
Proof.
  induction ops as [|o ops IH]; intros b bef aft S X Q H; [exact Q|]. cbn [book_run].
  assert (Q1 := step_live b bef aft o S X Q).
  destruct (step_facts b o bef aft S X) as (b1 & e1 & bf & af & E1 & S1 & _ & X1 & _). rewrite E1 in *. cbn [fst] in Q1.
  assert (Q2 : b_id b1 = true -> b_timer b1 <> None).
  { apply Q1. destruct o as [i|s|s|s|s|w g|]; auto. intros T. specialize (H [] w g ops eq_refl T).
    cbn [app book_run] in H. rewrite E1 in H. exact H. }
  assert (H2 : forall pre w g suf, ops = pre ++ Tick w g :: suf -> b_timer (fst (book_run b1 pre)) <> None ->
     b_leaders (fst (book_run b1 (pre ++ [Tick w g]))) <> []).
  { intros pre w g suf -> T. specialize (H (o :: pre) w g suf eq_refl). cbn [app book_run] in H. rewrite E1 in H.
    destruct (book_run b1 pre) as [b2 e2]. destruct (book_run b1 (pre ++ [Tick w g])) as [b3 e3]. cbn [fst] in *. exact (H T). }
  specialize (IH b1 bf af S1 X1 Q2 H2). destruct (book_run b1 ops). exact IH.
Qed.

(** *** Dead timers *)
Lemma dead_run i more : forall b, 0 < i -> b_id b = true -> b_interval b = i -> b_timer b = None ->
  Forall (fun o => match o with Establish j => j = i | Close _ | Done _ => False | _ => True end) more ->
  (forall s, ~ In (Checked s) (snd (book_run b more))) /\ b_timer (fst (book_run b more)) = None.
Proof.
  induction more as [|o more IH]; intros b Z I J T F; [split; [intros s [] | exact T]|].
  inversion F as [|x y F1 F2]; subst x y. cbn [book_run].
  assert (St : exists b1 e1, book_step b o = (b1, e1) /\ (forall s, ~ In (Checked s) e1) /\ b_id b1 = true /\ b_interval b1 = i /\ b_timer b1 = None).
  { destruct o as [j|s|s|s|s|w g|]; cbn [book_step].
    - subst j. eexists _, _. split; [reflexivity|]. split; [intros s []|]. unfold start_checker.
      apply N.ltb_lt in Z. rewrite Z. cbn [b_id b_interval]. rewrite I, J, N.eqb_refl. cbn. auto.
    - destruct ((s <? b_count b)%nat && negb (b_over b s)); eexists _, _; (split; [reflexivity|]); split; auto; intros t [].
    - destruct ((s <? b_count b)%nat && negb (b_over b s) && b_children b s); eexists _, _; (split; [reflexivity|]); split; auto; intros t [].
    - destruct F1.
    - destruct F1.
    - rewrite T. eexists _, _. split; [reflexivity|]. split; auto.
    - eexists _, _. split; [reflexivity|]. split; auto. intros s. rewrite in_map_iff. intros (x & H & _). discriminate. }
  destruct St as (b1 & e1 & E1 & N1 & I1 & J1 & T1). rewrite E1. specialize (IH b1 Z I1 J1 T1 F2).
  destruct (book_run b1 more) as [b2 e2]. cbn [fst snd] in *. destruct IH as [IH1 IH2]. split; [|exact IH2].
  intros s. rewrite in_app_iff. intros [H|H]; [exact (N1 s H) | exact (IH1 s H)].
Qed.

(** *** Sessions that never negotiated *)
Lemma check_loop_children w g n : forall rest b, b_children (fst (check_loop w g n rest b)) = b_children b.
Proof.
  induction n as [|n IH]; intros rest b; [reflexivity|]. destruct rest as [|s rest]; [reflexivity|]. cbn [check_loop].
  unfold check_connection, leader_finished.
  destruct (b_processing b s && w s); [destruct (g s); [destruct (b_over b s)|]|];
  match goal with |- context [check_loop w g n rest ?x] => specialize (IH rest x); destruct (check_loop w g n rest x) end;
  cbn [fst] in *; rewrite IH; reflexivity.
Qed.

Lemma silent_step b bef aft s o : sane b -> split_at b bef aft -> (s < b_count b)%nat -> b_children b s = false -> b_over b s = false ->
  about_others s o -> b_children (fst (book_step b o)) s = false /\ b_over (fst (book_step b o)) s = false.
Proof.
  intros S X C H O A. destruct (step_facts b o bef aft S X) as (b1 & e1 & bf & af & E1 & S1 & T1 & X1 & C1).
  assert (Ch : b_children b1 s = false).
  { destruct o as [i|t|t|t|t|w g|]; cbn [book_step about_others] in *.
    - injection E1 as <- _. rewrite (proj1 (proj2 (proj2 (proj2 (proj2 (start_facts _ _)))))). exact H.
    - destruct ((t <? b_count b)%nat && negb (b_over b t)); injection E1 as <- _; [|exact H].
      cbn [b_children]. rewrite set_at_other by congruence. exact H.
    - destruct ((t <? b_count b)%nat && negb (b_over b t) && b_children b t); injection E1 as <- _; exact H.
    - destruct ((t <? b_count b)%nat && b_children b t) eqn:Q; [destruct (b_over b t) eqn:Ot|].
      + unfold leader_finished in E1. rewrite Ot in E1. injection E1 as <- _. exact H.
      + apply andb_true_iff in Q as [Q1 _]. apply Nat.ltb_lt in Q1.
        destruct (finished_facts b t S Q1 Ot) as (b' & E & _ & _ & _ & _ & Ch & _). rewrite E in E1. injection E1 as <- _. rewrite Ch. exact H.
      + injection E1 as <- _. exact H.
    - destruct ((t <? b_count b)%nat && b_children b t) eqn:Q; [destruct (b_over b t) eqn:Ot|].
      + unfold leader_finished in E1. rewrite Ot in E1. injection E1 as <- _. exact H.
      + apply andb_true_iff in Q as [Q1 _]. apply Nat.ltb_lt in Q1.
        destruct (finished_facts b t S Q1 Ot) as (b' & E & _ & _ & _ & _ & Ch & _). rewrite E in E1. injection E1 as <- _. rewrite Ch. exact H.
      + injection E1 as <- _. exact H.
    - destruct (b_timer b); [|injection E1 as <- _; exact H].
      destruct (check_facts w g b bef aft S X) as (b' & e & E & _ & _ & _ & Ch & _). rewrite E in E1. injection E1 as <- _. rewrite Ch. exact H.
    - injection E1 as <- _. exact H. }
  rewrite E1. cbn [fst]. split; [exact Ch|].
  destruct (b_over b1 s) eqn:Q; [|reflexivity]. destruct (proj1 (u_over _ _ _ T1 s) Q) as [Y|Y]; [congruence|].
  assert (En : forall b' t, book_step b o = (b', [Over t]) -> e1 = [Over t]) by (intros b' t Z; congruence).
  exfalso. destruct o as [i|t|t|t|t|w g|]; cbn [book_step about_others] in *.
  - injection E1 as _ <-. destruct Y.
  - destruct ((t <? b_count b)%nat && negb (b_over b t)); injection E1 as _ <-; destruct Y.
  - destruct ((t <? b_count b)%nat && negb (b_over b t) && b_children b t); injection E1 as _ <-; destruct Y.
  - destruct ((t <? b_count b)%nat && b_children b t) eqn:Qc; [|injection E1 as _ <-; destruct Y].
    unfold leader_finished in E1. destruct (b_over b t); [injection E1 as _ <-; destruct Y|].
    injection E1 as _ <-. destruct Y as [Y|[]]. congruence.
  - destruct ((t <? b_count b)%nat && b_children b t) eqn:Qc; [|injection E1 as _ <-; destruct Y].
    unfold leader_finished in E1. destruct (b_over b t); [injection E1 as _ <-; destruct Y|].
    injection E1 as _ <-. destruct Y as [Y|[]]. congruence.
  - destruct (b_timer b) eqn:Ti; [|injection E1 as _ <-; destruct Y].
    destruct (check_facts w g b bef aft S X) as (b' & e & E & S' & _ & C' & _ & _ & _ & _ & Sp & _).
    rewrite E in E1. injection E1 as <- <-.
    assert (I : In s (b_leaders b')).
    { rewrite (proj1 Sp). set (rest := match aft with [] => b_leaders b | _ :: _ => aft end).
      set (bef0 := match aft with [] => [] | _ :: _ => bef end).
      assert (L0 : b_leaders b = bef0 ++ rest) by (unfold rest, bef0; destruct aft; [reflexivity | apply X]).
      assert (I : In s (bef0 ++ rest)) by (rewrite <- L0; apply (n_in _ S); auto).
      rewrite in_app_iff in I. rewrite !in_app_iff, filter_In. destruct I as [I|I]; [tauto|].
      rewrite <- (firstn_skipn per_check rest), in_app_iff in I. destruct I as [I|I]; [|tauto].
      left. right. split; [exact I|]. unfold stays. destruct (b_processing b s) eqn:P; [|reflexivity].
      apply (n_proc _ S) in P as (P & _). congruence. }
    apply (n_in _ S') in I as [_ I]. congruence.
  - injection E1 as _ <-. clear - Y. induction (b_done b); [destruct Y | exact (IHl Y)].
Qed.

Lemma silent_run more : forall b bef aft s, sane b -> split_at b bef aft -> (s < b_count b)%nat -> b_children b s = false -> b_over b s = false ->
  Forall (about_others s) more -> b_over (fst (book_run b more)) s = false.
Proof.
  induction more as [|o more IH]; intros b bef aft s S X C H O F; [exact O|]. inversion F as [|x y F1 F2]; subst. cbn [book_run].
  destruct (silent_step b bef aft s o S X C H O F1) as [H1 O1].
  destruct (step_facts b o bef aft S X) as (b1 & e1 & bf & af & E1 & S1 & T1 & X1 & C1). rewrite E1 in *. cbn [fst] in *.
  assert (L : (s < b_count b1)%nat) by (rewrite C1; lia).
  specialize (IH b1 bf af s S1 X1 L H1 O1 F2). destruct (book_run b1 more). exact IH.
Qed.

(** *** Sessions that negotiated *)
Lemma step_children b bef aft s o : sane b -> split_at b bef aft -> b_children b s = true -> b_children (fst (book_step b o)) s = true.
Proof.
  intros S X H. destruct o as [i|t|t|t|t|w g|]; cbn [book_step].
  - cbn [fst]. rewrite (proj1 (proj2 (proj2 (proj2 (proj2 (start_facts _ _)))))). exact H.
  - destruct ((t <? b_count b)%nat && negb (b_over b t)); cbn [fst b_children]; [|exact H].
    unfold set_at. destruct (t =? s)%nat; [reflexivity | exact H].
  - destruct ((t <? b_count b)%nat && negb (b_over b t) && b_children b t); exact H.
  - destruct ((t <? b_count b)%nat && b_children b t) eqn:Q; [destruct (b_over b t) eqn:Ot|].
    + unfold leader_finished. rewrite Ot. exact H.
    + apply andb_true_iff in Q as [Q1 _]. apply Nat.ltb_lt in Q1.
      destruct (finished_facts b t S Q1 Ot) as (b' & E & _ & _ & _ & _ & Ch & _). rewrite E. cbn [fst]. rewrite Ch. exact H.
    + exact H.
  - destruct ((t <? b_count b)%nat && b_children b t) eqn:Q; [destruct (b_over b t) eqn:Ot|].
    + unfold leader_finished. rewrite Ot. exact H.
    + apply andb_true_iff in Q as [Q1 _]. apply Nat.ltb_lt in Q1.
      destruct (finished_facts b t S Q1 Ot) as (b' & E & _ & _ & _ & _ & Ch & _). rewrite E. cbn [fst]. rewrite Ch. exact H.
    + exact H.
  - destruct (b_timer b); [|exact H].
    destruct (check_facts w g b bef aft S X) as (b' & e & E & _ & _ & _ & Ch & _). rewrite E. cbn [fst]. rewrite Ch. exact H.
  - exact H.
Qed.

Lemma run_children ops : forall b bef aft s, sane b -> split_at b bef aft -> b_children b s = true -> b_children (fst (book_run b ops)) s = true.
Proof.
  induction ops as [|o ops IH]; intros b bef aft s S X H; [exact H|]. cbn [book_run].
  pose proof (step_children b bef aft s o S X H) as H1.
  destruct (step_facts b o bef aft S X) as (b1 & e1 & bf & af & E1 & S1 & _ & X1 & _). rewrite E1 in *. cbn [fst] in *.
  specialize (IH b1 bf af s S1 X1 H1). destruct (book_run b1 ops). exact IH.
Qed.
