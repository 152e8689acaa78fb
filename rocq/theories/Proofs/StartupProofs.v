(** Lemmas about starting and stopping. *)
From Verif.Base Require Import Bytes BytesFacts.
From Verif.Model Require Import Startup.
From Verif.Spec Require Import StartupSpec.
Local Open Scope N_scope.

Lemma put_same f p n : put f p n p = n.
Proof. unfold put. rewrite bytes_eqb_refl. reflexivity. Qed.

Lemma put_other f p n q : p <> q -> put f p n q = f q.
Proof. intros H. unfold put. apply bytes_eqb_neq in H. rewrite H. reflexivity. Qed.

Lemma take_same b p o : take b p o p = o.
Proof. unfold take. rewrite N.eqb_refl. reflexivity. Qed.

Lemma take_other b p o q : p <> q -> take b p o q = b q.
Proof. intros H. unfold take. apply N.eqb_neq in H. rewrite H. reflexivity. Qed.

Lemma running_leave h k j :
  running (h_running (leave h k)) j = if (j =? k)%nat then None else running (h_running h) j.
Proof.
  unfold leave. cbn [h_running]. induction (h_running h) as [|[m x] l IH]; cbn [filter running fst].
  - destruct (j =? k)%nat; reflexivity.
  - destruct (Nat.eqb_spec m k) as [->|H]; cbn [negb].
    + rewrite IH. destruct (Nat.eqb_spec j k) as [->|J]; [reflexivity|].
      destruct (Nat.eqb_spec k j); [congruence | reflexivity].
    + cbn [running]. rewrite IH. destruct (Nat.eqb_spec j k) as [->|J]; [|reflexivity].
      destruct (Nat.eqb_spec m k); [congruence | reflexivity].
Qed.

(** What a part of a start or stop may change. *)
Definition within (i : instance) (h h' : machine) : Prop :=
  (forall q, ~ In q (places i) -> h_files h' q = h_files h q) /\
  (forall n, i_address i <> Inet n -> h_ports h' n = h_ports h n).

Lemma within_refl i h : within i h h.
Proof. split; reflexivity. Qed.

Lemma within_trans i a b c : within i a b -> within i b c -> within i a c.
Proof.
  intros [F1 P1] [F2 P2]. split.
  - intros q H. rewrite F2, F1 by assumption. reflexivity.
  - intros n H. rewrite P2, P1 by assumption. reflexivity.
Qed.

Lemma unix_place i p : i_address i = Unix p -> In p (places i).
Proof. intros H. unfold places. rewrite H. left. reflexivity. Qed.

Lemma pid_place i p : i_pid_file i = Some p -> In p (places i).
Proof. intros H. unfold places. rewrite H. apply in_or_app. right. left. reflexivity. Qed.

Lemma places_differ i p q : NoDup (places i) -> i_address i = Unix p -> i_pid_file i = Some q -> p <> q.
Proof.
  intros N A F E. unfold places in N. rewrite A, F, E in N. inversion N as [|x l H1 H2]. apply H1. left. reflexivity.
Qed.

Lemma put_away i h p n : In p (places i) ->
  forall q, ~ In q (places i) -> put (h_files h) p n q = h_files h q.
Proof. intros H q Q. apply put_other. intros ->. contradiction. Qed.

Lemma listen_within h k i a h' ok : listen h k i a = (h', ok) ->
  within i h h' /\ h_running h' = h_running h /\
  (ok = true -> match i_address i with
                | Unix p => h_files h' p = Some (SocketOf k)
                | Inet n => h_ports h' n = Some k
                end) /\
  (forall n, ok = false \/ i_address i <> Inet n -> h_ports h' n = h_ports h n) /\
  (forall p, i_address i <> Unix p -> h_files h' p = h_files h p).
Proof.
  intros E. unfold listen in E. destruct (i_address i) as [p|n] eqn:A.
  - pose proof (unix_place i p A) as P.
    set (old := match h_files h p with Some _ => i_remove_on_create i | None => false end) in *.
    destruct (old && negb (a_unlink_old a)).
    { injection E as <- <-. split; [apply within_refl|]. repeat split; try discriminate; reflexivity. }
    set (f := if old then put (h_files h) p None else h_files h) in *.
    assert (F : forall q, q <> p -> f q = h_files h q).
    { intros q Q. unfold f. destruct old; [apply put_other; congruence | reflexivity]. }
    assert (W : forall x q, ~ In q (places i) -> put f p x q = h_files h q).
    { intros x q Q. rewrite put_other by (intros ->; contradiction). apply F. intros ->. contradiction. }
    destruct (f p) eqn:Fp.
    + injection E as <- <-. cbn [h_files h_ports h_running]. split; [split; cbn [h_files h_ports]|].
      * intros q Q. apply F. intros ->. contradiction.
      * reflexivity.
      * repeat split; try discriminate; try reflexivity. intros q Q. apply F. congruence.
    + destruct (a_bind a); injection E as <- <-; cbn [h_files h_ports h_running].
      * split; [split; cbn [h_files h_ports]; [apply W | reflexivity]|].
        repeat split; try reflexivity; [intros _; apply put_same|].
        intros q Q. rewrite put_other by congruence. apply F. congruence.
      * split; [split; cbn [h_files h_ports]; [intros q Q; apply F; intros ->; contradiction | reflexivity]|].
        repeat split; try discriminate; try reflexivity. intros q Q. apply F. congruence.
  - destruct (h_ports h n) eqn:P; [|destruct (a_bind a)]; injection E as <- <-; cbn [h_files h_ports h_running].
    + split; [apply within_refl|]. repeat split; try discriminate; reflexivity.
    + split; [split; cbn [h_files h_ports]; [reflexivity|]|].
      * intros m M. apply take_other. congruence.
      * repeat split; [intros _; apply take_same|]. intros m [M|M]; [discriminate|]. apply take_other. congruence.
    + split; [apply within_refl|]. repeat split; try discriminate; reflexivity.
Qed.

Lemma write_pid_within h i pid a h' ok : write_pid h i pid a = (h', ok) ->
  within i h h' /\ h_running h' = h_running h /\ h_ports h' = h_ports h /\
  (ok = true -> match i_pid_file i with Some p => h_files h' p = Some (PidOf pid) | None => True end) /\
  (forall p, i_pid_file i <> Some p -> h_files h' p = h_files h p).
Proof.
  intros E. unfold write_pid in E. destruct (i_pid_file i) as [p|] eqn:P.
  - destruct (a_write_pid a); injection E as <- <-; cbn [h_files h_ports h_running].
    + split; [split; cbn [h_files h_ports]; [|reflexivity]|].
      * apply put_away. apply pid_place. exact P.
      * repeat split; [intros _; apply put_same|]. intros q Q. apply put_other. congruence.
    + split; [apply within_refl|]. repeat split; discriminate.
  - injection E as <- <-. split; [apply within_refl|]. repeat split.
Qed.

Lemma close_socket_within h i : within i h (close_socket h i) /\
  h_running (close_socket h i) = h_running h /\ h_files (close_socket h i) = h_files h /\
  (forall n, i_address i = Inet n -> h_ports (close_socket h i) n = None).
Proof.
  unfold close_socket. destruct (i_address i) as [p|n] eqn:A.
  - split; [apply within_refl|]. repeat split. discriminate.
  - cbn [h_files h_ports h_running]. split; [split; cbn [h_files h_ports]; [reflexivity|]|].
    + intros m M. apply take_other. congruence.
    + repeat split. intros m M. injection M as ->. apply take_same.
Qed.

Lemma cleanup_within h i bound created a h' ok : cleanup h i bound created a = (h', ok) ->
  within i h h' /\ h_running h' = h_running h /\ h_ports h' = h_ports h.
Proof.
  intros E. unfold cleanup in E.
  assert (X : exists f1 ok1, (forall q, ~ In q (places i) -> f1 q = h_files h q) /\
    (let '(f, ok2) :=
      match i_pid_file i with
      | Some p =>
          if created && i_remove_pid i then
            match f1 p with
            | Some _ => if a_unlink_pid a then (put f1 p None, true) else (f1, false)
            | None => (f1, false)
            end
          else (f1, true)
      | None => (f1, true)
      end in
    (mk_machine f (h_ports h) (h_running h), ok1 && ok2)) = (h', ok)).
  { destruct (i_address i) as [p|n] eqn:A; [destruct (bound && i_remove_on_close i)|].
    - destruct (h_files h p); [destruct (a_unlink_socket a)|].
      + exists (put (h_files h) p None), true. split; [|exact E].
        intros q Q. apply put_other. intros ->. apply Q, unix_place, A.
      + exists (h_files h), false. split; [reflexivity | exact E].
      + exists (h_files h), false. split; [reflexivity | exact E].
    - exists (h_files h), true. split; [reflexivity | exact E].
    - exists (h_files h), true. split; [reflexivity | exact E]. }
  clear E. destruct X as (f1 & ok1 & F & E).
  assert (Y : exists f2 ok2, (forall q, ~ In q (places i) -> f2 q = h_files h q) /\
     (mk_machine f2 (h_ports h) (h_running h), ok1 && ok2) = (h', ok)).
  { destruct (i_pid_file i) as [p|] eqn:P; [destruct (created && i_remove_pid i)|].
    - destruct (f1 p); [destruct (a_unlink_pid a)|].
      + exists (put f1 p None), true. split; [|exact E].
        intros q Q. rewrite put_other; [apply F, Q|]. intros ->. apply Q, pid_place, P.
      + exists f1, false. split; [exact F | exact E].
      + exists f1, false. split; [exact F | exact E].
    - exists f1, true. split; [exact F | exact E].
    - exists f1, true. split; [exact F | exact E]. }
  destruct Y as (f2 & ok2 & F2 & E2). injection E2 as <- <-. cbn [h_files h_ports h_running].
  split; [split; cbn [h_files h_ports]; [exact F2 | reflexivity]|]. split; reflexivity.
Qed.

(** ** The invariant *)
Section Inv.
  Variable conf : nat -> instance.
  Hypothesis Own : forall k, NoDup (places (conf k)).
  Hypothesis Apart : forall j k, j <> k -> apart (conf j) (conf k).

  Record inv (h : machine) : Prop := mk_inv {
    v_conf : forall k i pid, running (h_running h) k = Some (i, pid) -> i = conf k;
    v_place : forall k i pid, running (h_running h) k = Some (i, pid) -> in_place h k i pid;
    v_ports : forall n k, h_ports h n = Some k -> i_address (conf k) = Inet n /\
                exists pid, running (h_running h) k = Some (conf k, pid)
  }.

  Lemma in_place_within k h h' j pid : j <> k -> within (conf k) h h' -> in_place h j (conf j) pid ->
    in_place h' j (conf j) pid.
  Proof.
    intros J [F P] [A B]. destruct (Apart j k J) as [X Y]. split.
    - destruct (i_address (conf j)) as [p|n] eqn:E.
      + rewrite F; [exact A|]. apply X. apply unix_place. exact E.
      + rewrite P; [exact A|]. intros Z. apply (Y n n eq_refl Z). reflexivity.
    - destruct (i_pid_file (conf j)) as [p|] eqn:E; [|exact I]. rewrite F; [exact B|]. apply X. apply pid_place. exact E.
  Qed.

  (** An instance that stays outside. *)
  Lemma inv_outside h h' k : inv h -> running (h_running h) k = None -> within (conf k) h h' ->
    h_running h' = h_running h -> (forall n, h_ports h' n = h_ports h n \/ h_ports h' n = None) -> inv h'.
  Proof.
    intros I R W E P. constructor.
    - intros j i pid. rewrite E. apply (v_conf _ I).
    - intros j i pid. rewrite E. intros J. pose proof (v_conf _ I _ _ _ J) as ->.
      apply (in_place_within k h); [congruence | exact W |]. apply (v_place _ I). exact J.
    - intros n j H. destruct (P n) as [X|X]; [|congruence]. rewrite X in H. rewrite E. apply (v_ports _ I). exact H.
  Qed.

  (** One that comes. *)
  Lemma inv_enter h h' k pid : inv h -> running (h_running h) k = None -> within (conf k) h h' ->
    h_running h' = h_running h -> in_place h' k (conf k) pid -> 
    (forall n, h_ports h' n = h_ports h n \/ (h_ports h' n = Some k /\ i_address (conf k) = Inet n)) ->
    inv (enter h' k (conf k) pid).
  Proof.
    intros I R W E Pl P. unfold enter. constructor; cbn [h_running h_files h_ports running].
    - intros j i q. destruct (Nat.eqb_spec k j) as [->|J]; [intros H; injection H as <- _; reflexivity|].
      rewrite E. apply (v_conf _ I).
    - intros j i q. destruct (Nat.eqb_spec k j) as [->|J].
      + intros H. injection H as <- <-. exact Pl.
      + rewrite E. intros H. pose proof (v_conf _ I _ _ _ H) as ->.
        apply (in_place_within k h h'); [congruence | exact W | apply (v_place _ I); exact H].
    - intros n j H. destruct (P n) as [X|[X Y]].
      + rewrite X in H. destruct (v_ports _ I _ _ H) as (A & q & B). split; [exact A|].
        destruct (Nat.eqb_spec k j) as [->|J]; [congruence|]. exists q. rewrite E. exact B.
      + rewrite X in H. injection H as <-. split; [exact Y|]. exists pid. rewrite Nat.eqb_refl. reflexivity.
  Qed.

  (** One that goes. *)
  Lemma inv_leave h h' k : inv h -> within (conf k) h h' -> h_running h' = h_running (leave h k) ->
    (forall n, i_address (conf k) = Inet n -> h_ports h' n = None) ->
    inv h'.
  Proof.
    intros I W E P. constructor.
    - intros j i pid. rewrite E, running_leave. destruct (Nat.eqb_spec j k); [discriminate|]. apply (v_conf _ I).
    - intros j i pid. rewrite E, running_leave. destruct (Nat.eqb_spec j k) as [->|J]; [discriminate|].
      intros H. pose proof (v_conf _ I _ _ _ H) as ->.
      apply (in_place_within k h); [exact J | exact W | apply (v_place _ I); exact H].
    - intros n j H. destruct (i_address (conf k)) as [p|m] eqn:A; [|destruct (N.eq_dec m n) as [->|M]].
      + rewrite (proj2 W n) in H by congruence. destruct (v_ports _ I _ _ H) as (B & q & C). split; [exact B|].
        exists q. rewrite E, running_leave. destruct (Nat.eqb_spec j k) as [->|J]; [congruence | exact C].
      + rewrite (P n eq_refl) in H. discriminate.
      + rewrite (proj2 W n) in H by congruence. destruct (v_ports _ I _ _ H) as (B & q & C). split; [exact B|].
        exists q. rewrite E, running_leave. destruct (Nat.eqb_spec j k) as [->|J]; [congruence | exact C].
  Qed.

  Lemma within_leave h k i : within i h (leave h k).
  Proof. split; reflexivity. Qed.

  (** The places after a listen and a write, in any order. *)
  Lemma both_in_place h1 h2 k pid :
    (match i_address (conf k) with Unix p => h_files h1 p = Some (SocketOf k) | Inet n => h_ports h1 n = Some k end) ->
    (match i_pid_file (conf k) with Some p => h_files h2 p = Some (PidOf pid) | None => True end) ->
    (forall p, i_pid_file (conf k) <> Some p -> h_files h2 p = h_files h1 p) -> h_ports h2 = h_ports h1 ->
    in_place h2 k (conf k) pid.
  Proof.
    intros A B F P. split; [|exact B]. destruct (i_address (conf k)) as [p|n] eqn:E.
    - rewrite F; [exact A|]. intros X. exact (places_differ _ _ _ (Own k) E X eq_refl).
    - rewrite P. exact A.
  Qed.

  Lemma both_in_place' h1 h2 k pid :
    (match i_address (conf k) with Unix p => h_files h2 p = Some (SocketOf k) | Inet n => h_ports h2 n = Some k end) ->
    (match i_pid_file (conf k) with Some p => h_files h1 p = Some (PidOf pid) | None => True end) ->
    (forall p, i_address (conf k) <> Unix p -> h_files h2 p = h_files h1 p) ->
    in_place h2 k (conf k) pid.
  Proof.
    intros A B F. split; [exact A|]. destruct (i_pid_file (conf k)) as [p|] eqn:E; [|exact I].
    rewrite F; [exact B|]. intros X. exact (places_differ _ _ _ (Own k) X E eq_refl).
  Qed.

  Lemma step_inv h o : inv h -> match o with Start k i _ _ => i = conf k | _ => True end ->
    inv (fst (machine_step h o)).
  Proof.
    intros I C. destruct o as [k i pid a|k a|k]; cbn [machine_step].
    - subst i. destruct (running (h_running h) k) eqn:R; [exact I|]. unfold start.
      destruct (i_first (conf k)).
      + destruct (listen h k (conf k) a) as [h1 ok1] eqn:L.
        destruct (listen_within _ _ _ _ _ _ L) as (W1 & R1 & P1 & O1 & F1).
        destruct ok1.
        * destruct (write_pid h1 (conf k) pid a) as [h2 ok2] eqn:Wp.
          destruct (write_pid_within _ _ _ _ _ _ Wp) as (W2 & R2 & P2 & O2 & F2).
          destruct ok2; cbn [fst].
          -- apply inv_enter with (h := h); [exact I | exact R | exact (within_trans _ _ _ _ W1 W2) | congruence | |].
             ++ apply (both_in_place h1); [apply P1; reflexivity | apply O2; reflexivity | exact F2 | exact P2].
             ++ intros n. rewrite P2. specialize (P1 eq_refl). destruct (i_address (conf k)) as [p|m] eqn:A.
                ** left. apply O1. right. discriminate.
                ** destruct (N.eq_dec m n) as [->|M]; [right; auto | left; apply O1; right; congruence].
          -- destruct (close_socket_within h2 (conf k)) as (W3 & R3 & F3 & P3).
             apply inv_outside with (h := h) (k := k);
               [exact I | exact R | exact (within_trans _ _ _ _ (within_trans _ _ _ _ W1 W2) W3) | congruence|].
             intros n. destruct (i_address (conf k)) as [p|m] eqn:A.
             ++ left. rewrite (proj2 W3), P2 by congruence. apply O1. right. discriminate.
             ++ destruct (N.eq_dec m n) as [->|M]; [right; apply P3; reflexivity|].
                left. rewrite (proj2 W3), P2 by congruence. apply O1. right. congruence.
        * cbn [fst]. apply inv_outside with (h := h) (k := k); [exact I | exact R | exact W1 | exact R1|].
          intros n. left. apply O1. left. reflexivity.
      + destruct (write_pid h (conf k) pid a) as [h1 ok1] eqn:Wp.
        destruct (write_pid_within _ _ _ _ _ _ Wp) as (W1 & R1 & P1 & O1 & F1). destruct ok1.
        * destruct (listen h1 k (conf k) a) as [h2 ok2] eqn:L.
          destruct (listen_within _ _ _ _ _ _ L) as (W2 & R2 & P2 & O2 & F2). destruct ok2.
          -- cbn [fst]. apply inv_enter with (h := h); [exact I | exact R | exact (within_trans _ _ _ _ W1 W2) | congruence | |].
             ++ apply (both_in_place' h1); [apply P2; reflexivity | apply O1; reflexivity | exact F2].
             ++ intros n. rewrite <- P1. specialize (P2 eq_refl). destruct (i_address (conf k)) as [p|m] eqn:A.
                ** left. apply O2. right. discriminate.
                ** destruct (N.eq_dec m n) as [->|M]; [right; auto | left; apply O2; right; congruence].
          -- destruct (cleanup h2 (conf k) false true a) as [h3 ok3] eqn:Cl. cbn [fst].
             destruct (cleanup_within _ _ _ _ _ _ _ Cl) as (W3 & R3 & P3).
             apply inv_outside with (h := h) (k := k);
               [exact I | exact R | exact (within_trans _ _ _ _ (within_trans _ _ _ _ W1 W2) W3) | congruence|].
             intros n. left. rewrite P3, <- P1. apply O2. left. reflexivity.
        * cbn [fst]. apply inv_outside with (h := h) (k := k); [exact I | exact R | exact W1 | exact R1|].
          intros n. left. rewrite P1. reflexivity.
    - destruct (running (h_running h) k) as [[i pid]|] eqn:R; [|exact I].
      pose proof (v_conf _ I _ _ _ R) as ->.
      destruct (close_socket_within (leave h k) (conf k)) as (W1 & R1 & F1 & P1).
      destruct (cleanup (close_socket (leave h k) (conf k)) (conf k) true true a) as [h2 ok] eqn:Cl. cbn [fst].
      destruct (cleanup_within _ _ _ _ _ _ _ Cl) as (W2 & R2 & P2).
      apply inv_leave with (h := h) (k := k);
        [exact I | exact (within_trans _ _ _ _ (within_trans _ _ _ _ (within_leave h k _) W1) W2) | congruence|].
      intros n A. rewrite P2. apply P1. exact A.
    - destruct (running (h_running h) k) as [[i pid]|] eqn:R; [|exact I].
      pose proof (v_conf _ I _ _ _ R) as ->. cbn [fst].
      destruct (close_socket_within (leave h k) (conf k)) as (W1 & R1 & F1 & P1).
      apply inv_leave with (h := h) (k := k); [exact I | exact (within_trans _ _ _ _ (within_leave h k _) W1) | exact R1 | exact P1].
  Qed.

  Lemma run_inv ops : forall h, inv h ->
    Forall (fun o => match o with Start k i _ _ => i = conf k | _ => True end) ops -> inv (machine_run h ops).
  Proof.
    induction ops as [|o ops IH]; intros h I F; [exact I|]. cbn [machine_run]. inversion F as [|x y F1 F2]; subst.
    apply IH; [|exact F2]. apply step_inv; [exact I | exact F1].
  Qed.

  Lemma fresh_inv f : inv (fresh_machine f).
  Proof. constructor; cbn; discriminate. Qed.

  (** Only the files of services that were started change. *)
  Definition started (o : op) : list nat := match o with Start k _ _ _ => [k] | _ => [] end.

  Lemma step_elsewhere h o q : inv h -> match o with Start k i _ _ => i = conf k | _ => True end ->
    (forall k, In k (map fst (h_running h)) \/ In k (started o) -> ~ In q (places (conf k))) ->
    h_files (fst (machine_step h o)) q = h_files h q.
  Proof.
    intros I C N. destruct o as [k i pid a|k a|k]; cbn [machine_step].
    - subst i. destruct (running (h_running h) k) eqn:R; [reflexivity|]. unfold start.
      assert (Q : ~ In q (places (conf k))) by (apply N; right; left; reflexivity).
      destruct (i_first (conf k)).
      + destruct (listen h k (conf k) a) as [h1 ok1] eqn:L.
        destruct (listen_within _ _ _ _ _ _ L) as (W1 & _).
        destruct ok1; [|cbn [fst]; apply (proj1 W1); exact Q].
        destruct (write_pid h1 (conf k) pid a) as [h2 ok2] eqn:Wp.
        destruct (write_pid_within _ _ _ _ _ _ Wp) as (W2 & _).
        destruct ok2; cbn [fst enter h_files].
        * rewrite (proj1 W2), (proj1 W1) by exact Q. reflexivity.
        * destruct (close_socket_within h2 (conf k)) as (W3 & _).
          rewrite (proj1 W3), (proj1 W2), (proj1 W1) by exact Q. reflexivity.
      + destruct (write_pid h (conf k) pid a) as [h1 ok1] eqn:Wp.
        destruct (write_pid_within _ _ _ _ _ _ Wp) as (W1 & _). destruct ok1; [|cbn [fst]; apply (proj1 W1); exact Q].
        destruct (listen h1 k (conf k) a) as [h2 ok2] eqn:L.
        destruct (listen_within _ _ _ _ _ _ L) as (W2 & _). destruct ok2; cbn [fst enter h_files].
        * rewrite (proj1 W2), (proj1 W1) by exact Q. reflexivity.
        * destruct (cleanup h2 (conf k) false true a) as [h3 ok3] eqn:Cl. cbn [fst].
          destruct (cleanup_within _ _ _ _ _ _ _ Cl) as (W3 & _).
          rewrite (proj1 W3), (proj1 W2), (proj1 W1) by exact Q. reflexivity.
    - destruct (running (h_running h) k) as [[i pid]|] eqn:R; [|reflexivity].
      pose proof (v_conf _ I _ _ _ R) as ->.
      assert (Q : ~ In q (places (conf k))).
      { apply N. left. clear - R. induction (h_running h) as [|[m x] l IH]; [discriminate|]. cbn [running map fst] in *.
        destruct (Nat.eqb_spec m k) as [->|H]; [left; reflexivity | right; apply IH, R]. }
      destruct (close_socket_within (leave h k) (conf k)) as (W1 & _).
      destruct (cleanup (close_socket (leave h k) (conf k)) (conf k) true true a) as [h2 ok] eqn:Cl. cbn [fst].
      destruct (cleanup_within _ _ _ _ _ _ _ Cl) as (W2 & _).
      rewrite (proj1 W2), (proj1 W1) by exact Q. reflexivity.
    - destruct (running (h_running h) k) as [[i pid]|] eqn:R; [|reflexivity]. cbn [fst].
      destruct (close_socket_within (leave h k) i) as (_ & _ & F & _). rewrite F. reflexivity.
  Qed.

  Lemma step_keys h o k : inv h -> In k (map fst (h_running (fst (machine_step h o)))) ->
    In k (map fst (h_running h)) \/ In k (started o).
  Proof.
    intros I H. destruct o as [j i pid a|j a|j]; cbn [machine_step] in H.
    - destruct (running (h_running h) j) eqn:R; [left; exact H|]. unfold start in H.
      assert (E : h_running (fst (start h j i pid a)) = h_running h \/
                  h_running (fst (start h j i pid a)) = (j, (i, pid)) :: h_running h).
      { unfold start. destruct (i_first i).
        - destruct (listen h j i a) as [h1 ok1] eqn:L. destruct (listen_within _ _ _ _ _ _ L) as (_ & R1 & _).
          destruct ok1; [|left; exact R1].
          destruct (write_pid h1 i pid a) as [h2 ok2] eqn:Wp. destruct (write_pid_within _ _ _ _ _ _ Wp) as (_ & R2 & _).
          destruct ok2; cbn [fst enter h_running]; [right; congruence|].
          left. destruct (close_socket_within h2 i) as (_ & R3 & _). congruence.
        - destruct (write_pid h i pid a) as [h1 ok1] eqn:Wp. destruct (write_pid_within _ _ _ _ _ _ Wp) as (_ & R1 & _).
          destruct ok1; [|left; exact R1].
          destruct (listen h1 j i a) as [h2 ok2] eqn:L. destruct (listen_within _ _ _ _ _ _ L) as (_ & R2 & _).
          destruct ok2; cbn [fst enter h_running]; [right; congruence|].
          left. destruct (cleanup h2 i false true a) as [h3 ok3] eqn:Cl.
          destruct (cleanup_within _ _ _ _ _ _ _ Cl) as (_ & R3 & _). cbn [fst]. congruence. }
      unfold start in E. match type of H with context [let '(_, _) := ?x in _] => destruct x as [h' r] eqn:S end.
      cbn [fst] in *. destruct E as [E|E]; rewrite E in H; [left; exact H|].
      destruct H as [H|H]; [right; left; exact H | left; exact H].
    - destruct (running (h_running h) j) as [[i pid]|] eqn:R; [|left; exact H].
      destruct (cleanup (close_socket (leave h j) i) i true true a) as [h2 ok] eqn:Cl. cbn [fst] in H.
      destruct (cleanup_within _ _ _ _ _ _ _ Cl) as (_ & R2 & _).
      destruct (close_socket_within (leave h j) i) as (_ & R1 & _). rewrite R2, R1 in H. left.
      unfold leave in H. cbn [h_running] in H. apply in_map_iff in H as (x & <- & H). apply filter_In in H as [H _].
      apply in_map. exact H.
    - destruct (running (h_running h) j) as [[i pid]|] eqn:R; [|left; exact H]. cbn [fst] in H.
      destruct (close_socket_within (leave h j) i) as (_ & R1 & _). rewrite R1 in H. left.
      unfold leave in H. cbn [h_running] in H. apply in_map_iff in H as (x & <- & H). apply filter_In in H as [H _].
      apply in_map. exact H.
  Qed.

  Lemma run_elsewhere ops : forall h q, inv h ->
    Forall (fun o => match o with Start k i _ _ => i = conf k | _ => True end) ops ->
    (forall k, In k (map fst (h_running h)) \/ In k (concat (map started ops)) -> ~ In q (places (conf k))) ->
    h_files (machine_run h ops) q = h_files h q.
  Proof.
    induction ops as [|o ops IH]; intros h q I F N; [reflexivity|]. cbn [machine_run].
    inversion F as [|x y F1 F2]; subst. cbn [map concat] in N.
    rewrite IH; [|apply step_inv; assumption|exact F2|].
    - apply step_elsewhere; [exact I | exact F1|]. intros k K. apply N. rewrite in_app_iff. tauto.
    - intros k K. apply N. rewrite in_app_iff. destruct K as [K|K]; [|tauto].
      apply step_keys in K; [tauto | exact I].
  Qed.

  (** A stop that is allowed removes everything. *)
  Lemma stop_removes h k i pid a : inv h -> running (h_running h) k = Some (i, pid) -> all_allowed a ->
    i_remove_on_close i = true -> i_remove_pid i = true ->
    let h' := fst (machine_step h (Stop k a)) in
    running (h_running h') k = None /\ (forall p, In p (places i) -> h_files h' p = None) /\
    (forall n, i_address i = Inet n -> h_ports h' n = None).
  Proof.
    intros I R (_ & _ & _ & A1 & A2) C1 C2. cbn [machine_step]. rewrite R.
    pose proof (v_conf _ I _ _ _ R) as E. pose proof (v_place _ I _ _ _ R) as [P1 P2].
    destruct (close_socket_within (leave h k) i) as (W1 & R1 & F1 & O1).
    destruct (cleanup (close_socket (leave h k) i) i true true a) as [h2 ok] eqn:Cl. cbn [fst].
    destruct (cleanup_within _ _ _ _ _ _ _ Cl) as (W2 & R2 & O2).
    split; [rewrite R2, R1, running_leave, Nat.eqb_refl; reflexivity|]. split.
    - intros p Hp. unfold cleanup in Cl. rewrite F1, C1, C2, A1, A2 in Cl. cbn [andb leave h_files] in Cl.
      unfold places in Hp. apply in_app_or in Hp.
      destruct (i_address i) as [u|n] eqn:A.
      + unfold leave in Cl. cbn [h_files] in Cl. rewrite P1 in Cl.
        destruct (i_pid_file i) as [f|] eqn:Pf.
        * assert (D : u <> f) by (subst i; exact (places_differ _ _ _ (Own k) A Pf)).
          rewrite put_other in Cl by exact D. rewrite P2 in Cl. injection Cl as <- _. cbn [h_files].
          destruct Hp as [[<-|[]]|[<-|[]]]; [rewrite put_other by congruence; apply put_same | apply put_same].
        * injection Cl as <- _. cbn [h_files]. destruct Hp as [[<-|[]]|[]]. apply put_same.
      + unfold leave in Cl. cbn [h_files] in Cl.
        destruct (i_pid_file i) as [f|] eqn:Pf.
        * rewrite P2 in Cl. injection Cl as <- _. cbn [h_files]. destruct Hp as [[]|[<-|[]]]. apply put_same.
        * destruct Hp as [[]|[]].
    - intros n A. rewrite O2. apply O1. exact A.
  Qed.

  (** An allowed start of a service that does not run works, whatever is left over. *)
  Lemma start_works h k pid a : inv h -> running (h_running h) k = None -> all_allowed a ->
    i_remove_on_create (conf k) = true ->
    snd (machine_step h (Start k (conf k) pid a)) = Some Runs.
  Proof.
    intros I R (A1 & A2 & A3 & _) C. cbn [machine_step]. rewrite R.
    assert (L : forall h', (forall n, i_address (conf k) = Inet n -> h_ports h' n = None) ->
                snd (listen h' k (conf k) a) = true).
    { intros h' P. unfold listen. destruct (i_address (conf k)) as [p|n] eqn:A.
      - rewrite A1, A2, C. cbn [negb]. rewrite andb_false_r. destruct (h_files h' p) eqn:F.
        + rewrite put_same. reflexivity.
        + rewrite F. reflexivity.
      - rewrite (P n eq_refl), A2. reflexivity. }
    assert (P : forall n, i_address (conf k) = Inet n -> h_ports h n = None).
    { intros n A. destruct (h_ports h n) as [j|] eqn:E; [|reflexivity].
      destruct (v_ports _ I _ _ E) as (B & q & D). destruct (Nat.eq_dec j k) as [->|J]; [congruence|].
      destruct (Apart j k J) as [_ X]. destruct (X n n B A eq_refl). }
    assert (Wp : forall h', snd (write_pid h' (conf k) pid a) = true).
    { intros h'. unfold write_pid. rewrite A3. destruct (i_pid_file (conf k)); reflexivity. }
    unfold start. destruct (i_first (conf k)).
    - specialize (L h P). destruct (listen h k (conf k) a) as [h1 ok]. cbn [snd] in L. subst ok.
      specialize (Wp h1). destruct (write_pid h1 (conf k) pid a) as [h2 ok]. cbn [snd] in Wp. subst ok. reflexivity.
    - specialize (Wp h). destruct (write_pid h (conf k) pid a) as [h1 ok] eqn:E. cbn [snd] in Wp. subst ok.
      destruct (write_pid_within _ _ _ _ _ _ E) as (_ & _ & O & _).
      assert (P' : forall n, i_address (conf k) = Inet n -> h_ports h1 n = None) by (intros n A; rewrite O; apply P, A).
      specialize (L h1 P'). destruct (listen h1 k (conf k) a) as [h2 ok]. cbn [snd] in L. subst ok. reflexivity.
  Qed.
End Inv.

(** ** Rights *)

Lemma drop_success t user g unix w w' owner : w_uid w = 0 ->
  drop_privilege t user (Some g) unix w = (w', true, owner) ->
  exists e gid, t_user t (match user with Some u => u | None => lit "nobody" end) = Some e /\ t_group t g = Some gid /\
    w' = mk_who (e_uid e) gid (gid :: e_member e) /\
    owner = (if unix && t_chown t then Some (e_uid e) else None).
Proof.
  intros Z E. unfold drop_privilege in E. rewrite Z in E. cbn [N.eqb negb] in E. unfold switch_group in E.
  destruct (t_group t g) as [gid|] eqn:G; [|discriminate].
  destruct (t_setgid t); [|discriminate]. cbn [negb] in E.
  destruct (find_password t user) as [e|] eqn:P; [|discriminate].
  destruct (t_initgroups t); [|discriminate]. cbn [negb] in E.
  unfold switch_user in E. rewrite P in E. destruct (t_setuid t); [|discriminate]. cbn [negb w_gid w_groups] in E.
  injection E as <- <-. exists e, gid. unfold find_password in P. repeat split; assumption.
Qed.

Lemma drop_uid t user group unix w w' owner : w_uid w = 0 ->
  drop_privilege t user group unix w = (w', true, owner) ->
  exists e, t_user t (match user with Some u => u | None => lit "nobody" end) = Some e /\ w_uid w' = e_uid e.
Proof.
  intros Z E. unfold drop_privilege in E. rewrite Z in E. cbn [N.eqb negb] in E.
  destruct (switch_group t user group w) as [w1 ok]. destruct ok; [|discriminate]. unfold switch_user in E.
  destruct (find_password t user) as [e|] eqn:P; [|discriminate].
  destruct (t_setuid t); [|discriminate]. cbn [negb] in E. injection E as <- _. exists e. split; [exact P | reflexivity].
Qed.

Lemma drop_other t user group unix w : w_uid w <> 0 -> drop_privilege t user group unix w = (w, true, None).
Proof. intros H. unfold drop_privilege. apply N.eqb_neq in H. rewrite H. reflexivity. Qed.

(** ** The order *)

Ltac none H := first [destruct H as [H|[]]; discriminate | destruct H].

Lemma loads_are_loads w l x a : In (x, a) (load_all w l) -> exists s, a = Load s.
Proof. intros H. apply in_map_iff in H as (s & E & _). injection E as _ <-. exists s. reflexivity. Qed.

Lemma main_serves t k c w w' : In (w', Serves) (fst (manager_main t k c w)) ->
  exists before after owner, fst (manager_main t k c w) = before ++ (w, Listens) :: after /\
    In (w', Serves) after /\ (forall x, ~ In (x, Serves) before) /\ (forall x, ~ In (x, ControllerListens) before) /\
    drop_privilege t (c_user c) (c_group c) (c_unix c) w = (w', true, owner) /\ k_run k = true.
Proof.
  unfold manager_main.
  set (l1 := match c_config_dir c with Some _ => _ | None => _ end).
  set (l2 := load_all w (base_sources c ++ custom_of t k c)).
  assert (L1 : forall x a, In (x, a) l1 -> exists s, a = Load s).
  { intros x a. unfold l1. destruct (c_config_dir c); [apply loads_are_loads | intros []]. }
  assert (L2 : forall x a, In (x, a) l2 -> exists s, a = Load s) by (intros x a; apply loads_are_loads).
  assert (N12 : forall x a l, (forall s, a <> Load s) -> In (x, a) (l1 ++ l2 ++ l) -> In (x, a) l).
  { intros x a l A H. rewrite !in_app_iff in H. destruct H as [H|[H|H]]; [ | | exact H].
    - destruct (L1 _ _ H) as [s S]. destruct (A s S).
    - destruct (L2 _ _ H) as [s S]. destruct (A s S). }
  destruct (c_show c); cbn [fst].
  { intros H. apply N12 in H; [|discriminate]. destruct H as [H|[]]. discriminate. }
  destruct ((c_privilege c && (w_uid w =? 0)) && negb (k_launcher k)); cbn [fst].
  { intros H. rewrite <- (app_nil_r l2) in H. apply N12 in H; [destruct H | discriminate]. }
  set (l3 := if c_privilege c && (w_uid w =? 0) then _ else _).
  assert (L3 : forall x a, In (x, a) l3 -> a = Launcher).
  { intros x a. unfold l3. destruct (c_privilege c && (w_uid w =? 0)); [intros [H|[]]; congruence | intros []]. }
  destruct (k_listen k); cbn [negb fst].
  2: { intros H. apply N12 in H; [|discriminate]. apply L3 in H. discriminate. }
  destruct (drop_privilege t (c_user c) (c_group c) (c_unix c) w) as [[w1 ok] owner] eqn:D.
  assert (B : forall x a, (forall s, a <> Load s) -> a <> Launcher -> ~ In (x, a) (l1 ++ l2 ++ l3)).
  { intros x a A1 A2 H. apply N12 in H; [|exact A1]. apply L3 in H. contradiction. }
  assert (X : forall rest, In (w', Serves) (l1 ++ l2 ++ l3 ++ (w, Listens) :: rest) -> In (w', Serves) rest).
  { intros rest H. apply N12 in H; [|discriminate]. rewrite in_app_iff in H. destruct H as [H|[H|H]]; [| discriminate | exact H].
    apply L3 in H. discriminate. }
  destruct ok; cbn [negb fst].
  2: { intros H. apply X in H. destruct H. }
  destruct (c_daemon c && negb (k_daemonize k)); cbn [fst].
  { intros H. apply X in H. destruct (k_controller k); none H. }
  intros H. cbn [app] in *. pose proof (X _ H) as Y.
  assert (Z : k_run k = true /\ w' = w1).
  { rewrite !in_app_iff in Y. destruct Y as [Y|[Y|Y]].
    - destruct (k_controller k); none Y.
    - destruct (c_daemon c); none Y.
    - destruct (k_run k); [destruct Y as [Y|[]]; injection Y as ->; split; reflexivity | destruct Y]. }
  destruct Z as [K ->].
  eexists (l1 ++ l2 ++ l3), _, owner. split; [rewrite <- !app_assoc; cbn [app]; reflexivity|].
  split; [exact Y|]. split; [intros x; apply B; discriminate|]. split; [intros x; apply B; discriminate|].
  split; [reflexivity | exact K].
Qed.

Lemma main_controller t k c w w' : In (w', ControllerListens) (fst (manager_main t k c w)) ->
  exists owner, drop_privilege t (c_user c) (c_group c) (c_unix c) w = (w', true, owner).
Proof.
  unfold manager_main.
  set (l1 := match c_config_dir c with Some _ => _ | None => _ end).
  set (l2 := load_all w (base_sources c ++ custom_of t k c)).
  set (l3 := if c_privilege c && (w_uid w =? 0) then _ else _).
  assert (Q : ~ In (w', ControllerListens) l1 /\ ~ In (w', ControllerListens) l2 /\ ~ In (w', ControllerListens) l3).
  { unfold l1, l2, l3. split; [|split].
    - destruct (c_config_dir c); [intros H; apply loads_are_loads in H as [s S]; discriminate | intros []].
    - intros H; apply loads_are_loads in H as [s S]; discriminate.
    - destruct (c_privilege c && (w_uid w =? 0)); [intros [H|[]]; discriminate | intros []]. }
  destruct Q as (Q1 & Q2 & Q3).
  destruct (c_show c); cbn [fst].
  { rewrite !in_app_iff. intros [H|[H|[H|[]]]]; [contradiction | contradiction | discriminate]. }
  destruct ((c_privilege c && (w_uid w =? 0)) && negb (k_launcher k)); cbn [fst].
  { rewrite !in_app_iff. intros [H|H]; contradiction. }
  destruct (k_listen k); cbn [negb fst].
  2: { rewrite !in_app_iff. intros [H|[H|H]]; contradiction. }
  destruct (drop_privilege t (c_user c) (c_group c) (c_unix c) w) as [[w1 ok] owner] eqn:D.
  destruct ok; cbn [negb fst].
  2: { rewrite !in_app_iff. intros [H|[H|[H|[H|[]]]]]; [contradiction | contradiction | contradiction | discriminate]. }
  intros H. exists owner. cut (w' = w1); [intros ->; reflexivity|].
  assert (G : forall l, In (w', ControllerListens) ((if k_controller k then [(w1, ControllerListens)] else []) ++ l) ->
              ~ In (w', ControllerListens) l -> w' = w1).
  { intros l I N. rewrite in_app_iff in I. destruct I as [I|I]; [|contradiction].
    destruct (k_controller k); [destruct I as [I|[]]; congruence | destruct I]. }
  destruct (c_daemon c && negb (k_daemonize k)); cbn [fst] in H; rewrite !in_app_iff in H.
  - destruct H as [H|[H|[H|[H|H]]]]; try contradiction; [destruct H as [H|[]]; discriminate|].
    apply (G []); [rewrite app_nil_r; exact H | intros []].
  - destruct H as [H|[H|[H|[H|H]]]]; try contradiction; [destruct H as [H|[]]; discriminate|].
    rewrite <- !in_app_iff in H. apply (G _ H). rewrite in_app_iff. intros [I|I].
    + destruct (c_daemon c); none I.
    + destruct (k_run k); none I.
Qed.

Lemma main_failure t k c w w' : snd (manager_main t k c w) = false -> ~ In (w', Serves) (fst (manager_main t k c w)).
Proof.
  intros F H. destruct (main_serves _ _ _ _ _ H) as (b & a & o & _ & _ & _ & _ & D & K).
  unfold manager_main in *. destruct (c_show c); [discriminate|].
  destruct ((c_privilege c && (w_uid w =? 0)) && negb (k_launcher k)).
  { cbn [fst] in H. rewrite in_app_iff in H. destruct H as [H|H].
    - destruct (c_config_dir c); [apply loads_are_loads in H as [s S]; discriminate | destruct H].
    - apply loads_are_loads in H as [s S]; discriminate. }
  destruct (k_listen k); cbn [negb] in *.
  - rewrite D in *. cbn [negb] in *. destruct (c_daemon c && negb (k_daemonize k)); [|discriminate].
    cbn [fst] in H. rewrite !in_app_iff in H. destruct H as [H|[H|[H|[H|H]]]].
    + destruct (c_config_dir c); [apply loads_are_loads in H as [s S]; discriminate | destruct H].
    + apply loads_are_loads in H as [s S]; discriminate.
    + destruct (c_privilege c && (w_uid w =? 0)); [destruct H as [H|[]]; discriminate | destruct H].
    + destruct H as [H|[]]; discriminate.
    + destruct (k_controller k); none H.
  - cbn [fst] in H. rewrite !in_app_iff in H. destruct H as [H|[H|H]].
    + destruct (c_config_dir c); [apply loads_are_loads in H as [s S]; discriminate | destruct H].
    + apply loads_are_loads in H as [s S]; discriminate.
    + destruct (c_privilege c && (w_uid w =? 0)); [destruct H as [H|[]]; discriminate | destruct H].
Qed.

(** If everything works it serves. *)
Lemma main_works t k c w w' owner : c_show c = false -> k_launcher k = true -> k_listen k = true -> k_daemonize k = true ->
  k_run k = true -> drop_privilege t (c_user c) (c_group c) (c_unix c) w = (w', true, owner) ->
  snd (manager_main t k c w) = true /\ In (w', Serves) (fst (manager_main t k c w)).
Proof.
  intros S L Li D R P. unfold manager_main. rewrite S, L, Li, D, R, P. cbn [negb]. rewrite !andb_false_r.
  cbn [fst snd negb]. split; [reflexivity|]. rewrite !in_app_iff. do 6 right. left. reflexivity.
Qed.
