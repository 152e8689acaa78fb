(** Basic facts about the world of Children.v. *)
From Verif.Base Require Import Bytes.
From Verif.Model Require Import Decoder Encoder CommandCodec ReplyCodec Status Option Headers Macros
                                Client Server Children.
From Verif.Spec Require Import ManagerSpec.
Local Open Scope N_scope.

Lemma set_nth_length l : forall i k, length (set_nth l i k) = length l.
Proof. induction l as [|x l IH]; intros [|i] k; cbn; congruence. Qed.

Lemma set_nth_same l : forall i k d, (i < length l)%nat -> nth i (set_nth l i k) d = k.
Proof.
  induction l as [|x l IH]; intros [|i] k d H; cbn in *; try lia; [reflexivity|].
  apply IH. lia.
Qed.

Lemma set_nth_other l : forall i j k d, i <> j -> nth j (set_nth l i k) d = nth j l d.
Proof.
  induction l as [|x l IH]; intros [|i] [|j] k d H; cbn; try reflexivity; try congruence.
  apply IH. congruence.
Qed.

Definition has (w : world) (i : nat) : Prop := (i < length (w_children w))%nat.

Lemma child_same w i g : has w i -> child_of (on_child w i g) i = g (child_of w i).
Proof. intros H. unfold child_of, on_child. cbn [w_children put_w_children]. now apply set_nth_same. Qed.

Lemma child_other w i j g : i <> j -> child_of (on_child w i g) j = child_of w j.
Proof. intros H. unfold child_of, on_child. cbn [w_children put_w_children]. now apply set_nth_other. Qed.

Lemma child_log w e i : child_of (log w e) i = child_of w i.
Proof. unfold log. destruct (w_crashed w); reflexivity. Qed.
Lemma child_flow w g i : child_of (on_flow w g) i = child_of w i.
Proof. reflexivity. Qed.
Lemma child_mail w g i : child_of (on_mail w g) i = child_of w i.
Proof. reflexivity. Qed.
Lemma child_nego w g i : child_of (on_nego w g) i = child_of w i.
Proof. reflexivity. Qed.

Lemma length_child w i g : length (w_children (on_child w i g)) = length (w_children w).
Proof. apply set_nth_length. Qed.
Lemma children_log w e : w_children (log w e) = w_children w.
Proof. unfold log. destruct (w_crashed w); reflexivity. Qed.
Lemma flow_log w e : w_flow (log w e) = w_flow w.
Proof. unfold log. destruct (w_crashed w); reflexivity. Qed.
Lemma mail_log w e : w_mail (log w e) = w_mail w.
Proof. unfold log. destruct (w_crashed w); reflexivity. Qed.
Lemma nego_log w e : w_nego (log w e) = w_nego w.
Proof. unfold log. destruct (w_crashed w); reflexivity. Qed.
Lemma crashed_log w e : w_crashed (log w e) = w_crashed w.
Proof. unfold log. destruct (w_crashed w) eqn:E; cbn; congruence. Qed.
Lemma trace_log w e : w_crashed w = false -> w_trace (log w e) = e :: w_trace w.
Proof. unfold log. now intros ->. Qed.

Lemma has_log w e i : has (log w e) i <-> has w i.
Proof. unfold has. now rewrite children_log. Qed.
Lemma has_child w i g j : has (on_child w i g) j <-> has w j.
Proof. unfold has. now rewrite length_child. Qed.
Lemma has_flow w g j : has (on_flow w g) j <-> has w j.
Proof. reflexivity. Qed.

Lemma sstate_eqb_refl x : sstate_eqb x x = true.
Proof. destruct x; reflexivity. Qed.
Lemma sstate_eqb_true x y : sstate_eqb x y = true -> x = y.
Proof. destruct x, y; cbn; congruence. Qed.

Lemma remove_nat_notin l i : ~ List.In i l -> remove_nat l i = l.
Proof.
  induction l as [|j l IH]; cbn; intros H; [reflexivity|].
  destruct (Nat.eqb_spec j i); [tauto|]. f_equal. tauto.
Qed.

(** Removing [i] from a list without duplicates. *)
Lemma remove_nat_filter l i : NoDup l ->
  remove_nat l i = filter (fun j => negb (Nat.eqb j i)) l.
Proof.
  induction l as [|j l IH]; intros H; [reflexivity|]. inversion_clear H. cbn.
  destruct (Nat.eqb_spec j i) as [->|Hn]; cbn; [|f_equal; auto].
  clear IH H1. induction l as [|k l IH]; [reflexivity|]. cbn in *.
  destruct (Nat.eqb_spec k i); cbn; [tauto|]. f_equal. apply IH. tauto.
Qed.

(** [answers] over appended traces. *)
Lemma answers_app a b : answers (a ++ b) = answers a ++ answers b.
Proof.
  induction a as [|e a IH]; [reflexivity|]. cbn. destruct (answer e); cbn; now rewrite IH.
Qed.

Lemma no_code es : answers es = [] -> forall c s m, ~ List.In (OAnswerCode c s m) es.
Proof.
  induction es as [|e es IH]; intros H c s m Hin; [destruct Hin|]. cbn [answers] in H.
  destruct (answer e) eqn:E; [discriminate|]. destruct Hin as [->|Hin]; [discriminate E|].
  exact (IH H c s m Hin).
Qed.

(** From [w] to [w']: nothing answered, no crash. *)
Definition quiet (w w' : world) : Prop :=
  w_crashed w' = false /\ exists es, w_trace w' = es ++ w_trace w /\ answers es = [].

Lemma quiet_refl w : w_crashed w = false -> quiet w w.
Proof. intros H. split; [exact H|]. now exists []. Qed.
Lemma quiet_trans a b c : quiet a b -> quiet b c -> quiet a c.
Proof.
  intros (Ha & es & He & Na) (Hb & fs & Hf & Nb). split; [exact Hb|].
  exists (fs ++ es). rewrite Hf, He, app_assoc, answers_app, Na, Nb. auto.
Qed.
Lemma quiet_log w e : w_crashed w = false -> answer e = None -> quiet w (log w e).
Proof.
  intros H He. split; [now rewrite crashed_log|]. exists [e]. rewrite trace_log by exact H.
  split; [reflexivity|]. cbn. now rewrite He.
Qed.
Lemma quiet_child w w' i g : quiet w w' -> quiet w (on_child w' i g).
Proof. exact (fun H => H). Qed.
Lemma quiet_flow w w' g : quiet w w' -> quiet w (on_flow w' g).
Proof. exact (fun H => H). Qed.
Lemma quiet_mail w w' g : quiet w w' -> quiet w (on_mail w' g).
Proof. exact (fun H => H). Qed.

Lemma flow_child w i g : w_flow (on_child w i g) = w_flow w. Proof. reflexivity. Qed.
Lemma mail_child w i g : w_mail (on_child w i g) = w_mail w. Proof. reflexivity. Qed.
Lemma nego_child w i g : w_nego (on_child w i g) = w_nego w. Proof. reflexivity. Qed.
Lemma trace_child w i g : w_trace (on_child w i g) = w_trace w. Proof. reflexivity. Qed.
Lemma crashed_child w i g : w_crashed (on_child w i g) = w_crashed w. Proof. reflexivity. Qed.

(** From [w] to [w'] only filter [i] changed, and nothing was answered. *)
Record only (i : nat) (w w' : world) : Prop := {
  only_quiet : quiet w w';
  only_flow : w_flow w' = w_flow w;
  only_mail : w_mail w' = w_mail w;
  only_nego : w_nego w' = w_nego w;
  only_length : length (w_children w') = length (w_children w);
  only_other : forall j, j <> i -> child_of w' j = child_of w j
}.

Lemma only_refl i w : w_crashed w = false -> only i w w.
Proof. intros H. constructor; auto. now apply quiet_refl. Qed.
Lemma only_trans i a b c : only i a b -> only i b c -> only i a c.
Proof.
  intros [] []. constructor; try congruence.
  - eapply quiet_trans; eassumption.
  - intros j Hj. rewrite only_other1, only_other0; auto.
Qed.
Lemma only_log i w e : w_crashed w = false -> answer e = None -> only i w (log w e).
Proof.
  intros H He. constructor.
  - now apply quiet_log.
  - apply flow_log.
  - apply mail_log.
  - apply nego_log.
  - now rewrite children_log.
  - intros. apply child_log.
Qed.
Lemma only_child i w g : w_crashed w = false -> only i w (on_child w i g).
Proof.
  intros H. constructor; try reflexivity.
  - apply quiet_child. now apply quiet_refl.
  - apply length_child.
  - intros j Hj. apply child_other. auto.
Qed.
Lemma only_crashed i w w' : only i w w' -> w_crashed w' = false.
Proof. intros []. apply only_quiet0. Qed.
Lemma only_has i w w' j : only i w w' -> has w j -> has w' j.
Proof. intros []. unfold has. congruence. Qed.
Lemma quiet_same w w' v : quiet w w' -> w_trace v = w_trace w' -> w_crashed v = w_crashed w' ->
  quiet w v.
Proof. unfold quiet. intros H -> ->. exact H. Qed.

Lemma only_flow_map i a b g : only i a b -> only i (on_flow a g) (on_flow b g).
Proof.
  intros [(Qc & es & Qt & Qa) F M N' L R]. constructor; auto.
  - split; [exact Qc|]. exists es. auto.
  - cbn [on_flow put_w_flow w_flow]. now rewrite F.
Qed.

(** The parts of a filter that its answers do not change. *)
Record core (k k' : child) : Prop := {
  core_connected : k_connected k' = k_connected k;
  core_trying : k_trying k' = k_trying k;
  core_fallback : k_fallback k' = k_fallback k;
  core_evaluation : k_evaluation k' = k_evaluation k;
  core_quitted : k_quitted k' = k_quitted k;
  core_state : k_state k' = k_state k;
  core_option : k_option k' = k_option k;
  core_next : k_next k' = k_next k
}.
Lemma core_refl k : core k k.
Proof. constructor; reflexivity. Qed.
Lemma core_trans a b c : core a b -> core b c -> core a c.
Proof. intros [] []. constructor; congruence. Qed.

(** What a filter in evaluation mode asks to change is dropped. *)
Lemma evaluated_edit writes stops chunk_size collate_equal depth w i r :
  is_edit r = true -> w_crashed w = false -> k_state (child_of w i) = XEndOfMessage ->
  k_evaluation (child_of w i) = true ->
  children_run writes stops chunk_size collate_equal (S depth) w [KReply i r] = log w (OIn (KReply i r)).
Proof.
  intros E C X V. cbn [children_run fold_left]. unfold children_step. rewrite C.
  assert (H : k_receive writes (emit writes stops chunk_size collate_equal (S depth))
                (log w (OIn (KReply i r))) i r =
              k_modification (emit writes stops chunk_size collate_equal (S depth))
                (log w (OIn (KReply i r))) i r) by (destruct r; try discriminate; reflexivity).
  rewrite H. unfold k_modification. rewrite child_log, X.
  destruct (k_quitted (child_of w i)); [reflexivity|].
  assert (H' : forall w', w' = log w (OIn (KReply i r)) ->
    emit writes stops chunk_size collate_equal (S depth) w' i (GReply r) = w').
  { intros w' ->. cbn [emit]. unfold handle. rewrite child_log.
    assert (C' : w_crashed (log w (OIn (KReply i r))) = false) by (unfold log; rewrite C; exact C). rewrite C'.
    destruct (k_connected (child_of w i)); [|destruct r; reflexivity].
    destruct r; try discriminate; cbn [negb]; unfold cb_modification;
      rewrite child_log, X, V; reflexivity. }
  destruct r; try discriminate; apply H'; reflexivity.
Qed.
