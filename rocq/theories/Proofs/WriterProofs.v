(** Proofs about the writer. *)
From Verif.Base Require Import Bytes.
From Verif.Model Require Import Writer.
From Verif.Spec Require Import WriterSpec.
Local Open Scope nat_scope.

Ltac wsimpl := cbn [wr_channel wr_loop wr_buffer wr_flush_point wr_write_watch wr_flush_watch
  wr_error_watch wr_taken wr_trace set_channel set_loop set_buffer set_flush_point set_write_watch
  set_flush_watch set_error_watch set_taken wlog] in *.

Ltac tsimpl := cbn [queued transmitted before_last_call before_last_report] in *.

(** ** No byte is lost, repeated or moved *)
Definition whole (w : writer) : Prop :=
  transmitted (wr_trace w) ++ wr_taken w ++ wr_buffer w = queued (wr_trace w).

Lemma whole_same w w' :
  wr_taken w' = wr_taken w -> wr_buffer w' = wr_buffer w ->
  transmitted (wr_trace w') = transmitted (wr_trace w) -> queued (wr_trace w') = queued (wr_trace w) ->
  whole w -> whole w'.
Proof. unfold whole. intros -> -> -> ->. exact (fun H => H). Qed.

Lemma whole_transmit n w : whole w -> whole (transmit n w).
Proof.
  unfold whole, transmit. intros H. destruct (firstn n (wr_taken w)) eqn:E; [exact H|].
  rewrite <- E. wsimpl. tsimpl. rewrite <- H, <- app_assoc, (app_assoc (firstn _ _)), firstn_skipn.
  reflexivity.
Qed.

Lemma whole_channel_write o w : whole w -> whole (fst (channel_write o w)).
Proof.
  unfold channel_write. cbn [fst]. intros H. apply whole_transmit. unfold whole in *. wsimpl.
  rewrite <- H, <- app_assoc, firstn_skipn. reflexivity.
Qed.

Lemma whole_channel_flush o w : whole w -> whole (channel_flush o w).
Proof. destruct o; apply whole_transmit. Qed.

Lemma whole_write chunk w : whole w -> whole (writer_write chunk w).
Proof.
  unfold writer_write, whole. intros H.
  destruct (wr_channel w), (wr_loop w), chunk; cbn [negb]; wsimpl; tsimpl; rewrite ?app_nil_r;
    try exact H. rewrite <- H, <- !app_assoc. reflexivity.
Qed.

Lemma whole_flush w : whole w -> whole (writer_flush w).
Proof.
  unfold writer_flush, whole. intros H.
  destruct (wr_channel w), (wr_loop w); cbn [negb]; wsimpl; try exact H.
  destruct (wr_write_watch w); exact H.
Qed.

Lemma whole_log e w : (forall c, e <> EQueued c) -> (forall c, e <> ETransmitted c) -> whole w -> whole (wlog e w).
Proof. destruct e; intros A B; try exact (fun H => H); [destruct (A chunk)|destruct (B data)]; reflexivity. Qed.

Section Preserved.
(** A property kept by the calls is kept by an emission. *)
Variables (react : list wevent -> list wcall) (P : writer -> Prop).
Variable calls : Prop.
Hypothesis Plog : forall e w, e = EError \/ e = EFlushed \/ e = EFinished -> P w -> P (wlog e w).
Hypothesis Pwrite : forall chunk w, P w -> P (writer_write chunk w).
Hypothesis Pflush : forall w, P w -> P (writer_flush w).
Hypothesis Pshutdown : forall emit wo fo w,
  (forall e w, e = EError \/ e = EFlushed -> P w -> P (emit e w)) ->
  P w -> P (writer_shutdown emit wo fo w).

Lemma emit_preserves d : forall e w, e = EError \/ e = EFlushed \/ e = EFinished -> P w -> P (emit react d e w).
Proof.
  induction d as [|d IH]; intros e w He H; cbn [emit]; [exact (Plog _ _ He H)|].
  assert (K : P (wlog e w)) by exact (Plog _ _ He H).
  revert K. generalize (wlog e w) at 1 3. generalize (react (wr_trace (wlog e w))).
  intros l. induction l as [|c l IHl]; intros w' K; [exact K|]. cbn [fold_left]. apply IHl.
  destruct c; cbn [writer_call]; [apply Pwrite, K|apply Pflush, K|].
  apply Pshutdown; [|exact K]. intros e' w'' [-> | ->]; apply IH; auto.
Qed.
End Preserved.

Lemma whole_shutdown emit wo fo w :
  (forall e w, e = EError \/ e = EFlushed -> whole w -> whole (emit e w)) ->
  whole w -> whole (writer_shutdown emit wo fo w).
Proof.
  intros He H. unfold writer_shutdown. destruct (wr_error_watch w); cbn [negb]; [|exact H].
  assert (K : whole (clear_watches (wlog EShutdown w))) by exact H.
  set (w' := clear_watches (wlog EShutdown w)) in *. clearbody w'.
  destruct (wr_channel w'); [|exact K].
  match goal with |- whole (set_channel false ?x) => apply (whole_same x); try reflexivity end.
  destruct (wr_buffer w') eqn:E; [exact K|].
  pose proof (whole_channel_write wo w' K) as C. destruct (channel_write wo w') as [w2 n]. cbn [fst] in C.
  destruct (wo_error wo); [apply He; auto|]. apply He; [auto|].
  destruct fo; try apply He; auto; apply whole_channel_flush; exact C.
Qed.

Lemma whole_emit react d e w : e = EError \/ e = EFlushed \/ e = EFinished -> whole w -> whole (emit react d e w).
Proof.
  apply emit_preserves.
  - intros e' w' [-> | [-> | ->]]; apply whole_log; discriminate.
  - exact whole_write.
  - exact whole_flush.
  - exact whole_shutdown.
Qed.

Lemma whole_step react d o w : whole w -> whole (writer_step react d w o).
Proof.
  intros H. destruct o as [|c|o|o|]; cbn [writer_step].
  - unfold writer_start. destruct (_ && _); exact H.
  - destruct c; cbn [writer_call].
    + apply whole_write, H.
    + apply whole_flush, H.
    + apply whole_shutdown; [|exact H]. intros e w' [-> | ->]; apply whole_emit; auto.
  - unfold write_callback. destruct (wr_write_watch w); cbn [negb]; [|exact H].
    destruct (wr_buffer w) eqn:E; [exact H|].
    pose proof (whole_channel_write o w H) as C. destruct (channel_write o w) as [w2 n]. cbn [fst] in C.
    set (w3 := if n =? 0 then w2 else _).
    assert (D : whole w3).
    { subst w3. destruct (n =? 0); [exact C|]. destruct (0 <? wr_flush_point w2); [|exact C].
      destruct (wr_flush_point w2 <=? n); [|exact C]. destruct (wr_loop _); exact C. }
    clearbody w3. destruct (wo_error o); [|exact D].
    apply (whole_same (emit react d EError w3)); try reflexivity. apply whole_emit; auto.
  - unfold flush_callback. destruct (wr_flush_watch w); cbn [negb]; [|exact H].
    assert (C : whole (channel_flush o w)) by (apply whole_channel_flush, H).
    destruct o; [|exact C|].
    + apply (whole_same (emit react d EFlushed (channel_flush Done w))); try reflexivity. apply whole_emit; auto.
    + apply (whole_same (emit react d EError (channel_flush (Failed sent) w))); try reflexivity. apply whole_emit; auto.
  - unfold error_callback. destruct (wr_error_watch w); cbn [negb]; [|exact H].
    apply whole_emit; [auto|]. apply (whole_same (emit react d EError w)); try reflexivity. apply whole_emit; auto.
Qed.

Lemma run_whole react d ops : whole (writer_run react d ops).
Proof.
  unfold writer_run. assert (H : whole writer_new) by reflexivity. revert H. generalize writer_new.
  induction ops as [|o ops IH]; intros w H; [exact H|]. cbn [fold_left]. apply IH, whole_step, H.
Qed.

(** ** Reports *)

(** Reports are right up to the first disturbance. *)
Definition safe (t : list wevent) : Prop :=
  forall later s, t = later ++ s -> undisturbed s -> exists waiting, answers s waiting.

Lemma answers_suffix later s waiting : answers (later ++ s) waiting -> exists waiting, answers s waiting.
Proof.
  revert waiting. induction later as [|e later IH]; intros m H; [exists m; exact H|].
  cbn [app] in H. inversion H; subst; eapply IH; eassumption.
Qed.

(** Once disturbed, always so. *)
Definition disturbed (w : writer) : Prop :=
  (List.In EError (wr_trace w) \/ List.In EShutdown (wr_trace w)) /\ safe (wr_trace w).

Lemma disturbed_undisturbed w : disturbed w -> undisturbed (wr_trace w) -> False.
Proof. intros [[H|H] _] [A B]; auto. Qed.

Definition grows (w w' : writer) : Prop := exists l, wr_trace w' = l ++ wr_trace w.
Lemma grows_refl w : grows w w. Proof. exists []. reflexivity. Qed.
Lemma grows_trans a b c : grows a b -> grows b c -> grows a c.
Proof. intros [l L] [k K]. exists (k ++ l). rewrite K, L, app_assoc. reflexivity. Qed.
Lemma grows_log w e w' : wr_trace w' = e :: wr_trace w -> grows w w'.
Proof. intros E. exists [e]. exact E. Qed.
Lemma grows_same w w' : wr_trace w' = wr_trace w -> grows w w'.
Proof. intros E. exists []. exact E. Qed.

Lemma disturbed_grows w w' : grows w w' -> disturbed w -> disturbed w'.
Proof.
  intros [l L] [H S]. unfold disturbed. rewrite L. split.
  - destruct H as [H|H]; [left|right]; apply in_or_app; right; exact H.
  - clear L. induction l as [|e l IH]; [exact S|]. intros later s E U. destruct later as [|e' later].
    + exfalso. cbn [app] in E. subst s. destruct U as [U1 U2].
      destruct H as [H|H]; [apply U1|apply U2]; right; apply in_or_app; right; exact H.
    + cbn [app] in E. injection E as _ E. exact (IH later s E U).
Qed.

Lemma grows_transmit n w : grows w (transmit n w).
Proof.
  unfold transmit. destruct (firstn n (wr_taken w)); [apply grows_refl|].
  eapply grows_log. reflexivity.
Qed.
Lemma grows_channel_write o w : grows w (fst (channel_write o w)).
Proof. unfold channel_write. cbn [fst]. eapply grows_trans; [|apply grows_transmit]. apply grows_same. reflexivity. Qed.
Lemma grows_channel_flush o w : grows w (channel_flush o w).
Proof. destruct o; apply grows_transmit. Qed.
Lemma grows_write c w : grows w (writer_write c w).
Proof.
  unfold writer_write. destruct (wr_channel w), (wr_loop w), c; cbn [negb]; eapply grows_log; reflexivity.
Qed.
Lemma grows_flush w : grows w (writer_flush w).
Proof.
  unfold writer_flush. destruct (wr_channel w), (wr_loop w); cbn [negb]; try (eapply grows_log; reflexivity).
  wsimpl. destruct (wr_write_watch w); eapply grows_log; reflexivity.
Qed.

Lemma grows_shutdown emit wo fo w0 w :
  (forall e w, e = EError \/ e = EFlushed -> grows w0 w -> grows w0 (emit e w)) ->
  grows w0 w -> grows w0 (writer_shutdown emit wo fo w).
Proof.
  intros He H. unfold writer_shutdown. destruct (wr_error_watch w); cbn [negb]; [|exact H].
  assert (K : grows w0 (clear_watches (wlog EShutdown w))).
  { eapply grows_trans; [exact H|]. eapply grows_log. reflexivity. }
  set (w' := clear_watches (wlog EShutdown w)) in *. clearbody w'.
  destruct (wr_channel w'); [|exact K].
  eapply grows_trans; [|apply grows_same; reflexivity].
  destruct (wr_buffer w') eqn:E; [exact K|].
  pose proof (grows_channel_write wo w') as C. destruct (channel_write wo w') as [w2 n]. cbn [fst] in C.
  apply (grows_trans _ _ _ K) in C.
  destruct (wo_error wo); [apply He; auto|]. apply He; [auto|].
  destruct fo; try apply He; auto; eapply grows_trans; try exact C; apply grows_channel_flush.
Qed.

Lemma grows_emit react d e w : e = EError \/ e = EFlushed \/ e = EFinished -> grows (wlog e w) (emit react d e w).
Proof.
  revert e w. induction d as [|d IH]; intros e w He; cbn [emit]; [apply grows_refl|].
  generalize (react (wr_trace (wlog e w))). intros l.
  assert (forall w0 w, grows w0 w -> grows w0 (fold_left (writer_call (emit react d)) l w)) as K.
  { induction l as [|c l IHl]; intros w0 w' H; [exact H|]. cbn [fold_left]. apply IHl.
    destruct c; cbn [writer_call].
    - eapply grows_trans; [exact H|apply grows_write].
    - eapply grows_trans; [exact H|apply grows_flush].
    - apply grows_shutdown; [|exact H]. intros e' w2 He' H'. eapply grows_trans; [exact H'|].
      apply (grows_trans _ (wlog e' w2)); [eapply grows_log; reflexivity|]. apply IH. destruct He' as [-> | ->]; auto. }
  apply K, grows_refl.
Qed.


(** The invariant while nothing disturbed the writer.  Of the flush calls not answered, [a] can be
    answered as soon as the channel is flushed, [b] waits for more bytes to be taken.  [real] is
    unset while the handlers of a report run: the watch that led to the report is used up then. *)
Definition held (w : writer) : nat := length (transmitted (wr_trace w)) + length (wr_taken w).

Record good (packets real : bool) (w : writer) : Prop := mk_good {
  g_idle : wr_write_watch w = false -> wr_buffer w = [];
  g_loop : wr_write_watch w = true -> wr_loop w = true;
  g_point : wr_flush_point w <= length (wr_buffer w);
  g_last : length (before_last_call (wr_trace w)) <= held w + wr_flush_point w;
  g_previous : real = true -> wr_flush_watch w = true -> length (before_last_report (wr_trace w)) <= held w;
  g_reports : exists a b, answers (wr_trace w) (a ++ b) /\
    (forall n, List.In n a -> n <= held w) /\
    (forall n, List.In n b -> n <= held w + wr_flush_point w) /\
    (real = true -> wr_flush_watch w = true -> a <> []) /\
    (0 < wr_flush_point w -> b <> []);
  g_lost : packets = true -> length (transmitted (wr_trace w)) < length (before_last_call (wr_trace w)) ->
    0 < wr_flush_point w \/ real = true /\ wr_flush_watch w = true;
  g_all : packets = true -> before_last_call (wr_trace w) = queued (wr_trace w)
}.

Definition fine (packets real : bool) (w : writer) : Prop := whole w /\ (disturbed w \/ good packets real w).

Lemma fine_safe k r w : fine k r w -> safe (wr_trace w).
Proof.
  intros [_ [[_ S]|G]]; [exact S|]. intros later s E _.
  destruct (g_reports _ _ _ G) as (a & b & A & _). rewrite E in A. exact (answers_suffix _ _ _ A).
Qed.

Lemma disturb k r e w : fine k r w -> e = EError \/ e = EShutdown -> disturbed (wlog e w).
Proof.
  intros H He. apply fine_safe in H. split; [destruct He as [-> | ->]; cbn; auto|].
  intros later s E U. destruct later as [|e' later].
  - exfalso. cbn [app] in E. subst s. destruct U as [U1 U2]. destruct He as [-> | ->]; [apply U1|apply U2]; left; reflexivity.
  - cbn [app] in E. injection E as _ E. exact (H later s E U).
Qed.

Lemma held_whole w : whole w -> held w + length (wr_buffer w) = length (queued (wr_trace w)).
Proof. unfold whole, held. intros <-. rewrite !app_length. lia. Qed.

Lemma answers_step e t waiting : e <> EFlushCalled -> e <> EFlushed -> answers t waiting -> answers (e :: t) waiting.
Proof. apply answers_other. Qed.

(** A change that leaves the relevant fields alone. *)
Lemma good_same k r w w' :
  wr_write_watch w' = wr_write_watch w -> wr_flush_watch w' = wr_flush_watch w ->
  (wr_loop w = true -> wr_loop w' = true) -> wr_buffer w' = wr_buffer w -> wr_flush_point w' = wr_flush_point w ->
  wr_taken w' = wr_taken w -> wr_trace w' = wr_trace w -> good k r w -> good k r w'.
Proof.
  intros A B C D E F G [g1 g2 g3 g4 g5 g6 g7 g8].
  split; unfold held in *; rewrite ?A, ?B, ?D, ?E, ?F, ?G in *; auto.
Qed.

Lemma good_log k r e w :
  e <> EFlushCalled -> e <> EFlushed -> (forall c, e <> EQueued c) -> (forall c, e <> ETransmitted c) ->
  good k r w -> good k r (wlog e w).
Proof.
  intros A B C D [g1 g2 g3 g4 g5 (a & b & g6 & g7) g8 g9].
  assert (E1 : before_last_call (e :: wr_trace w) = before_last_call (wr_trace w)) by (destruct e; congruence || reflexivity).
  assert (E2 : before_last_report (e :: wr_trace w) = before_last_report (wr_trace w)) by (destruct e; congruence || reflexivity).
  assert (E3 : transmitted (e :: wr_trace w) = transmitted (wr_trace w)).
  { destruct e; try reflexivity. destruct (D data eq_refl). }
  assert (E4 : queued (e :: wr_trace w) = queued (wr_trace w)).
  { destruct e; try reflexivity. destruct (C chunk eq_refl). }
  split; unfold held in *; wsimpl; rewrite ?E1, ?E2, ?E3, ?E4; auto.
  exists a, b. split; [apply answers_other; assumption|exact g7].
Qed.

Lemma good_transmit k r n w : good k r w -> good k r (transmit n w).
Proof.
  unfold transmit. intros G. destruct (firstn n (wr_taken w)) as [|x l] eqn:E; [exact G|]. rewrite <- E. clear E.
  assert (L : length (firstn n (wr_taken w)) + length (skipn n (wr_taken w)) = length (wr_taken w)).
  { rewrite <- app_length, firstn_skipn. reflexivity. }
  destruct G as [g1 g2 g3 g4 g5 (a & b & g6 & g7 & g8 & g9) g10 g11].
  assert (K : held (wlog (ETransmitted (firstn n (wr_taken w))) (set_taken (skipn n (wr_taken w)) w)) = held w).
  { unfold held. wsimpl. tsimpl. rewrite app_length. lia. }
  split; rewrite ?K; wsimpl; tsimpl; auto.
  - exists a, b. split; [apply answers_other; [discriminate|discriminate|exact g6]|]. auto.
  - rewrite app_length. intros P Q. apply g10; [exact P|lia].
Qed.

(** Bytes are taken. *)
Lemma good_take k r n w :
  good k r w -> n <= length (wr_buffer w) -> n < wr_flush_point w \/ wr_flush_point w = 0 ->
  wr_write_watch w = true ->
  good k r (set_flush_point (wr_flush_point w - n)
    (set_buffer (skipn n (wr_buffer w)) (set_taken (wr_taken w ++ firstn n (wr_buffer w)) w))).
Proof.
  intros [g1 g2 g3 g4 g5 (a & b & g6 & g7 & g8 & g9 & g10) g11 g12] L F W.
  split; unfold held in *; wsimpl; rewrite ?app_length, ?firstn_length, ?skipn_length in *; try congruence; auto; try lia.
  - exists a, b. split; [exact g6|]. split; [intros m M; specialize (g7 m M); lia|].
    split; [intros m M; specialize (g8 m M); lia|]. split; [exact g9|]. intros P. apply g10. lia.
Qed.

Lemma good_take_all k n w :
  good k true w -> n <= length (wr_buffer w) -> 0 < wr_flush_point w -> wr_flush_point w <= n ->
  wr_write_watch w = true ->
  good k true (request_flush (set_flush_point 0
    (set_buffer (skipn n (wr_buffer w)) (set_taken (wr_taken w ++ firstn n (wr_buffer w)) w)))).
Proof.
  intros [g1 g2 g3 g4 g5 (a & b & g6 & g7 & g8 & g9 & g10) g11 g12] L P F W.
  unfold request_flush.
  split; unfold held in *; wsimpl; rewrite ?app_length, ?firstn_length, ?skipn_length in *; try congruence; auto; try lia.
  - intros A B.
    assert (length (before_last_report (wr_trace w)) <= length (before_last_call (wr_trace w))); [|lia].
    clear. induction (wr_trace w) as [|e t IH]; [apply le_n|].
    assert (Q : forall t, length (before_last_call t) <= length (queued t)).
    { clear. intros t. induction t as [|e t IH]; [apply le_n|]. destruct e; tsimpl; rewrite ?app_length; lia. }
    destruct e; tsimpl; try exact IH; [|apply le_n]. specialize (Q t). lia.
  - exists (a ++ b), []. rewrite app_nil_r. split; [exact g6|].
    split; [|split; [|split]].
    + intros m M. apply in_app_or in M. destruct M as [M|M]; [specialize (g7 m M); lia|specialize (g8 m M); lia].
    + intros m [].
    + intros _ _ E. apply app_eq_nil in E. destruct E as [_ E]. exact (g10 P E).
    + lia.
Qed.

(** ** Calls *)
Lemma good_write r chunk w : good false r w -> good false r (writer_write chunk w).
Proof.
  intros G. unfold writer_write.
  destruct (wr_channel w); cbn [negb]; [|apply good_log; try discriminate; exact G].
  destruct (wr_loop w) eqn:L; cbn [negb]; [|apply good_log; try discriminate; exact G].
  assert (X : forall c, good false r (wlog (EQueued c) w)).
  { intros c. destruct G as [g1 g2 g3 g4 g5 (a & b & g6 & g7) g8 g9]. split; unfold held in *; wsimpl; tsimpl; auto; try discriminate.
    exists a, b. split; [apply answers_other; [discriminate|discriminate|exact g6]|exact g7]. }
  destruct chunk as [|x l]; [apply X|]. specialize (X (x :: l)).
  destruct X as [g1 g2 g3 g4 g5 g6 g7 g8]. split; unfold held in *; wsimpl; auto; try discriminate.
  rewrite app_length. lia.
Qed.

Lemma good_flush r w : whole w -> good false r w -> good false r (writer_flush w).
Proof.
  intros A G. unfold writer_flush.
  destruct (wr_channel w); cbn [negb]; [|apply good_log; try discriminate; exact G].
  destruct (wr_loop w) eqn:L; cbn [negb]; [|apply good_log; try discriminate; exact G].
  pose proof (held_whole w A) as Q. wsimpl.
  assert (E : held (wlog EFlushCalled w) = held w) by reflexivity.
  assert (P : length (before_last_report (wr_trace w)) <= length (queued (wr_trace w))).
  { clear. induction (wr_trace w) as [|e t IH]; [apply le_n|].
    assert (Q : forall t, length (before_last_call t) <= length (queued t)).
    { clear. intros t. induction t as [|e' t IH]; [apply le_n|]. destruct e'; tsimpl; rewrite ?app_length; lia. }
    destruct e; tsimpl; rewrite ?app_length; try lia. apply Q. }
  destruct G as [g1 g2 g3 g4 g5 (a & b & g6 & g7 & g8 & g9 & g10) g11 g12].
  destruct (wr_write_watch w) eqn:W; unfold request_flush.
  - split; unfold held in *; wsimpl; tsimpl; auto; try lia; try discriminate.
    exists a, (b ++ [length (queued (wr_trace w))]). rewrite app_assoc.
    split; [apply answers_call, g6|]. split; [exact g7|]. split; [|split; [exact g9|]].
    + intros n M. apply in_app_or in M. destruct M as [M|[<-|[]]]; [specialize (g8 n M); lia|lia].
    + intros _ X. apply app_eq_nil in X. destruct X as [_ X]. discriminate X.
  - specialize (g1 eq_refl). rewrite g1 in *. cbn [length] in *.
    split; unfold held in *; wsimpl; tsimpl; auto; try lia; try discriminate; try congruence.
    exists (a ++ b ++ [length (queued (wr_trace w))]), []. rewrite app_nil_r, app_assoc.
    split; [apply answers_call, g6|]. split; [|split; [|split]].
    + intros n M. apply in_app_or in M. destruct M as [M|[<-|[]]]; [|lia].
      apply in_app_or in M. destruct M as [M|M]; [specialize (g7 n M); lia|specialize (g8 n M); lia].
    + intros n [].
    + intros _ _ X. apply app_eq_nil in X. destruct X as [_ X]. discriminate X.
    + lia.
Qed.

(** A packet, written and flushed as an agent does. *)
Lemma good_weaken k r w : good k r w -> good false r w.
Proof. intros []. split; auto; discriminate. Qed.

Lemma good_packet k r p w : p <> [] -> whole w -> good k r w -> good k r (writer_flush (writer_write p w)).
Proof.
  intros N A G. pose proof (good_write r p w (good_weaken _ _ _ G)) as G1. pose proof (whole_write p w A) as A1.
  unfold writer_write in *.
  destruct (wr_channel w) eqn:C; cbn [negb] in *.
  2: { unfold writer_flush. wsimpl. rewrite C. cbn [negb]. apply good_log; try discriminate. apply good_log; try discriminate. exact G. }
  destruct (wr_loop w) eqn:L; cbn [negb] in *.
  2: { unfold writer_flush. wsimpl. rewrite C, L. cbn [negb]. apply good_log; try discriminate. apply good_log; try discriminate. exact G. }
  destruct p as [|x l]; [congruence|].
  pose proof (good_flush r _ A1 G1) as Gf.
  destruct Gf as [g1 g2 g3 g4 g5 g6 g7 g8]. split; auto.
  - intros _ _. left. unfold writer_flush. wsimpl. rewrite C, L. cbn [negb]. wsimpl. rewrite app_length. cbn [length]. lia.
  - intros _. unfold writer_flush. wsimpl. rewrite C, L. cbn [negb]. wsimpl. reflexivity.
Qed.

(** A report. *)
Lemma good_report k w :
  good k true w -> wr_flush_watch w = true -> wr_taken w = [] -> good k false (wlog EFlushed w).
Proof.
  intros [g1 g2 g3 g4 g5 (a & b & g6 & g7 & g8 & g9 & g10) g11 g12] F T.
  apply (f_equal (@length _)) in T. cbn [length] in T.
  split; unfold held in *; wsimpl; tsimpl; auto; try discriminate; try lia.
  - exists [], b. cbn [app]. split; [|split; [intros n []|]].
    + specialize (g5 eq_refl F).
      apply (answers_report _ a); [exact g6|exact (g9 eq_refl F)| |lia]. intros n M. specialize (g7 n M). lia.
    + split; [exact g8|]. split; [discriminate|exact g10].
Qed.

Lemma good_used k w : good k false w -> good k true (set_flush_watch false w).
Proof.
  intros [g1 g2 g3 g4 g5 (a & b & g6 & g7 & g8 & g9 & g10) g11 g12].
  split; unfold held in *; wsimpl; auto; try discriminate.
  - exists a, b. split; [exact g6|]. repeat (split; auto); discriminate.
  - intros A B. destruct (g11 A B) as [C|[C _]]; [left; exact C|discriminate C].
Qed.

Lemma emit_disturbed react d e w : e = EError \/ e = EFlushed \/ e = EFinished -> disturbed (wlog e w) -> disturbed (emit react d e w).
Proof. intros E. apply disturbed_grows, grows_emit, E. Qed.

Lemma shutdown_disturbed react d k r wo fo w : fine k r w -> wr_error_watch w = true -> disturbed (writer_shutdown (emit react d) wo fo w).
Proof.
  intros H E. unfold writer_shutdown. rewrite E. cbn [negb].
  assert (K : disturbed (clear_watches (wlog EShutdown w))) by (apply (disturb k r EShutdown w H); auto).
  set (w' := clear_watches (wlog EShutdown w)) in *. clearbody w'.
  destruct (wr_channel w'); [|exact K].
  match goal with |- disturbed (set_channel false ?x) => change (disturbed x) end.
  assert (G : forall e w, e = EError \/ e = EFlushed -> disturbed w -> disturbed (emit react d e w)).
  { intros e w2 He D. apply emit_disturbed; [destruct He; auto|]. apply (disturbed_grows w2); [eapply grows_log; reflexivity|exact D]. }
  destruct (wr_buffer w') eqn:B; [exact K|].
  pose proof (disturbed_grows _ _ (grows_channel_write wo w') K) as C. destruct (channel_write wo w') as [w2 n]. cbn [fst] in C.
  destruct (wo_error wo); [apply G; auto|]. apply G; [auto|].
  destruct fo; try apply G; auto; eapply disturbed_grows; try exact C; apply grows_channel_flush.
Qed.

Lemma fine_shutdown react d k r wo fo w : fine k r w -> fine k r (writer_shutdown (emit react d) wo fo w).
Proof.
  intros H. pose proof H as [A G]. split.
  - apply whole_shutdown; [|exact A]. intros e w' He. apply whole_emit. destruct He; auto.
  - destruct (wr_error_watch w) eqn:E; [left; exact (shutdown_disturbed react d k r wo fo w H E)|].
    unfold writer_shutdown. rewrite E. exact G.
Qed.

Lemma fine_write r c w : fine false r w -> fine false r (writer_write c w).
Proof.
  intros [A G]. split; [apply whole_write, A|]. destruct G as [D|G]; [left|right; apply good_write, G].
  eapply disturbed_grows; [apply grows_write|exact D].
Qed.
Lemma fine_flush r w : fine false r w -> fine false r (writer_flush w).
Proof.
  intros [A G]. split; [apply whole_flush, A|]. destruct G as [D|G]; [left|right; apply good_flush; assumption].
  eapply disturbed_grows; [apply grows_flush|exact D].
Qed.
Lemma fine_packet k r p w : p <> [] -> fine k r w -> fine k r (writer_flush (writer_write p w)).
Proof.
  intros N [A G]. split; [apply whole_flush, whole_write, A|]. destruct G as [D|G]; [left|right; apply good_packet; assumption].
  eapply disturbed_grows; [apply grows_flush|]. eapply disturbed_grows; [apply grows_write|exact D].
Qed.

Lemma fine_calls react d k r l w :
  (k = true -> agent_calls l) -> fine k r w -> fine k r (fold_left (writer_call (emit react d)) l w).
Proof.
  destruct k.
  - intros K. specialize (K eq_refl). revert w. induction K as [|p l N K IH|wo fo l K IH]; intros w H; [exact H| |]; cbn [fold_left writer_call].
    + apply IH, fine_packet; assumption.
    + apply IH, fine_shutdown, H.
  - intros _. revert w. induction l as [|c l IH]; intros w H; [exact H|]. cbn [fold_left]. apply IH.
    destruct c; cbn [writer_call]; [apply fine_write, H|apply fine_flush, H|apply fine_shutdown, H].
Qed.

Lemma good_new k : good k true writer_new.
Proof.
  split; cbn; auto; try discriminate; try lia.
  exists [], []. split; [constructor|]. cbn. split; [intros n []|]. split; [intros n []|]. split; [discriminate|lia].
Qed.

Section Run.
Variables (react : list wevent -> list wcall) (k : bool).
Hypothesis agent : k = true -> forall t, agent_calls (react t).

Lemma fine_emit r d e w : fine k r (wlog e w) -> fine k r (emit react d e w).
Proof. intros H. destruct d; cbn [emit]; [exact H|]. apply fine_calls; [intros E; apply agent, E|exact H]. Qed.

Lemma fine_error r d w : fine k r w -> fine k r (emit react d EError w).
Proof.
  intros H. apply fine_emit. split; [exact (proj1 H)|]. left. apply (disturb k r); auto.
Qed.

Lemma taken_done w : wr_taken (channel_flush Done w) = [].
Proof.
  cbn [channel_flush]. unfold transmit. destruct (firstn (length (wr_taken w)) (wr_taken w)) eqn:E.
  - rewrite firstn_all in E. exact E.
  - wsimpl. rewrite skipn_all. reflexivity.
Qed.
Lemma flush_watch_transmit n w : wr_flush_watch (transmit n w) = wr_flush_watch w.
Proof. unfold transmit. destruct (firstn n (wr_taken w)); reflexivity. Qed.

Lemma fine_channel_flush o r w : fine k r w -> fine k r (channel_flush o w).
Proof.
  intros [A G]. split; [apply whole_channel_flush, A|]. destruct G as [D|G]; [left|right].
  - eapply disturbed_grows; [apply grows_channel_flush|exact D].
  - destruct o; apply good_transmit, G.
Qed.

Lemma fine_step d o w :
  (forall c, o = Call c -> k = true -> exists wo fo, c = Shutdown wo fo) -> fine k true w -> fine k true (writer_step react d w o).
Proof.
  intros Ho H. destruct o as [|c|o|o|]; cbn [writer_step].
  - unfold writer_start. destruct (_ && _); [|exact H]. destruct H as [A G]. split; [exact A|].
    destruct G as [D|G]; [left; exact D|right]. revert G. apply good_same; try reflexivity.
  - destruct k eqn:K.
    + destruct (Ho c eq_refl eq_refl) as (wo & fo & ->). cbn [writer_call]. apply fine_shutdown, H.
    + destruct c; cbn [writer_call]; [apply fine_write, H|apply fine_flush, H|apply fine_shutdown, H].
  - unfold write_callback. destruct (wr_write_watch w) eqn:W; cbn [negb]; [|exact H].
    destruct (wr_buffer w) as [|x l] eqn:E.
    { destruct H as [A G]. split; [exact A|]. destruct G as [D|G]; [left; exact D|right].
      destruct G as [g1 g2 g3 g4 g5 g6 g7 g8]. split; unfold held in *; wsimpl; auto; discriminate. }
    destruct (channel_write o w) as [w2 n] eqn:CW.
    set (w3 := if n =? 0 then w2 else _).
    assert (D : fine k true w3).
    { destruct H as [A G]. split.
      - pose proof (whole_channel_write o w A) as C. rewrite CW in C. cbn [fst] in C. subst w3.
        destruct (n =? 0); [exact C|]. destruct (0 <? wr_flush_point w2); [|exact C].
        destruct (wr_flush_point w2 <=? n); [|exact C]. destruct (wr_loop _); exact C.
      - destruct G as [D|G].
        + left. pose proof (grows_channel_write o w) as C. rewrite CW in C. cbn [fst] in C.
          pose proof (disturbed_grows _ _ C D) as D2. subst w3.
          destruct (n =? 0); [exact D2|]. destruct (0 <? wr_flush_point w2); [|exact D2].
          destruct (wr_flush_point w2 <=? n); [|exact D2]. destruct (wr_loop _); exact D2.
        + right. unfold channel_write in CW. injection CW as CW CN.
          set (wt := set_buffer (skipn n (wr_buffer w)) (set_taken (wr_taken w ++ firstn n (wr_buffer w)) w)).
          rewrite CN in CW. fold wt in CW.
          assert (N : n <= length (wr_buffer w)) by lia.
          assert (FP : wr_flush_point w2 = wr_flush_point w /\ wr_loop w2 = wr_loop w).
          { rewrite <- CW. unfold transmit. destruct (firstn _ (wr_taken wt)); split; reflexivity. }
          destruct FP as [FP LP]. subst w3.
          assert (T : forall (f : writer -> writer),
            (forall w, wr_taken (f w) = wr_taken w) -> (forall d w, set_taken d (f w) = f (set_taken d w)) ->
            (forall e w, wlog e (f w) = f (wlog e w)) -> f w2 = transmit (wo_sent o) (f wt)).
          { intros f F1 F2 F3. rewrite <- CW. unfold transmit. rewrite F1. destruct (firstn _ (wr_taken wt)); [reflexivity|].
            rewrite F2, F3. reflexivity. }
          assert (SF : forall m w, wr_flush_point w = m -> set_flush_point m w = w) by (intros m [] <-; reflexivity).
          destruct (Nat.eqb_spec n 0) as [Z|Z].
          { rewrite <- CW. apply good_transmit. subst wt. rewrite Z. cbn [skipn firstn]. rewrite app_nil_r.
            apply (good_same k true w); auto. }
          rewrite FP. destruct (Nat.ltb_spec 0 (wr_flush_point w)) as [P|P].
          * destruct (Nat.leb_spec (wr_flush_point w) n) as [Q|Q].
            -- wsimpl. rewrite LP, (g_loop _ _ _ G W).
               rewrite (T (fun w => request_flush (set_flush_point 0 w))); try reflexivity.
               apply good_transmit. apply good_take_all; assumption.
            -- rewrite (T (set_flush_point (wr_flush_point w - n))); try reflexivity.
               apply good_transmit. apply good_take; auto.
          * rewrite <- CW. apply good_transmit.
            rewrite <- (SF (wr_flush_point w - n) wt) by (subst wt; wsimpl; lia).
            apply good_take; auto; lia. }
    clearbody w3. destruct (wo_error o); [|exact D].
    destruct (fine_error true d w3 D) as [A _]. split; [exact A|]. left.
    change (disturbed (emit react d EError w3)). apply emit_disturbed; [auto|]. apply (disturb k true); auto.
  - unfold flush_callback. destruct (wr_flush_watch w) eqn:F; cbn [negb]; [|exact H].
    assert (C : fine k true (channel_flush o w)) by (apply fine_channel_flush, H).
    destruct o; [|exact C|].
    + assert (X : fine k false (emit react d EFlushed (channel_flush Done w))).
      { apply fine_emit. destruct C as [A G]. split; [exact A|]. destruct G as [D|G]; [left|right].
        - apply (disturbed_grows (channel_flush Done w)); [eapply grows_log; reflexivity|exact D].
        - apply good_report; [exact G| |apply taken_done]. cbn [channel_flush]. rewrite flush_watch_transmit. exact F. }
      destruct X as [A G]. split; [exact A|]. destruct G as [D|G]; [left; exact D|right; apply good_used, G].
    + destruct (fine_error true d _ C) as [A _]. split; [exact A|]. left.
      change (disturbed (emit react d EError (channel_flush (Failed sent) w))). apply emit_disturbed; [auto|]. apply (disturb k true); auto.
  - pose proof (whole_step react d Broken w (proj1 H)) as A. cbn [writer_step] in A. split; [exact A|]. clear A.
    unfold error_callback. destruct (wr_error_watch w); cbn [negb]; [|exact (proj2 H)]. left.
    apply emit_disturbed; [auto|].
    apply (disturbed_grows (emit react d EError w)); [eapply grows_log; reflexivity|].
    apply emit_disturbed; [auto|]. apply (disturb k true); auto.
Qed.

End Run.

Lemma fine_run react d ops : fine false true (writer_run react d ops).
Proof.
  unfold writer_run. assert (H : fine false true writer_new) by (split; [reflexivity|right; apply good_new]).
  revert H. generalize writer_new. induction ops as [|o ops IH]; intros w H; [exact H|]. cbn [fold_left].
  apply IH, fine_step; [discriminate| |exact H]. discriminate.
Qed.

Lemma fine_agent react d ops : (forall t, agent_calls (react t)) -> agent_ops ops -> fine true true (writer_run react d ops).
Proof.
  intros R O. unfold writer_run. assert (H : fine true true writer_new) by (split; [reflexivity|right; apply good_new]).
  revert H. generalize writer_new. induction O as [|p l N O IH|o l C O IH]; intros w H; [exact H| |]; cbn [fold_left].
  - cbn [writer_step writer_call]. apply IH, fine_packet; assumption.
  - apply IH, fine_step; [intros _; exact R| |exact H]. intros c E _. exact (C c E).
Qed.

(** ** Progress *)
Lemma flush_reports react d w :
  wr_flush_watch w = true -> whole w -> wr_buffer w = [] ->
  exists later t, wr_trace (flush_callback react d Done w) = later ++ EFlushed :: t /\
    transmitted t = queued t /\ exists l, t = l ++ wr_trace w.
Proof.
  intros F A B. unfold flush_callback. rewrite F. cbn [negb].
  set (w1 := channel_flush Done w).
  pose proof (whole_channel_flush Done w A) as A1. fold w1 in A1.
  pose proof (taken_done w) as T1. fold w1 in T1.
  assert (B1 : wr_buffer w1 = []).
  { subst w1. cbn [channel_flush]. unfold transmit. destruct (firstn _ _); exact B. }
  pose proof (grows_channel_flush Done w) as [l L]. fold w1 in L. clearbody w1.
  destruct (grows_emit react d EFlushed w1) as [l2 L2]; [auto|]. wsimpl.
  exists l2, (wr_trace w1). split; [exact L2|]. split; [|exists l; exact L].
  unfold whole in A1. rewrite T1, B1, !app_nil_r in A1. exact A1.
Qed.

Lemma buffer_transmit n w : wr_buffer (transmit n w) = wr_buffer w.
Proof. unfold transmit. destruct (firstn n (wr_taken w)); reflexivity. Qed.

Lemma write_takes_all react d n w :
  good true true w -> length (wr_buffer w) <= n -> 0 < wr_flush_point w \/ wr_flush_watch w = true ->
  let w' := write_callback react d (mk_write_out n 0 false) w in
  wr_flush_watch w' = true /\ wr_buffer w' = [] /\ wr_trace w' = wr_trace w.
Proof.
  intros [g1 g2 g3 g4 g5 g6 g7 g8] N P. unfold write_callback.
  destruct (wr_write_watch w) eqn:W; cbn [negb].
  - specialize (g2 eq_refl). destruct (wr_buffer w) as [|x l] eqn:B.
    + destruct P as [P|P]; [cbn [length] in g3; lia|]. wsimpl. auto.
    + unfold channel_write. rewrite B. cbn [wo_taken wo_sent wo_error transmit firstn].
      replace (Nat.min n (length (x :: l))) with (length (x :: l)) by lia.
      rewrite firstn_all, skipn_all. unfold transmit. cbn [firstn].
      change (length (x :: l) =? 0) with false. cbv iota. wsimpl.
      destruct (Nat.ltb_spec 0 (wr_flush_point w)) as [Q|Q].
      * destruct (Nat.leb_spec (wr_flush_point w) (length (x :: l))) as [R|R]; [|lia].
        rewrite g2. unfold request_flush. wsimpl. auto.
      * destruct P as [P|P]; [lia|]. wsimpl. auto.
  - specialize (g1 eq_refl). rewrite g1 in *. destruct P as [P|P]; [cbn [length] in g3; lia|]. auto.
Qed.

Lemma agent_progress react d ops :
  (forall t, agent_calls (react t)) -> agent_ops ops ->
  let w := writer_run react d ops in
  undisturbed (wr_trace w) -> transmitted (wr_trace w) <> queued (wr_trace w) ->
  forall n, length (queued (wr_trace w)) <= n ->
  let w' := writer_run react d (ops ++ [CanWrite (mk_write_out n 0 false); CanFlush Done]) in
  exists later t, wr_trace w' = later ++ EFlushed :: t /\ transmitted t = queued t /\
    exists l, t = l ++ wr_trace w.
Proof.
  intros R O w U Q n N w'. subst w'. unfold writer_run. rewrite fold_left_app.
  fold (writer_run react d ops). fold w. cbn [fold_left writer_step].
  destruct (fine_agent react d ops R O) as [A [D|G]]; fold w in A; [fold w in D|fold w in G].
  { destruct (disturbed_undisturbed _ D U). }
  assert (P : 0 < wr_flush_point w \/ wr_flush_watch w = true).
  { destruct (g_lost _ _ _ G eq_refl) as [P|[_ P]]; auto.
    rewrite (g_all _ _ _ G eq_refl). unfold whole in A. rewrite <- A, app_length.
    destruct (wr_taken w ++ wr_buffer w) eqn:E; [|cbn [length]; lia].
    rewrite app_nil_r in A. congruence. }
  assert (B : length (wr_buffer w) <= n) by (pose proof (held_whole w A); lia).
  destruct (write_takes_all react d n w G B P) as (F & B' & T).
  pose proof (whole_step react d (CanWrite (mk_write_out n 0 false)) w A) as A'. cbn [writer_step] in A'.
  destruct (flush_reports react d _ F A' B') as (later & t & E1 & E2 & l & E3).
  exists later, t. split; [exact E1|]. split; [exact E2|]. exists l. rewrite E3, T. reflexivity.
Qed.
