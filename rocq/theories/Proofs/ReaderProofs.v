(** Proofs about the reader. *)
From Verif.Base Require Import Bytes.
From Verif.Model Require Import Reader.
From Verif.Spec Require Import ReaderSpec.
Local Open Scope nat_scope.
Local Opaque BUFFER_SIZE.

Ltac rsimpl := cbv zeta; cbn [rd_channel rd_watch rd_processing rd_shutdown rd_unread rd_trace rset_channel
  rset_watch rset_processing rset_shutdown rset_unread rlog finish] in *.

Definition piece (d : bytes) : Prop := d <> [] /\ length d <= BUFFER_SIZE.

(** [l]: where in its life the reader is. *)
Record sound (l : life) (r : reader) : Prop := mk_sound {
  s_bytes : concat (flows (rd_trace r)) ++ rd_unread r = arrived (rd_trace r);
  s_pieces : Forall piece (flows (rd_trace r));
  s_life : lives (rd_trace r) = Some l
}.

(** Between callbacks. *)
Definition calm (r : reader) : Prop :=
  rd_processing r = false /\ rd_shutdown r = false /\
  if rd_watch r then sound Reading r else sound Idle r.

(** In the read callback. *)
Definition busy (r : reader) : Prop :=
  rd_processing r = true /\ rd_watch r = true /\
  (sound Reading r \/ rd_shutdown r = true /\ sound Hurt r).

Section Run.
Variable stops : list revent -> bool.

Lemma shutdown_busy r : busy r -> busy (reader_shutdown r).
Proof.
  intros (P & W & S). unfold reader_shutdown. rewrite W. cbn [negb].
  destruct (rd_shutdown r) eqn:D; [split; [exact P|]; split; [exact W|]; rewrite D; exact S|]. rsimpl. rewrite P.
  destruct S as [[A B C]|[S _]]; [|discriminate S].
  split; [exact P|]. split; [exact W|]. left. split; rsimpl; cbn [flows arrived lives]; auto. rewrite C. reflexivity.
Qed.

Lemma read_busy o r :
  busy r -> sound Reading r -> let (r', keep) := read_from_channel stops o r in
  busy r' /\ (keep = true -> sound Reading r').
Proof.
  intros B S. unfold read_from_channel.
  set (n := Nat.min (ro_size o) BUFFER_SIZE). set (stream := firstn n (rd_unread r)).
  set (r1 := rset_unread _ r).
  assert (N : length stream <= BUFFER_SIZE) by (subst stream n; rewrite firstn_length; lia).
  assert (E : stream ++ rd_unread r1 = rd_unread r) by apply firstn_skipn.
  set (r2 := if ro_error o then remit stops RError (rset_shutdown true r1) else r1).
  (* r2: like r but with the stream taken away *)
  assert (H : rd_processing r2 = true /\ rd_watch r2 = true /\ rd_unread r2 = rd_unread r1 /\
    flows (rd_trace r2) = flows (rd_trace r) /\ arrived (rd_trace r2) = arrived (rd_trace r) /\
    (ro_error o = false /\ lives (rd_trace r2) = Some Reading \/
     rd_shutdown r2 = true /\ ro_error o = true /\ lives (rd_trace r2) = Some Hurt)).
  { destruct B as (P & W & _). destruct S as [A F L]. subst r2. destruct (ro_error o) eqn:Er.
    - unfold remit. assert (X : forall x, reader_shutdown (rlog x (rset_shutdown true r1)) = rlog x (rset_shutdown true r1)).
      { intros x. unfold reader_shutdown. rsimpl. destruct (negb _); reflexivity. }
      rewrite X. match goal with |- context [if ?b then ?x else ?x] => replace (if b then x else x) with x by (destruct b; reflexivity) end.
      rsimpl. cbn [flows arrived lives]. subst r1. rsimpl. rewrite L. auto 10.
    - subst r1. rsimpl. auto 10. }
  clearbody r2. destruct H as (P & W & U & F & A & L).
  destruct S as [SA SF SL].
  destruct stream as [|x l] eqn:St.
  - cbn [app] in E. split.
    + split; [exact P|]. split; [exact W|].
      destruct L as [[_ L]|(D & _ & L)]; [left|right; split; [exact D|]]; split; rewrite ?F, ?A, ?U, ?E; auto.
    + intros K. destruct L as [[Er L]|(_ & Er & _)]; [|rewrite Er in K; discriminate K].
      split; rewrite ?F, ?A, ?U, ?E; auto.
  - set (r3 := rlog (RFlow (x :: l)) r2).
    assert (S3 : forall k, lives (rd_trace r3) = Some k -> sound k r3).
    { intros k Lk. split; [| |exact Lk]; subst r3; rsimpl; cbn [flows arrived]; rewrite ?F, ?A, ?U.
      - rewrite concat_app. cbn [concat]. rewrite app_nil_r, <- app_assoc, E. exact SA.
      - apply Forall_app. split; [exact SF|]. constructor; [|constructor]. split; [discriminate|exact N]. }
    assert (B3 : busy r3).
    { split; [exact P|]. split; [exact W|]. destruct L as [[_ L]|(D & _ & L)]; [left|right; split; [exact D|]];
        apply S3; subst r3; rsimpl; cbn [lives]; rewrite L; reflexivity. }
    assert (K3 : ro_error o = false -> sound Reading r3).
    { intros Er. apply S3. destruct L as [[_ L]|(_ & Er' & _)]; [|congruence]. subst r3. rsimpl. cbn [lives]. rewrite L. reflexivity. }
    unfold remit. fold r3. destruct (stops (rd_trace r3)).
    + split; [apply shutdown_busy, B3|]. intros K. destruct (ro_error o); [discriminate K|].
      specialize (K3 eq_refl). destruct K3 as [X Y Z]. unfold reader_shutdown.
      destruct (rd_watch r3); cbn [negb]; [|split; assumption]. destruct (rd_shutdown r3); [split; assumption|].
      rsimpl. change (rd_processing r3) with (rd_processing r2). rewrite P.
      split; rsimpl; cbn [flows arrived lives]; auto. cbn [rd_trace r3 rlog] in Z |- *. rewrite Z. reflexivity.
    + split; [exact B3|]. intros K. apply K3. destruct (ro_error o); [discriminate K|reflexivity].
Qed.

Lemma loop_busy os : forall r, busy r -> sound Reading r ->
  let (r', keep) := read_loop stops os r in busy r' /\ (keep = true -> sound Reading r').
Proof.
  induction os as [|o os IH]; intros r B S; cbn [read_loop]; [split; auto|].
  pose proof (read_busy o r B S) as H. destruct (read_from_channel stops o r) as [r1 keep].
  destruct H as [B1 S1]. destruct (keep && ro_more o) eqn:K; [|split; [exact B1|exact S1]].
  apply IH; [exact B1|]. apply S1. apply andb_true_iff in K. apply K.
Qed.

Lemma finish_sound l r : sound l r -> l = Reading \/ l = Hurt -> sound Idle (finish r).
Proof.
  intros [A F L] H. split; rsimpl; cbn [flows arrived lives]; auto. rewrite L. destruct H as [-> | ->]; reflexivity.
Qed.

Lemma calm_step r o : calm r -> calm (reader_step stops r o).
Proof.
  intros (P & D & S). destruct o as [data| |os|hup err nval|]; cbn [reader_step].
  - split; [exact P|]. split; [exact D|].
    change (rd_watch (rset_unread (rd_unread r ++ data) (rlog (RArrived data) r))) with (rd_watch r).
    assert (X : forall l, sound l r -> sound l (rset_unread (rd_unread r ++ data) (rlog (RArrived data) r))).
    { intros l [A F L]. split; rsimpl; cbn [flows arrived lives]; auto.
      - rewrite <- A, app_assoc. reflexivity.
      - rewrite L. destruct l; reflexivity. }
    destruct (rd_watch r); apply X, S.
  - unfold reader_start. destruct (rd_channel r); [|split; [|split]; auto]. cbn [andb].
    destruct (rd_watch r) eqn:W; cbn [negb].
    + split; [exact P|]. split; [exact D|]. rewrite W. exact S.
    + split; [exact P|]. split; [exact D|]. rsimpl. destruct S as [A F L].
      split; rsimpl; cbn [flows arrived lives]; auto. rewrite L. reflexivity.
  - unfold read_callback. destruct (rd_watch r) eqn:W; cbn [negb].
    2: { split; [exact P|]. split; [exact D|]. rewrite W. exact S. }
    change (rd_shutdown (rset_processing true r)) with (rd_shutdown r). rewrite D. cbn [negb].
    assert (B : busy (rset_processing true r)).
    { split; [reflexivity|]. split; [exact W|]. left. destruct S. split; auto. }
    assert (S0 : sound Reading (rset_processing true r)) by (destruct S; split; auto).
    pose proof (loop_busy os _ B S0) as H. destruct (read_loop stops os (rset_processing true r)) as [r1 keep].
    destruct H as [(P1 & W1 & B1) S1].
    destruct (rd_shutdown r1) eqn:D1; cbn [negb].
    + split; [reflexivity|]. split; [reflexivity|]. rsimpl.
      assert (Y : sound Idle (finish (rset_watch false r1))).
      { destruct B1 as [[A F L]|[_ [A F L]]]; [apply (finish_sound Reading)|apply (finish_sound Hurt)]; auto; split; auto. }
      destruct Y as [YA YF YL]. split; auto.
    + destruct keep; cbn [negb].
      * split; [reflexivity|]. split; [exact D1|]. rsimpl. rewrite W1. specialize (S1 eq_refl). destruct S1. split; auto.
      * split; [reflexivity|]. split; [reflexivity|]. rsimpl.
        destruct B1 as [S1'|[X _]]; [|discriminate X]. 
        assert (Y : sound Idle (finish (rset_watch false r1))).
        { apply (finish_sound Reading); auto. destruct S1'. split; auto. }
        destruct Y as [YA YF YL]. split; auto.
  - unfold condition_callback. destruct (rd_watch r) eqn:W; cbn [negb].
    2: { split; [exact P|]. split; [exact D|]. rewrite W. exact S. }
    rewrite D. cbn [negb andb].
    set (r1 := if hup then rset_shutdown true r else r).
    assert (H1 : rd_processing r1 = false /\ sound Reading r1).
    { subst r1. destruct hup; (split; [exact P|]); destruct S; split; auto. }
    clearbody r1. destruct H1 as [P1 S1].
    set (failed := err || _).
    set (r2 := if failed then _ else r1).
    assert (H2 : rd_processing r2 = false /\ (sound Reading r2 \/ sound Hurt r2)).
    { subst r2. destruct failed; [|auto]. unfold remit.
      assert (X : reader_shutdown (rlog RError (rset_shutdown true r1)) = rlog RError (rset_shutdown true r1)).
      { unfold reader_shutdown. rsimpl. destruct (negb _); reflexivity. }
      rewrite X. match goal with |- context [if ?b then ?x else ?x] => replace (if b then x else x) with x by (destruct b; reflexivity) end.
      split; [exact P1|]. right. destruct S1 as [A F L]. split; rsimpl; cbn [flows arrived lives]; auto. rewrite L. reflexivity. }
    clearbody r2. destruct H2 as [P2 S2].
    split; [exact P2|]. split; [reflexivity|]. rsimpl.
    destruct S2 as [[A F L]|[A F L]]; [apply (finish_sound Reading)|apply (finish_sound Hurt)]; auto; split; auto.
  - unfold reader_shutdown. destruct (rd_watch r) eqn:W; cbn [negb].
    2: { split; [exact P|]. split; [exact D|]. rewrite W. exact S. }
    rewrite D. rsimpl. rewrite P. split; [exact P|]. split; [reflexivity|]. rsimpl.
    destruct S as [A F L]. apply (finish_sound Reading); auto. split; rsimpl; cbn [flows arrived lives]; auto. rewrite L. reflexivity.
Qed.

Lemma calm_run ops : calm (reader_run stops ops).
Proof.
  unfold reader_run. assert (H : calm reader_new) by (repeat split; constructor).
  revert H. generalize reader_new. induction ops as [|o ops IH]; intros r H; [exact H|]. cbn [fold_left].
  apply IH, calm_step, H.
Qed.

(** A running reader that is not told to stop hands over all the channel gives. *)
Lemma loop_reads k : forall r,
  (forall t, stops t = false) -> rd_shutdown r = false -> rd_watch r = true -> length (rd_unread r) <= k * BUFFER_SIZE ->
  let (r', keep) := read_loop stops (repeat (mk_read_out BUFFER_SIZE false false true) k) r in
  rd_unread r' = [] /\ keep = true /\ rd_shutdown r' = false /\ rd_watch r' = true /\ arrived (rd_trace r') = arrived (rd_trace r).
Proof.
  induction k as [|k IH]; intros r N D W L; cbn [repeat read_loop].
  - split; [|auto]. destruct (rd_unread r); [reflexivity|cbn [length] in L; lia].
  - unfold read_from_channel. cbn [ro_size ro_error ro_eof ro_more]. rewrite Nat.min_id. cbn [negb andb].
    set (r1 := rset_unread (skipn BUFFER_SIZE (rd_unread r)) r).
    set (r2 := match firstn BUFFER_SIZE (rd_unread r) with [] => r1 | _ => _ end).
    assert (H : rd_unread r2 = skipn BUFFER_SIZE (rd_unread r) /\ rd_shutdown r2 = false /\ rd_watch r2 = true /\
                arrived (rd_trace r2) = arrived (rd_trace r)).
    { subst r2. destruct (firstn BUFFER_SIZE (rd_unread r)); [auto|]. unfold remit. rewrite N. auto. }
    clearbody r2. destruct H as (U & D2 & W2 & A2).
    specialize (IH r2 N D2 W2). rewrite U, skipn_length in IH.
    specialize (IH ltac:(cbn [Nat.mul] in L; lia)). destruct (read_loop stops _ r2) as [r3 keep]. rewrite <- A2. exact IH.
Qed.

Lemma callback_reads k r :
  calm r -> (forall t, stops t = false) -> rd_watch r = true -> length (rd_unread r) <= k * BUFFER_SIZE ->
  let r' := reader_step stops r (CanRead (repeat (mk_read_out BUFFER_SIZE false false true) k)) in
  concat (flows (rd_trace r')) = arrived (rd_trace r) /\ arrived (rd_trace r') = arrived (rd_trace r) /\ rd_watch r' = true.
Proof.
  intros C N W L. pose proof (calm_step r (CanRead (repeat (mk_read_out BUFFER_SIZE false false true) k)) C) as C'.
  cbn [reader_step] in *. unfold read_callback in *. rewrite W in *. cbn [negb] in *.
  destruct C as (P & D & S).
  change (rd_shutdown (rset_processing true r)) with (rd_shutdown r) in *. rewrite D in *. cbn [negb] in *.
  pose proof (loop_reads k (rset_processing true r) N D W L) as H.
  destruct (read_loop stops _ (rset_processing true r)) as [r1 keep]. destruct H as (U & -> & D1 & W1 & A).
  rewrite D1 in *. cbn [negb] in *. destruct C' as (_ & _ & C').
  change (rd_watch (rset_processing false r1)) with (rd_watch r1) in *. rewrite W1 in *. split; [|split; [exact A|reflexivity]].
  destruct C' as [E _ _]. cbn [rset_processing rd_unread rd_trace] in *.
  rewrite U, app_nil_r in E. rewrite E. exact A.
Qed.

End Run.
