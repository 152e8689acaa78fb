(** The message content going through the filters one after the other. *)
From Coq Require Import ZifyBool ZifyNat ZifyN Permutation.
From Verif.Base Require Import Bytes BytesFacts.
From Verif.Model Require Import Decoder Encoder CommandCodec ReplyCodec Status Option Headers Macros
                                Client Server Children.
From Verif.Spec Require Import HeaderSpec ManagerSpec MessageSpec CourseSpec.
From Verif.Proofs Require Import HeaderProofs HeaderReport ChildrenLemmas.
Local Open Scope N_scope.
Notation In := List.In.

Definition body_reply (x : sstate) : list N := match x with XBody => [1] | _ => [] end.
Definition given (x : sstate) (k : child) : Prop :=
  k_next k = [x] /\ k_replies k = body_reply x.
Definition reading (x : sstate) (k : child) : Prop :=
  k_next k = [] /\ k_state k = x /\ k_replies k = body_reply x.

(** From [w] to [w'] the events [es] happened and only the filters [js] changed. *)
Record moved (es : list event) (js : list nat) (w w' : world) : Prop := {
  moved_crashed : w_crashed w' = false;
  moved_trace : w_trace w' = rev es ++ w_trace w;
  moved_nego : w_nego w' = w_nego w;
  moved_length : length (w_children w') = length (w_children w);
  moved_other : forall i, ~ In i js -> child_of w' i = child_of w i
}.
Lemma moved_refl js w : w_crashed w = false -> moved [] js w w.
Proof. intros H. constructor; auto. Qed.
Lemma moved_trans es1 es2 js w1 w2 w3 : moved es1 js w1 w2 -> moved es2 js w2 w3 ->
  moved (es1 ++ es2) js w1 w3.
Proof.
  intros [C1 T1 N1 L1 O1] [C2 T2 N2 L2 O2]. constructor; try congruence.
  - rewrite T2, T1, rev_app_distr, app_assoc. reflexivity.
  - intros i H. rewrite O2, O1; auto.
Qed.
Lemma moved_more es js js' w w' : (forall i, In i js -> In i js') -> moved es js w w' ->
  moved es js' w w'.
Proof. intros H [C T N' L O]. constructor; auto. Qed.
Lemma moved_log js w e : w_crashed w = false -> moved [e] js w (log w e).
Proof.
  intros H. constructor.
  - now rewrite crashed_log.
  - rewrite trace_log by exact H. reflexivity.
  - apply nego_log.
  - now rewrite children_log.
  - intros i _. apply child_log.
Qed.
Lemma moved_child j w g : w_crashed w = false -> moved [] [j] w (on_child w j g).
Proof.
  intros H. constructor; auto.
  - apply length_child.
  - intros i Hi. apply child_other. intros ->. apply Hi. now left.
Qed.
Lemma moved_flow js es w w' g : moved es js w w' -> moved es js w (on_flow w' g).
Proof. intros [C T N' L O]. constructor; auto. Qed.
Lemma moved_mail js es w w' g : moved es js w w' -> moved es js w (on_mail w' g).
Proof. intros [C T N' L O]. constructor; auto. Qed.
Lemma moved_child' js es w w' j g : moved es js w w' -> In j js -> moved es js w (on_child w' j g).
Proof.
  intros [C T N' L O] H. constructor; auto.
  - rewrite length_child. exact L.
  - intros i Hi. rewrite child_other; auto. intros ->. auto.
Qed.
Lemma moved_has es js w w' i : moved es js w w' -> has w i -> has w' i.
Proof. intros M. unfold has. now rewrite (moved_length _ _ _ _ M). Qed.

Lemma skipn_twice {A} (l : list A) n m : skipn n (skipn m l) = skipn (m + n) l.
Proof.
  revert l. induction m as [|m IH]; intros l; [reflexivity|].
  destruct l as [|x l]; [destruct n; reflexivity|]. cbn. apply IH.
Qed.

Lemma chunked_cons size b c cs : 0 < size -> chunked size b (c :: cs) ->
  b <> [] /\ firstn (N.to_nat size) b = c /\ chunked size (skipn (N.to_nat size) b) cs.
Proof.
  intros Hs H. inversion H as [|b0 Hb Hl|a b0 cs0 Hl Hb Hc]; subst.
  - split; [exact Hb|]. split; [apply firstn_all2; lia|]. rewrite skipn_all2 by lia. constructor.
  - split; [destruct c; [cbn in Hs; lia|discriminate]|].
    rewrite Nat2N.id, firstn_app_exact, skipn_app_exact. auto.
Qed.
Lemma chunked_nil size b : chunked size b [] -> b = [].
Proof. intros H. inversion H. reflexivity. Qed.

Scheme ends_mut := Minimality for ends Sort Prop with rest_mut := Minimality for rest Sort Prop.
Combined Scheme ends_rest_ind from ends_mut, rest_mut.

Section Message.
  Variable writes : list event -> write_outcome.
  Variable stops : list event -> bool.
  Variable chunk_size : N.
  Variable collate_equal : bytes -> bytes -> bool.
  Hypothesis Hwrites : forall t, writes t = Taken.
  Hypothesis Hstops : forall t, stops t = false.
  Hypothesis Hsize : 0 < chunk_size <= 65535.
  Notation Emit := (emit writes stops chunk_size collate_equal).
  Notation Resume := (resume writes stops chunk_size collate_equal).
  Notation Step d := (children_step writes stops chunk_size collate_equal d).
  Notation Run d := (children_run writes stops chunk_size collate_equal d).

  (** *** Giving a filter a command *)
  Definition content_command (c : command) : option sstate :=
    match c with
    | CHeader _ _ => Some XHeader
    | CEndOfHeader => Some XEndOfHeader
    | CBody b => if N.of_nat (length b) <=? 65535 then Some XBody else None
    | CEndOfMessage _ => Some XEndOfMessage
    | _ => None
    end.

  Lemma write_taken E w j c x : w_crashed w = false -> k_timer (child_of w j) = None ->
    k_write writes E w j c x =
    (true, on_child (log (if urgent x then w else on_child w j (fun k => put_k_timer k (Some TWriting)))
                         (OSent j c)) j (fun k => put_k_next k (k_next k ++ [x]))).
  Proof.
    intros C T. unfold k_write, k_is_processing. rewrite T, andb_false_r, Hwrites. reflexivity.
  Qed.

  Lemma call_sends E w j c x o ev : w_crashed w = false -> has w j -> takes_all o ->
    fits o ev (child_of w j) -> free (child_of w j) -> content_command c = Some x ->
    exists w', k_call writes stops E w j c = (true, w') /\ moved [OSent j c] [j] w w' /\
      w_flow w' = w_flow w /\ w_mail w' = w_mail w /\
      k_state (child_of w' j) = k_state (child_of w j) /\
      fits o ev (child_of w' j) /\ given x (child_of w' j).
  Proof.
    intros C Hj Ho F (N1 & T & R) X.
    set (w1 := on_child w j k_ensure_message).
    assert (H1 : has w1 j) by (apply has_child; exact Hj).
    assert (K1 : child_of w1 j = k_ensure_message (child_of w j)) by (apply child_same; exact Hj).
    assert (F1 : fits o ev (child_of w1 j)).
    { rewrite K1. unfold k_ensure_message. destruct (k_message (child_of w j)); [exact F|].
      destruct F. constructor; assumption. }
    assert (T1 : k_timer (child_of w1 j) = None)
      by (rewrite K1; unfold k_ensure_message; destruct (k_message (child_of w j)); exact T).
    assert (N2 : k_next (child_of w1 j) = [])
      by (rewrite K1; unfold k_ensure_message; destruct (k_message (child_of w j)); exact N1).
    assert (R1 : k_replies (child_of w1 j) = [])
      by (rewrite K1; unfold k_ensure_message; destruct (k_message (child_of w j)); exact R).
    assert (S1 : k_state (child_of w1 j) = k_state (child_of w j))
      by (rewrite K1; unfold k_ensure_message; destruct (k_message (child_of w j)); reflexivity).
    assert (M1 : moved [] [j] w w1) by (apply moved_child; exact C).
    assert (C1 : w_crashed w1 = false) by exact C.
    assert (Plain : forall y, urgent y = false -> y <> XBody -> exists w',
              k_write writes E w1 j c y = (true, w') /\ moved [OSent j c] [j] w w' /\
              w_flow w' = w_flow w /\ w_mail w' = w_mail w /\
              k_state (child_of w' j) = k_state (child_of w j) /\
              fits o ev (child_of w' j) /\ given y (child_of w' j)).
    { intros y Hy Hb. rewrite write_taken, Hy by assumption. eexists. split; [reflexivity|].
      set (w2 := on_child w1 j (fun k => put_k_timer k (Some TWriting))).
      assert (C2 : w_crashed w2 = false) by exact C.
      assert (K2 : child_of w2 j = put_k_timer (child_of w1 j) (Some TWriting)) by (apply child_same; exact H1).
      split.
      { apply moved_child'; [|now left]. apply (moved_trans [] [OSent j c] [j] w w2).
        - apply moved_child'; [exact M1|now left].
        - apply moved_log. exact C2. }
      split; [rewrite flow_child, flow_log; reflexivity|].
      split; [rewrite mail_child, mail_log; reflexivity|].
      rewrite child_same by (apply has_log, has_child; exact H1). rewrite child_log, K2.
      split; [exact S1|].
      split; [destruct F1; constructor; assumption|].
      split; cbn [put_k_next put_k_timer k_next k_replies].
      - rewrite N2. reflexivity.
      - rewrite R1. destruct y; try reflexivity. congruence. }
    assert (Off : forall s, N.land (o_step o) s = 0 -> k_is_enable_step (child_of w j) s = false).
    { intros s Hs. unfold k_is_enable_step. rewrite (fits_option _ _ _ F), Hs. reflexivity. }
    destruct c; try discriminate X; cbn [content_command] in X; unfold k_call.
    - injection X as <-. unfold k_command. fold w1. rewrite Hstops, (Off _ (takes_headers _ Ho)).
      apply Plain; [reflexivity|discriminate].
    - injection X as <-. unfold k_command. fold w1. rewrite Hstops, (Off _ (takes_end_of_header _ Ho)).
      apply Plain; [reflexivity|discriminate].
    - destruct (N.leb_spec (N.of_nat (length chunk)) 65535) as [Hl|]; [|discriminate X].
      injection X as <-. fold w1. cbv zeta. rewrite Hstops, (Off _ (takes_body _ Ho)).
      set (w2 := on_child w1 j (fun k => put_k_body k (k_body k ++ chunk))).
      assert (K2 : child_of w2 j = put_k_body (child_of w1 j) chunk).
      { unfold w2. rewrite child_same by exact H1. rewrite (fits_body _ _ _ F1). reflexivity. }
      unfold k_flush_body.
      set (w3 := on_child w2 j (fun k => put_k_replies k (k_replies k ++ [0]))).
      assert (H3 : has w3 j) by (apply has_child, has_child; exact H1).
      assert (K3 : child_of w3 j = put_k_replies (put_k_body (child_of w1 j) chunk) [0]).
      { unfold w3. rewrite child_same by (apply has_child; exact H1). rewrite K2.
        cbn [put_k_body k_replies]. rewrite R1. reflexivity. }
      assert (P : packed_chunk (k_body (child_of w3 j)) = chunk).
      { rewrite K3. cbn [put_k_replies put_k_body k_body]. unfold packed_chunk.
        apply firstn_all2. unfold MILTER_CHUNK_SIZE. clear -Hl. lia. }
      rewrite P. rewrite write_taken; [|exact C|rewrite K3; exact T1].
      cbn [urgent].
      set (w4 := on_child w3 j (fun k => put_k_timer k (Some TWriting))).
      assert (K4 : child_of w4 j = put_k_timer (child_of w3 j) (Some TWriting)) by (apply child_same; exact H3).
      set (w5 := on_child (log w4 (OSent j (CBody chunk))) j (fun k => put_k_next k (k_next k ++ [XBody]))).
      assert (H5 : has w5 j) by (apply has_child, has_log, has_child; exact H3).
      assert (K5 : child_of w5 j = put_k_next (put_k_timer (child_of w3 j) (Some TWriting)) [XBody]).
      { unfold w5. rewrite child_same by (apply has_log, has_child; exact H3).
        rewrite child_log, K4, K3. cbn [put_k_timer put_k_replies put_k_body k_next]. rewrite N2. reflexivity. }
      eexists. split; [reflexivity|].
      split.
      { apply moved_child'; [|now left]. apply moved_child'; [|now left].
        apply (moved_trans [] [OSent j (CBody chunk)] [j] w w4).
        - repeat (apply moved_child'; [|now left]). apply moved_refl. exact C.
        - apply moved_log. exact C. }
      split; [rewrite flow_child; unfold w5; rewrite flow_child, flow_log; reflexivity|].
      split; [rewrite mail_child; unfold w5; rewrite mail_child, mail_log; reflexivity|].
      rewrite child_same by exact H5. rewrite K5, K3.
      cbn [put_k_replies put_k_body put_k_next put_k_timer k_body k_replies].
      split; [exact S1|].
      split.
      + destruct F1. constructor; try assumption.
        cbn [put_k_replies put_k_body k_body]. rewrite skipn_all. reflexivity.
      + split; reflexivity.
    - injection X as <-. unfold k_command. fold w1. rewrite Hstops.
      apply Plain; [reflexivity|discriminate].
  Qed.

  (** *** The filter reads it and goes on *)
  Definition content_stage (x : sstate) : bool :=
    match x with XHeader | XEndOfHeader | XBody | XEndOfMessage => true | _ => false end.

  Lemma flushed_reads d w j x o ev : w_crashed w = false -> has w j -> takes_all o ->
    fits o ev (child_of w j) -> given x (child_of w j) -> content_stage x = true ->
    exists w', Step d w (KFlushed j) = w' /\ moved [OIn (KFlushed j)] [j] w w' /\
      w_flow w' = w_flow w /\ w_mail w' = w_mail w /\
      fits o ev (child_of w' j) /\ reading x (child_of w' j).
  Proof.
    intros C Hj Ho F (N1 & R) X. eexists. split; [reflexivity|].
    unfold children_step. rewrite C. unfold k_flushed. rewrite child_log, N1. cbn [fold_left].
    set (w0 := log w (OIn (KFlushed j))).
    assert (M0 : moved [OIn (KFlushed j)] [j] w w0) by (apply moved_log; exact C).
    assert (H0 : has w0 j) by (apply has_log; exact Hj).
    assert (K0 : child_of w0 j = child_of w j) by apply child_log.
    set (w1 := on_child w0 j (fun k => put_k_next k [])).
    assert (H1 : has w1 j) by (apply has_child; exact H0).
    assert (K1 : child_of w1 j = put_k_next (child_of w j) [])
      by (unfold w1; rewrite child_same by exact H0; now rewrite K0).
    unfold k_next_state.
    set (w2 := on_child w1 j (fun k => put_k_timer k None)).
    assert (H2 : has w2 j) by (apply has_child; exact H1).
    assert (K2 : child_of w2 j = put_k_timer (put_k_next (child_of w j) []) None)
      by (unfold w2; rewrite child_same by exact H1; now rewrite K1).
    assert (Fin : forall t w3, moved [OIn (KFlushed j)] [j] w w3 -> w_flow w3 = w_flow w ->
              w_mail w3 = w_mail w ->
              child_of w3 j = put_k_timer (put_k_state (put_k_timer (put_k_next (child_of w j) []) None) x) t ->
              moved [OIn (KFlushed j)] [j] w w3 /\ w_flow w3 = w_flow w /\ w_mail w3 = w_mail w /\
              fits o ev (child_of w3 j) /\ reading x (child_of w3 j)).
    { intros t w3 M Fl Ma ->. split; [exact M|]. split; [exact Fl|]. split; [exact Ma|].
      split; [destruct F; constructor; assumption|].
      split; [reflexivity|]. split; [reflexivity|exact R]. }
    assert (M2 : forall g, moved [OIn (KFlushed j)] [j] w (on_child w2 j g)).
    { intros g. repeat (apply moved_child'; [|now left]). exact M0. }
    assert (F2 : w_flow w2 = w_flow w) by (apply flow_log).
    assert (G2 : w_mail w2 = w_mail w) by (apply mail_log).
    destruct x; try discriminate X; cbn match.
    - set (w3 := on_child w2 j (fun k => put_k_state k XHeader)).
      assert (K3 : child_of w3 j = put_k_state (put_k_timer (put_k_next (child_of w j) []) None) XHeader)
        by (unfold w3; rewrite child_same by exact H2; now rewrite K2).
      unfold k_need_reply. rewrite K3. cbn [put_k_state put_k_timer put_k_next k_option no_reply_step].
      rewrite (fits_option _ _ _ F), (answers_header _ Ho). cbn [N.eqb].
      apply (Fin (Some TReading)); auto.
      + apply moved_child'; [apply M2|now left].
      + rewrite child_same by (apply has_child; exact H2). now rewrite K3.
    - set (w3 := on_child w2 j (fun k => put_k_state k XEndOfHeader)).
      assert (K3 : child_of w3 j = put_k_state (put_k_timer (put_k_next (child_of w j) []) None) XEndOfHeader)
        by (unfold w3; rewrite child_same by exact H2; now rewrite K2).
      unfold k_need_reply. rewrite K3. cbn [put_k_state put_k_timer put_k_next k_option no_reply_step].
      rewrite (fits_option _ _ _ F), (answers_end_of_header _ Ho). cbn [N.eqb].
      apply (Fin (Some TReading)); auto.
      + apply moved_child'; [apply M2|now left].
      + rewrite child_same by (apply has_child; exact H2). now rewrite K3.
    - set (w3 := on_child w2 j (fun k => put_k_state k XBody)).
      assert (K3 : child_of w3 j = put_k_state (put_k_timer (put_k_next (child_of w j) []) None) XBody)
        by (unfold w3; rewrite child_same by exact H2; now rewrite K2).
      rewrite K3. cbn [put_k_state put_k_timer put_k_next k_body].
      rewrite (fits_body _ _ _ F).
      apply (Fin None); auto. apply M2.
    - apply (Fin (Some TEndOfMessageReply)); auto.
      rewrite child_same by exact H2. now rewrite K2.
  Qed.

  Lemma continue_reaches d w j x o ev : w_crashed w = false -> has w j ->
    fits o ev (child_of w j) -> reading x (child_of w j) ->
    content_stage x = true -> x <> XEndOfMessage ->
    exists w1, moved [OIn (KReply j RContinue)] [j] w w1 /\
      w_flow w1 = w_flow w /\ w_mail w1 = w_mail w /\
      fits o ev (child_of w1 j) /\ free (child_of w1 j) /\ k_state (child_of w1 j) = x /\
      (k_body (child_of (cb_continue writes stops chunk_size (Emit d) (Resume d) w1 j) j) = [] ->
       k_state (child_of (cb_continue writes stops chunk_size (Emit d) (Resume d) w1 j) j) = x ->
       Step (S d) w (KReply j RContinue) =
       cb_continue writes stops chunk_size (Emit d) (Resume d) w1 j).
  Proof.
    intros C Hj F (N1 & S1 & R) X Hx.
    set (w0 := log w (OIn (KReply j RContinue))).
    assert (M0 : moved [OIn (KReply j RContinue)] [j] w w0) by (apply moved_log; exact C).
    assert (C0 : w_crashed w0 = false) by apply M0.
    assert (H0 : has w0 j) by (apply has_log; exact Hj).
    assert (K0 : child_of w0 j = child_of w j) by apply child_log.
    set (wt := on_child w0 j (fun k => put_k_timer k None)).
    assert (Ht : has wt j) by (apply has_child; exact H0).
    assert (Kt : child_of wt j = put_k_timer (child_of w j) None)
      by (unfold wt; rewrite child_same by exact H0; now rewrite K0).
    set (w1 := match x with XBody => on_child wt j (fun k => put_k_replies k []) | _ => wt end).
    assert (K1 : child_of w1 j = put_k_replies (put_k_timer (child_of w j) None) []).
    { assert (E : x <> XBody -> child_of wt j = put_k_replies (put_k_timer (child_of w j) None) []).
      { intros Hb. rewrite Kt. cbn [put_k_timer put_k_replies]. unfold put_k_replies, put_k_timer. cbn.
        replace (k_replies (child_of w j)) with (@nil N); [reflexivity|].
        rewrite R. destruct x; try reflexivity. congruence. }
      unfold w1. destruct x; try (apply E; discriminate).
      rewrite child_same by exact Ht. now rewrite Kt. }
    exists w1.
    split.
    { assert (Mt : moved [OIn (KReply j RContinue)] [j] w wt) by (apply moved_child'; [exact M0|now left]).
      unfold w1. destruct x; try exact Mt. apply moved_child'; [exact Mt|now left]. }
    split; [unfold w1; destruct x; apply flow_log|].
    split; [unfold w1; destruct x; apply mail_log|].
    rewrite K1. split; [destruct F; constructor; assumption|].
    split; [split; [exact N1|split; reflexivity]|].
    split; [exact S1|].
    intros Hb Hs. unfold children_step. rewrite C. fold w0. cbn [k_receive]. unfold k_receive. fold wt.
    rewrite Kt. cbn [put_k_timer k_state k_quitted k_replies].
    assert (Q : k_quitted (child_of w j) = false) by apply F.
    assert (E : forall v, v = w1 -> Emit (S d) v j (GReply RContinue) =
                cb_continue writes stops chunk_size (Emit d) (Resume d) w1 j).
    { intros v ->. cbn [emit]. unfold handle.
      replace (w_crashed w1) with false by (unfold w1; destruct x; symmetry; exact C0).
      rewrite K1. cbn [put_k_replies put_k_timer k_connected]. rewrite (fits_connected _ _ _ F). reflexivity. }
    rewrite S1, Q, R.
    destruct x; try discriminate X; try congruence; cbn [answerable body_reply].
    - rewrite (E wt) by reflexivity. rewrite Hs. reflexivity.
    - rewrite (E wt) by reflexivity. rewrite Hs. reflexivity.
    - replace (1 =? 1) with true by reflexivity. rewrite E by reflexivity. rewrite Hb. reflexivity.
  Qed.

  Lemma run_app d w a b : Run d w (a ++ b) = Run d (Run d w a) b.
  Proof. apply fold_left_app. Qed.

  Definition two_in (j : nat) : list event := [OIn (KFlushed j); OIn (KReply j RContinue)].

  Lemma goes_on_reaches d w j x o ev : w_crashed w = false -> has w j -> takes_all o ->
    fits o ev (child_of w j) -> given x (child_of w j) ->
    content_stage x = true -> x <> XEndOfMessage ->
    exists w1, moved (two_in j) [j] w w1 /\
      w_flow w1 = w_flow w /\ w_mail w1 = w_mail w /\
      fits o ev (child_of w1 j) /\ free (child_of w1 j) /\ k_state (child_of w1 j) = x /\
      (forall w2, cb_continue writes stops chunk_size (Emit d) (Resume d) w1 j = w2 ->
       k_body (child_of w2 j) = [] -> k_state (child_of w2 j) = x ->
       Run (S d) w (goes_on_with j) = w2).
  Proof.
    intros C Hj Ho F G X Hx.
    destruct (flushed_reads (S d) w j x o ev C Hj Ho F G X) as (w' & E & M & Fl & Ma & F' & R).
    destruct (continue_reaches d w' j x o ev (moved_crashed _ _ _ _ M) (moved_has _ _ _ _ _ M Hj) F' R X Hx)
      as (w1 & M1 & Fl1 & Ma1 & F1 & Fr & S1 & K).
    exists w1. split; [exact (moved_trans _ _ _ _ _ _ M M1)|].
    split; [congruence|]. split; [congruence|]. split; [exact F1|]. split; [exact Fr|].
    split; [exact S1|]. intros w2 <- Hb Hs. cbn [children_run goes_on_with fold_left]. rewrite E.
    exact (K Hb Hs).
  Qed.

  (** *** What is kept about the message while it goes round *)
  Variable code : option (N * bytes * option bytes).   (* the reply code kept from before *)
  Definition table := sstate -> option status.
  Record keeps (st : sstate) (cmds : list sstate) (wait : list nat) (t : table) (f : flow) : Prop := {
    keeps_state : f_state f = st;
    keeps_commands : f_commands f = cmds;
    keeps_waiting : f_waiting f = wait;
    keeps_emitted : f_emitted f = false;
    keeps_table : f_statuses f = t;
    keeps_code : f_code f = code
  }.
  (** A filter went on in the stage [x]. *)
  Definition went (t : table) (x : sstate) : table := status_put t x (compile_status (t x) S_CONTINUE).

  Variable no : moption.   (* the negotiated option *)
  Notation converts := (MessageSpec.converts no).
  Lemma conversion w j o ev : n_option (w_nego w) = Some no -> fits o ev (child_of w j) ->
    space_conversion w j = Some (converts o).
  Proof.
    intros H F. unfold space_conversion, k_is_enable_step, MessageSpec.converts.
    rewrite (fits_option _ _ _ F), H. destruct (_ =? 0); reflexivity.
  Qed.
  Lemma stripped_shown convert v : stripped convert v = shown convert v.
  Proof.
    destruct v as [[|c b]|]; cbn [stripped shown]; destruct convert; try reflexivity;
      cbn [andb]; destruct c as [[] [] [] [] [] [] [] []]; reflexivity.
  Qed.
  Lemma normalized_entered convert v : normalized convert v = entered convert v.
  Proof.
    destruct v as [[|c b]|]; cbn [normalized entered]; destruct convert; try reflexivity;
      destruct c as [[] [] [] [] [] [] [] []]; reflexivity.
  Qed.

  (** Filter [j] has been given the command of stage [x] of the message. *)
  Record serves (j : nat) (o : moption) (ev : bool) (x st : sstate) (cmds : list sstate)
    (wait : list nat) (t : table) (w : world) : Prop := {
    serves_crashed : w_crashed w = false;
    serves_has : has w j;
    serves_nego : n_option (w_nego w) = Some no;
    serves_takes : takes_all o;
    serves_fits : fits o ev (child_of w j);
    serves_given : given x (child_of w j);
    serves_keeps : keeps st cmds wait t (w_flow w)
  }.
  (** It is free and can be given one. *)
  Record open (j : nat) (o : moption) (ev : bool) (st : sstate) (cmds : list sstate)
    (wait : list nat) (t : table) (w : world) : Prop := {
    open_crashed : w_crashed w = false;
    open_has : has w j;
    open_nego : n_option (w_nego w) = Some no;
    open_takes : takes_all o;
    open_fits : fits o ev (child_of w j);
    open_free : free (child_of w j);
    open_keeps : keeps st cmds wait t (w_flow w)
  }.

  Lemma keeps_on st cmds wait t w g : keeps st cmds wait t (w_flow w) ->
    f_state (g (w_flow w)) = f_state (w_flow w) -> f_commands (g (w_flow w)) = f_commands (w_flow w) ->
    f_waiting (g (w_flow w)) = f_waiting (w_flow w) -> f_emitted (g (w_flow w)) = f_emitted (w_flow w) ->
    f_statuses (g (w_flow w)) = f_statuses (w_flow w) -> f_code (g (w_flow w)) = f_code (w_flow w) ->
    keeps st cmds wait t (w_flow (on_flow w g)).
  Proof. intros [] ? ? ? ? ? ?. constructor; cbn [on_flow put_w_flow w_flow]; congruence. Qed.

  Lemma compile_keeps st cmds wait t w x : keeps st cmds wait t (w_flow w) ->
    keeps st cmds wait (went t x) (w_flow (compile_reply w x S_CONTINUE)).
  Proof.
    intros []. constructor; cbn [compile_reply on_flow put_w_flow w_flow put_f_statuses f_state f_commands f_waiting f_emitted f_statuses f_code];
      try assumption. unfold went. congruence.
  Qed.

  Lemma need_reply_content o ev k x : takes_all o -> fits o ev k -> content_stage x = true ->
    k_need_reply k x = Some true.
  Proof.
    intros Ho F X. unfold k_need_reply. rewrite (fits_option _ _ _ F).
    destruct x; try discriminate X; cbn [no_reply_step].
    - rewrite (answers_header _ Ho). reflexivity.
    - rewrite (answers_end_of_header _ Ho). reflexivity.
    - rewrite (answers_body _ Ho). reflexivity.
    - rewrite N.land_0_r. reflexivity.
  Qed.

  (** The next header. *)
  Lemma header_sends E w j o ev st cmds wait t hs n h : open j o ev st cmds wait t w ->
    m_headers (w_mail w) = Some hs -> f_index (w_flow w) = N.of_nat n -> nth_error hs n = Some h ->
    exists w', send_next_header writes stops E w j = (S_PROGRESS, w') /\
      moved [OSent j (CHeader (h_name h) (shown (converts o) (h_value h)))] [j] w w' /\
      serves j o ev XHeader st cmds wait t w' /\ w_mail w' = w_mail w /\
      k_state (child_of w' j) = k_state (child_of w j) /\ f_index (w_flow w') = N.of_nat (S n).
  Proof.
    intros O Hh Hi Hn. unfold send_next_header.
    set (w1 := on_flow w (fun f => put_f_index (put_f_processing f XHeader) (f_index f + 1))).
    assert (M1 : moved [] [j] w w1) by (apply moved_flow, moved_refl, O).
    assert (K1 : keeps st cmds wait t (w_flow w1)) by (apply keeps_on; try reflexivity; apply O).
    cbv zeta. fold w1. change (m_headers (w_mail w1)) with (m_headers (w_mail w)). rewrite Hh.
    assert (I1 : f_index (w_flow w1) = N.of_nat (S n)) by (cbn; rewrite Hi; lia).
    rewrite I1. unfold headers_get_nth.
    replace (N.of_nat (S n) <? 1) with false by lia.
    replace (N.to_nat (N.of_nat (S n) - 1)) with n by lia. rewrite Hn.
    rewrite (conversion w1 j o ev (open_nego _ _ _ _ _ _ _ _ O) (open_fits _ _ _ _ _ _ _ _ O)).
    rewrite stripped_shown.
    destruct (call_sends E w1 j (CHeader (h_name h) (shown (converts o) (h_value h))) XHeader o ev)
      as (w2 & -> & M2 & Fl & Ma & S2 & F2 & G2); try apply O; try reflexivity.
    eexists. split; [reflexivity|].
    assert (U : unless_reply E w2 j (f_processing (w_flow w2)) = w2).
    { unfold unless_reply. rewrite Fl. change (f_processing (w_flow w1)) with XHeader.
      rewrite (need_reply_content o ev _ _ (open_takes _ _ _ _ _ _ _ _ O) F2) by reflexivity. reflexivity. }
    rewrite U. assert (M : moved [OSent j (CHeader (h_name h) (shown (converts o) (h_value h)))] [j] w w2)
      by exact (moved_trans [] _ _ _ _ _ M1 M2).
    split; [exact M|]. split.
    - constructor; try assumption.
      + apply M.
      + exact (moved_has _ _ _ _ _ M (open_has _ _ _ _ _ _ _ _ O)).
      + rewrite (moved_nego _ _ _ _ M). apply O.
      + apply O.
      + rewrite Fl. exact K1.
    - split; [exact Ma|]. split; [exact S2|]. rewrite Fl. exact I1.
  Qed.

  Lemma end_of_header_sends E w j o ev st cmds wait t : open j o ev st cmds wait t w ->
    exists w', send_command writes stops chunk_size E w j XEndOfHeader = (S_PROGRESS, w') /\
      moved [OSent j CEndOfHeader] [j] w w' /\
      serves j o ev XEndOfHeader st cmds wait t w' /\ w_mail w' = w_mail w /\
      k_state (child_of w' j) = k_state (child_of w j) /\ f_index (w_flow w') = f_index (w_flow w).
  Proof.
    intros O. cbn [send_command].
    set (w1 := on_flow w (fun f => put_f_processing f XEndOfHeader)).
    assert (M1 : moved [] [j] w w1) by (apply moved_flow, moved_refl, O).
    assert (K1 : keeps st cmds wait t (w_flow w1)) by (apply keeps_on; try reflexivity; apply O).
    destruct (call_sends E w1 j CEndOfHeader XEndOfHeader o ev)
      as (w2 & -> & M2 & Fl & Ma & S2 & F2 & G2); try apply O; try reflexivity.
    eexists. split; [reflexivity|].
    assert (U : unless_reply E w2 j (f_processing (w_flow w2)) = w2).
    { unfold unless_reply. rewrite Fl. change (f_processing (w_flow w1)) with XEndOfHeader.
      rewrite (need_reply_content o ev _ _ (open_takes _ _ _ _ _ _ _ _ O) F2) by reflexivity. reflexivity. }
    rewrite U. assert (M : moved [OSent j CEndOfHeader] [j] w w2) by exact (moved_trans [] _ _ _ _ _ M1 M2).
    split; [exact M|]. split.
    - constructor; try assumption.
      + apply M.
      + exact (moved_has _ _ _ _ _ M (open_has _ _ _ _ _ _ _ _ O)).
      + rewrite (moved_nego _ _ _ _ M). apply O.
      + apply O.
      + rewrite Fl. exact K1.
    - split; [exact Ma|]. split; [exact S2|]. rewrite Fl. reflexivity.
  Qed.

  Lemma end_of_message_sends E w j o ev st cmds wait t : open j o ev st cmds wait t w ->
    m_chunk (w_mail w) = None ->
    exists w', send_command writes stops chunk_size E w j XEndOfMessage = (S_PROGRESS, w') /\
      moved [OSent j (CEndOfMessage None)] [j] w w' /\
      serves j o ev XEndOfMessage st cmds wait t w' /\ w_mail w' = w_mail w /\
      k_state (child_of w' j) = k_state (child_of w j) /\ f_index (w_flow w') = 0.
  Proof.
    intros O Hc. cbn [send_command].
    set (w1 := on_flow w (fun f => put_f_processing (put_f_index f 0) XEndOfMessage)).
    assert (M1 : moved [] [j] w w1) by (apply moved_flow, moved_refl, O).
    assert (K1 : keeps st cmds wait t (w_flow w1)) by (apply keeps_on; try reflexivity; apply O).
    cbv zeta. fold w1. change (m_chunk (w_mail w1)) with (m_chunk (w_mail w)). rewrite Hc.
    destruct (call_sends E w1 j (CEndOfMessage None) XEndOfMessage o ev)
      as (w2 & -> & M2 & Fl & Ma & S2 & F2 & G2); try apply O; try reflexivity.
    eexists. split; [reflexivity|].
    assert (M : moved [OSent j (CEndOfMessage None)] [j] w w2) by exact (moved_trans [] _ _ _ _ _ M1 M2).
    split; [exact M|]. split.
    - constructor; try assumption.
      + apply M.
      + exact (moved_has _ _ _ _ _ M (open_has _ _ _ _ _ _ _ _ O)).
      + rewrite (moved_nego _ _ _ _ M). apply O.
      + apply O.
      + rewrite Fl. exact K1.
    - split; [exact Ma|]. split; [exact S2|]. rewrite Fl. reflexivity.
  Qed.

  (** The body, wherever it is kept, and what of it is still to be sent. *)
  Definition whole_body (m : mail) : bytes :=
    match m_body m, m_file m with Some b, _ => b | None, Some (b, _) => b | None, None => [] end.
  Definition body_left (w : world) : bytes :=
    match m_body (w_mail w), m_file (w_mail w) with
    | Some b, _ => skipn (N.to_nat (f_offset (w_flow w))) b
    | None, Some (b, p) => skipn (N.to_nat p) b
    | None, None => []
    end.
  (** The mail is the same but for the position in the file. *)
  Record same_mail (m m' : mail) : Prop := {
    same_original : m_original m' = m_original m;
    same_headers : m_headers m' = m_headers m;
    same_body : m_body m' = m_body m;
    same_file : option_map fst (m_file m') = option_map fst (m_file m);
    same_chunk : m_chunk m' = m_chunk m;
    same_replaced : m_replaced m' = m_replaced m;
    same_from : m_from m' = m_from m;
    same_quarantine : m_quarantine m' = m_quarantine m
  }.
  Lemma same_mail_refl m : same_mail m m.
  Proof. constructor; reflexivity. Qed.
  Lemma same_mail_eq m m' : m' = m -> same_mail m m'.
  Proof. intros ->. apply same_mail_refl. Qed.
  Lemma same_mail_trans a b c : same_mail a b -> same_mail b c -> same_mail a c.
  Proof. intros [] []. constructor; congruence. Qed.
  Lemma same_whole m m' : same_mail m m' -> whole_body m' = whole_body m.
  Proof.
    intros [_ _ B F _ _ _ _]. unfold whole_body. rewrite B.
    destruct (m_body m); [reflexivity|].
    destruct (m_file m) as [[b p]|], (m_file m') as [[b' p']|]; cbn in F; congruence.
  Qed.

  Lemma body_chunk_sends E w j o ev st cmds wait t : open j o ev st cmds wait t w ->
    In XBody cmds -> wait <> [] -> f_sending (w_flow w) = true -> body_left w <> [] ->
    exists w', send_body writes stops chunk_size E w j = (S_PROGRESS, w') /\
      moved [OSent j (CBody (firstn (N.to_nat chunk_size) (body_left w)))] [j] w w' /\
      serves j o ev XBody st cmds wait t w' /\ same_mail (w_mail w) (w_mail w') /\
      m_replaced_each (w_mail w') = m_replaced_each (w_mail w) /\
      k_state (child_of w' j) = k_state (child_of w j) /\ f_sending (w_flow w') = true /\
      f_index (w_flow w') = f_index (w_flow w) /\
      body_left w' = skipn (N.to_nat chunk_size) (body_left w).
  Proof.
    intros O Hc Hwait Hs Hl. unfold send_body.
    set (w1 := on_flow w (fun f => put_f_processing f XBody)). cbv zeta. fold w1.
    assert (M1 : moved [] [j] w w1) by (apply moved_flow, moved_refl, O).
    assert (K1 : keeps st cmds wait t (w_flow w1)) by (apply keeps_on; try reflexivity; apply O).
    change (child_of w1 j) with (child_of w j). rewrite (fits_skip _ _ _ (open_fits _ _ _ _ _ _ _ _ O)).
    change (w_mail w1) with (w_mail w).
    set (chunk := firstn (N.to_nat chunk_size) (body_left w)).
    assert (Lc : N.of_nat (length chunk) <= 65535).
    { unfold chunk. rewrite firstn_length. lia. }
    assert (Nc : chunk <> []).
    { unfold chunk. destruct (body_left w); [congruence|].
      destruct (N.to_nat chunk_size) eqn:E0; [lia|]. discriminate. }
    assert (Skip : skipn (length chunk) (body_left w) = skipn (N.to_nat chunk_size) (body_left w)).
    { unfold chunk. rewrite firstn_length. destruct (Nat.min_spec (N.to_nat chunk_size) (length (body_left w))) as [[_ ->]|[H ->]]; [reflexivity|].
      rewrite !skipn_all2; [reflexivity|exact H|lia]. }
    assert (Cc : content_command (CBody chunk) = Some XBody).
    { cbn [content_command]. destruct (N.leb_spec (N.of_nat (length chunk)) 65535); [reflexivity|lia]. }
    assert (Fin : forall w2 w3, moved [OSent j (CBody chunk)] [j] w w2 ->
              f_processing (w_flow w3) = XBody -> fits o ev (child_of w3 j) -> given XBody (child_of w3 j) ->
              moved [OSent j (CBody chunk)] [j] w w3 -> keeps st cmds wait t (w_flow w3) ->
              serves j o ev XBody st cmds wait t w3 /\
              unless_reply E w3 j (f_processing (w_flow w3)) = w3).
    { intros w2 w3 M P F3 G3 M3 K3. split.
      - constructor; try assumption.
        + apply M3.
        + exact (moved_has _ _ _ _ _ M3 (open_has _ _ _ _ _ _ _ _ O)).
        + rewrite (moved_nego _ _ _ _ M3). apply O.
        + apply O.
      - unfold unless_reply. rewrite P.
        rewrite (need_reply_content o ev _ _ (open_takes _ _ _ _ _ _ _ _ O) F3) by reflexivity. reflexivity. }
    unfold body_left in Hl.
    destruct (m_body (w_mail w)) as [b|] eqn:Eb.
    - unfold send_body_string. change (f_offset (w_flow w1)) with (f_offset (w_flow w)).
      set (offset := f_offset (w_flow w)) in *.
      assert (Hoff : N.of_nat (length b) <=? offset = false).
      { apply N.leb_gt. destruct (N.leb_spec (N.of_nat (length b)) offset) as [H|H]; [|exact H].
        exfalso. apply Hl. apply skipn_all2. lia. }
      rewrite Hoff.
      assert (Ec : firstn (N.to_nat chunk_size) (skipn (N.to_nat offset) b) = chunk).
      { unfold chunk, body_left. rewrite Eb. reflexivity. }
      rewrite Ec.
      destruct (call_sends E w1 j (CBody chunk) XBody o ev)
        as (w2 & -> & M2 & Fl & Ma & S2 & F2 & G2); try apply O; try exact Cc.
      assert (M : moved [OSent j (CBody chunk)] [j] w w2) by exact (moved_trans [] _ _ _ _ _ M1 M2).
      set (w3 := on_flow w2 (fun f => put_f_offset f (f_offset f + N.of_nat (length chunk)))).
      assert (K3 : keeps st cmds wait t (w_flow w3)).
      { apply keeps_on; try reflexivity; rewrite Fl; exact K1. }
      assert (I3 : init_waiting writes stops E w3 XBody = w3).
      { unfold init_waiting. cbv zeta.
        assert (E3 : on_flow w3 (fun f => if existsb (sstate_eqb XBody) (f_commands f) then f
                                          else put_f_commands f (f_commands f ++ [XBody])) = w3).
        { unfold on_flow. cbv beta. rewrite (keeps_commands _ _ _ _ _ K3).
          replace (existsb (sstate_eqb XBody) cmds) with true
            by (symmetry; apply existsb_exists; exists XBody; split; [exact Hc|reflexivity]).
          destruct w3; reflexivity. }
        rewrite E3, (keeps_waiting _ _ _ _ _ K3). destruct wait; [congruence|reflexivity]. }
      rewrite I3.
      destruct (Fin w2 w3) as (S3 & U3); try assumption.
      { cbn [w3 on_flow put_w_flow w_flow put_f_offset f_processing]. unfold w3. cbn. rewrite Fl. reflexivity. }
      { apply moved_flow. exact M. }
      rewrite U3. exists w3. split; [reflexivity|]. split; [apply moved_flow; exact M|].
      split; [exact S3|]. split; [apply same_mail_eq; exact Ma|].
      assert (Ma3 : w_mail w3 = w_mail w) by exact Ma.
      split; [now rewrite Ma3|].
      split; [exact S2|]. split; [unfold w3; cbn; rewrite Fl; exact Hs|].
      split; [unfold w3; cbn; rewrite Fl; reflexivity|].
      rewrite <- Skip. unfold body_left. rewrite Ma3, Eb. rewrite skipn_twice.
      f_equal. unfold w3. cbn. rewrite Fl. cbn. fold offset. lia.
    - unfold send_body_file. change (w_mail w1) with (w_mail w).
      destruct (m_file (w_mail w)) as [[b p]|] eqn:Ef; [|congruence].
      assert (Ec : firstn (N.to_nat chunk_size) (skipn (N.to_nat p) b) = chunk).
      { unfold chunk, body_left. rewrite Eb, Ef. reflexivity. }
      rewrite Ec. clearbody chunk. destruct chunk as [|c0 chunk0]; [congruence|].
      set (chunk := c0 :: chunk0) in *. cbv zeta.
      set (w2 := on_mail w1 (fun m => put_m_file m (Some (b, p + N.of_nat (length chunk))))).
      assert (M12 : moved [] [j] w w2) by (apply moved_mail; exact M1).
      destruct (call_sends E w2 j (CBody chunk) XBody o ev)
        as (w3 & E3 & M3 & Fl & Ma & S2 & F2 & G2); try apply O; try exact Cc.
      assert (M : moved [OSent j (CBody chunk)] [j] w w3) by exact (moved_trans [] _ _ _ _ _ M12 M3).
      assert (D2 : (let (ok, w4) := k_call writes stops E w2 j (CBody chunk) in
                    (if ok then S_PROGRESS else k_fallback (child_of w4 j), w4)) = (S_PROGRESS, w3))
        by (rewrite E3; reflexivity).
      cbv zeta. rewrite D2.
      destruct (Fin w3 w3) as (S3 & U3); try assumption.
      { rewrite Fl. reflexivity. }
      { rewrite Fl. exact K1. }
      rewrite U3. exists w3. split; [reflexivity|]. split; [exact M|].
      split; [exact S3|].
      split.
      { rewrite Ma. constructor; try reflexivity. cbn. rewrite Ef. reflexivity. }
      split; [now rewrite Ma|].
      split; [exact S2|]. split; [rewrite Fl; exact Hs|].
      split; [rewrite Fl; reflexivity|].
      rewrite <- Skip. unfold body_left. rewrite Ma, Eb, Ef. cbn [w2 on_mail put_w_mail w_mail put_m_file m_body m_file].
      unfold w2. cbn [on_mail put_w_mail w_mail put_m_file m_body m_file]. 
      change (w_mail w1) with (w_mail w). rewrite Eb. rewrite skipn_twice. f_equal. lia.
  Qed.

  (** *** One command after the other *)
  Lemma serves_reaches d j o ev x st cmds wait t w : serves j o ev x st cmds wait t w ->
    content_stage x = true -> x <> XEndOfMessage ->
    exists w1, moved (two_in j) [j] w w1 /\ w_flow w1 = w_flow w /\ w_mail w1 = w_mail w /\
      open j o ev st cmds wait (went t x) (compile_reply w1 x S_CONTINUE) /\ k_state (child_of w1 j) = x /\
      (forall w2, cb_continue writes stops chunk_size (Emit d) (Resume d) w1 j = w2 ->
       k_body (child_of w2 j) = [] -> k_state (child_of w2 j) = x ->
       Run (S d) w (goes_on_with j) = w2).
  Proof.
    intros Sv X Hx.
    destruct (goes_on_reaches d w j x o ev) as (w1 & M & Fl & Ma & F1 & Fr & S1 & K); try apply Sv; auto.
    exists w1. split; [exact M|]. split; [exact Fl|]. split; [exact Ma|].
    split; [|auto]. constructor; try assumption.
    - apply M.
    - exact (moved_has _ _ _ _ _ M (serves_has _ _ _ _ _ _ _ _ _ Sv)).
    - cbn. rewrite (moved_nego _ _ _ _ M). apply Sv.
    - apply Sv.
    - apply compile_keeps. rewrite Fl. apply Sv.
  Qed.

  Definition in_time (st x : sstate) : Prop := (sstate_rank st <? sstate_rank x) = false.

  Lemma compile_moved es js w w1 x : moved es js w w1 -> moved es js w (compile_reply w1 x S_CONTINUE).
  Proof. apply moved_flow. Qed.

  (** What [cb_continue] does in each stage, after the verdict is noted. *)
  Lemma continue_header E R st cmds wait t w1 j hs : k_state (child_of w1 j) = XHeader ->
    keeps st cmds wait t (w_flow w1) -> in_time st XHeader -> m_headers (w_mail w1) = Some hs ->
    cb_continue writes stops chunk_size E R w1 j =
    let w := compile_reply w1 XHeader S_CONTINUE in
    let (s, w2) := if f_index (w_flow w) <? N.of_nat (length hs)
                   then send_next_header writes stops E w j
                   else send_next_command writes stops chunk_size E w j XHeader in
    handle_status w2 s.
  Proof.
    intros Sv K T H. unfold cb_continue. rewrite Sv. cbv zeta.
    change (f_state (w_flow (compile_reply w1 XHeader S_CONTINUE))) with (f_state (w_flow w1)).
    rewrite (keeps_state _ _ _ _ _ K), T.
    change (m_headers (w_mail (compile_reply w1 XHeader S_CONTINUE))) with (m_headers (w_mail w1)).
    rewrite H. reflexivity.
  Qed.
  Lemma continue_end_of_header E R w1 j : k_state (child_of w1 j) = XEndOfHeader ->
    cb_continue writes stops chunk_size E R w1 j =
    let (s, w2) := send_next_command writes stops chunk_size E
                     (compile_reply w1 XEndOfHeader S_CONTINUE) j XEndOfHeader in
    handle_status w2 s.
  Proof. intros Sv. unfold cb_continue. rewrite Sv. reflexivity. Qed.
  Lemma continue_body E R st cmds wait t w1 j : k_state (child_of w1 j) = XBody ->
    keeps st cmds wait t (w_flow w1) -> in_time st XBody ->
    cb_continue writes stops chunk_size E R w1 j =
    let w := compile_reply w1 XBody S_CONTINUE in
    let (s, w2) := if f_sending (w_flow w) then send_body writes stops chunk_size E w j
                   else (S_NOT_CHANGE, w) in
    let (s', w3) := match s with
                    | S_NOT_CHANGE => send_next_command writes stops chunk_size E w2 j XBody
                    | _ => (s, w2)
                    end in
    handle_status w3 s'.
  Proof.
    intros Sv K T. unfold cb_continue. rewrite Sv. cbv zeta.
    change (f_state (w_flow (compile_reply w1 XBody S_CONTINUE))) with (f_state (w_flow w1)).
    rewrite (keeps_state _ _ _ _ _ K), T. reflexivity.
  Qed.

  (** Nothing of the body is left to be sent. *)
  Lemma nothing_left d j o ev st cmds wait t wc w : open j o ev st cmds wait t wc ->
    w_mail wc = w_mail w -> f_offset (w_flow wc) = f_offset (w_flow w) -> body_left w = [] ->
    send_body writes stops chunk_size (Emit d) wc j =
    (S_NOT_CHANGE, on_flow (on_flow wc (fun f => put_f_processing f XBody)) (fun f => put_f_sending f false)).
  Proof.
    intros O Mw Fl Hl.
    unfold send_body. cbv zeta.
        change (child_of (on_flow wc (fun f => put_f_processing f XBody)) j) with (child_of wc j).
        rewrite (fits_skip _ _ _ (open_fits _ _ _ _ _ _ _ _ O)).
        change (w_mail (on_flow wc (fun f => put_f_processing f XBody))) with (w_mail wc). rewrite Mw.
        unfold body_left in Hl. destruct (m_body (w_mail w)) as [b|] eqn:Eb.
        - unfold send_body_string. cbv zeta.
          replace (f_offset (w_flow (on_flow wc (fun f => put_f_processing f XBody)))) with (f_offset (w_flow w))
            by (cbn; rewrite Fl; reflexivity).
          assert (L : length (skipn (N.to_nat (f_offset (w_flow w))) b) = 0%nat) by (rewrite Hl; reflexivity).
          rewrite skipn_length in L.
          destruct (N.leb_spec (N.of_nat (length b)) (f_offset (w_flow w))); [reflexivity|lia].
        - unfold send_body_file.
          change (w_mail (on_flow wc (fun f => put_f_processing f XBody))) with (w_mail wc). rewrite Mw.
          destruct (m_file (w_mail w)) as [[b p]|]; [|reflexivity]. rewrite Hl.
          destruct (N.to_nat chunk_size); reflexivity.
  Qed.

  Section Steps.
    Variables (d : nat) (j : nat) (o : moption) (ev : bool) (st : sstate) (cmds : list sstate).
    Variables (wait : list nat) (t : table) (w : world).
    Notation R0 := (Run (S d) w (goes_on_with j)).

    Lemma header_header hs n h : serves j o ev XHeader st cmds wait t w -> in_time st XHeader ->
      m_headers (w_mail w) = Some hs -> f_index (w_flow w) = N.of_nat n -> nth_error hs n = Some h ->
      moved (two_in j ++ [OSent j (CHeader (h_name h) (shown (converts o) (h_value h)))]) [j] w R0 /\
      serves j o ev XHeader st cmds wait (went t XHeader) R0 /\ w_mail R0 = w_mail w /\
      f_index (w_flow R0) = N.of_nat (S n).
    Proof.
      intros Sv T Hh Hi Hn.
      destruct (serves_reaches d j o ev XHeader st cmds wait t w Sv eq_refl ltac:(discriminate))
        as (w1 & M & Fl & Ma & O & St & K).
      set (wc := compile_reply w1 XHeader S_CONTINUE) in *.
      destruct (header_sends (Emit d) wc j o ev st cmds wait (went t XHeader) hs n h O) as (w2 & E & M2 & S2 & Ma2 & St2 & I2);
        [cbn; congruence|cbn; congruence|exact Hn|].
      assert (Len : (n < length hs)%nat) by (apply nth_error_Some; congruence).
      assert (R : Run (S d) w (goes_on_with j) = w2).
      { apply K.
        - rewrite (continue_header _ _ st cmds wait t _ _ hs); try assumption; try congruence.
          + fold wc. cbv zeta. replace (f_index (w_flow wc) <? N.of_nat (length hs)) with true
              by (change (f_index (w_flow wc)) with (f_index (w_flow w1)); rewrite Fl, Hi; lia).
            rewrite E. reflexivity.
          + rewrite Fl. apply Sv.
        - apply S2.
        - rewrite St2. exact St. }
      rewrite R. split; [exact (moved_trans _ _ _ _ _ _ (compile_moved _ _ _ _ _ M) M2)|].
      split; [exact S2|]. split; [|exact I2]. rewrite Ma2. exact Ma.
    Qed.

    Lemma header_end hs : serves j o ev XHeader st cmds wait t w -> in_time st XHeader ->
      m_headers (w_mail w) = Some hs -> f_index (w_flow w) = N.of_nat (length hs) ->
      next_after cmds XHeader = Some XEndOfHeader ->
      moved (two_in j ++ [OSent j CEndOfHeader]) [j] w R0 /\
      serves j o ev XEndOfHeader st cmds wait (went t XHeader) R0 /\ w_mail R0 = w_mail w.
    Proof.
      intros Sv T Hh Hi Hn.
      destruct (serves_reaches d j o ev XHeader st cmds wait t w Sv eq_refl ltac:(discriminate))
        as (w1 & M & Fl & Ma & O & St & K).
      set (wc := compile_reply w1 XHeader S_CONTINUE) in *.
      destruct (end_of_header_sends (Emit d) wc j o ev st cmds wait (went t XHeader) O) as (w2 & E & M2 & S2 & Ma2 & St2 & I2).
      assert (R : Run (S d) w (goes_on_with j) = w2).
      { apply K.
        - rewrite (continue_header _ _ st cmds wait t _ _ hs); try assumption; try congruence.
          + fold wc. cbv zeta. replace (f_index (w_flow wc) <? N.of_nat (length hs)) with false
              by (change (f_index (w_flow wc)) with (f_index (w_flow w1)); rewrite Fl, Hi; lia).
            unfold send_next_command. rewrite (keeps_commands _ _ _ _ _ (open_keeps _ _ _ _ _ _ _ _ O)), Hn, E.
            reflexivity.
          + rewrite Fl. apply Sv.
        - apply S2.
        - rewrite St2. exact St. }
      rewrite R. split; [exact (moved_trans _ _ _ _ _ _ (compile_moved _ _ _ _ _ M) M2)|].
      split; [exact S2|]. rewrite Ma2. exact Ma.
    Qed.

    Lemma end_body : serves j o ev XEndOfHeader st cmds wait t w ->
      next_after cmds XEndOfHeader = Some XBody -> In XBody cmds -> wait <> [] ->
      whole_body (w_mail w) <> [] ->
      moved (two_in j ++ [OSent j (CBody (firstn (N.to_nat chunk_size) (whole_body (w_mail w))))]) [j] w R0 /\
      serves j o ev XBody st cmds wait (went t XEndOfHeader) R0 /\ same_mail (w_mail w) (w_mail R0) /\
      m_replaced_each (w_mail R0) = false /\ f_sending (w_flow R0) = true /\
      body_left R0 = skipn (N.to_nat chunk_size) (whole_body (w_mail w)).
    Proof.
      intros Sv Hn Hc Hw Hb.
      destruct (serves_reaches d j o ev XEndOfHeader st cmds wait t w Sv eq_refl ltac:(discriminate))
        as (w1 & M & Fl & Ma & O & St & K).
      set (wc := compile_reply w1 XEndOfHeader S_CONTINUE) in *.
      set (wi := init_child_for_body wc).
      assert (Mi : moved [] [j] wc wi).
      { unfold wi, init_child_for_body. cbv zeta.
        assert (B : moved [] [j] wc (on_mail (on_flow wc (fun f => put_f_sending (put_f_processing f XBody) true))
                                             (fun m => put_m_replaced_each m false)))
          by (apply moved_mail, moved_flow, moved_refl; apply O).
        destruct (m_body _); [apply moved_flow; exact B|]. destruct (m_file _) as [[b p]|]; [apply moved_mail|]; exact B. }
      assert (Fi : keeps st cmds wait (went t XEndOfHeader) (w_flow wi) /\ f_sending (w_flow wi) = true).
      { pose proof (open_keeps _ _ _ _ _ _ _ _ O) as [K1 K2 K3 K4 K5].
        unfold wi, init_child_for_body. cbv zeta.
        destruct (m_body _); [|destruct (m_file _) as [[b p]|]]; (split; [constructor|reflexivity]); assumption. }
      assert (Si : same_mail (w_mail w) (w_mail wi) /\ m_replaced_each (w_mail wi) = false /\
                   body_left wi = whole_body (w_mail w)).
      { assert (Mc : w_mail wc = w_mail w) by exact Ma.
        unfold wi, init_child_for_body, body_left, whole_body. cbv zeta.
        cbn [on_mail on_flow put_w_mail put_w_flow w_mail w_flow put_m_replaced_each m_body m_file].
        rewrite Mc.
        destruct (m_body (w_mail w)) as [b|] eqn:Eb.
        - cbn [on_mail on_flow put_w_mail put_w_flow w_mail w_flow put_m_replaced_each m_body m_file]. rewrite Mc, Eb.
          split; [constructor; auto|]. split; reflexivity.
        - destruct (m_file (w_mail w)) as [[b p]|] eqn:Ef;
            cbn [on_mail on_flow put_w_mail put_w_flow w_mail w_flow put_m_replaced_each put_m_file m_body m_file];
            rewrite ?Mc, ?Eb, ?Ef; (split; [constructor; cbn; rewrite ?Mc, ?Eb, ?Ef; auto|]); split; reflexivity. }
      destruct Si as (Si & Ri & Bi). destruct Fi as (Ki & Fsi).
      assert (Oi : open j o ev st cmds wait (went t XEndOfHeader) wi).
      { assert (Chi : forall i, child_of wi i = child_of wc i).
        { intros i. unfold wi, init_child_for_body. cbv zeta.
          destruct (m_body _); [reflexivity|]. destruct (m_file _) as [[b p]|]; reflexivity. }
        constructor; try assumption.
        - apply Mi.
        - exact (moved_has _ _ _ _ _ Mi (open_has _ _ _ _ _ _ _ _ O)).
        - rewrite (moved_nego _ _ _ _ Mi). apply O.
        - apply O.
        - rewrite Chi. apply O.
        - rewrite Chi. apply O. }
      destruct (body_chunk_sends (Emit d) wi j o ev st cmds wait (went t XEndOfHeader) Oi Hc Hw Fsi)
        as (w2 & E & M2 & S2 & Sm2 & Re2 & St2 & Fs2 & I2 & L2); [congruence|].
      rewrite Bi in M2, L2.
      assert (R : Run (S d) w (goes_on_with j) = w2).
      { apply K.
        - rewrite continue_end_of_header by exact St. fold wc.
          unfold send_next_command. rewrite (keeps_commands _ _ _ _ _ (open_keeps _ _ _ _ _ _ _ _ O)), Hn.
          fold wi. cbn [send_command]. rewrite E. reflexivity.
        - apply S2.
        - rewrite St2.
          assert (Chi : child_of wi j = child_of wc j).
          { unfold wi, init_child_for_body. cbv zeta.
            destruct (m_body _); [reflexivity|]. destruct (m_file _) as [[b p]|]; reflexivity. }
          rewrite Chi. exact St. }
      rewrite R.
      split; [exact (moved_trans _ _ _ _ _ _ (compile_moved _ _ _ _ _ M) (moved_trans [] _ _ _ _ _ Mi M2))|].
      split; [exact S2|]. split; [exact (same_mail_trans _ _ _ Si Sm2)|].
      split; [congruence|]. split; [exact Fs2|exact L2].
    Qed.

    Lemma body_body : serves j o ev XBody st cmds wait t w -> in_time st XBody ->
      In XBody cmds -> wait <> [] -> f_sending (w_flow w) = true -> body_left w <> [] ->
      moved (two_in j ++ [OSent j (CBody (firstn (N.to_nat chunk_size) (body_left w)))]) [j] w R0 /\
      serves j o ev XBody st cmds wait (went t XBody) R0 /\ same_mail (w_mail w) (w_mail R0) /\
      m_replaced_each (w_mail R0) = m_replaced_each (w_mail w) /\ f_sending (w_flow R0) = true /\
      body_left R0 = skipn (N.to_nat chunk_size) (body_left w).
    Proof.
      intros Sv T Hc Hw Hs Hl.
      destruct (serves_reaches d j o ev XBody st cmds wait t w Sv eq_refl ltac:(discriminate))
        as (w1 & M & Fl & Ma & O & St & K).
      set (wc := compile_reply w1 XBody S_CONTINUE) in *.
      assert (Bc : body_left wc = body_left w).
      { unfold body_left. change (w_mail wc) with (w_mail w1). rewrite Ma.
        change (f_offset (w_flow wc)) with (f_offset (w_flow w1)). rewrite Fl. reflexivity. }
      destruct (body_chunk_sends (Emit d) wc j o ev st cmds wait (went t XBody) O Hc Hw)
        as (w2 & E & M2 & S2 & Sm2 & Re2 & St2 & Fs2 & I2 & L2).
      { change (f_sending (w_flow w1) = true). rewrite Fl. exact Hs. }
      { congruence. }
      rewrite Bc in M2, L2.
      assert (R : Run (S d) w (goes_on_with j) = w2).
      { apply K.
        - rewrite (continue_body _ _ st cmds wait t); try assumption.
          + fold wc. cbv zeta. change (f_sending (w_flow wc)) with (f_sending (w_flow w1)).
            rewrite Fl, Hs, E. reflexivity.
          + rewrite Fl. apply Sv.
        - apply S2.
        - rewrite St2. exact St. }
      rewrite R. assert (Mw : w_mail wc = w_mail w) by exact Ma. rewrite Mw in *.
      split; [exact (moved_trans _ _ _ _ _ _ (compile_moved _ _ _ _ _ M) M2)|]. auto 10.
    Qed.

    Lemma body_end : serves j o ev XBody st cmds wait t w -> in_time st XBody ->
      f_sending (w_flow w) = true -> body_left w = [] -> m_chunk (w_mail w) = None ->
      next_after cmds XBody = Some XEndOfMessage ->
      moved (two_in j ++ [OSent j (CEndOfMessage None)]) [j] w R0 /\
      serves j o ev XEndOfMessage st cmds wait (went t XBody) R0 /\ w_mail R0 = w_mail w.
    Proof.
      intros Sv T Hs Hl Hc Hn.
      destruct (serves_reaches d j o ev XBody st cmds wait t w Sv eq_refl ltac:(discriminate))
        as (w1 & M & Fl & Ma & O & St & K).
      set (wc := compile_reply w1 XBody S_CONTINUE) in *.
      assert (Mw : w_mail wc = w_mail w) by exact Ma.
      set (wd := on_flow (on_flow wc (fun f => put_f_processing f XBody)) (fun f => put_f_sending f false)).
      assert (Ed : send_body writes stops chunk_size (Emit d) wc j = (S_NOT_CHANGE, wd)).
      { exact (nothing_left d j o ev st cmds wait (went t XBody) wc w O Mw (f_equal f_offset Fl) Hl). }
      assert (Od : open j o ev st cmds wait (went t XBody) wd).
      { pose proof (open_keeps _ _ _ _ _ _ _ _ O) as [K1 K2 K3 K4 K5]. constructor; try apply O.
        constructor; assumption. }
      destruct (end_of_message_sends (Emit d) wd j o ev st cmds wait (went t XBody) Od) as (w2 & E & M2 & S2 & Ma2 & St2 & I2).
      { change (m_chunk (w_mail wc) = None). now rewrite Mw. }
      assert (R : Run (S d) w (goes_on_with j) = w2).
      { apply K.
        - rewrite (continue_body _ _ st cmds wait t); try assumption.
          + fold wc. cbv zeta. change (f_sending (w_flow wc)) with (f_sending (w_flow w1)).
            rewrite Fl, Hs, Ed. unfold send_next_command.
            rewrite (keeps_commands _ _ _ _ _ (open_keeps _ _ _ _ _ _ _ _ Od)), Hn, E. reflexivity.
          + rewrite Fl. apply Sv.
        - apply S2.
        - rewrite St2. exact St. }
      rewrite R. assert (Md : moved [] [j] wc wd) by (apply moved_flow, moved_flow, moved_refl, O).
      split; [exact (moved_trans _ _ _ _ _ _ (compile_moved _ _ _ _ _ M) (moved_trans [] _ _ _ _ _ Md M2))|].
      split; [exact S2|]. rewrite Ma2. exact Ma.
    Qed.

    (** Nothing to send: the command of the MTA is answered. *)
    Lemma nothing_more x hs : serves j o ev x st cmds wait t w -> content_stage x = true ->
      x <> XEndOfMessage -> in_time st x -> next_after cmds x = None ->
      m_headers (w_mail w) = Some hs -> (x = XHeader -> f_index (w_flow w) = N.of_nat (length hs)) ->
      (x = XBody -> f_sending (w_flow w) = false) ->
      moved (two_in j ++ [OAnswer S_CONTINUE]) [j] w R0 /\
      open j o ev st cmds wait (went t x) R0 /\ w_mail R0 = w_mail w /\ 
      f_index (w_flow R0) = f_index (w_flow w) /\ f_sending (w_flow R0) = f_sending (w_flow w).
    Proof.
      intros Sv X Hx T Hn Hh Hi Hs.
      destruct (serves_reaches d j o ev x st cmds wait t w Sv X Hx) as (w1 & M & Fl & Ma & O & St & K).
      set (wc := compile_reply w1 x S_CONTINUE) in *.
      assert (Nx : send_next_command writes stops chunk_size (Emit d) wc j x = (S_NOT_CHANGE, wc)).
      { unfold send_next_command. rewrite (keeps_commands _ _ _ _ _ (open_keeps _ _ _ _ _ _ _ _ O)), Hn. reflexivity. }
      assert (K1 : keeps st cmds wait t (w_flow w1)) by (rewrite Fl; apply Sv).
      assert (R : Run (S d) w (goes_on_with j) = log wc (OAnswer S_CONTINUE)).
      { apply K.
        - destruct x; try discriminate X; try congruence.
          + rewrite (continue_header _ _ st cmds wait t _ _ hs); try assumption; try congruence.
            fold wc. cbv zeta. replace (f_index (w_flow wc) <? N.of_nat (length hs)) with false
              by (change (f_index (w_flow wc)) with (f_index (w_flow w1)); rewrite Fl, Hi by reflexivity; lia).
            rewrite Nx. reflexivity.
          + rewrite continue_end_of_header by exact St. fold wc. rewrite Nx. reflexivity.
          + rewrite (continue_body _ _ st cmds wait t); try assumption. fold wc. cbv zeta.
            change (f_sending (w_flow wc)) with (f_sending (w_flow w1)).
            rewrite Fl, Hs by reflexivity. rewrite Nx. reflexivity.
        - rewrite child_log. apply O.
        - rewrite child_log. exact St. }
      rewrite R.
      split; [exact (moved_trans _ _ _ _ _ _ (compile_moved _ _ _ _ _ M) (moved_log _ _ _ (open_crashed _ _ _ _ _ _ _ _ O)))|].
      split.
      - constructor; rewrite ?crashed_log, ?has_log, ?nego_log, ?child_log, ?flow_log; apply O.
      - rewrite mail_log, flow_log. split; [exact Ma|]. split; cbn; now rewrite Fl.
    Qed.
    Lemma body_answered : serves j o ev XBody st cmds wait t w -> in_time st XBody ->
      f_sending (w_flow w) = true -> body_left w = [] -> next_after cmds XBody = None ->
      moved (two_in j ++ [OAnswer S_CONTINUE]) [j] w R0 /\
      open j o ev st cmds wait (went t XBody) R0 /\ w_mail R0 = w_mail w.
    Proof.
      intros Sv T Hs Hl Hn.
      destruct (serves_reaches d j o ev XBody st cmds wait t w Sv eq_refl ltac:(discriminate))
        as (w1 & M & Fl & Ma & O & St & K).
      set (wc := compile_reply w1 XBody S_CONTINUE) in *.
      assert (Mw : w_mail wc = w_mail w) by exact Ma.
      set (wd := on_flow (on_flow wc (fun f => put_f_processing f XBody)) (fun f => put_f_sending f false)).
      assert (Ed : send_body writes stops chunk_size (Emit d) wc j = (S_NOT_CHANGE, wd)).
      { exact (nothing_left d j o ev st cmds wait (went t XBody) wc w O Mw (f_equal f_offset Fl) Hl). }
      assert (Od : open j o ev st cmds wait (went t XBody) wd).
      { pose proof (open_keeps _ _ _ _ _ _ _ _ O) as [K1 K2 K3 K4 K5 K6]. constructor; try apply O.
        constructor; assumption. }
      assert (R : Run (S d) w (goes_on_with j) = log wd (OAnswer S_CONTINUE)).
      { apply K.
        - rewrite (continue_body _ _ st cmds wait t); try assumption.
          + fold wc. cbv zeta. change (f_sending (w_flow wc)) with (f_sending (w_flow w1)).
            rewrite Fl, Hs, Ed. unfold send_next_command.
            rewrite (keeps_commands _ _ _ _ _ (open_keeps _ _ _ _ _ _ _ _ Od)), Hn. reflexivity.
          + rewrite Fl. apply Sv.
        - rewrite child_log. apply O.
        - rewrite child_log. exact St. }
      rewrite R. assert (Md : moved [] [j] wc wd) by (apply moved_flow, moved_flow, moved_refl, O).
      split; [exact (moved_trans _ _ _ _ _ _ (compile_moved _ _ _ _ _ M)
                (moved_trans [] _ _ _ _ _ Md (moved_log _ _ _ (open_crashed _ _ _ _ _ _ _ _ Od))))|].
      split.
      - constructor; rewrite ?crashed_log, ?has_log, ?nego_log, ?child_log, ?flow_log; apply Od.
      - rewrite mail_log. exact Ma.
    Qed.
  End Steps.

  (** *** What is seen of it *)
  Definition showed (es : list event) (js : list nat) (w w' : world) : Prop :=
    exists all, filter visible all = es /\ moved all js w w'.
  Lemma showed_refl js w : w_crashed w = false -> showed [] js w w.
  Proof. intros C. exists []. split; [reflexivity|apply moved_refl; exact C]. Qed.
  Lemma showed_trans es1 es2 js w1 w2 w3 : showed es1 js w1 w2 -> showed es2 js w2 w3 ->
    showed (es1 ++ es2) js w1 w3.
  Proof.
    intros (a1 & <- & M1) (a2 & <- & M2). exists (a1 ++ a2).
    split; [apply filter_app|exact (moved_trans _ _ _ _ _ _ M1 M2)].
  Qed.
  Lemma showed_moved all js w w' : moved all js w w' -> showed (filter visible all) js w w'.
  Proof. intros M. exists all. auto. Qed.
  Lemma showed_more es js js' w w' : (forall i, In i js -> In i js') -> showed es js w w' ->
    showed es js' w w'.
  Proof. intros H (a & E & M). exists a. split; [exact E|exact (moved_more _ _ _ _ _ H M)]. Qed.
  Lemma showed_crashed es js w w' : showed es js w w' -> w_crashed w' = false.
  Proof. intros (a & _ & M). apply M. Qed.
  Lemma showed_other es js w w' i : showed es js w w' -> ~ In i js -> child_of w' i = child_of w i.
  Proof. intros (a & _ & M). apply M. Qed.
  Lemma showed_has es js w w' i : showed es js w w' -> has w i -> has w' i.
  Proof. intros (a & _ & M). exact (moved_has _ _ _ _ _ M). Qed.
  Lemma showed_nego es js w w' : showed es js w w' -> w_nego w' = w_nego w.
  Proof. intros (a & _ & M). apply M. Qed.

  Definition turns (j : nat) (n : nat) : list op := concat (repeat (goes_on_with j) n).
  Lemma turns_S j n : turns j (S n) = goes_on_with j ++ turns j n.
  Proof. reflexivity. Qed.
  Lemma turns_add j n m : turns j (n + m) = turns j n ++ turns j m.
  Proof. induction n as [|n IH]; [reflexivity|]. cbn [Nat.add]. rewrite !turns_S, IH. apply app_assoc. Qed.

  (** *** Where a filter is in the message *)
  Definition stages : list sstate := [XHeader; XEndOfHeader; XBody; XEndOfMessage].
  Definition upto_body : list sstate := [XHeader; XEndOfHeader; XBody].
  Definition upto (x : sstate) : list sstate :=
    match x with
    | XHeader => [XHeader]
    | XEndOfHeader => [XHeader; XEndOfHeader]
    | XBody => upto_body
    | _ => stages
    end.
  Definition hdr (conv : bool) (h : header) : command := CHeader (h_name h) (shown conv (h_value h)).
  Definition after_end (st : sstate) (chunks : list bytes) : list command :=
    match st with
    | XBody => map CBody chunks
    | XEndOfMessage => map CBody chunks ++ [CEndOfMessage None]
    | _ => []
    end.
  Definition last_of (st : sstate) : list command :=
    match st with XEndOfMessage => [CEndOfMessage None] | _ => [] end.
  Definition body_ready (st : sstate) (chunks : list bytes) (w : world) : Prop :=
    st = XBody \/ st = XEndOfMessage ->
    whole_body (w_mail w) <> [] /\ chunked chunk_size (whole_body (w_mail w)) chunks.
  (** The filter was given [c] and is to be given the commands after it. *)
  Inductive place (conv : bool) (st : sstate) (hs : list header) (w : world)
    : command -> list command -> Prop :=
  | place_header pre h post chunks : hs = pre ++ h :: post ->
      f_index (w_flow w) = N.of_nat (S (length pre)) -> body_ready st chunks w ->
      place conv st hs w (hdr conv h) (handed conv st post chunks)
  | place_end chunks : st <> XHeader -> body_ready st chunks w ->
      place conv st hs w CEndOfHeader (after_end st chunks)
  | place_body b cs : st = XBody \/ st = XEndOfMessage -> f_sending (w_flow w) = true ->
      chunked chunk_size (body_left w) cs -> m_replaced_each (w_mail w) = false ->
      place conv st hs w (CBody b) (map CBody cs ++ last_of st)
  | place_live b : st = XBody -> f_sending (w_flow w) = false -> m_replaced_each (w_mail w) = false ->
      place conv st hs w (CBody b) []
  | place_message : st = XEndOfMessage -> m_replaced_each (w_mail w) = false ->
      place conv st hs w (CEndOfMessage None) [].
  Record stands (j : nat) (o : moption) (ev : bool) (st : sstate) (wait : list nat) (t : table)
    (hs : list header) (c : command) (rest : list command) (w : world) : Prop := {
    stands_serves : serves j o ev (command_stage c) st (upto st) wait t w;
    stands_headers : m_headers (w_mail w) = Some hs;
    stands_chunk : st = XEndOfMessage -> m_chunk (w_mail w) = None;
    stands_place : place (converts o) st hs w c rest;
    stands_stage : content_stage st = true;
    stands_wait : wait <> []
  }.

  Lemma handed_none conv st chunks : content_stage st = true -> st <> XHeader ->
    handed conv st [] chunks = CEndOfHeader :: after_end st chunks.
  Proof. destruct st; intros X N1; try discriminate X; try congruence; reflexivity. Qed.
  Lemma body_ready_same st chunks w w' : same_mail (w_mail w) (w_mail w') ->
    body_ready st chunks w -> body_ready st chunks w'.
  Proof. intros Sm B X. rewrite (same_whole _ _ Sm). exact (B X). Qed.

  Section Turn.
    Variables (d : nat) (j : nat) (o : moption) (ev : bool) (st : sstate) (wait : list nat).
    Variable hs : list header.
    Notation standing := (stands j o ev st wait).

    Lemma stands_next t c c' rest w : standing t hs c (c' :: rest) w ->
      let w' := Run (S d) w (goes_on_with j) in
      showed [OSent j c'] [j] w w' /\ standing (went t (command_stage c)) hs c' rest w' /\
      same_mail (w_mail w) (w_mail w').
    Proof.
      intros [Sv Hh Hk Pl X Hw]. cbv zeta. remember (c' :: rest) as l eqn:El.
      destruct Pl as [pre h post chunks E Hi B|chunks Hst B|b cs Hst Hs Hc Hr|b Hst Hs Hr|Hst Hr];
        cbn [command_stage hdr] in Sv |- *.
      - assert (T : in_time st XHeader) by (destruct st; try discriminate X; reflexivity).
        destruct post as [|h2 post].
        + assert (Hst : st <> XHeader) by (intros ->; discriminate El).
          rewrite handed_none in El by assumption. injection El as <- <-.
          destruct (header_end d j o ev st (upto st) wait t w hs Sv T Hh) as (M & Sv' & Ma).
          { rewrite Hi, E, app_length. f_equal. cbn [length]. lia. }
          { destruct st; try discriminate X; try congruence; reflexivity. }
          split; [exact (showed_moved _ _ _ _ M)|]. split; [|apply same_mail_eq; exact Ma].
          constructor; try assumption.
          * now rewrite Ma.
          * now rewrite Ma.
          * apply place_end; [exact Hst|]. apply (body_ready_same _ _ w); [apply same_mail_eq; exact Ma|exact B].
        + cbn [handed map app] in El. injection El as <- <-.
          destruct (header_header d j o ev st (upto st) wait t w hs (S (length pre)) h2 Sv T Hh Hi) as (M & Sv' & Ma & Hi').
          { rewrite E, nth_error_app2 by lia. replace (S (length pre) - length pre)%nat with 1%nat by lia. reflexivity. }
          split; [exact (showed_moved _ _ _ _ M)|]. split; [|apply same_mail_eq; exact Ma].
          constructor; try assumption.
          * now rewrite Ma.
          * now rewrite Ma.
          * apply (place_header _ _ _ _ (pre ++ [h]) h2 post chunks).
            -- rewrite E, <- app_assoc. reflexivity.
            -- rewrite Hi', app_length. f_equal. cbn [length]. lia.
            -- apply (body_ready_same _ _ w); [apply same_mail_eq; exact Ma|exact B].
      - assert (Hst' : st = XBody \/ st = XEndOfMessage)
          by (destruct st; try discriminate X; try discriminate El; auto).
        destruct (B Hst') as (Hb & Hc).
        destruct chunks as [|c0 cs]; [apply chunked_nil in Hc; congruence|].
        destruct (chunked_cons _ _ _ _ (proj1 Hsize) Hc) as (_ & Hf & Hc').
        assert (El' : CBody c0 :: map CBody cs ++ last_of st = c' :: rest).
        { rewrite <- El. destruct Hst' as [-> | ->]; cbn [after_end last_of map app]; rewrite ?app_nil_r; reflexivity. }
        injection El' as <- <-.
        destruct (end_body d j o ev st (upto st) wait t w Sv) as (M & Sv' & Sm & Re & Hs & Hl).
        { destruct Hst' as [-> | ->]; reflexivity. }
        { destruct Hst' as [-> | ->]; cbn; auto. }
        { exact Hw. }
        { exact Hb. }
        rewrite Hf in M.
        split; [exact (showed_moved _ _ _ _ M)|]. split; [|exact Sm].
        constructor; try assumption.
        + rewrite (same_headers _ _ Sm). exact Hh.
        + intros Q. rewrite (same_chunk _ _ Sm). auto.
        + apply place_body; try assumption. rewrite Hl. exact Hc'.
      - assert (T : in_time st XBody) by (destruct Hst as [-> | ->]; reflexivity).
        destruct cs as [|c0 cs].
        + destruct Hst as [-> | ->]; [discriminate El|]. cbn [map app last_of] in El. injection El as <- <-.
          destruct (body_end d j o ev XEndOfMessage stages wait t w Sv T Hs) as (M & Sv' & Ma).
          { exact (chunked_nil _ _ Hc). }
          { auto. }
          { reflexivity. }
          split; [exact (showed_moved _ _ _ _ M)|]. split; [|apply same_mail_eq; exact Ma].
          constructor; try assumption; try (now rewrite Ma).
          apply place_message; [reflexivity|now rewrite Ma].
        + cbn [map app] in El. injection El as <- <-.
          destruct (chunked_cons _ _ _ _ (proj1 Hsize) Hc) as (Hb & Hf & Hc').
          destruct (body_body d j o ev st (upto st) wait t w Sv T) as (M & Sv' & Sm & Re & Hs' & Hl); auto.
          { destruct Hst as [-> | ->]; cbn; auto. }
          rewrite Hf in M. split; [exact (showed_moved _ _ _ _ M)|]. split; [|exact Sm].
          constructor; try assumption.
          * rewrite (same_headers _ _ Sm). exact Hh.
          * intros Q. rewrite (same_chunk _ _ Sm). auto.
          * apply place_body; try assumption; [rewrite Hl; exact Hc'|congruence].
      - discriminate El.
      - discriminate El.
    Qed.

    (** The last command but the end of the message: the MTA gets an answer. *)
    Lemma stands_answered t c w : standing t hs c [] w -> st <> XEndOfMessage ->
      let w' := Run (S d) w (goes_on_with j) in
      showed [OAnswer S_CONTINUE] [j] w w' /\ command_stage c = st /\
      open j o ev st (upto st) wait (went t st) w' /\ w_mail w' = w_mail w /\
      (st = XHeader -> f_index (w_flow w') = N.of_nat (length hs)) /\
      (st = XBody -> m_replaced_each (w_mail w') = false).
    Proof.
      intros [Sv Hh Hk Pl X Hw] Hm. cbv zeta. remember (@nil command) as l eqn:El.
      destruct Pl as [pre h post chunks E Hi B|chunks Hst B|b cs Hst Hs Hc Hr|b Hst Hs Hr|Hst Hr];
        cbn [command_stage hdr] in Sv |- *; try congruence.
      - destruct post as [|h2 post]; [|discriminate El].
        assert (Hst : st = XHeader) by (destruct st; try discriminate X; try discriminate El; reflexivity).
        subst st.
        assert (Hi' : f_index (w_flow w) = N.of_nat (length hs)).
        { rewrite Hi, E, app_length. f_equal. cbn [length]. lia. }
        destruct (nothing_more d j o ev XHeader (upto XHeader) wait t w XHeader hs Sv) as (M & O & Ma & I' & _);
          auto; try reflexivity; try discriminate.
        split; [exact (showed_moved _ _ _ _ M)|]. split; [reflexivity|]. split; [exact O|]. split; [exact Ma|].
        split; [intros _; congruence|discriminate].
      - assert (Hst' : st = XEndOfHeader).
        { assert (N1 : forall cs, st = XBody \/ st = XEndOfMessage -> after_end st cs = [] -> st = XBody /\ cs = []).
          { intros cs [-> | ->] Q; [|destruct cs; discriminate Q]. destruct cs; [auto|discriminate Q]. }
          destruct st; try discriminate X; try congruence.
          destruct (N1 chunks) as (_ & ->); auto.
          destruct (B (or_introl eq_refl)) as (Hb & Hc). apply chunked_nil in Hc. congruence. }
        subst st.
        destruct (nothing_more d j o ev XEndOfHeader (upto XEndOfHeader) wait t w XEndOfHeader hs Sv) as (M & O & Ma & I' & _);
          auto; try reflexivity; try discriminate.
        split; [exact (showed_moved _ _ _ _ M)|]. split; [reflexivity|]. split; [exact O|]. split; [exact Ma|].
        split; discriminate.
      - destruct Hst as [-> | ->]; [|congruence].
        destruct cs as [|c0 cs]; [|discriminate El].
        destruct (body_answered d j o ev XBody (upto XBody) wait t w Sv) as (M & O & Ma); auto.
        { reflexivity. }
        { exact (chunked_nil _ _ Hc). }
        split; [exact (showed_moved _ _ _ _ M)|]. split; [reflexivity|]. split; [exact O|]. split; [exact Ma|].
        split; [discriminate|]. intros _. now rewrite Ma.
      - subst st.
        destruct (nothing_more d j o ev XBody (upto XBody) wait t w XBody hs Sv) as (M & O & Ma & I' & _);
          auto; try reflexivity; try discriminate.
        split; [exact (showed_moved _ _ _ _ M)|]. split; [reflexivity|]. split; [exact O|]. split; [exact Ma|].
        split; [discriminate|]. intros _. now rewrite Ma.
    Qed.

    (** Several commands. *)
    Definition tables (t : table) (xs : list sstate) : table := fold_left went xs t.
    Lemma stands_walk : forall before t c0 rest c after w, standing t hs c0 rest w ->
      c0 :: rest = before ++ c :: after ->
      let w' := Run (S d) w (turns j (length before)) in
      exists es, map (OSent j) (before ++ [c]) = OSent j c0 :: es /\
        showed es [j] w w' /\ standing (tables t (map command_stage before)) hs c after w' /\
        same_mail (w_mail w) (w_mail w').
    Proof.
      induction before as [|b before IH]; intros t c0 rest c after w St E; cbv zeta.
      - cbn [app] in E. injection E as -> ->. exists []. split; [reflexivity|].
        split; [apply showed_refl, St|]. split; [exact St|apply same_mail_refl].
      - cbn [app] in E. injection E as -> E.
        assert (Hr : exists c1 rest', rest = c1 :: rest').
        { rewrite E. destruct before as [|b2 before]; [exists c, after|exists b2, (before ++ c :: after)]; reflexivity. }
        destruct Hr as (c1 & rest' & ->).
        destruct (stands_next t b c1 rest' w St) as (Sh1 & St1 & Sm1).
        destruct (IH _ _ _ c after _ St1 E) as (es & Ees & Sh2 & St2 & Sm2).
        exists (OSent j c1 :: es). cbn [length]. rewrite turns_S, run_app.
        split; [cbn [app map]; rewrite Ees; reflexivity|].
        split; [exact (showed_trans [_] _ _ _ _ _ Sh1 Sh2)|].
        split; [exact St2|exact (same_mail_trans _ _ _ Sm1 Sm2)].
    Qed.
  End Turn.

  (** *** The changes at the end of the message *)
  Record reads (j : nat) (o : moption) (ev : bool) (wait : list nat) (t : table) (w : world) : Prop := {
    reads_crashed : w_crashed w = false;
    reads_has : has w j;
    reads_nego : n_option (w_nego w) = Some no;
    reads_fits : fits o ev (child_of w j);
    reads_reading : reading XEndOfMessage (child_of w j);
    reads_keeps : keeps XEndOfMessage stages wait t (w_flow w)
  }.
  Record carries (original : list header) (c : content) (m : mail) : Prop := {
    carries_original : m_original m = Some original;
    carries_headers : m_headers m = Some (c_headers c);
    carries_body : whole_body m = c_body c;
    carries_store : m_file m <> None -> m_body m = None;
    carries_chunk : m_chunk m = None;
    carries_replaced : m_replaced m = c_replaced c;
    carries_from : m_from m = c_from c;
    carries_quarantine : m_quarantine m = c_quarantine c
  }.
  Lemma same_carries original c m m' : same_mail m m' -> carries original c m -> carries original c m'.
  Proof.
    intros Sm [C1 C2 C3 C4 C5 C6 C7 C8]. pose proof (same_whole _ _ Sm). destruct Sm. constructor; try congruence.
    intros Hf. rewrite same_body0. apply C4.
    destruct (m_file m'), (m_file m); cbn in *; congruence.
  Qed.

  Lemma serves_reads d j o ev wait t w : serves j o ev XEndOfMessage XEndOfMessage stages wait t w ->
    let w' := Run (S d) w [KFlushed j] in
    showed [] [j] w w' /\ reads j o ev wait t w' /\ w_mail w' = w_mail w.
  Proof.
    intros Sv. cbv zeta.
    destruct (flushed_reads (S d) w j XEndOfMessage o ev) as (w' & E & M & Fl & Ma & F & R); try apply Sv; auto.
    cbn [children_run fold_left]. rewrite E.
    split; [exact (showed_moved _ _ _ _ M)|]. split; [|exact Ma].
    constructor; try assumption.
    - apply M.
    - exact (moved_has _ _ _ _ _ M (serves_has _ _ _ _ _ _ _ _ _ Sv)).
    - rewrite (moved_nego _ _ _ _ M). apply Sv.
    - rewrite Fl. apply Sv.
  Qed.

  Definition is_request (r : reply) : bool := match r with RProgress => true | _ => is_edit r end.

  Lemma modification_reaches d j o ev wait t w r : reads j o ev wait t w -> is_request r = true ->
    exists w1, moved [OIn (KReply j r)] [j] w w1 /\ w_mail w1 = w_mail w /\ reads j o ev wait t w1 /\
      Step (S d) w (KReply j r) = cb_modification writes stops (Emit d) w1 j r.
  Proof.
    intros Rd Hr.
    set (w0 := log w (OIn (KReply j r))).
    assert (M0 : moved [OIn (KReply j r)] [j] w w0) by (apply moved_log, Rd).
    assert (H0 : has w0 j) by (apply has_log, Rd).
    assert (K0 : child_of w0 j = child_of w j) by apply child_log.
    assert (F0 : w_flow w0 = w_flow w) by apply flow_log.
    assert (G0 : w_mail w0 = w_mail w) by apply mail_log.
    assert (R0 : reads j o ev wait t w0).
    { constructor; rewrite ?K0, ?F0; try apply Rd; try assumption; try apply M0.
      rewrite (moved_nego _ _ _ _ M0). apply Rd. }
    set (w1 := match r with RProgress => on_child w0 j (fun k => put_k_timer k (Some TEndOfMessageReply))
                       | _ => w0 end).
    assert (W1 : moved [OIn (KReply j r)] [j] w w1 /\ w_mail w1 = w_mail w /\ reads j o ev wait t w1).
    { assert (D : moved [OIn (KReply j r)] [j] w w0 /\ w_mail w0 = w_mail w /\ reads j o ev wait t w0) by auto.
      unfold w1. destruct r; try exact D.
      split; [apply moved_child'; [exact M0|now left]|]. split; [exact G0|].
      constructor; try apply R0.
      - apply has_child, H0.
      - rewrite child_same by exact H0. destruct (reads_fits _ _ _ _ _ _ R0). constructor; assumption.
      - rewrite child_same by exact H0. destruct (reads_reading _ _ _ _ _ _ R0) as (? & ? & ?). repeat split; assumption. }
    destruct W1 as (M1 & G1 & R1). exists w1. split; [exact M1|]. split; [exact G1|]. split; [exact R1|].
    unfold children_step. rewrite (reads_crashed _ _ _ _ _ _ Rd). fold w0.
    assert (E : k_receive writes (Emit (S d)) w0 j r = k_modification (Emit (S d)) w0 j r)
      by (destruct r; try discriminate Hr; reflexivity).
    rewrite E. unfold k_modification.
    destruct (reads_reading _ _ _ _ _ _ R0) as (_ & -> & _). rewrite (fits_quitted _ _ _ (reads_fits _ _ _ _ _ _ R0)).
    fold w1. cbn [emit]. unfold handle. rewrite (reads_crashed _ _ _ _ _ _ R1), (fits_connected _ _ _ (reads_fits _ _ _ _ _ _ R1)).
    destruct r; try discriminate Hr; reflexivity.
  Qed.

  Lemma reads_mail j o ev wait t w g : reads j o ev wait t w -> reads j o ev wait t (on_mail w g).
  Proof. intros []. constructor; assumption. Qed.
  Lemma reads_log j o ev wait t w e : reads j o ev wait t w -> reads j o ev wait t (log w e).
  Proof. intros []. constructor; rewrite ?crashed_log, ?has_log, ?nego_log, ?child_log, ?flow_log; assumption. Qed.
  Lemma reads_dispose j o ev wait t w : reads j o ev wait t w -> reads j o ev wait t (dispose_body w).
  Proof.
    intros [C Hj Hn F R [K1 K2 K3 K4 K5 K6]]. constructor; try assumption. constructor; try assumption. reflexivity.
  Qed.

  Lemma write_whole w b : (m_file (w_mail w) <> None -> m_body (w_mail w) = None) ->
    whole_body (w_mail (write_body w b)) = whole_body (w_mail w) ++ b /\
    (m_file (w_mail (write_body w b)) <> None -> m_body (w_mail (write_body w b)) = None) /\
    m_original (w_mail (write_body w b)) = m_original (w_mail w) /\
    m_headers (w_mail (write_body w b)) = m_headers (w_mail w) /\
    m_chunk (w_mail (write_body w b)) = m_chunk (w_mail w) /\
    m_replaced (w_mail (write_body w b)) = m_replaced (w_mail w) /\
    m_replaced_each (w_mail (write_body w b)) = m_replaced_each (w_mail w) /\
    m_from (w_mail (write_body w b)) = m_from (w_mail w) /\
    m_quarantine (w_mail (write_body w b)) = m_quarantine (w_mail w).
  Proof.
    intros Hs. unfold write_body, whole_body, on_mail. cbv beta. cbn [put_w_mail w_mail].
    generalize MAX_ON_MEMORY_BODY_SIZE. intros max.
    destruct (m_file (w_mail w)) as [[f p]|] eqn:Ef.
    - assert (Eb := Hs ltac:(discriminate)).
      destruct b as [|c b].
      + rewrite Eb, Ef, app_nil_r. auto 10.
      + cbn [put_m_file m_body m_file m_original m_headers m_chunk m_replaced m_replaced_each m_from m_quarantine].
        rewrite Eb. auto 10.
    - destruct (m_body (w_mail w)) as [b0|]; cbv zeta;
        match goal with |- context [if ?t then _ else _] => destruct t end;
        cbn [put_m_file put_m_body m_body m_file m_original m_headers m_chunk m_replaced m_replaced_each m_from m_quarantine];
        rewrite ?Ef; auto 12; (split; [reflexivity|]); (split; [congruence|]); auto 10.
  Qed.

  Lemma edits_run d j o wait t original again rs c es c' : edits (converts o) again rs c es c' ->
    forall w, reads j o false wait t w -> carries original c (w_mail w) ->
    m_replaced_each (w_mail w) = again ->
    let w' := Run (S d) w (map (KReply j) rs) in
    showed es [j] w w' /\ reads j o false wait t w' /\ carries original c' (w_mail w').
  Proof.
    intros Ed.
    assert (Headers : forall r again rs c es c' hs, is_request r = true ->
      (forall w, reads j o false wait t w -> m_headers (w_mail w) = Some (c_headers c) ->
       cb_modification writes stops (Emit d) w j r = on_mail w (fun m => put_m_headers m (Some hs))) ->
      (forall w, reads j o false wait t w -> carries original (with_headers c hs) (w_mail w) ->
        m_replaced_each (w_mail w) = again ->
        let w' := Run (S d) w (map (KReply j) rs) in
        showed es [j] w w' /\ reads j o false wait t w' /\ carries original c' (w_mail w')) ->
      forall w, reads j o false wait t w -> carries original c (w_mail w) ->
        m_replaced_each (w_mail w) = again ->
        let w' := Run (S d) w (map (KReply j) (r :: rs)) in
        showed es [j] w w' /\ reads j o false wait t w' /\ carries original c' (w_mail w')).
    { clear Ed. clear again rs c es c'. intros r again rs c es c' hs Hr Hcb IH w Rd Ca Re. cbv zeta. 
      destruct (modification_reaches d j o false wait t w r Rd Hr) as (w1 & M1 & G1 & R1 & E).
      change (Run (S d) w (map (KReply j) (r :: rs)))
        with (Run (S d) (Step (S d) w (KReply j r)) (map (KReply j) rs)).
      rewrite E, Hcb; [|exact R1|rewrite G1; apply Ca].
      set (w2 := on_mail w1 (fun m => put_m_headers m (Some hs))).
      destruct (IH w2) as (Sh & R' & C').
      - apply reads_mail. exact R1.
      - unfold w2. cbn [on_mail put_w_mail w_mail]. rewrite G1. destruct Ca. constructor; assumption || reflexivity.
      - unfold w2. cbn [on_mail put_w_mail w_mail put_m_headers m_replaced_each]. congruence.
      - split; [|auto]. apply (showed_trans [] es [j] w w2); [|exact Sh].
        exact (showed_moved _ _ _ _ (moved_mail _ _ _ _ _ M1)). }
    assert (Mails : forall r again rs c c1 es c' g, is_request r = true ->
      (forall w, reads j o false wait t w ->
       cb_modification writes stops (Emit d) w j r = on_mail w g) ->
      (forall m, carries original c m -> carries original c1 (g m)) ->
      (forall m, m_replaced_each (g m) = m_replaced_each m) ->
      (forall w, reads j o false wait t w -> carries original c1 (w_mail w) ->
        m_replaced_each (w_mail w) = again ->
        let w' := Run (S d) w (map (KReply j) rs) in
        showed es [j] w w' /\ reads j o false wait t w' /\ carries original c' (w_mail w')) ->
      forall w, reads j o false wait t w -> carries original c (w_mail w) ->
        m_replaced_each (w_mail w) = again ->
        let w' := Run (S d) w (map (KReply j) (r :: rs)) in
        showed es [j] w w' /\ reads j o false wait t w' /\ carries original c' (w_mail w')).
    { clear Ed. clear again rs c es c'. intros r again rs c c1 es c' g Hr Hcb Hg He IH w Rd Ca Re. cbv zeta. 
      destruct (modification_reaches d j o false wait t w r Rd Hr) as (w1 & M1 & G1 & R1 & E).
      change (Run (S d) w (map (KReply j) (r :: rs)))
        with (Run (S d) (Step (S d) w (KReply j r)) (map (KReply j) rs)).
      rewrite E, Hcb; [|exact R1].
      destruct (IH (on_mail w1 g)) as (Sh & R' & C').
      - apply reads_mail. exact R1.
      - cbn [on_mail put_w_mail w_mail]. rewrite G1. auto.
      - cbn [on_mail put_w_mail w_mail]. rewrite He. congruence.
      - split; [|auto]. apply (showed_trans [] es [j] w (on_mail w1 g)); [|exact Sh].
        exact (showed_moved _ _ _ _ (moved_mail _ _ _ _ _ M1)). }
    assert (Logs : forall r e again rs c es c', is_request r = true -> visible e = true ->
      (forall w, reads j o false wait t w -> cb_modification writes stops (Emit d) w j r = log w e) ->
      (forall w, reads j o false wait t w -> carries original c (w_mail w) ->
        m_replaced_each (w_mail w) = again ->
        let w' := Run (S d) w (map (KReply j) rs) in
        showed es [j] w w' /\ reads j o false wait t w' /\ carries original c' (w_mail w')) ->
      forall w, reads j o false wait t w -> carries original c (w_mail w) ->
        m_replaced_each (w_mail w) = again ->
        let w' := Run (S d) w (map (KReply j) (r :: rs)) in
        showed (e :: es) [j] w w' /\ reads j o false wait t w' /\ carries original c' (w_mail w')).
    { clear Ed. clear again rs c es c'. intros r e again rs c es c' Hr He Hcb IH w Rd Ca Re. cbv zeta. 
      destruct (modification_reaches d j o false wait t w r Rd Hr) as (w1 & M1 & G1 & R1 & E).
      change (Run (S d) w (map (KReply j) (r :: rs)))
        with (Run (S d) (Step (S d) w (KReply j r)) (map (KReply j) rs)).
      rewrite E, Hcb; [|exact R1].
      destruct (IH (log w1 e)) as (Sh & R' & C').
      - apply reads_log. exact R1.
      - rewrite mail_log, G1. exact Ca.
      - rewrite mail_log, G1. exact Re.
      - split; [|auto]. apply (showed_trans [e] es [j] w (log w1 e)); [|exact Sh].
        replace [e] with (filter visible ([OIn (KReply j r)] ++ [e])) by (cbn; rewrite He; reflexivity).
        apply showed_moved. apply (moved_trans _ _ _ _ _ _ M1). apply moved_log, R1. }
    assert (At : forall w, reads j o false wait t w -> k_state (child_of w j) = XEndOfMessage)
      by (intros w Rd; apply (reads_reading _ _ _ _ _ _ Rd)).
    assert (Ev : forall w, reads j o false wait t w -> k_evaluation (child_of w j) = false)
      by (intros w Rd; apply (fits_evaluation _ _ _ (reads_fits _ _ _ _ _ _ Rd))).
    assert (Cv : forall w, reads j o false wait t w -> space_conversion w j = Some (converts o))
      by (intros w Rd; exact (conversion w j o false (reads_nego _ _ _ _ _ _ Rd) (reads_fits _ _ _ _ _ _ Rd))).
    induction Ed as [again c|again n v rs c hs es c' Ha Ed IH|again p n v rs c hs es c' Hp Hl Ha Ed IH
      |again n p v v' rs c hs es c' He Ha Ed IH|again n p found rs c hs es c' Ha Ed IH|again f p rs c es c' Ed IH
      |again reason rs c es c' Ed IH|again b rs c es c' Ed IH|again a p rs c es c' Ed IH
      |again a rs c es c' Ed IH|again rs c es c' Ed IH].
    - intros w Rd Ca Re. cbn. split; [apply showed_refl, Rd|]. auto.
    - apply (Headers _ _ _ _ _ _ hs); [reflexivity| |exact IH].
      intros w Rd Hh. unfold cb_modification, edit_headers. rewrite (At w Rd), (Ev w Rd), (Cv w Rd), Hh.
      rewrite normalized_entered. rewrite (added_fun _ _ _ _ _ (headers_add_spec (c_headers c) n _) Ha). reflexivity.
    - apply (Headers _ _ _ _ _ _ hs); [reflexivity| |exact IH].
      intros w Rd Hh. unfold cb_modification, edit_headers. rewrite (At w Rd), (Ev w Rd), (Cv w Rd), Hh.
      rewrite normalized_entered.
      rewrite (inserted_fun _ _ _ _ _ (headers_insert_spec (c_headers c) p n _ Hp Hl) Ha). reflexivity.
    - apply (Headers _ _ _ _ _ _ hs); [reflexivity| |exact IH].
      intros w Rd Hh. unfold cb_modification, edit_headers. rewrite (At w Rd), (Ev w Rd), (Cv w Rd), Hh.
      rewrite normalized_entered, He. apply headers_change_spec in Ha. rewrite Ha. reflexivity.
    - apply (Headers _ _ _ _ _ _ hs); [reflexivity| |exact IH].
      intros w Rd Hh. unfold cb_modification. rewrite (At w Rd), (Ev w Rd), Hh.
      apply headers_delete_spec in Ha. rewrite Ha. reflexivity.
    - eapply (Mails _ _ _ _ _ _ _ (fun m => put_m_from m (Some (f, p)))); [reflexivity| | | |exact IH].
      + intros w Rd. unfold cb_modification. rewrite (At w Rd), (Ev w Rd). reflexivity.
      + intros m []. constructor; assumption || reflexivity.
      + reflexivity.
    - eapply (Mails _ _ _ _ _ _ _ (fun m => put_m_quarantine m (Some reason))); [reflexivity| | | |exact IH].
      + intros w Rd. unfold cb_modification. rewrite (At w Rd), (Ev w Rd). reflexivity.
      + intros m []. constructor; assumption || reflexivity.
      + reflexivity.
    - intros w Rd Ca Re. cbv zeta.
      destruct (modification_reaches d j o false wait t w (RReplaceBody b) Rd eq_refl) as (w1 & M1 & G1 & R1 & E).
      change (Run (S d) w (map (KReply j) (RReplaceBody b :: rs)))
        with (Run (S d) (Step (S d) w (KReply j (RReplaceBody b))) (map (KReply j) rs)).
      rewrite E. unfold cb_modification. rewrite (At w1 R1), (Ev w1 R1). cbv zeta. rewrite G1, Re.
      set (wd := if again then w1 else dispose_body w1).
      assert (D : moved [OIn (KReply j (RReplaceBody b))] [j] w wd /\ reads j o false wait t wd /\
                  whole_body (w_mail wd) = (if again then c_body c else []) /\
                  (m_file (w_mail wd) <> None -> m_body (w_mail wd) = None) /\
                  m_original (w_mail wd) = Some original /\ m_headers (w_mail wd) = Some (c_headers c) /\
                  m_chunk (w_mail wd) = None /\ m_from (w_mail wd) = c_from c /\
                  m_quarantine (w_mail wd) = c_quarantine c).
      { unfold wd. destruct again.
        - rewrite G1. split; [exact M1|]. split; [exact R1|]. destruct Ca. auto 10.
        - split; [apply moved_mail, moved_flow; exact M1|]. split; [apply reads_dispose; exact R1|].
          cbn [dispose_body on_mail put_w_mail w_mail put_m_file put_m_body m_file m_body m_original m_headers m_chunk m_from m_quarantine].
          unfold dispose_body. cbn.
          rewrite G1. destruct Ca. auto 10. }
      destruct D as (Md & Rd' & Bd & Sd & Od & Hd & Cd & Fd & Qd).
      destruct (write_whole wd b Sd) as (B2 & S2 & O2 & H2 & C2 & _ & _ & F2 & Q2).
      match goal with |- context [children_run _ _ _ _ _ ?v _] => set (w2 := v) end.
      destruct (IH w2) as (Sh & R' & C').
      + apply reads_mail, reads_mail. exact Rd'.
      + assert (G2 : w_mail w2 = put_m_replaced (put_m_replaced_each (w_mail (write_body wd b)) true) true) by reflexivity.
        clearbody w2. constructor; rewrite G2;
          cbn [put_m_replaced put_m_replaced_each m_original m_headers m_file m_body m_chunk m_replaced m_from m_quarantine c_headers c_body c_replaced c_from c_quarantine].
        * congruence.
        * congruence.
        * change (whole_body (w_mail (write_body wd b)) = (if again then c_body c ++ b else b)).
          rewrite B2, Bd. destruct again; reflexivity.
        * exact S2.
        * congruence.
        * reflexivity.
        * congruence.
        * congruence.
      + reflexivity.
      + split; [|auto]. apply (showed_trans [] es [j] w w2); [|exact Sh].
        exact (showed_moved _ _ _ _ (moved_mail _ _ _ _ _ (moved_mail _ _ _ _ _ Md))).
    - apply (Logs _ (OAddRecipient a p)); [reflexivity|reflexivity| |exact IH].
      intros w Rd. unfold cb_modification. rewrite (At w Rd), (Ev w Rd). reflexivity.
    - apply (Logs _ (ODeleteRecipient a)); [reflexivity|reflexivity| |exact IH].
      intros w Rd. unfold cb_modification. rewrite (At w Rd), (Ev w Rd). reflexivity.
    - apply (Logs _ OProgress); [reflexivity|reflexivity| |exact IH].
      intros w Rd. unfold cb_modification. rewrite (At w Rd). reflexivity.
  Qed.

  Lemma ignored_run d j o wait t rs es : ignored rs es ->
    forall w, reads j o true wait t w ->
    let w' := Run (S d) w (map (KReply j) rs) in
    showed es [j] w w' /\ reads j o true wait t w' /\ w_mail w' = w_mail w.
  Proof.
    induction 1 as [|rs es Hi IH|r rs es Hr Hi IH]; intros w Rd; cbv zeta.
    - cbn. split; [apply showed_refl, Rd|]. auto.
    - destruct (modification_reaches d j o true wait t w RProgress Rd eq_refl) as (w1 & M1 & G1 & R1 & E).
      change (Run (S d) w (map (KReply j) (RProgress :: rs)))
        with (Run (S d) (Step (S d) w (KReply j RProgress)) (map (KReply j) rs)).
      rewrite E. unfold cb_modification. destruct (reads_reading _ _ _ _ _ _ R1) as (_ & -> & _).
      destruct (IH (log w1 OProgress)) as (Sh & R' & G'); [apply reads_log; exact R1|].
      rewrite mail_log in G'. split; [|split; [exact R'|congruence]].
      apply (showed_trans [OProgress] es [j] w (log w1 OProgress)); [|exact Sh].
      apply (showed_moved ([OIn (KReply j RProgress)] ++ [OProgress])).
      apply (moved_trans _ _ _ _ _ _ M1). apply moved_log, R1.
    - assert (Hq : is_request r = true) by (unfold is_request; destruct r; exact Hr || reflexivity).
      destruct (modification_reaches d j o true wait t w r Rd Hq) as (w1 & M1 & G1 & R1 & E).
      change (Run (S d) w (map (KReply j) (r :: rs)))
        with (Run (S d) (Step (S d) w (KReply j r)) (map (KReply j) rs)).
      assert (Ecb : cb_modification writes stops (Emit d) w1 j r = w1).
      { unfold cb_modification. destruct (reads_reading _ _ _ _ _ _ R1) as (_ & -> & _).
        rewrite (fits_evaluation _ _ _ (reads_fits _ _ _ _ _ _ R1)). destruct r; try discriminate Hr; reflexivity. }
      rewrite E, Ecb. destruct (IH w1 R1) as (Sh & R' & G').
      split; [|split; [exact R'|congruence]].
      apply (showed_trans [] es [j] w w1); [|exact Sh]. exact (showed_moved _ _ _ _ M1).
  Qed.

  (** *** All the filters behind the first *)
  Notation able := (MessageSpec.able no).
  Lemma able_showed es js k w w' : showed es js w w' -> ~ In (wk_filter k) js -> able k w -> able k w'.
  Proof.
    intros Sh Hk (Hh & o & T & Cv & F & Fr). split; [exact (showed_has _ _ _ _ _ Sh Hh)|].
    exists o. rewrite (showed_other _ _ _ _ _ Sh Hk). auto.
  Qed.

  Lemma works_run d k o wait t original c es c' w : works k c es c' -> converts o = wk_convert k ->
    reads (wk_filter k) o (wk_evaluated k) wait t w -> carries original c (w_mail w) ->
    m_replaced_each (w_mail w) = false ->
    let w' := Run (S d) w (map (KReply (wk_filter k)) (wk_requests k)) in
    showed es [wk_filter k] w w' /\ reads (wk_filter k) o (wk_evaluated k) wait t w' /\
    carries original c' (w_mail w').
  Proof.
    unfold works. intros Wk Cv Rd Ca Re. destruct (wk_evaluated k).
    - destruct Wk as (Ig & ->). destruct (ignored_run d _ o wait t _ _ Ig w Rd) as (Sh & R' & G').
      split; [exact Sh|]. split; [exact R'|]. now rewrite G'.
    - rewrite <- Cv in Wk. exact (edits_run d _ o wait t original _ _ _ _ _ Wk w Rd Ca Re).
  Qed.

  Lemma fold_log {A} (g : A -> event) l js w : w_crashed w = false ->
    let w' := fold_left (fun w a => log w (g a)) l w in
    moved (map g l) js w w' /\ w_flow w' = w_flow w /\ w_mail w' = w_mail w.
  Proof.
    revert w. induction l as [|a l IH]; intros w C; cbv zeta; cbn [fold_left map].
    - split; [apply moved_refl; exact C|]. auto.
    - destruct (IH (log w (g a))) as (M & F & G); [now rewrite crashed_log|].
      rewrite flow_log in F. rewrite mail_log in G. split; [|auto].
      exact (moved_trans [_] _ _ _ _ _ (moved_log _ _ _ C) M).
  Qed.

  Lemma body_chunked fuel b : (length b <= fuel)%nat -> chunked chunk_size b (body_chunks chunk_size fuel b).
  Proof.
    revert b. induction fuel as [|n IH]; intros b Hb.
    - destruct b; [constructor|cbn in Hb; lia].
    - destruct b as [|x b]; [constructor|]. cbn [body_chunks].
      set (l := x :: b) in *.
      destruct (N.leb_spec (N.of_nat (length l)) chunk_size) as [H|H].
      + rewrite firstn_all2 by lia. rewrite skipn_all2 by lia.
        replace (body_chunks chunk_size n []) with (@nil bytes) by (destruct n; reflexivity).
        constructor; [discriminate|exact H].
      + rewrite <- (firstn_skipn (N.to_nat chunk_size) l) at 1.
        constructor.
        * rewrite firstn_length. lia.
        * intros E. apply (f_equal (@length _)) in E. rewrite skipn_length in E. cbn [length] in E. lia.
        * apply IH. rewrite skipn_length. unfold l in *. cbn [length] in *. lia.
  Qed.

  (** *** The answer to the MTA *)
  Definition final_events (original : list header) (c : content) : list event :=
    (if c_replaced c
     then map OReplaceBody (body_chunks chunk_size (length (c_body c)) (c_body c)) else []) ++
    map OHeader (header_changes original (c_headers c)) ++
    match c_from c with Some (f, p) => [OChangeFrom f p] | None => [] end ++
    match c_quarantine c with Some r => [OQuarantine r] | None => [] end.
  Lemma final_changes original c : changes chunk_size original c (final_events original c).
  Proof.
    exists (if c_replaced c then body_chunks chunk_size (length (c_body c)) (c_body c) else []),
           (header_changes original (c_headers c)).
    split; [destruct (c_replaced c); [apply body_chunked; lia|reflexivity]|].
    split; [intros; apply reported_permutation; assumption|].
    unfold final_events. destruct (c_replaced c); reflexivity.
  Qed.
  Lemma final_visible original c : filter visible (final_events original c) = final_events original c.
  Proof.
    unfold final_events. rewrite !filter_app.
    assert (V1 : forall cs, filter visible (map OReplaceBody cs) = map OReplaceBody cs)
      by (induction cs as [|a l IHl]; [reflexivity|cbn; now rewrite IHl]).
    assert (V2 : forall rs, filter visible (map OHeader rs) = map OHeader rs)
      by (induction rs as [|a l IHl]; [reflexivity|cbn; now rewrite IHl]).
    rewrite V2. destruct (c_replaced c); rewrite ?V1; destruct (c_from c) as [[? ?]|], (c_quarantine c); reflexivity.
  Qed.
  (** The answer for a verdict, given the kept reply code. *)
  Definition answer (kept : option (N * bytes * option bytes)) (s : status) : option event :=
    let class := match kept with Some (c, _, _) => c / 100 | None => 0 end in
    if ((class =? 4) && status_eqb s S_TEMPORARY_FAILURE) || ((class =? 5) && status_eqb s S_REJECT)
    then match kept with Some (c, e, m) => Some (OAnswerCode c e m) | None => None end
    else if status_eqb s S_NOT_CHANGE then None else Some (signal_of s).

  Lemma emits original c js w x s e : w_crashed w = false -> f_emitted (w_flow w) = false ->
    (x = XEndOfMessage -> carries original c (w_mail w)) ->
    stored_status (f_statuses (w_flow w) x) = s -> answer (f_code (w_flow w)) s = Some e ->
    moved ((match x with XEndOfMessage => final_events original c | _ => [] end) ++ [e]) js w
          (emit_message_reply chunk_size w x).
  Proof.
    intros C Em Ca Es An. unfold emit_message_reply. rewrite Em. cbv zeta.
    set (w1 := on_flow w (fun f => put_f_emitted f true)).
    assert (M1 : moved [] js w w1) by (apply moved_flow, moved_refl; exact C).
    assert (Status : forall v y, y = x -> w_crashed v = false -> w_flow v = w_flow w1 ->
      moved [e] js v (emit_reply_status v y)).
    { intros v y -> Cv Fv. unfold emit_reply_status, reply_status. rewrite Fv.
      change (f_statuses (w_flow w1)) with (f_statuses (w_flow w)). rewrite Es.
      change (f_code (w_flow w1)) with (f_code (w_flow w)).
      unfold answer in An.
      set (b := ((match f_code (w_flow w) with Some (c0, _, _) => c0 / 100 | None => 0 end =? 4) && status_eqb s S_TEMPORARY_FAILURE)
             || ((match f_code (w_flow w) with Some (c0, _, _) => c0 / 100 | None => 0 end =? 5) && status_eqb s S_REJECT)) in *.
      assert (R : exists v1, (if b then match f_code (w_flow w) with
                    | Some (c0, e0, m) => on_flow (log v (OAnswerCode c0 e0 m)) (fun f => put_f_code f None)
                    | None => v end
                  else if status_eqb s S_NOT_CHANGE then v else log v (signal_of s)) = v1 /\ moved [e] js v v1).
      { eexists. split; [reflexivity|]. destruct b.
        - destruct (f_code (w_flow w)) as [[[c0 e0] m]|]; [|discriminate An]. injection An as <-.
          apply moved_flow, moved_log. exact Cv.
        - destruct (status_eqb s S_NOT_CHANGE); [discriminate An|]. injection An as <-.
          apply moved_log. exact Cv. }
      destruct R as (v1 & -> & M). unfold dispose_message, dispose_body.
      destruct x; try exact M. apply moved_mail, moved_mail, moved_flow, moved_mail, moved_flow. exact M. }
    destruct (sstate_eqb x XEndOfMessage) eqn:Ex.
    2: { assert (Q : x <> XEndOfMessage) by (intros ->; discriminate Ex).
         destruct x; try congruence; exact (moved_trans [] _ _ _ _ _ M1 (Status w1 _ eq_refl C eq_refl)). }
    assert (Q : x = XEndOfMessage) by (destruct x; try discriminate Ex; reflexivity). subst x. clear Ex.
    specialize (Ca eq_refl).
    unfold emit_end_of_message. change (w_mail w1) with (w_mail w).
    set (wb := if m_replaced (w_mail w) then emit_replace_body chunk_size w1 else w1).
    assert (Hb : moved (if c_replaced c then map OReplaceBody (body_chunks chunk_size (length (c_body c)) (c_body c)) else []) js w wb /\
              w_flow wb = w_flow w1 /\
              m_original (w_mail wb) = Some original /\ m_headers (w_mail wb) = Some (c_headers c) /\
              m_from (w_mail wb) = c_from c /\ m_quarantine (w_mail wb) = c_quarantine c).
    { unfold wb. rewrite (carries_replaced _ _ _ Ca). destruct (c_replaced c).
      - unfold emit_replace_body. replace (chunk_size =? 0) with false by lia. cbn [andb].
        change (match m_body (w_mail w1) with
                | Some b0 => b0
                | None => match m_file (w_mail w1) with Some (b2, _) => b2 | None => [] end
                end) with (whole_body (w_mail w)). cbv zeta.
        rewrite (carries_body _ _ _ Ca).
        match goal with |- context [fold_left _ _ ?v] => set (w2 := v) end.
        destruct (fold_log OReplaceBody (body_chunks chunk_size (length (c_body c)) (c_body c)) js w2)
          as (M2 & F2 & G2); [exact C|]. rewrite F2, G2.
        split; [exact (moved_trans [] _ _ _ _ _ (moved_mail _ _ _ _ _ M1) M2)|].
        split; [reflexivity|]. unfold w2. cbn [on_mail put_w_mail w_mail].
        change (w_mail w1) with (w_mail w).
        destruct (m_body (w_mail w)); [|destruct (m_file (w_mail w)) as [[? ?]|]];
          cbn [put_m_file m_original m_headers m_from m_quarantine]; destruct Ca; auto.
      - split; [exact M1|]. split; [reflexivity|].
        change (w_mail w1) with (w_mail w). destruct Ca; auto. }
    destruct Hb as (Mb & Fb & Ob & Hb & Frb & Qb). clearbody wb.
    rewrite Ob, Hb.
    destruct (fold_log OHeader (header_changes original (c_headers c)) js wb (moved_crashed _ _ _ _ Mb))
      as (M2 & F2 & G2). 
    set (w2 := fold_left (fun w h => log w (OHeader h)) (header_changes original (c_headers c)) wb) in *.
    clearbody w2. rewrite G2, Frb.
    set (w3 := match c_from c with Some (f, p) => log w2 (OChangeFrom f p) | None => w2 end).
    assert (M3 : moved (match c_from c with Some (f, p) => [OChangeFrom f p] | None => [] end) js w2 w3 /\
                 w_flow w3 = w_flow w2 /\ w_mail w3 = w_mail w2).
    { unfold w3. destruct (c_from c) as [[f p]|].
      - split; [apply moved_log, M2|]. split; [apply flow_log|apply mail_log].
      - split; [apply moved_refl, M2|]. auto. }
    destruct M3 as (M3 & F3 & G3). clearbody w3. rewrite G3, G2, Qb.
    set (w4 := match c_quarantine c with Some r => log w3 (OQuarantine r) | None => w3 end).
    assert (M4 : moved (match c_quarantine c with Some r => [OQuarantine r] | None => [] end) js w3 w4 /\
                 w_flow w4 = w_flow w3).
    { unfold w4. destruct (c_quarantine c) as [r|].
      - split; [apply moved_log, M3|apply flow_log].
      - split; [apply moved_refl, M3|]. auto. }
    destruct M4 as (M4 & F4). clearbody w4.
    unfold final_events. rewrite <- !app_assoc.
    apply (moved_trans _ _ _ _ _ _ Mb), (moved_trans _ _ _ _ _ _ M2), (moved_trans _ _ _ _ _ _ M3),
        (moved_trans _ _ _ _ _ _ M4).
    apply Status; [reflexivity|apply M4|congruence].
  Qed.

  (** *** Who is told to abort *)
  Variable total : nat.
  Variable early : nat -> bool.
  Definition is_live (live : list nat) (i : nat) : bool := existsb (Nat.eqb i) live || early i.
  Definition told_to_abort (k : child) : bool := k_is_processing_message k || sstate_eqb (k_state k) XFrom.
  Definition cast (live : list nat) (w : world) : Prop :=
    length (w_children w) = total /\
    forall i, (i < total)%nat -> told_to_abort (child_of w i) = is_live live i.

  Lemma is_live_in live i : In i live -> is_live live i = true.
  Proof.
    intros H. unfold is_live. apply orb_true_iff. left. apply existsb_exists. exists i.
    split; [exact H|apply Nat.eqb_refl].
  Qed.
  Lemma abort_fold E live : forall l ok v, NoDup l -> w_crashed v = false ->
    (forall i, In i l -> has v i /\ told_to_abort (child_of v i) = is_live live i) ->
    exists v', fold_left (fun '(ok, w) i =>
                     let k := child_of w i in
                     if k_is_processing_message k || sstate_eqb (k_state k) XFrom
                     then let (ok', w') := k_call writes stops E w i CAbort in (ok && ok', w')
                     else (ok, w)) l (ok, v) = (ok, v') /\
      moved (map (fun i => OSent i CAbort) (filter (is_live live) l)) l v v'.
  Proof.
    induction l as [|i l IH]; intros ok v Nd C Hl; cbn [fold_left map filter].
    - exists v. split; [reflexivity|apply moved_refl; exact C].
    - inversion Nd as [|? ? Ni Nd']; subst. destruct (Hl i (or_introl eq_refl)) as (Hi & Ti).
      cbv zeta. unfold told_to_abort in Ti. rewrite Ti. destruct (is_live live i).
      + unfold k_call, k_write. cbn [urgent negb andb]. rewrite Hwrites, andb_true_r.
        match goal with |- context [fold_left _ l (ok, ?u)] => set (v1 := u) end.
        assert (M1 : moved [OSent i CAbort] [i] v v1).
        { apply moved_child'; [|now left]. apply moved_child'; [|now left]. apply moved_log. exact C. }
        destruct (IH ok v1 Nd') as (v' & E' & M').
        { apply M1. }
        { intros i' Hi'. destruct (Hl i' (or_intror Hi')) as (A & B). split; [exact (moved_has _ _ _ _ _ M1 A)|].
          rewrite (moved_other _ _ _ _ M1); [exact B|]. intros [-> |[]]. contradiction. }
        exists v'. split; [exact E'|]. cbn [map].
        apply (moved_trans [_] _ _ _ v1).
        * apply (moved_more _ [i]); [|exact M1]. intros i' [<-|[]]. now left.
        * apply (moved_more _ l); [|exact M']. intros i' Hi'. now right.
      + destruct (IH ok v Nd' C) as (v' & E' & M').
        { intros i' Hi'. exact (Hl i' (or_intror Hi')). }
        exists v'. split; [exact E'|]. apply (moved_more _ l); [|exact M']. intros i' Hi'. now right.
  Qed.
  Lemma aborts_shown E live w : w_crashed w = false -> cast live w ->
    moved (aborts total early live) (seq 0 total) w (snd (abort_children writes stops E w)).
  Proof.
    intros C (Len & Ca). unfold abort_children. cbv zeta.
    set (w1 := set_both w XAbort).
    assert (Ei : indices w1 = seq 0 total) by (unfold indices; change (w_children w1) with (w_children w); now rewrite Len).
    destruct (abort_fold E live (indices w1) true w1) as (v' & E' & M').
    - rewrite Ei. apply seq_NoDup.
    - exact C.
    - intros i Hi. rewrite Ei in Hi. apply in_seq in Hi. split.
      + unfold has. change (w_children w1) with (w_children w). lia.
      + apply Ca. lia.
    - cbv zeta in E'. rewrite E'. cbn [snd]. rewrite Ei in M'. unfold aborts.
      change (fun i : nat => existsb (Nat.eqb i) live || early i) with (is_live live).
      destruct M' as [A B D F G]. constructor.
      + exact A.
      + exact B.
      + exact D.
      + cbn [put_w_children w_children]. rewrite map_length. exact F.
      + intros i Hi. transitivity (child_of v' i); [|exact (G i Hi)].
        assert (Hl : (total <= i)%nat).
        { destruct (Nat.le_gt_cases total i); [assumption|]. exfalso. apply Hi, in_seq. lia. }
        unfold child_of. cbn [put_w_children w_children].
        rewrite !nth_overflow; [reflexivity| |].
        * change (length (w_children v') <= i)%nat. rewrite F. change (w_children w1) with (w_children w). lia.
        * rewrite map_length. change (length (w_children v') <= i)%nat. rewrite F. change (w_children w1) with (w_children w). lia.
  Qed.

  (** *** A verdict of a filter *)
  Definition is_verdict (r : reply) : bool :=
    match r with
    | RAccept | RReject | RTemporaryFailure | RDiscard | RReplyCode _ _ _ => true
    | _ => false
    end.
  Definition on_verdict (d : nat) (w : world) (j : nat) (r : reply) : world :=
    match r with
    | RContinue => cb_continue writes stops chunk_size (Emit d) (Resume d) w j
    | RReplyCode c e m => cb_reply_code writes stops chunk_size (Emit d) (Resume d) w j c e m
    | RTemporaryFailure => cb_refuse writes stops chunk_size (Emit d) (Resume d) w j S_TEMPORARY_FAILURE
    | RReject => cb_refuse writes stops chunk_size (Emit d) (Resume d) w j S_REJECT
    | RAccept => cb_accept writes stops chunk_size (Emit d) (Resume d) w j
    | _ => cb_discard writes stops chunk_size (Emit d) (Resume d) w j
    end.
  (** What is done to the filter after the verdict was passed on. *)
  Record mild (j : nat) (v v' : world) : Prop := {
    mild_flow : w_flow v' = w_flow v;
    mild_mail : w_mail v' = w_mail v;
    mild_moved : w_crashed v = false -> moved [] [j] v v';
    mild_told : told_to_abort (child_of v' j) = told_to_abort (child_of v j)
  }.
  Lemma mild_refl j v : mild j v v.
  Proof. constructor; auto. apply moved_refl. Qed.
  Lemma mild_trans j a b c : mild j a b -> mild j b c -> mild j a c.
  Proof.
    intros [A1 A2 A3 A4] [B1 B2 B3 B4]. constructor; try congruence.
    intros C. specialize (A3 C). exact (moved_trans [] [] _ _ _ _ A3 (B3 (moved_crashed _ _ _ _ A3))).
  Qed.
  Lemma mild_child j v g : (forall k, told_to_abort (g k) = told_to_abort k) -> has v j -> mild j v (on_child v j g).
  Proof.
    intros Hg Hj. constructor; try reflexivity.
    - intros C. apply moved_child. exact C.
    - rewrite child_same by exact Hj. apply Hg.
  Qed.
  Lemma mild_has j v v' : w_crashed v = false -> mild j v v' -> has v j -> has v' j.
  Proof. intros C M H. exact (moved_has _ _ _ _ _ (mild_moved _ _ _ M C) H). Qed.
  Lemma mild_end j v spare : has v j -> mild j v (k_end_message v j spare).
  Proof.
    intros H. unfold k_end_message. destruct (_ && _); [|apply mild_refl]. apply mild_child; [reflexivity|exact H].
  Qed.

  Lemma verdict_reaches d j o ev x w r : w_crashed w = false -> has w j -> fits o ev (child_of w j) ->
    reading x (child_of w j) -> content_stage x = true ->
    is_verdict r = true \/ (r = RContinue /\ x = XEndOfMessage) ->
    exists w1, moved [OIn (KReply j r)] [j] w w1 /\ w_flow w1 = w_flow w /\ w_mail w1 = w_mail w /\
      fits o ev (child_of w1 j) /\ k_state (child_of w1 j) = x /\
      (has (on_verdict d w1 j r) j -> mild j (on_verdict d w1 j r) (Step (S d) w (KReply j r))).
  Proof.
    intros C Hj F (N1 & S1 & R) X Hr.
    set (w0 := log w (OIn (KReply j r))).
    assert (M0 : moved [OIn (KReply j r)] [j] w w0) by (apply moved_log; exact C).
    assert (C0 : w_crashed w0 = false) by apply M0.
    assert (H0 : has w0 j) by (apply has_log; exact Hj).
    assert (K0 : child_of w0 j = child_of w j) by apply child_log.
    set (wt := on_child w0 j (fun k => put_k_timer k None)).
    assert (Ht : has wt j) by (apply has_child; exact H0).
    assert (Kt : child_of wt j = put_k_timer (child_of w j) None)
      by (unfold wt; rewrite child_same by exact H0; now rewrite K0).
    assert (Ref : k_refuse w0 j = w0).
    { unfold k_refuse. rewrite K0. cbv zeta.
      replace (k_state (k_ensure_message (child_of w j))) with x
        by (unfold k_ensure_message; destruct (k_message (child_of w j)); symmetry; exact S1).
      destruct x; try discriminate X; reflexivity. }
    assert (Q : k_quitted (child_of w j) = false) by apply F.
    set (w1 := match r with
               | RReplyCode _ _ _ => match x with XBody => on_child wt j (fun k => put_k_replies k []) | _ => wt end
               | _ => wt
               end).
    assert (K1 : fits o ev (child_of w1 j) /\ k_state (child_of w1 j) = x).
    { assert (B : fits o ev (child_of wt j) /\ k_state (child_of wt j) = x).
      { rewrite Kt. split; [destruct F; constructor; assumption|exact S1]. }
      assert (B2 : fits o ev (child_of (on_child wt j (fun k => put_k_replies k [])) j) /\
                   k_state (child_of (on_child wt j (fun k => put_k_replies k [])) j) = x).
      { rewrite child_same by exact Ht. rewrite Kt. split; [destruct F; constructor; assumption|exact S1]. }
      unfold w1. destruct r; try exact B. destruct x; try exact B. exact B2. }
    assert (M1 : moved [OIn (KReply j r)] [j] w w1).
    { assert (Mt : moved [OIn (KReply j r)] [j] w wt) by (apply moved_child'; [exact M0|now left]).
      unfold w1. destruct r; try exact Mt. destruct x; try exact Mt. apply moved_child'; [exact Mt|now left]. }
    assert (F1 : w_flow w1 = w_flow w).
    { assert (B : w_flow wt = w_flow w) by apply flow_log.
      unfold w1. destruct r; try exact B. destruct x; exact B. }
    assert (G1 : w_mail w1 = w_mail w).
    { assert (B : w_mail wt = w_mail w) by apply mail_log.
      unfold w1. destruct r; try exact B. destruct x; exact B. }
    exists w1. split; [exact M1|]. split; [exact F1|]. split; [exact G1|].
    split; [apply K1|]. split; [apply K1|].
    intros Hv.
    assert (E : Emit (S d) w1 j (GReply r) = on_verdict d w1 j r).
    { cbn [emit]. unfold handle. rewrite (moved_crashed _ _ _ _ M1).
      rewrite (fits_connected _ _ _ (proj1 K1)). cbn [negb].
      destruct Hr as [Hr|(-> & _)]; [destruct r; try discriminate Hr; reflexivity|reflexivity]. }
    unfold children_step. rewrite C. fold w0.
    assert (Fin : forall spare, mild j (on_verdict d w1 j r)
        (let w2 := k_end_message (on_verdict d w1 j r) j spare in
         match k_state (child_of w2 j) with
         | XBody => on_child w2 j (fun k => put_k_replies k [])
         | _ => w2
         end)).
    { intros spare. cbv zeta.
      assert (H2 : has (k_end_message (on_verdict d w1 j r) j spare) j).
      { unfold k_end_message. destruct (_ && _); [|exact Hv]. apply has_child. exact Hv. }
      apply (mild_trans _ _ _ _ (mild_end j _ spare Hv)).
      destruct (k_state (child_of (k_end_message (on_verdict d w1 j r) j spare) j)); try apply mild_refl. apply mild_child; [reflexivity|exact H2]. }
    destruct Hr as [Hr|(-> & ->)].
    - destruct r; try discriminate Hr; unfold k_receive; rewrite ?Ref, ?C0; unfold k_final_reply; fold wt; cbv zeta;
        rewrite ?Kt; cbn [put_k_timer k_quitted k_state]; rewrite ?Q.
      all: try (change wt with w1; rewrite E; apply Fin).
      rewrite S1. replace (answerable x) with true by (destruct x; try discriminate X; reflexivity).
      fold w1. rewrite E. apply mild_end. exact Hv.
    - unfold k_receive. fold wt. rewrite Kt. cbn [put_k_timer k_state k_quitted]. rewrite S1, Q. cbn [answerable].
      change wt with w1. rewrite E. cbv zeta.
      destruct (k_state (child_of (on_verdict d w1 j RContinue) j)); try apply mild_refl. apply mild_child; [reflexivity|exact Hv].
  Qed.
  (** *** A filter is through with the message *)
  Definition noted (t : table) (x : sstate) (v : status) : table := status_put t x (compile_status (t x) v).
  Lemma noted_keeps st cmds wait t w x v : keeps st cmds wait t (w_flow w) ->
    keeps st cmds wait (noted t x v) (w_flow (compile_reply w x v)).
  Proof.
    intros []. constructor; cbn [compile_reply on_flow put_w_flow w_flow put_f_statuses f_state f_commands f_waiting f_emitted f_statuses f_code];
      try assumption. unfold noted. congruence.
  Qed.
  Lemma told_fits o ev k : fits o ev k -> told_to_abort k = true.
  Proof.
    intros F. unfold told_to_abort, k_is_processing_message.
    rewrite (fits_negotiated _ _ _ F), (fits_quitted _ _ _ F), (fits_processing _ _ _ F). reflexivity.
  Qed.
  Lemma told_stopped x k : content_stage x = true -> k_state k = x ->
    told_to_abort (put_k_processing k false) = false.
  Proof.
    intros X E. unfold told_to_abort, k_is_processing_message. cbn [put_k_processing k_negotiated k_quitted k_processing k_state].
    rewrite !andb_false_r, E. destruct x; try discriminate X; reflexivity.
  Qed.

  Lemma pass_reaches d j o ev x st wait t w r v : w_crashed w = false -> has w j ->
    fits o ev (child_of w j) -> reading x (child_of w j) -> content_stage x = true ->
    keeps st (upto st) (j :: wait) t (w_flow w) -> content_stage st = true ->
    (r = RAccept /\ v = S_ACCEPT) \/ (r = RContinue /\ x = XEndOfMessage /\ v = S_CONTINUE) ->
    exists w2, moved [OIn (KReply j r)] [j] w w2 /\ w_mail w2 = w_mail w /\
      keeps st (upto st) wait (noted t x v) (w_flow w2) /\ f_index (w_flow w2) = 0 /\
      told_to_abort (child_of w2 j) = (match r with RContinue => true | _ => false end) /\
      (forall w3, w3 = match wait with
                       | [] => emit_message_reply chunk_size w2 st
                       | i :: _ => snd (send_next_header writes stops (Emit d) w2 i)
                       end -> has w3 j -> mild j w3 (Step (S d) w (KReply j r))).
  Proof.
    intros C Hj F Rd X K St Hr.
    destruct (verdict_reaches d j o ev x w r C Hj F Rd X) as (w1 & M1 & F1 & G1 & Fi1 & S1 & Mi).
    { destruct Hr as [(-> & _)|(-> & -> & _)]; [left; reflexivity|right; auto]. }
    assert (H1 : has w1 j) by exact (moved_has _ _ _ _ _ M1 Hj).
    set (wc := compile_reply w1 x v).
    assert (Kc : keeps st (upto st) (j :: wait) (noted t x v) (w_flow wc))
      by (apply noted_keeps; rewrite F1; exact K).
    set (ws := match r with RAccept => stop_message wc j | _ => wc end).
    set (w2 := on_flow ws (fun f => put_f_waiting (put_f_index f 0) (remove_nat (f_waiting f) j))).
    assert (Fs : w_flow ws = w_flow wc) by (unfold ws; destruct r; reflexivity).
    assert (K2 : keeps st (upto st) wait (noted t x v) (w_flow w2)).
    { pose proof Kc as [A1 A2 A3 A4 A5 A6]. unfold w2.
      constructor; cbn [on_flow put_w_flow w_flow put_f_waiting put_f_index f_state f_commands f_waiting f_emitted f_statuses f_code];
        rewrite ?Fs; try assumption.
      rewrite A3. cbn [remove_nat]. rewrite Nat.eqb_refl. reflexivity. }
    exists w2.
    split.
    { apply moved_flow. assert (Mc : moved [OIn (KReply j r)] [j] w wc) by (apply moved_flow; exact M1).
      unfold ws. destruct r; try exact Mc. apply moved_child'; [exact Mc|now left]. }
    split; [change (w_mail w2) with (w_mail ws); unfold ws; destruct r; exact G1|].
    split; [exact K2|]. split; [reflexivity|].
    split.
    { change (child_of w2 j) with (child_of ws j). unfold ws.
      destruct Hr as [(-> & _)|(-> & -> & _)].
      - unfold stop_message. rewrite child_same by exact H1. apply (told_stopped x); [exact X|exact S1].
      - exact (told_fits _ _ _ Fi1). }
    intros w3 E3 H3.
    assert (Ev : on_verdict d w1 j r = w3).
    { rewrite E3.
      assert (Ef : send_first_to_next writes stops chunk_size (Emit d) ws j =
        match wait with
        | [] => emit_message_reply chunk_size w2 st
        | i :: _ => snd (send_next_header writes stops (Emit d) w2 i)
        end).
      { unfold send_first_to_next. fold w2. unfold first_waiting. rewrite (keeps_waiting _ _ _ _ _ K2).
        destruct wait as [|i wait]; cbn [hd_error]; [now rewrite (keeps_state _ _ _ _ _ K2)|].
        rewrite (keeps_commands _ _ _ _ _ K2). destruct st; try discriminate St; reflexivity. }
      rewrite <- Ef.
      destruct Hr as [(-> & ->)|(-> & -> & ->)]; cbn [on_verdict].
      - unfold cb_accept. rewrite S1. cbv zeta. destruct x; try discriminate X; reflexivity.
      - unfold cb_continue. rewrite S1. reflexivity. }
    rewrite <- Ev. apply Mi. rewrite Ev. exact H3.
  Qed.

  (** *** A filter refuses the message *)
  Definition shows (es : list event) (w w' : world) : Prop :=
    w_crashed w' = false /\ exists all, filter visible all = es /\ w_trace w' = rev all ++ w_trace w.
  Lemma shows_trans es1 es2 w1 w2 w3 : shows es1 w1 w2 -> shows es2 w2 w3 -> shows (es1 ++ es2) w1 w3.
  Proof.
    intros (C1 & a1 & <- & T1) (C2 & a2 & <- & T2). split; [exact C2|]. exists (a1 ++ a2).
    split; [apply filter_app|]. rewrite T2, T1, rev_app_distr, app_assoc. reflexivity.
  Qed.
  Lemma showed_shows es js w w' : showed es js w w' -> shows es w w'.
  Proof. intros (a & E & M). split; [apply M|]. exists a. split; [exact E|apply M]. Qed.
  Lemma shows_refl w : w_crashed w = false -> shows [] w w.
  Proof. intros C. split; [exact C|]. exists []. auto. Qed.

  Definition clean : bool := match code with None => true | Some _ => false end.
  Lemma unrefused_refused s v : unrefused s ->
    v = S_REJECT \/ v = S_TEMPORARY_FAILURE \/ v = S_DISCARD -> stored_status (compile_status s v) = v.
  Proof. unfold unrefused. destruct s as [[]|]; intros U [-> |[-> | ->]]; try contradiction U; reflexivity. Qed.

  Lemma cast_moved es live w w' j : moved es [j] w w' -> cast live w -> In j live ->
    told_to_abort (child_of w' j) = true -> cast live w'.
  Proof.
    intros M (L & H) Hj Ht. split; [rewrite (moved_length _ _ _ _ M); exact L|].
    intros i Hi. destruct (Nat.eq_dec i j) as [-> |N1].
    - rewrite Ht. symmetry. apply is_live_in. exact Hj.
    - rewrite (moved_other _ _ _ _ M) by (intros [E|[]]; congruence). auto.
  Qed.
  Lemma cast_left es live live' w w' j : moved es [j] w w' -> cast live w ->
    (forall i, In i live' <-> In i live /\ i <> j) -> early j = false ->
    told_to_abort (child_of w' j) = false -> cast live' w'.
  Proof.
    intros M (L & H) Hl He Ht. split; [rewrite (moved_length _ _ _ _ M); exact L|].
    assert (Q : forall i l, existsb (Nat.eqb i) l = true <-> In i l).
    { intros i l. rewrite existsb_exists. split.
      - intros (y & Hy & E). apply Nat.eqb_eq in E. now subst y.
      - intros Hi. exists i. split; [exact Hi|apply Nat.eqb_refl]. }
    intros i Hi. destruct (Nat.eq_dec i j) as [-> |N1].
    - rewrite Ht. unfold is_live. rewrite He, orb_false_r. symmetry. apply not_true_is_false.
      rewrite Q, Hl. intros (_ & E). congruence.
    - rewrite (moved_other _ _ _ _ M) by (intros [E|[]]; congruence). rewrite (H i Hi). unfold is_live.
      f_equal. apply eq_true_iff_eq. rewrite !Q, Hl. intuition.
  Qed.
  Lemma cast_same live live' w : (forall i, In i live' <-> In i live) -> cast live w -> cast live' w.
  Proof.
    intros Hl (L & H). split; [exact L|]. intros i Hi. rewrite (H i Hi). unfold is_live. f_equal.
    apply eq_true_iff_eq. rewrite !existsb_exists. split; intros (y & Hy & E); exists y; (split; [apply Hl; exact Hy|exact E]).
  Qed.

  Lemma refuse_reaches d j o x st wait t w r e original c live live' :
    w_crashed w = false -> has w j ->
    fits o false (child_of w j) -> reading x (child_of w j) -> content_stage x = true ->
    keeps st (upto st) wait t (w_flow w) -> unrefused (t x) -> refusal clean r = Some e ->
    (x = XEndOfMessage -> carries original c (w_mail w)) ->
    cast live w -> (forall i, In i live' <-> In i live /\ i <> j) -> early j = false ->
    shows ((match x with XEndOfMessage => final_events original c | _ => [] end) ++
           e :: aborts total early live') w (Step (S d) w (KReply j r)).
  Proof.
    intros C Hj F Rd X K U Hr Ca Cs Hl He.
    destruct (verdict_reaches d j o false x w r C Hj F Rd X) as (w1 & M1 & F1 & G1 & Fi1 & S1 & Mi).
    { left. destruct r; try discriminate Hr; reflexivity. }
    assert (H1 : has w1 j) by exact (moved_has _ _ _ _ _ M1 Hj).
    assert (Core : forall wa v, moved [OIn (KReply j r)] [j] w wa -> child_of wa j = child_of w1 j -> w_mail wa = w_mail w ->
      f_statuses (w_flow wa) = t -> f_emitted (w_flow wa) = false -> answer (f_code (w_flow wa)) v = Some e ->
      v = S_REJECT \/ v = S_TEMPORARY_FAILURE \/ v = S_DISCARD ->
      moved (OIn (KReply j r) :: (match x with XEndOfMessage => final_events original c | _ => [] end) ++
           e :: aborts total early live') (j :: seq 0 total) w
        (snd (abort_children writes stops (Emit d) (emit_message_reply chunk_size (stop_message (compile_reply wa x v) j) x)))).
    { intros wa v Ma Ka Ga Sa Ea An Hv.
      set (ws := stop_message (compile_reply wa x v) j).
      assert (Ms : moved [OIn (KReply j r)] [j] w ws) by (apply moved_child'; [apply moved_flow; exact Ma|now left]).
      assert (He2 : forall js, moved ((match x with XEndOfMessage => final_events original c | _ => [] end) ++ [e]) js ws
                      (emit_message_reply chunk_size ws x)).
      { intros js. apply (emits original c js ws x v e).
        - apply Ms.
        - exact Ea.
        - intros Q. change (w_mail ws) with (w_mail wa). rewrite Ga. auto.
        - change (f_statuses (w_flow ws) x) with (status_put (f_statuses (w_flow wa)) x (compile_status (f_statuses (w_flow wa) x) v) x).
          unfold status_put. rewrite sstate_eqb_refl, Sa. apply unrefused_refused; assumption.
        - exact An. }
      set (we := emit_message_reply chunk_size ws x) in *.
      assert (Ce : cast live' we).
      { apply (cast_left (OIn (KReply j r) :: (match x with XEndOfMessage => final_events original c | _ => [] end) ++ [e]) live live' w we j).
        - exact (moved_trans [_] _ _ _ _ _ Ms (He2 [j])).
        - exact Cs.
        - exact Hl.
        - exact He.
        - rewrite (moved_other _ _ _ _ (He2 [])) by (intros []). unfold ws, stop_message.
          assert (Ha : has (compile_reply wa x v) j) by exact (moved_has _ _ _ _ _ Ma Hj).
          rewrite child_same by exact Ha. apply (told_stopped x); [exact X|].
          change (child_of (compile_reply wa x v) j) with (child_of wa j). rewrite Ka. exact S1. }
      pose proof (aborts_shown (Emit d) live' we (moved_crashed _ _ _ _ (He2 [])) Ce) as Mab.
      replace (OIn (KReply j r) :: (match x with XEndOfMessage => final_events original c | _ => [] end) ++ e :: aborts total early live')
        with ([OIn (KReply j r)] ++ ((match x with XEndOfMessage => final_events original c | _ => [] end) ++ [e]) ++ aborts total early live')
        by (rewrite <- app_assoc; reflexivity).
      apply (moved_trans _ _ _ _ ws).
      - apply (moved_more _ [j]); [|exact Ms]. intros i [<-|[]]. now left.
      - apply (moved_trans _ _ _ _ we); [apply He2|]. apply (moved_more _ (seq 0 total)); [|exact Mab].
        intros i Hi. now right. }
    assert (Fl1 : f_statuses (w_flow w1) = t /\ f_emitted (w_flow w1) = false /\ f_code (w_flow w1) = code).
    { rewrite F1. destruct K; auto. }
    destruct Fl1 as (T1 & E1 & C1).
    assert (Ev1 : k_evaluation (child_of w1 j) = false) by apply Fi1.
    assert (Plain : forall v, (v = S_REJECT \/ v = S_TEMPORARY_FAILURE \/ v = S_DISCARD) -> answer code v = Some e ->
      on_verdict d w1 j r = snd (abort_children writes stops (Emit d) (emit_message_reply chunk_size (stop_message (compile_reply w1 x v) j) x)) ->
      moved (OIn (KReply j r) :: (match x with XEndOfMessage => final_events original c | _ => [] end) ++
           e :: aborts total early live') (j :: seq 0 total) w (on_verdict d w1 j r)).
    { intros v Hv An ->. apply Core; auto. now rewrite C1. }
    assert (Mv : moved (OIn (KReply j r) :: (match x with XEndOfMessage => final_events original c | _ => [] end) ++
           e :: aborts total early live') (j :: seq 0 total) w (on_verdict d w1 j r)).
    { unfold clean in Hr. destruct r; try discriminate Hr; cbn [refusal] in Hr.
      - (* reply code *)
        destruct ((400 <=? code0) && (code0 <? 600)) eqn:Hc; [|discriminate Hr]. injection Hr as <-.
        apply andb_true_iff in Hc as (Hc1 & Hc2). apply N.leb_le in Hc1. apply N.ltb_lt in Hc2.
        cbn [on_verdict]. unfold cb_reply_code. cbv zeta.
        replace (code0 =? 0) with false by (symmetry; apply N.eqb_neq; lia).
        set (wa := on_flow w1 (fun f => put_f_code f (Some (code0, extended, message)))).
        assert (Cls : code0 / 100 = 4 \/ code0 / 100 = 5).
        { assert (400 / 100 <= code0 / 100) by (apply N.div_le_mono; lia).
          assert (code0 / 100 < 6) by (apply N.div_lt_upper_bound; lia).
          change (400 / 100) with 4 in *. lia. }
        unfold cb_refuse. change (child_of wa j) with (child_of w1 j). rewrite S1, Ev1. cbv zeta.
        set (v := if code0 / 100 =? 4 then S_TEMPORARY_FAILURE else S_REJECT).
        assert (Hv : v = S_REJECT \/ v = S_TEMPORARY_FAILURE \/ v = S_DISCARD) by (unfold v; destruct (_ =? _); auto).
        assert (Mx : moved (OIn (KReply j (RReplyCode code0 extended message)) :: (match x with XEndOfMessage => final_events original c | _ => [] end) ++
             OAnswerCode code0 extended message :: aborts total early live') (j :: seq 0 total) w
             (snd (abort_children writes stops (Emit d) (emit_message_reply chunk_size (stop_message (compile_reply wa x v) j) x)))).
        { apply Core; auto.
          - apply moved_flow. exact M1.
          - change (f_code (w_flow wa)) with (Some (code0, extended, message)).
            unfold answer, v. destruct Cls as [-> | ->]; reflexivity. }
        destruct x; try discriminate X; exact Mx.
      - (* temporary failure *)
        destruct code eqn:Ec; [discriminate Hr|]. injection Hr as <-.
        apply (Plain S_TEMPORARY_FAILURE); [auto|reflexivity|].
        cbn [on_verdict]. unfold cb_refuse. rewrite S1, Ev1. cbv zeta. destruct x; try discriminate X; reflexivity.
      - destruct code eqn:Ec; [discriminate Hr|]. injection Hr as <-.
        apply (Plain S_REJECT); [auto|reflexivity|].
        cbn [on_verdict]. unfold cb_refuse. rewrite S1, Ev1. cbv zeta. destruct x; try discriminate X; reflexivity.
      - injection Hr as <-.
        apply (Plain S_DISCARD); [auto| |].
        + unfold answer. cbn [status_eqb]. rewrite !andb_false_r. reflexivity.
        + cbn [on_verdict]. unfold cb_discard. rewrite S1, Ev1. cbv zeta. destruct x; try discriminate X; reflexivity. }
    assert (Hv : has (on_verdict d w1 j r) j) by exact (moved_has _ _ _ _ _ Mv Hj).
    pose proof (mild_moved _ _ _ (Mi Hv) (moved_crashed _ _ _ _ Mv)) as Mm.
    split; [apply Mm|].
    eexists. split; [|rewrite (moved_trace _ _ _ _ Mm), (moved_trace _ _ _ _ Mv); reflexivity].
    cbn [filter visible]. rewrite filter_app. 
    assert (Ve : visible e = true).
    { destruct r; try discriminate Hr; cbn [refusal] in Hr; try destruct clean; try destruct (_ && _); try discriminate Hr;
        injection Hr as <-; reflexivity. }
    cbn [filter]. rewrite Ve. f_equal.
    - destruct x; try reflexivity. apply final_visible.
    - f_equal. unfold aborts. clear. induction (filter _ (seq 0 total)) as [|i l IH]; [reflexivity|]. cbn. now rewrite IH.
  Qed.
  (** *** The first filter, which gets the commands as they come *)
  Lemma processing_child w j o ev : has w j -> fits o ev (child_of w j) ->
    existsb k_is_processing_message (w_children w) = true.
  Proof.
    intros Hj F. apply existsb_exists. exists (child_of w j).
    split; [apply nth_In; exact Hj|]. unfold k_is_processing_message.
    rewrite (fits_negotiated _ _ _ F), (fits_quitted _ _ _ F), (fits_processing _ _ _ F). reflexivity.
  Qed.

  (** A command of the message content reaches its own part. *)
  Lemma content_reaches E R w j o ev p go : has w j -> fits o ev (child_of w j) ->
    f_state (w_flow w) <> XRcpt ->
    message_content writes stops E R w p go = go w.
  Proof.
    intros Hj F St. unfold message_content, check_processing.
    rewrite (processing_child w j o ev Hj F). cbn [negb]. unfold need_data_emulation.
    destruct (f_state (w_flow w)); try reflexivity. congruence.
  Qed.

  (** The filters waiting for the message are known, or it is known which they will be. *)
  Definition waits (ws : list nat) (w : world) : Prop :=
    ws <> [] /\
    (f_waiting (w_flow w) = ws \/
     (f_waiting (w_flow w) = [] /\
      ws = filter (fun i => k_is_processing_message (child_of w i)) (indices w) /\
      forall i, In i ws -> k_has_accepted_recipient (child_of w i) = true)).
  Definition with_command (x : sstate) (cmds : list sstate) : list sstate :=
    if existsb (sstate_eqb x) cmds then cmds else cmds ++ [x].

  Lemma init_waits E w x ws : waits ws w ->
    init_waiting writes stops E w x =
    put_w_flow w (put_f_waiting (put_f_commands (w_flow w) (with_command x (f_commands (w_flow w)))) ws).
  Proof.
    intros (Hne & Hw). unfold init_waiting. cbv zeta.
    set (w1 := on_flow w (fun f => if existsb (sstate_eqb x) (f_commands f) then f
                                   else put_f_commands f (f_commands f ++ [x]))).
    assert (F1 : w_flow w1 = put_f_commands (w_flow w) (with_command x (f_commands (w_flow w)))).
    { unfold w1, with_command. cbn [on_flow put_w_flow w_flow].
      destruct (existsb _ _); [|reflexivity]. destruct (w_flow w); reflexivity. }
    assert (E1 : w1 = put_w_flow w (w_flow w1)) by reflexivity.
    destruct Hw as [Hw|(Hw & Hf & Ha)].
    - assert (W1 : f_waiting (w_flow w1) = ws) by (rewrite F1; exact Hw). rewrite W1.
      destruct ws as [|i ws]; [congruence|]. rewrite E1, F1. f_equal.
      rewrite <- Hw. destruct (w_flow w); reflexivity.
    - assert (W1 : f_waiting (w_flow w1) = []) by (rewrite F1; exact Hw). rewrite W1.
      assert (Fold : forall l v, (forall i, child_of v i = child_of w i) ->
        (forall i, In i l -> k_is_processing_message (child_of w i) = true ->
                   k_has_accepted_recipient (child_of w i) = true) ->
        fold_left (fun w i => let k := child_of w i in
                     if k_is_processing_message k then
                       if k_has_accepted_recipient k
                       then on_flow w (fun f => put_f_waiting f (f_waiting f ++ [i]))
                       else snd (k_call writes stops E w i CAbort)
                     else w) l v =
        put_w_flow v (put_f_waiting (w_flow v) (f_waiting (w_flow v) ++
          filter (fun i => k_is_processing_message (child_of w i)) l))).
      { induction l as [|i l IH]; intros v Hv Hl; cbn [fold_left filter].
        - rewrite app_nil_r. destruct v as [c n f m t cr]. destruct f. reflexivity.
        - cbv zeta. rewrite Hv. destruct (k_is_processing_message (child_of w i)) eqn:Ep.
          + rewrite (Hl i (or_introl eq_refl) Ep). rewrite IH.
            * destruct v as [c n f m t cr]. destruct f. cbn. rewrite <- app_assoc. reflexivity.
            * intros i'. exact (Hv i').
            * intros i' Hi'. apply Hl. right. exact Hi'.
          + apply IH; [exact Hv|]. intros i' Hi'. apply Hl. right. exact Hi'. }
      rewrite Fold.
      + change (indices w1) with (indices w). rewrite <- Hf, W1. cbn [app]. rewrite E1, F1.
        cbn [put_w_flow w_flow]. rewrite ?F1. reflexivity.
      + reflexivity.
      + intros i Hi Hp. apply Ha. rewrite Hf. apply filter_In. auto.
  Qed.

  (** The message so far. *)
  Definition headers_of (m : mail) : list header := match m_headers m with Some hs => hs | None => [] end.
  Record holds (hs : list header) (body : bytes) (m : mail) : Prop := {
    holds_headers : headers_of m = hs;
    holds_body : whole_body m = body;
    holds_store : m_file m <> None -> m_body m = None;
    holds_original : m_original m = None;
    holds_replaced : m_replaced m = false;
    holds_from : m_from m = None;
    holds_quarantine : m_quarantine m = None
  }.
  Record lives (j : nat) (o : moption) (ev : bool) (st : sstate) (cmds : list sstate)
    (ws : list nat) (t : table) (hs : list header) (body : bytes) (w : world) : Prop := {
    lives_crashed : w_crashed w = false;
    lives_has : has w j;
    lives_nego : n_option (w_nego w) = Some no;
    lives_takes : takes_all o;
    lives_fits : fits o ev (child_of w j);
    lives_free : free (child_of w j);
    lives_state : f_state (w_flow w) = st;
    lives_commands : f_commands (w_flow w) = cmds;
    lives_waits : waits (j :: ws) w;
    lives_emitted : f_emitted (w_flow w) = false;
    lives_table : f_statuses (w_flow w) = t;
    lives_code : f_code (w_flow w) = code;
    lives_index : existsb (sstate_eqb XEndOfHeader) cmds = false -> f_index (w_flow w) = N.of_nat (length hs);
    lives_each : cmds = upto_body -> m_replaced_each (w_mail w) = false;
    lives_mail : holds hs body (w_mail w)
  }.

  Lemma answered_lives d j o ev x ws t hs body c w : stands j o ev x (j :: ws) t hs c [] w ->
    x <> XEndOfMessage -> holds hs body (w_mail w) ->
    let w' := Run (S d) w (goes_on_with j) in
    showed [OAnswer S_CONTINUE] [j] w w' /\ lives j o ev x (upto x) ws (went t x) hs body w'.
  Proof.
    intros St Hx Ho. cbv zeta.
    pose proof (stands_stage _ _ _ _ _ _ _ _ _ _ St) as X.
    destruct (stands_answered d j o ev x (j :: ws) hs t c w St Hx) as (Sh & _ & O & G & I' & Re).
    split; [exact Sh|].
    pose proof (open_keeps _ _ _ _ _ _ _ _ O) as [K1 K2 K3 K4 K5 K6].
    constructor; try apply O; try assumption.
    - split; [discriminate|left; exact K3].
    - intros Q. apply I'. destruct x; try discriminate X; try discriminate Q; reflexivity.
    - intros Q. apply Re. destruct x; try discriminate X; try discriminate Q; congruence || reflexivity.
    - rewrite G. exact Ho.
  Qed.

  (** The world in which a content command of the MTA is handled. *)
  Lemma lives_log j o ev st cmds ws t hs body w e : lives j o ev st cmds ws t hs body w ->
    lives j o ev st cmds ws t hs body (log w e).
  Proof.
    intros []. constructor; rewrite ?crashed_log, ?has_log, ?nego_log, ?child_log, ?flow_log, ?mail_log; try assumption.
    destruct lives_waits0 as (Hne & Hw). split; [exact Hne|]. rewrite flow_log.
    destruct Hw as [Hw|(Hw & Hf & Ha)]; [left; exact Hw|right].
    split; [exact Hw|]. split.
    - rewrite Hf. unfold indices. rewrite children_log. apply filter_ext. intros i. now rewrite child_log.
    - intros i Hi. rewrite child_log. auto.
  Qed.

  Lemma serves_log j o ev x st cmds wait t w e : serves j o ev x st cmds wait t w ->
    serves j o ev x st cmds wait t (log w e).
  Proof. intros []. constructor; rewrite ?crashed_log, ?has_log, ?nego_log, ?child_log, ?flow_log; assumption. Qed.

  Section Live.
    Variables (d : nat) (j : nat) (o : moption) (ev : bool) (ws : list nat) (t : table).
    Notation alive := (lives j o ev).

    Lemma header_given st cmds hs n v w : alive st cmds ws t hs [] w -> st <> XRcpt ->
      with_command XHeader cmds = [XHeader] -> existsb (sstate_eqb XEndOfHeader) cmds = false ->
      let w' := Run (S d) w [Mta (CHeader n v)] in
      showed [OSent j (CHeader n (shown (converts o) (Some v)))] [j] w w' /\
      stands j o ev XHeader (j :: ws) t (hs ++ [mk_header n (Some v)]) (CHeader n (shown (converts o) (Some v))) [] w' /\
      holds (hs ++ [mk_header n (Some v)]) [] (w_mail w').
    Proof.
      intros L Hst Hc Hcm. cbv zeta.
      set (w0 := log w (OIn (Mta (CHeader n v)))).
      assert (L0 : alive st cmds ws t hs [] w0) by (apply lives_log; exact L).
      set (hs' := hs ++ [mk_header n (Some v)]).
      set (wm := on_mail (set_both w0 XHeader) (fun m => put_m_headers m (Some (headers_append (headers_of m) n (Some v))))).
      assert (Wm : waits (j :: ws) wm) by exact (lives_waits _ _ _ _ _ _ _ _ _ _ L0).
      set (wi := init_waiting writes stops (Emit (S d)) wm XHeader).
      assert (Ei : wi = put_w_flow wm (put_f_waiting (put_f_commands (w_flow wm)
                    (with_command XHeader (f_commands (w_flow wm)))) (j :: ws)))
        by (apply init_waits; exact Wm).
      assert (Fm : f_commands (w_flow wm) = cmds) by exact (lives_commands _ _ _ _ _ _ _ _ _ _ L0).
      rewrite Fm, Hc in Ei.
      assert (Mi : w_mail wi = w_mail wm) by (rewrite Ei; reflexivity).
      assert (Hm : m_headers (w_mail wi) = Some hs').
      { rewrite Mi. unfold wm. cbn [on_mail put_w_mail w_mail put_m_headers m_headers].
        change (w_mail (set_both w0 XHeader)) with (w_mail w0).
        rewrite (holds_headers _ _ _ (lives_mail _ _ _ _ _ _ _ _ _ _ L0)). reflexivity. }
      assert (Oi : open j o ev XHeader [XHeader] (j :: ws) t wi).
      { rewrite Ei. constructor; try apply L0. constructor; try reflexivity; apply L0. }
      destruct (header_sends (Emit (S d)) wi j o ev XHeader [XHeader] (j :: ws) t hs' (length hs) (mk_header n (Some v)) Oi Hm)
        as (w2 & E2 & M2 & S2 & G2 & _ & I2).
      { rewrite Ei. cbn. apply L0. exact Hcm. }
      { unfold hs'. rewrite nth_error_app2, Nat.sub_diag by lia. reflexivity. }
      assert (Es : Step (S d) w (Mta (CHeader n v)) = log w2 (OReturn true)).
      { unfold children_step. rewrite (lives_crashed _ _ _ _ _ _ _ _ _ _ L). fold w0. cbn [mta]. unfold mta_header.
        rewrite (content_reaches _ _ w0 j o ev) by
          (apply L0 || (rewrite (lives_state _ _ _ _ _ _ _ _ _ _ L0); exact Hst)).
        change (on_mail (set_both w0 XHeader) (fun m => put_m_headers m (Some (headers_append
                  match m_headers m with Some hs => hs | None => [] end n (Some v))))) with wm.
        fold wi. unfold send_to_first, first_waiting.
        replace (f_waiting (w_flow wi)) with (j :: ws) by (rewrite Ei; reflexivity).
        cbn [hd_error send_command]. rewrite E2. reflexivity. }
      change (Run (S d) w [Mta (CHeader n v)])
        with (Step (S d) w (Mta (CHeader n v))).
      rewrite Es.
      assert (Mx : moved [OIn (Mta (CHeader n v))] [j] w wi).
      { assert (M0 : moved [OIn (Mta (CHeader n v))] [j] w w0) by (apply moved_log, L).
        rewrite Ei. unfold wm. destruct M0. constructor; assumption. }
      assert (G' : w_mail (log w2 (OReturn true)) = w_mail wm) by (rewrite mail_log, G2; exact Mi).
      assert (Ho : holds hs' [] (w_mail (log w2 (OReturn true)))).
      { rewrite G'. destruct (lives_mail _ _ _ _ _ _ _ _ _ _ L0). constructor; try assumption.
        rewrite <- Mi. unfold headers_of. now rewrite Hm. }
      split.
      { apply (showed_moved ([OIn (Mta (CHeader n v))] ++ [OSent j (CHeader n (shown (converts o) (Some v)))] ++ [OReturn true])).
        apply (moved_trans _ _ _ _ _ _ Mx), (moved_trans _ _ _ _ _ _ M2). apply moved_log, M2. }
      split; [|exact Ho].
      constructor.
      - apply serves_log. exact S2.
      - rewrite G', <- Mi. exact Hm.
      - discriminate.
      - apply (place_header (converts o) XHeader hs' (log w2 (OReturn true)) hs (mk_header n (Some v)) [] []).
        + reflexivity.
        + rewrite flow_log. exact I2.
        + intros [Q|Q]; discriminate Q.
      - reflexivity.
      - discriminate.
    Qed.

    Lemma end_of_header_given st hs w : alive st [XHeader] ws t hs [] w -> st <> XRcpt -> hs <> [] ->
      let w' := Run (S d) w [Mta CEndOfHeader] in
      showed [OSent j CEndOfHeader] [j] w w' /\
      stands j o ev XEndOfHeader (j :: ws) t hs CEndOfHeader [] w' /\ holds hs [] (w_mail w').
    Proof.
      intros L Hst Hne. cbv zeta.
      set (w0 := log w (OIn (Mta CEndOfHeader))).
      assert (L0 : alive st [XHeader] ws t hs [] w0) by (apply lives_log; exact L).
      set (wm := set_both w0 XEndOfHeader).
      assert (Wm : waits (j :: ws) wm) by exact (lives_waits _ _ _ _ _ _ _ _ _ _ L0).
      set (wi := init_waiting writes stops (Emit (S d)) wm XEndOfHeader).
      assert (Ei : wi = put_w_flow wm (put_f_waiting (put_f_commands (w_flow wm)
                    (with_command XEndOfHeader (f_commands (w_flow wm)))) (j :: ws)))
        by (apply init_waits; exact Wm).
      assert (Fm : f_commands (w_flow wm) = [XHeader]) by exact (lives_commands _ _ _ _ _ _ _ _ _ _ L0).
      rewrite Fm in Ei. change (with_command XEndOfHeader [XHeader]) with [XHeader; XEndOfHeader] in Ei.
      assert (Mi : w_mail wi = w_mail w0) by (rewrite Ei; reflexivity).
      assert (Oi : open j o ev XEndOfHeader [XHeader; XEndOfHeader] (j :: ws) t wi).
      { rewrite Ei. constructor; try apply L0. constructor; try reflexivity; apply L0. }
      destruct (end_of_header_sends (Emit (S d)) wi j o ev _ _ _ _ Oi) as (w2 & E2 & M2 & S2 & G2 & _ & I2).
      assert (Es : Step (S d) w (Mta CEndOfHeader) = log w2 (OReturn true)).
      { unfold children_step. rewrite (lives_crashed _ _ _ _ _ _ _ _ _ _ L). fold w0. cbn [mta]. unfold mta_end_of_header.
        rewrite (content_reaches _ _ w0 j o ev) by
          (apply L0 || (rewrite (lives_state _ _ _ _ _ _ _ _ _ _ L0); exact Hst)).
        fold wm. fold wi. unfold send_to_first, first_waiting.
        replace (f_waiting (w_flow wi)) with (j :: ws) by (rewrite Ei; reflexivity).
        cbn [hd_error]. rewrite E2. reflexivity. }
      change (Run (S d) w [Mta CEndOfHeader])
        with (Step (S d) w (Mta CEndOfHeader)).
      rewrite Es.
      assert (Mx : moved [OIn (Mta CEndOfHeader)] [j] w wi).
      { assert (M0 : moved [OIn (Mta CEndOfHeader)] [j] w w0) by (apply moved_log, L).
        rewrite Ei. unfold wm. destruct M0. constructor; assumption. }
      assert (G' : w_mail (log w2 (OReturn true)) = w_mail w0) by (rewrite mail_log, G2; exact Mi).
      split.
      { apply (showed_moved ([OIn (Mta CEndOfHeader)] ++ [OSent j CEndOfHeader] ++ [OReturn true])).
        apply (moved_trans _ _ _ _ _ _ Mx), (moved_trans _ _ _ _ _ _ M2). apply moved_log, M2. }
      split; [|rewrite G'; apply L0].
      constructor.
      - apply serves_log. exact S2.
      - rewrite G'. pose proof (holds_headers _ _ _ (lives_mail _ _ _ _ _ _ _ _ _ _ L0)) as Hh.
        unfold headers_of in Hh. destruct (m_headers (w_mail w0)); congruence.
      - discriminate.
      - apply (place_end (converts o) XEndOfHeader hs (log w2 (OReturn true)) []); [discriminate|]. intros [Q|Q]; discriminate Q.
      - reflexivity.
      - discriminate.
    Qed.

    Lemma body_given st cmds hs body chunk w : alive st cmds ws t hs body w -> st <> XRcpt -> hs <> [] ->
      with_command XBody cmds = upto_body -> N.of_nat (length chunk) <= 65535 ->
      let w' := Run (S d) w [Mta (CBody chunk)] in
      showed [OSent j (CBody chunk)] [j] w w' /\
      stands j o ev XBody (j :: ws) t hs (CBody chunk) [] w' /\ holds hs (body ++ chunk) (w_mail w').
    Proof.
      intros L Hst Hne Hc Hl. cbv zeta.
      set (w0 := log w (OIn (Mta (CBody chunk)))).
      assert (L0 : alive st cmds ws t hs body w0) by (apply lives_log; exact L).
      set (wi := init_waiting writes stops (Emit (S d)) w0 XBody).
      assert (Ei : wi = put_w_flow w0 (put_f_waiting (put_f_commands (w_flow w0)
                    (with_command XBody (f_commands (w_flow w0)))) (j :: ws)))
        by (apply init_waits; apply L0).
      assert (Fm : f_commands (w_flow w0) = cmds) by exact (lives_commands _ _ _ _ _ _ _ _ _ _ L0).
      rewrite Fm, Hc in Ei.
      assert (Mi : w_mail wi = w_mail w0) by (rewrite Ei; reflexivity).
      set (ww := write_body wi chunk).
      destruct (write_whole wi chunk) as (B2 & S2 & O2 & H2 & C2 & R2 & _ & F2 & Q2).
      { rewrite Mi. apply L0. }
      fold ww in B2, S2, O2, H2, C2, R2, F2, Q2. rewrite Mi in B2, O2, H2, C2, R2, F2, Q2.
      assert (Ew : w_flow ww = w_flow wi /\ w_children ww = w_children wi /\ w_nego ww = w_nego wi /\
                   w_crashed ww = w_crashed wi /\ w_trace ww = w_trace wi) by (repeat split; reflexivity).
      destruct Ew as (Ef & Ec & En & Ecr & Et).
      set (w3 := on_flow (on_mail (set_both ww XBody) (fun m => put_m_replaced_each m false)) (fun f => put_f_sending f false)).
      assert (Ch3 : forall i, child_of w3 i = child_of w i).
      { intros i. change (child_of w3 i) with (child_of ww i). unfold child_of. rewrite Ec, Ei.
        apply child_log. }
      assert (M3 : moved [OIn (Mta (CBody chunk))] [j] w w3).
      { assert (M0 : moved [OIn (Mta (CBody chunk))] [j] w w0) by (apply moved_log, L).
        pose proof M0 as [A B C D E]. constructor.
        - change (w_crashed ww = false). rewrite Ecr, Ei. exact A.
        - change (w_trace ww = rev [OIn (Mta (CBody chunk))] ++ w_trace w). rewrite Et, Ei. exact B.
        - change (w_nego ww = w_nego w). rewrite En, Ei. exact C.
        - change (length (w_children ww) = length (w_children w)). rewrite Ec, Ei. exact D.
        - intros i _. apply Ch3. }
      destruct (call_sends (Emit (S d)) w3 j (CBody chunk) XBody o ev) as (w4 & E4 & M4 & Fl4 & Ma4 & S4 & F4 & G4).
      { apply M3. }
      { exact (moved_has _ _ _ _ _ M3 (lives_has _ _ _ _ _ _ _ _ _ _ L)). }
      { apply L. }
      { rewrite Ch3. apply L. }
      { rewrite Ch3. apply L. }
      { cbn [content_command]. destruct (N.leb_spec (N.of_nat (length chunk)) 65535); [reflexivity|lia]. }
      assert (Es : Step (S d) w (Mta (CBody chunk)) = log w4 (OReturn true)).
      { unfold children_step. rewrite (lives_crashed _ _ _ _ _ _ _ _ _ _ L). fold w0. cbn [mta]. unfold mta_body.
        rewrite (content_reaches _ _ w0 j o ev) by
          (apply L0 || (rewrite (lives_state _ _ _ _ _ _ _ _ _ _ L0); exact Hst)).
        fold wi. unfold first_waiting.
        replace (f_waiting (w_flow wi)) with (j :: ws) by (rewrite Ei; reflexivity).
        cbn [hd_error]. cbv zeta.
        fold ww. fold w3.
        rewrite Ch3, (fits_skip _ _ _ (lives_fits _ _ _ _ _ _ _ _ _ _ L)), E4. reflexivity. }
      change (Run (S d) w [Mta (CBody chunk)])
        with (Step (S d) w (Mta (CBody chunk))).
      rewrite Es. clear Es.
      assert (G' : w_mail (log w4 (OReturn true)) = put_m_replaced_each (w_mail ww) false)
        by (rewrite mail_log, Ma4; reflexivity).
      assert (Fl3 : w_flow w3 = put_f_sending (put_f_processing (put_f_state (w_flow wi) XBody) XBody) false)
        by (rewrite <- Ef; reflexivity).
      pose proof (lives_mail _ _ _ _ _ _ _ _ _ _ L0) as [A1 A2 A3 A4 A5 A6 A7].
      split.
      { apply (showed_moved ([OIn (Mta (CBody chunk))] ++ [OSent j (CBody chunk)] ++ [OReturn true])).
        apply (moved_trans _ _ _ _ _ _ M3), (moved_trans _ _ _ _ _ _ M4). apply moved_log, M4. }
      split.
      - constructor.
        + apply serves_log. constructor; try assumption.
          * apply M4.
          * exact (moved_has _ _ _ _ _ M4 (moved_has _ _ _ _ _ M3 (lives_has _ _ _ _ _ _ _ _ _ _ L))).
          * rewrite (moved_nego _ _ _ _ M4), (moved_nego _ _ _ _ M3). apply L.
          * apply L.
          * rewrite Fl4, Fl3, Ei. constructor; try reflexivity; apply L0.
        + rewrite G'. change (m_headers (w_mail ww) = Some hs). rewrite H2. unfold headers_of in A1.
          destruct (m_headers (w_mail w0)); congruence.
        + discriminate.
        + apply place_live; [reflexivity| |].
          * rewrite flow_log, Fl4, Fl3. reflexivity.
          * rewrite G'. reflexivity.
        + reflexivity.
        + discriminate.
      - rewrite G'. clearbody ww. constructor; cbn [put_m_replaced_each m_file m_body m_original m_replaced m_from m_quarantine].
        + change (headers_of (w_mail ww) = hs). unfold headers_of. rewrite H2. exact A1.
        + change (whole_body (w_mail ww) = body ++ chunk). rewrite B2, A2. reflexivity.
        + exact S2.
        + congruence.
        + congruence.
        + congruence.
        + congruence.
    Qed.

    Lemma end_of_message_given hs body w : alive XBody upto_body ws t hs body w -> hs <> [] ->
      let w' := Run (S d) w [Mta (CEndOfMessage None)] in
      showed [OSent j (CEndOfMessage None)] [j] w w' /\
      stands j o ev XEndOfMessage (j :: ws) t hs (CEndOfMessage None) [] w' /\
      carries hs (mk_content hs body false None None) (w_mail w').
    Proof.
      intros L Hne. cbv zeta.
      assert (Hst : XBody <> XRcpt) by discriminate.
      assert (Hre := lives_each _ _ _ _ _ _ _ _ _ _ L eq_refl).
      set (w0 := log w (OIn (Mta (CEndOfMessage None)))).
      assert (L0 : alive XBody upto_body ws t hs body w0) by (apply lives_log; exact L).
      set (wi := init_waiting writes stops (Emit (S d)) w0 XEndOfMessage).
      assert (Ei : wi = put_w_flow w0 (put_f_waiting (put_f_commands (w_flow w0)
                    (with_command XEndOfMessage (f_commands (w_flow w0)))) (j :: ws)))
        by (apply init_waits; apply L0).
      assert (Fm : f_commands (w_flow w0) = upto_body) by exact (lives_commands _ _ _ _ _ _ _ _ _ _ L0).
      rewrite Fm in Ei. change (with_command XEndOfMessage upto_body) with stages in Ei.
      assert (Mi : w_mail wi = w_mail w0) by (rewrite Ei; reflexivity).
      pose proof (lives_mail _ _ _ _ _ _ _ _ _ _ L0) as [A1 A2 A3 A4 A5 A6 A7].
      assert (Hm : m_headers (w_mail w0) = Some hs)
        by (unfold headers_of in A1; destruct (m_headers (w_mail w0)); congruence).
      set (m' := match m_file (w_mail w0) with
                 | Some (b, _) => put_m_file (put_m_chunk (put_m_original (put_m_headers (w_mail w0) (Some hs)) (Some hs)) None) (Some (b, 0))
                 | None => put_m_chunk (put_m_original (put_m_headers (w_mail w0) (Some hs)) (Some hs)) None
                 end).
      set (w3 := on_mail (on_flow wi (fun f => put_f_index f 0)) (fun m =>
                    let hs := match m_headers m with Some hs => hs | None => [] end in
                    let m1 := put_m_headers m (Some hs) in
                    let m2 := match m_original m1 with
                              | Some _ => m1
                              | None => put_m_original m1 (Some hs)
                              end in
                    let m3 := put_m_chunk m2 None in
                    match m_file m3 with
                    | Some (b, _) => put_m_file m3 (Some (b, 0))
                    | None => m3
                    end)).
      assert (G3 : w_mail w3 = m').
      { unfold w3. cbn [on_mail put_w_mail w_mail]. change (w_mail (on_flow wi (fun f => put_f_index f 0))) with (w_mail wi).
        rewrite Mi, Hm. cbv zeta. cbn [put_m_headers m_original]. rewrite A4. reflexivity. }
      set (w5 := set_both w3 XEndOfMessage).
      assert (O5 : open j o ev XEndOfMessage stages (j :: ws) t w5).
      { unfold w5, w3. rewrite Ei. constructor; try apply L0. constructor; try reflexivity; apply L0. }
      assert (G5 : w_mail w5 = m') by exact G3.
      assert (C5 : carries hs (mk_content hs body false None None) m' /\ m_replaced_each m' = false).
      { unfold m'. unfold whole_body in A2. 
        assert (Hre0 : m_replaced_each (w_mail w0) = false) by (unfold w0; rewrite mail_log; exact Hre).
        destruct (m_file (w_mail w0)) as [[b p]|] eqn:Ef; (split; [constructor|]);
          cbn [put_m_file put_m_chunk put_m_original put_m_headers m_original m_headers m_file m_body m_chunk m_replaced m_replaced_each m_from m_quarantine c_headers c_body c_replaced c_from c_quarantine]; auto.
        all: try (intros _; apply A3; discriminate).
        all: try (rewrite Ef; congruence).
        unfold whole_body. cbn [put_m_file put_m_chunk put_m_original put_m_headers m_file m_body].
        rewrite Ef. exact A2. }
      destruct (end_of_message_sends (Emit (S d)) w5 j o ev _ _ _ _ O5) as (w6 & E6 & M6 & S6 & G6 & _ & I6).
      { rewrite G5. apply C5. }
      assert (Es : Step (S d) w (Mta (CEndOfMessage None)) = log w6 (OReturn true)).
      { unfold children_step. rewrite (lives_crashed _ _ _ _ _ _ _ _ _ _ L). fold w0. cbn [mta]. unfold mta_end_of_message.
        rewrite (content_reaches _ _ w0 j o ev) by
          (apply L0 || (rewrite (lives_state _ _ _ _ _ _ _ _ _ _ L0); exact Hst)).
        cbv zeta. fold wi. fold w3. fold w5. unfold send_to_first, first_waiting.
        replace (f_waiting (w_flow w5)) with (j :: ws) by (unfold w5, w3; rewrite Ei; reflexivity).
        cbn [hd_error]. rewrite E6. reflexivity. }
      change (Run (S d) w [Mta (CEndOfMessage None)]) with (Step (S d) w (Mta (CEndOfMessage None))).
      rewrite Es.
      assert (G' : w_mail (log w6 (OReturn true)) = m') by (rewrite mail_log, G6; exact G5).
      split.
      - apply (showed_moved ([OIn (Mta (CEndOfMessage None))] ++ [OSent j (CEndOfMessage None)] ++ [OReturn true])).
        assert (M5 : moved [OIn (Mta (CEndOfMessage None))] [j] w w5).
        { assert (M0 : moved [OIn (Mta (CEndOfMessage None))] [j] w w0) by (apply moved_log, L).
          unfold w5, w3. rewrite Ei. pose proof M0 as []. constructor; assumption. }
        apply (moved_trans _ _ _ _ _ _ M5), (moved_trans _ _ _ _ _ _ M6). apply moved_log, M6.
      - split; [|rewrite G'; apply C5]. constructor.
        + apply serves_log. exact S6.
        + rewrite G'. apply C5.
        + intros _. rewrite G'. apply C5.
        + apply place_message; [reflexivity|]. rewrite G'. apply C5.
        + reflexivity.
        + discriminate.
    Qed.
  End Live.
  (** *** What was said in each stage *)
  Variable fresh : list sstate.
  Definition agrees (said : list sstate) (t : table) : Prop :=
    forall x, In x fresh -> unrefused (t x) /\ (stored_status (t x) = S_CONTINUE <-> In x said).
  Lemma agrees_went said t x : agrees said t -> agrees (said ++ [x]) (went t x).
  Proof.
    intros A y Hy. destruct (A y Hy) as (U & S1). unfold went, status_put.
    destruct (sstate_eqb x y) eqn:E.
    - assert (x = y) by (destruct x, y; try discriminate E; reflexivity). subst y.
      split.
      + revert U. unfold unrefused. destruct (t x) as [[]|]; intros U; try contradiction U; exact U.
      + split; [intros _; apply in_or_app; right; now left|intros _].
        revert U. unfold unrefused. destruct (t x) as [[]|]; intros U; try contradiction U; reflexivity.
    - split; [exact U|]. rewrite S1, in_app_iff. split; [now left|intros [H|[H|[]]]; [exact H|]].
      subst y. rewrite sstate_eqb_refl in E. discriminate E.
  Qed.
  Lemma agrees_tables : forall xs said t, agrees said t -> agrees (said ++ xs) (tables t xs).
  Proof.
    induction xs as [|x xs IH]; intros said t A; [rewrite app_nil_r; exact A|].
    cbn [tables fold_left]. replace (said ++ x :: xs) with ((said ++ [x]) ++ xs) by (rewrite <- app_assoc; reflexivity).
    apply IH. apply agrees_went. exact A.
  Qed.
  Lemma agrees_accept said t x : agrees said t -> agrees said (noted t x S_ACCEPT).
  Proof.
    intros A y Hy. destruct (A y Hy) as (U & S1). unfold noted, status_put.
    destruct (sstate_eqb x y) eqn:E; [|auto].
    assert (x = y) by (destruct x, y; try discriminate E; reflexivity). subst y. rewrite <- S1.
    revert U. unfold unrefused. destruct (t x) as [[]|]; intros U; try contradiction U; cbn; intuition congruence.
  Qed.
  Definition heeded (t : table) (x : sstate) : Prop := stored_status (t x) <> S_NOT_CHANGE.
  Lemma heeded_noted t x y v : v = S_ACCEPT \/ v = S_CONTINUE -> heeded t y -> heeded (noted t x v) y.
  Proof.
    unfold heeded, noted, status_put. intros Hv H. destruct (sstate_eqb x y) eqn:E; [|exact H].
    assert (x = y) by (destruct x, y; try discriminate E; reflexivity). subst y.
    destruct Hv as [-> | ->]; destruct (t x) as [[]|]; cbn in *; congruence.
  Qed.
  Lemma heeded_now t x v : v = S_ACCEPT \/ v = S_CONTINUE -> heeded (noted t x v) x.
  Proof.
    unfold heeded, noted, status_put. rewrite sstate_eqb_refl.
    intros [-> | ->]; destruct (t x) as [[]|]; cbn; congruence.
  Qed.
  Lemma heeded_tables : forall xs t y, heeded t y -> heeded (tables t xs) y.
  Proof.
    induction xs as [|x xs IH]; intros t y H; [exact H|]. cbn [tables fold_left]. apply IH.
    exact (heeded_noted t x y S_CONTINUE (or_intror eq_refl) H).
  Qed.
  Lemma agrees_status said t x : agrees said t -> In x fresh -> heeded t x ->
    stored_status (t x) = S_CONTINUE /\ In x said \/ stored_status (t x) = S_ACCEPT /\ ~ In x said.
  Proof.
    intros A Hx H. destruct (A x Hx) as (U & S1). unfold heeded in H. unfold unrefused in U.
    destruct (stored_status (t x)) eqn:E; try contradiction U.
    - congruence.
    - left. split; [reflexivity|]. now apply S1.
    - right. split; [reflexivity|]. intros Hi. apply S1 in Hi. discriminate Hi.
  Qed.

  (** *** The filters taking part *)
  Lemma cast_any es js live live' w w' : moved es js w w' -> cast live w ->
    (forall i, ~ In i js -> (In i live' <-> In i live)) ->
    (forall i, In i js -> (i < total)%nat -> told_to_abort (child_of w' i) = is_live live' i) -> cast live' w'.
  Proof.
    intros M (L & H) Hl Ht. split; [rewrite (moved_length _ _ _ _ M); exact L|].
    intros i Hi. destruct (in_dec Nat.eq_dec i js) as [I1|N1]; [auto|].
    rewrite (moved_other _ _ _ _ M) by exact N1. rewrite (H i Hi). unfold is_live. f_equal.
    apply eq_true_iff_eq. rewrite !existsb_exists.
    split; intros (y & Hy & E); pose proof E as E'; apply Nat.eqb_eq in E'; subst y;
      exists i; (split; [apply Hl; [exact N1|exact Hy]|exact E]).
  Qed.
  Record crew (stay : list nat) (k : worker) (ks : list worker) (w : world) : Prop := {
    crew_cast : cast (stay ++ wk_filter k :: map wk_filter ks) w;
    crew_able : Forall (fun k' => able k' w) ks;
    crew_distinct : NoDup (stay ++ wk_filter k :: map wk_filter ks);
    crew_early : forall i, In i (stay ++ wk_filter k :: map wk_filter ks) -> early i = false
  }.
  Lemma crew_moved es js stay k ks w w' : moved es js w w' -> (forall i, In i js -> i = wk_filter k) ->
    told_to_abort (child_of w' (wk_filter k)) = true -> crew stay k ks w -> crew stay k ks w'.
  Proof.
    intros M Hj Ht [C A D Ea]. constructor; try assumption.
    - apply (cast_any es js _ _ w w' M C); [intros i _; reflexivity|].
      intros i Hi _. rewrite (Hj i Hi), Ht. symmetry. apply is_live_in. apply in_or_app. right. now left.
    - apply Forall_forall. intros k' Hk'. rewrite Forall_forall in A.
      apply (able_showed (filter visible es) js k' w w'); [exact (showed_moved _ _ _ _ M)| |exact (A k' Hk')].
      intros Hi. apply Hj in Hi. apply NoDup_remove_2 in D. apply D. apply in_or_app. right. rewrite <- Hi.
      apply in_map. exact Hk'.
  Qed.
  Lemma crew_showed es stay k ks w w' : showed es [wk_filter k] w w' ->
    told_to_abort (child_of w' (wk_filter k)) = true -> crew stay k ks w -> crew stay k ks w'.
  Proof. intros (all & _ & M) Ht. apply (crew_moved all [wk_filter k]); auto. intros i [<-|[]]; reflexivity. Qed.

  Lemma holds_same hs body m m' : same_mail m m' -> holds hs body m -> holds hs body m'.
  Proof.
    intros Sm [A1 A2 A3 A4 A5 A6 A7]. pose proof (same_whole _ _ Sm) as Hw. destruct Sm.
    constructor; try congruence.
    - unfold headers_of in *. now rewrite same_headers0.
    - intros Hf. rewrite same_body0. apply A3. destruct (m_file m'), (m_file m); cbn in *; congruence.
  Qed.

  (** The filter has read its command and the manager waits for its answer. *)
  Record hears (j : nat) (o : moption) (ev : bool) (x st : sstate) (wait : list nat) (t : table) (w : world) : Prop := {
    hears_crashed : w_crashed w = false;
    hears_has : has w j;
    hears_nego : n_option (w_nego w) = Some no;
    hears_fits : fits o ev (child_of w j);
    hears_reading : reading x (child_of w j);
    hears_keeps : keeps st (upto st) wait t (w_flow w);
    hears_stage : content_stage x = true;
    hears_state : content_stage st = true
  }.
  Lemma reads_hears j o ev wait t w : reads j o ev wait t w -> hears j o ev XEndOfMessage XEndOfMessage wait t w.
  Proof. intros []. constructor; assumption || reflexivity. Qed.
  Lemma stands_stage_of j o ev st wait t hs c rest w : stands j o ev st wait t hs c rest w ->
    content_stage (command_stage c) = true.
  Proof. intros []. destruct stands_place0; reflexivity. Qed.
  Lemma stands_hears d j o ev st wait t hs c rest w : stands j o ev st wait t hs c rest w ->
    let w' := Run (S d) w [KFlushed j] in
    showed [] [j] w w' /\ hears j o ev (command_stage c) st wait t w' /\ w_mail w' = w_mail w.
  Proof.
    intros St. cbv zeta. pose proof (stands_stage_of _ _ _ _ _ _ _ _ _ _ St) as X.
    pose proof (stands_serves _ _ _ _ _ _ _ _ _ _ St) as Sv.
    destruct (flushed_reads (S d) w j (command_stage c) o ev) as (w' & E & M & Fl & Ma & F & R); try apply Sv; auto.
    cbn [children_run fold_left]. rewrite E.
    split; [exact (showed_moved _ _ _ _ M)|]. split; [|exact Ma].
    constructor; try assumption.
    - apply M.
    - exact (moved_has _ _ _ _ _ M (serves_has _ _ _ _ _ _ _ _ _ Sv)).
    - rewrite (moved_nego _ _ _ _ M). apply Sv.
    - rewrite Fl. apply Sv.
    - apply St.
  Qed.
  Lemma place_not_end conv st hs w c c' rest : place conv st hs w c (c' :: rest) -> command_stage c <> XEndOfMessage.
  Proof. intros P. inversion P; subst; discriminate. Qed.
  Lemma place_last conv hs w c : place conv XEndOfMessage hs w c [] ->
    command_stage c = XEndOfMessage /\ m_replaced_each (w_mail w) = false.
  Proof.
    intros P. remember XEndOfMessage as st eqn:Es. remember (@nil command) as l eqn:El.
    destruct P as [pre h post chunks E Hi B|chunks Hst B|b cs Hst Hs Hc Hr|b Hst Hs Hr|Hst Hr];
      rewrite ?Es in *; try discriminate.
    - destruct post; discriminate El.
    - destruct chunks; discriminate El.
    - destruct cs; discriminate El.
    - auto.
  Qed.

  Definition passing (x : sstate) (r : reply) (v : status) : Prop :=
    (r = RAccept /\ v = S_ACCEPT) \/ (r = RContinue /\ x = XEndOfMessage /\ v = S_CONTINUE).
  Definition still (r : reply) : bool := match r with RContinue => true | _ => false end.

  (** The next filter is given the message. *)
  Lemma passes_next d j o ev x st (k' : worker) ks t r v hs chunks w :
    hears j o ev x st (j :: map wk_filter (k' :: ks)) t w -> passing x r v ->
    able k' w -> wk_filter k' <> j -> m_headers (w_mail w) = Some hs -> hs <> [] ->
    (st = XEndOfMessage -> m_chunk (w_mail w) = None) -> body_ready st chunks w ->
    let w' := Step (S d) w (KReply j r) in
    exists o' c0 rest all, converts o' = wk_convert k' /\ handed (wk_convert k') st hs chunks = c0 :: rest /\
      filter visible all = [OSent (wk_filter k') c0] /\ moved all [j; wk_filter k'] w w' /\
      stands (wk_filter k') o' (wk_evaluated k') st (map wk_filter (k' :: ks)) (noted t x v) hs c0 rest w' /\
      w_mail w' = w_mail w /\ told_to_abort (child_of w' j) = still r.
  Proof.
    intros [C Hj No F Rd K X St] Hr (Hk & o' & To & Cv & Fk & Frk) Nk Hh Hne Hck Br. cbv zeta.
    set (i := wk_filter k') in *.
    destruct (pass_reaches d j o ev x st _ t w r v C Hj F Rd X K St Hr) as (w2 & M2 & G2 & K2 & I2 & T2 & Mi).
    cbn [map] in K2, Mi. fold i in K2, Mi.
    assert (Ci : child_of w2 i = child_of w i) by (apply M2; intros [E|[]]; congruence).
    assert (O2 : open i o' (wk_evaluated k') st (upto st) (i :: map wk_filter ks) (noted t x v) w2).
    { constructor; rewrite ?Ci; try assumption.
      - apply M2.
      - exact (moved_has _ _ _ _ _ M2 Hk).
      - rewrite (moved_nego _ _ _ _ M2). exact No. }
    destruct hs as [|h post]; [congruence|].
    destruct (header_sends (Emit d) w2 i o' (wk_evaluated k') st (upto st) (i :: map wk_filter ks) (noted t x v) (h :: post) 0 h)
      as (w3 & E3 & M3 & S3 & G3 & _ & I3); try exact O2; try reflexivity.
    { rewrite G2. exact Hh. }
    { exact I2. }
    specialize (Mi w3). rewrite E3 in Mi. specialize (Mi eq_refl).
    assert (H3 : has w3 j) by exact (moved_has _ _ _ _ _ M3 (moved_has _ _ _ _ _ M2 Hj)).
    specialize (Mi H3). destruct Mi as [MF MG MM MT]. specialize (MM (moved_crashed _ _ _ _ M3)).
    set (w' := Step (S d) w (KReply j r)) in *.
    assert (Mw : moved ([OIn (KReply j r)] ++ [OSent i (hdr (converts o') h)] ++ []) [j; i] w w').
    { apply (moved_trans _ _ _ _ w2).
      - apply (moved_more _ [j]); [|exact M2]. intros y [<-|[]]. now left.
      - apply (moved_trans _ _ _ _ w3).
        + apply (moved_more _ [i]); [|exact M3]. intros y [<-|[]]. right. now left.
        + apply (moved_more _ [j]); [|exact MM]. intros y [<-|[]]. now left. }
    assert (Gw : w_mail w' = w_mail w) by (rewrite MG, G3; exact G2).
    assert (Ciw : child_of w' i = child_of w3 i) by (apply MM; intros [E|[]]; congruence).
    exists o', (hdr (wk_convert k') h), (handed (wk_convert k') st post chunks),
           ([OIn (KReply j r)] ++ [OSent i (hdr (converts o') h)] ++ []).
    split; [exact Cv|]. split; [reflexivity|]. split; [rewrite Cv; reflexivity|]. split; [exact Mw|].
    split.
    - constructor.
      + destruct S3. constructor; rewrite ?Ciw, ?MF; try assumption.
        * apply MM.
        * exact (moved_has _ _ _ _ _ MM serves_has0).
        * rewrite (moved_nego _ _ _ _ MM). assumption.
      + rewrite Gw. exact Hh.
      + intros Q. rewrite Gw. auto.
      + rewrite <- Cv. apply (place_header (converts o') st (h :: post) w' [] h post chunks); [reflexivity| |].
        * rewrite MF. exact I3.
        * intros Q. rewrite Gw. exact (Br Q).
      + exact St.
      + discriminate.
    - split; [exact Gw|]. rewrite MT.
      rewrite (moved_other _ _ _ _ M3) by (intros [E|[]]; congruence). exact T2.
  Qed.

  (** There is no next filter. *)
  Lemma passes_last d j o ev x st t r v original c s w :
    hears j o ev x st [j] t w -> passing x r v ->
    (st = XEndOfMessage -> carries original c (w_mail w)) ->
    stored_status (noted t x v st) = s -> s = S_ACCEPT \/ s = S_CONTINUE ->
    shows ((match st with XEndOfMessage => final_events original c | _ => [] end) ++ [OAnswer s])
          w (Step (S d) w (KReply j r)).
  Proof.
    intros [C Hj No F Rd K X St] Hr Ca Es Hs.
    destruct (pass_reaches d j o ev x st _ t w r v C Hj F Rd X K St Hr) as (w2 & M2 & G2 & K2 & I2 & T2 & Mi).
    specialize (Mi _ eq_refl).
    assert (M3 : moved ((match st with XEndOfMessage => final_events original c | _ => [] end) ++ [OAnswer s]) [] w2
                   (emit_message_reply chunk_size w2 st)).
    { apply (emits original c [] w2 st s (OAnswer s)).
      - apply M2.
      - apply K2.
      - intros Q. rewrite G2. auto.
      - rewrite (keeps_table _ _ _ _ _ K2). exact Es.
      - unfold answer. destruct Hs as [-> | ->]; cbn [status_eqb signal_of]; rewrite !andb_false_r; reflexivity. }
    assert (H3 : has (emit_message_reply chunk_size w2 st) j) by exact (moved_has _ _ _ _ _ M3 (moved_has _ _ _ _ _ M2 Hj)).
    pose proof (mild_moved _ _ _ (Mi H3) (moved_crashed _ _ _ _ M3)) as M4.
    split; [apply M4|].
    exists ([OIn (KReply j r)] ++ ((match st with XEndOfMessage => final_events original c | _ => [] end) ++ [OAnswer s])).
    split.
    - cbn [app filter visible]. rewrite filter_app. f_equal.
      destruct st; try reflexivity. apply final_visible.
    - rewrite (moved_trace _ _ _ _ M4), (moved_trace _ _ _ _ M3), (moved_trace _ _ _ _ M2).
      rewrite !rev_app_distr, <- !app_assoc. reflexivity.
  Qed.
  Lemma first_of {A} (b : list A) c a c0 rest : b ++ c :: a = c0 :: rest -> c0 :: rest = b ++ c :: a.
  Proof. intros <-. reflexivity. Qed.
  Lemma run_one d w op : Run d w [op] = Step d w op.
  Proof. reflexivity. Qed.
  Lemma fits_shown es j o ev w w' x st wait t : showed es [j] w w' -> hears j o ev x st wait t w' ->
    told_to_abort (child_of w' j) = true.
  Proof. intros _ H. exact (told_fits _ _ _ (hears_fits _ _ _ _ _ _ _ _ H)). Qed.

  (** The filter goes on for a while, gets another command and reads it. *)
  Lemma walk_hears d (k : worker) ks o st t hs c0 rest before c after w stay :
    stands (wk_filter k) o (wk_evaluated k) st (wk_filter k :: map wk_filter ks) t hs c0 rest w ->
    c0 :: rest = before ++ c :: after -> crew stay k ks w ->
    let j := wk_filter k in
    let w' := Run (S d) w (goes_on_times k (length before) ++ [KFlushed j]) in
    exists es, sent k (before ++ [c]) = OSent j c0 :: es /\ showed es [j] w w' /\
      hears j o (wk_evaluated k) (command_stage c) st (j :: map wk_filter ks) (tables t (map command_stage before)) w' /\
      same_mail (w_mail w) (w_mail w') /\ m_headers (w_mail w') = Some hs /\
      (st = XEndOfMessage -> m_chunk (w_mail w') = None) /\ crew stay k ks w' /\
      (after <> [] -> command_stage c <> XEndOfMessage) /\
      (after = [] -> st = XEndOfMessage -> command_stage c = XEndOfMessage /\ m_replaced_each (w_mail w') = false).
  Proof.
    intros St E Cr. cbv zeta.
    destruct (stands_walk d (wk_filter k) o (wk_evaluated k) st _ hs before t c0 rest c after w St E) as (es & Ees & Sh & St1 & Sm).
    change (turns (wk_filter k) (length before)) with (goes_on_times k (length before)) in Sh, St1, Sm.
    set (w1 := Run (S d) w (goes_on_times k (length before))) in *.
    destruct (stands_hears d _ _ _ _ _ _ _ _ _ _ St1) as (Sh2 & H2 & G2).
    rewrite run_app. fold w1. set (w2 := Run (S d) w1 [KFlushed (wk_filter k)]) in *.
    assert (ShA : showed es [wk_filter k] w w2).
    { rewrite <- (app_nil_r es). exact (showed_trans _ _ _ _ _ _ Sh Sh2). }
    exists es. split; [exact Ees|]. split; [exact ShA|]. split; [exact H2|].
    split; [rewrite G2; exact Sm|].
    split; [rewrite G2; apply St1|]. split; [rewrite G2; apply St1|].
    split; [exact (crew_showed _ _ _ _ _ _ ShA (told_fits _ _ _ (hears_fits _ _ _ _ _ _ _ _ H2)) Cr)|].
    pose proof (stands_place _ _ _ _ _ _ _ _ _ _ St1) as Pl.
    split.
    - intros Ha. destruct after as [|c' after]; [congruence|]. exact (place_not_end _ _ _ _ _ _ _ Pl).
    - intros -> ->. rewrite G2. exact (place_last _ _ _ _ Pl).
  Qed.

  Lemma crew_other stay k k' ks w : crew stay k (k' :: ks) w -> wk_filter k' <> wk_filter k.
  Proof.
    intros Cr E. pose proof (crew_distinct _ _ _ _ Cr) as D. apply NoDup_remove_2 in D. apply D.
    apply in_or_app. right. cbn [map]. left. exact E.
  Qed.
  Lemma crew_next es stay stay' k k' ks r w w' : crew stay k (k' :: ks) w ->
    moved es [wk_filter k; wk_filter k'] w w' ->
    stay' = (if still r then stay ++ [wk_filter k] else stay) ->
    told_to_abort (child_of w' (wk_filter k)) = still r ->
    told_to_abort (child_of w' (wk_filter k')) = true -> crew stay' k' ks w'.
  Proof.
    intros Cr M Es T1 T2. pose proof (crew_other _ _ _ _ _ Cr) as No1.
    destruct Cr as [C A D Ea]. cbn [map] in *.
    assert (Iff : forall i, In i (stay' ++ wk_filter k' :: map wk_filter ks) <->
                  In i (stay ++ wk_filter k :: wk_filter k' :: map wk_filter ks) /\ (i = wk_filter k -> still r = true)).
    { assert (Nk : ~ In (wk_filter k) (stay ++ wk_filter k' :: map wk_filter ks)) by (apply NoDup_remove_2 in D; exact D).
      intros i. subst stay'. destruct (still r).
      - rewrite <- app_assoc. cbn [app]. split; [intros H; split; [exact H|auto]|intros (H & _); exact H].
      - rewrite !in_app_iff. cbn [In]. rewrite in_app_iff in Nk. cbn [In] in Nk. split.
        + intros H. split; [tauto|]. intros ->. tauto.
        + intros ([H|[H|H]] & Hn); auto. symmetry in H. specialize (Hn H). discriminate Hn. }
    constructor.
    - apply (cast_any es _ _ _ w w' M C).
      + intros i Hi. rewrite Iff. split; [tauto|]. intros H. split; [exact H|].
        intros ->. exfalso. apply Hi. now left.
      + intros i [<-|[<-|[]]] _.
        * rewrite T1. unfold is_live. rewrite (Ea (wk_filter k)) by (apply in_or_app; right; now left).
          rewrite orb_false_r. destruct (still r) eqn:Er.
          -- symmetry. apply existsb_exists. exists (wk_filter k). split; [|apply Nat.eqb_refl].
             apply Iff. split; [apply in_or_app; right; now left|auto].
          -- symmetry. apply not_true_is_false. intros H. apply existsb_exists in H as (y & Hy & E).
             apply Nat.eqb_eq in E. subst y. apply Iff in Hy as (_ & Hy). specialize (Hy eq_refl). discriminate Hy.
        * rewrite T2. symmetry. apply is_live_in. apply in_or_app. right. now left.
    - inversion A as [|? ? _ A2]; subst.
      apply Forall_forall. intros k2 Hk2. rewrite Forall_forall in A2.
      apply (able_showed (filter visible es) _ k2 w w' (showed_moved _ _ _ _ M)); [|exact (A2 k2 Hk2)].
      assert (Hm : In (wk_filter k2) (map wk_filter ks)) by (apply in_map; exact Hk2).
      intros [H|[H|[]]].
      + apply NoDup_remove_2 in D. apply D. apply in_or_app. right. right. rewrite H. exact Hm.
      + apply NoDup_remove_1, NoDup_remove_2 in D. apply D. apply in_or_app. right. rewrite H. exact Hm.
    - subst stay'. destruct (still r).
      + rewrite <- app_assoc. exact D.
      + apply NoDup_remove_1 in D. exact D.
    - intros i Hi. apply Iff in Hi. apply Ea. apply Hi.
  Qed.
  Lemma crew_without stay k ks w i : crew stay k ks w ->
    (In i (stay ++ map wk_filter ks) <-> In i (stay ++ wk_filter k :: map wk_filter ks) /\ i <> wk_filter k).
  Proof.
    intros Cr. pose proof (NoDup_remove_2 _ _ _ (crew_distinct _ _ _ _ Cr)) as Nk.
    rewrite !in_app_iff in *. cbn [In]. split.
    - intros H. split; [tauto|]. intros ->. tauto.
    - intros ([H|[H|H]] & Hn); auto. congruence.
  Qed.

  Lemma sent_split k before c0 rest c es1 es2 : sent k (before ++ [c]) = OSent (wk_filter k) c0 :: es1 ->
    c0 :: rest = before ++ [c] -> sent k (before ++ [c]) ++ es2 = OSent (wk_filter k) c0 :: es1 ++ es2.
  Proof. intros -> _. reflexivity. Qed.

  (** *** Before the end of the message *)
  Lemma heard_run d x hs body : content_stage x = true -> x <> XEndOfMessage -> hs <> [] ->
    forall said k ks cmds ops es result,
    heard chunk_size total early fresh clean x hs body said k ks cmds ops es result ->
    forall t w o c0 rest, cmds = c0 :: rest -> converts o = wk_convert k ->
    stands (wk_filter k) o (wk_evaluated k) x (wk_filter k :: map wk_filter ks) t hs c0 rest w ->
    holds hs body (w_mail w) -> agrees said t -> crew [] k ks w ->
    (rest = [] /\ command_stage c0 = x \/ heeded t x) ->
    let w' := Run (S d) w ops in
    exists es0, es = OSent (wk_filter k) c0 :: es0 /\ shows es0 w w' /\
      match result with
      | None => True
      | Some (k', ks', said') => exists t' o', converts o' = wk_convert k' /\
          lives (wk_filter k') o' (wk_evaluated k') x (upto x) (map wk_filter ks') t' hs body w' /\
          agrees said' t' /\ crew [] k' ks' w'
      end.
  Proof.
    intros X Xm Hne said k ks cmds ops es result H.
    induction H as [said k ks cmds|said k k' ks before c after chunks ops es result Hb Hch H IH
                   |said k before c after Hx Hn|said k ks before c after r e Hev Hr Hf];
      intros t w o c0 rest E Cv St Ho Ag Cr Hd; cbv zeta.
    - (* went on with all *)
      assert (Hl : exists before last, cmds = before ++ [last]).
      { destruct (exists_last (l := cmds)) as (b & l & Q); [rewrite E; discriminate|]. exists b, l. exact Q. }
      destruct Hl as (before & last & El). rewrite El in E |- *. clear El. symmetry in E.
      destruct (stands_walk d (wk_filter k) o (wk_evaluated k) x _ hs before t c0 rest last [] w St E) as (es & Ees & Sh & St1 & Sm).
      set (w1 := Run (S d) w (turns (wk_filter k) (length before))) in *.
      pose proof (stands_answered d _ _ _ _ _ _ _ _ _ St1 Xm) as (_ & Hst & _).
      destruct (answered_lives d _ _ _ _ _ _ _ body _ _ St1 Xm (holds_same _ _ _ _ Sm Ho)) as (Sh2 & L).
      assert (ER : Run (S d) w (goes_on_times k (length (before ++ [last]))) = Run (S d) w1 (goes_on_with (wk_filter k))).
      { rewrite app_length. cbn [length]. change (goes_on_times k (length before + 1)) with (turns (wk_filter k) (length before + 1)).
        rewrite turns_add, run_app. reflexivity. }
      rewrite ER. exists (es ++ [OAnswer S_CONTINUE]).
      unfold sent. rewrite Ees. split; [reflexivity|].
      pose proof (showed_trans _ _ _ _ _ _ Sh Sh2) as ShA.
      split; [exact (showed_shows _ _ _ _ ShA)|].
      exists (went (tables t (map command_stage before)) x), o. split; [exact Cv|]. split; [exact L|]. split.
      + rewrite map_app. cbn [map]. rewrite Hst, app_assoc. apply agrees_went, agrees_tables. exact Ag.
      + apply (crew_showed _ _ _ _ _ _ ShA); [|exact Cr]. exact (told_fits _ _ _ (lives_fits _ _ _ _ _ _ _ _ _ _ L)).
    - (* leaves, another one behind *)
      apply first_of in E.
      destruct (walk_hears d k (k' :: ks) o x t hs c0 rest before c after w [] St E Cr)
        as (es1 & Ees & Sh1 & H1 & Sm1 & Hh1 & Hc1 & Cr1 & _ & _).
      set (w1 := Run (S d) w (goes_on_times k (length before) ++ [KFlushed (wk_filter k)])) in *.
      assert (Pa : passing (command_stage c) RAccept S_ACCEPT) by (left; auto).
      pose proof (crew_able _ _ _ _ Cr1) as Ab. inversion Ab as [|? ? Ak Aks]; subst.
      assert (Ho1 : holds hs body (w_mail w1)) by exact (holds_same _ _ _ _ Sm1 Ho).
      destruct (passes_next d _ o (wk_evaluated k) (command_stage c) x k' ks _ RAccept S_ACCEPT hs chunks w1 H1 Pa Ak
                  (crew_other _ _ _ _ _ Cr1) Hh1 Hne Hc1)
        as (o' & c1 & rest1 & all & Cv' & Eh & Va & M2 & St2 & G2 & T2).
      { intros [Q|Q]; [|congruence]. rewrite (holds_body _ _ _ Ho1). auto. }
      set (w2 := Step (S d) w1 (KReply (wk_filter k) RAccept)) in *.
      cbn [still] in T2.
      destruct (IH (noted (tables t (map command_stage before)) (command_stage c) S_ACCEPT) w2 o' c1 rest1 Eh Cv' St2)
        as (es2 & -> & Sh3 & R3).
      + rewrite G2. exact Ho1.
      + apply agrees_accept, agrees_tables. exact Ag.
      + apply (crew_next all [] [] k k' ks RAccept w1 w2 Cr1 M2 eq_refl T2).
        exact (told_fits _ _ _ (serves_fits _ _ _ _ _ _ _ _ _ (stands_serves _ _ _ _ _ _ _ _ _ _ St2))).
      + right. destruct Hd as [(-> & Hc0)|Hd].
        * destruct before as [|b before]; [|destruct before; discriminate E]. injection E as -> _.
          rewrite <- Hc0. apply heeded_now. now left.
        * apply heeded_noted; [now left|]. apply heeded_tables. exact Hd.
      + assert (ER : Run (S d) w (goes_on_times k (length before) ++ replies k RAccept ++ ops) = Run (S d) w2 ops).
        { unfold replies. change ([KFlushed (wk_filter k); KReply (wk_filter k) RAccept] ++ ops)
            with ([KFlushed (wk_filter k)] ++ (KReply (wk_filter k) RAccept :: ops)).
          rewrite app_assoc, run_app. reflexivity. }
        rewrite ER. exists (es1 ++ OSent (wk_filter k') c1 :: es2). rewrite Ees. split; [reflexivity|].
        split; [|exact R3].
        apply (shows_trans _ _ _ w1); [exact (showed_shows _ _ _ _ Sh1)|].
        change (OSent (wk_filter k') c1 :: es2) with ([OSent (wk_filter k') c1] ++ es2).
        apply (shows_trans _ _ _ w2); [|exact Sh3]. rewrite <- Va. exact (showed_shows _ _ _ _ (showed_moved _ _ _ _ M2)).
    - (* the last one leaves *)
      apply first_of in E.
      destruct (walk_hears d k [] o x t hs c0 rest before c after w [] St E Cr)
        as (es1 & Ees & Sh1 & H1 & Sm1 & Hh1 & Hc1 & Cr1 & _ & _).
      set (w1 := Run (S d) w (goes_on_times k (length before) ++ [KFlushed (wk_filter k)])) in *.
      assert (Pa : passing (command_stage c) RAccept S_ACCEPT) by (left; auto).
      set (t2 := noted (tables t (map command_stage before)) (command_stage c) S_ACCEPT).
      assert (Ag2 : agrees (said ++ map command_stage before) t2) by (apply agrees_accept, agrees_tables; exact Ag).
      assert (Hd2 : heeded t2 x).
      { destruct Hd as [(-> & Hc0)|Hd].
        - destruct before as [|b before]; [|destruct before; discriminate E]. injection E as -> _.
          rewrite <- Hc0. apply heeded_now. now left.
        - apply heeded_noted; [now left|]. apply heeded_tables. exact Hd. }
      destruct (agrees_status _ _ _ Ag2 Hx Hd2) as [(_ & Q)|(Es & _)]; [contradiction|].
      pose proof (passes_last d _ o (wk_evaluated k) (command_stage c) x _ RAccept S_ACCEPT [] (mk_content hs body false None None)
                    S_ACCEPT w1 H1 Pa) as Sh2.
      assert (Sh3 : shows [OAnswer S_ACCEPT] w1 (Step (S d) w1 (KReply (wk_filter k) RAccept))).
      { replace [OAnswer S_ACCEPT] with ((match x with XEndOfMessage => final_events [] (mk_content hs body false None None) | _ => [] end) ++ [OAnswer S_ACCEPT])
          by (destruct x; try reflexivity; congruence).
        apply Sh2; [intros Q; congruence|exact Es|now left]. }
      exists (es1 ++ [OAnswer S_ACCEPT]). rewrite Ees. split; [reflexivity|]. split; [|exact I].
      assert (ER : Run (S d) w (goes_on_times k (length before) ++ replies k RAccept) = Step (S d) w1 (KReply (wk_filter k) RAccept)).
      { unfold replies. change [KFlushed (wk_filter k); KReply (wk_filter k) RAccept]
          with ([KFlushed (wk_filter k)] ++ [KReply (wk_filter k) RAccept]).
        rewrite app_assoc, run_app. reflexivity. }
      rewrite ER. apply (shows_trans _ _ _ w1); [exact (showed_shows _ _ _ _ Sh1)|exact Sh3].
    - (* refuses *)
      apply first_of in E.
      destruct (walk_hears d k ks o x t hs c0 rest before c after w [] St E Cr)
        as (es1 & Ees & Sh1 & H1 & Sm1 & Hh1 & Hc1 & Cr1 & Na & Nl).
      set (w1 := Run (S d) w (goes_on_times k (length before) ++ [KFlushed (wk_filter k)])) in *.
      assert (Xc : command_stage c <> XEndOfMessage).
      { destruct after as [|a after]; [|apply Na; discriminate].
        intros Q. pose proof (stands_walk d (wk_filter k) o (wk_evaluated k) x _ hs before t c0 rest c [] w St E) as (? & _ & _ & St1 & _).
        pose proof (stands_answered d _ _ _ _ _ _ _ _ _ St1 Xm) as (_ & Hst & _). congruence. }
      destruct H1 as [B1 B2 B3 B4 B5 B6 B7 B8]. rewrite Hev in B4.
      destruct (agrees_tables (map command_stage before) _ _ Ag _ Hf) as (U & _).
      pose proof (refuse_reaches d (wk_filter k) o (command_stage c) x _ _ w1 r e [] (mk_content hs body false None None)
                    ([] ++ wk_filter k :: map wk_filter ks) (map wk_filter ks) B1 B2 B4 B5 B7 B6 U Hr) as Sh2.
      exists (es1 ++ e :: aborts total early (map wk_filter ks)). rewrite Ees. split; [reflexivity|]. split; [|exact I].
      assert (ER : Run (S d) w (goes_on_times k (length before) ++ replies k r) = Step (S d) w1 (KReply (wk_filter k) r)).
      { unfold replies. change [KFlushed (wk_filter k); KReply (wk_filter k) r]
          with ([KFlushed (wk_filter k)] ++ [KReply (wk_filter k) r]).
        rewrite app_assoc, run_app. reflexivity. }
      rewrite ER. apply (shows_trans _ _ _ w1); [exact (showed_shows _ _ _ _ Sh1)|].
      replace (e :: aborts total early (map wk_filter ks)) with
        ((match command_stage c with XEndOfMessage => final_events [] (mk_content hs body false None None) | _ => [] end) ++
          e :: aborts total early (map wk_filter ks)) by (destruct (command_stage c); try reflexivity; congruence).
      apply Sh2.
      + intros Q. congruence.
      + exact (crew_cast _ _ _ _ Cr1).
      + intros i. exact (crew_without [] k ks w1 i Cr1).
      + apply (crew_early _ _ _ _ Cr1). apply in_or_app. right. now left.
  Qed.
  (** *** At the end of the message *)
  Notation Ends := (ends chunk_size total early fresh clean final_events).
  Notation Rest := (rest chunk_size total early fresh clean final_events).
  Definition ends_goal (d : nat) (original : list header) (said : list sstate) (stay : list nat) (k : worker)
    (ks : list worker) (c : content) (cmds : list command) (ops : list op) (es : list event) : Prop :=
    forall t w o c0 rest, cmds = c0 :: rest -> converts o = wk_convert k ->
    stands (wk_filter k) o (wk_evaluated k) XEndOfMessage (wk_filter k :: map wk_filter ks) t (c_headers c) c0 rest w ->
    carries original c (w_mail w) -> agrees said t -> crew stay k ks w ->
    (rest = [] /\ command_stage c0 = XEndOfMessage \/ heeded t XEndOfMessage) ->
    exists es0, es = OSent (wk_filter k) c0 :: es0 /\ shows es0 w (Run (S d) w ops).
  Definition rest_goal (d : nat) (original : list header) (said : list sstate) (stay : list nat)
    (ks : list worker) (c : content) (ops : list op) (es : list event) : Prop :=
    forall k o x t r v stay0 w,
    hears (wk_filter k) o (wk_evaluated k) x XEndOfMessage (wk_filter k :: map wk_filter ks) t w -> passing x r v ->
    carries original c (w_mail w) -> agrees said (noted t x v) -> heeded (noted t x v) XEndOfMessage ->
    crew stay0 k ks w -> stay = (if still r then stay0 ++ [wk_filter k] else stay0) ->
    shows es w (Run (S d) w (KReply (wk_filter k) r :: ops)).

  Lemma ends_rest_run d original :
    (forall said stay k ks c cmds ops es, Ends original said stay k ks c cmds ops es ->
       ends_goal d original said stay k ks c cmds ops es) /\
    (forall said stay ks c ops es, Rest original said stay ks c ops es ->
       rest_goal d original said stay ks c ops es).
  Proof.
    assert (Hd2 : forall t x before after (c c0 : command) rest v, v = S_ACCEPT \/ v = S_CONTINUE ->
      c0 :: rest = before ++ c :: after ->
      rest = [] /\ command_stage c0 = x \/ heeded t x ->
      heeded (noted (tables t (map command_stage before)) (command_stage c) v) x).
    { intros t x before after c c0 rest v Hv E [(-> & Hc0)|Hd].
      - destruct before as [|b before]; [|destruct before; discriminate E]. injection E as -> _.
        rewrite <- Hc0. apply heeded_now. exact Hv.
      - apply heeded_noted; [exact Hv|]. apply heeded_tables. exact Hd. }
    assert (Works : forall k ks o t (c : content) es c' w, works k c es c' -> converts o = wk_convert k ->
      hears (wk_filter k) o (wk_evaluated k) XEndOfMessage XEndOfMessage (wk_filter k :: map wk_filter ks) t w ->
      carries original c (w_mail w) -> m_replaced_each (w_mail w) = false ->
      let w' := Run (S d) w (map (KReply (wk_filter k)) (wk_requests k)) in
      showed es [wk_filter k] w w' /\
      hears (wk_filter k) o (wk_evaluated k) XEndOfMessage XEndOfMessage (wk_filter k :: map wk_filter ks) t w' /\
      carries original c' (w_mail w')).
    { intros k ks o t c es c' w Wk Cv [B1 B2 B3 B4 B5 B6 B7 B8] Ca Re. cbv zeta.
      destruct (works_run d k o _ t original c es c' w Wk Cv (Build_reads _ _ _ _ _ _ B1 B2 B3 B4 B5 B6) Ca Re) as (Sh & R & C').
      split; [exact Sh|]. split; [apply reads_hears; exact R|exact C']. }
    apply (ends_rest_ind chunk_size total early fresh clean final_events original
             (ends_goal d original) (rest_goal d original)).
    - (* goes on *)
      intros said stay k ks c cmds es c' ops es' Wk _ IH t w o c0 rest E Cv St Ca Ag Cr Hd.
      assert (Hl : exists before last, cmds = before ++ [last]).
      { destruct (exists_last (l := cmds)) as (b & l & Q); [rewrite E; discriminate|]. exists b, l. exact Q. }
      destruct Hl as (before & last & El). rewrite El in E, IH |- *. clear El. symmetry in E.
      destruct (walk_hears d k ks o XEndOfMessage t (c_headers c) c0 rest before last [] w stay St E Cr)
        as (es1 & Ees & Sh1 & H1 & Sm1 & _ & _ & Cr1 & _ & Nl).
      destruct (Nl eq_refl eq_refl) as (Sl & Re1). clear Nl.
      set (w1 := Run (S d) w (goes_on_times k (length before) ++ [KFlushed (wk_filter k)])) in *.
      pose proof (Hd2 t XEndOfMessage before [] last c0 rest S_CONTINUE (or_intror eq_refl) E Hd) as Hh2.
      rewrite Sl in H1, Hh2.
      destruct (Works k ks o _ c es c' w1 Wk Cv H1 (same_carries _ _ _ _ Sm1 Ca) Re1) as (Sh2 & H2 & Ca2).
      set (w2 := Run (S d) w1 (map (KReply (wk_filter k)) (wk_requests k))) in *.
      assert (Cr2 : crew stay k ks w2) by exact (crew_showed _ _ _ _ _ _ Sh2 (told_fits _ _ _ (hears_fits _ _ _ _ _ _ _ _ H2)) Cr1).
      assert (Pa : passing XEndOfMessage RContinue S_CONTINUE) by (right; auto).
      assert (Ag2 : agrees (said ++ map command_stage (before ++ [last])) (noted (tables t (map command_stage before)) XEndOfMessage S_CONTINUE)).
      { rewrite map_app. cbn [map]. rewrite Sl, app_assoc.
        apply (agrees_went (said ++ map command_stage before) (tables t (map command_stage before)) XEndOfMessage).
        apply agrees_tables. exact Ag. }
      pose proof (IH k o XEndOfMessage _ RContinue S_CONTINUE stay w2 H2 Pa Ca2 Ag2 Hh2 Cr2 eq_refl) as Sh3.
      exists (es1 ++ es ++ es'). rewrite Ees. split; [reflexivity|].
      assert (ER : Run (S d) w (goes_on_times k (length (before ++ [last]) - 1) ++ last_answer k ++ ops) =
                   Run (S d) w2 (KReply (wk_filter k) RContinue :: ops)).
      { rewrite app_length. cbn [length]. replace (length before + 1 - 1)%nat with (length before) by lia.
        unfold last_answer.
        change ((KFlushed (wk_filter k) :: map (KReply (wk_filter k)) (wk_requests k) ++ [KReply (wk_filter k) RContinue]) ++ ops)
          with ([KFlushed (wk_filter k)] ++ (map (KReply (wk_filter k)) (wk_requests k) ++ [KReply (wk_filter k) RContinue]) ++ ops).
        rewrite app_assoc, run_app. fold w1. rewrite <- app_assoc, run_app. reflexivity. }
      rewrite ER. apply (shows_trans _ _ _ w1); [exact (showed_shows _ _ _ _ Sh1)|].
      apply (shows_trans _ _ _ w2); [exact (showed_shows _ _ _ _ Sh2)|exact Sh3].
    - (* accepts at the end *)
      intros said stay k ks c before last es c' ops es' Wk _ IH t w o c0 rest E Cv St Ca Ag Cr Hd.
      symmetry in E.
      destruct (walk_hears d k ks o XEndOfMessage t (c_headers c) c0 rest before last [] w stay St E Cr)
        as (es1 & Ees & Sh1 & H1 & Sm1 & _ & _ & Cr1 & _ & Nl).
      destruct (Nl eq_refl eq_refl) as (Sl & Re1). clear Nl.
      set (w1 := Run (S d) w (goes_on_times k (length before) ++ [KFlushed (wk_filter k)])) in *.
      pose proof (Hd2 t XEndOfMessage before [] last c0 rest S_ACCEPT (or_introl eq_refl) E Hd) as Hh2.
      rewrite Sl in H1, Hh2.
      destruct (Works k ks o _ c es c' w1 Wk Cv H1 (same_carries _ _ _ _ Sm1 Ca) Re1) as (Sh2 & H2 & Ca2).
      set (w2 := Run (S d) w1 (map (KReply (wk_filter k)) (wk_requests k))) in *.
      assert (Cr2 : crew stay k ks w2) by exact (crew_showed _ _ _ _ _ _ Sh2 (told_fits _ _ _ (hears_fits _ _ _ _ _ _ _ _ H2)) Cr1).
      assert (Pa : passing XEndOfMessage RAccept S_ACCEPT) by (left; auto).
      assert (Ag2 : agrees (said ++ map command_stage before) (noted (tables t (map command_stage before)) XEndOfMessage S_ACCEPT))
        by (apply agrees_accept, agrees_tables; exact Ag).
      pose proof (IH k o XEndOfMessage _ RAccept S_ACCEPT stay w2 H2 Pa Ca2 Ag2 Hh2 Cr2 eq_refl) as Sh3.
      exists (es1 ++ es ++ es'). rewrite Ees. split; [reflexivity|].
      assert (ER : Run (S d) w (goes_on_times k (length before) ++
                     (KFlushed (wk_filter k) :: map (KReply (wk_filter k)) (wk_requests k) ++ [KReply (wk_filter k) RAccept]) ++ ops) =
                   Run (S d) w2 (KReply (wk_filter k) RAccept :: ops)).
      { change ((KFlushed (wk_filter k) :: map (KReply (wk_filter k)) (wk_requests k) ++ [KReply (wk_filter k) RAccept]) ++ ops)
          with ([KFlushed (wk_filter k)] ++ (map (KReply (wk_filter k)) (wk_requests k) ++ [KReply (wk_filter k) RAccept]) ++ ops).
        rewrite app_assoc, run_app. fold w1. rewrite <- app_assoc, run_app. reflexivity. }
      rewrite ER. apply (shows_trans _ _ _ w1); [exact (showed_shows _ _ _ _ Sh1)|].
      apply (shows_trans _ _ _ w2); [exact (showed_shows _ _ _ _ Sh2)|exact Sh3].
    - (* leaves before the end *)
      intros said stay k ks c before cmd after ops es Ha _ IH t w o c0 rest E Cv St Ca Ag Cr Hd.
      symmetry in E.
      destruct (walk_hears d k ks o XEndOfMessage t (c_headers c) c0 rest before cmd after w stay St E Cr)
        as (es1 & Ees & Sh1 & H1 & Sm1 & _ & _ & Cr1 & _ & _).
      set (w1 := Run (S d) w (goes_on_times k (length before) ++ [KFlushed (wk_filter k)])) in *.
      pose proof (Hd2 t XEndOfMessage before after cmd c0 rest S_ACCEPT (or_introl eq_refl) E Hd) as Hh2.
      assert (Pa : passing (command_stage cmd) RAccept S_ACCEPT) by (left; auto).
      assert (Ag2 : agrees (said ++ map command_stage before) (noted (tables t (map command_stage before)) (command_stage cmd) S_ACCEPT))
        by (apply agrees_accept, agrees_tables; exact Ag).
      pose proof (IH k o _ _ RAccept S_ACCEPT stay w1 H1 Pa (same_carries _ _ _ _ Sm1 Ca) Ag2 Hh2 Cr1 eq_refl) as Sh3.
      exists (es1 ++ es). rewrite Ees. split; [reflexivity|].
      assert (ER : Run (S d) w (goes_on_times k (length before) ++ replies k RAccept ++ ops) =
                   Run (S d) w1 (KReply (wk_filter k) RAccept :: ops)).
      { unfold replies. change ([KFlushed (wk_filter k); KReply (wk_filter k) RAccept] ++ ops)
          with ([KFlushed (wk_filter k)] ++ (KReply (wk_filter k) RAccept :: ops)).
        rewrite app_assoc, run_app. reflexivity. }
      rewrite ER. apply (shows_trans _ _ _ w1); [exact (showed_shows _ _ _ _ Sh1)|exact Sh3].
    - (* refuses before the end *)
      intros said stay k ks c before cmd after r e Ha Hev Hr Hf t w o c0 rest E Cv St Ca Ag Cr Hd.
      symmetry in E.
      destruct (walk_hears d k ks o XEndOfMessage t (c_headers c) c0 rest before cmd after w stay St E Cr)
        as (es1 & Ees & Sh1 & H1 & Sm1 & _ & _ & Cr1 & Na & _).
      specialize (Na Ha).
      set (w1 := Run (S d) w (goes_on_times k (length before) ++ [KFlushed (wk_filter k)])) in *.
      destruct H1 as [B1 B2 B3 B4 B5 B6 B7 B8]. rewrite Hev in B4.
      destruct (agrees_tables (map command_stage before) _ _ Ag _ Hf) as (U & _).
      pose proof (refuse_reaches d (wk_filter k) o (command_stage cmd) XEndOfMessage _ _ w1 r e original c
                    (stay ++ wk_filter k :: map wk_filter ks) (stay ++ map wk_filter ks) B1 B2 B4 B5 B7 B6 U Hr) as Sh2.
      exists (es1 ++ e :: aborts total early (stay ++ map wk_filter ks)). rewrite Ees. split; [reflexivity|].
      assert (ER : Run (S d) w (goes_on_times k (length before) ++ replies k r) = Step (S d) w1 (KReply (wk_filter k) r)).
      { unfold replies. change [KFlushed (wk_filter k); KReply (wk_filter k) r]
          with ([KFlushed (wk_filter k)] ++ [KReply (wk_filter k) r]).
        rewrite app_assoc, run_app. reflexivity. }
      rewrite ER. apply (shows_trans _ _ _ w1); [exact (showed_shows _ _ _ _ Sh1)|].
      replace (e :: aborts total early (stay ++ map wk_filter ks)) with
        ((match command_stage cmd with XEndOfMessage => final_events original c | _ => [] end) ++
          e :: aborts total early (stay ++ map wk_filter ks)) by (destruct (command_stage cmd); try reflexivity; congruence).
      apply Sh2.
      + intros _. exact (same_carries _ _ _ _ Sm1 Ca).
      + exact (crew_cast _ _ _ _ Cr1).
      + intros i. exact (crew_without stay k ks w1 i Cr1).
      + apply (crew_early _ _ _ _ Cr1). apply in_or_app. right. now left.
    - (* refuses at the end *)
      intros said stay k ks c before last es c' r e Wk Hev Hr Hf t w o c0 rest E Cv St Ca Ag Cr Hd.
      symmetry in E.
      destruct (walk_hears d k ks o XEndOfMessage t (c_headers c) c0 rest before last [] w stay St E Cr)
        as (es1 & Ees & Sh1 & H1 & Sm1 & _ & _ & Cr1 & _ & Nl).
      destruct (Nl eq_refl eq_refl) as (Sl & Re1). clear Nl.
      set (w1 := Run (S d) w (goes_on_times k (length before) ++ [KFlushed (wk_filter k)])) in *.
      rewrite Sl in H1.
      destruct (Works k ks o _ c es c' w1 Wk Cv H1 (same_carries _ _ _ _ Sm1 Ca) Re1) as (Sh2 & H2 & Ca2).
      set (w2 := Run (S d) w1 (map (KReply (wk_filter k)) (wk_requests k))) in *.
      assert (Cr2 : crew stay k ks w2) by exact (crew_showed _ _ _ _ _ _ Sh2 (told_fits _ _ _ (hears_fits _ _ _ _ _ _ _ _ H2)) Cr1).
      destruct H2 as [B1 B2 B3 B4 B5 B6 B7 B8]. rewrite Hev in B4.
      destruct (agrees_tables (map command_stage before) _ _ Ag _ Hf) as (U & _).
      pose proof (refuse_reaches d (wk_filter k) o XEndOfMessage XEndOfMessage _ _ w2 r e original c'
                    (stay ++ wk_filter k :: map wk_filter ks) (stay ++ map wk_filter ks) B1 B2 B4 B5 B7 B6 U Hr) as Sh3.
      exists (es1 ++ es ++ final_events original c' ++ e :: aborts total early (stay ++ map wk_filter ks)).
      rewrite Ees. split; [reflexivity|].
      assert (ER : Run (S d) w (goes_on_times k (length before) ++
                     KFlushed (wk_filter k) :: map (KReply (wk_filter k)) (wk_requests k) ++ [KReply (wk_filter k) r]) =
                   Step (S d) w2 (KReply (wk_filter k) r)).
      { change (KFlushed (wk_filter k) :: map (KReply (wk_filter k)) (wk_requests k) ++ [KReply (wk_filter k) r])
          with ([KFlushed (wk_filter k)] ++ map (KReply (wk_filter k)) (wk_requests k) ++ [KReply (wk_filter k) r]).
        rewrite app_assoc, run_app. fold w1. rewrite run_app. reflexivity. }
      rewrite ER. apply (shows_trans _ _ _ w1); [exact (showed_shows _ _ _ _ Sh1)|].
      apply (shows_trans _ _ _ w2); [exact (showed_shows _ _ _ _ Sh2)|].
      apply Sh3.
      + intros _. exact Ca2.
      + exact (crew_cast _ _ _ _ Cr2).
      + intros i. exact (crew_without stay k ks w2 i Cr2).
      + apply (crew_early _ _ _ _ Cr2). apply in_or_app. right. now left.
    - (* no more filters *)
      intros said stay c v Hf Hc Ha k o x t r v0 stay0 w H Pa Ca Ag Hh Cr Es.
      destruct (agrees_status _ _ _ Ag Hf Hh) as [(Q & Hi)|(Q & Hi)].
      + rewrite (Hc Hi). rewrite run_one.
        exact (passes_last d _ o (wk_evaluated k) x XEndOfMessage t r v0 original c S_CONTINUE w H Pa (fun _ => Ca) Q (or_intror eq_refl)).
      + rewrite (Ha Hi). rewrite run_one.
        exact (passes_last d _ o (wk_evaluated k) x XEndOfMessage t r v0 original c S_ACCEPT w H Pa (fun _ => Ca) Q (or_introl eq_refl)).
    - (* the next filter *)
      intros said stay k' ks c chunks ops es Hhs Hb Hch _ IH k o x t r v stay0 w H Pa Ca Ag Hh Cr Es.
      pose proof (crew_able _ _ _ _ Cr) as Ab. inversion Ab as [|? ? Ak Aks]; subst.
      destruct (passes_next d _ o (wk_evaluated k) x XEndOfMessage k' ks t r v (c_headers c) chunks w H Pa Ak
                  (crew_other _ _ _ _ _ Cr) (carries_headers _ _ _ Ca) Hhs)
        as (o' & c1 & rest1 & all & Cv' & Eh & Va & M2 & St2 & G2 & T2).
      { intros _. apply Ca. }
      { intros _. rewrite (carries_body _ _ _ Ca). auto. }
      set (w2 := Step (S d) w (KReply (wk_filter k) r)) in *.
      destruct (IH (noted t x v) w2 o' c1 rest1) as (es2 & -> & Sh3).
      + exact Eh.
      + exact Cv'.
      + exact St2.
      + rewrite G2. exact Ca.
      + exact Ag.
      + apply (crew_next all stay0 _ k k' ks r w w2 Cr M2 eq_refl T2).
        exact (told_fits _ _ _ (serves_fits _ _ _ _ _ _ _ _ _ (stands_serves _ _ _ _ _ _ _ _ _ _ St2))).
      + right. exact Hh.
      + change (OSent (wk_filter k') c1 :: es2) with ([OSent (wk_filter k') c1] ++ es2).
        apply (shows_trans _ _ _ w2); [|exact Sh3]. rewrite <- Va. exact (showed_shows _ _ _ _ (showed_moved _ _ _ _ M2)).
  Qed.

  (** *** The whole message *)
  Lemma course_run d : forall said x hs body k ks cs ops es,
    course chunk_size total early fresh clean final_events said x hs body k ks cs ops es ->
    forall t w o st cmds, converts o = wk_convert k ->
    lives (wk_filter k) o (wk_evaluated k) st cmds (map wk_filter ks) t hs body w ->
    (x = XData /\ cmds = [] /\ hs = [] /\ st <> XRcpt) \/
    (content_stage x = true /\ st = x /\ cmds = upto x /\ hs <> []) ->
    agrees said t -> crew [] k ks w ->
    shows es w (Run (S d) w ops).
  Proof.
    assert (Given : forall x hs body c x' hs' body' k ks t w o st cmds,
      grows x hs body c x' hs' body' -> 
      lives (wk_filter k) o (wk_evaluated k) st cmds (map wk_filter ks) t hs body w ->
      (x = XData /\ cmds = [] /\ hs = [] /\ st <> XRcpt) \/
      (content_stage x = true /\ st = x /\ cmds = upto x /\ hs <> []) ->
      let w' := Run (S d) w [Mta c] in
      let c' := shown_command (converts o) c in
      content_stage x' = true /\ x' <> XEndOfMessage /\ hs' <> [] /\ command_stage c' = x' /\
      showed [OSent (wk_filter k) c'] [wk_filter k] w w' /\
      stands (wk_filter k) o (wk_evaluated k) x' (wk_filter k :: map wk_filter ks) t hs' c' [] w' /\
      holds hs' body' (w_mail w')).
    { intros x hs body c x' hs' body' k ks t w o st cmds G L Hx. cbv zeta.
      destruct G as [x hs n v Hx'|hs|x hs body b Hx' Hl]; cbn [shown_command command_stage].
      - assert (Hc : st <> XRcpt /\ with_command XHeader cmds = [XHeader] /\ existsb (sstate_eqb XEndOfHeader) cmds = false).
        { destruct Hx as [(-> & -> & _ & Hst)|(X & -> & -> & _)]; [auto|].
          destruct Hx' as [-> | ->]; [discriminate X|]. repeat split; discriminate || reflexivity. }
        destruct Hc as (Hc1 & Hc2 & Hc3).
        destruct (header_given d (wk_filter k) o (wk_evaluated k) _ t st cmds hs n v w L Hc1 Hc2 Hc3) as (Sh & St & Ho).
        split; [reflexivity|]. split; [discriminate|]. split; [intros Q; apply app_eq_nil in Q as (_ & Q); discriminate Q|].
        split; [reflexivity|]. auto.
      - destruct Hx as [(Q & _)|(X & -> & -> & Hne)]; [discriminate Q|].
        destruct (end_of_header_given d (wk_filter k) o (wk_evaluated k) _ t XHeader hs w L) as (Sh & St & Ho); [discriminate|exact Hne|].
        split; [reflexivity|]. split; [discriminate|]. auto.
      - assert (Hc : st <> XRcpt /\ hs <> [] /\ with_command XBody cmds = upto_body).
        { destruct Hx as [(-> & _)|(X & -> & -> & Hne)]; [destruct Hx' as [Q|Q]; discriminate Q|].
          destruct Hx' as [-> | ->]; (split; [discriminate|]); auto. }
        destruct Hc as (Hc1 & Hc2 & Hc3).
        destruct (body_given d (wk_filter k) o (wk_evaluated k) _ t st cmds hs body b w L Hc1 Hc2 Hc3 Hl) as (Sh & St & Ho).
        split; [reflexivity|]. split; [discriminate|]. auto. }
    intros said x hs body k ks cs ops es H.
    induction H as [said x hs body k ks|said x hs body k ks c x' hs' body' cs ops es k' ks' said' ops' es' G H _ IH
                   |said x hs body k ks c x' hs' body' ops es G H|said hs body k ks ops es H];
      intros t w o st cmds Cv L Hx Ag Cr.
    - apply shows_refl, L.
    - destruct (Given _ _ _ _ _ _ _ _ _ _ _ _ _ _ G L Hx) as (X' & Xm' & Hne' & Sc & Sh & St & Ho).
      change (Mta c :: ops ++ ops') with ([Mta c] ++ ops ++ ops'). rewrite run_app.
      set (w1 := Run (S d) w [Mta c]) in *. rewrite run_app.
      assert (Cr1 : crew [] k ks w1).
      { apply (crew_showed _ _ _ _ _ _ Sh); [|exact Cr].
        exact (told_fits _ _ _ (serves_fits _ _ _ _ _ _ _ _ _ (stands_serves _ _ _ _ _ _ _ _ _ _ St))). }
      destruct (heard_run d x' hs' body' X' Xm' Hne' _ _ _ _ _ _ _ H t w1 o (shown_command (converts o) c) [])
        as (es0 & -> & Sh1 & t' & o' & Cv' & L' & Ag' & Cr'); auto.
      { now rewrite Cv. }
      set (w2 := Run (S d) w1 ops) in *.
      change ((OSent (wk_filter k) (shown_command (converts o) c) :: es0) ++ es')
        with ([OSent (wk_filter k) (shown_command (converts o) c)] ++ es0 ++ es').
      apply (shows_trans _ _ _ w1); [exact (showed_shows _ _ _ _ Sh)|].
      apply (shows_trans _ _ _ w2); [exact Sh1|].
      apply (IH t' w2 o' x' (upto x') Cv' L'); auto.
    - destruct (Given _ _ _ _ _ _ _ _ _ _ _ _ _ _ G L Hx) as (X' & Xm' & Hne' & Sc & Sh & St & Ho).
      change (Mta c :: ops) with ([Mta c] ++ ops). rewrite run_app.
      set (w1 := Run (S d) w [Mta c]) in *.
      assert (Cr1 : crew [] k ks w1).
      { apply (crew_showed _ _ _ _ _ _ Sh); [|exact Cr].
        exact (told_fits _ _ _ (serves_fits _ _ _ _ _ _ _ _ _ (stands_serves _ _ _ _ _ _ _ _ _ _ St))). }
      destruct (heard_run d x' hs' body' X' Xm' Hne' _ _ _ _ _ _ _ H t w1 o (shown_command (converts o) c) [])
        as (es0 & -> & Sh1 & _); auto.
      { now rewrite Cv. }
      change (OSent (wk_filter k) (shown_command (converts o) c) :: es0)
        with ([OSent (wk_filter k) (shown_command (converts o) c)] ++ es0).
      apply (shows_trans _ _ _ w1); [exact (showed_shows _ _ _ _ Sh)|exact Sh1].
    - destruct Hx as [(Q & _)|(_ & -> & -> & Hne)]; [discriminate Q|].
      destruct (end_of_message_given d (wk_filter k) o (wk_evaluated k) _ t hs body w L Hne) as (Sh & St & Ca).
      change (Mta (CEndOfMessage None) :: ops) with ([Mta (CEndOfMessage None)] ++ ops). rewrite run_app.
      set (w1 := Run (S d) w [Mta (CEndOfMessage None)]) in *.
      assert (Cr1 : crew [] k ks w1).
      { apply (crew_showed _ _ _ _ _ _ Sh); [|exact Cr].
        exact (told_fits _ _ _ (serves_fits _ _ _ _ _ _ _ _ _ (stands_serves _ _ _ _ _ _ _ _ _ _ St))). }
      destruct (proj1 (ends_rest_run d hs) _ _ _ _ _ _ _ _ H t w1 o (CEndOfMessage None) []) as (es0 & -> & Sh1); auto.
      change (OSent (wk_filter k) (CEndOfMessage None) :: es0) with ([OSent (wk_filter k) (CEndOfMessage None)] ++ es0).
      apply (shows_trans _ _ _ w1); [exact (showed_shows _ _ _ _ Sh)|exact Sh1].
  Qed.

  Theorem course_from_the_start d said k ks cs ops es w : begins no (k :: ks) w ->
    f_code (w_flow w) = code -> agrees said (f_statuses (w_flow w)) ->
    length (w_children w) = total -> (forall i, early i = left_at_from w i) ->
    course chunk_size total early fresh clean final_events said XData [] [] k ks cs ops es ->
    shows es w (Run (S d) w ops).
  Proof.
    intros B Hc Ag Hl He Co.
    pose proof (begins_able _ _ _ B) as Ab. apply Forall_cons_iff in Ab as (Ak & Aks).
    destruct Ak as (Hhas & o & To & Cv & Fk & Frk).
    pose proof (begins_all _ _ _ B) as Ba. cbn [map] in Ba.
    assert (Mem : forall i, (i < length (w_children w))%nat ->
              existsb (Nat.eqb i) (wk_filter k :: map wk_filter ks) = k_is_processing_message (child_of w i)).
    { intros i Hi. rewrite Ba. apply eq_true_iff_eq. rewrite existsb_exists. split.
      - intros (y & Hy & E). apply Nat.eqb_eq in E. subst y. apply filter_In in Hy. apply Hy.
      - intros Hp. exists i. split; [|apply Nat.eqb_refl]. apply filter_In. split; [|exact Hp].
        unfold indices. apply in_seq. lia. }
    apply (course_run d said XData [] [] k ks cs ops es Co (f_statuses (w_flow w)) w o (f_state (w_flow w)) [] Cv).
    - constructor; try apply B; try assumption; try reflexivity.
      + split; [discriminate|]. right. split; [apply B|]. split; [exact Ba|].
        intros i Hi. pose proof (begins_accepted _ _ _ B) as Ac. rewrite Forall_forall in Ac.
        change (wk_filter k :: map wk_filter ks) with (map wk_filter (k :: ks)) in Hi.
        apply in_map_iff in Hi as (k' & <- & Hk'). apply Ac. exact Hk'.
      + intros _. apply B.
      + discriminate.
      + constructor; try apply B.
        * unfold headers_of. now rewrite (begins_headers _ _ _ B).
        * unfold whole_body. now rewrite (begins_body _ _ _ B), (begins_file _ _ _ B).
        * intros _. apply B.
    - left. repeat split; try reflexivity. apply B.
    - exact Ag.
    - constructor.
      + split; [exact Hl|]. intros i Hi. rewrite <- Hl in Hi. unfold told_to_abort, is_live. cbn [app].
        rewrite (Mem i Hi), He. unfold left_at_from.
        destruct (k_is_processing_message (child_of w i)), (sstate_eqb (k_state (child_of w i)) XFrom); reflexivity.
      + exact Aks.
      + cbn [app]. rewrite Ba. apply NoDup_filter, seq_NoDup.
      + intros i Hi. cbn [app] in Hi. rewrite Ba in Hi. apply filter_In in Hi as (_ & Hp).
        rewrite He. unfold left_at_from. rewrite Hp. reflexivity.
  Qed.
End Message.

(** *** A message with which every filter goes on *)
Lemma relayed_rest size total early clean final original ks c ops es c' : relayed size ks c ops es c' ->
  forall said stay, In XEndOfMessage said ->
  rest size total early [XEndOfMessage] clean final original said stay ks c ops
       (es ++ final original c' ++ [OAnswer S_CONTINUE]).
Proof.
  induction 1 as [c|k ks c chunks es c' ops es' c'' Hh Hb Hc Wk _ IH cmds]; intros said stay Hs.
  - cbn [app]. apply rest_none; [now left|reflexivity|contradiction].
  - apply (rest_next _ _ _ _ _ _ _ _ _ _ _ _ chunks); try assumption. fold cmds. rewrite <- !app_assoc.
    apply (ends_on _ _ _ _ _ _ _ _ _ k ks c cmds es c' ops _ Wk). apply IH.
    apply in_or_app. now left.
Qed.

Definition live_ops (j : nat) (cs : list command) : list op :=
  concat (map (fun c => Mta c :: goes_on_with j) cs).
Definition live_events (j : nat) (cs : list command) : list event :=
  concat (map (fun c => [OSent j c; OAnswer S_CONTINUE]) cs).
Lemma live_ops_app j a b : live_ops j (a ++ b) = live_ops j a ++ live_ops j b.
Proof. unfold live_ops. rewrite map_app, concat_app. reflexivity. Qed.
Lemma live_events_app j a b : live_events j (a ++ b) = live_events j a ++ live_events j b.
Proof. unfold live_events. rewrite map_app, concat_app. reflexivity. Qed.

Section Straight.
  Variables (size : N) (total : nat) (early : nat -> bool) (clean : bool) (final : list header -> content -> list event).
  Notation Course := (course size total early [XEndOfMessage] clean final).

  Lemma straight_one k ks said x hs body c x' hs' body' cs ops es : grows x hs body c x' hs' body' ->
    (forall said', Course said' x' hs' body' k ks cs ops es) ->
    Course said x hs body k ks (c :: cs) ((Mta c :: goes_on_with (wk_filter k)) ++ ops)
      ([OSent (wk_filter k) (shown_command (wk_convert k) c); OAnswer S_CONTINUE] ++ es).
  Proof.
    intros G H.
    refine (course_on _ _ _ _ _ _ _ _ _ _ _ _ _ _ _ _ _ (goes_on_with (wk_filter k)) _ _ _ _ _ _ G _ (H _)).
    apply (heard_all _ _ _ _ _ _ _ _ _ _ _ [shown_command (wk_convert k) c]).
  Qed.
  Lemma straight_headers k ks cs ops es : forall hs0 said x rest, rest <> [] -> x = XData \/ x = XHeader ->
    Forall (fun h => h_value h <> None) rest ->
    (forall said', Course said' XHeader (hs0 ++ rest) [] k ks cs ops es) ->
    Course said x hs0 [] k ks
      (map (fun h => CHeader (h_name h) (match h_value h with Some v => v | None => [] end)) rest ++ cs)
      (live_ops (wk_filter k) (map (fun h => CHeader (h_name h) (match h_value h with Some v => v | None => [] end)) rest) ++ ops)
      (live_events (wk_filter k) (map (fun h => CHeader (h_name h) (shown (wk_convert k) (h_value h))) rest) ++ es).
  Proof.
    intros hs0 said x rest. revert hs0 said x.
    induction rest as [|h rest IH]; intros hs0 said x Hne Hx Hv H; [congruence|].
    apply Forall_cons_iff in Hv as (Hh & Hv). destruct h as [n [v|]]; [|cbn in Hh; congruence].
    cbn [map h_name h_value]. unfold live_ops, live_events. cbn [map concat]. rewrite <- !app_assoc.
    apply (straight_one k ks said x hs0 [] (CHeader n v) XHeader (hs0 ++ [mk_header n (Some v)]) [] _ _ _ (grows_header x hs0 n v Hx)).
    intros said'. destruct rest as [|h2 rest].
    - apply H.
    - apply (IH (hs0 ++ [mk_header n (Some v)]) said' XHeader); [discriminate|now right|exact Hv|].
      intros said2. rewrite <- app_assoc. apply H.
  Qed.
  Lemma straight_bodies k ks hs cs ops es : forall body said x chunks, chunks <> [] -> x = XEndOfHeader \/ x = XBody ->
    Forall (fun b => N.of_nat (length b) <= 65535) chunks ->
    (forall said', Course said' XBody hs (body ++ concat chunks) k ks cs ops es) ->
    Course said x hs body k ks (map CBody chunks ++ cs)
      (live_ops (wk_filter k) (map CBody chunks) ++ ops)
      (live_events (wk_filter k) (map CBody chunks) ++ es).
  Proof.
    intros body said x chunks. revert body said x.
    induction chunks as [|b chunks IH]; intros body said x Hne Hx Hv H; [congruence|].
    apply Forall_cons_iff in Hv as (Hb & Hv).
    cbn [map]. unfold live_ops, live_events. cbn [map concat]. rewrite <- !app_assoc.
    apply (straight_one k ks said x hs body (CBody b) XBody hs (body ++ b) _ _ _ (grows_body x hs body b Hx Hb)).
    intros said'. destruct chunks as [|b2 chunks].
    - cbn [map concat app] in *. rewrite app_nil_r in H. apply H.
    - apply (IH (body ++ b) said' XBody); [discriminate|now right|exact Hv|].
      intros said2. rewrite <- app_assoc. apply H.
  Qed.
  Lemma straight_course k ks hs chunks es c ops es' c' said : hs <> [] -> Forall (fun h => h_value h <> None) hs ->
    chunks <> [] -> Forall (fun b => N.of_nat (length b) <= 65535) chunks ->
    works k (mk_content hs (concat chunks) false None None) es c -> relayed size ks c ops es' c' ->
    Course said XData [] [] k ks (sent_by_mta hs chunks ++ [CEndOfMessage None]) (first_ops k hs chunks ++ ops)
      (first_events k hs chunks ++ es ++ es' ++ final hs c' ++ [OAnswer S_CONTINUE]).
  Proof.
    intros Hh Hv Hc Hl Wk Rl.
    unfold first_ops, first_events, sent_by_mta.
    fold (live_ops (wk_filter k) (map (fun h => CHeader (h_name h) (match h_value h with Some v => v | None => [] end)) hs ++
                                  CEndOfHeader :: map CBody chunks)).
    fold (live_events (wk_filter k) (map (fun h => CHeader (h_name h) (shown (wk_convert k) (h_value h))) hs ++
                                     CEndOfHeader :: map CBody chunks)).
    rewrite live_ops_app, live_events_app, <- !app_assoc.
    apply straight_headers; auto. cbn [app]. intros said1.
    change (live_ops (wk_filter k) (CEndOfHeader :: map CBody chunks))
      with ((Mta CEndOfHeader :: goes_on_with (wk_filter k)) ++ live_ops (wk_filter k) (map CBody chunks)).
    change (live_events (wk_filter k) (CEndOfHeader :: map CBody chunks))
      with ([OSent (wk_filter k) CEndOfHeader; OAnswer S_CONTINUE] ++ live_events (wk_filter k) (map CBody chunks)).
    rewrite <- !app_assoc.
    apply (straight_one k ks said1 XHeader hs [] CEndOfHeader XEndOfHeader hs [] _ _ _ (grows_end hs)).
    intros said2. apply straight_bodies; auto. cbn [app]. intros said3.
    apply (course_end _ _ _ _ _ _ _ _ _ _ _ (last_answer k ++ ops)
             (OSent (wk_filter k) (CEndOfMessage None) :: es ++ es' ++ final hs c' ++ [OAnswer S_CONTINUE])).
    apply (ends_on _ _ _ _ _ _ _ _ _ k ks _ [CEndOfMessage None] es c ops _ Wk).
    apply relayed_rest; [exact Rl|]. apply in_or_app. right. now left.
  Qed.
End Straight.

Theorem message_goes_round writes stops chunk_size collate_equal
  (Hwrites : forall t, writes t = Taken) (Hstops : forall t, stops t = false)
  (Hsize : 0 < chunk_size <= 65535) no d k ks hs chunks es c ops es' c' w :
  begins no (k :: ks) w -> hs <> [] -> Forall (fun h => h_value h <> None) hs ->
  chunks <> [] -> Forall (fun b => N.of_nat (length b) <= 65535) chunks ->
  works k (mk_content hs (concat chunks) false None None) es c ->
  relayed chunk_size ks c ops es' c' ->
  exists final, told chunk_size hs c' final /\
    let w' := children_run writes stops chunk_size collate_equal (S d) w (first_ops k hs chunks ++ ops) in
    w_crashed w' = false /\
    filter visible (rev (w_trace w')) =
    filter visible (rev (w_trace w)) ++ first_events k hs chunks ++ es ++ es' ++ final.
Proof.
  intros B Hh Hv Hc Hl Wk Rl.
  set (said := match stored_status (f_statuses (w_flow w) XEndOfMessage) with S_CONTINUE => [XEndOfMessage] | _ => [] end).
  pose proof (course_from_the_start writes stops chunk_size collate_equal Hwrites Hstops Hsize
    (f_code (w_flow w)) no (length (w_children w)) (left_at_from w) [XEndOfMessage] d said k ks
    (sent_by_mta hs chunks ++ [CEndOfMessage None]) (first_ops k hs chunks ++ ops)
    (first_events k hs chunks ++ es ++ es' ++ final_events chunk_size hs c' ++ [OAnswer S_CONTINUE]) w B eq_refl) as H.
  exists (final_events chunk_size hs c' ++ [OAnswer S_CONTINUE]). split.
  { destruct (final_changes chunk_size collate_equal Hsize hs c') as (cs & rs & H1 & H2 & ->). exists cs, rs.
    split; [exact H1|]. split; [exact H2|]. rewrite <- !app_assoc. reflexivity. }
  cbv zeta.
  destruct H as (Cr & all & Ha & Ht).
  - intros x [<-|[]]. pose proof (begins_status _ _ _ B) as U. split; [exact U|]. unfold said.
    unfold unrefused in U. destruct (stored_status (f_statuses (w_flow w) XEndOfMessage)); try contradiction U;
      cbn; intuition congruence.
  - reflexivity.
  - reflexivity.
  - apply (straight_course _ _ _ _ _ k ks hs chunks es c ops es' c' said); assumption.
  - split; [exact Cr|]. rewrite Ht, rev_app_distr, rev_involutive, filter_app, Ha. reflexivity.
Qed.
