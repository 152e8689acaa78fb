(** The filter context: what its calls and responses put on the wire. *)
From Verif.Base Require Import Bytes BytesFacts.
From Verif.Model Require Import Decoder Encoder CommandCodec ReplyCodec Status Option Macros ReplyCode Client.
From Verif.Spec Require Import FrameSpec CommandGrammar ReplyGrammar ReplyCodeSpec ClientSpec.
From Verif.Proofs Require Import FramingProofs FieldProofs CommandProofs CommandStream ReplyProofs ReplyStream CodecLemmas ReplyCodeProofs.
From Coq Require Import ZifyBool ZifyNat ZifyN Permutation.
Local Open Scope Z_scope.

(** *** Bytes that carry replies *)

Definition wire (bs : bytes) (rs : list reply) : Prop :=
  exists es ps, Forall2 means es rs /\
    Forall2 (fun e p => reply_payload e = Payload p /\ zlen p < 2147483648) es ps /\
    bs = concat (map frame ps).

Lemma wire_nil : wire [] [].
Proof. exists [], []. repeat split; constructor. Qed.

Lemma wire_app a b rs rs' : wire a rs -> wire b rs' -> wire (a ++ b) (rs ++ rs').
Proof.
  intros (es & ps & H1 & H2 & ->) (es' & ps' & H1' & H2' & ->).
  exists (es ++ es'), (ps ++ ps'). repeat split.
  - apply Forall2_app; auto.
  - apply Forall2_app; auto.
  - rewrite map_app, concat_app. reflexivity.
Qed.

Lemma wire_one e r p :
  means e r -> reply_payload e = Payload p -> zlen p < 2147483648 -> wire (frame p) [r].
Proof.
  intros Hm Hp Hl. exists [e], [p]. repeat split.
  - constructor; [exact Hm|constructor].
  - constructor; [auto|constructor].
  - cbn. rewrite app_nil_r. reflexivity.
Qed.

(** Any payload a meaningful call gives is framed by [encode_reply]. *)
Lemma encode_reply_frame buf e p :
  reply_payload e = Payload p -> is_negotiate_reply e = false -> zlen p < 2147483648 ->
  encode_reply buf e = Some (frame p).
Proof.
  intros Hp Hn Hl. unfold encode_reply. rewrite Hp.
  destruct e; try discriminate; rewrite (pack_frame p) by lia; reflexivity.
Qed.

Lemma wire_packets bs rs : wire bs rs ->
  (forall r, In r rs -> forall o q, r <> RNegotiate o q) ->
  exists ps, bs = concat (map frame ps) /\ Forall2 reply_packet ps rs.
Proof.
  intros (es & ps & H1 & H2 & ->) Hn. exists ps. split; [reflexivity|].
  revert ps H2. induction H1 as [|e r es rs He H1 IH]; intros ps H2.
  - inversion H2; subst. constructor.
  - inversion H2 as [|? p ? ps' [Hp _] H2']; subst. constructor.
    + destruct (meant_packet e r He) as (q & r' & Hq & Hex & Hs & _).
      rewrite Hp in Hq. injection Hq as <-. apply exact_reply_sound in Hex.
      assert (r = r') as ->; [|exact Hex].
      specialize (Hn r (or_introl eq_refl)). unfold same_reply in Hs.
      destruct r; try exact Hs. exfalso. eapply Hn. reflexivity.
    + apply IH; auto. intros r0 Hr0. apply Hn. right. exact Hr0.
Qed.

(** *** Order up to progress notifications *)

Lemma same_order_refl l : same_order l l.
Proof. split; auto. Qed.

Lemma same_order_trans a b c : same_order a b -> same_order b c -> same_order a c.
Proof. intros [H1 H2] [H3 H4]. split; [eapply Permutation_trans; eauto|congruence]. Qed.

Lemma same_order_app a b a' b' : same_order a b -> same_order a' b' -> same_order (a ++ a') (b ++ b').
Proof.
  intros [H1 H2] [H3 H4]. split; [apply Permutation_app; auto|].
  rewrite !filter_app. congruence.
Qed.

Lemma same_order_progress l : same_order (RProgress :: l) (l ++ [RProgress]).
Proof.
  split.
  - apply Permutation_cons_append.
  - rewrite filter_app. cbn. rewrite app_nil_r. reflexivity.
Qed.

(** *** Events *)

Lemma sent_app a b : sent (a ++ b) = sent a ++ sent b.
Proof. unfold sent. rewrite map_app, concat_app. reflexivity. Qed.

Lemma sent_write p evs : sent (EvWrite p :: evs) = p ++ sent evs.
Proof. reflexivity. Qed.

Definition told_of (c : client) : told := mk_told (cc_option c) (cc_reply c) (cc_quarantine c).

(** Nothing is in the buffer unless packets are being buffered. *)
Definition buffer_ok (c : client) : Prop := cc_buffering c = false -> cc_buffered c = [].

(** The parts of the context that modification calls leave alone. *)
Definition kept (c c' : client) : Prop :=
  cc_state c' = cc_state c /\ cc_last_state c' = cc_last_state c /\ cc_status c' = cc_status c /\
  cc_message c' = cc_message c /\ cc_macros c' = cc_macros c.

Lemma kept_refl c : kept c c.
Proof. repeat split. Qed.

Lemma kept_trans a b c : kept a b -> kept b c -> kept a c.
Proof. unfold kept. intuition congruence. Qed.

Lemma chunk_size_pos : (0 < N.to_nat MILTER_CHUNK_SIZE)%nat.
Proof. unfold MILTER_CHUNK_SIZE. lia. Qed.
Lemma chunk_size_z : Z.of_nat (N.to_nat MILTER_CHUNK_SIZE) = 65535.
Proof. unfold MILTER_CHUNK_SIZE. lia. Qed.

(** Action flags are single bits. *)
Lemma flag_bit a n : (N.land a (2 ^ n) =? 2 ^ n)%N = N.testbit a n.
Proof.
  destruct (N.testbit a n) eqn:E.
  - apply N.eqb_eq. apply N.bits_inj. intros m. rewrite N.land_spec.
    destruct (N.eq_dec n m) as [<-|Hne].
    + rewrite E, N.pow2_bits_true. reflexivity.
    + rewrite N.pow2_bits_false by exact Hne. apply andb_false_r.
  - apply N.eqb_neq. intros H.
    assert (Hx : N.testbit (N.land a (2 ^ n)) n = true) by (rewrite H; apply N.pow2_bits_true).
    rewrite N.land_spec, E in Hx. discriminate.
Qed.

Lemma validate_action_bit c n :
  validate_action c (2 ^ n) = true <-> negotiated (cc_option c) n.
Proof.
  unfold validate_action, negotiated. destruct (cc_option c) as [o|].
  - rewrite flag_bit. split; [eauto|]. intros (x & E & H). congruence.
  - split; [discriminate|]. intros (x & E & _). discriminate.
Qed.

Section Taken.
  Variable outcome : nat -> write_outcome.
  Hypothesis taken : forall n, outcome n = Taken.

  Lemma flush_taken c : exists c',
    flush outcome c = (true, c', if cc_buffering c then [EvWrite (cc_buffered c)] else []) /\
    cc_buffered c' = (if cc_buffering c then [] else cc_buffered c) /\ cc_buffering c' = false /\
    told_of c' = told_of c /\ kept c c' /\ cc_encoder c' = cc_encoder c /\ cc_buffer_size c' = cc_buffer_size c.
  Proof.
    unfold flush. destruct (cc_buffering c) eqn:E.
    - rewrite taken. eexists. repeat split.
    - exists c. repeat split. exact E.
  Qed.

  Lemma flush_sent c : buffer_ok c -> exists c' evs,
    flush outcome c = (true, c', evs) /\ sent evs = cc_buffered c /\ results evs = [] /\
    cc_buffered c' = [] /\ cc_buffering c' = false /\
    told_of c' = told_of c /\ kept c c' /\ cc_encoder c' = cc_encoder c.
  Proof.
    intros Hb. destruct (flush_taken c) as (c' & E & H1 & H2 & H3 & H4 & H5 & H6).
    do 2 eexists. split; [exact E|]. unfold buffer_ok in Hb.
    destruct (cc_buffering c).
    - cbn. rewrite app_nil_r. repeat split; auto; apply H4.
    - rewrite Hb in * by reflexivity. cbn. repeat split; auto; apply H4.
  Qed.

  Lemma write_packet_taken c p : buffer_ok c -> exists c' evs,
    write_packet outcome c p = (true, c', evs) /\ sent evs = p ++ cc_buffered c /\ results evs = [] /\
    cc_buffered c' = [] /\ cc_buffering c' = false /\
    told_of c' = told_of c /\ kept c c' /\ cc_encoder c' = cc_encoder c.
  Proof.
    intros Hb. unfold write_packet, agent_write_packet. rewrite taken.
    destruct (flush_sent (attempted c)) as (c' & evs & E & H1 & H1' & H2 & H3 & H4 & H5 & H6).
    { exact Hb. }
    rewrite E. do 2 eexists. split; [reflexivity|]. rewrite app_nil_r, sent_write, H1.
    repeat split; auto; apply H5.
  Qed.

  (** A packet issued at end-of-message: everything up to it is sent, or nothing is. *)
  Lemma buffer_taken c p : buffer_ok c -> exists c' evs,
    write_packet_on_end_of_message outcome c p = (true, c', evs) /\
    sent evs ++ cc_buffered c' = cc_buffered c ++ match p with Some b => b | None => [] end /\
    (sent evs = [] \/ cc_buffered c' = []) /\ results evs = [] /\ buffer_ok c' /\
    told_of c' = told_of c /\ kept c c' /\ cc_encoder c' = cc_encoder c.
  Proof.
    intros Hb. unfold write_packet_on_end_of_message.
    set (b := cc_buffered c ++ _).
    destruct (cc_buffer_size c <? N.of_nat (length b))%N.
    - destruct (flush_taken (with_buffer c b true)) as (c' & E & H1 & H2 & H3 & H4 & H5 & H6).
      rewrite E. do 2 eexists. split; [reflexivity|].
      cbn [cc_buffering cc_buffered with_buffer] in *. rewrite app_nil_r, sent_write, H1.
      cbn. rewrite !app_nil_r. repeat split; auto; try apply H4. intros _. exact H1.
    - do 2 eexists. split; [reflexivity|]. repeat split; auto. intros H. discriminate H.
  Qed.

  Lemma encode_and_buffer_taken c e e' r q R :
    buffer_ok c -> wire (cc_buffered c) R ->
    means e' r -> reply_payload e' = Payload q ->
    reply_payload e = Payload q -> is_negotiate_reply e = false -> zlen q < 2147483648 ->
    exists c' evs R1 R2,
      encode_and_buffer outcome c e = (true, c', evs) /\
      wire (sent evs) R1 /\ wire (cc_buffered c') R2 /\ R1 ++ R2 = R ++ [r] /\
      results evs = [] /\ buffer_ok c' /\ told_of c' = told_of c /\ kept c c'.
  Proof.
    intros Hb HR Hm Hq' Hq Hn Hl. unfold encode_and_buffer, encode.
    rewrite (encode_reply_frame _ e q Hq Hn Hl).
    destruct (buffer_taken (with_encoder c (frame q)) (Some (frame q)))
      as (c' & evs & E & H1 & H2 & H3 & H4 & H5 & H6 & H7).
    { exact Hb. }
    rewrite E. exists c', evs.
    pose proof (wire_one e' r q Hm Hq' Hl) as Hw.
    pose proof (wire_app _ _ _ _ HR Hw) as Hall.
    cbn [cc_buffered with_encoder] in H1.
    destruct H2 as [H2|H2]; rewrite H2 in H1; cbn [app] in H1; rewrite ?app_nil_r in H1.
    - exists [], (R ++ [r]). rewrite H2, H1. cbn [app].
      split; [reflexivity|]. split; [apply wire_nil|]. auto 8.
    - exists (R ++ [r]), []. rewrite H2, H1, !app_nil_r.
      split; [reflexivity|]. split; [exact Hall|]. split; [apply wire_nil|]. auto 8.
  Qed.

  Lemma replace_body_taken : forall fuel c b R,
    (length b < fuel)%nat -> buffer_ok c -> wire (cc_buffered c) R ->
    exists c' evs cs R1 R2,
      replace_body_loop outcome fuel c b = (true, c', evs) /\
      body_chunks b cs /\
      wire (sent evs) R1 /\ wire (cc_buffered c') R2 /\ R1 ++ R2 = R ++ map RReplaceBody cs /\
      results evs = [] /\ buffer_ok c' /\ told_of c' = told_of c /\ kept c c'.
  Proof.
    pose proof chunk_size_pos as Hpos. pose proof chunk_size_z as Hz.
    induction fuel as [|fuel IH]; intros c b R Hf Hb HR; [lia|].
    destruct b as [|b0 b].
    - exists c, [], [], [], R. cbn [replace_body_loop map concat]. unfold body_chunks.
      rewrite !app_nil_r. repeat split; auto. apply wire_nil.
    - set (K := N.to_nat MILTER_CHUNK_SIZE) in *.
      set (rest := b0 :: b) in *. set (x := firstn K rest).
      assert (Hx : x = b0 :: firstn (K - 1) b).
      { subst x rest. destruct K; [lia|]. cbn [firstn]. f_equal. f_equal. lia. }
      assert (Hxl : 1 <= zlen x <= 65535).
      { split; [rewrite Hx; unfold zlen; cbn [length]; lia|].
        unfold zlen. subst x. pose proof (firstn_le_length K rest). lia. }
      assert (Hxx : packed_chunk x = x).
      { subst x. unfold packed_chunk. fold K. rewrite firstn_firstn, Nat.min_id. reflexivity. }
      destruct (encode_and_buffer_taken c (EReplaceBody rest) (EReplaceBody x) (RReplaceBody x)
                  ("b"%char :: x) R)
        as (c1 & evs1 & R1 & R2 & E1 & W1 & W2 & HR12 & Hr1 & Hb1 & Ht1 & Hk1); auto.
      { apply m_replace_body; [rewrite Hx; discriminate|lia]. }
      { cbn [reply_payload]. rewrite Hxx. rewrite Hx. reflexivity. }
      { unfold zlen in *. cbn [length]. lia. }
      destruct (IH c1 (skipn K rest) R2) as
        (c2 & evs2 & cs & R3 & R4 & E2 & [Hc1 Hc2] & W3 & W4 & HR34 & Hr2 & Hb2 & Ht2 & Hk2); auto.
      { rewrite skipn_length. subst rest. cbn [length] in *. lia. }
      exists c2, (evs1 ++ evs2), (x :: cs), (R1 ++ R3), R4.
      split.
      { change (replace_body_loop outcome (S fuel) c rest) with
          (let '(ok, c1, evs) := encode_and_buffer outcome c (EReplaceBody rest) in
           if ok then
             let '(ok', c2, evs') := replace_body_loop outcome fuel c1 (skipn K rest) in
             (ok', c2, evs ++ evs')
           else (false, c1, evs)).
        rewrite E1, E2. reflexivity. }
      split.
      { split; [|constructor; auto]. cbn [concat]. rewrite Hc1. apply firstn_skipn. }
      rewrite sent_app. split; [apply wire_app; auto|]. split; [exact W4|].
      split.
      { rewrite <- app_assoc, HR34. rewrite app_assoc, HR12. cbn [map].
        rewrite <- app_assoc. reflexivity. }
      unfold results in *. rewrite map_app, concat_app, Hr1, Hr2.
      split; [reflexivity|]. split; [exact Hb2|]. split; [congruence|].
      eapply kept_trans; eauto.
  Qed.
End Taken.

(** *** One call *)

Lemma guarded_true c a k : at_end_of_message (cc_state c) = true -> validate_action c a = true ->
  guarded c a k = k.
Proof. intros H1 H2. unfold guarded. rewrite H1, H2. reflexivity. Qed.

Lemma guarded_false c a k : at_end_of_message (cc_state c) = false \/ validate_action c a = false ->
  guarded c a k = (false, c, []).
Proof. unfold guarded. intros [-> | ->]; [reflexivity|]. destruct (negb (at_end_of_message (cc_state c))); reflexivity. Qed.

Definition call_action (k : call) : N :=
  match action_bit k with Some b => 2 ^ b | None => 0 end%N.

Lemma given_dec s : {given s} + {~ given s}.
Proof. unfold given. destruct s; [left; discriminate|right; congruence]. Qed.
Lemma given_text_dec s : {given_text s} + {~ given_text s}.
Proof.
  unfold given_text. destruct s as [[|c s]|].
  - right. intros [_ H]. apply H; reflexivity.
  - left. split; discriminate.
  - right. intros [H _]. apply H; reflexivity.
Qed.

Lemma arguments_dec k : {arguments_given k} + {~ arguments_given k}.
Proof.
  destruct k as [n v|i n v|n i v|n i|f p|r p|r|b| |r|a e m|n|o];
    cbn [arguments_given]; try (left; exact I); try apply given_dec; try apply given_text_dec.
  - destruct (given_dec n), (given_dec v); [left; auto|right; tauto|right; tauto|right; tauto].
  - destruct (given_dec n), (given_dec v); [left; auto|right; tauto|right; tauto|right; tauto].
Qed.

Lemma effective_dec c k bit : action_bit k = Some bit ->
  {effective (at_end_of_message (cc_state c)) (cc_option c) k} +
  {~ effective (at_end_of_message (cc_state c)) (cc_option c) k}.
Proof.
  intros Hbit. destruct (at_end_of_message (cc_state c)) eqn:E1.
  - destruct (validate_action c (2 ^ bit)) eqn:E2.
    + destruct (arguments_dec k) as [H|H].
      * left. split; [reflexivity|]. split; [|exact H]. exists bit. split; [exact Hbit|].
        apply validate_action_bit, E2.
      * right. intros (_ & _ & H'). contradiction.
    + right. intros (_ & (b & Hb & Hn) & _). rewrite Hbit in Hb. injection Hb as <-.
      apply validate_action_bit in Hn. congruence.
  - right. intros (H & _). discriminate.
Qed.

Lemma ineffective_call outcome c k bit :
  action_bit k = Some bit -> ~ effective (at_end_of_message (cc_state c)) (cc_option c) k ->
  do_call outcome c k = (false, c, []).
Proof.
  intros Hbit Hne.
  assert (Hcase : at_end_of_message (cc_state c) = false \/ validate_action c (2 ^ bit) = false \/
                  ~ arguments_given k).
  { destruct (at_end_of_message (cc_state c)) eqn:E1; [|auto].
    destruct (validate_action c (2 ^ bit)) eqn:E2; [|auto]. right; right. intros Ha. apply Hne.
    split; [reflexivity|]. split; [|exact Ha]. exists bit. split; [exact Hbit|].
    apply validate_action_bit, E2. }
  assert (G : forall res, arguments_given k -> guarded c (2 ^ bit) res = (false, c, [])).
  { intros res Ha. apply guarded_false. tauto. }
  destruct k as [n v|i n v|n i v|n i|f p|r p|r|b| |r|a e m|n|o]; try discriminate Hbit;
    cbn [action_bit] in Hbit; injection Hbit as <-; cbn [do_call];
    cbn [arguments_given] in G.
  - destruct n as [n|], v as [v|]; try reflexivity. apply G. split; discriminate.
  - destruct n as [n|], v as [v|]; try reflexivity. apply G. split; discriminate.
  - destruct n as [n|]; try reflexivity. apply G. discriminate.
  - destruct n as [n|]; try reflexivity. apply G. discriminate.
  - destruct f as [[|f0 f]|]; try reflexivity. apply G. split; discriminate.
  - destruct r as [[|f0 f]|]; try reflexivity. apply G. split; discriminate.
  - destruct r as [[|f0 f]|]; try reflexivity. apply G. split; discriminate.
  - apply G. exact I.
Qed.

Ltac small_payload :=
  unfold zlen, be32 in *; cbn [length app] in *;
  repeat (rewrite app_length; cbn [length app]); lia.

Section Calls.
  Variable outcome : nat -> write_outcome.
  Hypothesis taken : forall n, outcome n = Taken.

  Lemma optional_exists (s : option bytes) : exists s', optional s s'.
  Proof. destruct s as [[|x s]|]; eexists; constructor. Qed.

  Lemma opt_text_no_nul s : opt_text s -> optional_no_nul s.
  Proof. destruct s; [intros [H _]; exact H|auto]. Qed.

  Lemma parameters_length p : opt_text p -> zlen (encode_parameters p) <= 536870912.
  Proof.
    unfold encode_parameters, has_parameters. destruct p as [[|x p]|]; cbn [opt_text];
      intros H; try (cbn; lia). destruct H as [_ H]. unfold zlen in *. rewrite app_length. cbn [length] in *. lia.
  Qed.

  Lemma value_length v : opt_text v -> zlen (match v with Some v => v | None => [] end) < 536870912.
  Proof. destruct v; [intros [_ H]; exact H|cbn; lia]. Qed.

  Lemma effective_call c k R :
    buffer_ok c -> wire (cc_buffered c) R -> good_call k ->
    effective (at_end_of_message (cc_state c)) (cc_option c) k ->
    exists c' evs rs R1 R2,
      do_call outcome c k = (true, c', evs) /\ change k rs /\
      wire (sent evs) R1 /\ wire (cc_buffered c') R2 /\ R1 ++ R2 = R ++ rs /\
      results evs = [] /\ buffer_ok c' /\ told_of c' = told_of c /\ kept c c'.
  Proof.
    intros Hb HR Hg (Heom & (bit & Hbit & Hneg) & Harg).
    apply validate_action_bit in Hneg.
    assert (one : forall e r q, means e r -> reply_payload e = Payload q ->
              is_negotiate_reply e = false -> zlen q < 2147483648 -> change k [r] ->
              do_call outcome c k = guarded c (2 ^ bit) (encode_and_buffer outcome c e) ->
              exists c' evs rs R1 R2,
                do_call outcome c k = (true, c', evs) /\ change k rs /\
                wire (sent evs) R1 /\ wire (cc_buffered c') R2 /\ R1 ++ R2 = R ++ rs /\
                results evs = [] /\ buffer_ok c' /\ told_of c' = told_of c /\ kept c c').
    { intros e r q Hm Hq Hn Hl Hch Hdo. rewrite Hdo, guarded_true by auto.
      destruct (encode_and_buffer_taken outcome taken c e e r q R) as
        (c' & evs & R1 & R2 & E & W1 & W2 & HR12 & H1 & H2 & H3 & H4); auto.
      exists c', evs, [r], R1, R2. rewrite E. auto 10. }
    destruct k as [n v|i n v|n i v|n i|f p|r p|r|b| |r|a e m|n|o]; try discriminate Hbit;
      cbn [action_bit] in Hbit; injection Hbit as <-; cbn [arguments_given] in Harg;
      cbn [good_call] in Hg.
    - destruct n as [n|]; [|destruct Harg as [Ha _]; elim Ha; reflexivity].
      destruct v as [v|]; [|destruct Harg as [_ Ha]; elim Ha; reflexivity].
      destruct Hg as (Hne & [Hn1 Hn2] & [Hv1 Hv2]).
      destruct n as [|n0 n]; [elim Hne; reflexivity|].
      eapply (one (EAddHeader (n0 :: n) v)); [apply m_add_header; auto; discriminate|reflexivity|reflexivity| |constructor|reflexivity].
      small_payload.
    - destruct n as [n|]; [|destruct Harg as [Ha _]; elim Ha; reflexivity].
      destruct v as [v|]; [|destruct Harg as [_ Ha]; elim Ha; reflexivity].
      destruct Hg as (Hi & Hne & [Hn1 Hn2] & [Hv1 Hv2]).
      destruct n as [|n0 n]; [elim Hne; reflexivity|]. destruct (optional_exists (Some v)) as [v' Hv'].
      eapply (one (EInsertHeader i (n0 :: n) (Some v)));
        [apply m_insert_header; eauto; discriminate|reflexivity|reflexivity| |constructor; exact Hv'|reflexivity].
      small_payload.
    - destruct n as [n|]; [|elim Harg; reflexivity].
      destruct Hg as (Hi & Hne & [Hn1 Hn2] & Hv). destruct n as [|n0 n]; [elim Hne; reflexivity|].
      pose proof (value_length v Hv) as Hvl.
      destruct v as [[|v0 v]|].
      + eapply (one (EChangeHeader (n0 :: n) i (Some []))) with (r := RDeleteHeader (n0 :: n) i);
          [apply m_change_header_empty; auto; try discriminate; constructor|reflexivity|reflexivity| |apply ch_clear; constructor|reflexivity].
        small_payload.
      + destruct Hv as [Hv1 Hv2].
        eapply (one (EChangeHeader (n0 :: n) i (Some (v0 :: v)))) with (r := RChangeHeader (n0 :: n) i (v0 :: v));
          [apply m_change_header; auto; discriminate|reflexivity|reflexivity| |apply ch_change; discriminate|reflexivity].
        small_payload.
      + eapply (one (EChangeHeader (n0 :: n) i None)) with (r := RDeleteHeader (n0 :: n) i);
          [apply m_change_header_empty; auto; try discriminate; constructor|reflexivity|reflexivity| |apply ch_clear; constructor|reflexivity].
        small_payload.
    - destruct n as [n|]; [|elim Harg; reflexivity].
      destruct Hg as (Hi & Hne & [Hn1 Hn2]). destruct n as [|n0 n]; [elim Hne; reflexivity|].
      eapply (one (EDeleteHeader (n0 :: n) i)) with (r := RDeleteHeader (n0 :: n) i);
        [apply m_delete_header; auto; discriminate|reflexivity|reflexivity| |constructor|reflexivity].
      small_payload.
    - destruct f as [[|f0 f]|]; [destruct Harg as [_ Ha]; elim Ha; reflexivity| |destruct Harg as [Ha _]; elim Ha; reflexivity].
      destruct Hg as ([Hf1 Hf2] & Hp). destruct (optional_exists p) as [p' Hp'].
      pose proof (parameters_length p Hp) as Hpl.
      eapply (one (EChangeFrom (f0 :: f) p)) with (r := RChangeFrom (f0 :: f) p');
        [apply m_change_from; auto; [discriminate|apply opt_text_no_nul; exact Hp]|reflexivity|reflexivity| |constructor; exact Hp'|reflexivity].
      small_payload.
    - destruct r as [[|f0 f]|]; [destruct Harg as [_ Ha]; elim Ha; reflexivity| |destruct Harg as [Ha _]; elim Ha; reflexivity].
      destruct Hg as ([Hf1 Hf2] & Hp). destruct (optional_exists p) as [p' Hp'].
      pose proof (parameters_length p Hp) as Hpl.
      eapply (one (EAddRecipient (f0 :: f) p)) with (r := RAddRecipient (f0 :: f) p');
        [apply m_add_recipient; auto; [discriminate|apply opt_text_no_nul; exact Hp]|reflexivity|reflexivity| |constructor; exact Hp'|reflexivity].
      small_payload.
    - destruct r as [[|f0 f]|]; [destruct Harg as [_ Ha]; elim Ha; reflexivity| |destruct Harg as [Ha _]; elim Ha; reflexivity].
      destruct Hg as [Hf1 Hf2].
      eapply (one (EDeleteRecipient (f0 :: f))) with (r := RDeleteRecipient (f0 :: f));
        [apply m_delete_recipient; auto; discriminate|reflexivity|reflexivity| |constructor|reflexivity].
      small_payload.
    - cbn [do_call]. change A_CHANGE_BODY with (2 ^ 1)%N. rewrite guarded_true by auto.
      destruct (replace_body_taken outcome taken (S (length b)) c b R) as
        (c' & evs & cs & R1 & R2 & E & Hc & W1 & W2 & HR12 & H1 & H2 & H3 & H4); auto.
      exists c', evs, (map RReplaceBody cs), R1, R2. rewrite E.
      split; [reflexivity|]. split; [constructor; exact Hc|]. auto 10.
  Qed.

  (** Any call: the calls asked for so far are on the wire or in the buffer. *)
  Lemma call_spec c k R :
    buffer_ok c -> wire (cc_buffered c) R -> good_call k ->
    exists ok c' evs rs R1 R2,
      do_call outcome c k = (ok, c', evs) /\
      (forall ks rs' t', issue (at_end_of_message (cc_state c)) (told_of c') ks rs' t' ->
         issue (at_end_of_message (cc_state c)) (told_of c) (k :: ks) (rs ++ rs') t') /\
      wire (sent evs) R1 /\ wire (cc_buffered c') R2 /\ same_order (R1 ++ R2) (R ++ rs) /\
      results evs = [] /\ buffer_ok c' /\ kept c c' /\
      (at_end_of_message (cc_state c) = false -> cc_buffered c = [] -> cc_buffering c = false ->
       cc_buffered c' = [] /\ cc_buffering c' = false /\ (k <> KProgress -> sent evs = [] /\ cc_encoder c' = cc_encoder c)).
  Proof.
    intros Hb HR Hg. set (eom := at_end_of_message (cc_state c)).
    destruct (action_bit k) as [bit|] eqn:Hbit.
    - destruct (effective_dec c k bit Hbit) as [He|He].
      + destruct (effective_call c k R Hb HR Hg He) as
          (c' & evs & rs & R1 & R2 & E & Hc & W1 & W2 & HR12 & H1 & H2 & H3 & H4).
        exists true, c', evs, rs, R1, R2. rewrite HR12, H3.
        split; [exact E|]. split; [intros; apply is_change; auto|].
        do 2 (split; [assumption|]). split; [apply same_order_refl|].
        do 3 (split; [assumption|]). intros Hf. destruct He as [He _]. unfold eom in Hf. congruence.
      + exists false, c, [], [], [], R. rewrite (ineffective_call outcome c k bit Hbit He).
        split; [reflexivity|]. split; [intros; eapply is_not_allowed; eauto|].
        split; [apply wire_nil|]. split; [exact HR|]. split; [rewrite app_nil_r; apply same_order_refl|].
        split; [reflexivity|]. split; [exact Hb|]. split; [apply kept_refl|]. auto.
    - destruct k as [n v|i n v|n i v|n i|f p|r p|r|b| |r|a e m|n|o]; try discriminate Hbit; cbn [do_call].
      + unfold encode. rewrite (encode_reply_frame _ EProgress ["p"%char]) by reflexivity.
        destruct (write_packet_taken outcome taken (with_encoder c (frame ["p"%char])) (frame ["p"%char]))
          as (c' & evs & E & H1 & H2 & H3 & H4 & H5 & H6 & H7); [exact Hb|].
        rewrite E. exists true, c', evs, [RProgress], (RProgress :: R), [].
        split; [reflexivity|].
        split. { intros ks rs' t'. rewrite H5. intros H. apply is_progress. exact H. }
        split. { rewrite H1. apply (wire_app _ _ [RProgress] R); [|exact HR].
                 apply (wire_one EProgress RProgress); [constructor|reflexivity|reflexivity]. }
        split; [rewrite H3; apply wire_nil|].
        split; [rewrite app_nil_r; apply same_order_progress|].
        split; [exact H2|]. split; [intros _; exact H3|]. split; [exact H6|].
        intros _ _ _. split; [exact H3|]. split; [exact H4|]. intros X. elim X. reflexivity.
      + exists true, (with_quarantine c r), [], [], [], R.
        split; [reflexivity|]. split; [intros; apply is_quarantine; auto|].
        split; [apply wire_nil|]. split; [exact HR|]. split; [rewrite app_nil_r; apply same_order_refl|].
        split; [reflexivity|]. split; [exact Hb|]. split; [repeat split|]. auto.
      + destruct (set_reply_spec (cc_reply c) a e m) as [[Ha E]|[Ha E]]; rewrite E.
        * exists true, (with_reply c (mk_smtp_reply a e m)), [], [], [], R.
          split; [reflexivity|]. split; [intros; apply is_reply; auto|].
          split; [apply wire_nil|]. split; [exact HR|]. split; [rewrite app_nil_r; apply same_order_refl|].
          split; [reflexivity|]. split; [exact Hb|]. split; [repeat split|]. auto.
        * exists false, (with_reply c (cc_reply c)), [], [], [], R.
          split; [reflexivity|]. split; [intros; apply is_bad_reply; auto|].
          split; [apply wire_nil|]. split; [exact HR|]. split; [rewrite app_nil_r; apply same_order_refl|].
          split; [reflexivity|]. split; [exact Hb|]. split; [repeat split|]. auto.
      + exists true, (with_buffer_size c n), [], [], [], R.
        split; [reflexivity|]. split; [intros; apply is_size; auto|].
        split; [apply wire_nil|]. split; [exact HR|]. split; [rewrite app_nil_r; apply same_order_refl|].
        split; [reflexivity|]. split; [exact Hb|]. split; [repeat split|]. auto.
      + exists true, (with_option c o), [], [], [], R.
        split; [reflexivity|]. split; [intros; apply is_option; auto|].
        split; [apply wire_nil|]. split; [exact HR|]. split; [rewrite app_nil_r; apply same_order_refl|].
        split; [reflexivity|]. split; [exact Hb|]. split; [repeat split|]. auto.
  Qed.
End Calls.
