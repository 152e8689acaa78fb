(** Sessions of the filter context: what is on the wire after any number of exchanges. *)
From Verif.Base Require Import Bytes BytesFacts.
From Verif.Model Require Import Decoder Encoder CommandCodec ReplyCodec Status Option Macros ReplyCode Client.
From Verif.Spec Require Import FrameSpec CommandGrammar ReplyGrammar ReplyCodeSpec ClientSpec.
From Verif.Proofs Require Import FramingProofs CommandStream CodecLemmas ReplyStream ReplyCodeProofs ClientProofs.
From Coq Require Import ZifyBool ZifyNat ZifyN Permutation.
Local Open Scope Z_scope.

Definition good_reply (r : smtp_reply) : Prop :=
  r = no_reply_code \/
  exists c e m, r = mk_smtp_reply c (Some e) (Some m) /\ acceptable c (Some e) /\ one_line m /\
                zlen m < 536870912.

Definition good_told (t : told) : Prop :=
  good_reply (t_reply t) /\ t_quarantine t <> Some [] /\ opt_text (t_quarantine t) /\
  (forall o, t_option t = Some o -> good_option o).

Lemma issue_good eom t ks rs t' :
  issue eom t ks rs t' -> Forall good_call ks -> good_told t ->
  good_told t' /\ (t_option t <> None -> t_option t' <> None).
Proof.
  induction 1 as [t|t k ks rs rs' t' He Hc H IH|t k bit ks rs t' Hb He H IH|t ks rs t' H IH
    |t r ks rs t' H IH|t c e m ks rs t' Ha H IH|t c e m ks rs t' Ha H IH|t n ks rs t' H IH|t o ks rs t' H IH];
    intros Hk Hg; [auto| | | | | | | |]; inversion Hk as [|? ? Hk1 Hk2]; subst; auto.
  - apply IH; [exact Hk2|]. destruct Hg as (G1 & _ & _ & G4). destruct Hk1 as [K1 K2].
    repeat split; auto; apply (G4 o H0).
  - apply IH; [exact Hk2|]. destruct Hg as (G1 & G2 & G3 & G4). cbn [good_call] in Hk1.
    destruct (Hk1 Ha) as (e' & m' & -> & -> & Hm & Hl).
    split; [|split; [exact G2|split; [exact G3|exact G4]]].
    right. exists c, e', m'. auto.
  - cbn [good_call] in Hk1. destruct Hk1 as (x & -> & Hx).
    destruct (IH Hk2) as [IH1 IH2].
    + destruct Hg as (G1 & G2 & G3 & _). split; [exact G1|]. split; [exact G2|]. split; [exact G3|].
      cbn. intros o E. injection E as <-. exact Hx.
    + split; [exact IH1|]. intros _. apply IH2. discriminate.
Qed.

(** *** Verdicts *)

Lemma custom_reply_size c e m t :
  acceptable c (Some e) -> one_line m -> zlen m < 536870912 ->
  format_reply_code (mk_smtp_reply c (Some e) (Some m)) = Some t -> zlen t < 1073741824.
Proof.
  intros [Hc Hs] Hm Hl. rewrite format_one_line by (auto; lia). intros H.
  assert (t = three_digits c ++ " "%char :: e ++ " "%char :: m) as -> by congruence.
  destruct (status_code_text (c / 100)%N e) as (_ & _ & He); auto.
  { destruct (hundreds c Hc) as [->| ->]; reflexivity. }
  unfold zlen in *. rewrite app_length. unfold three_digits. cbn [length].
  rewrite app_length. cbn [length]. lia.
Qed.

Lemma verdict_packet c s :
  good_reply (cc_reply c) ->
  let s' := match s with S_DEFAULT => S_CONTINUE | _ => s end in
  (create_reply_packet c s' = (None, c) /\ verdict (cc_reply c) s = []) \/
  exists p r, create_reply_packet c s' = (Some (frame p), with_encoder c (frame p)) /\
              verdict (cc_reply c) s = [r] /\ wire (frame p) [r].
Proof.
  intros Hg.
  assert (one : forall e r p, verdict_call c match s with S_DEFAULT => S_CONTINUE | _ => s end = Some e ->
            means e r -> reply_payload e = Payload p -> zlen p < 2147483648 ->
            is_negotiate_reply e = false -> verdict (cc_reply c) s = [r] ->
            exists p r, create_reply_packet c match s with S_DEFAULT => S_CONTINUE | _ => s end =
                        (Some (frame p), with_encoder c (frame p)) /\
                        verdict (cc_reply c) s = [r] /\ wire (frame p) [r]).
  { intros e r p Hv Hm Hp Hl Hn Hr. exists p, r. unfold create_reply_packet. rewrite Hv. unfold encode.
    rewrite (encode_reply_frame _ e p) by assumption. split; [reflexivity|]. split; [exact Hr|].
    apply (wire_one e r p); assumption. }
  cbn zeta.
  destruct s; try (left; split; reflexivity); right;
    try (eapply one; [reflexivity|constructor|reflexivity|reflexivity|reflexivity|reflexivity]).
  - (* reject *)
    destruct Hg as [Hg|(k & e & m & Hg & Ha & Hm & Hl)].
    + eapply one; [cbn [verdict_call]; rewrite Hg; reflexivity|constructor|reflexivity|reflexivity|reflexivity|].
      rewrite Hg. reflexivity.
    + destruct (format_reply_code (cc_reply c)) as [t|] eqn:Et.
      * pose proof Et as Et'. rewrite Hg in Et'.
        pose proof (custom_reply_size k e m t Ha Hm Hl Et') as Hsz.
        eapply (one (EReplyCode t)); [cbn [verdict_call]; rewrite Et; reflexivity| |reflexivity| |reflexivity|].
        -- apply (custom_reply_means k e m t); eauto.
        -- unfold zlen in *. cbn [length]. rewrite app_length. cbn [length]. lia.
        -- rewrite Hg. cbn [verdict]. destruct k; [destruct Ha as [Ha _]; lia|reflexivity].
      * rewrite Hg, format_one_line in Et; [discriminate| |exact Hm]. destruct Ha as [Ha _]. lia.
  - (* temporary failure *)
    destruct Hg as [Hg|(k & e & m & Hg & Ha & Hm & Hl)].
    + eapply one; [cbn [verdict_call]; rewrite Hg; reflexivity|constructor|reflexivity|reflexivity|reflexivity|].
      rewrite Hg. reflexivity.
    + destruct (format_reply_code (cc_reply c)) as [t|] eqn:Et.
      * pose proof Et as Et'. rewrite Hg in Et'.
        pose proof (custom_reply_size k e m t Ha Hm Hl Et') as Hsz.
        eapply (one (EReplyCode t)); [cbn [verdict_call]; rewrite Et; reflexivity| |reflexivity| |reflexivity|].
        -- apply (custom_reply_means k e m t); eauto.
        -- unfold zlen in *. cbn [length]. rewrite app_length. cbn [length]. lia.
        -- rewrite Hg. cbn [verdict]. destruct k; [destruct Ha as [Ha _]; lia|reflexivity].
      * rewrite Hg, format_one_line in Et; [discriminate| |exact Hm]. destruct Ha as [Ha _]. lia.
Qed.

Section Session.
  Variable outcome : nat -> write_outcome.
  Hypothesis taken : forall n, outcome n = Taken.

  (** *** Several calls *)

  Lemma calls_spec ks : forall c R,
    buffer_ok c -> wire (cc_buffered c) R -> Forall good_call ks ->
    exists c' evs rs R1 R2,
      do_calls outcome c ks = (c', evs) /\
      (forall ks' rs' t', issue (at_end_of_message (cc_state c)) (told_of c') ks' rs' t' ->
         issue (at_end_of_message (cc_state c)) (told_of c) (ks ++ ks') (rs ++ rs') t') /\
      wire (sent evs) R1 /\ wire (cc_buffered c') R2 /\ same_order (R1 ++ R2) (R ++ rs) /\
      buffer_ok c' /\ kept c c' /\
      (at_end_of_message (cc_state c) = false -> cc_buffered c = [] -> cc_buffering c = false ->
       cc_buffered c' = [] /\ cc_buffering c' = false /\
       (~ In KProgress ks -> sent evs = [] /\ cc_encoder c' = cc_encoder c)).
  Proof.
    induction ks as [|k ks IH]; intros c R Hb HR Hg.
    - exists c, [], [], [], R. cbn [do_calls]. repeat split; auto.
      + apply wire_nil.
      + rewrite app_nil_r. apply Permutation_refl.
      + rewrite app_nil_r. reflexivity.
    - inversion Hg as [|? ? Hk Hks]; subst.
      destruct (call_spec outcome taken c k R Hb HR Hk) as
        (ok & c1 & evs1 & rs1 & R1 & R2 & E1 & I1 & W1 & W2 & O1 & _ & B1 & K1 & Q1).
      destruct (IH c1 R2 B1 W2 Hks) as
        (c2 & evs2 & rs2 & R3 & R4 & E2 & I2 & W3 & W4 & O2 & B2 & K2 & Q2).
      cbn [do_calls]. rewrite E1, E2.
      exists c2, (evs1 ++ EvResult ok :: evs2), (rs1 ++ rs2), (R1 ++ R3), R4.
      split; [reflexivity|]. rewrite (proj1 K1) in I2.
      split. { intros ks' rs' t' H. cbn [app]. rewrite <- app_assoc. apply I1. apply I2. exact H. }
      split. { rewrite sent_app. apply wire_app; [exact W1|exact W3]. }
      split; [exact W4|].
      split. { rewrite <- app_assoc. eapply same_order_trans.
               - apply same_order_app; [apply same_order_refl|exact O2].
               - rewrite !app_assoc. apply same_order_app; [exact O1|apply same_order_refl]. }
      split; [exact B2|]. split; [eapply kept_trans; eauto|].
      intros Hs Hbuf Hbf. destruct (Q1 Hs Hbuf Hbf) as (A1 & A2 & A3).
      destruct Q2 as (C1 & C2 & C3); auto. { rewrite (proj1 K1). exact Hs. }
      split; [exact C1|]. split; [exact C2|]. intros Hn.
      destruct A3 as [A3 A4]; [intros ->; apply Hn; left; reflexivity|].
      destruct C3 as [C3 C4]; [intros Hi; apply Hn; right; exact Hi|].
      rewrite sent_app, A3. split; [exact C3|congruence].
  Qed.

  (** Calls and flushes made outside the handler. *)
  Lemma later_spec later : forall c R,
    buffer_ok c -> wire (cc_buffered c) R -> Forall good_call (somes later) ->
    exists c' evs rs R1 R2,
      client_run outcome c (map (fun k => match k with Some k => OpCall k | None => OpFlush end) later) = (c', evs) /\
      (forall ks' rs' t', issue (at_end_of_message (cc_state c)) (told_of c') ks' rs' t' ->
         issue (at_end_of_message (cc_state c)) (told_of c) (somes later ++ ks') (rs ++ rs') t') /\
      wire (sent evs) R1 /\ wire (cc_buffered c') R2 /\ same_order (R1 ++ R2) (R ++ rs) /\
      buffer_ok c' /\ kept c c' /\
      (at_end_of_message (cc_state c) = false -> cc_buffered c = [] -> cc_buffering c = false ->
       cc_buffered c' = [] /\ cc_buffering c' = false /\
       (~ In KProgress (somes later) -> sent evs = [] /\ cc_encoder c' = cc_encoder c)).
  Proof.
    induction later as [|[k|] later IH]; intros c R Hb HR Hg.
    - exists c, [], [], [], R. cbn [map client_run somes]. repeat split; auto.
      + apply wire_nil.
      + rewrite app_nil_r. apply Permutation_refl.
      + rewrite app_nil_r. reflexivity.
    - cbn [somes] in Hg. inversion Hg as [|? ? Hk Hks]; subst.
      destruct (calls_spec [k] c R Hb HR) as
        (c1 & evs1 & rs1 & R1 & R2 & E1 & I1 & W1 & W2 & O1 & B1 & K1 & Q1).
      { constructor; [exact Hk|constructor]. }
      destruct (IH c1 R2 B1 W2 Hks) as
        (c2 & evs2 & rs2 & R3 & R4 & E2 & I2 & W3 & W4 & O2 & B2 & K2 & Q2).
      cbn [map client_run client_step]. rewrite E1, E2.
      exists c2, (evs1 ++ evs2), (rs1 ++ rs2), (R1 ++ R3), R4.
      split; [reflexivity|]. rewrite (proj1 K1) in I2.
      split. { intros ks' rs' t' H. cbn [somes app]. rewrite <- app_assoc. apply (I1 (somes later ++ ks')). apply I2. exact H. }
      split. { rewrite sent_app. apply wire_app; [exact W1|exact W3]. }
      split; [exact W4|].
      split. { rewrite <- app_assoc. eapply same_order_trans.
               - apply same_order_app; [apply same_order_refl|exact O2].
               - rewrite !app_assoc. apply same_order_app; [exact O1|apply same_order_refl]. }
      split; [exact B2|]. split; [eapply kept_trans; eauto|].
      intros Hs Hbuf Hbf. destruct (Q1 Hs Hbuf Hbf) as (A1 & A2 & A3).
      destruct Q2 as (C1 & C2 & C3); auto. { rewrite (proj1 K1). exact Hs. }
      split; [exact C1|]. split; [exact C2|]. cbn [somes]. intros Hn.
      destruct A3 as [A3 A4]; [intros [->|[]]; apply Hn; left; reflexivity|].
      destruct C3 as [C3 C4]; [intros Hi; apply Hn; right; exact Hi|].
      rewrite sent_app, A3. split; [exact C3|congruence].
    - cbn [somes] in Hg.
      destruct (flush_sent outcome taken c Hb) as (c1 & evs1 & E1 & S1 & _ & B1 & F1 & T1 & K1 & N1).
      destruct (IH c1 []) as
        (c2 & evs2 & rs2 & R3 & R4 & E2 & I2 & W3 & W4 & O2 & B2 & K2 & Q2).
      { intros _. exact B1. } { rewrite B1. apply wire_nil. } { exact Hg. }
      cbn [map client_run client_step]. rewrite E1, E2.
      exists c2, ((evs1 ++ [EvResult true]) ++ evs2), rs2, (R ++ R3), R4.
      split; [reflexivity|]. rewrite (proj1 K1), T1 in I2.
      split; [exact I2|].
      split. { rewrite !sent_app, S1. cbn. rewrite app_nil_r. apply wire_app; [exact HR|exact W3]. }
      split; [exact W4|].
      split. { rewrite <- app_assoc. apply same_order_app; [apply same_order_refl|exact O2]. }
      split; [exact B2|]. split; [eapply kept_trans; eauto|].
      intros Hs Hbuf Hbf. destruct Q2 as (C1 & C2 & C3); auto. { rewrite (proj1 K1). exact Hs. }
      split; [exact C1|]. split; [exact C2|]. cbn [somes]. intros Hn. destruct (C3 Hn) as [C4 C5].
      rewrite !sent_app, S1, Hbuf. split; [exact C4|congruence].
  Qed.

  (** *** Responses *)

  Definition quiet (c : client) : Prop :=
    cc_buffered c = [] /\ cc_buffering c = false /\ at_end_of_message (cc_state c) = false.

  Lemma quiet_ok c : cc_buffered c = [] -> buffer_ok c.
  Proof. intros H _. exact H. Qed.

  Lemma end_of_message_responds c s R :
    buffer_ok c -> wire (cc_buffered c) R -> good_told (told_of c) ->
    exists c' evs,
      end_of_message_response outcome c s = (c', evs) /\
      wire (sent evs) (R ++ conclusion (told_of c) s) /\ quiet c' /\ told_of c' = told_of c.
  Proof.
    intros Hb HR (Gr & Gq1 & Gq2 & Go). unfold end_of_message_response.
    set (s' := match s with S_DEFAULT => S_CONTINUE | _ => s end).
    set (c0 := with_state (with_status c s') (Replied TEndOfMessage)).
    assert (H : exists c1 evs, reply_on_end_of_message outcome c0 s' = (c1, evs) /\
                wire (sent evs) (R ++ conclusion (told_of c) s) /\ quiet c1 /\ told_of c1 = told_of c).
    { unfold reply_on_end_of_message.
      destruct (flush_sent outcome taken c0) as (c1 & evs1 & E1 & S1 & _ & B1 & F1 & T1 & K1 & N1).
      { exact Hb. }
      rewrite E1. cbn [negb].
      assert (Hc1 : cc_reply c1 = cc_reply c /\ cc_quarantine c1 = cc_quarantine c).
      { pose proof (f_equal t_reply T1). pose proof (f_equal t_quarantine T1). auto. }
      destruct Hc1 as [Hrep Hqua].
      assert (Hq1 : at_end_of_message (cc_state c1) = false) by (rewrite (proj1 K1); reflexivity).
      destruct (verdict_packet c1 s) as [[Ev Hv]|(p & r & Ev & Hv & Wv)].
      { rewrite Hrep. exact Gr. }
      - fold s' in Ev. rewrite Ev. do 2 eexists. split; [reflexivity|].
        unfold conclusion. cbn [told_of t_reply]. rewrite <- Hrep, Hv, app_nil_r, S1.
        split; [exact HR|]. split; [repeat split; auto|]. rewrite T1. reflexivity.
      - fold s' in Ev. rewrite Ev.
        change (cc_quarantine (with_encoder c1 (frame p))) with (cc_quarantine c1). rewrite Hqua.
        unfold conclusion. cbn [told_of t_reply t_quarantine] in *. rewrite <- Hrep, Hv.
        destruct (cc_quarantine c) as [q|] eqn:Eq.
        + destruct Gq2 as [Gq2 Gq3].
          assert (Hpq : reply_payload (EQuarantine q) = Payload ("q"%char :: q ++ [NUL])).
          { destruct q; [elim Gq1; reflexivity|reflexivity]. }
          assert (Hlq : zlen ("q"%char :: q ++ [NUL]) < 2147483648).
          { unfold zlen in *. cbn [length]. rewrite app_length. cbn [length]. lia. }
          unfold encode. rewrite (encode_reply_frame _ _ _ Hpq eq_refl Hlq).
          match goal with |- context [write_packet outcome ?x ?y] =>
            destruct (write_packet_taken outcome taken x y) as (c2 & evs2 & E2 & S2 & _ & B2 & F2 & T2 & K2 & N2)
          end.
          { apply quiet_ok. exact B1. }
          rewrite E2. do 2 eexists. split; [reflexivity|].
          rewrite sent_app, S1, S2. cbn [cc_buffered with_encoder]. rewrite B1, app_nil_r.
          split.
          { apply wire_app; [exact HR|]. cbn [app]. change [RQuarantine q; r] with ([RQuarantine q] ++ [r]).
            apply wire_app; [|exact Wv].
            apply (wire_one (EQuarantine q)); [|exact Hpq|exact Hlq].
            apply m_quarantine; [intros ->; apply Gq1; reflexivity|exact Gq2]. }
          split. { repeat split; auto. rewrite (proj1 K2). exact Hq1. }
          rewrite T2. exact T1.
        + match goal with |- context [write_packet outcome ?x ?y] =>
            destruct (write_packet_taken outcome taken x y) as (c2 & evs2 & E2 & S2 & _ & B2 & F2 & T2 & K2 & N2)
          end.
          { apply quiet_ok. exact B1. }
          rewrite E2. do 2 eexists. split; [reflexivity|].
          rewrite sent_app, S1, S2. cbn [cc_buffered with_encoder]. rewrite B1, app_nil_r.
          split. { apply wire_app; [exact HR|exact Wv]. }
          split. { repeat split; auto. rewrite (proj1 K2). exact Hq1. }
          rewrite T2. exact T1. }
    destruct H as (c1 & evs & E & W & Q & T). rewrite E.
    destruct (cc_message c1).
    - do 2 eexists. split; [reflexivity|]. rewrite sent_app. cbn. rewrite app_nil_r.
      split; [exact W|]. split; [exact Q|exact T].
    - do 2 eexists. split; [reflexivity|]. auto.
  Qed.

  Lemma plain_responds c t s :
    cc_buffered c = [] -> cc_buffering c = false -> good_told (told_of c) ->
    exists c' evs,
      plain_response outcome c t s = (c', evs) /\
      wire (sent evs) (verdict (cc_reply c) s) /\ quiet c' /\ told_of c' = told_of c.
  Proof.
    intros Hb Hf (Gr & _). unfold plain_response, do_reply.
    set (s' := match s with S_DEFAULT => S_CONTINUE | _ => s end).
    set (c0 := with_state (with_status c s') (Replied t)).
    destruct (verdict_packet c0 s) as [[Ev Hv]|(p & r & Ev & Hv & Wv)].
    { exact Gr. }
    - fold s' in Ev. rewrite Ev. do 2 eexists. split; [reflexivity|].
      change (cc_reply c0) with (cc_reply c) in Hv. rewrite Hv.
      split; [apply wire_nil|]. repeat split; auto.
    - fold s' in Ev. rewrite Ev.
      destruct (write_packet_taken outcome taken (with_encoder c0 (frame p)) (frame p))
        as (c2 & evs2 & E2 & S2 & _ & B2 & F2 & T2 & K2 & N2).
      { apply quiet_ok. exact Hb. }
      rewrite E2. do 2 eexists. split; [reflexivity|].
      change (cc_reply c0) with (cc_reply c) in Hv. rewrite Hv, S2.
      change (cc_buffered (with_encoder c0 (frame p))) with (cc_buffered c). rewrite Hb, app_nil_r.
      split; [exact Wv|]. split; [repeat split; auto|].
      + rewrite (proj1 K2). reflexivity.
      + rewrite T2. reflexivity.
  Qed.

  Lemma abort_responds c s :
    cc_buffered c = [] -> cc_buffering c = false ->
    exists c', abort_response c s = (c', []) /\ quiet c' /\ told_of c' = told_of c.
  Proof.
    intros Hb Hf. unfold abort_response. eexists. split; [reflexivity|].
    destruct (is_pass (cc_status c) && before_end_of_message (cc_last_state c)); repeat split; auto.
  Qed.

  Lemma requests_length q b : encode_requests q = Some b -> zlen b <= requests_size q.
  Proof.
    assert (J : forall ss, ss <> [] -> zlen (join_symbols ss) + 1 <= fold_right (fun s n => zlen s + 1 + n) 0 ss).
    { induction ss as [|x ss IH]; intros Hne; [congruence|]. destruct ss as [|y ss].
      - cbn [join_symbols fold_right]. lia.
      - change (join_symbols (x :: y :: ss)) with (x ++ " "%char :: join_symbols (y :: ss)).
        specialize (IH ltac:(discriminate)). cbn [fold_right] in *. unfold zlen in *.
        rewrite app_length. cbn [length]. lia. }
    assert (P : forall ss : list bytes, 0 <= fold_right (fun s n => zlen s + 1 + n) 0 ss).
    { induction ss as [|x ss IH]; cbn [fold_right]; unfold zlen in *; lia. }
    revert b. induction q as [|[c ss] q IH]; intros b H; cbn [encode_requests requests_size fold_right snd] in *.
    - injection H as <-. cbn. lia.
    - fold (requests_size q). destruct (MacroStage.command_to_macro_stage c).
      + destruct ss as [|x ss]; [discriminate|].
        destruct (encode_requests q) as [b'|]; [|discriminate]. injection H as <-.
        specialize (IH b' eq_refl). specialize (J (x :: ss) ltac:(discriminate)).
        change (match ss with [] => x | _ :: _ => x ++ " "%char :: join_symbols ss end)
          with (join_symbols (x :: ss)).
        set (j := join_symbols (x :: ss)) in *.
        unfold zlen, be32 in *. cbn [length app]. rewrite app_length. cbn [length] in *. lia.
      + specialize (IH b H). specialize (P ss). lia.
  Qed.

  Lemma negotiate_sends c o q :
    cc_buffered c = [] -> cc_buffering c = false -> cc_encoder c = [] ->
    cc_option c = Some o -> good_option o -> sendable_requests q -> requests_size q < 536870912 ->
    exists p, negotiate_packet c q = Some p /\ wire p [RNegotiate o (some_requests q)].
  Proof.
    intros Hb Hf He Ho (G1 & G2 & G3) Hq Hl. unfold negotiate_packet. rewrite He, Ho.
    destruct (encode_requests_entries q Hq) as (es & Eq & _).
    pose proof (requests_length q _ Eq) as Hlen.
    assert (Hp : reply_payload (ENegotiate o (Some q)) =
                 Payload (append_negotiate [] (Some o) ++ concat (map request_bytes es))).
    { cbn [reply_payload]. rewrite Eq. reflexivity. }
    rewrite Eq. eexists. split; [reflexivity|].
    assert (Hsz : zlen (append_negotiate [] (Some o) ++ concat (map request_bytes es)) < 2147483648).
    { unfold append_negotiate. rewrite zlen_app in *. unfold zlen, be32 in *. cbn [length app] in *. lia. }
    rewrite pack_frame by lia.
    apply (wire_one (ENegotiate o (Some q))); [|exact Hp|exact Hsz].
    destruct q as [|r q]; cbn [some_requests]; [apply m_negotiate_empty; assumption|].
    apply m_negotiate_requests; try assumption. discriminate.
  Qed.

  Lemma negotiate_responds c x :
    cc_buffered c = [] -> cc_buffering c = false -> cc_encoder c = [] ->
    (exists o, x_command x = CNegotiate o) -> good_told (told_of c) -> cc_option c <> None ->
    good_option (x_answer x) -> sendable_requests (x_requests x) ->
    requests_size (x_requests x) < 536870912 ->
    exists c' evs,
      negotiate_response outcome c (x_answer x) (x_requests x) (x_status x) = (c', evs) /\
      wire (sent evs) (fst (answered (told_of c) x)) /\ quiet c' /\
      told_of c' = snd (answered (told_of c) x).
  Proof.
    intros Hb Hf He (m & Hm) (_ & _ & _ & Go) Hno Ga Gq Gl. unfold negotiate_response, answered. rewrite Hm.
    destruct (cc_option c) as [o|] eqn:Eo; [|congruence].
    specialize (Go o). cbn [told_of t_option] in *.
    assert (send : forall c0 o0, cc_buffered c0 = [] -> cc_buffering c0 = false -> cc_encoder c0 = [] ->
              cc_option c0 = Some o0 -> good_option o0 -> cc_state c0 = Replied TNegotiate ->
              exists c' evs,
                match negotiate_packet c0 (x_requests x) with
                | Some p => let '(_, c1, evs) := write_packet outcome (with_encoder c0 p) p in (c1, evs)
                | None => (c0, [EvCrash])
                end = (c', evs) /\
                wire (sent evs) [RNegotiate o0 (some_requests (x_requests x))] /\ quiet c' /\
                told_of c' = told_of c0).
    { intros c0 o0 B F N O G S. destruct (negotiate_sends c0 o0 (x_requests x)) as (p & Ep & Wp); auto.
      rewrite Ep. destruct (write_packet_taken outcome taken (with_encoder c0 p) p)
        as (c2 & evs2 & E2 & S2 & _ & B2 & F2 & T2 & K2 & N2).
      { apply quiet_ok. exact B. }
      rewrite E2. do 2 eexists. split; [reflexivity|]. rewrite S2.
      cbn [cc_buffered with_encoder]. rewrite B, app_nil_r. split; [exact Wp|].
      split; [repeat split; auto|exact T2]. rewrite (proj1 K2). cbn [cc_state with_encoder]. rewrite S. reflexivity. }
    destruct (x_status x) eqn:Es; cbn [fst snd];
      try (do 2 eexists; split; [reflexivity|]; split; [apply wire_nil|]; split;
           [split; [exact Hb|split; [exact Hf|reflexivity]]|unfold told_of; cbn; rewrite Eo; reflexivity]).
    - rewrite Eo. cbn [cc_option t_option told_of].
      destruct (send (with_state (with_status c S_ALL_OPTIONS) (Replied TNegotiate)) o)
        as (c' & evs & E & W & Q & T); auto.
      do 2 eexists. split; [exact E|]. split; [exact W|]. split; [exact Q|]. rewrite T.
      unfold told_of. cbn. rewrite Eo. reflexivity.
    - destruct (send (with_option (with_state (with_status c S_CONTINUE) (Replied TNegotiate)) (Some (x_answer x)))
                  (x_answer x)) as (c' & evs & E & W & Q & T); auto.
      do 2 eexists. split; [exact E|]. split; [exact W|]. split; [exact Q|]. rewrite T. reflexivity.
    - unfold encode. rewrite (encode_reply_frame _ EReject ["r"%char]) by reflexivity.
      match goal with |- context [write_packet outcome ?x ?y] =>
        destruct (write_packet_taken outcome taken x y) as (c2 & evs2 & E2 & S2 & _ & B2 & F2 & T2 & K2 & N2)
      end.
      { apply quiet_ok. exact Hb. }
      rewrite E2. do 2 eexists. split; [reflexivity|]. rewrite S2.
      cbn [cc_buffered with_encoder with_state with_status]. rewrite Hb, app_nil_r.
      split; [apply (wire_one EReject); [constructor|reflexivity|reflexivity]|].
      split; [repeat split; auto|].
      + rewrite (proj1 K2). reflexivity.
      + rewrite T2. unfold told_of. cbn. rewrite Eo. reflexivity.
    - rewrite Eo. 
      destruct (send (with_state (with_status c S_ALL_OPTIONS) (Replied TNegotiate)) o)
        as (c' & evs & E & W & Q & T); auto.
      do 2 eexists. split; [exact E|]. split; [exact W|]. split; [exact Q|]. rewrite T.
      unfold told_of. cbn. rewrite Eo. reflexivity.
  Qed.

  Lemma respond_spec c x t R :
    command_stage (x_command x) = Some t -> x_command x <> CQuit ->
    buffer_ok c -> wire (cc_buffered c) R -> good_told (told_of c) ->
    (is_end_of_message (x_command x) = false -> cc_buffered c = [] /\ cc_buffering c = false) ->
    (is_negotiation x -> good_negotiation x /\ cc_encoder c = [] /\ cc_option c <> None) ->
    exists c' evs,
      respond outcome c t (x_answer x) (x_requests x) (x_status x) = (c', evs) /\
      wire (sent evs) (R ++ fst (answered (told_of c) x)) /\ quiet c' /\
      told_of c' = snd (answered (told_of c) x).
  Proof.
    intros Ht Hq Hb HR Hg Hbuf Hneg.
    assert (plain : is_end_of_message (x_command x) = false ->
              respond outcome c t (x_answer x) (x_requests x) (x_status x) =
                plain_response outcome c t (x_status x) ->
              answered (told_of c) x = (verdict (cc_reply c) (x_status x), told_of c) ->
              exists c' evs,
                respond outcome c t (x_answer x) (x_requests x) (x_status x) = (c', evs) /\
                wire (sent evs) (R ++ fst (answered (told_of c) x)) /\ quiet c' /\
                told_of c' = snd (answered (told_of c) x)).
    { intros He Hr Ha. destruct (Hbuf He) as [H1 H2].
      destruct (plain_responds c t (x_status x) H1 H2 Hg) as (c' & evs & E & W & Q & T).
      exists c', evs. rewrite Hr, Ha. cbn [fst snd]. split; [exact E|].
      split; [|auto]. rewrite <- (app_nil_l (sent evs)). apply wire_app; [rewrite <- H1; exact HR|exact W]. }
    unfold answered in *.
    destruct (x_command x) as [o| | | | | | | | | | | | |] eqn:Em; cbn [command_stage] in Ht; try discriminate Ht;
      injection Ht as <-; cbn [respond]; try (apply plain; reflexivity).
    - destruct (Hbuf eq_refl) as [H1 H2].
      destruct Hneg as ((_ & _ & G3 & G4 & G5) & He & Ho). { exists o. exact Em. }
      destruct (negotiate_responds c x) as (c' & evs & E & W & Q & T); auto. { exists o. exact Em. }
      exists c', evs. split; [exact E|]. unfold answered in W, T. rewrite Em in W, T.
      split; [|auto]. rewrite <- (app_nil_l (sent evs)). apply wire_app; [rewrite <- H1; exact HR|exact W].
    - destruct (end_of_message_responds c (x_status x) R Hb HR Hg) as (c' & evs & E & W & Q & T).
      exists c', evs. auto.
    - destruct (Hbuf eq_refl) as [H1 H2].
      destruct (abort_responds c (x_status x) H1 H2) as (c' & E & Q & T).
      exists c', []. split; [exact E|]. cbn [fst snd]. rewrite app_nil_r. cbn.
      split; [rewrite <- H1; exact HR|auto].
    - congruence.
  Qed.

  Lemma receive_spec c m :
    quiet c -> m <> CQuit ->
    let c1 := receive_command c m in
    at_end_of_message (cc_state c1) = is_end_of_message m /\
    told_of c1 = started (told_of c) m /\ cc_buffered c1 = [] /\ cc_buffering c1 = false /\
    cc_encoder c1 = cc_encoder c.
  Proof.
    intros (H1 & H2 & H3) Hq. destruct m; cbn; repeat split; auto.
  Qed.

  Lemma answered_good t x : good_told t -> (is_negotiation x -> good_negotiation x) ->
    good_told (snd (answered t x)).
  Proof.
    intros Hg Hn. unfold answered. destruct (x_command x) eqn:Em; try exact Hg.
    destruct (x_status x) eqn:Es; try exact Hg. cbn [snd].
    destruct Hg as (G1 & G2 & G3 & _). destruct Hn as (_ & _ & G4 & _). { eexists. exact Em. }
    split; [exact G1|]. split; [exact G2|]. split; [exact G3|]. cbn. intros o1 E. injection E as <-. exact G4.
  Qed.

  Lemma started_good t x : good_told t -> (is_negotiation x -> good_negotiation x) ->
    good_told (started t (x_command x)).
  Proof.
    intros Hg Hn. destruct Hg as (G1 & G2 & G3 & G4). destruct (x_command x) as [o| | | | | | | | | | | | |] eqn:Em; cbn;
      try (split; [exact G1|split; [exact G2|split; [exact G3|exact G4]]]).
    - destruct Hn as ((o' & Ho & Hgo) & _). { eexists. exact Em. }
      rewrite Em in Ho. injection Ho as <-.
      split; [exact G1|]. split; [exact G2|]. split; [exact G3|]. cbn. intros x' E. injection E as <-. exact Hgo.
    - split; [exact G1|]. split; [discriminate|]. split; [exact I|exact G4].
  Qed.

  Lemma client_run_app a b c :
    client_run outcome c (a ++ b) =
    let (c1, evs) := client_run outcome c a in
    let (c2, evs') := client_run outcome c1 b in (c2, evs ++ evs').
  Proof.
    revert c. induction a as [|op a IH]; intros c; cbn [app client_run].
    - destruct (client_run outcome c b). reflexivity.
    - destruct (client_step outcome c op) as [c1 evs1]. rewrite IH.
      destruct (client_run outcome c1 a) as [c2 evs2]. destruct (client_run outcome c2 b).
      rewrite app_assoc. reflexivity.
  Qed.

  Definition reset_if_abort (m : command) (c : client) : client :=
    match m with CAbort => reset_message_related_data c | _ => c end.

  Lemma reset_same m c :
    told_of (reset_if_abort m c) = told_of c /\ cc_state (reset_if_abort m c) = cc_state c /\
    cc_buffered (reset_if_abort m c) = cc_buffered c /\ cc_buffering (reset_if_abort m c) = cc_buffering c /\
    cc_encoder (reset_if_abort m c) = cc_encoder c.
  Proof. destruct m; repeat split. Qed.

  (** The handling of a command up to its answer. *)
  Lemma handled c x t :
    quiet c -> good_told (told_of c) -> good_exchange x ->
    (is_negotiation x -> good_negotiation x /\ cc_encoder c = []) ->
    command_stage (x_command x) = Some t -> x_command x <> CQuit ->
    exists c3 evs3 rs R1 R2 c4 evs4,
      client_run outcome c (ops_of x) = (c4, evs3 ++ evs4) /\
      respond outcome c3 t (x_answer x) (x_requests x) (x_status x) = (c4, evs4) /\
      issue (is_end_of_message (x_command x)) (started (told_of c) (x_command x)) (x_calls x) rs (told_of c3) /\
      wire (sent evs3) R1 /\ wire (cc_buffered c3) R2 /\ same_order (R1 ++ R2) rs /\ buffer_ok c3 /\
      (is_end_of_message (x_command x) = false -> cc_buffered c3 = [] /\ cc_buffering c3 = false) /\
      (is_negotiation x -> cc_encoder c3 = []).
  Proof.
    intros Hc Hg (Hk & Hs & Hl) Hn Ht Hq.
    destruct (receive_spec c (x_command x) Hc Hq) as (P1 & P2 & P3 & P4 & P5).
    set (c1 := receive_command c (x_command x)) in *.
    assert (Hstep : forall ks s c2 evs2, s <> S_PROGRESS ->
              do_calls outcome c1 ks = (c2, evs2) ->
              client_step outcome c (OpCommand (x_command x) ks (x_answer x) (x_requests x) s) =
              let (c4, evs4) := respond outcome (reset_if_abort (x_command x) c2) t (x_answer x) (x_requests x) s in
              (c4, evs2 ++ evs4)).
    { intros ks s c2 evs2 Hs' E. cbn [client_step]. fold c1. rewrite E, Ht. unfold reset_if_abort.
      destruct (x_command x); try congruence; destruct s; try congruence; reflexivity. }
    destruct x as [m ks o q s|m ks later o q s]; cbn [x_command x_calls x_answer x_requests x_status ops_of] in *.
    - destruct (calls_spec ks c1 [] (quiet_ok c1 P3)) as
        (c2 & evs2 & rs & R1 & R2 & E & I & W1 & W2 & O & B & K & Q).
      { rewrite P3. apply wire_nil. } { exact Hk. }
      destruct (reset_same m c2) as (S1 & S2 & S3 & S4 & S5).
      destruct (respond outcome (reset_if_abort m c2) t o q s) as [c4 evs4] eqn:Er.
      exists (reset_if_abort m c2), evs2, rs, R1, R2, c4, evs4.
      split. { cbn [client_run]. rewrite (Hstep ks s c2 evs2 Hs E), Er, app_nil_r. reflexivity. }
      split; [exact Er|].
      rewrite P1, P2 in I. rewrite P1, P3, P4, P5 in Q.
      split. { specialize (I [] [] (told_of c2) (is_nil _ _)). rewrite !app_nil_r in I. rewrite S1. exact I. }
      split; [exact W1|]. rewrite S3, S4, S5. split; [exact W2|]. split; [exact O|].
      split; [unfold buffer_ok; rewrite S3, S4; exact B|].
      split. { intros He. destruct (Q He eq_refl eq_refl) as (Q1 & Q2 & _). auto. }
      intros Hx. destruct (Hn Hx) as [(_ & Hp & _) He]. destruct Hx as (oo & Hx). cbn in Hx. subst m.
      destruct (Q eq_refl eq_refl eq_refl) as (_ & _ & Q3). destruct (Q3 Hp) as [_ Q4]. congruence.
    - apply Forall_app in Hk. destruct Hk as [Hk1 Hk2]. destruct Hl as [_ Hl].
      destruct (calls_spec ks c1 [] (quiet_ok c1 P3)) as
        (c2 & evs2 & rs & R1 & R2 & E & I & W1 & W2 & O & B & K & Q).
      { rewrite P3. apply wire_nil. } { exact Hk1. }
      destruct (reset_same m c2) as (S1 & S2 & S3 & S4 & S5).
      set (c2' := reset_if_abort m c2) in *.
      assert (Hfirst : client_step outcome c (OpCommand m ks o q S_PROGRESS) = (c2', evs2)).
      { cbn [client_step]. fold c1. rewrite E, Ht. unfold c2', reset_if_abort.
        destruct m; try congruence; reflexivity. }
      destruct (later_spec later c2' R2) as
        (c3 & evs3 & rs3 & R3 & R4 & E3 & I3 & W3 & W4 & O3 & B3 & K3 & Q3).
      { unfold buffer_ok. rewrite S3, S4. exact B. } { rewrite S3. exact W2. } { exact Hk2. }
      destruct (respond outcome c3 t o q s) as [c4 evs4] eqn:Er.
      exists c3, (evs2 ++ evs3), (rs ++ rs3), (R1 ++ R3), R4, c4, evs4.
      split.
      { cbn [client_run]. rewrite Hfirst, client_run_app, E3, Ht. cbn [client_run client_step].
        rewrite Er, app_nil_r, app_assoc. reflexivity. }
      split; [exact Er|].
      rewrite P1, P2 in I. rewrite S2, (proj1 K), P1, S1 in I3.
      split. { specialize (I3 [] [] (told_of c3) (is_nil _ _)). rewrite !app_nil_r in I3. apply I, I3. }
      split. { rewrite sent_app. apply wire_app; assumption. }
      split; [exact W4|].
      split. { rewrite <- app_assoc. eapply same_order_trans.
               - apply same_order_app; [apply same_order_refl|exact O3].
               - rewrite app_assoc. apply same_order_app; [exact O|apply same_order_refl]. }
      split; [exact B3|].
      rewrite S2, (proj1 K), P1, S3, S4, S5 in Q3. rewrite P1, P3, P4, P5 in Q.
      split. { intros He. destruct (Q He eq_refl eq_refl) as (Q1 & Q2 & _).
               destruct (Q3 He Q1 Q2) as (Q5 & Q6 & _). auto. }
      intros Hx. destruct (Hn Hx) as [(_ & Hp & _) He]. destruct Hx as (oo & Hx). cbn in Hx. subst m.
      cbn [x_calls] in Hp. rewrite in_app_iff in Hp.
      destruct (Q eq_refl eq_refl eq_refl) as (Q1 & Q2 & Q4).
      destruct (Q3 eq_refl Q1 Q2) as (_ & _ & Q6).
      destruct Q4 as [_ Q4]; [tauto|]. destruct Q6 as [_ Q6]; [tauto|]. congruence.
  Qed.

  Lemma exchange_spec c x :
    quiet c -> good_told (told_of c) -> good_exchange x ->
    (is_negotiation x -> good_negotiation x /\ cc_encoder c = []) ->
    exists c' evs R rs,
      client_run outcome c (ops_of x) = (c', evs) /\
      exchanged (told_of c) x rs (told_of c') /\ wire (sent evs) R /\ same_order R rs /\
      quiet c' /\ good_told (told_of c').
  Proof.
    intros Hc Hg Hx Hn.
    assert (Hn1 : is_negotiation x -> good_negotiation x) by (intros H; apply Hn, H).
    pose proof (started_good (told_of c) x Hg Hn1) as Hg1.
    destruct (command_stage (x_command x)) as [t|] eqn:Ht.
    - assert (Hcq : x_command x = CQuit \/ x_command x <> CQuit)
        by (destruct (x_command x); (left; reflexivity) || (right; discriminate)).
      destruct Hcq as [Hq|Hq].
      + destruct x as [m ks o q s|m ks later o q s]; cbn [x_command] in Hq; subst m.
        * exists (receive_command c CQuit), [EvShutdown], [], [].
          split; [reflexivity|]. split; [apply ex_quit; reflexivity|]. split; [apply wire_nil|].
          split; [apply same_order_refl|]. destruct Hc as (H1 & H2 & H3).
          split; [repeat split; auto|exact Hg].
        * destruct Hx as (_ & _ & [Hx _]). congruence.
      + destruct (handled c x t Hc Hg Hx Hn Ht Hq) as
          (c3 & evs3 & rs & R1 & R2 & c4 & evs4 & E & Er & Hi & W1 & W2 & O & B & Hbuf & Henc).
        destruct Hx as (Hk & _).
        destruct (issue_good _ _ _ _ _ Hi Hk Hg1) as [Hg3 Hopt].
        destruct (respond_spec c3 x t R2 Ht Hq B W2 Hg3 Hbuf) as (c4' & evs4' & Er' & W4 & Q4 & T4).
        { intros H. split; [apply Hn1, H|]. split; [apply Henc, H|]. apply Hopt.
          destruct H as (oo & H). rewrite H. discriminate. }
        rewrite Er in Er'. injection Er' as <- <-.
        exists c4, (evs3 ++ evs4), (R1 ++ R2 ++ fst (answered (told_of c3) x)), (rs ++ fst (answered (told_of c3) x)).
        split; [exact E|]. split; [rewrite T4; apply ex_command; assumption|].
        split; [rewrite sent_app; apply wire_app; assumption|].
        split. { rewrite app_assoc. apply same_order_app; [exact O|apply same_order_refl]. }
        split; [exact Q4|]. rewrite T4. apply answered_good; auto.
    - (* define-macro *)
      destruct x as [m ks o q s|m ks later o q s]; destruct m; try discriminate Ht;
        [|destruct Hx as (_ & _ & _ & Hx); exfalso; eapply Hx; reflexivity].
      destruct Hx as (Hk & Hs & _). cbn [x_command x_calls] in *.
      match goal with |- context [CDefineMacro ?a ?b] => set (m := CDefineMacro a b) in * end.
      assert (Hq : m <> CQuit) by discriminate.
      destruct (receive_spec c m Hc Hq) as (P1 & P2 & P3 & P4 & P5).
      set (c1 := receive_command c m) in *.
      destruct (calls_spec ks c1 [] (quiet_ok c1 P3)) as
        (c2 & evs2 & rs & R1 & R2 & E & I & W1 & W2 & O & B & K & Q).
      { rewrite P3. apply wire_nil. } { exact Hk. }
      destruct (Q P1 P3 P4) as (Q1 & Q2 & _).
      assert (R2 = []) as ->.
      { rewrite Q1 in W2. destruct W2 as (es & ps & F1 & F2 & F3).
        destruct ps as [|p ps]; [inversion F2; subst; inversion F1; reflexivity|].
        cbn in F3. unfold frame, be32 in F3. discriminate. }
      exists c2, evs2, R1, (rs ++ []).
      rewrite P1, P2 in I. specialize (I [] [] (told_of c2) (is_nil _ _)). rewrite !app_nil_r in *.
      split. { cbn [ops_of client_run]. unfold client_step. fold c1. rewrite E. cbn [m command_stage].
               rewrite app_nil_r. reflexivity. }
      split. { rewrite <- (app_nil_r rs). eapply (ex_command (told_of c) (XNow m ks o q s) rs (told_of c2)); assumption. }
      split; [exact W1|]. split; [exact O|].
      destruct (issue_good _ _ _ _ _ I Hk Hg1) as [Hg3 _].
      split; [|exact Hg3]. split; [exact Q1|]. split; [exact Q2|]. rewrite (proj1 K). exact P1.
  Qed.

  Lemma session_spec xs : forall c,
    quiet c -> good_told (told_of c) -> Forall good_exchange xs ->
    match xs with
    | [] => True
    | x :: xs' => (is_negotiation x -> good_negotiation x /\ cc_encoder c = []) /\
                  Forall (fun x => ~ is_negotiation x) xs'
    end ->
    exists c' evs R rs,
      client_run outcome c (concat (map ops_of xs)) = (c', evs) /\
      session (told_of c) xs rs (told_of c') /\ wire (sent evs) R /\ same_order R rs /\ quiet c'.
  Proof.
    induction xs as [|x xs IH]; intros c Hc Hg Hx Hn.
    - exists c, [], [], []. split; [reflexivity|]. split; [constructor|]. split; [apply wire_nil|].
      split; [apply same_order_refl|exact Hc].
    - inversion Hx as [|? ? Hx1 Hx2]; subst. destruct Hn as [Hn1 Hn2].
      destruct (exchange_spec c x Hc Hg Hx1 Hn1) as (c1 & evs1 & R1 & rs1 & E1 & X1 & W1 & O1 & Q1 & G1).
      destruct (IH c1 Q1 G1 Hx2) as (c2 & evs2 & R2 & rs2 & E2 & X2 & W2 & O2 & Q2).
      { destruct xs as [|y ys]; [exact I|]. inversion Hn2 as [|? ? Hy Hys]; subst. split; [tauto|exact Hys]. }
      exists c2, (evs1 ++ evs2), (R1 ++ R2), (rs1 ++ rs2).
      split. { cbn [map concat]. rewrite client_run_app, E1, E2. reflexivity. }
      split; [econstructor; eauto|]. split; [rewrite sent_app; apply wire_app; assumption|].
      split; [apply same_order_app; assumption|exact Q2].
  Qed.
End Session.
