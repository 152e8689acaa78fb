(** The framing loop against the stream specification. *)
From Verif.Base Require Import Bytes BytesFacts.
From Verif.Model Require Import Decoder.
From Verif.Spec Require Import FrameSpec.
From Coq Require Import ZifyBool ZifyNat ZifyN.
Ltac Zify.zify_post_hook ::= Z.div_mod_to_equations.

Lemma frame_length p : length (frame p) = (4 + length p)%nat.
Proof. reflexivity. Qed.

Lemma fits_app a b : fits (a ++ b) -> fits a /\ fits b.
Proof.
  unfold fits. rewrite zlen_app.
  pose proof (zlen_nonneg a). pose proof (zlen_nonneg b). lia.
Qed.

(** *** Every stream is framed, in one way. *)

Lemma split4 (s : bytes) :
  (length s < 4)%nat \/
  exists a b c d r, s = a :: b :: c :: d :: r.
Proof.
  destruct s as [|a [|b [|c [|d r]]]]; simpl; try (left; lia).
  right. exists a, b, c, d, r. reflexivity.
Qed.

Lemma framed_exists s : exists ps t, framed s ps t.
Proof.
  remember (length s) as n eqn:Hn. revert s Hn.
  induction n as [n IH] using lt_wf_ind. intros s Hn.
  destruct (split4 s) as [Hs|(a & b & c & d & r & ->)].
  - exists [], s. split; [reflexivity|split; [constructor|left; exact Hs]].
  - set (k := rd32 a b c d).
    assert (Hk : (k < 4294967296)%N) by apply rd32_bound.
    assert (Hb : be32 k = [a; b; c; d]) by apply be32_rd32.
    destruct (N.ltb_spec (N.of_nat (length r)) k) as [Hlt|Hge];
      [|destruct (N.leb_spec 2147483648 k) as [Hbig|Hsmall]].
    + exists [], (a :: b :: c :: d :: r).
      split; [reflexivity|split; [constructor|]]. right. exists k, r.
      rewrite Hb. auto.
    + exists [], (a :: b :: c :: d :: r).
      split; [reflexivity|split; [constructor|]]. right. exists k, r.
      rewrite Hb. auto.
    + set (p := firstn (N.to_nat k) r). set (rest := skipn (N.to_nat k) r).
      assert (Hlp : length p = N.to_nat k) by (unfold p; rewrite firstn_length; lia).
      destruct (IH (length rest)) with (s := rest) as (ps & t & Hf & Hall & Ht); auto.
      { unfold rest. rewrite skipn_length. simpl in Hn. lia. }
      exists (p :: ps), t. split; [|split; [|exact Ht]].
      * cbn [map concat]. unfold frame at 1. rewrite Hlp, N2Nat.id, Hb.
        rewrite <- app_assoc, <- app_assoc, <- Hf.
        unfold p, rest. rewrite firstn_skipn. reflexivity.
      * constructor; [|exact Hall]. unfold zlen. lia.
Qed.

Lemma incomplete_not_frame p r t :
  (zlen p < 2147483648)%Z -> incomplete t -> t <> frame p ++ r.
Proof.
  intros Hp Ht He. unfold zlen in Hp. destruct Ht as [Hs|(n & q & Hn & Hq & Hc)].
  - rewrite He in Hs. rewrite app_length, frame_length in Hs. lia.
  - rewrite He in Hq. unfold frame in Hq. rewrite <- app_assoc in Hq.
    assert (H4 : be32 (N.of_nat (length p)) = be32 n /\ p ++ r = q).
    { unfold be32 in *. cbn [app] in Hq. injection Hq as H1 H2 H3 H4 H5.
      rewrite H1, H2, H3, H4. auto. }
    destruct H4 as [H4 H5]. apply be32_inj in H4; [|lia|exact Hn].
    subst n q. rewrite app_length in Hc. lia.
Qed.

Lemma frame_app_inj p q r s :
  (zlen p < 4294967296)%Z -> (zlen q < 4294967296)%Z ->
  frame p ++ r = frame q ++ s -> p = q /\ r = s.
Proof.
  unfold zlen. intros Hp Hq H. unfold frame in H. rewrite <- !app_assoc in H.
  assert (H4 : be32 (N.of_nat (length p)) = be32 (N.of_nat (length q)) /\ p ++ r = q ++ s).
  { unfold be32 in *. cbn [app] in H. injection H as H1 H2 H3 H4 H5.
    rewrite H1, H2, H3, H4. auto. }
  destruct H4 as [H4 H5]. apply be32_inj in H4; [|lia|lia].
  assert (Hl : length p = length q) by lia.
  apply (f_equal (firstn (length p))) in H5 as Hf.
  apply (f_equal (skipn (length p))) in H5 as Hk.
  rewrite firstn_app_exact, Hl, firstn_app_exact in Hf.
  rewrite skipn_app_exact, Hl, skipn_app_exact in Hk. auto.
Qed.

Lemma framed_unique s ps t : framed s ps t -> forall ps' t', framed s ps' t' -> ps' = ps /\ t' = t.
Proof.
  intros (-> & Hps & Ht). induction Hps as [|p ps Hp Hps IH]; intros ps' t' (He & Hps' & Ht').
  - destruct Hps' as [|p' ps' Hp' Hps']; [auto|].
    cbn [map concat app] in He. rewrite <- app_assoc in He.
    exfalso. exact (incomplete_not_frame _ _ _ Hp' Ht He).
  - destruct Hps' as [|p' ps' Hp' Hps'].
    + cbn [map concat app] in He. rewrite <- app_assoc in He.
      exfalso. symmetry in He. exact (incomplete_not_frame _ _ _ Hp Ht' He).
    + cbn [map concat] in He. rewrite <- !app_assoc in He.
      apply frame_app_inj in He as [-> He]; [|lia|lia].
      destruct (IH ps' t') as [-> ->]; [|auto].
      split; [|split]; auto.
Qed.

Lemma framed_trans s1 ps1 t1 s2 ps2 t2 :
  framed s1 ps1 t1 -> framed (t1 ++ s2) ps2 t2 -> framed (s1 ++ s2) (ps1 ++ ps2) t2.
Proof.
  intros (-> & H1 & Ht1) (He & H2 & Ht2). split; [|split; auto].
  - rewrite map_app, concat_app, <- !app_assoc, <- He. reflexivity.
  - apply Forall_app. auto.
Qed.

Lemma framed_frames ps : Forall (fun p => (zlen p < 2147483648)%Z) ps ->
  framed (concat (map frame ps)) ps [].
Proof.
  intros H. split; [rewrite app_nil_r; reflexivity|split; auto]. left. simpl. lia.
Qed.

Lemma frames_count ps : (4 * length ps <= length (concat (map frame ps)))%nat.
Proof.
  induction ps as [|p ps IH]; simpl; [lia|]. rewrite app_length. lia.
Qed.

Section Loop.
  Context {ev : Type} (handler : bytes -> Z -> hres ev).

  Definition alone (p : bytes) : hres ev := handler p (zlen p).

  (** The decoder holds the incomplete rest [t] of the stream. *)
  Definition represents (d : decoder) (t : bytes) : Prop :=
    match d_state d with
    | IN_START => t = [] /\ d_buf d = []
    | IN_COMMAND_LENGTH => t = d_buf d /\ t <> [] /\ (length t < 4)%nat
    | IN_COMMAND_CONTENT =>
        exists n, (n < 4294967296)%N /\ d_len d = to_s32 n /\ t = be32 n ++ d_buf d /\
                  ((N.of_nat (length (d_buf d)) < n)%N \/ (2147483648 <= n)%N)
    | IN_ERROR => False
    end.

  Lemma represents_new : represents decoder_new [].
  Proof. split; reflexivity. Qed.

  Lemma represents_incomplete d t : represents d t -> incomplete t.
  Proof.
    unfold represents. destruct (d_state d); intros H.
    - destruct H as [-> _]. left. simpl. lia.
    - destruct H as (_ & _ & H). left. exact H.
    - destruct H as (n & Hn & _ & -> & Hc). right. exists n, (d_buf d). auto.
    - destruct H.
  Qed.

  (** What the loop yields after reading packets [ps] and being left with [t]. *)
  Definition outcome_ok (r : list ev * list derror * ending) (t : bytes)
             (evs : list ev) (err : option derror) (o : outcome ev) : Prop :=
    let '(new, es, st) := r in
    match st with
    | Complete => exists d', o = Fed d' (evs ++ new) true (first_error err (hd_error es))
                             /\ represents d' t
    | Refused => exists d', o = Fed d' (evs ++ new) false (first_error err (hd_error es))
                            /\ d_state d' = IN_ERROR
    | Undefined => o = Crashed (evs ++ new)
    end.

  (** Each packet is handled as if it were alone, whatever part of what comes behind it has arrived. *)
  Fixpoint settled (ps : list bytes) (t : bytes) : Prop :=
    match ps with
    | [] => True
    | p :: ps => (forall more x, more ++ x = concat (map frame ps) ++ t ->
                    handler (p ++ more) (zlen p) = handler p (zlen p)) /\ settled ps t
    end.

  Lemma self_contained_settled ps t : Forall (self_contained handler) ps -> settled ps t.
  Proof. induction 1 as [|p ps Hp Hps IH]; cbn [settled]; [auto|]. split; [|exact IH]. intros more x _. apply Hp. Qed.

  Lemma settled_app ps1 t1 ps2 t2 rest :
    t1 ++ rest = concat (map frame ps2) ++ t2 -> settled (ps1 ++ ps2) t2 -> settled ps1 t1 /\ settled ps2 t2.
  Proof.
    intros E. induction ps1 as [|p ps1 IH]; cbn [settled app]; [auto|]. intros [H1 H2].
    destruct (IH H2) as [H3 H4]. split; [|exact H4]. split; [|exact H3].
    intros more x Hx. apply (H1 more (x ++ rest)). rewrite app_assoc, Hx, map_app, concat_app, <- !app_assoc, E. reflexivity.
  Qed.

  Lemma buffer_shorter_incomplete n b :
    (n < 4294967296)%N -> fits b ->
    (N.of_nat (length b) < n)%N \/ (2147483648 <= n)%N ->
    buffer_shorter b (to_s32 n) = true.
  Proof.
    unfold fits, buffer_shorter, to_s32, zlen. intros Hn Hb Hc.
    change (2 ^ 63)%Z with 9223372036854775808%Z in Hb.
    change (2 ^ 64)%Z with 18446744073709551616%Z.
    destruct (N.ltb_spec n 2147483648); apply Z.ltb_lt; lia.
  Qed.

  Lemma loop_start ps : forall t fuel buf L evs err,
    framed buf ps t -> settled ps t -> fits buf ->
    (3 * length ps + 3 <= fuel)%nat ->
    outcome_ok (receive alone ps) t evs err
      (decode_loop handler fuel (mk_decoder IN_START L buf) evs err).
  Proof.
    induction ps as [|p ps IH]; intros t fuel buf L evs err (Hbuf & Hps & Ht) Hself Hfit Hfuel.
    - cbn [map concat app] in Hbuf. subst buf. cbn [receive outcome_ok hd_error].
      assert (Herr : first_error err None = err) by (destruct err; reflexivity).
      rewrite Herr, app_nil_r.
      destruct fuel as [|fuel]; [lia|]. cbn [decode_loop d_state d_buf d_len].
      destruct t as [|x t].
      + exists (mk_decoder IN_START L []). split; [reflexivity|split; reflexivity].
      + destruct fuel as [|fuel]; [simpl in Hfuel; lia|]. cbn [decode_loop d_state d_buf d_len].
        destruct Ht as [Hs|(n & r & Hn & Hr & Hc)].
        * exists (mk_decoder IN_COMMAND_LENGTH L (x :: t)).
          destruct t as [|y [|z [|w t]]]; simpl in Hs; try lia;
            (split; [reflexivity|]);
            unfold represents; cbn [d_state d_buf]; repeat split; try discriminate; simpl; lia.
        * assert (Hfr : fits r) by (rewrite Hr in Hfit; apply fits_app in Hfit; apply Hfit).
          unfold be32 in Hr. cbn [app] in Hr. injection Hr as -> ->.
          rewrite rd32_be32 by exact Hn.
          destruct fuel as [|fuel]; [simpl in Hfuel; lia|].
          cbn [decode_loop d_state d_buf d_len].
          rewrite buffer_shorter_incomplete; auto.
          exists (mk_decoder IN_COMMAND_CONTENT (to_s32 n) r). split; [reflexivity|].
          unfold represents. cbn [d_state d_buf d_len]. exists n. repeat split; auto.
    - inversion Hps as [|? ? Hp Hps' Heq]; subst.
      destruct Hself as [Hsp Hself'].
      set (rest := concat (map frame ps) ++ t).
      assert (Hb : concat (map frame (p :: ps)) ++ t =
                   be32 (N.of_nat (length p)) ++ p ++ rest).
      { cbn [map concat]. unfold frame at 1, rest. rewrite <- !app_assoc. reflexivity. }
      rewrite Hb in Hfit |- *.
      cbn [length] in Hfuel.
      destruct fuel as [|[|[|fuel]]]; try lia.
      unfold zlen in Hp.
      assert (Hn : (N.of_nat (length p) < 4294967296)%N) by lia.
      unfold be32 at 1. cbn [decode_loop d_state d_buf d_len app].
      rewrite rd32_be32 by exact Hn.
      rewrite to_s32_small by lia.
      assert (HL : Z.of_N (N.of_nat (length p)) = zlen p) by (unfold zlen; lia).
      rewrite HL.
      assert (Hbs : buffer_shorter (p ++ rest) (zlen p) = false).
      { unfold buffer_shorter. apply Z.ltb_ge. rewrite zlen_app.
        pose proof (zlen_nonneg rest). pose proof (zlen_nonneg p).
        rewrite Z.mod_small; unfold zlen in *; lia. }
      rewrite Hbs. rewrite (Hsp rest []) by apply app_nil_r. cbn [receive]. unfold alone at 1.
      destruct (handler p (zlen p)) as [new e|e|].
      + assert (Hsk : skipn (Z.to_nat (zlen p)) (p ++ rest) = rest).
        { unfold zlen. rewrite Nat2Z.id. apply skipn_app_exact. }
        rewrite Hsk.
        assert (Hrest : framed rest ps t) by (split; [reflexivity|split; auto]).
        assert (Hfr : fits rest).
        { apply fits_app in Hfit as [_ Hf]. apply fits_app in Hf. apply Hf. }
        specialize (IH t fuel rest (zlen p) (evs ++ new) (first_error err e)
                       Hrest Hself' Hfr ltac:(lia)).
        destruct (receive alone ps) as [[evs' es] st]. unfold outcome_ok in *.
        assert (Hee : first_error (first_error err e) (hd_error es) =
                      first_error err (hd_error ((match e with Some e => [e] | None => [] end) ++ es))).
        { destruct err as [x|]; destruct e as [y|]; reflexivity. }
        rewrite Hee, <- app_assoc in IH. destruct st; exact IH.
      + cbn [outcome_ok]. rewrite app_nil_r.
        exists (mk_decoder IN_ERROR (zlen p) (p ++ rest)).
        split; [|reflexivity]. destruct e; reflexivity.
      + cbn [outcome_ok]. rewrite app_nil_r. reflexivity.
  Qed.

  (** One feed. *)
  Lemma decode_settled d t0 c ps t :
    represents d t0 -> framed (t0 ++ c) ps t -> settled ps t ->
    fits (t0 ++ c) ->
    outcome_ok (receive alone ps) t [] None (decode handler d c).
  Proof.
    intros Hd Hf Hself Hfit.
    destruct c as [|x c].
    { rewrite app_nil_r in Hf. pose proof (represents_incomplete _ _ Hd) as Hi.
      destruct (framed_unique _ _ _ Hf [] t0) as [<- <-].
      { split; [reflexivity|split; auto]. }
      cbn. exists d. auto. }
    unfold decode.
    assert (Hcount : (4 * length ps <= length (t0 ++ x :: c))%nat).
    { destruct Hf as (-> & _). rewrite app_length. pose proof (frames_count ps). lia. }
    rewrite app_length in Hcount. simpl length in Hcount.
    destruct d as [st L buf]. unfold represents in Hd. cbn [d_state d_buf d_len] in *.
    destruct st.
    - destruct Hd as [-> ->]. cbn [app] in *.
      apply loop_start; auto. simpl length. simpl length in Hcount. lia.
    - destruct Hd as (-> & Hne & Hlt).
      pose proof (loop_start ps t (S (3 * length (buf ++ x :: c) + 4)) (buf ++ x :: c) L [] None
                    Hf Hself Hfit) as H.
      cbn [decode_loop d_state d_buf d_len] in H.
      destruct buf as [|y buf]; [congruence|]. cbn [app] in H |- *. apply H.
      simpl length. rewrite app_length. simpl length in *. lia.
    - destruct Hd as (n & Hn & -> & -> & Hc).
      pose proof (loop_start ps t (S (S (3 * length (buf ++ x :: c) + 4)))
                    ((be32 n ++ buf) ++ x :: c) 0%Z [] None Hf Hself Hfit) as H.
      rewrite <- app_assoc in H. unfold be32 in H at 1. cbn [app] in H.
      cbn [decode_loop d_state d_buf d_len] in H.
      rewrite rd32_be32 in H by exact Hn. apply H.
      rewrite app_length in *. simpl length in *. lia.
    - destruct Hd.
  Qed.

  Lemma decode_spec d t0 c ps t :
    represents d t0 -> framed (t0 ++ c) ps t -> Forall (self_contained handler) ps ->
    fits (t0 ++ c) ->
    outcome_ok (receive alone ps) t [] None (decode handler d c).
  Proof. intros Hd Hf Hs. apply (decode_settled d t0 c ps t Hd Hf). apply self_contained_settled, Hs. Qed.

  (** *** Any chunking *)

  Lemma receive_app ps1 ps2 :
    receive alone (ps1 ++ ps2) =
    let '(e1, s1, st1) := receive alone ps1 in
    match st1 with
    | Complete => let '(e2, s2, st2) := receive alone ps2 in (e1 ++ e2, s1 ++ s2, st2)
    | _ => (e1, s1, st1)
    end.
  Proof.
    induction ps1 as [|p ps1 IH]; cbn [app receive].
    - destruct (receive alone ps2) as [[e s] st]. reflexivity.
    - destruct (alone p) as [new e|e|]; auto. rewrite IH.
      destruct (receive alone ps1) as [[e1 s1] []]; auto.
      destruct (receive alone ps2) as [[e2 s2] st2]. rewrite !app_assoc. reflexivity.
  Qed.

  Lemma decode_in_error d c : d_state d = IN_ERROR ->
    exists d', decode handler d c = Fed d' [] true None /\ d_state d' = IN_ERROR.
  Proof.
    intros H. destruct c as [|x c].
    - exists d. auto.
    - unfold decode. rewrite H. eexists. split; [|shelve].
      replace (3 * length (d_buf d ++ x :: c) + 4)%nat
        with (S (3 * length (d_buf d ++ x :: c) + 3))%nat by lia.
      reflexivity. Unshelve. reflexivity.
  Qed.

  Lemma feeds_in_error chunks : forall d, d_state d = IN_ERROR ->
    exists d', feeds handler d chunks = (Some d', [], map (fun _ => (true, None)) chunks) /\
               d_state d' = IN_ERROR.
  Proof.
    induction chunks as [|c chunks IH]; intros d H; cbn [feeds map].
    - exists d. auto.
    - destruct (decode_in_error d c H) as (d1 & -> & H1).
      destruct (IH d1 H1) as (d2 & -> & H2). exists d2. auto.
  Qed.

  (** Feeding chunks from a decoder that holds [t0]. *)
  Definition feeds_ok (r : list ev * list derror * ending) (t : bytes)
             (o : option decoder * list ev * list (bool * option derror)) : Prop :=
    let '(evs, es, st) := r in
    let '(d', evs', rs) := o in
    evs' = evs /\
    match st with
    | Complete => (exists d, d' = Some d /\ represents d t) /\
                  Forall (fun r => fst r = true) rs
    | Refused => (exists d, d' = Some d /\ d_state d = IN_ERROR) /\
                 exists n e, map fst rs = repeat true n ++ false :: repeat true (length rs - S n) /\
                             nth_error rs n = Some (false, e)
    | Undefined => d' = None
    end.

  Lemma feeds_settled chunks : forall d t0 ps t,
    represents d t0 -> framed (t0 ++ concat chunks) ps t ->
    settled ps t -> fits (t0 ++ concat chunks) ->
    feeds_ok (receive alone ps) t (feeds handler d chunks).
  Proof.
    induction chunks as [|c chunks IH]; intros d t0 ps t Hd Hf Hself Hfit.
    - cbn [concat] in *. rewrite app_nil_r in *.
      destruct (framed_unique _ _ _ Hf [] t0) as [<- <-].
      { split; [reflexivity|split; [constructor|]]. exact (represents_incomplete _ _ Hd). }
      cbn. split; [reflexivity|]. split; [exists d; auto|constructor].
    - cbn [concat] in *.
      destruct (framed_exists (t0 ++ c)) as (ps1 & t1 & Hf1).
      destruct (framed_exists (t1 ++ concat chunks)) as (ps2 & t2 & Hf2).
      pose proof (framed_trans _ _ _ _ _ _ Hf1 Hf2) as Hf12. rewrite <- app_assoc in Hf12.
      destruct (framed_unique _ _ _ Hf _ _ Hf12) as [<- <-].
      assert (Hrest : t1 ++ concat chunks = concat (map frame ps2) ++ t2) by (destruct Hf2 as (X & _); exact X).
      destruct (settled_app ps1 t1 ps2 t2 _ Hrest Hself) as [Hself1 Hself2].
      assert (Hfit1 : fits (t0 ++ c)).
      { rewrite app_assoc in Hfit. apply fits_app in Hfit. apply Hfit. }
      assert (Hfit2 : fits (t1 ++ concat chunks)).
      { rewrite app_assoc in Hfit. destruct Hf1 as (He & _). rewrite He in Hfit.
        rewrite <- app_assoc in Hfit. apply fits_app in Hfit. apply Hfit. }
      pose proof (decode_settled d t0 c ps1 t1 Hd Hf1 Hself1 Hfit1) as H1.
      rewrite receive_app. cbn [feeds].
      destruct (receive alone ps1) as [[e1 s1] st1]. unfold outcome_ok in H1.
      destruct st1.
      + destruct H1 as (d1 & -> & Hd1). cbn [app].
        specialize (IH d1 t1 ps2 t2 Hd1 Hf2 Hself2 Hfit2).
        destruct (receive alone ps2) as [[e2 s2] st2].
        destruct (feeds handler d1 chunks) as [[d2 evs2] rs2].
        unfold feeds_ok in *. destruct IH as [-> IH]. split; [reflexivity|].
        destruct st2.
        * destruct IH as [IH1 IH2]. split; auto.
        * destruct IH as [IH1 (n & e & IH2 & IH3)]. split; auto.
          exists (S n), e. split; [|exact IH3]. cbn [map length repeat fst app].
          rewrite IH2. reflexivity.
        * exact IH.
      + destruct H1 as (d1 & -> & Hd1). cbn [app].
        destruct (feeds_in_error chunks d1 Hd1) as (d2 & -> & Hd2).
        cbn [feeds_ok]. rewrite app_nil_r. split; [reflexivity|].
        split; [exists d2; auto|].
        exists 0%nat. eexists. split; [|reflexivity].
        cbn [map length repeat fst app]. f_equal.
        rewrite map_length. rewrite Nat.sub_succ, Nat.sub_0_r.
        clear. induction chunks as [|c chunks IH]; cbn [map length repeat fst]; congruence.
      + rewrite H1. cbn [feeds_ok app]. auto.
  Qed.

  Lemma feeds_spec chunks d t0 ps t :
    represents d t0 -> framed (t0 ++ concat chunks) ps t ->
    Forall (self_contained handler) ps -> fits (t0 ++ concat chunks) ->
    feeds_ok (receive alone ps) t (feeds handler d chunks).
  Proof. intros Hd Hf Hs. apply (feeds_settled chunks d t0 ps t Hd Hf). apply self_contained_settled, Hs. Qed.
End Loop.
