(** The codec properties in the form used by the property files. *)
From Verif.Base Require Import Bytes BytesFacts.
From Verif.Model Require Import Decoder Encoder CommandCodec.
From Verif.Model Require ReplyCodec.
From Verif.Spec Require Import FrameSpec CommandGrammar ReplyGrammar.
From Verif.Proofs Require Import FieldProofs FramingProofs CommandProofs CommandStream ReplyProofs ReplyStream.
From Coq Require Import ZifyBool ZifyNat ZifyN Permutation.
Ltac Zify.zify_post_hook ::= Z.div_mod_to_equations.
Local Open Scope Z_scope.

Lemma framed_bound s ps t : framed s ps t -> Forall (fun p => zlen p < 2147483648) ps.
Proof. intros (_ & H & _). exact H. Qed.

Lemma represents_end d t : represents d t -> end_decode d = (true, None) <-> t = [].
Proof.
  unfold represents, end_decode. destruct (d_state d); intros H.
  - destruct H. tauto.
  - destruct H as (-> & H & _). split; [discriminate|congruence].
  - destruct H as (n & _ & _ & -> & _). split; [discriminate|]. unfold be32. discriminate.
  - destruct H.
Qed.

Lemma represents_end_cases d t : represents d t ->
  (t = [] /\ end_decode d = (true, None)) \/
  (t <> [] /\ end_decode d = (false, Some E_UNEXPECTED_END)).
Proof.
  unfold represents, end_decode. destruct (d_state d); intros H.
  - destruct H. left. auto.
  - destruct H as (-> & H & _). right. auto.
  - destruct H as (n & _ & _ & -> & _). right. split; [|reflexivity]. unfold be32. discriminate.
  - destruct H.
Qed.

Section Generic.
  Context {ev : Type} (handler : bytes -> Z -> hres ev).

  Definition safe (p : bytes) : Prop := self_contained handler p /\ alone handler p <> HUB.

  Lemma receive_defined ps :
    Forall safe ps -> snd (receive (alone handler) ps) <> Undefined.
  Proof.
    induction ps as [|p ps IH]; intros H; cbn [receive]; [discriminate|].
    inversion H as [|? ? [_ Hp] Hps]; subst.
    destruct (alone handler p); [|discriminate|congruence].
    specialize (IH Hps). destruct (receive (alone handler) ps) as [[a b] c]. exact IH.
  Qed.

  (** What feeding a stream of safe packets does. *)
  Lemma stream_spec s ps t chunks :
    framed s ps t -> Forall safe ps -> fits s -> concat chunks = s ->
    exists d rs, feeds handler decoder_new chunks =
                 (Some d, fst (fst (receive (alone handler) ps)), rs) /\
    ((snd (receive (alone handler) ps) = Complete /\ represents d t /\
      Forall (fun r => fst r = true) rs) \/
     (snd (receive (alone handler) ps) = Refused /\ d_state d = IN_ERROR /\
      exists n e, map fst rs = repeat true n ++ false :: repeat true (length rs - S n) /\
                  nth_error rs n = Some (false, e))).
  Proof.
    intros Hf Hsafe Hfit Hc.
    assert (Hself : Forall (self_contained handler) ps).
    { eapply Forall_impl; [|exact Hsafe]. intros p [H _]. exact H. }
    pose proof (feeds_spec handler chunks decoder_new [] ps t represents_new) as H1.
    cbn [app] in H1. rewrite Hc in H1. specialize (H1 Hf Hself Hfit).
    pose proof (receive_defined ps Hsafe) as Hu. unfold feeds_ok in H1.
    destruct (receive (alone handler) ps) as [[es0 e0] st].
    destruct (feeds handler decoder_new chunks) as [[o evs] rs].
    cbn [fst snd] in *. destruct H1 as [-> H1]. destruct st; [| |congruence].
    - destruct H1 as ((d & -> & Hd) & Hrs). exists d, rs. auto.
    - destruct H1 as ((d & -> & Hd) & H). exists d, rs. auto.
  Qed.

  (** Two ways of cutting the same stream. *)
  Lemma chunking_independent s ps t chunks chunks' :
    framed s ps t -> Forall safe ps -> fits s ->
    concat chunks = s -> concat chunks' = s ->
    exists d evs rs d' rs',
      feeds handler decoder_new chunks = (Some d, evs, rs) /\
      feeds handler decoder_new chunks' = (Some d', evs, rs') /\
      (forallb fst rs = forallb fst rs') /\
      end_decode d = end_decode d'.
  Proof.
    intros Hf Hsafe Hfit Hc Hc'.
    destruct (stream_spec s ps t chunks Hf Hsafe Hfit Hc) as (d & rs & H & Hcase).
    destruct (stream_spec s ps t chunks' Hf Hsafe Hfit Hc') as (d' & rs' & H' & Hcase').
    exists d, (fst (fst (receive (alone handler) ps))), rs, d', rs'.
    split; [exact H|split; [exact H'|]].
    assert (Hall : forall l : list (bool * option derror),
              Forall (fun r => fst r = true) l -> forallb fst l = true).
    { intros l Hl. apply forallb_forall. rewrite Forall_forall in Hl. exact Hl. }
    assert (Hone : forall (l : list (bool * option derror)) n e,
              nth_error l n = Some (false, e) -> forallb fst l = false).
    { intros l n e Hn. apply nth_error_In in Hn. destruct (forallb fst l) eqn:E; [|reflexivity].
      rewrite forallb_forall in E. apply E in Hn. discriminate. }
    destruct Hcase as [(S1 & R1 & A1)|(S1 & R1 & n1 & e1 & _ & A1)];
      destruct Hcase' as [(S2 & R2 & A2)|(S2 & R2 & n2 & e2 & _ & A2)]; try congruence.
    - rewrite (Hall _ A1), (Hall _ A2). split; [reflexivity|].
      destruct (represents_end_cases _ _ R1) as [[-> ->]|[Hn ->]];
        destruct (represents_end_cases _ _ R2) as [[E2 ->]|[Hn2 ->]]; congruence.
    - rewrite (Hone _ _ _ A1), (Hone _ _ _ A2). split; [reflexivity|].
      unfold end_decode. rewrite R1, R2. reflexivity.
  Qed.
End Generic.

Lemma command_safe pton4 pton6 p :
  ~ unguarded_command p -> safe (command_handler pton4 pton6) p.
Proof.
  intros H. split; [apply handler_self_contained, H|].
  destruct (handler_alone pton4 pton6 p H) as [(c & _ & ->)|(_ & e & ->)]; discriminate.
Qed.

Lemma reply_safe p :
  zlen p < 2147483648 -> ~ unguarded_reply p -> safe ReplyCodec.reply_handler p.
Proof.
  intros Hl H. split; [apply reply_self_contained; auto|].
  destruct (reply_alone p Hl H) as [(c & _ & ->)|(_ & e & ->)]; discriminate.
Qed.

Lemma commands_safe pton4 pton6 ps :
  Forall (fun p => ~ unguarded_command p) ps -> Forall (safe (command_handler pton4 pton6)) ps.
Proof. apply Forall_impl. intros p. apply command_safe. Qed.

Lemma replies_safe ps :
  Forall (fun p => zlen p < 2147483648) ps -> Forall (fun p => ~ unguarded_reply p) ps ->
  Forall (safe ReplyCodec.reply_handler) ps.
Proof.
  intros H1 H2. rewrite Forall_forall in *. intros p Hp. apply reply_safe; auto.
Qed.

(** *** The properties *)

Lemma command_chunking pton4 pton6 s ps t chunks chunks' :
  framed s ps t -> Forall (fun p => ~ unguarded_command p) ps -> fits s ->
  concat chunks = s -> concat chunks' = s ->
  exists d evs rs d' rs',
    feeds (command_handler pton4 pton6) decoder_new chunks = (Some d, evs, rs) /\
    feeds (command_handler pton4 pton6) decoder_new chunks' = (Some d', evs, rs') /\
    (forallb fst rs = forallb fst rs') /\
    end_decode d = end_decode d'.
Proof. intros Hf Hg. eapply chunking_independent; eauto using commands_safe. Qed.

Lemma reply_chunking s ps t chunks chunks' :
  framed s ps t -> Forall (fun p => ~ unguarded_reply p) ps -> fits s ->
  concat chunks = s -> concat chunks' = s ->
  exists d evs rs d' rs',
    feeds ReplyCodec.reply_handler decoder_new chunks = (Some d, evs, rs) /\
    feeds ReplyCodec.reply_handler decoder_new chunks' = (Some d', evs, rs') /\
    (forallb fst rs = forallb fst rs') /\
    end_decode d = end_decode d'.
Proof.
  intros Hf Hg. eapply chunking_independent; eauto. apply replies_safe; auto.
  exact (framed_bound _ _ _ Hf).
Qed.

(** Commands: the stream is received as the longest prefix of well-formed packets. *)
Lemma command_stream pton4 pton6 s ps t chunks :
  framed s ps t -> Forall (fun p => ~ unguarded_command p) ps -> fits s -> concat chunks = s ->
  exists good cs rest d rs,
    ps = good ++ rest /\ Forall2 (command_packet pton4 pton6) good cs /\
    feeds (command_handler pton4 pton6) decoder_new chunks = (Some d, cs, rs) /\
    match rest with
    | [] => Forall (fun r => fst r = true) rs /\
            end_decode d = (match t with [] => (true, None) | _ => (false, Some E_UNEXPECTED_END) end)
    | bad :: _ => (forall c, ~ command_packet pton4 pton6 bad c) /\
                  (exists n, map fst rs = repeat true n ++ false :: repeat true (length rs - S n)) /\
                  fst (end_decode d) = false
    end.
Proof.
  intros Hf Hg Hfit Hc.
  destruct (receive_packets pton4 pton6 ps Hg) as (good & cs & rest & Hps & H2 & Hr).
  destruct (stream_spec (command_handler pton4 pton6) s ps t chunks Hf (commands_safe _ _ _ Hg) Hfit Hc)
    as (d & rs & Hrun & Hcase).
  exists good, cs, rest, d, rs. split; [exact Hps|]. split.
  { clear -H2. induction H2; constructor; auto. apply exact_packet_sound. assumption. }
  destruct rest as [|bad rest'].
  - rewrite Hr in Hrun, Hcase. cbn [fst snd] in *. split; [exact Hrun|].
    destruct Hcase as [(_ & Hd & Hrs)|(Hx & _)]; [|discriminate]. split; [exact Hrs|].
    destruct (represents_end_cases _ _ Hd) as [[-> ->]|[Hn ->]]; [reflexivity|].
    destruct t; [congruence|reflexivity].
  - destruct Hr as (Hno & es & Hr). rewrite Hr in Hrun, Hcase. cbn [fst snd] in *.
    split; [exact Hrun|]. destruct Hcase as [(Hx & _)|(_ & Hd & n & e & Hrs & _)]; [discriminate|].
    split; [|split; [exists n; exact Hrs|unfold end_decode; rewrite Hd; reflexivity]].
    intros c Hp. apply exact_packet_complete in Hp as (c' & Hp & _). exact (Hno c' Hp).
Qed.

Lemma reply_stream s ps t chunks :
  framed s ps t -> Forall (fun p => ~ unguarded_reply p) ps -> fits s -> concat chunks = s ->
  exists good cs rest d rs,
    ps = good ++ rest /\ Forall2 reply_packet good cs /\
    feeds ReplyCodec.reply_handler decoder_new chunks = (Some d, cs, rs) /\
    match rest with
    | [] => Forall (fun r => fst r = true) rs /\
            end_decode d = (match t with [] => (true, None) | _ => (false, Some E_UNEXPECTED_END) end)
    | bad :: _ => (forall c, ~ reply_packet bad c) /\
                  (exists n, map fst rs = repeat true n ++ false :: repeat true (length rs - S n)) /\
                  fst (end_decode d) = false
    end.
Proof.
  intros Hf Hg Hfit Hc.
  assert (Hb : Forall (fun p => zlen p < 2147483648 /\ ~ unguarded_reply p) ps).
  { pose proof (framed_bound _ _ _ Hf) as Hb. rewrite Forall_forall in *. auto. }
  destruct (receive_replies ps Hb) as (good & cs & rest & Hps & H2 & Hr).
  destruct (stream_spec ReplyCodec.reply_handler s ps t chunks Hf
              (replies_safe _ (framed_bound _ _ _ Hf) Hg) Hfit Hc)
    as (d & rs & Hrun & Hcase).
  exists good, cs, rest, d, rs. split; [exact Hps|]. split.
  { clear -H2. induction H2; constructor; auto. apply exact_reply_sound. assumption. }
  destruct rest as [|bad rest'].
  - rewrite Hr in Hrun, Hcase. cbn [fst snd] in *. split; [exact Hrun|].
    destruct Hcase as [(_ & Hd & Hrs)|(Hx & _)]; [|discriminate]. split; [exact Hrs|].
    destruct (represents_end_cases _ _ Hd) as [[-> ->]|[Hn ->]]; [reflexivity|].
    destruct t; [congruence|reflexivity].
  - destruct Hr as (Hno & es & Hr). rewrite Hr in Hrun, Hcase. cbn [fst snd] in *.
    split; [exact Hrun|]. destruct Hcase as [(Hx & _)|(_ & Hd & n & e & Hrs & _)]; [discriminate|].
    split; [|split; [exists n; exact Hrs|unfold end_decode; rewrite Hd; reflexivity]].
    intros c Hp. apply exact_reply_complete in Hp as (c' & Hp & _). exact (Hno c' Hp).
Qed.

(** A single packet: reported if and only if well-formed. *)
Lemma command_reported pton4 pton6 p more :
  ~ unguarded_command p ->
  match command_handler pton4 pton6 (p ++ more) (zlen p) with
  | HOk cs e => e = None /\ exists c, cs = [c] /\ command_packet pton4 pton6 p c /\
                forall c', command_packet pton4 pton6 p c' -> same_command c' c
  | HFail _ => forall c, ~ command_packet pton4 pton6 p c
  | HUB => False
  end.
Proof.
  intros H. destruct (handler_spec pton4 pton6 p H) as [(c & Hc & ->)|(Hno & e & ->)].
  - split; [reflexivity|]. exists c. split; [reflexivity|]. split; [apply exact_packet_sound, Hc|].
    intros c' Hp. apply exact_packet_complete in Hp as (c2 & Hp & Hsame).
    destruct (command_decides pton4 pton6 p H) as (r & _ & Hdec).
    destruct r as [c3|e|]; [|destruct (Hdec _ Hp)|destruct Hdec].
    apply Hdec in Hc. apply Hdec in Hp. congruence.
  - intros c Hp. apply exact_packet_complete in Hp as (c' & Hp & _). exact (Hno c' Hp).
Qed.

Lemma reply_reported p more :
  zlen p < 2147483648 -> ~ unguarded_reply p ->
  match ReplyCodec.reply_handler (p ++ more) (zlen p) with
  | HOk rs e => e = None /\ exists r, rs = [r] /\ reply_packet p r /\
                forall r', reply_packet p r' -> same_reply r' r
  | HFail _ => forall r, ~ reply_packet p r
  | HUB => False
  end.
Proof.
  intros Hl H. destruct (reply_handler_spec p Hl H) as [(c & Hc & ->)|(Hno & e & ->)].
  - split; [reflexivity|]. exists c. split; [reflexivity|]. split; [apply exact_reply_sound, Hc|].
    intros c' Hp. apply exact_reply_complete in Hp as (c2 & Hp & Hsame).
    rewrite (exact_reply_fun p c c2 Hl H Hc Hp). exact Hsame.
  - intros c Hp. apply exact_reply_complete in Hp as (c' & Hp & _). exact (Hno c' Hp).
Qed.

(** Encoder to decoder. *)
Section Wire.
  Variables (ntop4 ntop6 : bytes -> bytes) (pton4 pton6 : bytes -> option bytes).
  Variable sort_keys : list bytes -> list bytes.
  Hypothesis sort_permutes : forall l, Permutation (sort_keys l) l.
  Hypothesis print4 : prints_back ntop4 pton4 4.
  Hypothesis print6 : prints_back ntop6 pton6 16.

  Lemma session_received cs chunks :
    Forall sendable cs ->
    Forall (fun c => is_negotiate c = false) (tl cs) ->
    Forall (fun c => zlen (command_payload ntop4 ntop6 sort_keys c) < 2147483648) cs ->
    concat chunks = concat (encode_commands ntop4 ntop6 sort_keys [] cs) ->
    fits (concat chunks) ->
    exists d cs' rs,
      feeds (command_handler pton4 pton6) decoder_new chunks = (Some d, cs', rs) /\
      Forall2 same_command cs cs' /\ Forall (fun r => fst r = true) rs /\
      end_decode d = (true, None).
  Proof.
    intros Hs Hn Hl He Hfit. apply (commands_received ntop4 ntop6 pton4 pton6 sort_keys); auto.
    rewrite He. rewrite encode_commands_frames; auto.
  Qed.

  Lemma command_received buf c :
    sendable c -> (is_negotiate c = true -> buf = []) ->
    zlen (command_payload ntop4 ntop6 sort_keys c) < 2147483648 ->
    exists d c',
      feeds (command_handler pton4 pton6) decoder_new
            [encode_command ntop4 ntop6 sort_keys buf c] = (Some d, [c'], [(true, None)]) /\
      same_command c c' /\ end_decode d = (true, None).
  Proof.
    intros Hs Hb Hl.
    assert (Hfr : encode_command ntop4 ntop6 sort_keys buf c =
                  frame (command_payload ntop4 ntop6 sort_keys c)).
    { rewrite <- pack_frame by lia. destruct c; try reflexivity. rewrite Hb; reflexivity. }
    set (p := command_payload ntop4 ntop6 sort_keys c) in *.
    pose proof (payload_guarded ntop4 ntop6 sort_keys c Hs) as Hg.
    assert (Hf : framed (frame p) [p] []).
    { pose proof (framed_frames [p]) as H. cbn [map concat] in H. rewrite app_nil_r in H.
      apply H. constructor; auto. }
    pose proof (decode_spec (command_handler pton4 pton6) decoder_new [] (frame p) [p] []
                  represents_new Hf) as H.
    destruct (payload_packet ntop4 ntop6 pton4 pton6 sort_keys sort_permutes print4 print6 c Hs)
      as (c' & Hp & Hsame).
    fold p in Hp, Hg.
    destruct (handler_alone pton4 pton6 p Hg) as [(c2 & Hc2 & Ha)|(Hno & _)];
      [|destruct (Hno _ Hp)].
    assert (c2 = c') as ->.
    { destruct (command_decides pton4 pton6 p Hg) as (r & _ & Hdec).
      destruct r as [c3|e|]; [|destruct (Hdec _ Hc2)|destruct Hdec].
      apply Hdec in Hc2. apply Hdec in Hp. congruence. }
    cbn [receive] in H. rewrite Ha in H. unfold outcome_ok in H. cbn [app] in H.
    destruct H as (d & Hd & Hrep).
    - constructor; [|constructor]. apply handler_self_contained, Hg.
    - unfold fits, frame. rewrite zlen_be32. lia.
    - exists d, c'. rewrite Hfr. cbn [feeds]. rewrite Hd. split; [reflexivity|].
      split; [exact Hsame|]. apply (represents_end d []); auto.
  Qed.

  (** Macro tables, with or without braces. *)
  Lemma macros_received ctx t buf :
    In ctx macro_contexts -> macro_names_ok t -> distinct_bare t ->
    zlen (command_payload ntop4 ntop6 sort_keys (CDefineMacro ctx t)) < 2147483648 ->
    exists d t',
      feeds (command_handler pton4 pton6) decoder_new
            [encode_command ntop4 ntop6 sort_keys buf (CDefineMacro ctx t)] =
      (Some d, [CDefineMacro ctx t'], [(true, None)]) /\
      NoDup (map fst t') /\
      forall n v, lookup t' n = Some v <-> exists k, bare_name k n /\ lookup t k = Some v.
  Proof.
    intros Hctx Hok Hdist Hl.
    destruct (encoded_table sort_keys sort_permutes t Hok Hdist) as (kvs & t' & He & Hp & Ht & Hlk).
    assert (Hfr : encode_command ntop4 ntop6 sort_keys buf (CDefineMacro ctx t) =
                  frame (command_payload ntop4 ntop6 sort_keys (CDefineMacro ctx t))).
    { rewrite <- pack_frame by lia. reflexivity. }
    set (p := command_payload ntop4 ntop6 sort_keys (CDefineMacro ctx t)) in *.
    assert (Hpk : exact_packet pton4 pton6 p (CDefineMacro ctx t')).
    { exists kvs. unfold p. cbn [command_payload]. rewrite He. auto. }
    assert (Hg : ~ unguarded_command p).
    { unfold p. cbn [command_payload]. intros Hu. inversion Hu. }
    assert (Hf : framed (frame p) [p] []).
    { pose proof (framed_frames [p]) as H. cbn [map concat] in H. rewrite app_nil_r in H.
      apply H. constructor; auto. }
    pose proof (decode_spec (command_handler pton4 pton6) decoder_new [] (frame p) [p] []
                  represents_new Hf) as H.
    destruct (handler_alone pton4 pton6 p Hg) as [(c2 & Hc2 & Ha)|(Hno & _)];
      [|destruct (Hno _ Hpk)].
    assert (c2 = CDefineMacro ctx t') as ->.
    { destruct (command_decides pton4 pton6 p Hg) as (r & _ & Hdec).
      destruct r as [c3|e|]; [|destruct (Hdec _ Hc2)|destruct Hdec].
      apply Hdec in Hc2. apply Hdec in Hpk. congruence. }
    cbn [receive] in H. rewrite Ha in H. unfold outcome_ok in H. cbn [app] in H.
    destruct H as (d & Hd & Hrep).
    - constructor; [|constructor]. apply handler_self_contained, Hg.
    - unfold fits, frame. rewrite zlen_be32. lia.
    - exists d, t'. rewrite Hfr. cbn [feeds]. rewrite Hd. split; [reflexivity|].
      split; [|exact Hlk]. rewrite Ht. apply received_nodup. constructor.
  Qed.
End Wire.

Lemma reply_received buf e r p :
  means e r -> (forall o q, e = ReplyCodec.ENegotiate o q -> buf = []) ->
  ReplyCodec.encode_reply buf e = Some p -> zlen p < 2147483648 ->
  exists d r',
    feeds ReplyCodec.reply_handler decoder_new [p] = (Some d, [r'], [(true, None)]) /\
    same_reply r r' /\ end_decode d = (true, None).
Proof.
  intros Hm Hb Henc Hl.
  destruct (meant_packet e r Hm) as (q & r' & Hq & Hex & Hsame & Hg).
  assert (Hlq : p = frame q /\ zlen q < 2147483648).
  { unfold ReplyCodec.encode_reply in Henc. rewrite Hq in Henc.
    assert (Hpk : p = pack q).
    { destruct e; try (injection Henc as <-; reflexivity).
      rewrite (Hb o reqs eq_refl) in Henc. injection Henc as <-. reflexivity. }
    assert (Hlen : zlen p = zlen q + 4).
    { rewrite Hpk. unfold pack, be32. rewrite zlen_app. unfold zlen. cbn [length]. lia. }
    rewrite <- pack_frame by lia. split; [exact Hpk|lia]. }
  destruct Hlq as [-> Hlq].
  assert (Hf : framed (frame q) [q] []).
  { pose proof (framed_frames [q]) as H. cbn [map concat] in H. rewrite app_nil_r in H.
    apply H. constructor; auto. }
  pose proof (decode_spec ReplyCodec.reply_handler decoder_new [] (frame q) [q] []
                represents_new Hf) as H.
  destruct (reply_alone q Hlq Hg) as [(c2 & Hc2 & Ha)|(Hno & _)]; [|destruct (Hno _ Hex)].
  rewrite (exact_reply_fun q c2 r' Hlq Hg Hc2 Hex) in Ha.
  cbn [receive] in H. rewrite Ha in H. unfold outcome_ok in H. cbn [app] in H.
  destruct H as (d & Hd & Hrep).
  - constructor; [|constructor]. apply reply_self_contained; auto.
  - unfold fits, frame. rewrite zlen_be32. lia.
  - exists d, r'. cbn [feeds]. rewrite Hd. split; [reflexivity|].
    split; [exact Hsame|]. apply (represents_end d []); auto.
Qed.

Definition is_negotiate_reply (e : ReplyCodec.reply_call) : bool :=
  match e with ReplyCodec.ENegotiate _ _ => true | _ => false end.

Lemma encode_replies_frames es : forall rs buf out,
  Forall2 means es rs ->
  (buf = [] /\ Forall (fun e => is_negotiate_reply e = false) (tl es)) \/
  Forall (fun e => is_negotiate_reply e = false) es ->
  ReplyCodec.encode_replies buf es = Some out ->
  Forall (fun p => zlen p < 2147483648) out ->
  exists ps, out = map frame ps /\
    Forall2 (fun e p => ReplyCodec.reply_payload e = ReplyCodec.Payload p /\ zlen p < 2147483648) es ps.
Proof.
  induction es as [|e es IH]; intros rs buf out Hm Hn Henc Hl.
  - injection Henc as <-. exists []. split; [reflexivity|constructor].
  - inversion Hm as [|? r ? rs' He Hm' E1 E2]; subst. cbn [ReplyCodec.encode_replies] in Henc.
    destruct (meant_packet e r He) as (q & _ & Hq & _ & _ & _).
    destruct (ReplyCodec.encode_reply buf e) as [p|] eqn:Ep; [|discriminate].
    destruct (ReplyCodec.encode_replies p es) as [ps|] eqn:Eps; [|discriminate].
    injection Henc as <-. inversion Hl as [|? ? Hp Hps E1]; subst.
    assert (Hpk : p = pack q).
    { unfold ReplyCodec.encode_reply in Ep. rewrite Hq in Ep.
      destruct e; try (injection Ep as <-; reflexivity). injection Ep as <-.
      destruct Hn as [[-> _]|Hn]; [reflexivity|]. inversion Hn as [|? ? Hx]. discriminate Hx. }
    assert (Hlen : zlen p = zlen q + 4).
    { rewrite Hpk. unfold pack, be32. rewrite zlen_app. unfold zlen. cbn [length]. lia. }
    destruct (IH rs' p ps Hm') as (ps' & -> & H2); auto.
    { right. destruct Hn as [[_ Hn]|Hn]; [exact Hn|]. inversion Hn; auto. }
    exists (q :: ps'). split.
    + cbn [map]. rewrite <- pack_frame by lia. congruence.
    + constructor; [split; [exact Hq|lia]|exact H2].
Qed.

Lemma reply_session_received es rs out chunks :
  Forall2 means es rs ->
  Forall (fun e => is_negotiate_reply e = false) (tl es) ->
  ReplyCodec.encode_replies [] es = Some out ->
  Forall (fun p => zlen p < 2147483648) out ->
  concat chunks = concat out -> fits (concat chunks) ->
  exists d rs' res,
    feeds ReplyCodec.reply_handler decoder_new chunks = (Some d, rs', res) /\
    Forall2 same_reply rs rs' /\ Forall (fun r => fst r = true) res /\
    end_decode d = (true, None).
Proof.
  intros Hm Hn Henc Hl Hc Hfit.
  destruct (encode_replies_frames es rs [] out Hm) as (ps & -> & H2); auto.
  apply (replies_received es rs ps chunks); auto.
Qed.
