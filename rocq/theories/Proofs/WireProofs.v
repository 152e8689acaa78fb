(** From one agent to the other: writer, channel, reader and decoder together. *)
From Coq Require Import Permutation.
From Verif.Base Require Import Bytes BytesFacts.
From Verif.Model Require Import Decoder CommandCodec ReplyCodec Writer Reader.
From Verif.Spec Require Import FrameSpec CommandGrammar ReplyGrammar WriterSpec ReaderSpec.
From Verif.Proofs Require Import FieldProofs FramingProofs CommandProofs CommandStream ReplyProofs ReplyStream CodecLemmas WriterProofs ReaderProofs.
From Coq Require Import ZifyBool ZifyNat ZifyN.
Local Open Scope Z_scope.

(** A beginning of a stream of packets holds a beginning of the packets. *)
Lemma prefix_framed ps : Forall (fun p => zlen p < 2147483648) ps ->
  forall s rest, s ++ rest = concat (map frame ps) ->
  exists k t, framed s (firstn k ps) t /\ (rest = [] -> firstn k ps = ps /\ t = []).
Proof.
  intros Hps s rest E. destruct (framed_exists s) as (ps' & t & Hf).
  assert (H : exists k, ps' = firstn k ps).
  { destruct Hf as (-> & Hps' & _). revert ps Hps E. induction Hps' as [|p' ps' Hp' Hps' IH]; intros ps Hps E.
    - exists O. reflexivity.
    - cbn [map concat] in E. destruct ps as [|p ps].
      + exfalso. unfold frame, be32 in E. discriminate E.
      + inversion Hps as [|? ? Hp Hps2]; subst. cbn [map concat] in E. rewrite <- !app_assoc in E.
        apply frame_app_inj in E; [|lia|lia]. destruct E as [-> E]. rewrite app_assoc in E.
        destruct (IH ps Hps2 E) as (k & ->). exists (S k). reflexivity. }
  destruct H as (k & ->). exists k, t. split; [exact Hf|]. intros ->. rewrite app_nil_r in E. subst s.
  destruct (framed_unique _ _ _ (framed_frames ps Hps) _ _ Hf) as [A B]. split; [exact A|exact B].
Qed.

Section Commands.
  Variables (ntop4 ntop6 : bytes -> bytes) (pton4 pton6 : bytes -> option bytes).
  Variable sort_keys : list bytes -> list bytes.
  Hypothesis sort_permutes : forall l, Permutation (sort_keys l) l.
  Hypothesis print4 : prints_back ntop4 pton4 4.
  Hypothesis print6 : prints_back ntop6 pton6 16.

  Lemma prefix_received cs chunks rest :
    Forall sendable cs ->
    Forall (fun c => is_negotiate c = false) (tl cs) ->
    Forall (fun c => zlen (command_payload ntop4 ntop6 sort_keys c) < 2147483648) cs ->
    concat chunks ++ rest = concat (encode_commands ntop4 ntop6 sort_keys [] cs) ->
    fits (concat chunks) ->
    exists k d cs' rs,
      feeds (command_handler pton4 pton6) decoder_new chunks = (Some d, cs', rs) /\
      Forall2 same_command (firstn k cs) cs' /\ Forall (fun r => fst r = true) rs /\
      (rest = [] -> firstn k cs = cs /\ end_decode d = (true, None)).
  Proof.
    intros Hs Hn Hl He Hfit. rewrite encode_commands_frames in He by auto. rewrite <- map_map in He.
    set (ps := map (command_payload ntop4 ntop6 sort_keys) cs) in *.
    assert (Hps : Forall (fun p => zlen p < 2147483648) ps).
    { apply Forall_forall. intros p Hp. apply in_map_iff in Hp as (c & <- & Hc). rewrite Forall_forall in Hl. exact (Hl c Hc). }
    destruct (prefix_framed ps Hps _ _ He) as (k & t & Hf & Hw).
    assert (Hks : Forall sendable (firstn k cs)).
    { rewrite <- (firstn_skipn k cs) in Hs. apply Forall_app in Hs. apply Hs. }
    destruct (payloads_received ntop4 ntop6 pton4 pton6 sort_keys sort_permutes print4 print6 (firstn k cs) Hks) as (cs' & Hr & Hsame).
    subst ps. rewrite firstn_map in Hf, Hw.
    assert (Hself : Forall (self_contained (command_handler pton4 pton6)) (map (command_payload ntop4 ntop6 sort_keys) (firstn k cs))).
    { apply Forall_forall. intros p Hp. apply in_map_iff in Hp as (c & <- & Hc).
      apply handler_self_contained. apply payload_guarded. rewrite Forall_forall in Hks. auto. }
    pose proof (feeds_spec (command_handler pton4 pton6) chunks decoder_new [] _ t represents_new Hf Hself Hfit) as H.
    rewrite Hr in H. unfold feeds_ok in H.
    destruct (feeds (command_handler pton4 pton6) decoder_new chunks) as [[d' evs] rs].
    destruct H as (-> & (d & -> & Hd) & Hrs).
    exists k, d, cs', rs. split; [reflexivity|split; [exact Hsame|split; [exact Hrs|]]].
    intros R. destruct (Hw R) as [A ->]. split.
    - apply (f_equal (@length _)) in A. rewrite !map_length, firstn_length in A. apply firstn_all2. lia.
    - unfold represents in Hd. unfold end_decode. destruct (d_state d); auto; exfalso.
      + destruct Hd as (_ & Hd & _). congruence.
      + destruct Hd as (n & _ & _ & Hd & _). unfold be32 in Hd. discriminate.
      + destruct Hd.
  Qed.
End Commands.

Lemma reply_prefix_received es rs out chunks rest :
  Forall2 means es rs ->
  Forall (fun e => is_negotiate_reply e = false) (tl es) ->
  ReplyCodec.encode_replies [] es = Some out ->
  Forall (fun p => zlen p < 2147483648) out ->
  concat chunks ++ rest = concat out -> fits (concat chunks) ->
  exists k d rs' res,
    feeds ReplyCodec.reply_handler decoder_new chunks = (Some d, rs', res) /\
    Forall2 same_reply (firstn k rs) rs' /\ Forall (fun r => fst r = true) res /\
    (rest = [] -> firstn k rs = rs /\ end_decode d = (true, None)).
Proof.
  intros Hm Hn Henc Hl Hc Hfit.
  destruct (encode_replies_frames es rs [] out Hm) as (ps & -> & H2); auto.
  assert (Hps : Forall (fun p => zlen p < 2147483648) ps).
  { clear -H2. induction H2 as [|e p es ps [_ A] _ IH]; constructor; auto. }
  destruct (prefix_framed ps Hps _ _ Hc) as (k & t & Hf & Hw).
  assert (Hrec : exists rs', receive (alone reply_handler) (firstn k ps) = (rs', [], Complete) /\
                   Forall2 same_reply (firstn k rs) rs' /\
                   Forall (fun p => zlen p < 2147483648 /\ ~ unguarded_reply p) (firstn k ps)).
  { clear -Hm H2. revert k ps H2. induction Hm as [|e r es rs H1 Hm IH]; intros k ps Hp.
    - inversion Hp; subst. destruct k; exists []; (split; [reflexivity|]); split; constructor.
    - inversion Hp as [|? p ? ps' [Hpay Hl] Hp' E1 E2]; subst.
      destruct k as [|k]; [exists []; (split; [reflexivity|]); split; constructor|].
      destruct (IH k ps' Hp') as (rs' & Hr & H2 & Hall).
      destruct (meant_packet e r H1) as (p' & r' & Hpay' & Hex & Hsame & Hug).
      assert (p' = p) as -> by congruence. cbn [receive firstn].
      destruct (reply_alone p Hl Hug) as [(c & Hc & ->)|(Hno & _)].
      + rewrite Hr. exists (c :: rs'). split; [reflexivity|]. split; [|constructor; auto].
        constructor; [|exact H2].
        rewrite (exact_reply_fun p c r' Hl Hug Hc Hex). exact Hsame.
      + destruct (Hno _ Hex). }
  destruct Hrec as (rs' & Hr & Hsame & Hall).
  assert (Hself : Forall (self_contained reply_handler) (firstn k ps)).
  { eapply Forall_impl; [|exact Hall]. intros p [A B]. apply reply_self_contained; auto. }
  pose proof (feeds_spec reply_handler chunks decoder_new [] (firstn k ps) t represents_new Hf Hself Hfit) as H.
  rewrite Hr in H. unfold feeds_ok in H.
  destruct (feeds reply_handler decoder_new chunks) as [[d' evs] res].
  destruct H as (-> & (d & -> & Hd) & Hout).
  exists k, d, rs', res. split; [reflexivity|split; [exact Hsame|split; [exact Hout|]]].
  intros R. destruct (Hw R) as [A ->]. split.
  - apply (f_equal (@length _)) in A. rewrite firstn_length in A. apply firstn_all2.
    assert (Hm' : length es = length rs) by (clear -Hm; induction Hm; cbn [length]; congruence).
    assert (H2' : length es = length ps) by (clear -H2; induction H2; cbn [length]; congruence).
    unfold bytes in *. lia.
  - unfold represents in Hd. unfold end_decode. destruct (d_state d); auto; exfalso.
    + destruct Hd as (_ & Hd & _). congruence.
    + destruct Hd as (n & _ & _ & Hd & _). unfold be32 in Hd. discriminate.
    + destruct Hd.
Qed.
