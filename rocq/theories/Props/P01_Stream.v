(** C01, C02, C06, C08, C09: the packet stream. *)
From Verif.Base Require Import Bytes BytesFacts.
From Verif.Model Require Import Decoder Encoder CommandCodec ReplyCodec.
From Verif.Spec Require Import FrameSpec CommandGrammar ReplyGrammar.
From Verif.Proofs Require Import FramingProofs CommandStream CodecLemmas ExampleOracles.
Local Open Scope Z_scope.

(** *** C01 *)

(** Any decoder built on the framing loop: packets whose handling stays inside the packet are
    reported alike under every chunking, and the end of the stream is judged alike. *)
Theorem C01_chunking_generic (ev : Type) (handler : bytes -> Z -> hres ev) s ps t chunks chunks' :
  framed s ps t ->
  Forall (fun p => self_contained handler p /\ handler p (zlen p) <> HUB) ps -> fits s ->
  concat chunks = s -> concat chunks' = s ->
  exists d evs rs d' rs',
    feeds handler decoder_new chunks = (Some d, evs, rs) /\
    feeds handler decoder_new chunks' = (Some d', evs, rs') /\
    forallb fst rs = forallb fst rs' /\
    end_decode d = end_decode d'.
Proof. exact (chunking_independent handler s ps t chunks chunks'). Qed.
Print Assumptions C01_chunking_generic.

Theorem C01_chunking_commands_partial pton4 pton6 s ps t chunks chunks' :
  framed s ps t -> Forall (fun p => ~ unguarded_command p) ps -> fits s ->
  concat chunks = s -> concat chunks' = s ->
  exists d evs rs d' rs',
    feeds (command_handler pton4 pton6) decoder_new chunks = (Some d, evs, rs) /\
    feeds (command_handler pton4 pton6) decoder_new chunks' = (Some d', evs, rs') /\
    forallb fst rs = forallb fst rs' /\
    end_decode d = end_decode d'.
Proof. exact (command_chunking pton4 pton6 s ps t chunks chunks'). Qed.
Print Assumptions C01_chunking_commands_partial.

Theorem C01_chunking_replies_partial s ps t chunks chunks' :
  framed s ps t -> Forall (fun p => ~ unguarded_reply p) ps -> fits s ->
  concat chunks = s -> concat chunks' = s ->
  exists d evs rs d' rs',
    feeds reply_handler decoder_new chunks = (Some d, evs, rs) /\
    feeds reply_handler decoder_new chunks' = (Some d', evs, rs') /\
    forallb fst rs = forallb fst rs' /\
    end_decode d = end_decode d'.
Proof. exact (reply_chunking s ps t chunks chunks'). Qed.
Print Assumptions C01_chunking_replies_partial.

(** The full statement fails: a define-macro packet consisting of its command byte only takes
    its context from the following byte when that byte has already arrived. *)
Theorem C01_chunking_commands_refuted :
  exists chunks chunks' : list bytes, concat chunks = concat chunks' /\
    (forall pton4 pton6, snd (fst (feeds (command_handler pton4 pton6) decoder_new chunks)) = [CDefineMacro "C"%char []]) /\
    (forall pton4 pton6, snd (fst (feeds (command_handler pton4 pton6) decoder_new chunks')) = []).
Proof.
  exists [frame (lit "D") ++ lit "C"], [frame (lit "D"); lit "C"].
  split; [reflexivity|]. split; intros; vm_compute; reflexivity.
Qed.
Print Assumptions C01_chunking_commands_refuted.

Theorem C01_chunking_replies_refuted :
  exists chunks chunks' : list bytes, concat chunks = concat chunks' /\
    snd (fst (feeds reply_handler decoder_new chunks)) <>
    snd (fst (feeds reply_handler decoder_new chunks')).
Proof.
  exists [frame (lit "+a") ++ lit "b"], [frame (lit "+a"); lit "b"].
  split; [reflexivity|]. vm_compute. discriminate.
Qed.
Print Assumptions C01_chunking_replies_refuted.

Example C01_example :
  let s := frame (lit "Hhost" ++ [NUL]) ++ frame (lit "T") ++ lit "abc" in
  framed s [lit "Hhost" ++ [NUL]; lit "T"] (lit "abc") /\
  Forall (fun p => ~ unguarded_command p) [lit "Hhost" ++ [NUL]; lit "T"] /\ fits s /\
  concat (map (fun c => [c]) s) = s /\
  snd (fst (feeds (command_handler (toy_pton 4) (toy_pton 16)) decoder_new (map (fun c => [c]) s)))
  = [CHelo (lit "host"); CData].
Proof.
  split; [|split; [|split; [|split]]].
  - split; [reflexivity|split; [repeat constructor|left; repeat constructor]].
  - repeat constructor; intros H; inversion H.
  - vm_compute. reflexivity.
  - reflexivity.
  - vm_compute. reflexivity.
Qed.

(** *** C02 *)

Theorem C02_command_packets ntop4 ntop6 sort_keys buf c :
  (is_negotiate c = true -> buf = []) ->
  zlen (command_payload ntop4 ntop6 sort_keys c) < 4294967296 ->
  encode_command ntop4 ntop6 sort_keys buf c =
  be32 (N.of_nat (length (command_payload ntop4 ntop6 sort_keys c))) ++
  command_payload ntop4 ntop6 sort_keys c.
Proof.
  intros Hb Hl. change (be32 _ ++ _) with (frame (command_payload ntop4 ntop6 sort_keys c)).
  rewrite <- (pack_frame _ Hl).
  destruct c; try reflexivity. rewrite Hb; reflexivity.
Qed.
Print Assumptions C02_command_packets.

Theorem C02_reply_packets buf e packet :
  encode_reply buf e = Some packet -> zlen packet < 4294967296 ->
  exists payload, packet = be32 (N.of_nat (length payload)) ++ payload.
Proof.
  intros He Hl. unfold encode_reply in He. destruct (reply_payload e) as [p| |]; try discriminate.
  assert (Hx : exists q, packet = pack q) by (destruct e; injection He as <-; eexists; reflexivity).
  destruct Hx as (q & ->). exists q. apply pack_frame.
  unfold pack in Hl. rewrite zlen_app in Hl.
  match type of Hl with zlen ?x + _ < _ => pose proof (zlen_nonneg x) end. Lia.lia.
Qed.
Print Assumptions C02_reply_packets.

(** A receiver that reads the length recovers the content and the rest of the stream. *)
Theorem C02_framing_unambiguous p q r s :
  zlen p < 4294967296 -> zlen q < 4294967296 -> frame p ++ r = frame q ++ s -> p = q /\ r = s.
Proof.
  intros Hp Hq H. exact (frame_app_inj p q r s Hp Hq H).
Qed.
Print Assumptions C02_framing_unambiguous.

Example C02_example :
  encode_command toy_ntop toy_ntop toy_sort [] (CHelo (lit "mx")) =
  ["000"; "000"; "000"; "004"]%char ++ lit "Hmx" ++ [NUL].
Proof. reflexivity. Qed.

(** *** C06 *)

(** Guarded packets never lead outside the packet, whatever follows them. *)
Theorem C06_commands_stay_inside_partial pton4 pton6 p more :
  ~ unguarded_command p ->
  command_handler pton4 pton6 (p ++ more) (zlen p) = command_handler pton4 pton6 p (zlen p) /\
  command_handler pton4 pton6 (p ++ more) (zlen p) <> HUB.
Proof.
  intros H. destruct (command_safe pton4 pton6 p H) as [H1 H2]. rewrite H1. auto.
Qed.
Print Assumptions C06_commands_stay_inside_partial.

Theorem C06_replies_stay_inside_partial p more :
  zlen p < 2147483648 -> ~ unguarded_reply p ->
  reply_handler (p ++ more) (zlen p) = reply_handler p (zlen p) /\
  reply_handler (p ++ more) (zlen p) <> HUB.
Proof.
  intros Hl H. destruct (reply_safe p Hl H) as [H1 H2]. rewrite H1. auto.
Qed.
Print Assumptions C06_replies_stay_inside_partial.

(** Whole streams of such packets are decoded without undefined behaviour. *)
Theorem C06_command_streams_partial pton4 pton6 s ps t chunks :
  framed s ps t -> Forall (fun p => ~ unguarded_command p) ps -> fits s -> concat chunks = s ->
  fst (fst (feeds (command_handler pton4 pton6) decoder_new chunks)) <> None.
Proof.
  intros Hf Hg Hfit Hc.
  destruct (command_stream pton4 pton6 s ps t chunks Hf Hg Hfit Hc)
    as (good & cs & rest & d & rs & _ & _ & -> & _). discriminate.
Qed.
Print Assumptions C06_command_streams_partial.

(** A five-byte stream crashes the command decoder, and the reply decoder. *)
Theorem C06_zero_length_refuted :
  exists s : bytes,
    (forall pton4 pton6, feeds (command_handler pton4 pton6) decoder_new [s] = (None, [], [])).
Proof. exists (frame [] ++ lit "B"). intros. vm_compute. reflexivity. Qed.
Print Assumptions C06_zero_length_refuted.

Theorem C06_zero_length_reply_refuted :
  exists s : bytes, feeds reply_handler decoder_new [s] = (None, [], []).
Proof. exists (frame [] ++ lit "b"). vm_compute. reflexivity. Qed.
Print Assumptions C06_zero_length_reply_refuted.

(** A connect packet with a UNIX socket path of 108 bytes overflows [sun_path]. *)
Theorem C06_unix_path_refuted :
  exists s : bytes,
    (forall pton4 pton6, feeds (command_handler pton4 pton6) decoder_new [s] = (None, [], [])).
Proof.
  exists (frame (lit "Chost" ++ NUL :: lit "L00" ++ repeat "/"%char 108 ++ [NUL])).
  intros. vm_compute. reflexivity.
Qed.
Print Assumptions C06_unix_path_refuted.

(** An insert-header packet takes its value from the following packet's length. *)
Theorem C06_insert_header_refuted :
  exists p more : bytes,
    alone reply_handler p <> reply_handler (p ++ more) (zlen p) /\
    reply_handler (p ++ more) (zlen p) <> HUB.
Proof.
  exists ("i"%char :: be32 1 ++ lit "X" ++ [NUL]), (lit "v" ++ [NUL]).
  split; vm_compute; discriminate.
Qed.
Print Assumptions C06_insert_header_refuted.

Example C06_example : ~ unguarded_command (lit "Chost" ++ NUL :: lit "U") /\
                      ~ unguarded_command (lit "Hno terminator").
Proof.
  split; intros H.
  - inversion H as [| |host Hne Hno E|host p1 p2 path rest Hne Hno Hp Hl E].
    + apply (f_equal (fun l => last l "x"%char)) in E. rewrite last_last in E. discriminate E.
    + apply (f_equal (@length _)) in E. rewrite app_length in E. cbn [length] in E.
      rewrite app_length in E. cbn in E. Lia.lia.
  - inversion H.
Qed.

(** *** C08 *)

(** The feed that meets the first malformed packet fails, all messages before it have been
    reported, and nothing is reported afterwards. *)
Theorem C08_failure_is_final_partial pton4 pton6 s ps t chunks :
  framed s ps t -> Forall (fun p => ~ unguarded_command p) ps -> fits s -> concat chunks = s ->
  (exists p, In p ps /\ forall c, ~ command_packet pton4 pton6 p c) ->
  exists good bad rest cs d rs n,
    ps = good ++ bad :: rest /\ Forall2 (command_packet pton4 pton6) good cs /\
    (forall c, ~ command_packet pton4 pton6 bad c) /\
    feeds (command_handler pton4 pton6) decoder_new chunks = (Some d, cs, rs) /\
    map fst rs = repeat true n ++ false :: repeat true (length rs - S n).
Proof.
  intros Hf Hg Hfit Hc (p & Hp & Hno).
  destruct (command_stream pton4 pton6 s ps t chunks Hf Hg Hfit Hc)
    as (good & cs & rest & d & rs & -> & H2 & Hrun & Hrest).
  destruct rest as [|bad rest].
  - exfalso. rewrite app_nil_r in Hp. clear -Hp Hno H2.
    induction H2 as [|q c good cs Hq H2 IH]; [exact Hp|].
    destruct Hp as [->|Hp]; [exact (Hno c Hq)|exact (IH Hp)].
  - destruct Hrest as (Hbad & (n & Hrs) & _).
    exists good, bad, rest, cs, d, rs, n. auto.
Qed.
Print Assumptions C08_failure_is_final_partial.

Theorem C08_reply_failure_is_final_partial s ps t chunks :
  framed s ps t -> Forall (fun p => ~ unguarded_reply p) ps -> fits s -> concat chunks = s ->
  (exists p, In p ps /\ forall c, ~ reply_packet p c) ->
  exists good bad rest cs d rs n,
    ps = good ++ bad :: rest /\ Forall2 reply_packet good cs /\
    (forall c, ~ reply_packet bad c) /\
    feeds reply_handler decoder_new chunks = (Some d, cs, rs) /\
    map fst rs = repeat true n ++ false :: repeat true (length rs - S n).
Proof.
  intros Hf Hg Hfit Hc (p & Hp & Hno).
  destruct (reply_stream s ps t chunks Hf Hg Hfit Hc)
    as (good & cs & rest & d & rs & -> & H2 & Hrun & Hrest).
  destruct rest as [|bad rest].
  - exfalso. rewrite app_nil_r in Hp. clear -Hp Hno H2.
    induction H2 as [|q c good cs Hq H2 IH]; [exact Hp|].
    destruct Hp as [->|Hp]; [exact (Hno c Hq)|exact (IH Hp)].
  - destruct Hrest as (Hbad & (n & Hrs) & _).
    exists good, bad, rest, cs, d, rs, n. auto.
Qed.
Print Assumptions C08_reply_failure_is_final_partial.

(** After a failure no further message is reported by any decoder built on the loop. *)
Theorem C08_nothing_after_failure (ev : Type) (handler : bytes -> Z -> hres ev) d chunk d' evs e chunks :
  decode handler d chunk = Fed d' evs false e ->
  exists d'' rs, feeds handler d' chunks = (Some d'', [], rs).
Proof.
  intros H. assert (Hs : d_state d' = IN_ERROR).
  { destruct chunk as [|c chunk]; [discriminate|]. unfold decode in H.
    revert H. generalize (3 * length (d_buf d ++ c :: chunk) + 4)%nat as fuel.
    generalize (mk_decoder (d_state d) (d_len d) (d_buf d ++ c :: chunk)) as d0.
    generalize (@nil ev) as evs0. generalize (@None derror) as e0. intros e0 evs0 d0 fuel.
    revert e0 evs0 d0. induction fuel as [|fuel IH]; intros e0 evs0 d0 H; [discriminate|].
    cbn [decode_loop] in H. destruct (d_state d0).
    - destruct (d_buf d0); [discriminate|eauto].
    - destruct (d_buf d0) as [|? [|? [|? [|? ?]]]]; try discriminate; eauto.
    - destruct (buffer_shorter _ _); [discriminate|].
      destruct (handler (d_buf d0) (d_len d0)); [eauto| |discriminate].
      injection H as <- _ _. reflexivity.
    - discriminate. }
  destruct (feeds_in_error handler chunks d' Hs) as (d'' & H' & _).
  exists d'', (map (fun _ => (true, None)) chunks). exact H'.
Qed.
Print Assumptions C08_nothing_after_failure.

(** The failing feed need not carry an error: an empty HELO name fails without one, and the
    next feed claims success. *)
Theorem C08_error_is_set_refuted :
  exists chunks : list bytes, forall pton4 pton6,
    snd (feeds (command_handler pton4 pton6) decoder_new chunks) = [(false, None); (true, None)].
Proof. exists [frame (lit "H" ++ [NUL]); lit "x"]. intros. vm_compute. reflexivity. Qed.
Print Assumptions C08_error_is_set_refuted.

Example C08_example :
  let s := frame (lit "T") ++ frame (lit "Hmx") ++ frame (lit "T") in
  framed s [lit "T"; lit "Hmx"; lit "T"] [] /\
  feeds (command_handler (toy_pton 4) (toy_pton 16)) decoder_new [s] =
  (Some (mk_decoder IN_ERROR 3 (lit "Hmx" ++ frame (lit "T"))), [CData], [(false, Some E_MISSING_NULL)]).
Proof.
  split; [|vm_compute; reflexivity].
  split; [reflexivity|split; [repeat constructor|left; repeat constructor]].
Qed.

(** *** C09 *)

(** At the end of a stream whose complete packets were all accepted, an error is reported
    exactly when bytes of an unfinished packet are left. *)
Theorem C09_end_of_stream pton4 pton6 s ps t chunks d evs rs :
  framed s ps t -> Forall (fun p => ~ unguarded_command p) ps -> fits s -> concat chunks = s ->
  feeds (command_handler pton4 pton6) decoder_new chunks = (Some d, evs, rs) ->
  forallb fst rs = true ->
  (t = [] -> end_decode d = (true, None)) /\
  (t <> [] -> end_decode d = (false, Some E_UNEXPECTED_END)).
Proof.
  intros Hf Hg Hfit Hc Hrun Hok.
  destruct (command_stream pton4 pton6 s ps t chunks Hf Hg Hfit Hc)
    as (good & cs & rest & d' & rs' & _ & _ & Hrun' & Hrest).
  rewrite Hrun in Hrun'. injection Hrun' as <- <- <-.
  destruct rest as [|bad rest].
  - destruct Hrest as [_ ->]. split; intros H; [subst; reflexivity|].
    destruct t; [congruence|reflexivity].
  - destruct Hrest as (_ & (n & Hn) & _). exfalso.
    rewrite forallb_forall in Hok.
    assert (Hi : In false (map fst rs)) by (rewrite Hn; apply in_or_app; right; left; reflexivity).
    apply in_map_iff in Hi as (r & Hr & Hi). apply Hok in Hi. congruence.
Qed.
Print Assumptions C09_end_of_stream.

Theorem C09_end_of_reply_stream s ps t chunks d evs rs :
  framed s ps t -> Forall (fun p => ~ unguarded_reply p) ps -> fits s -> concat chunks = s ->
  feeds reply_handler decoder_new chunks = (Some d, evs, rs) ->
  forallb fst rs = true ->
  (t = [] -> end_decode d = (true, None)) /\
  (t <> [] -> end_decode d = (false, Some E_UNEXPECTED_END)).
Proof.
  intros Hf Hg Hfit Hc Hrun Hok.
  destruct (reply_stream s ps t chunks Hf Hg Hfit Hc)
    as (good & cs & rest & d' & rs' & _ & _ & Hrun' & Hrest).
  rewrite Hrun in Hrun'. injection Hrun' as <- <- <-.
  destruct rest as [|bad rest].
  - destruct Hrest as [_ ->]. split; intros H; [subst; reflexivity|].
    destruct t; [congruence|reflexivity].
  - destruct Hrest as (_ & (n & Hn) & _). exfalso.
    rewrite forallb_forall in Hok.
    assert (Hi : In false (map fst rs)) by (rewrite Hn; apply in_or_app; right; left; reflexivity).
    apply in_map_iff in Hi as (r & Hr & Hi). apply Hok in Hi. congruence.
Qed.
Print Assumptions C09_end_of_reply_stream.

(** Every stream splits into complete packets and an unfinished rest in exactly one way. *)
Theorem C09_split_exists_unique s :
  exists ps t, framed s ps t /\ forall ps' t', framed s ps' t' -> ps' = ps /\ t' = t.
Proof.
  destruct (framed_exists s) as (ps & t & H). exists ps, t. split; [exact H|].
  exact (framed_unique s ps t H).
Qed.
Print Assumptions C09_split_exists_unique.

Example C09_example :
  end_decode (match feeds (command_handler (toy_pton 4) (toy_pton 16)) decoder_new
                      [frame (lit "T") ++ be32 5 ++ lit "Hm"] with
              | (Some d, _, _) => d | _ => decoder_new end) = (false, Some E_UNEXPECTED_END).
Proof. vm_compute. reflexivity. Qed.
