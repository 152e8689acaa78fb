(** C50, C51: what a reader hands over, and what one agent hears of the other. *)
From Coq Require Import Permutation.
From Verif.Base Require Import Bytes BytesFacts.
From Verif.Model Require Import Decoder CommandCodec ReplyCodec Writer Reader.
From Verif.Spec Require Import FrameSpec CommandGrammar ReplyGrammar WriterSpec ReaderSpec.
From Verif.Proofs Require Import CommandStream CodecLemmas WriterProofs ReaderProofs WireProofs ExampleOracles.

(** *** C50 *)

(** Whatever the channel and the owner do: the pieces handed over are together a beginning of what
    the peer sent, none is empty or longer than the buffer, and the reader lives as it should:
    pieces only while started, at most one error, one end. *)
Theorem C50_pieces stops ops :
  let t := rd_trace (reader_run stops ops) in
  (exists rest, arrived t = concat (flows t) ++ rest) /\
  Forall (fun d => d <> [] /\ (length d <= 4096)%nat) (flows t) /\ lives t <> None.
Proof.
  destruct (calm_run stops ops) as (_ & _ & S). cbv zeta.
  assert (X : forall l, sound l (reader_run stops ops) ->
    (exists rest, arrived (rd_trace (reader_run stops ops)) = concat (flows (rd_trace (reader_run stops ops))) ++ rest) /\
    Forall (fun d => d <> [] /\ (length d <= 4096)%nat) (flows (rd_trace (reader_run stops ops))) /\
    lives (rd_trace (reader_run stops ops)) <> None).
  { intros l [A F L]. split; [exists (rd_unread (reader_run stops ops)); symmetry; exact A|]. split; [exact F|]. congruence. }
  destruct (rd_watch _); exact (X _ S).
Qed.
Print Assumptions C50_pieces.

(** A running reader whose owner does not stop it hands over everything when the channel gives it. *)
Theorem C50_everything stops ops k :
  (forall t, stops t = false) -> lives (rd_trace (reader_run stops ops)) = Some Reading ->
  (length (arrived (rd_trace (reader_run stops ops))) <= k * 4096)%nat ->
  let r := reader_run stops (ops ++ [CanRead (repeat (mk_read_out BUFFER_SIZE false false true) k)]) in
  concat (flows (rd_trace r)) = arrived (rd_trace r) /\ lives (rd_trace r) = Some Reading.
Proof.
  intros N L B. cbv zeta. pose proof (calm_run stops ops) as C.
  assert (W : rd_watch (reader_run stops ops) = true).
  { destruct C as (_ & _ & C). destruct (rd_watch _); [reflexivity|]. destruct C. congruence. }
  pose proof C as (_ & _ & S). rewrite W in S. destruct S as [A _ _].
  assert (B' : (length (rd_unread (reader_run stops ops)) <= k * BUFFER_SIZE)%nat).
  { apply (f_equal (@length _)) in A. rewrite app_length in A. change (k * BUFFER_SIZE)%nat with (k * 4096)%nat.
    revert B. rewrite <- A. generalize (k * 4096)%nat. intros m M. apply (Nat.le_trans _ (length (concat (flows (rd_trace (reader_run stops ops)))) + length (rd_unread (reader_run stops ops)))); [apply Nat.le_add_l|exact M]. }
  destruct (callback_reads stops k _ C N W B') as (E & E' & W').
  pose proof (calm_step stops _ (CanRead (repeat (mk_read_out BUFFER_SIZE false false true) k)) C) as (_ & _ & S').
  unfold reader_run. rewrite fold_left_app. fold (reader_run stops ops). cbn [fold_left].
  rewrite W' in S'. destruct S' as [_ _ L']. split; [|exact L']. rewrite E'. exact E.
Qed.
Print Assumptions C50_everything.

(** The peer sends a last packet and closes the connection.  The event loop tells about both, data
    first; the reader takes one buffer of data, then hears of the closing and ends.  What was sent
    beyond that buffer is never handed over. *)
Definition hung_up : list rop :=
  [RStart; Arrive (lit "goodbye"); CanRead [mk_read_out 4 false false false]; Condition true false false].
Theorem C50_hangup_refuted :
  rd_trace (reader_run (fun _ => false) hung_up) = [RFinished; RFlow (lit "good"); RArrived (lit "goodbye"); RStarted] /\
  forall ops, ~ List.In RStart ops ->
    flows (rd_trace (reader_run (fun _ => false) (hung_up ++ ops))) = [lit "good"].
Proof.
  split; [reflexivity|]. intros ops H. unfold reader_run. rewrite fold_left_app.
  assert (K : forall ops r x, ~ List.In RStart ops -> rd_watch r = false -> flows (rd_trace r) = x ->
            flows (rd_trace (fold_left (reader_step (fun _ => false)) ops r)) = x).
  { clear. induction ops as [|o ops IH]; intros r x H W F; [exact F|]. cbn [fold_left].
    apply IH; [intros X; apply H; right; exact X| |]; destruct o; cbn [reader_step];
      try (destruct (H (or_introl eq_refl))); unfold read_callback, condition_callback, reader_shutdown;
      rewrite ?W; cbn; auto. }
  apply K; auto.
Qed.
Print Assumptions C50_hangup_refuted.

(** The owner stops the reader while handling a piece: it is given further pieces all the same. *)
Theorem C50_after_stop_refuted :
  let r := reader_run (fun t => match t with [RFlow _; RArrived _; RStarted] => true | _ => false end)
    [RStart; Arrive (lit "onetwo"); CanRead [mk_read_out 3 false false true; mk_read_out 3 false false false]] in
  rd_trace r = [RFinished; RFlow (lit "two"); RStop; RFlow (lit "one"); RArrived (lit "onetwo"); RStarted].
Proof. reflexivity. Qed.
Print Assumptions C50_after_stop_refuted.

Example C50_example :
  let r := reader_run (fun _ => false)
    [RStart; Arrive (lit "ab"); CanRead [mk_read_out 1 false false true; mk_read_out 5 false false false];
     Arrive (lit "cd"); CanRead [mk_read_out 1 true false false]] in
  flows (rd_trace r) = [lit "a"; lit "b"; lit "c"] /\ arrived (rd_trace r) = lit "abcd" /\ lives (rd_trace r) = Some Idle.
Proof. repeat split. Qed.

(** *** C51 *)

(** One agent writes commands, the other reads what arrives of what is on the wire and decodes each
    piece as it comes.  Whatever the channels do, it hears a beginning of the commands, each once, in
    order and as sent, and no error; when all arrived it hears all of them. *)
Theorem C51_commands ntop4 ntop6 pton4 pton6 sort_keys cs react d ops stops rops onway :
  (forall l, Permutation (sort_keys l) l) ->
  prints_back ntop4 pton4 4 -> prints_back ntop6 pton6 16 ->
  Forall sendable cs ->
  Forall (fun c => is_negotiate c = false) (tl cs) ->
  Forall (fun c => (zlen (command_payload ntop4 ntop6 sort_keys c) < 2147483648)%Z) cs ->
  let w := wr_trace (writer_run react d ops) in
  let r := rd_trace (reader_run stops rops) in
  queued w = concat (encode_commands ntop4 ntop6 sort_keys [] cs) -> fits (queued w) ->
  transmitted w = arrived r ++ onway ->
  exists k dec cs' rs,
    feeds (command_handler pton4 pton6) decoder_new (flows r) = (Some dec, cs', rs) /\
    Forall2 same_command (firstn k cs) cs' /\ Forall (fun x => fst x = true) rs /\
    (concat (flows r) = queued w -> firstn k cs = cs /\ end_decode dec = (true, None)).
Proof.
  intros H1 H2 H3 Hs Hn Hl w r Q F T.
  pose proof (run_whole react d ops) as W. unfold whole in W. fold w in W.
  destruct (C50_pieces stops rops) as ((rest & A) & _). fold r in A.
  set (more := rest ++ onway ++ wr_taken (writer_run react d ops) ++ wr_buffer (writer_run react d ops)).
  assert (E : concat (flows r) ++ more = queued w).
  { rewrite <- W, T, A. unfold more. rewrite <- !app_assoc. reflexivity. }
  destruct (prefix_received ntop4 ntop6 pton4 pton6 sort_keys H1 H2 H3 cs (flows r) more) as (k & dec & cs' & rs & X1 & X2 & X3 & X4); auto.
  - rewrite E. exact Q.
  - unfold fits in *. rewrite <- E, zlen_app in F. pose proof (zlen_nonneg more). apply (Z.le_lt_trans _ (zlen (concat (flows r)) + zlen more)); [|exact F].
    rewrite <- (Z.add_0_r (zlen (concat (flows r)))) at 1. apply Z.add_le_mono_l. assumption.
  - exists k, dec, cs', rs. split; [exact X1|]. split; [exact X2|]. split; [exact X3|].
    intros Y. apply X4. rewrite <- E in Y. apply (f_equal (@length _)) in Y. rewrite app_length in Y.
    destruct more; [reflexivity|]. exfalso. clear -Y. cbn [length] in Y. generalize dependent (length (concat (flows r))). intros n Y. lia.
Qed.
Print Assumptions C51_commands.

(** The same for replies. *)
Theorem C51_replies es rs out react d ops stops rops onway :
  Forall2 means es rs ->
  Forall (fun e => is_negotiate_reply e = false) (tl es) ->
  encode_replies [] es = Some out ->
  Forall (fun p => (zlen p < 2147483648)%Z) out ->
  let w := wr_trace (writer_run react d ops) in
  let r := rd_trace (reader_run stops rops) in
  queued w = concat out -> fits (queued w) ->
  transmitted w = arrived r ++ onway ->
  exists k dec rs' res,
    feeds reply_handler decoder_new (flows r) = (Some dec, rs', res) /\
    Forall2 same_reply (firstn k rs) rs' /\ Forall (fun x => fst x = true) res /\
    (concat (flows r) = queued w -> firstn k rs = rs /\ end_decode dec = (true, None)).
Proof.
  intros Hm Hn Henc Hl w r Q F T.
  pose proof (run_whole react d ops) as W. unfold whole in W. fold w in W.
  destruct (C50_pieces stops rops) as ((rest & A) & _). fold r in A.
  set (more := rest ++ onway ++ wr_taken (writer_run react d ops) ++ wr_buffer (writer_run react d ops)).
  assert (E : concat (flows r) ++ more = queued w).
  { rewrite <- W, T, A. unfold more. rewrite <- !app_assoc. reflexivity. }
  destruct (reply_prefix_received es rs out (flows r) more) as (k & dec & rs' & res & X1 & X2 & X3 & X4); auto.
  - rewrite E. exact Q.
  - unfold fits in *. rewrite <- E, zlen_app in F. pose proof (zlen_nonneg more). apply (Z.le_lt_trans _ (zlen (concat (flows r)) + zlen more)); [|exact F].
    rewrite <- (Z.add_0_r (zlen (concat (flows r)))) at 1. apply Z.add_le_mono_l. assumption.
  - exists k, dec, rs', res. split; [exact X1|]. split; [exact X2|]. split; [exact X3|].
    intros Y. apply X4. rewrite <- E in Y. apply (f_equal (@length _)) in Y. rewrite app_length in Y.
    destruct more; [reflexivity|]. exfalso. clear -Y. cbn [length] in Y. generalize dependent (length (concat (flows r))). intros n Y. lia.
Qed.
Print Assumptions C51_replies.

(** Helo and data, written as packets; the first arrives whole, of the second only a piece. *)
Definition two_commands : list command := [CHelo (lit "mx"); CData].
Definition two_packets : list bytes := encode_commands toy_ntop toy_ntop toy_sort [] two_commands.
Definition wire_run : writer :=
  writer_run (fun _ => []) 1 ([Start] ++ flat_map (fun p => [Call (Write p); Call Flush]) two_packets ++
    [CanWrite (mk_write_out 10 3 false); CanWrite (mk_write_out 3 2 false); CanFlush (Again 6)]).
Definition read_run : reader :=
  reader_run (fun _ => false) ([RStart; Arrive (firstn 3 (transmitted (wr_trace wire_run)))] ++
    [CanRead [mk_read_out 2 false false false]; Arrive (skipn 3 (transmitted (wr_trace wire_run)));
     CanRead [mk_read_out 99 false false false]]).
Example C51_example :
  Forall sendable two_commands /\
  queued (wr_trace wire_run) = concat two_packets /\
  transmitted (wr_trace wire_run) = arrived (rd_trace read_run) ++ [] /\
  map (@length _) (flows (rd_trace read_run)) = [2; 9]%nat /\
  snd (fst (feeds (command_handler (toy_pton 4) (toy_pton 16)) decoder_new (flows (rd_trace read_run)))) = [CHelo (lit "mx")].
Proof.
  split; [|vm_compute; repeat split].
  repeat constructor; try discriminate; apply no_nulb_spec; reflexivity.
Qed.
