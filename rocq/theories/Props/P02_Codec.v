(** C03, C04, C05, C07, C10, C42: commands, replies and macro tables on the wire. *)
From Verif.Base Require Import Bytes BytesFacts.
From Verif.Model Require Import Decoder Encoder CommandCodec ReplyCodec MacroStage.
From Verif.Spec Require Import FrameSpec CommandGrammar ReplyGrammar.
From Verif.Proofs Require Import FramingProofs CommandProofs CommandStream ReplyProofs ReplyStream CodecLemmas
  ExampleOracles.
From Coq Require Import Permutation.
Local Open Scope Z_scope.

(** *** C03 *)

Theorem C03_commands_survive ntop4 ntop6 pton4 pton6 sort_keys buf c :
  (forall l, Permutation (sort_keys l) l) ->
  prints_back ntop4 pton4 4 -> prints_back ntop6 pton6 16 ->
  sendable c -> (is_negotiate c = true -> buf = []) ->
  zlen (command_payload ntop4 ntop6 sort_keys c) < 2147483648 ->
  exists d c',
    feeds (command_handler pton4 pton6) decoder_new
          [encode_command ntop4 ntop6 sort_keys buf c] = (Some d, [c'], [(true, None)]) /\
    same_command c c' /\ end_decode d = (true, None).
Proof.
  intros H1 H2 H3. exact (command_received ntop4 ntop6 pton4 pton6 sort_keys H1 H2 H3 buf c).
Qed.
Print Assumptions C03_commands_survive.

Example C03_example :
  sendable (CConnect (lit "mx.example.com")
              (AInet6 ("a"%char, "b"%char) (repeat "z"%char 16))) /\
  snd (fst (feeds (command_handler (toy_pton 4) (toy_pton 16)) decoder_new
    [encode_command toy_ntop toy_ntop toy_sort []
       (CConnect (lit "mx.example.com") (AInet6 ("a"%char, "b"%char) (repeat "z"%char 16)))])) =
  [CConnect (lit "mx.example.com") (AInet6 ("a"%char, "b"%char) (repeat "z"%char 16))].
Proof.
  split; [|vm_compute; reflexivity].
  split; [|reflexivity]. split; [discriminate|]. apply no_nulb_spec. reflexivity.
Qed.

(** *** C04 *)

(** [means e r]: sending [e] must be reported as [r]; an absent or empty header value or
    parameter is not distinguished by the protocol. *)
Theorem C04_replies_survive buf e r packet :
  means e r -> (forall o q, e = ENegotiate o q -> buf = []) ->
  encode_reply buf e = Some packet -> zlen packet < 2147483648 ->
  exists d r',
    feeds reply_handler decoder_new [packet] = (Some d, [r'], [(true, None)]) /\
    same_reply r r' /\ end_decode d = (true, None).
Proof. exact (reply_received buf e r packet). Qed.
Print Assumptions C04_replies_survive.

(** Every reply with a meaning is encoded to a packet. *)
Theorem C04_replies_encoded buf e r : means e r -> encode_reply buf e <> None.
Proof.
  intros H. destruct (meant_packet e r H) as (p & _ & Hp & _).
  unfold encode_reply. rewrite Hp. destruct e; discriminate.
Qed.
Print Assumptions C04_replies_encoded.

(** The full statement fails where the wire format is ambiguous: changing a header to the
    empty value is received as deleting it. *)
Theorem C04_change_header_refuted :
  exists n i v packet,
    encode_reply [] (EChangeHeader n i (Some v)) = Some packet /\
    snd (fst (feeds reply_handler decoder_new [packet])) = [RDeleteHeader n i].
Proof.
  exists (lit "Subject"), 1%N, [], (pack ("m"%char :: be32 1 ++ lit "Subject" ++ [NUL; NUL])).
  split; vm_compute; reflexivity.
Qed.
Print Assumptions C04_change_header_refuted.

(** A request table with an empty symbol list crashes the encoder. *)
Theorem C04_empty_symbols_refuted :
  exists t, reply_payload (ENegotiate (mk_option 6 0 0) (Some t)) = EncUB.
Proof. exists [("C"%char, [])]. reflexivity. Qed.
Print Assumptions C04_empty_symbols_refuted.

Example C04_example :
  means (EReplyCode (lit "451 4.7.1 try again later"))
        (RReplyCode 451 (lit "4.7.1") (Some (lit "try again later"))) /\
  snd (fst (feeds reply_handler decoder_new
    [match encode_reply [] (EReplyCode (lit "451 4.7.1 try again later")) with
     | Some p => p | None => [] end])) =
  [RReplyCode 451 (lit "4.7.1") (Some (lit "try again later"))].
Proof.
  split; [|vm_compute; reflexivity].
  apply (m_code "4" "5" "1" 451 (lit " 4.7.1 try again later")).
  - split; [auto|]. repeat split.
  - apply no_nulb_spec. reflexivity.
  - apply (ct_space_message (lit "4.7.1") (lit "try again later")).
    intros H. repeat (destruct H as [H|H]; [discriminate|]). destruct H.
Qed.

Example C04_example_requests :
  means (ENegotiate (mk_option 6 511 0) (Some [("C"%char, [lit "j"; lit "{client_addr}"]); ("M"%char, [lit "i"])]))
        (RNegotiate (mk_option 6 511 0) (Some [("C"%char, [lit "j"; lit "{client_addr}"]); ("M"%char, [lit "i"])])).
Proof.
  apply m_negotiate_requests; try (vm_compute; reflexivity); [discriminate|].
  assert (Hs : forall s, s <> [] -> no_nulb s = true ->
                 forallb (fun c => negb (beqb c " ")) s = true -> s <> [] /\ no_nul s /\ no_space s).
  { intros s H1 H2 H3. split; [exact H1|]. split; [apply no_nulb_spec; exact H2|].
    intros Hi. rewrite forallb_forall in H3. apply H3 in Hi. discriminate. }
  split.
  - repeat constructor; cbn; intuition discriminate.
  - constructor; [|constructor; [|constructor]]; cbn [fst snd]; (split; [|split; [discriminate|]]).
    + exists 0%N. reflexivity.
    + repeat constructor; apply Hs; try discriminate; reflexivity.
    + exists 2%N. reflexivity.
    + repeat constructor; apply Hs; try discriminate; reflexivity.
Qed.

(** *** C05 *)

Theorem C05_command_session_partial ntop4 ntop6 pton4 pton6 sort_keys cs chunks :
  (forall l, Permutation (sort_keys l) l) ->
  prints_back ntop4 pton4 4 -> prints_back ntop6 pton6 16 ->
  Forall sendable cs ->
  Forall (fun c => is_negotiate c = false) (tl cs) ->
  Forall (fun c => zlen (command_payload ntop4 ntop6 sort_keys c) < 2147483648) cs ->
  concat chunks = concat (encode_commands ntop4 ntop6 sort_keys [] cs) ->
  fits (concat chunks) ->
  exists d cs' rs,
    feeds (command_handler pton4 pton6) decoder_new chunks = (Some d, cs', rs) /\
    Forall2 same_command cs cs' /\ Forall (fun r => fst r = true) rs /\
    end_decode d = (true, None).
Proof.
  intros H1 H2 H3. exact (session_received ntop4 ntop6 pton4 pton6 sort_keys H1 H2 H3 cs chunks).
Qed.
Print Assumptions C05_command_session_partial.

Theorem C05_reply_session_partial es rs out chunks :
  Forall2 means es rs ->
  Forall (fun e => is_negotiate_reply e = false) (tl es) ->
  encode_replies [] es = Some out ->
  Forall (fun p => zlen p < 2147483648) out ->
  concat chunks = concat out -> fits (concat chunks) ->
  exists d rs' res,
    feeds reply_handler decoder_new chunks = (Some d, rs', res) /\
    Forall2 same_reply rs rs' /\ Forall (fun r => fst r = true) res /\
    end_decode d = (true, None).
Proof. exact (reply_session_received es rs out chunks). Qed.
Print Assumptions C05_reply_session_partial.

(** A negotiate that is not the encoder's first packet is sent with the previous packet in
    front of it and is not received as sent. *)
Theorem C05_late_negotiate_refuted :
  exists cs, Forall sendable cs /\
    forall ntop4 ntop6 pton4 pton6 sort_keys,
      snd (fst (feeds (command_handler pton4 pton6) decoder_new
                      (encode_commands ntop4 ntop6 sort_keys [] cs))) = [CData].
Proof.
  exists [CData; CNegotiate (mk_option 6 1 1)]. split.
  - constructor; [exact I|]. constructor; [vm_compute; auto|constructor].
  - intros. vm_compute. reflexivity.
Qed.
Print Assumptions C05_late_negotiate_refuted.

Example C05_example :
  let cs := [CNegotiate (mk_option 6 511 0); CDefineMacro "C"%char [(lit "j", lit "mx"); (lit "client_addr", lit "127.0.0.1")];
             CHelo (lit "mx"); CBody [NUL; "a"%char]; CQuit] in
  let stream := concat (encode_commands toy_ntop toy_ntop toy_sort [] cs) in
  Forall sendable cs /\
  match snd (fst (feeds (command_handler (toy_pton 4) (toy_pton 16)) decoder_new (map (fun c => [c]) stream))) with
  | [CNegotiate o; CDefineMacro "C"%char t; CHelo h; CBody b; CQuit] =>
      o = mk_option 6 511 0 /\ lookup t (lit "client_addr") = Some (lit "127.0.0.1") /\ h = lit "mx" /\
      b = [NUL; "a"%char]
  | _ => False
  end.
Proof.
  assert (Hb : forall k, match k with "{"%char :: _ => false | _ => true end = true -> bare_name k k).
  { intros k H. apply unbraced. intros n ->. discriminate. }
  cbv zeta. split; [|vm_compute; auto].
  repeat constructor; try discriminate; try (apply no_nulb_spec; reflexivity);
    try (apply Hb; reflexivity); cbn; intuition (try discriminate).
Qed.

(** *** C07 *)

(** A guarded packet is reported exactly when it has the format of the reported command. *)
Theorem C07_commands_wellformed_partial pton4 pton6 p more :
  ~ unguarded_command p ->
  match command_handler pton4 pton6 (p ++ more) (zlen p) with
  | HOk cs e => e = None /\ exists c, cs = [c] /\ command_packet pton4 pton6 p c /\
                forall c', command_packet pton4 pton6 p c' -> same_command c' c
  | HFail _ => forall c, ~ command_packet pton4 pton6 p c
  | HUB => False
  end.
Proof. exact (command_reported pton4 pton6 p more). Qed.
Print Assumptions C07_commands_wellformed_partial.

Theorem C07_replies_wellformed_partial p more :
  zlen p < 2147483648 -> ~ unguarded_reply p ->
  match reply_handler (p ++ more) (zlen p) with
  | HOk rs e => e = None /\ exists r, rs = [r] /\ reply_packet p r /\
                forall r', reply_packet p r' -> same_reply r' r
  | HFail _ => forall r, ~ reply_packet p r
  | HUB => False
  end.
Proof. exact (reply_reported p more). Qed.
Print Assumptions C07_replies_wellformed_partial.

(** Malformed packets that are reported all the same. *)
Theorem C07_define_macro_refuted :
  exists p more, (forall pton4 pton6 c, ~ command_packet pton4 pton6 p c) /\
    forall pton4 pton6, command_handler pton4 pton6 (p ++ more) (zlen p) = HOk [CDefineMacro "C"%char []] None.
Proof.
  exists (lit "D"), (lit "C"). split; [|intros; vm_compute; reflexivity].
  intros pton4 pton6 c H. inversion H.
Qed.
Print Assumptions C07_define_macro_refuted.

Theorem C07_add_recipient_refuted :
  exists p, (forall r, ~ reply_packet p r) /\
    reply_handler p (zlen p) = HOk [RAddRecipient (lit "a") None] (Some E_MISSING_NULL).
Proof.
  exists (lit "+a"). split; [|vm_compute; reflexivity].
  intros r H. inversion H; subst.
  match goal with E : _ ++ NUL :: _ = _ |- _ =>
    assert (Hi : In NUL [ "a"%char ]) by (rewrite <- E; apply in_or_app; right; left; reflexivity)
  end.
  destruct Hi as [Hi|[]]. discriminate.
Qed.
Print Assumptions C07_add_recipient_refuted.

Example C07_example :
  command_handler (toy_pton 4) (toy_pton 16) (lit "Tx") 2 = HFail (Some E_LONG_COMMAND_LENGTH) /\
  command_handler (toy_pton 4) (toy_pton 16) (lit "LName" ++ [NUL] ++ lit "v") 7 = HFail (Some E_MISSING_NULL).
Proof. split; vm_compute; reflexivity. Qed.

(** *** C10 *)

Theorem C10_macros_survive ntop4 ntop6 pton4 pton6 sort_keys ctx t buf :
  (forall l, Permutation (sort_keys l) l) ->
  In ctx macro_contexts ->
  NoDup (map fst t) ->
  Forall (fun kv => sendable_string (fst kv) /\ no_nul (snd kv)) t ->
  (forall k1 k2 n, In k1 (map fst t) -> In k2 (map fst t) ->
                   bare_name k1 n -> bare_name k2 n -> k1 = k2) ->
  zlen (command_payload ntop4 ntop6 sort_keys (CDefineMacro ctx t)) < 2147483648 ->
  exists d t',
    feeds (command_handler pton4 pton6) decoder_new
          [encode_command ntop4 ntop6 sort_keys buf (CDefineMacro ctx t)] =
    (Some d, [CDefineMacro ctx t'], [(true, None)]) /\
    NoDup (map fst t') /\
    forall n v, lookup t' n = Some v <-> exists k, bare_name k n /\ lookup t k = Some v.
Proof.
  intros H1 H4 H5 H6 H7.
  exact (macros_received ntop4 ntop6 pton4 pton6 sort_keys H1 ctx t buf H4 (conj H5 H6) H7).
Qed.
Print Assumptions C10_macros_survive.

Example C10_example :
  let t := [(lit "{mail_addr}", lit "a@b"); (lit "i", lit "q1"); (lit "rcpt_host", lit "h")] in
  match snd (fst (feeds (command_handler (toy_pton 4) (toy_pton 16)) decoder_new
          [encode_command toy_ntop toy_ntop toy_sort (lit "junk") (CDefineMacro "R"%char t)])) with
  | [CDefineMacro "R"%char t'] =>
      lookup t' (lit "mail_addr") = Some (lit "a@b") /\ lookup t' (lit "{mail_addr}") = None /\
      lookup t' (lit "i") = Some (lit "q1") /\ lookup t' (lit "rcpt_host") = Some (lit "h")
  | _ => False
  end.
Proof. vm_compute. auto. Qed.

(** *** C42 *)

Theorem C42_stage_round_trip stage c :
  macro_stage_to_command stage = Some c <-> command_to_macro_stage c = Some stage.
Proof. rewrite <- stage_command_iff, <- command_stage_iff. reflexivity. Qed.
Print Assumptions C42_stage_round_trip.

(** The stages are exactly 0..6, for connect, HELO, MAIL, RCPT, DATA, end of message and end
    of header in this order. *)
Theorem C42_stages stage c :
  macro_stage_to_command stage = Some c <-> nth_error (lit "CHMRTEN") (N.to_nat stage) = Some c.
Proof. symmetry. exact (stage_command_iff stage c). Qed.
Print Assumptions C42_stages.

Example C42_example : command_to_macro_stage "E"%char = Some 5%N /\ command_to_macro_stage "B"%char = None.
Proof. split; reflexivity. Qed.
