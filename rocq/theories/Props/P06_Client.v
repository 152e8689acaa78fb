(** C11, C12, C21, C22, C23 (filter side), C45, C46: the filter's context. *)
From Verif.Base Require Import Bytes BytesFacts.
From Verif.Model Require Import Decoder Encoder CommandCodec ReplyCodec Status Option Macros ReplyCode Client.
From Verif.Spec Require Import FrameSpec CommandGrammar ReplyGrammar ReplyCodeSpec ClientSpec.
From Verif.Proofs Require Import FramingProofs CommandStream CodecLemmas ReplyStream ReplyCodeProofs ClientProofs
  ClientSession ClientFacts.
From Coq Require Import ZifyBool ZifyNat ZifyN Permutation.
Local Open Scope Z_scope.

(** *** C11 *)

Theorem C11_set_reply r c e m :
  (acceptable c e /\ set_reply r c e m = (true, mk_smtp_reply c e m)) \/
  (~ acceptable c e /\ set_reply r c e m = (false, r)).
Proof. exact (set_reply_spec r c e m). Qed.
Print Assumptions C11_set_reply.

(** The reply stored after any history is that of the latest acceptable call. *)
Inductive stored : smtp_reply -> list call -> smtp_reply -> Prop :=
| st_none r ks :
    (forall c e m, In (KSetReply c e m) ks -> ~ acceptable c e) -> stored r ks r
| st_last r before c e m after :
    acceptable c e -> (forall c' e' m', In (KSetReply c' e' m') after -> ~ acceptable c' e') ->
    stored r (before ++ KSetReply c e m :: after) (mk_smtp_reply c e m).

Lemma fold_stored ks : forall r, stored r ks (fold_left reply_after ks r).
Proof.
  induction ks as [|k ks IH] using rev_ind; intros r.
  - apply st_none. intros c e m [].
  - rewrite fold_left_app. cbn [fold_left]. specialize (IH r).
    remember (fold_left reply_after ks r) as r1 eqn:Er1. clear Er1.
    assert (Hother : (forall c e m, k = KSetReply c e m -> ~ acceptable c e) -> stored r (ks ++ [k]) r1).
    { intros Hk. inversion IH as [? ? Hn E|? before c e m after Ha Hn E]; subst.
      - apply st_none. intros c e m Hi. apply in_app_or in Hi. destruct Hi as [Hi|[Hi|[]]]; [eapply Hn; eauto|apply (Hk c e m Hi)].
      - rewrite <- app_assoc. cbn [app]. apply st_last; [exact Ha|].
        intros c' e' m' Hi. apply in_app_or in Hi. destruct Hi as [Hi|[Hi|[]]]; [eapply Hn; eauto|apply (Hk c' e' m' Hi)]. }
    destruct k; try (apply Hother; intros; discriminate). cbn [reply_after].
    destruct (set_reply_spec r1 c extended message) as [[Ha ->]|[Ha ->]]; cbn [snd].
    + apply st_last; [exact Ha|]. intros ? ? ? [].
    + apply Hother. intros c0 e0 m0 E. injection E as <- <- <-. exact Ha.
Qed.

Theorem C11_stored_reply outcome ops c c' evs :
  client_run outcome c ops = (c', evs) ->
  stored (cc_reply c) (concat (map calls_made ops)) (cc_reply c').
Proof. intros H. rewrite (run_reply outcome ops c c' evs H). apply fold_stored. Qed.
Print Assumptions C11_stored_reply.

Example C11_example :
  acceptable 451 (Some (lit "4.7.1")) /\ ~ acceptable 451 (Some (lit "5.7.1")) /\
  cc_reply (fst (client_run (fun _ => Taken) client_new
    [OpCall (KSetReply 451 (Some (lit "4.7.1")) (Some (lit "later")));
     OpCall (KSetReply 250 None None); OpCall (KSetReply 550 (Some (lit "4.7.1")) None)])) =
  mk_smtp_reply 451 (Some (lit "4.7.1")) (Some (lit "later")).
Proof.
  split; [|split].
  - split; [lia|]. exists (lit "7"), (lit "1"). repeat split; cbn; try lia; repeat constructor.
  - intros [_ H]. cut (extended_code_parse (lit "5.7.1") = Some 4%N); [discriminate|].
    apply extended_code_parse_spec. split; [auto|exact H].
  - vm_compute. reflexivity.
Qed.

(** *** C12 *)

(** With an extended code and a one-line message the reply survives. *)
Theorem C12_custom_reply_partial r buf c e m :
  acceptable c (Some e) -> one_line m -> zlen m < 536870912 ->
  exists r' text p d,
    set_reply r c (Some e) (Some m) = (true, r') /\ format_reply_code r' = Some text /\
    encode_reply buf (EReplyCode text) = Some p /\
    feeds reply_handler decoder_new [p] = (Some d, [RReplyCode c e (Some m)], [(true, None)]).
Proof.
  intros Ha Hm Hl. destruct (set_reply_spec r c (Some e) (Some m)) as [[_ E]|[Hn _]]; [|contradiction].
  destruct (format_reply_code (mk_smtp_reply c (Some e) (Some m))) as [t|] eqn:Et.
  - pose proof (custom_reply_size c e m t Ha Hm Hl Et) as Hsz.
    destruct (reply_received buf (EReplyCode t) (RReplyCode c e (Some m)) (frame ("y"%char :: t ++ [NUL])))
      as (d & r' & Hf & Hs & _).
    + apply (custom_reply_means c e m t); assumption.
    + discriminate.
    + apply encode_reply_frame; [reflexivity|reflexivity|]. unfold zlen in *. cbn [length]. rewrite app_length. cbn [length]. lia.
    + unfold zlen in *. rewrite frame_length. cbn [length]. rewrite app_length. cbn [length]. lia.
    + do 4 eexists. split; [exact E|]. split; [exact Et|].
      split; [apply encode_reply_frame; [reflexivity|reflexivity|]; unfold zlen in *; cbn [length]; rewrite app_length; cbn [length]; lia|].
      cbn in Hs. rewrite Hf, <- Hs. reflexivity.
  - rewrite format_one_line in Et; [discriminate| |exact Hm]. destruct Ha as [Ha _]. lia.
Qed.
Print Assumptions C12_custom_reply_partial.

(** What the peer decodes from a stored reply. *)
Definition peer_sees (r : smtp_reply) : option (list reply) :=
  match format_reply_code r with
  | Some t => match encode_reply [] (EReplyCode t) with
              | Some p => Some (snd (fst (feeds reply_handler decoder_new [p])))
              | None => None
              end
  | None => None
  end.

(** Without an extended code, the first word of the message is taken for one. *)
Theorem C12_no_extended_code_refuted :
  exists m, one_line m /\ set_reply no_reply_code 550 None (Some m) = (true, mk_smtp_reply 550 None (Some m)) /\
    peer_sees (mk_smtp_reply 550 None (Some m)) = Some [RReplyCode 550 (lit "not") (Some (lit "here"))].
Proof.
  exists (lit "not here"). split; [|split]; [|reflexivity|vm_compute; reflexivity].
  repeat split; try discriminate; intros H; vm_compute in H; intuition discriminate.
Qed.
Print Assumptions C12_no_extended_code_refuted.

(** Without a message, the reply has two lines, and the second line's code goes into the
    extended code. *)
Theorem C12_no_message_refuted :
  exists r, set_reply no_reply_code 451 (Some (lit "4.7.1")) None = (true, r) /\
    peer_sees r = Some [RReplyCode 451 (lit "4.7.1" ++ CR :: LF :: lit "451") (Some (lit "4.7.1"))].
Proof. eexists. split; [vm_compute; reflexivity|vm_compute; reflexivity]. Qed.
Print Assumptions C12_no_message_refuted.

(** With an empty message the packet carries no code and is not decoded. *)
Theorem C12_empty_message_refuted :
  exists r, set_reply no_reply_code 451 (Some (lit "4.7.1")) (Some []) = (true, r) /\
    peer_sees r = Some [].
Proof. eexists. split; [vm_compute; reflexivity|vm_compute; reflexivity]. Qed.
Print Assumptions C12_empty_message_refuted.

Example C12_example :
  peer_sees (mk_smtp_reply 451 (Some (lit "4.7.1")) (Some (lit "try again"))) =
  Some [RReplyCode 451 (lit "4.7.1") (Some (lit "try again"))].
Proof. vm_compute. reflexivity. Qed.

(** *** C21 *)

(** Outside end-of-message, without permission or without the needed arguments, a
    modification call fails, changes nothing and sends nothing. *)
Theorem C21_refused outcome c k bit :
  action_bit k = Some bit -> ~ effective (at_end_of_message (cc_state c)) (cc_option c) k ->
  do_call outcome c k = (false, c, []).
Proof. exact (ineffective_call outcome c k bit). Qed.
Print Assumptions C21_refused.

Lemma results_app a b : results (a ++ b) = results a ++ results b.
Proof. unfold results. rewrite map_app, concat_app. reflexivity. Qed.
Lemma results_cons e b : results (e :: b) = results [e] ++ results b.
Proof. exact (results_app [e] b). Qed.
Lemma sent_cons e b : sent (e :: b) = sent [e] ++ sent b.
Proof. exact (sent_app [e] b). Qed.

Lemma change_not_negotiate k rs : change k rs -> forall r, In r rs -> forall o q, r <> RNegotiate o q.
Proof.
  intros H r Hr o q E. subst r.
  destruct H as [| | | | | | | |b cs Hb]; cbn in Hr; try (destruct Hr as [Hr|[]]; discriminate).
  apply in_map_iff in Hr. destruct Hr as (x & Hx & _). discriminate.
Qed.

(** Otherwise it succeeds, and once the output is flushed the packets that ask the peer for
    exactly this change follow what was buffered before. *)
Theorem C21_performed outcome c k :
  (forall n, outcome n = Taken) -> (cc_buffering c = false -> cc_buffered c = []) ->
  good_call k -> effective (at_end_of_message (cc_state c)) (cc_option c) k ->
  cc_buffered c = [] ->
  exists c' evs rs ps,
    client_run outcome c [OpCall k; OpFlush] = (c', evs) /\ results evs = [true; true] /\
    change k rs /\ Forall2 reply_packet ps rs /\ sent evs = concat (map frame ps).
Proof.
  intros Ht Hb Hg He Hbuf.
  destruct (effective_call outcome Ht c k [] Hb) as
    (c1 & evs1 & rs & R1 & R2 & E & Hc & W1 & W2 & HR & Hr & B1 & T1 & K1); auto.
  { rewrite Hbuf. apply wire_nil. }
  destruct (flush_sent outcome Ht c1 B1) as (c2 & evs2 & E2 & S2 & Hr2 & _).
  cbn [app] in HR. pose proof (wire_app _ _ _ _ W1 W2) as W. rewrite HR in W.
  destruct (wire_packets _ _ W (change_not_negotiate k rs Hc)) as (ps & Hps & HF).
  do 2 eexists. exists rs, ps. split.
  { cbn [client_run client_step do_calls]. rewrite E, E2. reflexivity. }
  split.
  { rewrite !results_app, (results_cons _ (_ ++ _)) || rewrite !results_app. rewrite Hr, Hr2. reflexivity. }
  split; [exact Hc|]. split; [exact HF|].
  rewrite <- Hps. rewrite !sent_app. rewrite S2. cbn. rewrite !app_nil_r. reflexivity.
Qed.
Print Assumptions C21_performed.

Definition at_message_end (action : N) : client :=
  with_option (with_state client_new (At TEndOfMessage)) (Some (mk_option 6 action 0)).

Example C21_example :
  let c := at_message_end A_ADD_HEADERS in
  effective (at_end_of_message (cc_state c)) (cc_option c) (KAddHeader (Some (lit "X")) (Some (lit "1"))) /\
  ~ effective (at_end_of_message (cc_state c)) (cc_option c) (KDeleteRecipient (Some (lit "a@b"))) /\
  sent (snd (client_run (fun _ => Taken) c [OpCall (KAddHeader (Some (lit "X")) (Some (lit "1"))); OpFlush])) =
  frame ("h"%char :: lit "X" ++ NUL :: lit "1" ++ [NUL]).
Proof.
  cbn zeta. split; [|split].
  - split; [reflexivity|]. split; [|split; discriminate].
    exists 0%N. split; [reflexivity|]. eexists. split; [reflexivity|]. reflexivity.
  - intros (_ & (bit & Hb & x & Hx & Hbit) & _). injection Hb as <-. injection Hx as <-. discriminate Hbit.
  - vm_compute. reflexivity.
Qed.

(** A header call with an empty name succeeds and has no effect. *)
Theorem C21_empty_name_refuted :
  exists c, at_end_of_message (cc_state c) = true /\
    let (c', evs) := client_run (fun _ => Taken) c [OpCall (KAddHeader (Some []) (Some (lit "x"))); OpFlush] in
    results evs = [true; true] /\ sent evs = [].
Proof. exists (at_message_end A_ADD_HEADERS). vm_compute. auto. Qed.
Print Assumptions C21_empty_name_refuted.

(** A message is quarantined although the quarantine action was not negotiated. *)
Theorem C21_quarantine_refuted :
  exists c, cc_option c = Some (mk_option 6 0 0) /\
    sent (snd (client_run (fun _ => Taken) c
      [OpCommand (CEndOfMessage None) [KQuarantine (Some (lit "virus"))] (mk_option 6 0 0) [] S_CONTINUE])) =
    frame ("q"%char :: lit "virus" ++ [NUL]) ++ frame (lit "c").
Proof. exists (at_message_end 0). vm_compute. auto. Qed.
Print Assumptions C21_quarantine_refuted.

(** A recipient with parameters is requested with only the plain add-recipient action
    negotiated. *)
Theorem C21_recipient_parameters_refuted :
  exists c, cc_option c = Some (mk_option 6 A_ADD_RECIPIENT 0) /\
    N.land A_ADD_RECIPIENT A_ADD_RECIPIENT_WITH_PARAMETERS = 0%N /\
    let evs := snd (client_run (fun _ => Taken) c
                 [OpCall (KAddRecipient (Some (lit "a@b")) (Some (lit "NOTIFY=NEVER"))); OpFlush]) in
    results evs = [true; true] /\
    sent evs = frame ("2"%char :: lit "a@b" ++ NUL :: lit "NOTIFY=NEVER" ++ [NUL]).
Proof. exists (at_message_end A_ADD_RECIPIENT). vm_compute. auto. Qed.
Print Assumptions C21_recipient_parameters_refuted.

(** *** C22 *)

Lemma wire_received bs R chunks :
  wire bs R -> concat chunks = bs -> fits bs ->
  exists d R' res,
    feeds reply_handler decoder_new chunks = (Some d, R', res) /\ Forall2 same_reply R R' /\
    Forall (fun r => fst r = true) res /\ end_decode d = (true, None).
Proof.
  intros (es & ps & H1 & H2 & ->) Hc Hf. apply (replies_received es R ps chunks); auto. rewrite Hc. exact Hf.
Qed.

(** Whole sessions: whatever commands arrive, whatever calls the handlers make, now or later,
    and whatever the buffer sizes and the way the bytes arrive, the peer decodes exactly the
    replies the exchanges ask for, in order; only progress notifications may have moved. *)
Theorem C22_session_partial outcome xs chunks :
  (forall n, outcome n = Taken) -> Forall good_exchange xs ->
  match xs with
  | [] => True
  | x :: xs' => (is_negotiation x -> good_negotiation x) /\ Forall (fun x => ~ is_negotiation x) xs'
  end ->
  concat chunks = sent (snd (client_run outcome client_new (concat (map ops_of xs)))) ->
  fits (concat chunks) ->
  exists expected t in_order received d res,
    session (mk_told None no_reply_code None) xs expected t /\
    same_order in_order expected /\ Forall2 same_reply in_order received /\
    feeds reply_handler decoder_new chunks = (Some d, received, res) /\
    Forall (fun r => fst r = true) res /\ end_decode d = (true, None).
Proof.
  intros Ht Hx Hn Hc Hf.
  destruct (session_spec outcome Ht xs client_new) as (c' & evs & R & rs & E & X & W & O & _); auto.
  - repeat split.
  - repeat split; try discriminate. left. reflexivity.
  - destruct xs as [|x xs]; [exact I|]. destruct Hn as [Hn1 Hn2]. split; [|exact Hn2].
    intros H. split; [apply Hn1, H|reflexivity].
  - rewrite E in Hc. cbn [snd] in Hc.
    destruct (wire_received _ R chunks W Hc) as (d & R' & res & F1 & F2 & F3 & F4).
    { rewrite <- Hc. exact Hf. }
    exists rs, (told_of c'), R, R', d, res. repeat split; auto; apply O.
Qed.
Print Assumptions C22_session_partial.

(** One message: the changes in the order of the calls, then the quarantine request, then the
    verdict. *)
Theorem C22_message_partial outcome c chunk ks later o q s :
  (forall n, outcome n = Taken) ->
  cc_buffered c = [] -> cc_buffering c = false -> at_end_of_message (cc_state c) = false ->
  good_told (told_of c) -> good_exchange (XLater (CEndOfMessage chunk) ks later o q s) ->
  exists rs t R evs,
    issue true (mk_told (cc_option c) (cc_reply c) None) (ks ++ somes later) rs t /\
    snd (client_run outcome c (ops_of (XLater (CEndOfMessage chunk) ks later o q s))) = evs /\
    same_order R (rs ++ conclusion t s) /\
    (forall chunks, concat chunks = sent evs -> fits (sent evs) ->
     exists received d res,
       feeds reply_handler decoder_new chunks = (Some d, received, res) /\ Forall2 same_reply R received /\
       end_decode d = (true, None)).
Proof.
  intros Ht H1 H2 H3 Hg Hx.
  destruct (exchange_spec outcome Ht c (XLater (CEndOfMessage chunk) ks later o q s)) as
    (c' & evs & R & rs & E & X & W & O & _); auto.
  - split; auto.
  - intros [oo H]. discriminate H.
  - inversion X as [? ? Hq|? ? rs0 t' Hq Hi]; subst; [discriminate|].
    exists rs0, t', R, evs. rewrite E. split; [exact Hi|]. split; [reflexivity|]. split; [exact O|].
    intros chunks Hc Hf. destruct (wire_received _ R chunks W Hc Hf) as (d & R' & res & F1 & F2 & F3 & F4).
    exists R', d, res. auto.
Qed.
Print Assumptions C22_message_partial.

Example C22_example :
  let mods := [KAddHeader (Some (lit "X")) (Some (lit "1")); KQuarantine (Some (lit "virus"));
               KDeleteRecipient (Some (lit "a@b")); KReplaceBody (lit "new")] in
  let xs := [XNow (CNegotiate (mk_option 6 511 0)) [KSetPacketBufferSize 30] (mk_option 6 511 0)
                  [("C"%char, [lit "j"; lit "v"])] S_CONTINUE;
             XNow (CEnvelopeFrom (lit "<a>")) [KAddHeader (Some (lit "X")) (Some (lit "0"))] (mk_option 0 0 0) [] S_DEFAULT;
             XLater (CEndOfMessage None) mods [None; Some (KDeleteHeader (Some (lit "Y")) 1)] (mk_option 0 0 0) [] S_REJECT] in
  Forall good_exchange xs /\
  snd (fst (feeds reply_handler decoder_new
         [sent (snd (client_run (fun _ => Taken) client_new (concat (map ops_of xs))))])) =
  [RNegotiate (mk_option 6 511 0) (Some [("C"%char, [lit "j"; lit "v"])]); RContinue;
   RAddHeader (lit "X") (lit "1"); RDeleteRecipient (lit "a@b"); RReplaceBody (lit "new");
   RDeleteHeader (lit "Y") 1; RQuarantine (lit "virus"); RReject].
Proof.
  cbn zeta. split.
  - assert (T : forall s, (forallb (fun c => negb (beqb c NUL)) s = true) -> (length s <= 20)%nat -> text s).
    { intros s H Hl. split; [|unfold zlen; lia]. intros Hi. rewrite forallb_forall in H. apply H in Hi. discriminate Hi. }
    assert (W1 : word 1) by (unfold word; lia).
    assert (O : good_option (mk_option 6 511 0)) by (repeat split; unfold word; cbn; lia).
    constructor; [|constructor; [|constructor; [|constructor]]]; (split; [|split; [discriminate|]]); try exact I;
      cbn [x_calls somes app].
    + constructor; [exact I|constructor].
    + constructor; [|constructor]. cbn. split; [discriminate|]. split; apply T; cbn; auto; lia.
    + repeat (apply Forall_cons); try apply Forall_nil; cbn; repeat split; auto; try discriminate;
        try (unfold zlen; cbn; lia);
        intros Hi; cbn in Hi; intuition discriminate.
    + split; [discriminate|]. intros; discriminate.
  - vm_compute. reflexivity.
Qed.

(** With packet buffering, changes requested for a message that was then aborted are sent as
    part of the next message's answers. *)
Theorem C22_abort_leak_refuted :
  exists c o, cc_buffered c = [] /\
    snd (fst (feeds reply_handler decoder_new
      [sent (snd (client_run (fun _ => Taken) c
         [OpCommand (CEndOfMessage None) [KAddHeader (Some (lit "X-Old")) (Some (lit "1"))] o [] S_PROGRESS;
          OpCommand CAbort [] o [] S_DEFAULT;
          OpCommand (CEnvelopeFrom (lit "<b>")) [] o [] S_CONTINUE]))])) =
    [RContinue; RAddHeader (lit "X-Old") (lit "1")].
Proof.
  exists (with_buffer_size (at_message_end A_ADD_HEADERS) 100), (mk_option 0 0 0).
  split; [reflexivity|]. vm_compute. reflexivity.
Qed.
Print Assumptions C22_abort_leak_refuted.

(** A quarantine request with an empty reason is lost. *)
Theorem C22_empty_quarantine_refuted :
  exists c o, cc_buffered c = [] /\
    snd (fst (feeds reply_handler decoder_new
      [sent (snd (client_run (fun _ => Taken) c
         [OpCommand (CEndOfMessage None) [KQuarantine (Some [])] o [] S_CONTINUE]))])) = [RContinue].
Proof. exists (at_message_end A_QUARANTINE), (mk_option 0 0 0). split; [reflexivity|]. vm_compute. reflexivity. Qed.
Print Assumptions C22_empty_quarantine_refuted.

(** A negotiation that comes after another reply is sent garbled. *)
Theorem C22_progress_before_negotiation_refuted :
  exists xs, Forall good_exchange xs /\
    snd (fst (feeds reply_handler decoder_new
         [sent (snd (client_run (fun _ => Taken) client_new (concat (map ops_of xs))))])) = [RProgress].
Proof.
  exists [XNow (CNegotiate (mk_option 6 511 0)) [KProgress] (mk_option 6 511 0) [] S_CONTINUE].
  split; [|vm_compute; reflexivity].
  constructor; [|constructor]. split; [|split; [discriminate|exact I]]. constructor; [exact I|constructor].
Qed.
Print Assumptions C22_progress_before_negotiation_refuted.

(** *** C23, filter side *)

Theorem C23_replace_body outcome c b :
  (forall n, outcome n = Taken) -> cc_buffered c = [] ->
  at_end_of_message (cc_state c) = true -> negotiated (cc_option c) 1 ->
  exists c' evs cs,
    client_run outcome c [OpCall (KReplaceBody b); OpFlush] = (c', evs) /\ results evs = [true; true] /\
    concat cs = b /\ Forall (fun x => 1 <= zlen x <= 65535) cs /\
    sent evs = concat (map (fun x => frame ("b"%char :: x)) cs).
Proof.
  intros Ht Hb He Hn.
  destruct (C21_performed outcome c (KReplaceBody b)) as (c' & evs & rs & ps & E & Hr & Hc & HF & Hs); auto.
  - exact I.
  - split; [exact He|]. split; [|exact I]. exists 1%N. auto.
  - inversion Hc as [| | | | | | | |? cs [Hcs1 Hcs2]]; subst.
    exists c', evs, cs. split; [exact E|]. split; [exact Hr|]. split; [reflexivity|]. split; [exact Hcs2|].
    rewrite Hs. clear - HF. revert ps HF. induction cs as [|x cs IH]; intros ps HF; inversion HF as [|p ? ps' ? Hp HF']; subst; [reflexivity|].
    cbn [map concat]. rewrite (IH ps' HF'). inversion Hp; subst. reflexivity.
Qed.
Print Assumptions C23_replace_body.

(** An empty replacement body is not sent: the call succeeds and the body stays. *)
Theorem C23_empty_body_refuted :
  exists c, cc_buffered c = [] /\
    let evs := snd (client_run (fun _ => Taken) c [OpCall (KReplaceBody []); OpFlush]) in
    results evs = [true; true] /\ sent evs = [].
Proof. exists (at_message_end A_CHANGE_BODY). vm_compute. auto. Qed.
Print Assumptions C23_empty_body_refuted.

Example C23_example :
  let c := at_message_end A_CHANGE_BODY in
  at_end_of_message (cc_state c) = true /\ negotiated (cc_option c) 1 /\
  sent (snd (client_run (fun _ => Taken) c [OpCall (KReplaceBody (lit "body")); OpFlush])) = frame (lit "bbody").
Proof.
  cbn zeta. split; [reflexivity|]. split; [|vm_compute; reflexivity].
  eexists. split; [reflexivity|]. reflexivity.
Qed.

(** *** C45 *)

(** message-processed fires exactly at answers to end-of-message, once per message, with the
    answered status, and not for an aborted message. *)
Theorem C45_message_processed outcome c op c' evs :
  client_step outcome c op = (c', evs) ->
  processed evs =
    match op with
    | OpCommand (CEndOfMessage _) _ _ _ S_PROGRESS => []
    | OpCommand (CEndOfMessage _) _ _ _ s => [match s with S_DEFAULT => S_CONTINUE | _ => s end]
    | OpRespond TEndOfMessage _ _ s =>
        if cc_message c then [match s with S_DEFAULT => S_CONTINUE | _ => s end] else []
    | _ => []
    end.
Proof. intros H. apply (step_processed outcome c op c' evs H). Qed.
Print Assumptions C45_message_processed.

(** Between two notifications a new command has arrived. *)
Definition opens_message (op : client_op) : bool :=
  match op with
  | OpCommand (CDefineMacro _ _ | CQuit | CAbort) _ _ _ _ => false
  | OpCommand _ _ _ _ _ => true
  | _ => false
  end.
Theorem C45_once_per_message outcome ops : forall c c' evs,
  client_run outcome c ops = (c', evs) ->
  (length (processed evs) <= length (filter opens_message ops) + (if cc_message c then 1 else 0))%nat.
Proof.
  induction ops as [|op ops IH]; intros c c' evs H; cbn [client_run] in H.
  - injection H as <- <-. cbn. lia.
  - destruct (client_step outcome c op) as [c1 evs1] eqn:E1.
    destruct (client_run outcome c1 ops) as [c2 evs2] eqn:E2. injection H as <- <-.
    rewrite processed_app, app_length. specialize (IH _ _ _ E2).
    destruct (step_processed outcome c op c1 evs1 E1) as [P1 P2]. rewrite P1. rewrite P2 in IH.
    cbn [filter].
    destruct op as [m ks o q s|k|t o q s|]; cbn [opens_message] in *.
    + destruct m; try (cbn [length]; destruct (cc_message c); cbn [length] in *; lia).
      destruct s; cbn [length] in *; destruct (cc_message c); lia.
    + cbn [length]. lia.
    + destruct t; try (cbn [length]; lia). destruct (cc_message c); cbn [length] in *; lia.
    + cbn [length]. lia.
Qed.
Print Assumptions C45_once_per_message.

Example C45_example :
  processed (snd (client_run (fun _ => Taken) client_new
    [OpCommand (CEnvelopeFrom (lit "<b>")) [] (mk_option 0 0 0) [] S_DEFAULT;
     OpCommand (CEndOfMessage None) [] (mk_option 0 0 0) [] S_PROGRESS;
     OpRespond TEndOfMessage (mk_option 0 0 0) [] S_REJECT;
     OpRespond TEndOfMessage (mk_option 0 0 0) [] S_REJECT;
     OpCommand (CEnvelopeFrom (lit "<b>")) [] (mk_option 0 0 0) [] S_DEFAULT;
     OpCommand CAbort [] (mk_option 0 0 0) [] S_DEFAULT])) = [S_REJECT].
Proof. vm_compute. reflexivity. Qed.

(** *** C46 *)

(** The first decisive status ends the emission; if there is none, all handlers run and the
    last status other than "not changed" counts. *)
Theorem C46_first_decisive pre s post :
  Forall (fun x => x = S_NOT_CHANGE \/ x = S_DEFAULT \/ x = S_CONTINUE \/ x = S_ALL_OPTIONS) pre ->
  ~ (s = S_NOT_CHANGE \/ s = S_DEFAULT \/ s = S_CONTINUE \/ s = S_ALL_OPTIONS) ->
  accumulate S_DEFAULT (pre ++ s :: post) = (s, S (length pre)).
Proof.
  intros Hp Hs. apply accumulate_decisive; [reflexivity| |tauto|destruct s; tauto].
  eapply Forall_impl; [|exact Hp]. intros x [->|[->|[->| ->]]]; auto.
Qed.
Print Assumptions C46_first_decisive.

Theorem C46_undecided rets :
  Forall (fun x => x = S_NOT_CHANGE \/ x = S_DEFAULT \/ x = S_CONTINUE \/ x = S_ALL_OPTIONS) rets ->
  accumulate S_DEFAULT rets =
  (last (filter (fun x => negb (status_eqb x S_NOT_CHANGE)) rets) S_DEFAULT, length rets).
Proof.
  intros Hp. apply accumulate_undecided; [reflexivity|].
  eapply Forall_impl; [|exact Hp]. intros x [->|[->|[->| ->]]]; auto.
Qed.
Print Assumptions C46_undecided.

Example C46_example :
  accumulate S_DEFAULT [S_CONTINUE; S_NOT_CHANGE; S_REJECT; S_ACCEPT] = (S_REJECT, 3%nat) /\
  accumulate S_DEFAULT [S_CONTINUE; S_NOT_CHANGE] = (S_CONTINUE, 2%nat).
Proof. split; reflexivity. Qed.
