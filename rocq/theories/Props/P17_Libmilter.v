(** C58-C62: filters written for Sendmail's libmilter. *)
From Verif.Base Require Import Bytes BytesFacts.
From Verif.Model Require Import Decoder Encoder CommandCodec ReplyCodec Status Option Macros ReplyCode Client Libmilter.
From Verif.Spec Require Import FrameSpec CommandGrammar ReplyGrammar ReplyCodeSpec ClientSpec LibmilterSpec.
From Verif.Proofs Require Import FramingProofs ReplyStream ReplyCodeProofs ClientProofs ClientSession LibmilterProofs.
From Verif.Props Require Import P06_Client.
From Coq Require Import ZifyBool ZifyNat ZifyN Permutation.
Local Open Scope Z_scope.

Definition calls_made_in (x : lib * list invocation * list client_event) : list invocation := snd (fst x).
Definition events_of (x : lib * list invocation * list client_event) : list client_event := snd x.
Definition end_of (x : lib * list invocation * list client_event) : lib := fst (fst x).

(** *** C58 *)

(** In a session whose commands come in order, exactly the callbacks the filter has are called,
    in order, with what the peer sent. *)
Theorem C58_callbacks_partial outcome d l :
  Forall (fun p => well_behaved (snd p)) l -> ordered false (map fst l) ->
  calls_of (d_has d) false l (calls_made_in (lib_run outcome d lib_new (commands l))) /\
  l_defined (end_of (lib_run outcome d lib_new (commands l))) = true.
Proof.
  intros Hw Ho. destruct (lib_run_calls outcome d l Hw false client_new Ho eq_refl) as (is & c' & evs & C & E).
  unfold lib_new. rewrite E. split; [exact C|reflexivity].
Qed.
Print Assumptions C58_callbacks_partial.

Lemma session_calls_bodies has l is xs : session_of has l is xs ->
  has FnBody = true -> has FnEom = true -> body_given is = body_sent (map fst l).
Proof.
  intros H Hb He. unfold body_given, body_sent.
  induction H as [|b m react is x rest is' xs X _ IH]; [reflexivity|].
  cbn [map concat fst]. rewrite map_app, concat_app, IH. f_equal.
  destruct X as [m react is v ks answer s Hc _ _ _ _].
  destruct Hc as [m Hm|m f i Hm Hf|m f i Hm Hf Hp Ha|Ha Hi|m H1 H2 Hp Hv|m H1 H2 Hp Hv]; cbn [map concat]; rewrite ?app_nil_r.
  - destruct m; try discriminate Hm; reflexivity.
  - destruct m; try discriminate Hm; injection Hm as <- <-; try reflexivity; try congruence.
  - destruct m; try discriminate Hm; injection Hm as <- <-; try reflexivity; try congruence.
    destruct Hp as [Hp|Hp]; [|congruence]. cbn [last_piece] in Hp.
    destruct chunk as [b0|]; [now subst|reflexivity].
  - reflexivity.
  - destruct m; cbn in Hp; try congruence. destruct chunk; [reflexivity|congruence].
  - destruct m; cbn in Hp; try congruence. destruct chunk; [reflexivity|congruence].
Qed.

Lemma session_calls_headers has l is xs : session_of has l is xs ->
  (has FnHeader = true -> headers_given is = headers_sent (map fst l)) /\
  (has FnEnvrcpt = true -> recipients_given is = recipients_sent (map fst l)).
Proof.
  intros H. unfold headers_given, headers_sent, recipients_given, recipients_sent.
  induction H as [|b m react is x rest is' xs X _ [IH1 IH2]]; [auto|].
  cbn [map concat fst]. rewrite !map_app, !concat_app.
  destruct X as [m react is v ks answer s Hc _ _ _ _].
  split; intros Hh; [rewrite (IH1 Hh)|rewrite (IH2 Hh)]; f_equal;
  (destruct Hc as [m Hm|m f i Hm Hf|m f i Hm Hf Hp Ha|Ha Hi|m H1 H2 Hp Hv|m H1 H2 Hp Hv]; cbn [map concat]; rewrite ?app_nil_r;
   [destruct m; try discriminate Hm; reflexivity
   |destruct m; try discriminate Hm; injection Hm as <- <-; try reflexivity; congruence
   |destruct m; try discriminate Hm; injection Hm as <- <-; reflexivity
   |reflexivity
   |destruct m; cbn in Hp; try congruence; reflexivity
   |destruct m; cbn in Hp; try congruence; reflexivity]).
Qed.

(** Whatever the order of the commands, a filter with xxfi_body and xxfi_eom gets the body that was
    sent, and one with xxfi_header and xxfi_envrcpt all headers and recipients, in order. *)
Theorem C58_content_partial outcome d l :
  Forall (fun p => well_behaved (snd p)) l ->
  let is := calls_made_in (lib_run outcome d lib_new (commands l)) in
  (d_has d FnBody = true -> d_has d FnEom = true -> body_given is = body_sent (map fst l)) /\
  (d_has d FnHeader = true -> headers_given is = headers_sent (map fst l)) /\
  (d_has d FnEnvrcpt = true -> recipients_given is = recipients_sent (map fst l)).
Proof.
  intros Hw. destruct (lib_run_refines outcome d l Hw client_new) as (is & xs & c' & evs & evs' & X & _ & E & _ & _).
  unfold lib_new. rewrite E. cbv zeta. cbn [calls_made_in fst snd].
  split; [exact (session_calls_bodies _ _ _ _ X)|exact (session_calls_headers _ _ _ _ X)].
Qed.
Print Assumptions C58_content_partial.

(** For the witnesses: every write is taken; filters that have some callbacks and return [v]
    everywhere, making no calls. *)
Definition taken : nat -> write_outcome := fun _ => Taken.
Definition returning (v : Z) : invocation -> reaction := fun _ => mk_reaction [] v 0 0.
Definition having (fs : list slot) : desc :=
  mk_desc 0 (fun s => existsb (fun f => match f, s with
    | FnNegotiate, FnNegotiate | FnConnect, FnConnect | FnHelo, FnHelo | FnEnvfrom, FnEnvfrom
    | FnEnvrcpt, FnEnvrcpt | FnData, FnData | FnUnknown, FnUnknown | FnHeader, FnHeader
    | FnEoh, FnEoh | FnBody, FnBody | FnEom, FnEom | FnAbort, FnAbort | FnClose, FnClose => true
    | _, _ => false end) fs).

Lemma returning_well v : well_behaved (returning v).
Proof. split; [exists []; constructor|]. intros a t. repeat split; reflexivity. Qed.

(** A filter that looks at bodies and has no xxfi_eom does not see what is sent with the end of the
    message. *)
Theorem C58_last_piece_lost_refuted :
  exists d l, Forall (fun p => well_behaved (snd p)) l /\ ordered false (map fst l) /\ d_has d FnBody = true /\
    body_sent (map fst l) = lit "hello world" /\
    body_given (calls_made_in (lib_run taken d lib_new (commands l))) = lit "hello ".
Proof.
  exists (having [FnBody]).
  exists [(CEnvelopeFrom (lit "<a@b>"), returning 0); (CBody (lit "hello "), returning 0);
          (CEndOfMessage (Some (lit "world")), returning 0)].
  split; [|split; [|split; [|split]]].
  - repeat (constructor; [apply returning_well|]). constructor.
  - cbn [map fst]. apply or_from, or_message; [exact I|]. apply or_end; [exact I|constructor].
  - reflexivity.
  - reflexivity.
  - vm_compute. reflexivity.
Qed.
Print Assumptions C58_last_piece_lost_refuted.

Example C58_example :
  calls_made_in (lib_run taken (having [FnConnect; FnEnvfrom; FnEnvrcpt; FnHeader; FnBody; FnEom]) lib_new
    (commands (map (fun m => (m, returning 0))
      [CConnect (lit "h") AUnspec; CHelo (lit "f"); CEnvelopeFrom (lit "<a@b>"); CEnvelopeRecipient (lit "<c@d>");
       CEnvelopeRecipient (lit "<e@f>"); CData; CHeader (lit "N") (lit "v"); CEndOfHeader; CBody (lit "x");
       CEndOfMessage (Some (lit "y")); CQuit]))) =
  [IConnect (lit "h") AUnspec; IEnvfrom [lit "<a@b>"]; IEnvrcpt [lit "<c@d>"]; IEnvrcpt [lit "<e@f>"];
   IHeader (lit "N") (lit "v"); IBody (lit "x"); IBody (lit "y"); IEom].
Proof. vm_compute. reflexivity. Qed.

(** *** C59 *)

(** The calls made in callbacks are such that the peer understands them (as in C22). *)
Definition good_reaction (react : invocation -> reaction) : Prop :=
  forall i ks, ask_all (r_calls (react i)) ks -> Forall good_call ks.

Lemma good_reactions_all react is ks :
  good_reaction react -> (forall i, exists k, ask_all (r_calls (react i)) k) ->
  ask_all (concat (map (fun i => r_calls (react i)) is)) ks -> Forall good_call ks.
Proof.
  intros Hg Hw. revert ks. induction is as [|i is IH]; cbn [map concat]; intros ks H.
  - inversion H. constructor.
  - destruct (ask_all_app_inv _ _ _ H) as (k1 & k2 & -> & H1 & H2).
    apply Forall_app. split; [eapply Hg; eauto|auto].
Qed.

(** What the peer of a libmilter filter decodes is what the exchanges ask for: the changes its
    callbacks ask for in the order of the calls, then the answer its return value stands for. *)
Theorem C59_on_the_wire_partial outcome d l chunks :
  (forall n, outcome n = Taken) ->
  Forall (fun p => well_behaved (snd p) /\ good_reaction (snd p)) l ->
  match map fst l with
  | [] => True
  | m :: ms => (forall o, m = CNegotiate o -> good_option o) /\ Forall (fun m => forall o, m <> CNegotiate o) ms
  end ->
  concat chunks = sent (events_of (lib_run outcome d lib_new (commands l))) -> fits (concat chunks) ->
  exists xs expected t in_order received dec res,
    session_of (d_has d) l (calls_made_in (lib_run outcome d lib_new (commands l))) xs /\
    session (mk_told None no_reply_code None) xs expected t /\
    same_order in_order expected /\ Forall2 same_reply in_order received /\
    feeds reply_handler decoder_new chunks = (Some dec, received, res) /\
    Forall (fun r => fst r = true) res /\ end_decode dec = (true, None).
Proof.
  intros Ht Hw Hn Hc Hf.
  assert (Hw' : Forall (fun p => well_behaved (snd p)) l) by (eapply Forall_impl; [|exact Hw]; cbn; tauto).
  destruct (lib_run_refines outcome d l Hw' client_new) as (is & xs & c' & evs & evs' & X & Xm & E & E' & S).
  unfold lib_new in *. rewrite E in *. cbn [events_of calls_made_in fst snd] in *.
  assert (G : Forall good_exchange xs).
  { clear - X Hw. induction X as [|b m react is x rest is' xs X _ IH]; [constructor|].
    inversion Hw as [|? ? [[W1 W2] G] Hr]; subst. constructor; [|auto].
    destruct X as [m react is v ks answer s Hc Hk Hs Hp _]. split; [|split; [exact Hp|exact I]].
    cbn [x_calls]. eapply good_reactions_all; eauto. }
  assert (N : match xs with
              | [] => True
              | x :: xs' => (is_negotiation x -> good_negotiation x) /\ Forall (fun x => ~ is_negotiation x) xs'
              end).
  { inversion X as [|b m react is0 x rest is' xs' X0 X1]; subst; [exact I|].
    cbn [map fst] in Hn, Xm. injection Xm as Xm Xms. destruct Hn as [Hn1 Hn2]. split.
    - intros [o Ho]. inversion Hw as [|? ? [[W1 W2] _] _]; subst. cbn [snd] in W1, W2.
      destruct X0 as [m react is0 v ks answer s Hcd Hk Hs Hp Ha]. cbn [x_command] in *. subst m.
      specialize (Hn1 o eq_refl).
      split; [|split; [|split; [|split]]].
      + exists o. auto.
      + cbn [x_calls]. clear - Hk Hcd W2.
        assert (concat (map (fun i => r_calls (react i)) is0) = []) as E.
        { inversion Hcd as [? C|? ? ? C E|? ? ? C E|? ?|? ? ? Hp|? ? ? Hp]; subst; try reflexivity.
          - injection C as <- <-. cbn. destruct (W2 (o_action o) (o_step o)) as [-> _]. reflexivity.
          - cbn in Hp. congruence.
          - cbn in Hp. congruence. }
        rewrite E in Hk. inversion Hk. intros [].
      + cbn [x_answer]. rewrite Ha. destruct (W2 (o_action o) (o_step o)) as (_ & A1 & A2).
        destruct Hn1 as (V1 & V2 & V3). unfold option_answer. destruct v as [[|p|p]|]; (split; [exact V1|split; assumption]).
      + cbn. repeat constructor.
      + cbn. lia.
    - rewrite <- Xms in Hn2. apply Forall_forall. intros x' Hi [o Ho].
      rewrite Forall_forall in Hn2. apply (Hn2 (x_command x')) with o; [|exact Ho]. now apply in_map. }
  destruct (C22_session_partial outcome xs chunks Ht G N) as (expected & t & in_order & received & dec & res & R).
  - rewrite E'. cbn [snd]. now rewrite Hc.
  - exact Hf.
  - exists xs, expected, t, in_order, received, dec, res. split; [exact X|exact R].
Qed.
Print Assumptions C59_on_the_wire_partial.


(** A change asked for through libmilter succeeds exactly if it is made in xxfi_eom, was
    negotiated and has its arguments. *)
Theorem C59_success outcome c f k bit :
  (forall n, outcome n = Taken) -> asks f [k] -> index_fits f -> action_bit k = Some bit -> good_call k ->
  cc_buffered c = [] ->
  exists c' evs ok, do_smfi outcome c OwnContext f = (c', evs, true) /\ results evs = [ok] /\
    (ok = true <-> effective (at_end_of_message (cc_state c)) (cc_option c) k) /\
    (ok = false -> c' = c /\ sent evs = []).
Proof.
  intros Ht Ha Hi Hb Hg Hbuf. unfold do_smfi. pose proof (asks_meaning f [k] Ha Hi) as [_ ->].
  destruct (effective_dec c k bit Hb) as [He|He].
  - destruct (effective_call outcome Ht c k [] (fun _ => Hbuf)) as
      (c1 & evs1 & rs & R1 & R2 & E & Hc & W1 & W2 & HR & Hr & _); auto.
    { rewrite Hbuf. apply wire_nil. }
    rewrite E. exists c1, (evs1 ++ [EvResult true]), true. split; [reflexivity|].
    split; [rewrite results_app, Hr; reflexivity|]. split; [tauto|discriminate].
  - rewrite (ineffective_call outcome c k bit Hb He). exists c, [EvResult false], false.
    repeat split; try discriminate; try contradiction.
Qed.
Print Assumptions C59_success.

(** A reply code is stored exactly if it is acceptable. *)
Theorem C59_reply_success outcome c code n e m :
  written_code code n ->
  exists c' ok, do_smfi outcome c OwnContext (FSetReply (Some code) e m) = (c', [EvResult ok], true) /\
    (ok = true <-> acceptable n e) /\
    (ok = true -> cc_reply c' = mk_smtp_reply n e m) /\ (ok = false -> c' = c).
Proof.
  intros Hw. unfold do_smfi. cbn [smfi_meaning smfi_setreply]. rewrite (atoi_written _ _ Hw). cbn [do_call].
  destruct (C11_set_reply (cc_reply c) n e m) as [[Ha ->]|[Ha ->]].
  - do 2 eexists. split; [reflexivity|]. split; [split; auto|]. split; [reflexivity|discriminate].
  - do 2 eexists. split; [reflexivity|]. split; [split; [discriminate|contradiction]|].
    split; [discriminate|]. destruct c; reflexivity.
Qed.
Print Assumptions C59_reply_success.

(** A negative code is refused. *)
Theorem C59_negative_code outcome c code n e m :
  written_code code n -> (0 < n)%N ->
  do_smfi outcome c OwnContext (FSetReply (Some ("-"%char :: code)) e m) = (c, [EvResult false], true).
Proof.
  intros Hw Hn. unfold do_smfi. cbn [smfi_meaning smfi_setreply]. pose proof (atoi_negative _ _ Hw Hn) as H.
  cbn [do_call].
  destruct (C11_set_reply (cc_reply c) (as_uint (atoi ("-"%char :: code))) e m) as [[[Ha _] _]|[_ X]]; [lia|].
  unfold bytes in *. rewrite X. destruct c; reflexivity.
Qed.
Print Assumptions C59_negative_code.

Example C59_negative_code_example :
  do_smfi taken client_new OwnContext (FSetReply (Some (lit "-550")) None None) = (client_new, [EvResult false], true) /\
  snd (fst (do_smfi taken client_new OwnContext (FSetReply (Some (lit "550")) None None))) = [EvResult true].
Proof. split; reflexivity. Qed.

(** Return values that do not exist mean to go on, like not having the callback. *)
Theorem C59_other_values v :
  ~ In v [0; 1; 2; 3; 4; 7; 8; 10] -> returned (Some v) = returned None /\ returned None = S_DEFAULT.
Proof.
  intros H. split; [|reflexivity]. rewrite <- status_to_returned. unfold status_to.
  repeat (match goal with |- context [?a =? ?b] => destruct (Z.eqb_spec a b); [exfalso; apply H; subst; cbn; tauto|] end).
  reflexivity.
Qed.
Print Assumptions C59_other_values.

(** SMFIS_ALL_OPTS outside of a negotiation is not answered: the peer waits for ever. *)
Theorem C59_all_options_refuted :
  exists d m, (forall o, m <> CNegotiate o) /\
    returned (Some 10) = S_ALL_OPTIONS /\
    calls_made_in (lib_run taken d lib_new (commands [(m, returning 10)])) = [IHelo (lit "f")] /\
    events_of (lib_run taken d lib_new (commands [(m, returning 10)])) = [].
Proof.
  exists (having [FnHelo]), (CHelo (lit "f")). split; [discriminate|]. vm_compute. auto.
Qed.
Print Assumptions C59_all_options_refuted.

(** A size that is not that of the body, a code or a list of symbols that is missing, is not refused:
    the behaviour is undefined. *)
Theorem C59_undefined_refuted outcome c b n e m :
  Z.of_nat (length b) < n \/ n < 0 ->
  snd (do_smfi outcome c OwnContext (FReplaceBody b n)) = false /\
  snd (do_smfi outcome c OwnContext (FSetReply None e m)) = false /\
  snd (do_smfi outcome c OwnContext (FSetSymList n None)) = false.
Proof.
  intros H. split; [|split; reflexivity]. unfold do_smfi. cbn [smfi_meaning].
  destruct ((0 <=? n) && (n <=? Z.of_nat (length b))) eqn:E; [lia|reflexivity].
Qed.
Print Assumptions C59_undefined_refuted.

(** A filter that adds a header and changes the body in xxfi_eom, then rejects with a reply of
    its own. *)
Definition example_filter : invocation -> reaction := fun i =>
  match i with
  | INegotiate _ _ => mk_reaction [] 0 3 0
  | IEom => mk_reaction [FAddHeader (Some (lit "X")) (Some (lit "1")); FReplaceBody (lit "new") 3;
                         FDelRcpt (Some (lit "<c@d>"))] 0 0 0
  | IEnvrcpt _ => mk_reaction [FSetReply (Some (lit "550")) (Some (lit "5.7.1")) (Some (lit "no"))] 1 0 0
  | _ => mk_reaction [] 0 0 0
  end.

Example C59_example :
  let l := map (fun m => (m, example_filter))
    [CNegotiate (mk_option 6 63 127); CEnvelopeFrom (lit "<a@b>"); CEnvelopeRecipient (lit "<c@d>");
     CEndOfMessage None] in
  let run := lib_run taken (having [FnNegotiate; FnEnvrcpt; FnEom]) lib_new (commands l) in
  calls_made_in run = [INegotiate 63 127; IEnvrcpt [lit "<c@d>"]; IEom] /\
  snd (fst (feeds reply_handler decoder_new [sent (events_of run)])) =
  [RNegotiate (mk_option 6 3 0) None; RContinue; RReplyCode 550 (lit "5.7.1") (Some (lit "no"));
   RAddHeader (lit "X") (lit "1"); RReplaceBody (lit "new"); RContinue] /\
  results (events_of run) = [true; true; true; false].
Proof. vm_compute. auto. Qed.

Example C59_example_good :
  well_behaved example_filter /\ good_reaction example_filter.
Proof.
  assert (A1 : ask_all [FAddHeader (Some (lit "X")) (Some (lit "1")); FReplaceBody (lit "new") 3;
                         FDelRcpt (Some (lit "<c@d>"))]
    ([KAddHeader (Some (lit "X")) (Some (lit "1"))] ++ [KReplaceBody (lit "new")] ++ [KDeleteRecipient (Some (lit "<c@d>"))] ++ [])).
  { repeat (constructor; [|exact I|]); [constructor|exact (as_body (lit "new"))|constructor|constructor]. }
  assert (A2 : ask_all [FSetReply (Some (lit "550")) (Some (lit "5.7.1")) (Some (lit "no"))]
    ([KSetReply 550 (Some (lit "5.7.1")) (Some (lit "no"))] ++ [])).
  { constructor; [|exact I|constructor]. constructor. exists 5%N, 5%N, 0%N. repeat split; lia. }
  split; [split|].
  - intros i. destruct i; cbn [example_filter r_calls]; try (exists []; constructor); eexists; eauto.
  - intros a t. cbn. repeat split; reflexivity.
  - intros i ks H. destruct i; cbn [example_filter r_calls] in H; try (inversion H; constructor).
    + inversion H as [|? ? k1 k2 F1 _ F2]; subst. inversion F2; subst.
      inversion F1; subst. constructor; [|constructor]. cbn. intros _.
      exists (lit "5.7.1"), (lit "no"). repeat split; try discriminate; try (vm_compute; reflexivity).
      * intros [E|[E|[]]]; discriminate.
      * intros [E|[E|[]]]; discriminate.
    + inversion H as [|? ? k1 k2 F1 _ F2]; subst. inversion F2 as [|? ? k3 k4 F3 _ F4]; subst.
      inversion F4 as [|? ? k5 k6 F5 _ F6]; subst. inversion F6; subst.
      inversion F1; subst. inversion F3; subst. inversion F5; subst. cbn [app].
      assert (T : forall t, forallb (fun c => negb (beqb c NUL)) t = true -> zlen t < 536870912 -> text t).
      { intros t Ht Hl. split; [|exact Hl]. intros Hn. rewrite forallb_forall in Ht. specialize (Ht _ Hn).
        rewrite (proj2 (beqb_eq NUL NUL) eq_refl) in Ht. discriminate. }
      constructor; [|constructor; [exact I|constructor; [|constructor]]]; cbn [good_call].
      * split; [discriminate|]. split; apply T; vm_compute; reflexivity.
      * apply T; vm_compute; reflexivity.
Qed.

(** *** C60 *)

Lemma negotiation_exchange has o react is xs : well_behaved react ->
  session_of has [(CNegotiate o, react)] is xs ->
  let v := if has FnNegotiate then Some (r_return (react (INegotiate (o_action o) (o_step o)))) else None in
  is = (if has FnNegotiate then [INegotiate (o_action o) (o_step o)] else []) /\
  xs = [XNow (CNegotiate o) [] (option_answer o react v) [] (returned v)].
Proof.
  intros [_ Hn] X. inversion X as [|b m react0 is0 x rest is' xs' X0 X1]; subst. inversion X1; subst.
  rewrite app_nil_r. inversion X0 as [m0 react0 is1 v ks answer s Hcd Hk Hs Hp Ha]; subst.
  rewrite (Hs ltac:(discriminate)).
  inversion Hcd as [? C|? ? ? C E|? ? ? C E|? ?|? ? ? Hl|? ? ? Hl]; subst; try discriminate C;
    try (cbn in Hl; congruence).
  - injection C as <- <-. rewrite E. cbv zeta. inversion Hk. auto.
  - injection C as <- <-. rewrite E. cbv zeta. cbn [map concat] in Hk.
    destruct (Hn (o_action o) (o_step o)) as (Hc & _). rewrite Hc in Hk. inversion Hk. auto.
Qed.

(** A negotiation is answered with what xxfi_negotiate left in its output parameters if it says
    SMFIS_CONTINUE, with the whole offer if it says SMFIS_ALL_OPTS or if there is no such
    callback, with a reject if it says SMFIS_REJECT. *)
Theorem C60_negotiation_partial outcome d o react :
  (forall n, outcome n = Taken) -> well_behaved react -> good_reaction react -> good_option o ->
  let run := lib_run outcome d lib_new (commands [(CNegotiate o, react)]) in
  let r := react (INegotiate (o_action o) (o_step o)) in
  fits (sent (events_of run)) ->
  calls_made_in run = (if d_has d FnNegotiate then [INegotiate (o_action o) (o_step o)] else []) /\
  snd (fst (feeds reply_handler decoder_new [sent (events_of run)])) =
    match (if d_has d FnNegotiate then returned (Some (r_return r)) else S_ALL_OPTIONS) with
    | S_CONTINUE => [RNegotiate (mk_option (o_version o) (r_action r) (r_step r)) None]
    | S_ALL_OPTIONS | S_DEFAULT => [RNegotiate o None]
    | S_REJECT => [RReject]
    | _ => []
    end.
Proof.
  intros Ht Hw Hg Ho run r Hf.
  destruct (C59_on_the_wire_partial outcome d [(CNegotiate o, react)] [sent (events_of run)] Ht)
    as (xs & expected & t & in_order & received & dec & res & X & Se & [So _] & Sr & F & _).
  - constructor; [|constructor]. split; assumption.
  - cbn [map fst]. split; [|constructor]. intros o' E. injection E as <-. exact Ho.
  - cbn [concat]. apply app_nil_r.
  - cbn [concat]. rewrite app_nil_r. exact Hf.
  - destruct (negotiation_exchange _ _ _ _ _ Hw X) as [E1 E2]. fold run in E1. split; [exact E1|].
    rewrite F. cbn [fst snd]. subst xs. cbv zeta in Se.
    set (v := if d_has d FnNegotiate then Some (r_return (react (INegotiate (o_action o) (o_step o)))) else None) in Se.
    inversion Se as [|? ? ? rs rs' t' t'' Hx Hr]; subst. inversion Hr; subst. rewrite app_nil_r in So.
    inversion Hx as [? ? C|? ? rs0 t1 C Hi]; subst; [discriminate C|].
    cbn [x_calls x_command started is_end_of_message] in Hi. inversion Hi; subst. cbn [app] in So.
    assert (one : forall e, (forall q o, e <> RNegotiate q (Some o)) ->
      fst (answered (mk_told (Some o) no_reply_code None)
             (XNow (CNegotiate o) [] (option_answer o react v) [] (returned v))) = [e] -> received = [e]).
    { intros e He E. cbn [t_option t_reply t_quarantine] in So. rewrite E in So. apply Permutation_sym, Permutation_length_1_inv in So. subst in_order.
      inversion Sr as [|? r' ? ? S1 S2]; subst. inversion S2; subst. f_equal.
      unfold same_reply in S1. destruct e; try (symmetry; exact S1).
      match goal with H : match ?q with _ => _ end |- _ => destruct q end; [exfalso; eapply He; reflexivity|symmetry; exact S1]. }
    assert (none : fst (answered (mk_told (Some o) no_reply_code None)
             (XNow (CNegotiate o) [] (option_answer o react v) [] (returned v))) = [] -> received = []).
    { intros E. cbn [t_option t_reply t_quarantine] in So. rewrite E in So. apply Permutation_sym, Permutation_nil in So. subst in_order.
      inversion Sr. reflexivity. }
    replace (if d_has d FnNegotiate then returned (Some (r_return r)) else S_ALL_OPTIONS) with
      (match v with Some _ => returned v | None => S_ALL_OPTIONS end)
      by (unfold v, r; destruct (d_has d FnNegotiate); reflexivity).
    destruct v as [w|] eqn:Ev; [|apply one; [discriminate|reflexivity]].
    assert (Er : w = r_return r) by (unfold v, r in *; destruct (d_has d FnNegotiate); congruence).
    destruct (returned (Some w)) eqn:Es; try (apply one; [discriminate|reflexivity]); try (apply none; reflexivity).
    apply one; [discriminate|]. apply is_0_returned in Es. injection Es as ->. reflexivity.
Qed.
Print Assumptions C60_negotiation_partial.

(** The flags of a filter change nothing. *)
Theorem C60_flags_refuted outcome flags flags' has l :
  lib_run outcome (mk_desc flags has) lib_new l = lib_run outcome (mk_desc flags' has) lib_new l.
Proof.
  generalize lib_new. induction l as [|op l IH]; intros s; [reflexivity|]. cbn [lib_run].
  replace (lib_step outcome (mk_desc flags' has) s op) with (lib_step outcome (mk_desc flags has) s op) by reflexivity.
  destruct (lib_step outcome (mk_desc flags has) s op) as [[s1 is1] evs1]. rewrite IH. reflexivity.
Qed.
Print Assumptions C60_flags_refuted.

(** A filter without xxfi_negotiate that wants to see connections and says it changes nothing: it
    accepts all actions, and that connections are not sent to it. *)
Theorem C60_default_refuted :
  exists o, N.testbit (o_step o) 0 = true /\ d_flags (having [FnConnect]) = 0%N /\ d_has (having [FnConnect]) FnConnect = true /\
    snd (fst (feeds reply_handler decoder_new
      [sent (events_of (lib_run taken (having [FnConnect]) lib_new (commands [(CNegotiate o, returning 0)])))])) =
    [RNegotiate o None] /\ o_action o = 511%N.
Proof. exists (mk_option 6 511 2097151). vm_compute. auto. Qed.
Print Assumptions C60_default_refuted.

(** What xxfi_negotiate gets as its context is not one: any call on it is undefined. *)
Theorem C60_context_refuted outcome d o react f fs :
  d_has d FnNegotiate = true -> r_calls (react (INegotiate (o_action o) (o_step o))) = f :: fs ->
  l_defined (end_of (lib_run outcome d lib_new (commands [(CNegotiate o, react)]))) = false.
Proof.
  intros H1 H2. cbn [commands map fst snd lib_run lib_step lib_new l_defined lib_command l_closed command_stage
    run_handler plain_invocation]. rewrite H1. unfold invoke. cbn [context_of]. rewrite H2.
  cbn [do_smfis do_smfi]. reflexivity.
Qed.
Print Assumptions C60_context_refuted.

(** smfi_setsymlist says it succeeded and has no effect. *)
Theorem C60_symbols_refuted outcome c stage macros :
  do_smfi outcome c OwnContext (FSetSymList stage (Some macros)) = (c, [EvResult true], true).
Proof. reflexivity. Qed.
Print Assumptions C60_symbols_refuted.

Example C60_example :
  snd (fst (feeds reply_handler decoder_new
    [sent (events_of (lib_run taken (having [FnNegotiate]) lib_new
       (commands [(CNegotiate (mk_option 6 511 127), fun _ => mk_reaction [] 0 17 96)])))])) =
  [RNegotiate (mk_option 6 17 96) None].
Proof. vm_compute. reflexivity. Qed.

(** *** C61 *)

Definition is_abort (i : invocation) : bool := match i with IAbort => true | _ => false end.

(** In a session whose commands come in order xxfi_abort is called once for each message that is
    aborted, and at no other time. *)
Theorem C61_abort_partial outcome d l :
  Forall (fun p => well_behaved (snd p)) l -> ordered false (map fst l) ->
  times is_abort (calls_made_in (lib_run outcome d lib_new (commands l))) =
  if d_has d FnAbort then messages_aborted false (map fst l) else 0%nat.
Proof.
  intros Hw Ho. destruct (C58_callbacks_partial outcome d l Hw Ho) as [C _]. revert C.
  generalize (calls_made_in (lib_run outcome d lib_new (commands l))). intros is. clear Hw Ho.
  generalize false. intros now C.
  induction C as [now|now m react is v rest is' Hc _ IH]; [destruct (d_has d FnAbort); reflexivity|].
  unfold times in *. rewrite filter_app, app_length, IH. clear IH. cbn [map fst messages_aborted].
  destruct Hc as [m Hm|m f i Hm Hf|m f i Hm Hf Hp Ha|Ha Hi|m H1 H2 Hp Hv|m H1 H2 Hp Hv].
  - destruct m; try discriminate Hm; reflexivity.
  - destruct m; try discriminate Hm; injection Hm as <- <-; try reflexivity. rewrite Hf. reflexivity.
  - destruct m; try discriminate Hm; injection Hm as <- <-; try reflexivity. rewrite Hf, (Ha eq_refl). reflexivity.
  - rewrite Ha, Hi. reflexivity.
  - destruct m; cbn in Hp; try congruence. reflexivity.
  - destruct m; cbn in Hp; try congruence. reflexivity.
Qed.
Print Assumptions C61_abort_partial.

(** Whatever happens, xxfi_close is called at most once and is the last callback called. *)
Theorem C61_close outcome d ops :
  exists is, times is_close is = 0%nat /\
    (calls_made_in (lib_run outcome d lib_new ops) = is \/ calls_made_in (lib_run outcome d lib_new ops) = is ++ [IClose]).
Proof.
  destruct (lib_run outcome d lib_new ops) as [[l is] evs] eqn:E.
  exact (proj2 (lib_run_close outcome d ops _ _ _ _ E)).
Qed.
Print Assumptions C61_close.

(** It is called when the session ends. *)
Theorem C61_closed outcome d l react more :
  Forall (fun p => well_behaved (snd p)) l -> well_behaved react -> d_has d FnClose = true ->
  exists is, times is_close is = 0%nat /\
    calls_made_in (lib_run outcome d lib_new (commands l ++ LFinish react :: more)) = is ++ [IClose].
Proof.
  intros Hw Hr Hc.
  destruct (lib_run_refines outcome d l Hw client_new) as (is & xs & c' & evs & evs' & X & _ & E & _ & _).
  assert (A : forall ops ops' s, lib_run outcome d s (ops ++ ops') =
    let '(s1, is1, e1) := lib_run outcome d s ops in
    let '(s2, is2, e2) := lib_run outcome d s1 ops' in (s2, is1 ++ is2, e1 ++ e2)).
  { intros ops. induction ops as [|op ops IH]; intros ops' s; cbn [app lib_run].
    - destruct (lib_run outcome d s ops') as [[? ?] ?]. reflexivity.
    - destruct (lib_step outcome d s op) as [[s1 is1] e1]. rewrite IH.
      destruct (lib_run outcome d s1 ops) as [[s2 is2] e2]. destruct (lib_run outcome d s2 ops') as [[s3 is3] e3].
      now rewrite !app_assoc. }
  rewrite A. unfold lib_new. rewrite E. cbn [lib_run lib_step l_defined lib_finish l_closed]. rewrite Hc.
  destruct Hr as [Hr _]. destruct (Hr IClose) as [ks Hk].
  destruct (invoke_calls outcome react c' IClose ks eq_refl Hk) as (e2 & E2 & _). cbn [l_client]. rewrite E2.
  match goal with |- context [lib_run outcome d ?s more] => destruct (lib_run outcome d s more) as [[s3 is3] e3] eqn:E3 end.
  destruct (lib_run_close outcome d more _ _ _ _ E3) as [H3 _]. cbn [l_closed] in H3. rewrite (H3 eq_refl).
  destruct (C61_close outcome d (commands l)) as (is' & T & D). exists is. split; [|reflexivity].
  unfold lib_new in D. rewrite E in D. cbn [calls_made_in fst snd] in D. destruct D as [->| D]; [exact T|].
  exfalso. clear - X D. revert is' D.
  assert (N : times is_close is = 0%nat).
  { induction X as [|b m react is x rest is0 xs X _ IH]; [reflexivity|].
    unfold times in *. rewrite filter_app, app_length, IH.
    destruct X as [m react is v ks answer s Hcd _ _ _ _].
    destruct Hcd as [m Hm|m f i Hm Hf|m f i Hm Hf Hp Ha|Ha Hi|m H1 H2 Hp Hv|m H1 H2 Hp Hv]; try reflexivity.
    destruct m; try discriminate Hm; injection Hm as <- <-; reflexivity. }
  intros is' ->. unfold times in N. rewrite filter_app, app_length in N. cbn in N. lia.
Qed.
Print Assumptions C61_closed.

(** Outside of a message, after an unknown command, an abort is taken for that of a message. *)
Theorem C61_unknown_refuted :
  calls_made_in (lib_run taken (having [FnEnvfrom; FnUnknown; FnAbort]) lib_new
    (commands (map (fun m => (m, returning 0)) [CHelo (lit "f"); CUnknown (lit "NOOP"); CAbort]))) =
  [IUnknown (lit "NOOP"); IAbort].
Proof. vm_compute. reflexivity. Qed.
Print Assumptions C61_unknown_refuted.

(** If the connection is lost in the middle of a message, xxfi_abort is not called. *)
Theorem C61_lost_refuted :
  calls_made_in (lib_run taken (having [FnEnvfrom; FnAbort; FnClose]) lib_new
    (commands (map (fun m => (m, returning 0)) [CHelo (lit "f"); CEnvelopeFrom (lit "<a@b>")]) ++ [LFinish (returning 0)])) =
  [IEnvfrom [lit "<a@b>"]; IClose].
Proof. vm_compute. reflexivity. Qed.
Print Assumptions C61_lost_refuted.

(** xxfi_abort is called although the filter has given its verdict on the message. *)
Theorem C61_decided_refuted v : In v [1; 2; 3; 4] ->
  decisive v /\
  calls_made_in (lib_run taken (having [FnEnvfrom; FnAbort]) lib_new
    (commands (map (fun m => (m, returning v)) [CEnvelopeFrom (lit "<a@b>"); CAbort]))) =
  [IEnvfrom [lit "<a@b>"]; IAbort].
Proof.
  intros H. split; [cbn in H; unfold decisive; intuition|].
  cbn in H. destruct H as [<-|[<-|[<-|[<-|[]]]]]; vm_compute; reflexivity.
Qed.
Print Assumptions C61_decided_refuted.

Example C61_example :
  calls_made_in (lib_run taken (having [FnAbort; FnClose]) lib_new
    (commands (map (fun m => (m, returning 0))
      [CAbort; CEnvelopeFrom (lit "<a@b>"); CAbort; CEnvelopeFrom (lit "<a@b>"); CEndOfMessage None; CAbort; CQuit])
     ++ [LFinish (returning 0); LFinish (returning 0)])) = [IAbort; IClose].
Proof. vm_compute. reflexivity. Qed.

(** *** C62 *)

(** The text of the reply packet: each line after the code and the extended code, separated by
    spaces. *)
Definition with_spaces (c : N) (e : bytes) (l : bytes) : bytes :=
  three_digits c ++ " "%char :: reply_text (Some e) l.
Fixpoint lines_crlf (ls : list bytes) : bytes :=
  match ls with
  | [] => []
  | [l] => l
  | l :: ls' => l ++ "013"%char :: "010"%char :: lines_crlf ls'
  end.

Lemma split_lines_text ls : ls <> [] -> Forall (fun l => ~ In LF l) ls -> split_lines (lines_text ls) = ls.
Proof.
  intros Hne H. induction H as [|l ls Hl Hls IH]; [congruence|].
  assert (S1 : forall t, split_lines (l ++ LF :: t) = l :: split_lines t).
  { clear IH Hne. induction l as [|c l IHl]; intros t; [reflexivity|]. cbn [app split_lines].
    destruct (beqb c LF) eqn:E; [apply beqb_eq in E; subst; exfalso; apply Hl; now left|].
    rewrite IHl; [reflexivity|]. intros Hi. apply Hl. now right. }
  destruct ls as [|l2 ls].
  - cbn [lines_text]. clear - Hl. induction l as [|c l IHl]; [reflexivity|]. cbn [split_lines].
    destruct (beqb c LF) eqn:E; [apply beqb_eq in E; subst; exfalso; apply Hl; now left|].
    rewrite IHl; [reflexivity|]. intros Hi. apply Hl. now right.
  - change (lines_text (l :: l2 :: ls)) with (l ++ LF :: lines_text (l2 :: ls)). rewrite S1, IH; [reflexivity|discriminate].
Qed.

Lemma format_text c e ls :
  c <> 0%N -> lines_text ls <> [] -> Forall (fun l => ~ In LF l /\ ~ In CR l) ls ->
  format_reply_code (mk_smtp_reply c (Some e) (Some (lines_text ls))) = Some (lines_crlf (map (with_spaces c e) ls)).
Proof.
  intros Hc Hne H. unfold format_reply_code. cbn [sr_code sr_extended sr_message].
  destruct (N.eqb_spec c 0); [congruence|]. f_equal.
  assert (E : strsplit_lines (lines_text ls) = ls).
  { unfold strsplit_lines. destruct (lines_text ls) eqn:E; [congruence|]. rewrite <- E. apply split_lines_text.
    - intros ->. discriminate E.
    - eapply Forall_impl; [|exact H]. cbn. tauto. }
  rewrite E. clear E Hne.
  induction H as [|l ls [_ Hl] _ IH]; [reflexivity|].
  assert (F : format_line c (Some e) l = with_spaces c e l).
  { unfold format_line, with_spaces, reply_text. destruct l as [|b l]; [now rewrite app_nil_r|].
    unfold strip_cr. destruct (beqb (last (b :: l) NUL) CR) eqn:E; [|reflexivity].
    apply beqb_eq in E. exfalso. apply Hl. rewrite <- E.
    destruct (exists_last (l := b :: l)) as (l' & a & ->); [discriminate|]. rewrite last_last. apply in_or_app. right. now left. }
  cbn [map]. rewrite F. destruct ls as [|l2 ls]; [reflexivity|].
  change (join_crlf (?a :: ?b :: ?c)) with (a ++ CR :: LF :: join_crlf (b :: c)).
  cbn [map] in IH. cbn [join_crlf lines_crlf map] in *. rewrite IH. reflexivity.
Qed.

(** smfi_setmlreply with lines that are not too long and an acceptable code succeeds; the reply
    packet then has all lines. *)
Theorem C62_lines_partial outcome c code n e ls :
  written_code code n -> acceptable n (Some e) -> lines_text ls <> [] ->
  Forall (fun l => reply_line l /\ ~ In "010"%char l) ls ->
  exists c', do_smfi outcome c OwnContext (FSetMlReply (Some code) (Some e) ls) = (c', [EvResult true], true) /\
    format_reply_code (cc_reply c') = Some (lines_crlf (map (with_spaces n e) ls)).
Proof.
  intros Hw Ha Hne Hl.
  assert (H1 : Forall reply_line ls) by (eapply Forall_impl; [|exact Hl]; cbn; tauto).
  unfold do_smfi. cbn [smfi_meaning]. unfold smfi_setmlreply. rewrite (proj1 (join_lines_spec ls) H1).
  destruct (lines_text ls) as [|b t] eqn:E; [congruence|]. cbn [smfi_setreply]. rewrite (atoi_written _ _ Hw). cbn [do_call].
  pose proof (C11_set_reply (cc_reply c) n (Some e) (Some (b :: t))) as [[_ H]|[Hn _]]; [|contradiction].
  unfold bytes in *. rewrite H.
  eexists. split; [reflexivity|]. cbn [cc_reply with_reply]. rewrite <- E. apply format_text.
  - destruct Ha as [Ha _]. lia.
  - congruence.
  - eapply Forall_impl; [|exact Hl]. intros l [[_ A] B]. split; [exact B|exact A].
Qed.
Print Assumptions C62_lines_partial.

(** With nothing to say nothing is stored, and that is no failure. *)
Theorem C62_nothing_to_say outcome c code e ls :
  Forall reply_line ls -> lines_text ls = [] ->
  do_smfi outcome c OwnContext (FSetMlReply code e ls) = (c, [EvResult true], true).
Proof.
  intros H E. unfold do_smfi. cbn [smfi_meaning]. unfold smfi_setmlreply.
  rewrite (proj1 (join_lines_spec ls) H), E. reflexivity.
Qed.
Print Assumptions C62_nothing_to_say.

Example C62_nothing_to_say_example : Forall reply_line [@nil byte] /\ lines_text [@nil byte] = [].
Proof. split; [|reflexivity]. constructor; [|constructor]. split; [cbn; lia | intros []]. Qed.

(** With one line this is an SMTP reply. *)
Theorem C62_one_line n e l :
  lines_crlf (map (with_spaces n e) [l]) = smtp_lines (three_digits n) (Some e) [l].
Proof. reflexivity. Qed.
Print Assumptions C62_one_line.

(** With more lines it never is. *)
Theorem C62_more_lines_refuted n e l1 l2 ls :
  lines_crlf (map (with_spaces n e) (l1 :: l2 :: ls)) <> smtp_lines (three_digits n) (Some e) (l1 :: l2 :: ls).
Proof.
  cbn [map lines_crlf smtp_lines]. unfold with_spaces at 1. rewrite <- !app_assoc. intros H.
  apply app_inv_head in H. discriminate H.
Qed.
Print Assumptions C62_more_lines_refuted.

(** Lines that are too long or have a carriage return are refused, and nothing is stored. *)
Theorem C62_refused outcome c code e ls :
  ~ Forall reply_line ls ->
  do_smfi outcome c OwnContext (FSetMlReply code e ls) = (c, [EvResult false], true).
Proof.
  intros H. unfold do_smfi. cbn [smfi_meaning]. unfold smfi_setmlreply.
  rewrite (proj2 (join_lines_spec ls) H). reflexivity.
Qed.
Print Assumptions C62_refused.

(** The peer takes what follows the first code for the text; a manager that passes the reply on
    repeats the codes inside of it. *)
Theorem C62_passed_on_refuted :
  exists c', fst (fst (do_smfi taken client_new OwnContext
      (FSetMlReply (Some (lit "550")) (Some (lit "5.7.1")) [lit "one"; lit "two"]))) = c' /\
    let text := lit "one" ++ CR :: LF :: lit "550 5.7.1 two" in
    peer_sees (cc_reply c') = Some [RReplyCode 550 (lit "5.7.1") (Some text)] /\
    set_reply no_reply_code 550 (Some (lit "5.7.1")) (Some text) = (true, mk_smtp_reply 550 (Some (lit "5.7.1")) (Some text)) /\
    format_reply_code (mk_smtp_reply 550 (Some (lit "5.7.1")) (Some text)) =
    Some (lit "550 5.7.1 one" ++ CR :: LF :: lit "550 5.7.1 550 5.7.1 two").
Proof. eexists. split; [reflexivity|]. vm_compute. auto. Qed.
Print Assumptions C62_passed_on_refuted.

(** A 4xx code is used for SMFIS_REJECT too: the peer is told to try again. *)
Theorem C62_class_refuted :
  exists react, well_behaved react /\ r_return (react (IHelo (lit "f"))) = 1 /\
    snd (fst (feeds reply_handler decoder_new
      [sent (events_of (lib_run taken (having [FnHelo]) lib_new (commands [(CHelo (lit "f"), react)])))])) =
    [RReplyCode 451 (lit "4.7.1") (Some (lit "later"))].
Proof.
  exists (fun i => match i with
    | INegotiate _ _ => mk_reaction [] 0 0 0
    | _ => mk_reaction [FSetReply (Some (lit "451")) (Some (lit "4.7.1")) (Some (lit "later"))] 1 0 0 end).
  split; [split|split; [reflexivity|vm_compute; reflexivity]].
  - assert (A : ask_all [FSetReply (Some (lit "451")) (Some (lit "4.7.1")) (Some (lit "later"))]
      ([KSetReply 451 (Some (lit "4.7.1")) (Some (lit "later"))] ++ [])).
    { constructor; [|exact I|constructor]. constructor. exists 4%N, 5%N, 1%N. repeat split; lia. }
    intros i. destruct i; eexists; try exact A. constructor.
  - intros a t. repeat split; reflexivity.
Qed.
Print Assumptions C62_class_refuted.

Example C62_example :
  lines_crlf (map (with_spaces 550 (lit "5.7.1")) [lit "one"; lit "two"]) =
  lit "550 5.7.1 one" ++ CR :: LF :: lit "550 5.7.1 two" /\
  smtp_lines (three_digits 550) (Some (lit "5.7.1")) [lit "one"; lit "two"] =
  lit "550-5.7.1 one" ++ CR :: LF :: lit "550 5.7.1 two".
Proof. vm_compute. auto. Qed.
