(** The conversation of milter-test-server. *)
From Verif.Base Require Import Bytes BytesFacts.
From Verif.Model Require Import Decoder Encoder CommandCodec ReplyCodec Status Option Headers Macros
                                Client Server TestServer.
From Verif.Model Require TestMessage TestReport.
From Verif.Spec Require Import ReportSpec ConversationSpec.
From Coq Require Import ZifyBool ZifyNat ZifyN Lia.
Import List.
Local Open Scope N_scope.

(** *** What the handlers send next *)

Definition pair_of (h : header) : bytes * bytes :=
  (h_name h, match h_value h with Some v => v | None => [] end).

Definition api_of (c : command) : api :=
  match c with
  | CNegotiate o => ANegotiate o
  | CDefineMacro c _ => AMacro (OClear c)
  | CConnect host a => AConnect host a
  | CHelo h => AHelo h
  | CEnvelopeFrom f => AFrom f
  | CEnvelopeRecipient r => ARcpt r
  | CData => AData
  | CUnknown u => AUnknown u
  | CHeader n v => AHeader n v
  | CEndOfHeader => AEndOfHeader
  | CBody c => ABody c
  | CEndOfMessage c => AEndOfMessage c
  | CAbort => AAbort
  | CQuit => AQuit
  end.
Definition state_of (c : command) : sstate :=
  match c with
  | CNegotiate _ => XNegotiate
  | CDefineMacro _ _ => XDefineMacro
  | CConnect _ _ => XConnect
  | CHelo _ => XHelo
  | CEnvelopeFrom _ => XFrom
  | CEnvelopeRecipient _ => XRcpt
  | CData => XData
  | CUnknown _ => XUnknown
  | CHeader _ _ => XHeader
  | CEndOfHeader => XEndOfHeader
  | CBody _ => XBody
  | CEndOfMessage _ => XEndOfMessage
  | CAbort => XAbort
  | CQuit => XQuit
  end.

Definition quiet (c : api) : bool := match c with AMacro _ | AReset => true | _ => false end.

(** What stays when a command is sent. *)
Definition keeps (c : command) (p q : pdata) : Prop :=
  pd_option q = pd_option p /\ pd_mail q = pd_mail p /\ pd_reply q = pd_reply p /\
  pd_error q = pd_error p /\ pd_connected q = pd_connected p /\ pd_over q = pd_over p /\
  pd_hung q = pd_hung p /\
  match c with CEnvelopeRecipient r => pd_last q = r | _ => pd_last q = pd_last p end.

Section Plan.
  Variable pl : plan.
  Variable o : moption.

  (** The commands from a place on. *)
  Definition r_body p := unless (asked o STEP_NO_BODY) (map CBody (pd_chunks p)) ++ [CEndOfMessage None].
  Definition r_eoh p := unless (asked o STEP_NO_END_OF_HEADER) [CEndOfHeader] ++ r_body p.
  Definition r_header p :=
    unless (asked o STEP_NO_HEADERS)
           (map (fun h => CHeader (fst h) (snd h)) (map pair_of (pd_headers p))) ++ r_eoh p.
  Definition r_data p := unless (asked o STEP_NO_DATA || (o_version o <? 4)) [CData] ++ r_header p.
  Definition r_unknown p :=
    unless (asked o STEP_NO_UNKNOWN || (o_version o <? 3))
           (match pl_unknown pl with Some c => [CUnknown c] | None => [] end) ++ r_data p.
  Definition r_rcpt p :=
    unless (asked o STEP_NO_ENVELOPE_RECIPIENT) (map CEnvelopeRecipient (pd_recipients p)) ++ r_unknown p.
  Definition r_from p :=
    unless (asked o STEP_NO_ENVELOPE_FROM) [CEnvelopeFrom (TestMessage.msg_from (pl_message pl))] ++ r_rcpt p.
  Definition r_helo p := unless (asked o STEP_NO_HELO) [CHelo (pl_helo pl)] ++ r_from p.
  Definition r_connect p :=
    unless (asked o STEP_NO_CONNECT) [CConnect (pl_host pl) (pl_address pl)] ++ r_helo p.

  (** What comes behind a state. *)
  Definition after (x : sstate) (p : pdata) : list command :=
    match x with
    | XNegotiate => r_connect p
    | XConnect => r_helo p
    | XHelo => r_from p
    | XFrom | XRcpt => r_rcpt p
    | XUnknown => r_data p
    | XData | XHeader => r_header p
    | XEndOfHeader | XBody => r_body p
    | _ => []
    end.

  Definition Leads (k : nat) (f : part) (p : pdata) (l : list command) : Prop :=
    exists c l' q p', l = c :: l' /\ f p = (q ++ [api_of c], true, p') /\
      Forall (fun a => quiet a = true) q /\ (length q <= k)%nat /\ keeps c p p' /\
      (1 <= place c <= 10) /\ after (state_of c) p' = l'.
  Definition Fails (k : nat) (f : part) (p : pdata) : Prop :=
    exists q, f p = (q, false, p) /\ Forall (fun a => quiet a = true) q /\ (length q <= k)%nat.

  Lemma or_leads k1 k2 f g p l : Leads k1 f p l -> Leads (k1 + k2) (or_else f g) p l.
  Proof.
    intros (c & l' & q & p' & -> & E & Q & L & K & R & A). exists c, l', q, p'.
    unfold or_else. rewrite E. repeat split; try assumption; try lia; apply K.
  Qed.
  Lemma or_fails k1 k2 f g p l : Fails k1 f p -> Leads k2 g p l -> Leads (k1 + k2) (or_else f g) p l.
  Proof.
    intros (q1 & E1 & Q1 & L1) (c & l' & q & p' & -> & E & Q & L & K & R & A). exists c, l', (q1 ++ q), p'.
    unfold or_else. rewrite E1, E, app_assoc, app_length.
    split; [reflexivity|]. split; [reflexivity|]. split; [now apply Forall_app|]. split; [lia|].
    split; [exact K|]. now split.
  Qed.
  Lemma leads_more k k' f p l : (k <= k')%nat -> Leads k f p l -> Leads k' f p l.
  Proof.
    intros Hk (c & l' & q & p' & -> & E & Q & L & K & R & A). exists c, l', q, p'.
    split; [reflexivity|]. split; [exact E|]. split; [exact Q|]. split; [lia|]. now split.
  Qed.

  Section Data.
    Variable p : pdata.
    Hypothesis Ho : pd_option p = Some o.

    Lemma flag_asked b : flag p b = asked o b.
    Proof. unfold flag. now rewrite Ho. Qed.
    Lemma version_is : version p = o_version o.
    Proof. unfold version. now rewrite Ho. Qed.

    Lemma leads_intro k f q c l p' :
      f p = (q ++ [api_of c], true, p') -> Forall (fun a => quiet a = true) q -> (length q <= k)%nat ->
      keeps c p p' -> 1 <= place c <= 10 -> after (state_of c) p' = l -> Leads k f p (c :: l).
    Proof. intros. now exists c, l, q, p'. Qed.

    Ltac keeping := repeat apply conj; reflexivity.
    Ltac quiets := repeat apply Forall_cons; try apply Forall_nil; reflexivity.
    Ltac sends qs := eapply leads_intro with (q := qs);
      [reflexivity|quiets|cbn; lia|keeping|cbn; lia|reflexivity].
    Ltac fails qs := exists qs; split; [reflexivity|split; [quiets|cbn; lia]].

    Lemma connect_part :
      if asked o STEP_NO_CONNECT then Fails 1 (send_connect pl) p
      else Leads 1 (send_connect pl) p (r_connect p).
    Proof.
      unfold r_connect. pose proof (flag_asked STEP_NO_CONNECT) as F.
      destruct (asked o _); cbn [unless app].
      - exists [macros_for pl "C"%char]. split; [unfold send_connect; now rewrite F|]. split; [quiets|cbn; lia].
      - eapply leads_intro with (q := [macros_for pl "C"%char]);
          [unfold send_connect; now rewrite F|quiets|cbn; lia|keeping|cbn; lia|reflexivity].
    Qed.
    Lemma helo_part :
      if asked o STEP_NO_HELO then Fails 1 (send_helo pl) p else Leads 1 (send_helo pl) p (r_helo p).
    Proof.
      unfold r_helo. pose proof (flag_asked STEP_NO_HELO) as F.
      destruct (asked o _); cbn [unless app].
      - exists [macros_for pl "H"%char]. split; [unfold send_helo; now rewrite F|]. split; [quiets|cbn; lia].
      - eapply leads_intro with (q := [macros_for pl "H"%char]);
          [unfold send_helo; now rewrite F|quiets|cbn; lia|keeping|cbn; lia|reflexivity].
    Qed.
    Lemma from_part :
      if asked o STEP_NO_ENVELOPE_FROM then Fails 2 (send_from pl) p else Leads 2 (send_from pl) p (r_from p).
    Proof.
      unfold r_from. pose proof (flag_asked STEP_NO_ENVELOPE_FROM) as F.
      destruct (asked o _); cbn [unless app].
      - exists [AReset; macros_for pl "M"%char]. split; [unfold send_from; now rewrite F|]. split; [quiets|cbn; lia].
      - eapply leads_intro with (q := [AReset; macros_for pl "M"%char]);
          [unfold send_from; now rewrite F|quiets|cbn; lia|keeping|cbn; lia|reflexivity].
    Qed.
    Lemma rcpt_part :
      match unless (asked o STEP_NO_ENVELOPE_RECIPIENT) (pd_recipients p) with
      | [] => Fails 2 (send_rcpt pl) p
      | _ :: _ => Leads 2 (send_rcpt pl) p (r_rcpt p)
      end.
    Proof.
      unfold r_rcpt. pose proof (flag_asked STEP_NO_ENVELOPE_RECIPIENT) as F.
      destruct (asked o _) eqn:A; cbn [unless app].
      - unfold Fails, send_rcpt. rewrite F. destruct (pd_recipients p) as [|r rs].
        + exists []. split; [reflexivity|]. split; [quiets|cbn; lia].
        + eexists. split; [reflexivity|]. split; [quiets|cbn; lia].
      - destruct (pd_recipients p) as [|r rs] eqn:E.
        + exists []. split; [unfold send_rcpt; now rewrite E|]. split; [quiets|cbn; lia].
        + cbn [map app].
          eapply leads_intro with (q := [macros_for pl "R"%char;
                       AMacro (OSetMany "R"%char [(lit "{rcpt_addr}", Some r)])]);
          [unfold send_rcpt; rewrite E, F; reflexivity|quiets|cbn; lia|keeping|cbn; lia|].
          cbn [after state_of]. unfold r_rcpt. rewrite A. reflexivity.
    Qed.
    Lemma unknown_part :
      match unless (asked o STEP_NO_UNKNOWN || (o_version o <? 3))
                   (match pl_unknown pl with Some c => [CUnknown c] | None => [] end) with
      | [] => Fails 0 (send_unknown pl) p
      | _ :: _ => Leads 0 (send_unknown pl) p (r_unknown p)
      end.
    Proof.
      unfold r_unknown. pose proof (flag_asked STEP_NO_UNKNOWN) as F. pose proof version_is as V.
      destruct (asked o _) eqn:A; cbn [unless orb app].
      - exists []. split; [unfold send_unknown; now rewrite F|]. split; [quiets|cbn; lia].
      - destruct (o_version o <? 3) eqn:E3; cbn [unless app].
        + exists []. split; [unfold send_unknown; rewrite F, V, E3; now destruct (pl_unknown pl)|]. split; [quiets|cbn; lia].
        + destruct (pl_unknown pl) as [u|] eqn:U; cbn [app].
          * eapply leads_intro with (q := []);
              [unfold send_unknown; rewrite F, V, E3, U; reflexivity|quiets|cbn; lia|keeping|cbn; lia|reflexivity].
          * exists []. split; [unfold send_unknown; rewrite F, U; reflexivity|]. split; [quiets|cbn; lia].
    Qed.
    Lemma data_part :
      if asked o STEP_NO_DATA || (o_version o <? 4) then Fails 1 (send_data pl) p
      else Leads 1 (send_data pl) p (r_data p).
    Proof.
      unfold r_data. pose proof (flag_asked STEP_NO_DATA) as F. pose proof version_is as V.
      destruct (asked o _) eqn:A; cbn [unless orb app].
      - exists [macros_for pl "T"%char]. split; [unfold send_data; now rewrite F|]. split; [quiets|cbn; lia].
      - destruct (o_version o <? 4) eqn:E3; cbn [unless app].
        + exists [macros_for pl "T"%char]. split; [unfold send_data; now rewrite F, V, E3|]. split; [quiets|cbn; lia].
        + eapply leads_intro with (q := [macros_for pl "T"%char]);
            [unfold send_data; rewrite F, V, E3; reflexivity|quiets|cbn; lia|keeping|cbn; lia|reflexivity].
    Qed.
    Lemma header_part :
      match unless (asked o STEP_NO_HEADERS) (pd_headers p) with
      | [] => Fails 0 send_header p
      | _ :: _ => Leads 0 send_header p (r_header p)
      end.
    Proof.
      unfold r_header. pose proof (flag_asked STEP_NO_HEADERS) as F.
      destruct (asked o _) eqn:A; cbn [unless app].
      - exists []. split; [unfold send_header; now rewrite F|]. split; [quiets|cbn; lia].
      - destruct (pd_headers p) as [|h hs] eqn:E.
        + exists []. split; [unfold send_header; now rewrite F, E|]. split; [quiets|cbn; lia].
        + cbn [map app].
          eapply leads_intro with (q := []);
          [unfold send_header; rewrite E, F; reflexivity|quiets|cbn; lia|keeping|cbn; lia|].
          cbn [after state_of]. unfold r_header. rewrite A. reflexivity.
    Qed.
    Lemma eoh_part :
      if asked o STEP_NO_END_OF_HEADER then Fails 1 (send_eoh pl) p else Leads 1 (send_eoh pl) p (r_eoh p).
    Proof.
      unfold r_eoh. pose proof (flag_asked STEP_NO_END_OF_HEADER) as F.
      destruct (asked o _); cbn [unless app].
      - exists [macros_for pl "N"%char]. split; [unfold send_eoh; now rewrite F|]. split; [quiets|cbn; lia].
      - eapply leads_intro with (q := [macros_for pl "N"%char]);
          [unfold send_eoh; now rewrite F|quiets|cbn; lia|keeping|cbn; lia|reflexivity].
    Qed.
    Lemma body_part :
      match unless (asked o STEP_NO_BODY) (pd_chunks p) with
      | [] => Fails 0 send_body p
      | _ :: _ => Leads 0 send_body p (r_body p)
      end.
    Proof.
      unfold r_body. pose proof (flag_asked STEP_NO_BODY) as F.
      destruct (asked o _) eqn:A; cbn [unless app].
      - exists []. split; [unfold send_body; now rewrite F|]. split; [quiets|cbn; lia].
      - destruct (pd_chunks p) as [|h hs] eqn:E.
        + exists []. split; [unfold send_body; now rewrite F, E|]. split; [quiets|cbn; lia].
        + cbn [map app].
          eapply leads_intro with (q := []);
          [unfold send_body; rewrite E, F; reflexivity|quiets|cbn; lia|keeping|cbn; lia|].
          cbn [after state_of]. unfold r_body. rewrite A. reflexivity.
    Qed.
    Lemma eom_part : Leads 1 (send_eom pl) p [CEndOfMessage None].
    Proof.
      eapply leads_intro with (q := [macros_for pl "E"%char]);
        [reflexivity|quiets|cbn; lia|keeping|cbn; lia|reflexivity].
    Qed.

    (** cb_continue sends the next command. *)
    Lemma continue_body_leads : Leads 1 (continue_body pl) p (r_body p).
    Proof.
      pose proof body_part as B. unfold continue_body. change 1%nat with (0 + 1)%nat.
      destruct (unless _ _) as [|c cs] eqn:E.
      - apply or_fails; [exact B|]. replace (r_body p) with [CEndOfMessage None]; [apply eom_part|].
        unfold r_body. unfold unless in *. now destruct (asked o _); [|rewrite E].
      - now apply or_leads.
    Qed.
    Lemma continue_eoh_leads : Leads 1 (continue_eoh pl) p (r_body p).
    Proof.
      pose proof body_part as B. unfold continue_eoh. change 1%nat with (0 + 1)%nat.
      destruct (unless _ _) as [|c cs] eqn:E.
      - apply or_fails; [exact B|]. apply continue_body_leads.
      - now apply or_leads.
    Qed.
    Lemma eoh_else k f : Leads k f p (r_body p) -> Leads (1 + k) (or_else (send_eoh pl) f) p (r_eoh p).
    Proof.
      intros H. pose proof eoh_part as B. destruct (asked o STEP_NO_END_OF_HEADER) eqn:E.
      - apply or_fails; [exact B|]. unfold r_eoh. now rewrite E.
      - now apply or_leads.
    Qed.
    Lemma header_else k f :
      (unless (asked o STEP_NO_HEADERS) (pd_headers p) = [] -> Leads k f p (r_header p)) ->
      Leads k (or_else send_header f) p (r_header p).
    Proof.
      intros H. pose proof header_part as B. change k with (0 + k)%nat.
      destruct (unless _ _) as [|h hs] eqn:E.
      - apply or_fails; [exact B|now apply H].
      - now apply or_leads.
    Qed.
    Lemma no_headers : unless (asked o STEP_NO_HEADERS) (pd_headers p) = [] -> r_header p = r_eoh p.
    Proof. unfold r_header, unless. destruct (asked o _); [reflexivity|]. now intros ->. Qed.
    Lemma continue_header_leads : Leads 2 (continue_header pl) p (r_header p).
    Proof.
      apply header_else. intros E. rewrite (no_headers E). now apply (eoh_else 1), continue_eoh_leads.
    Qed.
    Lemma continue_data_leads : Leads 2 (continue_data pl) p (r_header p).
    Proof. apply header_else. intros _. apply continue_header_leads. Qed.
    Lemma data_else k f :
      (asked o STEP_NO_DATA || (o_version o <? 4) = true -> Leads k f p (r_header p)) ->
      Leads (1 + k) (or_else (send_data pl) f) p (r_data p).
    Proof.
      intros H. pose proof data_part as B.
      destruct (asked o STEP_NO_DATA || (o_version o <? 4)) eqn:E.
      - apply or_fails; [exact B|]. unfold r_data. rewrite E. now apply H.
      - now apply or_leads.
    Qed.
    Lemma continue_unknown_leads : Leads 3 (continue_unknown pl) p (r_data p).
    Proof. apply (data_else 2). intros _. apply continue_data_leads. Qed.
    Lemma unknown_else k f :
      (unless (asked o STEP_NO_UNKNOWN || (o_version o <? 3))
              (match pl_unknown pl with Some c => [CUnknown c] | None => [] end) = [] ->
       Leads k f p (r_data p)) ->
      Leads k (or_else (send_unknown pl) f) p (r_unknown p).
    Proof.
      intros H. pose proof unknown_part as B. change k with (0 + k)%nat. unfold r_unknown in *.
      destruct (unless _ (match pl_unknown pl with _ => _ end)) as [|c cs].
      - apply or_fails; [exact B|]. now apply H.
      - now apply or_leads.
    Qed.
    Lemma rcpt_else k f :
      (unless (asked o STEP_NO_ENVELOPE_RECIPIENT) (pd_recipients p) = [] -> Leads k f p (r_rcpt p)) ->
      Leads (2 + k) (or_else (send_rcpt pl) f) p (r_rcpt p).
    Proof.
      intros H. pose proof rcpt_part as B.
      destruct (unless _ _) as [|h hs] eqn:E.
      - apply or_fails; [exact B|now apply H].
      - now apply or_leads.
    Qed.
    Lemma no_recipients :
      unless (asked o STEP_NO_ENVELOPE_RECIPIENT) (pd_recipients p) = [] -> r_rcpt p = r_unknown p.
    Proof. unfold r_rcpt, unless. destruct (asked o _); [reflexivity|]. now intros ->. Qed.
    Lemma continue_rcpt_leads : Leads 5 (continue_rcpt pl) p (r_rcpt p).
    Proof.
      apply (rcpt_else 3). intros E. rewrite (no_recipients E). apply unknown_else. intros _.
      apply continue_unknown_leads.
    Qed.
    Lemma continue_from_leads : Leads 7 (continue_from pl) p (r_rcpt p).
    Proof. apply (rcpt_else 5). intros _. apply continue_rcpt_leads. Qed.
    Lemma from_else k f : (asked o STEP_NO_ENVELOPE_FROM = true -> Leads k f p (r_rcpt p)) -> Leads (2 + k) (or_else (send_from pl) f) p (r_from p).
    Proof.
      intros H. pose proof from_part as B. destruct (asked o STEP_NO_ENVELOPE_FROM) eqn:E.
      - apply or_fails; [exact B|]. unfold r_from. rewrite E. now apply H.
      - now apply or_leads.
    Qed.
    Lemma helo_else k f : (asked o STEP_NO_HELO = true -> Leads k f p (r_from p)) -> Leads (1 + k) (or_else (send_helo pl) f) p (r_helo p).
    Proof.
      intros H. pose proof helo_part as B. destruct (asked o STEP_NO_HELO) eqn:E.
      - apply or_fails; [exact B|]. unfold r_helo. rewrite E. now apply H.
      - now apply or_leads.
    Qed.
    Lemma connect_else k f : Leads k f p (r_helo p) -> Leads (1 + k) (or_else (send_connect pl) f) p (r_connect p).
    Proof.
      intros H. pose proof connect_part as B. destruct (asked o STEP_NO_CONNECT) eqn:E.
      - apply or_fails; [exact B|]. unfold r_connect. now rewrite E.
      - now apply or_leads.
    Qed.
    Lemma continue_helo_leads : Leads 9 (continue_helo pl) p (r_from p).
    Proof. apply (from_else 7). intros _. apply continue_from_leads. Qed.
    Lemma continue_connect_leads : Leads 10 (continue_connect pl) p (r_helo p).
    Proof. apply (helo_else 9). intros _. apply continue_helo_leads. Qed.
    Lemma continue_negotiate_leads : Leads 11 (continue_negotiate pl) p (r_connect p).
    Proof. apply (connect_else 10), continue_connect_leads. Qed.

    Lemma continue_leads x : after x p <> [] -> Leads 11 (on_continue pl x) p (after x p).
    Proof.
      intros H. destruct x; cbn [after on_continue] in *; try (now elim H);
      (eapply leads_more;
       [|first [apply continue_negotiate_leads | apply continue_connect_leads | apply continue_helo_leads
               | apply continue_from_leads | apply continue_rcpt_leads | apply continue_unknown_leads
               | apply continue_data_leads | apply continue_header_leads | apply continue_eoh_leads
               | apply continue_body_leads]]; lia).
    Qed.

    (** cb_state_transited sends the next command if the places left out are silent. *)
    Lemma only_leads k b f l : b p = true -> Leads k f p l -> Leads k (only_if b f) p l.
    Proof.
      intros Hb (c & l' & q & p' & -> & E & R). exists c, l', q, p'. split; [reflexivity|].
      split; [|exact R]. unfold only_if. now rewrite Hb.
    Qed.

    Definition bridged (k : N) (l : list command) : Prop :=
      forall d b, l = d :: b -> forall j, k < j < place d ->
      silent_place o j = true \/ (j = 5 /\ place d = 6).

    Lemma silent_flag k bit :
      In (k, bit) [(1, STEP_NO_REPLY_CONNECT); (2, STEP_NO_REPLY_HELO); (3, STEP_NO_REPLY_ENVELOPE_FROM);
       (4, STEP_NO_REPLY_ENVELOPE_RECIPIENT); (5, STEP_NO_REPLY_UNKNOWN); (6, STEP_NO_REPLY_DATA);
       (7, STEP_NO_REPLY_HEADER); (8, STEP_NO_REPLY_END_OF_HEADER); (9, STEP_NO_REPLY_BODY)] ->
      flag p bit = silent_place o k.
    Proof.
      intros H. rewrite flag_asked.
      repeat (destruct H as [H|H]; [injection H as <- <-; unfold silent_place; cbn [existsb fst snd];
              now destruct (asked o _)|]). destruct H.
    Qed.
    Ltac flagged H := cbv beta; erewrite silent_flag; [exact H|cbn; tauto].

    Lemma bridge k d b j : bridged k (d :: b) -> k < j -> j < place d -> place d <> 6 -> silent_place o j = true.
    Proof. intros H H1 H2 H3. destruct (H d b eq_refl j (conj H1 H2)) as [E|[_ E]]; [exact E|now elim H3]. Qed.
    Lemma bridged_later k j l : k <= j -> bridged k l -> bridged j l.
    Proof. intros Hk H d b E i Hi. apply (H d b E). lia. Qed.

    Lemma transited_body_leads : silent_place o 9 = true -> Leads 1 (transited_body pl) p (r_body p).
    Proof. intros S. apply only_leads; [flagged S|apply continue_body_leads]. Qed.
    Lemma no_chunks : unless (asked o STEP_NO_BODY) (pd_chunks p) = [] -> r_body p = [CEndOfMessage None].
    Proof. unfold r_body, unless. destruct (asked o _); [reflexivity|]. now intros ->. Qed.
    Lemma transited_eoh_leads :
      silent_place o 8 = true -> bridged 8 (r_body p) -> Leads 1 (transited_eoh pl) p (r_body p).
    Proof.
      intros S B. apply only_leads; [flagged S|].
      pose proof body_part as P. change 1%nat with (0 + 1)%nat.
      destruct (unless _ _) as [|c cs] eqn:E.
      - apply or_fails; [exact P|]. apply transited_body_leads. rewrite (no_chunks E) in B.
        apply (bridge _ _ _ 9 B); cbn; lia.
      - now apply or_leads.
    Qed.
    Lemma body_place : exists d b, r_body p = d :: b /\ 9 <= place d.
    Proof.
      unfold r_body, unless. destruct (asked o _); [eexists _, _; split; [reflexivity|cbn; lia]|].
      destruct (pd_chunks p); (eexists _, _; split; [reflexivity|cbn; lia]).
    Qed.
    Lemma transited_header_leads :
      silent_place o 7 = true -> bridged 7 (r_header p) -> Leads 2 (transited_header pl) p (r_header p).
    Proof.
      intros S B. apply only_leads; [flagged S|]. apply header_else. intros E. rewrite (no_headers E) in *.
      pose proof eoh_part as P. change 2%nat with (1 + 1)%nat.
      destruct (asked o STEP_NO_END_OF_HEADER) eqn:E8; [|now apply or_leads].
      apply or_fails; [exact P|]. unfold r_eoh in *. rewrite E8 in *. cbn [unless app] in *.
      destruct body_place as (d & b & Ed & Hd). apply transited_eoh_leads.
      - rewrite Ed in B. apply (bridge _ _ _ 8 B); lia.
      - eapply bridged_later; [|exact B]. lia.
    Qed.
    Lemma header_place : exists d b, r_header p = d :: b /\ 7 <= place d.
    Proof.
      unfold r_header, r_eoh, unless. destruct body_place as (d & b & E & H).
      destruct (asked o STEP_NO_HEADERS); [|destruct (pd_headers p)];
        try (eexists _, _; split; [reflexivity|cbn; lia]);
        (destruct (asked o STEP_NO_END_OF_HEADER); [|eexists _, _; split; [reflexivity|cbn; lia]];
         exists d, b; split; [exact E|lia]).
    Qed.
    Lemma no_header_place :
      unless (asked o STEP_NO_HEADERS) (pd_headers p) = [] -> exists d b, r_header p = d :: b /\ 8 <= place d.
    Proof.
      intros E0. rewrite (no_headers E0). unfold r_eoh. destruct body_place as (d & b & E & H).
      destruct (asked o STEP_NO_END_OF_HEADER); [|eexists _, _; split; [reflexivity|cbn; lia]].
      exists d, b. split; [exact E|lia].
    Qed.
    Lemma transited_data_leads :
      silent_place o 6 = true -> bridged 6 (r_header p) -> Leads 2 (transited_data pl) p (r_header p).
    Proof.
      intros S B. apply only_leads; [flagged S|]. apply header_else. intros E.
      destruct (no_header_place E) as (d & b & Ed & Hd). apply transited_header_leads.
      - rewrite Ed in B. apply (bridge _ _ _ 7 B); lia.
      - eapply bridged_later; [|exact B]. lia.
    Qed.
    Lemma transited_unknown_leads :
      silent_place o 5 = true -> bridged 5 (r_data p) -> Leads 3 (transited_unknown pl) p (r_data p).
    Proof.
      intros S B. apply only_leads; [flagged S|]. apply (data_else 2). intros E.
      unfold r_data in B. rewrite E in B. cbn [unless app] in B.
      destruct header_place as (d & b & Ed & Hd). apply transited_data_leads.
      - rewrite Ed in B. apply (bridge _ _ _ 6 B); lia.
      - eapply bridged_later; [|exact B]. lia.
    Qed.
    Lemma data_place : exists d b, r_data p = d :: b /\ 6 <= place d.
    Proof.
      unfold r_data, unless. destruct header_place as (d & b & E & H).
      destruct (_ || _); [|eexists _, _; split; [reflexivity|cbn; lia]]. exists d, b. split; [exact E|lia].
    Qed.
    Lemma unknown_place : exists d b, r_unknown p = d :: b /\ 5 <= place d.
    Proof.
      unfold r_unknown, unless. destruct data_place as (d & b & E & H).
      destruct (_ || _); [exists d, b; split; [exact E|lia]|].
      destruct (pl_unknown pl); [eexists _, _; split; [reflexivity|cbn; lia]|].
      exists d, b. split; [exact E|lia].
    Qed.
    Lemma transited_rcpt_leads :
      silent_place o 4 = true -> bridged 4 (r_rcpt p) -> Leads 6 (transited_rcpt pl) p (r_rcpt p).
    Proof.
      intros S B. apply only_leads; [flagged S|]. apply (rcpt_else 4). intros E.
      rewrite (no_recipients E) in *. apply unknown_else. intros Eu.
      unfold r_unknown in B. rewrite Eu in B. cbn [app] in B. apply (data_else 3). intros Ed.
      assert (Er : r_data p = r_header p) by (unfold r_data; now rewrite Ed).
      rewrite <- Er. destruct header_place as (d & b & Eh & Hd). apply transited_unknown_leads.
      - rewrite Er, Eh in B. apply (bridge _ _ _ 5 B); lia.
      - eapply bridged_later; [|exact B]. lia.
    Qed.
    Lemma transited_from_leads :
      silent_place o 3 = true -> bridged 3 (r_rcpt p) -> Leads 8 (transited_from pl) p (r_rcpt p).
    Proof.
      intros S B. apply only_leads; [flagged S|]. apply (rcpt_else 6). intros E.
      destruct unknown_place as (d & b & Ed & Hd). apply transited_rcpt_leads.
      - rewrite (no_recipients E), Ed in B. destruct (B _ _ eq_refl 4) as [H|[H _]]; [lia|exact H|discriminate].
      - eapply bridged_later; [|exact B]. lia.
    Qed.
    Lemma rcpt_place : exists d b, r_rcpt p = d :: b /\ 4 <= place d.
    Proof.
      unfold r_rcpt, unless. destruct unknown_place as (d & b & E & H).
      destruct (asked _ _); [exists d, b; split; [exact E|lia]|].
      destruct (pd_recipients p); [|eexists _, _; split; [reflexivity|cbn; lia]].
      exists d, b. split; [exact E|lia].
    Qed.
    Lemma transited_helo_leads :
      silent_place o 2 = true -> bridged 2 (r_from p) -> Leads 10 (transited_helo pl) p (r_from p).
    Proof.
      intros S B. apply only_leads; [flagged S|]. apply (from_else 8). intros E.
      unfold r_from in B. rewrite E in B. cbn [unless app] in B.
      destruct rcpt_place as (d & b & Ed & Hd). apply transited_from_leads.
      - rewrite Ed in B. destruct (B _ _ eq_refl 3) as [H|[H _]]; [lia|exact H|discriminate].
      - eapply bridged_later; [|exact B]. lia.
    Qed.
    Lemma from_place : exists d b, r_from p = d :: b /\ 3 <= place d.
    Proof.
      unfold r_from, unless. destruct rcpt_place as (d & b & E & H).
      destruct (asked _ _); [|eexists _, _; split; [reflexivity|cbn; lia]]. exists d, b. split; [exact E|lia].
    Qed.
    Lemma transited_connect_leads :
      silent_place o 1 = true -> bridged 1 (r_helo p) -> Leads 11 (transited_connect pl) p (r_helo p).
    Proof.
      intros S B. apply only_leads; [flagged S|]. apply (helo_else 10). intros E.
      unfold r_helo in B. rewrite E in B. cbn [unless app] in B.
      destruct from_place as (d & b & Ed & Hd). apply transited_helo_leads.
      - rewrite Ed in B. destruct (B _ _ eq_refl 2) as [H|[H _]]; [lia|exact H|discriminate].
      - eapply bridged_later; [|exact B]. lia.
    Qed.

    Lemma transited_leads c :
      silent o c = true -> bridged (place c) (after (state_of c) p) ->
      Leads 11 (on_transited pl (state_of c)) p (after (state_of c) p).
    Proof.
      unfold silent. intros S B.
      destruct c; cbn [place state_of after on_transited] in *;
        try (unfold silent_place in S; cbn in S; discriminate);
      (eapply leads_more;
       [|first [now apply transited_connect_leads | now apply transited_helo_leads
               | now apply transited_from_leads | now apply transited_rcpt_leads
               | now apply transited_unknown_leads | now apply transited_data_leads
               | now apply transited_header_leads | now apply transited_eoh_leads
               | now apply transited_body_leads]]; lia).
    Qed.
    (** With an answer to come it sends nothing. *)
    Lemma transited_waits c : silent o c = false -> on_transited pl (state_of c) p = ([], false, p).
    Proof.
      unfold silent. intros S.
      destruct c; cbn [place state_of on_transited] in *; try reflexivity;
        unfold transited_connect, transited_helo, transited_from, transited_rcpt, transited_unknown,
               transited_data, transited_header, transited_eoh, transited_body, only_if;
        (erewrite silent_flag; [rewrite S; reflexivity|cbn; tauto]).
    Qed.
  End Data.
End Plan.
