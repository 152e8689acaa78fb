(** C85: the report of milter-test-server shows what the filter made of the message. *)
From Verif.Base Require Import Bytes BytesFacts.
From Verif.Model Require Import Headers ReplyCode ReplyCodec TestMessage TestReport.
From Verif.Spec Require Import HeaderSpec MailSpec ReportSpec.
From Verif.Proofs Require Import HeaderProofs MailProofs ReportProofs.
From Coq Require Import ZifyBool ZifyNat ZifyN.
Local Open Scope N_scope.

(** The message sent. *)
Definition sent (m : TestMessage.message) : letter :=
  mk_letter (msg_from m) (msg_recipients m) (msg_headers m) (concat (msg_chunks m)).

Definition no_lf (s : bytes) : Prop := ~ In lf s.
(** Names of headers are on one line, positions have 32 bits. *)
Definition plain_request (r : reply) : Prop :=
  match r with
  | RAddHeader n _ | RChangeHeader n _ _ => no_lf n
  | RInsertHeader i n _ => no_lf n /\ i < 4294967296
  | _ => True
  end.

(** The character set is not given. *)
Definition no_charset (hs : list header) : Prop :=
  forall h v a b, In h hs -> h_name h = lit "Content-Type" -> h_value h = Some v ->
                  v <> a ++ lit "charset=" ++ b.

Lemma mail_tells m : tells (mail_new m) (false, sent m).
Proof. now repeat split. Qed.

(** Whatever the filter asked for: without the lines marked as new the report is the message as it
    was sent, without those marked as gone it is the message the requests lead to, and the body is
    the one they lead to. *)
Theorem C85_report convert color m requests lines text :
  Forall (fun h => no_lf (h_name h)) (msg_headers m) -> Forall plain_request requests ->
  (Z.of_nat (length (msg_headers m) + length requests) < 2147483648)%Z ->
  print_message convert color (fold_left edit requests (mail_new m)) = Done (lines, text) ->
  exists replaced result envelope headers,
    all_requested requests (false, sent m) (replaced, result) /\
    lines = lit "Envelope:------------------------------" :: map (report_line color) envelope ++
            lit "Header:--------------------------------" :: map (report_line color) headers ++
            [lit "Body:----------------------------------"] /\
    before envelope = envelope_text (msg_from m) (msg_recipients m) /\
    after envelope = envelope_text (lt_from result) (lt_recipients result) /\
    header_texts (msg_headers m) (before headers) /\
    header_texts (lt_headers result) (after headers) /\
    (no_charset (lt_headers result) -> no_nul (lt_body result) ->
     (replaced = true -> lt_body result <> []) -> text = lt_body result).
Proof.
  intros Hn Hr Hl H. set (l := fold_left edit requests (mail_new m)) in *.
  destruct (edits_requested requests (mail_new m) (false, sent m) (mail_tells m)) as ([b y] & Hy & Ht).
  { eapply Forall_impl; [|exact Hr]. intros r. destruct r; cbn; tauto. }
  { exact Hl. }
  fold l in Ht. destruct Ht as (T1 & T2 & T3 & T4). cbn [fst snd] in *.
  destruct (edits_keep requests (mail_new m)) as (K1 & K2 & K3 & K4). fold l in K1, K2, K3, K4.
  cbn [mail_new ml_original_from ml_original_recipients ml_original_headers ml_body] in K1, K2, K3, K4.
  assert (Hnames : Forall (fun h => no_lf (h_name h)) (ml_headers l)).
  { unfold l. clear -Hn Hr. assert (E : Forall (fun h => no_lf (h_name h)) (ml_headers (mail_new m))) by exact Hn.
    revert E. generalize (mail_new m). induction Hr as [|r rs Hr _ IH]; intros l E; cbn [fold_left]; [exact E|].
    apply IH. apply (edit_headers (fun n _ => no_lf n)); [exact E|]. destruct r; cbn in Hr |- *; tauto. }
  unfold print_message in H.
  destruct (print_headers color _) as [hl| |] eqn:Eh; try discriminate. cbn [bind] in H.
  destruct (print_body convert l) as [bt| |] eqn:Eb; try discriminate. injection H as <- <-.
  destruct (print_headers_text color (diff_headers (ml_original_headers l) (ml_headers l)) hl)
    as (texts & -> & HB & HA); [|exact Eh|].
  { apply Forall_forall. intros [mk h] Hin. cbn [snd].
    destruct (headers_sides (ml_original_headers l) (ml_headers l)) as [S1 S2].
    rewrite Forall_forall in Hn, Hnames. destruct mk.
    - apply Hnames. rewrite <- S2. unfold after, report. apply in_map_iff. exists (Same, h). split; [reflexivity|].
      apply filter_In. split; [|reflexivity]. apply in_map_iff. now exists (Kept, h).
    - apply Hn. rewrite <- K3, <- S1. unfold before, report. apply in_map_iff. exists (Gone, h). split; [reflexivity|].
      apply filter_In. split; [|reflexivity]. apply in_map_iff. now exists (Removed, h).
    - apply Hnames. rewrite <- S2. unfold after, report. apply in_map_iff. exists (New, h). split; [reflexivity|].
      apply filter_In. split; [|reflexivity]. apply in_map_iff. now exists (Added, h). }
  destruct (headers_sides (ml_original_headers l) (ml_headers l)) as [S1 S2]. rewrite S1, S2, K3 in *.
  exists b, y,
    (report (map (fun x => (fst x, lit "MAIL FROM:" ++ snd x)) (diff_from (ml_original_from l) (ml_from l)) ++
             map (fun x => (fst x, lit "RCPT TO:" ++ snd x))
                 (diff_recipients (ml_original_recipients l) (ml_recipients l)))),
    (report texts).
  assert (Hmap : forall p (items : list (mark * bytes)),
            before (report (map (fun x => (fst x, p ++ snd x)) items)) = map (fun s => p ++ s) (before (report items)) /\
            after (report (map (fun x => (fst x, p ++ snd x)) items)) = map (fun s => p ++ s) (after (report items))).
  { intros p. induction items as [|[mk s] items [I1 I2]]; [now split|].
    unfold before, after, report in *. cbn [map fst snd filter]. destruct mk; cbn [change_of map snd]; now rewrite ?I1, ?I2. }
  split; [exact Hy|]. split; [|split; [|split; [|split; [exact HB|split]]]].
  - f_equal. rewrite report_app, map_app, <- app_assoc. unfold report. rewrite !map_map. f_equal.
    { apply map_ext. intros [mk s]. cbn [fst snd]. rewrite marked_line. reflexivity. }
    f_equal. apply map_ext. intros [mk s]. cbn [fst snd]. rewrite marked_line. reflexivity.
  - rewrite report_app, before_app. rewrite !(proj1 (Hmap _ _)), (proj1 (from_sides _ _)), (proj1 (recipients_sides _ _)).
    rewrite K1, K2. reflexivity.
  - rewrite report_app, after_app. rewrite !(proj2 (Hmap _ _)), (proj2 (from_sides _ _)), (proj2 (recipients_sides _ _)).
    rewrite T1, T2. reflexivity.
  - rewrite T3. exact HA.
  - intros Hc Hnul Hb. unfold print_body in Eb. rewrite T3 in Hc.
    assert (Ebody : match ml_replaced l with [] => ml_body l | _ :: _ => ml_replaced l end = lt_body y).
    { destruct b.
      - destruct (ml_replaced l); [now elim (Hb eq_refl)|congruence].
      - destruct T4 as [-> ->]. reflexivity. }
    rewrite Ebody in Eb.
    destruct (headers_lookup (ml_headers l) (lit "Content-Type")) as [h|] eqn:El.
    + destruct (h_value h) as [v|] eqn:Ev; [|discriminate]. cbn [bind] in Eb.
      apply headers_lookup_spec in El as (a1 & a2 & E & Hname & _).
      unfold get_charset in Eb. rewrite after_text_none in Eb; [|discriminate|].
      2:{ intros a c. eapply Hc; [|exact Hname|exact Ev]. rewrite E. apply in_or_app. right. now left. }
      injection Eb as <-. now apply c_string_id.
    + cbn [bind] in Eb. injection Eb as <-. now apply c_string_id.
Qed.
Print Assumptions C85_report.

Lemma print_headers_marks color P : forall items lines,
  Forall (fun x => P (change_of (fst x))) items -> print_headers color items = Done lines ->
  exists texts, lines = map (report_line color) texts /\ Forall (fun x => P (fst x)) texts.
Proof.
  induction items as [|[m h] items IH]; intros lines Hp H; cbn [print_headers] in H.
  - injection H as <-. exists []. split; [reflexivity|constructor].
  - destruct (header_lines h) as [ls| |]; try discriminate. cbn [bind] in H.
    destruct (print_headers color items) as [more| |]; try discriminate. injection H as <-.
    inversion Hp as [|? ? Hm Hp']; subst. destruct (IH more Hp' eq_refl) as (texts & -> & Ht).
    exists (map (pair (change_of m)) ls ++ texts). split.
    + rewrite map_app, map_map. f_equal. apply map_ext. intros s. apply marked_line.
    + apply Forall_app. split; [|exact Ht]. apply Forall_forall. intros x Hx.
      apply in_map_iff in Hx as (s & <- & _). exact Hm.
Qed.

(** No needless changes: where the filter left the headers alone every line of them is marked as
    kept; where it put new ones in between, nothing is marked as gone; where it took some out,
    nothing is marked as new. *)
Theorem C85_headers convert color l lines text :
  print_message convert color l = Done (lines, text) ->
  exists envelope headers,
    lines = lit "Envelope:------------------------------" :: envelope ++
            lit "Header:--------------------------------" :: map (report_line color) headers ++
            [lit "Body:----------------------------------"] /\
    (ml_headers l = ml_original_headers l -> Forall (fun x => fst x = Same) headers) /\
    (mixed (fun h => ~ In h (ml_original_headers l)) (ml_original_headers l) (ml_headers l) ->
     Forall (fun x => fst x <> Gone) headers) /\
    (mixed (fun h => ~ In h (ml_headers l)) (ml_headers l) (ml_original_headers l) ->
     Forall (fun x => fst x <> New) headers).
Proof.
  intros H. unfold print_message in H.
  destruct (print_headers color _) as [hl| |] eqn:Eh; try discriminate. cbn [bind] in H.
  destruct (print_body convert l) as [bt| |]; try discriminate. injection H as <- <-.
  set (o := ml_original_headers l) in *. set (r := ml_headers l) in *.
  set (P := fun c => (r = o -> c = Same) /\
                     (mixed (fun h => ~ In h o) o r -> c <> Gone) /\
                     (mixed (fun h => ~ In h r) r o -> c <> New)).
  destruct (print_headers_marks color P (diff_headers o r) hl) as (texts & -> & Ht); [|exact Eh|].
  - pose proof (headers_only_new o r) as N. pose proof (headers_only_gone o r) as G.
    assert (S : r = o -> Forall (fun x => fst x = Kept) (diff_headers o r)).
    { intros ->. clear. induction o as [|h o IH]; [constructor|]. rewrite diff_headers_cons.
      replace (header_eqb h h) with true by (symmetry; now apply header_eqb_spec). now constructor. }
    apply Forall_forall. intros [m h] Hin. cbn [fst]. unfold P. repeat split; intros Hx.
    + specialize (S Hx). rewrite Forall_forall in S. specialize (S _ Hin). cbn in S. now subst m.
    + specialize (N Hx). rewrite Forall_forall in N. specialize (N _ Hin). cbn in N. destruct m; cbn; congruence.
    + specialize (G Hx). rewrite Forall_forall in G. specialize (G _ Hin). cbn in G. destruct m; cbn; congruence.
  - eexists _, texts. split; [rewrite app_assoc; reflexivity|].
    split; [|split]; intros Hx; eapply Forall_impl; try exact Ht; intros x (P1 & P2 & P3); auto.
Qed.
Print Assumptions C85_headers.

(** The name of the character set in a Content-Type value: bare or in quotes, where the first
    "charset=" is. *)
Inductive charset_is : bytes -> bytes -> Prop :=
| BareCharset a name rest :
    ~ In ";"%char name -> rest = [] \/ (exists s, rest = ";"%char :: s) ->
    (forall c s, name ++ rest = c :: s -> c <> """"%char /\ c <> "'"%char) ->
    (forall a' b', a ++ lit "charset=" ++ name ++ rest = a' ++ lit "charset=" ++ b' ->
                   (length a <= length a')%nat) ->
    charset_is (a ++ lit "charset=" ++ name ++ rest) name
| QuotedCharset a q name rest :
    q = """"%char \/ q = "'"%char -> ~ In q name ->
    (forall a' b', a ++ lit "charset=" ++ q :: name ++ q :: rest = a' ++ lit "charset=" ++ b' ->
                   (length a <= length a')%nat) ->
    charset_is (a ++ lit "charset=" ++ q :: name ++ q :: rest) name.

(** With a character set in the first Content-Type header the body is converted from it; when that
    fails the body is shown as it is, behind the message of the error. *)
Theorem C85_charset convert color l lines text value name :
  print_message convert color l = Done (lines, text) ->
  (exists a b, ml_headers l = a ++ mk_header (lit "Content-Type") (Some value) :: b /\
               ~ In (lit "Content-Type") (names a)) ->
  charset_is value name ->
  let body := match ml_replaced l with [] => ml_body l | _ :: _ => ml_replaced l end in
  (forall translated, convert name body = (Some translated, None) -> no_nul translated -> text = translated) /\
  (forall e, convert name body = (None, Some e) -> no_nul body ->
     text = lit "Error:---------------------------------" ++ [lf] ++ e ++ [lf] ++
            lit "---------------------------------------" ++ [lf] ++ body).
Proof.
  intros H Hh Hc body. unfold print_message in H.
  destruct (print_headers color _) as [hl| |]; try discriminate. cbn [bind] in H.
  destruct (print_body convert l) as [bt| |] eqn:Eb; try discriminate. injection H as <- <-.
  unfold print_body in Eb.
  assert (El : headers_lookup (ml_headers l) (lit "Content-Type")
               = Some (mk_header (lit "Content-Type") (Some value))).
  { apply headers_lookup_spec. destruct Hh as (a & b & H1 & H2). exists a, b. auto. }
  rewrite El in Eb. cbn [h_value bind] in Eb.
  assert (Ec : get_charset value = Some name).
  { unfold get_charset. destruct Hc as [a name rest Hs Hr Hq Hfirst|a q name rest Hq Hn Hfirst];
      rewrite after_text_some by exact Hfirst.
    - assert (Ecut : match cut ";" (name ++ rest) with Some (n, _) => Some n | None => Some (name ++ rest) end = Some name).
      { destruct Hr as [->|[s ->]].
        - now rewrite app_nil_r, cut_none.
        - now rewrite cut_spec. }
      destruct (name ++ rest) as [|c s] eqn:E.
      + now apply app_eq_nil in E as [-> _].
      + destruct (Hq c s eq_refl) as [N1 N2].
        replace ((code c =? 34) || (code c =? 39)) with false; [exact Ecut|].
        symmetry. apply orb_false_iff. split; apply N.eqb_neq; intros E1.
        * apply N1, code_inj. exact E1.
        * apply N2, code_inj. exact E1.
    - destruct Hq as [-> | ->]; cbn [code]; (replace (_ || _) with true by reflexivity);
        now rewrite cut_spec. }
  rewrite Ec in Eb. fold body in Eb. split.
  - intros translated Hconv Hnul. rewrite Hconv in Eb. injection Eb as <-. now apply c_string_id.
  - intros e Hconv Hnul. rewrite Hconv in Eb. injection Eb as <-. rewrite c_string_id by exact Hnul.
    now rewrite <- ?app_assoc.
Qed.
Print Assumptions C85_charset.

(** The report can be made unless a header was inserted with nothing as its value. *)
Theorem C85_made_partial convert color m requests :
  Forall (fun h => h_value h <> None) (msg_headers m) ->
  Forall (fun r => forall i n, r <> RInsertHeader i n None) requests ->
  exists lines text, print_message convert color (fold_left edit requests (mail_new m)) = Done (lines, text).
Proof.
  intros Hm Hr. set (l := fold_left edit requests (mail_new m)) in *.
  assert (Hv : Forall (fun h => h_value h <> None) (ml_headers l)).
  { unfold l. assert (E : Forall (fun h => h_value h <> None) (ml_headers (mail_new m))) by exact Hm.
    revert E. generalize (mail_new m). clear -Hr. induction Hr as [|r rs Hr _ IH]; intros l E; cbn [fold_left]; [exact E|].
    apply IH. apply (edit_headers (fun _ v => v <> None)); [exact E|]. destruct r; try discriminate; try exact I.
    intros ->. now apply (Hr index name). }
  destruct (edits_keep requests (mail_new m)) as (_ & _ & K3 & _). fold l in K3. cbn in K3.
  unfold print_message. destruct (print_headers_done color (diff_headers (ml_original_headers l) (ml_headers l)))
    as [lines ->].
  - apply Forall_forall. intros [mk h] Hin. cbn [snd].
    destruct (headers_sides (ml_original_headers l) (ml_headers l)) as [S1 S2].
    rewrite Forall_forall in Hm, Hv. destruct mk.
    + apply Hv. rewrite <- S2. unfold after, report. apply in_map_iff. exists (Same, h). split; [reflexivity|].
      apply filter_In. split; [|reflexivity]. apply in_map_iff. now exists (Kept, h).
    + apply Hm. rewrite <- K3, <- S1. unfold before, report. apply in_map_iff. exists (Gone, h). split; [reflexivity|].
      apply filter_In. split; [|reflexivity]. apply in_map_iff. now exists (Removed, h).
    + apply Hv. rewrite <- S2. unfold after, report. apply in_map_iff. exists (New, h). split; [reflexivity|].
      apply filter_In. split; [|reflexivity]. apply in_map_iff. now exists (Added, h).
  - cbn [bind]. unfold print_body. destruct (headers_lookup _ _) as [h|] eqn:El; cbn [bind].
    + apply headers_lookup_spec in El as (a & b & E & _ & _). rewrite E in Hv. apply Forall_app in Hv as [_ Hv].
      apply Forall_inv in Hv. destruct (h_value h) as [v|]; [|congruence]. cbn [bind].
      destruct (get_charset v) as [cs|]; [destruct (convert cs _)|]; cbn [bind]; eexists _, _; reflexivity.
    + eexists _, _; reflexivity.
Qed.
Print Assumptions C85_made_partial.

Definition hdr (n v : string) : header := mk_header (lit n) (Some (lit v)).
Definition the_mail : TestMessage.message :=
  mk_message (lit "<a@x>") [lit "<b@y>"; lit "<c@y>"] [hdr "From" "a@x"; hdr "X" "1"; hdr "To" "b@y"] [lit "hello"].
Definition asked : list reply :=
  [RDeleteHeader (lit "X") 1; RAddHeader (lit "Y") (lit "2" ++ [lf] ++ lit " 3"); RChangeFrom (lit "z@x") None;
   RAddRecipient (lit "d@y") None; RReplaceBody (lit "by"); RReplaceBody (lit "e")].

Example C85_example :
  Forall (fun h => no_lf (h_name h)) (msg_headers the_mail) /\ Forall plain_request asked /\
  print_message (fun _ _ => (None, None)) false (fold_left edit asked (mail_new the_mail))
  = Done ([lit "Envelope:------------------------------"; lit "- MAIL FROM:<a@x>"; lit "+ MAIL FROM:<z@x>";
           lit "  RCPT TO:<b@y>"; lit "  RCPT TO:<c@y>"; lit "+ RCPT TO:<d@y>";
           lit "Header:--------------------------------"; lit "  From: a@x"; lit "- X: 1"; lit "  To: b@y";
           lit "+ Y: 2"; lit "+  3"; lit "Body:----------------------------------"], lit "bye").
Proof.
  split; [|split; [|vm_compute; reflexivity]].
  - repeat apply Forall_cons; try apply Forall_nil; unfold no_lf; cbn; intuition discriminate.
  - repeat apply Forall_cons; try apply Forall_nil; unfold plain_request, no_lf; cbn; intuition discriminate.
Qed.

(** A body replaced by nothing is reported as not replaced. *)
Theorem C85_empty_body_refuted :
  exists lines, print_message (fun _ _ => (None, None)) false (fold_left edit [RReplaceBody []] (mail_new the_mail))
                = Done (lines, lit "hello").
Proof. eexists. vm_compute. reflexivity. Qed.
Print Assumptions C85_empty_body_refuted.

(** A header inserted with an empty value brings the program down. *)
Theorem C85_insert_refuted :
  print_message (fun _ _ => (None, None)) false
    (fold_left edit [RInsertHeader 0 (lit "X") None] (mail_new the_mail)) = Crashed.
Proof. vm_compute. reflexivity. Qed.
Print Assumptions C85_insert_refuted.

(** When the first recipient is deleted every recipient is reported gone, and those that are left
    reported new. *)
Theorem C85_recipients_refuted :
  exists lines text,
    print_message (fun _ _ => (None, None)) false (fold_left edit [RDeleteRecipient (lit "b@y")] (mail_new the_mail))
      = Done (lines, text) /\
    In (lit "- RCPT TO:<c@y>") lines /\ In (lit "+ RCPT TO:<c@y>") lines.
Proof. eexists _, _. split; [vm_compute; reflexivity|]. cbn. tauto. Qed.
Print Assumptions C85_recipients_refuted.
