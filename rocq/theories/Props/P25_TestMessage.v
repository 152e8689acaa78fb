(** C84: milter-test-server sends the mail of a file as it is. *)
From Verif.Base Require Import Bytes BytesFacts.
From Verif.Model Require Import Headers ReplyCode TestMessage.
From Verif.Spec Require Import MailSpec.
From Verif.Proofs Require Import MailProofs MailRun.
From Coq Require Import ZifyBool ZifyNat ZifyN.
Local Open Scope N_scope.

(** What is not in the file is made up. *)
Definition default_from : bytes := lit "<sender@example.com>".
Definition default_recipient : bytes := lit "<receiver@example.org>".

(** The mail of a file, with either kind of line ends and with or without mailbox mark: its header
    fields are the headers, in order and with their values as they are; its body is the
    concatenation of the chunks, each short enough for a packet unless a single line is too long;
    the envelope is taken from the From and To fields.  Only missing fields are added. *)
Theorem C84_mail_file nl mark fields body froms tos :
  line_end nl -> mailbox_mark mark -> Forall field_ok fields -> no_nul body ->
  paths nl (lit "From") fields froms -> paths nl (lit "To") fields tos ->
  exists m, message_of [GMail (mark ++ mail_text nl fields body)] = Done m /\
    msg_headers m =
      map (fun f => mk_header (f_name f) (Some (field_value nl f))) fields ++
      match froms with [] => [mk_header (lit "From") (Some default_from)] | _ => [] end ++
      match tos with [] => [mk_header (lit "To") (Some default_recipient)] | _ => [] end /\
    concat (msg_chunks m) = body /\
    Forall (fun c => N.of_nat (length c) <= 65535 \/
                     exists l, ~ In lf l /\ (c = l \/ c = l ++ [lf])) (msg_chunks m) /\
    msg_from m = last froms default_from /\
    msg_recipients m = match tos with [] => [default_recipient] | _ => tos end.
Proof.
  intros Hnl Hmark Hf Hb Hfrom Hto.
  exists (finish (put_chunks
     (put_headers
        (let o1 := fold_left set_envelope_from froms no_options in
         match tos with [] => o1 | _ :: _ => put_recipients o1 (Some tos) (op_recipient_args o1) end)
        (map (field_header nl) fields)) (Some (body_part [] (split_lines body))) [])).
  split.
  { unfold message_of. cbn [take_args take_arg].
    rewrite (parse_mail_text nl mark fields body froms tos no_options) by assumption. reflexivity. }
  pose proof (paths_lookup _ _ _ _ Hfrom) as Lf. pose proof (paths_lookup _ _ _ _ Hto) as Lt.
  pose proof (paths_bracketed _ _ _ _ Hfrom) as Bf. pose proof (paths_bracketed _ _ _ _ Hto) as Bt.
  assert (Ef : normalize match (match froms with [] => None | _ :: _ => Some (last froms []) end) with
                         | Some f => f | None => lit "sender@example.com" end = last froms default_from).
  { destruct froms as [|p ps]; [reflexivity|]. rewrite normalize_bracketed.
    - clear. revert p. induction ps as [|q ps IH]; intros p; [reflexivity|]. apply (IH q).
    - rewrite Forall_forall in Bf. apply Bf.
      clear. revert p. induction ps as [|q ps IH]; intros p; [now left|]. right. apply (IH q). }
  assert (Et : map normalize (match match tos with [] => None | _ :: _ => Some tos end with
                              | Some l => l | None => [lit "receiver@example.org"] end)
               = match tos with [] => [default_recipient] | _ => tos end).
  { destruct tos as [|q qs]; [reflexivity|]. clear -Bt. induction Bt as [|x l Hx _ IH]; [reflexivity|].
    cbn [map]. now rewrite IH, normalize_bracketed. }
  assert (K : forall o, op_from o = match froms with [] => None | _ :: _ => Some (last froms []) end ->
     op_recipients o = match tos with [] => None | _ :: _ => Some tos end ->
     op_headers o = map (field_header nl) fields -> op_chunks o = Some (body_part [] (split_lines body)) ->
     msg_headers (finish o) =
       map (field_header nl) fields ++
       match froms with [] => [mk_header (lit "From") (Some default_from)] | _ => [] end ++
       match tos with [] => [mk_header (lit "To") (Some default_recipient)] | _ => [] end /\
     concat (msg_chunks (finish o)) = body /\
     Forall chunk_ok (msg_chunks (finish o)) /\
     msg_from (finish o) = last froms default_from /\
     msg_recipients (finish o) = match tos with [] => [default_recipient] | _ => tos end).
  { intros o H1 H2 H3 H4. unfold finish. cbn [msg_headers msg_chunks msg_from msg_recipients].
    rewrite H1, H2, H3, H4, Ef, Et.
    split; [|split; [apply body_text|split; [apply body_part_chunks; [apply split_lines_no_lf|left; cbn; lia]|auto]]].
    unfold headers_append.
    destruct (headers_lookup (map (field_header nl) fields) (lit "From")) eqn:E1;
      [destruct froms as [|p ps]; [congruence|]|subst froms]; cbn [last app].
    - destruct (headers_lookup (map (field_header nl) fields) (lit "To")) eqn:E2;
        [destruct tos as [|q qs]; [congruence|now rewrite app_nil_r]|subst tos]. reflexivity.
    - rewrite lookup_app.
      destruct (headers_lookup (map (field_header nl) fields) (lit "To")) eqn:E2;
        [destruct tos as [|q qs]; [congruence|reflexivity]|subst tos].
      cbn [headers_lookup h_name]. change (bytes_eqb (lit "From") (lit "To")) with false. cbn iota.
      now rewrite <- app_assoc. }
  apply K; rewrite ?set_from_owner by reflexivity; destruct tos; destruct froms; reflexivity.
Qed.
Print Assumptions C84_mail_file.

Lemma split_cons t l ls :
  split_lines t = l :: ls ->
  (ls = [] /\ t = l) \/ exists t', t = l ++ LF :: t' /\ split_lines t' = ls.
Proof.
  revert l ls. induction t as [|c t IH]; intros l ls E; cbn in E.
  - injection E as <- <-. now left.
  - destruct (beqb c LF) eqn:Ec.
    + apply Ascii.eqb_eq in Ec as ->. injection E as <- <-. right. now exists t.
    + destruct (split_lines t) as [|l' ls'] eqn:Et.
      * pose proof (unsplit_split t) as H. rewrite Et in H. destruct t; discriminate.
      * injection E as <- <-. destruct (IH l' ls' eq_refl) as [[-> ->]|(t' & -> & E)].
        -- now left.
        -- right. now exists t'.
Qed.
(** A mail file never brings the program down, except one whose first line (after the mark)
    starts with white space and is not empty: there is no field it could continue. *)
Theorem C84_crash_partial o contents :
  take_arg o (GMail contents) = Crashed ->
  exists mark c s, mailbox_mark mark /\ c_string contents = mark ++ c :: s /\
    ascii_space c = true /\ c <> lf /\ (c = cr -> exists d r, s = d :: r /\ d <> lf).
Proof.
  cbn [take_arg]. unfold parse_mail. set (text := c_string contents).
  set (lines := skip_mark (strsplit_lines text)). intros H.
  assert (Hc : collect_headers [] lines = Crashed).
  { unfold header_part in H. destruct (collect_headers [] lines) as [[hs rest]| |]; [|discriminate|reflexivity].
    cbn [bind] in H. destruct (parse_headers o [] hs) as [[o1 rs]| |] eqn:E; [discriminate|discriminate|].
    now apply parse_no_crash in E. }
  clear H. destruct lines as [|raw rest] eqn:El; [discriminate|].
  assert (Htext : exists mark t, mailbox_mark mark /\ text = mark ++ t /\ split_lines t = raw :: rest).
  { unfold lines, strsplit_lines in El. destruct text as [|c0 t0] eqn:Et; [discriminate|]. rewrite <- Et in *.
    unfold skip_mark in El. destruct (split_lines text) as [|first more] eqn:Es; [discriminate|].
    destruct (starts_with (lit "From ") first) eqn:Em.
    - subst more. destruct (split_cons _ _ _ Es) as [[? _]|(t' & E & Es')]; [discriminate|].
      exists (first ++ [LF]), t'. split; [|split; [now rewrite <- app_assoc|exact Es']].
      right. assert (Hf : exists s, first = lit "From " ++ s).
      { clear -Em. unfold lit in *. cbn [list_ascii_of_string] in *.
        do 5 (destruct first as [|? first]; [discriminate|]; cbn [starts_with] in Em;
              apply andb_true_iff in Em as [E Em]; apply Ascii.eqb_eq in E; subst).
        now exists first. }
      destruct Hf as [s ->]. exists s. rewrite <- app_assoc. split; [reflexivity|].
      pose proof (split_lines_no_lf text) as Hl. rewrite Es in Hl. apply Forall_inv in Hl.
      rewrite in_app_iff in Hl.
      assert (Hnul : ~ In NUL text) by (clear; unfold text; induction contents as [|c s IH]; cbn; [tauto|];
        destruct (beqb c NUL) eqn:E; [tauto|]; intros [->|X]; [discriminate|contradiction]).
      rewrite E in Hnul. rewrite !in_app_iff in Hnul. tauto.
    - exists [], text. split; [now left|]. split; [reflexivity|]. congruence. }
  destruct Htext as (mark & t & Hmark & -> & Hs). exists mark.
  cbn [collect_headers] in Hc. destruct (strip_cr raw) as [line have_cr] eqn:Ecr.
  destruct line as [|c l]; [discriminate|].
  destruct (is_header (c :: l)) eqn:Eh.
  { exfalso. eapply collect_no_crash; [|exact Hc]. unfold append_header, is_header in *.
    apply andb_true_iff in Eh as [_ Eh]. destruct (cut ":" (c :: l)) as [[]|]; discriminate. }
  destruct (ascii_space c) eqn:Esp; [|discriminate].
  assert (Hraw : exists l', raw = c :: l' /\ (c = cr -> l' <> [])).
  { unfold strip_cr in Ecr. destruct (ends_with CR raw) eqn:Ee.
    - injection Ecr as E _. destruct raw as [|x r _] using rev_ind; [discriminate|].
      rewrite removelast_last in E. subst r. exists (l ++ [x]). split; [reflexivity|].
      intros _. destruct l; discriminate.
    - injection Ecr as -> _. exists l. split; [reflexivity|]. intros -> ->. discriminate. }
  destruct Hraw as (l' & -> & Hl').
  pose proof (split_lines_no_lf t) as Hl. rewrite Hs in Hl. pose proof (Forall_inv Hl) as Hl1; cbv beta in Hl1.
  assert (Hclf : c <> lf) by (intros ->; apply Hl1; now left).
  destruct (split_cons _ _ _ Hs) as [[_ ->]|(t' & -> & _)].
  - exists c, l'. repeat split; try assumption. intros E. destruct l' as [|d r]; [now elim (Hl' E)|].
    exists d, r. split; [reflexivity|]. intros ->. apply Hl1. right. now left.
  - exists c, (l' ++ LF :: t'). repeat split; try assumption.
    intros E. destruct l' as [|d r]; [now elim (Hl' E)|]. exists d, (r ++ LF :: t').
    split; [reflexivity|]. intros ->. apply Hl1. right. now left.
Qed.
Print Assumptions C84_crash_partial.

(** A From or To field with an angle bracket that is not closed: the file is refused. *)
Lemma extract_unclosed before rest :
  ~ In "<"%char before -> ~ In ">"%char rest -> extract_path (before ++ lit "<" ++ rest) = None.
Proof.
  intros H1 H2. unfold extract_path. change (lit "<" ++ rest) with ("<"%char :: rest).
  now rewrite cut_app, cut_none.
Qed.
Lemma parse_invalid nl f fields :
  In f fields -> f_name f = lit "From" \/ f_name f = lit "To" -> extract_path (field_value nl f) = None ->
  forall o rs, parse_headers o rs (map (field_header nl) fields) = Invalid.
Proof.
  intros Hin Hn Hx. induction fields as [|g fields IH]; [easy|].
  intros o rs. cbn [map parse_headers h_name h_value field_header].
  destruct Hin as [-> |Hin].
  - rewrite Hx. destruct Hn as [-> | ->]; reflexivity.
  - destruct (bytes_eqb (f_name g) (lit "From")).
    + destruct (extract_path (field_value nl g)); [now apply IH|reflexivity].
    + destruct (bytes_eqb (f_name g) (lit "To")); [|now apply IH].
      destruct (extract_path (field_value nl g)); [now apply IH|reflexivity].
Qed.
Theorem C84_bad_address o nl mark fields body f before rest :
  line_end nl -> mailbox_mark mark -> Forall field_ok fields -> no_nul body ->
  In f fields -> f_name f = lit "From" \/ f_name f = lit "To" ->
  field_value nl f = before ++ lit "<" ++ rest -> ~ In "<"%char before -> ~ In ">"%char rest ->
  take_arg o (GMail (mark ++ mail_text nl fields body)) = Invalid.
Proof.
  intros Hnl Hmark Hf Hb Hin Hn Hv H1 H2. cbn [take_arg]. unfold parse_mail.
  rewrite lines_of_mail by assumption. unfold header_part. rewrite collect_mail by assumption. cbn [bind].
  rewrite (parse_invalid nl f) by (try assumption; rewrite Hv; now apply extract_unclosed). reflexivity.
Qed.
Print Assumptions C84_bad_address.

(** So is a file with a line among the header fields that is none: it does not start with a letter or
    digit nor with white space, or it has no colon. *)
Theorem C84_bad_line o nl mark f fields c line more :
  line_end nl -> mailbox_mark mark -> Forall field_ok (f :: fields) -> no_nul more ->
  line_text (c :: line) -> ascii_space c = false -> ~ letter_or_digit c \/ ~ In ":"%char (c :: line) ->
  take_arg o (GMail (mark ++ concat (map (field_text nl) (f :: fields)) ++ (c :: line) ++ nl ++ more)) = Invalid.
Proof.
  intros Hnl Hmark Hf Hm Hl Hc Hbad.
  assert (Hn : ~ In NUL ((c :: line) ++ nl ++ more)).
  { rewrite !in_app_iff. intros [H|[H|H]]; [now apply Hl in H| |contradiction].
    destruct Hnl as [-> | ->]; cbn in H; intuition discriminate. }
  cbn [take_arg]. unfold parse_mail. rewrite lines_of_fields by (assumption || discriminate).
  unfold header_part. rewrite collect_fields by assumption.
  rewrite split_line_nl; [|apply Hl|exact Hnl]. cbn [collect_headers].
  rewrite strip_cr_nl by assumption.
  replace (is_header (c :: line)) with false.
  - rewrite Hc. reflexivity.
  - symmetry. unfold is_header. destruct Hbad as [Hbad|Hbad].
    + replace (ascii_alnum c) with false; [reflexivity|]. symmetry. apply not_true_iff_false.
      intros E. apply Hbad. unfold ascii_alnum, is_digit in E. unfold letter_or_digit. lia.
    + rewrite cut_none by exact Hbad. apply andb_false_r.
Qed.
Print Assumptions C84_bad_line.

(** The ways to break a mail file over lines. *)
Definition crlf : bytes := [cr; lf].
Definition subject : field := mk_field (lit "Subject") (lit " ") (lit "a: b") [lit " c"].
Definition sender : field := mk_field (lit "From") (lit " ") (lit "Jo <jo@x>") [].
Definition first_to : field := mk_field (lit "To") [] (lit "al@y") [].
Definition second_to : field := mk_field (lit "To") (lit "  ") (lit "Bo <bo@z> x") [].

Ltac good_field :=
  split; [do 2 eexists; split; [reflexivity|unfold letter_or_digit; vm_compute; intuition discriminate]|];
  split; [repeat (constructor; [split; [unfold printable; vm_compute; split; discriminate|discriminate]|]);
          constructor|];
  split; [repeat (constructor; [now left|]); constructor|];
  split; [split; [cbn; intuition discriminate|split; [cbn; intuition discriminate|]];
          intros s E; apply (f_equal (@rev ascii)) in E; rewrite rev_app_distr in E; discriminate|];
  split; [intros c s E; injection E as <- _; vm_compute; reflexivity|].

Example C84_example :
  let fields := [subject; sender; first_to; second_to] in
  Forall field_ok fields /\
  paths crlf (lit "From") fields [lit "<jo@x>"] /\ paths crlf (lit "To") fields [lit "<al@y>"; lit "<bo@z>"] /\
  message_of [GMail (lit "From jo Mon" ++ [lf] ++ mail_text crlf fields (lit "x" ++ crlf ++ lit "y"))]
  = Done (mk_message (lit "<jo@x>") [lit "<al@y>"; lit "<bo@z>"]
      [mk_header (lit "Subject") (Some (lit "a: b" ++ crlf ++ lit " c"));
       mk_header (lit "From") (Some (lit "Jo <jo@x>")); mk_header (lit "To") (Some (lit "al@y"));
       mk_header (lit "To") (Some (lit "Bo <bo@z> x"))]
      [lit "x" ++ crlf ++ lit "y"]).
Proof.
  intros fields. split; [|split; [|split]].
  - unfold fields. constructor; [good_field|].
    { constructor; [|constructor]. split.
      - split; [cbn; intuition discriminate|split; [cbn; intuition discriminate|]].
        intros s E. apply (f_equal (@rev ascii)) in E. rewrite rev_app_distr in E. discriminate.
      - do 2 eexists. split; [reflexivity|]. now left. }
    constructor; [good_field; constructor|]. constructor; [good_field; constructor|].
    constructor; [good_field; constructor|constructor].
  - apply OtherField; [discriminate|]. apply AddressField; [reflexivity| |].
    + apply (PathIn (lit "Jo ") (lit "jo@x") []); cbn; intuition discriminate.
    + apply OtherField; [discriminate|]. apply OtherField; [discriminate|]. constructor.
  - apply OtherField; [discriminate|]. apply OtherField; [discriminate|]. apply AddressField; [reflexivity| |].
    + apply (PathWord [] (lit "al@y") []); [constructor|cbn; intuition discriminate|now left|
        cbn; intuition discriminate|discriminate].
    + apply AddressField; [reflexivity| |constructor].
      apply (PathIn (lit "Bo ") (lit "bo@z") (lit " x")); cbn; intuition discriminate.
  - vm_compute. reflexivity.
Qed.

Definition bad_to : field := mk_field (lit "To") [] (lit "Al <al@y") [].
Example C84_bad_address_example :
  Forall field_ok [subject; bad_to] /\ field_value crlf bad_to = lit "Al " ++ lit "<" ++ lit "al@y" /\
  take_arg no_options (GMail (mail_text crlf [subject; bad_to] (lit "x"))) = Invalid.
Proof.
  split; [|split; vm_compute; reflexivity].
  constructor; [exact (Forall_inv (proj1 C84_example))|]. constructor; [good_field; constructor|constructor].
Qed.
Example C84_bad_line_example :
  line_text (lit "no colon here") /\ ascii_space "n"%char = false /\ ~ In ":"%char (lit "no colon here") /\
  take_arg no_options
    (GMail (concat (map (field_text crlf) [subject]) ++ lit "no colon here" ++ crlf ++ crlf ++ lit "x")) = Invalid.
Proof.
  split; [|split; [reflexivity|split; [cbn; intuition discriminate|vm_compute; reflexivity]]].
  split; [cbn; intuition discriminate|split; [cbn; intuition discriminate|]].
  intros s E. apply (f_equal (@rev ascii)) in E. rewrite rev_app_distr in E. discriminate.
Qed.

(** A first line of white space brings the program down. *)
Theorem C84_crash_refuted : exists contents, take_arg no_options (GMail contents) = Crashed.
Proof. exists (lit " x" ++ [lf] ++ lit "A: b"). vm_compute. reflexivity. Qed.
Print Assumptions C84_crash_refuted.

(** Nothing behind a NUL is sent. *)
Theorem C84_nul_refuted :
  exists m, message_of [GMail (mail_text [lf] [sender; first_to] (lit "x" ++ [NUL] ++ lit "y"))] = Done m /\
    concat (msg_chunks m) = lit "x".
Proof. eexists. split; vm_compute; reflexivity. Qed.
Print Assumptions C84_nul_refuted.

(** Field names are compared by case: a lower case "from" gives no sender, and a made up From
    field is sent beside it. *)
Theorem C84_case_refuted :
  exists m, message_of [GMail (mail_text [lf] [mk_field (lit "from") [] (lit "jo@x") []; first_to] [])] = Done m /\
    msg_from m = lit "<sender@example.com>" /\
    map h_name (msg_headers m) = [lit "from"; lit "To"; lit "From"].
Proof. eexists. split; [vm_compute; reflexivity|]. vm_compute. auto. Qed.
Print Assumptions C84_case_refuted.

(** Of several recipients in one field only the first is taken, and with the comma. *)
Theorem C84_recipients_refuted :
  exists m, message_of [GMail (mail_text [lf] [sender; mk_field (lit "To") [] (lit "al@y, bo@z") []] [])] = Done m /\
    msg_recipients m = [lit "<al@y,>"].
Proof. eexists. split; [vm_compute; reflexivity|]. vm_compute. auto. Qed.
Print Assumptions C84_recipients_refuted.

(** A sender given before and after a mail file with a From field: the first string is freed
    twice. *)
Theorem C84_sender_twice_refuted :
  take_args no_options [GFrom (lit "a"); GMail (mail_text [lf] [sender] []); GFrom (lit "b")] = Crashed.
Proof. vm_compute. reflexivity. Qed.
Print Assumptions C84_sender_twice_refuted.

(** Headers of the same name given by options are sent in reverse order. *)
Theorem C84_header_options_refuted :
  exists m, message_of [GHeader (lit "A:1"); GHeader (lit "A:2")] = Done m /\
    firstn 2 (msg_headers m) = [mk_header (lit "A") (Some (lit "2")); mk_header (lit "A") (Some (lit "1"))].
Proof. eexists. split; vm_compute; reflexivity. Qed.
Print Assumptions C84_header_options_refuted.
