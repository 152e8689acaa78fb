(** The mail file of milter-test-server as a whole. *)
From Verif.Base Require Import Bytes BytesFacts.
From Verif.Model Require Import Headers ReplyCode TestMessage.
From Verif.Spec Require Import MailSpec.
From Verif.Proofs Require Import MailProofs.
From Coq Require Import ZifyBool ZifyNat ZifyN.
Local Open Scope N_scope.

Lemma not_mark f r :
  field_ok f -> starts_with (lit "From ") (f_name f ++ ":"%char :: r) = false.
Proof.
  intros (_ & H & _).
  assert (K : forall n, Forall (fun c => printable c /\ c <> ":"%char) n ->
            starts_with (lit "From ") (n ++ ":"%char :: r) = false).
  { intros n Hn. unfold lit. cbn [list_ascii_of_string].
    do 4 (destruct Hn as [|? ? _ Hn]; [reflexivity|cbn [app starts_with]; destruct (beqb _ _); [|reflexivity];
          cbn [andb]]).
    destruct Hn as [|c l [Hc _] Hn]; [reflexivity|]. cbn [app starts_with].
    rewrite beqb_neq; [reflexivity|]. unfold printable in Hc. intros <-. vm_compute in Hc. destruct Hc. congruence. }
  apply K, H.
Qed.

Lemma lookup_app hs hs' n : headers_lookup (hs ++ hs') n
  = match headers_lookup hs n with Some h => Some h | None => headers_lookup hs' n end.
Proof. induction hs as [|h hs IH]; cbn; [reflexivity|]. now destruct (bytes_eqb _ _). Qed.

Lemma paths_lookup nl n fields ps :
  paths nl n fields ps ->
  match headers_lookup (map (field_header nl) fields) n with Some _ => ps <> [] | None => ps = [] end.
Proof.
  induction 1 as [|f fs ps Hn _ IH|f fs p ps Hn _ _ IH]; cbn; [reflexivity| |].
  - replace (bytes_eqb (f_name f) n) with false; [exact IH|].
    symmetry. apply not_true_iff_false. intros E. now apply bytes_eqb_eq in E.
  - replace (bytes_eqb (f_name f) n) with true; [discriminate|]. symmetry. now apply bytes_eqb_eq.
Qed.

Definition bracketed (p : bytes) : Prop := exists inner, p = lit "<" ++ inner ++ lit ">".
Lemma normalize_bracketed p : bracketed p -> normalize p = p.
Proof.
  intros [inner ->]. unfold normalize.
  change (lit "<" ++ inner ++ lit ">") with ((lit "<" ++ inner) ++ [">"%char]).
  rewrite ends_with_snoc. reflexivity.
Qed.
Lemma paths_bracketed nl n fields ps : paths nl n fields ps -> Forall bracketed ps.
Proof.
  induction 1 as [|f fs ps Hn _ IH|f fs p ps Hn Hp _ IH]; [constructor|exact IH|].
  constructor; [|exact IH]. destruct Hp; now eexists.
Qed.

Lemma set_from_owner froms : forall o,
  op_from_owner o = NotParser ->
  fold_left set_envelope_from froms o
  = put_from o (match froms with [] => op_from o | _ :: _ => Some (last froms []) end) NotParser.
Proof.
  induction froms as [|p ps IH]; intros o Ho; cbn [fold_left].
  - rewrite <- Ho. now destruct o.
  - rewrite IH by (unfold set_envelope_from; now rewrite Ho). destruct ps; [|reflexivity].
    unfold set_envelope_from. now rewrite Ho.
Qed.

Lemma fold_append hs : forall l,
  fold_left (fun all h => headers_append all (h_name h) (h_value h)) hs l = l ++ hs.
Proof.
  induction hs as [|h hs IH]; intros l; cbn; [now rewrite app_nil_r|].
  rewrite IH. unfold headers_append. rewrite <- app_assoc. now destruct h.
Qed.

(** *** Reading a mail file *)

Lemma lines_of_text mark text :
  mailbox_mark mark -> text <> [] -> ~ In NUL text -> skip_mark (split_lines text) = split_lines text ->
  skip_mark (strsplit_lines (c_string (mark ++ text))) = split_lines text.
Proof.
  intros Hmark Hne Hnul Hskip. destruct Hmark as [-> | (s & -> & Hs & Hs0)].
  - cbn [app]. rewrite c_string_id by exact Hnul. unfold strsplit_lines.
    destruct text; [congruence|exact Hskip].
  - rewrite c_string_id.
    + unfold strsplit_lines.
      replace ((lit "From " ++ s ++ [lf]) ++ text) with ((lit "From " ++ s) ++ LF :: text)
        by (now rewrite <- !app_assoc).
      rewrite split_line.
      * destruct ((lit "From " ++ s) ++ LF :: text) eqn:E; [discriminate|]. reflexivity.
      * rewrite in_app_iff. intros [H|H]; [|contradiction]. cbn in H. intuition discriminate.
    + rewrite !in_app_iff. intros [[H|[H|H]]|H]; auto; cbn in H; intuition discriminate.
Qed.
Lemma fields_no_nul nl fields :
  line_end nl -> Forall field_ok fields -> ~ In NUL (concat (map (field_text nl) fields)).
Proof.
  intros Hnl Hf H. apply in_concat in H as (t & Ht & H). apply in_map_iff in Ht as (f & <- & Hin).
  rewrite Forall_forall in Hf. destruct (Hf f Hin) as (_ & Hn & Hg & (_ & Hfst & _) & _ & Hm).
  rewrite Forall_forall in Hn, Hg, Hm.
  assert (Hnn : ~ In NUL nl) by (destruct Hnl as [-> | ->]; cbn; intuition discriminate).
  unfold field_text in H. rewrite !in_app_iff in H. destruct H as [H|[H|[H|[H|[H|H]]]]]; auto.
  + destruct (Hn _ H) as [[H1 _] _]. vm_compute in H1. congruence.
  + cbn in H. destruct H as [H|[]]. discriminate.
  + apply Hg in H. destruct H; discriminate.
  + apply in_concat in H as (t & Ht & H). apply in_map_iff in Ht as (m & <- & Hin').
    destruct (Hm m Hin') as [(_ & H1 & _) _]. rewrite in_app_iff in H. tauto.
Qed.
Lemma skip_fields nl f fields tail :
  line_end nl -> field_ok f ->
  skip_mark (split_lines (concat (map (field_text nl) (f :: fields)) ++ tail))
  = split_lines (concat (map (field_text nl) (f :: fields)) ++ tail).
Proof.
  intros Hnl Hok. cbn [map concat]. set (line := f_name f ++ ":"%char :: (f_gap f ++ f_first f)).
  assert (El : exists r, (field_text nl f ++ concat (map (field_text nl) fields)) ++ tail = line ++ nl ++ r).
  { eexists. unfold field_text, line. change (lit ":") with [":"%char].
    rewrite <- !app_assoc. cbn [app]. rewrite <- !app_assoc. reflexivity. }
  destruct El as [r ->].
  assert (Hlf : ~ In LF line).
  { destruct Hok as (_ & Hn & Hg & (H1 & _) & _ & _). rewrite Forall_forall in Hn, Hg.
    unfold line. rewrite in_app_iff. cbn [In]. rewrite in_app_iff.
    intros [H|[H|[H|H]]]; [|discriminate| |contradiction].
    - destruct (Hn _ H) as [[H2 _] _]. vm_compute in H2. congruence.
    - apply Hg in H. destruct H; discriminate. }
  rewrite split_line_nl by assumption. unfold skip_mark.
  unfold line at 1. rewrite <- app_assoc. cbn [app]. rewrite not_mark by exact Hok. reflexivity.
Qed.
Lemma lines_of_fields nl mark f fields tail :
  line_end nl -> mailbox_mark mark -> Forall field_ok (f :: fields) -> ~ In NUL tail -> tail <> [] ->
  skip_mark (strsplit_lines (c_string (mark ++ concat (map (field_text nl) (f :: fields)) ++ tail)))
  = split_lines (concat (map (field_text nl) (f :: fields)) ++ tail).
Proof.
  intros Hnl Hmark Hf Ht Hne. apply lines_of_text; [exact Hmark| | |].
  - intros E. now apply app_eq_nil in E as [_ E].
  - rewrite in_app_iff. intros [H|H]; [|contradiction]. now apply fields_no_nul in H.
  - apply skip_fields; [exact Hnl|]. exact (Forall_inv Hf).
Qed.
Lemma lines_of_mail nl mark fields body :
  line_end nl -> mailbox_mark mark -> Forall field_ok fields -> ~ In NUL body ->
  skip_mark (strsplit_lines (c_string (mark ++ mail_text nl fields body)))
  = split_lines (mail_text nl fields body).
Proof.
  intros Hnl Hmark Hf Hb.
  assert (Hn : ~ In NUL (nl ++ body)).
  { rewrite in_app_iff. intros [H|H]; [|contradiction]. destruct Hnl as [-> | ->]; cbn in H; intuition discriminate. }
  assert (Hne : nl ++ body <> []) by (destruct Hnl as [-> | ->]; discriminate).
  destruct fields as [|f fs].
  - apply lines_of_text; try assumption. unfold mail_text. cbn [map concat app].
    change (nl ++ body) with ([] ++ nl ++ body).
    rewrite split_line_nl; [|easy|exact Hnl]. destruct Hnl as [-> | ->]; reflexivity.
  - now apply lines_of_fields.
Qed.
Lemma parse_mail_text nl mark fields body froms tos o :
  line_end nl -> mailbox_mark mark -> Forall field_ok fields -> ~ In NUL body ->
  paths nl (lit "From") fields froms -> paths nl (lit "To") fields tos ->
  parse_mail o (mark ++ mail_text nl fields body) = Done
    (put_chunks
       (put_headers
          (let o1 := fold_left set_envelope_from froms o in
           match tos with [] => o1 | _ :: _ => put_recipients o1 (Some tos) (op_recipient_args o1) end)
          (op_headers o ++ map (field_header nl) fields))
       (Some (body_part [] (split_lines body))) (op_chunk_args o)).
Proof.
  intros Hnl Hmark Hf Hb Hfrom Hto.
  unfold parse_mail. rewrite lines_of_mail by assumption.
  unfold header_part. rewrite collect_mail by assumption. cbn [bind].
  rewrite (parse_paths nl fields _ _ froms tos) by assumption. cbn [bind app].
  rewrite fold_append.
  assert (E : forall l o, op_headers (fold_left set_envelope_from l o) = op_headers o /\
                          op_chunk_args (fold_left set_envelope_from l o) = op_chunk_args o).
  { induction l as [|x l IH]; intros o1; [now split|]. cbn [fold_left]. now rewrite !(proj1 (IH _)), (proj2 (IH _)). }
  destruct tos; cbn [put_recipients op_headers op_chunk_args put_headers]; now rewrite (proj1 (E _ _)), (proj2 (E _ _)).
Qed.
