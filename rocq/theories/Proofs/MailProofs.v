(** Lemmas about the message of milter-test-server. *)
From Verif.Base Require Import Bytes BytesFacts.
From Verif.Model Require Import Headers ReplyCode TestMessage.
From Verif.Spec Require Import MailSpec.
From Coq Require Import ZifyBool ZifyNat ZifyN.
Local Open Scope N_scope.

(** *** Characters *)

Lemma beqb_neq a b : a <> b -> beqb a b = false.
Proof. intros H. destruct (beqb a b) eqn:E; [|reflexivity]. now apply Ascii.eqb_eq in E. Qed.
Lemma beqb_same a : beqb a a = true.
Proof. apply Ascii.eqb_eq. reflexivity. Qed.
Lemma code_ne a b : code a <> code b -> a <> b.
Proof. congruence. Qed.

(** *** Strings *)

Lemma c_string_id s : ~ List.In NUL s -> c_string s = s.
Proof.
  induction s as [|c s IH]; intros H; [reflexivity|]. cbn.
  rewrite beqb_neq by (intros ->; apply H; now left). f_equal. apply IH. intros X. apply H. now right.
Qed.

Lemma cut_app c a b : ~ List.In c a -> cut c (a ++ c :: b) = Some (a, b).
Proof.
  induction a as [|x a IH]; intros H; cbn; [now rewrite beqb_same|].
  rewrite beqb_neq by (intros ->; apply H; now left).
  rewrite IH; [reflexivity|]. intros X. apply H. now right.
Qed.
Lemma cut_none c s : ~ List.In c s -> cut c s = None.
Proof.
  induction s as [|x s IH]; intros H; cbn; [reflexivity|].
  rewrite beqb_neq by (intros ->; apply H; now left).
  rewrite IH; [reflexivity|]. intros X. apply H. now right.
Qed.

Lemma split_line a s : ~ List.In LF a -> split_lines (a ++ LF :: s) = a :: split_lines s.
Proof.
  induction a as [|c a IH]; intros H; cbn; [reflexivity|].
  rewrite beqb_neq by (intros ->; apply H; now left).
  rewrite IH; [reflexivity|]. intros X. apply H. now right.
Qed.
Lemma split_last a : ~ List.In LF a -> split_lines a = [a].
Proof.
  induction a as [|c a IH]; intros H; cbn; [reflexivity|].
  rewrite beqb_neq by (intros ->; apply H; now left).
  rewrite IH; [reflexivity|]. intros X. apply H. now right.
Qed.

(** The text of lines, each with its line feed. *)
Definition unsplit (ls : list bytes) : bytes := concat (map (fun l => l ++ [LF]) ls).

Lemma unsplit_split s : unsplit (split_lines s) = s ++ [LF].
Proof.
  induction s as [|c s IH]; [reflexivity|]. cbn [split_lines].
  destruct (beqb c LF) eqn:E.
  - apply Ascii.eqb_eq in E as ->. unfold unsplit in *. cbn. now rewrite IH.
  - unfold unsplit in *. destruct (split_lines s) as [|l ls]; cbn in *.
    + destruct s; discriminate.
    + now rewrite IH.
Qed.

(** *** The body *)

Lemma body_part_text lines : forall body,
  concat (body_part body lines)
  = firstn (length (body ++ unsplit lines) - 1) (body ++ unsplit lines).
Proof.
  induction lines as [|l ls IH]; intros body; cbn [body_part].
  - unfold unsplit. cbn. rewrite app_nil_r. destruct body; [reflexivity|]. cbn [concat]. now rewrite app_nil_r.
  - assert (E : forall b, b ++ unsplit (l :: ls) = (b ++ l ++ [LF]) ++ unsplit ls).
    { intros b. unfold unsplit. cbn. now rewrite <- !app_assoc. }
    rewrite E. destruct (_ <? _).
    + cbn [concat]. rewrite IH.
      assert (L : forall x y : bytes, y <> [] ->
                firstn (length (x ++ y) - 1) (x ++ y) = x ++ firstn (length y - 1) y).
      { intros x y Hy. rewrite app_length, firstn_app. destruct y; [congruence|]. cbn [length].
        rewrite firstn_all2 by lia. do 2 f_equal. lia. }
      rewrite <- L; [now rewrite <- !app_assoc|]. destruct l; discriminate.
    + rewrite IH. reflexivity.
Qed.

Lemma body_text s : concat (body_part [] (split_lines s)) = s.
Proof.
  rewrite body_part_text. cbn [app]. rewrite unsplit_split, app_length, firstn_app. cbn [length].
  replace (length s + 1 - 1)%nat with (length s) by lia.
  rewrite firstn_all, Nat.sub_diag. cbn. apply app_nil_r.
Qed.

(** A chunk is short, or a piece of one line. *)
Definition chunk_ok (c : bytes) : Prop :=
  N.of_nat (length c) <= CHUNK_SIZE \/ exists l, ~ List.In LF l /\ (c = l \/ c = l ++ [LF]).
Lemma body_part_chunks lines : forall body,
  Forall (fun l => ~ List.In LF l) lines ->
  (N.of_nat (length body) <= CHUNK_SIZE \/ exists l, ~ List.In LF l /\ body = l ++ [LF]) ->
  Forall chunk_ok (body_part body lines).
Proof.
  induction lines as [|l ls IH]; intros body Hl Hb; cbn [body_part].
  - destruct body as [|c b] eqn:Eb; [constructor|]. rewrite <- Eb in *. constructor; [|constructor].
    destruct Hb as [Hb|(l & Hl1 & E)].
    + left. rewrite firstn_length. lia.
    + right. exists l. split; [exact Hl1|]. left. rewrite E, app_length, firstn_app. cbn [length].
      replace (length l + 1 - 1)%nat with (length l) by lia.
      rewrite firstn_all, Nat.sub_diag. cbn. apply app_nil_r.
  - inversion Hl; subst. destruct (CHUNK_SIZE <? _) eqn:E.
    + constructor.
      * destruct Hb as [Hb|(l' & H1' & ->)]; [now left|]. right. exists l'. auto.
      * apply IH; [assumption|]. right. eauto.
    + apply IH; [assumption|]. left. rewrite !app_length. cbn [length]. lia.
Qed.
Lemma split_lines_no_lf s : Forall (fun l => ~ List.In LF l) (split_lines s).
Proof.
  induction s as [|c s IH]; cbn; [constructor; auto|]. destruct (beqb c LF) eqn:E.
  - constructor; auto.
  - destruct (split_lines s) as [|l ls]; constructor; try constructor; inversion IH; subst; auto.
    + intros [->|[]]. rewrite beqb_same in E. discriminate.
    + intros [->|X]; [rewrite beqb_same in E; discriminate|contradiction].
Qed.

(** *** Paths *)

Lemma path_of_extract v p : path_of v p -> extract_path v = Some p.
Proof.
  intros H. unfold extract_path. destruct H as [before inner after Hb Hi|blanks word after Hb Hw Ha Hn He].
  - change (before ++ lit "<" ++ inner ++ lit ">" ++ after)
      with (before ++ "<"%char :: (inner ++ ">"%char :: after)).
    rewrite cut_app by exact Hb. now rewrite cut_app.
  - rewrite cut_none by exact Hn. f_equal. f_equal. f_equal.
    assert (E : skip_blanks (blanks ++ word ++ after) = word ++ after).
    { clear Hn. induction Hb as [|c l <- _ IH]; [|cbn; exact IH]. cbn [app].
      destruct word as [|c w]; [now rewrite He|]. cbn.
      rewrite beqb_neq; [reflexivity|]. intros ->. apply Hw. now left. }
    rewrite E. clear E He Hn Hb. induction word as [|c w IH]; cbn.
    + destruct Ha as [-> | (s & ->)]; reflexivity.
    + rewrite beqb_neq by (intros ->; apply Hw; now left). f_equal. apply IH.
      intros X. apply Hw. now right.
Qed.

(** *** Header lines *)

Lemma ends_with_snoc c s x : ends_with c (s ++ [x]) = beqb x c.
Proof. unfold ends_with. now rewrite rev_app_distr. Qed.

Lemma strip_cr_nl line nl :
  line_text line -> line_end nl ->
  strip_cr (line ++ removelast nl) = (line, match nl with [_] => false | _ => true end).
Proof.
  intros (_ & _ & Hc) [-> | ->]; cbn [removelast]; unfold strip_cr.
  - rewrite app_nil_r. destruct line as [|x l] using rev_ind; [reflexivity|].
    rewrite ends_with_snoc. rewrite beqb_neq; [reflexivity|]. intros ->. now apply (Hc l).
  - rewrite ends_with_snoc. rewrite removelast_last. reflexivity.
Qed.

Lemma line_end_no_lf nl : line_end nl -> ~ List.In LF (removelast nl).
Proof. intros [-> | ->]; cbn; [tauto|]. intros [H|[]]. discriminate. Qed.
Lemma line_end_split nl : line_end nl -> nl = removelast nl ++ [LF].
Proof. intros [-> | ->]; reflexivity. Qed.

Lemma split_line_nl line nl s :
  ~ List.In LF line -> line_end nl ->
  split_lines (line ++ nl ++ s) = (line ++ removelast nl) :: split_lines s.
Proof.
  intros Hl Hn. rewrite (line_end_split nl Hn) at 1. rewrite <- app_assoc, app_assoc.
  apply split_line. rewrite in_app_iff. intros [H|H]; [contradiction|]. now apply line_end_no_lf in Hn.
Qed.

Lemma chug_gap gap first :
  Forall blank gap -> (forall c s, first = c :: s -> solid c) -> chug (gap ++ first) = first.
Proof.
  intros Hg Hf. induction Hg as [|c g [-> | ->] _ IH]; [|cbn; exact IH|cbn; exact IH].
  cbn [app]. destruct first as [|c s]; [reflexivity|]. specialize (Hf c s eq_refl). unfold solid in Hf.
  cbn. replace (ascii_space c) with false; [reflexivity|]. unfold ascii_space. lia.
Qed.

Lemma alnum_of c : letter_or_digit c -> ascii_alnum c = true.
Proof. unfold letter_or_digit, ascii_alnum, is_digit. lia. Qed.
Lemma blank_space c : blank c -> ascii_space c = true.
Proof. intros [-> | ->]; reflexivity. Qed.
Lemma blank_alnum c : blank c -> ascii_alnum c = false.
Proof. intros [-> | ->]; reflexivity. Qed.

Lemma append_value_last hs n v value nl :
  append_header_value (hs ++ [mk_header n (Some v)]) value nl
  = Some (hs ++ [mk_header n (Some (v ++ nl ++ value))]).
Proof.
  unfold append_header_value, headers_get_nth. rewrite app_length. cbn [length].
  destruct (N.of_nat (length hs + 1) <? 1) eqn:E; [lia|].
  rewrite nth_error_app2 by lia.
  replace (N.to_nat (N.of_nat (length hs + 1) - 1) - length hs)%nat with 0%nat by lia.
  cbn [nth_error h_value h_name]. now rewrite removelast_last.
Qed.

Section Fields.
  Variable nl : bytes.
  Hypothesis Hnl : line_end nl.

  Definition field_header (f : field) : header := mk_header (f_name f) (Some (field_value nl f)).

  Lemma collect_more more : forall hs n v s,
    Forall (fun m => line_text m /\ exists c s, m = c :: s /\ blank c) more ->
    collect_headers (hs ++ [mk_header n (Some v)])
      (split_lines (concat (map (fun m => m ++ nl) more) ++ s))
    = collect_headers (hs ++ [mk_header n (Some (v ++ concat (map (fun m => nl ++ m) more)))])
        (split_lines s).
  Proof.
    induction more as [|m more IH]; intros hs n v s H; cbn [map concat].
    - now rewrite app_nil_r.
    - inversion H as [|? ? [Hm (c & m' & Em & Hc)] Hmore]; subst x l.
      rewrite <- !app_assoc. rewrite split_line_nl; [|apply Hm|exact Hnl].
      cbn [collect_headers]. rewrite strip_cr_nl by assumption.
      rewrite Em at 1. unfold is_header. rewrite Em at 1. rewrite blank_alnum by exact Hc. cbn [andb].
      rewrite blank_space by exact Hc. rewrite append_value_last, IH by exact Hmore.
      do 5 f_equal. rewrite <- !app_assoc. do 2 f_equal.
      destruct Hnl as [-> | ->]; reflexivity.
  Qed.

  Lemma collect_field f hs s :
    field_ok f ->
    collect_headers hs (split_lines (field_text nl f ++ s))
    = collect_headers (hs ++ [field_header f]) (split_lines s).
  Proof.
    intros ((c & n & En & Hc) & Hname & Hgap & Hfirst & Hsolid & Hmore).
    unfold field_text, field_header, field_value.
    set (line := f_name f ++ lit ":" ++ f_gap f ++ f_first f).
    assert (Hline : line_text line).
    { assert (Hlf : forall x, printable x -> x <> lf /\ x <> NUL /\ x <> cr).
      { unfold printable. intros x Hx. repeat split; intros ->; vm_compute in Hx; destruct Hx; congruence. }
      assert (Hbl : forall x, blank x -> x <> lf /\ x <> NUL /\ x <> cr)
        by (intros x [-> | ->]; repeat split; discriminate).
      rewrite Forall_forall in Hname, Hgap. destruct Hfirst as (F1 & F2 & F3).
      split; [|split].
      - unfold line. rewrite !in_app_iff. intros [H|[H|[H|H]]].
        + destruct (Hname _ H) as [H' _]. now apply Hlf in H'.
        + cbn in H. destruct H as [H|[]]. discriminate.
        + apply Hgap in H. now apply Hbl in H.
        + contradiction.
      - unfold line. rewrite !in_app_iff. intros [H|[H|[H|H]]].
        + destruct (Hname _ H) as [H' _]. now apply Hlf in H'.
        + cbn in H. destruct H as [H|[]]. discriminate.
        + apply Hgap in H. now apply Hbl in H.
        + contradiction.
      - intros s' E. unfold line in E.
        destruct (f_first f) as [|y fs] eqn:Ef using rev_ind.
        + rewrite app_nil_r in E. destruct (f_gap f) as [|z g] eqn:Eg using rev_ind.
          * rewrite app_nil_r in E. apply app_inj_tail in E as [_ E]. discriminate.
          * rewrite !app_assoc in E. apply app_inj_tail in E as [_ ->].
            assert (Hb : blank cr) by (apply Hgap; rewrite in_app_iff; right; now left).
            now apply Hbl in Hb.
        + rewrite !app_assoc in E. apply app_inj_tail in E as [_ ->]. now apply (F3 fs). }
    replace ((f_name f ++ lit ":" ++ f_gap f ++ f_first f ++ nl ++
              concat (map (fun m => m ++ nl) (f_more f))) ++ s)
      with (line ++ nl ++ (concat (map (fun m => m ++ nl) (f_more f)) ++ s))
      by (unfold line; now rewrite <- !app_assoc).
    rewrite split_line_nl; [|apply Hline|exact Hnl]. cbn [collect_headers].
    rewrite strip_cr_nl by assumption.
    assert (Hcut : cut ":" line = Some (f_name f, f_gap f ++ f_first f)).
    { unfold line. change (lit ":" ++ ?x) with (":"%char :: x). apply cut_app.
      intros H. rewrite Forall_forall in Hname. now destruct (Hname _ H). }
    assert (Eline : line = c :: (n ++ lit ":" ++ f_gap f ++ f_first f))
      by (unfold line; now rewrite En).
    assert (Hhead : is_header line = true).
    { unfold is_header. rewrite Hcut, Eline. cbn. now rewrite alnum_of. }
    destruct line as [|c0 l0] eqn:El; [discriminate|]. rewrite <- El in *. rewrite Hhead.
    unfold append_header. rewrite Hcut. unfold headers_append.
    rewrite chug_gap by assumption. apply collect_more. exact Hmore.
  Qed.

  Lemma collect_fields fields : forall hs s,
    Forall field_ok fields ->
    collect_headers hs (split_lines (concat (map (field_text nl) fields) ++ s))
    = collect_headers (hs ++ map field_header fields) (split_lines s).
  Proof.
    induction fields as [|f fs IH]; intros hs s H; cbn [map concat].
    - now rewrite app_nil_r.
    - inversion H; subst. rewrite <- app_assoc, collect_field by assumption.
      rewrite IH by assumption. now rewrite <- app_assoc.
  Qed.

  Lemma collect_mail fields body :
    Forall field_ok fields ->
    collect_headers [] (split_lines (mail_text nl fields body))
    = Done (map field_header fields, split_lines body).
  Proof.
    intros H. unfold mail_text. rewrite collect_fields by exact H. cbn [app].
    change (nl ++ body) with ([] ++ nl ++ body). rewrite split_line_nl; [|easy|exact Hnl].
    cbn [collect_headers].
    assert (E : line_text []).
    { split; [easy|]. split; [easy|]. intros s'. destruct s'; discriminate. }
    rewrite strip_cr_nl by assumption. reflexivity.
  Qed.

  Lemma parse_paths fields : forall o rs froms tos,
    paths nl (lit "From") fields froms -> paths nl (lit "To") fields tos ->
    parse_headers o rs (map field_header fields)
    = Done (fold_left set_envelope_from froms o, rs ++ tos).
  Proof.
    induction fields as [|f fs IH]; intros o rs froms tos Hf Ht.
    - inversion Hf; inversion Ht; subst. cbn. now rewrite app_nil_r.
    - cbn [map parse_headers h_name h_value field_header].
      assert (E1 : forall n, bytes_eqb (f_name f) n = true <-> f_name f = n)
        by (intros n; apply bytes_eqb_eq).
      inversion Hf as [|f1 fs1 ps1 Hn1 Hp1|f1 fs1 p1 ps1 Hn1 Hx1 Hp1]; subst.
      + replace (bytes_eqb (f_name f) (lit "From")) with false
          by (symmetry; apply not_true_iff_false; now rewrite E1).
        inversion Ht as [|f2 fs2 ps2 Hn2 Hp2|f2 fs2 p2 ps2 Hn2 Hx2 Hp2]; subst.
        * replace (bytes_eqb (f_name f) (lit "To")) with false
            by (symmetry; apply not_true_iff_false; now rewrite E1).
          now apply IH.
        * rewrite Hn2. cbn [bytes_eqb]. change (bytes_eqb (lit "To") (lit "To")) with true. cbn iota.
          rewrite (path_of_extract _ _ Hx2). rewrite (IH o _ froms ps2) by assumption.
          now rewrite <- app_assoc.
      + rewrite Hn1. change (bytes_eqb (lit "From") (lit "From")) with true. cbn iota.
        rewrite (path_of_extract _ _ Hx1).
        inversion Ht as [|f2 fs2 ps2 Hn2 Hp2|f2 fs2 p2 ps2 Hn2 Hx2 Hp2]; subst.
        * cbn [fold_left]. now apply IH.
        * rewrite Hn1 in Hn2. discriminate.
  Qed.
End Fields.

(** *** Crashes *)

Lemma append_value_some hs v nl : hs <> [] -> append_header_value hs v nl <> None.
Proof.
  intros H. destruct hs as [|h l _] using rev_ind; [congruence|].
  unfold append_header_value, headers_get_nth. rewrite app_length. cbn [length].
  destruct (N.of_nat (length l + 1) <? 1) eqn:E; [lia|].
  rewrite nth_error_app2 by lia.
  replace (N.to_nat (N.of_nat (length l + 1) - 1) - length l)%nat with 0%nat by lia. discriminate.
Qed.
Lemma append_value_ne hs v nl hs' : append_header_value hs v nl = Some hs' -> hs' <> [].
Proof.
  unfold append_header_value. destruct (headers_get_nth _ _); [|discriminate].
  intros E. injection E as <-. now destruct (removelast hs).
Qed.
Lemma collect_no_crash lines : forall hs, hs <> [] -> collect_headers hs lines <> Crashed.
Proof.
  induction lines as [|raw rest IH]; intros hs H; cbn; [discriminate|].
  destruct (strip_cr raw) as [line have_cr]. destruct line as [|c l]; [discriminate|].
  destruct (is_header (c :: l)) eqn:Eh.
  - apply IH. unfold append_header. destruct (cut _ _) as [[n v]|]; [|exact H].
    unfold headers_append. now destruct hs.
  - destruct (ascii_space c); [|discriminate].
    destruct (append_header_value _ _ _) eqn:E.
    + apply IH. now apply append_value_ne in E.
    + now apply append_value_some in E.
Qed.
Lemma parse_no_crash hs : forall o rs, parse_headers o rs hs <> Crashed.
Proof.
  induction hs as [|h hs IH]; intros o rs; cbn [parse_headers]; [discriminate|].
  destruct (bytes_eqb (h_name h) (lit "From")).
  - destruct (extract_path _); [apply IH|discriminate].
  - destruct (bytes_eqb (h_name h) (lit "To")); [|apply IH].
    destruct (extract_path _); [apply IH|discriminate].
Qed.
