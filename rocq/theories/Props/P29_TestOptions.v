(** C87: the options of milter-test-server. *)
From Coq Require Import QArith.
From Verif.Base Require Import Bytes BytesFacts.
From Verif.Model Require Import Headers ReplyCode CommandCodec Macros TestMessage TestServer TestOptions.
From Verif.Spec Require Import MailSpec HeaderSpec ReportSpec TestOptionsSpec.
From Verif.Proofs Require Import CommandProofs MacroProofs MailProofs MailRun HeaderProofs ReportProofs.
Local Open Scope N_scope.

(** *** The message *)

(** The option of a source with its argument. *)
Definition arg_of (s : source) : arg :=
  match s with
  | SFrom a => GFrom a
  | SRecipient a => GRecipient a
  | SHeader name value => GHeader (name ++ lit ":" ++ value)
  | SBody c => GBody c
  | SMail nl mark fields body _ _ => GMail (mark ++ mail_text nl fields body)
  end.

Definition chunk_short (c : bytes) : Prop :=
  N.of_nat (length c) <= 65535 \/ exists l, ~ In lf l /\ (c = l \/ c = l ++ [lf]).

(** What the options hold after the sources [l], from [o] on. *)
Definition or {A} (x y : option A) : option A := match x with Some a => Some a | None => y end.
Definition holds (o : options) (l : list source) (o' : options) : Prop :=
  op_from o' = or (last_given sender_in l) (op_from o) /\
  op_recipient_args o' = op_recipient_args o ++ flat_map recipient_in l /\
  op_recipients o' = match last_given recipients_in l with
                     | Some (AtOnce ps) => Some ps
                     | Some OneByOne => Some (op_recipient_args o')
                     | None => op_recipients o
                     end /\
  gathers (op_headers o) l (op_headers o') /\
  op_chunk_args o' = op_chunk_args o ++ flat_map chunk_in l /\
  match last_given body_in l with
  | Some (AtOnce body) => exists cs, op_chunks o' = Some cs /\ concat cs = body /\ Forall chunk_short cs
  | Some OneByOne => op_chunks o' = Some (op_chunk_args o')
  | None => op_chunks o' = op_chunks o
  end.

Lemma none_recipient l : last_given recipients_in l = None -> flat_map recipient_in l = [].
Proof.
  induction l as [|s l IH]; [reflexivity|]. cbn. destruct (last_given recipients_in l); [discriminate|].
  intros H. rewrite IH by reflexivity. now destruct s.
Qed.
Lemma none_chunk l : last_given body_in l = None -> flat_map chunk_in l = [].
Proof.
  induction l as [|s l IH]; [reflexivity|]. cbn. destruct (last_given body_in l); [discriminate|].
  intros H. rewrite IH by reflexivity. now destruct s.
Qed.

Lemma gathers_app hs l hs1 l' hs' :
  gathers hs l hs1 -> gathers hs1 l' hs' -> gathers hs (l ++ l') hs'.
Proof.
  induction 1; intros H'; cbn [app]; [exact H'| | |].
  - eapply GathersHeader; [eassumption|auto].
  - apply GathersMail. auto.
  - apply GathersOther; auto.
Qed.

Lemma set_froms froms : forall o,
  fold_left set_envelope_from froms o
  = match froms with
    | [] => o
    | p :: ps => put_from o (Some (last ps p)) (match op_from_owner o with NotParser => NotParser | _ => Freed end)
    end.
Proof.
  induction froms as [|p ps IH]; intros o; [reflexivity|]. cbn [fold_left]. rewrite IH.
  unfold set_envelope_from. destruct ps as [|q ps].
  - reflexivity.
  - cbn [put_from op_from_owner op_recipients op_recipient_args op_headers op_chunks op_chunk_args].
    unfold put_from. cbn [op_from_owner op_recipients op_recipient_args op_headers op_chunks op_chunk_args].
    f_equal; [|now destruct (op_from_owner o)].
    f_equal. clear. revert q. induction ps as [|r ps IH]; intros q; [reflexivity|]. cbn [last].
    destruct ps; [reflexivity|apply (IH q)].
Qed.

Definition owner_ok (w : from_owner) (l : list source) : Prop :=
  match w with
  | NotParser => True
  | Freed => forall a b x, l <> a ++ SFrom x :: b
  | Parser => forall b y c, l = b ++ SFrom y :: c -> Forall (fun s => ~ sends s) b
  end.
Lemma apart_tail s l : senders_apart (s :: l) -> senders_apart l.
Proof. intros H a b c x y ->. exact (H (s :: a) b c x y eq_refl). Qed.
Lemma owner_tail w s l : owner_ok w (s :: l) -> owner_ok w l.
Proof.
  destruct w; cbn; [auto| |].
  - intros H b y c ->. exact (Forall_inv_tail (H (s :: b) y c eq_refl)).
  - intros H a b x ->. exact (H (s :: a) b x eq_refl).
Qed.

Lemma take_sources l : forall o,
  Forall source_ok l -> senders_apart l -> owner_ok (op_from_owner o) l ->
  exists o', take_args o (map arg_of l) = Done o' /\ holds o l o'.
Proof.
  induction l as [|s l IH]; intros o Hok Hap How.
  - exists o. split; [reflexivity|]. unfold holds. cbn. rewrite !app_nil_r. repeat split. constructor.
  - pose proof (Forall_inv Hok) as Hs. apply Forall_inv_tail in Hok.
    pose proof (apart_tail _ _ Hap) as Hap'.
    cbn [map take_args].
    assert (Hstep : exists o1, take_arg o (arg_of s) = Done o1 /\ owner_ok (op_from_owner o1) l /\ holds o [s] o1).
    { destruct s as [a|a|name value|c|nl mark fields body froms tos]; cbn [arg_of take_arg].
      - assert (op_from_owner o <> Freed) by (intros E; rewrite E in How; exact (How [] l a eq_refl)).
        exists (put_from o (Some a) Parser). split; [destruct (op_from_owner o); congruence|]. split.
        + cbn [op_from_owner put_from owner_ok]. intros b y c ->. exact (Hap [] b c a y eq_refl).
        + unfold holds. cbn. rewrite !app_nil_r. repeat split. apply GathersOther; [exact I|constructor].
      - eexists. split; [reflexivity|]. split; [exact (owner_tail _ _ _ How)|].
        unfold holds. cbn. rewrite !app_nil_r. repeat split. apply GathersOther; [exact I|constructor].
      - cbn [source_ok] in Hs. change (lit ":" ++ value) with (":"%char :: value). rewrite cut_app by exact Hs.
        eexists. split; [reflexivity|]. split; [exact (owner_tail _ _ _ How)|].
        unfold holds. cbn. rewrite !app_nil_r. repeat split.
        eapply GathersHeader; [apply headers_add_spec|constructor].
      - eexists. split; [reflexivity|]. split; [exact (owner_tail _ _ _ How)|].
        unfold holds. cbn. rewrite !app_nil_r. repeat split. apply GathersOther; [exact I|constructor].
      - destruct Hs as (H1 & H2 & H3 & H4 & H5 & H6).
        eexists. split; [exact (parse_mail_text nl mark fields body froms tos o H1 H2 H3 H4 H5 H6)|].
        rewrite set_froms. split.
        + assert (Hw : owner_ok (match froms with [] => op_from_owner o
                          | _ :: _ => match op_from_owner o with NotParser => NotParser | _ => Freed end end) l).
          { destruct froms as [|p ps]; [exact (owner_tail _ _ _ How)|].
            destruct (op_from_owner o); cbn [owner_ok] in *; [exact I| |].
            - intros a b x ->. specialize (How (SMail nl mark fields body (p :: ps) tos :: a) x b eq_refl).
              apply Forall_inv in How. now apply How.
            - intros a b x ->. exact (How (SMail nl mark fields body (p :: ps) tos :: a) b x eq_refl). }
          destruct froms, tos; exact Hw.
        + unfold holds. cbn [last_given flat_map recipient_in chunk_in recipients_in body_in]. rewrite !app_nil_r.
          assert (Hch : Forall chunk_short (body_part [] (split_lines body)))
            by (apply body_part_chunks; [apply split_lines_no_lf|left; cbn; discriminate]).
          assert (Hg : forall hs, gathers hs [SMail nl mark fields body froms tos] (hs ++ map (field_header nl) fields))
            by (intros hs; apply GathersMail; constructor).
          pose proof (body_text body) as Hb.
          destruct froms as [|p ps], tos as [|q qs]; cbn;
            (split; [reflexivity|]); (split; [reflexivity|]); (split; [reflexivity|]);
            (split; [apply Hg|]); (split; [reflexivity|]); eexists; (split; [reflexivity|]); split; assumption. }
    destruct Hstep as (o1 & E & Ho1 & H1). rewrite E. cbn [bind].
    destruct (IH o1 Hok Hap' Ho1) as (o' & E' & H'). exists o'. split; [exact E'|].
    clear - H1 H'. destruct H1 as (A1 & A2 & A3 & A4 & A5 & A6). destruct H' as (B1 & B2 & B3 & B4 & B5 & B6).
    cbn [last_given flat_map] in *. rewrite app_nil_r in A2, A5.
    assert (B2' : op_recipient_args o' = op_recipient_args o ++ recipient_in s ++ flat_map recipient_in l)
      by (now rewrite B2, A2, app_assoc).
    assert (B5' : op_chunk_args o' = op_chunk_args o ++ chunk_in s ++ flat_map chunk_in l)
      by (now rewrite B5, A5, app_assoc).
    unfold holds. cbn [last_given flat_map]. split; [|split; [exact B2'|split; [|split; [|split; [exact B5'|]]]]].
    + rewrite B1, A1. destruct (last_given sender_in l); [reflexivity|]. now destruct (sender_in s).
    + rewrite B3. destruct (last_given recipients_in l) as [[|ps]|] eqn:El; [reflexivity..|].
      rewrite A3. destruct (recipients_in s) as [[|ps]|]; [|reflexivity..].
      rewrite B2, (none_recipient l El). now rewrite app_nil_r.
    + exact (gathers_app _ [s] _ l _ A4 B4).
    + destruct (last_given body_in l) as [[|ps]|] eqn:El; [exact B6..|].
      destruct (body_in s) as [[|ps]|].
      * rewrite B6, A6. rewrite B5, (none_chunk l El). now rewrite app_nil_r.
      * destruct A6 as (cs & A6 & A7). exists cs. split; [congruence|exact A7].
      * congruence.
Qed.

Lemma lookup_field hs n :
  match headers_lookup hs n with
  | Some _ => exists x, In x hs /\ h_name x = n
  | None => forall x, In x hs -> h_name x <> n
  end.
Proof.
  induction hs as [|h hs IH]; [easy|]. cbn. destruct (bytes_eqb (h_name h) n) eqn:E.
  - apply bytes_eqb_eq in E. exists h. auto.
  - assert (h_name h <> n) by (intros H; apply bytes_eqb_eq in H; congruence).
    destruct (headers_lookup hs n).
    + destruct IH as (x & Hx & Hn). exists x. auto.
    + intros x [<-|Hx]; auto.
Qed.

(** The message that options give: the sender is the one given last, by an option or by the From field
    of a file; the recipients are those of the last file with To fields, or, when one was given by an
    option since, all those given by options; the body is that of the last file, or, when a chunk was
    given by an option since, all chunks given by options; the headers of options and files are all
    there; From and To are added when missing.  Addresses are in angle brackets. *)
Theorem C87_message l :
  Forall source_ok l -> senders_apart l ->
  exists m hs hs', message_of (map arg_of l) = Done m /\
    in_brackets (match last_given sender_in l with Some a => a | None => lit "sender@example.com" end)
                (msg_from m) /\
    Forall2 in_brackets (recipients_given l) (msg_recipients m) /\
    gathers [] l hs /\
    with_field (mk_header (lit "From") (Some (msg_from m))) hs hs' /\
    with_field (mk_header (lit "To") (nth_error (msg_recipients m) 0)) hs' (msg_headers m) /\
    match last_given body_in l with
    | Some (AtOnce body) => concat (msg_chunks m) = body /\ Forall chunk_short (msg_chunks m)
    | Some OneByOne => msg_chunks m = flat_map chunk_in l
    | None => msg_chunks m = [the_default_body]
    end.
Proof.
  intros Hok Hap. destruct (take_sources l no_options Hok Hap I) as (o & E & H1 & H2 & H3 & H4 & H5 & H6).
  set (hs2 := match headers_lookup (op_headers o) (lit "From") with
              | Some _ => op_headers o
              | None => headers_append (op_headers o) (lit "From") (Some (msg_from (finish o)))
              end).
  exists (finish o), (op_headers o), hs2.
  split; [unfold message_of; now rewrite E|].
  split. { cbn [msg_from finish]. rewrite H1. destruct (last_given sender_in l); apply normalize_brackets. }
  split.
  { cbn [msg_recipients finish]. unfold recipients_given. rewrite H3, H2.
    assert (K : forall l, Forall2 in_brackets l (map normalize l))
      by (induction l0; constructor; [apply normalize_brackets|assumption]).
    destruct (last_given recipients_in l) as [[|ps]|]; apply K. }
  split; [exact H4|]. split; [|split].
  - unfold with_field. cbn [h_name]. pose proof (lookup_field (op_headers o) (lit "From")) as H. unfold hs2.
    destruct (headers_lookup (op_headers o) (lit "From")); [left|right]; (split; [exact H|reflexivity]).
  - assert (Em : msg_headers (finish o) = match headers_lookup hs2 (lit "To") with
                 | Some _ => hs2
                 | None => headers_append hs2 (lit "To") (nth_error (msg_recipients (finish o)) 0) end)
      by reflexivity.
    rewrite Em. unfold with_field. cbn [h_name]. pose proof (lookup_field hs2 (lit "To")) as H.
    destruct (headers_lookup hs2 (lit "To")); [left|right]; (split; [exact H|reflexivity]).
  - cbn [msg_chunks finish]. destruct (last_given body_in l) as [[|body]|].
    + rewrite H6, H5. reflexivity.
    + destruct H6 as (cs & -> & H6). exact H6.
    + rewrite H6. reflexivity.
Qed.
Print Assumptions C87_message.

(** A header without a colon is refused, whatever else is given. *)
Theorem C87_header_refused l h more :
  Forall source_ok l -> senders_apart l -> ~ In ":"%char h ->
  message_of (map arg_of l ++ GHeader h :: more) = Invalid.
Proof.
  intros Hok Hap Hh. destruct (take_sources l no_options Hok Hap I) as (o & E & _).
  unfold message_of. assert (K : forall l1 l2 o, take_args o (l1 ++ l2) = bind (take_args o l1) (fun o => take_args o l2)).
  { induction l1 as [|a l1 IH]; intros l2 o1; [reflexivity|]. cbn [app take_args].
    destruct (take_arg o1 a); cbn [bind]; [apply IH|reflexivity..]. }
  rewrite K, E. cbn [bind take_args take_arg]. now rewrite cut_none.
Qed.
Print Assumptions C87_header_refused.

(** A file between options for the same things: its body is replaced by the chunks of both options, its
    recipients stay. *)
Definition letter : source :=
  SMail [lf] [] [mk_field (lit "To") [] (lit "al@y") []] (lit "text") [] [lit "<al@y>"].
Definition mixed : list source :=
  [SHeader (lit "Subject") (lit "hi"); SBody (lit "one"); SRecipient (lit "bo@z"); letter; SFrom (lit "<jo@x>");
   SHeader (lit "Subject") (lit "ho"); SBody (lit "two")].
Example C87_message_example :
  Forall source_ok mixed /\ senders_apart mixed /\
  message_of (map arg_of mixed) = Done (mk_message (lit "<jo@x>") [lit "<al@y>"]
    [mk_header (lit "Subject") (Some (lit "ho")); mk_header (lit "Subject") (Some (lit "hi"));
     mk_header (lit "To") (Some (lit "al@y")); mk_header (lit "From") (Some (lit "<jo@x>"))]
    [lit "one"; lit "two"]) /\
  message_of (map arg_of (mixed ++ [SRecipient (lit "cy@w"); letter; SRecipient (lit "dd@v")]))
  = Done (mk_message (lit "<jo@x>") [lit "<bo@z>"; lit "<cy@w>"; lit "<dd@v>"]
    [mk_header (lit "Subject") (Some (lit "ho")); mk_header (lit "Subject") (Some (lit "hi"));
     mk_header (lit "To") (Some (lit "al@y")); mk_header (lit "To") (Some (lit "al@y"));
     mk_header (lit "From") (Some (lit "<jo@x>"))]
    [lit "text"]).
Proof.
  split; [|split; [|split; vm_compute; reflexivity]].
  - unfold mixed, letter. repeat apply Forall_cons; try exact I; try apply Forall_nil; cbn [source_ok].
    + cbn; intuition discriminate.
    + repeat apply conj.
      * now left.
      * now left.
      * apply Forall_cons; [|apply Forall_nil]. unfold field_ok. cbn [f_name f_gap f_first f_more].
        split; [do 2 eexists; split; [reflexivity|unfold letter_or_digit; vm_compute; intuition discriminate]|].
        split; [repeat apply Forall_cons; try apply Forall_nil;
                (split; [unfold printable; vm_compute; split; discriminate|discriminate])|].
        split; [apply Forall_nil|]. split.
        { split; [cbn; intuition discriminate|split; [cbn; intuition discriminate|]].
          intros s E; apply (f_equal (@rev ascii)) in E; rewrite rev_app_distr in E; discriminate. }
        split; [intros c s E; injection E as <- _; vm_compute; reflexivity|apply Forall_nil].
      * cbn; intuition discriminate.
      * apply OtherField; [discriminate|constructor].
      * apply AddressField; [reflexivity| |constructor].
        apply (PathWord [] (lit "al@y") []); [constructor|cbn; intuition discriminate|now left|
          cbn; intuition discriminate|discriminate].
    + cbn; intuition discriminate.
  - intros a b c x y E. apply (f_equal (fun l => flat_map (fun s => match s with SFrom a => [a] | _ => [] end) l)) in E.
    rewrite flat_map_app in E. cbn [flat_map] in E. rewrite flat_map_app in E. cbn in E.
    destruct (flat_map _ a) as [|? [|]]; cbn in E; try discriminate;
      destruct (flat_map _ b) as [|? [|]]; discriminate.
Qed.

(** *** Macros *)

Lemma take_all_app l1 l2 : forall s, take_all s (l1 ++ l2) = bind (take_all s l1) (fun s => take_all s l2).
Proof.
  induction l1 as [|o l1 IH]; intros s; [reflexivity|]. cbn [app take_all].
  destruct (take s o); cbn [bind]; [apply IH|reflexivity..].
Qed.
Lemma take_snoc s l o s' :
  take_all s (l ++ [o]) = Done s' -> exists s1, take_all s l = Done s1 /\ take s1 o = Done s'.
Proof.
  rewrite take_all_app. destruct (take_all s l) as [s1| |]; cbn [bind take_all]; try discriminate.
  intros H. exists s1. split; [reflexivity|]. destruct (take s1 o); cbn [bind] in H; congruence.
Qed.
Lemma last_snoc {A B} (f : A -> option B) l x :
  last_given f (l ++ [x]) = match f x with Some y => Some y | None => last_given f l end.
Proof.
  induction l as [|y l IH]; cbn [app last_given]; [now destruct (f x)|]. rewrite IH. now destruct (f x).
Qed.

Definition text_names (text n : bytes) : option bytes :=
  match cut ":" text with Some (name, v) => if bytes_eqb name n then Some v else None | None => None end.
Lemma cut_spec c s a b : cut c s = Some (a, b) -> s = a ++ c :: b /\ ~ In c a.
Proof.
  revert a b. induction s as [|x s IH]; intros a b; cbn; [discriminate|].
  destruct (beqb x c) eqn:E.
  - intros [= <- <-]. apply Ascii.eqb_eq in E as ->. now split.
  - destruct (cut c s) as [[a' b']|]; [|discriminate]. intros [= <- <-].
    destruct (IH a' b' eq_refl) as [-> H]. split; [reflexivity|]. intros [->|H']; [|auto].
    unfold beqb in E. now rewrite Ascii.eqb_refl in E.
Qed.
Lemma cut_some c s : In c s -> cut c s <> None.
Proof.
  induction s as [|x s IH]; [easy|]. intros H. cbn. destruct (beqb x c) eqn:E; [discriminate|].
  destruct H as [->|H]; [unfold beqb in E; now rewrite Ascii.eqb_refl in E|].
  specialize (IH H). destruct (cut c s) as [[]|]; [discriminate|congruence].
Qed.
Lemma text_names_spec text n v : ~ In ":"%char n -> (text_names text n = Some v <-> text = n ++ lit ":" ++ v).
Proof.
  intros Hn. unfold text_names. split.
  - destruct (cut ":" text) as [[name w]|] eqn:E; [|discriminate].
    apply cut_spec in E as [-> _]. destruct (bytes_eqb name n) eqn:En; [|discriminate].
    apply bytes_eqb_eq in En as ->. now intros [= ->].
  - intros ->. change (lit ":" ++ v) with (":"%char :: v). rewrite cut_app by exact Hn. now rewrite bytes_eqb_refl.
Qed.

Definition macro_in (c : byte) (n : bytes) (o : opt) : option bytes :=
  match o with OMacro c' text => if beqb c' c then text_names text n else None | _ => None end.
Lemma macro_in_spec c n o v : ~ In ":"%char n -> (macro_in c n o = Some v <-> o = sets c n v).
Proof.
  intros Hn. split.
  - destruct o; try discriminate. cbn. destruct (beqb c0 c) eqn:E; [|discriminate].
    apply Ascii.eqb_eq in E as ->. intros H. apply text_names_spec in H; [|exact Hn]. now rewrite H.
  - intros ->. cbn. unfold beqb. rewrite Ascii.eqb_refl. now apply text_names_spec.
Qed.
Lemma last_macro l c n v : ~ In ":"%char n -> (last_given (macro_in c n) l = Some v <-> set_last l c n v).
Proof.
  intros Hn. induction l as [|o l IH] using rev_ind.
  - split; [discriminate|]. intros (a & b & E & _). now destruct a.
  - rewrite last_snoc. destruct (macro_in c n o) as [w|] eqn:Eo.
    + apply macro_in_spec in Eo as ->; [|exact Hn]. split.
      * intros [= ->]. exists l, []. split; [reflexivity|]. easy.
      * intros (a & b & E & Hb). destruct b as [|y b _] using rev_ind.
        -- apply app_inj_tail in E as [_ E].
           assert (macro_in c n (sets c n w) = Some w) by now apply macro_in_spec.
           assert (Hw : macro_in c n (sets c n v) = Some v) by now apply macro_in_spec. congruence.
        -- rewrite app_comm_cons, app_assoc in E. apply app_inj_tail in E as [_ <-].
           exfalso. apply (Hb w). rewrite in_app_iff. right. now left.
    + rewrite IH. split.
      * intros (a & b & -> & Hb). exists a, (b ++ [o]). rewrite <- app_assoc. split; [reflexivity|].
        intros w. rewrite in_app_iff. intros [H|[->|[]]]; [now apply (Hb w)|].
        assert (macro_in c n (sets c n w) = Some w) by now apply macro_in_spec. congruence.
      * intros (a & b & E & Hb). destruct b as [|y b _] using rev_ind.
        -- apply app_inj_tail in E as [_ ->].
           assert (macro_in c n (sets c n v) = Some v) by now apply macro_in_spec. congruence.
        -- rewrite app_comm_cons, app_assoc in E. apply app_inj_tail in E as [-> <-].
           exists a, b. split; [reflexivity|]. intros w H. apply (Hb w). rewrite in_app_iff. now left.
Qed.
Lemma no_macro l c n : ~ In ":"%char n -> (last_given (macro_in c n) l = None <-> forall w, ~ In (sets c n w) l).
Proof.
  intros Hn. induction l as [|o l IH]; [now split|]. cbn [last_given].
  split.
  - destruct (last_given (macro_in c n) l); [discriminate|]. intros H w [->|Hin].
    + assert (macro_in c n (sets c n w) = Some w) by now apply macro_in_spec. congruence.
    + now apply (proj1 IH eq_refl w).
  - intros H. destruct (last_given (macro_in c n) l) eqn:E.
    + exfalso. enough (Some b = None) by discriminate. apply IH. intros w Hw. apply (H w). now right.
    + destruct (macro_in c n o) eqn:Eo; [|reflexivity]. apply macro_in_spec in Eo; [|exact Hn].
      exfalso. apply (H b). now left.
Qed.

Lemma add_values_lookup l : forall t n, NoDup (map fst l) ->
  lookup (add_values t l) n = match lookup l n with Some v => Some v | None => lookup t n end.
Proof.
  unfold add_values. induction l as [|[k v] l IH]; intros t n H; [reflexivity|].
  cbn [fold_left fst snd lookup]. inversion H as [|? ? Hk Hl]; subst. rewrite IH by exact Hl. rewrite insert_lookup.
  destruct (bytes_eqb k n) eqn:E; [|reflexivity]. apply bytes_eqb_eq in E as ->.
  replace (lookup l n) with (@None bytes); [reflexivity|]. symmetry. clear -Hk.
  induction l as [|[k v] l IH]; [reflexivity|]. cbn in *. destruct (bytes_eqb k n) eqn:E.
  - apply bytes_eqb_eq in E. tauto.
  - apply IH. tauto.
Qed.
Lemma add_values_nodup l : forall t, NoDup (map fst t) -> NoDup (map fst (add_values t l)).
Proof.
  unfold add_values. induction l as [|[k v] l IH]; intros t H; [exact H|].
  cbn [fold_left fst snd]. apply IH. now apply insert_nodup.
Qed.

(** What the settings hold after the options [l]. *)
Definition settled (program_name : bytes) (l : list opt) (s : settings) : Prop :=
  (forall c n, ~ In ":"%char n ->
     lookup (st_macros s c) n = or (last_given (macro_in c n) l) (lookup (default_values program_name c) n)) /\
  (forall c n, In ":"%char n -> lookup (st_macros s c) n = None) /\
  (forall c, NoDup (map fst (st_macros s c))) /\
  take_args no_options (message_args l) = Done (st_message s) /\
  st_name s = last_given auth_name l /\ st_type s = last_given auth_type l /\
  st_author s = last_given auth_author l /\
  st_host s = last_given host_in l /\ st_address s = last_given address_in l /\
  st_helo s = last_given helo_in l /\ st_unknown s = last_given unknown_in l /\
  st_version s = or_default 6 (last_given version_in l) /\
  to_connection (st_timeouts s) = or_default 300%Q (last_given (seconds_in ConnectionTimeout) l) /\
  to_reading (st_timeouts s) = or_default 10%Q (last_given (seconds_in ReadingTimeout) l) /\
  to_writing (st_timeouts s)
  = or_default 10%Q (last_given (fun o => or (seconds_in WritingTimeout o) (seconds_in EndOfMessageTimeout o)) l) /\
  to_end_of_message (st_timeouts s) = 300%Q /\
  st_all s = or_default (-1)%Q (last_given (seconds_in AllTimeouts) l).

Lemma take_args_snoc l a : forall o,
  take_args o (l ++ [a]) = bind (take_args o l) (fun o => take_arg o a).
Proof.
  induction l as [|b l IH]; intros o; cbn [app take_args].
  - cbn [bind]. now destruct (take_arg o a).
  - destruct (take_arg o b); cbn [bind]; [apply IH|reflexivity..].
Qed.
Lemma default_nodup p c : NoDup (map fst (default_values p c)).
Proof.
  unfold default_values.
  repeat match goal with |- context[if ?b then _ else _] => destruct b end; cbn [map fst];
    repeat (apply NoDup_cons; [cbn; intros H; repeat destruct H as [H|H]; discriminate || exact H|]); apply NoDup_nil.
Qed.
Lemma default_colon p c n : In ":"%char n -> lookup (default_values p c) n = None.
Proof.
  intros H. unfold default_values.
  repeat match goal with |- context[if ?b then _ else _] =>
    lazymatch b with context[bytes_eqb] => fail | _ => destruct b end end; cbn [lookup];
    repeat match goal with |- context[bytes_eqb ?a n] =>
      let E := fresh in destruct (bytes_eqb a n) eqn:E;
      [apply bytes_eqb_eq in E; subst n; exfalso; cbn in H; intuition discriminate|clear E] end; reflexivity.
Qed.

Lemma options_settled p l : forall s, parse_options p l = Done s -> settled p l s.
Proof.
  unfold parse_options. induction l as [|o l IH] using rev_ind; intros s H.
  - injection H as <-. unfold settled. cbn. repeat apply conj; try reflexivity.
    + intros c n _. rewrite add_values_lookup by apply default_nodup. now destruct (lookup _ _).
    + intros c n Hn. rewrite add_values_lookup by apply default_nodup. now rewrite default_colon.
    + intros c. apply add_values_nodup. apply NoDup_nil.
  - apply take_snoc in H as (s1 & E & H). specialize (IH s1 E). clear E.
    destruct IH as (A & A1 & A2 & A3 & A4 & A5 & A6 & A7 & A8 & A9 & A10 & A11 & A12 & A13 & A14 & A15 & A16).
    unfold settled, message_args. rewrite flat_map_app. cbn [flat_map]. rewrite app_nil_r.
    fold (message_args l). rewrite !last_snoc.
    assert (B : (forall c t, o <> OMacro c t) -> st_macros s = st_macros s1 ->
       (forall c n, ~ In ":"%char n ->
          lookup (st_macros s c) n = or (last_given (macro_in c n) (l ++ [o])) (lookup (default_values p c) n)) /\
       (forall c n, In ":"%char n -> lookup (st_macros s c) n = None) /\
       (forall c, NoDup (map fst (st_macros s c)))).
    { intros Ho ->. repeat apply conj; try assumption. intros c n Hn. rewrite last_snoc.
      replace (macro_in c n o) with (@None bytes); [auto|]. destruct o; try reflexivity. now elim (Ho c0 text). }
    assert (B' : st_macros s = st_macros s1 -> st_message s = st_message s1 -> (forall c t, o <> OMacro c t) ->
       (forall c n, ~ In ":"%char n ->
          lookup (st_macros s c) n = or (last_given (macro_in c n) (l ++ [o])) (lookup (default_values p c) n)) /\
       (forall c n, In ":"%char n -> lookup (st_macros s c) n = None) /\
       (forall c, NoDup (map fst (st_macros s c))) /\ take_args no_options (message_args l ++ []) = Done (st_message s)).
    { intros E1 E2 E3. destruct (B E3 E1) as (B1 & B2 & B3). rewrite app_nil_r, E2. auto. }
    destruct o; cbn [take] in H.
    + destruct (take_arg (st_message s1) a) as [m| |] eqn:Ea; cbn [bind] in H; try discriminate.
      injection H as <-. destruct B as (B1 & B2 & B3); [discriminate|reflexivity|].
      cbn [auth_name auth_type auth_author host_in address_in helo_in unknown_in version_in seconds_in or].
      repeat apply conj; try assumption.
      rewrite take_args_snoc, A3. exact Ea.
    + unfold parse_macro in H. destruct text as [|x text]; [discriminate|].
      destruct (cut ":" (x :: text)) as [[name value]|] eqn:Ec; cbn [bind] in H; try discriminate.
      injection H as <-.
      cbn [auth_name auth_type auth_author host_in address_in helo_in unknown_in version_in seconds_in or].
      rewrite app_nil_r. repeat apply conj; try assumption.
      * intros c0 n Hn. rewrite last_snoc. cbn [macro_in st_macros st_put_macros].
        unfold beqb. rewrite (Ascii.eqb_sym c0 c). destruct (Ascii.eqb c c0) eqn:Eb; [|now apply A].
        apply Ascii.eqb_eq in Eb as <-. unfold text_names. rewrite Ec, insert_lookup.
        destruct (bytes_eqb name n); [reflexivity|now apply A].
      * intros c0 n Hn. cbn [st_macros st_put_macros]. destruct (beqb c0 c); [|now apply A1].
        rewrite insert_lookup. destruct (bytes_eqb name n) eqn:E; [|now apply A1].
        apply bytes_eqb_eq in E as ->. apply cut_spec in Ec as [_ Ec]. contradiction.
      * intros c0. cbn [st_macros st_put_macros]. destruct (beqb c0 c); [|apply A2]. apply insert_nodup, A2.
    + injection H as <-. destruct B' as (B1 & B2 & B3 & B4); try reflexivity; [discriminate|]. repeat apply conj; assumption || reflexivity.
    + injection H as <-. destruct B' as (B1 & B2 & B3 & B4); try reflexivity; [discriminate|]. repeat apply conj; assumption || reflexivity.
    + injection H as <-. destruct B' as (B1 & B2 & B3 & B4); try reflexivity; [discriminate|]. repeat apply conj; assumption || reflexivity.
    + injection H as <-. destruct B' as (B1 & B2 & B3 & B4); try (destruct t; reflexivity); [discriminate|].
      destruct t; repeat apply conj; assumption || reflexivity.
    + injection H as <-. destruct B' as (B1 & B2 & B3 & B4); try reflexivity; [discriminate|]. repeat apply conj; assumption || reflexivity.
    + injection H as <-. destruct B' as (B1 & B2 & B3 & B4); try reflexivity; [discriminate|]. repeat apply conj; assumption || reflexivity.
    + injection H as <-. destruct B' as (B1 & B2 & B3 & B4); try reflexivity; [discriminate|]. repeat apply conj; assumption || reflexivity.
    + injection H as <-. destruct B' as (B1 & B2 & B3 & B4); try reflexivity; [discriminate|]. repeat apply conj; assumption || reflexivity.
    + injection H as <-. destruct B' as (B1 & B2 & B3 & B4); try reflexivity; [discriminate|]. repeat apply conj; assumption || reflexivity.
Qed.

Lemma default_usual p c n v : lookup (default_values p c) n = Some v <-> In (c, n, v) (usual_macros p).
Proof.
  assert (K : forall l, NoDup (map fst l) -> lookup l n = Some v <-> In (n, v) l).
  { induction l as [|[k w] l IH]; intros Hd; cbn; [now split|]. inversion Hd as [|? ? Hk Hl]; subst.
    destruct (bytes_eqb k n) eqn:E.
    - apply bytes_eqb_eq in E as ->. split; [intros [= ->]; now left|].
      intros [[= ->]|H]; [reflexivity|]. exfalso. apply Hk. apply in_map_iff. now exists (n, v).
    - rewrite IH by exact Hl. split; [now right|]. intros [[= <- <-]|H]; [|exact H]. now rewrite bytes_eqb_refl in E. }
  rewrite K by apply default_nodup. clear K.
  unfold default_values, usual_macros. split.
  - intros H.
    repeat match type of H with In _ (if ?b then _ else _) =>
      let E := fresh "E" in destruct b eqn:E;
      [repeat (apply orb_true_iff in E as [E|E]); apply Ascii.eqb_eq in E; subst c|] end;
      cbn [In] in H; repeat destruct H as [H|H]; try contradiction; injection H as <- <-; cbn [In]; tauto.
  - intros H. cbn [In] in H. repeat destruct H as [H|H]; try contradiction; injection H as <- <- <-; cbn; tauto.
Qed.
Lemma authenticated_nodup s : NoDup (map fst (authenticated s)).
Proof.
  unfold authenticated, given. destruct (st_name s), (st_type s), (st_author s); cbn [map fst app];
    repeat (apply NoDup_cons; [cbn; intros H; repeat destruct H as [H|H]; discriminate || exact H|]); apply NoDup_nil.
Qed.

(** The tables of macros, for every list of options that is accepted: exactly the macros given, each
    once; a name never has a colon in it. *)
Theorem C87_macros program_name l s :
  parse_options program_name l = Done s ->
  forall c, NoDup (map fst (pl_macros (plan_of s) c)) /\
    forall n v, lookup (pl_macros (plan_of s) c) n = Some v <->
                ~ In ":"%char n /\ macro_given program_name l c n v.
Proof.
  intros H c. apply options_settled in H. destruct H as (A & A1 & A2 & _ & A4 & A5 & A6 & _).
  cbn [plan_of pl_macros].
  assert (Hbase : forall n v, lookup (st_macros s c) n = Some v <->
     ~ In ":"%char n /\ (set_last l c n v \/
       (forall w, ~ In (sets c n w) l) /\ In (c, n, v) (usual_macros program_name))).
  { intros n v. destruct (in_dec Ascii.ascii_dec ":"%char n) as [Hn|Hn].
    - rewrite A1 by exact Hn. split; [discriminate|]. intros [Hn' _]. contradiction.
    - rewrite A by exact Hn. rewrite <- (last_macro l c n v Hn), <- (no_macro l c n Hn), <- default_usual.
      destruct (last_given (macro_in c n) l); cbn [or]; intuition congruence. }
  destruct (beqb c "M") eqn:Ec.
  - apply Ascii.eqb_eq in Ec as ->. split; [apply add_values_nodup, A2|]. intros n v.
    rewrite add_values_lookup by apply authenticated_nodup.
    assert (Hauth : forall w, lookup (authenticated s) n = Some w <-> auth_macro l n w).
    { intros w. unfold auth_macro. rewrite <- A4, <- A5, <- A6. unfold authenticated, given.
      destruct (st_name s) as [x|], (st_type s) as [y|], (st_author s) as [z|]; cbn [app lookup];
      repeat match goal with |- context[bytes_eqb ?a n] =>
        let E := fresh in destruct (bytes_eqb a n) eqn:E;
        [apply bytes_eqb_eq in E; subst n|apply bytes_eqb_neq in E] end;
      (split; [intros HH; try discriminate HH; injection HH as <-; tauto|
               intros [[E1 E2]|[[E1 E2]|[E1 E2]]]; (congruence || discriminate E1)]). }
    unfold macro_given. destruct (lookup (authenticated s) n) as [w|] eqn:Ea.
    + pose proof (proj1 (Hauth w) eq_refl) as Hw. split.
      * intros [= ->]. split; [|left; auto].
        destruct Hw as [[-> _]|[[-> _]|[-> _]]]; cbn; intuition discriminate.
      * intros (_ & [[_ H]|[H _]]); [|now elim (H eq_refl w)].
        apply Hauth in H. congruence.
    + rewrite Hbase. split.
      * intros (Hn & H). split; [exact Hn|]. right. split; [|exact H]. intros _ w Hw. apply Hauth in Hw. congruence.
      * intros (Hn & [[_ H]|[_ H]]); [apply Hauth in H; congruence|]. now split.
  - split; [apply A2|]. intros n v. rewrite Hbase. unfold macro_given.
    assert (Hc : c <> "M"%char) by (intros ->; discriminate Ec).
    split; intros (Hn & H); (split; [exact Hn|]); [right; split; [intros E; contradiction|exact H]|].
    destruct H as [[E _]|[_ H]]; [contradiction|exact H].
Qed.
Print Assumptions C87_macros.

(** A macro without a colon is refused. *)
Theorem C87_macro_refused program_name l s c text more :
  parse_options program_name l = Done s -> text <> [] -> ~ In ":"%char text ->
  parse_options program_name (l ++ OMacro c text :: more) = Invalid.
Proof.
  unfold parse_options. intros H Hne Hc. rewrite take_all_app, H. cbn [bind take_all take]. unfold parse_macro.
  destruct text; [congruence|]. now rewrite cut_none.
Qed.
Print Assumptions C87_macro_refused.
(** But an empty one reads behind the list it was split into. *)
Theorem C87_empty_macro_refuted program_name l s c more :
  parse_options program_name l = Done s ->
  parse_options program_name (l ++ OMacro c [] :: more) = Crashed.
Proof. unfold parse_options. intros H. rewrite take_all_app, H. reflexivity. Qed.
Print Assumptions C87_empty_macro_refuted.

(** Everything else: the option given last, or a default. *)
Theorem C87_plan program_name l s :
  parse_options program_name l = Done s ->
  message_of (message_args l) = Done (pl_message (plan_of s)) /\
  pl_host (plan_of s) = or_default (lit "mx.example.net") (last_given host_in l) /\
  pl_address (plan_of s)
  = or_default (AInet (byte_of 197, byte_of 11) (map byte_of [192; 168; 123; 123])) (last_given address_in l) /\
  pl_helo (plan_of s) = or_default (lit "delian") (last_given helo_in l) /\
  pl_unknown (plan_of s) = last_given unknown_in l /\
  pl_version (plan_of s) = or_default 6 (last_given version_in l).
Proof.
  intros H. apply options_settled in H.
  destruct H as (A & A1 & A2 & A3 & A4 & A5 & A6 & A7 & A8 & A9 & A10 & A11 & _).
  cbn [plan_of pl_message pl_host pl_address pl_helo pl_unknown pl_version]. rewrite A7, A8, A9, A10, A11.
  unfold message_of. rewrite A3. repeat apply conj; reflexivity.
Qed.
Print Assumptions C87_plan.

(** The timeouts: the one for all counts when it is not negative.  What is missing: the end of the
    message, see below. *)
Theorem C87_timeouts_partial program_name l s :
  parse_options program_name l = Done s ->
  (forall v, ~ In (OTimeout EndOfMessageTimeout v) l) ->
  let t := context_timeouts s in
  match last_given (seconds_in AllTimeouts) l with
  | Some v => (0 <= v)%Q ->
      to_connection t = v /\ to_reading t = v /\ to_writing t = v /\ to_end_of_message t = v
  | None => True
  end /\
  ((forall v, last_given (seconds_in AllTimeouts) l = Some v -> (v < 0)%Q) ->
   to_connection t = or_default 300%Q (last_given (seconds_in ConnectionTimeout) l) /\
   to_reading t = or_default 10%Q (last_given (seconds_in ReadingTimeout) l) /\
   to_writing t = or_default 10%Q (last_given (seconds_in WritingTimeout) l) /\
   to_end_of_message t = 300%Q).
Proof.
  intros H Hno. apply options_settled in H.
  destruct H as (_ & _ & _ & _ & _ & _ & _ & _ & _ & _ & _ & _ & A12 & A13 & A14 & A15 & A16).
  cbv zeta. unfold context_timeouts. split.
  - destruct (last_given (seconds_in AllTimeouts) l) as [v|]; [|exact I]. intros Hv. cbn [or_default] in A16.
    rewrite A16. apply Qle_bool_iff in Hv. rewrite Hv. now repeat apply conj.
  - intros Hv. replace (Qle_bool 0 (st_all s)) with false.
    + repeat apply conj; try assumption. rewrite A14. clear - Hno. f_equal.
      induction l as [|o l IH]; [reflexivity|]. cbn [last_given].
      rewrite IH by (intros v Hv; apply (Hno v); now right).
      destruct (last_given (seconds_in WritingTimeout) l); [reflexivity|].
      destruct o as [| | | | |[] x| | | | |]; try reflexivity. exfalso. apply (Hno x). now left.
    + symmetry. apply not_true_iff_false. rewrite Qle_bool_iff, A16.
      destruct (last_given (seconds_in AllTimeouts) l) as [v|]; cbn [or_default].
      * specialize (Hv v eq_refl). now apply Qlt_not_le.
      * apply Qlt_not_le. reflexivity.
Qed.
Print Assumptions C87_timeouts_partial.

(** --end-of-message-timeout sets the timeout for writing; that for the end of the message stays. *)
Theorem C87_end_of_message_timeout_refuted program_name l s v :
  parse_options program_name l = Done s ->
  (forall w, ~ In (OTimeout AllTimeouts w) l) ->
  exists s', parse_options program_name (l ++ [OTimeout EndOfMessageTimeout v]) = Done s' /\
    to_end_of_message (context_timeouts s') = 300%Q /\ to_writing (context_timeouts s') = v.
Proof.
  intros H Hno. pose proof (options_settled _ _ _ H) as Hs.
  destruct Hs as (_ & _ & _ & _ & _ & _ & _ & _ & _ & _ & _ & _ & _ & _ & _ & A15 & A16).
  unfold parse_options in *. rewrite take_all_app, H. eexists. split; [reflexivity|].
  unfold context_timeouts. cbn [take_timeout st_all st_put_timeouts].
  replace (last_given (seconds_in AllTimeouts) l) with (@None Q) in A16.
  - rewrite A16. split; [exact A15|reflexivity].
  - symmetry. clear - Hno. induction l as [|o l IH]; [reflexivity|]. cbn [last_given].
    rewrite IH by (intros v Hv; apply (Hno v); now right).
    destruct o as [| | | | |[] x| | | | |]; try reflexivity. exfalso. apply (Hno x). now left.
Qed.
Print Assumptions C87_end_of_message_timeout_refuted.

Definition some_options : list opt :=
  [OMacro "M"%char (lit "{mail_addr}:a:b"); OMacro "M"%char (lit "{auth_type}:PLAIN"); OAuthenticatedType (lit "CRAM");
   OMacro "C"%char (lit "x:1"); OMacro "C"%char (lit "x:2"); OTimeout ReadingTimeout 5; OTimeout AllTimeouts (-1);
   OTimeout ReadingTimeout 7; OHelo (lit "me"); OMessage (GFrom (lit "a@b"))].
Example C87_options_example :
  exists s, parse_options (lit "test") some_options = Done s /\
    pl_macros (plan_of s) "M"%char
    = [(lit "{mail_mailer}", lit "mail_mailer"); (lit "{mail_host}", lit "mail_host"); (lit "{mail_addr}", lit "a:b");
       (lit "{auth_type}", lit "CRAM")] /\
    lookup (pl_macros (plan_of s) "C"%char) (lit "x") = Some (lit "2") /\
    pl_helo (plan_of s) = lit "me" /\ pl_host (plan_of s) = lit "mx.example.net" /\
    msg_from (pl_message (plan_of s)) = lit "<a@b>" /\
    to_reading (context_timeouts s) = 7%Q /\ to_connection (context_timeouts s) = 300%Q.
Proof. eexists. split; [vm_compute; reflexivity|]. repeat apply conj; vm_compute; reflexivity. Qed.
