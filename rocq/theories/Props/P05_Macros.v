(** C18, C19, C20: macro lookup, macro requests and the macros in front of a command. *)
From Coq Require Import Permutation.
From Verif.Base Require Import Bytes BytesFacts.
From Verif.Model Require Import Decoder Encoder CommandCodec ReplyCodec Macros.
From Verif.Spec Require Import FrameSpec CommandGrammar MacroSpec.
From Verif.Proofs Require Import CommandStream CodecLemmas ExampleOracles MacroProofs.

(** *** C18 *)

(** After any history of define-macro, single updates, stage changes and resets a lookup gives
    the value the specification says.  Histories are oldest first, the specification reads
    them newest first. *)
Theorem C18_lookup ops name r :
  Forall is_table ops -> Forall (fun o => forall c l, o <> OSetMany c l) ops ->
  fst (get_macro (macro_run ops) name) = r <-> answer (rev ops) name r.
Proof.
  intros H1 H2. rewrite macro_run_after. apply get_macro_answer; [apply Forall_rev, H1|].
  apply Forall_rev in H2. induction H2 as [|o h Ho Hh IH]; [constructor|].
  destruct o; try (apply settled_other; congruence). apply settled_get. exact IH.
Qed.
Print Assumptions C18_lookup.

(** With the set-macros call too, provided some other call than a lookup follows it. *)
Theorem C18_lookup_settled ops name r :
  Forall is_table ops -> settled (rev ops) ->
  fst (get_macro (macro_run ops) name) = r <-> answer (rev ops) name r.
Proof.
  intros H1 H2. rewrite macro_run_after. apply get_macro_answer; [apply Forall_rev, H1|exact H2].
Qed.
Print Assumptions C18_lookup_settled.

(** After the end of a message, at any later stage, exactly the macros of the connect and HELO
    stages are left. *)
Theorem C18_message_end ops c name :
  Forall is_table ops -> c <> "C"%char ->
  fst (get_macro (macro_run (ops ++ [OClearMessage; OContext c])) name) =
  fst (get_macro (macro_run (ops ++ [OContext "H"%char])) name).
Proof.
  intros H Hc. rewrite !macro_run_after, !rev_app_distr.
  apply get_after_message; [apply Forall_rev, H|exact Hc].
Qed.
Print Assumptions C18_message_end.

(** A value set by set-macros after a lookup is not seen. *)
Theorem C18_set_macros_refuted :
  exists ops name v, answer (rev ops) name (Some v) /\ fst (get_macro (macro_run ops) name) = None.
Proof.
  exists [OGet (lit "i"); OSetMany "M"%char [(lit "i", Some (lit "q1"))]], (lit "i"), (lit "q1").
  split; [|reflexivity].
  apply answer_name. exists "U"%char, ["C"; "H"]%char, "M"%char, ["R"; "T"; "L"; "N"; "B"; "E"]%char.
  split; [repeat (apply current_older; [congruence|]); constructor|].
  split; [apply not_after_other; cbn; intuition discriminate|].
  split; [apply (latest_set_many [] []); intros []|].
  intros x v' Hx H. inversion H as [| |b a h c n v Hn E1 E2|o h c n v Hn Ho]; subst.
  - cbn in Hx. intuition discriminate.
  - inversion Ho as [| | |o h c n v Hn' Ho']; subst. inversion Ho'.
Qed.
Print Assumptions C18_set_macros_refuted.

(** Macros defined for an unknown SMTP command are never seen, not even at that stage. *)
Theorem C18_unknown_stage_refuted :
  exists t n v, In (n, v) t /\
    fst (get_macro (macro_run [ODefine "U"%char t; OContext "U"%char]) n) = None.
Proof.
  exists [(lit "i", lit "q1")], (lit "i"), (lit "q1"). split; [left; reflexivity|reflexivity].
Qed.
Print Assumptions C18_unknown_stage_refuted.

Example C18_example :
  let ops := [ODefine "C"%char [(lit "j", lit "mx"); (lit "client_addr", lit "10.0.0.1")]; OContext "C"%char;
              OGet (lit "j"); ODefine "M"%char [(lit "i", lit "q1"); (lit "j", lit "mx2")];
              ODefine "R"%char [(lit "rcpt_addr", lit "a@b")]; OContext "M"%char] in
  Forall is_table ops /\
  fst (get_macro (macro_run ops) (lit "j")) = Some (lit "mx2") /\
  fst (get_macro (macro_run ops) (lit "{client_addr}")) = Some (lit "10.0.0.1") /\
  fst (get_macro (macro_run ops) (lit "rcpt_addr")) = None /\
  fst (get_macro (macro_run (ops ++ [OClearMessage; OContext "R"%char])) (lit "i")) = None /\
  fst (get_macro (macro_run (ops ++ [OClearMessage; OContext "R"%char])) (lit "j")) = Some (lit "mx").
Proof.
  cbv zeta. split; [|repeat split].
  repeat constructor; cbn; intuition discriminate.
Qed.

(** *** C19 *)

(** [collate_equal] is string comparison by g_utf8_collate; in the locales where only equal
    strings collate as equal: *)
Theorem C19_union collate_equal dest src c s :
  (forall a b, collate_equal a b = true <-> a = b) -> NoDup (map fst src) ->
  requested (requests_merge collate_equal dest src) c s <-> requested dest c s \/ requested src c s.
Proof. intros H1 H2. exact (requests_merge_requested collate_equal H1 src dest c s H2). Qed.
Print Assumptions C19_union.

Theorem C19_each_once collate_equal dest src :
  (forall a b, collate_equal a b = true <-> a = b) ->
  each_once dest -> each_once (requests_merge collate_equal dest src).
Proof. intros H. exact (requests_merge_once collate_equal H src dest). Qed.
Print Assumptions C19_each_once.

(** The requests of any number of filters, merged into a new table in any order. *)
Theorem C19_all_filters collate_equal filters :
  (forall a b, collate_equal a b = true <-> a = b) ->
  Forall (fun r : requests => NoDup (map fst r)) filters ->
  each_once (fold_left (requests_merge collate_equal) filters []) /\
  forall c s, requested (fold_left (requests_merge collate_equal) filters []) c s <->
              exists r, In r filters /\ requested r c s.
Proof.
  intros Hc Hf.
  assert (G : forall dest, each_once dest ->
    each_once (fold_left (requests_merge collate_equal) filters dest) /\
    forall c s, requested (fold_left (requests_merge collate_equal) filters dest) c s <->
                requested dest c s \/ exists r, In r filters /\ requested r c s).
  { induction Hf as [|r filters Hr Hf IH]; intros dest Hd; cbn [fold_left].
    - split; [exact Hd|]. intros c s. split; [auto|]. intros [H|(r & [] & _)]. exact H.
    - destruct (IH (requests_merge collate_equal dest r)) as [H1 H2].
      { apply C19_each_once; assumption. }
      split; [exact H1|]. intros c s. rewrite H2, C19_union by assumption. split.
      + intros [[H|H]|(r' & H & H')]; [auto| |]; right.
        * exists r. split; [left; reflexivity|exact H].
        * exists r'. split; [right; exact H|exact H'].
      + intros [H|(r' & [<-|H] & H')]; [auto|auto|]. right. exists r'. auto. }
  destruct (G []) as [H1 H2].
  { split; [constructor|]. intros c l [=]. }
  split; [exact H1|]. intros c s. rewrite H2. split; [|auto].
  intros [(l & [=] & _)|H]. exact H.
Qed.
Print Assumptions C19_all_filters.

Theorem C19_idempotent collate_equal dest src c :
  (forall a b, collate_equal a b = true <-> a = b) -> NoDup (map fst src) ->
  get_symbols (requests_merge collate_equal (requests_merge collate_equal dest src) src) c =
  get_symbols (requests_merge collate_equal dest src) c.
Proof. intros H1 H2. exact (merge_twice collate_equal H1 dest src c H2). Qed.
Print Assumptions C19_idempotent.

(** In a locale where two different names collate as equal one of the requests is lost. *)
Theorem C19_collation_refuted collate_equal a b :
  collate_equal a b = true -> a <> b ->
  exists dest src, requested src "M"%char b /\
    ~ requested (requests_merge collate_equal dest src) "M"%char b.
Proof.
  intros H Hn. exists [("M"%char, [a])], [("M"%char, [b])]. split.
  - exists [b]. split; [reflexivity|left; reflexivity].
  - intros (l & Hl & Hi). cbn in Hl. rewrite H in Hl. cbn in Hl. injection Hl as <-.
    destruct Hi as [Hi|[]]. congruence.
Qed.
Print Assumptions C19_collation_refuted.

Example C19_example :
  requests_merge bytes_eqb [("C"%char, [lit "j"; lit "{if_addr}"])]
    [("M"%char, [lit "i"]); ("C"%char, [lit "{if_addr}"; lit "_"; lit "_"])] =
  [("C"%char, [lit "j"; lit "{if_addr}"; lit "_"]); ("M"%char, [lit "i"])].
Proof. reflexivity. Qed.

(** *** C20 *)

(** [latest (rev ops) c n v]: macro [n] was last defined as [v] for command [c]. *)
Theorem C20_requested_only ops reqs c :
  Forall is_table ops ->
  match fst (macros_before (macro_run ops) reqs c) with
  | Some t =>
      t <> [] /\ NoDup (map fst t) /\
      forall n v, lookup t n = Some v <->
        latest (rev ops) c n v /\ match reqs with Some r => requested r c n | None => True end
  | None =>
      forall n v, latest (rev ops) c n v ->
        match reqs with Some r => ~ requested r c n | None => False end
  end.
Proof.
  intros H. rewrite macro_run_after. apply macros_before_spec, Forall_rev, H.
Qed.
Print Assumptions C20_requested_only.

(** The write for command [c] is received, however it is split, as the define-macro with these
    macros followed by the command. *)
Theorem C20_one_write ntop4 ntop6 pton4 pton6 sort_keys a reqs ctx t c buf chunks :
  (forall l, Permutation (sort_keys l) l) ->
  prints_back ntop4 pton4 4 -> prints_back ntop6 pton6 16 ->
  fst (macros_before a reqs ctx) = Some t ->
  sendable (CDefineMacro ctx t) -> sendable c -> is_negotiate c = false ->
  let write := prepend_macro ntop4 ntop6 sort_keys a reqs ctx
                 (encode_command ntop4 ntop6 sort_keys buf c) in
  Forall (fun x => (zlen (command_payload ntop4 ntop6 sort_keys x) < 2147483648)%Z) [CDefineMacro ctx t; c] ->
  concat chunks = write -> fits write ->
  exists d t' c' rs,
    feeds (command_handler pton4 pton6) decoder_new chunks = (Some d, [CDefineMacro ctx t'; c'], rs) /\
    same_table t t' /\ same_command c c' /\ end_decode d = (true, None).
Proof.
  intros H1 H2 H3 Ht Hs Hc Hn write Hl Hch Hf.
  assert (E : write = concat (encode_commands ntop4 ntop6 sort_keys [] [CDefineMacro ctx t; c])).
  { unfold write, prepend_macro. rewrite Ht. cbn [encode_commands concat]. rewrite app_nil_r.
    f_equal. destruct c; try reflexivity. discriminate. }
  destruct (session_received ntop4 ntop6 pton4 pton6 sort_keys H1 H2 H3
              [CDefineMacro ctx t; c] chunks) as (d & cs' & rs & Hfe & Hsame & _ & Hend).
  - constructor; [exact Hs|]. constructor; [exact Hc|constructor].
  - constructor; [exact Hn|constructor].
  - exact Hl.
  - rewrite Hch, E. reflexivity.
  - rewrite Hch. exact Hf.
  - inversion Hsame as [|x y l l' Hxy Hll]; subst. inversion Hll as [|x' y' l'' l''' Hxy' Hll']; subst.
    inversion Hll'; subst. destruct y as [| ctx' t'| | | | | | | | | | | |]; cbn in Hxy; try discriminate Hxy.
    destruct Hxy as [<- Hst]. exists d, t', y', rs. repeat split; assumption.
Qed.
Print Assumptions C20_one_write.

(** Macro names in braces: the MTA's "{rcpt_addr}" is stored as "rcpt_addr", while the symbol a
    filter requests keeps its braces, so the requested macro is not sent. *)
Theorem C20_braces_refuted :
  exists mta_packet filter_packet name value c,
    mta_packet = lit "DR" ++ name ++ [NUL] ++ value ++ [NUL] /\
    filter_packet = "O"%char :: be32 6 ++ be32 0 ++ be32 0 ++ be32 3 ++ name ++ [NUL] /\
    c = "R"%char /\
    exists t o r,
      command_handler (fun _ => None) (fun _ => None) mta_packet (zlen mta_packet) = HOk [CDefineMacro c t] None /\
      reply_handler filter_packet (zlen filter_packet) = HOk [RNegotiate o (Some r)] None /\
      fst (macros_before (macro_run [ODefine c t]) (Some r) c) = None.
Proof.
  exists (lit "DR{rcpt_addr}" ++ [NUL] ++ lit "a@b" ++ [NUL]),
         ("O"%char :: be32 6 ++ be32 0 ++ be32 0 ++ be32 3 ++ lit "{rcpt_addr}" ++ [NUL]),
         (lit "{rcpt_addr}"), (lit "a@b"), "R"%char.
  split; [reflexivity|]. split; [reflexivity|]. split; [reflexivity|].
  exists [(lit "rcpt_addr", lit "a@b")], (mk_option 6 0 0), [("R"%char, [lit "{rcpt_addr}"])].
  split; [vm_compute; reflexivity|]. split; vm_compute; reflexivity.
Qed.
Print Assumptions C20_braces_refuted.

Example C20_example :
  let ops := [ODefine "M"%char [(lit "i", lit "q1"); (lit "mail_addr", lit "a@b")]] in
  Forall is_table ops /\
  fst (macros_before (macro_run ops) (Some [("M"%char, [lit "mail_addr"; lit "x"])]) "M"%char) = Some [(lit "mail_addr", lit "a@b")] /\
  fst (macros_before (macro_run ops) (Some [("R"%char, [lit "i"])]) "M"%char) = None /\
  fst (macros_before (macro_run ops) None "M"%char) = Some [(lit "i", lit "q1"); (lit "mail_addr", lit "a@b")] /\
  snd (fst (feeds (command_handler (toy_pton 4) (toy_pton 16)) decoder_new
    [prepend_macro toy_ntop toy_ntop toy_sort (macro_run ops) None "M"%char
       (encode_command toy_ntop toy_ntop toy_sort [] (CEnvelopeFrom (lit "<a@b>")))])) =
  [CDefineMacro "M"%char [(lit "mail_addr", lit "a@b"); (lit "i", lit "q1")]; CEnvelopeFrom (lit "<a@b>")].
Proof.
  cbv zeta. split; [repeat constructor; cbn; intuition discriminate|].
  repeat split; vm_compute; reflexivity.
Qed.
