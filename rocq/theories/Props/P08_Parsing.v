(** C34, C35, C36, C49: envelope arguments, connection specs, file modes and flag lists. *)
From Verif.Base Require Import Bytes BytesFacts.
From Verif.Model Require Import Esmtp ConnectionSpec FileMode.
From Verif.Spec Require Import CommandGrammar EsmtpSpec ConnectionSpecSpec ParseSpec.
From Verif.Proofs Require Import ExampleOracles EsmtpProofs ConnectionSpecProofs ParseProofs.
Local Open Scope N_scope.

(** *** C34 *)

(** An accepted argument is a path with parameters; the path and, for each keyword, the last
    value are reported. *)
Theorem C34_accepted postmaster s path t :
  no_nul s -> parse_argument postmaster false s = Accepted path t ->
  exists ps, argument_text postmaster s path ps /\
    match t with
    | None => ps = []
    | Some t => ps <> [] /\ forall k, last_parameter ps k (get_parameter t k)
    end.
Proof.
  intros Hn H. pose proof (argument_sound postmaster false s Hn) as Hs. rewrite H in Hs.
  destruct Hs as (ps & Ha & -> & _). exists ps. split; [exact Ha|].
  destruct ps; [reflexivity|]. split; [discriminate|]. intros k. apply table_last.
Qed.
Print Assumptions C34_accepted.

(** Every path with parameters is accepted, with that path and those values. *)
Theorem C34_accepts postmaster s path ps :
  argument_text postmaster s path ps ->
  exists t, parse_argument postmaster false s = Accepted path t /\
    match t with
    | None => ps = []
    | Some t => forall k, last_parameter ps k (get_parameter t k)
    end.
Proof.
  intros H. rewrite (argument_complete _ false _ _ _ H).
  destruct ps as [|p ps]; [exists None; auto|]. eexists. split; [reflexivity|]. intros k. apply table_last.
Qed.
Print Assumptions C34_accepts.

(** Whatever else is rejected, if it has no quote and no bracket.  Missing: with an unterminated
    quote or bracket the parser leaves the argument, see [C34_overread_refuted]. *)
Theorem C34_rejects_partial postmaster s :
  no_nul s -> ~ In """"%char s -> ~ In "["%char s ->
  (forall path ps, ~ argument_text postmaster s path ps) ->
  parse_argument postmaster false s = Rejected.
Proof.
  intros Hn Hq Hb H. pose proof (argument_sound postmaster false s Hn) as Hs.
  pose proof (argument_no_overread postmaster false s Hn Hq Hb) as Hr.
  destruct (parse_argument postmaster false s); [|reflexivity|congruence|destruct Hs; discriminate].
  destruct Hs as (ps & Ha & _). elim (H _ _ Ha).
Qed.
Print Assumptions C34_rejects_partial.

Theorem C34_overread_refuted :
  exists s, no_nul s /\ parse_mail_from false s = ReadsBeyond /\
    exists s', no_nul s' /\ parse_rcpt_to false s' = ReadsBeyond.
Proof.
  exists (lit "<""a@example.com>"). split; [apply no_nulb_spec; reflexivity|]. split; [reflexivity|].
  exists (lit "<a@[127.0.0.1>"). split; [apply no_nulb_spec; reflexivity|reflexivity].
Qed.
Print Assumptions C34_overread_refuted.

(** If the caller passes a table of its own it gets strings that are freed already. *)
Theorem C34_given_table_refuted :
  exists s path ps, no_nul s /\ argument_text false s path ps /\ parse_mail_from true s = Dangling.
Proof.
  exists (lit "<> SIZE=10"), None, [(lit "SIZE", Some (lit "10"))].
  split; [apply no_nulb_spec; reflexivity|]. split; [|reflexivity].
  exists (lit "<>"). split; [constructor|]. split; [|reflexivity].
  constructor; [|constructor]. split.
  - split; [unfold letter_or_digit; vm_compute; intuition congruence|].
    repeat (apply Forall_cons; [left; unfold letter_or_digit; vm_compute; intuition congruence|]).
    apply Forall_nil.
  - cbn. repeat (apply Forall_cons; [split; [vm_compute; intuition congruence|discriminate]|]).
    apply Forall_nil.
Qed.
Print Assumptions C34_given_table_refuted.

Example C34_example :
  parse_mail_from false (lit "<@relay,@b.example:""j d""@[10.0.0.1]>") = Rejected /\
  parse_mail_from false (lit "<@relay,@b.example:""j\ d""@[10.0.0.1]> SIZE=3 BODY=8BITMIME SIZE=4 X") =
    Accepted (Some (lit "<@relay,@b.example:""j\ d""@[10.0.0.1]>"))
      (Some [(lit "SIZE", Some (lit "4")); (lit "BODY", Some (lit "8BITMIME")); (lit "X", None)]) /\
  parse_rcpt_to false (lit "<Postmaster>") = Accepted (Some (lit "<Postmaster>")) None /\
  parse_mail_from false (lit "<Postmaster>") = Rejected /\
  parse_mail_from false (lit "<a@b> ") = Rejected /\
  parse_mail_from false (lit "<a@b>x") = Rejected /\
  parse_mail_from false (lit "a@b") = Rejected.
Proof. repeat split; vm_compute; reflexivity. Qed.

(** *** C35 *)

(** A spec is accepted exactly if it names an address, and yields it.  Missing: paths that do
    not fit into [sun_path] and ports that do not fit into [int]. *)
Theorem C35_names_partial pton4 pton6 resolve4 resolve6 s a :
  path_fits s -> port_fits s ->
  parse_spec pton4 pton6 resolve4 resolve6 s = SpecAddress a <-> names pton4 pton6 resolve4 resolve6 s a.
Proof.
  intros H1 H2. split; [apply parse_spec_sound, H2|apply parse_spec_complete, H1].
Qed.
Print Assumptions C35_names_partial.

(** Otherwise it is an error. *)
Theorem C35_rejects_partial pton4 pton6 resolve4 resolve6 s :
  path_fits s -> port_fits s -> (forall a, ~ names pton4 pton6 resolve4 resolve6 s a) ->
  parse_spec pton4 pton6 resolve4 resolve6 s = SpecError.
Proof.
  intros H1 H2 H. destruct (parse_spec _ _ _ _ s) as [a| |] eqn:E; [|reflexivity|].
  - elim (H a). eapply parse_spec_sound; eauto.
  - apply parse_spec_overflow in E. destruct E as (path & E & Hl). specialize (H1 path E). lia.
Qed.
Print Assumptions C35_rejects_partial.

(** Printing an address and parsing the text gives the address back. *)
Theorem C35_printed_back ntop4 ntop6 pton4 pton6 resolve4 resolve6 a :
  prints_back ntop4 pton4 4 -> prints_back ntop6 pton6 16 -> saddr_ok a ->
  parse_spec pton4 pton6 resolve4 resolve6 (address_to_spec ntop4 ntop6 a) = SpecAddress a.
Proof. apply address_printed_back. Qed.
Print Assumptions C35_printed_back.

(** A path that is too long is written beyond its buffer; a port that is too large is taken for
    another one. *)
Theorem C35_long_path_refuted pton4 pton6 resolve4 resolve6 :
  parse_spec pton4 pton6 resolve4 resolve6 (lit "unix:" ++ repeat "a"%char 108) = SpecOverflow.
Proof. reflexivity. Qed.
Print Assumptions C35_long_path_refuted.

Theorem C35_large_port_refuted pton4 pton6 resolve4 resolve6 :
  parse_spec pton4 pton6 resolve4 resolve6 (lit "inet:4294967321") = SpecAddress (SInet 25 (repeat NUL 4)) /\
  (forall a, ~ names pton4 pton6 resolve4 resolve6 (lit "inet:4294967321") a).
Proof.
  split; [reflexivity|]. intros a H. inversion H as [p Hp E|p Hp E|ds h ip Hd Hn Hh Hne E|ds h ip Hd Hn Hh Hne E];
    try discriminate E; subst.
  assert (E' : ds ++ h = lit "4294967321") by exact E.
  destruct Hh as [|t ip Ht|t ip Hx Ht].
  - rewrite app_nil_r in E'. subst ds. vm_compute in Hn. congruence.
  - assert (Hi : In "@"%char (lit "4294967321")) by (rewrite <- E'; apply in_or_app; right; left; reflexivity).
    cbn in Hi. intuition discriminate.
  - assert (Hi : In "@"%char (lit "4294967321")) by (rewrite <- E'; apply in_or_app; right; left; reflexivity).
    cbn in Hi. intuition discriminate.
Qed.
Print Assumptions C35_large_port_refuted.

Example C35_example :
  let parse := parse_spec (toy_pton 4) (toy_pton 16) (fun _ => None) (fun _ => None) in
  parse (lit "unix:/run/milter.sock") = SpecAddress (SUnix (lit "/run/milter.sock")) /\
  parse (lit "inet:10025") = SpecAddress (SInet 10025 (repeat NUL 4)) /\
  parse (lit "inet:10025@[hpaaaaab]") = SpecAddress (SInet 10025 ["127"%char; NUL; NUL; "001"%char]) /\
  parse (lit "inet:65536") = SpecError /\ parse (lit "inet:10025@[hpaaaaab") = SpecError /\
  parse (lit "inet:100x") = SpecError /\ parse (lit "unix:") = SpecError /\ parse (lit "tcp:1") = SpecError /\
  saddr_ok (SInet 10025 ["127"%char; NUL; NUL; "001"%char]) /\
  address_to_spec toy_ntop toy_ntop (SInet 10025 ["127"%char; NUL; NUL; "001"%char]) =
    lit "inet:10025@[hpaaaaab]".
Proof. repeat split; vm_compute; congruence. Qed.

(** *** C36 *)

(** A mode string is accepted exactly if it is one, with the mode it means. *)
Theorem C36_modes s m : parse_file_mode s = Some m <-> mode_string s m.
Proof. apply parse_file_mode_spec. Qed.
Print Assumptions C36_modes.

(** The documentation's own example "u+rw" (milter-utils.c:922) is rejected. *)
Theorem C36_documented_refuted : parse_file_mode (lit "u+rw") = None.
Proof. reflexivity. Qed.
Print Assumptions C36_documented_refuted.

Example C36_example :
  parse_file_mode (lit "ug=rw") = Some 432 /\ parse_file_mode (lit "660") = Some 432 /\
  parse_file_mode (lit "a=x") = Some 73 /\ parse_file_mode (lit "0660") = None /\
  parse_file_mode (lit "u=") = None /\ parse_file_mode (lit "rw") = None /\ parse_file_mode (lit "68") = None.
Proof. repeat split. Qed.

(** *** C49 *)

(** Every string is a flag list. *)
Theorem C49_every_string s : exists lead ts, readable lead ts /\ s = flags_text lead ts.
Proof. apply text_readable. Qed.
Print Assumptions C49_every_string.

(** The last term that says something about a flag decides it. *)
Theorem C49_last_decides class lead before t after base default i b :
  readable lead (before ++ t :: after) ->
  decides class default (effective lead t) (snd t) i b ->
  (forall t' b', In t' after -> ~ decides class default (effective lead t') (snd t') i b') ->
  N.testbit (fst (flags_from_string class (flags_text lead (before ++ t :: after)) base default)) i = b.
Proof.
  intros Hr Hd Ha. rewrite (flags_from_text _ _ _ _ _ Hr). cbn [fst].
  assert (E : forall t, sign_of (match lead with Some s => s | None => true end) t = effective lead t).
  { intros [[]  ]; destruct lead; reflexivity. }
  apply fold_decided; [rewrite E; exact Hd|]. intros t' b'. rewrite E. apply Ha.
Qed.
Print Assumptions C49_last_decides.

(** A flag no term mentions is as in the base flags if the list starts with a sign, and off
    otherwise. *)
Theorem C49_untouched class lead ts base default i :
  readable lead ts ->
  (forall t b, In t ts -> ~ decides class default (effective lead t) (snd t) i b) ->
  N.testbit (fst (flags_from_string class (flags_text lead ts) base default)) i =
  match lead with Some _ => N.testbit base i | None => false end.
Proof.
  intros Hr Hd. rewrite (flags_from_text _ _ _ _ _ Hr). cbn [fst].
  assert (E : forall t, sign_of (match lead with Some s => s | None => true end) t = effective lead t).
  { intros [[]  ]; destruct lead; reflexivity. }
  rewrite fold_untouched.
  - destruct lead; [reflexivity|]. apply N.bits_0.
  - intros t b. rewrite E. apply Hd.
Qed.
Print Assumptions C49_untouched.

(** The error names exactly the unknown names. *)
Theorem C49_unknown class lead ts base default n :
  readable lead ts ->
  In n (snd (flags_from_string class (flags_text lead ts) base default)) <->
  In n (map snd ts) /\ ~ known class n.
Proof.
  intros Hr. rewrite (flags_from_text _ _ _ _ _ Hr). cbn [snd]. rewrite filter_In, negb_true_iff.
  rewrite <- is_known_spec. destruct (is_known class n); intuition congruence.
Qed.
Print Assumptions C49_unknown.

(** An enum name is the first value with that nick; any other name is an error. *)
Theorem C49_enum class s :
  match enum_from_string class s with
  | (v, true) => exists before after, class = before ++ (s, v) :: after /\ forall v', ~ In (s, v') before
  | (v, false) => v = 0%Z /\ forall v', ~ In (s, v') class
  end.
Proof.
  unfold enum_from_string. induction class as [|[n w] c IH]; cbn [find fst snd].
  - split; [reflexivity|]. intros v' [].
  - destruct (bytes_eqb n s) eqn:E.
    + apply bytes_eqb_eq in E. subst. exists [], c. split; [reflexivity|]. intros v' [].
    + apply bytes_eqb_neq in E. destruct (find _ c) as [[n' v]|]; cbn [snd] in *.
      * destruct IH as (b & a & -> & Hb). exists ((n, w) :: b), a. split; [reflexivity|].
        intros v' [Hi|Hi]; [congruence|eapply Hb; eauto].
      * destruct IH as [_ IH]. split; [reflexivity|]. intros v' [Hi|Hi]; [congruence|eapply IH; eauto].
Qed.
Print Assumptions C49_enum.

Definition levels := [(lit "default", 0); (lit "critical", 1); (lit "error", 2); (lit "info", 4); (lit "debug", 8)].
Example C49_example :
  flags_from_string levels (lit "all|-debug|-info|info") 0 3 = (7, []) /\
  flags_from_string levels (lit "+info") 2 3 = (6, []) /\
  flags_from_string levels (lit "-default|+debug|wat") 7 3 = (12, [lit "wat"]) /\
  flags_text (Some false) [(None, lit "default"); (Some true, lit "debug"); (None, lit "wat")] =
    lit "-default|+debug|wat" /\
  readable (Some false) [(None, lit "default"); (Some true, lit "debug"); (None, lit "wat")] /\
  enum_from_string [(lit "yes", 3%Z)] (lit "yes") = (3%Z, true).
Proof.
  repeat split; try (vm_compute; reflexivity); try discriminate.
  repeat constructor; cbn; intuition discriminate.
Qed.
