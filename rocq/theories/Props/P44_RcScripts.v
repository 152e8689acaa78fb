(** Filters started by rc scripts: C110 to C112. *)
From Verif.Base Require Import Bytes BytesFacts.
From Verif.Model Require Import PostfixTable Detect RcDetect.
From Verif.Spec Require Import PostfixSpec DetectSpec.
From Verif.Spec Require RcSpec.
From Verif.Proofs Require Import DetectProofs GreylistProofs ShellProofs UnitProofs RcProofs.
Import List.
Import RcSpec(full, script_conf, service, says_yes, listens, bsd, BFree, BNet, kind, KEnma, KClamav, KOpendkim, KGreylist, KRspamd, is_a, conf_path, file_says, own_socket, spec_of, first_of, chosen, option_says, variable_says, given_or_not).
Local Open Scope N_scope.

(** *** What the theorems below have in common *)
Definition system_of (fl : flavour) : bsd := match fl with FreeBSD => BFree | Pkgsrc px _ => BNet px end.
Definition kind_of (k : kind) : known_filter :=
  match k with KEnma => Enma | KClamav => Clamav | KOpendkim => Opendkim | KGreylist => Greylist | KRspamd => Rspamd end.
Lemma kind_spec fl script r name k : rc_name r = Some name ->
  is_known fl script r (kind_of k) = true <-> is_a (system_of fl) k script name.
Proof.
  intros N. unfold is_known. rewrite N. destruct fl, k; cbn [kind_of known_names system_of is_a];
    rewrite ?orb_true_iff, ?bytes_eqb_eq; try tauto; split; (discriminate || contradiction).
Qed.
Lemma chosen_one o d f : chosen [o] d f -> match o with Some g => g | None => d end = f.
Proof. intros (x & F & ->). inversion F; subst; [reflexivity|]. match goal with H : first_of [] _ |- _ => inversion H; subst end. reflexivity. Qed.
Lemma chosen_two a o d f : chosen [a; o] d f -> match some_else a o with Some g => g | None => d end = f.
Proof.
  intros (x & F & ->). inversion F; subst; [reflexivity|]. cbn [some_else].
  match goal with H : first_of [o] _ |- _ => inversion H; subst end; [reflexivity|].
  match goal with H : first_of [] _ |- _ => inversion H; subst end. reflexivity.
Qed.
Lemma path_spec fl sys r name env args c conf k f : follows fl name c args r env -> (k = KClamav -> c = conf) -> k <> KRspamd ->
  conf_path (sy_words sys) (system_of fl) k name env args conf f -> known_conf fl sys r (kind_of k) = f.
Proof.
  intros (HN & HR & HA & HO & HV & _) C K (o & H). unfold known_conf. rewrite HA, HO.
  rewrite (HV (lit "cfgfile")), (HV (lit "flags")) by discriminate.
  destruct fl as [|px rcd], k; cbn [system_of kind_of] in *; try contradiction; destruct H as [O H]; try (rewrite (flag_spec _ _ _ _ O)).
  - now apply chosen_two.
  - rewrite C by reflexivity. now apply chosen_two.
  - now apply chosen_two.
  - now apply chosen_two.
  - now apply chosen_one.
  - now apply chosen_one.
Qed.
Lemma settings_say key es c o : lists setting_line es c -> given_or_not es key o -> setting_of (parse_settings (Some c)) key = o.
Proof.
  intros L G. unfold setting_of. rewrite (settings_spec _ _ L). destruct G as [F|[N ->]].
  - rewrite (lookup_final _ _ _ F). destruct o; reflexivity.
  - apply lookup_mentions in N. rewrite N. reflexivity.
Qed.
Lemma own_spec fl sys rspamd script r name env args c conf k own : follows fl name c args r env -> (k = KClamav -> c = conf) ->
  own_socket (sy_file sys) (sy_words sys) rspamd (system_of fl) k name env args conf own ->
  is_a (system_of fl) k script name ->
  known_socket fl sys rspamd script r (kind_of k) = own.
Proof.
  intros F C O I. pose proof F as (HN & _). apply (kind_spec fl script r name k HN) in I. unfold known_socket. rewrite I.
  destruct k; cbn [kind_of own_socket] in *; try (now symmetry);
    destruct O as (f & P & S); apply (path_spec fl sys r name env args c conf _ f F C ltac:(discriminate)) in P; cbn [kind_of] in P; rewrite P;
    destruct (sy_file sys f) as [content|]; cbn [file_says] in S; try (subst; reflexivity); destruct S as (es & L & G).
  - exact (enma_spec es content own L G).
  - now apply (settings_say (lit "MilterSocket") es).
  - now apply (settings_say (lit "Socket") es).
Qed.
Lemma not_known fl sys rspamd script r name k : rc_name r = Some name -> ~ is_a (system_of fl) k script name ->
  known_socket fl sys rspamd script r (kind_of k) = None.
Proof.
  intros N A. unfold known_socket. destruct (is_known fl script r (kind_of k)) eqn:E; [|reflexivity]. apply (kind_spec fl script r name k N) in E. contradiction.
Qed.
Lemma applied_spec_of o spec : spec_of o spec -> match o with Some s => Some (applied_spec s) | None => None end = spec.
Proof. destruct o as [s|]; cbn [spec_of]; [|now intros ->]. intros (t & M & ->). now rewrite (applied_spec_spec _ _ M). Qed.

(** No profiles of OpenDKIM are asked for. *)
Definition no_profiles (fl : flavour) (script name : bytes) (env : environment) : Prop :=
  is_a (system_of fl) KOpendkim script name -> env (full name (lit "profiles")) = None \/ exists s, env (full name (lit "profiles")) = Some s /\ blank_text s.
Lemma profiles_spec fl script r name env args c : follows fl name c args r env -> no_profiles fl script name env -> has_profiles fl script r = false.
Proof.
  intros (HN & _ & _ & _ & HV & _) N. unfold has_profiles. rewrite (HV (lit "profiles")) by discriminate.
  destruct fl; [|destruct (env (full name (lit "profiles"))); reflexivity]. unfold no_profiles in N. destruct (env (full name (lit "profiles"))) as [s|] eqn:E; [|reflexivity].
  destruct (is_known FreeBSD script r Opendkim) eqn:K; [|reflexivity]. apply (kind_spec FreeBSD script r name KOpendkim HN) in K.
  destruct (N K) as [X|(s' & X & B)]; [discriminate|]. injection X as <-. rewrite (all_white _ B). reflexivity.
Qed.
Lemma milter_is fl sys rspamd script name env args : service (sy_file sys) (rc_script fl script) name env args -> no_profiles fl script name env ->
  exists c r d, follows fl name c args r env /\
    (forall content conf, sy_file sys (rc_script fl script) = Some content -> script_conf content conf -> c = conf) /\
    rc_milter fl sys rspamd script = Milter (rc_script fl script) d /\
    df_enabled d = rc_enabled fl r /\ df_description d = None /\
    df_spec d = (match rc_spec fl sys rspamd script r with Some s => Some (applied_spec s) | None => None end) /\
    df_extra d = (if is_known fl script r Greylist then greylist_extra (parse_greylist (sy_file sys (known_conf fl sys r Greylist))) else 0).
Proof.
  intros S N. destruct (detect_spec fl sys script name env args S) as (c & F & C). exists c, (rc_detect fl sys script). eexists.
  split; [exact F|]. split; [exact C|]. unfold rc_milter. rewrite (profiles_spec _ _ _ _ _ _ _ F N). pose proof F as (HN & _). rewrite HN.
  split; [reflexivity|]. repeat split.
Qed.
Definition freebsd_script (script : bytes) : bytes := lit "/usr/local/etc/rc.d/" ++ script.

(** *** C110: whether a filter is to be used *)

(** A script of FreeBSD is a filter under the name of the script, started by it; it is used exactly
    if its variable "enable" is YES. *)
Theorem C110_enabled : forall sys rspamd script name env args,
  service (sy_file sys) (freebsd_script script) name env args -> no_profiles FreeBSD script name env ->
  exists d, rc_milter FreeBSD sys rspamd script = Milter (freebsd_script script) d /\ df_description d = None /\
    (df_enabled d = true <-> exists v, env (full name (lit "enable")) = Some v /\ says_yes v).
Proof.
  intros sys rspamd script name env args S N. destruct (milter_is FreeBSD sys rspamd script name env args S N) as (c & r & d & F & _ & M & E & D & _).
  exists d. split; [exact M|]. split; [exact D|]. rewrite E. unfold rc_enabled, rcvar_value.
  destruct F as (_ & _ & _ & _ & HV & HY). rewrite HY. cbn [some_else]. rewrite (HV (lit "enable")) by discriminate.
  destruct (env (full name (lit "enable"))) as [v|].
  - rewrite yes_spec. split; [intros Y; now exists v|]. intros (v' & X & Y). now injection X as ->.
  - split; [discriminate|]. intros (v & X & _). discriminate.
Qed.
Print Assumptions C110_enabled.
(** Without a script, or with one that gives no name, there is no filter. *)
Theorem C110_absent : forall fl sys rspamd script, sy_file sys (rc_script fl script) = None -> rc_milter fl sys rspamd script = NoMilter.
Proof. intros fl sys rspamd script H. unfold rc_milter, rc_detect. rewrite H. destruct fl; reflexivity. Qed.
Print Assumptions C110_absent.
Theorem C110_nameless : forall fl sys rspamd script content lines, sy_file sys (rc_script fl script) = Some content ->
  lists (fun l e => l = e /\ ~ begins_with (lit "name=") l) lines content -> rc_milter fl sys rspamd script = NoMilter.
Proof.
  intros fl sys rspamd script content lines H L. unfold rc_milter, rc_detect. rewrite H.
  assert (X : fold_left name_line (physical content) rc_empty = fold_left (fun r (_ : bytes) => r) lines rc_empty).
  { refine (fold_lists _ name_line (fun r _ => r) _ _ lines content rc_empty L); [|reflexivity].
    intros r q l e En O [_ M]. unfold name_line. rewrite (miss _ q l En); [reflexivity|no_lf|exact M]. }
  assert (Y : fold_left (fun r (_ : bytes) => r) lines rc_empty = rc_empty) by (clear; induction lines as [|x xs IH]; [reflexivity|exact IH]).
  unfold parse_script. rewrite X, Y. destruct fl; reflexivity.
Qed.
Print Assumptions C110_nameless.

(** *** C111: where it listens *)

(** A filter with a configuration file of its own listens where that says; any filter listens at its
    "socket", "sockfile" or "connection_spec", or behind "-p" of its "flags" or of the arguments of
    the command. *)
Theorem C111_own : forall sys rspamd script name env args k conf own rest o spec,
  service (sy_file sys) (freebsd_script script) name env args -> no_profiles FreeBSD script name env ->
  is_a BFree k script name -> (forall k', is_a BFree k' script name -> k' = k) ->
  (k = KClamav -> forall content, sy_file sys (freebsd_script script) = Some content -> script_conf content conf) ->
  own_socket (sy_file sys) (sy_words sys) rspamd BFree k name env args conf own ->
  listens (sy_words sys) name env args rest -> first_of [own; rest] o -> spec_of o spec ->
  exists d, rc_milter FreeBSD sys rspamd script = Milter (freebsd_script script) d /\ df_spec d = spec.
Proof.
  intros sys rspamd script name env args k conf own rest o spec S N I U C O Ls Fo Sp.
  destruct (milter_is FreeBSD sys rspamd script name env args S N) as (c & r & d & F & Cf & M & _ & _ & E & _).
  exists d. split; [exact M|]. rewrite E. rewrite <- (applied_spec_of _ _ Sp). clear Sp E M.
  assert (Q : rc_spec FreeBSD sys rspamd script r = o); [|now rewrite Q].
  unfold rc_spec. rewrite (listens_spec sys name env args rest r FreeBSD c F Ls).
  pose proof S as (_ & content & _ & _ & Hc & _).
  assert (Ck : k = KClamav -> c = conf) by (intros Kc; apply (Cf content conf Hc); now apply C).
  pose proof (own_spec FreeBSD sys rspamd script r name env args c conf k own F Ck O I) as W.
  pose proof F as (HN & _).
  assert (Z : forall k', k' <> k -> known_socket FreeBSD sys rspamd script r (kind_of k') = None).
  { intros k' D. apply (not_known FreeBSD sys rspamd script r name); [exact HN|]. intros A. now apply D, U. }
  assert (T : some_else own rest = o).
  { inversion Fo; subst; [reflexivity|]. cbn [some_else]. match goal with H : first_of [rest] _ |- _ => inversion H; subst end; [reflexivity|].
    match goal with H : first_of [] _ |- _ => inversion H; subst end. reflexivity. }
  pose proof (Z KEnma) as Z1. pose proof (Z KClamav) as Z2. pose proof (Z KOpendkim) as Z3. pose proof (Z KRspamd) as Z4. cbn [kind_of] in Z1, Z2, Z3, Z4.
  rewrite <- T. destruct k; cbn [kind_of] in W; rewrite ?Z1, ?Z2, ?Z3, ?Z4 by discriminate; rewrite ?W; cbn [some_else]; try reflexivity.
  - destruct own; reflexivity.
  - destruct own; reflexivity.
  - destruct own; reflexivity.
  - cbn [own_socket] in O. now rewrite O.
Qed.
Print Assumptions C111_own.
Theorem C111_listens : forall sys rspamd script name env args o spec,
  service (sy_file sys) (freebsd_script script) name env args ->
  (forall k, ~ is_a BFree k script name) ->
  listens (sy_words sys) name env args o -> spec_of o spec ->
  exists d, rc_milter FreeBSD sys rspamd script = Milter (freebsd_script script) d /\ df_spec d = spec /\ df_extra d = 0.
Proof.
  intros sys rspamd script name env args o spec S U Ls Sp.
  assert (N : no_profiles FreeBSD script name env) by (intros A; now apply U in A).
  destruct (milter_is FreeBSD sys rspamd script name env args S N) as (c & r & d & F & Cf & M & _ & _ & E & X).
  exists d. split; [exact M|]. pose proof F as (HN & _). split.
  - rewrite E, <- (applied_spec_of _ _ Sp). assert (Q : rc_spec FreeBSD sys rspamd script r = o); [|now rewrite Q].
    unfold rc_spec. rewrite (listens_spec sys name env args o r FreeBSD c F Ls).
    pose proof (fun k => not_known FreeBSD sys rspamd script r name k HN (U k)) as Z.
    pose proof (Z KEnma) as Z1. pose proof (Z KClamav) as Z2. pose proof (Z KOpendkim) as Z3. pose proof (Z KRspamd) as Z4. cbn [kind_of] in Z1, Z2, Z3, Z4.
    rewrite Z1, Z2, Z3, Z4. reflexivity.
  - rewrite X. destruct (is_known FreeBSD script r Greylist) eqn:K; [|reflexivity]. apply (kind_spec FreeBSD script r name KGreylist HN) in K. now apply U in K.
Qed.
Print Assumptions C111_listens.
(** milter-greylist is given the longest of its delays on top of the time to answer. *)
Theorem C111_greylist : forall sys rspamd script name env args f content es m,
  service (sy_file sys) (freebsd_script script) name env args -> no_profiles FreeBSD script name env ->
  is_a BFree KGreylist script name -> conf_path (sy_words sys) BFree KGreylist name env args None f ->
  sy_file sys f = Some content -> lists greylist_says es content -> longest_delay es m ->
  exists d, rc_milter FreeBSD sys rspamd script = Milter (freebsd_script script) d /\ df_extra d = m.
Proof.
  intros sys rspamd script name env args f content es m S N I P C L D.
  destruct (milter_is FreeBSD sys rspamd script name env args S N) as (c & r & d & F & Cf & M & _ & _ & _ & X).
  exists d. split; [exact M|]. pose proof F as (HN & _). rewrite X.
  apply (kind_spec FreeBSD script r name KGreylist HN) in I. cbn [kind_of] in I. rewrite I.
  apply (path_spec FreeBSD sys r name env args c None KGreylist f F ltac:(discriminate) ltac:(discriminate)) in P. cbn [kind_of] in P. rewrite P, C.
  destruct D as [A B]. destruct (greylist_extra_spec _ _ L) as [G H]. apply N.le_antisymm.
  - destruct H as [->|H]; [lia|now apply A].
  - destruct B as [->|B]; [lia|now apply G].
Qed.
Print Assumptions C111_greylist.

(** *** C112: NetBSD's packages *)

Definition pkgsrc_script (rcd script : bytes) : bytes := rcd ++ lit "/" ++ script.
(** Used exactly if the variable with the name of the service is YES. *)
Theorem C112_enabled : forall px rcd sys rspamd script name env args,
  service (sy_file sys) (pkgsrc_script rcd script) name env args ->
  exists d, rc_milter (Pkgsrc px rcd) sys rspamd script = Milter (pkgsrc_script rcd script) d /\
    (df_enabled d = true <-> exists v, env name = Some v /\ says_yes v).
Proof.
  intros px rcd sys rspamd script name env args S.
  destruct (milter_is (Pkgsrc px rcd) sys rspamd script name env args S) as (c & r & d & F & _ & M & E & D & _); [intros []|].
  exists d. split; [exact M|]. rewrite E. unfold rc_enabled, rcvar_value.
  destruct F as (_ & _ & _ & _ & HV & HY). rewrite HY.
  destruct (env name) as [v|]; cbn [some_else].
  - rewrite yes_spec. split; [intros Y; now exists v|]. intros (v' & X & Y). now injection X as ->.
  - split; [discriminate|]. intros (v & X & _). discriminate.
Qed.
Print Assumptions C112_enabled.
Theorem C112_listens : forall px rcd sys rspamd script name env args own rest o spec,
  service (sy_file sys) (pkgsrc_script rcd script) name env args ->
  (is_a (BNet px) KEnma script name -> own_socket (sy_file sys) (sy_words sys) rspamd (BNet px) KEnma name env args None own) ->
  (~ is_a (BNet px) KEnma script name -> own = None) ->
  listens (sy_words sys) name env args rest -> first_of [own; rest] o -> spec_of o spec ->
  exists d, rc_milter (Pkgsrc px rcd) sys rspamd script = Milter (pkgsrc_script rcd script) d /\ df_spec d = spec.
Proof.
  intros px rcd sys rspamd script name env args own rest o spec S O O' Ls Fo Sp.
  destruct (milter_is (Pkgsrc px rcd) sys rspamd script name env args S) as (c & r & d & F & _ & M & _ & _ & E & _); [intros []|].
  exists d. split; [exact M|]. rewrite E, <- (applied_spec_of _ _ Sp).
  assert (Q : rc_spec (Pkgsrc px rcd) sys rspamd script r = o); [|now rewrite Q].
  unfold rc_spec. rewrite (listens_spec sys name env args rest r (Pkgsrc px rcd) c F Ls). pose proof F as (HN & _).
  assert (T : some_else own rest = o).
  { inversion Fo; subst; [reflexivity|]. cbn [some_else]. match goal with H : first_of [rest] _ |- _ => inversion H; subst end; [reflexivity|].
    match goal with H : first_of [] _ |- _ => inversion H; subst end. reflexivity. }
  assert (W : known_socket (Pkgsrc px rcd) sys rspamd script r Enma = own).
  { destruct (is_known (Pkgsrc px rcd) script r Enma) eqn:K.
    - apply (kind_spec (Pkgsrc px rcd) script r name KEnma HN) in K.
      exact (own_spec (Pkgsrc px rcd) sys rspamd script r name env args c None KEnma own F ltac:(discriminate) (O K) K).
    - rewrite O'; [unfold known_socket; now rewrite K|]. intros A. apply (kind_spec (Pkgsrc px rcd) script r name KEnma HN) in A. cbn [kind_of] in A. congruence. }
  rewrite W. rewrite <- T. destruct own; reflexivity.
Qed.
Print Assumptions C112_listens.
Theorem C112_greylist : forall px rcd sys rspamd script name env args f content es m,
  service (sy_file sys) (pkgsrc_script rcd script) name env args ->
  is_a (BNet px) KGreylist script name -> conf_path (sy_words sys) (BNet px) KGreylist name env args None f ->
  sy_file sys f = Some content -> lists greylist_says es content -> longest_delay es m ->
  exists d, rc_milter (Pkgsrc px rcd) sys rspamd script = Milter (pkgsrc_script rcd script) d /\ df_extra d = m.
Proof.
  intros px rcd sys rspamd script name env args f content es m S I P C L D.
  destruct (milter_is (Pkgsrc px rcd) sys rspamd script name env args S) as (c & r & d & F & Cf & M & _ & _ & _ & X); [intros []|].
  exists d. split; [exact M|]. pose proof F as (HN & _). rewrite X.
  apply (kind_spec (Pkgsrc px rcd) script r name KGreylist HN) in I. cbn [kind_of] in I. rewrite I.
  apply (path_spec (Pkgsrc px rcd) sys r name env args c None KGreylist f F ltac:(discriminate) ltac:(discriminate)) in P. cbn [kind_of] in P. rewrite P, C.
  destruct D as [A B]. destruct (greylist_extra_spec _ _ L) as [G H]. apply N.le_antisymm.
  - destruct H as [->|H]; [lia|now apply A].
  - destruct B as [->|B]; [lia|now apply G].
Qed.
Print Assumptions C112_greylist.

(** *** Examples *)
Definition line (b : bytes) : bytes := b ++ [byte_of 10].
Definition q (b : bytes) : bytes := [byte_of 34] ++ b ++ [byte_of 34].
Definition files_only (files : list (bytes * bytes)) : system :=
  mk_system (lookup files) (fun p => match lookup files p with Some _ => true | None => false end) (Breaker.space_fields false).
Definition dkim (script conf : bytes) : system :=
  files_only [(freebsd_script (lit "milter-dkim"), script); (lit "/etc/rc.conf", conf)].
Definition dkim_script : bytes :=
  line (lit "name=" ++ q (lit "dkim")) ++ line (lit "dkim_enable=${dkim_enable:-" ++ q (lit "NO") ++ lit "}") ++
  line (lit ": ${dkim_socket=}") ++ line (lit "load_rc_config $name") ++ line (lit "command_args=" ++ q (lit "-l -p /run/args.sock")).
Definition dkim_entries : list RcSpec.script_entry :=
  [RcSpec.SName; RcSpec.SDefault (lit "enable") (lit "NO"); RcSpec.SDefault (lit "socket") []; RcSpec.SOther;
   RcSpec.SArgs (lit "-l -p /run/args.sock"); RcSpec.SOther].
Definition dkim_conf : bytes :=
  line (lit "# mail") ++ line (lit "dkim_enable=" ++ q (lit "yes")) ++ line (lit "other_socket=/x") ++ line (lit "dkim_socket=" ++ q (lit "/run/${name}.sock")).
Definition dkim_defaults : environment := set (set nothing_set (lit "dkim_enable") (lit "NO")) (lit "dkim_socket") [].
Definition dkim_env : environment :=
  set (set (set dkim_defaults (lit "dkim_enable") (lit "yes")) (lit "other_socket") (lit "/x")) (lit "dkim_socket") (lit "/run/dkim.sock").
Definition not_in_list (c : byte) (l : list byte) : bool := negb (existsb (beqb c) l).
Definition clean_b (c : byte) : bool :=
  not_in_list c ["$"; "#"; byte_of 34; byte_of 39; byte_of 10; byte_of 92; byte_of 96]%char.
Lemma clean_all b : forallb clean_b b = true -> Forall clean b.
Proof.
  intros H. apply Forall_forall. intros c I. rewrite forallb_forall in H. specialize (H c I). unfold clean_b, not_in_list in H.
  apply negb_true_iff in H. cbn [existsb] in H. repeat (apply orb_false_iff in H as [? H]).
  repeat match goal with X : beqb _ _ = false |- _ => apply beqb_neq in X end.
  unfold clean, double_quote, single_quote, newline. repeat split; assumption.
Qed.
Lemma absent_b (w l : bytes) : (fix go (b : bytes) := match after_prefix w b with Some _ => false | None => match b with [] => true | _ :: b' => go b' end end) l = true ->
  absent w l.
Proof.
  intros H a b E. subst l. induction a as [|c a IH].
  - cbn [app] in H. destruct (w ++ b) eqn:Q; rewrite <- Q, after_prefix_app in H; discriminate.
  - cbn [app] in H. destruct (after_prefix w (c :: a ++ w ++ b)); [discriminate|]. now apply IH.
Qed.
Lemma begins_b (w l : bytes) : after_prefix w l = None -> ~ begins_with w l.
Proof. intros H (r & ->). rewrite after_prefix_app in H. discriminate. Qed.
Lemma loads_b l : load_line l = false -> ~ RcSpec.loads l.
Proof. intros H L. apply (load_true l []) in L. rewrite app_nil_r in L. congruence. Qed.
Lemma word_lit b : forallb Breaker.is_word b = true -> b <> [] -> word b. Proof. apply word_b. Qed.
Ltac word' := apply word_lit; [reflexivity|discriminate].
Ltac in' := let H := fresh in intros H; vm_compute in H; intuition discriminate.
Ltac dq' := match goal with
  | |- RcSpec.quoted _ ?v _ => apply RcSpec.quoted_plain, (RcSpec.plain_double v); apply clean_all; reflexivity
  | |- RcSpec.plain_value ?v _ => apply (RcSpec.plain_double v); apply clean_all; reflexivity end.
Lemma not_given_b k l : (fix go (b : bytes) := match after_prefix (k ++ lit "=") b with Some _ => false | None => match b with [] => true | _ :: b' => go b' end end) l = true ->
  RcSpec.not_given k l.
Proof. intros H x y E. exfalso. apply (absent_b _ _ H x y). now rewrite E, <- !app_assoc. Qed.

Lemma dkim_service : service (sy_file (dkim dkim_script dkim_conf)) (freebsd_script (lit "milter-dkim")) (lit "dkim") dkim_env
  (Some (lit "-l -p /run/args.sock")).
Proof.
  split; [word'|]. exists dkim_script, dkim_entries, dkim_defaults. split; [reflexivity|]. split; [|split; [|split; [|split; [|split]]]].
  - exists [lit "name=" ++ q (lit "dkim"); lit "dkim_enable=${dkim_enable:-" ++ q (lit "NO") ++ lit "}"; lit ": ${dkim_socket=}"; lit "load_rc_config $name";
      lit "command_args=" ++ q (lit "-l -p /run/args.sock")], [].
    split; [reflexivity|]. split; [repeat (apply Forall_cons; [in'|]); apply Forall_nil|]. split; [intros []|]. cbn [app].
    unfold dkim_entries. repeat (apply Forall2_cons).
    + apply RcSpec.script_name. dq'.
    + apply (RcSpec.script_default _ (lit "dkim") (lit "dkim_enable=") (lit "enable") (lit ":-") (lit "NO") (q (lit "NO")) []);
        [in'|in'|now apply begins_b|now apply loads_b|word'|now left|dq'|intros []].
    + apply (RcSpec.script_default _ (lit "dkim") (lit ": ") (lit "socket") (lit "=") [] [] []);
        [in'|in'|now apply begins_b|now apply loads_b|word'|right; now right|apply RcSpec.quoted_plain, RcSpec.plain_bare; constructor|intros []].
    + apply RcSpec.script_other; [now apply begins_b|now apply begins_b|now apply begins_b|now apply loads_b|now apply absent_b].
    + apply RcSpec.script_args; [discriminate|dq'|discriminate|now apply absent_b].
    + apply RcSpec.script_other; [now apply begins_b|now apply begins_b|now apply begins_b|now apply loads_b|now apply absent_b].
    + apply Forall2_nil.
  - now left.
  - cbn [dkim_entries RcSpec.offered]. repeat constructor; in'.
  - intros n. unfold dkim_defaults, set, nothing_set.
    assert (K : forall v x, RcSpec.offers dkim_entries v x -> (v = lit "enable" /\ x = lit "NO") \/ (v = lit "socket" /\ x = [])).
    { intros v x [I|(a & b & E & _)].
      - cbn [dkim_entries In] in I. repeat destruct I as [I|I]; try discriminate I; try contradiction; injection I as <- <-; auto.
      - exfalso. assert (J : In (RcSpec.SAssign v x) dkim_entries) by (rewrite E; apply in_app_iff; right; now left).
        cbn [dkim_entries In] in J. intuition discriminate. }
    destruct (bytes_eqb (lit "dkim_socket") n) eqn:A.
    { apply bytes_eqb_eq in A. subst n. left. exists (lit "socket"), []. split; [reflexivity|]. split; [left; cbn [dkim_entries In]; tauto|reflexivity]. }
    destruct (bytes_eqb (lit "dkim_enable") n) eqn:B.
    { apply bytes_eqb_eq in B. subst n. left. exists (lit "enable"), (lit "NO"). split; [reflexivity|]. split; [left; cbn [dkim_entries In]; tauto|reflexivity]. }
    right. split; [|reflexivity]. intros v x -> O. apply bytes_eqb_neq in A, B. destruct (K v x O) as [[-> _]|[-> _]]; [now apply B|now apply A].
  - right. now exists [], (lit "-l -p /run/args.sock").
  - apply (RcSpec.settings_file _ _ _ _ dkim_conf [None; Some (lit "dkim_enable", lit "yes"); Some (lit "other_socket", lit "/x"); Some (lit "dkim_socket", lit "/run/dkim.sock"); None]).
    + reflexivity.
    + exists [lit "# mail"; lit "dkim_enable=" ++ q (lit "yes"); lit "other_socket=/x"; lit "dkim_socket=" ++ q (lit "/run/${name}.sock")], [].
      split; [reflexivity|]. split; [repeat (apply Forall_cons; [in'|]); apply Forall_nil|]. split; [intros []|]. cbn [app].
      repeat (apply Forall2_cons).
      * apply RcSpec.conf_idle. apply (idle_comment [] (lit " mail")). constructor.
      * apply (RcSpec.conf_set _ (lit "dkim_enable") (lit "yes") (q (lit "yes"))); [word'|discriminate|dq'|discriminate|in'].
      * apply (RcSpec.conf_set _ (lit "other_socket") (lit "/x") (lit "/x")); [word'|discriminate| |discriminate|in'].
        apply RcSpec.quoted_plain, RcSpec.plain_bare; [apply clean_all; reflexivity|]. repeat constructor; unfold white; in'.
      * apply (RcSpec.conf_set _ (lit "dkim_socket") (lit "/run/dkim.sock") (q (lit "/run/${name}.sock"))); [word'|discriminate| |discriminate|in'].
        apply (RcSpec.quoted_spelled _ (lit "/run/dkim.sock") (lit "/run/${name}.sock")).
        apply (RcSpec.spells_text _ (lit "/run/") (lit "dkim.sock") (lit "${name}.sock")); [apply clean_all; reflexivity|].
        apply (RcSpec.spells_braced _ (lit "name") (lit "dkim") (lit ".sock") (lit ".sock")).
        -- split; [word'|]. split; [intros c k' X; injection X as <- _; vm_compute; intuition congruence|].
           exists [], (q (lit "dkim")), [lit "dkim_enable=${dkim_enable:-" ++ q (lit "NO") ++ lit "}"; lit ": ${dkim_socket=}"; lit "load_rc_config $name";
             lit "command_args=" ++ q (lit "-l -p /run/args.sock")], [].
           split; [reflexivity|]. split; [repeat (apply Forall_cons; [in'|]); apply Forall_nil|]. split; [intros []|].
           split; [apply (RcSpec.plain_double (lit "dkim")); apply clean_all; reflexivity|]. split; [constructor|]. split.
           ++ repeat (apply Forall_cons; [apply not_given_b; reflexivity|]). constructor.
           ++ now apply not_given_b.
        -- rewrite <- (app_nil_r (lit ".sock")) at 1 2. apply RcSpec.spells_text; [apply clean_all; reflexivity|constructor].
      * apply RcSpec.conf_idle. apply idle_blank. constructor.
      * apply Forall2_nil.
    + apply RcSpec.settings_missing; [reflexivity|]. apply RcSpec.settings_missing; [reflexivity|]. apply RcSpec.settings_none.
Qed.
Example C110_example :
  says_yes (lit "yes") /\ dkim_env (lit "dkim_enable") = Some (lit "yes") /\
  rc_milter FreeBSD (dkim dkim_script dkim_conf) None (lit "milter-dkim") =
    Milter (freebsd_script (lit "milter-dkim")) (mk_defined true (Some (lit "unix:/run/dkim.sock")) 0 None) /\
  rc_milter FreeBSD (dkim dkim_script []) None (lit "milter-dkim") =
    Milter (freebsd_script (lit "milter-dkim")) (mk_defined false (Some (lit "unix:/run/args.sock")) 0 None).
Proof.
  split; [|split; [reflexivity|split; vm_compute; reflexivity]].
  exists "y"%char, "e"%char, "s"%char. split; [reflexivity|]. vm_compute. tauto.
Qed.
(** The socket is at "socket", the flags say nothing, the arguments of the command name another. *)
Example C111_example :
  (forall k, ~ is_a BFree k (lit "milter-dkim") (lit "dkim")) /\
  listens (Breaker.space_fields false) (lit "dkim") dkim_env (Some (lit "-l -p /run/args.sock")) (Some (lit "/run/dkim.sock")) /\
  spec_of (Some (lit "/run/dkim.sock")) (Some (lit "unix:/run/dkim.sock")).
Proof.
  split; [|split].
  - intros [| | | |] [H|H]; discriminate H.
  - exists (Some (lit "/run/dkim.sock")), None, None, None, (Some (lit "/run/args.sock")). repeat split.
    + right. exists (lit "/run/dkim.sock"). split; [|reflexivity]. exists [], []. split; [reflexivity|]. split; [constructor|]. split; [constructor|].
      split; [exists "/"%char, (lit "run/dkim.sock"); split; [reflexivity|unfold white; in']|].
      exists (lit "/run/dkim.soc"), "k"%char. split; [reflexivity|]. unfold white. split; [in'|split; discriminate].
    + apply (option_separate (lit "-p") [lit "-l"] (lit "/run/args.sock") []); [in'|]. intros r H. discriminate H.
    + constructor.
  - exists (lit "unix:/run/dkim.sock"). split; [apply (spec_path (lit "run/dkim.sock"))|reflexivity].
Qed.
(** OpenDKIM is asked for the socket in its file first; milter-greylist for its delays. *)
Definition opendkim_sys : system :=
  files_only [(freebsd_script (lit "milter-opendkim"), line (lit "name=milteropendkim") ++ line (lit ": ${milteropendkim_cfgfile=/etc/od.conf}"));
              (lit "/etc/rc.conf", line (lit "milteropendkim_enable=YES") ++ line (lit "milteropendkim_socket=/run/rc.sock"));
              (lit "/etc/od.conf", line (lit "Socket inet:8891@localhost"))].
Example C111_own_example :
  is_a BFree KOpendkim (lit "milter-opendkim") (lit "milteropendkim") /\
  (forall k, is_a BFree k (lit "milter-opendkim") (lit "milteropendkim") -> k = KOpendkim) /\
  rc_milter FreeBSD opendkim_sys None (lit "milter-opendkim") =
    Milter (freebsd_script (lit "milter-opendkim")) (mk_defined true (Some (lit "inet:8891@localhost")) 0 None).
Proof.
  split; [now left|]. split; [|vm_compute; reflexivity]. intros [| | | |] [H|H]; try discriminate H; reflexivity.
Qed.
Example C111_greylist_example :
  rc_milter FreeBSD (files_only [(freebsd_script (lit "milter-greylist"), line (lit "name=miltergreylist"));
      (lit "/etc/rc.conf", line (lit "miltergreylist_sockfile=/run/g.sock") ++ line (lit "miltergreylist_flags=" ++ q (lit "-f /etc/g.conf")));
      (lit "/etc/g.conf", line (lit "racl greylist default tarpit 2m"))]) None (lit "milter-greylist") =
    Milter (freebsd_script (lit "milter-greylist")) (mk_defined false (Some (lit "unix:/run/g.sock")) 120 None).
Proof. vm_compute. reflexivity. Qed.
Example C112_example :
  rc_milter (Pkgsrc (lit "/usr/pkg/etc") (lit "/usr/pkg/etc/rc.d")) (files_only
      [(pkgsrc_script (lit "/usr/pkg/etc/rc.d") (lit "enma"), line (lit "name=enma") ++ line (lit "command_args=" ++ q (lit "-c /etc/e.conf")));
       (lit "/etc/rc.conf", line (lit "enma=Yes")); (lit "/etc/e.conf", line (lit "milter.socket: inet:10025@127.0.0.1"))]) None (lit "enma") =
    Milter (pkgsrc_script (lit "/usr/pkg/etc/rc.d") (lit "enma")) (mk_defined true (Some (lit "inet:10025@127.0.0.1")) 0 None).
Proof. vm_compute. reflexivity. Qed.

(** *** What goes wrong *)
Definition enabled_by (conf : bytes) : Prop :=
  exists c d, rc_milter FreeBSD (dkim dkim_script conf) None (lit "milter-dkim") = Milter c d /\ df_enabled d = true.
Definition listens_by (script conf : bytes) (o : option bytes) : Prop :=
  exists c d, rc_milter FreeBSD (dkim script conf) None (lit "milter-dkim") = Milter c d /\ df_spec d = o.
Ltac refute := let c := fresh in let d := fresh in let A := fresh in let B := fresh in
  intros (c & d & A & B); vm_compute in A; injection A as <- <-; vm_compute in B; discriminate B.
(** A comment behind the value makes it another one. *)
Theorem C110_comment_refuted : ~ (forall e, line_end e -> ~ In (byte_of 10) e -> enabled_by (line (lit "dkim_enable=" ++ q (lit "YES") ++ e))).
Proof.
  intros H. specialize (H (lit " # signs mail")). assert (L : line_end (lit " # signs mail")).
  { apply (end_comment (lit " ") (lit " signs mail")). split; [discriminate|]. constructor; [unfold white; tauto|constructor]. }
  specialize (H L ltac:(in')). revert H. refute.
Qed.
Print Assumptions C110_comment_refuted.
(** What rc.subr takes for yes besides YES is not taken for it. *)
Theorem C110_true_refuted : ~ (forall v, In v [lit "YES"; lit "TRUE"; lit "ON"; lit "1"] -> enabled_by (line (lit "dkim_enable=" ++ q v))).
Proof. intros H. specialize (H (lit "TRUE") ltac:(cbn [In]; tauto)). revert H. refute. Qed.
Print Assumptions C110_true_refuted.
(** An assignment of nothing changes nothing. *)
Theorem C110_empty_refuted : enabled_by (line (lit "dkim_enable=YES") ++ line (lit "dkim_enable=")) /\
  ~ enabled_by (line (lit "dkim_enable=YES") ++ line (lit "dkim_enable=" ++ q [])).
Proof. split; [do 2 eexists; split; vm_compute; reflexivity|refute]. Qed.
Print Assumptions C110_empty_refuted.
(** Profiles of OpenDKIM: an exception is raised instead of filters being defined. *)
Theorem C110_profiles_refuted : ~ (forall p, begins_text p -> Forall clean p ->
  rc_milter FreeBSD (files_only [(freebsd_script (lit "milter-opendkim"), line (lit "name=milteropendkim"));
    (lit "/etc/rc.conf", line (lit "milteropendkim_enable=YES") ++ line (lit "milteropendkim_profiles=" ++ q p))]) None (lit "milter-opendkim") <> Raised).
Proof.
  intros H. apply (H (lit "inner outer")); [|apply clean_all; reflexivity|vm_compute; reflexivity].
  exists "i"%char, (lit "nner outer"). split; [reflexivity|]. unfold white. in'.
Qed.
Print Assumptions C110_profiles_refuted.
(** A value with "=" is cut at its last one, and the variable is lost. *)
Theorem C111_equals_refuted : ~ (forall v, Forall clean v -> spec_means v v -> listens_by dkim_script (line (lit "dkim_socket=" ++ q v)) (Some v)).
Proof.
  intros H. specialize (H (lit "unix:/run/a=b")). assert (S : spec_means (lit "unix:/run/a=b") (lit "unix:/run/a=b")).
  { apply (spec_local [] (lit "unix:") (lit "/run/a=b")); [constructor|now left|]. intros p t [->| ->]; discriminate. }
  specialize (H ltac:(apply clean_all; reflexivity) S). revert H. refute.
Qed.
Print Assumptions C111_equals_refuted.
(** A default written with ":=" is lost; one in a comment counts. *)
Theorem C111_colon_refuted : ~ (forall s, In s [lit "="; lit ":-"; lit "-"; lit ":="] ->
  listens_by (line (lit "name=dkim") ++ line (lit ": ${dkim_socket" ++ s ++ lit "/run/s}")) [] (Some (lit "unix:/run/s"))).
Proof. intros H. specialize (H (lit ":=") ltac:(cbn [In]; tauto)). revert H. refute. Qed.
Print Assumptions C111_colon_refuted.
Theorem C111_commented_refuted : listens_by (line (lit "name=dkim") ++ line (lit "# : ${dkim_socket=/run/old}")) [] (Some (lit "unix:/run/old")).
Proof. do 2 eexists; split; vm_compute; reflexivity. Qed.
Print Assumptions C111_commented_refuted.
(** Arguments of the command that mention two variables are taken for a default. *)
Theorem C111_args_refuted :
  listens_by (line (lit "name=dkim") ++ line (lit "command_args=" ++ q (lit "-p /run/s -u ${dkim_user}"))) [] (Some (lit "unix:/run/s")) /\
  listens_by (line (lit "name=dkim") ++ line (lit "command_args=" ++ q (lit "-p /run/s -u ${dkim_user} -g ${dkim_group}"))) [] None.
Proof. split; (do 2 eexists; split; vm_compute; reflexivity). Qed.
Print Assumptions C111_args_refuted.
(** What a script sets once rc.conf has been read does not win over it: "load_rc_config" is not seen. *)
Theorem C111_late_refuted :
  listens_by (line (lit "name=dkim") ++ line (lit "load_rc_config $name") ++ line (lit "dkim_socket=/run/always")) (line (lit "dkim_socket=/run/conf"))
    (Some (lit "unix:/run/conf")).
Proof. do 2 eexists; split; vm_compute; reflexivity. Qed.
Print Assumptions C111_late_refuted.
(** "$socket" in rc.conf is what "dkim_socket" is, which no shell would say. *)
Theorem C111_short_refuted :
  listens_by (line (lit "name=dkim")) (line (lit "dkim_cfg=/run/cfg") ++ line (lit "dkim_socket=" ++ q (lit "${cfg}.sock"))) (Some (lit "unix:/run/cfg.sock")).
Proof. do 2 eexists; split; vm_compute; reflexivity. Qed.
Print Assumptions C111_short_refuted.
(** A variable with its full name is not known where rc.conf is read. *)
Theorem C111_long_refuted :
  listens_by (line (lit "name=dkim")) (line (lit "dkim_cfg=/run/cfg") ++ line (lit "dkim_socket=" ++ q (lit "${dkim_cfg}.sock"))) (Some (lit "${dkim_cfg}.sock")).
Proof. do 2 eexists; split; vm_compute; reflexivity. Qed.
Print Assumptions C111_long_refuted.
(** The name of the variable that enables a service is taken from rc.conf, not from the script. *)
Definition netbsd_enabled (script conf : bytes) (b : bool) : Prop :=
  exists c d, rc_milter (Pkgsrc (lit "/usr/pkg/etc") (lit "/usr/pkg/etc/rc.d")) (files_only
      [(pkgsrc_script (lit "/usr/pkg/etc/rc.d") (lit "dkim"), script); (lit "/etc/rc.conf", conf)]) None (lit "dkim") = Milter c d /\ df_enabled d = b.
Theorem C112_rcvar_refuted :
  netbsd_enabled (line (lit "name=dkim") ++ line (lit "rcvar=milter_dkim")) (line (lit "milter_dkim=YES")) false /\
  netbsd_enabled (line (lit "name=dkim")) (line (lit "rcvar=milter_dkim") ++ line (lit "milter_dkim=YES")) true.
Proof. split; do 2 eexists; split; vm_compute; reflexivity. Qed.
Print Assumptions C112_rcvar_refuted.
(** On FreeBSD "rcvar=`set_rcvar`" says what is so anyway. *)
Example C110_rcvar_example : exists c d,
  rc_milter FreeBSD (dkim dkim_script (line (lit "rcvar=`set_rcvar`") ++ line (lit "dkim=YES"))) None (lit "milter-dkim") = Milter c d /\ df_enabled d = false.
Proof. do 2 eexists; split; vm_compute; reflexivity. Qed.
