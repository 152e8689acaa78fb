(** Filters started by init scripts: C113 and C114. *)
From Verif.Base Require Import Bytes BytesFacts.
From Verif.Model Require Import PostfixTable Detect InitDetect.
From Verif.Model Require RcDetect.
From Verif.Spec Require Import PostfixSpec DetectSpec.
From Verif.Spec Require RcSpec InitSpec BreakerSpec.
From Verif.Proofs Require Import PostfixProofs DetectProofs GreylistProofs ShellProofs ScriptProofs UnitProofs RcProofs InitProofs.
From Verif.Props Require P44_RcScripts.
Import List.
Import RcDetect(applied, NoMilter, Milter, Raised).
Import RcSpec(variable_says, option_says, first_of, chosen, file_says, spec_of, kind, KClamav, KOpendkim, KEnma).
Import InitSpec(debian_service, debian_clamav, debian_clamav_conf, debian_own, debian_listens, example_file, greylist_file,
  redhat_service, redhat_clamav, redhat_clamav_conf, redhat_own, redhat_listens, redhat_greylist_conf, runlevel_link, tagged).
Import P44_RcScripts(chosen_one, chosen_two, settings_say, applied_spec_of, files_only, line, q).
Local Open Scope N_scope.

(** *** What the theorems below have in common *)
Lemma script_is script w : is_script script w = true <-> script = lit w.
Proof. apply bytes_eqb_eq. Qed.
Lemma script_not script w : is_script script w = false <-> script <> lit w.
Proof. apply bytes_eqb_neq. Qed.
Lemma pick_two {A} (a b o : option A) : first_of [a; b] o -> some_else a b = o.
Proof.
  intros F. inversion F; subst; [reflexivity|]. cbn [some_else]. match goal with H : first_of [b] _ |- _ => inversion H; subst end; [reflexivity|].
  match goal with H : first_of [] _ |- _ => inversion H; subst end. reflexivity.
Qed.
Lemma clamav_says c o : file_says KClamav c o -> clamav_socket c = o.
Proof. destruct c as [c|]; cbn [file_says]; [|now intros ->]. intros (es & L & G). now apply (settings_say (lit "MilterSocket") es). Qed.
Lemma opendkim_says c o : file_says KOpendkim c o -> opendkim_socket c = o.
Proof. destruct c as [c|]; cbn [file_says]; [|now intros ->]. intros (es & L & G). now apply (settings_say (lit "Socket") es). Qed.
Lemma enma_says c o : file_says KEnma c o -> enma_socket c = o.
Proof. destruct c as [c|]; cbn [file_says]; [|now intros ->]. intros (es & L & G). now apply (enma_spec es). Qed.
Lemma and_both (a b c d : Prop) : (a <-> c) -> (b <-> d) -> (a /\ b <-> c /\ d). Proof. tauto. Qed.
Lemma or_both (a b c d : Prop) : (a <-> c) -> (b <-> d) -> (a \/ b <-> c \/ d). Proof. tauto. Qed.
Definition script_path (script : bytes) : bytes := lit "/etc/init.d/" ++ script.

(** *** C113: Debian *)
Lemma deb_clamav_spec script vs env : (forall m, variable vs m = env m) -> deb_clamav script vs = true <-> debian_clamav script env.
Proof.
  intros V. unfold deb_clamav, debian_clamav. rewrite andb_true_iff, orb_true_iff, script_is, contains_spec, !V. apply and_iff_compat_l.
  apply or_both.
  - destruct (env (lit "CLAMAVCONF")) as [v|]; cbn [found].
    + split; intros (a & b & H); exists a, b; [now rewrite H|now injection H as ->].
    + split; intros (a & b & H); [|discriminate]. destruct a; discriminate.
  - destruct (env (lit "CLAMAVMILTERCONF")) as [f|]; cbn [is_some]; split; intros H; try reflexivity; try discriminate; [now exists f|].
    destruct H as [f H]. discriminate.
Qed.
Lemma deb_conf_spec vs env f : (forall m, variable vs m = env m) -> debian_clamav_conf env f -> deb_clamav_conf vs = f.
Proof. intros V C. unfold deb_clamav_conf. rewrite !V. now apply chosen_two. Qed.

(** A script is a filter; it is used unless ENABLED is 0 when the script and then its file of settings
    have run, or its own file is still the example. *)
Theorem C113_enabled : forall sys script env ex,
  debian_service (sy_file sys) script env ->
  (debian_clamav script env -> exists f, debian_clamav_conf env f /\ example_file (sy_file sys f) ex) ->
  (~ debian_clamav script env -> ex = false) ->
  exists d, deb_milter sys script = Milter (script_path script) d /\
    (df_enabled d = true <-> env (lit "ENABLED") <> Some (lit "0") /\ ex = false).
Proof.
  intros sys script env ex S C C'. destruct (deb_detected sys script env S) as (content & i & vs & F & D & V & _).
  unfold deb_milter. rewrite F, D. eexists. split; [reflexivity|]. cbn [df_enabled]. unfold deb_enabled. rewrite andb_true_iff, V.
  apply and_both.
  - rewrite negb_true_iff. destruct (env (lit "ENABLED")) as [v|]; [|split; [discriminate|reflexivity]].
    rewrite bytes_eqb_neq. split; intros H X; apply H; [now injection X as ->|now rewrite X].
  - rewrite negb_true_iff. destruct (deb_clamav script vs) eqn:K; cbn [andb].
    + apply (deb_clamav_spec _ _ _ V) in K. destruct (C K) as (f & P & E). rewrite (deb_conf_spec _ _ _ V P), (example_spec _ _ E). reflexivity.
    + rewrite C'; [reflexivity|]. intros A. apply (deb_clamav_spec _ _ _ V) in A. congruence.
Qed.
Print Assumptions C113_enabled.
Theorem C113_absent : forall sys script, sy_file sys (script_path script) = None -> deb_milter sys script = NoMilter.
Proof. intros sys script H. unfold deb_milter. change (init_script script) with (script_path script). now rewrite H. Qed.
Print Assumptions C113_absent.
(** It listens where its own file says, and else at its SOCKET, its SOCKFILE, its CONNECTION_SPEC or
    behind "-p" of its arguments. *)
Theorem C113_listens : forall sys script env own rest o spec,
  debian_service (sy_file sys) script env -> debian_own (sy_file sys) script env own ->
  debian_listens (sy_words sys) env rest -> first_of [own; rest] o -> spec_of o spec ->
  exists d, deb_milter sys script = Milter (script_path script) d /\ df_spec d = spec.
Proof.
  intros sys script env own rest o spec S (Oc & Od & On) Ls Fo Sp. destruct (deb_detected sys script env S) as (content & i & vs & F & D & V & _).
  unfold deb_milter. rewrite F, D. eexists. split; [reflexivity|]. cbn [df_spec]. rewrite <- (applied_spec_of _ _ Sp).
  assert (Q : deb_spec sys script vs = o); [|unfold applied_to; now rewrite Q]. rewrite <- (pick_two _ _ _ Fo). unfold deb_spec. f_equal.
  - destruct (deb_clamav script vs) eqn:K.
    + apply (deb_clamav_spec _ _ _ V) in K. destruct (Oc K) as (f & P & E). rewrite (deb_conf_spec _ _ _ V P), (clamav_says _ _ E).
      destruct K as [-> _]. change (is_script (lit "clamav-milter") "opendkim") with false. now destruct own.
    + cbn [some_else]. destruct (is_script script "opendkim") eqn:I.
      * apply script_is in I. now apply opendkim_says, Od.
      * symmetry. apply On; [|now apply script_not]. intros A. apply (deb_clamav_spec _ _ _ V) in A. congruence.
  - destruct Ls as (a & b & c & e & f & g & A & B & C & E & G & H & O).
    rewrite (variable_spec env _ _ _ (V (lit "SOCKET")) A), (variable_spec env _ _ _ (V (lit "SOCKFILE")) B), (variable_spec env _ _ _ (V (lit "CONNECTION_SPEC")) C), !V.
    rewrite (flag_spec _ _ _ _ E), (flag_spec _ _ _ _ G), (flag_spec _ _ _ _ H).
    clear -O. repeat match goal with H : first_of _ _ |- _ => inversion H; subst; clear H end; reflexivity.
Qed.
Print Assumptions C113_listens.
(** Only milter-greylist is given more time: the longest of its delays. *)
Theorem C113_greylist : forall sys script env a f es m,
  debian_service (sy_file sys) script env ->
  (script = lit "milter-greylist" ->
    option_says (sy_words sys) (lit "-f") (env (lit "OPTIONS")) a /\ chosen [a] (lit "/etc/milter-greylist/greylist.conf") f /\
    greylist_file (sy_file sys f) es /\ longest_delay es m) ->
  (script <> lit "milter-greylist" -> m = 0) ->
  exists d, deb_milter sys script = Milter (script_path script) d /\ df_extra d = m.
Proof.
  intros sys script env a f es m S G G'. destruct (deb_detected sys script env S) as (content & i & vs & F & D & V & _).
  unfold deb_milter. rewrite F, D. eexists. split; [reflexivity|]. cbn [df_extra]. destruct (is_script script "milter-greylist") eqn:I.
  - apply script_is in I. destruct (G I) as (O & C & L & M). unfold deb_greylist_conf. rewrite V, (flag_spec _ _ _ _ O). unfold found.
    rewrite (chosen_one _ _ _ C). now apply (greylist_delay _ es).
  - apply script_not in I. symmetry. now apply G'.
Qed.
Print Assumptions C113_greylist.
(** Without a header, the filter is described by DESC. *)
Theorem C113_described : forall sys script env,
  debian_service (sy_file sys) script env ->
  (forall content, sy_file sys (script_path script) = Some content -> absent (lit "### BEGIN INIT INFO") content) ->
  exists d, deb_milter sys script = Milter (script_path script) d /\ df_description d = env (lit "DESC").
Proof.
  intros sys script env S A. destruct (deb_detected sys script env S) as (content & i & vs & F & D & V & H).
  unfold deb_milter. rewrite F, D. eexists. split; [reflexivity|]. cbn [df_description]. rewrite (H (A _ F)). cbn [lookup some_else]. apply V.
Qed.
Print Assumptions C113_described.

(** *** C114: Red Hat *)
Lemma rh_clamav_spec script vs env : (forall m, variable vs m = env m) -> rh_clamav script vs = true <-> redhat_clamav script env.
Proof.
  intros V. unfold rh_clamav, redhat_clamav. rewrite andb_true_iff, script_is, negb_true_iff, V. apply and_iff_compat_l.
  destruct (env (lit "SOCKET_ADDRESS")); cbn [is_some]; split; congruence.
Qed.
Lemma rh_conf_spec sys vs env f : (forall m, variable vs m = env m) -> redhat_clamav_conf (sy_words sys) env f -> rh_clamav_conf sys vs = f.
Proof. intros V (a & b & A & B & C). unfold rh_clamav_conf. rewrite V, (flag_spec _ _ _ _ A), (flag_spec _ _ _ _ B). now apply chosen_two. Qed.
Lemma links_spec script p : In p (rc_links script) <-> runlevel_link script p.
Proof.
  assert (T : forall c, In c ten <-> ConnectionSpecSpec.digit_char c).
  { intros c. split.
    - unfold ten. cbn [lit In]. intros H. repeat destruct H as [<-|H]; try contradiction; unfold ConnectionSpecSpec.digit_char; vm_compute; split; discriminate.
    - intros H. assert (X : existsb (beqb c) ten = true); [|apply existsb_exists in X as (x & I & E); apply beqb_eq in E; now subst].
      rewrite <- (ascii_N_embedding c). unfold ConnectionSpecSpec.digit_char, code in H. revert H. generalize (N_of_ascii c). intros n H.
      assert (K : n = 48 \/ n = 49 \/ n = 50 \/ n = 51 \/ n = 52 \/ n = 53 \/ n = 54 \/ n = 55 \/ n = 56 \/ n = 57) by lia.
      repeat destruct K as [->|K]; try reflexivity. now subst n. }
  unfold rc_links, runlevel_link. rewrite in_flat_map. split.
  - intros (n & N & H). apply in_flat_map in H as (k & K & H). apply in_flat_map in H as (a & A & H). apply in_map_iff in H as (b & <- & B).
    exists n, k, a, b. rewrite <- !T. auto.
  - intros (n & k & a & b & N & K & A & B & ->). exists n. split; [exact N|]. apply in_flat_map. exists k. split; [exact K|].
    apply in_flat_map. exists a. split; [now apply T|]. apply in_map_iff. exists b. split; [reflexivity|now apply T].
Qed.
(** Where it listens, before milter-greylist's own file is asked. *)
Lemma rh_first sys rspamd script i vs env own rest : (forall m, variable vs m = env m) ->
  redhat_own (sy_file sys) (sy_words sys) rspamd script env own -> redhat_listens (sy_words sys) env rest ->
  rh_spec sys rspamd script i vs = some_else (some_else own rest)
    (if is_script script "milter-greylist" then greylist_socket (parse_greylist (sy_file sys (rh_greylist_conf sys i vs))) else None).
Proof.
  intros V (Oe & Oc & Od & Or & On) Ls. unfold rh_spec.
  set (last := if is_script script "milter-greylist" then _ else None).
  assert (R : some_else (normalize_spec (variable vs (lit "SOCKET"))) (some_else (normalize_spec (variable vs (lit "SOCKET_ADDRESS")))
    (some_else (normalize_spec (variable vs (lit "MILTER_SOCKET"))) (some_else (normalize_spec (variable vs (lit "CONNECTION_SPEC")))
    (some_else (parameter_from_flags sys (variable vs (lit "OPTIONS")) (lit "-p")) last)))) = some_else rest last).
  { clearbody last. destruct Ls as (a & b & c & d & e & A & B & C & D & E & O).
    rewrite (variable_spec env _ _ _ (V (lit "SOCKET")) A), (variable_spec env _ _ _ (V (lit "SOCKET_ADDRESS")) B),
      (variable_spec env _ _ _ (V (lit "MILTER_SOCKET")) C), (variable_spec env _ _ _ (V (lit "CONNECTION_SPEC")) D), V, (flag_spec _ _ _ _ E).
    clear -O. repeat match goal with H : first_of _ _ |- _ => inversion H; subst; clear H end; reflexivity. }
  rewrite R. clear R.
  assert (W : forall x, some_else own x = some_else (if is_script script "enma" then enma_socket (sy_file sys (found (lit "/etc/enma.conf") (variable vs (lit "CONF_FILE")))) else None)
   (some_else (if rh_clamav script vs then clamav_socket (sy_file sys (rh_clamav_conf sys vs)) else None)
   (some_else (if is_script script "opendkim" then opendkim_socket (sy_file sys (found (lit "/etc/opendkim.conf") (variable vs (lit "CONFIG")))) else None)
   (some_else (if is_script script "rspamd" then rspamd else None) x)))).
  { intros x. destruct (is_script script "enma") eqn:I1.
    { apply script_is in I1. subst script. destruct (Oe eq_refl) as (f & C & E). rewrite V. unfold found at 1. rewrite (chosen_one _ _ _ C), (enma_says _ _ E).
      unfold rh_clamav. change (is_script (lit "enma") "clamav-milter") with false. reflexivity. }
    cbn [some_else]. destruct (rh_clamav script vs) eqn:I2.
    { apply (rh_clamav_spec _ _ _ V) in I2. destruct (Oc I2) as (f & C & E). rewrite (rh_conf_spec _ _ _ _ V C), (clamav_says _ _ E).
      destruct I2 as [-> _]. reflexivity. }
    cbn [some_else]. destruct (is_script script "opendkim") eqn:I3.
    { apply script_is in I3. subst script. destruct (Od eq_refl) as (f & C & E). rewrite V. unfold found at 1. rewrite (chosen_one _ _ _ C), (opendkim_says _ _ E). reflexivity. }
    cbn [some_else]. destruct (is_script script "rspamd") eqn:I4.
    { apply script_is in I4. now rewrite (Or I4). }
    cbn [some_else]. rewrite On; [reflexivity| | | |]; try (now apply script_not). intros A. apply (rh_clamav_spec _ _ _ V) in A. congruence. }
  rewrite <- W. now destruct own.
Qed.

(** A script is a filter; it is used if it is known where it listens, there is a link to it for some
    runlevel, and its own file is not the example. *)
Theorem C114_enabled : forall sys rspamd script content env own rest ex,
  redhat_service (sy_file sys) script content env -> script <> lit "milter-greylist" ->
  redhat_own (sy_file sys) (sy_words sys) rspamd script env own -> redhat_listens (sy_words sys) env rest ->
  (redhat_clamav script env -> exists f, redhat_clamav_conf (sy_words sys) env f /\ example_file (sy_file sys f) ex) ->
  (~ redhat_clamav script env -> ex = false) ->
  exists d, rh_milter sys rspamd script = Milter (script_path script) d /\
    (df_enabled d = true <->
      (own <> None \/ rest <> None) /\ (exists p, runlevel_link script p /\ sy_exists sys p = true) /\ ex = false).
Proof.
  intros sys rspamd script content env own rest ex S G O Ls C C'. destruct (rh_detected sys script content env S) as (F & (i & I) & V).
  unfold rh_milter. rewrite F, I. eexists. split; [reflexivity|]. cbn [df_enabled]. unfold rh_enabled. rewrite !andb_true_iff, <- and_assoc. apply and_both; [apply and_both|].
  - rewrite (rh_first _ _ _ _ _ _ _ _ V O Ls). apply script_not in G. rewrite G. destruct own, rest; cbn [some_else is_some]; intuition congruence.
  - rewrite existsb_exists. split; intros (p & P & E); exists p; split; try exact E; now apply links_spec.
  - rewrite negb_true_iff. destruct (rh_clamav script (rh_variables sys script content)) eqn:K; cbn [andb].
    + apply (rh_clamav_spec _ _ _ V) in K. destruct (C K) as (f & P & E). rewrite (rh_conf_spec _ _ _ _ V P), (example_spec _ _ E). reflexivity.
    + rewrite C'; [reflexivity|]. intros A. apply (rh_clamav_spec _ _ _ V) in A. congruence.
Qed.
Print Assumptions C114_enabled.
Theorem C114_absent : forall sys rspamd script, sy_file sys (script_path script) = None -> rh_milter sys rspamd script = NoMilter.
Proof. intros sys rspamd script H. unfold rh_milter. change (init_script script) with (script_path script). now rewrite H. Qed.
Print Assumptions C114_absent.
(** It listens where its own file says, and else at its SOCKET, SOCKET_ADDRESS, MILTER_SOCKET or
    CONNECTION_SPEC or behind "-p" of its OPTIONS. *)
Theorem C114_listens : forall sys rspamd script content env own rest o spec,
  redhat_service (sy_file sys) script content env -> script <> lit "milter-greylist" ->
  redhat_own (sy_file sys) (sy_words sys) rspamd script env own -> redhat_listens (sy_words sys) env rest ->
  first_of [own; rest] o -> spec_of o spec ->
  exists d, rh_milter sys rspamd script = Milter (script_path script) d /\ df_spec d = spec /\ df_extra d = 0.
Proof.
  intros sys rspamd script content env own rest o spec S G O Ls Fo Sp. destruct (rh_detected sys script content env S) as (F & (i & I) & V).
  unfold rh_milter. rewrite F, I. eexists. split; [reflexivity|]. cbn [df_spec df_extra]. pose proof G as G0. apply script_not in G0.
  rewrite <- (applied_spec_of _ _ Sp), (rh_first _ _ _ _ _ _ _ _ V O Ls), G0, (pick_two _ _ _ Fo). unfold applied_to. split; [now destruct o|reflexivity].
Qed.
Print Assumptions C114_listens.
(** milter-greylist listens, unless told otherwise by variables, where its own file says, which may be
    named by a tag of the script; it is given the longest of its delays. *)
Theorem C114_greylist : forall sys rspamd content env rest f es g m o spec,
  redhat_service (sy_file sys) (lit "milter-greylist") content env -> redhat_listens (sy_words sys) env rest ->
  redhat_greylist_conf (sy_words sys) content env f -> greylist_file (sy_file sys f) es -> last_socket es g -> longest_delay es m ->
  first_of [rest; g] o -> spec_of o spec ->
  exists d, rh_milter sys rspamd (lit "milter-greylist") = Milter (script_path (lit "milter-greylist")) d /\
    df_spec d = spec /\ df_extra d = m /\
    (df_enabled d = true <-> o <> None /\ exists p, runlevel_link (lit "milter-greylist") p /\ sy_exists sys p = true).
Proof.
  intros sys rspamd content env rest f es g m o spec S Ls (a & b & A & B & C) G Lg Ld Fo Sp.
  destruct (rh_detected sys _ content env S) as (F & (i & I) & V).
  assert (O : redhat_own (sy_file sys) (sy_words sys) rspamd (lit "milter-greylist") env None).
  { split; [discriminate|]. split; [intros [X _]; discriminate X|]. split; [discriminate|]. split; [discriminate|reflexivity]. }
  assert (P : rh_greylist_conf sys i (rh_variables sys (lit "milter-greylist") content) = f).
  { unfold rh_greylist_conf. rewrite V, (flag_spec _ _ _ _ A), (tags_spec _ _ _ B I). now apply chosen_two. }
  pose proof (rh_first sys rspamd (lit "milter-greylist") i _ env None rest V O Ls) as W. rewrite P in W.
  change (is_script (lit "milter-greylist") "milter-greylist") with true in W. cbv iota in W. rewrite (greylist_listens _ _ _ G Lg) in W.
  change (some_else None rest) with rest in W. rewrite (pick_two _ _ _ Fo) in W.
  unfold rh_milter. rewrite F, I. eexists. split; [reflexivity|]. cbn [df_spec df_extra df_enabled]. rewrite W, P. split; [|split].
  - rewrite <- (applied_spec_of _ _ Sp). reflexivity.
  - change (is_script (lit "milter-greylist") "milter-greylist") with true. now apply (greylist_delay _ es).
  - unfold rh_enabled. rewrite W, !andb_true_iff, existsb_exists. change (rh_clamav (lit "milter-greylist") (rh_variables sys (lit "milter-greylist") content)) with false.
    cbn [andb negb]. split.
    + intros [[Q (p & Ip & E)] _]. split; [destruct o; [discriminate|discriminate Q]|]. exists p. split; [now apply links_spec|exact E].
    + intros [Q (p & Ip & E)]. split; [|reflexivity]. split; [destruct o; [reflexivity|congruence]|]. exists p. split; [now apply links_spec|exact E].
Qed.
Print Assumptions C114_greylist.

(** *** Examples *)
Fixpoint assigns (low : bool) (l : bytes) : bool :=
  match l with
  | c :: (d :: _) as l' => (beqb d "=" && Detect.name_char low c) || assigns low l'
  | _ => false
  end.
Lemma unassigned low l : assigns low l = false -> InitSpec.no_assignment (names low) l.
Proof.
  intros H a c b ->. intros N. apply names_true in N. revert H. induction a as [|x a IH]; cbn [app].
  - cbn [assigns]. rewrite beqb_refl, N. discriminate.
  - intros H. apply IH. destruct (a ++ c :: "="%char :: b) eqn:E; [destruct a; discriminate|]. cbn [assigns] in H. now apply orb_false_iff in H as [_ H].
Qed.
Definition dkim_script : list bytes :=
  [lit "#!/bin/sh -e"; lit "### BEGIN INIT INFO"; lit "# Provides:    dkim"; lit "# Description: signs"; lit "#   mail"; lit "### END INIT INFO";
   lit "NAME=dkim"; lit "SOCKFILE=" ++ q (lit "/run/$NAME.sock") ++ lit " # here"; lit "[ ! -r /etc/default/$NAME ] || . /etc/default/$NAME";
   lit "case " ++ q (lit "$1") ++ lit " in"; lit "esac"].
Definition dkim_entries : list (option (bytes * list piece)) :=
  [None; None; None; None; None; None; Some (lit "NAME", [Text (lit "dkim")]);
   Some (lit "SOCKFILE", [Text (lit "/run/"); Ref (lit "NAME"); Text (lit ".sock")]); None; None; None; None].
Definition dkim_settings : list bytes := [lit "ENABLED=0"; lit "ENABLED='1'"; lit "export SOCKFILE"; lit "DAEMON_ARGS=" ++ q (lit "-l -p /run/other.sock")].
Definition dkim_changes : list (option (bytes * list piece)) :=
  [Some (lit "ENABLED", [Text (lit "0")]); Some (lit "ENABLED", [Text (lit "1")]); None; Some (lit "DAEMON_ARGS", [Text (lit "-l -p /run/other.sock")]); None].
Definition dkim : system :=
  files_only [(script_path (lit "dkim"), file dkim_script []); (lit "/etc/default/dkim", file dkim_settings [])].
Definition dkim_env : environment :=
  set (set (set (set (set nothing_set (lit "NAME") (lit "dkim")) (lit "SOCKFILE") (lit "/run/dkim.sock")) (lit "ENABLED") (lit "0")) (lit "ENABLED") (lit "1"))
    (lit "DAEMON_ARGS") (lit "-l -p /run/other.sock").
Ltac in' := let H := fresh in intros H; vm_compute in H; intuition discriminate.
Ltac other := apply InitSpec.line_other; apply (unassigned false); reflexivity.
Ltac named := repeat (constructor; [unfold capital; vm_compute; intuition discriminate|]); constructor.
Lemma clean_text b : forallb P44_RcScripts.clean_b b = true -> Forall clean b. Proof. apply P44_RcScripts.clean_all. Qed.
Lemma bare_text b : forallb (fun c => negb (is_space c) && P44_RcScripts.not_in_list c (lit ";&|<>()~")) b = true -> Forall bare b.
Proof.
  intros H. apply Forall_forall. intros c I. rewrite forallb_forall in H. specialize (H c I). apply andb_true_iff in H as [A B].
  split; [apply not_white; now apply negb_true_iff|]. unfold P44_RcScripts.not_in_list in B. apply negb_true_iff in B. intros J.
  assert (X : existsb (beqb c) (lit ";&|<>()~") = true) by (apply existsb_exists; exists c; split; [exact J|apply beqb_refl]). congruence.
Qed.
Ltac plain n v := apply (InitSpec.line_plain capital [] (lit n) [Text (lit v)] (lit v) []);
  [constructor; constructor|discriminate|named|apply clean_writes, clean_text; reflexivity|apply bare_text; reflexivity|constructor].
Lemma dkim_service : debian_service (sy_file dkim) (lit "dkim") dkim_env.
Proof.
  exists (file dkim_script []). split; [reflexivity|]. split; [|split; [now apply P44_RcScripts.absent_b|]].
  - intros s t r W E O R. change (file dkim_script []) with (lit "#!" ++ lit "/bin/sh" ++ lit " -e" ++ newline :: file (tl dkim_script) []) in E.
    apply app_inv_head in E. destruct W as [|c s Wc W].
    + rewrite app_nil_l in E. apply app_inv_head in E. split; [intros []|]. destruct R as [->|(r' & ->)].
      * exfalso. apply O. rewrite app_nil_r in E. rewrite <- E. apply in_app_iff. right. now left.
      * apply split_once in E as [<- _]; [apply (unassigned false); reflexivity|in'|exact O].
    + exfalso. injection E as <- _. vm_compute in Wc. intuition discriminate.
  - exists dkim_entries. split.
    + exists dkim_script, []. split; [reflexivity|]. split; [repeat (apply Forall_cons; [in'|]); apply Forall_nil|]. split; [intros []|].
      unfold dkim_script, dkim_entries. cbn [app]. repeat apply Forall2_cons; try other; try apply Forall2_nil.
      * plain "NAME"%string "dkim"%string.
      * apply (InitSpec.line_double capital [] (lit "SOCKFILE") _ (lit "/run/$NAME.sock") (lit " # here")); [constructor; constructor|discriminate|named| |].
        -- apply (writes_text (lit "/run/") _ (lit "$NAME.sock")); [apply clean_text; reflexivity|].
           apply (writes_bare (lit "NAME") _ (lit ".sock")).
           ++ split; [apply P44_RcScripts.word_lit; [reflexivity|discriminate]|]. split; [discriminate|]. intros c n X. injection X as <- _. vm_compute. intuition congruence.
           ++ apply clean_writes, clean_text. reflexivity.
           ++ right. exists "."%char, (lit "sock"). split; [reflexivity|]. split; [vm_compute; intuition congruence|discriminate].
        -- apply (end_comment (lit " ") (lit " here")). split; [discriminate|]. repeat constructor.
    + exists dkim_changes. split.
      * exists dkim_settings, []. split; [reflexivity|]. split; [repeat (apply Forall_cons; [in'|]); apply Forall_nil|]. split; [intros []|].
        unfold dkim_settings, dkim_changes. cbn [app]. repeat apply Forall2_cons; try other; try apply Forall2_nil.
        -- plain "ENABLED"%string "0"%string.
        -- apply (InitSpec.line_single capital [] (lit "ENABLED") (lit "1") []); [constructor; constructor|discriminate|named|apply clean_text; reflexivity|constructor].
        -- apply (InitSpec.line_double capital [] (lit "DAEMON_ARGS") _ (lit "-l -p /run/other.sock") []);
             [constructor; constructor|discriminate|named|apply clean_writes, clean_text; reflexivity|constructor].
      * unfold dkim_entries, dkim_changes. cbn [app]. repeat apply runs_idle.
        apply (runs_assign _ _ _ (lit "dkim")); [exact (means_text _ (lit "dkim") [] [] (means_nothing _))|].
        apply (runs_assign _ _ _ (lit "/run/dkim.sock")).
        { apply (means_text _ (lit "/run/") _ (lit "dkim.sock")). apply (means_ref _ (lit "NAME") (lit "dkim") _ (lit ".sock")); [reflexivity|].
          exact (means_text _ (lit ".sock") [] [] (means_nothing _)). }
        repeat apply runs_idle.
        apply (runs_assign _ _ _ (lit "0")); [exact (means_text _ (lit "0") [] [] (means_nothing _))|].
        apply (runs_assign _ _ _ (lit "1")); [exact (means_text _ (lit "1") [] [] (means_nothing _))|].
        apply runs_idle. apply (runs_assign _ _ _ (lit "-l -p /run/other.sock")); [exact (means_text _ (lit "-l -p /run/other.sock") [] [] (means_nothing _))|].
        apply runs_idle. apply runs_nothing.
Qed.
(** Used, at the socket of the script rather than the one behind "-p". *)
Example C113_example : debian_service (sy_file dkim) (lit "dkim") dkim_env /\
  ~ debian_clamav (lit "dkim") dkim_env /\ debian_own (sy_file dkim) (lit "dkim") dkim_env None /\
  debian_listens (sy_words dkim) dkim_env (Some (lit "/run/dkim.sock")) /\
  deb_milter dkim (lit "dkim") = Milter (script_path (lit "dkim")) (mk_defined true (Some (lit "unix:/run/dkim.sock")) 0 None).
Proof.
  assert (C : ~ debian_clamav (lit "dkim") dkim_env) by (intros [X _]; discriminate X).
  split; [exact dkim_service|]. split; [exact C|]. split; [split; [now intros X|split; [discriminate|reflexivity]]|]. split; [|vm_compute; reflexivity].
  exists None, (Some (lit "/run/dkim.sock")), None, None, (Some (lit "/run/other.sock")), None.
  split; [reflexivity|]. split.
  { right. exists (lit "/run/dkim.sock"). split; [|reflexivity]. exists [], []. split; [reflexivity|]. split; [constructor|]. split; [constructor|].
    split; [exists "/"%char, (lit "run/dkim.sock"); split; [reflexivity|unfold white; in']|].
    exists (lit "/run/dkim.soc"), "k"%char. split; [reflexivity|]. split; [unfold white; in'|split; discriminate]. }
  split; [reflexivity|]. split; [reflexivity|]. split.
  { cbn [option_says]. change (dkim_env (lit "DAEMON_ARGS")) with (Some (lit "-l -p /run/other.sock")). cbn [option_says].
    replace (sy_words dkim (lit "-l -p /run/other.sock")) with ([lit "-l"] ++ lit "-p" :: lit "/run/other.sock" :: []) by (vm_compute; reflexivity).
    apply option_separate; [in'|]. intros r X. discriminate X. }
  split; [reflexivity|]. apply RcSpec.first_later, RcSpec.first_here.
Qed.

Definition redhat (link : bytes) (script settings : list bytes) (more : list (bytes * bytes)) : system :=
  let fs := (script_path (lit "milter-greylist"), file script []) :: (lit "/etc/sysconfig/milter-greylist", file settings []) :: more in
  mk_system (lookup fs) (fun p => bytes_eqb p link) (Breaker.space_fields false).
Definition greylist : system :=
  redhat (lit "/etc/rc3.d/S79milter-greylist") [lit "#!/bin/bash"; lit "# chkconfig: 345 79 21"; lit "# config: /etc/gl.conf"; []; lit "prog=x"] [lit "OPTIONS=-v"]
    [(lit "/etc/gl.conf", file [lit "socket " ++ q (lit "/run/gl.sock"); lit "racl greylist tarpit 2m"] [])].
Definition greylist_env : environment := set (set nothing_set (lit "prog") (lit "x")) (lit "OPTIONS") (lit "-v").
Ltac other' := apply InitSpec.line_other; apply (unassigned true); reflexivity.
Ltac named' := repeat (constructor; [vm_compute; intuition discriminate|]); constructor.
Example C114_example : exists content,
  redhat_service (sy_file greylist) (lit "milter-greylist") content greylist_env /\ redhat_listens (sy_words greylist) greylist_env None /\
  redhat_greylist_conf (sy_words greylist) content greylist_env (lit "/etc/gl.conf") /\
  rh_milter greylist None (lit "milter-greylist") = Milter (script_path (lit "milter-greylist")) (mk_defined true (Some (lit "unix:/run/gl.sock")) 120 None).
Proof.
  exists (file [lit "#!/bin/bash"; lit "# chkconfig: 345 79 21"; lit "# config: /etc/gl.conf"; []; lit "prog=x"] []). split; [|split; [|split; [|vm_compute; reflexivity]]].
  - split; [reflexivity|]. split; [now apply P44_RcScripts.absent_b|]. exists [None; None; None; None; Some (lit "prog", [Text (lit "x")]); None]. split.
    + exists [lit "#!/bin/bash"; lit "# chkconfig: 345 79 21"; lit "# config: /etc/gl.conf"; []; lit "prog=x"], []. split; [reflexivity|].
      split; [repeat (apply Forall_cons; [in'|]); apply Forall_nil|]. split; [intros []|]. cbn [app]. repeat apply Forall2_cons; try other'; try apply Forall2_nil.
      apply (InitSpec.line_plain BreakerSpec.name_char [] (lit "prog") [Text (lit "x")] (lit "x") []);
        [constructor; constructor|discriminate|named'|apply clean_writes, clean_text; reflexivity|apply bare_text; reflexivity|constructor].
    + exists [Some (lit "OPTIONS", [Text (lit "-v")]); None]. split.
      * exists [lit "OPTIONS=-v"], []. split; [reflexivity|]. split; [repeat (apply Forall_cons; [in'|]); apply Forall_nil|]. split; [intros []|]. cbn [app].
        repeat apply Forall2_cons; try other'; try apply Forall2_nil.
        apply (InitSpec.line_plain BreakerSpec.name_char [] (lit "OPTIONS") [Text (lit "-v")] (lit "-v") []);
          [constructor; constructor|discriminate|named'|apply clean_writes, clean_text; reflexivity|apply bare_text; reflexivity|constructor].
      * cbn [app]. repeat apply runs_idle. apply (runs_assign _ _ _ (lit "x")); [exact (means_text _ (lit "x") [] [] (means_nothing _))|]. apply runs_idle.
        apply (runs_assign _ _ _ (lit "-v")); [exact (means_text _ (lit "-v") [] [] (means_nothing _))|]. apply runs_idle, runs_nothing.
  - exists None, None, None, None, None. do 4 (split; [reflexivity|]). split; [|repeat constructor].
    change (greylist_env (lit "OPTIONS")) with (Some (lit "-v")). cbn [option_says]. apply option_absent.
    replace (sy_words greylist (lit "-v")) with [lit "-v"] by (vm_compute; reflexivity). constructor; [intros (r & X); discriminate X|constructor].
  - exists None, (Some (lit "/etc/gl.conf")). split.
    + change (greylist_env (lit "OPTIONS")) with (Some (lit "-v")). cbn [option_says]. apply option_absent.
      replace (sy_words greylist (lit "-v")) with [lit "-v"] by (vm_compute; reflexivity). constructor; [intros (r & X); discriminate X|constructor].
    + split; [|exists (Some (lit "/etc/gl.conf")); split; [apply RcSpec.first_later, RcSpec.first_here|reflexivity]].
      exists [lit "#!/bin/bash"; lit "# chkconfig: 345 79 21"; lit "# config: /etc/gl.conf"], [[]; lit "prog=x"], [], [None; None; Some (lit "/etc/gl.conf")].
      split; [reflexivity|]. split; [repeat (apply Forall_cons; [in'|]); apply Forall_nil|]. split; [intros []|].
      split; [repeat (constructor; [eexists; reflexivity|]); constructor|]. split; [intros H; cbn [In] in H; intuition discriminate|].
      split; [repeat (apply Forall_cons; [in'|]); apply Forall_nil|]. split; [intros (r & X); discriminate X|]. split.
      * constructor; [apply InitSpec.tag_none; intros (r & X); discriminate X|]. constructor; [apply InitSpec.tag_none; intros (r & X); discriminate X|].
        constructor; [|constructor]. apply (InitSpec.tag_config (lit " ") (lit "/etc/gl.conf") []); [repeat constructor| |constructor].
        split; [exists "/"%char, (lit "etc/gl.conf"); split; [reflexivity|unfold white; in']|].
        exists (lit "/etc/gl.con"), "f"%char. split; [reflexivity|]. split; [unfold white; in'|split; discriminate].
      * right. exists [None; None], (lit "/etc/gl.conf"), []. split; [reflexivity|]. split; [constructor|reflexivity].
Qed.

(** *** What does not hold *)
Definition debian (script settings : list bytes) : system :=
  files_only [(script_path (lit "dkim"), file script []); (lit "/etc/default/dkim", file settings [])].
Definition debian_used (script settings : list bytes) (b : bool) : Prop :=
  exists c d, deb_milter (debian script settings) (lit "dkim") = Milter c d /\ df_enabled d = b.
Definition debian_at (script settings : list bytes) (spec : option bytes) : Prop :=
  exists c d, deb_milter (debian script settings) (lit "dkim") = Milter c d /\ df_spec d = spec.
Ltac refute := let c := fresh in let d := fresh in let A := fresh in let B := fresh in
  intros (c & d & A & B); vm_compute in A; injection A as <- <-; vm_compute in B; discriminate B.
Ltac witness := do 2 eexists; split; vm_compute; reflexivity.
(** Nothing but "0" switches a filter off. *)
Theorem C113_no_refuted : ~ (forall v, In v [lit "0"; lit "no"; lit "false"] -> debian_used [lit "NAME=dkim"] [lit "ENABLED=" ++ v] false).
Proof. intros H. specialize (H (lit "no") ltac:(cbn [In]; tauto)). revert H. refute. Qed.
Print Assumptions C113_no_refuted.
(** What stands in a branch that is not taken counts. *)
Theorem C113_branch_refuted : debian_used [lit "if false; then"; lit "  ENABLED=0"; lit "fi"] [] false.
Proof. witness. Qed.
Print Assumptions C113_branch_refuted.
(** What a script sets once it has read its settings does not win over them. *)
Theorem C113_late_refuted :
  debian_at [lit ". /etc/default/dkim"; lit "SOCKET=/run/always"] [lit "SOCKET=/run/settings"] (Some (lit "unix:/run/settings")).
Proof. witness. Qed.
Print Assumptions C113_late_refuted.
(** A header with one empty line raises an exception. *)
Theorem C113_header_refuted : ~ (forall hs, Forall InitSpec.hashed hs -> deb_milter (debian (lit "#!/bin/sh" :: hs) []) (lit "dkim") <> Raised).
Proof.
  intros H. apply (H [lit "### BEGIN INIT INFO"; lit "# "; lit "### END INIT INFO"]); [|vm_compute; reflexivity].
  repeat (constructor; [eexists; reflexivity|]). constructor.
Qed.
Print Assumptions C113_header_refuted.
(** The header is not seen if the shell is given an option. *)
Theorem C113_shell_refuted : ~ (forall t, In t [[]; lit " -e"] -> exists c d,
  deb_milter (debian [lit "#!/bin/sh" ++ t; lit "### BEGIN INIT INFO"; lit "# Description: signs"; lit "#   mail"; lit "### END INIT INFO"] []) (lit "dkim") = Milter c d /\
  df_description d = Some (lit "signs mail")).
Proof. intros H. specialize (H (lit " -e") ltac:(cbn [In]; tauto)). revert H. refute. Qed.
Print Assumptions C113_shell_refuted.
Example C113_shell_example : exists c d,
  deb_milter (debian [lit "#!/bin/sh"; lit "### BEGIN INIT INFO"; lit "# Description: signs"; lit "#   mail"; lit "### END INIT INFO"] []) (lit "dkim") = Milter c d /\
  df_description d = Some (lit "signs mail").
Proof. witness. Qed.
(** A description ends at the first word with a colon behind it. *)
Theorem C113_colon_refuted : exists c d,
  deb_milter (debian [lit "### BEGIN INIT INFO"; lit "# Description: see http://dkim.example/"; lit "### END INIT INFO"] []) (lit "dkim") = Milter c d /\
  df_description d = Some (lit "see").
Proof. witness. Qed.
Print Assumptions C113_colon_refuted.
(** clamd's file is read for the socket of clamav-milter if the script names both files. *)
Theorem C113_clamd_refuted : exists c d,
  deb_milter (files_only [(script_path (lit "clamav-milter"), file [lit "CLAMAVCONF=/etc/clamav/clamd.conf"; lit "CLAMAVMILTERCONF=/etc/clamav/clamav-milter.conf"] []);
    (lit "/etc/clamav/clamd.conf", file [lit "LocalSocket /run/clamd"] []); (lit "/etc/clamav/clamav-milter.conf", file [lit "MilterSocket /run/milter"] [])])
    (lit "clamav-milter") = Milter c d /\ df_spec d = None.
Proof. witness. Qed.
Print Assumptions C113_clamd_refuted.
(** A service that is stopped in every runlevel is used all the same. *)
Theorem C114_off_refuted : ~ (forall link b,
  (b = true <-> exists t, link = lit "/etc/rc3.d/S" ++ t) -> runlevel_link (lit "milter-greylist") link ->
  exists c d, rh_milter (redhat link [lit "SOCKET=/run/gl"] [] []) None (lit "milter-greylist") = Milter c d /\ df_enabled d = b).
Proof.
  intros H. specialize (H (lit "/etc/rc3.d/K21milter-greylist") false). destruct H as (c & d & A & B).
  - split; [discriminate|]. intros (t & X). discriminate X.
  - exists "3"%char, "K"%char, "2"%char, "1"%char. split; [vm_compute; tauto|]. split; [vm_compute; tauto|]. split; [vm_compute; split; discriminate|]. split; [vm_compute; split; discriminate|reflexivity].
  - vm_compute in A. injection A as <- <-. vm_compute in B. discriminate B.
Qed.
Print Assumptions C114_off_refuted.
(** A variable called "name" is not expanded in the script, and is the name of the script in the settings. *)
Theorem C114_name_refuted :
  (exists c d, rh_milter (redhat [] [lit "name=gl"; lit "SOCKET=/run/$name"] [] []) None (lit "milter-greylist") = Milter c d /\
     df_spec d = Some (lit "unix:/run/$name")) /\
  (exists c d, rh_milter (redhat [] [lit "name=gl"] [lit "SOCKET=/run/$name"] []) None (lit "milter-greylist") = Milter c d /\
     df_spec d = Some (lit "unix:/run/milter-greylist")).
Proof. split; witness. Qed.
Print Assumptions C114_name_refuted.
(** An option of a command is taken for an assignment. *)
Theorem C114_option_refuted : exists c d,
  rh_milter (redhat [] [lit "SOCKET=/run/gl"; lit "daemon --SOCKET=/run/other milter"] [] []) None (lit "milter-greylist") = Milter c d /\
  df_spec d = Some (lit "unix:/run/other").
Proof. witness. Qed.
Print Assumptions C114_option_refuted.
