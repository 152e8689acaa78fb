(** Jobs of Upstart, and whether a filter is taken from systemd, Upstart or its init script: C116, C117. *)
From Verif.Base Require Import Bytes BytesFacts.
From Verif.Model Require Import PostfixTable Detect InitDetect PlatformDetect.
From Verif.Model Require RcDetect Breaker.
From Verif.Spec Require Import PostfixSpec DetectSpec.
From Verif.Spec Require BreakerSpec.
From Verif.Spec Require Import RcSpec InitSpec PlatformSpec.
From Verif.Proofs Require Import PostfixProofs DetectProofs UnitProofs RcProofs InitProofs PlatformProofs.
From Verif.Props Require P42_Detect P44_RcScripts P45_InitScripts.
Import List.
Import RcDetect(applied, NoMilter, Milter, Raised) PlatformSpec(unit_says).
Import P44_RcScripts(chosen_one, applied_spec_of, files_only, line).
Import P45_InitScripts(script_is, script_not, pick_two, clamav_says, opendkim_says, script_path, and_both).
Local Open Scope N_scope.

(** *** What the theorems below have in common *)
Lemma named_spec sys flags opt default f : file_named (sy_words sys) flags opt default f -> found default (parameter_from_flags sys flags opt) = f.
Proof. intros (a & A & C). rewrite (flag_spec _ _ _ _ A). now apply chosen_one. Qed.
Lemma delay_spec sys default script exec m : own_delay (sy_file sys) (sy_words sys) default script exec m ->
  (if is_script script "milter-greylist"
   then greylist_extra (parse_greylist (sy_file sys (found default (parameter_from_flags sys exec (lit "-f"))))) else 0) = m.
Proof.
  intros [A B]. destruct (is_script script "milter-greylist") eqn:I.
  - apply script_is in I. destruct (A I) as (f & es & F & G & L). rewrite (named_spec _ _ _ _ _ F). now apply (greylist_delay _ es).
  - apply script_not in I. symmetry. now apply B.
Qed.
Lemma edited_spec sys default script exec ex : own_example (sy_file sys) (sy_words sys) default script exec ex ->
  is_script script "clamav-milter" && clamav_example (sy_file sys (found default (parameter_from_flags sys exec (lit "-c")))) = ex.
Proof.
  intros [A B]. destruct (is_script script "clamav-milter") eqn:I; cbn [andb].
  - apply script_is in I. destruct (A I) as (f & F & E). rewrite (named_spec _ _ _ _ _ F). now apply example_spec.
  - apply script_not in I. symmetry. now apply B.
Qed.
Lemma known o : is_some o = true <-> o <> @None bytes.
Proof. destruct o; cbn [is_some]; split; congruence. Qed.

(** *** C116: jobs *)

(** A job is a filter; it is used if it is known where it listens, the job is started by itself, and
    its own file is not the example. *)
Theorem C116_job : forall sys script starts o spec m ex d,
  job_says (sy_file sys) (sy_words sys) script starts o m ex d -> spec_of o spec ->
  exists e, up_milter sys script = Some (mk_defined e spec m d) /\ (e = true <-> o <> None /\ starts /\ ex = false).
Proof.
  intros sys script starts o spec m ex d (content & es & exec & F & L & S & X & D & (Oc & Og & On) & E & M) Sp.
  unfold up_milter. change (job_file script) with (lit "/etc/event.d/" ++ script). rewrite F, (job_parsed _ _ L).
  set (j := fold_left read_entry es no_job). assert (JX : jb_exec j = exec) by now apply exec_read.
  assert (JD : jb_description j = d) by now apply description_read.
  assert (Q : up_spec sys script j = o).
  { unfold up_spec, up_clamav, up_greylist. rewrite JX. destruct (is_script script "clamav-milter") eqn:I1.
    { apply script_is in I1. destruct (Oc I1) as (f & N & Y). rewrite (named_spec _ _ _ _ _ N), (clamav_says _ _ Y). subst script. now destruct o. }
    cbn [some_else]. destruct (is_script script "milter-greylist") eqn:I2.
    { apply script_is in I2. destruct (Og I2) as (f & gs & N & Y & Z). rewrite (named_spec _ _ _ _ _ N). now apply (greylist_listens _ gs). }
    symmetry. apply On. apply script_not in I1. apply script_not in I2. intros [<-|[<-|[]]]; congruence. }
  unfold up_greylist. rewrite Q, JX, JD, (delay_spec _ _ _ _ _ M). unfold applied_to. rewrite (applied_spec_of _ _ Sp).
  eexists. split; [reflexivity|]. unfold up_enabled, up_clamav. rewrite Q, JX, (edited_spec _ _ _ _ _ E), !andb_true_iff, <- and_assoc, negb_true_iff.
  apply and_both; [apply and_both; [apply known|]|reflexivity]. unfold j. rewrite enabled_read, S. cbn [no_job jb_enabled]. intuition congruence.
Qed.
Print Assumptions C116_job.
Theorem C116_absent : forall sys script, sy_file sys (lit "/etc/event.d/" ++ script) = None -> up_milter sys script = None.
Proof. intros sys script H. unfold up_milter. change (job_file script) with (lit "/etc/event.d/" ++ script). now rewrite H. Qed.
Print Assumptions C116_absent.

(** *** C117: units, jobs and scripts *)
Definition places_of (p : platform) : places := match p with Debian => debian_places | RedHat => redhat_places end.
(** A unit is a filter; it is used if it is known where it listens, it is linked, and its own file is
    not the example. *)
Theorem C117_unit : forall p sys rspamd script o spec m ex d,
  unit_says p (sy_file sys) (sy_words sys) rspamd script o m ex d -> spec_of o spec ->
  exists e, sd_milter (places_of p) sys rspamd script = Some (mk_defined e spec m d) /\
    (e = true <-> o <> None /\ sy_exists sys (link_at script) = true /\ ex = false).
Proof.
  intros p sys rspamd script o spec m ex d
    (content & es & env & exec & own & rest & F & L & N & X & D & (Oc & Og & Od & Or & On) & R & Fo & E & M) Sp.
  unfold sd_milter. replace (pl_units (places_of p) ++ script ++ lit ".service") with (unit_at p script) by (destruct p; reflexivity). rewrite F.
  assert (PC : pl_clamav (places_of p) = clamav_at p) by (destruct p; reflexivity).
  assert (PG : pl_greylist (places_of p) = greylist_at p) by (destruct p; reflexivity).
  set (u := parse_unit sys content).
  assert (UD : un_description u = d).
  { unfold u. rewrite (unit_spec sys es content L), (description_spec sys es (mk_unit None None None []) d D). destruct d; reflexivity. }
  assert (UX : un_exec u = exec).
  { unfold u. rewrite (unit_spec sys es content L), (exec_spec sys es (mk_unit None None None []) exec X). destruct exec; reflexivity. }
  assert (UV : forall n, variable (un_variables u) n = env n).
  { intros n. unfold u. rewrite (unit_spec sys es content L). apply (environment_spec sys es (mk_unit None None None []) nothing_set env N). reflexivity. }
  clearbody u.
  assert (Q : sd_spec (places_of p) sys rspamd script u = o).
  { rewrite <- (pick_two _ _ _ Fo). unfold sd_spec, sd_clamav, sd_greylist, sd_opendkim. rewrite PC, PG, UX, !UV, (variable_spec env _ _ _ eq_refl R).
    destruct (is_script script "clamav-milter") eqn:I1.
    { apply script_is in I1. destruct (Oc I1) as (f & W & Y). rewrite (named_spec _ _ _ _ _ W), (clamav_says _ _ Y). subst script. now destruct own. }
    cbn [some_else]. destruct (is_script script "milter-greylist") eqn:I2.
    { apply script_is in I2. destruct (Og I2) as (f & gs & W & Y & Z). rewrite (named_spec _ _ _ _ _ W), (greylist_listens _ gs _ Y Z). subst script. now destruct own. }
    cbn [some_else]. destruct (is_script script "opendkim") eqn:I3.
    { apply script_is in I3. destruct (Od I3) as (f & W & Y). unfold text_of in W. unfold found at 2. rewrite (named_spec _ _ _ _ _ W), (opendkim_says _ _ Y). subst script. now destruct own. }
    cbn [some_else]. destruct (is_script script "rspamd") eqn:I4.
    { apply script_is in I4. now rewrite (Or I4). }
    cbn [some_else]. rewrite On; [reflexivity|]. apply script_not in I1. apply script_not in I2. apply script_not in I3. apply script_not in I4.
    intros [<-|[<-|[<-|[<-|[]]]]]; congruence. }
  unfold sd_greylist. rewrite PG, Q, UX, UD, (delay_spec _ _ _ _ _ M). unfold applied_to. rewrite (applied_spec_of _ _ Sp).
  eexists. split; [reflexivity|]. unfold sd_enabled, sd_clamav. rewrite PC, Q, UX, (edited_spec _ _ _ _ _ E), !andb_true_iff, <- and_assoc, negb_true_iff.
  apply and_both; [apply and_both; [apply known|]|]; reflexivity.
Qed.
Print Assumptions C117_unit.

(** The init script, if there is one, can be read. *)
Definition debian_script (sys : system) (script : bytes) : Prop :=
  sy_file sys (script_path script) = None \/ exists env, debian_service (sy_file sys) script env.
Definition redhat_script (sys : system) (script : bytes) : Prop :=
  sy_file sys (script_path script) = None \/ exists content env, redhat_service (sy_file sys) script content env.
(** What is asked of a unit or a job for it to be used. *)
Definition unit_used (p : platform) (sys : system) (rspamd : option bytes) (script spec : bytes) (m : N) (d : option bytes) : Prop :=
  sy_exists sys (link_at script) = true /\
  exists o, unit_says p (sy_file sys) (sy_words sys) rspamd script (Some o) m false d /\ spec_means o spec.
Definition unit_unused (p : platform) (sys : system) (rspamd : option bytes) (script : bytes) : Prop :=
  sy_file sys (unit_at p script) = None \/ exists o spec m ex d,
    unit_says p (sy_file sys) (sy_words sys) rspamd script o m ex d /\ spec_of o spec /\
    (o = None \/ sy_exists sys (link_at script) = false \/ ex = true).
Definition job_used (sys : system) (script spec : bytes) (m : N) (d : option bytes) : Prop :=
  exists o, job_says (sy_file sys) (sy_words sys) script True (Some o) m false d /\ spec_means o spec.
Definition job_unused (sys : system) (script : bytes) : Prop :=
  sy_file sys (lit "/etc/event.d/" ++ script) = None \/ exists starts o spec m ex d,
    job_says (sy_file sys) (sy_words sys) script starts o m ex d /\ spec_of o spec /\ (o = None \/ ~ starts \/ ex = true).
(** The filter of an init script. *)
Definition script_filter (a : applied) (r : outcome) : Prop :=
  match a with
  | NoMilter => r = Absent
  | Milter c d => r = Filter c [lit "start"] d
  | Raised => False
  end.

Lemma used_unit p sys rspamd script spec m d : unit_used p sys rspamd script spec m d ->
  sd_milter (places_of p) sys rspamd script = Some (mk_defined true (Some spec) m d).
Proof.
  intros (K & o & U & S). destruct (C117_unit p sys rspamd script (Some o) (Some spec) m false d U (ex_intro _ spec (conj S eq_refl))) as (e & -> & E).
  replace e with true; [reflexivity|]. symmetry. apply E. split; [discriminate|]. now split.
Qed.
Lemma unused_unit p sys rspamd script : unit_unused p sys rspamd script ->
  match sd_milter (places_of p) sys rspamd script with Some d => df_enabled d = false | None => True end.
Proof.
  intros [A|(o & spec & m & ex & d & U & S & K)].
  - unfold sd_milter. replace (pl_units (places_of p) ++ script ++ lit ".service") with (unit_at p script) by (destruct p; reflexivity). now rewrite A.
  - destruct (C117_unit p sys rspamd script o spec m ex d U S) as (e & -> & E). cbn [df_enabled]. destruct e; [|reflexivity].
    exfalso. destruct (proj1 E eq_refl) as (E1 & E2 & E3). intuition congruence.
Qed.
Lemma used_job sys script spec m d : job_used sys script spec m d -> up_milter sys script = Some (mk_defined true (Some spec) m d).
Proof.
  intros (o & J & S). destruct (C116_job sys script True (Some o) (Some spec) m false d J (ex_intro _ spec (conj S eq_refl))) as (e & -> & E).
  replace e with true; [reflexivity|]. symmetry. apply E. split; [discriminate|]. now split.
Qed.
Lemma unused_job sys script : job_unused sys script -> match up_milter sys script with Some d => df_enabled d = false | None => True end.
Proof.
  intros [A|(st & o & spec & m & ex & d & J & S & K)]; [now rewrite (C116_absent _ _ A)|].
  destruct (C116_job sys script st o spec m ex d J S) as (e & -> & E). cbn [df_enabled]. destruct e; [|reflexivity].
  exfalso. destruct (proj1 E eq_refl) as (E1 & E2 & E3). intuition congruence.
Qed.
Lemma debian_reads sys script : debian_script sys script -> deb_milter sys script <> Raised.
Proof.
  intros [A|(env & S)]; [now rewrite (P45_InitScripts.C113_absent _ _ A)|].
  destruct (deb_detected sys script env S) as (content & i & vs & F & D & _). unfold deb_milter. now rewrite F, D.
Qed.
Lemma redhat_reads sys rspamd script : redhat_script sys script -> rh_milter sys rspamd script <> Raised.
Proof.
  intros [A|(content & env & S)]; [now rewrite (P45_InitScripts.C114_absent _ _ _ A)|].
  destruct (rh_detected sys script content env S) as (F & (i & I) & _). unfold rh_milter. now rewrite F, I.
Qed.

(** On Debian a unit that is used goes before the init script, and is started by systemctl or service. *)
Theorem C117_debian_unit : forall runs sys rspamd script spec m d c os,
  debian_script sys script -> unit_used Debian sys rspamd script spec m d -> starts_by runs script c os ->
  debian_filter runs sys rspamd script = Filter c os (mk_defined true (Some spec) m d).
Proof.
  intros runs sys rspamd script spec m d c os S U B. unfold debian_filter. change debian_places with (places_of Debian). rewrite (used_unit _ _ _ _ _ _ _ U).
  unfold from_unit. destruct (common_spec _ _ _ _ B) as [-> ->]. cbn [df_enabled].
  pose proof (debian_reads _ _ S). destruct (deb_milter sys script); congruence.
Qed.
Print Assumptions C117_debian_unit.
(** Otherwise the filter is what C113 says of the init script. *)
Theorem C117_debian_script : forall runs sys rspamd script,
  debian_script sys script -> unit_unused Debian sys rspamd script ->
  script_filter (deb_milter sys script) (debian_filter runs sys rspamd script).
Proof.
  intros runs sys rspamd script S U. apply unused_unit in U. apply debian_reads in S. unfold debian_filter.
  change debian_places with (places_of Debian). destruct (sd_milter _ sys rspamd script) as [d|]; [rewrite U|]; destruct (deb_milter sys script); try congruence; reflexivity.
Qed.
Print Assumptions C117_debian_script.
(** On Red Hat a unit goes before a job, and a job before the init script. *)
Theorem C117_redhat_unit : forall runs sys rspamd script spec m d c os,
  redhat_script sys script -> unit_used RedHat sys rspamd script spec m d -> starts_by runs script c os ->
  redhat_filter runs sys rspamd script = Filter c os (mk_defined true (Some spec) m d).
Proof.
  intros runs sys rspamd script spec m d c os S U B. unfold redhat_filter. change redhat_places with (places_of RedHat). rewrite (used_unit _ _ _ _ _ _ _ U).
  unfold from_unit. destruct (common_spec _ _ _ _ B) as [-> ->]. cbn [df_enabled].
  pose proof (redhat_reads _ rspamd _ S). destruct (rh_milter sys rspamd script); congruence.
Qed.
Print Assumptions C117_redhat_unit.
(** A job is started by /sbin/start where there is no command service. *)
Theorem C117_redhat_job : forall runs sys rspamd script spec m d,
  redhat_script sys script -> unit_unused RedHat sys rspamd script -> job_used sys script spec m d ->
  runs (lit "/sbin/service") = false -> runs (lit "/usr/sbin/service") = false ->
  redhat_filter runs sys rspamd script = Filter (lit "/sbin/start") [script] (mk_defined true (Some spec) m d).
Proof.
  intros runs sys rspamd script spec m d S U J R1 R2. apply unused_unit in U. apply (redhat_reads _ rspamd) in S. unfold redhat_filter.
  change redhat_places with (places_of RedHat). rewrite (used_job _ _ _ _ _ J). cbn [df_enabled].
  unfold up_options, service_command. cbn [List.find]. rewrite R1, R2. cbn [is_some].
  destruct (sd_milter _ sys rspamd script) as [d'|]; [rewrite U|]; destruct (rh_milter sys rspamd script); try congruence; reflexivity.
Qed.
Print Assumptions C117_redhat_job.
(** Otherwise the filter is what C114 says of the init script. *)
Theorem C117_redhat_script : forall runs sys rspamd script,
  redhat_script sys script -> unit_unused RedHat sys rspamd script -> job_unused sys script ->
  script_filter (rh_milter sys rspamd script) (redhat_filter runs sys rspamd script).
Proof.
  intros runs sys rspamd script S U J. apply unused_unit in U. apply unused_job in J. apply (redhat_reads _ rspamd) in S. unfold redhat_filter.
  change redhat_places with (places_of RedHat).
  destruct (sd_milter _ sys rspamd script) as [d|]; [rewrite U|]; (destruct (up_milter sys script) as [d'|]; [rewrite J|]);
    destruct (rh_milter sys rspamd script); try congruence; reflexivity.
Qed.
Print Assumptions C117_redhat_script.
(** Units of Debian are those of C109. *)
Theorem C117_agrees : forall sys rspamd script, script <> lit "rspamd" -> sd_milter debian_places sys rspamd script = systemd_milter sys script.
Proof.
  intros sys rspamd script N. apply script_not in N.
  assert (Q : forall u, sd_spec debian_places sys rspamd script u = guess_spec sys script u).
  { intros u. unfold sd_spec, guess_spec. rewrite N. clear N. change (bytes_eqb script (lit "clamav-milter")) with (is_script script "clamav-milter").
    change (bytes_eqb script (lit "milter-greylist")) with (is_script script "milter-greylist"). change (bytes_eqb script (lit "opendkim")) with (is_script script "opendkim").
    destruct (is_script script "clamav-milter") eqn:I1.
    { apply script_is in I1. subst script. unfold sd_clamav, found. cbn [pl_clamav debian_places]. now destruct clamav_socket. }
    destruct (is_script script "milter-greylist") eqn:I2.
    { apply script_is in I2. subst script. unfold sd_greylist, found. cbn [pl_greylist debian_places]. now destruct greylist_socket. }
    cbn [some_else]. destruct (is_script script "opendkim"); reflexivity. }
  unfold sd_milter, systemd_milter, sd_enabled, unit_enabled.
  change (pl_units debian_places ++ script ++ lit ".service") with (unit_file script). destruct (sy_file sys (unit_file script)) as [content|]; [|reflexivity].
  cbv zeta. rewrite Q. unfold sd_clamav, sd_greylist, found, applied_to. cbn [pl_clamav pl_greylist debian_places]. reflexivity.
Qed.
Print Assumptions C117_agrees.

(** *** Examples *)
Ltac in' := let H := fresh in intros H; vm_compute in H; intuition discriminate.
Ltac pieces := split; [reflexivity|]; split; [repeat (apply Forall_cons; [in'|]); apply Forall_nil|]; split; [in'|]; cbn [app map].
Definition clam_job : list bytes :=
  [lit "# Looks for viruses"; lit "#  in mail"; []; lit "# by hand"; lit "start on stopped rc"; lit "exec clamav-milter -c /etc/cm.conf"].
Definition clam (job conf : list bytes) : system :=
  let fs := [(lit "/etc/event.d/clamav-milter", file job []); (lit "/etc/cm.conf", file conf [])] in
  mk_system (lookup fs) (fun _ => false) (fun b => Breaker.space_fields false (Breaker.without_lf b)).
Definition clam_on : system := clam clam_job [lit "MilterSocket /run/cm.sock"].
Definition clam_exec : bytes := lit "clamav-milter -c /etc/cm.conf" ++ [newline].
Lemma clam_named : file_named (sy_words clam_on) (Some clam_exec) (lit "-c") (lit "/etc/clamav-milter.conf") (lit "/etc/cm.conf").
Proof.
  exists (Some (lit "/etc/cm.conf")). split; [|eexists; split; [apply first_here|reflexivity]]. cbn [option_says].
  replace (sy_words clam_on clam_exec) with ([lit "clamav-milter"] ++ lit "-c" :: lit "/etc/cm.conf" :: []) by (vm_compute; reflexivity).
  apply option_separate; [in'|]. intros r X. discriminate X.
Qed.
Lemma clam_lists : lists setting_line [Some (lit "MilterSocket", Some (lit "/run/cm.sock")); None] (file [lit "MilterSocket /run/cm.sock"] []).
Proof.
  exists [lit "MilterSocket /run/cm.sock"], []. pieces. repeat apply Forall2_cons; [| |apply Forall2_nil].
  - apply (setting_given [] (lit "MilterSocket") (lit " ") (lit "/run/cm.sock")); [constructor|P42_Detect.name'|P42_Detect.spaces'|P42_Detect.starts].
  - apply setting_idle. constructor. constructor.
Qed.
(** The first comments describe it; the one behind the empty line does not. *)
Example C116_example :
  job_says (sy_file clam_on) (sy_words clam_on) (lit "clamav-milter") True (Some (lit "/run/cm.sock")) 0 false (Some (lit "Looks for viruses in mail")) /\
  up_milter clam_on (lit "clamav-milter") = Some (mk_defined true (Some (lit "unix:/run/cm.sock")) 0 (Some (lit "Looks for viruses in mail"))).
Proof.
  split; [|vm_compute; reflexivity].
  exists (file clam_job []), [JComment (lit "Looks for viruses"); JComment (lit "in mail"); JOther; JComment (lit "by hand"); JStart; JExec clam_exec], (Some clam_exec).
  split; [reflexivity|]. split; [|split; [|split; [|split; [|split; [|split]]]]].
  - exists clam_job, []. pieces. repeat apply Forall2_cons; [| | | | | |apply Forall2_nil].
    + apply (job_comment [] (lit "Looks for viruses") [newline]); [P42_Detect.whites'|P42_Detect.tight'|P42_Detect.whites'].
    + apply (job_comment (lit " ") (lit "in mail") [newline]); [P42_Detect.whites'|P42_Detect.tight'|P42_Detect.whites'].
    + apply job_other; intros (r & X); discriminate X.
    + apply (job_comment [] (lit "by hand") [newline]); [P42_Detect.whites'|P42_Detect.tight'|P42_Detect.whites'].
    + apply (job_start (lit "stopped rc" ++ [newline])).
    + apply (job_exec clam_exec).
  - cbn [In]. tauto.
  - right. exists [JComment (lit "Looks for viruses"); JComment (lit "in mail"); JOther; JComment (lit "by hand"); JStart], clam_exec, [].
    split; [reflexivity|]. split; [|reflexivity]. intros (r & []).
  - apply (described_some [lit "Looks for viruses"; lit "in mail"] (lit "Looks for viruses in mail") JOther).
    + apply (spoken_more (lit "Looks for viruses")). constructor.
    + intros (t & X). discriminate X.
  - split; [|split; [discriminate|intros X; exfalso; apply X; now left]]. intros _. exists (lit "/etc/cm.conf"). split; [exact clam_named|].
    exists [Some (lit "MilterSocket", Some (lit "/run/cm.sock")); None]. split; [exact clam_lists|]. left. exists [], [None]. split; [reflexivity|].
    intros (v & [X|[]]). discriminate X.
  - split; [|intros X; now exfalso]. intros _. exists (lit "/etc/cm.conf"). split; [exact clam_named|].
    apply (example_no _ _ clam_lists). intros (v & [X|[X|[]]]); discriminate X.
  - split; [discriminate|reflexivity].
Qed.
Definition only (ps : list bytes) (p : bytes) : bool := existsb (bytes_eqb p) ps.
(** Neither unit nor script: the job is used. *)
Example C117_redhat_example : redhat_script clam_on (lit "clamav-milter") /\ unit_unused RedHat clam_on None (lit "clamav-milter") /\
  job_used clam_on (lit "clamav-milter") (lit "unix:/run/cm.sock") 0 (Some (lit "Looks for viruses in mail")) /\
  redhat_filter (only []) clam_on None (lit "clamav-milter") =
    Filter (lit "/sbin/start") [lit "clamav-milter"] (mk_defined true (Some (lit "unix:/run/cm.sock")) 0 (Some (lit "Looks for viruses in mail"))).
Proof.
  split; [now left|]. split; [now left|]. split; [|vm_compute; reflexivity].
  exists (lit "/run/cm.sock"). split; [apply C116_example|]. apply (spec_path (lit "run/cm.sock")).
Qed.
Definition spf : system := P42_Detect.spf_system (P42_Detect.line (lit "SOCKET=/run/spf.sock")).
(** The unit of the example of C109, on Debian. *)
Example C117_debian_example : debian_script spf (lit "spf") /\
  unit_used Debian spf None (lit "spf") (lit "unix:/run/spf.sock") 0 (Some (lit "SPF filter")) /\
  starts_by (only [lit "/usr/bin/systemctl"]) (lit "spf") (lit "/usr/bin/systemctl") [lit "start"; lit "spf"] /\
  debian_filter (only [lit "/usr/bin/systemctl"]) spf None (lit "spf") =
    Filter (lit "/usr/bin/systemctl") [lit "start"; lit "spf"] (mk_defined true (Some (lit "unix:/run/spf.sock")) 0 (Some (lit "SPF filter"))).
Proof.
  split; [now left|]. split; [|split; [now apply by_systemctl|vm_compute; reflexivity]].
  split; [reflexivity|]. exists (lit "/run/spf.sock"). split; [|apply (spec_path (lit "run/spf.sock"))].
  destruct P42_Detect.C109_example as [(content & es & F & L & E & X & D) _].
  exists content, es, (set nothing_set (lit "SOCKET") (lit "/run/spf.sock")), (Some (lit "/usr/sbin/spf -p ${SOCKET}")), None, (Some (lit "/run/spf.sock")).
  do 5 (split; [assumption|]). split; [|split; [|split; [|split]]].
  - split; [discriminate|]. split; [discriminate|]. split; [discriminate|]. split; [discriminate|reflexivity].
  - right. exists (lit "/run/spf.sock"). split; [|reflexivity]. exists [], []. split; [reflexivity|]. split; [constructor|]. split; [constructor|]. P42_Detect.tight'.
  - apply first_later, first_here.
  - split; [discriminate|reflexivity].
  - split; [discriminate|reflexivity].
Qed.

(** *** What does not hold *)
(** Blanks before "start on", or two behind "start", are not understood. *)
Theorem C116_blank_refuted : ~ (forall s t, In s [[]; lit "  "] -> In t [lit " "; lit "  "] ->
  exists d, up_milter (clam [s ++ lit "start" ++ t ++ lit "on stopped rc"; lit "exec clamav-milter -c /etc/cm.conf"] [lit "MilterSocket /run/cm.sock"]) (lit "clamav-milter") = Some d /\
    df_enabled d = true).
Proof.
  intros H. specialize (H (lit "  ") (lit " ") ltac:(cbn [In]; tauto) ltac:(cbn [In]; tauto)). destruct H as (d & A & B).
  vm_compute in A. injection A as <-. vm_compute in B. discriminate B.
Qed.
Print Assumptions C116_blank_refuted.
(** Any other filter with a job is never used, wherever it listens. *)
Theorem C116_others_refuted : ~ (forall script, exists sys d, up_milter sys script = Some d /\ df_enabled d = true).
Proof.
  intros H. destruct (H (lit "dkim")) as (sys & d & A & B). unfold up_milter in A. destruct (sy_file sys (job_file (lit "dkim"))); [|discriminate A].
  injection A as <-. cbn [df_enabled] in B. unfold up_enabled in B. change (up_spec sys (lit "dkim") (parse_job (Some b))) with (@None bytes) in B. discriminate B.
Qed.
Print Assumptions C116_others_refuted.
(** Where there is a command service, /sbin/start is given a second argument, or the name last. *)
Theorem C117_start_refuted :
  ~ (forall runs d, up_milter clam_on (lit "clamav-milter") = Some d -> redhat_filter runs clam_on None (lit "clamav-milter") = Filter (lit "/sbin/start") [lit "clamav-milter"] d) /\
  (exists d, redhat_filter (only [lit "/sbin/service"]) clam_on None (lit "clamav-milter") = Filter (lit "/sbin/start") [lit "clamav-milter"; lit "start"] d).
Proof.
  assert (K : exists d, up_milter clam_on (lit "clamav-milter") = Some d /\
    redhat_filter (only [lit "/sbin/service"]) clam_on None (lit "clamav-milter") = Filter (lit "/sbin/start") [lit "clamav-milter"; lit "start"] d).
  { eexists. split; vm_compute; reflexivity. }
  destruct K as (d & A & B). split; [|now exists d]. intros H. specialize (H (only [lit "/sbin/service"]) d A). rewrite B in H. discriminate H.
Qed.
Print Assumptions C117_start_refuted.
(** A unit that is used, and no command to start it: an exception. *)
Theorem C117_command_refuted : ~ (forall runs sys rspamd script spec m d,
  debian_script sys script -> unit_used Debian sys rspamd script spec m d -> debian_filter runs sys rspamd script <> Failed).
Proof.
  intros H. destruct C117_debian_example as (A & B & _). apply (H (only [lit "/bin/systemctl"]) _ _ _ _ _ _ A B). vm_compute. reflexivity.
Qed.
Print Assumptions C117_command_refuted.
(** A unit that is not linked: the filter is used all the same if there is an init script. *)
Definition both (link : bool) : system :=
  let fs := [(lit "/lib/systemd/system/spf.service", P42_Detect.unit_text); (lit "/etc/default/spf", line (lit "SOCKET=/run/spf.sock"));
             (lit "/etc/init.d/spf", line (lit "#!/bin/sh"))] in
  mk_system (lookup fs) (fun p => link && bytes_eqb p (link_at (lit "spf"))) (fun _ => []).
Theorem C117_disabled_refuted : ~ (forall link, exists c os d,
  debian_filter (only [lit "/usr/bin/systemctl"]) (both link) None (lit "spf") = Filter c os d /\ df_enabled d = link).
Proof. intros H. destruct (H false) as (c & os & d & A & B). vm_compute in A. injection A as <- <- <-. discriminate B. Qed.
Print Assumptions C117_disabled_refuted.
(** And if there is none, no filter is defined at all. *)
Theorem C117_undefined_refuted : ~ (forall link, exists c os d,
  debian_filter (only [lit "/usr/bin/systemctl"]) (mk_system (sy_file spf) (fun _ => link) (sy_words spf)) None (lit "spf") = Filter c os d /\ df_enabled d = link).
Proof. intros H. destruct (H false) as (c & os & d & A & B). vm_compute in A. discriminate A. Qed.
Print Assumptions C117_undefined_refuted.
(** An init script that cannot be read spoils a unit that is used. *)
Definition with_script (script : list bytes) : system :=
  mk_system (fun p => if bytes_eqb p (lit "/etc/init.d/spf") then Some (file script []) else sy_file spf p) (sy_exists spf) (sy_words spf).
Theorem C117_header_refuted :
  ~ (forall script, debian_filter (only [lit "/usr/bin/systemctl"]) (with_script script) None (lit "spf") =
       debian_filter (only [lit "/usr/bin/systemctl"]) spf None (lit "spf")) /\
  debian_filter (only [lit "/usr/bin/systemctl"]) (with_script [lit "### BEGIN INIT INFO"; lit "# "; lit "### END INIT INFO"]) None (lit "spf") = Failed.
Proof.
  assert (K : debian_filter (only [lit "/usr/bin/systemctl"]) (with_script [lit "### BEGIN INIT INFO"; lit "# "; lit "### END INIT INFO"]) None (lit "spf") = Failed)
    by (vm_compute; reflexivity).
  split; [|exact K]. intros H. rewrite H in K. vm_compute in K. discriminate K.
Qed.
Print Assumptions C117_header_refuted.
