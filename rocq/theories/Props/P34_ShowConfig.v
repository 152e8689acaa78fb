(** C92: the configuration that the manager shows is a configuration file. *)
From Verif.Base Require Import Bytes.
From Verif.Model Require Import Status Egg Configuration ConfigDump.
From Verif.Spec Require Import RubySpec.
From Verif.Proofs Require Import DumpProofs DumpLoad.
Import List.
Local Open Scope N_scope.

(** Whatever a text contains (quotes, backslashes, newlines, "#{...}"), what is printed for it is one
    literal on one line that Ruby reads as that very text; numbers, modes, booleans and nil likewise. *)
Theorem C92_literal v : printable v ->
  read_value (inspect v) = Some v /\ ~ In (byte_of 10) (inspect v).
Proof.
  intros P. split; [apply value_inspect; exact P|]. intros I.
  pose proof (inspect_one_line v) as O. unfold one_line in O. rewrite Forall_forall in O. exact (O _ I eq_refl).
Qed.
Print Assumptions C92_literal.
Example C92_literal_example :
  inspect (VStr (lit "a""#{exit}\" ++ [byte_of 10; byte_of 1; byte_of 127])) =
    lit """a\""\#{exit}\\\n\u0001\x7F""" /\
  read_value (lit """a\""\#{exit}\\\n\u0001\x7F""") = Some (VStr (lit "a""#{exit}\" ++ [byte_of 10; byte_of 1; byte_of 127])) /\
  read_value (lit """#{exit}""") = None.
Proof. repeat apply conj; vm_compute; reflexivity. Qed.

(** What is shown is a program that gives a manager without definitions the same configuration: every
    setting shown, the conditions and the filters in their order. *)
Theorem C92_read_back valid_spec openable c d :
  writable c -> sound valid_spec openable c -> sayable valid_spec c ->
  s_conditions (cf d) = [] -> s_eggs (cf d) = [] ->
  exists p e, ruby (dump c) = Some p /\ load valid_spec openable d p = (e, true) /\
              same_settings c e /\ same_definitions c e.
Proof.
  intros [F B] S Y K E. destruct (load_program valid_spec openable c d S Y K E) as (e & L & A & D & _).
  exists (program c), e. split; [apply dump_program; assumption|]. split; [exact L|]. split; assumption.
Qed.
Print Assumptions C92_read_back.

(** Whatever the definitions are: it is always a program, and the settings before them are taken over (those
    of syslog only if the whole file can be read). *)
Theorem C92_settings valid_spec openable c d :
  writable c -> sound valid_spec openable c ->
  exists p, ruby (dump c) = Some p /\
    forall i, i <> UseSyslog -> i <> SyslogFacility -> get (fst (load valid_spec openable d p)) i = get c i.
Proof.
  intros [F B] S. exists (program c). split; [apply dump_program; assumption|].
  intros i. apply load_settings. exact S.
Qed.
Print Assumptions C92_settings.

(** A file that cannot be read to its end leaves the settings of syslog as they were. *)
Theorem C92_failed valid_spec openable d l r : load valid_spec openable d l = (r, false) ->
  get r UseSyslog = get d UseSyslog /\ get r SyslogFacility = get d SyslogFacility.
Proof. apply load_failed. Qed.
Print Assumptions C92_failed.

(** It cannot be read back if a filter has no command options, or no connection spec, or a fallback status
    that may not be chosen. *)
Theorem C92_read_back_refuted valid_spec openable c e : writable c -> In e (s_eggs (cf c)) ->
  e_command_options e = None \/ e_connection_spec e = None \/ ~ choosable (e_fallback_status e) ->
  exists p, ruby (dump c) = Some p /\ forall d, snd (load valid_spec openable d p) = false.
Proof.
  intros [F B] I W. exists (program c). split; [apply dump_program; assumption|].
  intros d. exact (load_refused valid_spec openable c e I W d).
Qed.
Print Assumptions C92_read_back_refuted.

(** Even when it is read back whole, no condition stops anything any more. *)
Theorem C92_stoppers_refuted valid_spec openable c d :
  writable c -> sound valid_spec openable c -> sayable valid_spec c ->
  s_conditions (cf d) = [] -> s_eggs (cf d) = [] ->
  exists p e, ruby (dump c) = Some p /\ load valid_spec openable d p = (e, true) /\
    forall k, In k (s_conditions (cf e)) -> ~ In (k_name k) (cf_stopping e).
Proof.
  intros [F B] S Y K E. destruct (load_program valid_spec openable c d S Y K E) as (e & L & _ & (D & _) & W).
  exists (program c), e. split; [apply dump_program; assumption|]. split; [exact L|]. rewrite D. exact W.
Qed.
Print Assumptions C92_stoppers_refuted.

(** The controller's settings for removing its socket change the manager's. *)
Theorem C92_controller_refuted valid_spec openable c b : exists e,
  assign valid_spec openable c (lit "controller") (lit "remove_unix_socket_on_close") (VBool b) = Some e /\
  s_remove_manager_unix_socket_on_close (cf e) = b /\
  s_remove_controller_unix_socket_on_close (cf e) = s_remove_controller_unix_socket_on_close (cf c).
Proof. eexists. split; [destruct b; reflexivity|]. split; destruct b; reflexivity. Qed.
Print Assumptions C92_controller_refuted.

(** ** A configuration *)

Definition example_condition : condition := mk_condition (lit "S25R") (Some (lit "Selective ""SMTP"" #{x}")) None.
Definition example_egg : egg :=
  mk_egg (lit "milter-greylist") (Some (lit "grey" ++ [byte_of 10])) true (Some (lit "unix:/run/g.sock")) 297 7 7 297
         None (Some (lit "/usr/sbin/milter-greylist")) (Some (lit "-D")) [example_condition] S_TEMPORARY_FAILURE false.
Definition example_settings : settings :=
  mk_settings 0 [example_egg] [example_condition] true (Some (lit "unix:/run/c.sock")) (Some (lit "inet:10025@[127.0.0.1]"))
    S_REJECT S_TEMPORARY_FAILURE (Some (lit "debian")) None (Some (lit "milter")) None 432 504 None None
    true true true true false (Some (lit "/run/pid")) 0 5 0 0 None
    [(lit "manager.connection_spec", (lit "/etc/milter-manager.conf", 10%Z))] 5 LIBEV 4 0 true (Some (lit "local0")) 65535 0.
Definition example_conf : conf :=
  mk_conf example_settings 286 (Some (lit "/var/log/m.log"))
    (mk_database (VStr (lit "mysql2")) VNil VNil (VInt 3306) VNil VNil (VStr (lit "p#w")) false) [lit "S25R"].
Definition any (_ : bytes) : bool := true.
Definition bare : conf :=
  mk_conf (settings_new (mk_build None None None None None None None)) 0 None (mk_database VNil VNil VNil VNil VNil VNil VNil false) [].

Example C92_writable_example : writable example_conf.
Proof.
  split.
  - intros key file n [E|[]]. injection E as <- <- <-. vm_compute. intros I. repeat (destruct I as [I|I]; [discriminate I|]). exact I.
  - repeat apply conj; exact I.
Qed.
Example C92_sound_example : sound any any example_conf.
Proof. constructor; unfold uint, choosable; repeat apply conj; try reflexivity; try (vm_compute; congruence); try (right; left; reflexivity). Qed.
Example C92_sayable_example : sayable any example_conf.
Proof.
  constructor.
  - repeat constructor. intros [].
  - repeat constructor.
  - repeat constructor. intros [].
  - apply Forall_cons; [|apply Forall_nil]. constructor.
    + eexists. split; reflexivity.
    + discriminate.
    + right. right. left. reflexivity.
    + repeat apply conj; vm_compute; discriminate.
    + intros x I. exact I.
Qed.
(** The whole of it, computed: the text is read, loading it succeeds, and everything is as before except
    that the condition stops nothing. *)
Example C92_read_back_example :
  match ruby (dump example_conf) with
  | Some p => let (e, ok) := load any any bare p in
      (ok, s_eggs (cf e), s_conditions (cf e), cf_stopping e, get e ManagerSpec, get e DatabasePassword)
  | None => (false, [], [], [], VNil, VNil)
  end = (true, [example_egg], [example_condition], [], VStr (lit "inet:10025@[127.0.0.1]"), VStr (lit "p#w")) /\
  cf_stopping example_conf = [lit "S25R"].
Proof. split; vm_compute; reflexivity. Qed.
(** The same filter without options: its configuration is shown but cannot be read. *)
Definition plain_conf : conf :=
  rebuild bare (get bare) [mk_egg (lit "m") None true (Some (lit "inet:1")) 297 7 7 297 None None None [] S_ACCEPT false] [] [].
Example C92_read_back_refuted_example :
  match ruby (dump plain_conf) with Some p => snd (load any any bare p) | None => true end = false /\
  s_eggs (cf plain_conf) <> [].
Proof. split; [vm_compute; reflexivity|discriminate]. Qed.
(** A file that turns syslog on and has a mistake in its last line does not turn it on. *)
Example C92_failed_example :
  load any any bare [Assign (lit "log") (lit "use_syslog") (VBool true); Assign (lit "log") (lit "no_such") VNil] =
    (bare, false).
Proof. vm_compute. reflexivity. Qed.
