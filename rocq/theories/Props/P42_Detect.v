(** Where filters listen, as found in their configuration files: C106 to C109. *)
From Verif.Base Require Import Bytes BytesFacts.
From Verif.Model Require Import PostfixTable Detect.
From Verif.Spec Require Import PostfixSpec DetectSpec.
From Verif.Spec Require ConnectionSpecSpec BreakerSpec.
From Verif.Proofs Require Import DetectProofs GreylistProofs ShellProofs UnitProofs.
Import List.
Local Open Scope N_scope.

Definition line (b : bytes) : bytes := b ++ [byte_of 10].
Definition q (b : bytes) : bytes := [byte_of 34] ++ b ++ [byte_of 34].

Ltac whites' := repeat (apply Forall_cons; [unfold white; tauto|]); apply Forall_nil.
Ltac spaces' := split; [discriminate|whites'].
Ltac not_in'' := let H := fresh in intros H; vm_compute in H; intuition discriminate.
Ltac starts := eexists; eexists; split; [reflexivity|let H := fresh in intros H; vm_compute in H; intuition discriminate].
Lemma names_bool k : forallb Breaker.is_word k = true -> Forall BreakerSpec.name_char k.
Proof. intros H. apply Forall_forall. intros c I. apply word_name. rewrite forallb_forall in H. now apply H. Qed.
Ltac name' := split; [discriminate|apply names_bool; reflexivity].

(** *** C106: settings *)

(** The socket is the last value given to "Socket"; without one there is none. *)
Theorem C106_opendkim : forall es content, lists setting_line es content ->
  (forall v, final es (lit "Socket") v -> opendkim_socket (Some content) = v) /\
  (~ mentions es (lit "Socket") -> opendkim_socket (Some content) = None).
Proof.
  intros es content H. unfold opendkim_socket, setting_of. rewrite (settings_spec _ _ H). split.
  - intros v F. rewrite (lookup_final _ _ _ F). destruct v; reflexivity.
  - intros N. apply lookup_mentions in N. rewrite N. reflexivity.
Qed.
Print Assumptions C106_opendkim.
(** A colon behind the name makes a line no setting. *)
Example C106_colon_example : setting_line (lit "Socket: /x") None.
Proof.
  apply (setting_other [] (lit "Socket") ":"%char (lit " /x")); [constructor|name'| |].
  - unfold white. intuition discriminate.
  - intros H. apply word_name in H. discriminate H.
Qed.
(** The same for "MilterSocket"; the file is one to be edited first as long as it has "Example". *)
Theorem C106_clamav : forall es content, lists setting_line es content ->
  (forall v, final es (lit "MilterSocket") v -> clamav_socket (Some content) = v) /\
  (~ mentions es (lit "MilterSocket") -> clamav_socket (Some content) = None) /\
  (clamav_example (Some content) = true <-> mentions es (lit "Example")).
Proof.
  intros es content H. unfold clamav_socket, clamav_example, setting_of. rewrite (settings_spec _ _ H). split; [|split].
  - intros v F. rewrite (lookup_final _ _ _ F). destruct v; reflexivity.
  - intros N. apply lookup_mentions in N. rewrite N. reflexivity.
  - pose proof (lookup_mentions es (lit "Example")) as X. destruct (lookup (fold_left put_entry es []) (lit "Example")) eqn:E.
    + split; [intros _|reflexivity]. clear X.
      assert (K : forall es k v, lookup (fold_left put_entry es []) k = Some v -> mentions es k).
      { clear. induction es as [|[[k' w]|] es IH]; intros k v H; cbn [fold_left put_entry] in H; [discriminate| |].
        - rewrite lookup_fold in H. destruct (lookup (fold_left put_entry es []) k) eqn:E.
          + destruct (IH _ _ E) as [x I]. exists x. now right.
          + cbn [lookup] in H. destruct (bytes_eqb k' k) eqn:B; [|discriminate]. apply bytes_eqb_eq in B. subst. exists w. now left.
        - destruct (IH _ _ H) as [x I]. exists x. now right. }
      now apply (K es _ o).
    + split; [discriminate|]. intros M. exfalso. now apply X.
Qed.
Print Assumptions C106_clamav.
Theorem C106_enma : forall es content o, lists enma_setting es content -> last_given es o -> enma_socket (Some content) = o.
Proof. exact enma_spec. Qed.
Print Assumptions C106_enma.
(** The spec the filter is connected to: a path is a UNIX socket, a repeated prefix counts once. *)
Theorem C106_spec : forall s t, spec_means s t -> applied_spec s = t.
Proof. exact applied_spec_spec. Qed.
Print Assumptions C106_spec.

Definition opendkim_sample : bytes :=
  line (lit "# Socket inet:1@localhost") ++ line (lit "Socket inet:8891@localhost") ++ line (lit "Syslog") ++
  line (lit "  Socket  local:/run/opendkim.sock") ++ line (lit "UMask 002").
Definition opendkim_entries : list (option (bytes * option bytes)) :=
  [None; Some (lit "Socket", Some (lit "inet:8891@localhost")); Some (lit "Syslog", None);
   Some (lit "Socket", Some (lit "local:/run/opendkim.sock")); Some (lit "UMask", Some (lit "002")); None].
Example C106_example : lists setting_line opendkim_entries opendkim_sample /\
  final opendkim_entries (lit "Socket") (Some (lit "local:/run/opendkim.sock")) /\
  opendkim_socket (Some opendkim_sample) = Some (lit "local:/run/opendkim.sock") /\
  spec_means (lit "local:unix:/run/s") (lit "unix:/run/s").
Proof.
  split; [|split; [|split; [reflexivity|]]].
  - exists [lit "# Socket inet:1@localhost"; lit "Socket inet:8891@localhost"; lit "Syslog"; lit "  Socket  local:/run/opendkim.sock"; lit "UMask 002"], [].
    split; [reflexivity|]. split; [repeat (apply Forall_cons; [not_in''|]); apply Forall_nil|]. split; [intros []|].
    cbn [app]. unfold opendkim_entries. repeat (apply Forall2_cons).
    + apply setting_idle. apply (idle_comment []). apply Forall_nil.
    + apply (setting_given [] (lit "Socket") (lit " ") (lit "inet:8891@localhost")); [whites'|name'|spaces'|starts].
    + apply (setting_alone [] (lit "Syslog") []); [whites'|name'|whites'|cbn; lia].
    + apply (setting_given (lit "  ") (lit "Socket") (lit "  ") (lit "local:/run/opendkim.sock")); [whites'|name'|spaces'|starts].
    + apply (setting_given [] (lit "UMask") (lit " ") (lit "002")); [whites'|name'|spaces'|starts].
    + apply setting_idle. constructor. apply Forall_nil.
    + apply Forall2_nil.
  - exists [None; Some (lit "Socket", Some (lit "inet:8891@localhost")); Some (lit "Syslog", None)], [Some (lit "UMask", Some (lit "002")); None].
    split; [reflexivity|]. intros [v [H|[H|[]]]]; discriminate H.
  - apply (spec_local [lit "local:"] (lit "unix:") (lit "/run/s")).
    + apply Forall_cons; [now right|apply Forall_nil].
    + now left.
    + intros p t [->| ->]; discriminate.
Qed.

(** White space at the end of a line, a carriage return or a comment behind the value becomes part of
    the spec, which is then not one to connect to. *)
Theorem C106_trailing_refuted :
  ~ (forall v s, begins_text v -> Forall white s -> ~ In (byte_of 10) s ->
       opendkim_socket (Some (line (lit "Socket " ++ v ++ s))) = Some v) /\
  opendkim_socket (Some (line (lit "Socket local:/run/s" ++ [byte_of 13]))) = Some (lit "local:/run/s" ++ [byte_of 13]) /\
  opendkim_socket (Some (line (lit "Socket local:/run/s # for Postfix"))) = Some (lit "local:/run/s # for Postfix").
Proof.
  split; [|split; reflexivity]. intros H. specialize (H (lit "a") (lit " ")).
  assert (G : begins_text (lit "a")) by starts. specialize (H G ltac:(whites') ltac:(not_in'')). vm_compute in H. discriminate.
Qed.
Print Assumptions C106_trailing_refuted.
(** A name with nothing but blanks behind it is given a blank. *)
Theorem C106_blank_refuted : ~ (forall s, spaces s -> ~ In (byte_of 10) s ->
  opendkim_socket (Some (line (lit "Socket" ++ s))) = None).
Proof. intros H. specialize (H (lit "  ") ltac:(spaces') ltac:(not_in'')). vm_compute in H. discriminate. Qed.
Print Assumptions C106_blank_refuted.

(** *** C107: greylist.conf *)

(** The last socket is the one used; the longest delay of a recipient's access list is added to the
    time the filter is given to answer. *)
Theorem C107_socket : forall es content o, lists greylist_says es content -> last_socket es o ->
  greylist_socket (parse_greylist (Some content)) = o.
Proof. exact greylist_socket_spec. Qed.
Print Assumptions C107_socket.
Theorem C107_delay : forall es content m, lists greylist_says es content -> longest_delay es m ->
  greylist_extra (parse_greylist (Some content)) = m.
Proof.
  intros es content m H [A B]. destruct (greylist_extra_spec _ _ H) as [C D]. apply N.le_antisymm.
  - destruct D as [->|D]; [lia|now apply A].
  - destruct B as [->|B]; [lia|now apply C].
Qed.
Print Assumptions C107_delay.

Definition greylist_sample : bytes :=
  line (lit "socket " ++ q (lit "/run/g.sock") ++ lit " 660") ++ line (lit "racl greylist default tarpit 2m") ++
  line (lit "acl whitelist tarpit 90s") ++ line (lit "quiet").
Example C107_example : lists greylist_says
    [GSocket (lit "/run/g.sock"); GDelay 120; GDelay 90; GIdle; GIdle] greylist_sample /\
  last_socket [GSocket (lit "/run/g.sock"); GDelay 120; GDelay 90; GIdle; GIdle] (Some (lit "/run/g.sock")) /\
  longest_delay [GSocket (lit "/run/g.sock"); GDelay 120; GDelay 90; GIdle; GIdle] 120 /\
  greylist_extra (parse_greylist (Some greylist_sample)) = 120.
Proof.
  assert (A : forall p, absent (lit "tarpit") p <-> forall n, (n <= length p)%nat -> forall b, skipn n p <> lit "tarpit" ++ b).
  { intros p. split.
    - intros H n L b E. apply (H (firstn n p) b). rewrite <- E. now rewrite firstn_skipn.
    - intros H a b E. apply (H (length a)) with b; [rewrite E, app_length; lia|]. rewrite E, skipn_app, skipn_all, Nat.sub_diag. reflexivity. }
  assert (Z : forall l, (forall t', l <> t' ++ [byte_of 13]) <-> forall c, hd_error (rev l) = Some c -> c <> byte_of 13).
  { intros l. split.
    - intros H c E ->. destruct (rev l) as [|x r] eqn:R; [discriminate|]. injection E as ->. apply (H (rev r)).
      rewrite <- (rev_involutive l), R. reflexivity.
    - intros H t' ->. apply (H (byte_of 13)); [|reflexivity]. rewrite rev_app_distr. reflexivity. }
  assert (Y : forall (l : bytes) c, (forall t', l <> t' ++ [c]) <-> forall d, hd_error (rev l) = Some d -> d <> c).
  { intros l c0. split.
    - intros H c E ->. destruct (rev l) as [|x r] eqn:R; [discriminate|]. injection E as ->. apply (H (rev r)).
      rewrite <- (rev_involutive l), R. reflexivity.
    - intros H t' ->. apply (H c0); [|reflexivity]. rewrite rev_app_distr. reflexivity. }
  split; [|split; [|split; [|reflexivity]]].
  - exists [lit "socket " ++ q (lit "/run/g.sock") ++ lit " 660"; lit "racl greylist default tarpit 2m"; lit "acl whitelist tarpit 90s"; lit "quiet"], [].
    split; [reflexivity|]. split; [repeat (apply Forall_cons; [not_in''|]); apply Forall_nil|]. split; [intros []|].
    cbn [app]. repeat apply Forall2_cons; try apply Forall2_nil.
    all: match goal with |- greylist_says ?l _ => exists l; split; [apply content_all; apply Y; intros d E; vm_compute in E; try discriminate E; injection E as <-; discriminate|] end.
    all: split; [|apply Y; intros d E; vm_compute in E; try discriminate E; injection E as <-; discriminate].
    + apply (gl_socket_mode [] (lit " ") (lit "/run/g.sock") (lit " ") (lit "660")); [whites'|spaces'|discriminate|not_in''|whites'|].
      split; [discriminate|]. repeat (apply Forall_cons; [split; vm_compute; discriminate|]). apply Forall_nil.
    + apply (gl_acl [] (lit "racl") (lit " ") (lit "greylist default tarpit 2m")); [whites'|now right|spaces'|starts|].
      exists (lit "greylist default "), (lit " "), (lit "2"), (lit "m"), 60, [].
      split; [reflexivity|]. split.
      { apply A. intros n L b. do 18 (destruct n as [|n]; [discriminate|]). cbn in L. lia. }
      split; [not_in''|]. split; [right; exists (lit "greylist default"), " "%char; split; [reflexivity|unfold white; tauto]|].
      split; [spaces'|]. split; [split; [discriminate|]; repeat (apply Forall_cons; [split; vm_compute; discriminate|]); apply Forall_nil|].
      split; [constructor|]. split; [now left|reflexivity].
    + apply (gl_acl [] (lit "acl") (lit " ") (lit "whitelist tarpit 90s")); [whites'|now left|spaces'|starts|].
      exists (lit "whitelist "), (lit " "), (lit "90"), (lit "s"), 1, [].
      split; [reflexivity|]. split.
      { apply A. intros n L b. do 11 (destruct n as [|n]; [discriminate|]). cbn in L. lia. }
      split; [not_in''|]. split; [right; exists (lit "whitelist"), " "%char; split; [reflexivity|unfold white; tauto]|].
      split; [spaces'|]. split; [split; [discriminate|]; repeat (apply Forall_cons; [split; vm_compute; discriminate|]); apply Forall_nil|].
      split; [constructor|]. split; [now left|reflexivity].
    + apply (gl_alone [] (lit "quiet")); [whites'|name'].
    + apply gl_idle. constructor. apply Forall_nil.
  - right. exists [], (lit "/run/g.sock"), [GDelay 120; GDelay 90; GIdle; GIdle]. split; [reflexivity|].
    split; [|reflexivity]. intros p H. cbn in H. intuition discriminate.
  - split; [|right; right; left; reflexivity]. intros n H. cbn in H.
    destruct H as [H|[H|[H|[H|[H|[]]]]]]; try discriminate H; injection H as <-; lia.
Qed.

(** An entry written on several lines is not put together, so its delay is not seen. *)
Theorem C107_continued_refuted : ~ (forall a b n, delays (a ++ lit " " ++ b) n ->
  greylist_extra (parse_greylist (Some (line (lit "racl " ++ a ++ [byte_of 92]) ++ line b))) = n) /\
  greylist_extra (parse_greylist (Some (line (lit "racl greylist default " ++ [byte_of 92]) ++ line (lit "  tarpit 2m")))) = 0.
Proof.
  split; [|reflexivity]. intros H. specialize (H [] (lit "tarpit 2m") 120). vm_compute in H.
  assert (G : delays (lit " tarpit 2m") 120); [|specialize (H G); discriminate H].
  exists (lit " "), (lit " "), (lit "2"), (lit "m"), 60, []. split; [reflexivity|].
  split. { intros a b E. destruct a as [|x a]; [discriminate E|]. destruct a; discriminate E. }
  split; [not_in''|]. split; [right; exists [], " "%char; split; [reflexivity|unfold white; tauto]|].
  split; [spaces'|]. split; [split; [discriminate|]; repeat (apply Forall_cons; [split; vm_compute; discriminate|]); apply Forall_nil|].
  split; [constructor|]. split; [now left|reflexivity].
Qed.
Print Assumptions C107_continued_refuted.
(** A comment or a blank behind the mode leaves the quotes in the spec; a delay in a comment counts. *)
Theorem C107_behind_refuted :
  ~ (forall path e, path <> [] -> ~ In (byte_of 34) path -> ~ In (byte_of 10) path -> line_end e -> ~ In (byte_of 10) e ->
       greylist_socket (parse_greylist (Some (line (lit "socket " ++ q path ++ lit " 660" ++ e)))) = Some path) /\
  greylist_socket (parse_greylist (Some (line (lit "socket " ++ q (lit "/s") ++ lit " 660 ")))) = Some (q (lit "/s") ++ lit " 660 ") /\
  greylist_extra (parse_greylist (Some (line (lit "acl whitelist default # tarpit 1w")))) = 604800.
Proof.
  split; [|split; reflexivity]. intros H. specialize (H (lit "/s") (lit " # x")).
  specialize (H ltac:(discriminate) ltac:(not_in'') ltac:(not_in'')).
  assert (G : line_end (lit " # x")) by (apply (end_comment (lit " ") (lit " x")); spaces').
  specialize (H G ltac:(not_in'')). vm_compute in H. discriminate.
Qed.
Print Assumptions C107_behind_refuted.

(** *** C108: assignments of the shell *)

(** A file of assignments leaves the variables with the values the shell would give them. *)
Theorem C108_values : forall own es content vs env out, lists shell_line es content ->
  (forall n, variable vs n = env n) -> runs env es out ->
  forall n, variable (extract_variables false own vs content) n = out n.
Proof. exact extract_spec. Qed.
Print Assumptions C108_values.

Definition shell_sample : bytes :=
  line (lit "# where things are") ++ line (lit "export RUNDIR=/var/run # not /run") ++
  line (lit "SOCKET=" ++ q (lit "local:${RUNDIR}/$NAME.sock") ++ lit "  ") ++ lit "NAME='my filter'".
Definition shell_entries : list (option (bytes * list piece)) :=
  [None; Some (lit "RUNDIR", [Text (lit "/var/run")]);
   Some (lit "SOCKET", [Text (lit "local:"); Ref (lit "RUNDIR"); Text (lit "/"); Ref (lit "NAME"); Text (lit ".sock")]);
   Some (lit "NAME", [Text (lit "my filter")])].
Definition named : environment := set nothing_set (lit "NAME") (lit "spf").
Ltac cleans := repeat (apply Forall_cons; [repeat split; discriminate|]); apply Forall_nil.
Ltac caps := apply Forall_forall; let c := fresh in let I := fresh in intros c I; vm_compute in I;
  repeat (destruct I as [<-|I]; [unfold capital; cbn; lia|]); destruct I.
Ltac ref' := split; [name'|split; [discriminate|]]; let H := fresh in intros c n' H; injection H as <- <-; intros [? ?]; vm_compute in *; congruence.
Example C108_example : lists shell_line shell_entries shell_sample /\
  (exists out, runs named shell_entries out /\ out (lit "SOCKET") = Some (lit "local:/var/run/spf.sock") /\
               out (lit "NAME") = Some (lit "my filter")) /\
  variable (extract_variables false None [(lit "NAME", Some (lit "spf"))] shell_sample) (lit "SOCKET")
    = Some (lit "local:/var/run/spf.sock").
Proof.
  split; [|split; [|reflexivity]].
  - exists [lit "# where things are"; lit "export RUNDIR=/var/run # not /run"; lit "SOCKET=" ++ q (lit "local:${RUNDIR}/$NAME.sock") ++ lit "  "], (lit "NAME='my filter'").
    split; [reflexivity|]. split; [repeat (apply Forall_cons; [not_in''|]); apply Forall_nil|]. split; [not_in''|].
    cbn [app]. unfold shell_entries. repeat apply Forall2_cons; try apply Forall2_nil.
    + apply shell_idle. apply (idle_comment []). apply Forall_nil.
    + apply (shell_plain (lit "export ") (lit "RUNDIR") [Text (lit "/var/run")] (lit "/var/run") (lit " # not /run")).
      * apply (leader_export [] (lit " ")); [whites'|spaces'].
      * discriminate.
      * caps.
      * apply (writes_text (lit "/var/run") [] []); [cleans|constructor].
      * repeat (apply Forall_cons; [split; not_in''|]); apply Forall_nil.
      * apply (end_comment (lit " ")). spaces'.
    + apply (shell_double [] (lit "SOCKET") _ (lit "local:${RUNDIR}/$NAME.sock") (lit "  ")).
      * constructor. apply Forall_nil.
      * discriminate.
      * caps.
      * apply (writes_text (lit "local:")); [cleans|]. apply (writes_braced (lit "RUNDIR")); [ref'|].
        apply (writes_text (lit "/")); [cleans|]. apply (writes_bare (lit "NAME") _ (lit ".sock")); [ref'| |].
        -- apply (writes_text (lit ".sock") [] []); [cleans|constructor].
        -- right. exists "."%char, (lit "sock"). split; [reflexivity|]. split; [|discriminate].
           intros H. unfold BreakerSpec.name_char in H. vm_compute in H. intuition congruence.
      * apply end_blank. spaces'.
    + apply (shell_single [] (lit "NAME") (lit "my filter") []).
      * constructor. apply Forall_nil.
      * discriminate.
      * caps.
      * cleans.
      * constructor.
  - eexists. split.
    + unfold shell_entries. apply runs_idle. eapply runs_assign; [apply means_text; apply means_nothing|].
      eapply runs_assign.
      { apply means_text. eapply means_ref; [reflexivity|]. apply means_text. eapply means_ref; [reflexivity|]. apply means_text. apply means_nothing. }
      eapply runs_assign; [apply means_text; apply means_nothing|]. apply runs_nothing.
    + split; reflexivity.
Qed.

(** What the shell reads otherwise: a number sign within quotes, a second assignment on a line, a
    dollar sign within single quotes, a variable that is not set, a name with small letters, a line
    that is not an assignment. *)
Theorem C108_shell_refuted :
  (* SOCKET="a#b" *)
  ~ (forall b : bytes, ~ In (byte_of 34) b -> ~ In "$"%char b -> ~ In (byte_of 92) b -> ~ In (byte_of 10) b -> ~ In (byte_of 96) b ->
       variable (extract_variables false None [] (line (lit "A=" ++ q b))) (lit "A") = Some b) /\
  variable (extract_variables false None [] (line (lit "A=1; B=2"))) (lit "A") = Some (lit "1;") /\
  variable (extract_variables false None [] (line (lit "A=1; B=2"))) (lit "B") = None /\
  variable (extract_variables false None [] (line (lit "A=1") ++ line (lit "B='$A'"))) (lit "B") = Some (lit "1") /\
  variable (extract_variables false None [] (line (lit "B=/run/$A"))) (lit "B") = Some (lit "/run/$A") /\
  variable (extract_variables false None [] (line (lit "socket=/run/s"))) (lit "socket") = None /\
  variable (extract_variables false None [] (line (lit "echo A=1"))) (lit "A") = Some (lit "1").
Proof.
  split; [|repeat split; reflexivity].
  intros H. specialize (H (lit "a#b") ltac:(not_in'') ltac:(not_in'') ltac:(not_in'') ltac:(not_in'') ltac:(not_in'')). vm_compute in H. discriminate.
Qed.
Print Assumptions C108_shell_refuted.

(** *** C109: filters run by systemd *)

Definition unit_path (script : bytes) : bytes := lit "/lib/systemd/system/" ++ script ++ lit ".service".
Definition link_path (script : bytes) : bytes := lit "/etc/systemd/system/multi-user.target.wants/" ++ script ++ lit ".service".
(** The unit of [script] as systemd would read it. *)
Definition unit_is (sys : system) (script : bytes) (env : environment) (exec description : option bytes) : Prop :=
  exists content es,
    sy_file sys (unit_path script) = Some content /\ lists unit_line es content /\
    environment_of (sy_file sys) nothing_set (given (lit "Service") (lit "EnvironmentFile") None es) env /\
    latest (given (lit "Service") (lit "ExecStart") None es) exec /\
    latest (given (lit "Unit") (lit "Description") None es) description.
(** The configuration file named by an option of a command line. *)
Definition conf_file (sys : system) (flags : option bytes) (opt default f : bytes) : Prop :=
  match flags with
  | None => f = default
  | Some text => option_argument opt (sy_words sys text) (Some f) \/ option_argument opt (sy_words sys text) None /\ f = default
  end.

Lemma unit_facts sys script env exec d : unit_is sys script env exec d ->
  exists u, systemd_milter sys script =
    Some (mk_defined (unit_enabled sys script u)
            (match guess_spec sys script u with Some s => Some (applied_spec s) | None => None end)
            (if bytes_eqb script (lit "milter-greylist")
             then greylist_extra (parse_greylist (sy_file sys
                    (match parameter_from_flags sys (un_exec u) (lit "-f") with
                     | Some f => f | None => lit "/etc/milter-greylist/greylist.conf" end)))
             else 0) d) /\
    un_exec u = exec /\ forall n, variable (un_variables u) n = env n.
Proof.
  intros (content & es & R & L & E & X & D). unfold systemd_milter. change (unit_file script) with (unit_path script). rewrite R.
  assert (D' : un_description (parse_unit sys content) = d).
  { rewrite (unit_spec sys es content L). rewrite (description_spec sys es (mk_unit None None None []) d D). destruct d; reflexivity. }
  exists (parse_unit sys content). rewrite D'. split; [reflexivity|]. rewrite (unit_spec sys es content L). split.
  - rewrite (exec_spec sys es (mk_unit None None None []) exec X). destruct exec; reflexivity.
  - intros n. apply (environment_spec sys es (mk_unit None None None []) nothing_set env E). reflexivity.
Qed.
Lemma conf_found sys flags opt default f : conf_file sys flags opt default f ->
  match parameter_from_flags sys flags opt with Some f => f | None => default end = f.
Proof.
  destruct flags as [text|]; cbn [conf_file]; [|intros ->; reflexivity].
  intros [H|[H ->]]; rewrite (option_spec _ _ _ _ H); reflexivity.
Qed.

(** Most filters listen where SOCKET of their environment files says; they are enabled if the unit is. *)
Theorem C109_socket : forall sys script env exec d,
  ~ In script [lit "clamav-milter"; lit "milter-greylist"; lit "opendkim"; lit "rspamd"] ->
  unit_is sys script env exec d ->
  (forall s t spec, env (lit "SOCKET") = Some s -> trimmed s t -> spec_means t spec ->
     systemd_milter sys script = Some (mk_defined (sy_exists sys (link_path script)) (Some spec) 0 d)) /\
  (env (lit "SOCKET") = None \/ (exists s, env (lit "SOCKET") = Some s /\ blank_text s) ->
     systemd_milter sys script = Some (mk_defined false None 0 d)).
Proof.
  intros sys script env exec d N U. destruct (unit_facts _ _ _ _ _ U) as (u & -> & X & E).
  assert (N1 : bytes_eqb script (lit "clamav-milter") = false) by (apply bytes_eqb_neq; intros ->; apply N; cbn [In]; tauto).
  assert (N2 : bytes_eqb script (lit "milter-greylist") = false) by (apply bytes_eqb_neq; intros ->; apply N; cbn [In]; tauto).
  assert (N3 : bytes_eqb script (lit "opendkim") = false) by (apply bytes_eqb_neq; intros ->; apply N; cbn [In]; tauto).
  unfold unit_enabled, guess_spec. rewrite N1, N2, N3, E. cbn [some_else andb negb].
  split.
  - intros s t spec -> T M. rewrite (normalize_trimmed _ _ T), (applied_spec_spec _ _ M).
    change (installed_unit script) with (link_path script). rewrite andb_true_r. reflexivity.
  - intros [->|(s & -> & B)]; [reflexivity|]. rewrite (normalize_blank _ B). reflexivity.
Qed.
Print Assumptions C109_socket.
(** OpenDKIM: the file named by "-x" in OPTIONS, or /etc/opendkim.conf. *)
Theorem C109_opendkim : forall sys env exec d f content es v spec,
  unit_is sys (lit "opendkim") env exec d ->
  conf_file sys (Some (match env (lit "OPTIONS") with Some o => o | None => [] end)) (lit "-x") (lit "/etc/opendkim.conf") f ->
  sy_file sys f = Some content -> lists setting_line es content -> final es (lit "Socket") (Some v) -> spec_means v spec ->
  systemd_milter sys (lit "opendkim") = Some (mk_defined (sy_exists sys (link_path (lit "opendkim"))) (Some spec) 0 d).
Proof.
  intros sys env exec d f content es v spec U C F L V M. destruct (unit_facts _ _ _ _ _ U) as (u & -> & X & E).
  unfold unit_enabled, guess_spec. change (bytes_eqb (lit "opendkim") (lit "clamav-milter")) with false.
  change (bytes_eqb (lit "opendkim") (lit "milter-greylist")) with false. change (bytes_eqb (lit "opendkim") (lit "opendkim")) with true.
  cbv iota. rewrite E, (conf_found _ _ _ _ _ C), F.
  destruct (C106_opendkim _ _ L) as [K _]. rewrite (K _ V). cbn [some_else andb negb].
  rewrite (applied_spec_spec _ _ M), andb_true_r. reflexivity.
Qed.
Print Assumptions C109_opendkim.
(** ClamAV: the file named by "-c" in ExecStart, or /etc/clamav/clamav-milter.conf; not enabled as
    long as the file has to be edited. *)
Theorem C109_clamav : forall sys env exec d f content es v spec,
  unit_is sys (lit "clamav-milter") env exec d ->
  conf_file sys exec (lit "-c") (lit "/etc/clamav/clamav-milter.conf") f ->
  sy_file sys f = Some content -> lists setting_line es content -> final es (lit "MilterSocket") (Some v) -> spec_means v spec ->
  exists enabled,
    systemd_milter sys (lit "clamav-milter") = Some (mk_defined enabled (Some spec) 0 d) /\
    (enabled = true <-> sy_exists sys (link_path (lit "clamav-milter")) = true /\ ~ mentions es (lit "Example")).
Proof.
  intros sys env exec d f content es v spec U C F L V M. destruct (unit_facts _ _ _ _ _ U) as (u & -> & X & E).
  unfold unit_enabled, guess_spec. change (bytes_eqb (lit "clamav-milter") (lit "clamav-milter")) with true.
  change (bytes_eqb (lit "clamav-milter") (lit "milter-greylist")) with false.
  cbv iota. rewrite X, (conf_found _ _ _ _ _ C), F.
  destruct (C106_clamav _ _ L) as (K & _ & Z). rewrite (K _ V). cbn [some_else andb].
  rewrite (applied_spec_spec _ _ M). eexists. split; [reflexivity|].
  change (installed_unit (lit "clamav-milter")) with (link_path (lit "clamav-milter")).
  rewrite andb_true_iff, negb_true_iff, <- Z. destruct (clamav_example (Some content)); intuition congruence.
Qed.
Print Assumptions C109_clamav.
(** milter-greylist: the file named by "-f" in ExecStart, or /etc/milter-greylist/greylist.conf; the
    longest delay is added to the timeouts. *)
Theorem C109_greylist : forall sys env exec d f content es v spec m,
  unit_is sys (lit "milter-greylist") env exec d ->
  conf_file sys exec (lit "-f") (lit "/etc/milter-greylist/greylist.conf") f ->
  sy_file sys f = Some content -> lists greylist_says es content -> last_socket es (Some v) -> spec_means v spec -> longest_delay es m ->
  systemd_milter sys (lit "milter-greylist") = Some (mk_defined (sy_exists sys (link_path (lit "milter-greylist"))) (Some spec) m d).
Proof.
  intros sys env exec d f content es v spec m U C F L V M D. destruct (unit_facts _ _ _ _ _ U) as (u & -> & X & E).
  unfold unit_enabled, guess_spec. change (bytes_eqb (lit "milter-greylist") (lit "clamav-milter")) with false.
  change (bytes_eqb (lit "milter-greylist") (lit "milter-greylist")) with true.
  cbv iota. rewrite X, (conf_found _ _ _ _ _ C), F, (C107_socket _ _ _ L V), (C107_delay _ _ _ L D). cbn [some_else andb negb].
  rewrite (applied_spec_spec _ _ M), andb_true_r. reflexivity.
Qed.
Print Assumptions C109_greylist.
(** Without a unit no filter is defined. *)
Theorem C109_absent : forall sys script, sy_file sys (unit_path script) = None -> systemd_milter sys script = None.
Proof. intros sys script H. unfold systemd_milter. change (unit_file script) with (unit_path script). rewrite H. reflexivity. Qed.
Print Assumptions C109_absent.

Definition unit_text : bytes :=
  line (lit "[Unit]") ++ line (lit "Description=SPF filter") ++ line (lit "[Service]") ++ line (lit "EnvironmentFile = -/etc/default/spf") ++
  line (lit "ExecStart=/usr/sbin/spf -p ${SOCKET}").
Definition unit_entries : list unit_entry :=
  [USection (lit "Unit"); USet (lit "Description") (lit "SPF filter"); USection (lit "Service");
   USet (lit "EnvironmentFile") (lit "-/etc/default/spf"); USet (lit "ExecStart") (lit "/usr/sbin/spf -p ${SOCKET}"); UIdle].
(** A system with the given files. *)
Definition files_only (files : list (bytes * bytes)) : system :=
  mk_system (lookup files) (fun p => match lookup files p with Some _ => true | None => false end) (fun _ => []).
Definition spf_system (default : bytes) : system :=
  files_only [(unit_path (lit "spf"), unit_text); (link_path (lit "spf"), unit_text); (lit "/etc/default/spf", default)].
Ltac tight' := split; [starts|]; match goal with |- exists b' c, ?v = _ /\ _ =>
  exists (removelast v), (last v NUL); split; [reflexivity|split; [not_in''|split; discriminate]] end.
Ltac uname := split; [tight'|split; [not_in''|let H := fresh in intros ? ? H; injection H as <- _; not_in'']].
Example C109_example :
  unit_is (spf_system (line (lit "SOCKET=/run/spf.sock"))) (lit "spf")
    (set nothing_set (lit "SOCKET") (lit "/run/spf.sock")) (Some (lit "/usr/sbin/spf -p ${SOCKET}")) (Some (lit "SPF filter")) /\
  systemd_milter (spf_system (line (lit "SOCKET=/run/spf.sock"))) (lit "spf") =
    Some (mk_defined true (Some (lit "unix:/run/spf.sock")) 0 (Some (lit "SPF filter"))).
Proof.
  split; [|reflexivity]. exists unit_text, unit_entries. split; [reflexivity|]. split; [|split; [|split]].
  - exists [lit "[Unit]"; lit "Description=SPF filter"; lit "[Service]"; lit "EnvironmentFile = -/etc/default/spf"; lit "ExecStart=/usr/sbin/spf -p ${SOCKET}"], [].
    split; [reflexivity|]. split; [repeat (apply Forall_cons; [not_in''|]); apply Forall_nil|]. split; [intros []|].
    cbn [app]. unfold unit_entries. repeat apply Forall2_cons; try apply Forall2_nil.
    + apply (unit_section [] (lit "Unit") []); [whites'|discriminate|not_in''|whites'].
    + apply (unit_set [] (lit "Description") [] [] (lit "SPF filter") []); [whites'|uname|whites'|whites'|tight'|whites'].
    + apply (unit_section [] (lit "Service") []); [whites'|discriminate|not_in''|whites'].
    + apply (unit_set [] (lit "EnvironmentFile") (lit " ") (lit " ") (lit "-/etc/default/spf") []); [whites'|uname|whites'|whites'|tight'|whites'].
    + apply (unit_set [] (lit "ExecStart") [] [] (lit "/usr/sbin/spf -p ${SOCKET}") []); [whites'|uname|whites'|whites'|tight'|whites'].
    + apply unit_blank. apply Forall_nil.
  - apply (env_of_file _ _ (lit "-/etc/default/spf") (lit "/etc/default/spf") (line (lit "SOCKET=/run/spf.sock"))
             [Some (lit "SOCKET", lit "/run/spf.sock"); None]); [constructor|reflexivity| |apply env_of_none].
    exists [lit "SOCKET=/run/spf.sock"], []. split; [reflexivity|]. split; [repeat (apply Forall_cons; [not_in''|]); apply Forall_nil|].
    split; [intros []|]. cbn [app]. repeat apply Forall2_cons; try apply Forall2_nil.
    + apply (env_plain [] (lit "SOCKET") (lit "/run/spf.sock") []); [whites'|discriminate|caps|cleans| |whites'].
      repeat (apply Forall_cons; [split; not_in''|]); apply Forall_nil.
    + apply env_idle. constructor. apply Forall_nil.
  - right. exists [], (lit "/usr/sbin/spf -p ${SOCKET}"). split; reflexivity.
  - right. exists [], (lit "SPF filter"). split; reflexivity.
Qed.

(** What systemd reads otherwise: a comment that begins with a semicolon; a number sign behind a
    value, or a reference, both of which are text; an empty value, which takes back the files before;
    a unit of the administrator, which goes before that of the package. *)
Definition with_socket (o : option bytes) : option defined :=
  Some (mk_defined (match o with Some _ => true | None => false end) o 0 (Some (lit "SPF filter"))).
Theorem C109_comment_refuted : ~ (forall c, c = "#"%char \/ c = ";"%char ->
  systemd_milter (spf_system (line (c :: lit "SOCKET=/run/old"))) (lit "spf") = with_socket None).
Proof. intros H. specialize (H ";"%char (or_intror eq_refl)). vm_compute in H. discriminate. Qed.
Print Assumptions C109_comment_refuted.
Theorem C109_text_refuted :
  ~ (forall v : bytes, Forall bare v -> v <> [] -> ~ In (byte_of 34) v -> ~ In (byte_of 39) v -> ~ In (byte_of 92) v ->
       systemd_milter (spf_system (line (lit "SOCKET=/run/" ++ v))) (lit "spf") = with_socket (Some (lit "unix:/run/" ++ v))) /\
  systemd_milter (spf_system (line (lit "SOCKET=/run/a#b"))) (lit "spf") = with_socket (Some (lit "unix:/run/a")) /\
  systemd_milter (spf_system (line (lit "A=b") ++ line (lit "SOCKET=/run/$A"))) (lit "spf") = with_socket (Some (lit "unix:/run/b")).
Proof.
  split; [|split; reflexivity]. intros H. specialize (H (lit "a#b")).
  assert (G : Forall bare (lit "a#b")) by (repeat (apply Forall_cons; [split; not_in''|]); apply Forall_nil).
  specialize (H G ltac:(discriminate) ltac:(not_in'') ltac:(not_in'') ltac:(not_in'')). vm_compute in H. discriminate.
Qed.
Print Assumptions C109_text_refuted.
Theorem C109_reset_refuted : ~ (forall vars : bytes,
  systemd_milter (files_only [(unit_path (lit "spf"), unit_text ++ line (lit "EnvironmentFile="));
                              (link_path (lit "spf"), []); (lit "/etc/default/spf", vars)]) (lit "spf")
  = with_socket None).
Proof. intros H. specialize (H (line (lit "SOCKET=/run/s"))). vm_compute in H. discriminate. Qed.
Print Assumptions C109_reset_refuted.
Theorem C109_override_refuted : ~ (forall own : bytes,
  systemd_milter (files_only [(lit "/etc/systemd/system/spf.service", own); (unit_path (lit "spf"), unit_text);
                              (link_path (lit "spf"), []); (lit "/etc/default/spf", line (lit "SOCKET=/run/s"))]) (lit "spf") =
  systemd_milter (files_only [(unit_path (lit "spf"), own);
                              (link_path (lit "spf"), []); (lit "/etc/default/spf", line (lit "SOCKET=/run/s"))]) (lit "spf")).
Proof. intros H. specialize (H (line (lit "[Service]"))). vm_compute in H. discriminate. Qed.
Print Assumptions C109_override_refuted.
