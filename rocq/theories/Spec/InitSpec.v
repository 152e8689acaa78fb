(** Init scripts and the files of settings they read, from the side of who writes them (sh(1), the
    manual of chkconfig(8)). *)
From Verif.Base Require Import Bytes.
From Verif.Spec Require Import PostfixSpec DetectSpec.
From Verif.Spec Require BreakerSpec.
From Verif.Spec Require Import RcSpec.
Local Open Scope N_scope.

(** *** Lines of a script; names are made of the characters [P] *)

(** No "=" with such a character right before it. *)
Definition no_assignment (P : byte -> Prop) (l : bytes) : Prop := forall a c b, l = a ++ c :: "="%char :: b -> ~ P c.
Inductive script_line (P : byte -> Prop) : bytes -> option (bytes * list piece) -> Prop :=
| line_idle l : idle_line l -> script_line P l None
| line_other l : no_assignment P l -> script_line P l None
| line_plain i n ps t e : leader i -> n <> [] -> Forall P n -> writes ps t -> Forall bare t ->
    line_end e -> script_line P (i ++ n ++ lit "=" ++ t ++ e) (Some (n, ps))
| line_double i n ps t e : leader i -> n <> [] -> Forall P n -> writes ps t -> line_end e ->
    script_line P (i ++ n ++ lit "=" ++ [double_quote] ++ t ++ [double_quote] ++ e) (Some (n, ps))
| line_single i n b e : leader i -> n <> [] -> Forall P n -> Forall clean b -> line_end e ->
    script_line P (i ++ n ++ lit "=" ++ [single_quote] ++ b ++ [single_quote] ++ e) (Some (n, [Text b])).

(** The variables when the whole script has run, and then the file with the settings. *)
Definition variables_after (P : byte -> Prop) (script : bytes) (settings : option bytes) (env : environment) : Prop :=
  exists es, lists (script_line P) es script /\
    match settings with
    | None => runs nothing_set es env
    | Some c => exists ds, lists (script_line P) ds c /\ runs nothing_set (es ++ ds) env
    end.
(** The header of the script is not one with a single empty line. *)
Definition empty_header : bytes :=
  lit "### BEGIN INIT INFO" ++ [newline] ++ lit "# " ++ [newline] ++ lit "### END INIT INFO".

(** Whether clamav-milter's file is still the example. *)
Inductive example_file : option bytes -> bool -> Prop :=
| example_missing : example_file None false
| example_yes c es : lists setting_line es c -> mentions es (lit "Example") -> example_file (Some c) true
| example_no c es : lists setting_line es c -> ~ mentions es (lit "Example") -> example_file (Some c) false.
(** What milter-greylist's file says. *)
Definition greylist_file (content : option bytes) (es : list gl_entry) : Prop :=
  match content with None => es = [] | Some c => lists greylist_says es c end.

(** *** Debian *)

(** The first line assigns nothing behind the shell it names. *)
Definition names_shell (content : bytes) : Prop :=
  forall s t r, Forall white s -> content = lit "#!" ++ s ++ lit "/bin/sh" ++ t ++ r -> one_line t ->
    (r = [] \/ exists r', r = newline :: r') -> one_line s /\ no_assignment capital t.
Definition debian_service (files : bytes -> option bytes) (script : bytes) (env : environment) : Prop :=
  exists content, files (lit "/etc/init.d/" ++ script) = Some content /\ names_shell content /\
    absent empty_header content /\ variables_after capital content (files (lit "/etc/default/" ++ script)) env.
(** clamav-milter has had a file of its own since 0.95. *)
Definition debian_clamav (script : bytes) (env : environment) : Prop :=
  script = lit "clamav-milter" /\
  ((exists a b, env (lit "CLAMAVCONF") = Some (a ++ lit "clamav-milter" ++ b)) \/
   exists f, env (lit "CLAMAVMILTERCONF") = Some f).
Definition debian_clamav_conf (env : environment) (f : bytes) : Prop :=
  chosen [env (lit "CLAMAVCONF"); env (lit "CLAMAVMILTERCONF")] (lit "/etc/clamav/clamav-milter.conf") f.
Definition debian_own (files : bytes -> option bytes) (script : bytes) (env : environment) (o : option bytes) : Prop :=
  (debian_clamav script env -> exists f, debian_clamav_conf env f /\ file_says KClamav (files f) o) /\
  (script = lit "opendkim" -> file_says KOpendkim (files (lit "/etc/opendkim.conf")) o) /\
  (~ debian_clamav script env -> script <> lit "opendkim" -> o = None).
Definition debian_listens (words : bytes -> list bytes) (env : environment) (o : option bytes) : Prop :=
  exists a b c d e f,
    variable_says env (lit "SOCKET") a /\ variable_says env (lit "SOCKFILE") b /\ variable_says env (lit "CONNECTION_SPEC") c /\
    option_says words (lit "-p") (env (lit "OPTARGS")) d /\ option_says words (lit "-p") (env (lit "DAEMON_ARGS")) e /\
    option_says words (lit "-p") (env (lit "PARAMS")) f /\ first_of [a; b; c; d; e; f] o.

(** *** Red Hat *)
Definition redhat_service (files : bytes -> option bytes) (script content : bytes) (env : environment) : Prop :=
  files (lit "/etc/init.d/" ++ script) = Some content /\ absent empty_header content /\
  variables_after BreakerSpec.name_char content (files (lit "/etc/sysconfig/" ++ script)) env.
(** A link that starts or stops the service in a runlevel. *)
Definition runlevel_link (script p : bytes) : Prop :=
  exists n k a b, In n (lit "0123456") /\ In k (lit "SK") /\ ConnectionSpecSpec.digit_char a /\ ConnectionSpecSpec.digit_char b /\
    p = lit "/etc/rc" ++ [n] ++ lit ".d/" ++ [k; a; b] ++ script.
Definition redhat_clamav (script : bytes) (env : environment) : Prop :=
  script = lit "clamav-milter" /\ env (lit "SOCKET_ADDRESS") = None.
Definition redhat_clamav_conf (words : bytes -> list bytes) (env : environment) (f : bytes) : Prop :=
  exists a b, option_says words (lit "--config-file") (env (lit "CLAMAV_FLAGS")) a /\ option_says words (lit "-c") (env (lit "CLAMAV_FLAGS")) b /\
    chosen [a; b] (lit "/etc/clamav-milter.conf") f.
(** [rspamd]: what rspamd answers when it is asked. *)
Definition redhat_own (files : bytes -> option bytes) (words : bytes -> list bytes) (rspamd : option bytes) (script : bytes)
  (env : environment) (o : option bytes) : Prop :=
  (script = lit "enma" -> exists f, chosen [env (lit "CONF_FILE")] (lit "/etc/enma.conf") f /\ file_says KEnma (files f) o) /\
  (redhat_clamav script env -> exists f, redhat_clamav_conf words env f /\ file_says KClamav (files f) o) /\
  (script = lit "opendkim" -> exists f, chosen [env (lit "CONFIG")] (lit "/etc/opendkim.conf") f /\ file_says KOpendkim (files f) o) /\
  (script = lit "rspamd" -> o = rspamd) /\
  (script <> lit "enma" -> ~ redhat_clamav script env -> script <> lit "opendkim" -> script <> lit "rspamd" -> o = None).
Definition redhat_listens (words : bytes -> list bytes) (env : environment) (o : option bytes) : Prop :=
  exists a b c d e,
    variable_says env (lit "SOCKET") a /\ variable_says env (lit "SOCKET_ADDRESS") b /\ variable_says env (lit "MILTER_SOCKET") c /\
    variable_says env (lit "CONNECTION_SPEC") d /\ option_says words (lit "-p") (env (lit "OPTIONS")) e /\
    first_of [a; b; c; d; e] o.
(** The comment at the beginning: lines that begin with "#"; there is no backslash in them and no
    header with INIT INFO. *)
Inductive tag_says : bytes -> option bytes -> Prop :=
| tag_config s v e : Forall white s -> tight v -> Forall white e -> tag_says (lit "# config:" ++ s ++ v ++ e) (Some v)
| tag_none l : ~ begins_with (lit "# config:") l -> tag_says l None.
Definition hashed (l : bytes) : Prop := begins_with (lit "#") l.
Definition tagged (content : bytes) (o : option bytes) : Prop :=
  exists hs ls last es, content = file (hs ++ ls) last /\ Forall one_line (hs ++ ls) /\ one_line last /\
    Forall hashed hs /\ ~ In (lit "### BEGIN INIT INFO") hs /\ Forall (fun h => ~ In (byte_of 92) h) hs /\
    ~ hashed (hd last ls) /\ Forall2 tag_says hs es /\ last_given es o.
(** milter-greylist's file: by the option "-f", by the tag "config", or the usual one. *)
Definition redhat_greylist_conf (words : bytes -> list bytes) (content : bytes) (env : environment) (f : bytes) : Prop :=
  exists a b, option_says words (lit "-f") (env (lit "OPTIONS")) a /\ tagged content b /\
    chosen [a; b] (lit "/etc/mail/greylist.conf") f.
