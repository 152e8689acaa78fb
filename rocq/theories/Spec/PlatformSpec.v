(** Filters as a system starts them, from the side of who installs them: units of systemd
    (systemd.unit(5), systemctl(1)), jobs of Upstart (init(5), start(8)) and init scripts. *)
From Verif.Base Require Import Bytes.
From Verif.Spec Require Import PostfixSpec DetectSpec RcSpec InitSpec.
Local Open Scope N_scope.

Inductive platform := Debian | RedHat.
Definition unit_at (p : platform) (script : bytes) : bytes :=
  match p with Debian => lit "/lib/systemd/system/" | RedHat => lit "/usr/lib/systemd/system/" end ++ script ++ lit ".service".
Definition link_at (script : bytes) : bytes := lit "/etc/systemd/system/multi-user.target.wants/" ++ script ++ lit ".service".
Definition clamav_at (p : platform) : bytes :=
  match p with Debian => lit "/etc/clamav/clamav-milter.conf" | RedHat => lit "/etc/mail/clamav-milter.conf" end.
Definition greylist_at (p : platform) : bytes :=
  match p with Debian => lit "/etc/milter-greylist/greylist.conf" | RedHat => lit "/etc/mail/greylist.conf" end.

(** *** Units *)
(** The file an option of a command line names, or the usual one. *)
Definition file_named (words : bytes -> list bytes) (flags : option bytes) (opt default f : bytes) : Prop :=
  exists a, option_says words opt flags a /\ chosen [a] default f.
Definition text_of (o : option bytes) : bytes := match o with Some t => t | None => [] end.
(** Where the filter's own file says it listens; [rspamd]: what rspamd answers when it is asked. *)
Definition unit_own (p : platform) (files : bytes -> option bytes) (words : bytes -> list bytes) (rspamd : option bytes)
  (script : bytes) (env : environment) (exec o : option bytes) : Prop :=
  (script = lit "clamav-milter" -> exists f, file_named words exec (lit "-c") (clamav_at p) f /\ file_says KClamav (files f) o) /\
  (script = lit "milter-greylist" ->
     exists f es, file_named words exec (lit "-f") (greylist_at p) f /\ greylist_file (files f) es /\ last_socket es o) /\
  (script = lit "opendkim" -> exists f,
     file_named words (Some (text_of (env (lit "OPTIONS")))) (lit "-x") (lit "/etc/opendkim.conf") f /\ file_says KOpendkim (files f) o) /\
  (script = lit "rspamd" -> o = rspamd) /\
  (~ In script [lit "clamav-milter"; lit "milter-greylist"; lit "opendkim"; lit "rspamd"] -> o = None).
(** Whether its own file is still the example, and the longest delay of milter-greylist. *)
Definition own_example (files : bytes -> option bytes) (words : bytes -> list bytes) (default : bytes) (script : bytes)
  (exec : option bytes) (ex : bool) : Prop :=
  (script = lit "clamav-milter" -> exists f, file_named words exec (lit "-c") default f /\ example_file (files f) ex) /\
  (script <> lit "clamav-milter" -> ex = false).
Definition own_delay (files : bytes -> option bytes) (words : bytes -> list bytes) (default : bytes) (script : bytes)
  (exec : option bytes) (m : N) : Prop :=
  (script = lit "milter-greylist" ->
     exists f es, file_named words exec (lit "-f") default f /\ greylist_file (files f) es /\ longest_delay es m) /\
  (script <> lit "milter-greylist" -> m = 0).
(** A unit: where the filter listens, its delay, whether it is still the example, its description. *)
Definition unit_says (p : platform) (files : bytes -> option bytes) (words : bytes -> list bytes) (rspamd : option bytes)
  (script : bytes) (o : option bytes) (m : N) (ex : bool) (d : option bytes) : Prop :=
  exists content es env exec own rest,
    files (unit_at p script) = Some content /\ lists unit_line es content /\
    environment_of files nothing_set (given (lit "Service") (lit "EnvironmentFile") None es) env /\
    latest (given (lit "Service") (lit "ExecStart") None es) exec /\
    latest (given (lit "Unit") (lit "Description") None es) d /\
    unit_own p files words rspamd script env exec own /\ variable_says env (lit "SOCKET") rest /\ first_of [own; rest] o /\
    own_example files words (clamav_at p) script exec ex /\ own_delay files words (greylist_at p) script exec m.

(** *** Jobs *)
Inductive job_entry := JComment (t : bytes) | JStart | JExec (r : bytes) | JOther.
(** A line with its newline. *)
Inductive job_means : bytes -> job_entry -> Prop :=
| job_comment a t b : Forall white a -> tight t -> Forall white b -> job_means (lit "# " ++ a ++ t ++ b) (JComment t)
| job_empty a : Forall white a -> job_means (lit "# " ++ a) JOther
| job_start r : job_means (lit "start on " ++ r) JStart
| job_exec r : job_means (lit "exec " ++ r) (JExec r)
| job_other l : ~ begins_with (lit "# ") l -> ~ begins_with (lit "start on ") l -> ~ begins_with (lit "exec ") l -> job_means l JOther.
Definition job_lists (es : list job_entry) (content : bytes) : Prop :=
  exists ls last, content = file ls last /\ Forall one_line ls /\ one_line last /\
    Forall2 job_means (map (fun l => l ++ [newline]) ls ++ match last with [] => [] | _ => [last] end) es.
(** Comments one behind the other. *)
Inductive spoken : list bytes -> bytes -> Prop :=
| spoken_one t : spoken [t] t
| spoken_more t ts s : spoken ts s -> spoken (t :: ts) (t ++ lit " " ++ s).
(** The description: the comments at the beginning, if something else follows. *)
Definition is_comment (e : job_entry) : Prop := exists t, e = JComment t.
Inductive described : list job_entry -> option bytes -> Prop :=
| described_all ts : described (map JComment ts) None
| described_none e es : ~ is_comment e -> described (e :: es) None
| described_some ts s e es : spoken ts s -> ~ is_comment e -> described (map JComment ts ++ e :: es) (Some s).
Definition executed (es : list job_entry) (exec : option bytes) : Prop :=
  (~ (exists r, In (JExec r) es) /\ exec = None) \/
  exists a r b, es = a ++ JExec r :: b /\ ~ (exists r', In (JExec r') b) /\ exec = Some r.
Definition job_own (files : bytes -> option bytes) (words : bytes -> list bytes) (script : bytes) (exec o : option bytes) : Prop :=
  (script = lit "clamav-milter" -> exists f, file_named words exec (lit "-c") (lit "/etc/clamav-milter.conf") f /\ file_says KClamav (files f) o) /\
  (script = lit "milter-greylist" ->
     exists f es, file_named words exec (lit "-f") (lit "/etc/mail/greylist.conf") f /\ greylist_file (files f) es /\ last_socket es o) /\
  (~ In script [lit "clamav-milter"; lit "milter-greylist"] -> o = None).
(** A job: whether it is started by itself, and as for units. *)
Definition job_says (files : bytes -> option bytes) (words : bytes -> list bytes) (script : bytes)
  (starts : Prop) (o : option bytes) (m : N) (ex : bool) (d : option bytes) : Prop :=
  exists content es exec,
    files (lit "/etc/event.d/" ++ script) = Some content /\ job_lists es content /\
    (starts <-> In JStart es) /\ executed es exec /\ described es d /\ job_own files words script exec o /\
    own_example files words (lit "/etc/clamav-milter.conf") script exec ex /\
    own_delay files words (lit "/etc/mail/greylist.conf") script exec m.

(** *** The command that starts a service *)
Inductive starts_by (runs : bytes -> bool) (script : bytes) : bytes -> list bytes -> Prop :=
| by_systemctl : runs (lit "/usr/bin/systemctl") = true -> starts_by runs script (lit "/usr/bin/systemctl") [lit "start"; script]
| by_service : runs (lit "/usr/bin/systemctl") = false -> runs (lit "/sbin/service") = true ->
    starts_by runs script (lit "/sbin/service") [script; lit "start"]
| by_usr_service : runs (lit "/usr/bin/systemctl") = false -> runs (lit "/sbin/service") = false -> runs (lit "/usr/sbin/service") = true ->
    starts_by runs script (lit "/usr/sbin/service") [script; lit "start"].
