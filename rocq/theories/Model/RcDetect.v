(** Filters started by the rc scripts of FreeBSD and NetBSD: rcng-detector.rb, freebsd-rc-detector.rb
    and pkgsrc-rc-detector.rb of binding/ruby/lib/milter/manager, over detector.rb (Model/Detect.v).
    Files are taken to be valid UTF-8, and a script or configuration file that is readable to have
    the content [sy_file] gives. *)
From Verif.Base Require Import Bytes.
From Verif.Model Require Import PostfixTable Breaker Detect.
Local Open Scope N_scope.

(** @name, @variables, @other_variables, @command_args, @rcvar, @rcvar_value. *)
Record rc := mk_rc {
  rc_name : option bytes; rc_variables : variables; rc_other : variables;
  rc_args : option bytes; rc_rcvar : option bytes; rc_rcvar_value : option bytes }.
Definition rc_empty : rc := mk_rc None [] [] None None None.
Definition set_name (r : rc) (n : option bytes) : rc :=
  mk_rc n (rc_variables r) (rc_other r) (rc_args r) (rc_rcvar r) (rc_rcvar_value r).
Definition put_variable (r : rc) (n : bytes) (v : option bytes) : rc :=
  mk_rc (rc_name r) ((n, v) :: rc_variables r) (rc_other r) (rc_args r) (rc_rcvar r) (rc_rcvar_value r).
Definition put_other (r : rc) (n : bytes) (v : option bytes) : rc :=
  mk_rc (rc_name r) (rc_variables r) ((n, v) :: rc_other r) (rc_args r) (rc_rcvar r) (rc_rcvar_value r).
Definition set_args (r : rc) (a : option bytes) : rc :=
  mk_rc (rc_name r) (rc_variables r) (rc_other r) a (rc_rcvar r) (rc_rcvar_value r).
Definition set_rcvar (r : rc) (v : option bytes) : rc :=
  mk_rc (rc_name r) (rc_variables r) (rc_other r) (rc_args r) v (rc_rcvar_value r).
Definition set_rcvar_value (r : rc) (v : option bytes) : rc :=
  mk_rc (rc_name r) (rc_variables r) (rc_other r) (rc_args r) (rc_rcvar r) v.

(** expand_variable, rcng-detector.rb:131-133. *)
Definition rc_expand (r : rc) (n : bytes) : option bytes :=
  some_else (variable (rc_other r) n) (expand_variable (rc_name r) (rc_variables r) n).
(** normalize_variable_value, detector.rb:181-194, with it. *)
Definition rc_value (r : rc) (raw : bytes) : option bytes := normalize_value (rc_expand r) raw.

(** [(.+)] to the end of a line. *)
Definition some_text (b : bytes) : option bytes := match without_lf b with [] => None | t => Some t end.
(** [/\Akey=(.+)/] *)
Definition assigned (key line : bytes) : option bytes :=
  match after_prefix (key ++ lit "=") line with Some r => some_text r | None => None end.

(** *** The script: parse_rc_script, rcng-detector.rb:83-109 *)

(** 85-89 *)
Definition name_line (r : rc) (line : bytes) : rc :=
  match assigned (lit "name") line with Some raw => set_name r (rc_value r raw) | None => r end.

(** extract_variables into @other_variables, detector.rb:164-179. *)
Definition other_line (r : rc) (line : bytes) : rc :=
  match find_definition true false (cut_comment line) with
  | Some (n, raw) => put_other r n (some_else (rc_value r raw) (variable (rc_other r) n))
  | None => r
  end.

(** [/\A\s*load_rc_conf /] *)
Definition load_line (line : bytes) : bool :=
  match after_prefix (lit "load_rc_conf ") (drop_while is_space line) with Some _ => true | None => false end.

(** The greedy text up to the last [q]. *)
Fixpoint before_last (q : byte) (b : bytes) : option bytes :=
  match b with
  | [] => None
  | c :: b' =>
      match before_last q b' with
      | Some t => Some (c :: t)
      | None => if beqb c q then Some [] else None
      end
  end.
(** [(?::?-|=)] at the beginning: what is behind it. *)
Definition default_sign (b : bytes) : option bytes :=
  match b with
  | c :: b' =>
      if beqb c "-" || beqb c "=" then Some b'
      else if beqb c ":" then match b' with d :: b'' => if beqb d "-" then Some b'' else None | [] => None end
      else None
  | [] => None
  end.
(** The rest of the pattern of 101, behind the prefix: the shortest name with a sign and a "}" behind
    it; [before]: what was passed, latest first. *)
Fixpoint split_default (before b : bytes) : option (bytes * bytes) :=
  match b with
  | [] => None
  | c :: b' =>
      match (match before, default_sign b with
             | _ :: _, Some rest => before_last "}" rest
             | _, _ => None
             end) with
      | Some v => Some (rev before, v)
      | None => split_default (c :: before) b'
      end
  end.
(** The pattern of 101, anywhere in the line; [p]: the prefix with "${" before and "_" behind it. *)
Fixpoint find_default (p b : bytes) : option (bytes * bytes) :=
  match b with
  | [] => None
  | _ :: b' =>
      match (match after_prefix p b with Some r => split_default [] r | None => None end) with
      | Some x => Some x
      | None => find_default p b'
      end
  end.
(** The pattern of 103, behind the prefix: the first "=" with something before it. *)
Fixpoint first_equals (before b : bytes) : option (bytes * bytes) :=
  match b with
  | [] => None
  | c :: b' =>
      match before with
      | _ :: _ => if beqb c "=" then Some (rev before, b') else first_equals (c :: before) b'
      | [] => first_equals [c] b'
      end
  end.
(** 97-108; the second component: before_load_rc_conf. *)
Definition script_line (prefix : bytes) (st : rc * bool) (line : bytes) : rc * bool :=
  let (r, before) := st in
  if load_line line then (r, false)
  else match find_default (lit "${" ++ prefix ++ lit "_") (without_lf line) with
       | Some (n, raw) => (put_variable r n (rc_value r raw), before)
       | None =>
           match (match after_prefix (prefix ++ lit "_") line with
                  | Some rest => first_equals [] (without_lf rest) | None => None end) with
           | Some (n, raw) => (if before then put_variable r n (rc_value r raw) else r, before)
           | None =>
               (match assigned (lit "command_args") line with
                | Some raw => set_args r (rc_value r raw)
                | None => r
                end, before)
           end
       end.
Definition parse_script (content : bytes) : rc :=
  let r := fold_left name_line (physical content) rc_empty in
  match rc_name r with
  | None => r
  | Some n =>
      let r := fold_left other_line (physical content) r in
      fst (fold_left (script_line n) (physical content) (r, true))
  end.

(** *** rc.conf: parse_rc_conf, rcng-detector.rb:111-126 *)

Inductive flavour :=
| FreeBSD
| Pkgsrc (prefix rcd : bytes).   (* package_prefix and rc_d, pkgsrc-rc-detector.rb:55-61 *)

(** [(.+)=(.+)]: the last "=" with something on both sides. *)
Fixpoint last_equals (before b : bytes) : option (bytes * bytes) :=
  match b with
  | [] => None
  | c :: b' =>
      match last_equals (c :: before) b' with
      | Some x => Some x
      | None =>
          if beqb c "=" then
            match before, b' with _ :: _, _ :: _ => Some (rev before, b') | _, _ => None end
          else None
      end
  end.
(** rcvar: freebsd-rc-detector.rb:23-25, pkgsrc-rc-detector.rb:23-25. *)
Definition rcvar (fl : flavour) (prefix : bytes) (r : rc) : bytes :=
  match rc_rcvar r with
  | Some v => v
  | None => match fl with FreeBSD => prefix ++ lit "_enable" | Pkgsrc _ _ => prefix end
  end.
(** parse_rc_conf_unknown_line: freebsd-rc-detector.rb:86-93, pkgsrc-rc-detector.rb:46-53. *)
Definition unknown_line (fl : flavour) (prefix : bytes) (r : rc) (line : bytes) : rc :=
  let otherwise :=
    match assigned (rcvar fl prefix r) line with
    | Some raw => set_rcvar_value r (rc_value r raw)
    | None => r
    end in
  match fl with
  | FreeBSD =>
      match after_prefix (lit "rcvar=`set_rcvar`") line with
      | Some _ => set_rcvar r (Some (prefix ++ lit "_enable"))
      | None => otherwise
      end
  | Pkgsrc _ _ =>
      match assigned (lit "rcvar") line with
      | Some raw => set_rcvar r (rc_value r raw)
      | None => otherwise
      end
  end.
Definition conf_line (fl : flavour) (prefix : bytes) (r : rc) (line : bytes) : rc :=
  match (match after_prefix (prefix ++ lit "_") line with
         | Some rest => last_equals [] (without_lf rest) | None => None end) with
  | Some (n, raw) => put_variable r n (rc_value r raw)
  | None => unknown_line fl prefix r line
  end.
Definition parse_rc_conf (fl : flavour) (prefix : bytes) (r : rc) (content : option bytes) : rc :=
  match content with Some c => fold_left (conf_line fl prefix) (physical c) r | None => r end.
(** detect, rcng-detector.rb:47-56 and 149-167. *)
Definition rc_script (fl : flavour) (script : bytes) : bytes :=
  (match fl with FreeBSD => lit "/usr/local/etc/rc.d" | Pkgsrc _ rcd => rcd end) ++ lit "/" ++ script.
Definition rc_detect (fl : flavour) (sys : system) (script : bytes) : rc :=
  match sy_file sys (rc_script fl script) with
  | None => rc_empty
  | Some content =>
      let r := parse_script content in
      match rc_name r with
      | None => r
      | Some n =>
          let r := parse_rc_conf fl n r (sy_file sys (lit "/etc/rc.conf")) in
          let r := parse_rc_conf fl n r (sy_file sys (lit "/etc/rc.conf.local")) in
          parse_rc_conf fl n r (sy_file sys (lit "/etc/rc.conf.d/" ++ n))
      end
  end.

(** *** What is found *)

(** rcvar_value: freebsd-rc-detector.rb:27-31 and 135-137 (the name without the prefix is "enable",
    as nothing else is ever put into @rcvar), pkgsrc-rc-detector.rb:27-29. *)
Definition rcvar_value (fl : flavour) (r : rc) : bytes :=
  match some_else (rc_rcvar_value r)
                  (match fl with FreeBSD => variable (rc_variables r) (lit "enable") | Pkgsrc _ _ => None end) with
  | Some v => v
  | None => lit "NO"
  end.
(** enabled?, rcng-detector.rb:64-70; letters of ASCII only. *)
Definition upcase (c : byte) : byte :=
  if (97 <=? code c) && (code c <=? 122) then byte_of (code c - 32) else c.
Definition rc_enabled (fl : flavour) (r : rc) : bool :=
  bytes_eqb (map upcase (rcvar_value fl r)) (lit "YES").

(** enma?, clamav_milter?, milter_greylist?, opendkim?, rspamd?: freebsd-rc-detector.rb:37-59,
    pkgsrc-rc-detector.rb:37-43. *)
Inductive known_filter := Enma | Clamav | Greylist | Opendkim | Rspamd.
Definition known_names (fl : flavour) (k : known_filter) : option (bytes * bytes) :=
  match fl, k with
  | FreeBSD, Enma => Some (lit "milter-enma", lit "milterenma")
  | FreeBSD, Clamav => Some (lit "clamav-milter", lit "clamav_milter")
  | FreeBSD, Greylist => Some (lit "milter-greylist", lit "miltergreylist")
  | FreeBSD, Opendkim => Some (lit "milter-opendkim", lit "milteropendkim")
  | FreeBSD, Rspamd => Some (lit "rspamd", lit "rspamd")
  | Pkgsrc _ _, Enma => Some (lit "enma", lit "enma")
  | Pkgsrc _ _, Greylist => Some (lit "milter-greylist", lit "miltergreylist")
  | Pkgsrc _ _, _ => None
  end.
Definition is_known (fl : flavour) (script : bytes) (r : rc) (k : known_filter) : bool :=
  match known_names fl k with
  | Some (s, n) =>
      bytes_eqb script s || match rc_name r with Some m => bytes_eqb m n | None => false end
  | None => false
  end.
(** enma_conf, clamav_milter_conf, milter_greylist_conf, opendkim_conf: freebsd-rc-detector.rb:62-84,
    pkgsrc-rc-detector.rb:31-35 and 69-72; rspamd has none. *)
Definition known_conf (fl : flavour) (sys : system) (r : rc) (k : known_filter) : bytes :=
  let args o := parameter_from_flags sys (rc_args r) o in
  let cfgfile := variable (rc_variables r) (lit "cfgfile") in
  let found d o := match o with Some f => f | None => d end in
  match fl with
  | FreeBSD =>
      match k with
      | Enma => found (lit "/usr/local/etc/enma.conf") (some_else cfgfile (args (lit "-c")))
      | Clamav => found (lit "/usr/local/etc/clamav-milter.conf")
                        (some_else (variable (rc_other r) (lit "conf_file")) (args (lit "-c")))
      | Greylist => found (lit "/usr/local/etc/mail/greylist.conf")
                          (some_else cfgfile
                             (parameter_from_flags sys (variable (rc_variables r) (lit "flags")) (lit "-f")))
      | Opendkim => found (lit "/usr/local/etc/opendkim.conf") (some_else cfgfile (args (lit "-C")))
      | Rspamd => []
      end
  | Pkgsrc prefix _ =>
      match k with
      | Enma => found (prefix ++ lit "/enma.conf") (args (lit "-c"))
      | Greylist => found (prefix ++ lit "/greylist.conf") (args (lit "-f"))
      | _ => []
      end
  end.
(** guess_application_specific_spec: freebsd-rc-detector.rb:95-102, pkgsrc-rc-detector.rb:63-67;
    [rspamd]: what rspamd-proxy-detector.rb finds by asking rspamadm. *)
Definition known_socket (fl : flavour) (sys : system) (rspamd : option bytes) (script : bytes) (r : rc)
  (k : known_filter) : option bytes :=
  if is_known fl script r k then
    match k with
    | Enma => enma_socket (sy_file sys (known_conf fl sys r Enma))
    | Clamav => clamav_socket (sy_file sys (known_conf fl sys r Clamav))
    | Opendkim => opendkim_socket (sy_file sys (known_conf fl sys r Opendkim))
    | Rspamd => rspamd
    | Greylist => None
    end
  else None.
(** guess_spec, rcng-detector.rb:135-147; without a connection_spec_detector. *)
Definition rc_spec (fl : flavour) (sys : system) (rspamd : option bytes) (script : bytes) (r : rc) : option bytes :=
  let known := known_socket fl sys rspamd script r in
  let v n := variable (rc_variables r) n in
  some_else (some_else (known Enma) (some_else (known Clamav) (some_else (known Opendkim) (known Rspamd))))
 (some_else (normalize_spec (v (lit "socket")))
 (some_else (normalize_spec (v (lit "sockfile")))
 (some_else (normalize_spec (v (lit "connection_spec")))
 (some_else (parameter_from_flags sys (v (lit "flags")) (lit "-p"))
            (parameter_from_flags sys (rc_args r) (lit "-p")))))).

(** apply: detector.rb:32-49 and 225-233, freebsd-rc-detector.rb:117-132.  A detector for a profile
    begins with asking the one it was made by for [rc_d], which is private there (134-142): an
    exception is raised. *)
Inductive applied := NoMilter | Milter (command : bytes) (d : defined) | Raised.
Definition has_profiles (fl : flavour) (script : bytes) (r : rc) : bool :=
  match fl, variable (rc_variables r) (lit "profiles") with
  | FreeBSD, Some p => is_known fl script r Opendkim && negb (all_space p)
  | _, _ => false
  end.
Definition rc_milter (fl : flavour) (sys : system) (rspamd : option bytes) (script : bytes) : applied :=
  let r := rc_detect fl sys script in
  if has_profiles fl script r then Raised
  else
    match rc_name r with
    | None => NoMilter
    | Some _ =>
        Milter (rc_script fl script)
          (mk_defined (rc_enabled fl r)
             (match rc_spec fl sys rspamd script r with Some s => Some (applied_spec s) | None => None end)
             (if is_known fl script r Greylist
              then greylist_extra (parse_greylist (sy_file sys (known_conf fl sys r Greylist))) else 0)
             None)
    end.
