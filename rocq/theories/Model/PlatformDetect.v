(** Which of systemd, Upstart and the init script a filter is taken from: debian-detector.rb,
    redhat-detector.rb, redhat-systemd-detector.rb and redhat-upstart-detector.rb of
    binding/ruby/lib/milter/manager, over detector.rb and systemd-detector.rb (Model/Detect.v) and the
    detectors of init scripts (Model/InitDetect.v).  A connection_spec_detector given by the caller is
    left out; [rspamd]: what rspamd-proxy-detector.rb finds. *)
From Verif.Base Require Import Bytes.
From Verif.Model Require Import PostfixTable Breaker Detect InitDetect.
From Verif.Model Require RcDetect.
Import RcDetect(applied, NoMilter, Milter, Raised).
Local Open Scope N_scope.

(** *** Units: debian-systemd-detector.rb:22-38, redhat-systemd-detector.rb:23-42 *)
Record places := mk_places { pl_units : bytes; pl_clamav : bytes; pl_greylist : bytes }.
Definition debian_places : places :=
  mk_places (lit "/lib/systemd/system/") (lit "/etc/clamav/clamav-milter.conf") (lit "/etc/milter-greylist/greylist.conf").
Definition redhat_places : places :=
  mk_places (lit "/usr/lib/systemd/system/") (lit "/etc/mail/clamav-milter.conf") (lit "/etc/mail/greylist.conf").
Definition sd_clamav (pl : places) (sys : system) (u : unit_info) : option bytes :=
  sy_file sys (found (pl_clamav pl) (parameter_from_flags sys (un_exec u) (lit "-c"))).
Definition sd_greylist (pl : places) (sys : system) (u : unit_info) : greylist :=
  parse_greylist (sy_file sys (found (pl_greylist pl) (parameter_from_flags sys (un_exec u) (lit "-f")))).
Definition sd_opendkim (sys : system) (u : unit_info) : option bytes :=
  sy_file sys (found (lit "/etc/opendkim.conf")
    (parameter_from_flags sys (Some (found [] (variable (un_variables u) (lit "OPTIONS")))) (lit "-x"))).
(** systemd-detector.rb:39-42, 106-123 *)
Definition sd_spec (pl : places) (sys : system) (rspamd : option bytes) (script : bytes) (u : unit_info) : option bytes :=
  some_else (if is_script script "clamav-milter" then clamav_socket (sd_clamav pl sys u) else None)
 (some_else (if is_script script "milter-greylist" then greylist_socket (sd_greylist pl sys u) else None)
 (some_else (if is_script script "opendkim" then opendkim_socket (sd_opendkim sys u) else None)
 (some_else (if is_script script "rspamd" then rspamd else None)
            (normalize_spec (variable (un_variables u) (lit "SOCKET")))))).
Definition sd_enabled (pl : places) (sys : system) (rspamd : option bytes) (script : bytes) (u : unit_info) : bool :=
  is_some (sd_spec pl sys rspamd script u) && sy_exists sys (installed_unit script) &&
  negb (is_script script "clamav-milter" && clamav_example (sd_clamav pl sys u)).
Definition sd_milter (pl : places) (sys : system) (rspamd : option bytes) (script : bytes) : option defined :=
  match sy_file sys (pl_units pl ++ script ++ lit ".service") with
  | None => None
  | Some content =>
      let u := parse_unit sys content in
      Some (mk_defined (sd_enabled pl sys rspamd script u) (applied_to (sd_spec pl sys rspamd script u))
              (if is_script script "milter-greylist" then greylist_extra (sd_greylist pl sys u) else 0) (un_description u))
  end.

(** *** Jobs of Upstart: redhat-upstart-detector.rb *)
Record job := mk_job {
  jb_first : bool;                 (* first_comment_block *)
  jb_comment : list bytes;         (* first_comment_content, latest first *)
  jb_description : option bytes; jb_enabled : bool; jb_exec : option bytes }.
(** [join(' ')] *)
Fixpoint joined (ls : list bytes) : bytes :=
  match ls with [] => [] | [l] => l | l :: ls' => l ++ lit " " ++ joined ls' end.
(** 97-102; [if first_comment_content] is true for every list *)
Definition job_over (j : job) : job :=
  mk_job false (jb_comment j) (match jb_comment j with [] => jb_description j | c => Some (joined (rev c)) end) (jb_enabled j) (jb_exec j).
(** parse_upstart_script, 78-106 *)
Definition job_line (j : job) (line : bytes) : job :=
  match after_prefix (lit "# ") line with
  | Some r =>
      match strip r with
      | [] => job_over j
      | c => if jb_first j then mk_job true (c :: jb_comment j) (jb_description j) (jb_enabled j) (jb_exec j) else job_over j
      end
  | None =>
      match after_prefix (lit "start on ") line with
      | Some _ => job_over (mk_job (jb_first j) (jb_comment j) (jb_description j) true (jb_exec j))
      | None =>
          match after_prefix (lit "exec ") line with
          | Some r => job_over (mk_job (jb_first j) (jb_comment j) (jb_description j) (jb_enabled j) (Some r))
          | None => job_over j
          end
      end
  end.
Definition no_job : job := mk_job true [] None false None.
(** detect, 23-27: nothing is read if there is no file. *)
Definition parse_job (content : option bytes) : job :=
  match content with Some c => fold_left job_line (physical c) no_job | None => no_job end.
Definition job_file (script : bytes) : bytes := lit "/etc/event.d/" ++ script.
(** 108-133 *)
Definition up_clamav (sys : system) (j : job) : option bytes :=
  sy_file sys (found (lit "/etc/clamav-milter.conf") (parameter_from_flags sys (jb_exec j) (lit "-c"))).
Definition up_greylist (sys : system) (j : job) : greylist :=
  parse_greylist (sy_file sys (found (lit "/etc/mail/greylist.conf") (parameter_from_flags sys (jb_exec j) (lit "-f")))).
Definition up_spec (sys : system) (script : bytes) (j : job) : option bytes :=
  some_else (if is_script script "clamav-milter" then clamav_socket (up_clamav sys j) else None)
            (if is_script script "milter-greylist" then greylist_socket (up_greylist sys j) else None).
(** enabled?, 53-56 *)
Definition up_enabled (sys : system) (script : bytes) (j : job) : bool :=
  is_some (up_spec sys script j) && jb_enabled j && negb (is_script script "clamav-milter" && clamav_example (up_clamav sys j)).
Definition up_milter (sys : system) (script : bytes) : option defined :=
  match sy_file sys (job_file script) with
  | None => None
  | content =>
      let j := parse_job content in
      Some (mk_defined (up_enabled sys script j) (applied_to (up_spec sys script j))
              (if is_script script "milter-greylist" then greylist_extra (up_greylist sys j) else 0) (jb_description j))
  end.

(** *** How it is started: detector.rb:55-73, 84-118; [runs p]: File.executable?. *)
Definition service_command (runs : bytes -> bool) : option bytes := List.find runs [lit "/sbin/service"; lit "/usr/sbin/service"].
Definition systemctl_command (runs : bytes -> bool) : option bytes := List.find runs [lit "/usr/bin/systemctl"].
(** command; [None]: run_command, which a unit does not have: NoMethodError. *)
Definition common_command (runs : bytes -> bool) : option bytes := some_else (systemctl_command runs) (service_command runs).
Definition common_options (runs : bytes -> bool) (script : bytes) : list bytes :=
  if is_some (systemctl_command runs) then [lit "start"; script]
  else if is_some (service_command runs) then [script; lit "start"]
  else [lit "start"].
(** redhat-upstart-detector.rb:29-43 *)
Definition up_command : bytes := lit "/sbin/start".
Definition up_options (runs : bytes -> bool) (script : bytes) : list bytes :=
  if is_some (service_command runs) then common_options runs script else [script].

(** *** debian-detector.rb:9-20 and redhat-detector.rb:24-38 *)
Inductive outcome := Absent | Filter (command : bytes) (options : list bytes) (d : defined) | Failed.
Definition from_unit (runs : bytes -> bool) (script : bytes) (d : defined) : outcome :=
  match common_command runs with Some c => Filter c (common_options runs script) d | None => Failed end.
Definition from_init (a : applied) : outcome :=
  match a with NoMilter => Absent | Milter c d => Filter c [lit "start"] d | Raised => Failed end.
Definition debian_filter (runs : bytes -> bool) (sys : system) (rspamd : option bytes) (script : bytes) : outcome :=
  match deb_milter sys script with
  | Raised => Failed
  | init =>
      match sd_milter debian_places sys rspamd script with
      | Some d => if df_enabled d then from_unit runs script d else from_init init
      | None => from_init init
      end
  end.
Definition redhat_filter (runs : bytes -> bool) (sys : system) (rspamd : option bytes) (script : bytes) : outcome :=
  match rh_milter sys rspamd script with
  | Raised => Failed
  | init =>
      match sd_milter redhat_places sys rspamd script, up_milter sys script with
      | Some d, u =>
          if df_enabled d then from_unit runs script d
          else match u with
               | Some d' => if df_enabled d' then Filter up_command (up_options runs script) d' else from_init init
               | None => from_init init
               end
      | None, Some d' => if df_enabled d' then Filter up_command (up_options runs script) d' else from_init init
      | None, None => from_init init
      end
  end.
