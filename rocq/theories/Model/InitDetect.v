(** Filters started by the init scripts of Debian and Red Hat: init-detector.rb,
    debian-init-detector.rb and redhat-init-detector.rb of binding/ruby/lib/milter/manager, over
    detector.rb (Model/Detect.v).  Files are taken to be valid UTF-8, and the name of a script to have
    no characters that mean something to Dir.glob.  A connection_spec_detector given by the caller is
    left out. *)
From Verif.Base Require Import Bytes.
From Verif.Model Require Import PostfixTable Breaker Detect.
From Verif.Model Require RcDetect.
Import RcDetect(applied, NoMilter, Milter, Raised).
Local Open Scope N_scope.

Definition nl : bytes := [lf].

(** *** The comment at the beginning: extract_meta_data_blocks, init-detector.rb:55-61 *)

(** [content.split(/^[^#]/)[0]]: the lines before the first one that does not begin with "#". *)
Fixpoint hash_lines (ls : list bytes) : list bytes :=
  match ls with
  | (c :: _) as l :: ls' => if beqb c "#" then l :: hash_lines ls' else []
  | _ => []
  end.
Definition first_block (content : bytes) : bytes := concat (hash_lines (physical content)).

Definition info_begin : bytes := lit "### BEGIN INIT INFO" ++ nl.
Definition info_end : bytes := nl ++ lit "### END INIT INFO".
(** [/\n### END INIT INFO$/] here: what is behind it. *)
Definition info_over (b : bytes) : option bytes :=
  match after_prefix info_end b with
  | Some [] => Some []
  | Some (c :: r) => if beqb c lf then Some (c :: r) else None
  | None => None
  end.
(** [(.+)] and then the last such end. *)
Fixpoint last_end (b : bytes) : option (bytes * bytes) :=
  match b with
  | [] => None
  | c :: b' =>
      match last_end b' with
      | Some (t, a) => Some (c :: t, a)
      | None => match info_over b' with Some a => Some ([c], a) | None => None end
      end
  end.
(** [block.split(INIT_INFO_BLOCK_RE, 2)]: before it, and within and behind it; [line_start]: [^]
    matches here. *)
Fixpoint split_info (line_start : bool) (b : bytes) : bytes * option (bytes * bytes) :=
  match b with
  | [] => ([], None)
  | c :: b' =>
      match (if line_start then bind (after_prefix info_begin b) last_end else None) with
      | Some x => ([], Some x)
      | None => let (t, o) := split_info (beqb c lf) b' in (c :: t, o)
      end
  end.

(** *** parse_init_info, 63-69 *)

(** [gsub(/^# /, '')] *)
Definition unmark (l : bytes) : bytes := match after_prefix (lit "# ") l with Some r => r | None => l end.
Definition unmarked (b : bytes) : bytes := concat (map unmark (physical b)).
Definition key_char (c : byte) : bool :=
  ((97 <=? code c) && (code c <=? 122)) || ((65 <=? code c) && (code c <=? 90)) || beqb c "-".
(** [split(/([a-zA-Z\-]+):\s*/m)]: what is before the first key, and the keys with what follows each.
    [value], [run]: what was passed, latest first; [run]: characters of a key; [blank]: within [\s*]. *)
Fixpoint info_fields (value run : bytes) (blank : bool) (b : bytes) : bytes * list (bytes * bytes) :=
  match b with
  | [] => (rev (run ++ value), [])
  | c :: b' =>
      match (if beqb c ":" then run else []) with
      | _ :: _ => let (v, es) := info_fields [] [] true b' in (rev value, (rev run, v) :: es)
      | [] =>
          if key_char c then info_fields value (c :: run) false b'
          else if blank && is_space c then info_fields value run true b'
          else info_fields (c :: run ++ value) [] false b'
      end
  end.
(** [gsub(/\s*\n\s*/, ' ')] *)
Definition flush (run : bytes) : bytes := if existsb (beqb lf) run then lit " " else rev run.
Fixpoint join_lines (run b : bytes) : bytes :=
  match b with
  | [] => flush run
  | c :: b' => if is_space c then join_lines (c :: run) b' else flush run ++ c :: join_lines [] b'
  end.
(** @info, latest first. *)
Definition info := list (bytes * bytes).
(** [None]: an exception; the split of an empty text is empty, so [1..-1] of it is nil. *)
Definition parse_info (i : info) (text : bytes) : option info :=
  match unmarked text with
  | [] => None
  | t => Some (rev (map (fun kv => (fst kv, strip (join_lines [] (snd kv)))) (snd (info_fields [] [] false t))) ++ i)
  end.

(** *** What is found, for both *)
Definition init_script (script : bytes) : bytes := lit "/etc/init.d/" ++ script.
Fixpoint contains (w b : bytes) : bool :=
  match after_prefix w b with
  | Some _ => true
  | None => match b with [] => false | _ :: b' => contains w b' end
  end.
Definition found (d : bytes) (o : option bytes) : bytes := match o with Some f => f | None => d end.
Definition is_script (script : bytes) (w : string) : bool := bytes_eqb script (lit w).
Definition is_some {A} (o : option A) : bool := match o with Some _ => true | None => false end.

(** *** debian-init-detector.rb *)

(** [content.gsub(/\A#!\s*\/bin\/sh\s*/m, '')], 57 *)
Definition without_shebang (b : bytes) : bytes :=
  match after_prefix (lit "#!") b with
  | None => b
  | Some r =>
      match after_prefix (lit "/bin/sh") (drop_while is_space r) with
      | Some r' => drop_while is_space r'
      | None => b
      end
  end.
(** parse_init_script and parse_default_conf, 55-69: @info and @variables; [None]: an exception. *)
Definition deb_detect (sys : system) (script content : bytes) : option (info * variables) :=
  let content := without_shebang content in
  match (match snd (split_info true (first_block content)) with
         | Some (text, _) => parse_info [] text
         | None => Some []
         end) with
  | None => None
  | Some i =>
      let vs := extract_variables false None [] content in
      let name := some_else (variable vs (lit "NAME")) (some_else (lookup i (lit "Provides")) (Some script)) in
      Some (i, match sy_file sys (lit "/etc/default/" ++ script) with
               | Some d => extract_variables false name vs d
               | None => vs
               end)
  end.
(** clamav_milter_0_95_or_later?, 36-40 *)
Definition deb_clamav (script : bytes) (vs : variables) : bool :=
  is_script script "clamav-milter" &&
  (contains (lit "clamav-milter") (found [] (variable vs (lit "CLAMAVCONF"))) ||
   is_some (variable vs (lit "CLAMAVMILTERCONF"))).
(** clamav_milter_conf, 71-75 *)
Definition deb_clamav_conf (vs : variables) : bytes :=
  found (lit "/etc/clamav/clamav-milter.conf")
        (some_else (variable vs (lit "CLAMAVCONF")) (variable vs (lit "CLAMAVMILTERCONF"))).
(** enabled?, 27-30 *)
Definition deb_enabled (sys : system) (script : bytes) (vs : variables) : bool :=
  negb (match variable vs (lit "ENABLED") with Some v => bytes_eqb v (lit "0") | None => false end) &&
  negb (deb_clamav script vs && clamav_example (sy_file sys (deb_clamav_conf vs))).
(** guess_spec and guess_application_specific_spec, 81-105 *)
Definition deb_spec (sys : system) (script : bytes) (vs : variables) : option bytes :=
  let v n := variable vs n in
  some_else (some_else (if deb_clamav script vs then clamav_socket (sy_file sys (deb_clamav_conf vs)) else None)
                       (if is_script script "opendkim" then opendkim_socket (sy_file sys (lit "/etc/opendkim.conf")) else None))
 (some_else (normalize_spec (v (lit "SOCKET")))
 (some_else (normalize_spec (v (lit "SOCKFILE")))
 (some_else (normalize_spec (v (lit "CONNECTION_SPEC")))
 (some_else (parameter_from_flags sys (v (lit "OPTARGS")) (lit "-p"))
 (some_else (parameter_from_flags sys (v (lit "DAEMON_ARGS")) (lit "-p"))
            (parameter_from_flags sys (v (lit "PARAMS")) (lit "-p"))))))).
(** milter_greylist_conf, 115-118 *)
Definition deb_greylist_conf (sys : system) (vs : variables) : bytes :=
  found (lit "/etc/milter-greylist/greylist.conf") (parameter_from_flags sys (variable vs (lit "OPTIONS")) (lit "-f")).
Definition applied_to (spec : option bytes) : option bytes :=
  match spec with Some s => Some (applied_spec s) | None => None end.
(** detect and apply, init-detector.rb:23-41, detector.rb:32-49. *)
Definition deb_milter (sys : system) (script : bytes) : applied :=
  match sy_file sys (init_script script) with
  | None => NoMilter
  | Some content =>
      match deb_detect sys script content with
      | None => Raised
      | Some (i, vs) =>
          Milter (init_script script)
            (mk_defined (deb_enabled sys script vs) (applied_to (deb_spec sys script vs))
               (if is_script script "milter-greylist"
                then greylist_extra (parse_greylist (sy_file sys (deb_greylist_conf sys vs))) else 0)
               (some_else (lookup i (lit "Description")) (variable vs (lit "DESC"))))
      end
  end.

(** *** redhat-init-detector.rb *)

(** normalize_description, 109-116 *)
Definition normalize_description (v : bytes) : bytes :=
  let v := strip v in if ends_with_backslash v then removelast v else v.
Definition tags : list bytes :=
  [lit "chkconfig"; lit "processname"; lit "config"; lit "pidfile"; lit "probe"].
Fixpoint tag_of (ts : list bytes) (line : bytes) : option (bytes * bytes) :=
  match ts with
  | [] => None
  | t :: ts' => match after_prefix (t ++ lit ":") line with Some r => Some (t, strip r) | None => tag_of ts' line end
  end.
(** parse_tag_block, 88-107; the second component: description_continue. *)
Definition tag_line (st : info * bool) (line : bytes) : info * bool :=
  let (i, continued) := st in
  if continued then
    let v := strip line in
    ((lit "description", found [] (lookup i (lit "description")) ++ normalize_description v) :: i, ends_with_backslash v)
  else match tag_of tags line with
       | Some kv => (kv :: i, false)
       | None =>
           match after_prefix (lit "description:") line with
           | Some r =>
               let v := strip r in
               ((lit "description", normalize_description v) :: i, ends_with_backslash v)
           | None => (i, false)
           end
       end.
Definition parse_tags (i : info) (block : bytes) : info :=
  fst (fold_left tag_line (physical (unmarked block)) (i, false)).
(** parse_init_script, 75-86, up to extract_variables. *)
Definition rh_info (content : bytes) : option info :=
  let (before, o) := split_info true (first_block content) in
  let i := parse_tags [] before in
  match o with
  | None => Some i
  | Some (text, behind) =>
      match parse_info i text with Some i => Some (parse_tags i behind) | None => None end
  end.
(** 83-85, parse_sysconfig and extract_variables, 118-125 *)
Definition rh_variables (sys : system) (script content : bytes) : variables :=
  let vs := extract_variables true None [] content in
  match sy_file sys (lit "/etc/sysconfig/" ++ script) with
  | Some d => extract_variables true (Some script) vs d
  | None => vs
  end.
(** clamav_milter_0_95_or_later?, 50-52; clamav_milter_conf, 127-132 *)
Definition rh_clamav (script : bytes) (vs : variables) : bool :=
  is_script script "clamav-milter" && negb (is_some (variable vs (lit "SOCKET_ADDRESS"))).
Definition rh_clamav_conf (sys : system) (vs : variables) : bytes :=
  let flags := variable vs (lit "CLAMAV_FLAGS") in
  found (lit "/etc/clamav-milter.conf")
        (some_else (parameter_from_flags sys flags (lit "--config-file")) (parameter_from_flags sys flags (lit "-c"))).
(** milter_greylist_conf, 134-138 *)
Definition rh_greylist_conf (sys : system) (i : info) (vs : variables) : bytes :=
  found (lit "/etc/mail/greylist.conf")
        (some_else (parameter_from_flags sys (variable vs (lit "OPTIONS")) (lit "-f")) (lookup i (lit "config"))).
(** guess_spec and what it calls, 33-36, 140-174; [rspamd]: what rspamd-proxy-detector.rb finds by asking rspamadm. *)
Definition rh_spec (sys : system) (rspamd : option bytes) (script : bytes) (i : info) (vs : variables) : option bytes :=
  let v n := variable vs n in
  some_else (if is_script script "enma" then enma_socket (sy_file sys (found (lit "/etc/enma.conf") (v (lit "CONF_FILE")))) else None)
 (some_else (if rh_clamav script vs then clamav_socket (sy_file sys (rh_clamav_conf sys vs)) else None)
 (some_else (if is_script script "opendkim" then opendkim_socket (sy_file sys (found (lit "/etc/opendkim.conf") (v (lit "CONFIG")))) else None)
 (some_else (if is_script script "rspamd" then rspamd else None)
 (some_else (normalize_spec (v (lit "SOCKET")))
 (some_else (normalize_spec (v (lit "SOCKET_ADDRESS")))
 (some_else (normalize_spec (v (lit "MILTER_SOCKET")))
 (some_else (normalize_spec (v (lit "CONNECTION_SPEC")))
 (some_else (parameter_from_flags sys (v (lit "OPTIONS")) (lit "-p"))
            (if is_script script "milter-greylist"
             then greylist_socket (parse_greylist (sy_file sys (rh_greylist_conf sys i vs))) else None))))))))).
(** rc_files, 184-188: is there one? *)
Definition ten : bytes := lit "0123456789".
Definition rc_links (script : bytes) : list bytes :=
  flat_map (fun n => flat_map (fun k => flat_map (fun a => map (fun b =>
    lit "/etc/rc" ++ [n] ++ lit ".d/" ++ [k; a; b] ++ script) ten) ten) (lit "SK")) (lit "0123456").
(** enabled?, 28-31 *)
Definition rh_enabled (sys : system) (rspamd : option bytes) (script : bytes) (i : info) (vs : variables) : bool :=
  is_some (rh_spec sys rspamd script i vs) && existsb (sy_exists sys) (rc_links script) &&
  negb (rh_clamav script vs && clamav_example (sy_file sys (rh_clamav_conf sys vs))).
Definition rh_milter (sys : system) (rspamd : option bytes) (script : bytes) : applied :=
  match sy_file sys (init_script script) with
  | None => NoMilter
  | Some content =>
      match rh_info content with
      | None => Raised
      | Some i =>
          let vs := rh_variables sys script content in
          Milter (init_script script)
            (mk_defined (rh_enabled sys rspamd script i vs) (applied_to (rh_spec sys rspamd script i vs))
               (if is_script script "milter-greylist"
                then greylist_extra (parse_greylist (sy_file sys (rh_greylist_conf sys i vs))) else 0)
               (lookup i (lit "description")))
      end
  end.
