(** How the manager finds out where the filters of a system listen: detector.rb,
    opendkim-config-parser.rb, clamav-milter-config-parser.rb, milter-greylist-config-parser.rb,
    enma-socket-detector.rb, systemd-detector.rb and debian-systemd-detector.rb of
    binding/ruby/lib/milter/manager.  Files are taken to be valid UTF-8 (file-reader.rb). *)
From Verif.Base Require Import Bytes.
From Verif.Model Require Import PostfixTable Breaker.
Local Open Scope N_scope.

Definition dq : byte := byte_of 34.
Definition sq : byte := byte_of 39.

(** Hash#[]: entries latest first. *)
Fixpoint lookup {A} (l : list (bytes * A)) (k : bytes) : option A :=
  match l with
  | [] => None
  | (k', v) :: l' => if bytes_eqb k' k then Some v else lookup l' k
  end.

(** *** opendkim-config-parser.rb:28-37 and clamav-milter-config-parser.rb:32-41 *)

(** [/\A\s*(\w+)(?:\s+(.+))?\s*\z/] on one line: a newline stands at its end only, so [(.+)] takes
    everything before it.  If only white space follows the key, [\s+] gives back its last character
    to [(.+)] when there are two. *)
Definition key_value (line : bytes) : option (bytes * option bytes) :=
  let b := drop_while is_space line in
  match take_while is_word b with
  | [] => None
  | key =>
      match drop_while is_word b with
      | [] => Some (key, None)
      | c :: rest =>
          if is_space c then
            let body := without_lf (c :: rest) in
            match drop_while is_space body with
            | [] => match body with
                    | _ :: _ :: _ => Some (key, Some [last body NUL])
                    | _ => Some (key, None)
                    end
            | value => Some (key, Some value)
            end
          else None
      end
  end.
Definition put_line (vs : list (bytes * option bytes)) (line : bytes) : list (bytes * option bytes) :=
  match key_value line with Some kv => kv :: vs | None => vs end.
(** [parse]; nothing if the file cannot be read. *)
Definition parse_settings (content : option bytes) : list (bytes * option bytes) :=
  match content with Some c => fold_left put_line (physical c) [] | None => [] end.
Definition setting_of (vs : list (bytes * option bytes)) (key : bytes) : option bytes :=
  match lookup vs key with Some (Some v) => Some v | _ => None end.
(** socket; milter_socket; example?. *)
Definition opendkim_socket (content : option bytes) : option bytes :=
  setting_of (parse_settings content) (lit "Socket").
Definition clamav_socket (content : option bytes) : option bytes :=
  setting_of (parse_settings content) (lit "MilterSocket").
Definition clamav_example (content : option bytes) : bool :=
  match lookup (parse_settings content) (lit "Example") with Some _ => true | None => false end.

(** *** milter-greylist-config-parser.rb *)

(** String#rstrip: white space and NULs at the end. *)
Definition rstrip (b : bytes) : bytes := rev (drop_while (fun c => is_space c || beqb c NUL) (rev b)).
Definition ends_with_backslash (b : bytes) : bool :=
  match rev b with c :: _ => beqb c "\" | [] => false end.

(** normalize_lines, 65-84; [lines] latest first.  [/\\\z/] is tried on the line with its newline. *)
Definition is_comment (l : bytes) : bool :=
  match drop_while is_space l with c :: _ => beqb c "#" | [] => false end.
Definition normalize_step (st : list bytes * bool) (line : bytes) : list bytes * bool :=
  let (ls, continued) := st in
  if is_comment line then (ls, false)
  else
    let '(ls, line) :=
      if continued then
        match ls with
        | p :: ls' => (ls', rstrip p ++ lit " " ++ line)
        | [] => (ls, line)
        end
      else (ls, line) in
    (line :: ls, ends_with_backslash line).
Definition normalize_lines (content : bytes) : list bytes :=
  rev (fst (fold_left normalize_step (physical content) ([], false))).

(** The text after [w] if [b] begins with it. *)
Fixpoint after_prefix (w b : bytes) : option bytes :=
  match w with
  | [] => Some b
  | x :: w' => match b with c :: b' => if beqb c x then after_prefix w' b' else None | [] => None end
  end.
(** [\s+]: what follows. *)
Definition after_spaces (b : bytes) : option bytes :=
  match b with c :: b' => if is_space c then Some (drop_while is_space b') else None | [] => None end.
Definition bind {A B} (o : option A) (f : A -> option B) : option B :=
  match o with Some a => f a | None => None end.

(** [/\A\s*r?acl\s+/] with x = "r" and [/\A\s*d?acl\s+/] with x = "d": the text behind. *)
Definition acl_line (x : bytes) (l : bytes) : option bytes :=
  let b := drop_while is_space l in
  match bind (after_prefix (x ++ lit "acl") b) after_spaces with
  | Some r => Some r
  | None => bind (after_prefix (lit "acl") b) after_spaces
  end.

(** A lazy [.+?], a quote and what [after] accepts: the first such quote with something before it. *)
Fixpoint lazy_quote {A} (after : bytes -> option A) (b : bytes) : option (bytes * A) :=
  match b with
  | [] => None
  | c :: b' =>
      match (if beqb c dq then after b' else None) with
      | Some a => Some ([], a)
      | None => match lazy_quote after b' with Some (t, a) => Some (c :: t, a) | None => None end
      end
  end.
Definition quoted {A} (after : bytes -> option A) (b : bytes) : option (bytes * A) :=
  match b with
  | q :: c :: b' =>
      if beqb q dq then
        match lazy_quote after b' with Some (t, a) => Some (c :: t, a) | None => None end
      else None
  | _ => None
  end.
(** [\s*\z] and [\s*(\d+)\z]. *)
Definition only_space (b : bytes) : option unit := if all_space b then Some tt else None.
Definition only_number (b : bytes) : option N :=
  match drop_while is_space b with
  | [] => None
  | d => if forallb is_digit d then Some (digits 0 d) else None
  end.

(** A variable: a text, or a text with a number (the mode of a socket). *)
Inductive gvalue := GText (b : bytes) | GPair (b : bytes) (n : N).
Definition variable_line (l : bytes) : option (bytes * gvalue) :=
  let b := drop_while is_space l in
  match take_while is_word b with
  | [] => None
  | name =>
      match after_spaces (drop_while is_word b) with
      | None => None
      | Some rest =>
          match quoted only_space rest with
          | Some (v, _) => Some (name, GText v)
          | None =>
              match quoted only_number rest with
              | Some (v, n) => Some (name, GPair v n)
              | None => Some (name, GText rest)
              end
          end
      end
  end.

(** parse_recipient_acl and resolve_time, 86-108: [/\btarpit\s+(\d+)([smhdw]?)\b/]. *)
Definition seconds (n : N) (unit : option byte) : N :=
  match unit with
  | Some u =>
      if beqb u "m" then n * 60
      else if beqb u "h" then n * 60 * 60
      else if beqb u "d" then n * 60 * 60 * 24
      else if beqb u "w" then n * 60 * 60 * 24 * 7
      else n
  | None => n
  end.
Definition is_unit (c : byte) : bool :=
  beqb c "s" || beqb c "m" || beqb c "h" || beqb c "d" || beqb c "w".
Definition at_boundary (b : bytes) : bool :=
  match b with c :: _ => negb (is_word c) | [] => true end.
Definition tarpit_here (b : bytes) : option N :=
  match bind (after_prefix (lit "tarpit") b) after_spaces with
  | None => None
  | Some r =>
      match take_while is_digit r with
      | [] => None
      | ds =>
          match drop_while is_digit r with
          | [] => Some (digits 0 ds)
          | u :: r' =>
              if is_unit u && at_boundary r' then Some (seconds (digits 0 ds) (Some u))
              else if is_word u then None
              else Some (digits 0 ds)
          end
      end
  end.
Fixpoint tarpit_from (inside_word : bool) (b : bytes) : option N :=
  match b with
  | [] => None
  | c :: b' =>
      match (if inside_word then None else tarpit_here b) with
      | Some n => Some n
      | None => tarpit_from (is_word c) b'
      end
  end.
Definition tarpit_time (acl : bytes) : option N := tarpit_from false acl.

(** parse, 36-55. *)
Record greylist := mk_greylist { gl_variables : list (bytes * gvalue); gl_tarpit : option N }.
Definition parse_greylist_line (g : greylist) (line : bytes) : greylist :=
  let l := chomp line in
  match acl_line (lit "r") l with
  | Some acl =>
      match tarpit_time acl with
      | Some n =>
          mk_greylist (gl_variables g)
                      (Some (N.max (match gl_tarpit g with Some m => m | None => 0 end) n))
      | None => g
      end
  | None =>
      match acl_line (lit "d") l with
      | Some _ => g
      | None =>
          match variable_line l with
          | Some kv => mk_greylist (kv :: gl_variables g) (gl_tarpit g)
          | None => g
          end
      end
  end.
Definition parse_greylist (content : option bytes) : greylist :=
  match content with
  | Some c => fold_left parse_greylist_line (normalize_lines c) (mk_greylist [] None)
  | None => mk_greylist [] None
  end.
(** socket, 28-34. *)
Definition greylist_socket (g : greylist) : option bytes :=
  match lookup (gl_variables g) (lit "socket") with
  | Some (GText b) => Some b
  | Some (GPair b _) => Some b
  | None => None
  end.
(** apply, 57-62: what is added to both timeouts. *)
Definition greylist_extra (g : greylist) : N := match gl_tarpit g with Some n => n | None => 0 end.

(** *** enma-socket-detector.rb:25-35: [/\A\s*milter\.socket\s*:\s*(.+)/] *)
Definition enma_line (line : bytes) : option bytes :=
  match after_prefix (lit "milter.socket") (drop_while is_space line) with
  | None => None
  | Some r =>
      match drop_while is_space r with
      | c :: r' =>
          if beqb c ":" then
            let body := without_lf r' in
            match drop_while is_space body with
            | [] => match body with [] => None | _ => Some [last body NUL] end
            | v => Some v
            end
          else None
      | [] => None
      end
  end.
Definition enma_socket (content : option bytes) : option bytes :=
  match content with
  | Some c => fold_left (fun s l => match enma_line l with Some v => Some v | None => s end)
                        (physical c) None
  | None => None
  end.

(** *** Shell variables, detector.rb:157-202 *)

Definition is_upper (c : byte) : bool :=
  is_digit c || ((65 <=? code c) && (code c <=? 90)) || beqb c "_".
Definition name_char (lower_too : bool) (c : byte) : bool := if lower_too then is_word c else is_upper c.

(** The text before the first [q]. *)
Fixpoint until (q : byte) (b : bytes) : option bytes :=
  match b with
  | [] => None
  | c :: b' =>
      if beqb c q then Some []
      else match until q b' with Some t => Some (c :: t) | None => None end
  end.
Definition non_space (c : byte) : bool := negb (is_space c).
(** A text in double or in single quotes, up to the first closing one, or else [\S*]. *)
Definition raw_value (b : bytes) : bytes :=
  match b with
  | c :: b' =>
      match (if beqb c dq then until dq b' else if beqb c sq then until sq b' else None) with
      | Some t => c :: t ++ [c]
      | None => take_while non_space b
      end
  | [] => []
  end.
(** [/\b([A-Z\d_]+)=(...)/]: the first word made of such characters only and followed by "=". *)
Fixpoint find_definition (lower_too : bool) (inside_word : bool) (b : bytes) : option (bytes * bytes) :=
  match b with
  | [] => None
  | c :: b' =>
      match (if inside_word then None
             else match take_while is_word b, drop_while is_word b with
                  | (_ :: _) as name, d :: rest =>
                      if beqb d "=" && forallb (name_char lower_too) name
                      then Some (name, raw_value rest) else None
                  | _, _ => None
                  end) with
      | Some r => Some r
      | None => find_definition lower_too (is_word c) b'
      end
  end.

(** [value.sub] with a pattern that takes off a pair of equal quotes around the whole value, which is
    on one line. *)
Definition unquote (v : bytes) : bytes :=
  match v with
  | q :: (_ :: _) as t =>
      if (beqb q dq || beqb q sq) && beqb (last v NUL) q then removelast (tl v) else v
  | _ => v
  end.
(** [/\A\$\d+\z/] *)
Definition is_argument (v : bytes) : bool :=
  match v with
  | d :: (_ :: _) as t => beqb d "$" && forallb is_digit (tl v)
  | _ => false
  end.
(** The match of [/\$(\{?)([a-zA-Z\d_]+)(\}?)/] behind the dollar sign: left brace, name, right brace. *)
Definition reference (b : bytes) : option (bool * bytes * bool) :=
  let '(lb, b) := match b with c :: b' => if beqb c "{" then (true, b') else (false, b) | [] => (false, b) end in
  match take_while is_word b with
  | [] => None
  | name =>
      Some (lb, name, match drop_while is_word b with c :: _ => beqb c "}" | [] => false end)
  end.
Definition reference_text (lb : bool) (name : bytes) (rb : bool) : bytes :=
  (if lb then lit "{" else []) ++ name ++ (if rb then lit "}" else []).
Section Expansion.
  (** expand_variable. *)
  Variable value_of : bytes -> option bytes.
  (** [gsub]: [skip] characters belong to the match before. *)
  Fixpoint expand (skip : nat) (b : bytes) : bytes :=
    match b with
    | [] => []
    | c :: b' =>
        match skip with
        | S k => expand k b'
        | O =>
            if beqb c "$" then
              match reference b' with
              | Some (lb, name, rb) =>
                  let text := reference_text lb name rb in
                  (if eqb lb rb
                   then match value_of name with Some v => v | None => c :: text end
                   else c :: text) ++ expand (length text) b'
              | None => c :: expand 0 b'
              end
            else c :: expand 0 b'
        end
    end.
  (** normalize_variable_value. *)
  Definition normalize_value (v : bytes) : option bytes :=
    let v := unquote v in
    if is_argument v then None else Some (expand 0 v).
End Expansion.

(** The variables; a name may have been given no value. *)
Definition variables := list (bytes * option bytes).
Definition variable (vs : variables) (n : bytes) : option bytes :=
  match lookup vs n with Some (Some v) => Some v | _ => None end.
(** expand_variable, 204-210, with @name. *)
Definition expand_variable (own : option bytes) (vs : variables) (n : bytes) : option bytes :=
  if bytes_eqb n (lit "name") then own else variable vs n.
(** [line.sub(/#.*/, '')]; a newline at the end makes no difference to what follows. *)
Definition cut_comment (l : bytes) : bytes := take_while (fun c => negb (beqb c "#")) l.
(** extract_variables into @variables. *)
Definition extract_line (lower_too : bool) (own : option bytes) (vs : variables) (line : bytes) : variables :=
  match find_definition lower_too false (cut_comment line) with
  | Some (n, raw) =>
      (n, match normalize_value (expand_variable own vs) raw with
          | Some v => Some v
          | None => variable vs n
          end) :: vs
  | None => vs
  end.
Definition extract_variables (lower_too : bool) (own : option bytes) (vs : variables) (content : bytes)
  : variables := fold_left (extract_line lower_too own) (physical content) vs.

(** *** systemd-detector.rb and debian-systemd-detector.rb *)

(** String#strip: white space at both ends, NULs at the end. *)
Definition strip (b : bytes) : bytes := rstrip (drop_while is_space b).
(** [/\A\[(.+?)\]\z/]: the first bracket at the end, with something between: brackets may be within. *)
Definition section_line (l : bytes) : option bytes :=
  match l with
  | o :: (_ :: _ :: _) as t =>
      if beqb o "[" && beqb (last l NUL) "]" then Some (removelast (tl l)) else None
  | _ => None
  end.
(** [/\A(.+?)\s*=\s*(.+?)\z/]: the first "=" behind at least one character with something behind it;
    [before]: the characters passed, latest first. *)
Fixpoint unit_setting (before : bytes) (b : bytes) : option (bytes * bytes) :=
  match b with
  | [] => None
  | c :: b' =>
      match before with
      | [] => unit_setting [c] b'
      | _ =>
          match (if beqb c "=" then drop_while is_space b' else []) with
          | [] => unit_setting (c :: before) b'
          | v => Some (match drop_while is_space before with
                       | [] => [last before NUL]
                       | n => rev n
                       end, v)
          end
      end
  end.

Record system := mk_system {
  sy_file : bytes -> option bytes;   (* the files that can be read *)
  sy_exists : bytes -> bool;         (* File.exist? *)
  sy_words : bytes -> list bytes }.  (* Shellwords.split, for texts without unmatched quotes *)

Record unit_info := mk_unit {
  un_section : option bytes; un_description : option bytes; un_exec : option bytes;
  un_variables : variables }.
(** [value.gsub(/\A-/, "")] *)
Definition without_dash (v : bytes) : bytes :=
  match v with c :: v' => if beqb c "-" then v' else v | [] => [] end.
(** parse_unit_file, 75-107.  An EnvironmentFile that exists but cannot be read raises an exception;
    it is taken to be readable. *)
Definition parse_unit_line (sys : system) (u : unit_info) (line : bytes) : unit_info :=
  let l := strip line in
  match section_line l with
  | Some s => mk_unit (Some s) (un_description u) (un_exec u) (un_variables u)
  | None =>
      match unit_setting [] l with
      | None => u
      | Some (name, value) =>
          match un_section u with
          | None => u
          | Some s =>
              if bytes_eqb s (lit "Unit") then
                if bytes_eqb name (lit "Description")
                then mk_unit (un_section u) (Some value) (un_exec u) (un_variables u) else u
              else if bytes_eqb s (lit "Service") then
                if bytes_eqb name (lit "ExecStart")
                then mk_unit (un_section u) (un_description u) (Some value) (un_variables u)
                else if bytes_eqb name (lit "EnvironmentFile") then
                  match sy_file sys (without_dash value) with
                  | Some content =>
                      mk_unit (un_section u) (un_description u) (un_exec u)
                              (extract_variables false None (un_variables u) content)
                  | None => u
                  end
                else u
              else u
          end
      end
  end.
Definition parse_unit (sys : system) (content : bytes) : unit_info :=
  fold_left (parse_unit_line sys) (physical content) (mk_unit None None None []).

(** extract_parameter_from_flags, detector.rb:134-155. *)
Definition is_variable (o : option bytes) : bool :=
  match o with Some (c :: _) => beqb c "$" | _ => false end.
(** The word behind the last [option]; [None]: there is none. *)
Fixpoint behind_last (option_name : bytes) (ws : list bytes) : option (option bytes) :=
  match ws with
  | [] => None
  | w :: ws' =>
      match behind_last option_name ws' with
      | Some r => Some r
      | None => if bytes_eqb w option_name then Some (hd_error ws') else None
      end
  end.
Definition attached (option_name : bytes) (acc : option bytes) (w : bytes) : option bytes :=
  match after_prefix option_name w with
  | Some r =>
      let r := match r with c :: r' => if beqb c "=" then r' else r | [] => [] end in
      if is_variable (Some r) then acc else Some r
  | None => acc
  end.
Definition parameter_from_flags (sys : system) (flags : option bytes) (option_name : bytes) : option bytes :=
  match flags with
  | None => None
  | Some f =>
      let ws := sy_words sys f in
      match behind_last option_name ws with
      | Some p => if is_variable p then None else p
      | None => fold_left (attached option_name) ws None
      end
  end.

(** normalize_spec, detector.rb:216-223. *)
Definition normalize_spec (o : option bytes) : option bytes :=
  match o with
  | Some s => match strip s with [] => None | t => Some t end
  | None => None
  end.
Definition some_else {A} (a b : option A) : option A := match a with Some _ => a | None => b end.

(** guess_spec and what it calls, systemd-detector.rb:109-128, debian-systemd-detector.rb:24-38; the
    socket of rspamd (rspamd-proxy-detector.rb) and a connection_spec_detector given by the caller are
    left out. *)
Definition guess_spec (sys : system) (script : bytes) (u : unit_info) : option bytes :=
  let specific :=
    if bytes_eqb script (lit "clamav-milter") then
      clamav_socket (sy_file sys (match parameter_from_flags sys (un_exec u) (lit "-c") with
                                  | Some f => f | None => lit "/etc/clamav/clamav-milter.conf" end))
    else if bytes_eqb script (lit "milter-greylist") then
      greylist_socket (parse_greylist (sy_file sys
        (match parameter_from_flags sys (un_exec u) (lit "-f") with
         | Some f => f | None => lit "/etc/milter-greylist/greylist.conf" end)))
    else if bytes_eqb script (lit "opendkim") then
      opendkim_socket (sy_file sys
        (match parameter_from_flags sys
                 (Some (match variable (un_variables u) (lit "OPTIONS") with Some o => o | None => [] end))
                 (lit "-x") with
         | Some f => f | None => lit "/etc/opendkim.conf" end))
    else None in
  some_else specific (normalize_spec (variable (un_variables u) (lit "SOCKET"))).

(** The spec set by apply, detector.rb:39-43: "unix:" before a path; of several "unix:" and "local:"
    at the beginning the last. *)
Fixpoint last_prefix (fuel : nat) (kept : option bytes) (b : bytes) : bytes :=
  match fuel with
  | O => match kept with Some p => p ++ b | None => b end
  | S k =>
      match after_prefix (lit "unix:") b with
      | Some r => last_prefix k (Some (lit "unix:")) r
      | None =>
          match after_prefix (lit "local:") b with
          | Some r => last_prefix k (Some (lit "local:")) r
          | None => match kept with Some p => p ++ b | None => b end
          end
      end
  end.
Definition applied_spec (s : bytes) : bytes :=
  let s := match s with c :: _ => if beqb c "/" then lit "unix:" ++ s else s | [] => s end in
  last_prefix (length s) None s.

(** detect, enabled? and apply of a Debian unit (detector.rb:33-49, systemd-detector.rb:23-42, 129-141): what define_milter is told; [None] if nothing is
    defined. *)
Record defined := mk_defined {
  df_enabled : bool; df_spec : option bytes; df_extra : N; df_description : option bytes }.
Definition unit_file (script : bytes) : bytes := lit "/lib/systemd/system/" ++ script ++ lit ".service".
Definition installed_unit (script : bytes) : bytes :=
  lit "/etc/systemd/system/multi-user.target.wants/" ++ script ++ lit ".service".
Definition unit_enabled (sys : system) (script : bytes) (u : unit_info) : bool :=
  match guess_spec sys script u with Some _ => true | None => false end &&
  sy_exists sys (installed_unit script) &&
  negb (bytes_eqb script (lit "clamav-milter") &&
        clamav_example (sy_file sys (match parameter_from_flags sys (un_exec u) (lit "-c") with
                                     | Some f => f | None => lit "/etc/clamav/clamav-milter.conf" end))).
Definition systemd_milter (sys : system) (script : bytes) : option defined :=
  match sy_file sys (unit_file script) with
  | None => None
  | Some content =>
      let u := parse_unit sys content in
      Some (mk_defined (unit_enabled sys script u)
              (match guess_spec sys script u with Some s => Some (applied_spec s) | None => None end)
              (if bytes_eqb script (lit "milter-greylist")
               then greylist_extra (parse_greylist (sy_file sys
                      (match parameter_from_flags sys (un_exec u) (lit "-f") with
                       | Some f => f | None => lit "/etc/milter-greylist/greylist.conf" end)))
               else 0)
              (un_description u))
  end.
