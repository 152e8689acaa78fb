(** The configuration as XML: what is written for the control command "get-configuration"
    (milter-utils.c, milter-manager-egg.c, milter-manager-configuration.c), and how a custom
    configuration file in XML is loaded (binding/ruby/lib/milter/manager.rb).

    Texts are in UTF-8.  No handler is connected to the "to-xml" signals.  The XML parser (REXML) gives
    the loader its events; names come without a namespace prefix and tags without attributes. *)
From Verif.Base Require Import Bytes.
From Verif.Model Require Import Status Egg Configuration.
From Verif.Model Require ConnectionSpec.
Import List.
Local Open Scope N_scope.

(** ** Writing *)

(** "%x" of a number below 256. *)
Definition hex_digit (n : N) : byte := if n <? 10 then ascii_of_N (48 + n) else ascii_of_N (87 + n).
Definition hex (n : N) : bytes := if n <? 16 then [hex_digit n] else [hex_digit (n / 16); hex_digit (n mod 16)].
Definition reference (n : N) : bytes := lit "&#x" ++ hex n ++ lit ";".

(** g_markup_escape_text of GLib: the five special characters, control characters except tab, line feed
    and carriage return, and the controls U+0080 to U+009F without U+0085 (bytes C2 80 .. C2 9F). *)
Definition is_control (c : byte) : bool :=
  let n := code c in
  (n <=? 8) || (n =? 11) || (n =? 12) || ((14 <=? n) && (n <=? 31)) || (n =? 127).
Definition is_c1 (c : byte) : bool :=
  let n := code c in (128 <=? n) && (n <=? 159) && negb (n =? 133).
Definition special (c : byte) : option bytes :=
  if beqb c "&" then Some (lit "&amp;")
  else if beqb c "<" then Some (lit "&lt;")
  else if beqb c ">" then Some (lit "&gt;")
  else if beqb c "'" then Some (lit "&apos;")
  else if beqb c (byte_of 34) then Some (lit "&quot;")
  else if is_control c then Some (reference (code c))
  else None.
Fixpoint escape (s : bytes) : bytes :=
  match s with
  | [] => []
  | c :: s1 =>
      match special c with
      | Some e => e ++ escape s1
      | None =>
          match s1 with
          | d :: s2 =>
              if (code c =? 194) && is_c1 d then reference (code d) ++ escape s2 else c :: escape s1
          | [] => [c]
          end
      end
  end.

(** milter_utils_append_indent, milter-utils.c:658-665. *)
Definition indented (n : nat) : bytes := repeat " "%char n.
Definition newline : bytes := [byte_of 10].
Definition open_tag (name : bytes) : bytes := lit "<" ++ name ++ lit ">".
Definition close_tag (name : bytes) : bytes := lit "</" ++ name ++ lit ">".
(** milter_utils_xml_append_text_element, 667-678. *)
Definition text_element (name content : bytes) (indent : nat) : bytes :=
  indented indent ++ open_tag name ++ escape content ++ close_tag name ++ newline.
(** milter_utils_xml_append_boolean_element, 680-688. *)
Definition boolean_element (name : bytes) (b : bool) (indent : nat) : bytes :=
  text_element name (if b then lit "true" else lit "false") indent.
Definition optional_element (name : bytes) (content : option bytes) (indent : nat) : bytes :=
  match content with Some c => text_element name c indent | None => [] end.

(** The nicks of MilterStatus, milter-protocol.h:99-116. *)
Definition status_nick (s : status) : bytes :=
  match s with
  | S_DEFAULT => lit "default" | S_NOT_CHANGE => lit "not-change" | S_CONTINUE => lit "continue"
  | S_REJECT => lit "reject" | S_DISCARD => lit "discard" | S_ACCEPT => lit "accept"
  | S_TEMPORARY_FAILURE => lit "temporary-failure" | S_NO_REPLY => lit "no-reply" | S_SKIP => lit "skip"
  | S_ALL_OPTIONS => lit "all-options" | S_PROGRESS => lit "progress" | S_ABORT => lit "abort"
  | S_QUARANTINE => lit "quarantine" | S_STOP => lit "stop" | S_ERROR => lit "error"
  end.

(** milter_manager_egg_to_xml_string, milter-manager-egg.c:866-935. *)
Definition egg_to_xml (e : egg) (indent : nat) : bytes :=
  indented indent ++ lit "<milter>" ++ newline ++
  text_element (lit "name") (e_name e) (indent + 2) ++
  optional_element (lit "description") (e_description e) (indent + 2) ++
  boolean_element (lit "enabled") (e_enabled e) (indent + 2) ++
  text_element (lit "fallback-status") (status_nick (e_fallback_status e)) (indent + 2) ++
  boolean_element (lit "evaluation-mode") (e_evaluation_mode e) (indent + 2) ++
  optional_element (lit "connection-spec") (e_connection_spec e) (indent + 2) ++
  optional_element (lit "command") (e_command e) (indent + 2) ++
  optional_element (lit "command-options") (e_command_options e) (indent + 2) ++
  (match e_conditions e with
   | [] => []
   | l => indented (indent + 2) ++ lit "<applicable-conditions>" ++ newline ++
          flat_map (fun k => text_element (lit "applicable-condition") (k_name k) (indent + 4)) l ++
          indented (indent + 2) ++ lit "</applicable-conditions>" ++ newline
   end) ++
  indented indent ++ lit "</milter>" ++ newline.

(** milter_manager_configuration_to_xml_string, milter-manager-configuration.c:2176-2249.
    [modified]: the time of the last change of the custom configuration file, if there is one that can
    be looked at. *)
Definition condition_to_xml (indent : nat) (k : condition) : bytes :=
  indented (indent + 4) ++ lit "<applicable-condition>" ++ newline ++
  text_element (lit "name") (k_name k) (indent + 6) ++
  optional_element (lit "description") (k_description k) (indent + 6) ++
  indented (indent + 4) ++ lit "</applicable-condition>" ++ newline.
Definition configuration_to_xml_string (modified : option N) (conditions : list condition) (eggs : list egg)
    (indent : nat) : bytes :=
  indented indent ++ lit "<configuration>" ++ newline ++
  (match modified with
   | Some t => text_element (lit "last-modified") (ConnectionSpec.decimal t) (indent + 2)
   | None => []
   end) ++
  (match conditions with
   | [] => []
   | l => indented (indent + 2) ++ lit "<applicable-conditions>" ++ newline ++
          flat_map (condition_to_xml indent) l ++
          indented (indent + 2) ++ lit "</applicable-conditions>" ++ newline
   end) ++
  (match eggs with
   | [] => []
   | l => indented (indent + 2) ++ lit "<milters>" ++ newline ++
          flat_map (fun e => egg_to_xml e (indent + 2 + 2)) l ++
          indented (indent + 2) ++ lit "</milters>" ++ newline
   end) ++
  indented indent ++ lit "</configuration>" ++ newline.
(** milter_manager_configuration_to_xml, 2166-2174. *)
Definition configuration_to_xml (modified : option N) (conditions : list condition) (eggs : list egg) : bytes :=
  configuration_to_xml_string modified conditions eggs 0.

(** ** Loading *)

(** What REXML's stream parser calls: tag_start, text, tag_end. *)
Inductive event := Open (name : bytes) | Text (data : bytes) | Close (name : bytes).

(** The hash @egg_config, manager.rb:663-666. *)
Record egg_config := mk_config {
  ec_name : option bytes;
  ec_description : option bytes;
  ec_enabled : option bool;
  ec_connection_spec : option bytes;
  ec_command : option bytes;
  ec_command_options : option bytes;
  ec_fallback_status : option bytes;
  ec_evaluation_mode : option bool;
  ec_conditions : option (list bytes)
}.
Definition no_config : egg_config := mk_config None None None None None None None None None.

(** The states of the listener; the settings of the first three sections are those of their loaders. *)
Inductive section := Security | Controller | Manager.
Inductive lstate :=
| LRoot | LConfiguration | LSection (s : section) | LMilters | LMilter | LConditions
| LSetting (s : section) (local : bytes)
| LItem (local : bytes).

(** What stops the loading: a RuntimeError for an element, InvalidValue (logged by [load], 527-531), a
    NoMethodError, another error. *)
Inductive failure := UnexpectedElement | InvalidValue | NoMethod | OtherError.

(** The configuration as far as the loader changes it: the definitions, the conditions, and the settings
    it was asked for, in order. *)
Record loaded := mk_loaded {
  ld_eggs : list egg;
  ld_conditions : list condition;
  ld_settings : list (section * bytes * bytes)
}.
Record listener := mk_listener {
  li_states : list lstate;          (* innermost first *)
  li_texts : list bytes;
  li_egg : egg_config;
  li_result : loaded;
  li_failed : option failure
}.
Definition li_new (c : loaded) : listener := mk_listener [LRoot] [[]] no_config c None.
Definition fail (l : listener) (f : failure) : listener :=
  mk_listener (li_states l) (li_texts l) (li_egg l) (li_result l) (Some f).

(** normalize_local, 701-703. *)
Definition normalize (local : bytes) : bytes := map (fun c => if beqb c "-" then "_"%char else c) local.

Section Loader.
  (** Whether milter_connection_parse_spec accepts a spec; whether the loader of a section has a setter of
      that name, and whether it takes the value. *)
  Variable valid_spec : bytes -> bool.
  Variable has_setter : section -> bytes -> bool.
  Variable takes : section -> bytes -> bytes -> bool.

  (** milter_manager_configuration_find_applicable_condition, milter-manager-configuration.c:1873-1892. *)
  Definition find_condition (l : list condition) (name : bytes) : option condition :=
    find (fun k => bytes_eqb name (k_name k)) l.
  (** applicable_conditions=, manager.rb:1127-1151. *)
  Fixpoint find_conditions (l : list condition) (names : list bytes) : option (list condition) :=
    match names with
    | [] => Some []
    | n :: names =>
        match find_condition l n, find_conditions l names with
        | Some k, Some ks => Some (k :: ks)
        | _, _ => None
        end
    end.
  (** fallback_status=, 1168-1189. *)
  Definition normalize_status (s : bytes) : bytes := map (fun c => if beqb c "_" then "-"%char else lower c) s.
  Definition fallback_status_of (s : bytes) : option status :=
    let n := normalize_status s in
    if bytes_eqb n (lit "accept") then Some S_ACCEPT
    else if bytes_eqb n (lit "reject") then Some S_REJECT
    else if bytes_eqb n (lit "temporary-failure") then Some S_TEMPORARY_FAILURE
    else if bytes_eqb n (lit "discard") then Some S_DISCARD
    else None.

  (** The block given to define_milter at the end of a <milter>, 582-605: the definition or what is
      raised. *)
  Definition configure (c : loaded) (g : egg_config) (e : egg) : egg + failure :=
    let spec := match ec_connection_spec g with Some s => s | None => [] end in
    match (match spec with [] => Some e | _ => match set_connection_spec valid_spec (Some spec) e with
                                              | (e, true) => Some e
                                              | _ => None
                                              end end) with
    | None => inr OtherError
    | Some e =>
        match find_conditions (ld_conditions c) (match ec_conditions g with Some l => l | None => [] end) with
        | None => inr InvalidValue
        | Some ks =>
            let e := fold_left (fun e k => add_condition k e) ks (clear_conditions e) in
            let e := match ec_enabled g with Some b => set_enabled b e | None => e end in
            let e := match ec_description g with Some d => set_description (Some d) e | None => e end in
            match (match ec_command g with
                   | None => inl e
                   | Some cmd =>
                       match ec_command_options g with
                       | None => inr NoMethod          (* command_options= calls nil.empty?, 1158 *)
                       | Some o => inl (set_command_options (Some o) (set_command (Some cmd) e))
                       end
                   end) with
            | inr f => inr f
            | inl e =>
                match (match ec_fallback_status g with
                       | None => Some e
                       | Some s => match fallback_status_of s with
                                   | Some v => Some (set_fallback_status v e)
                                   | None => None
                                   end
                       end) with
                | None => inr InvalidValue
                | Some e => inl (match ec_evaluation_mode g with Some b => set_evaluation_mode b e | None => e end)
                end
            end
        end
    end.
  (** define_milter, 462-467; EggConfigurationLoader.new, 1107-1113, and apply, 1199-1202. *)
  Definition define_milter (c : loaded) (name : bytes) (block : egg -> egg + failure) : loaded + failure :=
    let start := match find_egg (ld_eggs c) name with
                 | None => Some (egg_new name)
                 | Some old => match merge valid_spec (egg_new name) old with
                               | (e, true) => Some e
                               | _ => None
                               end
                 end in
    match start with
    | None => inr OtherError
    | Some e =>
        match block e with
        | inr f => inr f
        | inl e => inl (mk_loaded (add_egg (remove_egg_by_name (ld_eggs c) name) e) (ld_conditions c) (ld_settings c))
        end
    end.

  (** next_state, 631-690. *)
  Definition item_names : list bytes :=
    [lit "name"; lit "description"; lit "enabled"; lit "connection_spec"; lit "command"; lit "command_options";
     lit "fallback_status"; lit "evaluation_mode"].
  Definition next_state (s : lstate) (name : bytes) : option lstate :=
    let local := normalize name in
    match s with
    | LRoot => if bytes_eqb local (lit "configuration") then Some LConfiguration else None
    | LConfiguration =>
        if bytes_eqb local (lit "security") then Some (LSection Security)
        else if bytes_eqb local (lit "controller") then Some (LSection Controller)
        else if bytes_eqb local (lit "manager") then Some (LSection Manager)
        else if bytes_eqb local (lit "milters") then Some LMilters
        else None
    | LSection x => if has_setter x local then Some (LSetting x local) else None
    | LMilter =>
        if bytes_eqb local (lit "applicable_conditions") then Some LConditions
        else if existsb (bytes_eqb local) item_names then Some (LItem local) else None
    | LConditions => if bytes_eqb local (lit "applicable_condition") then Some (LItem local) else None
    | LMilters => if bytes_eqb local (lit "milter") then Some LMilter else None
    | LSetting _ _ | LItem _ => None
    end.
  (** What entering a state does to @egg_config. *)
  Definition put_ec_conditions (g : egg_config) (l : list bytes) : egg_config :=
    mk_config (ec_name g) (ec_description g) (ec_enabled g) (ec_connection_spec g) (ec_command g)
              (ec_command_options g) (ec_fallback_status g) (ec_evaluation_mode g) (Some l).
  Definition entering (s : lstate) (g : egg_config) : egg_config :=
    match s with
    | LMilter => no_config
    | LConditions => put_ec_conditions g []
    | _ => g
    end.

  (** The items of a <milter>, tag_end, 607-614. *)
  Definition item (local text : bytes) (g : egg_config) : egg_config :=
    let true_ := bytes_eqb text (lit "true") in
    if bytes_eqb local (lit "applicable_condition") then
      put_ec_conditions g (match ec_conditions g with Some l => l ++ [text] | None => [text] end)
    else if bytes_eqb local (lit "enabled") then
      mk_config (ec_name g) (ec_description g) (Some true_) (ec_connection_spec g) (ec_command g)
                (ec_command_options g) (ec_fallback_status g) (ec_evaluation_mode g) (ec_conditions g)
    else if bytes_eqb local (lit "evaluation_mode") then
      mk_config (ec_name g) (ec_description g) (ec_enabled g) (ec_connection_spec g) (ec_command g)
                (ec_command_options g) (ec_fallback_status g) (Some true_) (ec_conditions g)
    else if bytes_eqb local (lit "name") then
      mk_config (Some text) (ec_description g) (ec_enabled g) (ec_connection_spec g) (ec_command g)
                (ec_command_options g) (ec_fallback_status g) (ec_evaluation_mode g) (ec_conditions g)
    else if bytes_eqb local (lit "description") then
      mk_config (ec_name g) (Some text) (ec_enabled g) (ec_connection_spec g) (ec_command g)
                (ec_command_options g) (ec_fallback_status g) (ec_evaluation_mode g) (ec_conditions g)
    else if bytes_eqb local (lit "connection_spec") then
      mk_config (ec_name g) (ec_description g) (ec_enabled g) (Some text) (ec_command g)
                (ec_command_options g) (ec_fallback_status g) (ec_evaluation_mode g) (ec_conditions g)
    else if bytes_eqb local (lit "command") then
      mk_config (ec_name g) (ec_description g) (ec_enabled g) (ec_connection_spec g) (Some text)
                (ec_command_options g) (ec_fallback_status g) (ec_evaluation_mode g) (ec_conditions g)
    else if bytes_eqb local (lit "command_options") then
      mk_config (ec_name g) (ec_description g) (ec_enabled g) (ec_connection_spec g) (ec_command g)
                (Some text) (ec_fallback_status g) (ec_evaluation_mode g) (ec_conditions g)
    else if bytes_eqb local (lit "fallback_status") then
      mk_config (ec_name g) (ec_description g) (ec_enabled g) (ec_connection_spec g) (ec_command g)
                (ec_command_options g) (Some text) (ec_evaluation_mode g) (ec_conditions g)
    else g.

  (** tag_start, 550-569; text, 622-624; tag_end, 571-620. *)
  Definition listen (l : listener) (v : event) : listener :=
    match li_failed l with
    | Some _ => l
    | None =>
        match v with
        | Open name =>
            match next_state (hd LRoot (li_states l)) name with
            | None => fail l UnexpectedElement
            | Some s =>
                mk_listener (s :: li_states l) ([] :: li_texts l) (entering s (li_egg l)) (li_result l) None
            end
        | Text d =>
            mk_listener (li_states l)
                        (match li_texts l with t :: ts => (t ++ d) :: ts | [] => [] end)
                        (li_egg l) (li_result l) None
        | Close _ =>
            let states := tl (li_states l) in
            let text := hd [] (li_texts l) in
            let texts := tl (li_texts l) in
            match hd LRoot (li_states l) with
            | LRoot | LConfiguration | LSection _ | LMilters | LConditions =>
                mk_listener states texts (li_egg l) (li_result l) None
            | LMilter =>
                match ec_name (li_egg l) with
                | None => fail l OtherError
                | Some name =>
                    match define_milter (li_result l) name (configure (li_result l) (li_egg l)) with
                    | inl c => mk_listener states texts no_config c None
                    | inr f => fail l f
                    end
                end
            | LItem local => mk_listener states texts (item local text (li_egg l)) (li_result l) None
            | LSetting x local =>
                if takes x local text then
                  let c := li_result l in
                  mk_listener states texts (li_egg l)
                    (mk_loaded (ld_eggs c) (ld_conditions c) (ld_settings c ++ [(x, local, text)])) None
                else fail l OtherError
            end
        end
    end.
  Definition listen_all (l : listener) (vs : list event) : listener := fold_left listen vs l.
  (** XMLConfigurationLoader#load, 520-536, on the events of the file: what becomes of the configuration, and
      what stopped the loading.  InvalidValue is logged and forgotten. *)
  Definition load (c : loaded) (vs : list event) : loaded * option failure :=
    let l := listen_all (li_new c) vs in (li_result l, li_failed l).
End Loader.
