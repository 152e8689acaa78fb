(** Model of milter/manager/milter-manager-egg.c and milter-manager-applicable-condition.c: the
    definition of a filter, its merging and the filter object made of it. *)
From Verif.Base Require Import Bytes.
From Verif.Model Require Import Status.
Local Open Scope Z_scope.

(** The part of MilterManagerApplicableConditionPrivate that is data. *)
Record condition := mk_condition { k_name : bytes; k_description : option bytes; k_data : option bytes }.

(** milter_manager_applicable_condition_merge, milter-manager-applicable-condition.c:273-285. *)
Definition condition_merge (c other : condition) : condition :=
  let c := match k_description other with
           | Some d => mk_condition (k_name c) (Some d) (k_data c)
           | None => c
           end in
  match k_data other with
  | Some d => mk_condition (k_name c) (k_description c) (Some d)
  | None => c
  end.

(** MilterManagerEggPrivate, milter-manager-egg.c:44-63.  Timeouts are integers instead of doubles; a
    name is always given. *)
Record egg := mk_egg {
  e_name : bytes;
  e_description : option bytes;
  e_enabled : bool;
  e_connection_spec : option bytes;
  e_connection_timeout : Z;
  e_writing_timeout : Z;
  e_reading_timeout : Z;
  e_end_of_message_timeout : Z;
  e_user_name : option bytes;
  e_command : option bytes;
  e_command_options : option bytes;
  e_conditions : list condition;
  e_fallback_status : status;
  e_evaluation_mode : bool
}.

(** milter_manager_egg_init, milter-manager-egg.c:240-261, with the timeouts of lines 27-35. *)
Definition egg_new (name : bytes) : egg :=
  mk_egg name None true None (300 - 3) (10 - 3) (10 - 3) (300 - 3) None None None [] S_ACCEPT false.

(** The setters, milter-manager-egg.c:497-760. *)
Definition set_description (v : option bytes) (e : egg) : egg :=
  mk_egg (e_name e) v (e_enabled e) (e_connection_spec e) (e_connection_timeout e) (e_writing_timeout e)
         (e_reading_timeout e) (e_end_of_message_timeout e) (e_user_name e) (e_command e)
         (e_command_options e) (e_conditions e) (e_fallback_status e) (e_evaluation_mode e).
Definition set_enabled (v : bool) (e : egg) : egg :=
  mk_egg (e_name e) (e_description e) v (e_connection_spec e) (e_connection_timeout e) (e_writing_timeout e)
         (e_reading_timeout e) (e_end_of_message_timeout e) (e_user_name e) (e_command e)
         (e_command_options e) (e_conditions e) (e_fallback_status e) (e_evaluation_mode e).
Definition put_connection_spec (v : option bytes) (e : egg) : egg :=
  mk_egg (e_name e) (e_description e) (e_enabled e) v (e_connection_timeout e) (e_writing_timeout e)
         (e_reading_timeout e) (e_end_of_message_timeout e) (e_user_name e) (e_command e)
         (e_command_options e) (e_conditions e) (e_fallback_status e) (e_evaluation_mode e).
Definition set_connection_timeout (v : Z) (e : egg) : egg :=
  mk_egg (e_name e) (e_description e) (e_enabled e) (e_connection_spec e) v (e_writing_timeout e)
         (e_reading_timeout e) (e_end_of_message_timeout e) (e_user_name e) (e_command e)
         (e_command_options e) (e_conditions e) (e_fallback_status e) (e_evaluation_mode e).
Definition set_writing_timeout (v : Z) (e : egg) : egg :=
  mk_egg (e_name e) (e_description e) (e_enabled e) (e_connection_spec e) (e_connection_timeout e) v
         (e_reading_timeout e) (e_end_of_message_timeout e) (e_user_name e) (e_command e)
         (e_command_options e) (e_conditions e) (e_fallback_status e) (e_evaluation_mode e).
Definition set_reading_timeout (v : Z) (e : egg) : egg :=
  mk_egg (e_name e) (e_description e) (e_enabled e) (e_connection_spec e) (e_connection_timeout e)
         (e_writing_timeout e) v (e_end_of_message_timeout e) (e_user_name e) (e_command e)
         (e_command_options e) (e_conditions e) (e_fallback_status e) (e_evaluation_mode e).
Definition set_end_of_message_timeout (v : Z) (e : egg) : egg :=
  mk_egg (e_name e) (e_description e) (e_enabled e) (e_connection_spec e) (e_connection_timeout e)
         (e_writing_timeout e) (e_reading_timeout e) v (e_user_name e) (e_command e)
         (e_command_options e) (e_conditions e) (e_fallback_status e) (e_evaluation_mode e).
Definition set_user_name (v : option bytes) (e : egg) : egg :=
  mk_egg (e_name e) (e_description e) (e_enabled e) (e_connection_spec e) (e_connection_timeout e)
         (e_writing_timeout e) (e_reading_timeout e) (e_end_of_message_timeout e) v (e_command e)
         (e_command_options e) (e_conditions e) (e_fallback_status e) (e_evaluation_mode e).
Definition set_command (v : option bytes) (e : egg) : egg :=
  mk_egg (e_name e) (e_description e) (e_enabled e) (e_connection_spec e) (e_connection_timeout e)
         (e_writing_timeout e) (e_reading_timeout e) (e_end_of_message_timeout e) (e_user_name e) v
         (e_command_options e) (e_conditions e) (e_fallback_status e) (e_evaluation_mode e).
Definition set_command_options (v : option bytes) (e : egg) : egg :=
  mk_egg (e_name e) (e_description e) (e_enabled e) (e_connection_spec e) (e_connection_timeout e)
         (e_writing_timeout e) (e_reading_timeout e) (e_end_of_message_timeout e) (e_user_name e) (e_command e)
         v (e_conditions e) (e_fallback_status e) (e_evaluation_mode e).
Definition put_conditions (v : list condition) (e : egg) : egg :=
  mk_egg (e_name e) (e_description e) (e_enabled e) (e_connection_spec e) (e_connection_timeout e)
         (e_writing_timeout e) (e_reading_timeout e) (e_end_of_message_timeout e) (e_user_name e) (e_command e)
         (e_command_options e) v (e_fallback_status e) (e_evaluation_mode e).
Definition set_fallback_status (v : status) (e : egg) : egg :=
  mk_egg (e_name e) (e_description e) (e_enabled e) (e_connection_spec e) (e_connection_timeout e)
         (e_writing_timeout e) (e_reading_timeout e) (e_end_of_message_timeout e) (e_user_name e) (e_command e)
         (e_command_options e) (e_conditions e) v (e_evaluation_mode e).
Definition set_evaluation_mode (v : bool) (e : egg) : egg :=
  mk_egg (e_name e) (e_description e) (e_enabled e) (e_connection_spec e) (e_connection_timeout e)
         (e_writing_timeout e) (e_reading_timeout e) (e_end_of_message_timeout e) (e_user_name e) (e_command e)
         (e_command_options e) (e_conditions e) (e_fallback_status e) v.

(** milter_manager_egg_add_applicable_condition, 752-763, and milter_manager_egg_clear_applicable_conditions,
    778-790. *)
Definition add_condition (c : condition) (e : egg) : egg := put_conditions (e_conditions e ++ [c]) e.
Definition clear_conditions (e : egg) : egg := put_conditions [] e.

(** The filter object: what MilterManagerChild and its MilterServerContext hold of the settings. *)
Record child := mk_child {
  ch_name : bytes;
  ch_connection_spec : bytes;
  ch_connection_timeout : Z;
  ch_writing_timeout : Z;
  ch_reading_timeout : Z;
  ch_end_of_message_timeout : Z;
  ch_user_name : option bytes;
  ch_command : option bytes;
  ch_command_options : option bytes;
  ch_fallback_status : status;
  ch_evaluation_mode : bool
}.

Section Egg.
  (** Whether milter_connection_parse_spec accepts a spec (ConnectionSpec.v). *)
  Variable valid_spec : bytes -> bool.

  (** milter_manager_egg_set_connection_spec, 546-589: NULL is taken; a spec that does not parse is
      refused and the old one stays. *)
  Definition set_connection_spec (v : option bytes) (e : egg) : egg * bool :=
    match v with
    | None => (put_connection_spec None e, true)
    | Some s => if valid_spec s then (put_connection_spec (Some s) e, true) else (e, false)
    end.

  (** milter_manager_egg_merge, 798-853, of two different objects: the egg after it and the return
      value. *)
  Definition merge (e other : egg) : egg * bool :=
    let '(e, ok) := match e_connection_spec other with
                    | Some s => set_connection_spec (Some s) e
                    | None => (e, true)
                    end in
    if negb ok then (e, false)
    else
      let e := set_connection_timeout (e_connection_timeout other) e in
      let e := set_writing_timeout (e_writing_timeout other) e in
      let e := set_reading_timeout (e_reading_timeout other) e in
      let e := set_end_of_message_timeout (e_end_of_message_timeout other) e in
      let e := match e_description other with Some d => set_description (Some d) e | None => e end in
      let e := set_enabled (e_enabled other) e in
      let e := match e_user_name other with Some u => set_user_name (Some u) e | None => e end in
      let e := match e_command other with
               | Some c => set_command_options (e_command_options other) (set_command (Some c) e)
               | None => e
               end in
      let e := clear_conditions e in
      let e := fold_left (fun e c => add_condition c e) (e_conditions other) e in
      (e, true).

  (** milter_manager_egg_hatch, 454-496: the new filter, and whether "hatched" was emitted.  The
      timeouts pass g_param_spec_double with minimum 0 (milter-server-context.c:344-380), which clamps
      them.  milter_server_context_set_connection_spec (milter-server-context.c:3321-3346) keeps the
      spec also when it does not parse. *)
  Definition hatch (e : egg) : option child * bool :=
    match e_connection_spec e with
    | None => (None, false)
    | Some spec =>
        (Some (mk_child (e_name e) spec (Z.max 0 (e_connection_timeout e)) (Z.max 0 (e_writing_timeout e))
                        (Z.max 0 (e_reading_timeout e)) (Z.max 0 (e_end_of_message_timeout e))
                        (e_user_name e) (e_command e) (e_command_options e) (e_fallback_status e)
                        (e_evaluation_mode e)),
         valid_spec spec)
    end.

  (** The calls with which a definition is made. *)
  Inductive egg_op :=
  | SetDescription (v : option bytes) | SetEnabled (v : bool) | SetConnectionSpec (v : option bytes)
  | SetConnectionTimeout (v : Z) | SetWritingTimeout (v : Z) | SetReadingTimeout (v : Z)
  | SetEndOfMessageTimeout (v : Z) | SetUserName (v : option bytes) | SetCommand (v : option bytes)
  | SetCommandOptions (v : option bytes) | AddCondition (c : condition) | ClearConditions
  | SetFallbackStatus (v : status) | SetEvaluationMode (v : bool).

  Definition egg_step (e : egg) (o : egg_op) : egg :=
    match o with
    | SetDescription v => set_description v e
    | SetEnabled v => set_enabled v e
    | SetConnectionSpec v => fst (set_connection_spec v e)
    | SetConnectionTimeout v => set_connection_timeout v e
    | SetWritingTimeout v => set_writing_timeout v e
    | SetReadingTimeout v => set_reading_timeout v e
    | SetEndOfMessageTimeout v => set_end_of_message_timeout v e
    | SetUserName v => set_user_name v e
    | SetCommand v => set_command v e
    | SetCommandOptions v => set_command_options v e
    | AddCondition c => add_condition c e
    | ClearConditions => clear_conditions e
    | SetFallbackStatus v => set_fallback_status v e
    | SetEvaluationMode v => set_evaluation_mode v e
    end.

  Definition define (name : bytes) (ops : list egg_op) : egg := fold_left egg_step ops (egg_new name).
End Egg.

(** milter_manager_child_get_command_line_string, milter-manager-child.c:291-308. *)
Definition command_line_string (c : child) : option bytes :=
  match ch_command c with
  | None => None
  | Some cmd => Some (match ch_command_options c with
                      | Some o => cmd ++ " "%char :: o
                      | None => cmd
                      end)
  end.
