(** Specification of filter definitions: what was said of each setting, and the filters of a session. *)
From Verif.Base Require Import Bytes.
From Verif.Model Require Import Status Egg.

(** The last word on a setting. *)
Fixpoint said {A : Type} (about : egg_op -> option A) (ops : list egg_op) : option A :=
  match ops with
  | [] => None
  | o :: ops => match said about ops with Some v => Some v | None => about o end
  end.
(** What holds when [ops] come after [before]. *)
Definition told {A : Type} (about : egg_op -> option A) (ops : list egg_op) (before : A) : A :=
  match said about ops with Some v => v | None => before end.

Definition about_description o := match o with SetDescription v => Some v | _ => None end.
Definition about_enabled o := match o with SetEnabled v => Some v | _ => None end.
(** A connection spec that cannot be parsed says nothing. *)
Definition about_spec (valid : bytes -> bool) o :=
  match o with
  | SetConnectionSpec (Some s) => if valid s then Some (Some s) else None
  | SetConnectionSpec None => Some None
  | _ => None
  end.
Definition about_connection_timeout o := match o with SetConnectionTimeout v => Some v | _ => None end.
Definition about_writing_timeout o := match o with SetWritingTimeout v => Some v | _ => None end.
Definition about_reading_timeout o := match o with SetReadingTimeout v => Some v | _ => None end.
Definition about_end_of_message_timeout o := match o with SetEndOfMessageTimeout v => Some v | _ => None end.
Definition about_user_name o := match o with SetUserName v => Some v | _ => None end.
Definition about_command o := match o with SetCommand v => Some v | _ => None end.
Definition about_command_options o := match o with SetCommandOptions v => Some v | _ => None end.
Definition about_fallback_status o := match o with SetFallbackStatus v => Some v | _ => None end.
Definition about_evaluation_mode o := match o with SetEvaluationMode v => Some v | _ => None end.

(** The conditions named since the last clearing, behind those there were unless it cleared. *)
Fixpoint conditions_told (ops : list egg_op) (before : list condition) : list condition :=
  match ops with
  | [] => before
  | AddCondition c :: ops => conditions_told ops (before ++ [c])
  | ClearConditions :: ops => conditions_told ops []
  | _ :: ops => conditions_told ops before
  end.

(** The filter that is to run for a definition. *)
Definition filter_for (e : egg) (f : child) : Prop :=
  ch_name f = e_name e /\ e_connection_spec e = Some (ch_connection_spec f) /\
  ((0 <= e_connection_timeout e)%Z -> ch_connection_timeout f = e_connection_timeout e) /\
  ((0 <= e_writing_timeout e)%Z -> ch_writing_timeout f = e_writing_timeout e) /\
  ((0 <= e_reading_timeout e)%Z -> ch_reading_timeout f = e_reading_timeout e) /\
  ((0 <= e_end_of_message_timeout e)%Z -> ch_end_of_message_timeout f = e_end_of_message_timeout e) /\
  ch_user_name f = e_user_name e /\ ch_command f = e_command e /\
  ch_command_options f = e_command_options e /\ ch_fallback_status f = e_fallback_status e /\
  ch_evaluation_mode f = e_evaluation_mode e.

(** A definition that is switched on and says where the filter is. *)
Definition to_run (e : egg) : bool :=
  e_enabled e && match e_connection_spec e with Some _ => true | None => false end.
