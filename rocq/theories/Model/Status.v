(** Filter verdicts and their combination. *)
From Coq Require Import List ZArith Bool.
Import ListNotations.
Local Open Scope Z_scope.

(** milter/core/milter-protocol.h:99-116, MilterStatus. *)
Inductive status :=
| S_DEFAULT | S_NOT_CHANGE | S_CONTINUE | S_REJECT | S_DISCARD | S_ACCEPT
| S_TEMPORARY_FAILURE | S_NO_REPLY | S_SKIP | S_ALL_OPTIONS | S_PROGRESS | S_ABORT
| S_QUARANTINE | S_STOP | S_ERROR.

Definition status_eqb (a b : status) : bool :=
  match a, b with
  | S_DEFAULT, S_DEFAULT | S_NOT_CHANGE, S_NOT_CHANGE | S_CONTINUE, S_CONTINUE
  | S_REJECT, S_REJECT | S_DISCARD, S_DISCARD | S_ACCEPT, S_ACCEPT
  | S_TEMPORARY_FAILURE, S_TEMPORARY_FAILURE | S_NO_REPLY, S_NO_REPLY | S_SKIP, S_SKIP
  | S_ALL_OPTIONS, S_ALL_OPTIONS | S_PROGRESS, S_PROGRESS | S_ABORT, S_ABORT
  | S_QUARANTINE, S_QUARANTINE | S_STOP, S_STOP | S_ERROR, S_ERROR => true
  | _, _ => false
  end.

(** milter-protocol.h:118-120, MILTER_STATUS_IS_PASS: the first three values. *)
Definition is_pass (s : status) : bool :=
  match s with S_DEFAULT | S_NOT_CHANGE | S_CONTINUE => true | _ => false end.

(** milter/core/milter-protocol.c:26-77, milter_status_compare. *)
Definition status_compare (current new : status) : Z :=
  if status_eqb current new then 0 else
  match current with
  | S_DISCARD => 1
  | S_REJECT => match new with S_DISCARD => -1 | _ => 1 end
  | S_TEMPORARY_FAILURE => match new with S_DISCARD | S_REJECT => -1 | _ => 1 end
  | S_CONTINUE =>
      match new with S_DISCARD | S_REJECT | S_TEMPORARY_FAILURE => -1 | _ => 1 end
  | S_SKIP =>
      match new with
      | S_DISCARD | S_REJECT | S_TEMPORARY_FAILURE | S_CONTINUE => -1 | _ => 1
      end
  | S_ACCEPT =>
      match new with
      | S_DISCARD | S_REJECT | S_TEMPORARY_FAILURE | S_SKIP | S_CONTINUE => -1 | _ => 1
      end
  | _ => -1
  end.

(** milter/manager/milter-manager-children.c:776-791, get_reply_status_for_state, for one
    state.  The table holds the enum value as a pointer, so a stored DEFAULT (0) reads as a
    missing entry. *)
Definition stored_status (entry : option status) : status :=
  match entry with
  | None | Some S_DEFAULT => S_NOT_CHANGE
  | Some s => s
  end.

(** milter-manager-children.c:793-807 and 4155-4164, compile_reply_status and
    milter_manager_children_is_important_status, for one state's table entry. *)
Definition compile_status (entry : option status) (s : status) : option status :=
  if status_compare (stored_status entry) s <? 0 then Some s else entry.

(** The answers of several filters compiled in arrival order. *)
Definition compile_statuses (entry : option status) (ss : list status) : option status :=
  fold_left compile_status ss entry.
