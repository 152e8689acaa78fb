(** Model of the macro stage tables, milter/core/milter-utils.c:266-334. *)
From Verif.Base Require Import Bytes.
Local Open Scope N_scope.

(** milter_utils_command_to_macro_stage, milter-utils.c:266-299 ([None] is -1).  The stage
    numbers are those of MilterMacroStage in milter-protocol.h. *)
Definition command_to_macro_stage (c : byte) : option N :=
  if beqb c "C"%char then Some 0
  else if beqb c "H"%char then Some 1
  else if beqb c "M"%char then Some 2
  else if beqb c "R"%char then Some 3
  else if beqb c "T"%char then Some 4
  else if beqb c "E"%char then Some 5
  else if beqb c "N"%char then Some 6
  else None.

(** milter_utils_macro_stage_to_command, milter-utils.c:301-334 ([None] is '\0'). *)
Definition macro_stage_to_command (s : N) : option byte :=
  match s with
  | 0 => Some "C"%char
  | 1 => Some "H"%char
  | 2 => Some "M"%char
  | 3 => Some "R"%char
  | 4 => Some "T"%char
  | 5 => Some "E"%char
  | 6 => Some "N"%char
  | _ => None
  end.
