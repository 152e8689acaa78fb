(** Negotiation options. *)
From Verif.Base Require Import Bytes.
From Verif.Model Require Import Decoder.
Local Open Scope N_scope.

(** milter/core/milter-option.h:34-56, MilterActionFlags. *)
Definition A_ADD_HEADERS : N := 0x1.
Definition A_CHANGE_BODY : N := 0x2.
Definition A_ADD_RECIPIENT : N := 0x4.
Definition A_DELETE_RECIPIENT : N := 0x8.
Definition A_CHANGE_HEADERS : N := 0x10.
Definition A_QUARANTINE : N := 0x20.
Definition A_CHANGE_FROM : N := 0x40.
Definition A_ADD_RECIPIENT_WITH_PARAMETERS : N := 0x80.
Definition A_SET_SYMBOL_LIST : N := 0x100.

(** milter-option.h:58-103, MilterStepFlags. *)
Definition STEP_NO_CONNECT : N := 0x1.
Definition STEP_NO_HELO : N := 0x2.
Definition STEP_NO_ENVELOPE_FROM : N := 0x4.
Definition STEP_NO_ENVELOPE_RECIPIENT : N := 0x8.
Definition STEP_NO_BODY : N := 0x10.
Definition STEP_NO_HEADERS : N := 0x20.
Definition STEP_NO_END_OF_HEADER : N := 0x40.
Definition STEP_NO_REPLY_HEADER : N := 0x80.
Definition STEP_NO_UNKNOWN : N := 0x100.
Definition STEP_NO_DATA : N := 0x200.
Definition STEP_SKIP : N := 0x400.
Definition STEP_RECIPIENT_REJECTED : N := 0x800.
Definition STEP_NO_REPLY_CONNECT : N := 0x1000.
Definition STEP_NO_REPLY_HELO : N := 0x2000.
Definition STEP_NO_REPLY_ENVELOPE_FROM : N := 0x4000.
Definition STEP_NO_REPLY_ENVELOPE_RECIPIENT : N := 0x8000.
Definition STEP_NO_REPLY_DATA : N := 0x10000.
Definition STEP_NO_REPLY_UNKNOWN : N := 0x20000.
Definition STEP_NO_REPLY_END_OF_HEADER : N := 0x40000.
Definition STEP_NO_REPLY_BODY : N := 0x80000.
Definition STEP_HEADER_LEADING_SPACE : N := 0x100000.

Definition or_all (l : list N) : N := fold_right N.lor 0 l.

(** milter-option.h:105-133, the masks. *)
Definition STEP_NO_EVENT_MASK : N :=
  or_all [STEP_NO_CONNECT; STEP_NO_HELO; STEP_NO_ENVELOPE_FROM; STEP_NO_ENVELOPE_RECIPIENT;
          STEP_NO_BODY; STEP_NO_HEADERS; STEP_NO_END_OF_HEADER; STEP_NO_UNKNOWN; STEP_NO_DATA].
Definition STEP_NO_REPLY_MASK : N :=
  or_all [STEP_NO_REPLY_CONNECT; STEP_NO_REPLY_HELO; STEP_NO_REPLY_ENVELOPE_FROM;
          STEP_NO_REPLY_ENVELOPE_RECIPIENT; STEP_NO_REPLY_DATA; STEP_NO_REPLY_HEADER;
          STEP_NO_REPLY_UNKNOWN; STEP_NO_REPLY_END_OF_HEADER; STEP_NO_REPLY_BODY].
Definition STEP_NO_MASK : N := N.lor STEP_NO_EVENT_MASK STEP_NO_REPLY_MASK.
Definition STEP_YES_MASK : N :=
  or_all [STEP_SKIP; STEP_RECIPIENT_REJECTED; STEP_HEADER_LEADING_SPACE].

(** milter/core/milter-option.c:329-344, milter_option_combine: the result and [dest]
    afterwards. *)
Definition option_combine (dest src : moption) : bool * moption :=
  if o_version dest <? o_version src then (false, dest)
  else (true, mk_option (o_version src)
                        (N.land (o_action dest) (o_action src))
                        (N.land (o_step dest) (o_step src))).

(** milter-option.c:364-377, milter_step_flags_merge. *)
Definition step_flags_merge (dest src : N) : N :=
  N.lor (N.land (N.land dest STEP_NO_MASK) (N.land src STEP_NO_MASK))
        (N.lor (N.land dest STEP_YES_MASK) (N.land src STEP_YES_MASK)).

(** milter-option.c:346-362, milter_option_merge. *)
Definition option_merge (dest src : moption) : bool * moption :=
  if o_version dest <? o_version src then (false, dest)
  else (true, mk_option (o_version dest)
                        (N.lor (o_action dest) (o_action src))
                        (step_flags_merge (o_step dest) (o_step src))).

(** The use of milter_option_merge in milter/manager/milter-manager-children.c:839-842: the
    replies of several filters, the result value being ignored. *)
Definition option_merge_all (dest : moption) (srcs : list moption) : moption :=
  fold_left (fun d s => snd (option_merge d s)) srcs dest.

(** milter-option.c:320-327, milter_option_remove_step. *)
Definition option_remove_step (o : moption) (step : N) : moption :=
  mk_option (o_version o) (o_action o) (N.ldiff (o_step o) step).

(** milter-option.c:288-292, milter_option_get_step_yes. *)
Definition option_step_yes (o : moption) : N := N.land (o_step o) STEP_YES_MASK.
