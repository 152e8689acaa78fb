(** Model of milter/core/milter-decoder.c: framing and the shared field decoders. *)
From Verif.Base Require Import Bytes.
Local Open Scope Z_scope.

(** GError codes of MILTER_DECODER_ERROR (milter-decoder.h), MILTER_COMMAND_DECODER_ERROR
    (milter-command-decoder.h) and MILTER_REPLY_DECODER_ERROR (milter-reply-decoder.h).
    The message text is not modelled. *)
Inductive derror :=
| E_SHORT_COMMAND_LENGTH
| E_LONG_COMMAND_LENGTH
| E_UNEXPECTED_COMMAND
| E_MISSING_NULL
| E_UNEXPECTED_END
| E_UNKNOWN_MACRO_CONTEXT
| E_UNKNOWN_SOCKET_FAMILY
| E_INVALID_FORMAT
| E_UNEXPECTED_MACRO_STAGE.

(** Result of a C function that returns a value, or FALSE with an optional GError, or that
    runs into undefined behaviour (here: reading outside the receive buffer). *)
Inductive res (A : Type) : Type :=
| Ok (a : A)
| Fail (e : option derror)
| UB.
Arguments Ok {A} a.
Arguments Fail {A} e.
Arguments UB {A}.

Definition bind {A B : Type} (r : res A) (f : A -> res B) : res B :=
  match r with Ok a => f a | Fail e => Fail e | UB => UB end.
Notation "'let*' x ':=' r 'in' k" := (bind r (fun x => k))
  (at level 200, x name, r at level 100, k at level 200, right associativity).

(** A [const gchar *] into the receive buffer is represented by all bytes that may be read
    from it on, the GString terminator included; [p + i] is [skipn i p]. *)
Definition ptr := bytes.

(** [buffer[i]]. *)
Definition deref (p : ptr) (i : nat) : res byte :=
  match nth_error p i with Some c => Ok c | None => UB end.

(** find_null_character, milter-decoder.c:188-199; [n] is the number of iterations left.
    [Ok None] stands for the return value -1. *)
Fixpoint find_null (p : ptr) (n : nat) {struct n} : res (option nat) :=
  match n with
  | O => Ok None
  | S n' =>
      match p with
      | [] => UB
      | c :: p' =>
          if beqb c NUL then Ok (Some O)
          else match find_null p' n' with
               | Ok (Some i) => Ok (Some (S i))
               | r => r
               end
      end
  end.

(** Whether [g_strndup(p, n)] stays inside the readable bytes: it copies up to [n] bytes
    and stops after a NUL. *)
Fixpoint strndup_ok (p : ptr) (n : nat) {struct n} : bool :=
  match n with
  | O => true
  | S n' => match p with
            | [] => false
            | c :: p' => if beqb c NUL then true else strndup_ok p' n'
            end
  end.

(** milter_decoder_decode_null_terminated_value, milter-decoder.c:201-220.  On a missing NUL
    the message copies [length + 1] bytes; a [length] below -1 makes that count wrap to a
    huge [gsize]. *)
Definition decode_null_terminated_value (p : ptr) (len : Z) : res nat :=
  let* r := find_null p (Z.to_nat len) in
  match r with
  | Some i => Ok i
  | None => if (len + 1 <? 0) then UB
            else if strndup_ok p (Z.to_nat (len + 1)) then Fail (Some E_MISSING_NULL)
            else UB
  end.

(** The C string a pointer denotes: bytes up to the first NUL. *)
Fixpoint cstring (p : ptr) : res bytes :=
  match p with
  | [] => UB
  | c :: p' => if beqb c NUL then Ok []
               else match cstring p' with Ok s => Ok (c :: s) | r => r end
  end.

(** MilterDecoderCompareType, milter-decoder.h. *)
Inductive compare_type := COMPARE_AT_LEAST | COMPARE_EXACT.

(** milter_decoder_check_command_length, milter-decoder.c:275-317, with the reads made by
    append_inspected_bytes (222-239) for the error message: it inspects [length -
    expected_length] bytes when too long and [(gsize)length] bytes when too short, so a
    negative [length] runs off the buffer. *)
Definition check_command_length (p : ptr) (len expected : Z) (t : compare_type) : res unit :=
  let fine := match t with
              | COMPARE_AT_LEAST => expected <=? len
              | COMPARE_EXACT => len =? expected
              end in
  if fine then Ok tt
  else if expected <? len then
    if len - expected <=? zlen p then Fail (Some E_LONG_COMMAND_LENGTH) else UB
  else if len <? 0 then UB
  else if len <=? zlen p then Fail (Some E_SHORT_COMMAND_LENGTH) else UB.

(** milter_decoder_decode_header_content, milter-decoder.c:319-347. *)
Definition decode_header_content (p : ptr) (len : Z) : res (bytes * bytes) :=
  let* n := decode_null_terminated_value p len in
  if Nat.eqb n 0 then Fail None
  else
    let* name := cstring p in
    let p' := skipn (S n) p in
    let* _ := decode_null_terminated_value p' (len - Z.of_nat (S n)) in
    let* value := cstring p' in
    Ok (name, value).

(** MilterOption as three 32-bit words, milter-option.c. *)
Record moption := mk_option { o_version : N; o_action : N; o_step : N }.

(** [memcpy] of 4 bytes followed by [g_ntohl]. *)
Definition read32 (p : ptr) : res N :=
  match p with
  | a :: b :: c :: d :: _ => Ok (rd32 a b c d)
  | _ => UB
  end.

(** milter_decoder_decode_negotiate, milter-decoder.c:510-552.  [length - i] is computed in
    [gsize] and converted to [gint], which gives the mathematical difference. *)
Definition decode_negotiate_option (p : ptr) (len : Z) : res (moption * Z) :=
  let* _ := check_command_length (skipn 1 p) (len - 1) 4 COMPARE_AT_LEAST in
  let* version := read32 (skipn 1 p) in
  let* _ := check_command_length (skipn 5 p) (len - 5) 4 COMPARE_AT_LEAST in
  let* action := read32 (skipn 5 p) in
  let* _ := check_command_length (skipn 9 p) (len - 9) 4 COMPARE_AT_LEAST in
  let* step := read32 (skipn 9 p) in
  Ok (mk_option version action step, 13).

(** ** The framing loop *)

(** What a subclass' [decode] handler did with the current packet: returned TRUE after
    emitting signals (possibly with a GError set all the same), returned FALSE, or undefined
    behaviour. *)
Inductive hres (ev : Type) : Type :=
| HOk (evs : list ev) (err : option derror)
| HFail (err : option derror)
| HUB.
Arguments HOk {ev} evs err.
Arguments HFail {ev} err.
Arguments HUB {ev}.

(** DecodeState, milter-decoder.c:59-64. *)
Inductive dstate := IN_START | IN_COMMAND_LENGTH | IN_COMMAND_CONTENT | IN_ERROR.

(** MilterDecoderPrivate: state, command_length (gint32) and the buffer content. *)
Record decoder := mk_decoder { d_state : dstate; d_len : Z; d_buf : bytes }.

(** A new decoder (milter_decoder_init): empty buffer, IN_START. *)
Definition decoder_new : decoder := mk_decoder IN_START 0 [].

(** Result of one [milter_decoder_decode] call: the decoder after it, the signals emitted,
    the return value and the GError; [Crashed] keeps the signals emitted before undefined
    behaviour; [OutOfFuel] is proved unreachable. *)
Inductive outcome (ev : Type) : Type :=
| Fed (d : decoder) (evs : list ev) (ok : bool) (err : option derror)
| Crashed (evs : list ev)
| OutOfFuel.
Arguments Fed {ev} d evs ok err.
Arguments Crashed {ev} evs.
Arguments OutOfFuel {ev}.

Section Loop.
  Variable ev : Type.
  (** The handler is given the buffer content (this packet and whatever follows it) and
      [command_length]. *)
  Variable handler : bytes -> Z -> hres ev.

  (** [priv->buffer->len < priv->command_length]: [gsize] against [gint32], so a negative
      length is converted to a huge unsigned number. *)
  Definition buffer_shorter (buf : bytes) (len : Z) : bool := zlen buf <? len mod 2 ^ 64.

  (** [first_error a b]: the GError left in [*error] (a later g_set_error on a set error
      does not replace it). *)
  Definition first_error (a b : option derror) : option derror :=
    match a with Some _ => a | None => b end.

  (** The [while (loop)] of milter_decoder_decode, milter-decoder.c:381-435. *)
  Fixpoint decode_loop (fuel : nat) (d : decoder) (evs : list ev) (err : option derror)
    : outcome ev :=
    match fuel with
    | O => OutOfFuel
    | S fuel' =>
        match d_state d with
        | IN_START =>
            match d_buf d with
            | [] => Fed d evs true err
            | _ :: _ => decode_loop fuel' (mk_decoder IN_COMMAND_LENGTH (d_len d) (d_buf d)) evs err
            end
        | IN_COMMAND_LENGTH =>
            match d_buf d with
            | a :: b :: c :: e :: rest =>
                decode_loop fuel'
                  (mk_decoder IN_COMMAND_CONTENT (to_s32 (rd32 a b c e)) rest) evs err
            | _ => Fed d evs true err
            end
        | IN_COMMAND_CONTENT =>
            if buffer_shorter (d_buf d) (d_len d) then Fed d evs true err
            else
              match handler (d_buf d) (d_len d) with
              | HOk new e =>
                  decode_loop fuel'
                    (mk_decoder IN_START (d_len d) (skipn (Z.to_nat (d_len d)) (d_buf d)))
                    (evs ++ new) (first_error err e)
              | HFail e =>
                  Fed (mk_decoder IN_ERROR (d_len d) (d_buf d)) evs false (first_error err e)
              | HUB => Crashed evs
              end
        | IN_ERROR => Fed d evs true err
        end
    end.

  (** milter_decoder_decode, milter-decoder.c:360-438.  The guard at line 370 compares the
      state with the error quark MILTER_DECODER_ERROR, a number different from all four
      states, so it never fires.  Signal handlers calling back into the same decoder are not
      modelled. *)
  Definition decode (d : decoder) (chunk : bytes) : outcome ev :=
    match chunk with
    | [] => Fed d [] true None
    | _ :: _ =>
        let buf := d_buf d ++ chunk in
        decode_loop (3 * length buf + 4) (mk_decoder (d_state d) (d_len d) buf) [] None
    end.

  (** A sequence of feeds; stops at undefined behaviour.  Collects all signals and, per
      call, the return value and GError. *)
  Fixpoint feeds (d : decoder) (chunks : list bytes)
    : option decoder * list ev * list (bool * option derror) :=
    match chunks with
    | [] => (Some d, [], [])
    | c :: cs =>
        match decode d c with
        | Fed d' evs ok err =>
            let '(d'', evs', rs) := feeds d' cs in
            (d'', evs ++ evs', (ok, err) :: rs)
        | Crashed evs => (None, evs, [])
        | OutOfFuel => (None, [], [])
        end
    end.
End Loop.
Arguments decode_loop {ev} handler fuel d evs err.
Arguments decode {ev} handler d chunk.
Arguments feeds {ev} handler d chunks.

(** milter_decoder_end_decode, milter-decoder.c:461-486: the return value and GError. *)
Definition end_decode (d : decoder) : bool * option derror :=
  match d_state d with
  | IN_START => (true, None)
  | IN_COMMAND_LENGTH => (false, Some E_UNEXPECTED_END)
  | IN_COMMAND_CONTENT => (false, Some E_UNEXPECTED_END)
  | IN_ERROR => (false, None)
  end.
