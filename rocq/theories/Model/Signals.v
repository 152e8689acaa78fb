(** What GLib's signals hand to their handlers when an argument is data with a size. *)
From Verif.Base Require Import Bytes.
From Verif.Model Require Import Decoder.
Local Open Scope Z_scope.

(** How the data parameter of a signal is declared in g_signal_new. *)
Inductive marshal := M_STRING | M_POINTER.

(** The signals that carry data and a size, one after the other:
    "body" and "end-of-message" of the command decoder (milter-command-decoder.c:171-200),
    of the client context (milter-client-context.c:1744-1760, 1902-1918), "stop-on-body" and
    "stop-on-end-of-message" of the server context (milter-server-context.c:290-316), "replace-body" of everything that sends replies
    (milter-reply-signals.c:190-202), "set-configuration" of the control command decoder
    (milter-manager-control-command-decoder.c:62-72), "configuration" of the control reply decoder
    (milter-manager-control-reply-decoder.c:58-68), and "flow" of the reader
    (milter-reader.c:107-113). *)
Inductive data_signal :=
| DecoderBody | DecoderEndOfMessage | ClientBody | ClientEndOfMessage | ServerBody
| ServerEndOfMessage | ReplaceBody | SetConfigurationSignal | ConfigurationSignal | Flow.

Definition declared (s : data_signal) : marshal :=
  match s with Flow => M_POINTER | _ => M_STRING end.

(** G_TYPE_STRING without G_SIGNAL_TYPE_STATIC_SCOPE: g_signal_emit copies the argument with
    g_strdup, so up to the first NUL, and passes the size unchanged.  Reading beyond the copy and its
    terminator is undefined.  This is GLib's behaviour (gsignal.c, gvaluetypes.c), not code of
    /repo. *)
Definition signal_data (p : ptr) (size : Z) : res bytes :=
  let* s := cstring p in
  let copy := s ++ [NUL] in
  if size <=? zlen copy then Ok (firstn (Z.to_nat size) copy) else UB.

(** What a handler that reads the [size] bytes it is told about gets. *)
Definition hand_over (s : data_signal) (p : ptr) (size : Z) : res bytes :=
  match declared s with
  | M_STRING => signal_data p size
  | M_POINTER => if size <=? zlen p then Ok (firstn (Z.to_nat size) p) else UB
  end.
