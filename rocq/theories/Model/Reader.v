(** Input of an agent: milter/core/milter-reader.c.

    What the channel does in a call is an argument of the operation.  Simplifications: registering
    a watch never fails (milter-reader.c:320-335 only logs it); tags, logging and reference counts
    are left out; the handlers of the signals do not start the reader again. *)
From Verif.Base Require Import Bytes.
Local Open Scope nat_scope.

(** What can be seen from outside, latest first in [rd_trace]. *)
Inductive revent :=
| RArrived (data : bytes)           (* bytes of the peer that the channel holds from now on *)
| RStarted                          (* milter_reader_start took effect *)
| RFlow (data : bytes)              (* signal flow *)
| RError                            (* signal error *)
| RFinished                         (* signal finished *)
| RStop.                            (* milter_reader_shutdown took effect *)

(** [MilterReaderPrivate], milter-reader.c:38-48, initialised in 119-131.  The two watches are
    registered and removed together (309-343, 185-202).  [rd_unread] is what the channel holds. *)
Record reader := mk_reader {
  rd_channel : bool;
  rd_watch : bool;
  rd_processing : bool;
  rd_shutdown : bool;
  rd_unread : bytes;
  rd_trace : list revent
}.

(** [milter_reader_io_channel_new], milter-reader.c:418-424. *)
Definition reader_new : reader := mk_reader true false false false [] [].

Definition rset_watch b r := mk_reader (rd_channel r) b (rd_processing r) (rd_shutdown r) (rd_unread r) (rd_trace r).
Definition rset_processing b r := mk_reader (rd_channel r) (rd_watch r) b (rd_shutdown r) (rd_unread r) (rd_trace r).
Definition rset_shutdown b r := mk_reader (rd_channel r) (rd_watch r) (rd_processing r) b (rd_unread r) (rd_trace r).
Definition rset_channel b r := mk_reader b (rd_watch r) (rd_processing r) (rd_shutdown r) (rd_unread r) (rd_trace r).
Definition rset_unread b r := mk_reader (rd_channel r) (rd_watch r) (rd_processing r) (rd_shutdown r) b (rd_trace r).
Definition rlog e r := mk_reader (rd_channel r) (rd_watch r) (rd_processing r) (rd_shutdown r) (rd_unread r) (e :: rd_trace r).

(** milter-reader.c:133. *)
Definition BUFFER_SIZE : nat := 4096.

(** What the channel does in a call of [g_io_channel_read_chars]: it gives at most [ro_size] bytes,
    says end of file or not, reports an error or not; [ro_more] tells whether its own buffer has
    data then ([G_IO_IN] in [g_io_channel_get_buffer_condition]). *)
Record read_out := mk_read_out { ro_size : nat; ro_eof : bool; ro_error : bool; ro_more : bool }.

Section Reader.
(** Whether a handler of a signal calls [milter_reader_shutdown], given what happened so far. *)
Variable stops : list revent -> bool.

(** [finish], milter-reader.c:204-213. *)
Definition finish (r : reader) : reader := rlog RFinished (rset_watch false (rset_shutdown false r)).

(** [milter_reader_shutdown], milter-reader.c:442-467. *)
Definition reader_shutdown (r : reader) : reader :=
  if negb (rd_watch r) then r
  else if rd_shutdown r then r
  else let r := rset_shutdown true (rlog RStop r) in
       if rd_processing r then r
       else finish (rset_channel false r).

(** Emission of flow or error. *)
Definition remit (e : revent) (r : reader) : reader :=
  let r := rlog e r in if stops (rd_trace r) then reader_shutdown r else r.

(** [read_from_channel], milter-reader.c:134-183; also gives its result. *)
Definition read_from_channel (o : read_out) (r : reader) : reader * bool :=
  let n := Nat.min (ro_size o) BUFFER_SIZE in
  let stream := firstn n (rd_unread r) in
  let r := rset_unread (skipn n (rd_unread r)) r in
  let r := if ro_error o then remit RError (rset_shutdown true r) else r in
  let r := match stream with [] => r | _ => remit (RFlow stream) r end in
  (r, negb (ro_error o) && negb (ro_eof o)).

(** The [while] of [read_watch_func], milter-reader.c:228-235; the list has the results of the
    reads, the first is always made. *)
Fixpoint read_loop (os : list read_out) (r : reader) : reader * bool :=
  match os with
  | [] => (r, true)
  | o :: os =>
    let (r, keep) := read_from_channel o r in
    if keep && ro_more o then read_loop os r else (r, keep)
  end.

(** [read_watch_func], milter-reader.c:215-255. *)
Definition read_callback (os : list read_out) (r : reader) : reader :=
  if negb (rd_watch r) then r
  else let r := rset_processing true r in
       let (r, keep) := if negb (rd_shutdown r) then read_loop os r else (r, true) in
       let keep := if rd_shutdown r then false else keep in
       let r := if negb keep then finish (rset_watch false r) else r in
       rset_processing false r.

(** [error_watch_func], milter-reader.c:257-307. *)
Definition condition_callback (hup err nval : bool) (r : reader) : reader :=
  if negb (rd_watch r) then r
  else let r := if negb (rd_shutdown r) && hup then rset_shutdown true r else r in
       let failed := err || (negb (rd_shutdown r) && (hup || nval)) in
       let r := if failed then remit RError (rset_shutdown true r) else r in
       finish (rset_watch false r).

(** [milter_reader_start], milter-reader.c:426-434. *)
Definition reader_start (r : reader) : reader :=
  if rd_channel r && negb (rd_watch r) then rset_watch true (rlog RStarted r) else r.

Inductive rop :=
| Arrive (data : bytes)
| RStart
| CanRead (results : list read_out)
| Condition (hup err nval : bool)
| RShutdown.

Definition reader_step (r : reader) (o : rop) : reader :=
  match o with
  | Arrive data => rset_unread (rd_unread r ++ data) (rlog (RArrived data) r)
  | RStart => reader_start r
  | CanRead os => read_callback os r
  | Condition hup err nval => condition_callback hup err nval r
  | RShutdown => reader_shutdown r
  end.

Definition reader_run (ops : list rop) : reader := fold_left reader_step ops reader_new.

End Reader.
