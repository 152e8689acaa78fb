(** Output of an agent: milter/core/milter-writer.c and the parts of milter-agent.c that use it.

    The channel is a [GIOChannel] with its own buffer: [g_io_channel_write_chars] takes some bytes
    (its [written_size]), [g_io_channel_flush] puts what was taken on the file descriptor.  What
    the channel does in a call is an argument of the operation, so that every behaviour of the
    network is covered.

    Simplifications: registering a watch never fails (milter-writer.c:566-569 only logs it); the
    flag [writing] (359-365) is only set inside [g_io_channel_write_chars], which calls nobody
    back, so it is always read as unset; tags, logging and reference counts are left out. *)
From Verif.Base Require Import Bytes.
Local Open Scope nat_scope.

(** What can be seen from outside, latest first in [wr_trace]. *)
Inductive wevent :=
| EQueued (chunk : bytes)           (* milter_writer_write returned TRUE *)
| ERefused                          (* milter_writer_write or _flush returned FALSE *)
| EFlushCalled                      (* milter_writer_flush returned TRUE *)
| ETransmitted (data : bytes)       (* put on the file descriptor *)
| EFlushed                          (* signal flushed *)
| EError                            (* signal error *)
| EFinished                         (* signal finished *)
| EShutdown.                        (* milter_writer_shutdown took effect *)

(** [MilterWriterPrivate], milter-writer.c:36-49, initialised in 128-144; watch ids are either
    zero or not.  [wr_taken] is the buffer of the channel. *)
Record writer := mk_writer {
  wr_channel : bool;
  wr_loop : bool;
  wr_buffer : bytes;
  wr_flush_point : nat;
  wr_write_watch : bool;
  wr_flush_watch : bool;
  wr_error_watch : bool;
  wr_taken : bytes;
  wr_trace : list wevent
}.

(** [milter_writer_io_channel_new], milter-writer.c:261-267. *)
Definition writer_new : writer := mk_writer true false [] 0 false false false [] [].

Definition set_channel b w := mk_writer b (wr_loop w) (wr_buffer w) (wr_flush_point w)
  (wr_write_watch w) (wr_flush_watch w) (wr_error_watch w) (wr_taken w) (wr_trace w).
Definition set_loop b w := mk_writer (wr_channel w) b (wr_buffer w) (wr_flush_point w)
  (wr_write_watch w) (wr_flush_watch w) (wr_error_watch w) (wr_taken w) (wr_trace w).
Definition set_buffer b w := mk_writer (wr_channel w) (wr_loop w) b (wr_flush_point w)
  (wr_write_watch w) (wr_flush_watch w) (wr_error_watch w) (wr_taken w) (wr_trace w).
Definition set_flush_point n w := mk_writer (wr_channel w) (wr_loop w) (wr_buffer w) n
  (wr_write_watch w) (wr_flush_watch w) (wr_error_watch w) (wr_taken w) (wr_trace w).
Definition set_write_watch b w := mk_writer (wr_channel w) (wr_loop w) (wr_buffer w)
  (wr_flush_point w) b (wr_flush_watch w) (wr_error_watch w) (wr_taken w) (wr_trace w).
Definition set_flush_watch b w := mk_writer (wr_channel w) (wr_loop w) (wr_buffer w)
  (wr_flush_point w) (wr_write_watch w) b (wr_error_watch w) (wr_taken w) (wr_trace w).
Definition set_error_watch b w := mk_writer (wr_channel w) (wr_loop w) (wr_buffer w)
  (wr_flush_point w) (wr_write_watch w) (wr_flush_watch w) b (wr_taken w) (wr_trace w).
Definition set_taken b w := mk_writer (wr_channel w) (wr_loop w) (wr_buffer w) (wr_flush_point w)
  (wr_write_watch w) (wr_flush_watch w) (wr_error_watch w) b (wr_trace w).
Definition wlog (e : wevent) w := mk_writer (wr_channel w) (wr_loop w) (wr_buffer w)
  (wr_flush_point w) (wr_write_watch w) (wr_flush_watch w) (wr_error_watch w) (wr_taken w)
  (e :: wr_trace w).

(** What the channel does in a call of [g_io_channel_write_chars]: it takes at most [wo_taken]
    bytes, puts at most [wo_sent] of the bytes it holds on the file descriptor, and reports an
    error or not. *)
Record write_out := mk_write_out { wo_taken : nat; wo_sent : nat; wo_error : bool }.

(** What it does in a call of [g_io_channel_flush]: without error and unless it says
    [G_IO_STATUS_AGAIN] all it holds is put on the file descriptor, otherwise some of it. *)
Inductive flush_out := Done | Again (sent : nat) | Failed (sent : nat).

(** Bytes on the file descriptor. *)
Definition transmit (n : nat) (w : writer) : writer :=
  match firstn n (wr_taken w) with
  | [] => w
  | data => wlog (ETransmitted data) (set_taken (skipn n (wr_taken w)) w)
  end.

(** [g_io_channel_write_chars(channel, buffer->str, buffer->len, ...)] and [g_string_erase] of the
    written part; also gives [written_size]. *)
Definition channel_write (o : write_out) (w : writer) : writer * nat :=
  let written := Nat.min (wo_taken o) (length (wr_buffer w)) in
  (transmit (wo_sent o)
     (set_buffer (skipn written (wr_buffer w))
        (set_taken (wr_taken w ++ firstn written (wr_buffer w)) w)), written).

Definition channel_flush (o : flush_out) (w : writer) : writer :=
  match o with
  | Done => transmit (length (wr_taken w)) w
  | Again n | Failed n => transmit n w
  end.

(** What the owner of the writer calls, also from the handlers of its signals. *)
Inductive wcall :=
| Write (chunk : bytes)
| Flush
| Shutdown (write : write_out) (flush : flush_out).

(** [request_flush], milter-writer.c:317-335. *)
Definition request_flush (w : writer) : writer := set_flush_watch true w.

(** [milter_writer_write], milter-writer.c:426-476. *)
Definition writer_write (chunk : bytes) (w : writer) : writer :=
  if negb (wr_channel w) then wlog ERefused w
  else if negb (wr_loop w) then wlog ERefused w
  else match chunk with
       | [] => wlog (EQueued []) w
       | _ => set_write_watch true
                (set_buffer (wr_buffer w ++ chunk) (wlog (EQueued chunk) w))
       end.

(** [milter_writer_flush], milter-writer.c:478-517. *)
Definition writer_flush (w : writer) : writer :=
  if negb (wr_channel w) then wlog ERefused w
  else if negb (wr_loop w) then wlog ERefused w
  else let w := wlog EFlushCalled w in
       if wr_write_watch w then set_flush_point (length (wr_buffer w)) w
       else request_flush w.

(** [clear_watch_id], milter-writer.c:164-180. *)
Definition clear_watches (w : writer) : writer :=
  set_loop false (set_error_watch false (set_flush_watch false (set_write_watch false w))).

Section Calls.
(** How signals are emitted. *)
Variable emit : wevent -> writer -> writer.

(** [milter_writer_shutdown], milter-writer.c:676-696, with [flush_buffer_on_shutdown], 595-674. *)
Definition writer_shutdown (wo : write_out) (fo : flush_out) (w : writer) : writer :=
  if negb (wr_error_watch w) then w
  else let w := clear_watches (wlog EShutdown w) in
       if wr_channel w then
         set_channel false
           match wr_buffer w with
           | [] => w
           | _ => let (w, _) := channel_write wo w in
                  if wo_error wo then emit EError w
                  else let w := channel_flush fo w in
                       let w := match fo with Failed _ => emit EError w | _ => w end in
                       emit EFlushed w
           end
       else w.

Definition writer_call (w : writer) (c : wcall) : writer :=
  match c with
  | Write chunk => writer_write chunk w
  | Flush => writer_flush w
  | Shutdown wo fo => writer_shutdown wo fo w
  end.

End Calls.

Section Writer.
(** What the handlers of the signals do, given what happened so far; handlers do not start the
    writer again. *)
Variable react : list wevent -> list wcall.

(** Signal emission: the event is seen, then the handlers run.  A handler that shuts the writer
    down makes it emit signals in turn; [d] bounds this nesting and the theorems hold for every
    [d]. *)
Fixpoint emit (d : nat) (e : wevent) (w : writer) : writer :=
  let w := wlog e w in
  match d with
  | O => w
  | S d => fold_left (writer_call (emit d)) (react (wr_trace w)) w
  end.

(** [flush_watch_func], milter-writer.c:269-315; called while the watch is registered. *)
Definition flush_callback (d : nat) (o : flush_out) (w : writer) : writer :=
  if negb (wr_flush_watch w) then w
  else let w := channel_flush o w in
       match o with
       | Failed _ => set_flush_watch false (emit d EError w)
       | Again _ => w
       | Done => set_flush_watch false (emit d EFlushed w)
       end.

(** [write_watch_func], milter-writer.c:337-424. *)
Definition write_callback (d : nat) (o : write_out) (w : writer) : writer :=
  if negb (wr_write_watch w) then w
  else match wr_buffer w with
       | [] => set_write_watch false w
       | _ =>
         let (w, written) := channel_write o w in
         let w :=
           if written =? 0 then w
           else if 0 <? wr_flush_point w then
                  if wr_flush_point w <=? written then
                    let w := set_flush_point 0 w in
                    if wr_loop w then request_flush w else w
                  else set_flush_point (wr_flush_point w - written) w
                else w in
         if wo_error o then set_write_watch false (emit d EError w) else w
       end.

(** [error_watch_func], milter-writer.c:519-550. *)
Definition error_callback (d : nat) (w : writer) : writer :=
  if negb (wr_error_watch w) then w
  else let w := emit d EError w in
       let w := set_flush_watch false (set_write_watch false (set_error_watch false w)) in
       emit d EFinished w.

(** [milter_writer_start] and [watch_io_channel], milter-writer.c:552-587. *)
Definition writer_start (w : writer) : writer :=
  if wr_channel w && negb (wr_error_watch w) then set_loop true (set_error_watch true w) else w.

(** What can happen: calls of the owner and callbacks of the event loop. *)
Inductive wop :=
| Start
| Call (c : wcall)
| CanWrite (o : write_out)
| CanFlush (o : flush_out)
| Broken.

Definition writer_step (d : nat) (w : writer) (o : wop) : writer :=
  match o with
  | Start => writer_start w
  | Call c => writer_call (emit d) w c
  | CanWrite o => write_callback d o w
  | CanFlush o => flush_callback d o w
  | Broken => error_callback d w
  end.

Definition writer_run (d : nat) (ops : list wop) : writer := fold_left (writer_step d) ops writer_new.

End Writer.
