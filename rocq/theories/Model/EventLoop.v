(** Model of MilterEventLoop (milter/core/milter-event-loop.c) with the sources of MilterLibevEventLoop
    (milter/core/milter-libev-event-loop.c).

    A history is a list of events: calls of the API by whoever is running, and what libev does within
    ev_run.  The callbacks themselves are not in the model: whatever they do is a part of the history
    between the call and the return.  Custom run and iterate functions, other threads, the release
    functions and priorities (which the libev loop ignores) are left out. *)
From Verif.Base Require Import Bytes.
Local Open Scope Z_scope.

(** ** Conditions *)

(** GIOCondition of GLib and the event bits of libev's ev.h. *)
Definition G_IO_IN : Z := 1.
Definition G_IO_PRI : Z := 2.
Definition G_IO_OUT : Z := 4.
Definition G_IO_ERR : Z := 8.
Definition G_IO_HUP : Z := 16.
Definition G_IO_NVAL : Z := 32.
Definition EV_READ : Z := 1.
Definition EV_WRITE : Z := 2.
Definition EV_ERROR : Z := -2147483648.

(** An int stored in a short. *)
Definition to_short (v : Z) : Z := (v + 32768) mod 65536 - 32768.

Definition has (v mask : Z) : bool := negb (Z.land v mask =? 0).

(** evcond_from_g_io_condition, milter-libev-event-loop.c:400-416. *)
Definition events_of (condition : Z) : Z :=
  let e := 0 in
  let e := if has condition (Z.lor G_IO_IN G_IO_PRI) then to_short (Z.lor e EV_READ) else e in
  let e := if has condition G_IO_OUT then to_short (Z.lor e EV_WRITE) else e in
  if has condition (Z.lor G_IO_ERR (Z.lor G_IO_HUP G_IO_NVAL)) then to_short (Z.lor e EV_ERROR) else e.

(** evcond_to_g_io_condition, 418-434, whose parameter is a short too. *)
Definition condition_of (revents : Z) : Z :=
  let event := to_short revents in
  let c := 0 in
  let c := if has event EV_READ then Z.lor c G_IO_IN else c in
  let c := if has event EV_WRITE then Z.lor c G_IO_OUT else c in
  if has event EV_ERROR then Z.lor c (Z.lor G_IO_ERR (Z.lor G_IO_HUP G_IO_NVAL)) else c.

(** ** Sources *)

(** The sources: a channel with the condition asked for, a child process, a timer ([zero]: its interval
    is 0), an idle function. *)
Inductive kind := Io (condition : Z) | Child | Timer (zero : bool) | Idle.

(** A watcher in the hash table: its ID, and whether libev has it started.  [w_serial] numbers the
    sources in the order they were added; it stands for the address of the watcher. *)
Record watcher := mk_watcher { w_id : N; w_serial : nat; w_kind : kind; w_active : bool }.

(** What is being executed: a callback, a destroy notification, milter_event_loop_iterate,
    milter_event_loop_run with the depth it saved. *)
Inductive frame := Callback (id : N) (serial : nat) (k : kind) | Notifying | Iterating | Running (depth : N).

(** MilterEventLoopPrivate and MilterLibevEventLoopPrivate; [l_added] counts the sources ever added;
    [l_dead] says that the process hangs or the loop is disposed of. *)
Record loop := mk_loop {
  l_id : N;
  l_watchers : list watcher;
  l_added : nat;
  l_called : N;
  l_depth : N;
  l_stack : list frame;
  l_dead : bool
}.

(** milter_libev_event_loop_init, 137-153, milter_event_loop_init, milter-event-loop.c:90-100. *)
Definition loop_new : loop := mk_loop 0 [] 0 0 0 [] false.

Inductive event :=
| Add (fd : bool) (k : kind)      (* watch_io_full (with a descriptor or without), ..., add_idle_full *)
| Remove (id : N)                 (* milter_event_loop_remove *)
| Quit                            (* milter_event_loop_quit *)
| Run                             (* milter_event_loop_run *)
| Turn                            (* its while loop looks at the depth *)
| Iterate                         (* milter_event_loop_iterate *)
| Ready (serial : nat) (revents : Z)   (* libev finds the watcher ready and calls it back *)
| Broken (serial : nat)           (* libev finds that the descriptor is none, stops the watcher and says so *)
| Return (b : bool)               (* the callback or the notification returns *)
| Leave                           (* ev_run returns *)
| Dispose.                        (* dispose, 201-220 *)

(** What is to be seen. *)
Inductive out :=
| Added (serial : nat) (id : N) (k : kind)
| Refused                         (* the ID 0 is returned *)
| Removed (id : N) (found : bool)
| Called (serial : nat) (condition : Z)
| Returned (serial : nat) (b : bool)
| Destroyed (serial : nat)
| Quitted
| Started                         (* a run *)
| Ended                           (* of a run *)
| Iterated (b : bool)             (* the value of iterate *)
| Critical.                       (* quit outside of any run *)

Definition two32 : N := 4294967296.

Definition find_watcher (id : N) (ws : list watcher) : option watcher :=
  List.find (fun w => (w_id w =? id)%N) ws.
Definition find_serial (n : nat) (ws : list watcher) : option watcher :=
  List.find (fun w => Nat.eqb (w_serial w) n) ws.
Definition drop_watcher (id : N) (ws : list watcher) : list watcher :=
  List.filter (fun w => negb (w_id w =? id)%N) ws.

(** The loop of add_watcher, 319-331.  [None] when all IDs are taken and it does not end: among as many
    successive IDs as there are watchers and two more one is free unless all are taken. *)
Fixpoint next_id (fuel : nat) (id : N) (ws : list watcher) : option N :=
  match fuel with
  | O => None
  | S fuel =>
      let id := ((id + 1) mod two32)%N in
      if (id =? 0)%N then next_id fuel id ws
      else match find_watcher id ws with
           | Some _ => next_id fuel id ws
           | None => Some id
           end
  end.

Definition with_stack (l : loop) (s : list frame) : loop :=
  mk_loop (l_id l) (l_watchers l) (l_added l) (l_called l) (l_depth l) s (l_dead l).
Definition with_watchers (l : loop) (ws : list watcher) : loop :=
  mk_loop (l_id l) ws (l_added l) (l_called l) (l_depth l) (l_stack l) (l_dead l).
Definition with_called (l : loop) (n : N) : loop :=
  mk_loop (l_id l) (l_watchers l) (l_added l) n (l_depth l) (l_stack l) (l_dead l).
Definition with_depth (l : loop) (n : N) : loop :=
  mk_loop (l_id l) (l_watchers l) (l_added l) (l_called l) n (l_stack l) (l_dead l).
Definition die (l : loop) : loop :=
  mk_loop (l_id l) (l_watchers l) (l_added l) (l_called l) (l_depth l) (l_stack l) true.

(** add_watcher, 310-345, and starting the watcher. *)
Definition add_watcher (k : kind) (l : loop) : loop * list out :=
  match next_id (S (S (length (l_watchers l)))) (l_id l) (l_watchers l) with
  | None => (die l, [])
  | Some id =>
      (mk_loop id (l_watchers l ++ [mk_watcher id (l_added l) k true]) (S (l_added l)) (l_called l)
         (l_depth l) (l_stack l) (l_dead l),
       [Added (l_added l) id k])
  end.

(** remove_watcher, 367-374: the watcher leaves the table and then destroy_watcher (347-365) stops it,
    calls its notification and frees it. *)
Definition remove_watcher (id : N) (l : loop) : loop * list out * bool :=
  match find_watcher id (l_watchers l) with
  | None => (l, [], false)
  | Some w =>
      (with_stack (with_watchers l (drop_watcher id (l_watchers l))) (Notifying :: l_stack l),
       [Destroyed (w_serial w)], true)
  end.

Definition set_inactive (n : nat) (ws : list watcher) : list watcher :=
  map (fun w => if Nat.eqb (w_serial w) n then mk_watcher (w_id w) (w_serial w) (w_kind w) false else w) ws.

(** Whether the code of the program is running, and not the loop. *)
Definition in_program (s : list frame) : bool :=
  match s with
  | [] | Callback _ _ _ :: _ | Notifying :: _ => true
  | Iterating :: _ | Running _ :: _ => false
  end.

(** io_func 452-471, child_func 519-537, timer_func 577-594, idle_func 635-652, up to the call.
    The count is a guint in C; 2^32 calls within one iteration are not considered. *)
Definition call (w : watcher) (revents : Z) (l : loop) : loop * list out :=
  (with_stack (with_called l (l_called l + 1)) (Callback (w_id w) (w_serial w) (w_kind w) :: l_stack l),
   [Called (w_serial w) (match w_kind w with Io _ => condition_of revents | _ => 0 end)]).

(** One event; [None] if it cannot happen. *)
Definition step (l : loop) (e : event) : option (loop * list out) :=
  if l_dead l then None
  else
    match e with
    | Add fd k =>
        (* watch_io_full 473-511, watch_child_full 539-569, add_timeout_full 596-626, add_idle_full
           654-683 *)
        if in_program (l_stack l) then
          match k with
          | Io _ => if fd then Some (add_watcher k l) else Some (l, [Refused])
          | _ => Some (add_watcher k l)
          end
        else None
    | Remove id =>
        (* remove, 685-690 *)
        if in_program (l_stack l) then
          let '(l, o, b) := remove_watcher id l in Some (l, Removed id b :: o)
        else None
    | Quit =>
        (* milter_event_loop_quit, milter-event-loop.c:319-333; the wake up (391-398) has no effect to
           be seen *)
        if in_program (l_stack l) then
          if (l_depth l =? 0)%N then Some (l, [Critical]) else Some (with_depth l (l_depth l - 1)%N, [Quitted])
        else None
    | Run =>
        (* milter_event_loop_run_without_custom, milter-event-loop.c:204-217 *)
        if in_program (l_stack l) then
          Some (with_depth (with_stack l (Running (l_depth l) :: l_stack l)) (l_depth l + 1)%N, [Started])
        else None
    | Turn =>
        match l_stack l with
        | Running d :: s =>
            if (d <? l_depth l)%N then Some (with_called (with_stack l (Iterating :: l_stack l)) 0, [])
            else Some (with_stack l s, [Ended])
        | _ => None
        end
    | Iterate =>
        (* iterate, 376-389 *)
        if in_program (l_stack l) then Some (with_called (with_stack l (Iterating :: l_stack l)) 0, [])
        else None
    | Ready n revents =>
        (* libev calls back only active watchers, channels with events they were started for; a timer
           without repetition is stopped before. *)
        match l_stack l, find_serial n (l_watchers l) with
        | Iterating :: _, Some w =>
            if w_active w then
              match w_kind w with
              | Io c =>
                  if (Z.land revents (events_of c) =? revents) && negb (revents =? 0)
                  then Some (call w revents l) else None
              | Timer true => Some (call w revents (with_watchers l (set_inactive n (l_watchers l))))
              | _ => Some (call w revents l)
              end
            else None
        | _, _ => None
        end
    | Broken n =>
        match l_stack l, find_serial n (l_watchers l) with
        | Iterating :: _, Some w =>
            if w_active w then
              match w_kind w with
              | Io _ => Some (call w (Z.lor EV_ERROR (Z.lor EV_READ EV_WRITE))
                                (with_watchers l (set_inactive n (l_watchers l))))
              | _ => None
              end
            else None
        | _, _ => None
        end
    | Return b =>
        match l_stack l with
        | Notifying :: s => Some (with_stack l s, [])
        | Callback id n k :: s =>
            let l := with_stack l s in
            if match k with Child => true | _ => negb b end then
              let '(l, o, _) := remove_watcher id l in Some (l, Returned n b :: o)
            else Some (l, [Returned n b])
        | _ => None
        end
    | Leave =>
        match l_stack l with
        | Iterating :: s => Some (with_stack l s, [Iterated (0 <? l_called l)%N])
        | _ => None
        end
    | Dispose =>
        (* The notifications of all watchers are taken together. *)
        match l_stack l with
        | [] => Some (die (with_watchers l []), map (fun w => Destroyed (w_serial w)) (l_watchers l))
        | _ :: _ => None
        end
    end.

(** milter_event_loop_is_running, milter-event-loop.c:193-202. *)
Definition is_running (l : loop) : bool := (0 <? l_depth l)%N.

(** A history and what is seen of it. *)
Fixpoint steps (l : loop) (es : list event) : option (loop * list out) :=
  match es with
  | [] => Some (l, [])
  | e :: es =>
      match step l e with
      | None => None
      | Some (l, o) => match steps l es with None => None | Some (l, o') => Some (l, o ++ o') end
      end
  end.
