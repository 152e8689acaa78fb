(** Model of the life of a MilterClient, milter/client/milter-client.c: accepting connections, counting
    sessions, ending. *)
From Coq Require Import Arith NArith List Bool.
Import ListNotations.
Local Open Scope N_scope.

(** milter_client_run_loop, 2268-2324: one event loop for everything (the default); the same in a
    forked worker process (n_workers > 0); a thread of its own for accepting
    (MILTER_USE_ACCEPT_LOOP=yes); a thread pool (multi_thread_mode). *)
Inductive mode := SingleLoop | Worker | AcceptLoop | MultiThread.

(** milter_client_get_max_connections, get_max_pending_finished_sessions and
    get_maintenance_interval; they do not change during the run. *)
Record limits := mk_limits { l_max_connections : N; l_max_pending : N; l_interval : N }.

(** guint. *)
Definition GUINT : N := 4294967296.
Definition inc (n : N) : N := (n + 1) mod GUINT.
Definition dec (n : N) : N := (n + (GUINT - 1)) mod GUINT.
Definition minus (a b : N) : N := (a + (GUINT - b)) mod GUINT.

(** Where the accepting thread is: waiting, past the test of the limit, or holding a connection with
    the number of sessions it read (n_processing_sessions++ is a read and a write, without lock). *)
Inductive acceptor := Resting | Passed | Counting (id : nat) (read : N).

(** MilterClientPrivate, 66-135, as far as sessions and the loop are concerned.  Connections are
    numbered as they are accepted.  An empty finished_data is NULL. *)
Record service := mk_service {
  v_next : nat;
  v_n_processing : N;
  v_n_processed : N;
  v_setup : list nat;             (* idle handlers that will set a session up, oldest first *)
  v_processing : list nat;
  v_finished : list nat;
  v_finisher : bool;              (* finisher_id > 0 *)
  v_quitting : bool;
  v_watching : bool;              (* accept_watch_id > 0 *)
  v_listen_channel : bool;        (* listen_channel holds the socket *)
  v_listening_channel : bool;     (* listening_channel holds the socket *)
  v_running : bool;               (* the event loop has not been told to quit *)
  v_stuck : bool;                 (* the thread of the event loop sleeps in accept_connection_fd *)
  v_undefined : bool;
  v_acceptor : acceptor
}.

Inductive service_event :=
| Connected (id : nat)            (* accept() gave a connection *)
| Established (id : nat)          (* "connection-established" *)
| StartFailed (id : nat)          (* the session's "error" *)
| AcceptError                     (* the client's "error" *)
| Ended (id : nat)                (* the session's "finished" *)
| SessionsFinished (n : N)        (* "sessions-finished" *)
| Maintain                        (* "maintain" *)
| Suspended                       (* the warning that accepting is suspended *)
| Quit.                           (* milter_event_loop_quit on the event loop *)

(** What accept() says, and whether milter_agent_start works for the connection. *)
Inductive accepting := Accepted (starts : bool) | Again | Failed.

Inductive service_op :=
| Incoming (r : accepting)        (* the listening socket is readable *)
| Setup (starts : bool)           (* the oldest idle handler runs *)
| Finish (id : nat)               (* a session's context emits "finished" *)
| Idle                            (* the finisher runs *)
| Shutdown                        (* milter_client_shutdown *)
| MasterGone                      (* a worker reads end of file from its master *)
| ListenError                     (* an error condition on the listening socket *)
| AcceptorCheck                   (* the accepting thread's three steps *)
| AcceptorAccept (r : accepting)
| AcceptorStore.

Section Service.
  Variable m : mode.
  Variable l : limits.

  Definition set_counts (s : service) (n p : N) : service :=
    mk_service (v_next s) n p (v_setup s) (v_processing s) (v_finished s) (v_finisher s) (v_quitting s)
      (v_watching s) (v_listen_channel s) (v_listening_channel s) (v_running s) (v_stuck s)
      (v_undefined s) (v_acceptor s).
  Definition set_setup (s : service) (q : list nat) : service :=
    mk_service (v_next s) (v_n_processing s) (v_n_processed s) q (v_processing s) (v_finished s)
      (v_finisher s) (v_quitting s) (v_watching s) (v_listen_channel s) (v_listening_channel s)
      (v_running s) (v_stuck s) (v_undefined s) (v_acceptor s).
  Definition set_processing (s : service) (q : list nat) : service :=
    mk_service (v_next s) (v_n_processing s) (v_n_processed s) (v_setup s) q (v_finished s)
      (v_finisher s) (v_quitting s) (v_watching s) (v_listen_channel s) (v_listening_channel s)
      (v_running s) (v_stuck s) (v_undefined s) (v_acceptor s).
  Definition set_finished (s : service) (q : list nat) (finisher : bool) : service :=
    mk_service (v_next s) (v_n_processing s) (v_n_processed s) (v_setup s) (v_processing s) q finisher
      (v_quitting s) (v_watching s) (v_listen_channel s) (v_listening_channel s) (v_running s)
      (v_stuck s) (v_undefined s) (v_acceptor s).
  Definition set_running (s : service) (b : bool) : service :=
    mk_service (v_next s) (v_n_processing s) (v_n_processed s) (v_setup s) (v_processing s)
      (v_finished s) (v_finisher s) (v_quitting s) (v_watching s) (v_listen_channel s)
      (v_listening_channel s) b (v_stuck s) (v_undefined s) (v_acceptor s).
  Definition set_watching (s : service) (b : bool) : service :=
    mk_service (v_next s) (v_n_processing s) (v_n_processed s) (v_setup s) (v_processing s)
      (v_finished s) (v_finisher s) (v_quitting s) b (v_listen_channel s) (v_listening_channel s)
      (v_running s) (v_stuck s) (v_undefined s) (v_acceptor s).
  Definition set_next (s : service) (n : nat) : service :=
    mk_service n (v_n_processing s) (v_n_processed s) (v_setup s) (v_processing s) (v_finished s)
      (v_finisher s) (v_quitting s) (v_watching s) (v_listen_channel s) (v_listening_channel s)
      (v_running s) (v_stuck s) (v_undefined s) (v_acceptor s).
  Definition set_quitting (s : service) : service :=
    mk_service (v_next s) (v_n_processing s) (v_n_processed s) (v_setup s) (v_processing s)
      (v_finished s) (v_finisher s) true false (v_listen_channel s) false (v_running s) (v_stuck s)
      (v_undefined s) (v_acceptor s).
  Definition set_listen_channel (s : service) (a b : bool) : service :=
    mk_service (v_next s) (v_n_processing s) (v_n_processed s) (v_setup s) (v_processing s)
      (v_finished s) (v_finisher s) (v_quitting s) (v_watching s) a b (v_running s) (v_stuck s)
      (v_undefined s) (v_acceptor s).
  Definition set_stuck (s : service) : service :=
    mk_service (v_next s) (v_n_processing s) (v_n_processed s) (v_setup s) (v_processing s)
      (v_finished s) (v_finisher s) (v_quitting s) (v_watching s) (v_listen_channel s)
      (v_listening_channel s) (v_running s) true (v_undefined s) (v_acceptor s).
  Definition set_undefined (s : service) : service :=
    mk_service (v_next s) (v_n_processing s) (v_n_processed s) (v_setup s) (v_processing s)
      (v_finished s) (v_finisher s) (v_quitting s) (v_watching s) (v_listen_channel s)
      (v_listening_channel s) (v_running s) (v_stuck s) true (v_acceptor s).
  Definition set_acceptor (s : service) (a : acceptor) : service :=
    mk_service (v_next s) (v_n_processing s) (v_n_processed s) (v_setup s) (v_processing s)
      (v_finished s) (v_finisher s) (v_quitting s) (v_watching s) (v_listen_channel s)
      (v_listening_channel s) (v_running s) (v_stuck s) (v_undefined s) a.

  (** finish_processing, 583-630, with milter_client_session_finished, 2888-2895. *)
  Definition finish_processing (s : service) (i : nat) : service * list service_event :=
    let s := set_processing s (remove Nat.eq_dec i (v_processing s)) in
    let s := set_counts s (dec (v_n_processing s)) (inc (v_n_processed s)) in
    if v_quitting s && (v_n_processing s =? 0) then (set_running s false, [Quit]) else (s, []).

  Fixpoint finish_all (s : service) (ids : list nat) : service * list service_event :=
    match ids with
    | [] => (s, [])
    | i :: ids => let '(s, e) := finish_processing s i in
                  let '(s, es) := finish_all s ids in (s, e ++ es)
    end.

  (** milter_client_need_maintain, 653-669. *)
  Definition need_maintain (s : service) (n : N) : bool :=
    if (v_n_processing s =? 0) && (0 <? n) then true
    else if l_interval l =? 0 then false
    else v_n_processed s mod l_interval l <? n.

  (** dispose_finished_data, 671-696.  The manager's handlers of the two signals are not part of it. *)
  Definition dispose_finished_data (s : service) : service * list service_event :=
    match v_finished s with
    | [] => (s, [])
    | ids =>
        let before := v_n_processed s in
        let '(s, e) := finish_all s ids in
        let s := set_finished s [] (v_finisher s) in
        let n := minus (v_n_processed s) before in
        (s, e ++ SessionsFinished n :: (if need_maintain s n then [Maintain] else []))
    end.

  (** single_thread_cb_finished, 1177-1210: connected once to each session. *)
  Definition cb_finished (s : service) (i : nat) : service * list service_event :=
    let s := set_finished s (v_finished s ++ [i]) (v_finisher s) in
    if (0 <? l_max_pending l) && (l_max_pending l <? N.of_nat (length (v_finished s))) then
      let '(s, e) := dispose_finished_data (set_finished s (v_finished s) false) in
      (s, Ended i :: e)
    else (set_finished s (v_finished s) true, [Ended i]).

  (** single_thread_client_channel_setup, 1268-1306. *)
  Definition channel_setup (s : service) (i : nat) (starts : bool) : service * list service_event :=
    let s := set_processing s (i :: v_processing s) in
    if starts then (s, [Established i])
    else let '(s, e) := cb_finished s i in (s, StartFailed i :: e).

  (** milter_client_shutdown, 2518-2545. *)
  Definition shutdown (s : service) : service * list service_event :=
    if v_quitting s then (s, [])
    else
      let s := set_quitting s in
      if v_n_processing s =? 0 then (set_running s false, [Quit]) else (s, []).

  (** The test at the start of accept_connection_fd, 1357-1373: as long as it holds the thread
      sleeps. *)
  Definition at_limit (s : service) : bool :=
    (0 <? l_max_connections l) && (l_max_connections l <=? v_n_processing s).

  Definition count_connection (s : service) : service :=
    set_next (set_counts s (inc (v_n_processing s)) (v_n_processed s)) (S (v_next s)).

  (** The accept handlers of the modes without accepting thread:
      single_thread_single_loop_accept_watch_func (2212-2245), worker_accept_watch_func (2435-2457),
      multi_thread_accept_watch_func (1556-1639), with accept_connection_fd, 1346-1412.  When the
      limit is reached the thread sleeps until n_processing_sessions falls; in the first two modes
      only this thread changes it.  errno is taken to survive the logging and the "error" signal
      (2448).  In multi-thread mode the thread function takes the session for the client and the
      client for the session (1654-1655 against g_thread_pool_push at 1578 and g_thread_pool_new at
      1695-1696). *)
  Definition incoming (s : service) (r : accepting) : service * list service_event :=
    if at_limit s then
      match m with
      | MultiThread => (s, [Suspended])
      | _ => (set_stuck s, [Suspended])
      end
    else
      match r with
      | Again => (s, [])
      | Failed => (match m with Worker => set_watching s false | _ => s end, [AcceptError])
      | Accepted starts =>
          let i := v_next s in
          let s := count_connection s in
          match m with
          | SingleLoop => let '(s, e) := channel_setup s i starts in (s, Connected i :: e)
          | MultiThread =>
              let s := set_processing s (i :: v_processing s) in
              if starts then (set_undefined s, [Connected i])
              else (s, [Connected i; StartFailed i; Ended i])
          | _ => (set_setup s (v_setup s ++ [i]), [Connected i])
          end
      end.

  Definition holds (q : list nat) (i : nat) : bool := if in_dec Nat.eq_dec i q then true else false.

  Definition threaded : bool := match m with AcceptLoop => true | _ => false end.

  (** One turn of the event loop, or one step of the accepting thread.  Nothing happens once the loop
      has been told to quit (what the loop still dispatches in the same turn is left out), once its
      thread sleeps for good, or after undefined behaviour. *)
  Definition service_step (s : service) (o : service_op) : service * list service_event :=
    if negb (v_running s) || v_stuck s || v_undefined s then (s, [])
    else
      match o with
      | Incoming r => if v_watching s && negb threaded then incoming s r else (s, [])
      | Setup starts =>
          match v_setup s with
          | [] => (s, [])
          | i :: q => channel_setup (set_setup s q) i starts
          end
      | Finish i =>
          match m with
          | MultiThread => (s, [])    (* no handler is connected, 1556-1597 *)
          | _ =>
              if holds (v_processing s) i && negb (holds (v_finished s) i) then cb_finished s i else (s, [])
          end
      | Idle =>
          if v_finisher s then dispose_finished_data (set_finished s (v_finished s) false) else (s, [])
      | Shutdown => shutdown s
      | MasterGone =>
          match m with
          | Worker => shutdown (set_listen_channel s false false)
          | _ => (s, [])
          end
      | ListenError =>
          if v_quitting s then (s, []) else let '(s, e) := shutdown s in (s, AcceptError :: e)
      | AcceptorCheck =>
          match v_acceptor s with
          | Resting =>
              if threaded && v_watching s then
                if at_limit s then (s, [Suspended]) else (set_acceptor s Passed, [])
              else (s, [])
          | _ => (s, [])
          end
      | AcceptorAccept r =>
          match v_acceptor s with
          | Passed =>
              if v_listen_channel s || v_listening_channel s then
                match r with
                | Again => (set_acceptor s Resting, [])
                | Failed => (set_acceptor s Resting, [AcceptError])
                | Accepted _ =>
                    (set_next (set_acceptor s (Counting (v_next s) (v_n_processing s))) (S (v_next s)),
                     [Connected (v_next s)])
                end
              else (set_acceptor s Resting, [AcceptError])
          | _ => (s, [])
          end
      | AcceptorStore =>
          match v_acceptor s with
          | Counting i n =>
              (set_setup (set_counts (set_acceptor s Resting) (inc n) (v_n_processed s))
                         (v_setup s ++ [i]), [])
          | _ => (s, [])
          end
      end.

  Fixpoint service_run (s : service) (ops : list service_op) : service * list service_event :=
    match ops with
    | [] => (s, [])
    | o :: ops => let '(s, e) := service_step s o in
                  let '(s, es) := service_run s ops in (s, e ++ es)
    end.
End Service.

(** milter_client_prepare (2004-2053) or run_worker (2459-2516) on a new client; [listened] when
    milter_client_listen was called before, as milter_manager_main does
    (manager/milter-manager-main.c:647). *)
Definition service_start (listened : bool) : service :=
  mk_service 0 0 0 [] [] [] false false true listened true true false false Resting.
