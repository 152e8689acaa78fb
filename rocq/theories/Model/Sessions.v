(** Model of the sessions milter-manager keeps and of the periodical check of their connections:
    milter/manager/milter-manager.c, connection_check, start_periodical_connection_checker,
    cb_leader_finished and setup_context_signals, and milter/manager/milter-manager-leader.c,
    milter_manager_leader_check_connection and milter_manager_leader_quit.  Sessions are numbered in the
    order they are established in.  A node of the GList is named by its session. *)
From Coq Require Import Arith NArith List Bool.
Import ListNotations.
Local Open Scope N_scope.

Record book := mk_book {
  b_count : nat;                   (* sessions established so far *)
  b_leaders : list nat;            (* priv->leaders *)
  b_next : option nat;             (* priv->next_connection_checked_leader *)
  b_done : list nat;               (* priv->finished_leaders *)
  b_id : bool;                     (* periodical_connection_checker_id is not 0 *)
  b_interval : N;                  (* current_periodical_connection_check_interval *)
  b_timer : option N;              (* the timeout source, with its interval, while the loop has it *)
  b_children : nat -> bool;        (* the leader has children: negotiation was asked for *)
  b_processing : nat -> bool;      (* priv->processing of the leader: the filters have negotiated *)
  b_over : nat -> bool             (* cb_leader_finished has run and is disconnected *)
}.

Definition new_book : book :=
  mk_book 0 [] None [] false 0 None (fun _ => false) (fun _ => false) (fun _ => false).

Definition set_at (f : nat -> bool) (s : nat) (v : bool) : nat -> bool :=
  fun t => if (s =? t)%nat then v else f t.

(** dispose_periodical_connection_checker, milter-manager.c:238-253.  Removing an id the loop does not
    know any more has no effect. *)
Definition dispose_checker (b : book) : book :=
  if b_id b then
    mk_book (b_count b) (b_leaders b) (b_next b) (b_done b) false 0 None (b_children b) (b_processing b) (b_over b)
  else
    mk_book (b_count b) (b_leaders b) (b_next b) (b_done b) (b_id b) 0 (b_timer b) (b_children b) (b_processing b) (b_over b).

(** start_periodical_connection_checker, milter-manager.c:396-426; [interval] is what the
    configuration says now. *)
Definition start_checker (b : book) (interval : N) : book :=
  if 0 <? interval then
    if negb (b_id b) || negb (interval =? b_interval b) then
      let b := dispose_checker b in
      mk_book (b_count b) (b_leaders b) (b_next b) (b_done b) true interval (Some interval)
              (b_children b) (b_processing b) (b_over b)
    else b
  else dispose_checker b.

Definition remove (s : nat) (l : list nat) : list nat := filter (fun t => negb (t =? s)%nat) l.

(** The list from a node on. *)
Fixpoint from (s : nat) (l : list nat) : list nat :=
  match l with
  | [] => []
  | t :: l' => if (t =? s)%nat then l else from s l'
  end.

(** g_list_next of the node of a session. *)
Definition after (s : nat) (l : list nat) : option nat := hd_error (tl (from s l)).

Inductive event :=
| Checked (s : nat)       (* connection-check is emitted for the session *)
| Lost (s : nat)          (* it is answered with the fallback status at disconnect; filters get abort and quit *)
| Over (s : nat)          (* the leader has finished *)
| Freed (s : nat).        (* the manager's reference is given back *)

(** finished of the leader and cb_leader_finished, milter-manager-leader.c:375-383, milter-manager.c:732-763. *)
Definition leader_finished (b : book) (s : nat) (checking : bool) : book * list event :=
  if b_over b s then (b, [])
  else
    let b :=
      if checking then b
      else
        let b :=
          if existsb (Nat.eqb s) (b_leaders b) then
            let next := match b_next b with
                        | Some n => if (n =? s)%nat then after s (b_leaders b) else Some n
                        | None => None
                        end in
            mk_book (b_count b) (remove s (b_leaders b)) next (b_done b) (b_id b) (b_interval b) (b_timer b)
                    (b_children b) (b_processing b) (b_over b)
          else b in
        match b_leaders b with [] => dispose_checker b | _ => b end in
    (mk_book (b_count b) (b_leaders b) (b_next b) (s :: b_done b) (b_id b) (b_interval b) (b_timer b)
             (b_children b) (set_at (b_processing b) s false) (set_at (b_over b) s true), [Over s]).

(** milter_manager_leader_check_connection, milter-manager-leader.c:159-243.  [waiting] is
    milter_manager_children_is_waiting_reply, [gone] the answer of the connection-check handlers.
    milter_manager_children_quit emits finished at once (milter-manager-children.c:4112-4113). *)
Definition check_connection (waiting gone : nat -> bool) (b : book) (s : nat) : book * bool * list event :=
  if b_processing b s && waiting s then
    if gone s then
      let '(b, e) := leader_finished b s true in (b, false, Checked s :: Lost s :: e)
    else (b, true, [Checked s])
  else (b, true, []).

(** n_leaders_per_connection_check, milter-manager.c:370. *)
Definition per_check : nat := 30.

(** The loop of connection_check, milter-manager.c:378-389: [rest] is the list from [node] on. *)
Fixpoint check_loop (waiting gone : nat -> bool) (n : nat) (rest : list nat) (b : book) : book * list event :=
  match n, rest with
  | S n, s :: rest =>
      let '(b, connected, e) := check_connection waiting gone b s in
      let b := if connected then b
               else mk_book (b_count b) (remove s (b_leaders b)) (b_next b) (b_done b) (b_id b) (b_interval b)
                            (b_timer b) (b_children b) (b_processing b) (b_over b) in
      let '(b, e') := check_loop waiting gone n rest b in (b, e ++ e')
  | _, _ =>
      (mk_book (b_count b) (b_leaders b) (hd_error rest) (b_done b) (b_id b) (b_interval b) (b_timer b)
               (b_children b) (b_processing b) (b_over b), [])
  end.

(** connection_check, milter-manager.c:363-394; the loop drops the source if it returns FALSE. *)
Definition connection_check (waiting gone : nat -> bool) (b : book) : book * list event :=
  let node := match b_next b with Some s => from s (b_leaders b) | None => b_leaders b end in
  let '(b, e) := check_loop waiting gone per_check node b in
  match b_leaders b with
  | [] => (mk_book (b_count b) (b_leaders b) (b_next b) (b_done b) (b_id b) (b_interval b) None
                   (b_children b) (b_processing b) (b_over b), e)
  | _ => (b, e)
  end.

Inductive op :=
| Establish (interval : N)        (* connection_established; the interval configured then *)
| Negotiate (s : nat)             (* the agent negotiates: milter_manager_leader_negotiate makes the children *)
| Negotiated (s : nat)            (* the children answer *)
| Close (s : nat)                 (* the connection to the agent has ended: cb_client_finished *)
| Done (s : nat)                  (* the children have finished on their own or abort *)
| Tick (waiting gone : nat -> bool)
| Report.                         (* sessions-finished, milter-manager.c:1201-1211 *)

(** One step.  Sessions that do not exist or are over do nothing. *)
Definition book_step (b : book) (o : op) : book * list event :=
  match o with
  | Establish interval =>
      let b := mk_book (S (b_count b)) (b_count b :: b_leaders b) (b_next b) (b_done b) (b_id b) (b_interval b)
                       (b_timer b) (b_children b) (b_processing b) (b_over b) in
      (start_checker b interval, [])
  | Negotiate s =>
      if (s <? b_count b)%nat && negb (b_over b s) then
        (mk_book (b_count b) (b_leaders b) (b_next b) (b_done b) (b_id b) (b_interval b) (b_timer b)
                 (set_at (b_children b) s true) (b_processing b) (b_over b), [])
      else (b, [])
  | Negotiated s =>
      if (s <? b_count b)%nat && negb (b_over b s) && b_children b s then
        (mk_book (b_count b) (b_leaders b) (b_next b) (b_done b) (b_id b) (b_interval b) (b_timer b)
                 (b_children b) (set_at (b_processing b) s true) (b_over b), [])
      else (b, [])
  | Close s =>
      (* milter_manager_leader_quit, milter-manager-leader.c:1274-1290 *)
      if (s <? b_count b)%nat && b_children b s then leader_finished b s false else (b, [])
  | Done s =>
      if (s <? b_count b)%nat && b_children b s then leader_finished b s false else (b, [])
  | Tick waiting gone =>
      match b_timer b with
      | Some _ => connection_check waiting gone b
      | None => (b, [])
      end
  | Report =>
      (mk_book (b_count b) (b_leaders b) (b_next b) [] (b_id b) (b_interval b) (b_timer b)
               (b_children b) (b_processing b) (b_over b), map Freed (b_done b))
  end.

Fixpoint book_run (b : book) (ops : list op) : book * list event :=
  match ops with
  | [] => (b, [])
  | o :: ops =>
      let '(b, e) := book_step b o in
      let '(b, e') := book_run b ops in (b, e ++ e')
  end.
