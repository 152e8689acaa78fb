(** The shelf on which conditions keep values during a mail: client/mail-transaction-shelf.rb and
    manager/child-context.rb of binding/ruby/lib/milter, and milter-client-context.c. *)
From Verif.Base Require Import Bytes.
From Verif.Model Require Import CommandCodec.

(** The hash table, made empty with the context: milter-client-context.c:2162-2165.  Keys and dumps are without NUL;
    the order of [foreach] is not that of glib. *)
Definition shelf := list (bytes * bytes).
(** milter_client_context_get_mail_transaction_shelf_value, 4616-4624. *)
Fixpoint lookup (t : shelf) (k : bytes) : option bytes :=
  match t with
  | [] => None
  | (k', v) :: t' => if bytes_eqb k' k then Some v else lookup t' k
  end.
(** milter_client_context_set_mail_transaction_shelf_value, 4605-4614. *)
Definition replace (t : shelf) (k v : bytes) : shelf := (k, v) :: filter (fun e => negb (bytes_eqb (fst e) k)) t.

Section Ruby.
  Variable V : Type.                    (* Ruby's values *)
  Variable dump : V -> bytes.           (* YAML.dump *)
  Variable yaml : bytes -> option V.    (* YAML.load; [None]: it raises *)

  (** What a condition does for the child it is asked about.  The shelf of every child is that of the context of the
      session (child-context.rb:25-30). *)
  Inductive action := Put (child k : bytes) (v : V) | Get (child k : bytes) | Each (child : bytes).
  Inductive answer := Done | Got (v : V) | Nothing | Pairs (l : list (bytes * V)) | Raises.
  (** each, mail-transaction-shelf.rb:20-24. *)
  Fixpoint pairs (t : shelf) : option (list (bytes * V)) :=
    match t with
    | [] => Some []
    | (k, d) :: t' => match yaml d, pairs t' with Some v, Some l => Some ((k, v) :: l) | _, _ => None end
    end.
  (** [] and []=, 10-18. *)
  Definition perform (t : shelf) (a : action) : shelf * answer :=
    match a with
    | Put _ k v => (replace t k (dump v), Done)
    | Get _ k => (t, match lookup t k with None => Nothing | Some d => match yaml d with Some v => Got v | None => Raises end end)
    | Each _ => (t, match pairs t with Some l => Pairs l | None => Raises end)
    end.
  Definition performed (t : shelf) (l : list action) : shelf := fold_left (fun t a => fst (perform t a)) l t.
  (** A command of the MTA with what the conditions do while it is handled.  Only cb_decoder_abort (4242-4263) calls
      milter_client_context_reset_message_related_data (3276-3289), which clears the shelf (4635-4642). *)
  Definition receive (t : shelf) (c : command) (l : list action) : shelf :=
    match c with CAbort => [] | _ => performed t l end.
  (** All sessions; each has its context. *)
  Definition world := nat -> shelf.
  Definition start : world := fun _ => [].
  Definition happen (w : world) (e : nat * command * list action) : world :=
    let '(i, c, l) := e in fun j => if Nat.eqb i j then receive (w i) c l else w j.
  Definition history (l : list (nat * command * list action)) : world := fold_left happen l start.
End Ruby.
Arguments Put {V}. Arguments Get {V}. Arguments Each {V}.
Arguments Done {V}. Arguments Got {V}. Arguments Nothing {V}. Arguments Pairs {V}. Arguments Raises {V}.
