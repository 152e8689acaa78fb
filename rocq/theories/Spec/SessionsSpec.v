(** What the manager must know about its sessions. *)
From Coq Require Import Arith NArith List Bool.
From Verif.Model Require Import Sessions.
Import ListNotations.

(** The sessions that were established, have ended, were given back. *)
Definition established (ops : list op) : nat :=
  length (filter (fun o => match o with Establish _ => true | _ => false end) ops).
Definition ended (l : list event) : list nat := flat_map (fun e => match e with Over s => [s] | _ => [] end) l.
Definition freed (l : list event) : list nat := flat_map (fun e => match e with Freed s => [s] | _ => [] end) l.

Definition history (ops : list op) : list event := snd (book_run new_book ops).
Definition now (ops : list op) : book := fst (book_run new_book ops).

(** The session is in progress: it was established and has not ended. *)
Definition in_progress (ops : list op) (s : nat) : Prop := (s < established ops)%nat /\ ~ In s (ended (history ops)).

(** Ticks of the timer in a list of operations. *)
Definition ticks (ops : list op) : nat :=
  length (filter (fun o => match o with Tick _ _ => true | _ => false end) ops).

(** The filters of the session are being waited for whenever the timer ticks. *)
Definition busy (s : nat) (ops : list op) : Prop :=
  Forall (fun o => match o with Tick waiting _ => waiting s = true | _ => True end) ops.

(** Operations that do not concern a session. *)
Definition about_others (s : nat) (o : op) : Prop :=
  match o with Negotiate t | Negotiated t | Close t | Done t => t <> s | _ => True end.
