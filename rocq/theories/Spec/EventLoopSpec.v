(** What is to be said of an event loop, in terms of what is seen of a history only. *)
From Verif.Base Require Import Bytes.
From Verif.Model Require Import EventLoop.

(** The sources there are after a history: added and not destroyed, with ID and kind. *)
Definition note (there : list (nat * N * kind)) (o : out) : list (nat * N * kind) :=
  match o with
  | Added n id k => there ++ [(n, id, k)]
  | Destroyed n => filter (fun s => negb (Nat.eqb (fst (fst s)) n)) there
  | _ => there
  end.
Definition there (tr : list out) : list (nat * N * kind) := fold_left note tr [].

(** Its life: the adding, the calls, the destruction. *)
Definition about (n : nat) (o : out) : bool :=
  match o with
  | Added m _ _ | Called m _ | Destroyed m => Nat.eqb m n
  | _ => false
  end.
Definition life (n : nat) (tr : list out) : list out := filter (about n) tr.

Definition calls_of (n : nat) (l : list out) : Prop := Forall (fun o => exists c, o = Called n c) l.

Inductive proper (n : nat) : list out -> Prop :=
| P_not_yet : proper n []
| P_there id k calls : calls_of n calls -> proper n (Added n id k :: calls)
| P_gone id k calls : calls_of n calls -> proper n (Added n id k :: calls ++ [Destroyed n]).

(** The runs in progress, innermost first, with whether they were told to quit: a quit is for the
    innermost run that was not told yet. *)
Fixpoint tell (rs : list bool) : list bool :=
  match rs with
  | [] => []
  | true :: rs => true :: tell rs
  | false :: rs => true :: rs
  end.
Definition note_run (rs : list bool) (o : out) : list bool :=
  match o with
  | Started => false :: rs
  | Quitted => tell rs
  | Ended => tl rs
  | _ => rs
  end.
Definition runs (tr : list out) : list bool := fold_left note_run tr [].

Definition is_call (o : out) : bool := match o with Called _ _ => true | _ => false end.

Definition is_added (o : out) : bool := match o with Added _ _ _ => true | _ => false end.

(** Callbacks that neither iterate nor run the loop, and one iteration only. *)
Definition nested (e : event) : bool := match e with Iterate | Run | Leave => true | _ => false end.
