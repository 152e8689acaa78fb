(** What was put on the shelf of a session, from the side of who writes conditions. *)
From Verif.Base Require Import Bytes.
From Verif.Model Require CommandCodec Shelf.
Import CommandCodec(command, CAbort). Import Shelf(action, Put).

Section Shelves.
  Variable V : Type.
  Definition event := (nat * command * list (action V))%type.
  (** While this session handles a command, one of its conditions puts [v] for [k]; it does nothing for [k]. *)
  Definition puts (l : list (action V)) (k : bytes) (v : V) : Prop :=
    exists l1 child l2, l = l1 ++ Put child k v :: l2 /\ (forall ch w, ~ In (Put ch k w) l2).
  Definition quiet (l : list (action V)) (k : bytes) : Prop := forall ch w, ~ In (Put ch k w) l.
  (** Events behind which a value for [k] in the session [i] is still there. *)
  Definition keeps (i : nat) (k : bytes) (e : event) : Prop :=
    fst (fst e) <> i \/ (snd (fst e) <> CAbort /\ quiet (snd e) k).
  (** [v] was put last for [k] in the session [i], and nothing was aborted since. *)
  Definition there (l : list event) (i : nat) (k : bytes) (v : V) : Prop :=
    exists l1 c acts l2, l = l1 ++ (i, c, acts) :: l2 /\ c <> CAbort /\ puts acts k v /\ Forall (keeps i k) l2.
  (** Nothing was put since the start or since the last abort. *)
  Definition not_there (l : list event) (i : nat) (k : bytes) : Prop :=
    Forall (keeps i k) l \/ exists l1 acts l2, l = l1 ++ (i, CAbort, acts) :: l2 /\ Forall (keeps i k) l2.
End Shelves.
Arguments there {V}. Arguments not_there {V}. Arguments keeps {V}. Arguments puts {V}. Arguments quiet {V}.
