(** What the owner of a reader can count on, by the visible events only, latest first. *)
From Verif.Base Require Import Bytes.
From Verif.Model Require Import Reader.
Local Open Scope nat_scope.

(** The bytes the peer sent. *)
Fixpoint arrived (t : list revent) : bytes :=
  match t with
  | [] => []
  | RArrived data :: t => arrived t ++ data
  | _ :: t => arrived t
  end.

(** The pieces handed to the owner, in order. *)
Fixpoint flows (t : list revent) : list bytes :=
  match t with
  | [] => []
  | RFlow data :: t => flows t ++ [data]
  | _ :: t => flows t
  end.

(** The life of a reader: started, then pieces and at most one error, then finished, then nothing
    before it is started again. *)
Inductive life := Idle | Reading | Hurt.
Fixpoint lives (t : list revent) : option life :=
  match t with
  | [] => Some Idle
  | e :: t =>
    match lives t, e with
    | None, _ => None
    | Some l, RArrived _ => Some l
    | Some Idle, RStarted => Some Reading
    | Some Reading, RFlow _ => Some Reading
    | Some Reading, RError => Some Hurt
    | Some Hurt, RFlow _ => Some Hurt
    | Some Reading, RStop => Some Reading
    | Some (Reading | Hurt), RFinished => Some Idle
    | _, _ => None
    end
  end.
