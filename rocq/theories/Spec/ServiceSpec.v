(** What the life of a daemon must look like, in terms of what it does and says. *)
From Coq Require Import NArith List Bool.
From Verif.Model Require Import Service.
Import ListNotations.
Local Open Scope N_scope.

(** The connections taken from the listening socket, the ones whose session was set up (or failed to
    be), and the sessions that ended, each in order. *)
Fixpoint taken (l : list service_event) : list nat :=
  match l with
  | [] => []
  | Connected i :: l => i :: taken l
  | _ :: l => taken l
  end.

Fixpoint served (l : list service_event) : list nat :=
  match l with
  | [] => []
  | Established i :: l => i :: served l
  | StartFailed i :: l => i :: served l
  | _ :: l => served l
  end.

Fixpoint over (l : list service_event) : list nat :=
  match l with
  | [] => []
  | Ended i :: l => i :: over l
  | _ :: l => over l
  end.

(** The number of ended sessions told to the program. *)
Fixpoint reported (l : list service_event) : N :=
  match l with
  | [] => 0
  | SessionsFinished n :: l => n + reported l
  | _ :: l => reported l
  end.

(** The sessions not told to be over yet. *)
Definition open (l : list service_event) : N := N.of_nat (length (taken l)) - reported l.

(** Maintenance is due when the last session is gone, or when the number of sessions ever finished
    reached a multiple of the interval. *)
Definition due (interval before n left : N) : Prop :=
  0 < n /\ (left = 0 \/ exists k, before < k * interval /\ k * interval <= before + n).

(** "maintain" comes right after "sessions-finished" when it is due, and at no other time. *)
Fixpoint upkeep (interval total left : N) (expected : Prop) (l : list service_event) : Prop :=
  match l with
  | [] => ~ expected
  | Maintain :: l => expected /\ upkeep interval total left False l
  | SessionsFinished n :: l =>
      ~ expected /\ upkeep interval (total + n) (left - n) (due interval total n (left - n)) l
  | Connected _ :: l => ~ expected /\ upkeep interval total (left + 1) False l
  | _ :: l => ~ expected /\ upkeep interval total left False l
  end.

(** The daemon was asked to end. *)
Definition ends (o : service_op) : bool :=
  match o with Shutdown | MasterGone | ListenError => true | _ => false end.

(** Somebody still holds the listening socket, so the kernel goes on taking connections for it. *)
Definition listening (s : service) : bool := v_listen_channel s || v_listening_channel s.

(** The default mode and a worker process. *)
Definition loops (m : mode) : Prop := m = SingleLoop \/ m = Worker.

(** Everything that happened up to now in the life of a daemon. *)
Definition life (m : mode) (l : limits) (listened : bool) (ops : list service_op) : list service_event :=
  snd (service_run m l (service_start listened) ops).

(** No counter of the daemon wraps: fewer than 2^32 things happen. *)
Definition short (ops : list service_op) : Prop := N.of_nat (length ops) < 4294967296.
