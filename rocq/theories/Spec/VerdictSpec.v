(** Verdict priority and option flags, stated without the model's functions. *)
From Coq Require Import List NArith.
From Verif.Model Require Import Status.
Import ListNotations.

(** The verdicts from the strongest to the weakest. *)
Definition priority : list status :=
  [S_DISCARD; S_REJECT; S_TEMPORARY_FAILURE; S_CONTINUE; S_SKIP; S_ACCEPT].

(** [v] is stronger than [w]: it comes first in [priority]. *)
Definition stronger (v w : status) : Prop :=
  exists a b c, priority = a ++ v :: b ++ w :: c.

(** The strongest verdict among [vs]. *)
Definition strongest (vs : list status) (v : status) : Prop :=
  In v vs /\ forall w, In w vs -> ~ stronger w v.

Definition verdict (v : status) : Prop := In v priority.

(** Bit positions of the step flags (the milter protocol's SMFIP_ values). *)
Definition no_event_bits : list N := [0; 1; 2; 3; 4; 5; 6; 8; 9]%N.
Definition no_reply_bits : list N := [7; 12; 13; 14; 15; 16; 17; 18; 19]%N.
Definition yes_bits : list N := [10; 11; 20]%N.
