(** Specification of the packet stream: what a sequence of packets is and what a receiver
    should do with it, written without the decoder. *)
From Verif.Base Require Import Bytes.
From Verif.Model Require Import Decoder.

(** A packet: the 4-byte big-endian number of bytes that follow, then those bytes. *)
Definition frame (p : bytes) : bytes := be32 (N.of_nat (length p)) ++ p.

(** The rest of a stream that holds no complete packet.  An announced length of 2^31 or more
    is never completed: the code keeps it in a signed 32-bit variable. *)
Definition incomplete (t : bytes) : Prop :=
  (length t < 4)%nat \/
  exists n r, (n < 4294967296)%N /\ t = be32 n ++ r /\
              ((N.of_nat (length r) < n)%N \/ (2147483648 <= n)%N).

(** [s] consists of the complete packets with contents [ps], and then [t]. *)
Definition framed (s : bytes) (ps : list bytes) (t : bytes) : Prop :=
  s = concat (map frame ps) ++ t /\
  Forall (fun p => (zlen p < 2147483648)%Z) ps /\
  incomplete t.

(** A byte stream that fits the address space. *)
Definition fits (s : bytes) : Prop := (zlen s < 2 ^ 63)%Z.

(** How receiving a list of packets ends. *)
Inductive ending := Complete | Refused | Undefined.

(** Receiving packets one after the other: the messages reported, the errors raised, and how
    it ended.  [h] is what the receiver does with one packet taken by itself. *)
Fixpoint receive {ev : Type} (h : bytes -> hres ev) (ps : list bytes)
  : list ev * list derror * ending :=
  match ps with
  | [] => ([], [], Complete)
  | p :: ps' =>
      match h p with
      | HOk evs e =>
          let '(evs', es, st) := receive h ps' in
          (evs ++ evs', (match e with Some e => [e] | None => [] end) ++ es, st)
      | HFail e => ([], match e with Some e => [e] | None => [] end, Refused)
      | HUB => ([], [], Undefined)
      end
  end.

(** The handler's behaviour on packet [p] does not depend on what follows it. *)
Definition self_contained {ev : Type} (handler : bytes -> Z -> hres ev) (p : bytes) : Prop :=
  forall more, handler (p ++ more) (zlen p) = handler p (zlen p).
