(** What a search in a text finds, written without the functions that search. *)
From Verif.Base Require Import Bytes.
Local Open Scope N_scope.

(** [t] stands in [s] behind [pre]. *)
Definition stands (s pre t : bytes) : Prop := exists post, s = pre ++ t ++ post.

(** The leftmost piece of [s] with property [Q], and the longest there. *)
Definition leftmost (Q : bytes -> Prop) (s t : bytes) : Prop :=
  exists pre, stands s pre t /\ Q t /\
    (forall pre' t', stands s pre' t' -> Q t' -> (length pre <= length pre')%nat) /\
    (forall t', stands s pre t' -> Q t' -> (length t' <= length t)%nat).
Definition nowhere (Q : bytes -> Prop) (s : bytes) : Prop :=
  forall pre t, stands s pre t -> ~ Q t.

Definition no_brackets (s : bytes) : Prop := ~ In "<"%char s /\ ~ In ">"%char s.
Definition white (c : byte) : Prop := c = " "%char \/ 9 <= N_of_ascii c <= 13.
Definition word_of (s : bytes) : Prop :=
  s <> [] /\ Forall (fun c => ~ white c /\ c <> "<"%char /\ c <> ">"%char) s.

(** A path in angle brackets, a word with an "@" inside, a word. *)
Definition bracketed (s : bytes) : Prop := exists a, s = "<"%char :: a ++ [">"%char] /\ no_brackets a.
Definition with_at (s : bytes) : Prop := exists l d, s = l ++ "@"%char :: d /\ word_of l /\ word_of d.

(** The address a text contains. *)
Inductive contains_address (s : bytes) : bytes -> Prop :=
| ca_path a : leftmost bracketed s ("<"%char :: a ++ [">"%char]) -> contains_address s a
| ca_mailbox t : nowhere bracketed s -> leftmost with_at s t -> contains_address s t
| ca_word t : nowhere bracketed s -> nowhere with_at s -> leftmost word_of s t -> contains_address s t
| ca_none : nowhere bracketed s -> nowhere with_at s -> nowhere word_of s -> contains_address s s.

(** [d] is the domain of the address [a]: what stands behind an "@" that has something before
    and behind it, the last such. *)
Definition at_parts (a l d : bytes) : Prop := a = l ++ "@"%char :: d /\ l <> [] /\ d <> [].
Definition has_domain (a d : bytes) : Prop :=
  ~ In (byte_of 10) a /\ (exists l, at_parts a l d) /\
  forall l' d', at_parts a l' d' -> (length d <= length d')%nat.
