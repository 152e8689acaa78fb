(** What a custom SMTP reply is, written without the parser. *)
From Verif.Base Require Import Bytes.
Local Open Scope N_scope.

(** One to three decimal digits. *)
Definition short_number (s : bytes) : Prop :=
  (1 <= length s <= 3)%nat /\ Forall (fun c => is_digit c = true) s.

(** RFC 3463: class "." subject "." detail, the class being one digit. *)
Definition status_code (class : N) (s : bytes) : Prop :=
  exists subject detail,
    short_number subject /\ short_number detail /\
    s = byte_of (48 + class) :: "."%char :: subject ++ "."%char :: detail.

(** A reply a filter may choose. *)
Definition acceptable (c : N) (extended : option bytes) : Prop :=
  (400 <= c < 600) /\
  match extended with None => True | Some e => status_code (c / 100) e end.

(** One line of text. *)
Definition one_line (m : bytes) : Prop :=
  m <> [] /\ no_nul m /\ ~ In "010"%char m /\ last m NUL <> "013"%char.
