(** What a connection spec names. *)
From Verif.Base Require Import Bytes.
From Verif.Model Require Import ConnectionSpec.
Local Open Scope N_scope.

Definition digit_char (c : byte) : Prop := 48 <= code c <= 57.

(** Positional value of a text of digits. *)
Fixpoint number (s : bytes) : N :=
  match s with
  | [] => 0
  | c :: s' => (code c - 48) * 10 ^ N.of_nat (length s') + number s'
  end.

(** The part after the port: nothing names the wildcard address, a bracketed text the address
    it denotes, another text a host name. *)
Inductive host_part (any : bytes) (pton resolve : bytes -> option bytes) : bytes -> bytes -> Prop :=
| host_none : host_part any pton resolve [] any
| host_literal t ip :
    pton t = Some ip -> host_part any pton resolve (lit "@[" ++ t ++ lit "]") ip
| host_name t ip :
    (forall t', t <> "["%char :: t') -> resolve t = Some ip ->
    host_part any pton resolve ("@"%char :: t) ip.

Section Names.
  Variables (pton4 pton6 resolve4 resolve6 : bytes -> option bytes).
  Inductive names : bytes -> saddr -> Prop :=
  | names_unix path : path <> [] -> names (lit "unix:" ++ path) (SUnix path)
  | names_local path : path <> [] -> names (lit "local:" ++ path) (SUnix path)
  | names_inet digits host ip :
      Forall digit_char digits -> number digits <= 65535 ->
      host_part (repeat NUL 4) pton4 resolve4 host ip -> digits ++ host <> [] ->
      names (lit "inet:" ++ digits ++ host) (SInet (number digits) ip)
  | names_inet6 digits host ip :
      Forall digit_char digits -> number digits <= 65535 ->
      host_part (repeat NUL 16) pton6 resolve6 host ip -> digits ++ host <> [] ->
      names (lit "inet6:" ++ digits ++ host) (SInet6 (number digits) ip).
End Names.

(** The path of a local spec and the port of an internet spec are within what the C types hold. *)
Definition path_fits (s : bytes) : Prop :=
  forall path, s = lit "unix:" ++ path \/ s = lit "local:" ++ path -> N.of_nat (length path) < 108.
Definition port_fits (s : bytes) : Prop :=
  forall digits rest, s = lit "inet:" ++ digits ++ rest \/ s = lit "inet6:" ++ digits ++ rest ->
    Forall digit_char digits -> number digits < 2147483648.

(** Addresses a socket can have. *)
Definition saddr_ok (a : saddr) : Prop :=
  match a with
  | SUnix path => path <> [] /\ no_nul path /\ N.of_nat (length path) < 108
  | SInet port ip => port <= 65535 /\ length ip = 4%nat
  | SInet6 port ip => port <= 65535 /\ length ip = 16%nat
  end.
