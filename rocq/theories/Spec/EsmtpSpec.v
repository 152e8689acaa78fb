(** The arguments of MAIL FROM and RCPT TO, as texts. *)
From Verif.Base Require Import Bytes.
Local Open Scope N_scope.

Definition letter_or_digit (c : byte) : Prop :=
  48 <= code c <= 57 \/ 65 <= code c <= 90 \/ 97 <= code c <= 122.
Definition atom_char (c : byte) : Prop := letter_or_digit c \/ In c (lit "!#$%&'*+-/=?^_`{|}~").

(** Within quotes or brackets: a character other than the delimiters, the backslash and white
    space (vertical tab may stand for itself), or a backslash with a text character. *)
Inductive quoted (delimiters : list byte) : bytes -> Prop :=
| quoted_nil : quoted delimiters []
| quoted_char c s :
    ~ In c delimiters -> c <> "\"%char ->
    1 <= code c <= 8 \/ code c = 11 \/ 14 <= code c <= 31 \/ 33 <= code c <= 127 ->
    quoted delimiters s -> quoted delimiters (c :: s)
| quoted_pair c s :
    1 <= code c <= 9 \/ code c = 11 \/ code c = 12 \/ 14 <= code c <= 126 ->
    quoted delimiters s -> quoted delimiters ("\"%char :: c :: s).

Inductive domain_text : bytes -> Prop :=
| domain_name c s :
    letter_or_digit c -> Forall (fun c => letter_or_digit c \/ In c (lit "-.")) s ->
    domain_text (c :: s)
| domain_literal s :
    quoted (lit "[]") s -> domain_text ("["%char :: s ++ lit "]").

Inductive local_text : bytes -> Prop :=
| local_atoms s : Forall (fun c => atom_char c \/ c = "."%char) s -> local_text s
| local_quoted s : quoted (lit """") s -> local_text (""""%char :: s ++ lit """").

(** Hosts of a source route, each after an at sign, separated by commas; a comma may follow the
    last one. *)
Inductive route_text : bytes -> Prop :=
| route_one d : domain_text d -> route_text ("@"%char :: d)
| route_comma d : domain_text d -> route_text ("@"%char :: d ++ lit ",")
| route_more d r : domain_text d -> route_text r -> route_text ("@"%char :: d ++ ","%char :: r).

Inductive path_text (postmaster : bool) : bytes -> option bytes -> Prop :=
| path_null : path_text postmaster (lit "<>") None
| path_postmaster : postmaster = true -> path_text postmaster (lit "<Postmaster>") (Some (lit "<Postmaster>"))
| path_mailbox l d :
    local_text l -> domain_text d ->
    let p := "<"%char :: l ++ "@"%char :: d ++ lit ">" in
    (l <> []) -> path_text postmaster p (Some p)
| path_route r l d :
    route_text r -> local_text l -> domain_text d ->
    let p := "<"%char :: r ++ ":"%char :: l ++ "@"%char :: d ++ lit ">" in
    path_text postmaster p (Some p).

(** A parameter: a keyword and perhaps a value. *)
Definition keyword (k : bytes) : Prop :=
  match k with
  | [] => False
  | c :: s => letter_or_digit c /\ Forall (fun c => letter_or_digit c \/ c = "-"%char) s
  end.
Definition parameter_value (v : bytes) : Prop :=
  Forall (fun c => 33 <= code c <= 126 /\ c <> "="%char) v.
Definition parameter_ok (p : bytes * option bytes) : Prop :=
  keyword (fst p) /\ match snd p with Some v => parameter_value v | None => True end.
Definition parameter_text (p : bytes * option bytes) : bytes :=
  " "%char :: fst p ++ match snd p with Some v => "="%char :: v | None => [] end.

(** An argument with the path it names and its parameters. *)
Definition argument_text (postmaster : bool) (s : bytes) (path : option bytes)
    (ps : list (bytes * option bytes)) : Prop :=
  exists p, path_text postmaster p path /\ Forall parameter_ok ps /\
            s = p ++ concat (map parameter_text ps).

(** The last parameter with a keyword counts. *)
Inductive last_parameter : list (bytes * option bytes) -> bytes -> option (option bytes) -> Prop :=
| last_none ps k : (forall v, ~ In (k, v) ps) -> last_parameter ps k None
| last_some before after k v :
    (forall v', ~ In (k, v') after) -> last_parameter (before ++ (k, v) :: after) k (Some v).
