(** Mail as text: header fields, an empty line, a body.  Nothing here uses the parser. *)
From Verif.Base Require Import Bytes.
Local Open Scope N_scope.

Definition lf : byte := "010"%char.
Definition cr : byte := "013"%char.

(** The two ways to end a line. *)
Definition line_end (nl : bytes) : Prop := nl = [lf] \/ nl = [cr; lf].

(** Text of one line: no line feed, no NUL, no carriage return at its end. *)
Definition line_text (s : bytes) : Prop :=
  ~ In lf s /\ ~ In NUL s /\ (forall s', s <> s' ++ [cr]).

Definition blank (c : byte) : Prop := c = " "%char \/ c = "009"%char.
Definition printable (c : byte) : Prop := 33 <= code c <= 126.
Definition letter_or_digit (c : byte) : Prop :=
  48 <= code c <= 57 \/ 65 <= code c <= 90 \/ 97 <= code c <= 122.
(** Neither a blank nor another character that C counts as white space. *)
Definition solid (c : byte) : Prop := 32 < code c.

(** A header field: name, blanks behind the colon, first line of the value, further lines. *)
Record field := mk_field {
  f_name : bytes;
  f_gap : bytes;
  f_first : bytes;
  f_more : list bytes
}.

Definition field_ok (f : field) : Prop :=
  (exists c s, f_name f = c :: s /\ letter_or_digit c) /\
  Forall (fun c => printable c /\ c <> ":"%char) (f_name f) /\
  Forall blank (f_gap f) /\
  line_text (f_first f) /\ (forall c s, f_first f = c :: s -> solid c) /\
  Forall (fun m => line_text m /\ exists c s, m = c :: s /\ blank c) (f_more f).

Definition field_text (nl : bytes) (f : field) : bytes :=
  f_name f ++ lit ":" ++ f_gap f ++ f_first f ++ nl ++ concat (map (fun m => m ++ nl) (f_more f)).
Definition field_value (nl : bytes) (f : field) : bytes :=
  f_first f ++ concat (map (fun m => nl ++ m) (f_more f)).

Definition mail_text (nl : bytes) (fields : list field) (body : bytes) : bytes :=
  concat (map (field_text nl) fields) ++ nl ++ body.

(** The line that starts a message in a mailbox file, or nothing. *)
Definition mailbox_mark (m : bytes) : Prop :=
  m = [] \/ exists s, m = lit "From " ++ s ++ [lf] /\ ~ In lf s /\ ~ In NUL s.

(** The path for the envelope in the value of an address field. *)
Inductive path_of : bytes -> bytes -> Prop :=
| PathIn before inner after :
    ~ In "<"%char before -> ~ In ">"%char inner ->
    path_of (before ++ lit "<" ++ inner ++ lit ">" ++ after) (lit "<" ++ inner ++ lit ">")
| PathWord blanks word after :
    Forall (eq " "%char) blanks -> ~ In " "%char word ->
    after = [] \/ (exists s, after = " "%char :: s) ->
    ~ In "<"%char (blanks ++ word ++ after) ->
    (word = [] -> after = []) ->
    path_of (blanks ++ word ++ after) (lit "<" ++ word ++ lit ">").

(** The paths of the fields of one name, in order. *)
Inductive paths (nl name : bytes) : list field -> list bytes -> Prop :=
| NoPath : paths nl name [] []
| OtherField f fs ps : f_name f <> name -> paths nl name fs ps -> paths nl name (f :: fs) ps
| AddressField f fs p ps :
    f_name f = name -> path_of (field_value nl f) p -> paths nl name fs ps ->
    paths nl name (f :: fs) (p :: ps).
