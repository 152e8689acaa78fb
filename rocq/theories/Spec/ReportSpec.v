(** What a filter's requests make of a message, and what a report of it shows. *)
From Verif.Base Require Import Bytes BytesFacts.
From Verif.Model Require Import Headers ReplyCode ReplyCodec.
From Verif.Spec Require Import HeaderSpec MailSpec.

(** A message as far as a filter can change it. *)
Record letter := mk_letter {
  lt_from : bytes;
  lt_recipients : list bytes;
  lt_headers : list header;
  lt_body : bytes
}.

(** An address is put in angle brackets unless it is in them. *)
Inductive in_brackets : bytes -> bytes -> Prop :=
| Bracketed inner : in_brackets (lit "<" ++ inner ++ lit ">") (lit "<" ++ inner ++ lit ">")
| Bare address : (forall inner, address <> lit "<" ++ inner ++ lit ">") ->
    in_brackets address (lit "<" ++ address ++ lit ">").

(** The first of equal recipients is taken out. *)
Inductive without (r : bytes) : list bytes -> list bytes -> Prop :=
| WithoutFirst a b : ~ In r a -> without r (a ++ r :: b) (a ++ b)
| WithoutNone l : ~ In r l -> without r l l.

(** One request; the flag tells whether the body was replaced before, in which case the next
    piece follows. *)
Inductive requested : reply -> bool * letter -> bool * letter -> Prop :=
| RqAdd n v b f rs hs t hs' : added n (Some v) hs hs' ->
    requested (RAddHeader n v) (b, mk_letter f rs hs t) (b, mk_letter f rs hs' t)
| RqInsert i n v b f rs hs t hs' : inserted i (mk_header n v) hs hs' ->
    requested (RInsertHeader i n v) (b, mk_letter f rs hs t) (b, mk_letter f rs hs' t)
| RqChange n i v b f rs hs t hs' : changed n i v hs hs' ->
    requested (RChangeHeader n i v) (b, mk_letter f rs hs t) (b, mk_letter f rs hs' t)
| RqDelete n i b f rs hs t ok hs' : deleted n i hs ok hs' ->
    requested (RDeleteHeader n i) (b, mk_letter f rs hs t) (b, mk_letter f rs hs' t)
| RqFrom a p b f rs hs t f' : in_brackets a f' ->
    requested (RChangeFrom a p) (b, mk_letter f rs hs t) (b, mk_letter f' rs hs t)
| RqAddRecipient a p b f rs hs t r : in_brackets a r ->
    requested (RAddRecipient a p) (b, mk_letter f rs hs t) (b, mk_letter f (rs ++ [r]) hs t)
| RqDeleteRecipient a b f rs hs t r rs' : in_brackets a r -> without r rs rs' ->
    requested (RDeleteRecipient a) (b, mk_letter f rs hs t) (b, mk_letter f rs' hs t)
| RqBody piece f rs hs t :
    requested (RReplaceBody piece) (false, mk_letter f rs hs t) (true, mk_letter f rs hs piece)
| RqMoreBody piece f rs hs t :
    requested (RReplaceBody piece) (true, mk_letter f rs hs t) (true, mk_letter f rs hs (t ++ piece))
| RqOther r x :
    match r with
    | RAddHeader _ _ | RInsertHeader _ _ _ | RChangeHeader _ _ _ | RDeleteHeader _ _
    | RChangeFrom _ _ | RAddRecipient _ _ | RDeleteRecipient _ | RReplaceBody _ => False
    | _ => True
    end -> requested r x x.

Inductive all_requested : list reply -> bool * letter -> bool * letter -> Prop :=
| NoRequest x : all_requested [] x x
| Request r rs x y z : requested r x y -> all_requested rs y z -> all_requested (r :: rs) x z.

(** *** Reports of changes *)

Inductive change := Same | Gone | New.
Definition sign (c : change) : bytes :=
  match c with Same => lit " " | Gone => lit "-" | New => lit "+" end.

Definition esc : byte := "027"%char.
Definition painted (color : bool) (c : change) (s : bytes) : bytes :=
  if color then
    match c with
    | Same => s
    | Gone => esc :: lit "[01;31m" ++ s ++ esc :: lit "[00m"
    | New => esc :: lit "[01;32m" ++ s ++ esc :: lit "[00m"
    end
  else s.
Definition report_line (color : bool) (x : change * bytes) : bytes :=
  painted color (fst x) (sign (fst x) ++ lit " " ++ snd x).

(** What was there, and what is there now, according to a report. *)
Definition before {A} (report : list (change * A)) : list A :=
  map snd (filter (fun x => match fst x with New => false | _ => true end) report).
Definition after {A} (report : list (change * A)) : list A :=
  map snd (filter (fun x => match fst x with Gone => false | _ => true end) report).

(** The lines of a text. *)
Definition lines_of (text : bytes) (lines : list bytes) : Prop :=
  Forall (fun l => ~ In lf l) lines /\ concat (map (fun l => l ++ [lf]) lines) = text ++ [lf].

(** A header in writing. *)
Definition in_writing (h : header) : bytes :=
  h_name h ++ lit ":" ++ match h_value h with Some [] | None => [] | Some v => lit " " ++ v end.

Inductive header_texts : list header -> list bytes -> Prop :=
| NoHeaderText : header_texts [] []
| HeaderText h hs ls more : lines_of (in_writing h) ls -> header_texts hs more ->
    header_texts (h :: hs) (ls ++ more).

Definition envelope_text (from : bytes) (recipients : list bytes) : list bytes :=
  (lit "MAIL FROM:" ++ from) :: map (fun r => lit "RCPT TO:" ++ r) recipients.

(** [l] is [base] with some of [fresh] put in between. *)
Inductive mixed {A} (fresh : A -> Prop) : list A -> list A -> Prop :=
| MixedNil : mixed fresh [] []
| MixedBase x base l : mixed fresh base l -> mixed fresh (x :: base) (x :: l)
| MixedFresh x base l : fresh x -> mixed fresh base l -> mixed fresh base (x :: l).
