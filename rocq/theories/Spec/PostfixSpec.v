(** What Postfix (regexp_table(5), cidr_table(5)) says about its tables, independently of how they
    are read here. *)
From Verif.Base Require Import Bytes.
From Verif.Model Require ConnectionSpec.
From Verif.Model Require Import PostfixTable.
Local Open Scope N_scope.

(** *** Lines *)

Definition white (c : byte) : Prop :=
  c = byte_of 32 \/ c = byte_of 9 \/ c = byte_of 10 \/ c = byte_of 11 \/ c = byte_of 12 \/ c = byte_of 13.

(** The text of a file: lines [ls], each ended by a newline, and perhaps [last] without one. *)
Definition file (ls : list bytes) (last : bytes) : bytes :=
  concat (map (fun l => l ++ [byte_of 10]) ls) ++ last.
Definition one_line (l : bytes) : Prop := ~ In (byte_of 10) l.
(** A line that is over at a carriage return. *)
Inductive content_is : bytes -> bytes -> Prop :=
| content_cr l : content_is (l ++ [byte_of 13]) l
| content_all l : (forall l', l <> l' ++ [byte_of 13]) -> content_is l l.

(** Empty lines, lines of white space and comments count for nothing; a line that begins with white
    space continues the one before; any other begins a logical line. *)
Inductive idle_line : bytes -> Prop :=
| idle_blank l : Forall white l -> idle_line l
| idle_comment w l : Forall white w -> idle_line (w ++ lit "#" ++ l).
Definition starting_line (l : bytes) : Prop :=
  exists c l', l = c :: l' /\ ~ white c /\ c <> "#"%char.
(** A continuing line and what it adds. *)
Definition continuation (l added : bytes) : Prop :=
  exists w t, Forall white w /\ w <> [] /\ starting_line t /\ content_is t added /\ l = w ++ t.
Inductive continued : list bytes -> bytes -> Prop :=
| continued_none : continued [] []
| continued_idle l ls t : idle_line l -> continued ls t -> continued (l :: ls) t
| continued_more l ls a t : continuation l a -> continued ls t -> continued (l :: ls) (lit " " ++ a ++ t).
Inductive logical_lines : list bytes -> list bytes -> Prop :=
| logical_none ls : Forall idle_line ls -> logical_lines ls []
| logical_more idle first text more added rest out :
    Forall idle_line idle -> starting_line first -> content_is first text -> continued more added ->
    logical_lines rest out ->
    logical_lines (idle ++ first :: more ++ rest) ((text ++ added) :: out).

(** *** Statements *)

Definition spaces (b : bytes) : Prop := b <> [] /\ Forall white b.
Definition flags (b : bytes) : Prop := Forall (fun c => c = "i" \/ c = "m" \/ c = "x")%char b.
Definition bang (negated : bool) : bytes := if negated then lit "!" else [].
(** No slash of an action could be taken for the one that ends the pattern. *)
Definition clear_action (a : bytes) : Prop :=
  forall x f s y, a = x ++ lit "/" ++ f ++ s ++ y -> flags f -> spaces s -> y = [].
Definition begins_text (a : bytes) : Prop := exists c a', a = c :: a' /\ ~ white c.

Inductive written : statement -> bytes -> Prop :=
| written_if negated p f s : spaces s -> flags f ->
    written (SIf negated p f) (lit "if" ++ s ++ bang negated ++ lit "/" ++ p ++ lit "/" ++ f)
| written_rule negated p f s a : flags f -> spaces s -> begins_text a -> clear_action a ->
    written (SRule negated p f a) (bang negated ++ lit "/" ++ p ++ lit "/" ++ f ++ s ++ a)
| written_endif s : Forall white s -> written SEndif (lit "endif" ++ s).

(** The same without the conditions on the action, and with white space in front. *)
Inductive shaped : statement -> bytes -> Prop :=
| shaped_if negated p f s w : Forall white w -> spaces s -> flags f ->
    shaped (SIf negated p f) (w ++ lit "if" ++ s ++ bang negated ++ lit "/" ++ p ++ lit "/" ++ f)
| shaped_rule negated p f s w a : Forall white w -> flags f -> spaces s -> a <> [] ->
    shaped (SRule negated p f a) (w ++ bang negated ++ lit "/" ++ p ++ lit "/" ++ f ++ s ++ a)
| shaped_endif s : Forall white s -> shaped SEndif (lit "endif" ++ s).

(** *** Tables *)

(** Rules and blocks, in order. *)
Inductive table :=
| TEnd
| TRule (negated : bool) (pattern flags action : bytes) (next : table)
| TBlock (negated : bool) (pattern flags : bytes) (body next : table).
Fixpoint statements (t : table) : list statement :=
  match t with
  | TEnd => []
  | TRule n p f a next => SRule n p f a :: statements next
  | TBlock n p f body next => SIf n p f :: statements body ++ SEndif :: statements next
  end.
Fixpoint followed (t u : table) : table :=
  match t with
  | TEnd => u
  | TRule n p f a next => TRule n p f a (followed next u)
  | TBlock n p f body next => TBlock n p f body (followed next u)
  end.
(** No block is followed by anything in the list it stands in. *)
Fixpoint blocks_last (t : table) : Prop :=
  match t with
  | TEnd => True
  | TRule _ _ _ _ next => blocks_last next
  | TBlock _ _ _ body next => blocks_last body /\ next = TEnd
  end.
(** What follows a block belongs to it. *)
Fixpoint swallowed (t : table) : table :=
  match t with
  | TEnd => TEnd
  | TRule n p f a next => TRule n p f a (swallowed next)
  | TBlock n p f body next => TBlock n p f (followed (swallowed body) (swallowed next)) TEnd
  end.

(** All patterns can be compiled. *)
Fixpoint compiles (valid : regexp -> bool) (t : table) : Prop :=
  match t with
  | TEnd => True
  | TRule _ p f _ next => valid (create_regexp p f) = true /\ compiles valid next
  | TBlock _ p f body next =>
      valid (create_regexp p f) = true /\ compiles valid body /\ compiles valid next
  end.
(** The file says these lines. *)
Definition says (input : bytes) (out : list bytes) : Prop :=
  exists ls last, input = file ls last /\ Forall one_line ls /\ one_line last /\
    logical_lines (ls ++ match last with [] => [] | _ => [last] end) out.
Definition file_of (input : bytes) (t : table) : Prop :=
  exists out, says input out /\ Forall2 written (statements t) out.
Definition no_dollar (r : found) : Prop :=
  match r with Found a => ~ In "$"%char a | Nothing | RangeError => True end.

(** *** Variables *)

Inductive piece :=
| Char (c : byte)
| Dollar   (* $$ *)
| Bare (n : N) | Round (n : N) | Curly (n : N)   (* $n, $(n), ${n} *)
| Lone.   (* a $ that begins none of these *)
Definition shown (p : piece) : bytes :=
  match p with
  | Char c => [c]
  | Dollar => lit "$$"
  | Bare n => lit "$" ++ ConnectionSpec.decimal n
  | Round n => lit "$(" ++ ConnectionSpec.decimal n ++ lit ")"
  | Curly n => lit "${" ++ ConnectionSpec.decimal n ++ lit "}"
  | Lone => lit "$"
  end.
Definition group_text (groups : list (option bytes)) (n : N) : bytes :=
  match nth_error groups (N.to_nat n) with Some (Some g) => g | _ => [] end.
Definition meant (groups : list (option bytes)) (p : piece) : bytes :=
  match p with
  | Char c => [c]
  | Dollar | Lone => lit "$"
  | Bare n | Round n | Curly n => group_text groups n
  end.
Definition digit (c : byte) : Prop := 48 <= code c <= 57.
Definition next_char (ps : list piece) : option byte :=
  match ps with
  | [] => None
  | Char c :: _ => Some c
  | _ :: _ => Some "$"%char
  end.
(** The pieces can be told apart. *)
Fixpoint distinct (ps : list piece) : Prop :=
  match ps with
  | [] => True
  | p :: ps =>
      match p with
      | Char c => c <> "$"%char
      | Bare n => n < 2147483648 /\ (forall c, next_char ps = Some c -> ~ digit c)
      | Round n | Curly n => n < 2147483648
      | Lone => forall c, next_char ps = Some c ->
                  c <> "$"%char /\ c <> "("%char /\ c <> "{"%char /\ ~ digit c
      | Dollar => True
      end /\ distinct ps
  end.

Section Lookup.
  (** What a pattern with its flags matches: the groups. *)
  Variable matching : bytes -> bytes -> bytes -> option (list (option bytes)).
  (** What an action becomes, given the groups. *)
  Variable filled : bytes -> list (option bytes) -> found.

  Definition fires (negated : bool) (p f text : bytes) : Prop :=
    if negated then matching p f text = None else matching p f text <> None.
  Inductive action_of (negated : bool) (p f text a : bytes) : found -> Prop :=
  | action_plain : negated = true -> action_of negated p f text a (Found a)
  | action_filled g : negated = false -> matching p f text = Some g ->
      action_of negated p f text a (filled a g).

  (** The first rule that fires gives the answer; a block is looked at if its condition holds. *)
  Inductive looked_up (text : bytes) : table -> found -> Prop :=
  | looked_end : looked_up text TEnd Nothing
  | looked_rule n p f a next r : fires n p f text -> action_of n p f text a r ->
      looked_up text (TRule n p f a next) r
  | looked_rule_not n p f a next r : ~ fires n p f text -> looked_up text next r ->
      looked_up text (TRule n p f a next) r
  | looked_block n p f body next r : fires n p f text -> looked_up text body r -> r <> Nothing ->
      looked_up text (TBlock n p f body next) r
  | looked_block_nothing n p f body next r : fires n p f text -> looked_up text body Nothing ->
      looked_up text next r -> looked_up text (TBlock n p f body next) r
  | looked_block_not n p f body next r : ~ fires n p f text -> looked_up text next r ->
      looked_up text (TBlock n p f body next) r.

  (** The same, but what a block answers is filled in once more, with the groups of its
      condition. *)
  Inductive looked_twice (text : bytes) : table -> found -> Prop :=
  | twice_end : looked_twice text TEnd Nothing
  | twice_rule n p f a next r : fires n p f text -> action_of n p f text a r ->
      looked_twice text (TRule n p f a next) r
  | twice_rule_not n p f a next r : ~ fires n p f text -> looked_twice text next r ->
      looked_twice text (TRule n p f a next) r
  | twice_block n p f body next a r : fires n p f text -> looked_twice text body (Found a) ->
      action_of n p f text a r -> looked_twice text (TBlock n p f body next) r
  | twice_block_error n p f body next : fires n p f text -> looked_twice text body RangeError ->
      looked_twice text (TBlock n p f body next) RangeError
  | twice_block_nothing n p f body next r : fires n p f text -> looked_twice text body Nothing ->
      looked_twice text next r -> looked_twice text (TBlock n p f body next) r
  | twice_block_not n p f body next r : ~ fires n p f text -> looked_twice text next r ->
      looked_twice text (TBlock n p f body next) r.
End Lookup.

(** *** Networks *)

Definition v4_char (c : byte) : Prop := digit c \/ c = "."%char.
Definition v6_char (c : byte) : Prop :=
  digit c \/ (97 <= code c <= 102) \/ (65 <= code c <= 70) \/ c = ":"%char.
(** A line: the network as written, the action. *)
Inductive written_network : bytes -> bytes -> bytes -> Prop :=
| written_plain a s action : a <> [] -> Forall v4_char a \/ Forall v6_char a -> spaces s ->
    begins_text action -> written_network a action (a ++ s ++ action)
| written_mask a m s action : a <> [] -> Forall v4_char a \/ Forall v6_char a ->
    m <> [] -> Forall digit m -> spaces s -> begins_text action ->
    written_network (a ++ lit "/" ++ m) action (a ++ lit "/" ++ m ++ s ++ action).
