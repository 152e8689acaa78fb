(** Model of binding/ruby/lib/milter/client/envelope-address.rb: the address in the argument of
    MAIL FROM or RCPT TO.  The strings are bytes (force_encoding "BINARY", line 14).  Each
    regular expression is written as the function that tries a match at one position; [scan]
    goes through the positions.  The memory of @address_spec and its setter are not
    modelled. *)
From Verif.Base Require Import Bytes.
Local Open Scope N_scope.

(** The first position where a match succeeds. *)
Fixpoint scan {A} (f : bytes -> option A) (s : bytes) : option A :=
  match f s with
  | Some a => Some a
  | None => match s with [] => None | _ :: s' => scan f s' end
  end.

Definition is_bracket (c : byte) : bool := beqb c "<"%char || beqb c ">"%char.
(** \s in Ruby. *)
Definition is_white (c : byte) : bool := beqb c " "%char || ((9 <=? code c) && (code c <=? 13)).
Definition is_token (c : byte) : bool := negb (is_white c || is_bracket c).

Fixpoint prefix_of (f : byte -> bool) (s : bytes) : bytes :=
  match s with c :: s' => if f c then c :: prefix_of f s' else [] | [] => [] end.
Fixpoint rest_of (f : byte -> bool) (s : bytes) : bytes :=
  match s with c :: s' => if f c then rest_of f s' else s | [] => [] end.

(** line 15: the first pair of angle brackets without another one in between, and what
    stands in it. *)
Definition bracket_here (s : bytes) : option bytes :=
  match s with
  | c :: s' =>
      if beqb c "<"%char then
        match rest_of (fun x => negb (is_bracket x)) s' with
        | d :: _ => if beqb d ">"%char then Some (prefix_of (fun x => negb (is_bracket x)) s') else None
        | [] => None
        end
      else None
  | [] => None
  end.

(** address[/[^\s<>]+@[^\s<>]+/], line 16: an "@" neither first nor last in the longest run of
    such characters; the match then goes to the end of the run. *)
Fixpoint at_before_end (s : bytes) : bool :=
  match s with
  | c :: ((_ :: _) as s') => beqb c "@"%char || at_before_end s'
  | _ => false
  end.
Definition at_here (s : bytes) : option bytes :=
  let t := prefix_of is_token s in
  if at_before_end (tl t) then Some t else None.

(** address[/[^\s<>]+/], line 17. *)
Definition token_here (s : bytes) : option bytes :=
  match prefix_of is_token s with [] => None | t => Some t end.

(** extract_address, lines 11-19 (nil gives nil). *)
Definition extract_address (s : bytes) : bytes :=
  match scan bracket_here s with
  | Some a => a
  | None =>
      match scan at_here s with
      | Some a => a
      | None => match scan token_here s with Some a => a | None => s end
      end
  end.

(** address_spec, lines 21-29. *)
Definition address_spec (s : bytes) : bytes := map lower (extract_address s).

(** domain, lines 31-35: slice(/\A(.+)@(.+)\z/, 2).  "." matches anything but a newline; the
    first group takes as much as it can. *)
Fixpoint after_last_at (s : bytes) : option bytes :=
  match s with
  | [] => None
  | c :: s' =>
      match after_last_at s' with
      | Some d => Some d
      | None => if beqb c "@"%char then match s' with [] => None | _ => Some s' end else None
      end
  end.
Definition domain_of (a : bytes) : option bytes :=
  if existsb (fun c => beqb c "010"%char) a then None
  else match a with [] => None | _ :: a' => after_last_at a' end.
Definition domain (s : bytes) : option bytes := domain_of (address_spec s).
