(** The rules for host names that come with s25r.conf (data/applicable-conditions/s25r.conf:54-68), as regular
    expressions.  Only what they need of Ruby's: classes, sequences, alternatives and repetitions; a search for
    one anchored with \A may go on with anything afterwards, one that ends with \z may begin with anything. *)
From Verif.Base Require Import Bytes.
Import List.

Inductive re := Empty | Eps | Class (p : byte -> bool) | Cat (r s : re) | Alt (r s : re) | Star (r : re).

(** Matching of a whole text; Ruby's own matcher backtracks, to the same effect. *)
Fixpoint nullable (r : re) : bool :=
  match r with
  | Empty | Class _ => false
  | Eps | Star _ => true
  | Cat r s => nullable r && nullable s
  | Alt r s => nullable r || nullable s
  end.
Fixpoint derivative (c : byte) (r : re) : re :=
  match r with
  | Empty | Eps => Empty
  | Class p => if p c then Eps else Empty
  | Cat r s =>
      if nullable r then Alt (Cat (derivative c r) s) (derivative c s) else Cat (derivative c r) s
  | Alt r s => Alt (derivative c r) (derivative c s)
  | Star r => Cat (derivative c r) (Star r)
  end.
Fixpoint matches_whole (r : re) (s : bytes) : bool :=
  match s with [] => nullable r | c :: s => matches_whole (derivative c r) s end.

Definition ch (c : byte) : re := Class (beqb c).
(** A letter under the flag i. *)
Definition ich (c : byte) : re := Class (fun x => beqb (lower x) c).
Fixpoint text (s : bytes) : re := match s with [] => Eps | c :: s => Cat (ch c) (text s) end.
Fixpoint itext (s : bytes) : re := match s with [] => Eps | c :: s => Cat (ich c) (itext s) end.
Definition anything : re := Star (Class (fun _ => true)).
Definition dot : re := Class (fun c => negb (beqb c (byte_of 10))).
Definition no_point : re := Class (fun c => negb (beqb c ".")).
Definition digit : re := Class is_digit.
Definition no_digit_point : re := Class (fun c => negb (is_digit c) && negb (beqb c ".")).
Definition plus (r : re) : re := Cat r (Star r).
Definition option_re (r : re) : re := Alt Eps r.
Fixpoint sequence (l : list re) : re := match l with [] => Eps | r :: l => Cat r (sequence l) end.
Definition letter_i : re := Class (fun c => (97 <=? code (lower c))%N && (code (lower c) <=? 122)%N).

(** 54-59 *)
Definition domain_end (s : bytes) : re := Cat anything (text s).
Definition default_white : list re :=
  map domain_end [lit ".google.com"; lit ".obsmtp.com"; lit ".smtp-out.amazonses.com"; lit ".slack.com";
                  lit ".mg.gitlab.com"; lit ".sendgrid.net"].
(** 61-68 *)
Definition default_black : list re :=
  [ text (lit "unknown");
    sequence [ch "["; plus dot; ch "]"];
    sequence [Star no_point; digit; plus no_digit_point; digit; Star dot; ch "."; anything];
    sequence [Star no_point; digit; digit; digit; digit; digit; anything];
    sequence [option_re (Cat (plus no_point) (ch ".")); digit; Star no_point; ch "."; plus no_point; ch "."; plus dot; ch "."; letter_i; anything];
    sequence [Star no_point; digit; ch "."; Star no_point; digit; ch "-"; digit; anything];
    sequence [Star no_point; digit; ch "."; Star no_point; digit; ch "."; plus no_point; ch "."; plus dot; ch "."; anything];
    sequence [Alt (itext (lit "dhcp")) (Alt (itext (lit "dialup")) (Alt (itext (lit "ppp"))
           (Cat (option_re (Class (fun c => existsb (beqb (lower c)) (lit "achrsvx")))) (itext (lit "dsl")))));
         Star no_point; digit; anything] ]%char.
Definition matchers (l : list re) : list (bytes -> bool) := map matches_whole l.
