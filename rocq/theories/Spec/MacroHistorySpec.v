(** Which macros go before a command, in terms of what happened on a server context. *)
From Verif.Base Require Import Bytes.
From Verif.Model Require Import Encoder CommandCodec ReplyCodec Macros Server.
From Verif.Spec Require Import MacroSpec.
Import List.

(** The calls on the macro store, newest first.  The macros of a message end with a reset and when
    an abort has been delivered. *)
Definition macro_calls_of (e : event) : list macro_op :=
  match e with
  | Server.In (Call (AMacro o)) => [o]
  | Server.In (Call AReset) | Delivered XAbort => [OClearMessage]
  | _ => []
  end.
Definition macro_calls (t : list event) : list macro_op := flat_map macro_calls_of t.

(** What the filter asked for in the negotiation answered last. *)
Fixpoint asked_macros (t : list event) : option requests :=
  match t with
  | Forward (RNegotiate _ reqs) :: _ => reqs
  | _ :: t' => asked_macros t'
  | [] => None
  end.

(** The stage of a command: the letter of its packet. *)
Definition stage_of (x : sstate) : option byte :=
  match x with
  | XConnect => Some "C"%char | XHelo => Some "H"%char | XFrom => Some "M"%char
  | XRcpt => Some "R"%char | XData => Some "T"%char | XHeader => Some "L"%char
  | XEndOfHeader => Some "N"%char | XBody => Some "B"%char | XEndOfMessage => Some "E"%char
  | _ => None
  end.

(** [due_macro t c n v]: macro [n] of stage [c] has the value [v] and the filter wants it. *)
Definition due_macro (t : list event) (c : byte) (n v : bytes) : Prop :=
  latest (macro_calls t) c n v /\
  match asked_macros t with Some r => requested r c n | None => True end.

Section Carried.
  Variables (ntop4 ntop6 : bytes -> bytes).
  Variable sort_keys : list bytes -> list bytes.

  (** [prefix] tells exactly the macros due for command [x] after the history [t]; nothing, when there
      are none. *)
  Definition carries (t : list event) (x : sstate) (prefix : bytes) : Prop :=
    match stage_of x with
    | None => prefix = []
    | Some c =>
        (prefix = [] /\ forall n v, ~ due_macro t c n v) \/
        (exists table, table <> [] /\ NoDup (map fst table) /\
           prefix = pack (command_payload ntop4 ntop6 sort_keys (CDefineMacro c table)) /\
           forall n v, lookup table n = Some v <-> due_macro t c n v)
    end.
End Carried.
