(** Which macros milter-test-server tells the filter before a command. *)
From Verif.Base Require Import Bytes.
From Verif.Model Require Import Encoder CommandCodec ReplyCodec Macros Server.
From Verif.Spec Require Import MacroSpec MacroHistorySpec.
Import List.

(** The stages the protocol has macro requests for. *)
Definition request_stages : list byte := ["C"; "H"; "M"; "R"; "T"; "N"; "E"]%char.

Section Told.
  Variables (ntop4 ntop6 : bytes -> bytes).
  Variable sort_keys : list bytes -> list bytes.
  (** [given c n v]: the user wants macro [n] of stage [c] to be [v]. *)
  Variable given : byte -> bytes -> bytes -> Prop.

  (** The macros that belong to a command with this packet: those the user gave for its stage, none
      for headers and the body; the address of a recipient is the recipient named in the packet. *)
  Definition belongs (x : sstate) (packet : bytes) (c : byte) (n v : bytes) : Prop :=
    match x with
    | XHeader | XBody => False
    | XRcpt => (n = lit "{rcpt_addr}" /\
                packet = encode_command ntop4 ntop6 sort_keys [] (CEnvelopeRecipient v)) \/
               (n <> lit "{rcpt_addr}" /\ given c n v)
    | _ => given c n v
    end.

  (** [prefix] tells the macros that belong to the command and that the filter asked for; it is empty
      when there are none. *)
  Definition tells (asked : option requests) (x : sstate) (packet prefix : bytes) : Prop :=
    match stage_of x with
    | None => prefix = []
    | Some c =>
        exists table, NoDup (map fst table) /\
          prefix = match table with
                   | [] => []
                   | _ => encode_command ntop4 ntop6 sort_keys [] (CDefineMacro c table)
                   end /\
          forall n v, lookup table n = Some v <->
            belongs x packet c n v /\ match asked with Some r => requested r c n | None => True end
    end.
End Told.
