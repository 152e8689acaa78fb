(** What netstat prints, said from the side of the printer, and what may be concluded from it. *)
From Verif.Base Require Import Bytes.
Local Open Scope N_scope.

Definition blank (c : byte) : Prop := c = " "%char \/ c = byte_of 9.
(** White space between two columns. *)
Definition gap (b : bytes) : Prop := b <> [] /\ Forall blank b.
(** The text of a column. *)
Definition column (b : bytes) : Prop := b <> [] /\ Forall (fun c => code c = 0 \/ 13 < code c /\ code c <> 32) b.

(** One connection; addresses and ports as texts. *)
Record row := mk_row {
  rw_six : bool;
  rw_local : bytes * bytes;
  rw_foreign : bytes * bytes;
  rw_state : option bytes }.

(** "address:port" or "address.port"; an IPv4 address has no colon, an IPv6 address no dot. *)
Definition prints_address (six : bool) (a : bytes * bytes) (b : bytes) : Prop :=
  (exists sep, (sep = ":"%char \/ sep = "."%char) /\ b = fst a ++ sep :: snd a) /\
  (if six then ~ In "."%char (fst a) else ~ In ":"%char (fst a)) /\
  snd a <> [] /\ ~ In ":"%char (snd a) /\ ~ In "."%char (snd a) /\ column b.
(** What follows the addresses: a state and anything behind it, or nothing. *)
Definition prints_state (st : option bytes) (b : bytes) : Prop :=
  match st with
  | None => Forall blank b
  | Some st => column st /\ exists g rest, gap g /\ b = g ++ st ++ rest /\
      (rest = [] \/ exists c rest', rest = c :: rest' /\ blank c) /\ ~ In (byte_of 10) rest
  end.
Definition prints_row (r : row) (b : bytes) : Prop :=
  exists protocol g1 g2 g3 g4 recv send local foreign tail,
    (if rw_six r then protocol = lit "tcp6" else protocol = lit "tcp" \/ protocol = lit "tcp4") /\
    gap g1 /\ gap g2 /\ gap g3 /\ gap g4 /\ column recv /\ column send /\
    prints_address (rw_six r) (rw_local r) local /\
    prints_address (rw_six r) (rw_foreign r) foreign /\
    prints_state (rw_state r) tail /\
    b = protocol ++ g1 ++ recv ++ g2 ++ send ++ g3 ++ local ++ g4 ++ foreign ++ tail.

(** The whole output: lines for connections between lines for other things. *)
Inductive prints : list row -> bytes -> Prop :=
| prints_end : prints [] []
| prints_connection r rs b rest : prints_row r b -> prints rs rest -> prints (r :: rs) (b ++ byte_of 10 :: rest)
| prints_other rs b rest : ~ In (byte_of 10) b -> (forall b', b <> lit "tcp" ++ b') -> prints rs rest ->
    prints rs (b ++ byte_of 10 :: rest).

(** The connection with that peer, the last one shown. *)
Definition is_with (six : bool) (peer : bytes * bytes) (r : row) : Prop :=
  rw_six r = six /\ rw_foreign r = peer.
Definition shown (rs : list row) (six : bool) (peer : bytes * bytes) (r : row) : Prop :=
  exists before after, rs = before ++ r :: after /\ is_with six peer r /\
    Forall (fun r' => ~ is_with six peer r') after.
