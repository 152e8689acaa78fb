(** The wire format of milter commands, written without the encoder and the decoder. *)
From Verif.Base Require Import Bytes.
From Verif.Model Require Import Decoder CommandCodec.

(** A word that fits 32 bits. *)
Definition word (n : N) : Prop := (n < 4294967296)%N.

(** The commands that may follow a macro definition. *)
Definition macro_contexts : bytes := lit "CHMRTLNBEU".

(** A macro name without one pair of surrounding braces. *)
Inductive bare_name : bytes -> bytes -> Prop :=
| braced n : bare_name ("{"%char :: n ++ ["}"%char]) n
| unbraced k : (forall n, k <> "{"%char :: n ++ ["}"%char]) -> bare_name k k.

(** The value the last pair for [name] in a list of name/value pairs gives. *)
Inductive last_value : list (bytes * bytes) -> bytes -> option bytes -> Prop :=
| last_none kvs name :
    (forall k v, In (k, v) kvs -> ~ bare_name k name) -> last_value kvs name None
| last_some before k v after name :
    bare_name k name ->
    (forall k' v', In (k', v') after -> ~ bare_name k' name) ->
    last_value (before ++ (k, v) :: after) name (Some v).

(** A table holds what the pairs say, each name once. *)
Definition table_of (kvs : list (bytes * bytes)) (t : table) : Prop :=
  NoDup (map fst t) /\
  forall name value, lookup t name = value <-> last_value kvs name value.

Definition pair_bytes (kv : bytes * bytes) : bytes := fst kv ++ NUL :: snd kv ++ [NUL].

Definition pair_ok (kv : bytes * bytes) : Prop :=
  fst kv <> [] /\ no_nul (fst kv) /\ no_nul (snd kv).

Section Grammar.
  (** Reading of textual IP addresses. *)
  Variables (pton4 pton6 : bytes -> option bytes).

  (** The IPv6 text may carry the prefix "IPv6:". *)
  Inductive ipv6_text : bytes -> bytes -> Prop :=
  | ipv6_prefixed s : ipv6_text (lit "IPv6:" ++ s) s
  | ipv6_plain s : (forall r, s <> lit "IPv6:" ++ r) -> ipv6_text s s.

  (** What follows the host name of a connect command. *)
  Inductive address_bytes : bytes -> address -> Prop :=
  | addr_unknown : address_bytes (lit "U") AUnspec
  | addr_inet p1 p2 text ip rest :
      text <> [] -> no_nul text -> pton4 text = Some ip ->
      address_bytes ("4"%char :: p1 :: p2 :: text ++ NUL :: rest) (AInet (p1, p2) ip)
  | addr_inet6 p1 p2 text plain ip rest :
      text <> [] -> no_nul text -> ipv6_text text plain -> pton6 plain = Some ip ->
      address_bytes ("6"%char :: p1 :: p2 :: text ++ NUL :: rest) (AInet6 (p1, p2) ip)
  | addr_unix p1 p2 path rest :
      path <> [] -> no_nul path ->
      address_bytes ("L"%char :: p1 :: p2 :: path ++ NUL :: rest) (AUnix path).

  (** Packet contents and the command they mean.  Commands made of a NUL-terminated string
      (and connect addresses, and headers) may carry further bytes after the terminator, which
      have no meaning here; the others may not. *)
  Inductive command_packet : bytes -> command -> Prop :=
  | cp_negotiate v a s :
      word v -> word a -> word s ->
      command_packet ("O"%char :: be32 v ++ be32 a ++ be32 s) (CNegotiate (mk_option v a s))
  | cp_define context kvs t :
      In context macro_contexts -> Forall pair_ok kvs -> table_of kvs t ->
      command_packet ("D"%char :: context :: concat (map pair_bytes kvs)) (CDefineMacro context t)
  | cp_connect host a rest :
      host <> [] -> no_nul host -> address_bytes rest a ->
      command_packet ("C"%char :: host ++ NUL :: rest) (CConnect host a)
  | cp_helo s rest : s <> [] -> no_nul s ->
      command_packet ("H"%char :: s ++ NUL :: rest) (CHelo s)
  | cp_from s rest : s <> [] -> no_nul s ->
      command_packet ("M"%char :: s ++ NUL :: rest) (CEnvelopeFrom s)
  | cp_rcpt s rest : s <> [] -> no_nul s ->
      command_packet ("R"%char :: s ++ NUL :: rest) (CEnvelopeRecipient s)
  | cp_data : command_packet (lit "T") CData
  | cp_unknown s rest : s <> [] -> no_nul s ->
      command_packet ("U"%char :: s ++ NUL :: rest) (CUnknown s)
  | cp_header n v rest : n <> [] -> no_nul n -> no_nul v ->
      command_packet ("L"%char :: n ++ NUL :: v ++ NUL :: rest) (CHeader n v)
  | cp_end_of_header : command_packet (lit "N") CEndOfHeader
  | cp_body chunk : command_packet ("B"%char :: chunk) (CBody chunk)
  | cp_end_of_message : command_packet (lit "E") (CEndOfMessage None)
  | cp_end_of_message_chunk chunk : chunk <> [] ->
      command_packet ("E"%char :: chunk) (CEndOfMessage (Some chunk))
  | cp_abort : command_packet (lit "A") CAbort
  | cp_quit : command_packet (lit "Q") CQuit.

  (** The packets on which the code reads past the packet's end, or writes past the end of
      [sun_path] (108 bytes including the NUL). *)
  Inductive unguarded_command : bytes -> Prop :=
  | ug_empty : unguarded_command []
  | ug_define : unguarded_command (lit "D")
  | ug_connect host : host <> [] -> no_nul host ->
      unguarded_command ("C"%char :: host ++ [NUL])
  | ug_unix host p1 p2 path rest :
      host <> [] -> no_nul host -> no_nul path -> (108 <= length path)%nat ->
      unguarded_command ("C"%char :: host ++ NUL :: "L"%char :: p1 :: p2 :: path ++ NUL :: rest).
End Grammar.

(** Equality of commands; macro tables are equal when they hold the same macros. *)
Definition same_table (t t' : table) : Prop := forall k, lookup t k = lookup t' k.
Definition same_command (c c' : command) : Prop :=
  match c, c' with
  | CDefineMacro x t, CDefineMacro x' t' => x = x' /\ same_table t t'
  | _, _ => c = c'
  end.

(** *** What may be sent *)

Section Sendable.
  Variables (ntop4 ntop6 : bytes -> bytes) (pton4 pton6 : bytes -> option bytes).

  (** A textual address form that can be read back. *)
  Definition prints_back (ntop : bytes -> bytes) (pton : bytes -> option bytes) (size : nat) : Prop :=
    forall ip, length ip = size -> ntop ip <> [] /\ no_nul (ntop ip) /\ pton (ntop ip) = Some ip.

  Definition sendable_string (s : bytes) : Prop := s <> [] /\ no_nul s.

  Definition sendable_address (a : address) : Prop :=
    match a with
    | AInet _ ip => length ip = 4%nat
    | AInet6 _ ip => length ip = 16%nat
    | AUnix path => sendable_string path /\ (length path < 108)%nat
    | AUnspec => True
    end.

  (** The arguments the protocol can carry.  A macro name in braces is sent as it is but
      received without them, so here names have none (see [bare_name]). *)
  Definition sendable (c : command) : Prop :=
    match c with
    | CNegotiate o => word (o_version o) /\ word (o_action o) /\ word (o_step o)
    | CDefineMacro ctx t =>
        In ctx macro_contexts /\ NoDup (map fst t) /\
        Forall (fun kv => sendable_string (fst kv) /\ bare_name (fst kv) (fst kv) /\
                          no_nul (snd kv)) t
    | CConnect host a => sendable_string host /\ sendable_address a
    | CHelo s | CEnvelopeFrom s | CEnvelopeRecipient s | CUnknown s => sendable_string s
    | CHeader n v => sendable_string n /\ no_nul v
    | CBody b => (zlen b <= 65535)%Z
    | CEndOfMessage (Some b) => b <> []
    | CData | CEndOfHeader | CEndOfMessage None | CAbort | CQuit => True
    end.
End Sendable.
