(** Model of milter/core/milter-command-encoder.c and milter-command-decoder.c. *)
From Verif.Base Require Import Bytes.
From Verif.Model Require Import Decoder Encoder.
Local Open Scope Z_scope.

(** A socket address as far as the protocol carries it.  Ports are the two bytes of
    [sin_port] in memory (network order); IP addresses are the bytes of [in_addr] /
    [in6_addr]; [AUnix] is the C string in [sun_path]; [AUnspec] is any other family. *)
Inductive address :=
| AInet (port : byte * byte) (addr : bytes)
| AInet6 (port : byte * byte) (addr : bytes)
| AUnix (path : bytes)
| AUnspec.

(** GHashTable from string to string: an association list without duplicate keys. *)
Definition table := list (bytes * bytes).

Fixpoint lookup (t : table) (k : bytes) : option bytes :=
  match t with
  | [] => None
  | (k', v) :: t' => if bytes_eqb k' k then Some v else lookup t' k
  end.

(** g_hash_table_insert: replaces the value of an equal key. *)
Fixpoint insert (t : table) (k v : bytes) : table :=
  match t with
  | [] => [(k, v)]
  | (k', v') :: t' => if bytes_eqb k' k then (k', v) :: t' else (k', v') :: insert t' k v
  end.

(** The commands: what the encoder is asked to send and what the decoder reports.  For
    [CBody] the decoder reports pointer and size, here the bytes they delimit. *)
Inductive command :=
| CNegotiate (o : moption)
| CDefineMacro (context : byte) (macros : table)
| CConnect (host : bytes) (a : address)
| CHelo (fqdn : bytes)
| CEnvelopeFrom (from : bytes)
| CEnvelopeRecipient (to : bytes)
| CData
| CUnknown (command : bytes)
| CHeader (name value : bytes)
| CEndOfHeader
| CBody (chunk : bytes)
| CEndOfMessage (chunk : option bytes)
| CAbort
| CQuit.

(** Size of the sun_path member of sockaddr_un on Linux. *)
Definition SUN_PATH_SIZE : nat := 108%nat.

Section Codec.
  (** inet_ntop / inet_pton for AF_INET and AF_INET6: [ntop addr] is the printed form,
      [pton s] is [None] when inet_pton returns 0. *)
  Variables (ntop4 ntop6 : bytes -> bytes) (pton4 pton6 : bytes -> option bytes).
  (** g_list_sort of the keys of a hash table with compare_macro_key (g_utf8_collate order,
      leading brace skipped), milter-command-encoder.c:94-105,112-113.  The order depends on
      the locale. *)
  Variable sort_keys : list bytes -> list bytes.

  (** *** Encoder *)

  (** The key as sent: milter-command-encoder.c:120-124. *)
  Definition wire_key (k : bytes) : bytes :=
    match k with
    | [] => []
    | c :: k' => if beqb c "{"%char then k
                 else match k' with
                      | [] => k
                      | _ :: _ => "{"%char :: k ++ ["}"%char]
                      end
    end.

  (** encode_macros, milter-command-encoder.c:107-133 (values in the table are non-NULL). *)
  Fixpoint encode_macro_list (t : table) (keys : list bytes) : bytes :=
    match keys with
    | [] => []
    | [] :: keys' => encode_macro_list t keys'
    | k :: keys' =>
        wire_key k ++ NUL ::
        (match lookup t k with Some v => v | None => [] end) ++ NUL ::
        encode_macro_list t keys'
    end.
  Definition encode_macros (t : table) : bytes :=
    encode_macro_list t (sort_keys (map fst t)).

  (** encode_connect_inet/inet6/unix/unknown and the final NUL,
      milter-command-encoder.c:157-253. *)
  Definition encode_address (a : address) : bytes :=
    match a with
    | AInet (p1, p2) ip => "4"%char :: p1 :: p2 :: ntop4 ip ++ [NUL]
    | AInet6 (p1, p2) ip => "6"%char :: p1 :: p2 :: lit "IPv6:" ++ ntop6 ip ++ [NUL]
    | AUnix path => "L"%char :: NUL :: NUL :: path ++ [NUL]
    | AUnspec => ["U"%char]
    end.

  (** The bytes appended to the buffer by each milter_command_encoder_encode_*
      (milter-command-encoder.c:81-514); strings are non-NULL. *)
  Definition command_payload (c : command) : bytes :=
    match c with
    | CNegotiate o => append_negotiate [] (Some o)              (* 81-92 *)
    | CDefineMacro ctx t => "D"%char :: ctx :: encode_macros t   (* 135-155 *)
    | CConnect host a => "C"%char :: host ++ NUL :: encode_address a  (* 217-255 *)
    | CHelo s => "H"%char :: s ++ [NUL]                          (* 257-274 *)
    | CEnvelopeFrom s => "M"%char :: s ++ [NUL]                  (* 276-293 *)
    | CEnvelopeRecipient s => "R"%char :: s ++ [NUL]             (* 295-312 *)
    | CData => ["T"%char]                                        (* 314-328 *)
    | CHeader n v => "L"%char :: n ++ NUL :: v ++ [NUL]          (* 330-349 *)
    | CEndOfHeader => ["N"%char]                                 (* 351-365 *)
    | CBody chunk => "B"%char :: packed_chunk chunk              (* 380-406 *)
    | CEndOfMessage chunk =>                                     (* 437-454 *)
        "E"%char :: match chunk with Some b => b | None => [] end
    | CAbort => ["A"%char]                                       (* 465-479 *)
    | CQuit => ["Q"%char]                                        (* 481-495 *)
    | CUnknown s => "U"%char :: s ++ [NUL]                       (* 497-514 *)
    end.

  (** One encode call on an encoder object whose buffer currently holds [buf]: all commands
      clear the buffer first, except negotiate (milter-command-encoder.c:81-92).  The result
      is both the packet and the new buffer content. *)
  Definition encode_command (buf : bytes) (c : command) : bytes :=
    match c with
    | CNegotiate o => pack (append_negotiate buf (Some o))
    | _ => pack (command_payload c)
    end.

  (** Packets sent by one encoder object, in order. *)
  Fixpoint encode_commands (buf : bytes) (cs : list command) : list bytes :=
    match cs with
    | [] => []
    | c :: cs' => let packet := encode_command buf c in packet :: encode_commands packet cs'
    end.

  (** *** Decoder *)

  (** Contents of [size] bytes at [p]; a negative size or one beyond the buffer is undefined
      behaviour for whoever uses it. *)
  Definition chunk_at (p : ptr) (size : Z) : res bytes :=
    if size <? 0 then UB
    else if size <=? zlen p then Ok (firstn (Z.to_nat size) p) else UB.

  (** check_macro_context, milter-command-decoder.c:283-310. *)
  Definition check_macro_context (c : byte) : res unit :=
    if existsb (beqb c) ["C"; "H"; "M"; "R"; "T"; "L"; "N"; "B"; "E"; "U"]%char
    then Ok tt else Fail (Some E_UNKNOWN_MACRO_CONTEXT).

  (** The normalised key, milter-command-decoder.c:354-358. *)
  Definition normalized_key (k : bytes) : bytes :=
    match k with
    | c :: k' =>
        if beqb c "{"%char && beqb (last k NUL) "}"%char
        then firstn (length k - 2) k' else k
    | [] => []
    end.

  (** decode_define_macros, milter-command-decoder.c:312-370: the loop, with [len] the bytes
      left ([length - i]).  Every iteration consumes at least two bytes, so fuel above the
      buffer size is never exhausted. *)
  Fixpoint decode_define_macros (fuel : nat) (p : ptr) (len : Z) (acc : table) : res table :=
    if len <=? 0 then Ok acc
    else
      match fuel with
      | O => UB
      | S fuel' =>
          let* n := decode_null_terminated_value p len in
          if Nat.eqb n 0 then Fail None
          else
            let key := firstn n p in
            let p1 := skipn (S n) p in
            let len1 := len - Z.of_nat (S n) in
            let* m := decode_null_terminated_value p1 len1 in
            let value := firstn m p1 in
            decode_define_macros fuel' (skipn (S m) p1) (len1 - Z.of_nat (S m))
              (insert acc (normalized_key key) value)
      end.

  (** decode_define_macro, milter-command-decoder.c:371-409: the context length check uses
      [strlen(buffer) - 1], not the packet length. *)
  Definition decode_define_macro (p : ptr) (len : Z) : res command :=
    let* s := cstring p in
    let* _ := check_command_length (skipn 1 p) (zlen s - 1) 1 COMPARE_AT_LEAST in
    let* context := deref p 1 in
    let* _ := check_macro_context context in
    let* macros := decode_define_macros (S (length p)) (skipn 2 p) (len - 2) [] in
    Ok (CDefineMacro context macros).

  (** g_str_has_prefix. *)
  Fixpoint has_prefix (prefix s : bytes) : bool :=
    match prefix, s with
    | [], _ => true
    | a :: prefix', b :: s' => beqb a b && has_prefix prefix' s'
    | _ :: _, [] => false
    end.

  (** decode_connect_content, milter-command-decoder.c:501-609 with the address decoders
      411-499.  The family byte is read without a length check (524); the unix path is copied
      by strcpy into sun_path (495). *)
  Definition decode_connect_content (p : ptr) (len : Z) : res command :=
    let* n := decode_null_terminated_value p len in
    if Nat.eqb n 0 then Fail None
    else
      let* host := cstring p in
      let* family := deref p (S n) in
      let p1 := skipn (S (S n)) p in
      let len1 := len - Z.of_nat (S (S n)) in
      if beqb family "U"%char then
        let* _ := check_command_length p1 len1 0 COMPARE_EXACT in
        Ok (CConnect host AUnspec)
      else if beqb family "4"%char || beqb family "6"%char || beqb family "L"%char then
        let* _ := check_command_length p1 len1 2 COMPARE_AT_LEAST in
        let* port1 := deref p1 0 in
        let* port2 := deref p1 1 in
        let p2 := skipn 2 p1 in
        let* m := decode_null_terminated_value p2 (len1 - 2) in
        if Nat.eqb m 0 then Fail None
        else
          let* text := cstring p2 in
          if beqb family "4"%char then
            match pton4 text with
            | Some ip => Ok (CConnect host (AInet (port1, port2) ip))
            | None => Fail (Some E_INVALID_FORMAT)
            end
          else if beqb family "6"%char then
            match pton6 (if has_prefix (lit "IPv6:") text then skipn 5 text else text) with
            | Some ip => Ok (CConnect host (AInet6 (port1, port2) ip))
            | None => Fail (Some E_INVALID_FORMAT)
            end
          else if Nat.leb SUN_PATH_SIZE (length text) then UB
          else Ok (CConnect host (AUnix text))
      else Fail (Some E_UNKNOWN_SOCKET_FAMILY).

  (** decode_helo, decode_envelope_from, decode_envelope_recipient, decode_unknown,
      milter-command-decoder.c:639-714,879-903: a non-empty NUL-terminated string. *)
  Definition decode_string (p : ptr) (len : Z) : res bytes :=
    let* n := decode_null_terminated_value (skipn 1 p) (len - 1) in
    if Nat.eqb n 0 then Fail None else cstring (skipn 1 p).

  (** decode_data, decode_end_of_header, decode_abort, decode_quit,
      milter-command-decoder.c:716-737,766-787,833-877: no content. *)
  Definition decode_empty {A : Type} (p : ptr) (len : Z) (a : A) : res A :=
    let* _ := check_command_length (skipn 1 p) (len - 1) 0 COMPARE_EXACT in Ok a.

  (** decode_negotiate, milter-command-decoder.c:905-938. *)
  Definition decode_negotiate (p : ptr) (len : Z) : res command :=
    let* r := decode_negotiate_option p len in
    let '(o, processed) := r in
    let* _ := check_command_length (skipn (Z.to_nat processed) p) (len - processed) 0
                COMPARE_EXACT in
    Ok (CNegotiate o).

  (** decode_end_of_message, milter-command-decoder.c:807-831. *)
  Definition decode_end_of_message (p : ptr) (len : Z) : res command :=
    if 1 <? len then
      let* b := chunk_at (skipn 1 p) (len - 1) in Ok (CEndOfMessage (Some b))
    else Ok (CEndOfMessage None).

  (** decode, milter-command-decoder.c:940-1000. *)
  Definition decode_command (p : ptr) (len : Z) : res command :=
    let* c := deref p 0 in
    if beqb c "O"%char then decode_negotiate p len
    else if beqb c "D"%char then decode_define_macro p len
    else if beqb c "C"%char then decode_connect_content (skipn 1 p) (len - 1)
    else if beqb c "H"%char then let* s := decode_string p len in Ok (CHelo s)
    else if beqb c "M"%char then let* s := decode_string p len in Ok (CEnvelopeFrom s)
    else if beqb c "R"%char then let* s := decode_string p len in Ok (CEnvelopeRecipient s)
    else if beqb c "T"%char then decode_empty p len CData
    else if beqb c "L"%char then
      let* nv := decode_header_content (skipn 1 p) (len - 1) in
      Ok (CHeader (fst nv) (snd nv))
    else if beqb c "N"%char then decode_empty p len CEndOfHeader
    else if beqb c "B"%char then                                 (* decode_body, 789-805 *)
      let* b := chunk_at (skipn 1 p) (len - 1) in Ok (CBody b)
    else if beqb c "E"%char then decode_end_of_message p len
    else if beqb c "A"%char then decode_empty p len CAbort
    else if beqb c "Q"%char then decode_empty p len CQuit
    else if beqb c "U"%char then let* s := decode_string p len in Ok (CUnknown s)
    else Fail (Some E_UNEXPECTED_COMMAND).

  (** The decoder's signal emission as a framing handler: the readable bytes are the buffer
      content and the GString terminator. *)
  Definition command_handler (buf : bytes) (len : Z) : hres command :=
    match decode_command (buf ++ [NUL]) len with
    | Ok c => HOk [c] None
    | Fail e => HFail e
    | UB => HUB
    end.
End Codec.
