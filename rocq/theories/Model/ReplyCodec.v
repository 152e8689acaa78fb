(** Model of milter/core/milter-reply-encoder.c, milter-reply-decoder.c and the table of
    milter-macros-requests.c. *)
From Verif.Base Require Import Bytes.
From Verif.Model Require Import Decoder Encoder MacroStage.
From Verif.Model Require CommandCodec.
Local Open Scope Z_scope.

(** MilterMacrosRequests: command byte to symbol list, listed in the iteration order of the
    hash table (which is unspecified: statements quantify over all lists). *)
Definition requests := list (byte * list bytes).

(** milter_macros_requests_set_symbols_string_array, milter-macros-requests.c:208-223. *)
Fixpoint set_symbols (t : requests) (c : byte) (symbols : list bytes) : requests :=
  match t with
  | [] => [(c, symbols)]
  | (c', s') :: t' => if beqb c' c then (c', symbols) :: t' else (c', s') :: set_symbols t' c symbols
  end.

(** milter_macros_requests_get_symbols, milter-macros-requests.c:232-240 ([None] is NULL). *)
Fixpoint get_symbols (t : requests) (c : byte) : option (list bytes) :=
  match t with
  | [] => None
  | (c', s) :: t' => if beqb c' c then Some s else get_symbols t' c
  end.

(** The encode calls of the reply encoder.  Optional strings are pointers that may be NULL. *)
Inductive reply_call :=
| ENegotiate (o : moption) (reqs : option requests)
| EContinue
| EReplyCode (code : bytes)
| ETemporaryFailure
| EReject
| EAccept
| EDiscard
| EAddHeader (name : bytes) (value : bytes)
| EInsertHeader (index : N) (name : bytes) (value : option bytes)
| EChangeHeader (name : bytes) (index : N) (value : option bytes)
| EDeleteHeader (name : bytes) (index : N)
| EChangeFrom (from : bytes) (parameters : option bytes)
| EAddRecipient (recipient : bytes) (parameters : option bytes)
| EDeleteRecipient (recipient : bytes)
| EReplaceBody (body : bytes)
| EProgress
| EQuarantine (reason : bytes)
| EConnectionFailure
| EShutdown
| ESkip.

(** What an encode call appends to the cleared buffer; [NoPacket] is a NULL packet of size 0;
    [EncUB] is a NULL dereference. *)
Inductive encoded := Payload (p : bytes) | NoPacket | EncUB.

(** encode_macros_request, milter-reply-encoder.c:70-97: [symbols->data] is read without a
    NULL check, an unknown command is skipped.  The stage is appended as a 32-bit word. *)
Fixpoint join_symbols (symbols : list bytes) : bytes :=
  match symbols with
  | [] => []
  | [s] => s
  | s :: symbols' => s ++ " "%char :: join_symbols symbols'
  end.

Fixpoint encode_requests (t : requests) : option bytes :=
  match t with
  | [] => Some []
  | (c, symbols) :: t' =>
      match command_to_macro_stage c with
      | None => encode_requests t'
      | Some stage =>
          match symbols with
          | [] => None
          | _ :: _ =>
              match encode_requests t' with
              | Some rest => Some (be32 stage ++ join_symbols symbols ++ NUL :: rest)
              | None => None
              end
          end
      end
  end.

(** encode_reply_header, milter-reply-encoder.c:235-270; [index] as sent. *)
Definition encode_header (r : byte) (index : bytes) (name : bytes) (value : option bytes)
  : encoded :=
  match name with
  | [] => NoPacket
  | _ :: _ =>
      Payload (r :: index ++ name ++ NUL ::
               (match value with Some v => v | None => [] end) ++ [NUL])
  end.

(** Optional trailing parameters, milter-reply-encoder.c:349-352,386-389. *)
Definition has_parameters (p : option bytes) : option bytes :=
  match p with Some (c :: p') => Some (c :: p') | _ => None end.
Definition encode_parameters (p : option bytes) : bytes :=
  match has_parameters p with Some p => p ++ [NUL] | None => [] end.

(** The bodies of milter_reply_encoder_encode_*, milter-reply-encoder.c:105-536. *)
Definition reply_payload (e : reply_call) : encoded :=
  match e with
  | ENegotiate o reqs =>                                              (* 105-122 *)
      match reqs with
      | None => Payload (append_negotiate [] (Some o))
      | Some t => match encode_requests t with
                  | Some b => Payload (append_negotiate [] (Some o) ++ b)
                  | None => EncUB
                  end
      end
  | EContinue => Payload ["c"%char]                                   (* 124-139 *)
  | EReplyCode code => Payload ("y"%char :: code ++ [NUL])            (* 141-165 *)
  | ETemporaryFailure => Payload ["t"%char]                           (* 167-182 *)
  | EReject => Payload ["r"%char]                                     (* 184-199 *)
  | EAccept => Payload ["a"%char]                                     (* 201-216 *)
  | EDiscard => Payload ["d"%char]                                    (* 218-233 *)
  | EAddHeader n v => encode_header "h"%char [] n (Some v)            (* 272-283 *)
  | EInsertHeader i n v => encode_header "i"%char (be32 i) n v        (* 285-297 *)
  | EChangeHeader n i v => encode_header "m"%char (be32 i) n v        (* 299-311 *)
  | EDeleteHeader n i => encode_header "m"%char (be32 i) n None       (* 313-324 *)
  | EChangeFrom f ps =>                                               (* 326-354 *)
      match f with
      | [] => NoPacket
      | _ :: _ => Payload ("e"%char :: f ++ NUL :: encode_parameters ps)
      end
  | EAddRecipient r ps =>                                             (* 356-391 *)
      match r with
      | [] => NoPacket
      | _ :: _ =>
          Payload ((match has_parameters ps with Some _ => "2"%char | None => "+"%char end)
                   :: r ++ NUL :: encode_parameters ps)
      end
  | EDeleteRecipient r =>                                             (* 393-416 *)
      match r with [] => NoPacket | _ :: _ => Payload ("-"%char :: r ++ [NUL]) end
  | EReplaceBody b =>                                                 (* 418-446 *)
      match b with [] => NoPacket | _ :: _ => Payload ("b"%char :: packed_chunk b) end
  | EProgress => Payload ["p"%char]                                   (* 448-462 *)
  | EQuarantine r =>                                                  (* 464-487 *)
      match r with [] => NoPacket | _ :: _ => Payload ("q"%char :: r ++ [NUL]) end
  | EConnectionFailure => Payload ["f"%char]                          (* 489-504 *)
  | EShutdown => Payload ["4"%char]                                   (* 506-520 *)
  | ESkip => Payload ["s"%char]                                       (* 522-536 *)
  end.

(** One encode call on an encoder whose buffer holds [buf]: [None] is a NULL packet or a
    crash (see [reply_payload]); otherwise packet and new buffer content.  Negotiate does not
    clear the buffer first (milter-reply-encoder.c:105-122). *)
Definition encode_reply (buf : bytes) (e : reply_call) : option bytes :=
  match reply_payload e with
  | Payload p => match e with
                 | ENegotiate _ _ => Some (pack (buf ++ p))
                 | _ => Some (pack p)
                 end
  | _ => None
  end.

(** A sequence of encode calls on one encoder object, every one giving a packet. *)
Fixpoint encode_replies (buf : bytes) (es : list reply_call) : option (list bytes) :=
  match es with
  | [] => Some []
  | e :: es' =>
      match encode_reply buf e with
      | Some p => match encode_replies p es' with
                  | Some ps => Some (p :: ps)
                  | None => None
                  end
      | None => None
      end
  end.

(** The signals of the reply decoder.  The header index is a [guint] signal argument. *)
Inductive reply :=
| RNegotiate (o : moption) (reqs : option requests)
| RContinue
| RReplyCode (code : N) (extended : bytes) (message : option bytes)
| RTemporaryFailure
| RReject
| RAccept
| RDiscard
| RAddHeader (name value : bytes)
| RInsertHeader (index : N) (name : bytes) (value : option bytes)
| RChangeHeader (name : bytes) (index : N) (value : bytes)
| RDeleteHeader (name : bytes) (index : N)
| RChangeFrom (from : bytes) (parameters : option bytes)
| RAddRecipient (recipient : bytes) (parameters : option bytes)
| RDeleteRecipient (recipient : bytes)
| RReplaceBody (body : bytes)
| RProgress
| RQuarantine (reason : bytes)
| RConnectionFailure
| RShutdown
| RSkip.

(** find_space_character, milter-reply-decoder.c:147-158. *)
Fixpoint find_space (p : ptr) (n : nat) {struct n} : res (option nat) :=
  match n with
  | O => Ok None
  | S n' =>
      match p with
      | [] => UB
      | c :: p' =>
          if beqb c " "%char then Ok (Some O)
          else match find_space p' n' with
               | Ok (Some i) => Ok (Some (S i))
               | r => r
               end
      end
  end.

(** g_strndup. *)
Fixpoint strndup (p : ptr) (n : nat) {struct n} : res bytes :=
  match n with
  | O => Ok []
  | S n' =>
      match p with
      | [] => UB
      | c :: p' => if beqb c NUL then Ok []
                   else match strndup p' n' with Ok s => Ok (c :: s) | r => r end
      end
  end.

(** atoi on three digits. *)
Definition digit (c : byte) : N := (code c - 48)%N.
Definition atoi3 (a b c : byte) : N := (digit a * 100 + digit b * 10 + digit c)%N.

(** decode_reply_reply_code, milter-reply-decoder.c:160-237. *)
Definition decode_reply_code (p0 : ptr) (len0 : Z) : res reply :=
  let p := skipn 1 p0 in
  let len := len0 - 1 in
  let* _ := check_command_length p len 3 COMPARE_AT_LEAST in
  let* a := deref p 0 in
  if negb (beqb a "4"%char || beqb a "5"%char) then Fail (Some E_LONG_COMMAND_LENGTH)
  else
    let* b := deref p 1 in
    if negb (is_digit b) then Fail (Some E_LONG_COMMAND_LENGTH)
    else
      let* c := deref p 2 in
      if negb (is_digit c) then Fail (Some E_LONG_COMMAND_LENGTH)
      else
        let* n := decode_null_terminated_value p len in
        if Nat.eqb n 0 then Fail None
        else
          let* sep := deref p 3 in
          let p1 := if beqb sep " "%char then skipn 4 p else skipn 3 p in
          let len1 := if beqb sep " "%char then len - 4 else len - 3 in
          let* space := find_space p1 (Z.to_nat len1) in
          match space with
          | None => let* ext := cstring p1 in Ok (RReplyCode (atoi3 a b c) ext None)
          | Some i =>
              let* ext := strndup p1 i in
              let* message := cstring (skipn (S i) p1) in
              Ok (RReplyCode (atoi3 a b c) ext (Some message))
          end.

(** decode_header_content_with_index, milter-reply-decoder.c:357-406; [length <
    sizeof(guint32)] compares as unsigned.  [None] is an empty value (left NULL). *)
Definition decode_header_content_with_index (p : ptr) (len : Z)
  : res (N * bytes * option bytes) :=
  if (len mod 2 ^ 64 <? 4) then Fail None
  else
    let* index := read32 p in
    let p1 := skipn 4 p in
    let len1 := len - 4 in
    let* n := decode_null_terminated_value p1 len1 in
    if Nat.eqb n 0 then Fail None
    else
      let* name := cstring p1 in
      let p2 := skipn (S n) p1 in
      let* m := decode_null_terminated_value p2 (len1 - Z.of_nat (S n)) in
      if Nat.eqb m 0 then Ok (index, name, None)
      else let* value := cstring p2 in Ok (index, name, Some value).

(** decode_two_string, milter-reply-decoder.c:466-509. *)
Definition decode_two_string (p : ptr) (len : Z) : res (bytes * option bytes) :=
  let* n := decode_null_terminated_value p len in
  if Nat.eqb n 0 then Fail None
  else
    let* first := cstring p in
    let p1 := skipn (S n) p in
    let len1 := len - Z.of_nat (S n) in
    if len1 <=? 0 then Ok (first, None)
    else
      let* m := decode_null_terminated_value p1 len1 in
      if Nat.eqb m 0 then Fail None
      else let* second := cstring p1 in Ok (first, Some second).

(** decode_reply_add_recipient, milter-reply-decoder.c:541-561: the result of the NUL check
    is ignored, so the GError may be set although the signal is emitted and TRUE returned. *)
Definition decode_add_recipient (p : ptr) (len : Z) : res (reply * option derror) :=
  match decode_null_terminated_value (skipn 1 p) (len - 1) with
  | UB => UB
  | Ok _ => let* r := cstring (skipn 1 p) in Ok (RAddRecipient r None, None)
  | Fail e => let* r := cstring (skipn 1 p) in Ok (RAddRecipient r None, e)
  end.

(** decode_reply_delete_recipient and decode_reply_quarantine,
    milter-reply-decoder.c:593-617,661-685: a non-empty NUL-terminated string. *)
Definition decode_string (p : ptr) (len : Z) : res bytes :=
  let* n := decode_null_terminated_value (skipn 1 p) (len - 1) in
  if Nat.eqb n 0 then Fail None else cstring (skipn 1 p).

(** decode_reply_continue, _temporary_failure, _reject, _accept, _discard, _progress,
    _connection_failure, _shutdown and _skip, milter-reply-decoder.c:124-754: no content. *)
Definition decode_empty (p : ptr) (len : Z) (r : reply) : res reply :=
  let* _ := check_command_length (skipn 1 p) (len - 1) 0 COMPARE_EXACT in Ok r.

(** g_strsplit(s, " ", -1) on a non-empty string. *)
Fixpoint split_spaces (s : bytes) : list bytes :=
  match s with
  | [] => [[]]
  | c :: s' => if beqb c " "%char then [] :: split_spaces s'
               else match split_spaces s' with
                    | w :: ws => (c :: w) :: ws
                    | [] => [[c]]
                    end
  end.

(** decode_macros_requests, milter-reply-decoder.c:756-819; each iteration consumes at least
    six bytes, so fuel above the buffer size is never exhausted. *)
Fixpoint decode_macros_requests (fuel : nat) (p : ptr) (len : Z) (acc : requests)
  : res requests :=
  if len <=? 0 then Ok acc
  else
    match fuel with
    | O => UB
    | S fuel' =>
        let* _ := check_command_length p len 4 COMPARE_AT_LEAST in
        let* stage := read32 p in
        let p1 := skipn 4 p in
        let len1 := len - 4 in
        let* n := decode_null_terminated_value p1 len1 in
        if Nat.eqb n 0 then Fail None
        else
          match macro_stage_to_command stage with
          | None => Fail (Some E_UNEXPECTED_MACRO_STAGE)
          | Some c =>
              let* symbols := cstring p1 in
              decode_macros_requests fuel' (skipn (S n) p1) (len1 - Z.of_nat (S n))
                (set_symbols acc c (split_spaces symbols))
          end
    end.

(** decode_reply_negotiate, milter-reply-decoder.c:821-867. *)
Definition decode_reply_negotiate (p : ptr) (len : Z) : res reply :=
  let* r := decode_negotiate_option p len in
  let '(o, processed) := r in
  let p1 := skipn (Z.to_nat processed) p in
  let len1 := len - processed in
  let* _ := check_command_length p1 len1 0 COMPARE_AT_LEAST in
  if len1 =? 0 then Ok (RNegotiate o None)
  else let* reqs := decode_macros_requests (S (length p)) p1 len1 [] in
       Ok (RNegotiate o (Some reqs)).

(** A reply without a GError. *)
Definition plain (r : res reply) : res (reply * option derror) :=
  let* r := r in Ok (r, None).

(** decode, milter-reply-decoder.c:869-947. *)
Definition decode_reply (p : ptr) (len : Z) : res (reply * option derror) :=
  let* c := deref p 0 in
  if beqb c "O"%char then plain (decode_reply_negotiate p len)
  else if beqb c "c"%char then plain (decode_empty p len RContinue)
  else if beqb c "y"%char then plain (decode_reply_code p len)
  else if beqb c "t"%char then plain (decode_empty p len RTemporaryFailure)
  else if beqb c "r"%char then plain (decode_empty p len RReject)
  else if beqb c "a"%char then plain (decode_empty p len RAccept)
  else if beqb c "d"%char then plain (decode_empty p len RDiscard)
  else if beqb c "h"%char then                                    (* 331-355 *)
    let* nv := decode_header_content (skipn 1 p) (len - 1) in
    Ok (RAddHeader (fst nv) (snd nv), None)
  else if beqb c "i"%char then                                    (* 408-432 *)
    let* r := decode_header_content_with_index (skipn 1 p) (len + 1) in
    Ok (RInsertHeader (fst (fst r)) (snd (fst r)) (snd r), None)
  else if beqb c "m"%char then                                    (* 434-464 *)
    let* r := decode_header_content_with_index (skipn 1 p) (len + 1) in
    match snd r with
    | Some v => Ok (RChangeHeader (snd (fst r)) (fst (fst r)) v, None)
    | None => Ok (RDeleteHeader (snd (fst r)) (fst (fst r)), None)
    end
  else if beqb c "e"%char then                                    (* 511-539 *)
    let* r := decode_two_string (skipn 1 p) (len - 1) in
    Ok (RChangeFrom (fst r) (snd r), None)
  else if beqb c "+"%char then decode_add_recipient p len
  else if beqb c "2"%char then                                    (* 563-591 *)
    let* r := decode_two_string (skipn 1 p) (len - 1) in
    Ok (RAddRecipient (fst r) (snd r), None)
  else if beqb c "-"%char then let* r := decode_string p len in Ok (RDeleteRecipient r, None)
  else if beqb c "b"%char then                                    (* 619-636 *)
    let* b := CommandCodec.chunk_at (skipn 1 p) (len - 1) in Ok (RReplaceBody b, None)
  else if beqb c "p"%char then plain (decode_empty p len RProgress)
  else if beqb c "q"%char then let* r := decode_string p len in Ok (RQuarantine r, None)
  else if beqb c "f"%char then plain (decode_empty p len RConnectionFailure)
  else if beqb c "4"%char then plain (decode_empty p len RShutdown)
  else if beqb c "s"%char then plain (decode_empty p len RSkip)
  else Fail (Some E_UNEXPECTED_COMMAND).

(** The decoder's signal emission as a framing handler. *)
Definition reply_handler (buf : bytes) (len : Z) : hres reply :=
  match decode_reply (buf ++ [NUL]) len with
  | Ok (r, e) => HOk [r] e
  | Fail e => HFail e
  | UB => HUB
  end.
