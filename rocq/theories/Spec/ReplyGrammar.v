(** The wire format of milter replies, written without the encoder and the decoder. *)
From Verif.Base Require Import Bytes.
From Verif.Model Require Import Decoder ReplyCodec.
From Verif.Spec Require Import CommandGrammar.

Definition no_space (s : bytes) : Prop := ~ In " "%char s.

(** Words separated by single spaces. *)
Inductive spaced : bytes -> list bytes -> Prop :=
| spaced_one w : no_space w -> spaced w [w]
| spaced_more w s ws : no_space w -> spaced s ws -> spaced (w ++ " "%char :: s) (w :: ws).

(** The commands of the macro stages 0 to 6. *)
Definition stage_command (stage : N) (c : byte) : Prop :=
  nth_error (lit "CHMRTEN") (N.to_nat stage) = Some c.

(** One entry of the macro request list: stage, symbol text. *)
Definition request_bytes (r : N * bytes) : bytes := be32 (fst r) ++ snd r ++ [NUL].
Definition request_ok (r : N * bytes) : Prop :=
  word (fst r) /\ (exists c, stage_command (fst r) c) /\ snd r <> [] /\ no_nul (snd r).

(** The symbols the last entry for command [c] asks for. *)
Inductive last_request : list (N * bytes) -> byte -> option (list bytes) -> Prop :=
| lr_none rs c :
    (forall stage text, In (stage, text) rs -> ~ stage_command stage c) -> last_request rs c None
| lr_some before stage text after c ws :
    stage_command stage c -> spaced text ws ->
    (forall s t, In (s, t) after -> ~ stage_command s c) ->
    last_request (before ++ (stage, text) :: after) c (Some ws).

Definition requests_of (rs : list (N * bytes)) (t : requests) : Prop :=
  forall c ws, get_symbols t c = ws <-> last_request rs c ws.

(** The text after an SMTP code: an extended code and possibly a message. *)
Inductive code_text : bytes -> bytes -> option bytes -> Prop :=
| ct_plain ext : no_space ext -> code_text ext ext None
| ct_space ext : no_space ext -> code_text (" "%char :: ext) ext None
| ct_message ext msg : no_space ext -> ext <> [] ->
    code_text (ext ++ " "%char :: msg) ext (Some msg)
| ct_space_message ext msg : no_space ext ->
    code_text (" "%char :: ext ++ " "%char :: msg) ext (Some msg).

(** Three digits, the first 4 or 5, and their value. *)
Definition smtp_code (a b c : byte) (n : N) : Prop :=
  (a = "4"%char \/ a = "5"%char) /\ is_digit b = true /\ is_digit c = true /\
  n = ((code a - 48) * 100 + (code b - 48) * 10 + (code c - 48))%N.

Inductive reply_packet : bytes -> reply -> Prop :=
| rp_negotiate v a s :
    word v -> word a -> word s ->
    reply_packet ("O"%char :: be32 v ++ be32 a ++ be32 s) (RNegotiate (mk_option v a s) None)
| rp_negotiate_requests v a s rs t :
    word v -> word a -> word s -> rs <> [] -> Forall request_ok rs -> requests_of rs t ->
    reply_packet ("O"%char :: be32 v ++ be32 a ++ be32 s ++ concat (map request_bytes rs))
                 (RNegotiate (mk_option v a s) (Some t))
| rp_continue : reply_packet (lit "c") RContinue
| rp_code a b c n text ext msg rest :
    smtp_code a b c n -> no_nul text -> code_text text ext msg ->
    (msg = None -> no_space rest) ->
    reply_packet ("y"%char :: a :: b :: c :: text ++ NUL :: rest) (RReplyCode n ext msg)
| rp_temporary_failure : reply_packet (lit "t") RTemporaryFailure
| rp_reject : reply_packet (lit "r") RReject
| rp_accept : reply_packet (lit "a") RAccept
| rp_discard : reply_packet (lit "d") RDiscard
| rp_add_header n v rest : n <> [] -> no_nul n -> no_nul v ->
    reply_packet ("h"%char :: n ++ NUL :: v ++ NUL :: rest) (RAddHeader n v)
| rp_insert_header i n v rest : word i -> n <> [] -> no_nul n -> no_nul v -> v <> [] ->
    reply_packet ("i"%char :: be32 i ++ n ++ NUL :: v ++ NUL :: rest) (RInsertHeader i n (Some v))
| rp_insert_empty i n rest : word i -> n <> [] -> no_nul n ->
    reply_packet ("i"%char :: be32 i ++ n ++ NUL :: NUL :: rest) (RInsertHeader i n None)
| rp_change_header n i v rest : word i -> n <> [] -> no_nul n -> no_nul v -> v <> [] ->
    reply_packet ("m"%char :: be32 i ++ n ++ NUL :: v ++ NUL :: rest) (RChangeHeader n i v)
| rp_delete_header n i rest : word i -> n <> [] -> no_nul n ->
    reply_packet ("m"%char :: be32 i ++ n ++ NUL :: NUL :: rest) (RDeleteHeader n i)
| rp_change_from f : f <> [] -> no_nul f ->
    reply_packet ("e"%char :: f ++ [NUL]) (RChangeFrom f None)
| rp_change_from_parameters f p rest : f <> [] -> no_nul f -> p <> [] -> no_nul p ->
    reply_packet ("e"%char :: f ++ NUL :: p ++ NUL :: rest) (RChangeFrom f (Some p))
| rp_add_recipient r rest : no_nul r ->
    reply_packet ("+"%char :: r ++ NUL :: rest) (RAddRecipient r None)
| rp_add_recipient_plain r : r <> [] -> no_nul r ->
    reply_packet ("2"%char :: r ++ [NUL]) (RAddRecipient r None)
| rp_add_recipient_parameters r p rest : r <> [] -> no_nul r -> p <> [] -> no_nul p ->
    reply_packet ("2"%char :: r ++ NUL :: p ++ NUL :: rest) (RAddRecipient r (Some p))
| rp_delete_recipient r rest : r <> [] -> no_nul r ->
    reply_packet ("-"%char :: r ++ NUL :: rest) (RDeleteRecipient r)
| rp_replace_body b : reply_packet ("b"%char :: b) (RReplaceBody b)
| rp_progress : reply_packet (lit "p") RProgress
| rp_quarantine r rest : r <> [] -> no_nul r ->
    reply_packet ("q"%char :: r ++ NUL :: rest) (RQuarantine r)
| rp_connection_failure : reply_packet (lit "f") RConnectionFailure
| rp_shutdown : reply_packet (lit "4") RShutdown
| rp_skip : reply_packet (lit "s") RSkip.

(** The indexed header field is complete inside the packet, or recognisably absent. *)
Definition indexed_header_inside (x : bytes) : Prop :=
  (length x < 2)%nat \/
  (exists i rest, word i /\ x = be32 i ++ NUL :: rest) \/
  (exists i n v rest, word i /\ no_nul n /\ no_nul v /\ x = be32 i ++ n ++ NUL :: v ++ NUL :: rest).

(** The packets on which the code reads past the packet's end, or takes the message from
    behind the terminator. *)
Inductive unguarded_reply : bytes -> Prop :=
| ur_empty : unguarded_reply []
| ur_insert x : ~ indexed_header_inside x -> unguarded_reply ("i"%char :: x)
| ur_change x : ~ indexed_header_inside x -> unguarded_reply ("m"%char :: x)
| ur_recipient x : no_nul x -> unguarded_reply ("+"%char :: x)
| ur_code a b c text ext rest :
    no_nul text -> code_text text ext None -> In " "%char rest ->
    unguarded_reply ("y"%char :: a :: b :: c :: text ++ NUL :: rest).

(** Equality of replies; request tables are equal when they ask for the same symbols. *)
Definition same_requests (t t' : requests) : Prop := forall c, get_symbols t c = get_symbols t' c.
Definition same_reply (r r' : reply) : Prop :=
  match r, r' with
  | RNegotiate o (Some t), RNegotiate o' (Some t') => o = o' /\ same_requests t t'
  | _, _ => r = r'
  end.

(** *** What may be sent and what it means *)

(** A request table the protocol can carry: known commands, each once, non-empty symbol
    lists, symbols without spaces. *)
Definition sendable_requests (t : requests) : Prop :=
  NoDup (map fst t) /\
  Forall (fun r => (exists stage, stage_command stage (fst r)) /\ snd r <> [] /\
                   Forall (fun s => s <> [] /\ no_nul s /\ no_space s) (snd r)) t.

(** An absent or empty optional string is not sent. *)
Inductive optional : option bytes -> option bytes -> Prop :=
| opt_null : optional None None
| opt_empty : optional (Some []) None
| opt_some c s : optional (Some (c :: s)) (Some (c :: s)).

Definition optional_no_nul (o : option bytes) : Prop :=
  match o with Some s => no_nul s | None => True end.

Inductive means : reply_call -> reply -> Prop :=
| m_negotiate o : word (o_version o) -> word (o_action o) -> word (o_step o) ->
    means (ENegotiate o None) (RNegotiate o None)
| m_negotiate_empty o : word (o_version o) -> word (o_action o) -> word (o_step o) ->
    means (ENegotiate o (Some [])) (RNegotiate o None)
| m_negotiate_requests o t : word (o_version o) -> word (o_action o) -> word (o_step o) ->
    t <> [] -> sendable_requests t ->
    means (ENegotiate o (Some t)) (RNegotiate o (Some t))
| m_continue : means EContinue RContinue
| m_code a b c n text ext msg : smtp_code a b c n -> no_nul text -> code_text text ext msg ->
    means (EReplyCode (a :: b :: c :: text)) (RReplyCode n ext msg)
| m_temporary_failure : means ETemporaryFailure RTemporaryFailure
| m_reject : means EReject RReject
| m_accept : means EAccept RAccept
| m_discard : means EDiscard RDiscard
| m_add_header n v : n <> [] -> no_nul n -> no_nul v -> means (EAddHeader n v) (RAddHeader n v)
| m_insert_header i n v v' : word i -> n <> [] -> no_nul n -> optional_no_nul v -> optional v v' ->
    means (EInsertHeader i n v) (RInsertHeader i n v')
| m_change_header n i v : word i -> n <> [] -> no_nul n -> no_nul v -> v <> [] ->
    means (EChangeHeader n i (Some v)) (RChangeHeader n i v)
| m_change_header_empty n i v : word i -> n <> [] -> no_nul n -> optional v None ->
    means (EChangeHeader n i v) (RDeleteHeader n i)
| m_delete_header n i : word i -> n <> [] -> no_nul n ->
    means (EDeleteHeader n i) (RDeleteHeader n i)
| m_change_from f p p' : f <> [] -> no_nul f -> optional_no_nul p -> optional p p' ->
    means (EChangeFrom f p) (RChangeFrom f p')
| m_add_recipient r p p' : r <> [] -> no_nul r -> optional_no_nul p -> optional p p' ->
    means (EAddRecipient r p) (RAddRecipient r p')
| m_delete_recipient r : r <> [] -> no_nul r -> means (EDeleteRecipient r) (RDeleteRecipient r)
| m_replace_body b : b <> [] -> (zlen b <= 65535)%Z -> means (EReplaceBody b) (RReplaceBody b)
| m_progress : means EProgress RProgress
| m_quarantine r : r <> [] -> no_nul r -> means (EQuarantine r) (RQuarantine r)
| m_connection_failure : means EConnectionFailure RConnectionFailure
| m_shutdown : means EShutdown RShutdown
| m_skip : means ESkip RSkip.
