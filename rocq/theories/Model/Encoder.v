(** Model of milter/core/milter-encoder.c. *)
From Verif.Base Require Import Bytes.
From Verif.Model Require Import Decoder.
Local Open Scope N_scope.

(** MILTER_CHUNK_SIZE, milter-protocol.h:40. *)
Definition MILTER_CHUNK_SIZE : N := 65535.

(** [g_htonl(priv->buffer->len)]: the length is truncated to 32 bits.
    milter_encoder_pack, milter-encoder.c:171-186: prepends the length; the packet handed out
    is the buffer itself, which keeps the packet afterwards. *)
Definition pack (buf : bytes) : bytes :=
  be32 (N.of_nat (length buf) mod 4294967296) ++ buf.

(** milter_encoder_encode_negotiate, milter-encoder.c:188-213: appends to the buffer. *)
Definition append_negotiate (buf : bytes) (o : option moption) : bytes :=
  buf ++ "O"%char ::
  match o with
  | Some o => be32 (o_version o) ++ be32 (o_action o) ++ be32 (o_step o)
  | None => []
  end.

(** The part of a chunk that fits one packet (milter-command-encoder.c:397-400,
    milter-reply-encoder.c:440-443). *)
Definition packed_chunk (chunk : bytes) : bytes := firstn (N.to_nat MILTER_CHUNK_SIZE) chunk.
