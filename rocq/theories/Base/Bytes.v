(** Bytes, byte strings and big-endian words.  Generic definitions, no code of /repo. *)
From Coq Require Export Ascii String NArith ZArith Lia Bool.
From Coq Require Export List.
From Coq Require Import ZifyBool ZifyNat ZifyN.
Export ListNotations.
Local Open Scope N_scope.
Local Open Scope list_scope.

Notation byte := ascii (only parsing).
Definition bytes := list ascii.

(** The NUL character. *)
Definition NUL : byte := Ascii.zero.

(** A literal as a byte string. *)
Definition lit (s : string) : bytes := list_ascii_of_string s.

(** Value of a byte as the C type [unsigned char]. *)
Definition code (b : byte) : N := N_of_ascii b.

Definition byte_of (n : N) : byte := ascii_of_N (n mod 256).

Definition beqb (a b : byte) : bool := Ascii.eqb a b.

Fixpoint bytes_eqb (a b : bytes) : bool :=
  match a, b with
  | [], [] => true
  | x :: a', y :: b' => beqb x y && bytes_eqb a' b'
  | _, _ => false
  end.

(** A C string holds no NUL. *)
Definition no_nul (s : bytes) : Prop := ~ In NUL s.

Definition no_nulb (s : bytes) : bool := forallb (fun c => negb (beqb c NUL)) s.

(** Length as an integer. *)
Definition zlen {A : Type} (l : list A) : Z := Z.of_nat (length l).

(** Big-endian 32-bit word ([g_htonl] then [memcpy]). *)
Definition be32 (n : N) : bytes :=
  [ byte_of (n / 16777216); byte_of (n / 65536); byte_of (n / 256); byte_of n ].

(** The inverse ([memcpy] then [g_ntohl]). *)
Definition rd32 (a b c d : byte) : N :=
  code a * 16777216 + code b * 65536 + code c * 256 + code d.

(** Reinterpretation of a [guint32] as [gint32]. *)
Definition to_s32 (n : N) : Z :=
  if n <? 2147483648 then Z.of_N n else (Z.of_N n - 4294967296)%Z.

(** ** Characters *)
Definition is_digit (c : byte) : bool := (48 <=? code c) && (code c <=? 57).

Definition lower (c : byte) : byte :=
  if (65 <=? code c) && (code c <=? 90) then ascii_of_N (code c + 32) else c.
