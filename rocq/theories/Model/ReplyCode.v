(** Model of the custom SMTP reply of a filter: validation and storing in
    milter/client/milter-client-context.c, formatting in milter/core/milter-utils.c. *)
From Verif.Base Require Import Bytes.
Local Open Scope N_scope.

(** The stored reply: reply_code (0: none), extended_reply_code, reply_message. *)
Record smtp_reply := mk_smtp_reply {
  sr_code : N;
  sr_extended : option bytes;
  sr_message : option bytes
}.

(** milter-client-context.c:2150-2152. *)
Definition no_reply_code : smtp_reply := mk_smtp_reply 0 None None.

(** atoi on one digit. *)
Definition class_digit (c : byte) : N := code c - 48.

(** extended_code_parse_class, milter-client-context.c:2378-2427: class and rest; [None] is
    failure.  [klass] stays 0 when the string ends without a dot. *)
Definition parse_class (s : bytes) : option (N * bytes) :=
  match s with
  | [] => None
  | c :: s' =>
      if beqb c "."%char then None
      else if negb (beqb c "2"%char || beqb c "4"%char || beqb c "5"%char) then None
      else match s' with
           | [] => Some (0, [])
           | d :: s'' => if beqb d "."%char then Some (class_digit c, s'') else None
           end
  end.

(** extended_code_parse_subject, milter-client-context.c:2429-2481, at character [i]: the rest
    (the subject's value is not used). *)
Fixpoint parse_subject (i : nat) (s : bytes) : option bytes :=
  match s with
  | [] => if Nat.eqb i 0 then None else Some []
  | c :: s' =>
      if beqb c "."%char then (if Nat.eqb i 0 then None else Some s')
      else if (3 <=? i)%nat then None
      else if negb (is_digit c) then None
      else parse_subject (S i) s'
  end.

(** extended_code_parse_detail, milter-client-context.c:2483-2524. *)
Fixpoint parse_detail (i : nat) (s : bytes) : option bytes :=
  match s with
  | [] => if Nat.eqb i 0 then None else Some []
  | c :: s' =>
      if (3 <=? i)%nat then None
      else if negb (is_digit c) then None
      else parse_detail (S i) s'
  end.

(** extended_code_parse, milter-client-context.c:2526-2566: the class. *)
Definition extended_code_parse (s : bytes) : option N :=
  match parse_class s with
  | None | Some (_, []) => None
  | Some (klass, s1) =>
      match parse_subject 0 s1 with
      | None | Some [] => None
      | Some s2 => match parse_detail 0 s2 with Some _ => Some klass | None => None end
      end
  end.

(** milter_client_context_set_reply, milter-client-context.c:2568-2614. *)
Definition set_reply (r : smtp_reply) (c : N) (extended message : option bytes) : bool * smtp_reply :=
  if negb ((400 <=? c) && (c <? 600)) then (false, r)
  else
    let valid := match extended with
                 | None => true
                 | Some e => match extended_code_parse e with
                             | Some klass => klass =? c / 100
                             | None => false
                             end
                 end in
    if valid then (true, mk_smtp_reply c extended message) else (false, r).

(** g_strsplit(s, "\n", -1): no element for the empty string. *)
Definition LF : byte := "010"%char.
Definition CR : byte := "013"%char.
Fixpoint split_lines (s : bytes) : list bytes :=
  match s with
  | [] => [[]]
  | c :: s' =>
      if beqb c LF then [] :: split_lines s'
      else match split_lines s' with
           | l :: ls => (c :: l) :: ls
           | [] => [[c]]
           end
  end.
Definition strsplit_lines (s : bytes) : list bytes :=
  match s with [] => [] | _ :: _ => split_lines s end.

(** "%3u" for the codes that can be stored (below 1000). *)
Definition three_digits (n : N) : bytes :=
  [byte_of (48 + n / 100); byte_of (48 + n / 10 mod 10); byte_of (48 + n mod 10)].

(** The text of one line, milter-utils.c:395-407: one trailing CR is cut off after the length
    was taken. *)
Definition strip_cr (s : bytes) : bytes :=
  match s with
  | [] => []
  | _ :: _ => if beqb (last s NUL) CR then removelast s else s
  end.
Definition format_line (c : N) (extended : option bytes) (line : bytes) : bytes :=
  three_digits c ++
  (match extended with Some e => " "%char :: e | None => [] end) ++
  (match line with [] => [] | _ :: _ => " "%char :: strip_cr line end).

Fixpoint join_crlf (ls : list bytes) : bytes :=
  match ls with
  | [] => []
  | [l] => l
  | l :: ls' => l ++ CR :: LF :: join_crlf ls'
  end.

(** milter_utils_format_reply_code, milter-utils.c:376-413; a NULL message is taken as a
    newline. *)
Definition format_reply_code (r : smtp_reply) : option bytes :=
  if sr_code r =? 0 then None
  else
    let message := match sr_message r with Some m => m | None => [LF] end in
    Some (join_crlf (map (format_line (sr_code r) (sr_extended r)) (strsplit_lines message))).
