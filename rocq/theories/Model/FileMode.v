(** Model of the parsers of file modes, flag lists and enum names in milter/core/milter-utils.c.
    Strings are byte lists without their terminating NUL; error messages are not modelled. *)
From Verif.Base Require Import Bytes.
Local Open Scope N_scope.

(** The classes of the first loop of parse_file_mode_symbol, milter-utils.c:802-814. *)
Definition class_bits (c : byte) : option N :=
  if beqb c "a" then Some 511
  else if beqb c "u" then Some 448
  else if beqb c "g" then Some 56
  else if beqb c "o" then Some 7
  else None.

(** The first loop, milter-utils.c:799-830: the target and what follows. *)
Fixpoint parse_targets (first : bool) (target : N) (s : bytes) : option (N * bytes) :=
  match s with
  | [] => Some (target, [])
  | c :: s' =>
      match class_bits c with
      | Some b => parse_targets false (N.lor target b) s'
      | None => if first then None else Some (target, s)
      end
  end.

(** The permissions of the second loop, milter-utils.c:860-869. *)
Definition permission_bits (c : byte) : option N :=
  if beqb c "r" then Some 292
  else if beqb c "w" then Some 146
  else if beqb c "x" then Some 73
  else None.

(** The second loop, milter-utils.c:858-879. *)
Fixpoint parse_permissions (target mode : N) (s : bytes) : option N :=
  match s with
  | [] => Some mode
  | c :: s' =>
      match permission_bits c with
      | Some b => parse_permissions target (N.lor mode (N.land target b)) s'
      | None => None
      end
  end.

(** parse_file_mode_symbol, milter-utils.c:793-882. *)
Definition parse_file_mode_symbol (s : bytes) : option N :=
  match parse_targets true 0 s with
  | None => None
  | Some (_, []) => None
  | Some (target, c :: s') =>
      if beqb c "=" then
        match s' with
        | [] => None
        | _ :: _ => parse_permissions target 0 s'
        end
      else None
  end.

(** parse_file_mode_numeric, milter-utils.c:884-914. *)
Fixpoint parse_digits (i mode : N) (s : bytes) : option N :=
  match s with
  | [] => Some mode
  | c :: s' =>
      if 2 <? i then None
      else if (48 <=? code c) && (code c <=? 55)
           then parse_digits (i + 1) (N.lor (N.shiftl mode 3) (code c - 48)) s'
           else None
  end.

(** milter_utils_parse_file_mode, milter-utils.c:926-948. *)
Definition parse_file_mode (s : bytes) : option N :=
  match s with
  | [] => Some 0
  | c :: _ =>
      if beqb c "a" || beqb c "u" || beqb c "g" || beqb c "o" then parse_file_mode_symbol s
      else if (48 <=? code c) && (code c <=? 55) then parse_digits 0 0 s
      else None
  end.

(** *** Flag lists *)

(** GFlagsClass: nicks with their values; [mask] is the union of the values. *)
Definition flags_class := list (bytes * N).
Definition flags_mask (c : flags_class) : N := fold_left (fun m v => N.lor m (snd v)) c 0.

(** g_flags_get_value_by_nick: the first value with that nick. *)
Fixpoint value_by_nick (c : flags_class) (nick : bytes) : option N :=
  match c with
  | [] => None
  | (n, v) :: c' => if bytes_eqb n nick then Some v else value_by_nick c' nick
  end.

(** g_strsplit(string, "|", 0); nothing for an empty string. *)
Fixpoint split_bar (s : bytes) : list bytes :=
  match s with
  | [] => [[]]
  | c :: s' =>
      if beqb c "|" then [] :: split_bar s'
      else match split_bar s' with
           | [] => [[c]]
           | w :: ws => (c :: w) :: ws
           end
  end.
Definition strsplit_bar (s : bytes) : list bytes :=
  match s with [] => [] | _ :: _ => split_bar s end.

(** One iteration of the loop of milter_utils_flags_from_string, milter-utils.c:547-597: the
    flags and the unknown names. *)
Definition flag_term (c : flags_class) (default : N) (append : bool) (st : N * list bytes)
    (name : bytes) : N * list bytes :=
  let (flags, unknown) := st in
  let (local, name) :=
    match name with
    | k :: rest => if beqb k "+" then (true, rest) else if beqb k "-" then (false, rest)
                   else (append, name)
    | [] => (append, name)
    end in
  if bytes_eqb name (lit "all") then
    ((if local then N.lor flags (flags_mask c) else 0), unknown)
  else match value_by_nick c name with
       | Some v =>
           let v := if (v =? 0) && bytes_eqb name (lit "default") then default else v in
           ((if local then N.lor flags v else N.ldiff flags v), unknown)
       | None => (flags, unknown ++ [name])
       end.

(** milter_utils_flags_from_string, milter-utils.c:512-614, for a string that is not NULL: the
    flags, and the unknown names (an error is set if there are any). *)
Definition flags_from_string (c : flags_class) (s : bytes) (base default : N) : N * list bytes :=
  let '(append, flags, s) :=
    match s with
    | k :: rest => if beqb k "+" then (true, base, rest)
                   else if beqb k "-" then (false, base, rest) else (true, 0, s)
    | [] => (true, 0, s)
    end in
  fold_left (flag_term c default append) (strsplit_bar s) (flags, []).

(** milter_utils_enum_from_string, milter-utils.c:622-655, for a string that is not NULL: the
    value and whether an error is set. *)
Definition enum_from_string (c : list (bytes * Z)) (s : bytes) : Z * bool :=
  match find (fun v => bytes_eqb (fst v) s) c with
  | Some v => (snd v, true)
  | None => (0%Z, false)
  end.
