(** Model of milter/core/milter-esmtp.c: the arguments of MAIL FROM and RCPT TO.

    An argument is a byte list without its terminating NUL; reading at its end yields the NUL,
    reading beyond that is [OverRead].  A parser takes what is left of the argument and yields
    the text it consumed and what is left then.  Error messages are not modelled. *)
From Verif.Base Require Import Bytes.
Local Open Scope N_scope.

Inductive parsed (A : Type) := Parsed (x : A) | Failed | OverRead.
Arguments Parsed {A} x. Arguments Failed {A}. Arguments OverRead {A}.

(** GLib's ASCII classes (gstrfuncs.c, ascii_table_data): vertical tab is not a space; DEL and
    NUL are control characters; nothing is set for bytes from 128 on. *)
Definition is_alnum (c : byte) : bool :=
  ((48 <=? code c) && (code c <=? 57)) || ((65 <=? code c) && (code c <=? 90))
  || ((97 <=? code c) && (code c <=? 122)).
Definition is_space (c : byte) : bool :=
  (code c =? 9) || (code c =? 10) || (code c =? 12) || (code c =? 13) || (code c =? 32).
Definition is_cntrl (c : byte) : bool := (code c <? 32) || (code c =? 127).
Definition is_graph (c : byte) : bool := (33 <=? code c) && (code c <=? 126).

(** IS_ATOM_TEXT, milter-esmtp.c:49-61. *)
Definition is_atom_text (c : byte) : bool :=
  is_alnum c || beqb c "!" || ((35 <=? code c) && (code c <=? 39)) || beqb c "*" || beqb c "+"
  || beqb c "-" || beqb c "/" || beqb c "=" || beqb c "?"
  || ((94 <=? code c) && (code c <=? 96)) || ((123 <=? code c) && (code c <=? 126)).

(** IS_TEXT, milter-esmtp.c:71-75 (a [gchar] from 128 on is negative). *)
Definition is_text (c : byte) : bool :=
  ((1 <=? code c) && (code c <=? 9)) || (code c =? 11) || (code c =? 12)
  || ((14 <=? code c) && (code c <=? 126)).

(** The loops of parse_domain, milter-esmtp.c:112-133, and of parse_local_part, 188-209, after
    the opening character: reads up to [close], which ends up in the text.  The control
    character NUL is passed over. *)
Fixpoint bracketed (stop : byte -> bool) (close : byte) (s : bytes) : parsed (bytes * bytes) :=
  match s with
  | [] => OverRead
  | c :: s' =>
      if stop c then if beqb c close then Parsed ([c], s') else Failed
      else if beqb c "\" then
        match s' with
        | [] => Failed
        | d :: s'' =>
            if is_text d then
              match bracketed stop close s'' with
              | Parsed (t, rest) => Parsed (c :: d :: t, rest)
              | Failed => Failed
              | OverRead => OverRead
              end
            else Failed
        end
      else if is_space c then Failed
      else if is_cntrl c || is_graph c then
        match bracketed stop close s' with
        | Parsed (t, rest) => Parsed (c :: t, rest)
        | Failed => Failed
        | OverRead => OverRead
        end
      else Failed
  end.

(** The longest prefix with a property. *)
Fixpoint munch (p : byte -> bool) (s : bytes) : bytes * bytes :=
  match s with
  | [] => ([], [])
  | c :: s' => if p c then let (t, rest) := munch p s' in (c :: t, rest) else ([], s)
  end.

(** parse_domain, milter-esmtp.c:102-153.  The loop over labels and dots passes over letters,
    digits, hyphens and dots. *)
Definition parse_domain (s : bytes) : parsed (bytes * bytes) :=
  match s with
  | [] => Failed
  | c :: s' =>
      if beqb c "[" then
        match bracketed (fun c => beqb c "[" || beqb c "]") "]" s' with
        | Parsed (t, rest) => Parsed (c :: t, rest)
        | Failed => Failed
        | OverRead => OverRead
        end
      else if is_alnum c then
        let (t, rest) := munch (fun c => is_alnum c || beqb c "-" || beqb c ".") s' in
        Parsed (c :: t, rest)
      else Failed
  end.

(** parse_source_route, milter-esmtp.c:155-178; [fuel] bounds the number of hosts. *)
Fixpoint parse_source_route (fuel : nat) (s : bytes) : parsed (bytes * bytes) :=
  match fuel with
  | O => Failed
  | S fuel' =>
      match s with
      | c :: s' =>
          if beqb c "@" then
            match parse_domain s' with
            | Parsed (d, rest) =>
                match rest with
                | k :: rest' =>
                    if beqb k "," then
                      match parse_source_route fuel' rest' with
                      | Parsed (t, rest'') => Parsed (c :: d ++ k :: t, rest'')
                      | Failed => Failed
                      | OverRead => OverRead
                      end
                    else Parsed (c :: d, rest)
                | [] => Parsed (c :: d, rest)
                end
            | Failed => Failed
            | OverRead => OverRead
            end
          else Parsed ([], s)
      | [] => Parsed ([], s)
      end
  end.

(** parse_local_part, milter-esmtp.c:180-227.  The loop over atoms and dots passes over atom
    text and dots. *)
Definition parse_local_part (s : bytes) : parsed (bytes * bytes) :=
  match s with
  | c :: s' =>
      if beqb c """" then
        match bracketed (fun c => beqb c """") """" s' with
        | Parsed (t, rest) => Parsed (c :: t, rest)
        | Failed => Failed
        | OverRead => OverRead
        end
      else Parsed (munch (fun c => is_atom_text c || beqb c ".") s)
  | [] => Parsed ([], [])
  end.

(** parse_mailbox, milter-esmtp.c:229-255. *)
Definition parse_mailbox (s : bytes) : parsed (bytes * bytes) :=
  match parse_local_part s with
  | Parsed (l, rest) =>
      match rest with
      | k :: rest' =>
          if beqb k "@" then
            match rest' with
            | _ :: _ :: _ =>
                match parse_domain rest' with
                | Parsed (d, rest'') => Parsed (l ++ k :: d, rest'')
                | Failed => Failed
                | OverRead => OverRead
                end
            | _ => Failed
            end
          else Failed
      | [] => Failed
      end
  | Failed => Failed
  | OverRead => OverRead
  end.

Fixpoint prefix_of (p s : bytes) : option bytes :=
  match p, s with
  | [], _ => Some s
  | a :: p', b :: s' => if beqb a b then prefix_of p' s' else None
  | _ :: _, [] => None
  end.

(** parse_path, milter-esmtp.c:257-312, for an argument that starts with '<': the path that is
    stored ([None] for the empty path) and what is left. *)
Definition parse_path (postmaster : bool) (s : bytes) : parsed (option bytes * bytes) :=
  match s with
  | [] => Parsed (None, s)
  | c :: s1 =>
      if negb (beqb c "<") then Parsed (None, s)
      else
        match s1 with
        | k :: rest => if beqb k ">" then Parsed (None, rest) else
            match (if postmaster then prefix_of (lit "<Postmaster>") s else None) with
            | Some rest => Parsed (Some (lit "<Postmaster>"), rest)
            | None =>
                match parse_source_route (S (length s1)) s1 with
                | Parsed (route, s2) =>
                    match (match route with
                           | [] => Some ([], s2)
                           | _ :: _ => match s2 with
                                       | k :: s3 => if beqb k ":" then Some (route ++ [k], s3) else None
                                       | [] => None
                                       end
                           end) with
                    | None => Failed
                    | Some (route, s3) =>
                        match parse_mailbox s3 with
                        | Parsed (m, s4) =>
                            match s4 with
                            | k :: rest =>
                                if beqb k ">" then Parsed (Some (c :: route ++ m ++ [k]), rest)
                                else Failed
                            | [] => Failed
                            end
                        | Failed => Failed
                        | OverRead => OverRead
                        end
                    end
                | Failed => Failed
                | OverRead => OverRead
                end
            end
        | [] =>
            match parse_mailbox s1 with
            | OverRead => OverRead
            | _ => Failed
            end
        end
  end.

(** parse_parameters, milter-esmtp.c:314-368: the parameters in order and what is left. *)
Fixpoint parse_parameters (fuel : nat) (s : bytes) :
    parsed (list (bytes * option bytes) * bytes) :=
  match fuel with
  | O => Failed
  | S fuel' =>
      match s with
      | c :: s1 =>
          if beqb c " " then
            match s1 with
            | [] => Failed
            | k :: s2 =>
                if is_alnum k then
                  let (t, s3) := munch (fun c => is_alnum c || beqb c "-") s2 in
                  let '(value, s4) :=
                    match s3 with
                    | e :: s3' =>
                        if beqb e "=" then
                          let (v, s4) := munch (fun c => is_graph c && negb (beqb c "=")) s3' in
                          (Some v, s4)
                        else (None, s3)
                    | [] => (None, s3)
                    end in
                  match parse_parameters fuel' s4 with
                  | Parsed (ps, rest) => Parsed ((k :: t, value) :: ps, rest)
                  | Failed => Failed
                  | OverRead => OverRead
                  end
                else Failed
            end
          else Parsed ([], s)
      | [] => Parsed ([], s)
      end
  end.

(** g_hash_table_insert for each parameter, milter-esmtp.c:356-359. *)
Definition ptable := list (bytes * option bytes).
Fixpoint put_parameter (t : ptable) (k : bytes) (v : option bytes) : ptable :=
  match t with
  | [] => [(k, v)]
  | (k', v') :: t' => if bytes_eqb k' k then (k', v) :: t' else (k', v') :: put_parameter t' k v
  end.
Definition parameter_table (ps : list (bytes * option bytes)) : ptable :=
  fold_left (fun t p => put_parameter t (fst p) (snd p)) ps [].
Fixpoint get_parameter (t : ptable) (k : bytes) : option (option bytes) :=
  match t with
  | [] => None
  | (k', v) :: t' => if bytes_eqb k' k then Some v else get_parameter t' k
  end.

(** The result: what is stored to [*path] and [*parameters] ([None]: left as it was). *)
Inductive outcome :=
| Accepted (path : option bytes) (parameters : option ptable)
| Rejected
| ReadsBeyond
| Dangling.     (* the caller's table holds freed strings *)

(** milter_esmtp_parse_envelope_command_argument, milter-esmtp.c:383-443, for a path and a
    parameters location that are not NULL.  [given]: is there a table at [*parameters] already?
    merge_parameters, 370-381, puts the strings of the new table there, which are freed with
    that table. *)
Definition parse_argument (postmaster given : bool) (s : bytes) : outcome :=
  match s with
  | [] => Rejected
  | c :: _ =>
      if beqb c "<" then
        match parse_path postmaster s with
        | Parsed (path, s1) =>
            match parse_parameters (S (length s1)) s1 with
            | Parsed (ps, s2) =>
                match s2 with
                | [] =>
                    match ps with
                    | [] => Accepted path None
                    | _ :: _ => if given then Dangling else Accepted path (Some (parameter_table ps))
                    end
                | _ :: _ => Rejected
                end
            | Failed => Rejected
            | OverRead => ReadsBeyond
            end
        | Failed => Rejected
        | OverRead => ReadsBeyond
        end
      else Rejected
  end.

(** milter-esmtp.c:445-470. *)
Definition parse_mail_from := parse_argument false.
Definition parse_rcpt_to := parse_argument true.
