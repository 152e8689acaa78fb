(** milter-test-server: the message given by its options and by a mail file.

    An option is taken with its argument; the option parser itself is GLib's.  Options that do
    not concern the message are left out here. *)
From Verif.Base Require Import Bytes.
From Verif.Model Require Import Headers ReplyCode.
Local Open Scope N_scope.

(** A call that may fail with a message for the user, or bring the process down. *)
Inductive outcome (A : Type) := Done (a : A) | Invalid | Crashed.
Arguments Done {A}.
Arguments Invalid {A}.
Arguments Crashed {A}.

Definition bind {A B} (o : outcome A) (f : A -> outcome B) : outcome B :=
  match o with Done a => f a | Invalid => Invalid | Crashed => Crashed end.

(** *** Characters and strings (GLib, C library) *)

(** g_ascii_isspace: no vertical tab. *)
Definition ascii_space (c : byte) : bool :=
  (code c =? 32) || (code c =? 9) || (code c =? 10) || (code c =? 12) || (code c =? 13).
(** g_ascii_isalnum. *)
Definition ascii_alnum (c : byte) : bool :=
  is_digit c || ((65 <=? code c) && (code c <=? 90)) || ((97 <=? code c) && (code c <=? 122)).

(** A buffer taken as a C string. *)
Fixpoint c_string (s : bytes) : bytes :=
  match s with
  | [] => []
  | c :: s' => if beqb c NUL then [] else c :: c_string s'
  end.

(** strstr(s, "c") for one character: what is before it and what is behind. *)
Fixpoint cut (c : byte) (s : bytes) : option (bytes * bytes) :=
  match s with
  | [] => None
  | x :: s' =>
      if beqb x c then Some ([], s')
      else match cut c s' with Some (a, b) => Some (x :: a, b) | None => None end
  end.

(** g_strchug. *)
Fixpoint chug (s : bytes) : bytes :=
  match s with
  | c :: s' => if ascii_space c then chug s' else s
  | [] => []
  end.

Fixpoint starts_with (p s : bytes) : bool :=
  match p, s with
  | [], _ => true
  | _, [] => false
  | a :: p', b :: s' => beqb a b && starts_with p' s'
  end.
Definition ends_with (c : byte) (s : bytes) : bool :=
  match rev s with x :: _ => beqb x c | [] => false end.

(** *** The options, milter-test-server.c:59-72 *)

(** Who will free the string of [envelope_from]: GLib keeps the string of the last
    --envelope-from and frees it when the option comes again. *)
Inductive from_owner := NotParser | Parser | Freed.

Record options := mk_options {
  op_from : option bytes;
  op_from_owner : from_owner;
  op_recipients : option (list bytes);
  op_recipient_args : list bytes;     (* GLib's array for --envelope-recipient *)
  op_headers : list header;
  op_chunks : option (list bytes);
  op_chunk_args : list bytes          (* GLib's array for --body *)
}.
Definition no_options : options := mk_options None NotParser None [] [] None [].

Definition put_from o x w :=
  mk_options x w (op_recipients o) (op_recipient_args o) (op_headers o) (op_chunks o) (op_chunk_args o).
Definition put_recipients o x a :=
  mk_options (op_from o) (op_from_owner o) x a (op_headers o) (op_chunks o) (op_chunk_args o).
Definition put_headers o x :=
  mk_options (op_from o) (op_from_owner o) (op_recipients o) (op_recipient_args o) x (op_chunks o)
             (op_chunk_args o).
Definition put_chunks o x a :=
  mk_options (op_from o) (op_from_owner o) (op_recipients o) (op_recipient_args o) (op_headers o) x a.

(** *** The mail file *)

(** 1146-1181, extract_path_from_mail_address. *)
Fixpoint skip_blanks (s : bytes) : bytes :=
  match s with c :: s' => if beqb c " " then skip_blanks s' else s | [] => [] end.
Fixpoint first_word (s : bytes) : bytes :=
  match s with c :: s' => if beqb c " " then [] else c :: first_word s' | [] => [] end.
Definition extract_path (address : bytes) : option bytes :=
  match cut "<" address with
  | Some (_, path) =>
      match cut ">" path with
      | Some (inner, _) => Some (lit "<" ++ inner ++ lit ">")
      | None => None
      end
  | None => Some (lit "<" ++ first_word (skip_blanks address) ++ lit ">")
  end.

(** 1136-1144, set_envelope_from: frees the old string, whoever owns it. *)
Definition set_envelope_from (o : options) (from : bytes) : options :=
  put_from o (Some from) (match op_from_owner o with NotParser => NotParser | _ => Freed end).

(** 1207-1216, is_header. *)
Definition is_header (line : bytes) : bool :=
  match line with
  | c :: _ => ascii_alnum c && match cut ":" line with Some _ => true | None => false end
  | [] => false
  end.

(** 1218-1229, append_header; only called for lines with a colon. *)
Definition append_header (hs : list header) (line : bytes) : list header :=
  match cut ":" line with
  | Some (name, value) => headers_append hs name (Some (chug value))
  | None => hs
  end.

(** 1231-1248, append_header_value; [None] when there is no header to continue: the NULL
    header is dereferenced. *)
Definition append_header_value (hs : list header) (value new_line : bytes) : option (list header) :=
  match headers_get_nth hs (N.of_nat (length hs)) with
  | None => None
  | Some h =>
      let old := match h_value h with Some v => v | None => lit "(null)" end in
      Some (removelast hs ++ [mk_header (h_name h) (Some (old ++ new_line ++ value))])
  end.

(** 1259-1266: one trailing CR is cut off. *)
Definition strip_cr (line : bytes) : bytes * bool :=
  if ends_with CR line then (removelast line, true) else (line, false).

(** 1250-1293, parse_mail_contents_header_part_collect_headers: the headers and the lines left. *)
Fixpoint collect_headers (hs : list header) (lines : list bytes)
  : outcome (list header * list bytes) :=
  match lines with
  | [] => Done (hs, [])
  | raw :: rest =>
      let '(line, have_cr) := strip_cr raw in
      match line with
      | [] => Done (hs, rest)
      | c :: _ =>
          if is_header line then collect_headers (append_header hs line) rest
          else if ascii_space c then
            match append_header_value hs line (if have_cr then [CR; LF] else [LF]) with
            | Some hs' => collect_headers hs' rest
            | None => Crashed
            end
          else Invalid
      end
  end.

(** 1183-1205 and 1295-1309, parse_header over the headers of the file: the options with the
    sender set, and the recipients. *)
Fixpoint parse_headers (o : options) (recipients : list bytes) (hs : list header)
  : outcome (options * list bytes) :=
  match hs with
  | [] => Done (o, recipients)
  | h :: hs' =>
      let value := match h_value h with Some v => v | None => [] end in
      if bytes_eqb (h_name h) (lit "From") then
        match extract_path value with
        | Some path => parse_headers (set_envelope_from o path) recipients hs'
        | None => Invalid
        end
      else if bytes_eqb (h_name h) (lit "To") then
        match extract_path value with
        | Some path => parse_headers o (recipients ++ [path]) hs'
        | None => Invalid
        end
      else parse_headers o recipients hs'
  end.

(** 1327-1356, parse_mail_contents_header_part with 1311-1322. *)
Definition header_part (o : options) (lines : list bytes) : outcome (options * list bytes) :=
  bind (collect_headers [] lines) (fun '(hs, rest) =>
  bind (parse_headers o [] hs) (fun '(o1, recipients) =>
  let o2 := match recipients with
            | [] => o1
            | _ :: _ => put_recipients o1 (Some recipients) (op_recipient_args o1)
            end in
  Done (put_headers o2 (fold_left (fun all h => headers_append all (h_name h) (h_value h)) hs
                                  (op_headers o2)), rest))).

(** milter-protocol.h:40, MILTER_CHUNK_SIZE. *)
Definition CHUNK_SIZE : N := 65535.

(** 1358-1399, parse_mail_contents_body_part.  At 1387 the character looked at is the NUL behind
    the string, so that only the newline is taken off. *)
Fixpoint body_part (body : bytes) (lines : list bytes) : list bytes :=
  match lines with
  | [] => match body with [] => [] | _ :: _ => [firstn (length body - 1) body] end
  | line :: rest =>
      if CHUNK_SIZE <? N.of_nat (length body) + N.of_nat (length line) + 1
      then body :: body_part (line ++ [LF]) rest
      else body_part (body ++ line ++ [LF]) rest
  end.

(** 1409-1411: a mailbox mark is skipped. *)
Definition skip_mark (lines : list bytes) : list bytes :=
  match lines with
  | first :: rest => if starts_with (lit "From ") first then rest else lines
  | [] => []
  end.

(** 1401-1426, parse_mail_contents, on what 1462 read; the contents are taken as a C string. *)
Definition parse_mail (o : options) (contents : bytes) : outcome options :=
  let lines := strsplit_lines (c_string contents) in
  bind (header_part o (skip_mark lines)) (fun '(o1, rest) =>
  Done (put_chunks o1 (Some (body_part [] rest)) (op_chunk_args o1))).

(** *** The option arguments *)

Inductive arg :=
| GFrom (from : bytes)             (* --envelope-from, --from *)
| GRecipient (recipient : bytes)   (* --envelope-recipient, --recipient *)
| GHeader (header : bytes)         (* --header *)
| GBody (chunk : bytes)            (* --body *)
| GMail (contents : bytes).        (* --mail-file, with the contents of the file *)

(** 1539-1558, 1568-1578, 1596-1597: what GLib does for string and string array options, and the
    callbacks parse_header_arg (1091-1114) and parse_mail_file_arg (1428-1485). *)
Definition take_arg (o : options) (a : arg) : outcome options :=
  match a with
  | GFrom from =>
      match op_from_owner o with
      | Freed => Crashed
      | _ => Done (put_from o (Some from) Parser)
      end
  | GRecipient r =>
      let l := op_recipient_args o ++ [r] in Done (put_recipients o (Some l) l)
  | GHeader h =>
      match cut ":" h with
      | Some (name, value) => Done (put_headers o (headers_add (op_headers o) name (Some value)))
      | None => Invalid
      end
  | GBody chunk =>
      let l := op_chunk_args o ++ [chunk] in Done (put_chunks o (Some l) l)
  | GMail contents => parse_mail o contents
  end.
Fixpoint take_args (o : options) (l : list arg) : outcome options :=
  match l with
  | [] => Done o
  | a :: l' => bind (take_arg o a) (fun o' => take_args o' l')
  end.

(** 608-617, normalize_envelope_address. *)
Definition normalize (address : bytes) : bytes :=
  if starts_with (lit "<") address && ends_with ">" address then address
  else lit "<" ++ address ++ lit ">".

(** The message to send: what post_option_parse (1908-1953) leaves in the global variables. *)
Record message := mk_message {
  msg_from : bytes;
  msg_recipients : list bytes;
  msg_headers : list header;
  msg_chunks : list bytes
}.

Definition default_body : bytes :=
  lit "La de da de da 1." ++ [LF] ++ lit "La de da de da 2." ++ [LF] ++
  lit "La de da de da 3." ++ [LF] ++ lit "La de da de da 4.".

(** There always is a recipient: both the option and the file set the list only with one. *)
Definition finish (o : options) : message :=
  let from := normalize (match op_from o with Some f => f | None => lit "sender@example.com" end) in
  let recipients :=
    map normalize (match op_recipients o with Some l => l | None => [lit "receiver@example.org"] end) in
  let hs := match headers_lookup (op_headers o) (lit "From") with
            | Some _ => op_headers o
            | None => headers_append (op_headers o) (lit "From") (Some from)
            end in
  let hs := match headers_lookup hs (lit "To") with
            | Some _ => hs
            | None => headers_append hs (lit "To") (nth_error recipients 0)
            end in
  mk_message from recipients hs (match op_chunks o with Some l => l | None => [default_body] end).

Definition message_of (args : list arg) : outcome message :=
  bind (take_args no_options args) (fun o => Done (finish o)).
