(** milter-test-server: the message as the filter leaves it, and how it is printed. *)
From Verif.Base Require Import Bytes.
From Verif.Model Require Import Headers ReplyCode ReplyCodec TestMessage.
From Verif.Model Require Server.
Local Open Scope N_scope.

(** Message, milter-test-server.c:89-99, with quarantine_reason of ProcessData. *)
Record mail := mk_mail {
  ml_from : bytes;
  ml_original_from : bytes;
  ml_recipients : list bytes;
  ml_original_recipients : list bytes;
  ml_headers : list header;
  ml_original_headers : list header;
  ml_body : bytes;
  ml_replaced : bytes;
  ml_quarantine : option bytes
}.

(** 1623-1649, message_new. *)
Definition mail_new (m : TestMessage.message) : mail :=
  mk_mail (msg_from m) (msg_from m) (msg_recipients m) (msg_recipients m) (msg_headers m)
          (msg_headers m) (concat (msg_chunks m)) [] None.

Definition ml_put_from l x := mk_mail x (ml_original_from l) (ml_recipients l) (ml_original_recipients l) (ml_headers l) (ml_original_headers l) (ml_body l) (ml_replaced l) (ml_quarantine l).
Definition ml_put_recipients l x := mk_mail (ml_from l) (ml_original_from l) x (ml_original_recipients l) (ml_headers l) (ml_original_headers l) (ml_body l) (ml_replaced l) (ml_quarantine l).
Definition ml_put_headers l x := mk_mail (ml_from l) (ml_original_from l) (ml_recipients l) (ml_original_recipients l) x (ml_original_headers l) (ml_body l) (ml_replaced l) (ml_quarantine l).
Definition ml_put_replaced l x := mk_mail (ml_from l) (ml_original_from l) (ml_recipients l) (ml_original_recipients l) (ml_headers l) (ml_original_headers l) (ml_body l) x (ml_quarantine l).
Definition ml_put_quarantine l x := mk_mail (ml_from l) (ml_original_from l) (ml_recipients l) (ml_original_recipients l) (ml_headers l) (ml_original_headers l) (ml_body l) (ml_replaced l) x.

(** 568-677, cb_add_header .. cb_quarantine: what a modification request does; the others do
    nothing here.  remove_recipient (133-146) is the loop of milter-message-result.c:486-502. *)
Definition edit (l : mail) (r : reply) : mail :=
  match r with
  | RAddHeader name value => ml_put_headers l (headers_add (ml_headers l) name (Some value))
  | RInsertHeader index name value => ml_put_headers l (headers_insert (ml_headers l) index name value)
  | RChangeHeader name index value =>
      ml_put_headers l (snd (headers_change (ml_headers l) name index (Some value)))
  | RDeleteHeader name index => ml_put_headers l (snd (headers_delete (ml_headers l) name index))
  | RChangeFrom from _ => ml_put_from l (normalize from)
  | RAddRecipient r _ => ml_put_recipients l (ml_recipients l ++ [normalize r])
  | RDeleteRecipient r => ml_put_recipients l (Server.remove_first (ml_recipients l) (normalize r))
  | RReplaceBody body => ml_put_replaced l (ml_replaced l ++ body)
  | RQuarantine reason => ml_put_quarantine l (Some reason)
  | _ => l
  end.

(** *** Printing *)

(** The prefix of a printed item. *)
Inductive mark := Kept | Removed | Added.
Definition prefix_of (m : mark) : bytes :=
  match m with Kept => lit " " | Removed => lit "-" | Added => lit "+" end.

(** 1984-1992, 2073-2081 with the colours 121-131. *)
Definition escape (s : string) : bytes := byte_of 27 :: lit s.
Definition color_start (use_color : bool) (m : mark) : bytes :=
  if use_color then
    match m with Kept => [] | Removed => escape "[01;31m" | Added => escape "[01;32m" end
  else [].
Definition color_end (use_color : bool) (m : mark) : bytes :=
  if use_color then match m with Kept => [] | _ => escape "[00m" end else [].

(** One line, without its newline. *)
Definition marked (use_color : bool) (m : mark) (text : bytes) : bytes :=
  color_start use_color m ++ prefix_of m ++ lit " " ++ text ++ color_end use_color m.

(** 1977-1998, print_envelope_item. *)
Definition envelope_item (label address : bytes) : bytes := label ++ lit ":" ++ address.

(** 2000-2014, print_envelope_from. *)
Definition diff_from (original result : bytes) : list (mark * bytes) :=
  if bytes_eqb original result then [(Kept, original)]
  else [(Removed, original); (Added, result)].

(** 2016-2057, print_envelope_recipients; the branches at 2037-2045 are never taken. *)
Fixpoint diff_recipients (original result : list bytes) : list (mark * bytes) :=
  match original, result with
  | [], _ => map (pair Added) result
  | _, [] => map (pair Removed) original
  | o :: os, r :: rs =>
      if bytes_eqb o r then (Kept, o) :: diff_recipients os rs
      else (Removed, o) :: (Added, r) :: diff_recipients os rs
  end.

(** 2066-2110, print_header: the lines of a header.  g_strsplit gives NULL for a NULL value,
    which is dereferenced. *)
Definition header_lines (h : header) : outcome (list bytes) :=
  match h_value h with
  | None => Crashed
  | Some value =>
      Done match strsplit_lines value with
           | [] => [h_name h ++ lit ":"]
           | first :: more => (h_name h ++ lit ": " ++ first) :: more
           end
  end.

(** 2112-2159, print_headers. *)
Fixpoint diff_headers (original : list header) : list header -> list (mark * header) :=
  fix inner (result : list header) : list (mark * header) :=
    match original, result with
    | [], _ => map (pair Added) result
    | _, [] => map (pair Removed) original
    | o :: os, r :: rs =>
        if header_eqb o r then (Kept, o) :: diff_headers os rs
        else if negb (existsb (fun h => header_eqb h r) original) then (Added, r) :: inner rs
        else if negb (existsb (fun h => header_eqb h o) result) then (Removed, o) :: diff_headers os result
        else if bytes_eqb (h_name o) (h_name r) then
          (Removed, o) :: (Added, r) :: diff_headers os rs
        else (Added, r) :: inner rs
    end.

(** 2161-2184, get_charset. *)
Fixpoint after_text (p s : bytes) : option bytes :=
  if starts_with p s then Some (skipn (length p) s)
  else match s with [] => None | _ :: s' => after_text p s' end.
Definition get_charset (value : bytes) : option bytes :=
  match after_text (lit "charset=") value with
  | None => None
  | Some pos =>
      match pos with
      | c :: rest =>
          if (code c =? 34) || (code c =? 39) then
            match cut c rest with Some (inner, _) => Some inner | None => None end
          else match cut ";" pos with Some (name, _) => Some name | None => Some pos end
      | [] => Some []
      end
  end.

(** The lines of headers with their marks. *)
Fixpoint print_headers (use_color : bool) (items : list (mark * header)) : outcome (list bytes) :=
  match items with
  | [] => Done []
  | (m, h) :: items' =>
      bind (header_lines h) (fun lines =>
      bind (print_headers use_color items') (fun more => Done (map (marked use_color m) lines ++ more)))
  end.

Section Body.
  (** g_convert to UTF-8: the text, and the message of an error. *)
  Variable convert : bytes -> bytes -> option bytes * option bytes.

  (** 2186-2246, get_message_charset and print_body: the text printed, before a newline.
      strstr is given a NULL value, too. *)
  Definition print_body (l : mail) : outcome bytes :=
    let body := match ml_replaced l with [] => ml_body l | _ :: _ => ml_replaced l end in
    bind match headers_lookup (ml_headers l) (lit "Content-Type") with
         | Some h => match h_value h with Some v => Done (get_charset v) | None => Crashed end
         | None => Done None
         end (fun charset =>
    match charset with
    | None => Done (c_string body)
    | Some charset =>
        let (text, error) := convert charset body in
        Done (match error with
              | Some e => lit "Error:---------------------------------" ++ [LF] ++ e ++ [LF] ++
                          lit "---------------------------------------" ++ [LF]
              | None => []
              end ++ c_string (match text with Some t => t | None => body end))
    end).

  (** 2059-2064, 2248-2257, print_envelope and print_message: the lines printed, then the body. *)
  Definition print_message (use_color : bool) (l : mail) : outcome (list bytes * bytes) :=
    bind (print_headers use_color (diff_headers (ml_original_headers l) (ml_headers l))) (fun lines =>
    bind (print_body l) (fun body =>
    Done
      (lit "Envelope:------------------------------" ::
       map (fun '(m, a) => marked use_color m (envelope_item (lit "MAIL FROM") a))
           (diff_from (ml_original_from l) (ml_from l)) ++
       map (fun '(m, a) => marked use_color m (envelope_item (lit "RCPT TO") a))
           (diff_recipients (ml_original_recipients l) (ml_recipients l)) ++
       lit "Header:--------------------------------" ::
       lines ++ [lit "Body:----------------------------------"],
       body))).
End Body.
