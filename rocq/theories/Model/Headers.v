(** The header list and its edits, and the header changes reported at end of message. *)
From Verif.Base Require Import Bytes.

(** milter/core/milter-headers.h, MilterHeader: a name (never NULL here) and a value. *)
Record header := mk_header { h_name : bytes; h_value : option bytes }.

(** milter/core/milter-utils.c:706-715 (milter_utils_strcmp0) and milter-headers.c:27-37
    (string_equal): equality of possibly NULL strings; NULL equals only NULL. *)
Definition ostring_eqb (a b : option bytes) : bool :=
  match a, b with
  | None, None => true
  | Some x, Some y => bytes_eqb x y
  | _, _ => false
  end.

(** milter-headers.c:81-101, milter_header_compare = 0 and milter_header_equal. *)
Definition header_eqb (a b : header) : bool :=
  bytes_eqb (h_name a) (h_name b) && ostring_eqb (h_value a) (h_value b).

(** g_ascii_strcasecmp = 0. *)
Definition caseless_eqb (a b : bytes) : bool := bytes_eqb (map lower a) (map lower b).

(** milter-headers.c:251-265, milter_headers_find: the found header is equal to the wanted
    one, so only whether there is one matters. *)
Definition headers_find (hs : list header) (h : header) : bool := existsb (header_eqb h) hs.

(** milter-headers.c:274-289, milter_headers_lookup_by_name: the first with exactly this name. *)
Fixpoint headers_lookup (hs : list header) (name : bytes) : option header :=
  match hs with
  | [] => None
  | h :: hs' => if bytes_eqb (h_name h) name then Some h else headers_lookup hs' name
  end.

(** milter-headers.c:291-307, milter_headers_get_nth_header: [index] counts from 1. *)
Definition headers_get_nth (hs : list header) (index : N) : option header :=
  if (index <? 1)%N then None else nth_error hs (N.to_nat (index - 1)).

(** milter-headers.c:309-331, milter_headers_index_in_same_header_name; [None] is -1. *)
Fixpoint index_in_same_name (found : N) (hs : list header) (target : header) : option N :=
  match hs with
  | [] => None
  | h :: hs' =>
      if negb (bytes_eqb (h_name h) (h_name target)) then index_in_same_name found hs' target
      else if ostring_eqb (h_value h) (h_value target) then Some (found + 1)%N
      else index_in_same_name (found + 1) hs' target
  end.

(** milter-headers.c:333-350, milter_headers_remove. *)
Fixpoint headers_remove (hs : list header) (h : header) : bool * list header :=
  match hs with
  | [] => (false, [])
  | x :: hs' =>
      if header_eqb h x then (true, hs')
      else let '(ok, r) := headers_remove hs' h in (ok, x :: r)
  end.

(** milter-headers.c:352-380, milter_headers_add_header: before the first header of the same
    name in any case, otherwise at the end. *)
Fixpoint headers_add (hs : list header) (name : bytes) (value : option bytes) : list header :=
  match hs with
  | [] => [mk_header name value]
  | h :: hs' =>
      if caseless_eqb (h_name h) name then mk_header name value :: hs
      else h :: headers_add hs' name value
  end.

(** milter-headers.c:382-394, milter_headers_append_header. *)
Definition headers_append (hs : list header) (name : bytes) (value : option bytes)
  : list header := hs ++ [mk_header name value].

(** milter-headers.c:396-411, milter_headers_insert_header.  g_list_insert takes the position
    as gint: a position of 2^31 or more is negative there and appends, as does any position
    past the end. *)
Definition headers_insert (hs : list header) (position : N) (name : bytes)
  (value : option bytes) : list header :=
  if (2147483648 <=? position)%N || (N.of_nat (length hs) <=? position)%N
  then hs ++ [mk_header name value]
  else firstn (N.to_nat position) hs ++ mk_header name value :: skipn (N.to_nat position) hs.

(** milter-headers.c:413-437 with 439-457 (change) and 459-476 (delete): what
    milter_headers_lookup_by_name_with_index finds is replaced by [edit]; [None] when nothing
    is found.  [found] is found_count. *)
Fixpoint edit_nth_named (edit : header -> list header) (found : N) (hs : list header)
  (name : bytes) (index : N) : option (list header) :=
  match hs with
  | [] => None
  | h :: hs' =>
      if negb (bytes_eqb (h_name h) name) then
        option_map (cons h) (edit_nth_named edit found hs' name index)
      else if (found + 1 =? index)%N then Some (edit h ++ hs')
      else option_map (cons h) (edit_nth_named edit (found + 1) hs' name index)
  end.

(** milter-headers.c:459-476, milter_headers_delete_header. *)
Definition headers_delete (hs : list header) (name : bytes) (index : N) : bool * list header :=
  match edit_nth_named (fun _ => []) 0 hs name index with
  | Some hs' => (true, hs')
  | None => (false, hs)
  end.

(** milter-headers.c:439-457, milter_headers_change_header. *)
Definition headers_change (hs : list header) (name : bytes) (index : N)
  (value : option bytes) : bool * list header :=
  match value with
  | None => headers_delete hs name index
  | Some v =>
      match edit_nth_named (fun h => [mk_header (h_name h) (Some v)]) 0 hs name index with
      | Some hs' => (true, hs')
      | None => (true, headers_add hs name (Some v))
      end
  end.

(** *** Reporting header changes (milter/manager/milter-manager-children.c) *)

(** The signals emitted towards the MTA side. *)
Inductive header_request :=
| HAdd (name : bytes) (value : option bytes)
| HInsert (index : N) (name : bytes) (value : option bytes)
| HChange (name : bytes) (index : N) (value : option bytes)
| HDelete (name : bytes) (index : N).

(** milter-manager-children.c:1237-1266, the loop over the final headers: the requests, and
    the processing headers left. *)
Fixpoint report_final (original processing : list header) (i : N) (final : list header)
  : list header_request * list header :=
  match final with
  | [] => ([], processing)
  | h :: final' =>
      if headers_find processing h then
        report_final original (snd (headers_remove processing h)) (i + 1) final'
      else
        match headers_lookup processing (h_name h) with
        | None =>
            let '(rs, p) := report_final original processing (i + 1) final' in
            (HInsert i (h_name h) (h_value h) :: rs, p)
        | Some found =>
            match index_in_same_name 0 original found with
            | None =>
                let '(rs, p) := report_final original processing (i + 1) final' in
                (HAdd (h_name h) (h_value h) :: rs, p)
            | Some index =>
                let '(rs, p) :=
                  report_final original (snd (headers_remove processing found)) (i + 1) final' in
                (HChange (h_name h) index (h_value h) :: rs, p)
            end
        end
  end.

(** milter-manager-children.c:1268-1282, deleting what is left, the last first.  An index of
    -1 would be sent as 2^32-1. *)
Definition report_left (original remaining : list header) : list header_request :=
  map (fun h => HDelete (h_name h)
                  (match index_in_same_name 0 original h with Some i => i | None => 4294967295 end))
      (rev remaining).

(** milter-manager-children.c:1222-1285, emit_header_signals. *)
Definition header_changes (original final : list header) : list header_request :=
  let '(rs, remaining) := report_final original original 0 final in
  rs ++ report_left original remaining.
