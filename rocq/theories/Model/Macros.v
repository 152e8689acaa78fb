(** Model of the macro store of milter/core/milter-protocol-agent.c, of the merge in
    milter/core/milter-macros-requests.c and of the macro prefix that
    milter/server/milter-server-context.c puts in front of a command. *)
From Verif.Base Require Import Bytes.
From Verif.Model Require Import Encoder CommandCodec ReplyCodec.

(** *** Protocol agent *)

(** macro_search_order, milter-protocol-agent.c:52-63. *)
Definition macro_search_order : list byte := ["C"; "H"; "M"; "R"; "T"; "L"; "N"; "B"; "E"]%char.

(** The hash table [macros] from command to macro table. *)
Definition stages := list (byte * table).

(** g_hash_table_lookup / insert / remove on it. *)
Fixpoint stage_lookup (m : stages) (c : byte) : option table :=
  match m with
  | [] => None
  | (c', t) :: m' => if beqb c' c then Some t else stage_lookup m' c
  end.
Fixpoint stage_insert (m : stages) (c : byte) (t : table) : stages :=
  match m with
  | [] => [(c, t)]
  | (c', t') :: m' => if beqb c' c then (c', t) :: m' else (c', t') :: stage_insert m' c t
  end.
Definition stage_remove (m : stages) (c : byte) : stages :=
  filter (fun e => negb (beqb (fst e) c)) m.

(** MilterProtocolAgentPrivate without the requests. *)
Record pagent := mk_pagent {
  pa_macros : stages;
  pa_available : option table;     (* cache, NULL when not computed *)
  pa_context : byte
}.

(** milter_protocol_agent_init, milter-protocol-agent.c:102-115: context unknown. *)
Definition pagent_new : pagent := mk_pagent [] None "U"%char.

(** milter_utils_merge_hash_string_string, milter-utils.c:458-478. *)
Definition merge_table (dest src : table) : table :=
  fold_left (fun d kv => insert d (fst kv) (snd kv)) src dest.

(** The loop of milter_protocol_agent_get_available_macros, milter-protocol-agent.c:224-238. *)
Fixpoint collect (m : stages) (context : byte) (order : list byte) (acc : table) : table :=
  match order with
  | [] => acc
  | c :: order' =>
      let acc' := match stage_lookup m c with Some t => merge_table acc t | None => acc end in
      if beqb c context then acc' else collect m context order' acc'
  end.

(** milter_protocol_agent_get_available_macros, milter-protocol-agent.c:214-242. *)
Definition get_available (a : pagent) : table * pagent :=
  match pa_available a with
  | Some t => (t, a)
  | None =>
      let t := collect (pa_macros a) (pa_context a) macro_search_order [] in
      (t, mk_pagent (pa_macros a) (Some t) (pa_context a))
  end.

(** [g_str_has_prefix(name, "{") && g_str_has_suffix(name, "}")] and the name between. *)
Definition unbracketed (name : bytes) : option bytes :=
  match name with
  | c :: rest =>
      if beqb c "{"%char && beqb (last name NUL) "}"%char
      then Some (firstn (length name - 2) rest) else None
  | [] => None
  end.

(** milter_protocol_agent_get_macro, milter-protocol-agent.c:183-205 (non-NULL name). *)
Definition get_macro (a : pagent) (name : bytes) : option bytes * pagent :=
  let (t, a') := get_available a in
  match lookup t name with
  | Some v => (Some v, a')
  | None => (match unbracketed name with Some n => lookup t n | None => None end, a')
  end.

(** milter_protocol_agent_get_macros, milter-protocol-agent.c:251-259. *)
Definition get_macros (a : pagent) : option table := stage_lookup (pa_macros a) (pa_context a).

(** milter_protocol_agent_clear_macros, milter-protocol-agent.c:261-270. *)
Definition clear_macros (a : pagent) (c : byte) : pagent :=
  mk_pagent (stage_remove (pa_macros a) c) None (pa_context a).

(** milter_protocol_agent_clear_message_related_macros, milter-protocol-agent.c:272-292. *)
Definition clear_message_related_macros (a : pagent) : pagent :=
  mk_pagent (fold_left stage_remove ["M"; "R"; "T"; "L"; "N"; "B"; "E"]%char (pa_macros a))
            None (pa_context a).

(** update_macro, milter-protocol-agent.c:294-302. *)
Definition remove_key (t : table) (k : bytes) : table :=
  filter (fun kv => negb (bytes_eqb (fst kv) k)) t.
Definition update_macro (t : table) (name : bytes) (value : option bytes) : table :=
  match value with Some v => insert t name v | None => remove_key t name end.

(** ensure_macros, milter-protocol-agent.c:304-318: the table of a stage, new if missing. *)
Definition ensure_macros (m : stages) (c : byte) : table :=
  match stage_lookup m c with Some t => t | None => [] end.

(** milter_protocol_agent_set_macro_context, milter-protocol-agent.c:320-329. *)
Definition set_macro_context (a : pagent) (c : byte) : pagent :=
  mk_pagent (pa_macros a) None c.

(** milter_protocol_agent_set_macros(_valist), milter-protocol-agent.c:331-363: the cache is
    not cleared.  The pairs are those before the terminating NULL name. *)
Definition set_macros (a : pagent) (c : byte) (l : list (bytes * option bytes)) : pagent :=
  mk_pagent
    (stage_insert (pa_macros a) c
       (fold_left (fun t nv => update_macro t (fst nv) (snd nv)) l (ensure_macros (pa_macros a) c)))
    (pa_available a) (pa_context a).

(** milter_protocol_agent_set_macros_hash_table, milter-protocol-agent.c:365-395 (values are
    non-NULL). *)
Definition set_macros_hash_table (a : pagent) (c : byte) (t : table) : pagent :=
  mk_pagent (stage_insert (pa_macros a) c (merge_table [] t)) None (pa_context a).

(** milter_protocol_agent_set_macro, milter-protocol-agent.c:397-411. *)
Definition set_macro (a : pagent) (c : byte) (name : bytes) (value : option bytes) : pagent :=
  mk_pagent (stage_insert (pa_macros a) c (update_macro (ensure_macros (pa_macros a) c) name value))
            None (pa_context a).

(** The calls. *)
Inductive macro_op :=
| ODefine (c : byte) (t : table)                       (* set_macros_hash_table *)
| OSet (c : byte) (name : bytes) (value : option bytes)(* set_macro *)
| OSetMany (c : byte) (l : list (bytes * option bytes))(* set_macros *)
| OContext (c : byte)                                  (* set_macro_context *)
| OClear (c : byte)                                    (* clear_macros *)
| OClearMessage                                        (* clear_message_related_macros *)
| OGet (name : bytes).                                 (* get_macro *)

Definition macro_step (a : pagent) (o : macro_op) : pagent :=
  match o with
  | ODefine c t => set_macros_hash_table a c t
  | OSet c n v => set_macro a c n v
  | OSetMany c l => set_macros a c l
  | OContext c => set_macro_context a c
  | OClear c => clear_macros a c
  | OClearMessage => clear_message_related_macros a
  | OGet n => snd (get_macro a n)
  end.

(** A history, oldest call first. *)
Definition macro_run (ops : list macro_op) : pagent := fold_left macro_step ops pagent_new.

(** *** Macro requests *)

Section Collate.
  (** g_utf8_collate of two strings gives 0; depends on the locale. *)
  Variable collate_equal : bytes -> bytes -> bool.

  (** The second loop of merge_requests, milter-macros-requests.c:255-260. *)
  Fixpoint append_missing (dest symbols : list bytes) : list bytes :=
    match symbols with
    | [] => dest
    | s :: symbols' =>
        append_missing (if existsb (fun d => collate_equal d s) dest then dest else dest ++ [s])
                       symbols'
    end.

  (** merge_requests, milter-macros-requests.c:242-262. *)
  Definition merge_requests (dest : requests) (c : byte) (symbols : list bytes) : requests :=
    set_symbols dest c
      (append_missing (match get_symbols dest c with Some l => l | None => [] end) symbols).

  (** milter_macros_requests_merge, milter-macros-requests.c:264-272 with foreach 301-314
      ([src] is another object than [dest]). *)
  Definition requests_merge (dest src : requests) : requests :=
    fold_left (fun d cs => merge_requests d (fst cs) (snd cs)) src dest.
End Collate.

(** *** Macros in front of a command *)

(** filter_macros, milter-server-context.c:971-995 ([None] is NULL). *)
Definition filter_macros (macros : table) (symbols : list bytes) : option table :=
  match fold_left (fun t s => match lookup macros s with Some v => insert t s v | None => t end)
                  symbols [] with
  | [] => None
  | t => Some t
  end.

(** prepend_macro, milter-server-context.c:998-1059: the macros that are sent before command
    [c], if any, and the agent afterwards (its context is reset to unknown).  [requests] is
    what the filter asked for in its negotiate reply, NULL if it did not ask. *)
Definition macros_before (a : pagent) (reqs : option requests) (c : byte) : option table * pagent :=
  let a1 := set_macro_context a c in
  let a2 := set_macro_context a1 "U"%char in
  match get_macros a1 with
  | None | Some [] => (None, a2)
  | Some macros =>
      match reqs with
      | None => (Some macros, a2)
      | Some r =>
          (match get_symbols r c with
           | Some ((_ :: _) as symbols) => filter_macros macros symbols
           | _ => None
           end, a2)
      end
  end.

(** The bytes of one write: the define-macro packet, if any, then the command packet
    (g_string_prepend_len, milter-server-context.c:1058). *)
Definition prepend_macro (ntop4 ntop6 : bytes -> bytes) (sort_keys : list bytes -> list bytes)
    (a : pagent) (reqs : option requests) (c : byte) (packet : bytes) : bytes :=
  match fst (macros_before a reqs c) with
  | Some t => encode_command ntop4 ntop6 sort_keys packet (CDefineMacro c t) ++ packet
  | None => packet
  end.
