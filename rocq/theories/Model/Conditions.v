(** Applicable conditions: the stoppers that configuration files define for filters
    (ApplicableConditionConfigurationLoader and EggConfigurationLoader, binding/ruby/lib/milter/manager.rb:
    1106-1410; ChildContext, manager/child-context.rb), how they are asked (the stop-on signals of
    milter/server/milter-server-context.c) and what the manager does with a filter that is stopped
    (cb_stopped, milter/manager/milter-manager-children.c:2154-2208).

    One filter of one session is seen, as far as conditions go: it takes every command and answers each with
    continue, asks for no particular macros, and what is written to it is flushed at once. *)
From Verif.Base Require Import Bytes.
From Verif.Model Require Import Encoder CommandCodec Macros.
From Verif.Model Require ConnectionSpec.
Import List.

Inductive stage := AtConnect | AtHelo | AtFrom | AtRecipient | AtData | AtHeader | AtEndOfHeader | AtBody | AtEnd.
Scheme Boolean Equality for stage.
(** The command byte, under which the macros of the stage are kept. *)
Definition stage_command (s : stage) : byte :=
  match s with
  | AtConnect => "C" | AtHelo => "H" | AtFrom => "M" | AtRecipient => "R" | AtData => "T" | AtHeader => "L"
  | AtEndOfHeader => "N" | AtBody => "B" | AtEnd => "E"
  end%char.

(** Milter::SocketAddress (core/socket-address.rb): the value of the address, and the port. *)
Inductive address :=
| IPv4 (a : N) (port : N) | IPv6 (a : N) (port : N) | UnixPath (path : bytes) | UnknownAddress.
Inductive argument := Text (s : bytes) | Address (a : address).
(** A command with what it says. *)
Record command := mk_command { c_stage : stage; c_arguments : list argument }.

(** What a block gives: something true, something false, or an exception. *)
Inductive answer := Yes | No | Raises.
(** Milter::Callback.guard(false), core/callback.rb:17-25. *)
Definition guarded (r : answer) : bool := match r with Yes => true | No | Raises => false end.

Section Stopping.
  (** What the stoppers see besides the filter's macros: the time, other filters, DNS and so on. *)
  Variable E : Type.
  (** A stopper called with the ChildContext of a filter and its arguments.  The context is the macros of the
      filter: [context\[name\]] and [context\[name\] = value] below. *)
  Definition stopper := E -> pagent -> list argument -> pagent * answer.
  Record condition := mk_condition { k_name : bytes; k_stoppers : list (stage * stopper) }.
  (** @connect_stoppers and so on: those of a stage, in the order in which they were defined. *)
  Definition stoppers_at (s : stage) (k : condition) : list stopper :=
    map snd (filter (fun p => stage_beq (fst p) s) (k_stoppers k)).

  (** What the stoppers are called with besides the context, 1303-1400: those of the body with the name of
      the condition first ([name] is ApplicableCondition#name through method_missing), those of the end of the
      message without the chunk. *)
  Definition passed (k : condition) (c : command) : list argument :=
    match c_stage c with
    | AtBody => Text (k_name k) :: c_arguments c
    | AtEnd => []
    | _ => c_arguments c
    end.
  (** [any?] over the stoppers of a condition. *)
  Fixpoint any_stops (l : list stopper) (e : E) (a : pagent) (args : list argument) : pagent * bool :=
    match l with
    | [] => (a, false)
    | p :: l => let (a, r) := p e a args in if guarded r then (a, true) else any_stops l e a args
    end.
  (** The emission of the signal: the handlers of the conditions in the order in which they are attached
      (milter_manager_egg_attach_applicable_conditions, milter-manager-egg.c:780-796) until one gives TRUE
      (stop_on_accumulator, milter-server-context.c:3645-3657).  The class's own handler gives FALSE. *)
  Fixpoint asked (ks : list condition) (e : E) (a : pagent) (c : command) : pagent * bool :=
    match ks with
    | [] => (a, false)
    | k :: ks =>
        let (a, stop) := any_stops (stoppers_at (c_stage c) k) e a (passed k c) in
        if stop then (a, true) else asked ks e a c
    end.

  (** The filter: its macros, processing_message and quitted of MilterServerContextPrivate. *)
  Record child := mk_child { c_agent : pagent; c_processing : bool; c_quitted : bool }.
  Definition child_new : child := mk_child pagent_new false false.
  (** What becomes of a command: the filter is told it, with the macros of the stage in front of it (none if
      the table is empty); it is stopped; it is not concerned. *)
  Inductive outcome := Told (macros : table) | Stopped | Passed.

  (** The targets of milter_manager_children_connect, _helo, _envelope_from, _envelope_recipient, _data and
      so on, milter-manager-children.c:3275-3502, 3608-4090. *)
  Definition concerned (f : child) (s : stage) : bool :=
    match s with
    | AtConnect | AtHelo | AtFrom => negb (c_quitted f)
    | _ => c_processing f && negb (c_quitted f)
    end.
  (** milter_server_context_connect and so on, milter-server-context.c:1690-2290: the context of the macros is
      set (not by milter_server_context_helo, 1694-1738), the stoppers are asked.  If none stops, the macros
      of the stage are prepended and the context is the unknown command afterwards (prepend_macro, 997-1058);
      MAIL begins the message (1903).  If one stops, cb_stopped: at CONNECT and HELO the filter quits, at MAIL and
      RCPT nothing happens to it, later the message is aborted and what belongs to it reset (1371-1386). *)
  Definition tell (ks : list condition) (f : child) (e : E) (c : command) : child * outcome :=
    let s := c_stage c in
    if concerned f s then
      let a := match s with AtHelo => c_agent f | _ => set_macro_context (c_agent f) (stage_command s) end in
      let (a, stop) := asked ks e a c in
      if stop then
        (match s with
         | AtConnect | AtHelo => mk_child a (c_processing f) true
         | AtFrom | AtRecipient => mk_child a (c_processing f) (c_quitted f)
         | _ => mk_child (clear_message_related_macros a) false (c_quitted f)
         end, Stopped)
      else
        (mk_child (set_macro_context a "U"%char) (match s with AtFrom => true | _ => c_processing f end)
                  (c_quitted f),
         Told (ensure_macros (pa_macros a) (stage_command s)))
    else (f, Passed).
  (** milter_manager_children_define_macro, milter-manager-children.c:3157-3208: the MTA's macros. *)
  Definition define_macros (f : child) (s : stage) (t : table) : child :=
    if match s with AtConnect | AtHelo => true | AtFrom => negb (c_quitted f) | _ => c_processing f && negb (c_quitted f) end
    then mk_child (set_macros_hash_table (c_agent f) (stage_command s) t) (c_processing f) (c_quitted f)
    else f.
  (** milter_manager_children_abort, milter-manager-children.c:4118-4152. *)
  Definition abort (f : child) : child :=
    if c_quitted f then f
    else mk_child (clear_message_related_macros (c_agent f)) false (c_quitted f).

  (** What the MTA sends. *)
  Inductive event := EMacros (s : stage) (t : table) | ECommand (e : E) (c : command) | EAbort.
  Definition step (ks : list condition) (f : child) (x : event) : child * list outcome :=
    match x with
    | EMacros s t => (define_macros f s t, [])
    | ECommand e c => let (f, o) := tell ks f e c in (f, [o])
    | EAbort => (abort f, [])
    end.
  Fixpoint run (ks : list condition) (f : child) (l : list event) : child * list outcome :=
    match l with
    | [] => (f, [])
    | x :: l => let (f, o) := step ks f x in let (f, os) := run ks f l in (f, o ++ os)
    end.

  (** ** The definitions of a configuration *)

  (** A condition object does not change once it is defined (its stoppers are connected by [apply],
      manager.rb:1297-1302), so a filter holds the condition itself.  Descriptions are left out (ConfigDump). *)
  Record configuration := mk_configuration { conditions : list condition; milters : list (bytes * list condition) }.
  Definition empty_configuration : configuration := mk_configuration [] [].
  Definition find_condition (l : list condition) (name : bytes) : option condition :=
    find (fun k => bytes_eqb (k_name k) name) l.
  Fixpoint find_all (l : list condition) (names : list bytes) : option (list condition) :=
    match names with
    | [] => Some []
    | n :: names =>
        match find_condition l n, find_all l names with Some k, Some ks => Some (k :: ks) | _, _ => None end
    end.
  (** In the block of define_milter: [applicable_conditions = names], 1131-1155; add_applicable_condition, 1117-1129;
      [applicable_conditions += names]. *)
  Inductive change := SetConditions (names : list bytes) | AddCondition (name : bytes) | AppendConditions (names : list bytes).
  Definition changed (l ks : list condition) (c : change) : option (list condition) :=
    match c with
    | SetConditions names => find_all l names
    | AddCondition n => option_map (fun k => ks ++ [k]) (find_condition l n)
    | AppendConditions names => option_map (fun new => ks ++ new) (find_all l names)
    end.
  Fixpoint changed_all (l ks : list condition) (cs : list change) : option (list condition) :=
    match cs with
    | [] => Some ks
    | c :: cs => match changed l ks c with Some ks => changed_all l ks cs | None => None end
    end.
  Definition find_milter (l : list (bytes * list condition)) (name : bytes) : option (list condition) :=
    option_map snd (find (fun m => bytes_eqb (fst m) name) l).
  Fixpoint remove_milter (l : list (bytes * list condition)) (name : bytes) : list (bytes * list condition) :=
    match l with
    | [] => []
    | m :: l => if bytes_eqb (fst m) name then l else m :: remove_milter l name
    end.
  Fixpoint remove_condition (l : list condition) (name : bytes) : list condition :=
    match l with
    | [] => []
    | k :: l => if bytes_eqb (k_name k) name then l else k :: remove_condition l name
    end.
  (** define_applicable_condition, 474-479, with 1219-1236 and 1297-1302; define_milter, 462-467, with 1106-1115 and
      1205-1208 (the definition before is merged, which keeps its conditions, milter-manager-egg.c:844-850);
      remove_milter, 470-472.  [None]: a condition is unknown, InvalidValue is raised. *)
  Inductive definition :=
  | DefineCondition (name : bytes) (stoppers : list (stage * stopper))
  | DefineMilter (name : bytes) (changes : list change)
  | RemoveMilter (name : bytes).
  Definition define (c : configuration) (d : definition) : option configuration :=
    match d with
    | DefineCondition n ps =>
        Some (mk_configuration (remove_condition (conditions c) n ++ [mk_condition n ps]) (milters c))
    | DefineMilter n cs =>
        let before := match find_milter (milters c) n with Some ks => ks | None => [] end in
        option_map (fun ks => mk_configuration (conditions c) (remove_milter (milters c) n ++ [(n, ks)]))
                   (changed_all (conditions c) before cs)
    | RemoveMilter n => Some (mk_configuration (conditions c) (remove_milter (milters c) n))
    end.
  Fixpoint define_all (c : configuration) (l : list definition) : option configuration :=
    match l with
    | [] => Some c
    | d :: l => match define c d with Some c => define_all c l | None => None end
    end.
End Stopping.
Arguments mk_condition {E}. Arguments k_name {E}. Arguments k_stoppers {E}.
Arguments ECommand {E}. Arguments EMacros {E}. Arguments EAbort {E}.
Arguments tell {E}. Arguments run {E}. Arguments step {E}. Arguments asked {E}. Arguments any_stops {E}.
Arguments stoppers_at {E}. Arguments passed {E}.
Arguments define {E}. Arguments define_all {E}. Arguments find_milter {E}. Arguments find_condition {E}.
Arguments conditions {E}. Arguments milters {E}. Arguments mk_configuration {E}. Arguments empty_configuration {E}.
Arguments DefineCondition {E}. Arguments DefineMilter {E}. Arguments RemoveMilter {E}.
Arguments find_all {E}. Arguments changed {E}. Arguments changed_all {E}. Arguments remove_milter {E}.
Arguments remove_condition {E}.

(** ** The context a stopper has *)

(** normalize_macro_name, core/macro.rb:25-29: without the braces around it ("." is any character but a
    newline; names have none). *)
Definition normalized (name : bytes) : bytes :=
  match unbracketed name with Some (c :: n) => c :: n | _ => name end.
(** ChildContext#[] and #[]=, child-context.rb:35-43. *)
Definition macro (a : pagent) (name : bytes) : option bytes := lookup (fst (get_available a)) (normalized name).
Definition set_own (a : pagent) (name : bytes) (value : option bytes) : pagent :=
  set_macro a (pa_context a) (normalized name) value.
(** MacroPredicates#authenticated?, core/macro.rb:31-34. *)
Definition given (v : option bytes) : bool := match v with Some _ => true | None => false end.
Definition authenticated (a : pagent) : bool :=
  given (macro a (lit "auth_type")) || given (macro a (lit "auth_authen")).
Definition says (b : bool) : answer := if b then Yes else No.

Section Library.
  Variable E : Type.

  (** authentication.conf. *)
  Definition authenticated_condition : condition E :=
    mk_condition (lit "Authenticated") [(AtFrom, fun _ a _ => (a, says (negb (authenticated a))))].
  Definition unauthenticated_condition : condition E :=
    mk_condition (lit "Unauthenticated") [(AtFrom, fun _ a _ => (a, says (authenticated a)))].

  (** AddressMatcher, address-matcher.rb: the networks are IPAddr objects, [include?] a parameter. *)
  Variable network : Type.
  Variable includes : network -> address -> bool.
  (** Addrinfo#ipv4_loopback?, #ipv4_private?, #ipv6_loopback?, #ipv6_linklocal?. *)
  Definition is_local (a : address) : bool :=
    match a with
    | IPv4 a _ => (N.shiftr a 24 =? 127)%N || (N.shiftr a 24 =? 10)%N || (N.shiftr a 20 =? 2753)%N || (N.shiftr a 16 =? 49320)%N
    | IPv6 a _ => (a =? 1)%N || (N.shiftr a 118 =? 1018)%N
    | UnixPath _ => true
    | UnknownAddress => false
    end.
  (** [to_ip_address] is nil for the others. *)
  Definition has_ip (a : address) : bool := match a with IPv4 _ _ | IPv6 _ _ => true | _ => false end.
  Definition is_unknown (a : address) : bool := match a with UnknownAddress => true | _ => false end.
  Definition local_address (local remote : list network) (a : address) : bool :=
    if is_unknown a then false
    else if has_ip a && existsb (fun n => includes n a) remote then false
    else if is_local a then true
    else has_ip a && existsb (fun n => includes n a) local.
  Definition remote_address (local remote : list network) (a : address) : bool :=
    if is_unknown a then false else negb (local_address local remote a).
  (** The stoppers of CONNECT have a host and an address. *)
  Definition on_connect (f : E -> bytes -> address -> bool) (e : E) (a : pagent) (args : list argument) : pagent * answer :=
    match args with
    | [Text host; Address x] => (a, says (f e host x))
    | _ => (a, Raises)
    end.
  (** remote-network.conf. *)
  Definition remote_network_condition (local remote : list network) : condition E :=
    mk_condition (lit "Remote Network") [(AtConnect, on_connect (fun _ _ x => negb (remote_address local remote x)))].

  (** s25r.conf; the matchers are any predicates on the host.  white? and black?, 21-29. *)
  Definition is_ipv4 (a : address) : bool := match a with IPv4 _ _ => true | _ => false end.
  Definition matched (l : list (bytes -> bool)) (host : bytes) : bool := existsb (fun m => m host) l.
  Definition white (only4 : bool) (l : list (bytes -> bool)) (host : bytes) (x : address) : bool :=
    if only4 && negb (is_ipv4 x) then true else matched l host.
  Definition black (only4 : bool) (l : list (bytes -> bool)) (host : bytes) (x : address) : bool :=
    if only4 && negb (is_ipv4 x) then false else matched l host.
  Definition s25r_condition (only4 : bool) (whitelist blacklist : list (bytes -> bool)) : condition E :=
    mk_condition (lit "S25R")
      [(AtConnect, on_connect (fun _ host x =>
          if white only4 whitelist host x then true
          else if black only4 blacklist host x then false else true))].

  (** dnsbl.conf.  The answers of the services come in any order; [None]: an exception, a timeout among them. *)
  Definition dotted (a : N) : bytes :=
    let d n := ConnectionSpec.decimal (N.shiftr a n mod 256) in
    d 24%N ++ lit "." ++ d 16%N ++ lit "." ++ d 8%N ++ lit "." ++ d 0%N.
  (** String#split(".").  Texts of addresses do not end with a point. *)
  Fixpoint split_points (s acc : bytes) : list bytes :=
    match s with
    | [] => [acc]
    | c :: s => if beqb c "." then acc :: split_points s [] else split_points s (acc ++ [c])
    end.
  Fixpoint join_points (l : list bytes) : bytes :=
    match l with [] => [] | [s] => s | s :: l => s ++ lit "." ++ join_points l end.
  (** listed_address?, 47-54. *)
  Definition query_domain (a : N) (domain : bytes) : bytes :=
    join_points (rev (split_points (dotted a) [])) ++ lit "." ++ domain.
  (** The loop over the answers, 73-80: the first [n] in their order of arrival. *)
  Fixpoint pop_answers (n : nat) (answers : list bool) : bool :=
    match n, answers with
    | S n, x :: answers => if x then true else pop_answers n answers
    | _, _ => false
    end.
  (** [arrival]: the answers in the order in which they arrive for an address. *)
  Definition listed (services : list (bytes * option network)) (arrival : E -> N -> list bool) (e : E) (x : address) : bool :=
    match x with
    | IPv4 a _ => pop_answers (length services) (arrival e a)
    | _ => false
    end.
  Definition dnsbl_condition services arrival : condition E :=
    mk_condition (lit "DNSBL Listed") [(AtConnect, on_connect (fun e _ x => negb (listed services arrival e x)))].
  Definition not_dnsbl_condition services arrival : condition E :=
    mk_condition (lit "Not DNSBL Listed") [(AtConnect, on_connect (fun e _ x => listed services arrival e x))].

  (** stress.conf with Breaker#stressing?, breaker.rb:25-33. *)
  Variable n_sessions : E -> N.
  Definition stressing (threshold : N) (e : E) : bool :=
    if (threshold =? 0)%N then false else (threshold <=? n_sessions e)%N.
  Definition no_stress_condition (threshold : N) : condition E :=
    mk_condition (lit "No Stress") [(AtConnect, on_connect (fun e _ _ => stressing threshold e))].
  Definition stress_notify_condition (threshold : N) : condition E :=
    mk_condition (lit "Stress Notify")
      [(AtConnect, fun e a _ => ((if stressing threshold e then set_own a (lit "stress") (Some (lit "yes")) else a), No))].

  (** trust.conf.  parse_envelope_from, 46-53: [/\A<(.+?)@(.+?)>\z/]; the domain is what follows the first "@"
      that has something before it. *)
  Fixpoint after_at (s : bytes) : option bytes :=
    match s with [] => None | c :: s => if beqb c "@" then Some s else after_at s end.
  Definition newline_free (s : bytes) : bool := forallb (fun c => negb (beqb c (byte_of 10))) s.
  Definition from_domain (from : bytes) : option bytes :=
    match from with
    | c :: c' :: s =>
        if beqb c "<" && beqb (last s NUL) ">" && newline_free (c' :: removelast s) then
          match after_at (removelast s) with Some (d :: domain) => Some (d :: domain) | _ => None end
        else None
    | _ => None
    end.
  (** String#downcase of ASCII. *)
  Definition trusted (domains : list (bytes -> bool)) (from : bytes) : bool :=
    match from_domain from with None => false | Some d => matched domains (map lower d) end.
  Definition trust_condition (domains : list (bytes -> bool)) : condition E :=
    mk_condition (lit "Trust")
      [(AtFrom, fun _ a args =>
          match args with
          | Text from :: _ => ((if trusted domains from then set_own a (lit "trusted_domain") (Some (lit "yes")) else a), No)
          | _ => (a, Raises)
          end)].

  (** restrict-accounts.conf; [restricted]: the block, or a match of the list of accounts. *)
  Definition flag : bytes := lit "have-not-restricted-account".
  Definition restrict_condition (name : bytes) (restricted : bytes -> bool) : condition E :=
    mk_condition name
      [(AtRecipient, fun _ a args =>
          match args with
          | Text r :: _ => if restricted r then (a, No) else (set_own a flag (Some (lit "true")), Yes)
          | _ => (a, Raises)
          end);
       (AtData, fun _ a _ =>
          (a, says match macro a flag with Some v => bytes_eqb v (lit "true") | None => false end))].
  (** restrict_accounts_by_list, 30-45: [/\A<(.+)>\z/]. *)
  Definition bare_address (r : bytes) : bytes :=
    match r with
    | c :: c' :: s => if beqb c "<" && beqb (last s NUL) ">" && newline_free (c' :: removelast s) then c' :: removelast s else r
    | _ => r
    end.
  Definition in_list (accounts : list (bytes -> bool)) (r : bytes) : bool := existsb (fun m => m (bare_address r)) accounts.

  (** sendmail-compatible.conf; [postfix]: a version that has the word Postfix in it; the guesses are those of
      netstat and DNS. *)
  Variable postfix : bytes -> bool.
  Variable guess_address guess_port : E -> address -> option bytes.
  Variable resolved : E -> bytes -> option bytes.
  Definition is_postfix (a : pagent) : bool := match macro a (lit "v") with Some v => postfix v | None => false end.
  (** [context\[name\] ||= value]. *)
  Definition default_macro (name : bytes) (value : option bytes) (a : pagent) : pagent :=
    match macro a name with Some _ => a | None => set_own a name value end.
  Definition sendmail_condition : condition E :=
    mk_condition (lit "Sendmail Compatible")
      [(AtConnect, fun e a args =>
          match args with
          | [Text _; Address x] =>
              (if is_postfix a then
                 let a := default_macro (lit "if_addr") (guess_address e x) a in
                 let a := default_macro (lit "if_name")
                            (match macro a (lit "if_addr") with Some i => resolved e i | None => None end) a in
                 default_macro (lit "daemon_port") (guess_port e x) a
               else a, No)
          | _ => (a, Raises)
          end);
       (AtFrom, fun _ a _ => ((if is_postfix a then default_macro (lit "i") (Some (lit "dummy-id")) a else a), No))].

  (** ** Policies, policy-manager.rb *)

  (** A matcher is used with ===: nil matches nothing (nil === "x" is false). *)
  Definition matcher (A : Type) := option (A -> bool).
  Definition case_eq {A} (m : matcher A) (x : A) : bool := match m with Some f => f x | None => false end.
  Record policy := mk_policy {
    p_milters : list bytes; p_host : matcher bytes; p_address : matcher address; p_fqdn : matcher bytes;
    p_from : matcher bytes; p_recipient : matcher bytes
  }.
  Definition targets (p : policy) (milter : bytes) : bool := existsb (bytes_eqb milter) (p_milters p).
  (** Policy#stop_on_connect? and so on, 105-132. *)
  Definition policy_connect (milter : bytes) (host : bytes) (x : address) (p : policy) : bool :=
    if targets p milter then negb (case_eq (p_host p) host || case_eq (p_address p) x) else false.
  Definition policy_from (milter from : bytes) (p : policy) : bool :=
    if targets p milter then negb (case_eq (p_from p) from) else false.
  Definition policy_recipient (milter r : bytes) (p : policy) : bool :=
    if targets p milter then negb (case_eq (p_recipient p) r) else false.
  Definition policy_data (milter : bytes) (p : policy) : bool := negb (targets p milter).
  (** PolicyManager#apply, 27-60, for the filter [milter].  stop_on_helo?, 68-72, names a variable that does not exist:
      NameError if there is a policy. *)
  Definition policy_condition (ps : list policy) (milter : bytes) : condition E :=
    mk_condition (lit "Policy")
      [(AtConnect, on_connect (fun _ host x => existsb (policy_connect milter host x) ps));
       (AtHelo, fun _ a _ => (a, match ps with [] => No | _ => Raises end));
       (AtFrom, fun _ a args => match args with Text f :: _ => (a, says (existsb (policy_from milter f) ps)) | _ => (a, Raises) end);
       (AtRecipient, fun _ a args =>
          match args with Text r :: _ => (a, says (existsb (policy_recipient milter r) ps)) | _ => (a, Raises) end);
       (AtData, fun _ a _ => (a, says (existsb (policy_data milter) ps)))].
End Library.
