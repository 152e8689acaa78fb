(** The tables of addresses and patterns in the format of Postfix: milter/manager/
    postfix-condition-table-parser.rb, postfix-regexp-table.rb, postfix-cidr-table.rb and
    condition-table.rb of binding/ruby/lib. *)
From Verif.Base Require Import Bytes.
Local Open Scope N_scope.

(** *** Lines (postfix-condition-table-parser.rb:20-40) *)

(** [\s]: space, tab, newline, vertical tab, form feed, carriage return. *)
Definition is_space (c : byte) : bool :=
  (code c =? 32) || ((9 <=? code c) && (code c <=? 13)).
Definition lf : byte := byte_of 10.
Definition cr : byte := byte_of 13.
Fixpoint drop_while (p : byte -> bool) (b : bytes) : bytes :=
  match b with c :: b' => if p c then drop_while p b' else b | [] => [] end.
Fixpoint take_while (p : byte -> bool) (b : bytes) : bytes :=
  match b with c :: b' => if p c then c :: take_while p b' else [] | [] => [] end.

(** io.each_line: each line with the newline that ends it; the last one may have none. *)
Fixpoint physical (b : bytes) : list bytes :=
  match b with
  | [] => []
  | c :: b' =>
      if beqb c lf then [c] :: physical b'
      else match physical b' with
           | [] => [[c]]
           | l :: ls => (c :: l) :: ls
           end
  end.

(** String#chomp: one "\r\n", "\n" or "\r" at the end is removed. *)
Fixpoint chomp (b : bytes) : bytes :=
  match b with
  | [] => []
  | c :: b' =>
      match b' with
      | [] => if beqb c lf || beqb c cr then [] else [c]
      | d :: b'' =>
          match b'' with
          | [] => if beqb c cr && beqb d lf then [] else c :: chomp b'
          | _ :: _ => c :: chomp b'
          end
      end
  end.

(** The three cases of 24-37: [\A\s*#], [\A\s*$]; [\A\s+]; the rest. *)
Definition ignored_line (l : bytes) : bool :=
  match drop_while is_space l with [] => true | c :: _ => beqb c "#" end.
Definition continues_line (l : bytes) : bool :=
  match l with c :: _ => is_space c | [] => false end.

(** A logical line with the number given to the block and io.lineno at that moment. *)
Record logical := mk_logical { lg_text : bytes; lg_number : N; lg_lineno : N }.

(** each_line, 20-40; [n]: io.lineno, [current]: current_line.  The block is called while the
    lines are read; it reads nothing itself, so a list is as good. *)
Fixpoint each_line (ls : list bytes) (n : N) (current : option bytes) : list logical :=
  match ls with
  | [] => match current with Some c => [mk_logical c n n] | None => [] end
  | l :: ls =>
      let n := n + 1 in
      if ignored_line l then each_line ls n current
      else if continues_line l then
        let target := chomp (drop_while is_space l) in
        each_line ls n (Some (match current with
                              | Some c => c ++ lit " " ++ target
                              | None => target
                              end))
      else
        match current with
        | Some c => mk_logical c (n - 1) n :: each_line ls n (Some (chomp l))
        | None => each_line ls n (Some (chomp l))
        end
  end.
Definition lines_of (input : bytes) : list logical := each_line (physical input) 0 None.

(** What a call of parse comes to: the table as it is afterwards and the exception, if any.
    [BadFormat], [BadValue]: the errors of condition-table.rb:18-38 with the line, the number and
    for the second the value; [NoMethod]: NoMethodError. *)
Inductive failure :=
| BadFormat (line : bytes) (number : N)
| BadValue (value line : bytes) (number : N)
| NoMethod.

(** *** Patterns (postfix-regexp-table.rb) *)

Definition is_flag (c : byte) : bool := beqb c "i" || beqb c "m" || beqb c "x".
Definition all_space (b : bytes) : bool := forallb is_space b.

(** [(!)?\/], 32 and 42: is it negated, and what follows the slash. *)
Definition opening (b : bytes) : option (bool * bytes) :=
  match b with
  | c :: b' =>
      if beqb c "/" then Some (false, b')
      else if beqb c "!" then
        match b' with
        | d :: b'' => if beqb d "/" then Some (true, b'') else None
        | [] => None
        end
      else None
  | [] => None
  end.

(** [([imx]+)?\s+(.+)$] after the closing slash, 42: the flags and the action.  The second
    [\s+] gives back one character when only white space is left. *)
Definition after_pattern (b : bytes) : option (bytes * bytes) :=
  let flags := take_while is_flag b in
  let rest := drop_while is_flag b in
  match rest with
  | c :: rest' =>
      if is_space c then
        match drop_while is_space rest' with
        | [] => match rest' with [] => None | _ :: _ => Some (flags, skipn (length rest' - 1) rest') end
        | action => Some (flags, action)
        end
      else None
  | [] => None
  end.

(** Anything up to a slash, as much as possible, then [after]: the last slash after which [after]
    fits. *)
Fixpoint greedy {A} (after : bytes -> option A) (b : bytes) : option (bytes * A) :=
  match b with
  | [] => None
  | c :: b' =>
      match greedy after b' with
      | Some (p, a) => Some (c :: p, a)
      | None => if beqb c "/" then option_map (fun a => ([], a)) (after b') else None
      end
  end.

Definition only_flags (b : bytes) : option bytes := if forallb is_flag b then Some b else None.

Inductive statement :=
| SIf (negated : bool) (pattern flags : bytes)
| SRule (negated : bool) (pattern flags action : bytes)
| SEndif.

(** The case expression of 30-53. *)
Definition if_line (l : bytes) : option statement :=
  match drop_while is_space l with
  | c :: d :: e :: b =>
      if beqb c "i" && beqb d "f" && is_space e then
        match opening (drop_while is_space b) with
        | Some (negated, b) =>
            option_map (fun '(p, f) => SIf negated p f) (greedy only_flags b)
        | None => None
        end
      else None
  | _ => None
  end.
Definition rule_line (l : bytes) : option statement :=
  match opening (drop_while is_space l) with
  | Some (negated, b) =>
      option_map (fun '(p, (f, a)) => SRule negated p f a) (greedy after_pattern b)
  | None => None
  end.
Fixpoint endif_prefix (e l : bytes) : bool :=
  match e, l with
  | [], _ => all_space l
  | c :: e', d :: l' => beqb c d && endif_prefix e' l'
  | _ :: _, [] => false
  end.
Definition statement_of (l : bytes) : option statement :=
  match if_line l with
  | Some s => Some s
  | None => match rule_line l with
            | Some s => Some s
            | None => if endif_prefix (lit "endif") l then Some SEndif else None
            end
  end.

(** A regular expression as create_regexp makes it, 66-78: always ignoring the case, since
    [&= IGNORECASE] takes nothing away; [m] adds MULTILINE; [x] is not looked at. *)
Record regexp := mk_regexp { x_pattern : bytes; x_ignorecase : bool; x_multiline : bool }.
Definition has_flag (f : byte) (flags : bytes) : bool := existsb (beqb f) flags.
Definition create_regexp (pattern flags : bytes) : regexp :=
  mk_regexp pattern true (has_flag "m" flags).

(** A table is an array; the arrays are numbered as they are made, 0 is @table.  An entry is
    negative, regexp, and an action or another array. *)
Inductive target := Action (a : bytes) | Table (t : nat).
Record entry := mk_entry { e_negative : bool; e_regexp : regexp; e_target : target }.
Definition heap := list (list entry).
Definition heap_new : heap := [[]].

Definition push (h : heap) (t : nat) (e : entry) : heap :=
  firstn t h ++ match nth_error h t with
                | Some es => [es ++ [e]]
                | None => []
                end ++ skipn (S t) h.

Section Regexps.
  (** Regexp.new succeeds; the match of a text: the groups, the whole match first, [None] for a
      group that takes no part. *)
  Variable valid : regexp -> bool.
  Variable matches : regexp -> bytes -> option (list (option bytes)).

  (** The loop of parse, 26-54.  [current]: current_table, [None] is nil; [tables]: its local
      stack, the top first. *)
  Fixpoint parse_lines (h : heap) (current : option nat) (tables : list nat) (ls : list logical)
    : heap * list nat * option failure :=
    match ls with
    | [] => (h, tables, None)
    | l :: ls =>
        match statement_of (lg_text l) with
        | Some (SIf negated p f) =>
            let r := create_regexp p f in
            if valid r then
              match current with
              | Some t =>
                  let new := length h in
                  parse_lines (push h t (mk_entry negated r (Table new)) ++ [[]]) (Some new)
                              (new :: tables) ls
              | None => (h, tables, Some NoMethod)
              end
            else (h, tables, Some (BadValue p (lg_text l) (lg_number l)))
        | Some (SRule negated p f a) =>
            let r := create_regexp p f in
            if valid r then
              match current with
              | Some t => parse_lines (push h t (mk_entry negated r (Action a))) current tables ls
              | None => (h, tables, Some NoMethod)
              end
            else (h, tables, Some (BadValue p (lg_text l) (lg_number l)))
        | Some SEndif =>
            match tables with
            | t :: tables => parse_lines h (Some t) tables ls
            | [] => parse_lines h None [] ls
            end
        | None => (h, tables, Some (BadFormat (lg_text l) (lg_lineno l)))
        end
    end.
  (** parse, 26-58: a missing endif calls InvalidFormatError as if it were a method. *)
  Definition parse (h : heap) (input : bytes) : heap * option failure :=
    match parse_lines h (Some O) [] (lines_of input) with
    | (h, _ :: _, None) => (h, Some NoMethod)
    | (h, _, f) => (h, f)
    end.

  (** expand_variables, 98-110.  [groups]: match_data; a number of 2^31 or more is refused with a
      RangeError ([None]). *)
  Fixpoint number (acc : N) (b : bytes) : N :=
    match b with c :: b' => number (acc * 10 + (code c - 48)) b' | [] => acc end.
  Definition group (groups : list (option bytes)) (digits : bytes) : option bytes :=
    let n := number 0 digits in
    if n <? 2147483648 then
      Some (match nth_error groups (N.to_nat n) with Some (Some g) => g | _ => [] end)
    else None.
  (** What follows a [$]: what it stands for, and the rest; [None]: not a variable. *)
  Definition closed (close : byte) (b : bytes) : option (bytes * bytes) :=
    match take_while is_digit b, drop_while is_digit b with
    | d :: ds, c :: b' => if beqb c close then Some (d :: ds, b') else None
    | _, _ => None
    end.
  Inductive variable := VDollar | VGroup (digits : bytes).
  Definition variable_of (b : bytes) : option (variable * bytes) :=
    match b with
    | [] => None
    | c :: b' =>
        if beqb c "$" then Some (VDollar, b')
        else if is_digit c then Some (VGroup (take_while is_digit b), drop_while is_digit b)
        else if beqb c "(" then option_map (fun '(d, r) => (VGroup d, r)) (closed ")" b')
        else if beqb c "{" then option_map (fun '(d, r) => (VGroup d, r)) (closed "}" b')
        else None
    end.
  Fixpoint expand (fuel : nat) (groups : list (option bytes)) (b : bytes) : option bytes :=
    match fuel, b with
    | _, [] => Some []
    | O, _ => Some b
    | S fuel, c :: b' =>
        if beqb c "$" then
          match variable_of b' with
          | Some (VDollar, r) => option_map (cons c) (expand fuel groups r)
          | Some (VGroup d, r) =>
              match group groups d, expand fuel groups r with
              | Some g, Some e => Some (g ++ e)
              | _, _ => None
              end
          | None => option_map (cons c) (expand fuel groups b')
          end
        else option_map (cons c) (expand fuel groups b')
    end.
  Definition expand_variables (action : bytes) (groups : option (list (option bytes)))
    : option bytes :=
    match groups with
    | None => Some action
    | Some groups => expand (length action) groups action
    end.

  (** find and find_action, 60-96.  Every array is in an older one, so the number of arrays
      bounds the nesting. *)
  Inductive found := Nothing | Found (action : bytes) | RangeError.
  Fixpoint find_action (fuel : nat) (h : heap) (t : nat) (text : bytes) : found :=
    match fuel with
    | O => Nothing
    | S fuel =>
        (fix each (es : list entry) : found :=
           match es with
           | [] => Nothing
           | e :: es =>
               let m := matches (e_regexp e) text in
               let groups := if e_negative e then None else m in
               if xorb (e_negative e) (match m with Some _ => true | None => false end) then
                 match e_target e with
                 | Action a => match expand_variables a groups with
                               | Some a => Found a
                               | None => RangeError
                               end
                 | Table t' =>
                     match find_action fuel h t' text with
                     | Found a => match expand_variables a groups with
                                  | Some a => Found a
                                  | None => RangeError
                                  end
                     | RangeError => RangeError
                     | Nothing => each es
                     end
                 end
               else each es
           end) (nth t h [])
    end.
  Definition find (h : heap) (text : bytes) : found := find_action (length h) h 0 text.
End Regexps.

(** *** Networks (postfix-cidr-table.rb) *)

(** [([\d\.]+|[\da-fA-F:]+)(?:\/(\d+))?\s+(.+)$], 33: the address with the mask as IPAddr.new
    gets it, and the action. *)
Definition is_v4 (c : byte) : bool := is_digit c || beqb c ".".
Definition is_v6 (c : byte) : bool :=
  is_digit c || ((97 <=? code c) && (code c <=? 102)) || ((65 <=? code c) && (code c <=? 70)) ||
  beqb c ":".
Definition spaced_action (b : bytes) : option bytes :=
  match b with
  | c :: rest =>
      if is_space c then
        match drop_while is_space rest with
        | [] => match rest with [] => None | _ :: _ => Some (skipn (length rest - 1) rest) end
        | action => Some action
        end
      else None
  | [] => None
  end.
Definition with_class (p : byte -> bool) (b : bytes) : option (bytes * bytes) :=
  match take_while p b with
  | [] => None
  | address =>
      let rest := drop_while p b in
      match rest with
      | c :: rest' =>
          if beqb c "/" then
            match take_while is_digit rest' with
            | [] => None
            | mask => option_map (fun a => (address ++ lit "/" ++ mask, a))
                                 (spaced_action (drop_while is_digit rest'))
            end
          else option_map (fun a => (address, a)) (spaced_action rest)
      | [] => None
      end
  end.
Definition cidr_line (l : bytes) : option (bytes * bytes) :=
  let b := drop_while is_space l in
  match with_class is_v4 b with
  | Some r => Some r
  | None => with_class is_v6 b
  end.

Section Networks.
  (** IPAddr.new, which raises ArgumentError ([None]), and IPAddr#===. *)
  Variables network address : Type.
  Variable network_of : bytes -> option network.
  Variable covers : network -> address -> bool.

  (** parse, 29-49. *)
  Fixpoint parse_cidr (table : list (network * bytes)) (ls : list logical)
    : list (network * bytes) * option failure :=
    match ls with
    | [] => (table, None)
    | l :: ls =>
        match cidr_line (lg_text l) with
        | Some (a, action) =>
            match network_of a with
            | Some n => parse_cidr (table ++ [(n, action)]) ls
            | None => (table, Some (BadValue a (lg_text l) (lg_number l)))
            end
        | None => (table, Some (BadFormat (lg_text l) (lg_number l)))
        end
    end.
  (** find, 51-57. *)
  Fixpoint find_cidr (table : list (network * bytes)) (a : address) : option bytes :=
    match table with
    | [] => None
    | (n, action) :: table => if covers n a then Some action else find_cidr table a
    end.
End Networks.
