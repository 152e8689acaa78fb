(** What a configuration file says: a reader of the part of Ruby that a file of assignments and
    definitions needs.  Whatever is not of that part makes it fail.  Written from the Ruby language, not
    from the dumper. *)
From Verif.Base Require Import Bytes.
From Verif.Model Require Import Status Egg Configuration ConfigDump.
Import List.
Local Open Scope N_scope.

Fixpoint lines (s : bytes) : list bytes :=
  match s with
  | [] => [[]]
  | c :: s => if code c =? 10 then [] :: lines s
              else match lines s with l :: ls => (c :: l) :: ls | [] => [[c]] end
  end.

Definition letter (c : byte) : bool := (97 <=? code c) && (code c <=? 122) || (code c =? 95).
Definition digit (c : byte) : bool := (48 <=? code c) && (code c <=? 57).
Fixpoint span (p : byte -> bool) (s : bytes) : bytes * bytes :=
  match s with
  | c :: s' => if p c then let (a, b) := span p s' in (c :: a, b) else ([], s)
  | [] => ([], [])
  end.
Definition skip_spaces (s : bytes) : bytes := snd (span (fun c => code c =? 32) s).
Fixpoint after (prefix s : bytes) : option bytes :=
  match prefix, s with
  | [], _ => Some s
  | c :: p, d :: s => if beqb c d then after p s else None
  | _ :: _, [] => None
  end.

(** *** Literals *)

Definition hex_value (c : byte) : option N :=
  let n := code c in
  if digit c then Some (n - 48)
  else if (65 <=? n) && (n <=? 70) then Some (n - 55)
  else if (97 <=? n) && (n <=? 102) then Some (n - 87)
  else None.
(** The character after a backslash, in a string between double quotes. *)
Definition unescaped (c : byte) : option byte :=
  if beqb c "n" then Some (byte_of 10) else if beqb c "r" then Some (byte_of 13)
  else if beqb c "t" then Some (byte_of 9) else if beqb c "f" then Some (byte_of 12)
  else if beqb c "v" then Some (byte_of 11) else if beqb c "b" then Some (byte_of 8)
  else if beqb c "a" then Some (byte_of 7) else if beqb c "e" then Some (byte_of 27)
  else if (code c =? 34) || (code c =? 92) || beqb c "#" then Some c else None.
Definition consed (c : byte) (r : option (bytes * bytes)) : option (bytes * bytes) :=
  match r with Some (s, rest) => Some (c :: s, rest) | None => None end.
(** The text up to the closing quote, and what follows it.  "#{", "#$" and "#@" would insert the value of
    an expression: refused.  \u is taken only for ASCII. *)
Fixpoint read_string (s : bytes) : option (bytes * bytes) :=
  match s with
  | [] => None
  | c :: s' =>
      if code c =? 34 then Some ([], s')
      else if code c =? 92 then
        match s' with
        | [] => None
        | e :: s2 =>
            if beqb e "u" then
              match s2 with
              | a :: b :: c :: d :: s3 =>
                  match hex_value a, hex_value b, hex_value c, hex_value d with
                  | Some 0, Some 0, Some h, Some l =>
                      if h <? 8 then consed (byte_of (h * 16 + l)) (read_string s3) else None
                  | _, _, _, _ => None
                  end
              | _ => None
              end
            else if beqb e "x" then
              match s2 with
              | a :: b :: s3 =>
                  match hex_value a, hex_value b with
                  | Some h, Some l => consed (byte_of (h * 16 + l)) (read_string s3)
                  | _, _ => None
                  end
              | _ => None
              end
            else match unescaped e with
                 | Some x => consed x (read_string s2)
                 | None => None
                 end
        end
      else if beqb c "#" && match s' with
                            | d :: _ => beqb d "{" || beqb d "$" || beqb d "@"
                            | [] => false
                            end
      then None
      else consed c (read_string s')
  end.

Fixpoint number (base acc : N) (s : bytes) : option N :=
  match s with
  | [] => Some acc
  | c :: s => if digit c && (code c - 48 <? base) then number base (acc * base + (code c - 48)) s else None
  end.
(** An integer (octal if it begins with 0) or a float without a fraction. *)
Definition read_number (s : bytes) : option value :=
  let (d, rest) := span digit s in
  match d with
  | [] => None
  | c :: d' =>
      if bytes_eqb rest [] then
        option_map VInt (if beqb c "0" then number 8 0 d' else number 10 0 d)
      else if bytes_eqb rest (lit ".0") then
        if beqb c "0" && negb (bytes_eqb d' []) then None else option_map VFloat (number 10 0 d)
      else None
  end.
Definition read_value (s : bytes) : option value :=
  if bytes_eqb s (lit "nil") then Some VNil
  else if bytes_eqb s (lit "true") then Some (VBool true)
  else if bytes_eqb s (lit "false") then Some (VBool false)
  else if bytes_eqb s (lit "[]") then Some (VList [])
  else match s with
       | c :: s' =>
           if code c =? 34 then
             match read_string s' with Some (t, []) => Some (VStr t) | _ => None end
           else read_number s
       | [] => None
       end.

(** *** Lines *)

Inductive line :=
| LBlank                                      (* empty, or a comment *)
| LSet (receiver attribute : bytes) (v : value)
| LOpen (receiver attribute : bytes)          (* x.y = [ *)
| LElement (s : bytes)                        (* "...", *)
| LClose                                      (* ] *)
| LDefine (method name variable : bytes)      (* m("...") do |v| *)
| LEnd.

Definition read_line (l : bytes) : option line :=
  match skip_spaces l with
  | [] => Some LBlank
  | c :: r =>
      if beqb c "#" then Some LBlank
      else if code c =? 34 then
        match read_string r with
        | Some (s, rest) => if bytes_eqb rest (lit ",") then Some (LElement s) else None
        | None => None
        end
      else if bytes_eqb (c :: r) (lit "]") then Some LClose
      else if bytes_eqb (c :: r) (lit "end") then Some LEnd
      else
        let (name, rest) := span letter (c :: r) in
        match rest with
        | d :: rest =>
            if beqb d "." then
              let (attribute, rest) := span letter rest in
              match after (lit " = ") rest with
              | Some v => if bytes_eqb v (lit "[") then Some (LOpen name attribute)
                          else option_map (LSet name attribute) (read_value v)
              | None => None
              end
            else if beqb d "(" then
              match rest with
              | q :: rest =>
                  if code q =? 34 then
                    match read_string rest with
                    | Some (s, rest) =>
                        match after (lit ") do |") rest with
                        | Some rest =>
                            let (variable, rest) := span letter rest in
                            if bytes_eqb rest (lit "|") then Some (LDefine name s variable) else None
                        | None => None
                        end
                    | None => None
                    end
                  else None
              | [] => None
              end
            else None
        | [] => None
        end
  end.

(** *** The program *)

Definition definition (method name : bytes) (body : list (bytes * value)) : option stmt :=
  if bytes_eqb method (lit "define_milter") then Some (DefineMilter name body)
  else if bytes_eqb method (lit "define_applicable_condition") then Some (DefineCondition name body)
  else None.
Inductive place :=
| Top
| Block (method name variable : bytes) (body : list (bytes * value))
| InList (method name variable : bytes) (body : list (bytes * value)) (attribute : bytes) (elements : list value).

Fixpoint assemble (p : place) (l : list line) : option (list stmt) :=
  match l with
  | [] => match p with Top => Some [] | _ => None end
  | LBlank :: l => assemble p l
  | x :: l =>
      match p, x with
      | Top, LSet r a v => option_map (cons (Assign r a v)) (assemble Top l)
      | Top, LDefine m n v => assemble (Block m n v []) l
      | Block m n w body, LSet r a v =>
          if bytes_eqb r w then assemble (Block m n w (body ++ [(a, v)])) l else None
      | Block m n w body, LOpen r a =>
          if bytes_eqb r w then assemble (InList m n w body a []) l else None
      | Block m n w body, LEnd =>
          match definition m n body with
          | Some d => option_map (cons d) (assemble Top l)
          | None => None
          end
      | InList m n w body a es, LElement s => assemble (InList m n w body a (es ++ [VStr s])) l
      | InList m n w body a es, LClose => assemble (Block m n w (body ++ [(a, VList es)])) l
      | _, _ => None
      end
  end.
Fixpoint all {A : Type} (l : list (option A)) : option (list A) :=
  match l with
  | [] => Some []
  | Some x :: l => option_map (cons x) (all l)
  | None :: _ => None
  end.
Definition ruby (s : bytes) : option (list stmt) :=
  match all (map read_line (lines s)) with Some l => assemble Top l | None => None end.

(** *** What the text must say *)

(** The values that print as a literal: numbers of Ruby's usual size, no arrays. *)
Definition printable (v : value) : Prop := match v with VList _ => False | _ => True end.

Definition printable_database (d : database) : Prop :=
  printable (d_type d) /\ printable (d_name d) /\ printable (d_host d) /\ printable (d_port d) /\
  printable (d_path d) /\ printable (d_user d) /\ printable (d_password d).
(** The paths shown in comments are one line, the values of the database are no arrays. *)
Definition writable (c : conf) : Prop :=
  (forall key file n, In (key, (file, n)) (s_locations (cf c)) -> ~ In (byte_of 10) file) /\
  printable_database (cf_database c).

(** The statuses that may be chosen as an answer for a filter that fails. *)
Definition choosable (s : status) : Prop :=
  s = S_ACCEPT \/ s = S_REJECT \/ s = S_TEMPORARY_FAILURE \/ s = S_DISCARD.
Definition if_given (p : bytes -> bool) (s : option bytes) : Prop :=
  match s with Some s => p s = true | None => True end.
Definition uint (n : N) : Prop := n <= 4294967295.
(** Settings that a manager can have: valid connection specs, a log file that can be opened, a level made
    of the levels there are, numbers in their ranges. *)
Record sound (valid_spec openable : bytes -> bool) (c : conf) : Prop := {
  so_manager_spec : if_given valid_spec (s_manager_connection_spec (cf c));
  so_controller_spec : if_given valid_spec (s_controller_connection_spec (cf c));
  so_path : if_given openable (cf_log_path c);
  so_level : cf_level c < 1024;
  so_modes : s_manager_unix_socket_mode (cf c) <= 511 /\ s_controller_unix_socket_mode (cf c) <= 511;
  so_fallback : choosable (s_fallback_status (cf c));
  so_uints : uint (s_maintenance_interval (cf c)) /\ uint (s_suspend_time_on_unacceptable (cf c)) /\
             uint (s_max_connections (cf c)) /\ uint (s_max_file_descriptors (cf c)) /\
             uint (s_connection_check_interval (cf c)) /\ uint (s_default_packet_buffer_size (cf c)) /\
             uint (s_max_pending_finished_sessions (cf c));
  so_workers : s_n_workers (cf c) <= 1000;
  so_chunk : 1 <= s_chunk_size (cf c) <= 65535
}.
(** A filter whose connection spec and command options are given. *)
Record complete (valid_spec : bytes -> bool) (conditions : list condition) (e : egg) : Prop := {
  co_spec : exists s, e_connection_spec e = Some s /\ valid_spec s = true;
  co_options : e_command_options e <> None;
  co_fallback : choosable (e_fallback_status e);
  co_timeouts : (0 <= e_connection_timeout e /\ 0 <= e_writing_timeout e /\ 0 <= e_reading_timeout e /\
                 0 <= e_end_of_message_timeout e)%Z;
  co_conditions : incl (e_conditions e) conditions
}.
(** Definitions that the text can say: unique names, conditions without data, complete filters. *)
Record sayable (valid_spec : bytes -> bool) (c : conf) : Prop := {
  sa_conditions : NoDup (map k_name (s_conditions (cf c)));
  sa_data : Forall (fun k => k_data k = None) (s_conditions (cf c));
  sa_eggs : NoDup (map e_name (s_eggs (cf c)));
  sa_complete : Forall (complete valid_spec (s_conditions (cf c))) (s_eggs (cf c))
}.

(** [b] is the configuration [a], as far as it is shown. *)
Definition same_settings (a b : conf) : Prop := forall i, get b i = get a i.
Definition same_definitions (a b : conf) : Prop :=
  s_conditions (cf b) = s_conditions (cf a) /\ s_eggs (cf b) = s_eggs (cf a).
