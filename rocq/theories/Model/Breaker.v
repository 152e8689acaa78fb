(** The detection of stress: milter/manager/breaker.rb of binding/ruby/lib. *)
From Verif.Base Require Import Bytes.
From Verif.Model Require Import PostfixTable Netstat.
Local Open Scope N_scope.

(** *** Texts *)

(** String#to_i: white space, a sign, digits with single underscores between them. *)
Fixpoint digits (acc : N) (b : bytes) : N :=
  match b with
  | [] => acc
  | c :: b' =>
      if is_digit c then digits (acc * 10 + (code c - 48)) b'
      else if beqb c "_" then
        match b' with
        | d :: b'' => if is_digit d then digits (acc * 10 + (code d - 48)) b'' else acc
        | [] => acc
        end
      else acc
  end.
Definition unsigned (b : bytes) : N :=
  match b with c :: _ => if is_digit c then digits 0 b else 0 | [] => 0 end.
Definition to_i (b : bytes) : Z :=
  match drop_while is_space b with
  | c :: b' =>
      if beqb c "-" then (- Z.of_N (unsigned b'))%Z
      else if beqb c "+" then Z.of_N (unsigned b')
      else Z.of_N (unsigned (c :: b'))
  | [] => 0%Z
  end.

(** [\w] *)
Definition is_word (c : byte) : bool :=
  is_digit c || ((65 <=? code c) && (code c <=? 90)) || ((97 <=? code c) && (code c <=? 122)) || beqb c "_".

(** Without the newline at its end. *)
Fixpoint without_lf (b : bytes) : bytes :=
  match b with
  | [] => []
  | c :: b' => match b' with [] => if beqb c lf then [] else [c] | _ => c :: without_lf b' end
  end.
(** [/\A(\w+)\s*=\s*(.+)\s*\z/] of line 71 on one line: a newline stands at its end only, so [(.+)]
    takes everything before it.  If there is white space only behind "=", the last of it is the
    value. *)
Definition setting (line : bytes) : option (bytes * bytes) :=
  match take_while is_word line with
  | [] => None
  | key =>
      match drop_while is_space (drop_while is_word line) with
      | c :: rest =>
          if beqb c "=" then
            let body := without_lf rest in
            match drop_while is_space body with
            | [] => match body with [] => None | _ => Some (key, [last body NUL]) end
            | value => Some (key, value)
            end
          else None
      | [] => None
      end
  end.

(** The fields of [line.split(/\s+/, 8)], 97, of which the eighth is not looked at: white space at the
    beginning gives an empty field, and white space at the end gives one too. *)
Fixpoint space_fields (skipping : bool) (b : bytes) : list bytes :=
  match b with
  | [] => [[]]
  | c :: b' =>
      if is_space c then (if skipping then space_fields true b' else [] :: space_fields true b')
      else match space_fields false b' with f :: fs => (c :: f) :: fs | [] => [[c]] end
  end.

(** *** Postfix *)

(** postfix_postconf's lines, 68-82: the last value of each counts. *)
Record found := mk_found { fd_default : option Z; fd_directory : option bytes }.
Definition read_line (f : found) (line : bytes) : found :=
  match setting line with
  | Some (key, value) =>
      if bytes_eqb key (lit "default_process_limit") then mk_found (Some (to_i value)) (fd_directory f)
      else if bytes_eqb key (lit "config_directory") then mk_found (fd_default f) (Some value)
      else f
  | None => f
  end.
Definition read_postconf (out : bytes) : found := fold_left read_line (physical out) (mk_found None None).

(** detect_postfix_process_limit_from_master_cf, 91-104, on the content. *)
Definition starts_with_hash (l : bytes) : bool := match l with c :: _ => beqb c "#" | [] => false end.
Fixpoint master_limit (lines : list bytes) : option Z :=
  match lines with
  | [] => None
  | l :: ls =>
      if starts_with_hash l then master_limit ls
      else
        let fs := space_fields false l in
        match fs with
        | service :: _ =>
            if bytes_eqb service (lit "smtp") then
              match nth_error fs 6 with
              | Some maxproc => if bytes_eqb maxproc (lit "-") then None else Some (to_i maxproc)
              | None => Some 0%Z
              end
            else master_limit ls
        | [] => master_limit ls
        end
  end.

(** File.join(value, "master.cf"), 77: a slash is put between them unless there is one. *)
Definition master_path (directory : bytes) : bytes :=
  match directory with
  | [] => lit "/master.cf"
  | _ => if beqb (last directory NUL) "/" then directory ++ lit "master.cf" else directory ++ lit "/master.cf"
  end.

(** The computer: the output of "ps ax", of "ps ax -o command", what a command gives when it is run
    by that name, which files can be executed, and the files that exist. *)
Record machine := mk_machine {
  mc_processes : bytes;
  mc_commands : bytes;
  mc_run : bytes -> ran;
  mc_executable : bytes -> bool;
  mc_file : bytes -> option bytes }.

Definition some_or {A} (a b : option A) : option A := match a with Some _ => a | None => b end.

(** detect_postfix_postconf, 119-130: its result is not used by postfix_postconf, 106-117, which
    runs "postconf". *)
Definition postfix_postconf (m : machine) : gives bytes :=
  match mc_run m (lit "postconf") with
  | Output out => Gives out
  | Fails => Gives []
  | CannotRun => Raised
  end.
(** detect_postfix_process_limit, 65-89. *)
Definition process_limit (m : machine) : gives Z :=
  match postfix_postconf m with
  | Raised => Raised
  | Gives out =>
      let f := read_postconf out in
      let from_master :=
        match fd_directory f with
        | Some d => match mc_file m (master_path d) with Some content => master_limit (physical content) | None => None end
        | None => None
        end in
      Gives (match some_or from_master (fd_default f) with Some l => l | None => 0%Z end)
  end.
(** detect_postfix_threshold_n_connections, 56-63: [(process_limit * 0.75).to_i]; exact for limits
    below 2^51, where the product has no rounding. *)
Definition postfix_threshold (m : machine) : gives Z :=
  match process_limit m with Gives l => Gives (Z.quot (3 * l) 4) | Raised => Raised end.

(** [/x/ =~ line]; [fold] for /i. *)
Fixpoint begins (x b : bytes) : bool :=
  match x, b with
  | [], _ => true
  | c :: x', d :: b' => beqb c d && begins x' b'
  | _, [] => false
  end.
Fixpoint contains (x b : bytes) : bool :=
  begins x b || match b with [] => false | _ :: b' => contains x b' end.
(** postfix?, sendmail?, 147-161. *)
Definition is_postfix (m : machine) : bool :=
  existsb (fun l => contains (lit "master") l && contains (lit "postfix") (map lower l)) (physical (mc_processes m)).
(** detect_threshold_n_connections, 38-54: 0 for sendmail (143-145) and for none. *)
Definition detect_threshold (m : machine) : gives Z :=
  if is_postfix m then postfix_threshold m else Gives 0%Z.

(** The breaker, 21-36: the threshold once found is kept. *)
Record breaker := mk_breaker { bk_threshold : option Z }.
Definition new_breaker : breaker := mk_breaker None.
Definition set_threshold (b : breaker) (t : option Z) : breaker := mk_breaker t.
Definition threshold (m : machine) (b : breaker) : breaker * gives Z :=
  match bk_threshold b with
  | Some t => (b, Gives t)
  | None => match detect_threshold m with Gives t => (mk_breaker (Some t), Gives t) | Raised => (b, Raised) end
  end.
(** stressing?, 25-29; [n]: how many sessions are being processed. *)
Definition stressing (m : machine) (b : breaker) (n : N) : breaker * gives bool :=
  let (b, t) := threshold m b in
  (b, match t with
      | Raised => Raised
      | Gives t => Gives (if (t =? 0)%Z then false else (t <=? Z.of_N n)%Z)
      end).
