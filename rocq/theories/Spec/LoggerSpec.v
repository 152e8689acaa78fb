(** What the user of the logger asked for, and what is to be written.

    [wish] is what the calls made so far ask for; [delivery] is what one message becomes on one of the
    connected sinks. *)
From Verif.Base Require Import Bytes.
From Verif.Model Require Import Logger.
From Verif.Model Require ConnectionSpec.
Import List.
Local Open Scope N_scope.

(** *** Levels *)

(** The names of the levels, by bit. *)
Definition level_names : list (nat * bytes) :=
  [(0%nat, lit "none"); (1%nat, lit "critical"); (2%nat, lit "error"); (3%nat, lit "warning");
   (4%nat, lit "message"); (5%nat, lit "info"); (6%nat, lit "debug"); (7%nat, lit "trace");
   (8%nat, lit "statistics"); (9%nat, lit "profile")].
Definition bit (level : N) (i : nat) : bool := N.testbit level (N.of_nat i).
(** Do two sets of levels meet? *)
Definition meets (a b : N) : bool := existsb (fun i => N.testbit a (N.of_nat i) && N.testbit b (N.of_nat i))
                                             (seq 0 (N.to_nat (N.size a))).
(** critical, error, warning, message and statistics if nothing is said. *)
Definition standard : N := 2 + 4 + 8 + 16 + 256.
Definition or_standard (level : N) : N := match level with 0 => standard | _ => level end.

(** *** The line *)

Fixpoint joined (l : list bytes) : bytes :=
  match l with
  | [] => []
  | [x] => x
  | x :: l' => x ++ lit " " ++ joined l'
  end.
Definition tag (t : bytes) : bytes := "["%char :: t ++ ["]"%char].
Definition unless_empty (t : bytes) : list bytes := match t with [] => [] | _ => [t] end.
(** Domain 1, level 2, location 3, time 4, name 5, pid 6; without any word the time. *)
Definition item (items : N) (i : nat) : bool := bit (match items with 0 => 16 | _ => items end) i.
Definition when (b : bool) (t : bytes) : bytes := if b then t else [].
Definition program (env : environment) : bytes :=
  match e_program env with Some p => p | None => lit "(null)" end.
(** The words before the message: the tags of the message, those of the process, the place in the
    code. *)
Definition of_message (items : N) (m : message) : bytes :=
  when (item items 2)
       (concat (map (fun n => when (bit (m_level m) (fst n)) (tag (snd n))) level_names)) ++
  when (item items 1) (match m_domain m with Some d => tag d | None => [] end) ++
  when (item items 4) (tag (m_time m)).
Definition of_process (env : environment) (items : N) : bytes :=
  when (item items 5) (tag (program env)) ++ when (item items 6) (tag (ConnectionSpec.decimal (e_pid env))).
Definition located (items : N) (m : message) : list bytes :=
  match item items 3, m_file m with
  | true, Some f =>
      (f ++ lit ":" ++ signed_decimal (m_line m) ++ lit ":") ::
      match m_function m with Some g => [g ++ lit "():"] | None => [] end
  | _, _ => []
  end.
(** The colors: bold on a background. *)
Definition colors : list (N * (bytes * bytes)) :=
  [(2, (lit "33", lit "41")); (4, (lit "37", lit "41")); (8, (lit "37", lit "01;43"));
   (16, (lit "37", lit "01;42")); (32, (lit "37", lit "01;46")); (64, (lit "37", lit "01;44"));
   (128, (lit "37", lit "01;45")); (256, (lit "34", lit "01;47")); (512, (lit "32", lit "40"))].
Definition escape (t : bytes) : bytes := "027"%char :: "["%char :: t ++ ["m"%char].
(** A message is colored on a terminal, or as MILTER_LOG_COLORIZE says. *)
Definition in_color (env : environment) (d : dest) : Prop :=
  e_colorize env = Some (lit "console") \/
  e_terminal env d = true /\ e_colorize env <> Some (lit "none").
Inductive shown (env : environment) (d : dest) (m : message) : bytes -> Prop :=
| shown_colored f b : in_color env d -> In (m_level m, (f, b)) colors ->
    shown env d m (escape (lit "01;" ++ f) ++ escape b ++ m_text m ++ escape (lit "00"))
| shown_plain : (in_color env d -> forall c, ~ In (m_level m, c) colors) -> shown env d m (m_text m).
(** The line of a message: everything before the message separated by spaces, with a colon at the end. *)
Inductive line_of (env : environment) (items : N) (d : dest) (m : message) : bytes -> Prop :=
| line_located t : shown env d m t -> located items m <> [] ->
    line_of env items d m
      (joined (unless_empty (of_message items m) ++ unless_empty (of_process env items) ++ located items m ++ [t])
       ++ ["010"%char])
| line_plain t : shown env d m t -> located items m = [] ->
    line_of env items d m
      (match unless_empty (of_message items m) ++ unless_empty (of_process env items) with
       | [] => t
       | ws => joined ws ++ lit ": " ++ t
       end ++ ["010"%char]).

(** *** Syslog *)

(** The priority of syslog: that of the most severe level of a message. *)
Definition priorities : list (nat * N) :=
  [(1%nat, 2); (2%nat, 3); (3%nat, 4); (4%nat, 5); (5%nat, 6); (6%nat, 7); (7%nat, 7); (8%nat, 5)].
Fixpoint first_priority (l : list (nat * N)) (level : N) : N :=
  match l with
  | [] => 7
  | (i, p) :: l' => if bit level i then p else first_priority l' level
  end.
Definition syslog_text (m : message) : bytes := when (bit (m_level m) 8) (lit "[statistics] ") ++ m_text m.

(** *** Wishes *)

Inductive sink := Output | Syslog (i : nat) (level : N).
Record wish := mk_wish {
  w_level : N;                        (* of the output *)
  w_interests : list (bytes * N);     (* of others, the latest first *)
  w_created : nat;                    (* syslog loggers *)
  w_sinks : list sink                 (* in the order they were connected *)
}.
Definition no_wish : wish := mk_wish 0 [] 0 [].

Definition latest (l : list (bytes * N)) (name : bytes) : N :=
  match find (fun x => bytes_eqb (fst x) name) l with Some x => snd x | None => 0 end.
Definition interests (l : list (bytes * N)) : list N := map (fun x => latest l (fst x)) l.

Definition is_output (k : sink) : bool := match k with Output => true | Syslog _ _ => false end.
Definition is_syslog_of (i : nat) (k : sink) : bool :=
  match k with Output => false | Syslog j _ => Nat.eqb i j end.
Definition with_level (i : nat) (f : N -> N) (k : sink) : sink :=
  match k with Output => Output | Syslog j l => if Nat.eqb i j then Syslog j (f l) else k end.

(** The level a string asks for, if all its names are known; [now] is the level so far. *)
Definition asked (name : option bytes) (now : N) : N :=
  match level_given name now with inl l => l | inr _ => now end.

Definition wish_step (env : environment) (w : wish) (o : op) : wish :=
  match o with
  | SetLevel l => mk_wish l (w_interests w) (w_created w) (w_sinks w)
  | SetLevelString n => mk_wish (asked n (w_level w)) (w_interests w) (w_created w) (w_sinks w)
  | SetInteresting n l => mk_wish (w_level w) ((n, l) :: w_interests w) (w_created w) (w_sinks w)
  | ConnectDefault => mk_wish (w_level w) (w_interests w) (w_created w) (w_sinks w ++ [Output])
  | DisconnectDefault =>
      mk_wish (w_level w) (w_interests w) (w_created w) (filter (fun k => negb (is_output k)) (w_sinks w))
  | SyslogNew _ _ _ =>
      mk_wish (w_level w) (w_interests w) (S (w_created w))
        (w_sinks w ++ [Syslog (w_created w)
                         match e_syslog_level env with Some n => asked (Some n) 0 | None => w_level w end])
  | SyslogDispose i =>
      mk_wish (w_level w) (w_interests w) (w_created w) (filter (fun k => negb (is_syslog_of i k)) (w_sinks w))
  | SyslogSetLevel i l =>
      mk_wish (w_level w) (w_interests w) (w_created w) (map (with_level i (fun _ => l)) (w_sinks w))
  | SyslogSetLevelString i n =>
      mk_wish (w_level w) (w_interests w) (w_created w) (map (with_level i (asked n)) (w_sinks w))
  | _ => w
  end.
Definition wishes (env : environment) (ops : list op) : wish := fold_left (wish_step env) ops no_wish.

(** Calls that keep to the documented ways: levels are not set as properties, the names the library
    uses itself are left to it, a syslog logger keeps its identity, and there is one at a time. *)
Definition ordinary (w : wish) (o : op) : Prop :=
  match o with
  | SetLevelProperty _ | SyslogSetLevelProperty _ _ | SyslogSetIdentity _ _ => False
  | SetInteresting n _ => n <> lit "default" /\ n <> lit "syslog"
  | SyslogNew _ _ _ => forall k, In k (w_sinks w) -> k = Output
  | _ => True
  end.
Fixpoint ordinary_from (env : environment) (w : wish) (ops : list op) : Prop :=
  match ops with
  | [] => True
  | o :: ops' => ordinary w o /\ ordinary_from env (wish_step env w o) ops'
  end.

(** Does a sink want a message of the level?  A syslog logger without a level of its own wants what
    anyone wants. *)
Definition wants (w : wish) (k : sink) (level : N) : bool :=
  match k with
  | Output => meets level (or_standard (w_level w))
  | Syslog _ 0 => meets level (or_standard (w_level w)) || existsb (meets level) (interests (w_interests w))
  | Syslog _ l => meets level l
  end.
(** What a sink makes of a message. *)
Inductive delivered (env : environment) (w : wish) (items : N) (d : dest) (m : message) : sink -> list out -> Prop :=
| delivered_not k : wants w k (m_level m) = false -> delivered env w items d m k []
| delivered_line t : wants w Output (m_level m) = true -> line_of env items d m t ->
    delivered env w items d m Output [Written d t]
| delivered_syslog i l : wants w (Syslog i l) (m_level m) = true ->
    delivered env w items d m (Syslog i l)
      [Syslogged (first_priority priorities (m_level m)) (syslog_text m)].

(** MILTER_DEBUG asks to abort at such a message. *)
Definition deadly (env : environment) (level : N) : Prop :=
  (e_debug env = Some (lit "fatal-warnings") \/ e_debug env = Some (lit "fatal_warnings")) /\ 2 <= level <= 8 \/
  (e_debug env = Some (lit "fatal-criticals") \/ e_debug env = Some (lit "fatal_criticals")) /\ level = 2.

(** The message a call logs. *)
Definition of_glib : list (N * N) := [(4, 4); (8, 2); (16, 8); (32, 16); (64, 32); (128, 64)].
Inductive logs : op -> message -> Prop :=
| logs_macro m : logs (Log m) m
| logs_direct m : logs (LogAnyway m) m
| logs_glib domain flags l level time text :
    In (l, level) of_glib -> flags < 4 ->
    logs (GLibLog domain (l + flags) time text)
         (mk_message (Some (lit "glib-log")) level None 0 None time
            (match domain with Some d => tag d | None => [] end ++ lit " " ++ text)).

(** *** Places *)

Definition placed (d : dest) (o : out) : Prop := match o with Written d' _ => d' = d | _ => True end.
(** Calls that leave the output where it is. *)
Definition stays (o : op) : Prop := match o with SetPath _ _ | Reopen _ _ => False | _ => True end.

(** The facilities of syslog by number. *)
Definition facility_names : list (N * bytes) :=
  [(0, lit "kern"); (1, lit "user"); (2, lit "mail"); (3, lit "daemon"); (10, lit "auth"); (6, lit "lpr");
   (7, lit "news"); (8, lit "uucp"); (9, lit "cron"); (10, lit "authpriv"); (11, lit "ftp");
   (16, lit "local0"); (17, lit "local1"); (18, lit "local2"); (19, lit "local3"); (20, lit "local4");
   (21, lit "local5"); (22, lit "local6"); (23, lit "local7")].
Definition same_letters (a b : bytes) : Prop := map Bytes.lower a = map Bytes.lower b.
Inductive facility_means (name : bytes) : N -> Prop :=
| facility_named n f : In (n, f) facility_names -> same_letters name f -> facility_means name (n * 8)
| facility_mail : (forall n f, In (n, f) facility_names -> ~ same_letters name f) -> facility_means name (2 * 8).

(** The items asked for. *)
Definition item_step (now : N) (o : op) : N :=
  match o with
  | SetItem i => i
  | SetItemString n => match item_given n now with inl i => i | inr _ => now end
  | _ => now
  end.
Definition items_of (ops : list op) : N := fold_left item_step ops 0.
