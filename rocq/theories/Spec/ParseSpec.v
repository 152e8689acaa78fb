(** What configuration strings mean: file modes and flag lists. *)
From Verif.Base Require Import Bytes.
Local Open Scope N_scope.

(** *** File modes *)

(** The bits of a mode, as in chmod: three for the user, three for the group, three for others;
    within each read, write and execute. *)
Inductive who := User | Group | Others.
Inductive right := Read | Write | Execute.
Definition mode_bit (w : who) (r : right) : N :=
  match w with User => 6 | Group => 3 | Others => 0 end +
  match r with Read => 2 | Write => 1 | Execute => 0 end.

Definition class_names (c : byte) (w : who) : Prop :=
  match w with User => c = "u"%char | Group => c = "g"%char | Others => c = "o"%char end \/ c = "a"%char.
Definition permission_names (c : byte) (r : right) : Prop :=
  match r with Read => c = "r"%char | Write => c = "w"%char | Execute => c = "x"%char end.

Definition octal (c : byte) : Prop := 48 <= code c <= 55.
Fixpoint octal_value (s : bytes) : N :=
  match s with
  | [] => 0
  | c :: s' => (code c - 48) * 8 ^ N.of_nat (length s') + octal_value s'
  end.

(** The strings that are modes, with the mode. *)
Inductive mode_string : bytes -> N -> Prop :=
| mode_empty : mode_string [] 0
| mode_octal s :
    (1 <= length s <= 3)%nat -> Forall octal s -> mode_string s (octal_value s)
| mode_symbolic cs ps m :
    cs <> [] -> ps <> [] ->
    Forall (fun c => In c (lit "augo")) cs -> Forall (fun c => In c (lit "rwx")) ps ->
    m < 512 ->
    (forall w r, N.testbit m (mode_bit w r) = true <->
       (exists c, In c cs /\ class_names c w) /\ (exists p, In p ps /\ permission_names p r)) ->
    mode_string (cs ++ "="%char :: ps) m.

(** *** Flag lists *)

(** A flag list: an optional leading sign, then terms separated by bars, each a name with an
    optional sign of its own. *)
Definition sign_text (s : option bool) : bytes :=
  match s with None => [] | Some true => lit "+" | Some false => lit "-" end.
Definition term_text (t : option bool * bytes) : bytes := sign_text (fst t) ++ snd t.
Fixpoint terms_text (ts : list (option bool * bytes)) : bytes :=
  match ts with
  | [] => []
  | [t] => term_text t
  | t :: ts' => term_text t ++ "|"%char :: terms_text ts'
  end.
Definition flags_text (lead : option bool) (ts : list (option bool * bytes)) : bytes :=
  sign_text lead ++ terms_text ts.

(** What a text can be read as: names have no bar, a name without a sign does not look like one
    with a sign, a list without a leading sign does not look like one with it, and there is at
    least one term in a text that is not empty. *)
Definition no_sign (s : bytes) : Prop :=
  match s with [] => True | c :: _ => c <> "+"%char /\ c <> "-"%char end.
Definition readable (lead : option bool) (ts : list (option bool * bytes)) : Prop :=
  Forall (fun t => ~ In "|"%char (snd t) /\ (fst t = None -> no_sign (snd t))) ts /\
  (lead = None -> no_sign (terms_text ts)) /\
  ts <> [(None, [])].

(** The bits a name stands for. *)
Inductive names_bits (class : list (bytes * N)) (default : N) : bytes -> N -> Prop :=
| names_flag n v before after :
    class = before ++ (n, v) :: after -> (forall v', ~ In (n, v') before) ->
    n <> lit "all" -> (v = 0 -> n <> lit "default") -> names_bits class default n v
| names_default before after :
    class = before ++ (lit "default", 0) :: after -> (forall v', ~ In (lit "default", v') before) ->
    names_bits class default (lit "default") default.
Definition known (class : list (bytes * N)) (n : bytes) : Prop :=
  n = lit "all" \/ exists v, In (n, v) class.

(** Does a term with effective sign [s] and name [n] decide bit [i], and how? *)
Inductive decides (class : list (bytes * N)) (default : N) : bool -> bytes -> N -> bool -> Prop :=
| decides_all_on i n v :
    In (n, v) class -> N.testbit v i = true -> decides class default true (lit "all") i true
| decides_all_off i : decides class default false (lit "all") i false
| decides_flag s n v i :
    names_bits class default n v -> N.testbit v i = true -> decides class default s n i s.

(** The sign a term has: its own, else the leading one, else plus. *)
Definition effective (lead : option bool) (t : option bool * bytes) : bool :=
  match fst t, lead with Some s, _ => s | None, Some s => s | None, None => true end.
