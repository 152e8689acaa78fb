(** The configuration files of filters and of the shell, from the side of who writes them. *)
From Verif.Base Require Import Bytes.
From Verif.Spec Require Import PostfixSpec.
From Verif.Spec Require ConnectionSpecSpec BreakerSpec.
Local Open Scope N_scope.

Definition newline : byte := byte_of 10.
Definition double_quote : byte := byte_of 34.
Definition single_quote : byte := byte_of 39.

(** A file whose lines say [es]; the last line, perhaps empty, has no newline. *)
Definition lists {E} (M : bytes -> E -> Prop) (es : list E) (content : bytes) : Prop :=
  exists ls last, content = file ls last /\ Forall one_line ls /\ one_line last /\ Forall2 M (ls ++ [last]) es.

Definition word (k : bytes) : Prop := k <> [] /\ Forall BreakerSpec.name_char k.
(** [v] is given to [k] and nothing is given to it later. *)
Definition mentions {A} (es : list (option (bytes * A))) (k : bytes) : Prop := exists v, In (Some (k, v)) es.
Definition final {A} (es : list (option (bytes * A))) (k : bytes) (v : A) : Prop :=
  exists a b, es = a ++ Some (k, v) :: b /\ ~ mentions b k.

(** *** opendkim.conf and clamav-milter.conf: a name, white space, a value up to the end of the line *)
Inductive setting_line : bytes -> option (bytes * option bytes) -> Prop :=
| setting_idle l : idle_line l -> setting_line l None
| setting_alone i k s : Forall white i -> word k -> Forall white s -> (length s <= 1)%nat ->
    setting_line (i ++ k ++ s) (Some (k, None))
| setting_given i k s v : Forall white i -> word k -> spaces s -> begins_text v ->
    setting_line (i ++ k ++ s ++ v) (Some (k, Some v))
(** anything else is no setting: a name with something other than white space behind it, no name *)
| setting_other i k c l : Forall white i -> word k -> ~ white c -> ~ BreakerSpec.name_char c ->
    setting_line (i ++ k ++ c :: l) None
| setting_odd i c l : Forall white i -> ~ white c -> ~ BreakerSpec.name_char c ->
    setting_line (i ++ c :: l) None.

(** *** enma.conf: "milter.socket: value" *)
Inductive enma_setting : bytes -> option bytes -> Prop :=
| enma_idle l : idle_line l -> enma_setting l None
| enma_other i k l : Forall white i -> begins_text k ->
    (forall t, k ++ l <> lit "milter.socket" ++ t) -> enma_setting (i ++ k ++ l) None
| enma_given i s s' v : Forall white i -> Forall white s -> Forall white s' -> begins_text v ->
    enma_setting (i ++ lit "milter.socket" ++ s ++ lit ":" ++ s' ++ v) (Some v).
Definition last_given (es : list (option bytes)) (o : option bytes) : Prop :=
  (Forall (eq None) es /\ o = None) \/
  (exists a v b, es = a ++ Some v :: b /\ Forall (eq None) b /\ o = Some v).

(** *** greylist.conf *)
Inductive gl_entry := GIdle | GSocket (path : bytes) | GDelay (seconds : N).
Definition digits_text (d : bytes) : Prop := d <> [] /\ Forall ConnectionSpecSpec.digit_char d.
Definition absent (w t : bytes) : Prop := forall a b, t <> a ++ w ++ b.
Inductive time_unit : bytes -> N -> Prop :=
| unit_none : time_unit [] 1
| unit_s : time_unit (lit "s") 1
| unit_m : time_unit (lit "m") 60
| unit_h : time_unit (lit "h") 3600
| unit_d : time_unit (lit "d") 86400
| unit_w : time_unit (lit "w") 604800.
(** An access list entry with "tarpit 10m". *)
Definition delays (text : bytes) (n : N) : Prop :=
  exists pre s d u m post,
    text = pre ++ lit "tarpit" ++ s ++ d ++ u ++ post /\
    absent (lit "tarpit") pre /\ ~ In "#"%char pre /\ (pre = [] \/ exists p c, pre = p ++ [c] /\ white c) /\
    spaces s /\ digits_text d /\ time_unit u m /\
    (post = [] \/ exists c p, post = c :: p /\ white c) /\
    n = ConnectionSpecSpec.number d * m.
Definition acl_word (k : bytes) : Prop := k = lit "acl" \/ k = lit "racl".
Inductive greylist_line : bytes -> gl_entry -> Prop :=
| gl_idle l : idle_line l -> greylist_line l GIdle
| gl_socket_quoted i s path t : Forall white i -> spaces s -> path <> [] -> ~ In double_quote path -> Forall white t ->
    greylist_line (i ++ lit "socket" ++ s ++ [double_quote] ++ path ++ [double_quote] ++ t) (GSocket path)
| gl_socket_mode i s path t mode : Forall white i -> spaces s -> path <> [] -> ~ In double_quote path -> Forall white t ->
    digits_text mode ->
    greylist_line (i ++ lit "socket" ++ s ++ [double_quote] ++ path ++ [double_quote] ++ t ++ mode) (GSocket path)
| gl_socket_plain i s path : Forall white i -> spaces s -> begins_text path -> ~ In double_quote path ->
    greylist_line (i ++ lit "socket" ++ s ++ path) (GSocket path)
| gl_setting i k s v : Forall white i -> word k -> ~ acl_word k -> k <> lit "socket" -> spaces s ->
    greylist_line (i ++ k ++ s ++ v) GIdle
| gl_alone i k : Forall white i -> word k -> greylist_line (i ++ k) GIdle
| gl_other i c l : Forall white i -> ~ white c -> ~ BreakerSpec.name_char c -> greylist_line (i ++ c :: l) GIdle
| gl_acl i k s text n : Forall white i -> acl_word k -> spaces s -> begins_text text -> delays text n ->
    greylist_line (i ++ k ++ s ++ text) (GDelay n)
| gl_acl_none i k s text : Forall white i -> acl_word k -> spaces s -> begins_text text ->
    absent (lit "tarpit") text -> greylist_line (i ++ k ++ s ++ text) GIdle.
(** No line goes on in the next one. *)
Definition greylist_says (l : bytes) (e : gl_entry) : Prop :=
  exists t, content_is l t /\ greylist_line t e /\ forall t', t <> t' ++ [byte_of 92].
Definition last_socket (es : list gl_entry) (o : option bytes) : Prop :=
  ((forall p, ~ In (GSocket p) es) /\ o = None) \/
  (exists a p b, es = a ++ GSocket p :: b /\ (forall q, ~ In (GSocket q) b) /\ o = Some p).
Definition longest_delay (es : list gl_entry) (m : N) : Prop :=
  (forall n, In (GDelay n) es -> n <= m) /\ (m = 0 \/ In (GDelay m) es).

(** *** Connection specs *)
Definition local_prefix (p : bytes) : Prop := p = lit "unix:" \/ p = lit "local:".
Definition no_prefix (b : bytes) : Prop := forall p t, local_prefix p -> b <> p ++ t.
Inductive spec_means : bytes -> bytes -> Prop :=
| spec_path b : spec_means ("/"%char :: b) (lit "unix:/" ++ b)
| spec_local ps p b : Forall local_prefix ps -> local_prefix p -> no_prefix b -> spec_means (concat ps ++ p ++ b) (p ++ b)
| spec_other b : no_prefix b -> (forall b', b <> "/"%char :: b') -> spec_means b b.

(** *** Assignments of the shell *)
Inductive piece := Text (b : bytes) | Ref (name : bytes).
Definition clean (c : byte) : Prop :=
  c <> "$"%char /\ c <> "#"%char /\ c <> double_quote /\ c <> single_quote /\ c <> newline /\
  c <> byte_of 92 /\ c <> byte_of 96.   (* backslash and backquote *)
(** What may stand without quotes. *)
Definition bare (c : byte) : Prop := ~ white c /\ ~ In c (lit ";&|<>()~").
(** Names; "name" itself stands for the script. *)
Definition referred (n : bytes) : Prop :=
  word n /\ n <> lit "name" /\ forall c n', n = c :: n' -> ~ ConnectionSpecSpec.digit_char c.
Definition capital (c : byte) : Prop := 48 <= code c <= 57 \/ 65 <= code c <= 90 \/ code c = 95.
Definition stops (t : bytes) : Prop :=
  t = [] \/ exists c t', t = c :: t' /\ ~ BreakerSpec.name_char c /\ c <> "}"%char.
Inductive writes : list piece -> bytes -> Prop :=
| writes_nothing : writes [] []
| writes_text b ps t : Forall clean b -> writes ps t -> writes (Text b :: ps) (b ++ t)
| writes_braced n ps t : referred n -> writes ps t -> writes (Ref n :: ps) (lit "${" ++ n ++ lit "}" ++ t)
| writes_bare n ps t : referred n -> writes ps t -> stops t -> writes (Ref n :: ps) (lit "$" ++ n ++ t).
(** White space at the end of a line, and then perhaps a comment. *)
Inductive line_end : bytes -> Prop :=
| end_here : line_end []
| end_blank s : spaces s -> line_end s
| end_comment s t : spaces s -> line_end (s ++ lit "#" ++ t).
(** Before the name. *)
Inductive leader : bytes -> Prop :=
| leader_blank w : Forall white w -> leader w
| leader_export w s : Forall white w -> spaces s -> leader (w ++ lit "export" ++ s).
Inductive shell_line : bytes -> option (bytes * list piece) -> Prop :=
| shell_idle l : idle_line l -> shell_line l None
| shell_export w s n e : Forall white w -> spaces s -> word n -> Forall white e ->
    shell_line (w ++ lit "export" ++ s ++ n ++ e) None
| shell_plain i n ps t e : leader i -> n <> [] -> Forall capital n -> writes ps t -> Forall bare t ->
    line_end e -> shell_line (i ++ n ++ lit "=" ++ t ++ e) (Some (n, ps))
| shell_double i n ps t e : leader i -> n <> [] -> Forall capital n -> writes ps t -> line_end e ->
    shell_line (i ++ n ++ lit "=" ++ [double_quote] ++ t ++ [double_quote] ++ e) (Some (n, ps))
| shell_single i n b e : leader i -> n <> [] -> Forall capital n -> Forall clean b -> line_end e ->
    shell_line (i ++ n ++ lit "=" ++ [single_quote] ++ b ++ [single_quote] ++ e) (Some (n, [Text b])).

Definition environment := bytes -> option bytes.
Definition set (env : environment) (n v : bytes) : environment := fun m => if bytes_eqb n m then Some v else env m.
Inductive means (env : environment) : list piece -> bytes -> Prop :=
| means_nothing : means env [] []
| means_text b ps v : means env ps v -> means env (Text b :: ps) (b ++ v)
| means_ref n x ps v : env n = Some x -> means env ps v -> means env (Ref n :: ps) (x ++ v).
Inductive runs : environment -> list (option (bytes * list piece)) -> environment -> Prop :=
| runs_nothing env : runs env [] env
| runs_idle env es out : runs env es out -> runs env (None :: es) out
| runs_assign env n ps v es out : means env ps v -> runs (set env n v) es out -> runs env (Some (n, ps) :: es) out.

(** *** Units of systemd (systemd.unit(5), systemd.exec(5)) *)
Inductive unit_entry := UIdle | USection (name : bytes) | USet (name value : bytes).
(** A text that neither begins nor ends with white space. *)
Definition tight (b : bytes) : Prop :=
  begins_text b /\ exists b' c, b = b' ++ [c] /\ ~ white c /\ c <> byte_of 0 /\ c <> byte_of 92.
Definition unit_name (n : bytes) : Prop :=
  tight n /\ ~ In "="%char n /\ forall c n', n = c :: n' -> ~ In c (lit "[#;").
Inductive unit_line : bytes -> unit_entry -> Prop :=
| unit_blank l : Forall white l -> unit_line l UIdle
| unit_comment w c l : Forall white w -> c = "#"%char \/ c = ";"%char -> unit_line (w ++ c :: l) UIdle
| unit_section w n e : Forall white w -> n <> [] -> ~ In "]"%char n -> Forall white e ->
    unit_line (w ++ lit "[" ++ n ++ lit "]" ++ e) (USection n)
| unit_set w n s s' v e : Forall white w -> unit_name n -> Forall white s -> Forall white s' -> tight v -> Forall white e ->
    unit_line (w ++ n ++ s ++ lit "=" ++ s' ++ v ++ e) (USet n v).
(** What is given to [k] in the sections [sec], in order; [cur]: the section at the beginning. *)
Fixpoint given (sec k : bytes) (cur : option bytes) (es : list unit_entry) : list bytes :=
  match es with
  | [] => []
  | UIdle :: es' => given sec k cur es'
  | USection n :: es' => given sec k (Some n) es'
  | USet n v :: es' =>
      match cur with
      | Some c => if bytes_eqb c sec && bytes_eqb n k then v :: given sec k cur es' else given sec k cur es'
      | None => given sec k cur es'
      end
  end.
Definition latest {A} (l : list A) (o : option A) : Prop :=
  (l = [] /\ o = None) \/ exists l' x, l = l' ++ [x] /\ o = Some x.

(** Environment files: nothing is expanded, and there is no comment behind a value. *)
Inductive env_line : bytes -> option (bytes * bytes) -> Prop :=
| env_idle l : idle_line l -> env_line l None
| env_plain w n b e : Forall white w -> n <> [] -> Forall capital n -> Forall clean b -> Forall bare b -> Forall white e ->
    env_line (w ++ n ++ lit "=" ++ b ++ e) (Some (n, b))
| env_double w n b e : Forall white w -> n <> [] -> Forall capital n -> Forall clean b -> Forall white e ->
    env_line (w ++ n ++ lit "=" ++ [double_quote] ++ b ++ [double_quote] ++ e) (Some (n, b))
| env_single w n b e : Forall white w -> n <> [] -> Forall capital n -> Forall clean b -> Forall white e ->
    env_line (w ++ n ++ lit "=" ++ [single_quote] ++ b ++ [single_quote] ++ e) (Some (n, b)).
Fixpoint sets (env : environment) (es : list (option (bytes * bytes))) : environment :=
  match es with [] => env | None :: es' => sets env es' | Some (n, v) :: es' => sets (set env n v) es' end.
(** A dash allows the file to be missing. *)
Inductive names_file : bytes -> bytes -> Prop :=
| names_optional f : names_file ("-"%char :: f) f
| names_plain f : (forall f', f <> "-"%char :: f') -> names_file f f.
Inductive environment_of (files : bytes -> option bytes) : environment -> list bytes -> environment -> Prop :=
| env_of_none env : environment_of files env [] env
| env_of_missing env v f vs out : names_file v f -> files f = None -> environment_of files env vs out ->
    environment_of files env (v :: vs) out
| env_of_file env v f content es vs out : names_file v f -> files f = Some content -> lists env_line es content ->
    environment_of files (sets env es) vs out -> environment_of files env (v :: vs) out.
Definition nothing_set : environment := fun _ => None.

(** Without white space around it. *)
Definition trimmed (s t : bytes) : Prop := exists a b, s = a ++ t ++ b /\ Forall white a /\ Forall white b /\ tight t.
Definition blank_text (s : bytes) : Prop := Forall white s.

(** The argument of an option on a command line: "-x FILE", "-xFILE" or "-x=FILE". *)
Definition begins_with (p w : bytes) : Prop := exists r, w = p ++ r.
Definition no_variable (f : bytes) : Prop := forall r, f <> "$"%char :: r.
Inductive option_argument (opt : bytes) : list bytes -> option bytes -> Prop :=
| option_absent ws : Forall (fun w => ~ begins_with opt w) ws -> option_argument opt ws None
| option_separate a f b : ~ In opt (f :: b) -> no_variable f -> option_argument opt (a ++ opt :: f :: b) (Some f)
| option_attached a f b : ~ In opt (a ++ b) -> f <> [] -> no_variable f -> (forall r, f <> "="%char :: r) ->
    Forall (fun w => ~ begins_with opt w) b -> option_argument opt (a ++ (opt ++ f) :: b) (Some f)
| option_equals a f b : ~ In opt (a ++ b) -> no_variable f ->
    Forall (fun w => ~ begins_with opt w) b -> option_argument opt (a ++ (opt ++ "="%char :: f) :: b) (Some f).
