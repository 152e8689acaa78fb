(** rc scripts and rc.conf, from the side of who writes them (rc.conf(5), rc.subr(8), sh(1)). *)
From Verif.Base Require Import Bytes.
From Verif.Spec Require Import PostfixSpec DetectSpec.
From Verif.Spec Require BreakerSpec ConnectionSpecSpec.
Local Open Scope N_scope.

(** How a value is written in which nothing is expanded. *)
Inductive plain_value : bytes -> bytes -> Prop :=
| plain_bare b : Forall clean b -> Forall bare b -> plain_value b b
| plain_double b : Forall clean b -> plain_value b ([double_quote] ++ b ++ [double_quote])
| plain_single b : Forall clean b -> plain_value b ([single_quote] ++ b ++ [single_quote]).
(** A variable of the script: one line gives it a value, and no other line gives it any. *)
Definition not_given (k l : bytes) : Prop :=
  forall x y, l = x ++ k ++ lit "=" ++ y -> exists x' c, x = x' ++ [c] /\ BreakerSpec.name_char c.
Definition script_variable (content k v : bytes) : Prop :=
  word k /\ (forall c k', k = c :: k' -> ~ ConnectionSpecSpec.digit_char c) /\
  exists a t b last, content = file (a ++ (k ++ lit "=" ++ t) :: b) last /\ Forall one_line (a ++ (k ++ lit "=" ++ t) :: b) /\
    one_line last /\ plain_value v t /\ Forall (not_given k) a /\ Forall (not_given k) b /\ not_given k last.
(** How any value is written; it may refer to the variables [scr]. *)
Section Values.
  Variable scr : bytes -> bytes -> Prop.
  Inductive spells : bytes -> bytes -> Prop :=
  | spells_nothing : spells [] []
  | spells_text b v t : Forall clean b -> spells v t -> spells (b ++ v) (b ++ t)
  | spells_braced k x v t : scr k x -> spells v t -> spells (x ++ v) (lit "${" ++ k ++ lit "}" ++ t)
  | spells_bare k x v t : scr k x -> spells v t -> stops t -> spells (x ++ v) (lit "$" ++ k ++ t).
  Inductive quoted : bytes -> bytes -> Prop :=
  | quoted_plain v t : plain_value v t -> quoted v t
  | quoted_open v t : spells v t -> Forall bare t -> quoted v t
  | quoted_spelled v t : spells v t -> quoted v ([double_quote] ++ t ++ [double_quote]).

  (** *** rc.conf: one assignment a line, nothing behind it, and no "=" in the value *)
  Inductive conf_line : bytes -> option (bytes * bytes) -> Prop :=
  | conf_idle l : idle_line l -> conf_line l None
  | conf_set n v t : word n -> n <> lit "rcvar" -> quoted v t -> t <> [] -> ~ In "="%char t ->
      conf_line (n ++ lit "=" ++ t) (Some (n, v)).
  (** The variables after the files that there are. *)
  Inductive settings_of (files : bytes -> option bytes) : environment -> list bytes -> environment -> Prop :=
  | settings_none env : settings_of files env [] env
  | settings_missing env f fs out : files f = None -> settings_of files env fs out -> settings_of files env (f :: fs) out
  | settings_file env f content es fs out : files f = Some content -> lists conf_line es content ->
      settings_of files (sets env es) fs out -> settings_of files env (f :: fs) out.
End Values.

(** *** The script *)
Inductive script_entry :=
| SName                          (* name=... *)
| SDefault (v value : bytes)     (* ${NAME_v:-value}, ${NAME_v-value} or ${NAME_v=value} *)
| SAssign (v value : bytes)      (* NAME_v=value *)
| SArgs (a : bytes)              (* command_args=... *)
| SLoad                          (* what is taken for the place where rc.conf is read *)
| SOther.
Definition full (name v : bytes) : bytes := name ++ lit "_" ++ v.
Definition loads (l : bytes) : Prop := exists w t, Forall white w /\ l = w ++ lit "load_rc_conf " ++ t.
Definition sign (s : bytes) : Prop := s = lit ":-" \/ s = lit "-" \/ s = lit "=".
Inductive script_line (scr : bytes -> bytes -> Prop) (name : bytes) : bytes -> script_entry -> Prop :=
| script_name t : plain_value name t -> script_line scr name (lit "name=" ++ t) SName
| script_default i v s x t e : ~ In "$"%char i -> ~ In "#"%char i -> ~ begins_with (lit "name=") i -> ~ loads i ->
    word v -> sign s -> quoted scr x t -> ~ In "}"%char e ->
    script_line scr name (i ++ lit "${" ++ full name v ++ s ++ t ++ lit "}" ++ e) (SDefault v x)
| script_assign v x t : word v -> quoted scr x t -> absent (lit "${" ++ full name []) t -> script_line scr name (full name v ++ lit "=" ++ t) (SAssign v x)
| script_args a t : name <> lit "command" -> quoted scr a t -> t <> [] -> absent (lit "${" ++ full name []) t ->
    script_line scr name (lit "command_args=" ++ t) (SArgs a)
| script_load l : loads l -> script_line scr name l SLoad
| script_other l : ~ begins_with (lit "name=") l -> ~ begins_with (lit "command_args=") l ->
    ~ begins_with (full name []) l -> ~ loads l -> absent (lit "${" ++ full name []) l -> script_line scr name l SOther.
(** The defaults: assignments count as long as rc.conf has not been read. *)
Definition offers (es : list script_entry) (v x : bytes) : Prop :=
  In (SDefault v x) es \/ exists a b, es = a ++ SAssign v x :: b /\ ~ In SLoad a.
Fixpoint offered (es : list script_entry) : list bytes :=
  match es with
  | [] => []
  | SDefault v _ :: es' | SAssign v _ :: es' => v :: offered es'
  | _ :: es' => offered es'
  end.
Definition defaults (name : bytes) (es : list script_entry) (env : environment) : Prop :=
  forall n, (exists v x, n = full name v /\ offers es v x /\ env n = Some x) \/
            ((forall v x, n = full name v -> ~ offers es v x) /\ env n = None).
Fixpoint arguments (es : list script_entry) : list bytes :=
  match es with
  | [] => []
  | SArgs a :: es' => a :: arguments es'
  | _ :: es' => arguments es'
  end.

(** The service whose script is [path]: its name, the variables it runs with and the arguments of its
    command; no variable is given a default twice. *)
Definition service (files : bytes -> option bytes) (path name : bytes) (env : environment) (args : option bytes) : Prop :=
  word name /\ exists content es env0,
    files path = Some content /\ lists (script_line (script_variable content) name) es content /\ In SName es /\
    NoDup (offered es) /\ defaults name es env0 /\ latest (arguments es) args /\
    settings_of (script_variable content) files env0 [lit "/etc/rc.conf"; lit "/etc/rc.conf.local"; lit "/etc/rc.conf.d/" ++ name] env.

Definition says_yes (v : bytes) : Prop :=
  exists y e s, v = [y; e; s] /\ In y (lit "Yy") /\ In e (lit "Ee") /\ In s (lit "Ss").

(** *** Where it listens *)
Definition variable_says (env : environment) (n : bytes) (o : option bytes) : Prop :=
  match env n with
  | None => o = None
  | Some s => (blank_text s /\ o = None) \/ exists t, trimmed s t /\ o = Some t
  end.
Definition option_says (words : bytes -> list bytes) (opt : bytes) (text o : option bytes) : Prop :=
  match text with None => o = None | Some f => option_argument opt (words f) o end.
Inductive first_of {A} : list (option A) -> option A -> Prop :=
| first_none : first_of [] None
| first_here a l : first_of (Some a :: l) (Some a)
| first_later l o : first_of l o -> first_of (None :: l) o.
(** In the order they are asked: the socket, then the option "-p". *)
Definition listens (words : bytes -> list bytes) (name : bytes) (env : environment) (args o : option bytes) : Prop :=
  exists a b c d e,
    variable_says env (full name (lit "socket")) a /\ variable_says env (full name (lit "sockfile")) b /\
    variable_says env (full name (lit "connection_spec")) c /\
    option_says words (lit "-p") (env (full name (lit "flags"))) d /\ option_says words (lit "-p") args e /\
    first_of [a; b; c; d; e] o.

(** *** Filters with a configuration file of their own *)
Inductive bsd := BFree | BNet (prefix : bytes).
Inductive kind := KEnma | KClamav | KOpendkim | KGreylist | KRspamd.
(** By the name of the script or of the service. *)
Definition is_a (b : bsd) (k : kind) (script name : bytes) : Prop :=
  match b, k with
  | BFree, KEnma => script = lit "milter-enma" \/ name = lit "milterenma"
  | BFree, KClamav => script = lit "clamav-milter" \/ name = lit "clamav_milter"
  | BFree, KOpendkim => script = lit "milter-opendkim" \/ name = lit "milteropendkim"
  | BFree, KRspamd => script = lit "rspamd" \/ name = lit "rspamd"
  | BNet _, KEnma => script = lit "enma" \/ name = lit "enma"
  | _, KGreylist => script = lit "milter-greylist" \/ name = lit "miltergreylist"
  | BNet _, _ => False
  end.
Definition chosen (l : list (option bytes)) (default f : bytes) : Prop :=
  exists o, first_of l o /\ f = match o with Some g => g | None => default end.
(** The file the script itself names. *)
Definition script_conf (content : bytes) (o : option bytes) : Prop :=
  (absent (lit "conf_file=") content /\ o = None) \/ exists f, script_variable content (lit "conf_file") f /\ o = Some f.
(** The file: by a variable, by an option, or the usual one; [conf]: by the script. *)
Definition conf_path (words : bytes -> list bytes) (b : bsd) (k : kind) (name : bytes) (env : environment)
  (args conf : option bytes) (f : bytes) : Prop :=
  let cfgfile := env (full name (lit "cfgfile")) in
  exists o,
    match b, k with
    | BFree, KEnma => option_says words (lit "-c") args o /\ chosen [cfgfile; o] (lit "/usr/local/etc/enma.conf") f
    | BFree, KClamav => option_says words (lit "-c") args o /\ chosen [conf; o] (lit "/usr/local/etc/clamav-milter.conf") f
    | BFree, KOpendkim => option_says words (lit "-C") args o /\ chosen [cfgfile; o] (lit "/usr/local/etc/opendkim.conf") f
    | BFree, KGreylist => option_says words (lit "-f") (env (full name (lit "flags"))) o /\
                          chosen [cfgfile; o] (lit "/usr/local/etc/mail/greylist.conf") f
    | BNet prefix, KEnma => option_says words (lit "-c") args o /\ chosen [o] (prefix ++ lit "/enma.conf") f
    | BNet prefix, KGreylist => option_says words (lit "-f") args o /\ chosen [o] (prefix ++ lit "/greylist.conf") f
    | _, _ => False
    end.
Definition given_or_not (es : list (option (bytes * option bytes))) (key : bytes) (o : option bytes) : Prop :=
  final es key o \/ (~ mentions es key /\ o = None).
Definition file_says (k : kind) (content o : option bytes) : Prop :=
  match content with
  | None => o = None
  | Some c =>
      match k with
      | KEnma => exists es, lists enma_setting es c /\ last_given es o
      | KClamav => exists es, lists setting_line es c /\ given_or_not es (lit "MilterSocket") o
      | KOpendkim => exists es, lists setting_line es c /\ given_or_not es (lit "Socket") o
      | _ => False
      end
  end.
(** [rspamd]: what rspamd answers when it is asked. *)
Definition own_socket (files : bytes -> option bytes) (words : bytes -> list bytes) (rspamd : option bytes) (b : bsd) (k : kind)
  (name : bytes) (env : environment) (args conf o : option bytes) : Prop :=
  match k with
  | KRspamd => o = rspamd
  | KGreylist => o = None
  | _ => exists f, conf_path words b k name env args conf f /\ file_says k (files f) o
  end.
(** The spec the filter is connected to. *)
Definition spec_of (o spec : option bytes) : Prop :=
  match o with None => spec = None | Some s => exists t, spec_means s t /\ spec = Some t end.
