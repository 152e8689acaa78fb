(** The settings of a filter, from the side of who starts it. *)
From Verif.Base Require Import Bytes.
From Verif.Model Require ClientConfig.
Import ClientConfig(value, Nil, Bool, Int, Text, Backend, setting, ConnectionSpec, SocketMode, SocketGroup, RemoveOnCreate, RemoveOnClose,
  Daemon, PidFile, MaintenanceInterval, SuspendTime, MaxConnections, MaxDescriptors, FallbackStatus, EventLoop, Workers, PacketBuffer,
  MaxPending, RunGc, HandleSignal, User, Group, Syslog, Facility, argument, Option, Switch, StatusOnError, Configuration).
Local Open Scope Z_scope.

(** Some spelling of a status: capitals and underscores may be used. *)
Inductive letter_of : byte -> byte -> Prop :=
| letter_same c : (65 <= Z.of_N (code c) <= 90 -> False) -> c <> "_"%char -> letter_of c c
| letter_capital c d : 65 <= Z.of_N (code c) <= 90 -> code d = (code c + 32)%N -> letter_of c d
| letter_underscore : letter_of "_" "-".
Definition spells (t n : bytes) : Prop := Forall2 letter_of t n.
Definition a_status (n : bytes) : Prop := n = lit "accept" \/ n = lit "reject" \/ n = lit "temporary-failure" \/ n = lit "discard".
Definition a_backend (n : bytes) : Prop := n = lit "default" \/ n = lit "glib" \/ n = lit "libev".

(** Settings of plain values in a file; settings that count, and what leaving them empty means. *)
Definition plain (s : setting) : Prop :=
  In s [SocketMode; SocketGroup; RemoveOnCreate; RemoveOnClose; Daemon; PidFile; RunGc; User; Group; Syslog; Facility].
Inductive counts : setting -> Z -> Prop :=
| counts_zero s : In s [MaintenanceInterval; MaxConnections; MaxDescriptors; Workers; PacketBuffer; MaxPending] -> counts s 0
| counts_suspend : counts SuspendTime 5.
(** [means parses s v w]: writing [v] for [s] in a file makes the setting [w]. *)
Inductive means (parses : bytes -> bool) : setting -> value -> value -> Prop :=
| means_plain s v : plain s -> means parses s v v
| means_count s d n : counts s d -> means parses s (Int n) (Int n)
| means_default s d : counts s d -> means parses s Nil (Int d)
| means_spec t : parses t = true -> means parses ConnectionSpec (Text t) (Text t)
| means_no_spec : means parses ConnectionSpec Nil Nil
| means_status t n : spells t n -> a_status n -> means parses FallbackStatus (Text t) (Text n)
| means_no_status : means parses FallbackStatus Nil Nil
| means_backend n : a_backend n -> means parses EventLoop (Text n) (Backend n)
| means_no_backend : means parses EventLoop Nil Nil.

(** [asks ... s t v]: the option for [s] with the text [t] asks for [v]. *)
Inductive asks (integer : bytes -> option Z) (facilities : list bytes) : setting -> bytes -> value -> Prop :=
| asks_text s t : In s [ConnectionSpec; PidFile; User; Group; SocketGroup; SocketMode; MaintenanceInterval] -> asks integer facilities s t (Text t)
| asks_status t : a_status t -> asks integer facilities FallbackStatus t (Text t)
| asks_backend t : a_backend t -> asks integer facilities EventLoop t (Text t)
| asks_facility t : In t facilities -> asks integer facilities Facility t (Text t)
| asks_descriptors t n : integer t = Some n -> asks integer facilities MaxDescriptors t (Int n)
| asks_workers t n : integer t = Some n -> 0 < n -> asks integer facilities Workers t (Int n)
| asks_buffer t n : integer t = Some n -> 0 <= n -> asks integer facilities PacketBuffer t (Int n)
| asks_pending t n : integer t = Some n -> 0 < n -> asks integer facilities MaxPending t (Int n).

Section Says.
  Variable parses : bytes -> bool.
  Variable integer : bytes -> option Z.
  Variable facilities : list bytes.
  Variable files : bytes -> option (list (setting * value)).
  Definition entry_means (e e' : setting * value) : Prop := fst e = fst e' /\ means parses (fst e) (snd e) (snd e').
  (** The settings one argument makes, in order; those of a file at its place. *)
  Inductive one : argument -> list (setting * value) -> Prop :=
  | one_option s t v : asks integer facilities s t v -> one (Option s t) [(s, v)]
  | one_switch s b : In s [Daemon; HandleSignal; RunGc; Syslog] -> one (Switch s b) [(s, Bool b)]
  | one_deprecated t : one (StatusOnError t) [(FallbackStatus, Text t)]
  | one_file p l l' : files (lit "/" ++ p) = Some l -> Forall2 entry_means l l' -> one (Configuration (lit "/" ++ p)) l'.
  Inductive says : list argument -> list (setting * value) -> Prop :=
  | says_nothing : says [] []
  | says_more a l e e' : one a e -> says l e' -> says (a :: l) (e ++ e').
End Says.

(** The last word about [s] is [v]; there is none. *)
Definition last_word (l : list (setting * value)) (s : setting) (v : value) : Prop :=
  exists l1 l2, l = l1 ++ (s, v) :: l2 /\ (forall w, ~ In (s, w) l2).
Definition silent (l : list (setting * value)) (s : setting) : Prop := forall w, ~ In (s, w) l.

(** What a setting nobody mentions is. *)
Definition standard (s : setting) : value :=
  match s with
  | ConnectionSpec => Text (lit "inet:20025")
  | SocketMode => Int 504
  | MaintenanceInterval => Int 100
  | SuspendTime => Int 5
  | MaxConnections | MaxDescriptors | Workers | PacketBuffer | MaxPending => Int 0
  | FallbackStatus => Text (lit "accept")
  | EventLoop => Text (lit "glib")
  | Facility => Text (lit "mail")
  | RemoveOnCreate | RemoveOnClose | RunGc | HandleSignal => Bool true
  | Daemon | Syslog => Bool false
  | SocketGroup | PidFile | User | Group => Nil
  end.
(** What is wanted for [s] at the end. *)
Definition wanted (l : list (setting * value)) (s : setting) (v : value) : Prop :=
  last_word l s v \/ (silent l s /\ v = standard s).

(** Settings that are always handed on; handed on if there is a value; switches. *)
Definition handed (s : setting) : Prop :=
  In s [ConnectionSpec; SocketGroup; FallbackStatus; EventLoop; PacketBuffer; PidFile; MaintenanceInterval; Workers; MaxPending].
Definition handed_if_any (s : setting) : Prop := In s [User; Group; SocketMode].
Definition a_switch (s : setting) : Prop := In s [Daemon; HandleSignal; RunGc; Syslog].
Definition unused (s : setting) : Prop := In s [RemoveOnCreate; RemoveOnClose; SuspendTime; MaxConnections].
Definition something (v : value) : Prop := v <> Nil /\ v <> Bool false.

(** Arguments that are wrong. *)
Section Wrong.
  Variable parses : bytes -> bool.
  Variable integer : bytes -> option Z.
  Variable facilities : list bytes.
  Variable files : bytes -> option (list (setting * value)).
  Inductive wrong : argument -> Prop :=
  | wrong_status t : ~ a_status t -> wrong (Option FallbackStatus t)
  | wrong_backend t : ~ a_backend t -> wrong (Option EventLoop t)
  | wrong_facility t : ~ In t facilities -> wrong (Option Facility t)
  | wrong_number s t : In s [MaxDescriptors; Workers; PacketBuffer; MaxPending] -> integer t = None -> wrong (Option s t)
  | wrong_amount s t n : In s [Workers; MaxPending] -> integer t = Some n -> n <= 0 -> wrong (Option s t)
  | wrong_size t n : integer t = Some n -> n < 0 -> wrong (Option PacketBuffer t)
  | wrong_switch s b : ~ a_switch s -> wrong (Switch s b)
  | wrong_file p : files p = None -> wrong (Configuration p)
  | wrong_spec p l l' t r : files p = Some (l ++ (ConnectionSpec, Text t) :: r) -> Forall2 (entry_means parses) l l' ->
      parses t = false -> wrong (Configuration p).
End Wrong.
