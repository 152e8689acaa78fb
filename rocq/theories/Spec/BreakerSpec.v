(** The output of postconf and the file master.cf of Postfix, from the side of who writes them. *)
From Verif.Base Require Import Bytes.
From Verif.Spec Require Import NetstatSpec.
Local Open Scope N_scope.

Definition name_char (c : byte) : Prop :=
  48 <= code c <= 57 \/ 65 <= code c <= 90 \/ 97 <= code c <= 122 \/ code c = 95.
(** A value as it is printed: it begins with something to be seen. *)
Definition value_text (v : bytes) : Prop :=
  ~ In (byte_of 10) v /\ exists c v', v = c :: v' /\ 32 < code c.

(** "name = value" on each line; the value may be empty for parameters other than the two that are
    looked for. *)
Inductive postconf_lists : list (bytes * bytes) -> bytes -> Prop :=
| no_more_settings : postconf_lists [] []
| one_setting k v kvs rest : k <> [] -> Forall name_char k -> value_text v -> postconf_lists kvs rest ->
    postconf_lists ((k, v) :: kvs) (k ++ lit " = " ++ v ++ byte_of 10 :: rest)
| empty_setting k kvs rest : k <> [] -> Forall name_char k ->
    k <> lit "default_process_limit" -> k <> lit "config_directory" -> postconf_lists kvs rest ->
    postconf_lists kvs (k ++ lit " = " ++ byte_of 10 :: rest).
(** The last value of a parameter. *)
Definition assigned (kvs : list (bytes * bytes)) (k v : bytes) : Prop :=
  exists before after, kvs = before ++ (k, v) :: after /\ Forall (fun kv => fst kv <> k) after.

(** A service: name, type, private, unprivileged, chroot, wakeup, maxproc; then the command. *)
Record service := mk_service { sv_name : bytes; sv_type : bytes; sv_maxproc : bytes }.
Definition prints_service (s : service) (b : bytes) : Prop :=
  exists private unpriv chroot wakeup g1 g2 g3 g4 g5 g6 g7 command,
    Forall column [sv_name s; sv_type s; private; unpriv; chroot; wakeup; sv_maxproc s] /\
    Forall gap [g1; g2; g3; g4; g5; g6; g7] /\ ~ In (byte_of 10) command /\
    (forall t, sv_name s <> "#"%char :: t) /\
    b = sv_name s ++ g1 ++ sv_type s ++ g2 ++ private ++ g3 ++ unpriv ++ g4 ++ chroot ++ g5 ++
        wakeup ++ g6 ++ sv_maxproc s ++ g7 ++ command.
(** Comments, empty lines and lines that continue a service lie between. *)
Inductive master_lists : list service -> bytes -> Prop :=
| no_more_services : master_lists [] []
| one_service s ss b rest : prints_service s b -> master_lists ss rest -> master_lists (s :: ss) (b ++ byte_of 10 :: rest)
| comment ss b rest : ~ In (byte_of 10) b -> master_lists ss rest -> master_lists ss ("#"%char :: b ++ byte_of 10 :: rest)
| empty_line ss rest : master_lists ss rest -> master_lists ss (byte_of 10 :: rest)
| continued ss c b rest : blank c -> ~ In (byte_of 10) b -> master_lists ss rest ->
    master_lists ss (c :: b ++ byte_of 10 :: rest).
Definition first_named (ss : list service) (name : bytes) (s : service) : Prop :=
  exists before after, ss = before ++ s :: after /\ sv_name s = name /\ Forall (fun s' => sv_name s' <> name) before.
