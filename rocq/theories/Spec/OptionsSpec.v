(** Independent descriptions for C74-C77: what an integer looks like on the command line, and which of
    several options counts. *)
From Verif.Base Require Import Bytes.
From Verif.Model Require Import Configuration Options.
Local Open Scope Z_scope.

(** ** Integers as the C language writes them: decimal, octal with 0 in front, hexadecimal with 0x *)

Definition digit_of (base : Z) (c : byte) (d : Z) : Prop :=
  0 <= d < base /\ nth_error (lit "0123456789abcdef") (Z.to_nat d) = Some (lower c).

Inductive numeral (base : Z) : bytes -> Z -> Prop :=
| N_one c d : digit_of base c d -> numeral base [c] d
| N_more s v c d : numeral base s v -> digit_of base c d -> numeral base (s ++ [c]) (base * v + d).

Inductive magnitude : bytes -> Z -> Prop :=
| M_decimal c s v : c <> "0"%char -> numeral 10 (c :: s) v -> magnitude (c :: s) v
| M_octal s v : numeral 8 ("0"%char :: s) v -> magnitude ("0"%char :: s) v
| M_hexadecimal x s v : In x (lit "xX") -> numeral 16 s v -> magnitude ("0"%char :: x :: s) v.

Definition white : bytes := map ascii_of_N [32; 9; 10; 11; 12; 13]%N.

Inductive integer_text : bytes -> Z -> Prop :=
| I_positive space sign s v : incl space white -> sign = [] \/ sign = lit "+" -> magnitude s v ->
    integer_text (space ++ sign ++ s) v
| I_negative space s v : incl space white -> magnitude s v -> integer_text (space ++ lit "-" ++ s) (- v).

(** ** The last option of a kind counts *)
Definition last_asked {A : Type} (pick : ask -> option A) (l : list ask) : option A :=
  fold_left (fun before a => match pick a with Some v => Some v | None => before end) l None.

Definition pick_spec a := match a with A_spec v => Some v | _ => None end.
Definition pick_pid_file a := match a with A_pid_file v => Some v | _ => None end.
Definition pick_user a := match a with A_user v => Some v | _ => None end.
Definition pick_group a := match a with A_group v => Some v | _ => None end.
Definition pick_socket_group a := match a with A_socket_group v => Some v | _ => None end.
Definition pick_mode a := match a with A_mode m => Some m | _ => None end.
Definition pick_n_workers a := match a with A_n_workers n => Some n | _ => None end.
Definition pick_backend a := match a with A_backend k => Some k | _ => None end.
Definition pick_daemon a := match a with A_daemon d => Some d | _ => None end.
Definition pick_max_pending a := match a with A_max_pending n => Some n | _ => None end.
Definition pick_packet_buffer a := match a with A_packet_buffer n => Some n | _ => None end.

Definition pick_facility a := match a with A_facility v => Some v | _ => None end.
Definition is_syslog a := match a with A_syslog => true | _ => false end.

(** ** What an option asks for, given a value as it should be *)
Definition account (name_of : N -> option bytes) (v name : bytes) : Prop :=
  (exists n, integer_text v n /\ 0 <= n <= G_MAXUINT /\
     (name_of (Z.to_N n) = Some name \/ name_of (Z.to_N n) = None /\ name = v)) \/
  (v <> [] /\ (forall n, ~ integer_text v n) /\ name = v).

Inductive means (user_of group_of : N -> option bytes) : use -> ask -> Prop :=
| Q_spec v : means user_of group_of (U_spec v) (A_spec v)
| Q_syslog : means user_of group_of U_syslog A_syslog
| Q_facility v : means user_of group_of (U_facility v) (A_facility v)
| Q_daemon : means user_of group_of U_daemon (A_daemon true)
| Q_no_daemon : means user_of group_of U_no_daemon (A_daemon false)
| Q_user v name : account user_of v name -> means user_of group_of (U_user v) (A_user name)
| Q_user_id v n name : integer_text v n -> 0 <= n <= G_MAXUINT -> user_of (Z.to_N n) = Some name ->
    means user_of group_of (U_user_id v) (A_user name)
| Q_user_name v : means user_of group_of (U_user_name v) (A_user v)
| Q_group v name : account group_of v name -> means user_of group_of (U_group v) (A_group name)
| Q_group_id v n name : integer_text v n -> 0 <= n <= G_MAXUINT -> group_of (Z.to_N n) = Some name ->
    means user_of group_of (U_group_id v) (A_group name)
| Q_group_name v : means user_of group_of (U_group_name v) (A_group v)
| Q_socket_group v : means user_of group_of (U_socket_group v) (A_socket_group v)
| Q_socket_group_name v : means user_of group_of (U_socket_group_name v) (A_socket_group v)
| Q_n_workers v n : integer_text v n -> 0 <= n <= 1000 ->
    means user_of group_of (U_n_workers v) (A_n_workers (Z.to_N n))
| Q_glib : means user_of group_of (U_backend (lit "glib")) (A_backend GLIB)
| Q_libev : means user_of group_of (U_backend (lit "libev")) (A_backend LIBEV)
| Q_packet_buffer v n : integer_text v n -> 0 <= n <= G_MAXUINT ->
    means user_of group_of (U_packet_buffer v) (A_packet_buffer (Z.to_N n))
| Q_pid_file v : means user_of group_of (U_pid_file v) (A_pid_file v)
| Q_max_pending v n : integer_text v n -> 0 <= n <= G_MAXUINT ->
    means user_of group_of (U_max_pending v) (A_max_pending (Z.to_N n)).

(** The value given, or the other one. *)
Definition given {A : Type} (o : option A) (other : A) : A := match o with Some v => v | None => other end.
