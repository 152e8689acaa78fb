(** What the conditions that come with milter-manager promise. *)
From Verif.Base Require Import Bytes.
From Verif.Model Require Import CommandCodec Macros Conditions.
Import List.
Local Open Scope N_scope.

Definition connect_of (host : bytes) (x : address) : command := mk_command AtConnect [Text host; Address x].
Definition mail_of (from : bytes) : command := mk_command AtFrom [Text from].
Definition recipient_of (r : bytes) : command := mk_command AtRecipient [Text r].
Definition data_command : command := mk_command AtData [].

Section Spec.
  Context {E : Type}.
  (** A filter that has not left the session is stopped by the command, whatever has happened before; or told
      it. *)
  Definition turned_away (ks : list (condition E)) (e : E) (c : command) : Prop :=
    forall f, c_quitted f = false -> snd (tell ks f e c) = Stopped.
  Definition let_in (ks : list (condition E)) (e : E) (c : command) : Prop :=
    forall f, c_quitted f = false -> exists t, snd (tell ks f e c) = Told t.

  (** The macros that the MTA gave last for a stage; those of a message until it is aborted. *)
  Definition of_session (s : stage) : Prop := s = AtConnect \/ s = AtHelo.
  Inductive mta_gave (s : stage) (t : table) : list (event E) -> Prop :=
  | gave_last l : mta_gave s t (l ++ [EMacros s t])
  | gave_before l x : mta_gave s t l -> (forall t', x <> EMacros s t') -> (x = EAbort -> of_session s) -> mta_gave s t (l ++ [x]).
  Definition hash_tables (l : list (event E)) : Prop := forall s t, In (EMacros s t) l -> NoDup (map fst t).
End Spec.

(** The addresses that are local by themselves: 127.0.0.0/8, 10.0.0.0/8, 172.16.0.0/12, 192.168.0.0/16, ::1 and
    fe80::/10; sockets of the file system. *)
Definition ip4 (a b c d : N) : N := a * 16777216 + b * 65536 + c * 256 + d.
Definition between (lo hi a : N) : Prop := lo <= a <= hi.
Definition local_by_itself (x : address) : Prop :=
  match x with
  | IPv4 a _ => between (ip4 127 0 0 0) (ip4 127 255 255 255) a \/ between (ip4 10 0 0 0) (ip4 10 255 255 255) a \/
      between (ip4 172 16 0 0) (ip4 172 31 255 255) a \/ between (ip4 192 168 0 0) (ip4 192 168 255 255) a
  | IPv6 a _ => a = 1 \/ between (65152 * 2 ^ 112) (65216 * 2 ^ 112 - 1) a
  | UnixPath _ => True
  | UnknownAddress => False
  end.
Definition ip_address (x : address) : Prop := match x with IPv4 _ _ | IPv6 _ _ => True | _ => False end.

(** ** The rules of S25R, in words *)
Definition without (p : byte -> bool) (s : bytes) : Prop := Forall (fun c => p c = false) s.
Definition is_point (c : byte) : bool := beqb c ".".
Definition is_newline (c : byte) : bool := beqb c (byte_of 10).
Definition digits (s : bytes) : Prop := Forall (fun c => is_digit c = true) s.
Definition a_digit (s : bytes) : Prop := exists d, s = [d] /\ is_digit d = true.
Definition ends_with (s host : bytes) : Prop := exists l, host = l ++ s.
Definition trustworthy (host : bytes) : Prop :=
  exists s, In s [lit ".google.com"; lit ".obsmtp.com"; lit ".smtp-out.amazonses.com"; lit ".slack.com";
                  lit ".mg.gitlab.com"; lit ".sendgrid.net"] /\ ends_with s host.
(** A letter in either case, a text in any. *)
Definition same_letters (s lower_case : bytes) : Prop := map lower s = lower_case.
Inductive suspicious (host : bytes) : Prop :=
(** no name: "unknown", or the address in brackets *)
| rule_unknown : host = lit "unknown" -> suspicious host
| rule_brackets s : host = lit "[" ++ s ++ lit "]" -> s <> [] -> without is_newline s -> suspicious host
(** two numbers in the first label, with something between them *)
| rule_two_numbers a d b d' c rest : host = a ++ d ++ b ++ d' ++ c ++ lit "." ++ rest ->
    without is_point a -> a_digit d -> b <> [] -> without is_digit b -> without is_point b -> a_digit d' -> without is_newline c ->
    suspicious host
(** five digits in a row in the first label *)
| rule_five a d rest : host = a ++ d ++ rest -> without is_point a -> digits d -> length d = 5%nat -> suspicious host
(** the first or the second label begins with a digit, and at least three others follow *)
| rule_label first d a b c x rest :
    (first = [] \/ exists l, first = l ++ lit "." /\ l <> [] /\ without is_point l) ->
    host = first ++ d ++ a ++ lit "." ++ b ++ lit "." ++ c ++ lit "." ++ x :: rest ->
    a_digit d -> without is_point a -> b <> [] -> without is_point b -> c <> [] -> without is_newline c ->
    97 <= code (lower x) <= 122 -> suspicious host
(** the first label ends with a digit, the second has a digit on both sides of a hyphen *)
| rule_hyphen a d b d' d'' rest : host = a ++ d ++ lit "." ++ b ++ d' ++ lit "-" ++ d'' ++ rest ->
    without is_point a -> a_digit d -> without is_point b -> a_digit d' -> a_digit d'' -> suspicious host
(** the first two labels end with digits and at least three others follow *)
| rule_ends a d b d' c x rest : host = a ++ d ++ lit "." ++ b ++ d' ++ lit "." ++ c ++ lit "." ++ x ++ lit "." ++ rest ->
    without is_point a -> a_digit d -> without is_point b -> a_digit d' -> c <> [] -> without is_point c ->
    x <> [] -> without is_newline x -> suspicious host
(** it begins with the kind of the line, and a digit follows in the first label *)
| rule_line k a d rest : host = k ++ a ++ d ++ rest ->
    (same_letters k (lit "dhcp") \/ same_letters k (lit "dialup") \/ same_letters k (lit "ppp") \/ same_letters k (lit "dsl") \/
     exists c, In c (lit "achrsvx") /\ same_letters k (c :: lit "dsl")) ->
    without is_point a -> a_digit d -> suspicious host.

(** ** Restricted accounts *)
(** A recipient, and whether the MTA gave macros before it. *)
Definition recipients_of {E} (e : E) (l : list (option table * bytes)) : list (event E) :=
  flat_map (fun p => match fst p with Some t => [EMacros AtRecipient t] | None => [] end ++ [ECommand e (recipient_of (snd p))]) l.
