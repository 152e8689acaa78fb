(** Model of milter/core/milter-connection.c: connection specs. *)
From Verif.Base Require Import Bytes.
Local Open Scope N_scope.

(** A socket address: path, or port in host order and address bytes. *)
Inductive saddr :=
| SUnix (path : bytes)
| SInet (port : N) (ip : bytes)
| SInet6 (port : N) (ip : bytes).

Inductive spec_result :=
| SpecAddress (a : saddr)
| SpecError
| SpecOverflow.   (* strcpy beyond sun_path *)

(** [%d] of a number. *)
Fixpoint decimal_digits (fuel : nat) (n : N) : bytes :=
  match fuel with
  | O => []
  | S fuel' =>
      if n <? 10 then [ascii_of_N (48 + n)]
      else decimal_digits fuel' (n / 10) ++ [ascii_of_N (48 + n mod 10)]
  end.
Definition decimal (n : N) : bytes := decimal_digits (S (N.size_nat n)) n.

(** atoi of the C library (strtol, then a conversion to int) on a text of digits. *)
Definition digits_value (s : bytes) : N := fold_left (fun v c => v * 10 + (code c - 48)) s 0.
Definition atoi (s : bytes) : Z := to_s32 (N.min (digits_value s) 9223372036854775807 mod 4294967296).

Section Connection.
  (** inet_ntop, inet_pton and getaddrinfo; [None] where they fail. *)
  Variables (ntop4 ntop6 : bytes -> bytes) (pton4 pton6 resolve4 resolve6 : bytes -> option bytes).

  (** milter_connection_address_to_spec, milter-connection.c:62-112, for the three families. *)
  Definition address_to_spec (a : saddr) : bytes :=
    match a with
    | SUnix path => lit "unix:" ++ path
    | SInet port ip => lit "inet:" ++ decimal port ++ lit "@[" ++ ntop4 ip ++ lit "]"
    | SInet6 port ip => lit "inet6:" ++ decimal port ++ lit "@[" ++ ntop6 ip ++ lit "]"
    end.

  (** The last byte of a text and what is before it. *)
  Fixpoint split_last (s : bytes) : option (bytes * byte) :=
    match s with
    | [] => None
    | c :: s' => match split_last s' with
                 | None => Some ([], c)
                 | Some (t, d) => Some (c :: t, d)
                 end
    end.

  (** parse_connection_spec_host, milter-connection.c:114-183; for "[" alone the byte before the
      text, which is the bracket, is looked at. *)
  Definition parse_host (pton resolve : bytes -> option bytes) (host : bytes) : option bytes :=
    match host with
    | c :: rest =>
        if beqb c "[" then
          match split_last rest with
          | None => None
          | Some (text, last) => if beqb last "]" then pton text else None
          end
        else resolve host
    | [] => resolve host
    end.

  (** parse_connection_spec_port_and_host, milter-connection.c:185-230: the loop, giving the
      digits passed over and the address. *)
  Fixpoint scan_port (any : bytes) (pton resolve : bytes -> option bytes) (s : bytes) :
      option (bytes * bytes) :=
    match s with
    | [] => Some ([], any)
    | c :: s' =>
        if beqb c "@" then
          match parse_host pton resolve s' with
          | Some ip => Some ([], ip)
          | None => None
          end
        else if is_digit c then
          match scan_port any pton resolve s' with
          | Some (digits, ip) => Some (c :: digits, ip)
          | None => None
          end
        else None
    end.
  Definition parse_port_and_host (any : bytes) (pton resolve : bytes -> option bytes) (s : bytes) :
      option (N * bytes) :=
    match scan_port any pton resolve s with
    | Some (digits, ip) =>
        if (65535 <? atoi digits)%Z then None
        else Some (Z.to_N (atoi digits mod 65536)%Z, ip)     (* g_htons of an int *)
    | None => None
    end.

  Fixpoint has_prefix_then (p s : bytes) : option bytes :=
    match p, s with
    | [], _ => Some s
    | a :: p', b :: s' => if beqb a b then has_prefix_then p' s' else None
    | _ :: _, [] => None
    end.

  Definition any4 : bytes := repeat NUL 4.
  Definition any6 : bytes := repeat NUL 16.

  (** What follows the first colon. *)
  Fixpoint after_colon (s : bytes) : option bytes :=
    match s with
    | [] => None
    | c :: s' => if beqb c ":" then Some s' else after_colon s'
    end.

  (** milter_connection_parse_spec, milter-connection.c:232-345, with the address asked for;
      [sun_path] has 108 bytes. *)
  Definition parse_spec (s : bytes) : spec_result :=
    match after_colon s with
    | None => SpecError
    | Some [] => SpecError
    | Some ((_ :: _) as content) =>
        match has_prefix_then (lit "unix:") s, has_prefix_then (lit "local:") s with
        | None, None =>
            match has_prefix_then (lit "inet:") s with
            | Some _ =>
                match parse_port_and_host any4 pton4 resolve4 content with
                | Some (port, ip) => SpecAddress (SInet port ip)
                | None => SpecError
                end
            | None =>
                match has_prefix_then (lit "inet6:") s with
                | Some _ =>
                    match parse_port_and_host any6 pton6 resolve6 content with
                    | Some (port, ip) => SpecAddress (SInet6 port ip)
                    | None => SpecError
                    end
                | None => SpecError
                end
            end
        | _, _ => if (108 <=? N.of_nat (length content)) then SpecOverflow
                  else SpecAddress (SUnix content)
        end
    end.
End Connection.
