(** milter-test-server: the options that do not make the message, and the plan they give. *)
From Verif.Base Require Import Bytes.
From Verif.Model Require Import CommandCodec Macros TestMessage TestServer.
From Coq Require Import QArith.
Local Open Scope N_scope.

(** *** Macros *)

(** 1694-1711, add_macro_values. *)
Definition add_values (t : table) (l : list (bytes * bytes)) : table :=
  fold_left (fun t nv => insert t (fst nv) (snd nv)) l t.

(** 1719-1794, pre_add_default_*_macros.  [program_name] is the name of the program. *)
Definition default_values (program_name : bytes) (c : byte) : list (bytes * bytes) :=
  if beqb c "C" then [(lit "{daemon_name}", program_name); (lit "{if_name}", lit "localhost");
                      (lit "{if_addr}", lit "127.0.0.1"); (lit "j", lit "mail.example.com")]
  else if beqb c "H" then [(lit "{tls_version}", lit "0"); (lit "{cipher}", lit "0");
                           (lit "{cipher_bits}", lit "0"); (lit "{cert_subject}", lit "cert_subject");
                           (lit "{cert_issuer}", lit "cert_issuer")]
  else if beqb c "M" then [(lit "{mail_mailer}", lit "mail_mailer"); (lit "{mail_host}", lit "mail_host");
                           (lit "{mail_addr}", lit "mail_addr")]
  else if beqb c "R" then [(lit "{rcpt_mailer}", lit "rcpt_mailer"); (lit "{rcpt_host}", lit "rcpt_host")]
  else if beqb c "T" || beqb c "N" || beqb c "E" then [(lit "i", lit "i")]
  else [].

(** 1032-1056, parse_macro_arg: g_strsplit of an empty string has one element only, and the second is
    looked at. *)
Definition parse_macro (t : table) (text : bytes) : outcome table :=
  match text with
  | [] => Crashed
  | _ :: _ =>
      match cut ":" text with
      | Some (name, value) => Done (insert t name value)
      | None => Invalid
      end
  end.

(** *** Timeouts, 72-76 *)

Record timeouts := mk_timeouts {
  to_connection : Q;
  to_writing : Q;
  to_reading : Q;
  to_end_of_message : Q
}.
(** milter-server-context.h:59-80. *)
Definition default_timeouts : timeouts := mk_timeouts 300 10 10 300.

(** *** Options *)

(** The options of option_entries, 1510-1620, with their arguments; [OMacro c] is the one for the
    macros of stage [c].  Numbers are those that GLib makes of the text; the address is the one that
    milter_connection_parse_spec gives. *)
Inductive timeout_option := ConnectionTimeout | ReadingTimeout | WritingTimeout | EndOfMessageTimeout | AllTimeouts.
Inductive opt :=
| OMessage (a : arg)
| OMacro (c : byte) (text : bytes)
| OAuthenticatedName (name : bytes)
| OAuthenticatedType (type : bytes)
| OAuthenticatedAuthor (author : bytes)
| OTimeout (t : timeout_option) (seconds : Q)
| OVersion (version : N)
| OConnectHost (host : bytes)
| OConnectAddress (a : address)
| OHelo (fqdn : bytes)
| OUnknown (command : bytes).

(** The global variables, 46-76; [st_all] is -1 when not given. *)
Record settings := mk_settings {
  st_message : options;
  st_macros : byte -> table;
  st_name : option bytes;
  st_type : option bytes;
  st_author : option bytes;
  st_timeouts : timeouts;
  st_all : Q;
  st_version : N;
  st_host : option bytes;
  st_address : option address;
  st_helo : option bytes;
  st_unknown : option bytes
}.

(** pre_option_parse, 1796-1822. *)
Definition settings_new (program_name : bytes) : settings :=
  mk_settings no_options (fun c => add_values [] (default_values program_name c)) None None None
              default_timeouts (-1) 6 None None None None.

Definition st_put_message s x := mk_settings x (st_macros s) (st_name s) (st_type s) (st_author s) (st_timeouts s) (st_all s) (st_version s) (st_host s) (st_address s) (st_helo s) (st_unknown s).
Definition st_put_macros s x := mk_settings (st_message s) x (st_name s) (st_type s) (st_author s) (st_timeouts s) (st_all s) (st_version s) (st_host s) (st_address s) (st_helo s) (st_unknown s).
Definition st_put_auth s x y z := mk_settings (st_message s) (st_macros s) x y z (st_timeouts s) (st_all s) (st_version s) (st_host s) (st_address s) (st_helo s) (st_unknown s).
Definition st_put_timeouts s x y := mk_settings (st_message s) (st_macros s) (st_name s) (st_type s) (st_author s) x y (st_version s) (st_host s) (st_address s) (st_helo s) (st_unknown s).
Definition st_put_version s x := mk_settings (st_message s) (st_macros s) (st_name s) (st_type s) (st_author s) (st_timeouts s) (st_all s) x (st_host s) (st_address s) (st_helo s) (st_unknown s).
Definition st_put_connect s x y := mk_settings (st_message s) (st_macros s) (st_name s) (st_type s) (st_author s) (st_timeouts s) (st_all s) (st_version s) x y (st_helo s) (st_unknown s).
Definition st_put_texts s x y := mk_settings (st_message s) (st_macros s) (st_name s) (st_type s) (st_author s) (st_timeouts s) (st_all s) (st_version s) (st_host s) (st_address s) x y.

(** 1601-1615: --end-of-message-timeout sets writing_timeout. *)
Definition take_timeout (s : settings) (t : timeout_option) (v : Q) : settings :=
  let o := st_timeouts s in
  match t with
  | ConnectionTimeout =>
      st_put_timeouts s (mk_timeouts v (to_writing o) (to_reading o) (to_end_of_message o)) (st_all s)
  | ReadingTimeout =>
      st_put_timeouts s (mk_timeouts (to_connection o) (to_writing o) v (to_end_of_message o)) (st_all s)
  | WritingTimeout | EndOfMessageTimeout =>
      st_put_timeouts s (mk_timeouts (to_connection o) v (to_reading o) (to_end_of_message o)) (st_all s)
  | AllTimeouts => st_put_timeouts s o v
  end.

Definition take (s : settings) (o : opt) : outcome settings :=
  match o with
  | OMessage a => bind (take_arg (st_message s) a) (fun m => Done (st_put_message s m))
  | OMacro c text =>
      bind (parse_macro (st_macros s c) text) (fun t =>
      Done (st_put_macros s (fun c' => if beqb c' c then t else st_macros s c')))
  | OAuthenticatedName x => Done (st_put_auth s (Some x) (st_type s) (st_author s))
  | OAuthenticatedType x => Done (st_put_auth s (st_name s) (Some x) (st_author s))
  | OAuthenticatedAuthor x => Done (st_put_auth s (st_name s) (st_type s) (Some x))
  | OTimeout t v => Done (take_timeout s t v)
  | OVersion v => Done (st_put_version s v)
  | OConnectHost x => Done (st_put_connect s (Some x) (st_address s))
  | OConnectAddress x => Done (st_put_connect s (st_host s) (Some x))
  | OHelo x => Done (st_put_texts s (Some x) (st_unknown s))
  | OUnknown x => Done (st_put_texts s (st_helo s) (Some x))
  end.
Fixpoint take_all (s : settings) (l : list opt) : outcome settings :=
  match l with
  | [] => Done s
  | o :: l' => bind (take s o) (fun s' => take_all s' l')
  end.

(** 1834-1849, post_apply_options_to_envelope_from_macros. *)
Definition given {A} (name : bytes) (x : option A) : list (bytes * A) :=
  match x with Some v => [(name, v)] | None => [] end.
Definition authenticated (s : settings) : list (bytes * bytes) :=
  given (lit "{auth_authen}") (st_name s) ++ given (lit "{auth_type}") (st_type s) ++
  given (lit "{auth_author}") (st_author s).

(** 272-276: 192.168.123.123, port 50443. *)
Definition default_address : address :=
  AInet (byte_of 197, byte_of 11) (map byte_of [192; 168; 123; 123]).

(** 1908-1953, post_option_parse, and 248-283. *)
Definition plan_of (s : settings) : plan :=
  mk_plan (match st_host s with Some h => h | None => lit "mx.example.net" end)
          (match st_address s with Some a => a | None => default_address end)
          (match st_helo s with Some h => h | None => lit "delian" end)
          (st_unknown s)
          (fun c => if beqb c "M" then add_values (st_macros s c) (authenticated s) else st_macros s c)
          (st_version s) (finish (st_message s)).

(** 2309-2326, setup_context: the timeouts of the context. *)
Definition context_timeouts (s : settings) : timeouts :=
  if Qle_bool 0 (st_all s) then mk_timeouts (st_all s) (st_all s) (st_all s) (st_all s)
  else st_timeouts s.

(** The program's command line. *)
Definition parse_options (program_name : bytes) (l : list opt) : outcome settings :=
  take_all (settings_new program_name) l.
