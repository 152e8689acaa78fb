(** What the options of milter-test-server mean: of options for one thing the last counts. *)
From Verif.Base Require Import Bytes.
From Verif.Model Require Import Headers TestOptions.
From Coq Require Import QArith.
From Verif.Model Require TestMessage.
From Verif.Spec Require Import MailSpec HeaderSpec ReportSpec.

(** The value of the last element of [l] that gives one. *)
Fixpoint last_given {A B} (f : A -> option B) (l : list A) : option B :=
  match l with
  | [] => None
  | x :: l' => match last_given f l' with Some y => Some y | None => f x end
  end.

(** *** Options for the message *)

(** A mail file with its line ends, mailbox mark, fields and body, and the paths in its From and To
    fields. *)
Inductive source :=
| SFrom (address : bytes)
| SRecipient (address : bytes)
| SHeader (name value : bytes)
| SBody (chunk : bytes)
| SMail (nl mark : bytes) (fields : list field) (body : bytes) (froms tos : list bytes).

Definition source_ok (s : source) : Prop :=
  match s with
  | SFrom _ | SRecipient _ | SBody _ => True
  | SHeader name _ => ~ In ":"%char name
  | SMail nl mark fields body froms tos =>
      line_end nl /\ mailbox_mark mark /\ Forall field_ok fields /\ ~ In NUL body /\
      paths nl (lit "From") fields froms /\ paths nl (lit "To") fields tos
  end.

(** A file with a sender does not stand between two senders given otherwise. *)
Definition sends (s : source) : Prop :=
  match s with SMail _ _ _ _ (_ :: _) _ => True | _ => False end.
Definition senders_apart (l : list source) : Prop :=
  forall a b c x y, l = a ++ SFrom x :: b ++ SFrom y :: c -> Forall (fun s => ~ sends s) b.

Definition sender_in (s : source) : option bytes :=
  match s with
  | SFrom a => Some a
  | SMail _ _ _ _ (p :: ps) _ => Some (last ps p)
  | _ => None
  end.

(** Recipients given one by one, or those of a file. *)
Inductive several (A : Type) := OneByOne | AtOnce (l : A).
Arguments OneByOne {A}.
Arguments AtOnce {A}.
Definition recipients_in (s : source) : option (several (list bytes)) :=
  match s with
  | SRecipient _ => Some OneByOne
  | SMail _ _ _ _ _ (p :: ps) => Some (AtOnce (p :: ps))
  | _ => None
  end.
Definition recipient_in (s : source) : list bytes := match s with SRecipient a => [a] | _ => [] end.
Definition recipients_given (l : list source) : list bytes :=
  match last_given recipients_in l with
  | Some (AtOnce ps) => ps
  | Some OneByOne => flat_map recipient_in l
  | None => [lit "receiver@example.org"]
  end.

Definition body_in (s : source) : option (several bytes) :=
  match s with
  | SBody _ => Some OneByOne
  | SMail _ _ _ body _ _ => Some (AtOnce body)
  | _ => None
  end.
Definition chunk_in (s : source) : list bytes := match s with SBody c => [c] | _ => [] end.

(** The headers: one given by an option goes where an added header goes, those of a file go to the
    end. *)
Inductive gathers : list header -> list source -> list header -> Prop :=
| GathersNone hs : gathers hs [] hs
| GathersHeader hs name value hs1 l hs' :
    added name (Some value) hs hs1 -> gathers hs1 l hs' -> gathers hs (SHeader name value :: l) hs'
| GathersMail hs nl mark fields body froms tos l hs' :
    gathers (hs ++ map (fun f => mk_header (f_name f) (Some (field_value nl f))) fields) l hs' ->
    gathers hs (SMail nl mark fields body froms tos :: l) hs'
| GathersOther hs s l hs' :
    match s with SFrom _ | SRecipient _ | SBody _ => True | _ => False end ->
    gathers hs l hs' -> gathers hs (s :: l) hs'.

(** [h] is added when there is none of its name. *)
Definition with_field (h : header) (hs hs' : list header) : Prop :=
  (exists x, In x hs /\ h_name x = h_name h) /\ hs' = hs \/
  (forall x, In x hs -> h_name x <> h_name h) /\ hs' = hs ++ [h].

Definition the_default_body : bytes :=
  lit "La de da de da 1." ++ [lf] ++ lit "La de da de da 2." ++ [lf] ++
  lit "La de da de da 3." ++ [lf] ++ lit "La de da de da 4.".

(** *** Macros *)

(** The option that sets macro [n] of stage [c] to [v]. *)
Definition sets (c : byte) (n v : bytes) : opt := OMacro c (n ++ lit ":" ++ v).
(** [v] is the value set last. *)
Definition set_last (l : list opt) (c : byte) (n v : bytes) : Prop :=
  exists a b, l = a ++ sets c n v :: b /\ forall w, ~ In (sets c n w) b.

(** What is there without any option: connect, helo, MAIL, RCPT, data, end of header, end of message. *)
Definition usual_macros (program_name : bytes) : list (byte * bytes * bytes) :=
  [("C"%char, lit "{daemon_name}", program_name); ("C"%char, lit "{if_name}", lit "localhost");
   ("C"%char, lit "{if_addr}", lit "127.0.0.1"); ("C"%char, lit "j", lit "mail.example.com");
   ("H"%char, lit "{tls_version}", lit "0"); ("H"%char, lit "{cipher}", lit "0");
   ("H"%char, lit "{cipher_bits}", lit "0"); ("H"%char, lit "{cert_subject}", lit "cert_subject");
   ("H"%char, lit "{cert_issuer}", lit "cert_issuer");
   ("M"%char, lit "{mail_mailer}", lit "mail_mailer"); ("M"%char, lit "{mail_host}", lit "mail_host");
   ("M"%char, lit "{mail_addr}", lit "mail_addr");
   ("R"%char, lit "{rcpt_mailer}", lit "rcpt_mailer"); ("R"%char, lit "{rcpt_host}", lit "rcpt_host");
   ("T"%char, lit "i", lit "i"); ("N"%char, lit "i", lit "i"); ("E"%char, lit "i", lit "i")].

(** The options for authentication and their macros. *)
Definition auth_name (o : opt) : option bytes := match o with OAuthenticatedName x => Some x | _ => None end.
Definition auth_type (o : opt) : option bytes := match o with OAuthenticatedType x => Some x | _ => None end.
Definition auth_author (o : opt) : option bytes := match o with OAuthenticatedAuthor x => Some x | _ => None end.
Definition auth_macro (l : list opt) (n v : bytes) : Prop :=
  n = lit "{auth_authen}" /\ last_given auth_name l = Some v \/
  n = lit "{auth_type}" /\ last_given auth_type l = Some v \/
  n = lit "{auth_author}" /\ last_given auth_author l = Some v.

(** Macro [n] of stage [c] is [v]: options for authentication come first, then those for macros, then
    what is there without. *)
Definition macro_given (program_name : bytes) (l : list opt) (c : byte) (n v : bytes) : Prop :=
  (c = "M"%char /\ auth_macro l n v) \/
  ((c = "M"%char -> forall w, ~ auth_macro l n w) /\
   (set_last l c n v \/
    (forall w, ~ In (sets c n w) l) /\ In (c, n, v) (usual_macros program_name))).

(** *** Other options *)

Definition message_args (l : list opt) : list TestMessage.arg :=
  flat_map (fun o => match o with OMessage a => [a] | _ => [] end) l.
Definition host_in (o : opt) := match o with OConnectHost x => Some x | _ => None end.
Definition address_in (o : opt) := match o with OConnectAddress x => Some x | _ => None end.
Definition helo_in (o : opt) := match o with OHelo x => Some x | _ => None end.
Definition unknown_in (o : opt) := match o with OUnknown x => Some x | _ => None end.
Definition version_in (o : opt) := match o with OVersion x => Some x | _ => None end.
Definition or_default {A} (d : A) (x : option A) : A := match x with Some a => a | None => d end.

Definition seconds_in (kind : timeout_option) (o : opt) : option Q :=
  match o, kind with
  | OTimeout ConnectionTimeout x, ConnectionTimeout | OTimeout ReadingTimeout x, ReadingTimeout
  | OTimeout WritingTimeout x, WritingTimeout | OTimeout EndOfMessageTimeout x, EndOfMessageTimeout
  | OTimeout AllTimeouts x, AllTimeouts => Some x
  | _, _ => None
  end.
