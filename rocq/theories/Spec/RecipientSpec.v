(** Where the recipients of a message should be listed, read off the history of the context.
    Histories are latest first; a message starts after the report of the one before it or after
    its data were dropped. *)
From Verif.Base Require Import Bytes.
From Verif.Model Require Import CommandCodec ReplyCodec Status Server.
From Verif.Spec Require Import ServerSpec MessageReportSpec.
Local Open Scope N_scope.

(** The recipients named, in order. *)
Definition recipient_named (e : event) : list bytes :=
  match e with
  | In (Call (ARcpt r)) => [r]
  | _ => []
  end.
Definition named_in (t : list event) : list bytes := flat_map recipient_named (episode t).

(** Does reply [a] refuse a recipient?  Only at the stage of recipients. *)
Definition refuses (t : list event) (a : reply) : option status :=
  match stage t with
  | XRcpt => refusal a
  | _ => None
  end.

(** Whom a refusal is about: the recipient named last, if it was not refused since. *)
Fixpoint whom (t : list event) : option bytes :=
  match t with
  | [] => None
  | In (Call (ARcpt r)) :: _ => Some r
  | In (Receive a) :: t' =>
      match refuses t' a with
      | Some _ => None
      | None => whom t'
      end
  | _ :: t' => whom t'
  end.

(** Those refused with status [v] in this message, in order. *)
Fixpoint refused (v : status) (t : list event) : list (option bytes) :=
  match t with
  | [] => []
  | Processed _ :: _ | In (Call AReset) :: _ => []
  | In (Receive a) :: t' =>
      match refuses t' a with
      | Some v' => if status_eqb v' v then refused v t' ++ [whom t'] else refused v t'
      | None => refused v t'
      end
  | _ :: t' => refused v t'
  end.

Fixpoint known (l : list (option bytes)) : list bytes :=
  match l with
  | [] => []
  | Some r :: l' => r :: known l'
  | None :: l' => known l'
  end.

(** No recipient is refused in this message before one was named in it. *)
Fixpoint orderly (t : list event) : Prop :=
  match t with
  | [] => True
  | Processed _ :: _ | In (Call AReset) :: _ => True
  | In (Receive a) :: t' => (refuses t' a = None \/ named_in t' <> []) /\ orderly t'
  | _ :: t' => orderly t'
  end.

(** How often [r] occurs in [l]. *)
Definition times (r : bytes) (l : list bytes) : nat := length (filter (bytes_eqb r) l).
