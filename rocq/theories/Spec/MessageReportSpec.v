(** What the report of a processed message should contain, read off the history of the context:
    only from what was called and what was passed on since the report before. *)
From Verif.Base Require Import Bytes.
From Verif.Model Require Import CommandCodec ReplyCodec Headers Server.
Local Open Scope N_scope.

(** What happened to the message so far, in order.  Histories are latest first; a message starts
    after the report of the one before it or after its data were dropped. *)
Fixpoint episode (t : list event) : list event :=
  match t with
  | [] => []
  | Processed _ :: _ | In (Call AReset) :: _ => []
  | e :: t' => episode t' ++ [e]
  end.

(** The last sender named. *)
Fixpoint sender (es : list event) : option bytes :=
  match es with
  | [] => None
  | In (Call (AFrom f)) :: es' => match sender es' with Some g => Some g | None => Some f end
  | _ :: es' => sender es'
  end.

(** The headers handed over. *)
Definition header_given (e : event) : list header :=
  match e with
  | In (Call (AHeader n v)) => [mk_header n (Some v)]
  | _ => []
  end.

(** The length of the body handed over. *)
Definition bytes_given (e : event) : N :=
  match e with
  | In (Call (ABody b)) | In (Call (AEndOfMessage (Some b))) => N.of_nat (length b)
  | _ => 0
  end.
Fixpoint total (es : list event) : N :=
  match es with
  | [] => 0
  | e :: es' => bytes_given e + total es'
  end.

(** Headers the filter added, inserted or gave a new value; those it removed; its wish for
    quarantine.  Only what was passed on counts. *)
Definition header_added (e : event) : list header :=
  match e with
  | Forward (RAddHeader n v) => [mk_header n (Some v)]
  | Forward (RInsertHeader _ n v) => [mk_header n v]
  | Forward (RChangeHeader n _ v) => [mk_header n (Some v)]
  | _ => []
  end.
Definition header_removed (e : event) : list header :=
  match e with
  | Forward (RDeleteHeader n _) => [mk_header n None]
  | _ => []
  end.
Definition asks_quarantine (e : event) : bool :=
  match e with
  | Forward (RQuarantine _) => true
  | _ => false
  end.
