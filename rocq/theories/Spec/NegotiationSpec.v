(** The negotiation: what the MTA offers, what the filters answer, what the MTA is told. *)
From Verif.Base Require Import Bytes.
From Verif.Model Require Import Decoder CommandCodec ReplyCodec Status Option Server Children.
Local Open Scope N_scope.

(** Every bit of [a] is one of [b]. *)
Definition within (a b : N) : Prop := forall n, N.testbit a n = true -> N.testbit b n = true.

(** Traces are newest first: the last offer of the MTA and what happened after it. *)
Fixpoint since_offer (t : list event) : option (moption * list event) :=
  match t with
  | [] => None
  | OIn (Mta (CNegotiate o)) :: _ => Some (o, [])
  | e :: t' => option_map (fun p => (fst p, e :: snd p)) (since_offer t')
  end.
(** The answers of the filters to their negotiation. *)
Definition heard (t : list event) : list moption :=
  flat_map (fun e => match e with OIn (KReply _ (RNegotiate a _)) => [a] | _ => [] end) t.
(** Nothing has been answered yet, by a filter or to the MTA. *)
Definition unanswered (t : list event) : bool :=
  forallb (fun e => match e with
                    | OIn (KReply _ (RNegotiate _ _)) | ONegotiate _ _ => false
                    | _ => true
                    end) t.

(** The steps by which a filter declines commands; those that have to be offered and wanted. *)
Definition declining (n : N) : bool :=
  match n with 0 | 1 | 2 | 3 | 4 | 5 | 6 | 8 | 9 => true | _ => false end.
Definition wanted_step (n : N) : bool := match n with 10 | 11 | 20 => true | _ => false end.

(** The answer [a] given after [earlier]. *)
Record fair (earlier : list event) (o : moption) (since : list event) (a : moption) : Prop := {
  fair_version : o_version a = N.min (o_version o) 6;
  fair_actions : forall n, N.testbit (o_action a) n = true ->
    N.testbit (o_action o) n = true \/
    exists h, List.In h (heard since) /\ N.testbit (o_action h) n = true;
  fair_offered : within (o_action o) (o_action a);
  fair_steps : within (o_step a) (o_step o);
  fair_declining : forall n, declining n = true -> N.testbit (o_step a) n = false;
  fair_wanted : forall n, wanted_step n = true -> N.testbit (o_step a) n = true ->
    exists h, List.In h (heard earlier) /\ N.testbit (o_step h) n = true
}.
