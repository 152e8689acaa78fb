(** What applicable conditions are for: which commands of a session a filter is told. *)
From Verif.Base Require Import Bytes.
From Verif.Model Require Import CommandCodec Macros Conditions.
Import List.

Section Spec.
  Context {E : Type}.

  (** What the stoppers of a condition are given with a command. *)
  Inductive called_with (k : condition E) (c : command) : list argument -> Prop :=
  | called_plainly : c_stage c <> AtBody -> c_stage c <> AtEnd -> called_with k c (c_arguments c)
  | called_body : c_stage c = AtBody -> called_with k c (Text (k_name k) :: c_arguments c)
  | called_end : c_stage c = AtEnd -> called_with k c [].

  (** The stoppers that a command concerns, with what they are given, in order: condition after condition,
      for each in the order of definition. *)
  Inductive of_stage (s : stage) : list (stage * stopper E) -> list (stopper E) -> Prop :=
  | of_nil : of_stage s [] []
  | of_this p l ps : of_stage s l ps -> of_stage s ((s, p) :: l) (p :: ps)
  | of_other s' p l ps : s' <> s -> of_stage s l ps -> of_stage s ((s', p) :: l) ps.
  Inductive questions (c : command) : list (condition E) -> list (stopper E * list argument) -> Prop :=
  | questions_nil : questions c [] []
  | questions_cons k ks args ps qs :
      called_with k c args -> of_stage (c_stage c) (k_stoppers k) ps -> questions c ks qs ->
      questions c (k :: ks) (map (fun p => (p, args)) ps ++ qs).

  (** The questions are asked one after another, each with what those before have left in the macros;
      [answers]: what was said. *)
  Inductive answered (e : E) : pagent -> list (stopper E * list argument) -> list answer -> pagent -> Prop :=
  | answered_nil a : answered e a [] [] a
  | answered_cons a p args r qs rs a1 a2 :
      p e a args = (a1, r) -> answered e a1 qs rs a2 -> answered e a ((p, args) :: qs) (r :: rs) a2.

  (** What a session has been so far: the commands with what became of them, oldest first. *)
  Inductive seen := SCommand (e : E) (c : command) (o : outcome) | SAbort.
  Inductive recorded : list (event E) -> list outcome -> list seen -> Prop :=
  | recorded_nil : recorded [] [] []
  | recorded_macros s t l os h : recorded l os h -> recorded (EMacros s t :: l) os h
  | recorded_command e c o l os h : recorded l os h -> recorded (ECommand e c :: l) (o :: os) (SCommand e c o :: h)
  | recorded_abort l os h : recorded l os h -> recorded (EAbort :: l) os (SAbort :: h).

  (** The filter was stopped at CONNECT or HELO: it has left the session. *)
  Definition gone (h : list seen) : Prop :=
    exists e c, In (SCommand e c Stopped) h /\ (c_stage c = AtConnect \/ c_stage c = AtHelo).
  Definition of_content (s : stage) : Prop :=
    s = AtData \/ s = AtHeader \/ s = AtEndOfHeader \/ s = AtBody \/ s = AtEnd.
  (** What ends the filter's part in a message. *)
  Definition closes (x : seen) : Prop :=
    x = SAbort \/ exists e c, x = SCommand e c Stopped /\ of_content (c_stage c).
  (** It was told a MAIL and its part in the message has not ended. *)
  Definition in_message (h : list seen) : Prop :=
    exists h1 e c t h2, h = h1 ++ SCommand e c (Told t) :: h2 /\ c_stage c = AtFrom /\ Forall (fun x => ~ closes x) h2.
  Definition takes_part (h : list seen) (s : stage) : Prop :=
    ~ gone h /\ (s = AtConnect \/ s = AtHelo \/ s = AtFrom \/ in_message h).

  (** The stoppers go by the command and the environment alone. *)
  Definition steady (ks : list (condition E)) : Prop :=
    forall k s p, In k ks -> In (s, p) (k_stoppers k) -> forall e a a' args, snd (p e a args) = snd (p e a' args).
  (** One of the stoppers says that the filter shall not be told. *)
  Definition objects (ks : list (condition E)) (e : E) (c : command) : Prop :=
    exists k p args, In k ks /\ In (c_stage c, p) (k_stoppers k) /\ called_with k c args /\ forall a, snd (p e a args) = Yes.

  (** ** Definitions *)

  (** The stoppers of the last definition of a condition. *)
  Definition defined_last (l : list (definition E)) (n : bytes) (ps : list (stage * stopper E)) : Prop :=
    exists l1 l2, l = l1 ++ DefineCondition n ps :: l2 /\ forall ps', ~ In (DefineCondition n ps') l2.
  (** The conditions that names stand for. *)
  Definition stand_for (l : list (definition E)) (names : list bytes) (ks : list (condition E)) : Prop :=
    Forall2 (fun n k => exists ps, defined_last l n ps /\ k = mk_condition n ps) names ks.
  (** What the changes in a block make of the conditions of a filter, after the definitions [l]. *)
  Inductive amended (l : list (definition E)) : list (condition E) -> list change -> list (condition E) -> Prop :=
  | amended_nil ks : amended l ks [] ks
  | amended_set ks names new cs ks' : stand_for l names new -> amended l new cs ks' ->
      amended l ks (SetConditions names :: cs) ks'
  | amended_append ks names new cs ks' : stand_for l names new -> amended l (ks ++ new) cs ks' ->
      amended l ks (AppendConditions names :: cs) ks'
  | amended_add ks n new cs ks' : stand_for l [n] [new] -> amended l (ks ++ [new]) cs ks' ->
      amended l ks (AddCondition n :: cs) ks'.
  (** The filter [m] is not defined: it never was, or not since it was removed. *)
  Definition absent (m : bytes) (l : list (definition E)) : Prop :=
    (forall cs, ~ In (DefineMilter m cs) l) \/
    exists l1 l2, l = l1 ++ RemoveMilter m :: l2 /\ forall cs, ~ In (DefineMilter m cs) l2.
  (** The conditions of the filter [m] after the definitions [l]. *)
  Inductive has_conditions (m : bytes) : list (definition E) -> list (condition E) -> Prop :=
  | has_new l cs ks : absent m l -> amended l [] cs ks -> has_conditions m (l ++ [DefineMilter m cs]) ks
  | has_more l before cs ks : has_conditions m l before -> amended l before cs ks ->
      has_conditions m (l ++ [DefineMilter m cs]) ks
  | has_still l d ks : has_conditions m l ks -> (forall cs, d <> DefineMilter m cs) -> d <> RemoveMilter m ->
      has_conditions m (l ++ [d]) ks.
End Spec.
