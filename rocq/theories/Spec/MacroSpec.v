(** What a macro lookup must answer, in terms of the history of calls, newest call first. *)
From Verif.Base Require Import Bytes.
From Verif.Model Require Import CommandCodec ReplyCodec Macros.

(** The stages of a session in order. *)
Definition session_stages : list byte := ["C"; "H"; "M"; "R"; "T"; "L"; "N"; "B"; "E"]%char.
(** Those that belong to one message. *)
Definition message_stages : list byte := ["M"; "R"; "T"; "L"; "N"; "B"; "E"]%char.

(** A call that decides the value of macro [n] of stage [c]. *)
Definition touches (o : macro_op) (c : byte) (n : bytes) : Prop :=
  match o with
  | ODefine c' _ => c' = c
  | OSet c' n' _ => c' = c /\ n' = n
  | OSetMany c' l => c' = c /\ In n (map fst l)
  | OClear c' => c' = c
  | OClearMessage => In c message_stages
  | OContext _ | OGet _ => False
  end.

(** [latest h c n v]: the newest call of [h] that touches macro [n] of stage [c] gave it [v]. *)
Inductive latest : list macro_op -> byte -> bytes -> bytes -> Prop :=
| latest_define t h c n v : In (n, v) t -> latest (ODefine c t :: h) c n v
| latest_set h c n v : latest (OSet c n (Some v) :: h) c n v
| latest_set_many before after h c n v :
    ~ In n (map fst after) -> latest (OSetMany c (before ++ (n, Some v) :: after) :: h) c n v
| latest_older o h c n v : ~ touches o c n -> latest h c n v -> latest (o :: h) c n v.

(** The current stage: unknown until one is set. *)
Inductive current_stage : list macro_op -> byte -> Prop :=
| current_new : current_stage [] "U"%char
| current_set c h : current_stage (OContext c :: h) c
| current_older o h c : (forall c', o <> OContext c') -> current_stage h c -> current_stage (o :: h) c.

(** The stages not after [c]; all of them when [c] is no stage of a session. *)
Inductive not_after : byte -> list byte -> Prop :=
| not_after_stage c before after :
    session_stages = before ++ c :: after -> not_after c (before ++ [c])
| not_after_other c : ~ In c session_stages -> not_after c session_stages.

(** [visible h n v]: the latest stage not after the current one that has macro [n] gives [v]. *)
Definition visible (h : list macro_op) (n v : bytes) : Prop :=
  exists c before stage after,
    current_stage h c /\ not_after c (before ++ stage :: after) /\ latest h stage n v /\
    forall later v', In later after -> ~ latest h later n v'.

(** The answer to a lookup: the name itself first, then the name without its braces. *)
Inductive answer (h : list macro_op) : bytes -> option bytes -> Prop :=
| answer_name n v : visible h n v -> answer h n (Some v)
| answer_bare n v :
    (forall v', ~ visible h ("{"%char :: n ++ ["}"%char]) v') -> visible h n v ->
    answer h ("{"%char :: n ++ ["}"%char]) (Some v)
| answer_none name :
    (forall v, ~ visible h name v) ->
    (forall n v, name = "{"%char :: n ++ ["}"%char] -> ~ visible h n v) ->
    answer h name None.

(** A hash table has each key once. *)
Definition is_table (o : macro_op) : Prop :=
  match o with ODefine _ t => NoDup (map fst t) | _ => True end.

(** Histories in which some call other than a lookup follows every set-macros. *)
Inductive settled : list macro_op -> Prop :=
| settled_new : settled []
| settled_get n h : settled h -> settled (OGet n :: h)
| settled_other o h : (forall c l, o <> OSetMany c l) -> (forall n, o <> OGet n) -> settled (o :: h).

(** *** Macro requests *)

(** [requested r c s]: symbol [s] is requested for command [c]. *)
Definition requested (r : requests) (c : byte) (s : bytes) : Prop :=
  exists l, get_symbols r c = Some l /\ In s l.

(** Each command once and no symbol twice. *)
Definition each_once (r : requests) : Prop :=
  NoDup (map fst r) /\ forall c l, get_symbols r c = Some l -> NoDup l.
