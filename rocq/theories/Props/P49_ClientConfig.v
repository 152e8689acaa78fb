(** The settings of a filter written in Ruby: C119. *)
From Coq Require Import Lia.
From Verif.Base Require Import Bytes BytesFacts.
From Verif.Model Require Import ClientConfig.
From Verif.Spec Require Import ClientConfigSpec.
Import List.
Local Open Scope Z_scope.

Lemma beq_refl s : setting_beq s s = true.
Proof. now destruct s. Qed.
Lemma beq_eq s t : setting_beq s t = true -> s = t.
Proof. apply internal_setting_dec_bl. Qed.
Lemma set_same c s v : set c s v s = v.
Proof. unfold set. now rewrite beq_refl. Qed.
Lemma set_other c s v t : s <> t -> set c s v t = c t.
Proof. intros N. unfold set. destruct (setting_beq s t) eqn:E; [now apply beq_eq in E|reflexivity]. Qed.
Lemma member_in b l : member b l = true <-> In b l.
Proof.
  unfold member. rewrite existsb_exists. split.
  - intros (x & I & E). apply bytes_eqb_eq in E. now subst.
  - intros I. exists b. split; [exact I|apply bytes_eqb_refl].
Qed.
Lemma status_member n : a_status n -> member n statuses = true.
Proof. intros H. apply member_in. unfold statuses. cbn [In]. destruct H as [->|[->|[->| ->]]]; auto 6. Qed.
Lemma backend_member n : a_backend n -> member n backends = true.
Proof. intros H. apply member_in. unfold backends. cbn [In]. destruct H as [->|[->| ->]]; auto 6. Qed.
Lemma letter_is c d : letter_of c d -> (if beqb c "_" then "-"%char else lower c) = d.
Proof.
  intros [x N U|x y L E|].
  - unfold beqb. destruct (Ascii.eqb_spec x "_"); [contradiction|]. unfold lower.
    destruct ((65 <=? code x) && (code x <=? 90))%N eqn:C; [|reflexivity]. exfalso. apply N. apply andb_true_iff in C as [C1 C2].
    apply N.leb_le in C1, C2. lia.
  - unfold beqb. destruct (Ascii.eqb_spec x "_") as [->|U]; [change (Z.of_N (code "_")) with 95 in L; lia|]. unfold lower.
    replace ((65 <=? code x) && (code x <=? 90))%N with true.
    + rewrite <- E. unfold code. apply ascii_N_embedding.
    + symmetry. apply andb_true_iff. split; apply N.leb_le; lia.
  - reflexivity.
Qed.
Lemma spelled t n : spells t n -> normalized t = n.
Proof. intros F. unfold normalized. induction F as [|c d t n C F IH]; [reflexivity|]. cbn [map]. now rewrite (letter_is _ _ C), IH. Qed.

Section Proofs.
  Variables (parses : bytes -> bool) (integer : bytes -> option Z) (facilities : list bytes) (files : bytes -> option (list (setting * value))).

  Lemma means_assign s v w : means parses s v w -> assign parses s v = Stored w.
  Proof.
    intros [s' v' P|s' d n C|s' d C|t P| |t n S A| |n B| ].
    - unfold plain in P. cbn [In] in P. repeat (destruct P as [<-|P]; [reflexivity|]). contradiction.
    - destruct C as [s' I|]; [|reflexivity]. cbn [In] in I. repeat (destruct I as [<-|I]; [reflexivity|]). contradiction.
    - destruct C as [s' I|]; [|reflexivity]. cbn [In] in I. repeat (destruct I as [<-|I]; [reflexivity|]). contradiction.
    - cbn [assign]. now rewrite P.
    - reflexivity.
    - cbn [assign]. now rewrite (spelled _ _ S), (status_member _ A).
    - reflexivity.
    - cbn [assign]. now rewrite (backend_member _ B).
    - reflexivity.
  Qed.
  Definition made (c : settings) (l : list (setting * value)) : settings := fold_left (fun c e => set c (fst e) (snd e)) l c.
  Lemma evaluate_made l l' : Forall2 (entry_means parses) l l' -> forall c, evaluate parses c l = Some (made c l').
  Proof.
    intros F. induction F as [|[s v] [s' v'] l l' [E M] F IH]; intros c; [reflexivity|]. cbn [fst snd] in *. subst s'.
    cbn [evaluate]. rewrite (means_assign _ _ _ M). apply IH.
  Qed.
  Lemma evaluate_app l l' rest : Forall2 (entry_means parses) l l' -> forall c, evaluate parses c (l ++ rest) = evaluate parses (made c l') rest.
  Proof.
    intros F. induction F as [|[s v] [s' v'] l l' [E M] F IH]; intros c; [reflexivity|]. cbn [fst snd] in *. subst s'.
    cbn [evaluate app]. rewrite (means_assign _ _ _ M). apply IH.
  Qed.
  Lemma asks_value s t v : asks integer facilities s t v -> option_value integer facilities s t = Some v.
  Proof.
    intros [s' t' I|t' A|t' B|t' I|t' n E|t' n E L|t' n E L|t' n E L]; cbn [option_value].
    - cbn [In] in I. repeat (destruct I as [<-|I]; [reflexivity|]). contradiction.
    - now rewrite (status_member _ A).
    - now rewrite (backend_member _ B).
    - apply member_in in I. now rewrite I.
    - unfold checked. now rewrite E.
    - unfold checked. rewrite E. apply Z.ltb_lt in L. now rewrite L.
    - unfold checked. rewrite E. apply Z.leb_le in L. now rewrite L.
    - unfold checked. rewrite E. apply Z.ltb_lt in L. now rewrite L.
  Qed.
  Lemma one_made a e c : one parses integer facilities files a e -> argue parses integer facilities files c a = Some (made c e).
  Proof.
    intros [s t v A|s b I|t|p l l' F M]; cbn [argue].
    - now rewrite (asks_value _ _ _ A).
    - cbn [In] in I. repeat (destruct I as [<-|I]; [reflexivity|]). contradiction.
    - reflexivity.
    - unfold load. change (absolute (lit "/" ++ p)) with true. cbv iota. rewrite F. now apply evaluate_made.
  Qed.
  Lemma made_app c l l' : made c (l ++ l') = made (made c l) l'.
  Proof. unfold made. apply fold_left_app. Qed.
  Lemma says_made args e : says parses integer facilities files args e -> forall c, parse parses integer facilities files c args = Some (made c e).
  Proof.
    intros S. induction S as [|a l e e' O S IH]; intros c; [reflexivity|]. cbn [parse]. rewrite (one_made _ _ _ O), IH. now rewrite made_app.
  Qed.
  Lemma made_silent l : forall c s, silent l s -> made c l s = c s.
  Proof.
    induction l as [|[s' v] l IH]; intros c s N; [reflexivity|]. unfold made. cbn [fold_left fst snd]. fold (made (set c s' v) l).
    rewrite IH; [|intros w I; apply (N w); now right]. apply set_other. intros ->. apply (N v). now left.
  Qed.
  Lemma made_last c l s v : last_word l s v -> made c l s = v.
  Proof.
    intros (l1 & l2 & -> & N). rewrite made_app. unfold made at 1. cbn [fold_left fst snd]. fold (made (set (made c l1) s v) l2).
    rewrite made_silent; [apply set_same|exact N].
  Qed.
  Lemma cleared_standard s : cleared s = standard s.
  Proof. now destruct s. Qed.
  Lemma made_wanted l s v : wanted l s v -> made cleared l s = v.
  Proof. intros [L|[N ->]]; [now apply made_last|]. rewrite made_silent by exact N. apply cleared_standard. Qed.

  Variable accepts : setting -> value -> bool.
  Lemma tell_made client l r : tell accepts client l = Some r -> r = made client l.
  Proof.
    revert client. induction l as [|[s v] l IH]; intros client; cbn [tell]; [now intros [= <-]|].
    destruct (accepts s v); [|discriminate]. intros H. now apply IH in H.
  Qed.
  Lemma tell_accepted client l : (forall s v, In (s, v) l -> accepts s v = true) -> tell accepts client l = Some (made client l).
  Proof.
    revert client. induction l as [|[s v] l IH]; intros client A; [reflexivity|]. cbn [tell]. rewrite (A s v) by now left.
    apply IH. intros s' v' I. apply A. now right.
  Qed.
  Lemma run_told fresh args e client : says parses integer facilities files args e -> run parses integer facilities files accepts fresh args = Some client ->
    client = made fresh (told (made cleared e)).
  Proof. intros S. unfold run. rewrite (says_made _ _ S). apply tell_made. Qed.
  (** One call on the client after the other. *)
  Lemma made_given c k x s : made c (given k x) s = if setting_beq k s then x k else c s.
  Proof. reflexivity. Qed.
  Lemma made_when c k x s : made c (when_true k x) s = if setting_beq k s then (if truthy (x k) then x k else c s) else c s.
  Proof. unfold when_true. destruct (truthy (x k)); [reflexivity|]. now destruct (setting_beq k s). Qed.
  Lemma made_switch c k x s : made c (switch_on k x) s = if setting_beq k s then (if truthy (x k) then Bool true else c s) else c s.
  Proof. unfold switch_on. destruct (truthy (x k)); [reflexivity|]. now destruct (setting_beq k s). Qed.
  Lemma made_if c (b : bool) l s : made c (if b then l else []) s = if b then made c l s else c s.
  Proof. now destruct b. Qed.
  Lemma made_one c k v s : made c [(k, v)] s = if setting_beq k s then v else c s.
  Proof. reflexivity. Qed.
  Ltac calls := unfold told; rewrite ?made_app;
    repeat (first [rewrite made_given | rewrite made_when | rewrite made_switch | rewrite made_if | rewrite made_app | rewrite made_one]; cbn [setting_beq]).

  Lemma told_handed fresh c s : handed s -> made fresh (told c) s = c s.
  Proof.
    intros H. unfold handed in H. cbn [In] in H. repeat (destruct H as [<-|H]; [calls; now destruct (nonzero (c MaxDescriptors))|]). contradiction.
  Qed.
  Lemma told_if_any fresh c s : handed_if_any s -> made fresh (told c) s = if truthy (c s) then c s else fresh s.
  Proof.
    intros H. unfold handed_if_any in H. cbn [In] in H.
    repeat (destruct H as [<-|H]; [calls; now destruct (nonzero (c MaxDescriptors)), (truthy (c Syslog))|]). contradiction.
  Qed.
  Lemma told_switch fresh c s : a_switch s -> made fresh (told c) s = if truthy (c s) then Bool true else fresh s.
  Proof.
    intros H. unfold a_switch in H. cbn [In] in H.
    repeat (destruct H as [<-|H]; [calls; now destruct (nonzero (c MaxDescriptors)), (truthy (c Syslog))|]). contradiction.
  Qed.
  Lemma told_unused fresh c s : unused s -> made fresh (told c) s = fresh s.
  Proof.
    intros H. unfold unused in H. cbn [In] in H.
    repeat (destruct H as [<-|H]; [calls; now destruct (nonzero (c MaxDescriptors)), (truthy (c Syslog))|]). contradiction.
  Qed.
  Lemma told_facility fresh c : made fresh (told c) Facility = if truthy (c Syslog) && truthy (c Facility) then c Facility else fresh Facility.
  Proof. calls. now destruct (nonzero (c MaxDescriptors)), (truthy (c Syslog)). Qed.
  Lemma told_descriptors fresh c : made fresh (told c) MaxDescriptors = if nonzero (c MaxDescriptors) then c MaxDescriptors else fresh MaxDescriptors.
  Proof. calls. now destruct (nonzero (c MaxDescriptors)), (truthy (c Syslog)). Qed.
End Proofs.

Lemma wanted_made e s : wanted e s (made cleared e s).
Proof.
  induction e as [|[s' v] e IH] using rev_ind.
  - right. split; [intros w []|apply cleared_standard].
  - rewrite made_app. unfold made at 1. cbn [fold_left fst snd]. fold (made cleared e). destruct (setting_beq s' s) eqn:E.
    + apply beq_eq in E. subst s'. left. rewrite set_same. exists e, []. split; [reflexivity|intros w []].
    + assert (N : s' <> s) by (intros ->; now rewrite beq_refl in E). rewrite set_other by exact N. destruct IH as [(l1 & l2 & Q & S)|[S Q]].
      * left. exists l1, (l2 ++ [(s', v)]). split; [rewrite Q at 1; now rewrite <- app_assoc|]. intros w I. apply in_app_iff in I as [I|[I|[]]]; [now apply (S w)|]. now injection I.
      * right. split; [|exact Q]. intros w I. apply in_app_iff in I as [I|[I|[]]]; [now apply (S w)|]. now injection I.
Qed.
Lemma told_from c s v : In (s, v) (told c) -> v = c s \/ (a_switch s /\ v = Bool true).
Proof.
  unfold told, given, when_true, switch_on. intros H. repeat (apply in_app_iff in H; destruct H as [H|H]);
    repeat match type of H with In _ (if ?b then _ else _) => destruct b end;
    repeat match type of H with In _ (_ ++ _) => apply in_app_iff in H; destruct H as [H|H] end;
    repeat match type of H with In _ (if ?b then _ else _) => destruct b end;
    try contradiction; cbn [In] in H; destruct H as [H|H]; try contradiction; injection H as <- <-; try (now left); right; split; try reflexivity; cbn [a_switch In]; unfold a_switch; cbn [In]; auto 6.
Qed.
Lemma something_true v : something v -> truthy v = true.
Proof. intros [A B]. destruct v as [|[]| | |]; try reflexivity; [now elim A|now elim B]. Qed.

(** The filter runs with the last word about each setting that is handed on, or with its default. *)
Theorem C119_value : forall parses integer facilities files accepts fresh args e client s v,
  says parses integer facilities files args e -> run parses integer facilities files accepts fresh args = Some client ->
  handed s -> wanted e s v -> client s = v.
Proof. intros * S R H W. rewrite (run_told _ _ _ _ _ _ _ _ _ S R), (told_handed _ _ _ H). now apply made_wanted. Qed.
Print Assumptions C119_value.

(** The user, the group and the mode of the socket are those asked for, and are left alone if nothing is asked for. *)
Theorem C119_optional : forall parses integer facilities files accepts fresh args e client s v,
  says parses integer facilities files args e -> run parses integer facilities files accepts fresh args = Some client ->
  handed_if_any s -> wanted e s v -> (something v -> client s = v) /\ (v = Nil -> client s = fresh s).
Proof.
  intros * S R H W. rewrite (run_told _ _ _ _ _ _ _ _ _ S R), (told_if_any _ _ _ H), (made_wanted _ _ _ W). split.
  - intros T. now rewrite (something_true _ T).
  - now intros ->.
Qed.
Print Assumptions C119_optional.

(** A switch is on if the last word is that it is, and is not touched if it is off. *)
Theorem C119_switch : forall parses integer facilities files accepts fresh args e client s b,
  says parses integer facilities files args e -> run parses integer facilities files accepts fresh args = Some client ->
  a_switch s -> wanted e s (Bool b) -> client s = if b then Bool true else fresh s.
Proof. intros * S R H W. rewrite (run_told _ _ _ _ _ _ _ _ _ S R), (told_switch _ _ _ H), (made_wanted _ _ _ W). now destruct b. Qed.
Print Assumptions C119_switch.

(** The facility counts with syslog only, and the number of descriptors unless it is zero. *)
Theorem C119_others : forall parses integer facilities files accepts fresh args e client,
  says parses integer facilities files args e -> run parses integer facilities files accepts fresh args = Some client ->
  (forall t, wanted e Syslog (Bool true) -> wanted e Facility (Text t) -> client Facility = Text t) /\
  (wanted e Syslog (Bool false) -> client Facility = fresh Facility) /\
  (forall n, wanted e MaxDescriptors (Int n) -> client MaxDescriptors = if n =? 0 then fresh MaxDescriptors else Int n).
Proof.
  intros * S R. rewrite (run_told _ _ _ _ _ _ _ _ _ S R). repeat split.
  - intros t W V. rewrite told_facility, (made_wanted _ _ _ W), (made_wanted _ _ _ V). reflexivity.
  - intros W. rewrite told_facility, (made_wanted _ _ _ W). reflexivity.
  - intros n W. rewrite told_descriptors, (made_wanted _ _ _ W). now destruct n.
Qed.
Print Assumptions C119_others.

(** The filter runs if the client takes what is wanted. *)
Theorem C119_runs : forall parses integer facilities files accepts fresh args e,
  says parses integer facilities files args e ->
  (forall s v, wanted e s v -> accepts s v = true) -> (forall s, a_switch s -> accepts s (Bool true) = true) ->
  exists client, run parses integer facilities files accepts fresh args = Some client.
Proof.
  intros * S A B. unfold run. rewrite (says_made _ _ _ _ _ _ S). eexists. apply tell_accepted.
  intros s v I. apply told_from in I as [->|[W ->]]; [apply A, wanted_made|now apply B].
Qed.
Print Assumptions C119_runs.

(** It does not run if the client does not take a setting that is handed on. *)
Theorem C119_untaken : forall parses integer facilities files accepts fresh args e s v,
  says parses integer facilities files args e -> handed s -> wanted e s v -> accepts s v = false ->
  run parses integer facilities files accepts fresh args = None.
Proof.
  intros * S H W A. unfold run. rewrite (says_made _ _ _ _ _ _ S).
  assert (I : In (s, v) (told (made cleared e))).
  { rewrite <- (made_wanted _ _ _ W). unfold told, given. unfold handed in H. cbn [In] in H.
    rewrite !in_app_iff. cbn [In]. repeat (destruct H as [<-|H]; [tauto|]). contradiction. }
  revert I A. generalize (told (made cleared e)) fresh. intros l. induction l as [|[s' v'] l IH]; intros client I A; [contradiction|].
  cbn [tell]. destruct I as [I|I]; [injection I as -> ->; now rewrite A|]. destruct (accepts s' v'); [now apply IH|reflexivity].
Qed.
Print Assumptions C119_untaken.

(** A wrong argument, a file that cannot be read or a wrong spec in a file keeps the filter from running. *)
Lemma wrong_none parses integer facilities files a c : wrong parses integer facilities files a -> argue parses integer facilities files c a = None.
Proof.
  intros [t N|t N|t N|s t I E|s t n I E L|t n E L|s b N|p E|p l l' t r E M P]; cbn [argue option_value].
  - destruct (member t statuses) eqn:E; [|reflexivity]. exfalso. apply N. apply member_in in E. unfold statuses in E. cbn [In] in E. unfold a_status.
    destruct E as [<-|[<-|[<-|[<-|[]]]]]; tauto.
  - destruct (member t backends) eqn:E; [|reflexivity]. exfalso. apply N. apply member_in in E. unfold backends in E. cbn [In] in E. unfold a_backend.
    destruct E as [<-|[<-|[<-|[]]]]; tauto.
  - destruct (member t facilities) eqn:E; [|reflexivity]. exfalso. apply N. now apply member_in.
  - cbn [In] in I. destruct I as [<-|[<-|[<-|[<-|[]]]]]; cbn [option_value]; unfold checked; now rewrite E.
  - cbn [In] in I. destruct I as [<-|[<-|[]]]; cbn [option_value]; unfold checked; rewrite E; (destruct (0 <? n) eqn:Q; [apply Z.ltb_lt in Q; lia|reflexivity]).
  - unfold checked. rewrite E. destruct (0 <=? n) eqn:Q; [apply Z.leb_le in Q; lia|reflexivity].
  - destruct s; try reflexivity; exfalso; apply N; unfold a_switch; cbn [In]; tauto.
  - unfold load. rewrite E. now destruct (absolute p).
  - unfold load. rewrite E. destruct (absolute p); [|reflexivity]. rewrite (evaluate_app _ _ _ _ M). cbn [evaluate assign]. now rewrite P.
Qed.
Theorem C119_refused : forall parses integer facilities files accepts fresh args e a rest,
  says parses integer facilities files args e -> wrong parses integer facilities files a ->
  run parses integer facilities files accepts fresh (args ++ a :: rest) = None.
Proof.
  intros * S W. unfold run. replace (parse parses integer facilities files cleared (args ++ a :: rest)) with (@None settings); [reflexivity|].
  symmetry. generalize cleared. induction S as [|b l x y O S IH]; intros c; cbn [app parse].
  - now rewrite (wrong_none _ _ _ _ _ _ W).
  - now rewrite (one_made _ _ _ _ _ _ _ O).
Qed.
Print Assumptions C119_refused.

(** A command line with a file between options. *)
Definition any (b : bytes) : bool := true.
Definition two (b : bytes) : option Z := if bytes_eqb b (lit "2") then Some 2 else if bytes_eqb b (lit "0") then Some 0 else None.
Definition disk (p : bytes) : option (list (setting * value)) :=
  if bytes_eqb p (lit "/etc/f.conf") then Some [(FallbackStatus, Text (lit "Temporary_Failure")); (ConnectionSpec, Text (lit "inet:1")); (Workers, Int 3); (User, Text (lit "nobody")); (MaintenanceInterval, Nil)]
  else if bytes_eqb p (lit "/etc/bad.conf") then Some [(FallbackStatus, Text (lit "rejct")); (User, Text (lit "nobody"))]
  else if bytes_eqb p (lit "/etc/signal.conf") then Some [(HandleSignal, Bool false)]
  else if bytes_eqb p (lit "/etc/loop.conf") then Some [(EventLoop, Text (lit "epoll"))]
  else if bytes_eqb p (lit "/etc/limits.conf") then Some [(MaxConnections, Int 10); (SuspendTime, Int 1); (RemoveOnCreate, Bool false); (RemoveOnClose, Bool false)]
  else None.
(** What the client has before; it takes numbers for the interval only. *)
Definition before : settings := fun s => match s with RemoveOnCreate | RemoveOnClose => Bool true | SuspendTime => Int 5 | MaxConnections => Int 0 | _ => Nil end.
Definition takes (s : setting) (v : value) : bool :=
  match s, v with MaintenanceInterval, Int _ => true | MaintenanceInterval, _ => false | _, _ => true end.
Definition line : list argument :=
  [Option ConnectionSpec (lit "inet:9"); Switch Daemon true; Configuration (lit "/etc/f.conf"); Option Workers (lit "2"); Switch Daemon false].
Definition words : list (setting * value) :=
  [(ConnectionSpec, Text (lit "inet:9")); (Daemon, Bool true); (FallbackStatus, Text (lit "temporary-failure")); (ConnectionSpec, Text (lit "inet:1"));
   (Workers, Int 3); (User, Text (lit "nobody")); (MaintenanceInterval, Int 0); (Workers, Int 2); (Daemon, Bool false)].
Example C119_line : says any two [] disk line words.
Proof.
  change words with ([(ConnectionSpec, Text (lit "inet:9"))] ++ [(Daemon, Bool true)] ++
    [(FallbackStatus, Text (lit "temporary-failure")); (ConnectionSpec, Text (lit "inet:1")); (Workers, Int 3); (User, Text (lit "nobody")); (MaintenanceInterval, Int 0)] ++
    [(Workers, Int 2)] ++ [(Daemon, Bool false)] ++ []).
  apply says_more; [apply one_option, asks_text; cbn [In]; tauto|]. apply says_more; [apply one_switch; cbn [In]; tauto|].
  apply says_more.
  { change (lit "/etc/f.conf") with (lit "/" ++ lit "etc/f.conf"). eapply one_file; [reflexivity|].
    constructor.
    { split; [reflexivity|]. apply means_status; [|unfold a_status; tauto].
      repeat first [apply Forall2_nil | apply Forall2_cons;
        [first [apply letter_underscore | apply letter_capital; [split; vm_compute; discriminate|reflexivity]
               | apply letter_same; [vm_compute; intros [A B]; first [now apply A|now apply B]|discriminate]]|]]. }
    constructor; [split; [reflexivity|now apply means_spec]|].
    constructor; [split; [reflexivity|apply means_count with (d := 0), counts_zero; cbn [In]; tauto]|].
    constructor; [split; [reflexivity|apply means_plain; unfold plain; cbn [In]; tauto]|].
    constructor; [split; [reflexivity|apply means_default, counts_zero; cbn [In]; tauto]|]. constructor. }
  apply says_more; [apply one_option, asks_workers; [reflexivity|lia]|]. apply says_more; [apply one_switch; cbn [In]; tauto|]. constructor.
Qed.
Example C119_example : exists client, run any two [] disk takes before line = Some client /\
  client ConnectionSpec = Text (lit "inet:1") /\ client Workers = Int 2 /\ client FallbackStatus = Text (lit "temporary-failure") /\
  client User = Text (lit "nobody") /\ client MaintenanceInterval = Int 0 /\ client Daemon = Nil /\ client EventLoop = Text (lit "glib") /\
  client SocketMode = Int 504 /\ client RunGc = Bool true /\ client Facility = Nil.
Proof. eexists. split; [reflexivity|]. repeat split. Qed.
Example C119_wrong : wrong any two [] disk (Option Workers (lit "0")) /\
  run any two [] disk takes before (line ++ [Option Workers (lit "0"); Switch Daemon true]) = None.
Proof. split; [apply wrong_amount with (n := 0); [cbn [In]; tauto|reflexivity|lia]|reflexivity]. Qed.

(** A status that does not exist ends its file, and the filter runs without what follows: here as root, though the
    file asks for another user. *)
Theorem C119_invalid : forall parses c l l' t r, Forall2 (entry_means parses) l l' -> ~ a_status (normalized t) ->
  evaluate parses c (l ++ (FallbackStatus, Text t) :: r) = evaluate parses c l.
Proof.
  intros * F N. rewrite (evaluate_app _ _ _ _ F), (evaluate_made _ _ _ F). cbn [evaluate assign].
  destruct (member (normalized t) statuses) eqn:E; [|reflexivity]. exfalso. apply N. apply member_in in E. unfold statuses in E. cbn [In] in E. unfold a_status.
  destruct E as [<-|[<-|[<-|[<-|[]]]]]; tauto.
Qed.
Print Assumptions C119_invalid.
Theorem C119_invalid_refuted : exists client,
  disk (lit "/etc/bad.conf") = Some [(FallbackStatus, Text (lit "rejct")); (User, Text (lit "nobody"))] /\
  run any two [] disk takes before [Configuration (lit "/etc/bad.conf")] = Some client /\
  client User = before User /\ client FallbackStatus = Text (lit "accept").
Proof. eexists. repeat split. Qed.
Print Assumptions C119_invalid_refuted.

(** Four settings are never handed on, whatever is asked for. *)
Theorem C119_unused_refuted : forall parses integer facilities files accepts fresh args e client s,
  says parses integer facilities files args e -> run parses integer facilities files accepts fresh args = Some client ->
  unused s -> client s = fresh s.
Proof. intros * S R H. rewrite (run_told _ _ _ _ _ _ _ _ _ S R). now apply told_unused. Qed.
Print Assumptions C119_unused_refuted.
Example C119_unused_example : exists client, run any two [] disk takes before [Configuration (lit "/etc/limits.conf")] = Some client /\
  client MaxConnections = Int 0 /\ client SuspendTime = Int 5 /\ client RemoveOnCreate = Bool true /\ client RemoveOnClose = Bool true.
Proof. eexists. split; [reflexivity|]. repeat split. Qed.

(** The interval on the command line stays a text; a client that takes numbers does not run. *)
Theorem C119_interval_refuted : run any two [] disk takes before [Option MaintenanceInterval (lit "2")] = None.
Proof. reflexivity. Qed.
Print Assumptions C119_interval_refuted.
(** The deprecated option takes every text for a status. *)
Theorem C119_status_refuted : forall t, exists client,
  run any two [] disk takes before [StatusOnError t] = Some client /\ client FallbackStatus = Text t.
Proof. intros t. eexists. split; reflexivity. Qed.
Print Assumptions C119_status_refuted.
(** A file named by a relative path is never found. *)
Theorem C119_relative_refuted : forall parses integer facilities files accepts fresh p rest, (forall q, p <> "/"%char :: q) ->
  run parses integer facilities files accepts fresh (Configuration p :: rest) = None.
Proof.
  intros * N. unfold run. cbn [parse argue]. unfold load. replace (absolute p) with false; [reflexivity|].
  destruct p as [|c p]; [reflexivity|]. cbn [absolute]. unfold beqb. destruct (Ascii.eqb_spec c "/"); [subst c; now elim (N p)|reflexivity].
Qed.
Print Assumptions C119_relative_refuted.
(** A file cannot say whether signals are handled. *)
Theorem C119_signal_refuted : run any two [] disk takes before [Configuration (lit "/etc/signal.conf")] = None.
Proof. reflexivity. Qed.
Print Assumptions C119_signal_refuted.
(** A file that asks for an event loop that does not exist is not refused; the client is told nil. *)
Theorem C119_backend_refuted : exists client,
  run any two [] disk takes before [Configuration (lit "/etc/loop.conf")] = Some client /\ client EventLoop = Nil.
Proof. eexists. split; reflexivity. Qed.
Print Assumptions C119_backend_refuted.
