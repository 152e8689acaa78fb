(** C93, C94: applicable conditions. *)
From Verif.Base Require Import Bytes BytesFacts.
From Verif.Model Require Import CommandCodec Macros Conditions.
From Verif.Spec Require Import ConditionSpec.
From Verif.Proofs Require Import MacroProofs ConditionProofs.
Import List.

Section Props.
  Context {E : Type}.
  Implicit Types (ks : list (condition E)).

  (** The filter and what it has seen after what the MTA has sent. *)
  Definition reached ks (l : list (event E)) (f : child) (h : list (seen (E := E))) : Prop :=
    exists os, run ks child_new l = (f, os) /\ recorded l os h.
  Lemma reached_invariant : forall ks l f h, reached ks l f h -> invariant f h.
  Proof. intros ks l f h (os & R & H). exact (proj1 (run_records ks l child_new [] f os h invariant_new R H)). Qed.
  (** The macros as the first stopper finds them: those of the stages up to the command's. *)
  Definition found (f : child) (c : command) (a : pagent) : Prop :=
    (c_stage c <> AtHelo -> a = set_macro_context (c_agent f) (stage_command (c_stage c))) /\
    (c_stage c = AtHelo -> a = c_agent f).
  (** A filter that takes part is stopped if and only if one of the stoppers of the command's stage says yes,
      asked condition after condition in the order of definition until one does; one that raises an exception
      has not said yes. *)
  Theorem C93_stopped : forall ks l f h e c a qs, reached ks l f h -> takes_part h (c_stage c) -> found f c a -> questions c ks qs ->
    (snd (tell ks f e c) = Stopped <->
     exists qs1 p args qs2 rs a1 a', qs = qs1 ++ (p, args) :: qs2 /\ answered e a qs1 rs a1 /\ ~ In Yes rs /\ p e a1 args = (a', Yes)).
  Proof.
    intros ks l f h e c a qs R P [F1 F2] Q. pose proof (reached_invariant ks l f h R) as I. apply asks_questions in Q. subst qs. apply (concerned_iff f h _ I) in P. unfold tell. rewrite P.
    assert (A : match c_stage c with AtHelo => c_agent f | _ => set_macro_context (c_agent f) (stage_command (c_stage c)) end = a).
    { destruct (c_stage c); symmetry; first [apply F2; reflexivity | apply F1; discriminate]. }
    rewrite A, asked_is_flat. destruct (asked_flat (asks c ks) e a) as [a' stop] eqn:S. destruct stop; cbn [snd]; split; intros H.
    - apply flat_true in S. destruct S as (qs1 & p & args & qs2 & rs & a1 & D & An & N & Pe). exists qs1, p, args, qs2, rs, a1, a'. tauto.
    - reflexivity.
    - discriminate H.
    - destruct H as (qs1 & p & args & qs2 & rs & a1 & a2 & H).
      assert (X : asked_flat (asks c ks) e a = (a2, true)) by (apply flat_true; exists qs1, p, args, qs2, rs, a1; exact H). congruence.
  Qed.
  (** It is told the command if and only if none says yes, with the macros of the stage as the stoppers have left
      them. *)
  Theorem C93_told : forall ks l f h e c a qs t, reached ks l f h -> takes_part h (c_stage c) -> found f c a -> questions c ks qs ->
    (snd (tell ks f e c) = Told t <->
     exists rs a', answered e a qs rs a' /\ ~ In Yes rs /\ t = ensure_macros (pa_macros a') (stage_command (c_stage c))).
  Proof.
    intros ks l f h e c a qs t R P [F1 F2] Q. pose proof (reached_invariant ks l f h R) as I. apply asks_questions in Q. subst qs. apply (concerned_iff f h _ I) in P. unfold tell. rewrite P.
    assert (A : match c_stage c with AtHelo => c_agent f | _ => set_macro_context (c_agent f) (stage_command (c_stage c)) end = a).
    { destruct (c_stage c); symmetry; first [apply F2; reflexivity | apply F1; discriminate]. }
    rewrite A, asked_is_flat. destruct (asked_flat (asks c ks) e a) as [a' stop] eqn:S. destruct stop; cbn [snd]; split; intros H.
    - discriminate H.
    - destruct H as (rs & a2 & H & N & _).
      assert (X : asked_flat (asks c ks) e a = (a2, false)) by (apply flat_false; exists rs; tauto). congruence.
    - injection H as <-. apply flat_false in S. destruct S as (rs & An & N). exists rs, a'. tauto.
    - destruct H as (rs & a2 & H & N & ->).
      assert (X : asked_flat (asks c ks) e a = (a2, false)) by (apply flat_false; exists rs; tauto). congruence.
  Qed.
  (** Who takes part, in every session: a filter stopped at CONNECT or HELO is told nothing more; between, what
      belongs to a message is told to it if it was told the MAIL and was neither stopped later than RCPT nor saw the
      message aborted. *)
  Theorem C93_takes_part : forall ks l h, recorded l (snd (run ks child_new l)) h ->
    forall h1 e c o h2, h = h1 ++ SCommand e c o :: h2 -> (o = Passed <-> ~ takes_part h1 (c_stage c)).
  Proof.
    intros ks l h R h1 e c o h2 D. destruct (run ks child_new l) as [f os] eqn:X.
    destruct (run_records ks l child_new [] f os h invariant_new X R) as [_ A].
    destruct (A _ _ _ _ _ D) as (f1 & f2 & _ & _ & P). exact P.
  Qed.
  (** For stoppers that go by the command alone: the outcome of every command of every session. *)
  Theorem C93_objected : forall ks l h, steady ks -> recorded l (snd (run ks child_new l)) h ->
    forall h1 e c o h2, h = h1 ++ SCommand e c o :: h2 -> (o = Stopped <-> takes_part h1 (c_stage c) /\ objects ks e c).
  Proof.
    intros ks l h St R h1 e c o h2 D. destruct (run ks child_new l) as [f os] eqn:X.
    destruct (run_records ks l child_new [] f os h invariant_new X R) as [_ A].
    destruct (A _ _ _ _ _ D) as (f1 & f2 & I & T & _). exact (tell_stopped ks f1 _ e c f2 o St I T).
  Qed.
  Theorem C93_recorded : forall ks l, exists h, recorded l (snd (run ks child_new l)) h.
  Proof. intros ks l. apply recorded_exists. Qed.
  (** A filter stopped at MAIL is told nothing of that message, if it was not in a message before. *)
  Theorem C93_message_partial : forall ks l h, recorded l (snd (run ks child_new l)) h ->
    forall h1 e c h2 e' c' o h3, h = h1 ++ SCommand e c Stopped :: h2 ++ SCommand e' c' o :: h3 -> c_stage c = AtFrom ->
      ~ in_message h1 ->
      (forall e'' c'' o'', In (SCommand e'' c'' o'') h2 -> c_stage c'' <> AtFrom) -> 
      c_stage c' <> AtConnect -> c_stage c' <> AtHelo -> c_stage c' <> AtFrom -> o = Passed.
  Proof.
    intros ks l h R h1 e c h2 e' c' o h3 D S NI N N1 N2 N3.
    apply (C93_takes_part ks l h R (h1 ++ SCommand e c Stopped :: h2) e' c' o h3); [rewrite <- app_assoc; exact D|].
    intros [_ [X|[X|[X|(g1 & e2 & c2 & t & g2 & G & S2 & F)]]]]; try contradiction.
    apply NI. clear D R. revert G. 
    assert (Y : forall g2', h1 ++ SCommand e c Stopped :: h2 = g1 ++ SCommand e2 c2 (Told t) :: g2' ->
              exists g3, h1 = g1 ++ SCommand e2 c2 (Told t) :: g3 /\ g2' = g3 ++ SCommand e c Stopped :: h2).
    { revert h1 NI. induction g1 as [|y g1 IH]; intros h1 NI g2' G.
      - destruct h1 as [|y h1]; cbn [app] in G; [injection G as G1 G2; congruence|]. injection G as -> <-. exists h1. split; reflexivity.
      - destruct h1 as [|y' h1]; cbn [app] in G.
        + exfalso. injection G as <- G. apply (N e2 c2 (Told t)); [|exact S2]. rewrite G. apply in_or_app. right. left. reflexivity.
        + injection G as <- G. assert (NI' : ~ in_message h1).
          { intros (a1 & a2 & a3 & a4 & a5 & -> & A). apply NI. exists (y' :: a1), a2, a3, a4, a5. split; [reflexivity | exact A]. }
          destruct (IH h1 NI' g2' G) as (g3 & -> & ->). exists g3. split; reflexivity. }
    intros G. destruct (Y g2 G) as (g3 & -> & ->). exists g1, e2, c2, t, g3. repeat apply conj; [reflexivity | exact S2|].
    apply Forall_app in F. apply F.
  Qed.
End Props.
Print Assumptions C93_stopped.
Print Assumptions C93_told.
Print Assumptions C93_takes_part.
Print Assumptions C93_objected.
Print Assumptions C93_recorded.
Print Assumptions C93_message_partial.

(** *** Examples and what does not hold *)

(** Stops senders of one domain, and filters of hosts that are called "bad". *)
Definition ex_stop_host : condition unit :=
  mk_condition (lit "host") [(AtConnect, fun _ a args => (a, match args with Text h :: _ => says (bytes_eqb h (lit "bad")) | _ => Raises end))].
Definition ex_stop_from : condition unit :=
  mk_condition (lit "from") [(AtFrom, fun _ a args => (a, match args with Text s :: _ => says (bytes_eqb s (lit "<me@here>")) | _ => Raises end))].
Definition ex_connect (h : bytes) : event unit := ECommand tt (mk_command AtConnect [Text h]).
Definition ex_mail (s : bytes) : event unit := ECommand tt (mk_command AtFrom [Text s]).
Definition ex_rcpt : event unit := ECommand tt (mk_command AtRecipient [Text (lit "<you@there>")]).
Definition ex_body (s : bytes) : event unit := ECommand tt (mk_command AtBody [Text s]).
Example ex_sessions :
  snd (run [ex_stop_host; ex_stop_from] child_new [ex_connect (lit "good"); ex_mail (lit "<me@here>"); ex_rcpt; EAbort; ex_mail (lit "<he@here>"); ex_rcpt])
  = [Told []; Stopped; Passed; Told []; Told []] /\
  snd (run [ex_stop_host; ex_stop_from] child_new [ex_connect (lit "bad"); ex_mail (lit "<he@here>"); ex_rcpt]) = [Stopped; Passed; Passed].
Proof. split; reflexivity. Qed.
Example ex_steady : steady [ex_stop_host; ex_stop_from].
Proof.
  intros k s p I J e a a' args. destruct I as [<-|[<-|[]]]; cbn in J; (destruct J as [J|[]]); injection J as <- <-;
    destruct args as [|[t|x] args]; reflexivity.
Qed.

(** If the MTA sends no abort between two messages (the filter answered "continue" at the end of the first), a filter
    stopped at the second MAIL is told the rest of that message all the same. *)
Theorem C93_message_refuted : ~ (forall (ks : list (condition unit)) l h, recorded l (snd (run ks child_new l)) h ->
    forall h1 e c h2 e' c' o h3, h = h1 ++ SCommand e c Stopped :: h2 ++ SCommand e' c' o :: h3 -> c_stage c = AtFrom ->
      (forall e'' c'' o'', In (SCommand e'' c'' o'') h2 -> c_stage c'' <> AtFrom) ->
      c_stage c' <> AtConnect -> c_stage c' <> AtHelo -> c_stage c' <> AtFrom -> o = Passed).
Proof.
  intros H.
  pose (l := [ex_mail (lit "<he@here>"); ex_rcpt; ECommand tt (mk_command AtEnd []); ex_mail (lit "<me@here>"); ex_rcpt]).
  specialize (H [ex_stop_from] l
    [SCommand tt (mk_command AtFrom [Text (lit "<he@here>")]) (Told []); SCommand tt (mk_command AtRecipient [Text (lit "<you@there>")]) (Told []);
     SCommand tt (mk_command AtEnd []) (Told []); SCommand tt (mk_command AtFrom [Text (lit "<me@here>")]) Stopped;
     SCommand tt (mk_command AtRecipient [Text (lit "<you@there>")]) (Told [])]).
  assert (R : recorded l (snd (run [ex_stop_from] child_new l))
    [SCommand tt (mk_command AtFrom [Text (lit "<he@here>")]) (Told []); SCommand tt (mk_command AtRecipient [Text (lit "<you@there>")]) (Told []);
     SCommand tt (mk_command AtEnd []) (Told []); SCommand tt (mk_command AtFrom [Text (lit "<me@here>")]) Stopped;
     SCommand tt (mk_command AtRecipient [Text (lit "<you@there>")]) (Told [])]).
  { change (snd (run [ex_stop_from] child_new l)) with [Told []; Told []; Told []; Stopped; Told []]. repeat constructor. }
  specialize (H R [_; _; _] tt _ [] tt _ _ [] eq_refl eq_refl). 
  assert (D : Told [] = Passed); [|discriminate D]. apply H; try discriminate. intros e c o [].
Qed.
Print Assumptions C93_message_refuted.

(** A macro set by a stopper of HELO is not told to the filter with HELO (milter_server_context_helo does not
    set the stage of the macros); at the other stages it is. *)
Definition ex_setter (s : stage) : condition unit :=
  mk_condition (lit "setter") [(s, fun _ a _ => (set_own a (lit "x") (Some (lit "yes")), No))].
Theorem C93_set_macro : forall (E : Type) (ks : list (condition E)) s k n v l f h e c t, reached (ks ++ [k]) l f h -> takes_part h s -> c_stage c = s -> s <> AtHelo ->
  k_stoppers k = [(s, fun _ a _ => (set_own a n v, No))] -> 
  (forall q, In q ks -> forall p s', In (s', p) (k_stoppers q) -> forall e a args, pa_context (fst (p e a args)) = pa_context a) ->
  snd (tell (ks ++ [k]) f e c) = Told t -> lookup t (normalized n) = v.
Proof.
  intros E ks s k n v l f h e c t I P S N K C T.
  assert (F : found f c (set_macro_context (c_agent f) (stage_command s))) by (subst s; split; [reflexivity | intros D; contradiction]).
  assert (P' : takes_part h (c_stage c)) by (rewrite S; exact P).
  pose proof (proj1 (C93_told (ks ++ [k]) l f h e c _ _ t I P' F (questions_asks c (ks ++ [k]))) T) as (rs & a' & A & NY & ->).
  unfold asks in A. rewrite flat_map_app in A. cbn [flat_map] in A. rewrite app_nil_r in A.
  unfold stoppers_at at 2 in A. rewrite K, S in A. cbn [filter fst] in A. rewrite (proj2 (stage_eq s s) eq_refl) in A. cbn [map snd] in A.
  assert (Y : forall q q' e a rs a', answered (E := E) e a (q ++ q') rs a' -> exists r1 r2 a1, answered e a q r1 a1 /\ answered e a1 q' r2 a').
  { induction q as [|[p args] q IH]; intros q' e0 a rs0 a0 H.
    - exists [], rs0, a. split; [constructor | exact H].
    - cbn [app] in H. inversion H; subst. match goal with H7 : answered _ _ (q ++ q') _ _ |- _ => destruct (IH _ _ _ _ _ H7) as (r1 & r2 & a3 & H1 & H2) end.
      eexists (_ :: r1), r2, a3. split; [econstructor; eassumption | exact H2]. }
  destruct (Y _ _ _ _ _ _ A) as (r1 & r2 & a1 & A1 & A2). inversion A2 as [|? ? ? ? ? ? ? ? P1 A3]; subst. injection P1 as <- <-.
  inversion A3; subst.
  assert (X : pa_context a1 = stage_command (c_stage c)).
  { assert (Z : forall q e a rs a', answered (E := E) e a q rs a' -> (forall p args, In (p, args) q -> forall e a args, pa_context (fst (p e a args)) = pa_context a) ->
                  pa_context a' = pa_context a).
    { induction 1 as [|a p args r q rs0 a2 a3 PP H IH]; intros HC; [reflexivity|]. rewrite IH; [|intros p' args' J; apply (HC p' args'); right; exact J].
      pose proof (HC p args (or_introl eq_refl) e0 a args) as HH. rewrite PP in HH. exact HH. }
    rewrite (Z _ _ _ _ _ A1); [reflexivity|]. intros p args J. apply in_flat_map in J. destruct J as (q & J1 & J2).
    apply in_map_iff in J2. destruct J2 as (p' & D & J2). injection D as -> _. unfold stoppers_at in J2. apply in_map_iff in J2.
    destruct J2 as ([s' p'] & D & J2). cbn [snd] in D. subst p'. apply filter_In in J2. apply (C q J1 p s'), J2. }
  unfold set_own. rewrite X, ensure_lookup. unfold set_macro, stage_value. cbn [pa_macros]. rewrite stage_insert_lookup, beqb_refl.
  rewrite update_lookup, bytes_eqb_refl. reflexivity.
Qed.
Print Assumptions C93_set_macro.
(** A macro may be named with or without braces. *)
Theorem C93_macro_name : forall n, n <> [] ->
  normalized ("{"%char :: n ++ ["}"%char]) = n /\ (hd NUL n <> "{"%char -> normalized n = n).
Proof.
  intros n H. split.
  - unfold normalized, unbracketed. cbn [app]. destruct n as [|c n]; [congruence|].
    cbn [app]. rewrite ?beqb_refl. cbn [andb].
    assert (L : last ("{"%char :: c :: n ++ ["}"%char]) NUL = "}"%char).
    { change ("{"%char :: c :: n ++ ["}"%char]) with (("{"%char :: c :: n) ++ ["}"%char]). apply last_last. }
    assert (F : firstn (length ("{"%char :: c :: n ++ ["}"%char]) - 2) (c :: n ++ ["}"%char]) = c :: n).
    { replace (length ("{"%char :: c :: n ++ ["}"%char]) - 2)%nat with (length (c :: n) + 0)%nat
        by (cbn [length]; rewrite app_length; cbn [length]; lia).
      change (c :: n ++ ["}"%char]) with ((c :: n) ++ ["}"%char]). rewrite firstn_app_2. apply app_nil_r. }
    rewrite L, F, beqb_refl. reflexivity.
  - intros Hh. unfold normalized, unbracketed. destruct n as [|c n]; [congruence|]. cbn [hd] in Hh.
    destruct (beqb c "{"%char) eqn:E; [apply beqb_eq in E; congruence|]. reflexivity.
Qed.
Print Assumptions C93_macro_name.
Example ex_set_macro : snd (run [ex_setter AtFrom] child_new [ex_mail (lit "<a@b>")]) = [Told [(lit "x", lit "yes")]].
Proof. reflexivity. Qed.
Theorem C93_set_macro_refuted : ~ (forall (k : condition unit) s n v c t, c_stage c = s -> k_stoppers k = [(s, fun _ a _ => (set_own a n v, No))] ->
  snd (tell [k] child_new tt c) = Told t -> lookup t (normalized n) = v).
Proof.
  intros H. specialize (H (ex_setter AtHelo) AtHelo (lit "x") (Some (lit "yes")) (mk_command AtHelo [Text (lit "h")]) [] eq_refl eq_refl eq_refl). discriminate H.
Qed.
Print Assumptions C93_set_macro_refuted.

(** A stopper of the body with the documented parameters (context, chunk) gets the name of its condition for the chunk. *)
Definition ex_virus : condition unit :=
  mk_condition (lit "virus") [(AtBody, fun _ a args => (a, match args with Text chunk :: _ => says (bytes_eqb chunk (lit "EVIL")) | _ => Raises end))].
Theorem C93_body_refuted : 
  snd (run [ex_virus] child_new [ex_mail (lit "<a@b>"); ex_body (lit "EVIL")]) = [Told []; Told []] /\
  (forall chunk, snd (any_stops (stoppers_at AtBody ex_virus) tt pagent_new [Text chunk]) = bytes_eqb chunk (lit "EVIL")) /\
  forall k : condition unit, k_stoppers k = k_stoppers ex_virus -> forall f chunk,
    snd (tell [k] f tt (mk_command AtBody [Text chunk])) = Stopped -> k_name k = lit "EVIL".
Proof.
  repeat apply conj; [reflexivity | intros chunk; cbn -[lit bytes_eqb]; unfold says; destruct (bytes_eqb chunk (lit "EVIL")); reflexivity|].
  intros [n ps] K f chunk. cbn [k_stoppers] in K. subst ps. cbn [k_name]. unfold tell. cbn [c_stage]. destruct (concerned f AtBody); [|discriminate].
  cbn -[lit bytes_eqb set_macro_context clear_message_related_macros]. unfold says. destruct (bytes_eqb n (lit "EVIL")) eqn:B; cbn [guarded].
  - intros _. apply bytes_eqb_eq, B.
  - discriminate.
Qed.
Print Assumptions C93_body_refuted.

(** *** C94: which conditions a filter has *)
Section Definitions.
  Context {E : Type}.
  (** After the definitions of a configuration, a name stands for the condition defined last under it, and a filter
      has the conditions its blocks have given it, each as it was defined at that time. *)
  Theorem C94_conditions : forall (l : list (definition E)) c, define_all empty_configuration l = Some c ->
    (forall n k, find_condition (conditions c) n = Some k <-> exists ps, defined_last l n ps /\ k = mk_condition n ps) /\
    (forall m ks, find_milter (milters c) m = Some ks <-> has_conditions m l ks) /\
    (forall m, find_milter (milters c) m = None <-> absent m l).
  Proof. intros l c D. exact (proj2 (proj2 (define_all_represents l empty_configuration [] c represents_empty D))). Qed.
  (** The configuration is refused if and only if a filter names a condition that is not defined before. *)
  Definition mentions (x : change) (n : bytes) : Prop :=
    match x with SetConditions names | AppendConditions names => In n names | AddCondition n' => n' = n end.
  Lemma changed_some : forall l ks x, changed (E := E) l ks x <> None <-> forall n, mentions x n -> find_condition l n <> None.
  Proof.
    assert (FA : forall l names, find_all (E := E) l names <> None <-> forall n, In n names -> find_condition l n <> None).
    { intros l. induction names as [|n names IH]; cbn [find_all]; [split; [intros _ n [] | discriminate]|]. split.
      - intros H n' [<-|I].
        + destruct (find_condition l n); [discriminate | congruence].
        + apply IH; [|exact I]. destruct (find_condition l n), (find_all l names); congruence.
      - intros H. pose proof (H n (or_introl eq_refl)) as H1. pose proof (proj2 IH (fun n' I => H n' (or_intror I))) as H2.
        destruct (find_condition l n), (find_all l names); congruence. }
    intros l ks [names|n|names]; cbn [changed mentions].
    - apply FA.
    - split.
      + intros H n' <-. destruct (find_condition l n); [discriminate | exfalso; apply H; reflexivity].
      + intros H. specialize (H n eq_refl). destruct (find_condition l n); [discriminate | congruence].
    - rewrite <- FA. destruct (find_all l names); cbn; split; congruence.
  Qed.
  Lemma changed_all_some : forall l cs ks, changed_all (E := E) l ks cs <> None <-> forall x n, In x cs -> mentions x n -> find_condition l n <> None.
  Proof.
    intros l. induction cs as [|x cs IH]; intros ks; cbn [changed_all]; [split; [intros _ x n [] | discriminate]|]. split.
    - intros H y n [<-|I] M.
      + apply (proj1 (changed_some l ks x)); [destruct (changed l ks x); [discriminate | congruence] | exact M].
      + destruct (changed l ks x) as [ks'|]; [|congruence]. exact (proj1 (IH ks') H y n I M).
    - intros H. destruct (changed l ks x) as [ks'|] eqn:C.
      + apply IH. intros y n I M. apply (H y n (or_intror I) M).
      + exfalso. apply (proj2 (changed_some l ks x)); [|exact C]. intros n M. apply (H x n (or_introl eq_refl) M).
  Qed.
  Theorem C94_refused : forall l : list (definition E), define_all empty_configuration l = None <->
    exists l1 m cs l2 x n, l = l1 ++ DefineMilter m cs :: l2 /\ In x cs /\ mentions x n /\ forall ps, ~ defined_last l1 n ps.
  Proof.
    assert (D : forall l1 l2 (c : configuration E), define_all c (l1 ++ l2) = match define_all c l1 with Some c' => define_all c' l2 | None => None end).
    { induction l1 as [|d l1 IH]; intros l2 c; [reflexivity|]. cbn [app define_all]. destruct (define c d); [apply IH | reflexivity]. }
    assert (One : forall l c, define_all empty_configuration l = Some c -> forall d, define c d = None <->
              exists m cs x n, d = DefineMilter m cs /\ In x cs /\ mentions x n /\ forall ps : list (stage * stopper E), ~ defined_last l n ps).
    { intros l c H d. pose proof (proj1 (C94_conditions l c H)) as F. destruct d as [n ps|m cs|m]; cbn [define].
      - split; [discriminate|]. intros (m & cs & x & n' & X & _). discriminate X.
      - split.
        + intros X. destruct (changed_all (conditions c) _ cs) eqn:C; [discriminate X|]. clear X.
          assert (Y : ~ forall x n, In x cs -> mentions x n -> find_condition (conditions c) n <> None).
          { intros A. exact (proj2 (changed_all_some (conditions c) cs _) A C). }
          assert (Z : exists x n, In x cs /\ mentions x n /\ find_condition (conditions c) n = None).
          { clear - Y. induction cs as [|x cs IH]; [exfalso; apply Y; intros x n []|].
            assert (FA : (forall n, mentions x n -> find_condition (conditions c) n <> None) \/ exists n, mentions x n /\ find_condition (conditions c) n = None).
            { assert (FL : forall names, (forall n, In n names -> find_condition (conditions c) n <> None) \/ exists n, In n names /\ find_condition (conditions c) n = None).
              { induction names as [|n names IHn]; [left; intros n []|]. destruct (find_condition (conditions c) n) eqn:G; [|right; exists n; split; [left; reflexivity | exact G]].
                destruct IHn as [A|(n' & I & A)]; [left; intros n' [<-|I]; [congruence | apply A, I] | right; exists n'; split; [right; exact I | exact A]]. }
              destruct x as [names|n|names]; cbn [mentions]; [apply FL| |apply FL].
              destruct (find_condition (conditions c) n) eqn:G; [left; intros n' <-; congruence | right; exists n; tauto]. }
            destruct FA as [FA|(n & M & G)]; [|exists x, n; split; [left; reflexivity | tauto]].
            destruct IH as (y & n & I & M & G).
            - intros A. apply Y. intros y n [<-|I] M; [apply FA, M | apply (A y n I M)].
            - exists y, n. split; [right; exact I | tauto]. }
          destruct Z as (x & n & I & M & G). exists m, cs, x, n. repeat apply conj; try assumption; [reflexivity|].
          intros ps L. assert (K : find_condition (conditions c) n = Some (mk_condition n ps)) by (apply F; exists ps; tauto). congruence.
        + intros (m' & cs' & x & n & X & I & M & N). injection X as <- <-.
          destruct (changed_all (conditions c) _ cs) eqn:C; [|reflexivity]. exfalso.
          assert (K : find_condition (conditions c) n <> None).
          { eapply (proj1 (changed_all_some (conditions c) cs _)); [rewrite C; discriminate | exact I | exact M]. }
          destruct (find_condition (conditions c) n) as [k|] eqn:G; [|congruence]. apply F in G. destruct G as (ps & L & _). exact (N ps L).
      - split; [discriminate|]. intros (m' & cs & x & n' & X & _). discriminate X. }
    intros l. split.
    - induction l as [|d l IH] using rev_ind; [discriminate|]. rewrite D. intros H. destruct (define_all empty_configuration l) as [c|] eqn:C.
      + cbn [define_all] in H. destruct (define c d) eqn:X; [discriminate|]. apply (One l c C) in X. destruct X as (m & cs & x & n & -> & A).
        exists l, m, cs, [], x, n. split; [reflexivity | exact A].
      + destruct (IH eq_refl) as (l1 & m & cs & l2 & x & n & -> & A). exists l1, m, cs, (l2 ++ [d]), x, n. split; [rewrite <- app_assoc; reflexivity | exact A].
    - intros (l1 & m & cs & l2 & x & n & -> & A). rewrite D. destruct (define_all empty_configuration l1) as [c|] eqn:C; [|reflexivity].
      cbn [define_all]. assert (X : define c (DefineMilter m cs) = None) by (apply (One l1 c C); exists m, cs, x, n; tauto). rewrite X. reflexivity.
  Qed.
  (** Every definition of a filter puts it behind all others. *)
  Theorem C94_order : forall l c (m : bytes) cs c', define_all (E := E) empty_configuration l = Some c -> define c (DefineMilter m cs) = Some c' ->
    map fst (milters c') = filter (fun n => negb (bytes_eqb n m)) (map fst (milters c)) ++ [m].
  Proof.
    intros l c m cs c' H D. destruct (define_all_represents l empty_configuration [] c represents_empty H) as (_ & U & _).
    cbn [define] in D. destruct (changed_all _ _ cs) as [ks|]; [|discriminate]. cbn [option_map] in D. injection D as <-. cbn [milters].
    rewrite map_app. cbn [map fst]. f_equal. clear H. revert U. generalize (milters c). induction l0 as [|[n x] l0 IH]; intros U; [reflexivity|].
    cbn [map fst] in U. apply NoDup_cons_iff in U. destruct U as [N U]. cbn [remove_milter fst map filter]. destruct (bytes_eqb n m) eqn:B; cbn [negb].
    - apply bytes_eqb_eq in B. subst n. clear IH. symmetry. induction (map fst l0) as [|y r IHr]; [reflexivity|]. cbn [filter].
      destruct (bytes_eqb y m) eqn:B; cbn [negb]; [apply bytes_eqb_eq in B; subst; exfalso; apply N; left; reflexivity|].
      f_equal. apply IHr; [intros I; apply N; right; exact I | apply NoDup_cons_iff in U; apply U].
    - cbn [map fst]. f_equal. apply IH, U.
  Qed.
End Definitions.
Print Assumptions C94_conditions.
Print Assumptions C94_refused.
Print Assumptions C94_order.
Definition ex_yes : stopper unit := fun _ a _ => (a, Yes).
Definition ex_configuration : list (definition unit) :=
  [DefineCondition (lit "c") [(AtConnect, ex_yes)]; DefineMilter (lit "a") [AddCondition (lit "c")]; DefineMilter (lit "b") [SetConditions [lit "c"]]].
Example ex_defined : option_map (fun c => map (fun m => (fst m, map k_name (snd m))) (milters c)) (define_all empty_configuration ex_configuration) =
  Some [(lit "a", [lit "c"]); (lit "b", [lit "c"])].
Proof. reflexivity. Qed.
Example ex_refused : define_all empty_configuration [DefineMilter (lit "a") [AddCondition (lit "c")]; DefineCondition (lit "c") [(AtConnect, ex_yes)]] = None.
Proof. reflexivity. Qed.
(** A condition defined again has its new stoppers only for the filters that name it afterwards, and it has lost the
    old ones. *)
Theorem C94_redefined_refuted : ~ (forall (l : list (definition unit)) c, define_all empty_configuration l = Some c ->
  forall m ks k, find_milter (milters c) m = Some ks -> In k ks -> find_condition (conditions c) (k_name k) = Some k).
Proof.
  intros H. pose (l := ex_configuration ++ [DefineCondition (lit "c") [(AtHelo, ex_yes)]]).
  destruct (define_all empty_configuration l) as [c|] eqn:D; [|discriminate D]. 
  specialize (H l c D (lit "a") [mk_condition (lit "c") [(AtConnect, ex_yes)]] (mk_condition (lit "c") [(AtConnect, ex_yes)])).
  vm_compute in D. injection D as <-. assert (X := H eq_refl (or_introl eq_refl)). vm_compute in X. discriminate X.
Qed.
Print Assumptions C94_redefined_refuted.
(** Giving a filter a condition moves it behind the filters defined after it: the order in which the filters see
    the mail changes. *)
Theorem C94_order_refuted : ~ (forall (l : list (definition unit)) c m n c', define_all empty_configuration l = Some c ->
  In m (map fst (milters c)) -> define c (DefineMilter m [AddCondition n]) = Some c' -> map fst (milters c') = map fst (milters c)).
Proof.
  intros H. destruct (define_all empty_configuration ex_configuration) as [c|] eqn:D; [|discriminate D].
  specialize (H ex_configuration c (lit "a") (lit "c")). vm_compute in D. injection D as <-.
  destruct (define _ (DefineMilter (lit "a") [AddCondition (lit "c")])) as [c'|] eqn:X in H; [|discriminate X].
  specialize (H c' eq_refl (or_introl eq_refl) eq_refl). vm_compute in X. injection X as <-. discriminate H.
Qed.
Print Assumptions C94_order_refuted.
