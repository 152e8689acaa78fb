(** Proofs about applicable conditions. *)
From Verif.Base Require Import Bytes BytesFacts.
From Verif.Model Require Import CommandCodec Macros Conditions.
From Verif.Spec Require Import ConditionSpec.
Import List.

Section Proofs.
  Context {E : Type}.
  Implicit Types (k : condition E) (ks : list (condition E)) (e : E) (a : pagent).

  Lemma stage_eq : forall s s', stage_beq s s' = true <-> s = s'.
  Proof. destruct s, s'; cbn; split; congruence. Qed.
  Lemma passed_called : forall k c, called_with k c (passed k c).
  Proof.
    intros k c. unfold passed. destruct (c_stage c) eqn:S;
      try (apply called_plainly; congruence); [apply called_body | apply called_end]; assumption.
  Qed.
  Lemma called_passed : forall k c args, called_with k c args -> args = passed k c.
  Proof.
    intros k c args H. unfold passed. destruct H as [H1 H2 | H | H]; try (rewrite H; reflexivity).
    destruct (c_stage c); congruence.
  Qed.
  Lemma stoppers_of : forall s l, of_stage s l (map snd (filter (fun p => stage_beq (fst p) s) l)) (E := E).
  Proof.
    induction l as [|[s' p] l IH]; cbn [filter map fst]; [constructor|].
    destruct (stage_beq s' s) eqn:B.
    - apply stage_eq in B. subst. cbn [map snd]. constructor. exact IH.
    - apply of_other; [intros D; apply stage_eq in D; congruence | exact IH].
  Qed.
  Lemma of_stage_eq : forall s (l : list (stage * stopper E)) ps, of_stage s l ps ->
    ps = map snd (filter (fun p => stage_beq (fst p) s) l).
  Proof.
    induction 1 as [|p l ps H IH|s' p l ps D H IH]; cbn [filter map fst]; [reflexivity| |].
    - replace (stage_beq s s) with true by (symmetry; apply stage_eq; reflexivity). cbn [map snd]. congruence.
    - destruct (stage_beq s' s) eqn:B; [apply stage_eq in B; contradiction | exact IH].
  Qed.
  Definition asks (c : command) ks : list (stopper E * list argument) :=
    flat_map (fun k => map (fun p => (p, passed k c)) (stoppers_at (c_stage c) k)) ks.
  Lemma questions_asks : forall c ks, questions c ks (asks c ks).
  Proof.
    induction ks as [|k ks IH]; [constructor|]. cbn [asks flat_map].
    apply questions_cons; [apply passed_called | apply stoppers_of | exact IH].
  Qed.
  Lemma asks_questions : forall c ks qs, questions c ks qs -> qs = asks c ks.
  Proof.
    induction 1 as [|k ks args ps qs H O Q IH]; [reflexivity|]. cbn [asks flat_map].
    apply called_passed in H. apply of_stage_eq in O. subst. reflexivity.
  Qed.

  Fixpoint asked_flat (qs : list (stopper E * list argument)) e a : pagent * bool :=
    match qs with
    | [] => (a, false)
    | (p, args) :: qs => let (a, r) := p e a args in if guarded r then (a, true) else asked_flat qs e a
    end.
  Lemma any_stops_flat : forall l e a args qs,
    asked_flat (map (fun p => (p, args)) l ++ qs) e a =
    (let (a', stop) := any_stops l e a args in if stop then (a', true) else asked_flat qs e a').
  Proof.
    induction l as [|p l IH]; intros e a args qs; cbn [map app asked_flat any_stops]; [reflexivity|].
    destruct (p e a args) as [a1 r]. destruct (guarded r); [reflexivity | apply IH].
  Qed.
  Lemma asked_is_flat : forall ks e a c, asked ks e a c = asked_flat (asks c ks) e a.
  Proof.
    induction ks as [|k ks IH]; intros e a c; [reflexivity|]. cbn [asked asks flat_map].
    rewrite any_stops_flat. destruct (any_stops _ _ _ _) as [a1 stop]. destruct stop; [reflexivity | apply IH].
  Qed.
  (** ** Who is asked *)
  Lemma flat_false : forall qs e a a', asked_flat qs e a = (a', false) <->
    exists rs, answered e a qs rs a' /\ ~ In Yes rs.
  Proof.
    induction qs as [|[p args] qs IH]; intros e a a'; cbn [asked_flat].
    - split.
      + intros H. injection H as <-. exists []. split; [constructor | intros []].
      + intros [rs [H _]]. inversion H. reflexivity.
    - destruct (p e a args) as [a1 r] eqn:P. split.
      + intros H. destruct (guarded r) eqn:G; [discriminate|]. apply IH in H. destruct H as [rs [H N]].
        exists (r :: rs). split; [econstructor; eassumption|]. intros [D|D]; [subst; discriminate | contradiction].
      + intros [rs [H N]]. inversion H as [|? ? ? r' ? rs' a1' ? P' H']; subst. rewrite P in P'. injection P' as <- <-.
        destruct r; [exfalso; apply N; left; reflexivity| |]; cbn [guarded]; apply IH; exists rs';
          (split; [assumption | intros D; apply N; right; assumption]).
  Qed.
  Lemma flat_true : forall qs e a a', asked_flat qs e a = (a', true) <->
    exists qs1 p args qs2 rs a1, qs = qs1 ++ (p, args) :: qs2 /\ answered e a qs1 rs a1 /\ ~ In Yes rs /\ p e a1 args = (a', Yes).
  Proof.
    induction qs as [|[p args] qs IH]; intros e a a'; cbn [asked_flat].
    - split; [discriminate|]. intros (qs1 & p & args & qs2 & rs & a1 & D & _). destruct qs1; discriminate.
    - destruct (p e a args) as [a1 r] eqn:P. split.
      + intros H. destruct (guarded r) eqn:G.
        * destruct r; try discriminate. injection H as <-.
          exists [], p, args, qs, [], a. repeat apply conj; [reflexivity | constructor | intros [] | exact P].
        * apply IH in H. destruct H as (qs1 & p' & args' & qs2 & rs & a2 & -> & H & N & P').
          exists ((p, args) :: qs1), p', args', qs2, (r :: rs), a2. repeat apply conj; [reflexivity | econstructor; eassumption | | exact P'].
          intros [D|D]; [subst; discriminate | contradiction].
      + intros (qs1 & p' & args' & qs2 & rs & a2 & D & H & N & P'). destruct qs1 as [|q qs1].
        * cbn [app] in D. injection D as <- <- <-. inversion H; subst. rewrite P in P'. injection P' as -> ->. reflexivity.
        * cbn [app] in D. injection D as <- ->. inversion H as [|? ? ? r' ? rs' a1' ? P1 H1]; subst.
          rewrite P in P1. injection P1 as <- <-.
          destruct r; [exfalso; apply N; left; reflexivity| |]; cbn [guarded]; apply IH;
            exists qs1, p', args', qs2, rs', a2; (repeat apply conj; [reflexivity | assumption | intros D; apply N; right; assumption | assumption]).
  Qed.

  (** ** Who is told *)
  Definition early (s : stage) : bool := match s with AtConnect | AtHelo | AtFrom => true | _ => false end.
  Lemma early_iff : forall s, early s = true <-> s = AtConnect \/ s = AtHelo \/ s = AtFrom.
  Proof. destruct s; cbn; intuition congruence. Qed.
  Definition invariant (f : child) (h : list (seen (E := E))) : Prop :=
    (c_quitted f = true <-> gone h) /\ (~ gone h -> (c_processing f = true <-> in_message h)).
  Lemma invariant_new : invariant child_new [].
  Proof.
    split; cbn [child_new c_quitted c_processing].
    - split; [discriminate|]. intros (e & c & [] & _).
    - intros _. split; [discriminate|]. intros (h1 & e & c & t & h2 & D & _). destruct h1; discriminate.
  Qed.
  Lemma gone_snoc : forall h e c o, gone (h ++ [SCommand e c o]) (E := E) <->
    gone h \/ (o = Stopped /\ (c_stage c = AtConnect \/ c_stage c = AtHelo)).
  Proof.
    intros h e c o. split.
    - intros (e' & c' & I & S). apply in_app_or in I. destruct I as [I|[I|[]]].
      + left. exists e', c'. tauto.
      + right. injection I as <- <- <-. tauto.
    - intros [(e' & c' & I & S)|[-> S]].
      + exists e', c'. split; [apply in_or_app; left; exact I | exact S].
      + exists e, c. split; [apply in_or_app; right; left; reflexivity | exact S].
  Qed.
  Lemma gone_abort : forall h, gone (h ++ [SAbort]) (E := E) <-> gone h.
  Proof.
    intros h. split.
    - intros (e' & c' & I & S). apply in_app_or in I. destruct I as [I|[I|[]]]; [|discriminate]. exists e', c'. tauto.
    - intros (e' & c' & I & S). exists e', c'. split; [apply in_or_app; left; exact I | exact S].
  Qed.
  Lemma in_message_snoc : forall h x, in_message (h ++ [x]) (E := E) <->
    (exists e c t, x = SCommand e c (Told t) /\ c_stage c = AtFrom) \/ (in_message h /\ ~ closes x).
  Proof.
    intros h x. split.
    - intros (h1 & e & c & t & h2 & D & S & F). destruct h2 as [|y h2] using rev_ind.
      + apply app_inj_tail in D. destruct D as [-> ->]. left. exists e, c, t. tauto.
      + clear IHh2. rewrite app_comm_cons, app_assoc in D. apply app_inj_tail in D. destruct D as [-> ->].
        apply Forall_app in F. destruct F as [F1 F2]. right. split; [|exact (Forall_inv F2)].
        exists h1, e, c, t, h2. tauto.
    - intros [(e & c & t & -> & S)|[(h1 & e & c & t & h2 & -> & S & F) C]].
      + exists h, e, c, t, []. repeat apply conj; [reflexivity | exact S | apply Forall_nil].
      + exists h1, e, c, t, (h2 ++ [x]). repeat apply conj; [|exact S|].
        * rewrite <- app_assoc. reflexivity.
        * apply Forall_app. split; [exact F | apply Forall_cons; [exact C | apply Forall_nil]].
  Qed.
  Lemma concerned_iff : forall f h s, invariant f h -> (concerned f s = true <-> takes_part h s).
  Proof.
    intros f h s [Q P]. unfold concerned, takes_part.
    destruct (c_quitted f) eqn:G.
    - assert (gone h) by (apply Q; reflexivity). destruct s; rewrite ?andb_false_r; cbn; split; try discriminate; tauto.
    - assert (N : ~ gone h) by (intros D; apply Q in D; discriminate). specialize (P N).
      destruct s; cbn [negb]; rewrite ?andb_true_r; try (split; [intros _; split; tauto | reflexivity]);
        rewrite P; split; intros H; try (split; [exact N|]; tauto); destruct H as [_ [D|[D|[D|D]]]];
          first [discriminate D | exact D].
  Qed.
  Lemma closes_command : forall e c o, closes (SCommand e c o) (E := E) <-> o = Stopped /\ of_content (c_stage c).
  Proof.
    intros e c o. split.
    - intros [D|(e' & c' & D & S)]; [discriminate|]. injection D as <- <- ->. tauto.
    - intros [-> S]. right. exists e, c. tauto.
  Qed.
  Lemma tell_step : forall ks f h e c f' o, invariant f h -> tell ks f e c = (f', o) ->
    (o = Passed <-> ~ takes_part h (c_stage c)) /\ invariant f' (h ++ [SCommand e c o]).
  Proof.
    intros ks f h e c f' o I T. pose proof (concerned_iff f h (c_stage c) I) as C. unfold tell in T.
    destruct (concerned f (c_stage c)) eqn:B.
    - destruct (asked _ _ _ _) as [a' stop]. assert (P : takes_part h (c_stage c)) by (apply C; reflexivity).
      destruct I as [Q M]. pose proof (proj1 P) as NG. specialize (M NG).
      assert (NQ : c_quitted f = false) by (destruct (c_quitted f); [exfalso; apply NG, Q; reflexivity | reflexivity]).
      destruct stop; injection T as <- <-.
      + split; [split; [discriminate | intros D; contradiction]|].
        split.
        * rewrite gone_snoc. destruct (c_stage c); cbn [c_quitted]; rewrite ?NQ; split; intros H;
            try discriminate; try reflexivity;
            try (right; split; [reflexivity | tauto]);
            destruct H as [H|[_ [H|H]]]; first [contradiction | discriminate].
        * intros NG'. rewrite in_message_snoc, closes_command. unfold of_content.
          assert (K : ~ (c_stage c = AtConnect \/ c_stage c = AtHelo)).
          { intros D. apply NG'. apply gone_snoc. right. tauto. }
          destruct (c_stage c) eqn:S; try (exfalso; apply K; tauto); cbn [c_processing]; rewrite ?M; split; intros H;
            try discriminate H;
            try (right; split; [exact H|]; intros [_ D]; repeat (destruct D as [D|D]; try discriminate D); discriminate D);
            destruct H as [(e' & c' & t & D & _)|[H D]];
              first [discriminate D | exact H | exfalso; apply D; split; [reflexivity | tauto]].
      + split; [split; [discriminate | intros D; contradiction]|].
        split.
        * rewrite gone_snoc. cbn [c_quitted]. rewrite NQ. split; [discriminate|].
          intros [H|[H _]]; [contradiction | discriminate].
        * intros _. rewrite in_message_snoc, closes_command. cbn [c_processing].
          destruct (c_stage c) eqn:S; rewrite ?M; split; intros H; try reflexivity;
            try (right; split; [exact H | intros [D _]; discriminate D]);
            try (left; eexists _, _, _; split; [reflexivity | exact S]);
            destruct H as [(e' & c' & t & D & S')|[H _]]; try exact H; injection D as <- <- <-; congruence.
    - injection T as <- <-. assert (NP : ~ takes_part h (c_stage c)) by (intros D; apply C in D; discriminate).
      split; [split; [intros _; exact NP | reflexivity]|].
      destruct I as [Q M]. split.
      + rewrite gone_snoc, Q. split; [tauto|]. intros [H|[H _]]; [exact H | discriminate].
      + intros NG. assert (NG' : ~ gone h) by (intros D; apply NG, gone_snoc; tauto).
        rewrite in_message_snoc, closes_command, (M NG'). split; [intros H; right; split; [exact H | intros [D _]; discriminate]|].
        intros [(e' & c' & t & D & S')|[H _]]; [discriminate D | exact H].
  Qed.
  Lemma step_other : forall ks f h x f', invariant f h -> (forall e c, x <> ECommand e c) -> fst (step ks f x) = f' ->
    snd (step ks f x) = [] /\ invariant f' (match x with EAbort => h ++ [SAbort] | _ => h end).
  Proof.
    intros ks f h x f' [Q M] N D. destruct x as [s t|e c|]; [|exfalso; apply (N e c); reflexivity|]; cbn [step fst snd] in *; subst f'; (split; [reflexivity|]).
    - unfold define_macros. match goal with |- invariant (if ?b then _ else _) _ => destruct b end; split; assumption.
    - unfold abort. destruct (c_quitted f) eqn:B.
      + assert (G : gone h) by (apply Q; reflexivity). split; [rewrite gone_abort, B; tauto|].
        intros NG. exfalso. apply NG, gone_abort, G.
      + split.
        * rewrite gone_abort. cbn [c_quitted]. exact Q.
        * intros _. cbn [c_processing]. rewrite in_message_snoc. split; [discriminate|].
          intros [(e & c & t & D & _)|[_ D]]; [discriminate D|]. exfalso. apply D. left. reflexivity.
  Qed.
  Lemma run_app : forall ks l l' f, run ks f (l ++ l') =
    (fst (run ks (fst (run ks f l)) l'), snd (run ks f l) ++ snd (run ks (fst (run ks f l)) l')).
  Proof.
    induction l as [|x l IH]; intros l' f.
    - cbn [app run fst snd]. destruct (run ks f l'); reflexivity.
    - cbn [app run]. destruct (step ks f x) as [f1 o]. rewrite IH. destruct (run ks f1 l) as [f2 os]. cbn [fst snd].
      rewrite app_assoc. reflexivity.
  Qed.
  (** Every record of a run, taken from a state with its history. *)
  Lemma run_records : forall ks l f h0 f' os h, invariant f h0 -> run ks f l = (f', os) -> recorded l os h ->
    invariant f' (h0 ++ h) /\
    forall h1 e c o h2, h = h1 ++ SCommand e c o :: h2 ->
      exists f1 f2, invariant f1 (h0 ++ h1) /\ tell ks f1 e c = (f2, o) /\ (o = Passed <-> ~ takes_part (h0 ++ h1) (c_stage c)).
  Proof.
    induction l as [|x l IH]; intros f h0 f' os h I R H.
    - cbn [run] in R. injection R as <- <-. inversion H; subst. rewrite app_nil_r. split; [exact I|].
      intros h1 e c o h2 D. destruct h1; discriminate.
    - cbn [run] in R. destruct (step ks f x) as [f1 o1] eqn:T. destruct (run ks f1 l) as [f2 os2] eqn:R2.
      injection R as <- <-. destruct x as [s t|e c|].
      + destruct (step_other ks f h0 (EMacros s t) f1 I) as [D I1]; [discriminate | rewrite T; reflexivity|].
        rewrite T in D. cbn [snd] in D. subst o1. cbn [app] in H. inversion H as [|? ? ? ? ? H3| |]; subst. exact (IH _ _ _ _ _ I1 R2 H3).
      + cbn [step] in T. destruct (tell ks f e c) as [f3 o3] eqn:T3. injection T as <- <-.
        cbn [app] in H. inversion H as [| |? ? ? ? ? h' H'|]; subst. destruct (tell_step _ _ _ _ _ _ _ I T3) as [P I1].
        destruct (IH _ _ _ _ _ I1 R2 H') as [I2 A]. rewrite <- app_assoc in I2. split; [exact I2|].
        intros h1 e' c' o' h2 D. destruct h1 as [|y h1]; cbn [app] in D.
        * injection D as <- <- <- _. rewrite app_nil_r. exists f, f3. tauto.
        * injection D as D1 D2. subst y. destruct (A _ _ _ _ _ D2) as (g1 & g2 & K). rewrite <- app_assoc in K. exists g1, g2. exact K.
      + destruct (step_other ks f h0 EAbort f1 I) as [D I1]; [discriminate | rewrite T; reflexivity|].
        rewrite T in D. cbn [snd] in D. subst o1. cbn [app] in H. inversion H as [| | |? ? h' H1]; subst.
        destruct (IH _ _ _ _ _ I1 R2 H1) as [I2 A]. rewrite <- app_assoc in I2. split; [exact I2|].
        intros h1 e' c' o' h2 D. destruct h1 as [|y h1]; cbn [app] in D; [discriminate|].
        injection D as D1 D2. subst y. destruct (A _ _ _ _ _ D2) as (g1 & g2 & K). rewrite <- app_assoc in K. exists g1, g2. exact K.
  Qed.
  Lemma recorded_exists : forall ks l f, exists h, recorded l (snd (run ks f l)) h.
  Proof.
    induction l as [|x l IH]; intros f; [exists []; constructor|]. cbn [run]. destruct (step ks f x) as [f1 o] eqn:T.
    destruct (IH f1) as [h H]. destruct (run ks f1 l) as [f2 os]. cbn [snd] in *.
    destruct x as [s t|e c|]; cbn [step] in T.
    - injection T as <- <-. exists h. constructor. exact H.
    - destruct (tell ks f e c) as [f3 o3]. injection T as <- <-. exists (SCommand e c o3 :: h). constructor. exact H.
    - injection T as <- <-. exists (SAbort :: h). constructor. exact H.
  Qed.

  (** ** Steady stoppers *)
  Lemma steady_objects : forall ks e a c, steady ks ->
    (snd (asked ks e a c) = true <-> objects ks e c).
  Proof.
    induction ks as [|k ks IH]; intros e a c St.
    - cbn [asked snd]. split; [discriminate|]. intros (k & p & args & [] & _).
    - cbn [asked].
      assert (St' : steady ks) by (intros k' s p I; apply (St k'); right; exact I).
      assert (A : snd (any_stops (stoppers_at (c_stage c) k) e a (passed k c)) = true <->
                  exists p, In (c_stage c, p) (k_stoppers k) /\ forall a, snd (p e a (passed k c)) = Yes).
      { assert (L : forall p, In p (stoppers_at (c_stage c) k) <-> In (c_stage c, p) (k_stoppers k)).
        { intros p. unfold stoppers_at. rewrite in_map_iff. split.
          - intros ([s p'] & <- & I). apply filter_In in I. destruct I as [I B]. cbn [fst snd] in *. apply stage_eq in B. subst. exact I.
          - intros I. exists (c_stage c, p). split; [reflexivity|]. apply filter_In. split; [exact I | apply stage_eq; reflexivity]. }
        assert (S1 : forall p, In p (stoppers_at (c_stage c) k) -> forall e a a' args, snd (p e a args) = snd (p e a' args)).
        { intros p I. apply (St k (c_stage c) p); [left; reflexivity | apply L, I]. }
        transitivity (exists p, In p (stoppers_at (c_stage c) k) /\ forall a, snd (p e a (passed k c)) = Yes).
        2:{ split; intros [p [I Y]]; exists p; (split; [apply L, I | exact Y]). }
        clear L. revert a. induction (stoppers_at (c_stage c) k) as [|p l IHl]; intros a; cbn [any_stops].
        - split; [discriminate|]. intros [p [[] _]].
        - assert (S2 : forall p0, In p0 l -> forall e a a' args, snd (p0 e a args) = snd (p0 e a' args)) by (intros p0 I; apply S1; right; exact I).
          pose proof (S1 p (or_introl eq_refl) e) as Sp.
          destruct (p e a (passed k c)) as [a1 r] eqn:P. destruct (guarded r) eqn:G.
          + destruct r; try discriminate. cbn [snd]. split; [intros _|reflexivity]. exists p. split; [left; reflexivity|].
            intros a'. rewrite (Sp a' a), P. reflexivity.
          + rewrite (IHl S2 a1). split; intros [p' [I Y]].
            * exists p'. split; [right; exact I | exact Y].
            * destruct I as [<-|I]; [|exists p'; tauto]. specialize (Y a). rewrite P in Y. cbn [snd] in Y. subst r. discriminate. }
      destruct (any_stops _ _ _ _) as [a1 stop]. cbn [snd] in A. destruct stop.
      + cbn [snd]. split; [intros _|reflexivity]. destruct (proj1 A eq_refl) as [p [I Y]].
        exists k, p, (passed k c). repeat apply conj; [left; reflexivity | exact I | apply passed_called | exact Y].
      + rewrite (IH e a1 c St'). split; intros (k' & p & args & I & J & C & Y).
        * exists k', p, args. repeat apply conj; try assumption. right. exact I.
        * destruct I as [<-|I]; [|exists k', p, args; tauto]. apply called_passed in C. subst args.
          exfalso. assert (D : false = true) by (apply A; exists p; tauto). discriminate.
  Qed.
  Lemma tell_stopped : forall ks f h e c f' o, steady ks -> invariant f h -> tell ks f e c = (f', o) ->
    (o = Stopped <-> takes_part h (c_stage c) /\ objects ks e c).
  Proof.
    intros ks f h e c f' o St I T. pose proof (concerned_iff f h (c_stage c) I) as C. unfold tell in T.
    destruct (concerned f (c_stage c)) eqn:B.
    - set (a0 := match c_stage c with AtHelo => _ | _ => _ end) in T. pose proof (steady_objects ks e a0 c St) as O.
      destruct (asked ks e a0 c) as [a' stop]. cbn [snd] in O. destruct stop; injection T as <- <-.
      + split; [intros _; split; [apply C | apply O]; reflexivity | reflexivity].
      + split; [discriminate|]. intros [_ D]. apply O in D. discriminate.
    - injection T as <- <-. split; [discriminate|]. intros [D _]. apply C in D. discriminate.
  Qed.

  (** ** Definitions *)
  Lemma find_condition_app : forall (l l' : list (condition E)) n,
    find_condition (l ++ l') n = match find_condition l n with Some k => Some k | None => find_condition l' n end.
  Proof.
    induction l as [|k l IH]; intros l' n; [reflexivity|]. unfold find_condition in *. cbn [app find].
    destruct (bytes_eqb (k_name k) n); [reflexivity | apply IH].
  Qed.
  Lemma find_condition_none : forall (l : list (condition E)) n, ~ In n (map k_name l) -> find_condition l n = None.
  Proof.
    induction l as [|k l IH]; intros n N; [reflexivity|]. unfold find_condition in *. cbn [find].
    destruct (bytes_eqb (k_name k) n) eqn:B; [apply bytes_eqb_eq in B; exfalso; apply N; left; exact B|].
    apply IH. intros I. apply N. right. exact I.
  Qed.
  Lemma remove_condition_in : forall (l : list (condition E)) n m, NoDup (map k_name l) ->
    (In m (map k_name (remove_condition l n)) <-> In m (map k_name l) /\ m <> n).
  Proof.
    induction l as [|k l IH]; intros n m U; [cbn; tauto|]. cbn [map] in U. apply NoDup_cons_iff in U. destruct U as [N U].
    cbn [remove_condition map]. destruct (bytes_eqb (k_name k) n) eqn:B.
    - apply bytes_eqb_eq in B. subst n. split.
      + intros I. split; [right; exact I|]. intros ->. contradiction.
      + intros [[D|I] D']; [congruence | exact I].
    - apply bytes_eqb_neq in B. cbn [map In]. rewrite (IH _ _ U). intuition congruence.
  Qed.
  Lemma remove_condition_unique : forall (l : list (condition E)) n, NoDup (map k_name l) -> NoDup (map k_name (remove_condition l n)).
  Proof.
    induction l as [|k l IH]; intros n U; [constructor|]. pose proof U as U0. cbn [map] in U. apply NoDup_cons_iff in U. destruct U as [N U].
    cbn [remove_condition]. destruct (bytes_eqb (k_name k) n) eqn:B; [exact U|]. cbn [map]. constructor; [|apply IH, U].
    intros I. apply (remove_condition_in _ _ _ U) in I. tauto.
  Qed.
  Lemma find_removed : forall (l : list (condition E)) n m, m <> n -> find_condition (remove_condition l n) m = find_condition l m.
  Proof.
    induction l as [|k l IH]; intros n m D; [reflexivity|]. cbn [remove_condition]. unfold find_condition in *.
    destruct (bytes_eqb (k_name k) n) eqn:B; cbn [find].
    - apply bytes_eqb_eq in B. subst n. destruct (bytes_eqb (k_name k) m) eqn:B'; [apply bytes_eqb_eq in B'; congruence | reflexivity].
    - destruct (bytes_eqb (k_name k) m); [reflexivity | apply IH, D].
  Qed.
  Lemma find_milter_app : forall (l l' : list (bytes * list (condition E))) n,
    find_milter (l ++ l') n = match find_milter l n with Some k => Some k | None => find_milter l' n end.
  Proof.
    induction l as [|k l IH]; intros l' n; [reflexivity|]. unfold find_milter in *. cbn [app find].
    destruct (bytes_eqb (fst k) n); [reflexivity | apply IH].
  Qed.
  Lemma find_milter_none : forall (l : list (bytes * list (condition E))) n, ~ In n (map fst l) -> find_milter l n = None.
  Proof.
    induction l as [|k l IH]; intros n N; [reflexivity|]. unfold find_milter in *. cbn [find].
    destruct (bytes_eqb (fst k) n) eqn:B; [apply bytes_eqb_eq in B; exfalso; apply N; left; exact B|].
    apply IH. intros I. apply N. right. exact I.
  Qed.
  Lemma remove_milter_in : forall (l : list (bytes * list (condition E))) n m, NoDup (map fst l) ->
    (In m (map fst (remove_milter l n)) <-> In m (map fst l) /\ m <> n).
  Proof.
    induction l as [|k l IH]; intros n m U; [cbn; tauto|]. cbn [map] in U. apply NoDup_cons_iff in U. destruct U as [N U].
    cbn [remove_milter map]. destruct (bytes_eqb (fst k) n) eqn:B.
    - apply bytes_eqb_eq in B. subst n. split.
      + intros I. split; [right; exact I|]. intros ->. contradiction.
      + intros [[D|I] D']; [congruence | exact I].
    - apply bytes_eqb_neq in B. cbn [map In]. rewrite (IH _ _ U). intuition congruence.
  Qed.
  Lemma remove_milter_unique : forall (l : list (bytes * list (condition E))) n, NoDup (map fst l) -> NoDup (map fst (remove_milter l n)).
  Proof.
    induction l as [|k l IH]; intros n U; [constructor|]. pose proof U as U0. cbn [map] in U. apply NoDup_cons_iff in U. destruct U as [N U].
    cbn [remove_milter]. destruct (bytes_eqb (fst k) n) eqn:B; [exact U|]. cbn [map]. constructor; [|apply IH, U].
    intros I. apply (remove_milter_in _ _ _ U) in I. tauto.
  Qed.
  Lemma find_milter_removed : forall (l : list (bytes * list (condition E))) n m, m <> n -> find_milter (remove_milter l n) m = find_milter l m.
  Proof.
    induction l as [|k l IH]; intros n m D; [reflexivity|]. cbn [remove_milter]. unfold find_milter in *.
    destruct (bytes_eqb (fst k) n) eqn:B; cbn [find].
    - apply bytes_eqb_eq in B. subst n. destruct (bytes_eqb (fst k) m) eqn:B'; [apply bytes_eqb_eq in B'; congruence | reflexivity].
    - destruct (bytes_eqb (fst k) m); [reflexivity | apply IH, D].
  Qed.
  Lemma find_milter_gone : forall (l : list (bytes * list (condition E))) n, NoDup (map fst l) -> find_milter (remove_milter l n) n = None.
  Proof. intros l n U. apply find_milter_none. intros I. apply (remove_milter_in _ _ _ U) in I. tauto. Qed.
  Lemma find_condition_gone : forall (l : list (condition E)) n, NoDup (map k_name l) -> find_condition (remove_condition l n) n = None.
  Proof. intros l n U. apply find_condition_none. intros I. apply (remove_condition_in _ _ _ U) in I. tauto. Qed.

  Definition represents (c : configuration E) (l : list (definition E)) : Prop :=
    NoDup (map k_name (conditions c)) /\ NoDup (map fst (milters c)) /\
    (forall n k, find_condition (conditions c) n = Some k <-> exists ps, defined_last l n ps /\ k = mk_condition n ps) /\
    (forall m ks, find_milter (milters c) m = Some ks <-> has_conditions m l ks) /\
    (forall m, find_milter (milters c) m = None <-> absent m l).
  Lemma defined_last_snoc : forall (l : list (definition E)) d n ps, defined_last (l ++ [d]) n ps <->
    d = DefineCondition n ps \/ (defined_last l n ps /\ forall ps', d <> DefineCondition n ps').
  Proof.
    intros l d n ps. split.
    - intros (l1 & l2 & D & N). destruct l2 as [|x l2 _] using rev_ind.
      + apply app_inj_tail in D. destruct D as [_ ->]. left. reflexivity.
      + rewrite app_comm_cons, app_assoc in D. apply app_inj_tail in D. destruct D as [-> ->]. right. split.
        * exists l1, l2. split; [reflexivity|]. intros ps' I. apply (N ps'), in_or_app. left. exact I.
        * intros ps' ->. apply (N ps'), in_or_app. right. left. reflexivity.
    - intros [->|[(l1 & l2 & -> & N) D]].
      + exists l, []. split; [reflexivity | intros ps' []].
      + exists l1, (l2 ++ [d]). rewrite <- app_assoc. split; [reflexivity|]. intros ps' I. apply in_app_or in I.
        destruct I as [I|[I|[]]]; [exact (N _ I) | exact (D _ I)].
  Qed.
  Lemma absent_snoc : forall (l : list (definition E)) d m, absent m (l ++ [d]) <->
    d = RemoveMilter m \/ (absent m l /\ forall cs, d <> DefineMilter m cs).
  Proof.
    intros l d m. split.
    - intros [N|(l1 & l2 & D & N)].
      + right. split; [left; intros cs I; apply (N cs), in_or_app; left; exact I|].
        intros cs ->. apply (N cs), in_or_app. right. left. reflexivity.
      + destruct l2 as [|x l2 _] using rev_ind.
        * apply app_inj_tail in D. destruct D as [_ ->]. left. reflexivity.
        * rewrite app_comm_cons, app_assoc in D. apply app_inj_tail in D. destruct D as [-> ->]. right. split.
          -- right. exists l1, l2. split; [reflexivity|]. intros cs I. apply (N cs), in_or_app. left. exact I.
          -- intros cs ->. apply (N cs), in_or_app. right. left. reflexivity.
    - intros [->|[[N|(l1 & l2 & -> & N)] D]].
      + right. exists l, []. split; [reflexivity | intros cs []].
      + left. intros cs I. apply in_app_or in I. destruct I as [I|[I|[]]]; [exact (N _ I) | exact (D _ I)].
      + right. exists l1, (l2 ++ [d]). rewrite <- app_assoc. split; [reflexivity|]. intros cs I. apply in_app_or in I.
        destruct I as [I|[I|[]]]; [exact (N _ I) | exact (D _ I)].
  Qed.
  Lemma has_snoc : forall (l : list (definition E)) d m ks, has_conditions m (l ++ [d]) ks <->
    (exists cs, d = DefineMilter m cs /\ absent m l /\ amended l [] cs ks) \/
    (exists cs before, d = DefineMilter m cs /\ has_conditions m l before /\ amended l before cs ks) \/
    (has_conditions m l ks /\ (forall cs, d <> DefineMilter m cs) /\ d <> RemoveMilter m).
  Proof.
    intros l d m ks. split.
    - intros H. remember (l ++ [d]) as ld eqn:D. destruct H as [l' cs ks A M|l' before cs ks H M|l' d' ks H N1 N2];
        apply app_inj_tail in D; destruct D as [-> <-].
      + left. exists cs. tauto.
      + right. left. exists cs, before. tauto.
      + right. right. tauto.
    - intros [(cs & -> & A & M)|[(cs & before & -> & H & M)|(H & N1 & N2)]].
      + apply has_new; assumption.
      + eapply has_more; eassumption.
      + apply has_still; assumption.
  Qed.
  Section Represented.
    Context (c : configuration E) (l : list (definition E)) (R : represents c l).
    Lemma stand_for_find : forall names ks, find_all (conditions c) names = Some ks <-> stand_for l names ks.
    Proof.
      destruct R as (_ & _ & F & _). unfold stand_for. induction names as [|n names IH]; intros ks; cbn [find_all].
      - split; [intros H; injection H as <-; constructor|]. intros H. inversion H. reflexivity.
      - split.
        + intros H. destruct (find_condition (conditions c) n) as [k|] eqn:K; [|discriminate].
          destruct (find_all (conditions c) names) as [ks'|]; [|discriminate]. injection H as <-.
          constructor; [apply F, K | apply IH; reflexivity].
        + intros H. inversion H as [|? k ? ks' K T]; subst. apply F in K. apply IH in T. rewrite K, T. reflexivity.
    Qed.
    Lemma amended_changed : forall cs ks ks', changed_all (conditions c) ks cs = Some ks' <-> amended l ks cs ks'.
    Proof.
      destruct R as (_ & _ & F & _). induction cs as [|x cs IH]; intros ks ks'; cbn [changed_all].
      - split; [intros H; injection H as <-; constructor|]. intros H. inversion H. reflexivity.
      - destruct x as [names|n|names]; cbn [changed].
        + split.
          * intros H. destruct (find_all (conditions c) names) as [new|] eqn:A; [|discriminate].
            apply stand_for_find in A. econstructor; [exact A | apply IH, H].
          * intros H. inversion H; subst. rewrite (proj2 (stand_for_find _ _) H3). apply IH. assumption.
        + split.
          * intros H. destruct (find_condition (conditions c) n) as [new|] eqn:A; [|discriminate].
            cbn [option_map] in H. apply F in A. eapply amended_add; [|apply IH, H]. constructor; [exact A | constructor].
          * intros H. inversion H as [| | |? ? new ? ? St A]; subst. inversion St as [|? ? ? ? K _]; subst. apply F in K. rewrite K. cbn [option_map].
            apply IH. assumption.
        + split.
          * intros H. destruct (find_all (conditions c) names) as [new|] eqn:A; [|discriminate].
            apply stand_for_find in A. cbn [option_map] in H. eapply amended_append; [exact A | apply IH, H].
          * intros H. inversion H; subst. rewrite (proj2 (stand_for_find _ _) H3). cbn [option_map]. apply IH. assumption.
    Qed.
  End Represented.
  Lemma represents_empty : represents empty_configuration [].
  Proof.
    repeat apply conj; cbn [conditions milters empty_configuration map]; try constructor.
    - intros H. discriminate H.
    - intros (ps & (l1 & l2 & D & _) & _). destruct l1; discriminate.
    - discriminate.
    - intros H. remember [] as l eqn:D. destruct H; destruct l; discriminate.
    - intros _. left. intros cs [].
    - reflexivity.
  Qed.
  Lemma unique_snoc : forall (A : Type) (l : list A) x, NoDup l -> ~ In x l -> NoDup (l ++ [x]).
  Proof.
    induction l as [|y l IH]; intros x U N; cbn [app]; [constructor; [intros [] | constructor]|].
    apply NoDup_cons_iff in U. destruct U as [N' U]. constructor.
    - intros I. apply in_app_or in I. destruct I as [I|[I|[]]]; [contradiction|]. apply N. left. symmetry. exact I.
    - apply IH; [exact U|]. intros I. apply N. right. exact I.
  Qed.
  Lemma define_represents : forall c l d c', represents c l -> define c d = Some c' -> represents c' (l ++ [d]).
  Proof.
    intros c l d c' R D. pose proof (amended_changed c l R) as AM. destruct R as (U1 & U2 & F & M & A).
    destruct d as [n ps|n cs|n]; cbn [define] in D.
    - injection D as <-. unfold represents. cbn [conditions milters]. repeat apply conj.
      + rewrite map_app. cbn [map k_name]. apply unique_snoc; [apply remove_condition_unique, U1|].
        intros I. apply (remove_condition_in _ _ _ U1) in I. tauto.
      + exact U2.
      + intros m k. rewrite find_condition_app. destruct (bytes_eqb n m) eqn:B.
        * apply bytes_eqb_eq in B. subst m. rewrite (find_condition_gone _ _ U1). unfold find_condition. cbn [find k_name].
          rewrite bytes_eqb_refl. split.
          -- intros H. injection H as <-. exists ps. split; [apply defined_last_snoc; left; reflexivity | reflexivity].
          -- intros (ps' & H & ->). apply defined_last_snoc in H. destruct H as [H|[_ H]]; [injection H as ->; reflexivity|].
             exfalso. apply (H ps). reflexivity.
        * apply bytes_eqb_neq in B. rewrite find_removed by congruence. unfold find_condition at 2. cbn [find k_name].
          rewrite (proj2 (bytes_eqb_neq n m) B).
          transitivity (find_condition (conditions c) m = Some k); [destruct (find_condition (conditions c) m); tauto|].
          rewrite F. split; intros (ps' & H & ->); exists ps'; (split; [|reflexivity]).
          -- apply defined_last_snoc. right. split; [exact H | intros ps2; congruence].
          -- apply defined_last_snoc in H. destruct H as [H|[H _]]; [congruence | exact H].
      + intros m ks. rewrite M, has_snoc. split; [intros H; right; right; repeat apply conj; [exact H | discriminate | discriminate]|].
        intros [(cs & H & _)|[(cs & b & H & _)|(H & _)]]; [discriminate | discriminate | exact H].
      + intros m. rewrite A, absent_snoc. split; [intros H; right; split; [exact H | discriminate]|].
        intros [H|[H _]]; [discriminate | exact H].
    - destruct (changed_all _ _ cs) as [ks|] eqn:C; [|discriminate]. cbn [option_map] in D. injection D as <-.
      apply AM in C. unfold represents. cbn [conditions milters]. repeat apply conj.
      + exact U1.
      + rewrite map_app. cbn [map fst]. apply unique_snoc; [apply remove_milter_unique, U2|].
        intros I. apply (remove_milter_in _ _ _ U2) in I. tauto.
      + intros m k. rewrite F. split; intros (ps & H & ->); exists ps; (split; [|reflexivity]).
        * apply defined_last_snoc. right. split; [exact H | discriminate].
        * apply defined_last_snoc in H. destruct H as [H|[H _]]; [discriminate | exact H].
      + intros m ks'. rewrite find_milter_app, has_snoc. destruct (bytes_eqb n m) eqn:B.
        * apply bytes_eqb_eq in B. subst m. rewrite (find_milter_gone _ _ U2). unfold find_milter at 1. cbn [find fst].
          rewrite bytes_eqb_refl. cbn [option_map snd].
          destruct (find_milter (milters c) n) as [b|] eqn:B.
          -- pose proof (proj1 (M _ _) B) as HB. split.
             ++ intros H. injection H as <-. right. left. exists cs, b. tauto.
             ++ intros [(cs' & H & H' & _)|[(cs' & b' & H & H' & C')|(_ & H & _)]].
                ** apply A in H'. congruence.
                ** injection H as <-. apply M in H'. apply AM in C'. apply AM in C. congruence.
                ** exfalso. apply (H cs). reflexivity.
          -- pose proof (proj1 (A _) B) as HB. split.
             ++ intros H. injection H as <-. left. exists cs. tauto.
             ++ intros [(cs' & H & H' & C')|[(cs' & b' & H & H' & C')|(_ & H & _)]].
                ** injection H as <-. apply AM in C'. apply AM in C. congruence.
                ** apply M in H'. congruence.
                ** exfalso. apply (H cs). reflexivity.
        * apply bytes_eqb_neq in B. rewrite find_milter_removed by congruence. unfold find_milter at 2. cbn [find fst].
          rewrite (proj2 (bytes_eqb_neq n m) B). cbn [option_map].
          transitivity (find_milter (milters c) m = Some ks'); [destruct (find_milter (milters c) m); tauto|].
          rewrite M. split; [intros H; right; right; repeat apply conj; [exact H | intros cs'; congruence | discriminate]|].
          intros [(cs' & H & _)|[(cs' & b & H & _)|(H & _)]]; [congruence | congruence | exact H].
      + intros m. rewrite find_milter_app, absent_snoc. destruct (bytes_eqb n m) eqn:B.
        * apply bytes_eqb_eq in B. subst m. rewrite (find_milter_gone _ _ U2). unfold find_milter at 1. cbn [find fst].
          rewrite bytes_eqb_refl. split; [discriminate|]. intros [H|[_ H]]; [discriminate | exfalso; apply (H cs); reflexivity].
        * apply bytes_eqb_neq in B. rewrite find_milter_removed by congruence. unfold find_milter at 2. cbn [find fst].
          rewrite (proj2 (bytes_eqb_neq n m) B). cbn [option_map].
          transitivity (find_milter (milters c) m = None); [destruct (find_milter (milters c) m); tauto|].
          rewrite A. split; [intros H; right; split; [exact H | intros cs'; congruence]|].
          intros [H|[H _]]; [discriminate | exact H].
    - injection D as <-. unfold represents. cbn [conditions milters]. repeat apply conj.
      + exact U1.
      + apply remove_milter_unique, U2.
      + intros m k. rewrite F. split; intros (ps & H & ->); exists ps; (split; [|reflexivity]).
        * apply defined_last_snoc. right. split; [exact H | discriminate].
        * apply defined_last_snoc in H. destruct H as [H|[H _]]; [discriminate | exact H].
      + intros m ks. rewrite has_snoc. destruct (bytes_eqb n m) eqn:B.
        * apply bytes_eqb_eq in B. subst m. rewrite (find_milter_gone _ _ U2). split; [discriminate|].
          intros [(cs' & H & _)|[(cs' & b & H & _)|(_ & _ & H)]]; congruence.
        * apply bytes_eqb_neq in B. rewrite find_milter_removed by congruence. rewrite M.
          split; [intros H; right; right; repeat apply conj; [exact H | discriminate | congruence]|].
          intros [(cs' & H & _)|[(cs' & b & H & _)|(H & _)]]; [discriminate | discriminate | exact H].
      + intros m. rewrite absent_snoc. destruct (bytes_eqb n m) eqn:B.
        * apply bytes_eqb_eq in B. subst m. rewrite (find_milter_gone _ _ U2). tauto.
        * apply bytes_eqb_neq in B. rewrite find_milter_removed by congruence. rewrite A.
          split; [intros H; right; split; [exact H | discriminate]|]. intros [H|[H _]]; [congruence | exact H].
  Qed.
  Lemma define_all_represents : forall l' c l c', represents c l -> define_all c l' = Some c' -> represents c' (l ++ l').
  Proof.
    induction l' as [|d l' IH]; intros c l c' R D; cbn [define_all] in D.
    - injection D as <-. rewrite app_nil_r. exact R.
    - destruct (define c d) as [c1|] eqn:C; [|discriminate]. pose proof (define_represents _ _ _ _ R C) as R1.
      specialize (IH _ _ _ R1 D). rewrite <- app_assoc in IH. exact IH.
  Qed.
End Proofs.
