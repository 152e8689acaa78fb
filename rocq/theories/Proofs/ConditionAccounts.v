(** Proofs about the restriction to accounts, and about macros that conditions set. *)
From Verif.Base Require Import Bytes BytesFacts.
From Verif.Model Require Import CommandCodec Macros Conditions.
From Verif.Spec Require Import ConditionSpec ConditionLibrarySpec.
From Verif.Proofs Require Import MacroProofs ConditionProofs SenderRuleProofs ConditionLibrary.
Import List.

Section Accounts.
  Context {E : Type} (name : bytes) (restricted : bytes -> bool).
  Let k : condition E := restrict_condition E name restricted.

  (** Nothing but the table of recipients may hold the flag. *)
  Definition only_recipients (f : child) : Prop :=
    c_quitted f = false /\ tables_ok (pa_macros (c_agent f)) /\
    forall c, c <> "R"%char -> stage_value (pa_macros (c_agent f)) c flag = None.
  Definition free_of_flag (t : table) : Prop := NoDup (map fst t) /\ lookup t flag = None.
  Lemma restrict_tell : forall f e c, only_recipients f -> only_recipients (fst (tell [k] f e c)).
  Proof.
    intros f e c (Q & OK & V). unfold tell.
    destruct (concerned f (c_stage c)) eqn:C; [|cbn [fst]; repeat apply conj; assumption].
    unfold asked, stoppers_at, passed. cbn [k restrict_condition k_stoppers filter fst].
    destruct (c_stage c) eqn:S; cbn [stage_beq map snd fst any_stops];
      try (repeat apply conj; [exact Q | exact OK | exact V]).
    - assert (W : forall a', pa_macros a' = pa_macros (set_own (set_macro_context (c_agent f) "R"%char) flag (Some (lit "true"))) ->
               tables_ok (pa_macros a') /\ forall c', c' <> "R"%char -> stage_value (pa_macros a') c' flag = None).
      { intros a' D. rewrite D. split; [apply set_ok, OK|]. intros c' N. unfold set_own. cbn [pa_context set_macro_context].
        rewrite set_value. destruct (beqb "R" c') eqn:B; [apply beqb_iff in B; congruence|]. apply V, N. }
      destruct (c_arguments c) as [|[r|x] args]; cbn [guarded]; try (repeat apply conj; [exact Q | exact OK | exact V]).
      destruct (restricted r); cbn [guarded fst]; [repeat apply conj; [exact Q | exact OK | exact V]|].
      split; [exact Q|]. apply W. reflexivity.
    - unfold says. cbn [stage_command].
      destruct (macro (set_macro_context (c_agent f) "T"%char) flag) as [v|]; [destruct (bytes_eqb v (lit "true"))|]; cbn [guarded fst];
        repeat apply conj; cbn [c_quitted c_agent]; try exact Q; try exact OK; try exact V; try (apply clear_ok; exact OK).
      intros c' N. rewrite clear_value. destruct (existsb _ _); [reflexivity | apply V, N].
  Qed.
  Lemma define_only : forall f s t, only_recipients f -> free_of_flag t -> only_recipients (define_macros f s t).
  Proof.
    intros f s t (Q & OK & V) [U L]. unfold define_macros.
    match goal with |- only_recipients (if ?b then _ else _) => destruct b end; [|repeat apply conj; assumption].
    repeat apply conj; cbn [c_quitted c_agent]; [exact Q | apply hash_ok, OK|]. intros c N. rewrite hash_value by exact U.
    destruct (beqb _ c); [exact L | apply V, N].
  Qed.
  Lemma restrict_run : forall l f, only_recipients f -> (forall s t, In (EMacros s t) l -> free_of_flag t) ->
    only_recipients (fst (run [k] f l)).
  Proof.
    induction l as [|x l IH]; intros f I F; [exact I|]. cbn [run].
    assert (I1 : only_recipients (fst (step [k] f x))).
    { destruct x as [s t|e c|]; cbn [step].
      - apply define_only; [exact I | apply (F s); left; reflexivity].
      - pose proof (restrict_tell f e c I) as H. destruct (tell [k] f e c). exact H.
      - destruct I as (Q & OK & V). unfold abort. cbn [fst]. rewrite Q. repeat apply conj; cbn [c_quitted c_agent]; [reflexivity | apply clear_ok, OK|].
        intros c N. rewrite clear_value. destruct (existsb _ _); [reflexivity | apply V, N]. }
    destruct (step [k] f x) as [f1 o]. cbn [fst] in I1.
    specialize (IH f1 I1 (fun s t I => F s t (or_intror I))). destruct (run [k] f1 l). exact IH.
  Qed.
  Lemma only_new : only_recipients child_new.
  Proof. repeat apply conj; [reflexivity | exact new_ok | reflexivity]. Qed.

  (** During the recipients. *)
  Definition flagged (f : child) (b : bool) : Prop :=
    only_recipients f /\ c_processing f = true /\ stage_value (pa_macros (c_agent f)) "R"%char flag = if b then Some (lit "true") else None.
  Definition pending (b : bool) (p : option table * bytes) : bool :=
    if restricted (snd p) then match fst p with Some _ => false | None => b end else true.
  Lemma tell_recipient : forall f b e r, flagged f b ->
    exists f' o, tell [k] f e (recipient_of r) = (f', o) /\ (if restricted r then exists t, o = Told t else o = Stopped) /\
      flagged f' (if restricted r then b else true).
  Proof.
    intros f b e r (I & P & V). pose proof (restrict_tell f e (recipient_of r) I) as I'. destruct I as (Q & OK & N).
    destruct (tell [k] f e (recipient_of r)) as [f' o] eqn:T. cbn [fst] in I'. exists f', o. split; [reflexivity|].
    unfold tell, recipient_of, concerned in T. cbn [c_stage] in T. rewrite P, Q in T. cbn [negb andb] in T.
    unfold asked, stoppers_at, passed in T. cbn [k restrict_condition k_stoppers filter fst c_stage stage_beq map snd any_stops c_arguments] in T.
    destruct (restricted r) eqn:R; cbn [guarded] in T; injection T as <- <-.
    - split; [eexists; reflexivity|]. repeat apply conj; try apply I'; cbn [c_processing c_agent]; [reflexivity | exact V].
    - split; [reflexivity|]. repeat apply conj; try apply I'; cbn [c_processing c_agent]; [reflexivity|].
      unfold set_own. cbn [pa_context set_macro_context stage_command]. rewrite set_value.
      replace (beqb "R" "R" && bytes_eqb (normalized flag) flag) with true by reflexivity. reflexivity.
  Qed.
  Lemma run_recipients : forall e l f b, flagged f b -> (forall t r, In (Some t, r) l -> free_of_flag t) ->
    exists f' os, run [k] f (recipients_of e l) = (f', os) /\ flagged f' (fold_left pending l b) /\
      Forall2 (fun p o => if restricted (snd p) then exists t, o = Told t else o = Stopped) l os.
  Proof.
    intros e. induction l as [|[ot r] l IH]; intros f b F U.
    - exists f, []. split; [reflexivity|]. split; [exact F | constructor].
    - cbn [recipients_of flat_map fst snd].
      assert (F1 : exists f1, flagged f1 (match ot with Some _ => false | None => b end) /\
                   forall l', run [k] f (match ot with Some t => [EMacros AtRecipient t] | None => [] end ++ l') = run [k] f1 l').
      { destruct ot as [t|]; [|exists f; split; [exact F | reflexivity]].
        exists (define_macros f AtRecipient t). split.
        - destruct F as (I & P & V). pose proof (U t r (or_introl eq_refl)) as Ut.
          split; [apply define_only; assumption|]. unfold define_macros. destruct I as (Q & _). rewrite P, Q. cbn [negb andb c_processing c_agent].
          split; [reflexivity|]. rewrite hash_value by apply Ut. cbn [stage_command]. replace (beqb "R" "R") with true by reflexivity. apply Ut.
        - intros l'. cbn [app run step]. destruct (run [k] (define_macros f AtRecipient t) l'). reflexivity. }
      destruct F1 as (f1 & F1 & R1). rewrite <- app_assoc, R1. cbn [app run step].
      destruct (tell_recipient f1 _ e r F1) as (f2 & o & -> & O & F2).
      destruct (IH f2 _ F2 (fun t r0 I => U t r0 (or_intror I))) as (f3 & os & R & F3 & A).
      change (flat_map _ l) with (recipients_of e l). rewrite R. exists f3, (o :: os).
      split; [reflexivity|]. split; [|constructor; [exact O | exact A]].
      cbn [fold_left]. unfold pending at 2. cbn [fst snd]. destruct (restricted r); exact F3.
  Qed.
  Lemma pending_iff : forall l b, fold_left pending l b = true <->
    (exists l1 ot r l2, l = l1 ++ (ot, r) :: l2 /\ restricted r = false /\ Forall (fun p => fst p = None) l2) \/
    (b = true /\ Forall (fun p => fst p = None) l).
  Proof.
    induction l as [|[ot r] l IH] using rev_ind; intros b.
    - cbn [fold_left]. split.
      + intros ->. right. split; [reflexivity | constructor].
      + intros [(l1 & ot & r & l2 & D & _)|[H _]]; [destruct l1; discriminate | exact H].
    - rewrite fold_left_app. cbn [fold_left]. unfold pending at 1. cbn [fst snd]. destruct (restricted r) eqn:R.
      + destruct ot as [t|].
        * split; [discriminate|]. intros [(l1 & ot' & r' & l2 & D & R' & F)|[_ F]].
          -- destruct l2 as [|x l2 _] using rev_ind.
             ++ apply app_inj_tail in D. destruct D as [_ D]. injection D as <- <-. congruence.
             ++ rewrite app_comm_cons, app_assoc in D. apply app_inj_tail in D. destruct D as [_ <-].
                apply Forall_app in F. destruct F as [_ F]. apply Forall_inv in F. discriminate F.
          -- apply Forall_app in F. destruct F as [_ F]. apply Forall_inv in F. discriminate F.
        * rewrite IH. split.
          -- intros [(l1 & ot' & r' & l2 & -> & R' & F)|[-> F]].
             ++ left. exists l1, ot', r', (l2 ++ [(None, r)]). rewrite <- app_assoc. repeat apply conj; [reflexivity | exact R'|].
                apply Forall_app. split; [exact F | apply Forall_cons; [reflexivity | constructor]].
             ++ right. split; [reflexivity|]. apply Forall_app. split; [exact F | apply Forall_cons; [reflexivity | constructor]].
          -- intros [(l1 & ot' & r' & l2 & D & R' & F)|[-> F]].
             ++ destruct l2 as [|x l2 _] using rev_ind.
                ** apply app_inj_tail in D. destruct D as [_ D]. injection D as <- <-. congruence.
                ** rewrite app_comm_cons, app_assoc in D. apply app_inj_tail in D. destruct D as [-> <-].
                   apply Forall_app in F. left. exists l1, ot', r', l2. tauto.
             ++ apply Forall_app in F. right. tauto.
      + split; [intros _|reflexivity]. left. exists l, ot, r, []. repeat apply conj; [reflexivity | exact R | constructor].
  Qed.
  Lemma tell_data : forall f b e, flagged f b -> 
    if b then snd (tell [k] f e data_command) = Stopped else exists t, snd (tell [k] f e data_command) = Told t.
  Proof.
    intros f b e ((Q & OK & N) & P & V). unfold tell, data_command, concerned. cbn [c_stage]. rewrite P, Q. cbn [negb andb].
    unfold asked, stoppers_at, passed. cbn [k restrict_condition k_stoppers filter fst c_stage stage_beq map snd any_stops c_arguments stage_command].
    rewrite (macro_at _ _ _ OK) by reflexivity. unfold macro_search_order. cbn [latest_value].
    rewrite (N "C"%char), (N "H"%char), (N "M"%char), (N "T"%char) by discriminate. rewrite V.
    change (beqb "C" "T") with false. change (beqb "H" "T") with false. change (beqb "M" "T") with false. change (beqb "R" "T") with false. change (beqb "T" "T") with true.
    cbv iota. destruct b; cbv iota; [reflexivity|]. eexists. reflexivity.
  Qed.
  Lemma tell_mail : forall f e from, only_recipients f -> stage_value (pa_macros (c_agent f)) "R"%char flag = None ->
    exists f' t, tell [k] f e (mail_of from) = (f', Told t) /\ flagged f' false.
  Proof.
    intros f e from I V. pose proof (restrict_tell f e (mail_of from) I) as I'. destruct I as (Q & OK & N).
    destruct (tell [k] f e (mail_of from)) as [f' o] eqn:T. cbn [fst] in I'.
    unfold tell, mail_of, concerned in T. cbn [c_stage] in T. rewrite Q in T. cbn [negb] in T.
    unfold asked, stoppers_at, passed in T. cbn [k restrict_condition k_stoppers filter fst c_stage stage_beq map snd any_stops c_arguments] in T.
    injection T as <- <-. eexists _, _. split; [reflexivity|]. split; [exact I'|]. split; [reflexivity | exact V].
  Qed.
End Accounts.

(** ** Macros set by conditions *)
Lemma set_own_value : forall a c n v n', plain_name n -> stage_value (pa_macros (set_own (set_macro_context a c) n v)) c n' =
  if bytes_eqb n n' then v else stage_value (pa_macros a) c n'.
Proof.
  intros a c n v n' P. unfold set_own. cbn [pa_context set_macro_context]. rewrite set_value, P.
  replace (beqb c c) with true by (symmetry; apply beqb_iff; reflexivity). reflexivity.
Qed.
Section Sendmail.
  Context {E : Type} (postfix : bytes -> bool) (guess_address guess_port : E -> address -> option bytes)
    (resolved : E -> bytes -> option bytes).
  Definition first_of (a b : option bytes) : option bytes := match a with Some v => Some v | None => b end.
  (** The table of CONNECT is all there is. *)
  Definition at_connect (a : pagent) (v : bytes -> option bytes) : Prop :=
    pa_context a = "C"%char /\ pa_available a = None /\ tables_ok (pa_macros a) /\ forall n, stage_value (pa_macros a) "C"%char n = v n.
  Lemma at_connect_macro : forall a v n, at_connect a v -> plain_name n -> macro a n = v n.
  Proof.
    intros a v n (C & A & OK & V) P. unfold macro, get_available. rewrite A, C. cbn [fst]. rewrite P, (collect_value _ _ OK).
    unfold macro_search_order. cbn [latest_value lookup]. change (beqb "C" "C") with true. cbv iota. rewrite V. destruct (v n); reflexivity.
  Qed.
  Lemma at_connect_default : forall a v n d, at_connect a v -> plain_name n ->
    at_connect (default_macro n d a) (fun n' => if bytes_eqb n n' then first_of (v n) d else v n').
  Proof.
    intros a v n d K P. unfold default_macro. rewrite (at_connect_macro _ _ _ K P). destruct K as (C & A & OK & V).
    destruct (v n) as [w|] eqn:W.
    - repeat apply conj; try assumption. intros n'. rewrite V. destruct (bytes_eqb n n') eqn:B; [|reflexivity].
      apply bytes_eqb_eq in B. subst n'. rewrite W. reflexivity.
    - unfold set_own. repeat apply conj; [exact C | reflexivity | apply set_ok, OK|]. intros n'. rewrite C, set_value, P, V.
      change (beqb "C" "C") with true. cbn [andb first_of]. reflexivity.
  Qed.
End Sendmail.
