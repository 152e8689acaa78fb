(** Verdict priority and option flags: proofs. *)
From Coq Require Import Permutation.
From Verif.Base Require Import Bytes.
From Verif.Model Require Import Decoder Status Option.
From Verif.Spec Require Import VerdictSpec.

Definition rank (s : status) : Z :=
  match s with
  | S_DISCARD => 6 | S_REJECT => 5 | S_TEMPORARY_FAILURE => 4 | S_CONTINUE => 3 | S_SKIP => 2
  | S_ACCEPT => 1 | _ => 0
  end%Z.

Lemma verdict_rank v : verdict v <-> (0 < rank v)%Z.
Proof.
  unfold verdict, priority. cbn [In].
  split; [intuition (subst; reflexivity)|]. destruct v; cbn; intros; try lia; tauto.
Qed.

Lemma stronger_rank v w : stronger v w <-> (0 < rank w)%Z /\ (rank w < rank v)%Z.
Proof.
  unfold stronger, priority. split.
  - intros (a & b & c & E).
    do 6 (destruct a as [|? a]; [injection E as <- E;
      do 6 (destruct b as [|? b]; [cbn [app] in E; (discriminate E || (injection E as <- E; cbn; lia))|
            cbn [app] in E; try discriminate E; injection E as <- E]); destruct b; discriminate|
      cbn [app] in E; try discriminate E; injection E as <- E]).
    destruct a; discriminate.
  - destruct v, w; cbn; intros [H1 H2]; try lia.
    all: match goal with |- exists a b c, ?l = a ++ ?v :: b ++ ?w :: c =>
      let rec suff w l := match l with w :: ?r => constr:(r) | _ :: ?r => suff w r end in
      let rec pre w l := match l with w :: _ => constr:(@nil status)
                                    | ?x :: ?r => let p := pre w r in constr:(x :: p) end in
      let a := pre v l in let r := suff v l in let b := pre w r in let c := suff w r in
      exists a, b, c; reflexivity end.
Qed.

Lemma compile_rank e s : verdict s ->
  (e = None \/ exists c, e = Some c /\ verdict c) ->
  exists c, compile_status e s = Some c /\ verdict c /\
    (c = s \/ e = Some c) /\ (rank s <= rank c)%Z /\
    (forall c0, e = Some c0 -> (rank c0 <= rank c)%Z).
Proof.
  intros Hs He. unfold compile_status. destruct (status_compare (stored_status e) s <? 0)%Z eqn:Ec.
  - exists s. repeat split; auto; try lia. intros c0 E.
    destruct He as [->|(c & -> & Hc)]; [discriminate|]. injection E as <-.
    apply verdict_rank in Hc, Hs. destruct c, s; cbn in Ec, Hc, Hs |- *; lia.
  - destruct He as [->|(c & -> & Hc)].
    + exfalso. apply verdict_rank in Hs. destruct s; cbn in Hs, Ec; lia.
    + exists c. repeat split; auto.
      * apply verdict_rank in Hc, Hs. destruct c, s; cbn in Ec, Hc, Hs |- *; lia.
      * intros c0 E. injection E as <-. lia.
Qed.

Lemma compile_strongest_from vs : forall e,
  (e = None \/ exists c, e = Some c /\ verdict c) -> Forall verdict vs ->
  (e <> None \/ vs <> []) ->
  exists v, compile_statuses e vs = Some v /\ verdict v /\
            (In v vs \/ e = Some v) /\ (forall w, In w vs \/ e = Some w -> rank w <= rank v)%Z.
Proof.
  unfold compile_statuses. induction vs as [|s vs IH]; intros e He Hv Hne.
  - cbn [fold_left]. destruct He as [->|(c & -> & Hc)]; [destruct Hne; contradiction|].
    exists c. repeat split; auto. intros w [[]|E]. injection E as <-. lia.
  - inversion Hv as [|? ? Hs Hvs]; subst. cbn [fold_left].
    destruct (compile_rank e s Hs He) as (c & Hc & Hvc & Horigin & Hsc & Hec).
    destruct (IH (compile_status e s)) as (v & Hf & Hvv & Ho & Hmax).
    + right. exists c. auto.
    + auto.
    + left. congruence.
    + exists v. rewrite Hf. split; [reflexivity|]. split; [exact Hvv|]. split.
      * destruct Ho as [Ho|Ho]; [left; right; exact Ho|].
        assert (v = c) as -> by congruence. destruct Horigin as [->|Horigin]; [left; left; auto|auto].
      * intros w [[->|Hw]|Hw].
        -- specialize (Hmax c). rewrite Hc in Hmax. specialize (Hmax (or_intror eq_refl)). lia.
        -- apply Hmax. auto.
        -- specialize (Hmax c). rewrite Hc in Hmax. specialize (Hmax (or_intror eq_refl)).
           specialize (Hec w Hw). lia.
Qed.

Lemma strongest_rank vs v : Forall verdict vs ->
  (strongest vs v <-> In v vs /\ forall w, In w vs -> (rank w <= rank v)%Z).
Proof.
  intros Hv. rewrite Forall_forall in Hv. unfold strongest. split; intros [Hi H]; split; auto.
  - intros w Hw. specialize (H w Hw). rewrite stronger_rank in H.
    assert (Hr := Hv v Hi). apply verdict_rank in Hr. lia.
  - intros w Hw Hs. apply stronger_rank in Hs. specialize (H w Hw). lia.
Qed.

Lemma rank_inj v w : verdict v -> verdict w -> rank v = rank w -> v = w.
Proof.
  rewrite !verdict_rank. destruct v, w; cbn; intros; try lia; reflexivity.
Qed.

Lemma strongest_unique vs v w : Forall verdict vs -> strongest vs v -> strongest vs w -> v = w.
Proof.
  intros Hv Hs Hw. apply (strongest_rank vs v Hv) in Hs as [Hi Hm].
  apply (strongest_rank vs w Hv) in Hw as [Hi' Hm']. rewrite Forall_forall in Hv.
  apply rank_inj; auto. specialize (Hm w Hi'). specialize (Hm' v Hi). lia.
Qed.

Lemma compile_strongest vs v : Forall verdict vs ->
  compile_statuses None vs = Some v <-> strongest vs v.
Proof.
  intros Hv. destruct vs as [|s vs].
  - split; [discriminate|]. intros [[] _].
  - destruct (compile_strongest_from (s :: vs) None) as (m & Hm & Hvm & Hi & Hmax); auto.
    { right. discriminate. }
    assert (Hsm : strongest (s :: vs) m).
    { apply strongest_rank; [exact Hv|]. split; [destruct Hi; [auto|discriminate]|].
      intros w Hw. apply Hmax. auto. }
    rewrite Hm. split; [intros [= <-]; exact Hsm|].
    intros Hs. f_equal. exact (strongest_unique _ _ _ Hv Hsm Hs).
Qed.

Lemma strongest_perm vs vs' v : Permutation vs vs' -> strongest vs v -> strongest vs' v.
Proof.
  intros Hp [Hi H]. split.
  - exact (Permutation_in _ Hp Hi).
  - intros w Hw. apply H. exact (Permutation_in _ (Permutation_sym Hp) Hw).
Qed.

Lemma compile_permutation vs vs' : Forall verdict vs -> Permutation vs vs' ->
  compile_statuses None vs = compile_statuses None vs'.
Proof.
  intros Hv Hp. destruct vs as [|s vs].
  - apply Permutation_nil in Hp as ->. reflexivity.
  - assert (Hv' : Forall verdict vs').
    { rewrite Forall_forall in *. intros x Hx. apply Hv.
      exact (Permutation_in _ (Permutation_sym Hp) Hx). }
    destruct (compile_strongest_from (s :: vs) None) as (m & Hm & _); auto.
    { right. discriminate. }
    rewrite Hm. symmetry. apply compile_strongest; [exact Hv'|].
    apply (strongest_perm (s :: vs)); [exact Hp|]. apply compile_strongest; auto.
Qed.

(** *** Options *)

Local Open Scope N_scope.

Lemma or_all_testbit l i : N.testbit (or_all l) i = existsb (fun x => N.testbit x i) l.
Proof.
  induction l as [|x l IH]; [apply N.bits_0|].
  cbn [or_all fold_right existsb]. rewrite N.lor_spec. f_equal. exact IH.
Qed.

Lemma pow_bit k i : N.testbit (2 ^ k) i = (i =? k).
Proof. rewrite N.pow2_bits_eqb. apply N.eqb_sym. Qed.

Ltac bits :=
  rewrite or_all_testbit; cbn [existsb];
  repeat match goal with |- context [N.testbit ?c _] =>
    let k := eval vm_compute in (N.log2 c) in change c with (2 ^ k); rewrite pow_bit end.

Lemma no_event_mask_bit i : N.testbit STEP_NO_EVENT_MASK i = true <-> In i no_event_bits.
Proof.
  unfold STEP_NO_EVENT_MASK, no_event_bits. bits. cbn [In].
  rewrite !orb_true_iff, !N.eqb_eq. intuition congruence.
Qed.

Lemma no_reply_mask_bit i : N.testbit STEP_NO_REPLY_MASK i = true <-> In i no_reply_bits.
Proof.
  unfold STEP_NO_REPLY_MASK, no_reply_bits. bits. cbn [In].
  rewrite !orb_true_iff, !N.eqb_eq. intuition congruence.
Qed.

Lemma yes_mask_bit i : N.testbit STEP_YES_MASK i = true <-> In i yes_bits.
Proof.
  unfold STEP_YES_MASK, yes_bits. bits. cbn [In].
  rewrite !orb_true_iff, !N.eqb_eq. intuition congruence.
Qed.

Lemma no_mask_bit i : N.testbit STEP_NO_MASK i = true <-> In i (no_event_bits ++ no_reply_bits).
Proof.
  unfold STEP_NO_MASK. rewrite N.lor_spec, orb_true_iff, in_app_iff, no_event_mask_bit,
    no_reply_mask_bit. reflexivity.
Qed.

Lemma masks_disjoint i : N.testbit STEP_NO_MASK i = true -> N.testbit STEP_YES_MASK i = false.
Proof.
  intros H. apply no_mask_bit in H. cbn in H.
  repeat (destruct H as [<-|H]; [reflexivity|]). destruct H.
Qed.

Lemma step_flags_merge_bit d s i :
  N.testbit (step_flags_merge d s) i =
  if N.testbit STEP_NO_MASK i then N.testbit d i && N.testbit s i
  else if N.testbit STEP_YES_MASK i then N.testbit d i || N.testbit s i
  else false.
Proof.
  unfold step_flags_merge. rewrite !N.lor_spec, !N.land_spec.
  pose proof (masks_disjoint i) as Hd.
  destruct (N.testbit STEP_NO_MASK i), (N.testbit STEP_YES_MASK i), (N.testbit d i),
    (N.testbit s i); cbn; try reflexivity; specialize (Hd eq_refl); discriminate.
Qed.

Lemma merge_all_version os : forall d, o_version (option_merge_all d os) = o_version d.
Proof.
  unfold option_merge_all. induction os as [|o os IH]; intros d; [reflexivity|].
  cbn [fold_left]. rewrite IH. unfold option_merge. destruct (o_version d <? o_version o); reflexivity.
Qed.

Lemma merge_all_action os i : forall d,
  N.testbit (o_action (option_merge_all d os)) i = true <->
  N.testbit (o_action d) i = true \/
  exists o, In o os /\ o_version o <= o_version d /\ N.testbit (o_action o) i = true.
Proof.
  unfold option_merge_all. induction os as [|o os IH]; intros d.
  - cbn. split; [auto|]. intros [H|(o & [] & _)]; exact H.
  - cbn [fold_left]. rewrite IH. unfold option_merge.
    destruct (o_version d <? o_version o) eqn:E; cbn [snd o_action o_version].
    + split.
      * intros [H|(x & Hx & H)]; [auto|right; exists x; split; [right; exact Hx|exact H]].
      * intros [H|(x & [->|Hx] & Hv & H)]; [auto|lia|right; exists x; auto].
    + rewrite N.lor_spec, orb_true_iff. split.
      * intros [[H|H]|(x & Hx & H)]; [auto| |right; exists x; split; [right; exact Hx|exact H]].
        right. exists o. split; [left; reflexivity|]. split; [lia|exact H].
      * intros [H|(x & [->|Hx] & Hv & H)]; [auto|auto|right; exists x; auto].
Qed.

Lemma merge_all_no os i : forall d, In i (no_event_bits ++ no_reply_bits) ->
  N.testbit (o_step (option_merge_all d os)) i = true <->
  N.testbit (o_step d) i = true /\
  forall o, In o os -> o_version o <= o_version d -> N.testbit (o_step o) i = true.
Proof.
  intros d Hi. apply no_mask_bit in Hi. revert d. unfold option_merge_all.
  induction os as [|o os IH]; intros d.
  - cbn. split; [intros H; split; [exact H|intros o []]|intros [H _]; exact H].
  - cbn [fold_left]. rewrite IH. unfold option_merge.
    destruct (o_version d <? o_version o) eqn:E; cbn [snd o_step o_version].
    + split; intros [H1 H2]; split; auto.
      * intros x [->|Hx] Hv; [lia|auto].
      * intros x Hx. apply H2. right. exact Hx.
    + rewrite step_flags_merge_bit, Hi, andb_true_iff. split.
      * intros [[H1 H2] H3]. split; [exact H1|]. intros x [->|Hx] Hv; auto.
      * intros [H1 H2]. split; [split; [exact H1|]|].
        -- apply H2; [left; reflexivity|lia].
        -- intros x Hx. apply H2. right. exact Hx.
Qed.

Lemma merge_all_yes os i : forall d, In i yes_bits ->
  N.testbit (o_step (option_merge_all d os)) i = true <->
  N.testbit (o_step d) i = true \/
  exists o, In o os /\ o_version o <= o_version d /\ N.testbit (o_step o) i = true.
Proof.
  intros d Hi. apply yes_mask_bit in Hi. revert d. unfold option_merge_all.
  assert (Hn : N.testbit STEP_NO_MASK i = false).
  { destruct (N.testbit STEP_NO_MASK i) eqn:E; [|reflexivity]. apply masks_disjoint in E. congruence. }
  induction os as [|o os IH]; intros d.
  - cbn. split; [auto|]. intros [H|(o & [] & _)]; exact H.
  - cbn [fold_left]. rewrite IH. unfold option_merge.
    destruct (o_version d <? o_version o) eqn:E; cbn [snd o_step o_version].
    + split.
      * intros [H|(x & Hx & H)]; [auto|right; exists x; split; [right; exact Hx|exact H]].
      * intros [H|(x & [->|Hx] & Hv & H)]; [auto|lia|right; exists x; auto].
    + rewrite step_flags_merge_bit, Hn, Hi, orb_true_iff. split.
      * intros [[H|H]|(x & Hx & H)]; [auto| |right; exists x; split; [right; exact Hx|exact H]].
        right. exists o. split; [left; reflexivity|]. split; [lia|exact H].
      * intros [H|(x & [->|Hx] & Hv & H)]; [auto|auto|right; exists x; auto].
Qed.

Lemma merge_all_unknown os i d :
  ~ In i (no_event_bits ++ no_reply_bits) -> ~ In i yes_bits ->
  (exists o, In o os /\ o_version o <= o_version d) ->
  N.testbit (o_step (option_merge_all d os)) i = false.
Proof.
  rewrite <- no_mask_bit, <- yes_mask_bit, !not_true_iff_false. intros Hn Hy.
  assert (Hkeep : forall os d, N.testbit (o_step d) i = false ->
    N.testbit (o_step (option_merge_all d os)) i = false).
  { unfold option_merge_all. clear os d. induction os as [|o os IH]; intros d Hd; [exact Hd|].
    cbn [fold_left]. apply IH. unfold option_merge. destruct (_ <? _); [exact Hd|].
    cbn [snd o_step]. rewrite step_flags_merge_bit, Hn, Hy. reflexivity. }
  unfold option_merge_all in *. revert d. induction os as [|o os IH]; intros d (x & Hx & Hv); [destruct Hx|].
  cbn [fold_left]. destruct (o_version d <? o_version o) eqn:E.
  - unfold option_merge at 2. rewrite E. cbn [snd]. apply IH.
    destruct Hx as [->|Hx]; [lia|]. exists x. auto.
  - apply Hkeep. unfold option_merge. rewrite E. cbn [snd o_step].
    rewrite step_flags_merge_bit, Hn, Hy. reflexivity.
Qed.

Lemma option_ext a b : o_version a = o_version b ->
  (forall i, N.testbit (o_action a) i = true <-> N.testbit (o_action b) i = true) ->
  (forall i, N.testbit (o_step a) i = true <-> N.testbit (o_step b) i = true) -> a = b.
Proof.
  destruct a, b; cbn. intros -> Ha Hs. f_equal; apply N.bits_inj; intros i.
  - apply eq_true_iff_eq, Ha.
  - apply eq_true_iff_eq, Hs.
Qed.

Lemma merge_two_comm d a b :
  snd (option_merge (snd (option_merge d a)) b) = snd (option_merge (snd (option_merge d b)) a).
Proof.
  unfold option_merge.
  destruct (o_version d <? o_version a) eqn:Ea, (o_version d <? o_version b) eqn:Eb;
    cbn [snd o_version]; rewrite ?Ea, ?Eb; try reflexivity.
  cbn [snd o_version o_action o_step]. f_equal.
  - apply N.bits_inj. intros i. rewrite !N.lor_spec.
    destruct (N.testbit (o_action d) i), (N.testbit (o_action a) i), (N.testbit (o_action b) i); reflexivity.
  - apply N.bits_inj. intros i. rewrite !step_flags_merge_bit.
    destruct (N.testbit STEP_NO_MASK i), (N.testbit STEP_YES_MASK i), (N.testbit (o_step d) i),
      (N.testbit (o_step a) i), (N.testbit (o_step b) i); reflexivity.
Qed.

Lemma merge_all_permutation os os' : Permutation os os' ->
  forall d, option_merge_all d os = option_merge_all d os'.
Proof.
  unfold option_merge_all. induction 1 as [|x l l' H IH|x y l|l l' l'' H1 IH1 H2 IH2]; intros d.
  - reflexivity.
  - cbn [fold_left]. apply IH.
  - cbn [fold_left]. rewrite merge_two_comm. reflexivity.
  - rewrite IH1. apply IH2.
Qed.
