(** The macro store answers lookups as [MacroSpec] says. *)
From Verif.Base Require Import Bytes BytesFacts.
From Verif.Model Require Import CommandCodec ReplyCodec Macros.
From Verif.Spec Require Import MacroSpec.
From Verif.Proofs Require Import CommandProofs.

(** *** Tables *)

Lemma remove_key_lookup t k n : lookup (remove_key t k) n = if bytes_eqb k n then None else lookup t n.
Proof.
  induction t as [|[k' v'] t IH]; cbn [remove_key filter lookup fst].
  - destruct (bytes_eqb k n); reflexivity.
  - destruct (bytes_eqb k' k) eqn:E; cbn [negb].
    + fold (remove_key t k). rewrite IH. apply bytes_eqb_eq in E. subst k'.
      destruct (bytes_eqb k n); reflexivity.
    + cbn [lookup]. fold (remove_key t k). rewrite IH. destruct (bytes_eqb k' n) eqn:E'; [|reflexivity].
      apply bytes_eqb_eq in E'. subst n. apply bytes_eqb_neq in E.
      destruct (bytes_eqb k k') eqn:E2; [|reflexivity]. apply bytes_eqb_eq in E2. congruence.
Qed.

Lemma filter_keys_nodup {B} (f : bytes * B -> bool) (t : list (bytes * B)) :
  NoDup (map fst t) -> NoDup (map fst (filter f t)).
Proof.
  induction t as [|kv t IH]; [auto|]. cbn [map filter]. intros H. inversion H; subst.
  destruct (f kv); [|auto]. cbn [map]. constructor; [|auto].
  intros Hi. apply H2. apply in_map_iff in Hi. destruct Hi as (x & Ex & Hx).
  apply in_map_iff. exists x. split; [exact Ex|]. apply filter_In in Hx. tauto.
Qed.

Lemma insert_lookup t k v n : lookup (insert t k v) n = if bytes_eqb k n then Some v else lookup t n.
Proof.
  destruct (bytes_eqb k n) eqn:E.
  - apply bytes_eqb_eq in E. subst. apply lookup_insert_same.
  - apply bytes_eqb_neq in E. apply lookup_insert_other. exact E.
Qed.

Lemma merge_table_lookup src : forall dest n, NoDup (map fst src) ->
  lookup (merge_table dest src) n = match lookup src n with Some v => Some v | None => lookup dest n end.
Proof.
  unfold merge_table.
  induction src as [|[k v] src IH]; intros dest n H; [reflexivity|].
  cbn [map] in H. inversion H; subst. cbn [fold_left fst snd]. rewrite IH by assumption.
  rewrite insert_lookup. cbn [lookup].
  destruct (bytes_eqb k n) eqn:E; [|destruct (lookup src n); reflexivity].
  apply bytes_eqb_eq in E. subst n.
  rewrite (proj2 (lookup_none src k)) by assumption. reflexivity.
Qed.

Lemma merge_table_nodup src : forall dest, NoDup (map fst dest) -> NoDup (map fst (merge_table dest src)).
Proof.
  unfold merge_table. induction src as [|[k v] src IH]; intros dest H; [exact H|].
  cbn [fold_left fst snd]. apply IH, insert_nodup, H.
Qed.

Lemma update_lookup t k v n :
  lookup (update_macro t k v) n = if bytes_eqb k n then v else lookup t n.
Proof.
  destruct v as [v|]; cbn [update_macro]; [apply insert_lookup|apply remove_key_lookup].
Qed.

Lemma update_nodup t k v : NoDup (map fst t) -> NoDup (map fst (update_macro t k v)).
Proof. destruct v; [apply insert_nodup|apply filter_keys_nodup]. Qed.

Lemma stage_insert_lookup m c t x :
  stage_lookup (stage_insert m c t) x = if beqb c x then Some t else stage_lookup m x.
Proof.
  induction m as [|[c' t'] m IH]; cbn [stage_insert stage_lookup]; [reflexivity|].
  destruct (beqb c' c) eqn:E; cbn [stage_lookup].
  - apply beqb_eq in E. subst c'. destruct (beqb c x); reflexivity.
  - rewrite IH. destruct (beqb c' x) eqn:E'; [|reflexivity].
    apply beqb_eq in E'. subst x. apply beqb_neq in E.
    destruct (beqb c c') eqn:E2; [|reflexivity]. apply beqb_eq in E2. congruence.
Qed.

Lemma stage_remove_lookup m c x :
  stage_lookup (stage_remove m c) x = if beqb c x then None else stage_lookup m x.
Proof.
  unfold stage_remove.
  induction m as [|[c' t'] m IH]; cbn [filter stage_lookup fst]; [destruct (beqb c x); reflexivity|].
  destruct (beqb c' c) eqn:E; cbn [negb].
  - apply beqb_eq in E. subst c'. rewrite IH. destruct (beqb c x); reflexivity.
  - cbn [stage_lookup]. rewrite IH. destruct (beqb c' x) eqn:E'; [|reflexivity].
    apply beqb_eq in E'. subst x. apply beqb_neq in E.
    destruct (beqb c c') eqn:E2; [|reflexivity]. apply beqb_eq in E2. congruence.
Qed.

Lemma stage_remove_all_lookup cs : forall m x,
  stage_lookup (fold_left stage_remove cs m) x =
  if existsb (fun c => beqb c x) cs then None else stage_lookup m x.
Proof.
  induction cs as [|c cs IH]; intros m x; [reflexivity|].
  cbn [fold_left existsb]. rewrite IH, stage_remove_lookup.
  destruct (beqb c x), (existsb (fun c0 => beqb c0 x) cs); reflexivity.
Qed.

(** *** The value of a macro of a stage *)

Definition stage_value (m : stages) (c : byte) (n : bytes) : option bytes :=
  match stage_lookup m c with Some t => lookup t n | None => None end.

(** The agent after a history, newest call first. *)
Definition agent_after (h : list macro_op) : pagent :=
  fold_right (fun o a => macro_step a o) pagent_new h.

Lemma macro_run_after ops : macro_run ops = agent_after (rev ops).
Proof. unfold macro_run, agent_after. rewrite fold_left_rev_right. reflexivity. Qed.

Definition tables_ok (m : stages) : Prop :=
  forall c t, stage_lookup m c = Some t -> NoDup (map fst t).

Lemma ensure_ok m c : tables_ok m -> NoDup (map fst (ensure_macros m c)).
Proof.
  intros H. unfold ensure_macros. destruct (stage_lookup m c) eqn:E; [exact (H _ _ E)|constructor].
Qed.

Lemma stage_insert_ok m c t : tables_ok m -> NoDup (map fst t) -> tables_ok (stage_insert m c t).
Proof.
  intros H Ht x t'. rewrite stage_insert_lookup.
  destruct (beqb c x); [intros [= <-]; exact Ht|apply H].
Qed.

Lemma update_all_nodup l : forall t, NoDup (map fst t) ->
  NoDup (map fst (fold_left (fun t nv => update_macro t (fst nv) (snd nv)) l t)).
Proof.
  induction l as [|[n v] l IH]; intros t H; [exact H|]. cbn [fold_left fst snd].
  apply IH, update_nodup, H.
Qed.

Lemma get_macro_macros a n : pa_macros (snd (get_macro a n)) = pa_macros a.
Proof.
  unfold get_macro, get_available. destruct (pa_available a); cbn [fst snd];
  destruct (lookup _ n); reflexivity.
Qed.
Lemma get_macro_context a n : pa_context (snd (get_macro a n)) = pa_context a.
Proof.
  unfold get_macro, get_available. destruct (pa_available a); cbn [fst snd];
  destruct (lookup _ n); reflexivity.
Qed.

Lemma step_tables_ok a o : tables_ok (pa_macros a) -> tables_ok (pa_macros (macro_step a o)).
Proof.
  intros H. destruct o; cbn [macro_step].
  - apply stage_insert_ok; [exact H|]. apply merge_table_nodup. constructor.
  - apply stage_insert_ok; [exact H|]. apply update_nodup, ensure_ok, H.
  - apply stage_insert_ok; [exact H|]. apply update_all_nodup, ensure_ok, H.
  - exact H.
  - intros x t. cbn [clear_macros pa_macros]. rewrite stage_remove_lookup.
    destruct (beqb c x); [discriminate|apply H].
  - intros x t. cbn [clear_message_related_macros pa_macros]. rewrite stage_remove_all_lookup.
    destruct (existsb _ _); [discriminate|apply H].
  - rewrite get_macro_macros. exact H.
Qed.

Lemma agent_tables_ok h : tables_ok (pa_macros (agent_after h)).
Proof.
  induction h as [|o h IH]; [intros c t [=]|]. cbn [agent_after fold_right]. apply step_tables_ok, IH.
Qed.

Lemma ensure_lookup m c n : lookup (ensure_macros m c) n = stage_value m c n.
Proof. unfold ensure_macros, stage_value. destruct (stage_lookup m c); reflexivity. Qed.

(** The last pair for [n] in a list of updates. *)
Fixpoint last_update (l : list (bytes * option bytes)) (n : bytes) : option (option bytes) :=
  match l with
  | [] => None
  | (k, v) :: l' => match last_update l' n with
                    | Some r => Some r
                    | None => if bytes_eqb k n then Some v else None
                    end
  end.

Lemma update_all_lookup l : forall t n,
  lookup (fold_left (fun t nv => update_macro t (fst nv) (snd nv)) l t) n =
  match last_update l n with Some r => r | None => lookup t n end.
Proof.
  induction l as [|[k v] l IH]; intros t n; [reflexivity|].
  cbn [fold_left fst snd last_update]. rewrite IH, update_lookup.
  destruct (last_update l n); [reflexivity|]. destruct (bytes_eqb k n); reflexivity.
Qed.

Lemma last_update_none l n : last_update l n = None <-> ~ In n (map fst l).
Proof.
  induction l as [|[k v] l IH]; cbn [last_update map fst In]; [tauto|].
  destruct (last_update l n) eqn:E.
  - split; [discriminate|]. intros H. exfalso. apply H. right.
    destruct (in_dec bytes_eq_dec n (map fst l)) as [Hi|Hn]; [exact Hi|].
    apply IH in Hn. discriminate.
  - destruct (bytes_eqb k n) eqn:Ek.
    + apply bytes_eqb_eq in Ek. split; [discriminate|]. tauto.
    + apply bytes_eqb_neq in Ek. tauto.
Qed.

Lemma last_update_some l n r : last_update l n = Some r <->
  exists before after, l = before ++ (n, r) :: after /\ ~ In n (map fst after).
Proof.
  induction l as [|[k v] l IH]; cbn [last_update].
  - split; [discriminate|]. intros (b & a & H & _). destruct b; discriminate.
  - destruct (last_update l n) as [r'|] eqn:E.
    + split.
      * intros [= ->]. destruct (proj1 IH eq_refl) as (b & a & -> & Hn).
        exists ((k, v) :: b), a. split; [reflexivity|exact Hn].
      * intros (b & a & H & Hn). apply IH. destruct b as [|x b]; inversion H; subst.
        -- apply last_update_none in Hn. congruence.
        -- exists b, a. auto.
    + assert (Hl : forall b a, l <> b ++ (n, r) :: a).
      { intros b a ->. apply last_update_none in E. apply E. rewrite map_app. apply in_or_app.
        right. left. reflexivity. }
      destruct (bytes_eqb k n) eqn:Ek.
      * apply bytes_eqb_eq in Ek. subst k. split.
        -- intros [= ->]. exists [], l. split; [reflexivity|]. apply last_update_none, E.
        -- intros (b & a & H & Hn). destruct b as [|x b]; inversion H; subst; [reflexivity|].
           exfalso. exact (Hl b a eq_refl).
      * split; [discriminate|]. apply bytes_eqb_neq in Ek. intros (b & a & H & Hn).
        destruct b as [|x b]; inversion H; subst; [congruence|]. exfalso. exact (Hl b a eq_refl).
Qed.

(** *** Values are the latest ones *)

Lemma set_many_inv c l h c' n v : latest (OSetMany c l :: h) c' n v ->
  (c = c' /\ last_update l n = Some (Some v)) \/ (~ touches (OSetMany c l) c' n /\ latest h c' n v).
Proof.
  intros H. inversion H; subst; [left|right; auto]. split; [reflexivity|].
  apply last_update_some. eauto.
Qed.

Lemma stage_value_latest h c n v : Forall is_table h ->
  stage_value (pa_macros (agent_after h)) c n = Some v <-> latest h c n v.
Proof.
  intros Hh. revert c n v. induction Hh as [|o h Ho Hh IH]; intros c n v.
  - split; [discriminate|]. intros H. inversion H.
  - cbn [agent_after fold_right]. fold (agent_after h). set (a := agent_after h) in *.
    destruct o as [c' t|c' n' v'|c' l|c'|c'| |n']; cbn [macro_step].
    + cbn [set_macros_hash_table pa_macros is_table] in *.
      unfold stage_value in *. rewrite stage_insert_lookup. destruct (beqb c' c) eqn:E.
      * apply beqb_eq in E. subst c'. rewrite merge_table_lookup by exact Ho.
        split.
        -- intros Hv. destruct (lookup t n) eqn:El; [|discriminate Hv].
           injection Hv as ->. apply latest_define, lookup_in, El.
        -- intros Hl. inversion Hl; subst.
           ++ rewrite (lookup_nodup t n v) by assumption. reflexivity.
           ++ exfalso. cbn in *. tauto.
      * apply beqb_neq in E. rewrite IH. split.
        -- intros Hl. apply latest_older; [exact E|exact Hl].
        -- intros Hl. inversion Hl; subst; [congruence|assumption].
    + cbn [set_macro pa_macros]. unfold stage_value. rewrite stage_insert_lookup.
      destruct (beqb c' c) eqn:E.
      * apply beqb_eq in E. subst c'. rewrite update_lookup, ensure_lookup. fold (stage_value (pa_macros a) c n).
        destruct (bytes_eqb n' n) eqn:En.
        -- apply bytes_eqb_eq in En. subst n'. split.
           ++ intros ->. constructor.
           ++ intros Hl. inversion Hl; subst; [reflexivity|]. exfalso. cbn in *. tauto.
        -- apply bytes_eqb_neq in En. rewrite IH. split.
           ++ intros Hl. apply latest_older; [cbn; tauto|exact Hl].
           ++ intros Hl. inversion Hl; subst; [congruence|assumption].
      * apply beqb_neq in E. fold (stage_value (pa_macros a) c n). rewrite IH. split.
        -- intros Hl. apply latest_older; [cbn; tauto|exact Hl].
        -- intros Hl. inversion Hl; subst; [congruence|assumption].
    + cbn [set_macros pa_macros]. unfold stage_value. rewrite stage_insert_lookup.
      destruct (beqb c' c) eqn:E.
      * apply beqb_eq in E. subst c'. rewrite update_all_lookup, ensure_lookup.
        destruct (last_update l n) as [r|] eqn:El.
        -- split.
           ++ intros ->. apply last_update_some in El. destruct El as (b & x & -> & Hn).
              apply latest_set_many, Hn.
           ++ intros Hl. apply set_many_inv in Hl. destruct Hl as [[_ Hl]|[Ht _]]; [congruence|].
              exfalso. apply Ht. split; [reflexivity|].
              destruct (in_dec bytes_eq_dec n (map fst l)) as [Hi|Hn]; [exact Hi|].
              apply last_update_none in Hn. congruence.
        -- rewrite IH. split.
           ++ intros Hl. apply latest_older; [|exact Hl]. intros [_ Hi].
              apply last_update_none in El. exact (El Hi).
           ++ intros Hl. apply set_many_inv in Hl. destruct Hl as [[_ Hl]|[_ Hl]]; [congruence|exact Hl].
      * apply beqb_neq in E. fold (stage_value (pa_macros a) c n). rewrite IH. split.
        -- intros Hl. apply latest_older; [cbn; tauto|exact Hl].
        -- intros Hl. apply set_many_inv in Hl. destruct Hl as [[Hc _]|[_ Hl]]; [congruence|exact Hl].
    + cbn [set_macro_context pa_macros]. rewrite IH. split.
      * intros Hl. apply latest_older; [intros []|exact Hl].
      * intros Hl. inversion Hl; subst. assumption.
    + cbn [clear_macros pa_macros]. unfold stage_value. rewrite stage_remove_lookup.
      destruct (beqb c' c) eqn:E.
      * apply beqb_eq in E. subst c'. split; [discriminate|]. intros Hl. inversion Hl; subst.
        exfalso. cbn in *. tauto.
      * apply beqb_neq in E. fold (stage_value (pa_macros a) c n). rewrite IH. split.
        -- intros Hl. apply latest_older; [exact E|exact Hl].
        -- intros Hl. inversion Hl; subst. assumption.
    + cbn [clear_message_related_macros pa_macros]. unfold stage_value. rewrite stage_remove_all_lookup.
      fold message_stages.
      destruct (existsb (fun c0 => beqb c0 c) message_stages) eqn:E.
      * assert (Hi : In c message_stages).
        { apply existsb_exists in E. destruct E as (x & Hx & Ex). apply beqb_eq in Ex. subst x. exact Hx. }
        split; [discriminate|]. intros Hl. inversion Hl; subst. contradiction.
      * assert (Hn : ~ In c message_stages).
        { intros Hi. rewrite (proj2 (existsb_exists _ _)) in E; [discriminate|].
          exists c. split; [exact Hi|apply beqb_refl]. }
        fold (stage_value (pa_macros a) c n). rewrite IH. split.
        -- intros Hl. apply latest_older; [exact Hn|exact Hl].
        -- intros Hl. inversion Hl; subst. assumption.
    + rewrite get_macro_macros. fold (stage_value (pa_macros a) c n). rewrite IH. split.
      * intros Hl. apply latest_older; [intros []|exact Hl].
      * intros Hl. inversion Hl; subst. assumption.
Qed.

Lemma context_current h : current_stage h (pa_context (agent_after h)).
Proof.
  induction h as [|o h IH]; [constructor|].
  cbn [agent_after fold_right]. fold (agent_after h).
  destruct o; cbn [macro_step]; try (apply current_older; [congruence|exact IH]).
  - apply current_set.
  - rewrite get_macro_context. apply current_older; [congruence|exact IH].
Qed.

Lemma current_unique h c : current_stage h c -> c = pa_context (agent_after h).
Proof.
  induction 1 as [|c h|o h c Ho H IH]; [reflexivity|reflexivity|].
  cbn [agent_after fold_right]. fold (agent_after h). rewrite IH.
  destruct o; cbn [macro_step]; try reflexivity.
  - exfalso. exact (Ho _ eq_refl).
  - rewrite get_macro_context. reflexivity.
Qed.

(** *** Collecting the stages *)

Definition newest_stage (m : stages) (order : list byte) (n v : bytes) : Prop :=
  exists before stage after, order = before ++ stage :: after /\ stage_value m stage n = Some v /\
    forall later, In later after -> stage_value m later n = None.

Fixpoint collect_all (m : stages) (order : list byte) (acc : table) : table :=
  match order with
  | [] => acc
  | c :: order' =>
      collect_all m order' (match stage_lookup m c with Some t => merge_table acc t | None => acc end)
  end.

Lemma collect_all_lookup m order n : tables_ok m -> forall acc v,
  lookup (collect_all m order acc) n = Some v <->
  newest_stage m order n v \/
  (lookup acc n = Some v /\ forall c, In c order -> stage_value m c n = None).
Proof.
  intros Hm. induction order as [|c order IH]; intros acc v; cbn [collect_all].
  - split.
    + intros H. right. split; [exact H|intros c []].
    + intros [(b & s & a & H & _)|[H _]]; [destruct b; discriminate|exact H].
  - rewrite IH.
    assert (Hacc : lookup (match stage_lookup m c with Some t => merge_table acc t | None => acc end) n =
                   match stage_value m c n with Some v => Some v | None => lookup acc n end).
    { unfold stage_value. destruct (stage_lookup m c) as [t|] eqn:E; [|reflexivity].
      apply merge_table_lookup. exact (Hm _ _ E). }
    rewrite Hacc. split.
    + intros [(b & s & a & -> & Hs & Ha)|[Hl Ho]].
      * left. exists (c :: b), s, a. auto.
      * destruct (stage_value m c n) as [v'|] eqn:Ec.
        -- injection Hl as ->. left. exists [], c, order. auto.
        -- right. split; [exact Hl|]. intros x [<-|Hx]; auto.
    + intros [(b & s & a & Hs & Hv & Ha)|[Hl Ho]].
      * destruct b as [|x b]; cbn [app] in Hs; injection Hs as Hc Hr.
        -- subst s a. right. rewrite Hv. auto.
        -- subst. left. exists b, s, a. auto.
      * right. rewrite (Ho c) by (left; reflexivity). split; [exact Hl|].
        intros x Hx. apply Ho. right. exact Hx.
Qed.

Lemma collect_until m c before after acc : ~ In c before ->
  collect m c (before ++ c :: after) acc = collect_all m (before ++ [c]) acc.
Proof.
  revert acc. induction before as [|x before IH]; intros acc H; cbn [app collect collect_all].
  - rewrite beqb_refl. reflexivity.
  - destruct (beqb x c) eqn:E; [apply beqb_eq in E; subst; exfalso; apply H; left; reflexivity|].
    apply IH. intros Hi. apply H. right. exact Hi.
Qed.

Lemma collect_never m c order acc : ~ In c order -> collect m c order acc = collect_all m order acc.
Proof.
  revert acc. induction order as [|x order IH]; intros acc H; [reflexivity|].
  cbn [collect collect_all].
  destruct (beqb x c) eqn:E; [apply beqb_eq in E; subst; exfalso; apply H; left; reflexivity|].
  apply IH. intros Hi. apply H. right. exact Hi.
Qed.

Lemma session_stages_nodup : NoDup session_stages.
Proof. repeat constructor; cbn; intuition discriminate. Qed.

Lemma not_after_collect c l m acc : not_after c l ->
  collect m c macro_search_order acc = collect_all m l acc.
Proof.
  change macro_search_order with session_stages. intros H.
  inversion H as [c' before after Hs|c' Hn]; subst.
  - rewrite Hs. apply collect_until. intros Hi.
    pose proof session_stages_nodup as Hd. rewrite Hs in Hd.
    apply NoDup_remove_2 in Hd. apply Hd, in_or_app. left. exact Hi.
  - apply collect_never, Hn.
Qed.

Lemma not_after_exists c : exists l, not_after c l.
Proof.
  destruct (in_dec ascii_eq_dec c session_stages) as [Hi|Hn].
  - apply in_split in Hi. destruct Hi as (b & a & H). exists (b ++ [c]). econstructor. exact H.
  - exists session_stages. constructor. exact Hn.
Qed.

Lemma not_after_unique c l l' : not_after c l -> not_after c l' -> l = l'.
Proof.
  intros H H'. inversion H as [c1 b a Hs|c1 Hn]; inversion H' as [c2 b' a' Hs'|c2 Hn']; subst;
    try reflexivity.
  - pose proof session_stages_nodup as Hd.
    assert (E : b = b').
    { clear H H'. rewrite Hs' in Hs. rewrite Hs' in Hd. clear Hs'. revert b Hs Hd.
      induction b' as [|y b' IH]; intros [|x b] Hs Hd; cbn [app] in *.
      - reflexivity.
      - injection Hs as -> Hs. inversion Hd; subst. exfalso. apply H1.
        apply in_or_app. right. left. reflexivity.
      - injection Hs as -> Hs. inversion Hd; subst. exfalso. apply H1.
        apply in_or_app. right. left. reflexivity.
      - injection Hs as -> Hs. inversion Hd; subst. f_equal. apply IH; auto. }
    subst. reflexivity.
  - exfalso. apply Hn'. rewrite Hs. apply in_or_app. right. left. reflexivity.
  - exfalso. apply Hn. rewrite Hs'. apply in_or_app. right. left. reflexivity.
Qed.

Lemma collect_visible h n v : Forall is_table h ->
  lookup (collect (pa_macros (agent_after h)) (pa_context (agent_after h)) macro_search_order []) n = Some v
  <-> visible h n v.
Proof.
  intros Hh. set (m := pa_macros (agent_after h)). set (c := pa_context (agent_after h)).
  destruct (not_after_exists c) as (l & Hl).
  rewrite (not_after_collect c l m [] Hl), (collect_all_lookup m l n (agent_tables_ok h)).
  split.
  - intros [(b & s & a & -> & Hs & Ha)|[Hx _]]; [|discriminate Hx].
    exists c, b, s, a. split; [apply context_current|]. split; [exact Hl|].
    split; [apply stage_value_latest; assumption|].
    intros x v' Hx Hx'. apply (stage_value_latest h) in Hx'; [|exact Hh].
    fold m in Hx'. rewrite (Ha x Hx) in Hx'. discriminate.
  - intros (c' & b & s & a & Hc & Hna & Hs & Ha). apply current_unique in Hc. subst c'.
    fold c in Hna. pose proof (not_after_unique _ _ _ Hl Hna) as ->.
    left. exists b, s, a. split; [reflexivity|]. split; [apply stage_value_latest; assumption|].
    intros x Hx. destruct (stage_value m x n) as [v'|] eqn:E; [|reflexivity].
    exfalso. apply (Ha x v' Hx). apply stage_value_latest; assumption.
Qed.

(** *** The cache *)

Lemma latest_get_iff n0 h c n v : latest (OGet n0 :: h) c n v <-> latest h c n v.
Proof.
  split; intros H; [inversion H; subst; assumption|apply latest_older; [intros []|exact H]].
Qed.

Lemma visible_get_iff n0 h n v : visible (OGet n0 :: h) n v <-> visible h n v.
Proof.
  unfold visible. split; intros (c & b & s & a & Hc & Hn & Hl & Ha); exists c, b, s, a.
  - split; [inversion Hc; subst; assumption|]. split; [exact Hn|].
    split; [apply latest_get_iff in Hl; exact Hl|].
    intros x v' Hx Hx'. apply (Ha x v' Hx), latest_get_iff, Hx'.
  - split; [apply current_older; [congruence|exact Hc]|]. split; [exact Hn|].
    split; [apply latest_get_iff; exact Hl|].
    intros x v' Hx Hx'. apply latest_get_iff in Hx'. exact (Ha x v' Hx Hx').
Qed.

Lemma available_visible h : Forall is_table h -> settled h ->
  forall n v, lookup (fst (get_available (agent_after h))) n = Some v <-> visible h n v.
Proof.
  intros Hh Hs.
  assert (Hfresh : pa_available (agent_after h) = None ->
            forall n v, lookup (fst (get_available (agent_after h))) n = Some v <-> visible h n v).
  { intros Ha n v. unfold get_available. rewrite Ha. cbn [fst]. apply collect_visible, Hh. }
  induction Hs as [|n0 h Hs IH|o h H1 H2].
  - apply Hfresh. reflexivity.
  - inversion Hh; subst. clear Hfresh. intros n v. rewrite visible_get_iff.
    assert (Hfresh : pa_available (agent_after h) = None ->
            forall n v, lookup (fst (get_available (agent_after h))) n = Some v <-> visible h n v).
    { intros Ha n' v'. unfold get_available. rewrite Ha. cbn [fst]. apply collect_visible. assumption. }
    rewrite <- (IH H2 Hfresh). cbn [agent_after fold_right macro_step]. fold (agent_after h).
    unfold get_macro. destruct (get_available (agent_after h)) as [t a'] eqn:E. 
    assert (E' : pa_available a' = Some t).
    { unfold get_available in E. destruct (pa_available (agent_after h)) eqn:Ea; injection E as <- <-; [exact Ea|reflexivity]. }
    destruct (lookup t n0); cbn [snd]; unfold get_available; rewrite E'; reflexivity.
  - apply Hfresh. destruct o; try reflexivity.
    + exfalso. exact (H1 _ _ eq_refl).
    + exfalso. exact (H2 _ eq_refl).
Qed.

Lemma unbracketed_spec name n : unbracketed name = Some n <-> name = "{"%char :: n ++ ["}"%char].
Proof.
  destruct name as [|c rest]; cbn [unbracketed]; [split; discriminate|].
  destruct (beqb c "{"%char && beqb (last (c :: rest) NUL) "}"%char) eqn:E.
  - apply andb_true_iff in E. destruct E as [E1 E2]. apply beqb_eq in E1. apply beqb_eq in E2. subst c.
    destruct rest as [|x rest'] using rev_ind.
    + cbn in E2. discriminate.
    + clear IHrest'. assert (x = "}"%char) as ->.
      { rewrite <- E2. symmetry. change ("{"%char :: rest' ++ [x]) with (("{"%char :: rest') ++ [x]). apply last_last. }
      cbn [length]. rewrite app_length. cbn [length].
      replace (S (length rest' + 1) - 2)%nat with (length rest') by lia. rewrite firstn_app_exact.
      split; [intros [= ->]; reflexivity|intros [= H]; apply app_inj_tail in H; destruct H as [-> _]; reflexivity].
  - split; [discriminate|]. intros [= -> ->]. rewrite beqb_refl in E. cbn [andb] in E.
    change ("{"%char :: n ++ ["}"%char]) with (("{"%char :: n) ++ ["}"%char]) in E.
    rewrite last_last in E. discriminate.
Qed.

Lemma get_macro_answer h name r : Forall is_table h -> settled h ->
  fst (get_macro (agent_after h) name) = r <-> answer h name r.
Proof.
  intros Hh Hs. pose proof (available_visible h Hh Hs) as Hv.
  unfold get_macro. destruct (get_available (agent_after h)) as [t a'] eqn:E. cbn [fst] in Hv.
  assert (Hn : forall n, lookup t n = None <-> forall v, ~ visible h n v).
  { intros n. split.
    - intros Hl v H. apply Hv in H. congruence.
    - intros H. destruct (lookup t n) eqn:El; [|reflexivity]. exfalso. apply Hv in El. exact (H _ El). }
  destruct (lookup t name) as [v|] eqn:El; cbn [fst].
  - split.
    + intros <-. apply answer_name, Hv, El.
    + intros H. inversion H; subst.
      * apply Hv in H0. congruence.
      * exfalso. apply Hv in El. exact (H0 _ El).
      * exfalso. apply Hv in El. exact (H0 _ El).
  - assert (Hnot := proj1 (Hn name) El).
    destruct (unbracketed name) as [n|] eqn:Eu.
    + apply unbracketed_spec in Eu. subst name. split.
      * intros <-. destruct (lookup t n) as [v|] eqn:Eb.
        -- apply answer_bare; [exact Hnot|apply Hv, Eb].
        -- apply answer_none; [exact Hnot|]. intros n' v [= H] Hx. apply app_inj_tail in H.
           destruct H as [<- _]. exact (proj1 (Hn n) Eb v Hx).
      * intros H. inversion H; subst.
        -- exfalso. exact (Hnot _ H0).
        -- apply app_inj_tail in H0. destruct H0 as [-> _]. apply Hv in H2. congruence.
        -- apply Hn. intros v Hx. exact (H1 n v eq_refl Hx).
    + split.
      * intros <-. apply answer_none; [exact Hnot|]. intros n v ->.
        rewrite (proj2 (unbracketed_spec ("{"%char :: n ++ ["}"%char]) n) eq_refl) in Eu. discriminate.
      * intros H. inversion H; subst.
        -- exfalso. exact (Hnot _ H0).
        -- rewrite (proj2 (unbracketed_spec ("{"%char :: n ++ ["}"%char]) n) eq_refl) in Eu. discriminate.
        -- reflexivity.
Qed.

(** *** The end of a message *)

Lemma latest_clear_message h c n v :
  latest (OClearMessage :: h) c n v <-> ~ In c message_stages /\ latest h c n v.
Proof.
  split.
  - intros H. inversion H; subst. auto.
  - intros [H1 H2]. apply latest_older; assumption.
Qed.

Lemma latest_context x h c n v : latest (OContext x :: h) c n v <-> latest h c n v.
Proof.
  split; intros H; [inversion H; subst; assumption|apply latest_older; [intros []|exact H]].
Qed.

Lemma not_after_helo l : not_after "H"%char l -> l = ["C"; "H"]%char.
Proof.
  intros H. apply (not_after_unique "H"%char); [exact H|].
  apply (not_after_stage "H"%char ["C"%char] ["M"; "R"; "T"; "L"; "N"; "B"; "E"]%char). reflexivity.
Qed.

(** The stages not after [c], other than connect, start with connect and HELO and go on with
    stages of the message. *)
Lemma not_after_rest c l : c <> "C"%char -> not_after c l ->
  exists m, l = ["C"; "H"]%char ++ m /\ incl m message_stages.
Proof.
  intros Hc H. inversion H as [c' b a Hs|c' Hn]; subst.
  - destruct b as [|x b]; cbn [app] in Hs; unfold session_stages in Hs.
    { injection Hs as Hs _. congruence. }
    injection Hs as <- Hs. destruct b as [|y b]; cbn [app] in Hs.
    { injection Hs as <- Hs. exists []. split; [reflexivity|intros z []]. }
    injection Hs as <- Hs. exists (b ++ [c]). split; [reflexivity|].
    change (message_stages = b ++ c :: a) in Hs.
    intros z Hz. rewrite Hs. apply in_app_or in Hz. apply in_or_app.
    destruct Hz as [Hz|[<-|[]]]; [auto|right; left; reflexivity].
  - exists message_stages. split; [reflexivity|apply incl_refl].
Qed.

Lemma visible_split h n v c l : current_stage h c -> not_after c l ->
  visible h n v <->
  exists before stage after, l = before ++ stage :: after /\ latest h stage n v /\
    forall later v', In later after -> ~ latest h later n v'.
Proof.
  intros Hc Hl. split.
  - intros (c' & b & s & a & Hc' & Hl' & H1 & H2).
    apply current_unique in Hc. apply current_unique in Hc'. subst c c'.
    pose proof (not_after_unique _ _ _ Hl Hl') as ->. exists b, s, a. auto.
  - intros (b & s & a & -> & H1 & H2). exists c, b, s, a. auto.
Qed.

Lemma visible_after_message h c n v : c <> "C"%char ->
  visible (OContext c :: OClearMessage :: h) n v <-> visible (OContext "H"%char :: h) n v.
Proof.
  intros Hc. destruct (not_after_exists c) as (l & Hl).
  destruct (not_after_exists "H"%char) as (l' & Hl').
  rewrite (visible_split _ n v c l (current_set c _) Hl).
  rewrite (visible_split _ n v "H"%char l' (current_set "H"%char _) Hl').
  rewrite (not_after_helo l' Hl'). destruct (not_after_rest c l Hc Hl) as (m & -> & Hm).
  assert (Hr : forall x v', latest (OContext c :: OClearMessage :: h) x n v' <->
               ~ In x message_stages /\ latest h x n v').
  { intros x v'. rewrite latest_context. apply latest_clear_message. }
  split.
  - intros (b & s & a & E & H1 & H2). apply Hr in H1. destruct H1 as [H0 H1].
    assert (Ha : exists a', ["C"; "H"]%char = b ++ s :: a' /\ incl a' a).
    { destruct b as [|x b]; cbn [app] in E; injection E as E1 E.
      - subst s. exists ["H"%char]. split; [reflexivity|]. intros z [<-|[]].
        subst a. left. reflexivity.
      - subst x. destruct b as [|y b]; cbn [app] in E; injection E as E1 E.
        + subst s. exists []. split; [reflexivity|]. intros z [].
        + exfalso. apply H0, Hm. rewrite E. apply in_or_app. right. left. reflexivity. }
    destruct Ha as (a' & E' & Ha'). exists b, s, a'. split; [exact E'|].
    split; [apply latest_context; exact H1|].
    intros x v' Hx Hx'. apply latest_context in Hx'. apply (H2 x v' (Ha' x Hx)).
    apply Hr. split; [|exact Hx'].
    assert (In x ["C"; "H"]%char) by (rewrite E'; apply in_or_app; right; right; exact Hx).
    cbn in H. destruct H as [<-|[<-|[]]]; cbn; intuition discriminate.
  - intros (b & s & a & E & H1 & H2). apply latest_context in H1.
    exists b, s, (a ++ m). split; [rewrite E, <- app_assoc; reflexivity|].
    assert (Hn : forall x, In x ["C"; "H"]%char -> ~ In x message_stages).
    { intros x [<-|[<-|[]]]; cbn; intuition discriminate. }
    split.
    + apply Hr. split; [|exact H1]. apply Hn. rewrite E. apply in_or_app. right. left. reflexivity.
    + intros x v' Hx Hx'. apply Hr in Hx'. destruct Hx' as [Hx1 Hx2].
      apply in_app_or in Hx. destruct Hx as [Hx|Hx]; [|exact (Hx1 (Hm _ Hx))].
      apply (H2 x v' Hx). apply latest_context. exact Hx2.
Qed.

Lemma answer_ext h h' name r : (forall n v, visible h n v <-> visible h' n v) ->
  answer h name r -> answer h' name r.
Proof.
  intros He H. inversion H as [n v H0|n v H0 H1|n H0 H1]; subst.
  - apply answer_name, He, H0.
  - apply answer_bare; [intros v' Hv; apply He in Hv; exact (H0 _ Hv)|apply He, H1].
  - apply answer_none; [intros v Hv; apply He in Hv; exact (H0 _ Hv)|].
    intros m v E Hv. apply He in Hv. exact (H1 _ _ E Hv).
Qed.

Lemma settled_context c h : settled (OContext c :: h).
Proof. apply settled_other; congruence. Qed.

Lemma get_after_message h c name : Forall is_table h -> c <> "C"%char ->
  fst (get_macro (agent_after (OContext c :: OClearMessage :: h)) name) =
  fst (get_macro (agent_after (OContext "H"%char :: h)) name).
Proof.
  intros Hh Hc.
  apply get_macro_answer; [repeat constructor; exact Hh|apply settled_context|].
  apply (answer_ext (OContext "H"%char :: h)).
  { intros n v. symmetry. apply visible_after_message, Hc. }
  apply get_macro_answer; [repeat constructor; exact Hh|apply settled_context|reflexivity].
Qed.

(** Macros of the unknown command are never seen. *)
Lemma visible_define_other c t h n v : ~ In c session_stages ->
  visible (ODefine c t :: h) n v <-> visible h n v.
Proof.
  intros Hc.
  assert (Hl : forall x v', In x session_stages -> latest (ODefine c t :: h) x n v' <-> latest h x n v').
  { intros x v' Hx. split; intros H.
    - inversion H; subst; [contradiction|assumption].
    - apply latest_older; [|exact H]. cbn. intros ->. contradiction. }
  assert (Hin : forall y l x, not_after y l -> In x l -> In x session_stages).
  { intros y l x H Hx. inversion H as [y' b a Hs|y' Hn]; subst; [|exact Hx].
    rewrite Hs. apply in_app_or in Hx. apply in_or_app. destruct Hx as [Hx|[<-|[]]]; [auto|right; left; reflexivity]. }
  unfold visible. split; intros (y & b & s & a & H1 & H2 & H3 & H4); exists y, b, s, a.
  - split; [inversion H1; subst; assumption|]. split; [exact H2|].
    split; [apply Hl in H3; [exact H3|]; apply (Hin _ _ _ H2), in_or_app; right; left; reflexivity|].
    intros x v' Hx Hx'. apply (H4 x v' Hx). apply Hl; [|exact Hx'].
    apply (Hin _ _ _ H2), in_or_app. right. right. exact Hx.
  - split; [apply current_older; [congruence|exact H1]|]. split; [exact H2|].
    split; [apply Hl; [|exact H3]; apply (Hin _ _ _ H2), in_or_app; right; left; reflexivity|].
    intros x v' Hx Hx'. apply Hl in Hx'; [exact (H4 x v' Hx Hx')|].
    apply (Hin _ _ _ H2), in_or_app. right. right. exact Hx.
Qed.

(** *** Macro requests *)

Lemma set_symbols_get t c l x :
  get_symbols (set_symbols t c l) x = if beqb c x then Some l else get_symbols t x.
Proof.
  induction t as [|[c' l'] t IH]; cbn [set_symbols get_symbols]; [reflexivity|].
  destruct (beqb c' c) eqn:E; cbn [get_symbols].
  - apply beqb_eq in E. subst c'. destruct (beqb c x); reflexivity.
  - rewrite IH. destruct (beqb c' x) eqn:E'; [|reflexivity].
    apply beqb_eq in E'. subst x. apply beqb_neq in E.
    destruct (beqb c c') eqn:E2; [|reflexivity]. apply beqb_eq in E2. congruence.
Qed.

Lemma set_symbols_keys t c l x : In x (map fst (set_symbols t c l)) <-> x = c \/ In x (map fst t).
Proof.
  induction t as [|[c' l'] t IH]; cbn [set_symbols map fst In]; [intuition congruence|].
  destruct (beqb c' c) eqn:E; cbn [map fst In].
  - apply beqb_eq in E. subst c'. intuition congruence.
  - rewrite IH. tauto.
Qed.

Lemma set_symbols_nodup t c l : NoDup (map fst t) -> NoDup (map fst (set_symbols t c l)).
Proof.
  induction t as [|[c' l'] t IH]; cbn [set_symbols map fst]; intros H.
  - constructor; [intros []|constructor].
  - inversion H; subst. destruct (beqb c' c) eqn:E; cbn [map fst]; [assumption|].
    constructor; [|apply IH; assumption]. rewrite set_symbols_keys.
    apply beqb_neq in E. intros [H0|H0]; [congruence|contradiction].
Qed.

Section Collate.
  Variable collate_equal : bytes -> bytes -> bool.
  Hypothesis collate_exact : forall a b, collate_equal a b = true <-> a = b.

  Lemma existsb_collate dest s : existsb (fun d => collate_equal d s) dest = true <-> In s dest.
  Proof.
    rewrite existsb_exists. split.
    - intros (x & Hx & E). apply collate_exact in E. subst. exact Hx.
    - intros H. exists s. split; [exact H|]. apply collate_exact. reflexivity.
  Qed.

  Lemma append_missing_in symbols : forall dest s,
    In s (append_missing collate_equal dest symbols) <-> In s dest \/ In s symbols.
  Proof.
    induction symbols as [|x symbols IH]; intros dest s; cbn [append_missing In]; [tauto|].
    rewrite IH. destruct (existsb _ dest) eqn:E.
    - apply existsb_collate in E. split; [tauto|]. intros [H|[<-|H]]; auto.
    - rewrite in_app_iff. cbn [In]. tauto.
  Qed.

  Lemma append_missing_nodup symbols : forall dest, NoDup dest ->
    NoDup (append_missing collate_equal dest symbols).
  Proof.
    induction symbols as [|x symbols IH]; intros dest H; cbn [append_missing]; [exact H|].
    apply IH. destruct (existsb _ dest) eqn:E; [exact H|].
    assert (Hn : ~ In x dest) by (intros Hi; apply existsb_collate in Hi; congruence).
    clear -H Hn. induction dest as [|y dest IHd]; cbn [app]; [constructor; [intros []|constructor]|].
    inversion H; subst. constructor.
    - rewrite in_app_iff. cbn [In]. intros [Hi|[Hi|[]]]; [contradiction|]. subst. apply Hn. left. reflexivity.
    - apply IHd; [assumption|]. intros Hi. apply Hn. right. exact Hi.
  Qed.

  (** A second merge of symbols already present changes nothing. *)
  Lemma append_missing_id symbols : forall dest, incl symbols dest ->
    append_missing collate_equal dest symbols = dest.
  Proof.
    induction symbols as [|x symbols IH]; intros dest H; cbn [append_missing]; [reflexivity|].
    rewrite (proj2 (existsb_collate dest x)) by (apply H; left; reflexivity).
    apply IH. intros z Hz. apply H. right. exact Hz.
  Qed.

  Lemma merge_requests_get dest c l x :
    get_symbols (merge_requests collate_equal dest c l) x =
    if beqb c x
    then Some (append_missing collate_equal (match get_symbols dest c with Some d => d | None => [] end) l)
    else get_symbols dest x.
  Proof. unfold merge_requests. apply set_symbols_get. Qed.

  Lemma requested_merge_one dest c l x s :
    requested (merge_requests collate_equal dest c l) x s <->
    requested dest x s \/ (x = c /\ In s l).
  Proof.
    unfold requested. rewrite merge_requests_get. destruct (beqb c x) eqn:E.
    - apply beqb_eq in E. subst x. split.
      + intros (l' & [= <-] & H). apply append_missing_in in H. destruct H as [H|H]; [|auto].
        left. destruct (get_symbols dest c) as [d|]; [exists d; auto|destruct H].
      + intros [(d & -> & H)|[_ H]]; (eexists; split; [reflexivity|]); apply append_missing_in; auto.
    - apply beqb_neq in E. split; [auto|]. intros [H|[-> _]]; [exact H|congruence].
  Qed.

  Lemma requests_merge_requested src : forall dest c s, NoDup (map fst src) ->
    requested (requests_merge collate_equal dest src) c s <-> requested dest c s \/ requested src c s.
  Proof.
    unfold requests_merge. induction src as [|[c' l'] src IH]; intros dest c s H.
    - cbn [fold_left]. split; [auto|]. intros [H0|(l & H0 & _)]; [exact H0|discriminate].
    - cbn [map fst] in H. inversion H; subst. cbn [fold_left fst snd]. rewrite IH by assumption.
      rewrite requested_merge_one. unfold requested at 4. cbn [get_symbols].
      destruct (beqb c' c) eqn:E.
      + apply beqb_eq in E. subst c'.
        assert (Hn : ~ requested src c s).
        { intros (l & Hg & _). apply H2. clear -Hg. induction src as [|[c1 l1] src IH]; cbn in *; [discriminate|].
          destruct (beqb c1 c) eqn:E; [apply beqb_eq in E; auto|auto]. }
        split.
        * intros [[H0|[_ H0]]|H0]; [auto| |contradiction]. right. exists l'. auto.
        * intros [H0|(l & [= <-] & H0)]; auto.
      + apply beqb_neq in E. fold (requested src c s). split.
        * intros [[H0|[-> _]]|H0]; [auto|congruence|auto].
        * intros [H0|H0]; auto.
  Qed.

  Lemma merge_requests_once dest c l : each_once dest -> each_once (merge_requests collate_equal dest c l).
  Proof.
    intros [H1 H2]. split.
    - apply set_symbols_nodup, H1.
    - intros x l'. rewrite merge_requests_get. destruct (beqb c x); [|apply H2].
      intros [= <-]. apply append_missing_nodup. destruct (get_symbols dest c) as [d|] eqn:E; [exact (H2 _ _ E)|constructor].
  Qed.

  Lemma requests_merge_once src : forall dest, each_once dest -> each_once (requests_merge collate_equal dest src).
  Proof.
    unfold requests_merge. induction src as [|[c l] src IH]; intros dest H; [exact H|].
    cbn [fold_left]. apply IH, merge_requests_once, H.
  Qed.

  Lemma merge_present src : forall dest,
    (forall c l, In (c, l) src -> exists d, get_symbols dest c = Some d /\ incl l d) ->
    forall c, get_symbols (requests_merge collate_equal dest src) c = get_symbols dest c.
  Proof.
    unfold requests_merge. induction src as [|[c' l'] src IH]; intros dest H c; [reflexivity|].
    cbn [fold_left fst snd].
    assert (Hg : forall x, get_symbols (merge_requests collate_equal dest c' l') x = get_symbols dest x).
    { intros x. rewrite merge_requests_get. destruct (beqb c' x) eqn:E; [|reflexivity].
      apply beqb_eq in E. subst x. destruct (H c' l') as (d & Hd & Hi); [left; reflexivity|].
      rewrite Hd. f_equal. apply append_missing_id, Hi. }
    rewrite IH; [apply Hg|]. intros x l Hx. rewrite Hg. apply H. right. exact Hx.
  Qed.

  Lemma get_symbols_in src c l : NoDup (map fst src) -> In (c, l) src -> get_symbols src c = Some l.
  Proof.
    induction src as [|[c' l'] src IH]; intros H Hi; [destruct Hi|]. cbn [map fst] in H. inversion H; subst.
    cbn [get_symbols]. destruct Hi as [[= -> ->]|Hi]; [rewrite beqb_refl; reflexivity|].
    destruct (beqb c' c) eqn:E; [|apply IH; assumption]. apply beqb_eq in E. subst c'. exfalso.
    apply H2, in_map_iff. exists (c, l). auto.
  Qed.

  Lemma get_symbols_key (r : requests) c : In c (map fst r) -> exists l, get_symbols r c = Some l.
  Proof.
    induction r as [|[c' l'] r IH]; [intros []|]. cbn [map fst In get_symbols].
    destruct (beqb c' c) eqn:E; [eauto|]. apply beqb_neq in E. intros [H|H]; [congruence|auto].
  Qed.

  Lemma merge_keys src : forall dest x,
    In x (map fst (requests_merge collate_equal dest src)) <-> In x (map fst dest) \/ In x (map fst src).
  Proof.
    unfold requests_merge. induction src as [|[c l] src IH]; intros dest x; cbn [fold_left map fst In]; [tauto|].
    rewrite IH. unfold merge_requests. rewrite set_symbols_keys. intuition congruence.
  Qed.

  Lemma merge_twice dest src c : NoDup (map fst src) ->
    get_symbols (requests_merge collate_equal (requests_merge collate_equal dest src) src) c =
    get_symbols (requests_merge collate_equal dest src) c.
  Proof.
    intros H. apply merge_present. intros x l Hx.
    destruct (get_symbols_key (requests_merge collate_equal dest src) x) as (d & Hd).
    { apply merge_keys. right. apply in_map_iff. exists (x, l). auto. }
    exists d. split; [exact Hd|]. intros s Hs.
    destruct (proj2 (requests_merge_requested src dest x s H)) as (d' & Hd' & Hi).
    { right. exists l. split; [apply get_symbols_in; assumption|exact Hs]. }
    congruence.
  Qed.
End Collate.

(** *** Macros in front of a command *)

Lemma filter_fold_lookup macros symbols : forall acc n,
  lookup (fold_left (fun t s => match lookup macros s with Some v => insert t s v | None => t end)
                    symbols acc) n =
  if existsb (fun s => bytes_eqb s n) symbols
  then match lookup macros n with Some v => Some v | None => lookup acc n end
  else lookup acc n.
Proof.
  induction symbols as [|s symbols IH]; intros acc n; [reflexivity|].
  cbn [fold_left existsb]. rewrite IH.
  destruct (bytes_eqb s n) eqn:E; cbn [orb].
  - apply bytes_eqb_eq in E. subst s. destruct (lookup macros n) eqn:El.
    + rewrite insert_lookup, bytes_eqb_refl. destruct (existsb _ _); reflexivity.
    + destruct (existsb _ _); reflexivity.
  - assert (Ha : lookup (match lookup macros s with Some v => insert acc s v | None => acc end) n = lookup acc n).
    { destruct (lookup macros s); [|reflexivity]. rewrite insert_lookup, E. reflexivity. }
    rewrite Ha. reflexivity.
Qed.

Lemma filter_fold_nodup macros symbols : forall acc, NoDup (map fst acc) ->
  NoDup (map fst (fold_left (fun t s => match lookup macros s with Some v => insert t s v | None => t end)
                    symbols acc)).
Proof.
  induction symbols as [|s symbols IH]; intros acc H; [exact H|]. cbn [fold_left]. apply IH.
  destruct (lookup macros s); [apply insert_nodup, H|exact H].
Qed.

Lemma lookup_nil_all t : (forall n, lookup t n = None) -> t = [].
Proof.
  destruct t as [|[k v] t]; [reflexivity|]. intros H. specialize (H k). cbn [lookup] in H.
  rewrite bytes_eqb_refl in H. discriminate.
Qed.

Lemma filter_macros_spec macros symbols r : filter_macros macros symbols = r ->
  match r with
  | Some t => t <> [] /\ NoDup (map fst t) /\
              forall n v, lookup t n = Some v <-> In n symbols /\ lookup macros n = Some v
  | None => forall n v, In n symbols -> lookup macros n <> Some v
  end.
Proof.
  unfold filter_macros. pose proof (filter_fold_lookup macros symbols []) as Hl.
  pose proof (filter_fold_nodup macros symbols [] (NoDup_nil _)) as Hd.
  match goal with |- match ?x with _ => _ end = _ -> _ => set (t := x) in * end.
  assert (Hx : forall n v, lookup t n = Some v <-> In n symbols /\ lookup macros n = Some v).
  { intros n v. rewrite Hl. destruct (existsb _ symbols) eqn:E.
    - apply existsb_exists in E. destruct E as (s & Hs & Es). apply bytes_eqb_eq in Es. subst s.
      destruct (lookup macros n); cbn [lookup]; intuition congruence.
    - split; [discriminate|]. intros [Hi _]. rewrite (proj2 (existsb_exists _ _)) in E; [discriminate|].
      exists n. split; [exact Hi|apply bytes_eqb_refl]. }
  destruct t as [|kv t'] eqn:Et; intros <-.
  - intros n v Hi Hv. assert (E : lookup [] n = Some v) by (apply Hx; auto). discriminate E.
  - split; [discriminate|]. auto.
Qed.

Lemma macros_before_spec h reqs c : Forall is_table h ->
  match fst (macros_before (agent_after h) reqs c) with
  | Some t =>
      t <> [] /\ NoDup (map fst t) /\
      forall n v, lookup t n = Some v <->
        latest h c n v /\ match reqs with Some r => requested r c n | None => True end
  | None =>
      forall n v, latest h c n v -> match reqs with Some r => ~ requested r c n | None => False end
  end.
Proof.
  intros Hh. unfold macros_before, get_macros. cbn [set_macro_context pa_macros pa_context].
  pose proof (fun n v => stage_value_latest h c n v Hh) as Hv. unfold stage_value in Hv.
  pose proof (agent_tables_ok h c) as Hok.
  destruct (stage_lookup (pa_macros (agent_after h)) c) as [t|].
  2:{ cbn [fst]. intros n v H. apply Hv in H. discriminate. }
  specialize (Hok t eq_refl).
  destruct t as [|kv t']; [cbn [fst]; intros n v H; apply Hv in H; discriminate|].
  set (t := kv :: t') in *. 
  destruct reqs as [r|]; cbn [fst].
  2:{ split; [discriminate|]. split; [exact Hok|]. intros n v. rewrite Hv. tauto. }
  destruct (get_symbols r c) as [[|s l]|] eqn:Er.
  - intros n v _ (l & Hl & Hi). rewrite Er in Hl. injection Hl as <-. destruct Hi.
  - pose proof (filter_macros_spec t (s :: l) _ eq_refl) as Hf.
    assert (Hq : forall n, requested r c n <-> In n (s :: l)).
    { intros n. unfold requested. rewrite Er. split; [intros (l' & [= <-] & H); exact H|eauto]. }
    destruct (filter_macros t (s :: l)) as [ft|].
    + destruct Hf as (H1 & H2 & H3). split; [exact H1|]. split; [exact H2|].
      intros n v. rewrite H3, Hq, Hv. tauto.
    + intros n v H Hr. apply Hq in Hr. apply Hv in H. exact (Hf n v Hr H).
  - intros n v _ (l & Hl & Hi). rewrite Er in Hl. discriminate.
Qed.
