(** Proofs about the conditions that come with milter-manager. *)
From Coq Require Import Permutation.
From Verif.Base Require Import Bytes BytesFacts.
From Verif.Model Require Import CommandCodec Macros Conditions SenderRules.
From Verif.Model Require ConnectionSpec.
From Verif.Spec Require Import ConditionSpec ConditionLibrarySpec.
From Verif.Proofs Require Import MacroProofs ConditionProofs SenderRuleProofs.
Import List.

Section Connect.
  Context {E : Type}.
  Lemma connect_tell : forall n (p : E -> bytes -> address -> bool) f e host x, c_quitted f = false ->
    (p e host x = true -> snd (tell [mk_condition n [(AtConnect, on_connect E p)]] f e (connect_of host x)) = Stopped) /\
    (p e host x = false -> exists t, snd (tell [mk_condition n [(AtConnect, on_connect E p)]] f e (connect_of host x)) = Told t).
  Proof.
    intros n p f e host x Q. unfold tell, connect_of, concerned. cbn [c_stage]. rewrite Q. cbn [negb].
    unfold asked, stoppers_at, passed. cbn [c_stage k_stoppers filter fst stage_beq map snd c_arguments any_stops].
    unfold on_connect, says. destruct (p e host x); cbn [guarded]; split; intros H; try discriminate H.
    - reflexivity.
    - eexists. reflexivity.
  Qed.
  Lemma connect_turned : forall n (p : E -> bytes -> address -> bool) e host x,
    turned_away [mk_condition n [(AtConnect, on_connect E p)]] e (connect_of host x) <-> p e host x = true.
  Proof.
    intros n p e host x. split.
    - intros T. specialize (T child_new eq_refl). destruct (p e host x) eqn:P; [reflexivity|].
      destruct (proj2 (connect_tell n p child_new e host x eq_refl) P) as [t H]. rewrite T in H. discriminate H.
    - intros P f Q. exact (proj1 (connect_tell n p f e host x Q) P).
  Qed.
  Lemma connect_let : forall n (p : E -> bytes -> address -> bool) e host x,
    let_in [mk_condition n [(AtConnect, on_connect E p)]] e (connect_of host x) <-> p e host x = false.
  Proof.
    intros n p e host x. split.
    - intros T. destruct (T child_new eq_refl) as [t H]. destruct (p e host x) eqn:P; [|reflexivity].
      rewrite (proj1 (connect_tell n p child_new e host x eq_refl) P) in H. discriminate H.
    - intros P f Q. exact (proj2 (connect_tell n p f e host x Q) P).
  Qed.
End Connect.

Lemma div_range : forall a d q, (0 < d -> (a / d = q <-> q * d <= a <= (q + 1) * d - 1))%N.
Proof.
  intros a d q D. pose proof (N.div_mod a d ltac:(lia)) as M. pose proof (N.mod_lt a d ltac:(lia)) as L. split.
  - intros <-. nia.
  - intros [H1 H2]. symmetry. apply N.div_unique with (r := (a - q * d)%N); nia.
Qed.
Lemma is_local_iff : forall x, is_local x = true <-> local_by_itself x.
Proof.
  destruct x as [a p|a p|s|]; cbn [is_local local_by_itself]; unfold between, ip4.
  - rewrite !orb_true_iff, !N.eqb_eq, !N.shiftr_div_pow2.
    change (2 ^ 24)%N with 16777216%N. change (2 ^ 20)%N with 1048576%N. change (2 ^ 16)%N with 65536%N.
    rewrite !div_range by lia. lia.
  - rewrite orb_true_iff, !N.eqb_eq, N.shiftr_div_pow2, div_range by reflexivity.
    change (1018 * 2 ^ 118)%N with (65152 * 2 ^ 112)%N. change ((1018 + 1) * 2 ^ 118 - 1)%N with (65216 * 2 ^ 112 - 1)%N. reflexivity.
  - split; auto.
  - split; [discriminate | intros []].
Qed.
Lemma has_ip_iff : forall x, has_ip x = true <-> ip_address x.
Proof. destruct x; cbn; split; auto; try discriminate; intros []. Qed.
Section Network.
  Context (network : Type) (includes : network -> address -> bool).
  Lemma remote_iff : forall local remote x, remote_address network includes local remote x = true <->
    x <> UnknownAddress /\
    ((ip_address x /\ exists n, In n remote /\ includes n x = true) \/
     (~ local_by_itself x /\ ~ (ip_address x /\ exists n, In n local /\ includes n x = true))).
  Proof.
    intros local remote x. unfold remote_address, local_address.
    rewrite <- is_local_iff, <- has_ip_iff.
    assert (R : forall l, existsb (fun n => includes n x) l = true <-> exists n, In n l /\ includes n x = true) by (intros l; apply existsb_exists).
    rewrite <- !R. assert (U : is_unknown x = true <-> x = UnknownAddress) by (destruct x; cbn; split; congruence).
    destruct (is_unknown x).
    - split; [discriminate|]. intros [D _]. exfalso. apply D, U. reflexivity.
    - assert (NU : x <> UnknownAddress) by (intros D; apply U in D; discriminate).
      destruct (has_ip x), (existsb _ remote), (is_local x), (existsb _ local); cbn;
        clear - NU; intuition congruence.
  Qed.
End Network.

(** ** DNSBL *)
Lemma pop_any : forall n l, length l = n -> pop_answers n l = existsb (fun x => x) l.
Proof.
  induction n as [|n IH]; intros [|x l] L; try discriminate; [reflexivity|]. cbn [pop_answers existsb].
  destruct x; [reflexivity | apply IH; cbn in L; lia].
Qed.
Lemma split_plain : forall s acc rest, without is_point s -> split_points (s ++ "."%char :: rest) acc = (acc ++ s) :: split_points rest [].
Proof.
  induction s as [|c s IH]; intros acc rest W; cbn [app split_points].
  - replace (beqb "." ".") with true by reflexivity. rewrite app_nil_r. reflexivity.
  - inversion W as [|? ? P W']; subst. unfold is_point in P. rewrite P, IH by exact W'. rewrite <- app_assoc. reflexivity.
Qed.
Lemma split_last : forall s acc, without is_point s -> split_points s acc = [acc ++ s].
Proof.
  induction s as [|c s IH]; intros acc W; cbn [split_points]; [rewrite app_nil_r; reflexivity|].
  inversion W as [|? ? P W']; subst. unfold is_point in P. rewrite P, IH by exact W'. rewrite <- app_assoc. reflexivity.
Qed.

(** ** Trust *)
Lemma after_at_app : forall u d, ~ In "@"%char u -> after_at (u ++ "@"%char :: d) = Some d.
Proof.
  induction u as [|c u IH]; intros d N; cbn [app after_at]; [reflexivity|].
  destruct (beqb c "@") eqn:B; [apply beqb_iff in B; exfalso; apply N; left; exact B|]. apply IH. intros I. apply N. right. exact I.
Qed.
Lemma last_snoc : forall (s : bytes) c, last (s ++ [c]) NUL = c.
Proof. intros s c. apply last_last. Qed.
Lemma newline_free_iff : forall s, newline_free s = true <-> without is_newline s.
Proof.
  intros s. unfold newline_free, without. rewrite forallb_forall, Forall_forall. unfold is_newline.
  split; intros H c I; specialize (H c I); destruct (beqb c _); cbn in *; congruence.
Qed.
Lemma sender_domain : forall user domain, user <> [] -> ~ In "@"%char user -> domain <> [] ->
  without is_newline user -> without is_newline domain ->
  from_domain (lit "<" ++ user ++ lit "@" ++ domain ++ lit ">") = Some domain.
Proof.
  intros user domain U A D W1 W2. destruct user as [|c user]; [congruence|].
  change (lit "<" ++ (c :: user) ++ lit "@" ++ domain ++ lit ">") with ("<"%char :: c :: user ++ "@"%char :: domain ++ [">"%char]).
  replace (user ++ "@"%char :: domain ++ [">"%char]) with ((user ++ "@"%char :: domain) ++ [">"%char]) by (rewrite <- app_assoc; reflexivity).
  unfold from_domain. rewrite last_snoc, removelast_last.
  replace (newline_free (c :: user ++ "@"%char :: domain)) with true.
  2:{ symmetry. apply newline_free_iff. inversion W1; subst. apply Forall_cons; [assumption|]. apply Forall_app. split; [assumption|].
      apply Forall_cons; [reflexivity | exact W2]. }
  cbn [beqb]. replace (beqb "<" "<" && beqb ">" ">" && true) with true by reflexivity.
  rewrite after_at_app by (intros I; apply A; right; exact I). destruct domain; [congruence | reflexivity].
Qed.

(** ** Macros *)
Fixpoint latest_value (m : stages) (ctx : byte) (order : list byte) (n : bytes) (acc : option bytes) : option bytes :=
  match order with
  | [] => acc
  | c :: order =>
      let acc := match stage_value m c n with Some v => Some v | None => acc end in
      if beqb c ctx then acc else latest_value m ctx order n acc
  end.
Lemma collect_value : forall m ctx, tables_ok m -> forall order acc n,
  lookup (collect m ctx order acc) n = latest_value m ctx order n (lookup acc n).
Proof.
  intros m ctx OK. induction order as [|c order IH]; intros acc n; cbn [collect latest_value]; [reflexivity|].
  assert (H : lookup match stage_lookup m c with Some t => merge_table acc t | None => acc end n =
              match stage_value m c n with Some v => Some v | None => lookup acc n end).
  { unfold stage_value. destruct (stage_lookup m c) as [t|] eqn:T; [|reflexivity]. apply merge_table_lookup, (OK _ _ T). }
  destruct (beqb c ctx); [exact H|]. rewrite IH, H. reflexivity.
Qed.
Definition plain_name (n : bytes) : Prop := normalized n = n.
Lemma macro_at : forall a c n, tables_ok (pa_macros a) -> plain_name n ->
  macro (set_macro_context a c) n = latest_value (pa_macros a) c macro_search_order n None.
Proof.
  intros a c n OK P. unfold macro, set_macro_context, get_available. cbn [pa_available fst pa_macros pa_context].
  rewrite P. apply (collect_value _ _ OK).
Qed.
Lemma set_value : forall a c n v c' n', stage_value (pa_macros (set_macro a c n v)) c' n' =
  if beqb c c' && bytes_eqb n n' then v else stage_value (pa_macros a) c' n'.
Proof.
  intros a c n v c' n'. unfold set_macro, stage_value. cbn [pa_macros]. rewrite stage_insert_lookup.
  destruct (beqb c c') eqn:B; cbn [andb]; [|reflexivity]. rewrite update_lookup.
  apply beqb_iff in B. subst c'. destruct (bytes_eqb n n'); [reflexivity|].
  rewrite ensure_lookup. reflexivity.
Qed.
Lemma set_ok : forall a c n v, tables_ok (pa_macros a) -> tables_ok (pa_macros (set_macro a c n v)).
Proof. intros a c n v OK. unfold set_macro. cbn [pa_macros]. apply stage_insert_ok; [exact OK | apply update_nodup, ensure_ok, OK]. Qed.
Lemma hash_value : forall a c t c' n, NoDup (map fst t) ->
  stage_value (pa_macros (set_macros_hash_table a c t)) c' n = if beqb c c' then lookup t n else stage_value (pa_macros a) c' n.
Proof.
  intros a c t c' n U. unfold set_macros_hash_table, stage_value. cbn [pa_macros]. rewrite stage_insert_lookup.
  destruct (beqb c c'); [|reflexivity]. rewrite merge_table_lookup by exact U. destruct (lookup t n); reflexivity.
Qed.
Lemma hash_ok : forall a c t, tables_ok (pa_macros a) -> tables_ok (pa_macros (set_macros_hash_table a c t)).
Proof. intros a c t OK. unfold set_macros_hash_table. cbn [pa_macros]. apply stage_insert_ok; [exact OK | apply merge_table_nodup; constructor]. Qed.
Lemma clear_value : forall a c n, stage_value (pa_macros (clear_message_related_macros a)) c n =
  if existsb (fun x => beqb x c) ["M"; "R"; "T"; "L"; "N"; "B"; "E"]%char then None else stage_value (pa_macros a) c n.
Proof.
  intros a c n. unfold clear_message_related_macros, stage_value. cbn [pa_macros]. rewrite stage_remove_all_lookup.
  destruct (existsb _ _); reflexivity.
Qed.
Lemma clear_ok : forall a, tables_ok (pa_macros a) -> tables_ok (pa_macros (clear_message_related_macros a)).
Proof.
  intros a OK c t. unfold clear_message_related_macros. cbn [pa_macros]. rewrite stage_remove_all_lookup.
  destruct (existsb _ _); [discriminate | apply OK].
Qed.
Lemma new_ok : tables_ok (pa_macros pagent_new).
Proof. intros c t H. discriminate H. Qed.
Lemma lookup_in : forall (t : table) n v, NoDup (map fst t) -> (lookup t n = Some v <-> In (n, v) t).
Proof.
  induction t as [|[k w] t IH]; intros n v U; cbn [lookup]; [split; [discriminate | intros []]|].
  cbn [map fst] in U. apply NoDup_cons_iff in U. destruct U as [N U]. destruct (bytes_eqb k n) eqn:B.
  - apply bytes_eqb_eq in B. subst k. split.
    + intros H. injection H as ->. left. reflexivity.
    + intros [H|H]; [injection H as ->; reflexivity|]. exfalso. apply N. apply in_map_iff. exists (n, v). tauto.
  - apply bytes_eqb_neq in B. rewrite (IH _ _ U). split; [intros H; right; exact H|]. intros [H|H]; [congruence | exact H].
Qed.

(** ** Authentication *)
Section Authentication.
  Context {E : Type}.
  Lemma mta_gave_snoc : forall (l : list (event E)) x s t, mta_gave s t (l ++ [x]) <->
    x = EMacros s t \/ (mta_gave s t l /\ (forall t', x <> EMacros s t') /\ (x = EAbort -> of_session s)).
  Proof.
    intros l x s t. split.
    - intros H. remember (l ++ [x]) as lx eqn:D. destruct H as [l'|l' x' H N A]; apply app_inj_tail in D; destruct D as [-> <-]; [left; reflexivity|].
      right. tauto.
    - intros [->|(H & N & A)]; [apply gave_last | apply gave_before; assumption].
  Qed.
  Definition asks_mail (p : pagent -> bool) (n : bytes) : condition E := mk_condition n [(AtFrom, fun _ a _ => (a, says (p a)))].
  Definition known (l : list (event E)) (f : child) : Prop :=
    c_quitted f = false /\ tables_ok (pa_macros (c_agent f)) /\
    forall s n v, s = AtConnect \/ s = AtHelo \/ s = AtFrom ->
      (stage_value (pa_macros (c_agent f)) (stage_command s) n = Some v <-> exists t, mta_gave s t l /\ In (n, v) t).
  Lemma known_new : known [] child_new.
  Proof.
    repeat apply conj; [reflexivity | exact new_ok|]. intros s n v _. split; [discriminate|].
    intros (t & H & _). inversion H as [l D|l x H' N A D]; destruct l; discriminate D.
  Qed.
  Lemma asks_mail_tell : forall p n f e c, c_quitted f = false ->
    exists f' o, tell [asks_mail p n] f e c = (f', o) /\ c_quitted f' = false /\ pa_macros (c_agent f') = pa_macros (c_agent f) /\
      (c_stage c = AtFrom -> if p (set_macro_context (c_agent f) "M"%char) then o = Stopped else exists t, o = Told t).
  Proof.
    intros p n f e c Q. unfold tell.
    destruct (concerned f (c_stage c)) eqn:C.
    2:{ exists f, Passed. repeat apply conj; auto. intros S. rewrite S in C. cbn [concerned] in C. rewrite Q in C. discriminate C. }
    unfold asked, stoppers_at, passed. cbn [k_stoppers asks_mail filter fst].
    destruct (c_stage c) eqn:S; cbn [stage_beq map snd any_stops];
      try (eexists _, _; split; [reflexivity|]; repeat apply conj; [exact Q | reflexivity | discriminate]).
    cbn [stage_command]. unfold says. destruct (p _); cbn [guarded]; (eexists _, _; split; [reflexivity|]; repeat apply conj; [exact Q | reflexivity | intros _]).
    - reflexivity.
    - eexists. reflexivity.
  Qed.
  Lemma command_inj : forall s s', stage_command s = stage_command s' -> s = s'.
  Proof. destruct s, s'; cbn; congruence. Qed.
  Lemma known_run : forall p nm l0 l f, known l0 f -> hash_tables l ->
    known (l0 ++ l) (fst (run [asks_mail p nm] f l)).
  Proof.
    intros p nm l0 l. revert l0. induction l as [|x l IH]; intros l0 f K U; [rewrite app_nil_r; exact K|].
    cbn [run]. assert (U' : hash_tables l) by (intros s t I; apply (U s t); right; exact I).
    destruct (step [asks_mail p nm] f x) as [f1 o] eqn:T.
    assert (K1 : known (l0 ++ [x]) f1).
    { destruct K as (Q & OK & V). destruct x as [s t|e c|]; cbn [step] in T.
      - injection T as <- <-. unfold define_macros.
        assert (H : known (l0 ++ [EMacros s t]) (mk_child (set_macros_hash_table (c_agent f) (stage_command s) t) (c_processing f) (c_quitted f))).
        { repeat apply conj; cbn [c_quitted c_agent]; [exact Q | apply hash_ok, OK|]. intros s' n v S.
          assert (Ut : NoDup (map fst t)) by (apply (U s); left; reflexivity). rewrite hash_value by exact Ut.
          destruct (beqb (stage_command s) (stage_command s')) eqn:B.
          - apply beqb_iff, command_inj in B. subst s'. rewrite (lookup_in _ _ _ Ut). split.
            + intros I. exists t. split; [apply gave_last | exact I].
            + intros (t' & H & I). apply mta_gave_snoc in H. destruct H as [H|(_ & H & _)]; [injection H as ->; exact I|].
              exfalso. apply (H t). reflexivity.
          - rewrite (V s' n v S). assert (D : s <> s') by (intros ->; rewrite (proj2 (beqb_iff _ _) eq_refl) in B; discriminate).
            split; intros (t' & H & I); exists t'; (split; [|exact I]).
            + apply mta_gave_snoc. right. repeat apply conj; [exact H | intros t2; congruence | discriminate].
            + apply mta_gave_snoc in H. destruct H as [H|(H & _)]; [congruence | exact H]. }
        destruct s; rewrite Q in *; cbn [negb]; rewrite ?andb_true_r; try exact H; (destruct (c_processing f); [exact H|]);
          (repeat apply conj; [exact Q | exact OK|]; intros s' n v S; rewrite (V s' n v S);
           split; intros (t' & G & I); exists t'; (split; [|exact I]);
             [apply mta_gave_snoc; right; repeat apply conj; [exact G | intros t2 D; injection D as D _; subst; destruct S as [S|[S|S]]; discriminate | discriminate]
             |apply mta_gave_snoc in G; destruct G as [G|(G & _)]; [injection G as <- <-; destruct S as [S|[S|S]]; discriminate | exact G]]).
      - destruct (tell [asks_mail p nm] f e c) as [f2 o2] eqn:TT. injection T as <- <-.
        destruct (asks_mail_tell p nm f e c Q) as (f3 & o3 & TT' & Q' & M & _). rewrite TT in TT'. injection TT' as -> ->.
        repeat apply conj; [exact Q' | rewrite M; exact OK|]. intros s n v S. rewrite M, (V s n v S).
        split; intros (t' & G & I); exists t'; (split; [|exact I]).
        + apply mta_gave_snoc. right. repeat apply conj; [exact G | discriminate | discriminate].
        + apply mta_gave_snoc in G. destruct G as [G|(G & _)]; [discriminate | exact G].
      - injection T as <- <-. unfold abort. rewrite Q. repeat apply conj; cbn [c_quitted c_agent]; [reflexivity | apply clear_ok, OK|].
        intros s n v S. rewrite clear_value.
        destruct S as [->|[->| ->]].
        1,2: match goal with |- context [if ?b then _ else _] => change b with false end; cbv iota;
          rewrite V by tauto; split; intros (t' & G & I); exists t'; (split; [|exact I]);
          [apply mta_gave_snoc; right; repeat apply conj; [exact G | discriminate | intros _; unfold of_session; tauto]
          |apply mta_gave_snoc in G; destruct G as [G|(G & _)]; [discriminate | exact G]].
        match goal with |- context [if ?b then _ else _] => change b with true end. cbv iota. split; [discriminate|].
        intros (t' & G & _). apply mta_gave_snoc in G. destruct G as [G|(_ & _ & G)]; [discriminate|].
        destruct (G eq_refl) as [D|D]; discriminate D. }
    specialize (IH (l0 ++ [x]) f1 K1 U'). rewrite <- app_assoc in IH. cbn [app] in IH.
    destruct (run _ f1 l) as [f2 os]. exact IH.
  Qed.
  Lemma given_macro : forall (l : list (event E)) f n, known l f -> plain_name n ->
    (given (macro (set_macro_context (c_agent f) "M"%char) n) = true <->
     exists s t v, (s = AtConnect \/ s = AtHelo \/ s = AtFrom) /\ mta_gave s t l /\ In (n, v) t).
  Proof.
    intros l f n (Q & OK & V) P. rewrite (macro_at _ _ _ OK P). unfold macro_search_order. cbn [latest_value].
    replace (beqb "C" "M") with false by reflexivity. replace (beqb "H" "M") with false by reflexivity. replace (beqb "M" "M") with true by reflexivity.
    cbv iota.
    assert (X : forall s, s = AtConnect \/ s = AtHelo \/ s = AtFrom ->
      (given (stage_value (pa_macros (c_agent f)) (stage_command s) n) = true <-> exists t v, mta_gave s t l /\ In (n, v) t)).
    { intros s S. destruct (stage_value _ (stage_command s) n) as [v|] eqn:G; cbn [given].
      - split; [intros _|reflexivity]. apply V in G; [|exact S]. destruct G as (t & G). exists t, v. exact G.
      - split; [discriminate|]. intros (t & v & H). assert (K : stage_value (pa_macros (c_agent f)) (stage_command s) n = Some v) by (apply V; [exact S | exists t; exact H]).
        congruence. }
    pose proof (X AtConnect ltac:(tauto)) as XC. pose proof (X AtHelo ltac:(tauto)) as XH. pose proof (X AtFrom ltac:(tauto)) as XM.
    cbn [stage_command] in XC, XH, XM.
    transitivity (given (stage_value (pa_macros (c_agent f)) "M" n) = true \/ given (stage_value (pa_macros (c_agent f)) "H" n) = true \/
                  given (stage_value (pa_macros (c_agent f)) "C" n) = true).
    { destruct (stage_value _ "M" n), (stage_value _ "H" n), (stage_value _ "C" n); cbn [given]; intuition congruence. }
    rewrite XC, XH, XM. split.
    - intros [(t & v & H)|[(t & v & H)|(t & v & H)]]; eexists _, t, v; (split; [|exact H]); tauto.
    - intros (s & t & v & [->|[->| ->]] & H); [right; right|right; left|left]; exists t, v; exact H.
  Qed.
  Lemma authenticated_iff : forall (l : list (event E)) f, known l f ->
    (authenticated (set_macro_context (c_agent f) "M"%char) = true <->
     exists s t n v, (s = AtConnect \/ s = AtHelo \/ s = AtFrom) /\ mta_gave s t l /\ In (n, v) t /\ (n = lit "auth_type" \/ n = lit "auth_authen")).
  Proof.
    intros l f K. unfold authenticated. rewrite orb_true_iff. rewrite !(given_macro l f _ K) by reflexivity. split.
    - intros [(s & t & v & S & G & I)|(s & t & v & S & G & I)]; eexists s, t, _, v; repeat apply conj; try eassumption; tauto.
    - intros (s & t & n & v & S & G & I & [->| ->]); [left|right]; exists s, t, v; tauto.
  Qed.
End Authentication.
