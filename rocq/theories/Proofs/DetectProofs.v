(** How configuration files are read by the detectors. *)
From Verif.Base Require Import Bytes BytesFacts.
From Verif.Model Require Import PostfixTable Breaker Detect.
From Verif.Spec Require Import PostfixSpec ConnectionSpecSpec.
From Verif.Spec Require BreakerSpec.
From Verif.Proofs Require Import PostfixProofs ConnectionSpecProofs BreakerProofs.
From Verif.Spec Require Import DetectSpec.
Import List.
Local Open Scope N_scope.

(** *** Files line by line *)
Lemma fold_lists {A E} (M : bytes -> E -> Prop) (f : A -> bytes -> A) (g : A -> E -> A) :
  (forall a p l e, ended p l -> one_line l -> M l e -> f a p = g a e) ->
  (forall a e, M [] e -> g a e = a) ->
  forall es content a, lists M es content -> fold_left f (physical content) a = fold_left g es a.
Proof.
  intros Hf Hn es content a (ls & last & -> & F & L & F2).
  rewrite (physical_file _ _ F L).
  revert a es F2. induction F as [|l ls H F IH]; intros a es F2.
  - inversion F2 as [|? e ? es' HM F2']; subst. inversion F2'; subst. cbn [map app fold_left].
    destruct last as [|c last]; cbn [fold_left].
    + symmetry. apply Hn. exact HM.
    + exact (Hf a (c :: last) (c :: last) e (or_intror eq_refl) L HM).
  - inversion F2 as [|? e ? es' HM F2']; subst. cbn [map app fold_left].
    rewrite (Hf a (l ++ [byte_of 10]) l e (or_introl eq_refl) H HM). apply IH. exact F2'.
Qed.

(** *** Characters *)
Lemma name_not_space c : BreakerSpec.name_char c -> is_space c = false.
Proof.
  intros H. unfold BreakerSpec.name_char in H. unfold is_space. apply orb_false_iff.
  split; [apply N.eqb_neq; lia|]. apply andb_false_iff. right. apply N.leb_gt. lia.
Qed.
Lemma word_name c : is_word c = true <-> BreakerSpec.name_char c.
Proof.
  split; [|apply name_word]. unfold is_word, is_digit, BreakerSpec.name_char.
  rewrite !orb_true_iff, !andb_true_iff, !N.leb_le, beqb_eq. intros [[[H|H]|H]|H]; auto.
  right. right. right. subst. reflexivity.
Qed.
Lemma space_not_word c : is_space c = true -> is_word c = false.
Proof.
  intros H. destruct (is_word c) eqn:E; [|reflexivity]. apply word_name, name_not_space in E. congruence.
Qed.
Lemma names_true k : Forall BreakerSpec.name_char k -> Forall (fun c => is_word c = true) k.
Proof. intros H. eapply Forall_impl; [|exact H]. intros c. apply name_word. Qed.
Lemma white_is c : white c -> is_space c = true.
Proof. apply is_space_white. Qed.
Lemma begins_head v : begins_text v -> drop_while is_space v = v /\ v <> [].
Proof.
  intros (c & v' & -> & W). split; [|discriminate]. apply drop_stop. apply not_white. exact W.
Qed.
Lemma word_stops k r : word k -> (r = [] \/ exists c r', r = c :: r' /\ is_word c = false) ->
  take_while is_word (k ++ r) = k /\ drop_while is_word (k ++ r) = r.
Proof.
  intros [N F] H. apply names_true in F. rewrite (take_all _ _ _ F), (drop_all _ _ _ F).
  destruct H as [->|(c & r' & -> & H)].
  - cbn. rewrite app_nil_r. auto.
  - rewrite (take_stop _ _ _ H), (drop_stop _ _ _ H), app_nil_r. auto.
Qed.
Lemma word_begins k r : word k -> drop_while is_space (k ++ r) = k ++ r.
Proof.
  intros [N F]. destruct k as [|c k]; [congruence|]. inversion F; subst. cbn [app]. apply drop_stop.
  now apply name_not_space.
Qed.
Lemma without_lf_one b : one_line b -> without_lf b = b.
Proof.
  induction b as [|c b IH]; intros H; [reflexivity|]. cbn [without_lf]. destruct b as [|d b].
  - replace (beqb c lf) with false; [reflexivity|]. symmetry. apply beqb_neq. intros ->. apply H. now left.
  - rewrite IH by (intros I; apply H; now right). reflexivity.
Qed.
Lemma without_lf_ended p l : ended p l -> one_line l -> without_lf p = l.
Proof. intros [->| ->] O; [apply without_lf_end|apply without_lf_one]; exact O. Qed.
Lemma one_line_app a b : one_line (a ++ b) <-> one_line a /\ one_line b.
Proof. unfold one_line. rewrite in_app_iff. tauto. Qed.
(** The end of a line is the end of its last part. *)
Lemma ended_app p a b : ended p (a ++ b) -> exists b', p = a ++ b' /\ ended b' b.
Proof.
  intros [->| ->].
  - exists (b ++ [byte_of 10]). rewrite app_assoc. split; [reflexivity|now left].
  - exists b. split; [reflexivity|now right].
Qed.
Lemma lf_space : is_space (byte_of 10) = true. Proof. reflexivity. Qed.

(** *** Settings *)
Definition put_entry (vs : list (bytes * option bytes)) (e : option (bytes * option bytes)) :=
  match e with Some kv => kv :: vs | None => vs end.
Lemma idle_no_word p l : ended p l -> idle_line l ->
  match drop_while is_space p with [] => True | c :: _ => c = "#"%char end.
Proof.
  intros E I. destruct I as [l F|w l F].
  - apply whites in F. destruct E as [->| ->].
    + rewrite (drop_all _ _ _ F). exact I.
    + rewrite <- (app_nil_r l), (drop_all _ _ _ F). exact I.
  - apply whites in F. apply ended_app in E as (b & -> & E). rewrite (drop_all _ _ _ F).
    destruct E as [->| ->]; reflexivity.
Qed.
Lemma key_value_spec p l e : ended p l -> one_line l -> setting_line l e -> key_value p = e.
Proof.
  intros E O S. destruct S as [l I|i k s Hi Hk Hs Ls|i k s v Hi Hk Hs Hv|i k c l Hi Hk Wc Nc|i c l Hi Wc Nc].
  - unfold key_value. pose proof (idle_no_word _ _ E I) as H.
    destruct (drop_while is_space p) as [|c b]; [reflexivity|]. subst c. reflexivity.
  - apply ended_app in E as (b & -> & E). apply ended_app in E as (t & -> & E).
    apply whites in Hi. unfold key_value. rewrite (drop_all _ _ _ Hi), (word_begins _ _ Hk).
    assert (T : t = [] \/ exists c r', t = c :: r' /\ is_space c = true).
    { destruct E as [->| ->].
      - destruct Hs as [|c s W F]; [right; exists (byte_of 10), []; auto|right; exists c, (s ++ [byte_of 10])].
        split; [reflexivity|now apply white_is].
      - destruct Hs as [|c s W F]; [now left|right; exists c, s]. split; [reflexivity|now apply white_is]. }
    destruct (word_stops k t Hk) as [T1 T2].
    { destruct T as [->|(c & r & -> & W)]; [now left|right; exists c, r; split; auto; now apply space_not_word]. }
    rewrite T1, T2. destruct Hk as [N _]. destruct k as [|k0 k]; [congruence|]. clear N.
    destruct T as [->|(c & r & Et & W)]; [reflexivity|]. rewrite Et, W.
    assert (B : without_lf (c :: r) = s).
    { rewrite <- Et. apply without_lf_ended; [exact E|]. apply one_line_app in O as [_ O].
      apply one_line_app in O as [_ O]. exact O. }
    rewrite B. apply whites in Hs. replace (drop_while is_space s) with (@nil byte).
    + destruct s as [|c1 [|c2 s]]; [reflexivity|reflexivity|cbn [length] in Ls; lia].
    + rewrite <- (app_nil_r s), (drop_all _ _ _ Hs). reflexivity.
  - apply ended_app in E as (b & -> & E). apply ended_app in E as (t & -> & E).
    apply whites in Hi. unfold key_value. rewrite (drop_all _ _ _ Hi), (word_begins _ _ Hk).
    destruct Hs as [Ns Fs]. destruct s as [|c s]; [congruence|]. clear Ns.
    assert (W : is_space c = true) by (inversion Fs; subst; now apply white_is).
    apply ended_app in E as (t' & -> & E).
    destruct (word_stops k ((c :: s) ++ t') Hk) as [T1 T2].
    { right. exists c, (s ++ t'). split; [reflexivity|now apply space_not_word]. }
    rewrite T1, T2. destruct Hk as [N _]. destruct k as [|k0 k]; [congruence|]. clear N.
    cbn [app]. rewrite W.
    assert (B : without_lf (c :: s ++ t') = (c :: s) ++ v).
    { apply (without_lf_ended (c :: s ++ t')).
      - destruct E as [->| ->]; [left|right]; cbn [app]; rewrite <- ?app_assoc; reflexivity.
      - apply one_line_app in O as [_ O]. apply one_line_app in O as [_ O]. exact O. }
    rewrite B. apply whites in Fs. rewrite (drop_all _ _ _ Fs).
    destruct (begins_head v Hv) as [-> Nv]. destruct v; [congruence|reflexivity].
  - apply ended_app in E as (b & -> & E). apply ended_app in E as (t & -> & E).
    apply whites in Hi. unfold key_value. rewrite (drop_all _ _ _ Hi), (word_begins _ _ Hk).
    assert (T : exists r, t = c :: r).
    { destruct E as [->| ->]; [exists (l ++ [byte_of 10])|exists l]; reflexivity. }
    destruct T as [r ->].
    assert (Sc : is_space c = false) by (now apply not_white).
    assert (Wd : is_word c = false) by (destruct (is_word c) eqn:X; [apply word_name in X; contradiction|reflexivity]).
    destruct (word_stops k (c :: r) Hk) as [T1 T2]; [right; exists c, r; auto|].
    rewrite T1, T2, Sc. destruct k; reflexivity.
  - apply ended_app in E as (b & -> & E). apply whites in Hi. unfold key_value. rewrite (drop_all _ _ _ Hi).
    assert (T : exists r, b = c :: r).
    { destruct E as [->| ->]; [exists (l ++ [byte_of 10])|exists l]; reflexivity. }
    destruct T as [r ->].
    assert (Sc : is_space c = false) by (now apply not_white).
    assert (Wd : is_word c = false) by (destruct (is_word c) eqn:X; [apply word_name in X; contradiction|reflexivity]).
    cbn [drop_while]. rewrite Sc. cbn [take_while]. rewrite Wd. reflexivity.
Qed.
Lemma settings_spec es content : lists setting_line es content ->
  parse_settings (Some content) = fold_left put_entry es [].
Proof.
  intros H. unfold parse_settings. apply (fold_lists setting_line); [| |exact H].
  - intros a p l e E O S. unfold put_line. rewrite (key_value_spec _ _ _ E O S). reflexivity.
  - intros a e S. rewrite <- (key_value_spec [] [] e) by (auto; now right || intros []). reflexivity.
Qed.
Lemma lookup_fold es : forall vs k, lookup (fold_left put_entry es vs) k =
  match lookup (fold_left put_entry es []) k with Some v => Some v | None => lookup vs k end.
Proof.
  induction es as [|[[k' v]|] es IH]; intros vs k; cbn [fold_left put_entry]; [reflexivity| |apply IH].
  rewrite (IH ((k', v) :: vs)), (IH [(k', v)]).
  destruct (lookup (fold_left put_entry es []) k); [reflexivity|]. cbn [lookup].
  destruct (bytes_eqb k' k); reflexivity.
Qed.
Lemma lookup_mentions es k : lookup (fold_left put_entry es []) k = None <-> ~ mentions es k.
Proof.
  induction es as [|[[k' v]|] es IH]; cbn [fold_left put_entry].
  - split; [intros _ [v []]|reflexivity].
  - rewrite lookup_fold. cbn [lookup]. split.
    + intros H [w [I|I]].
      * injection I as -> ->. rewrite bytes_eqb_refl in H.
        destruct (lookup (fold_left put_entry es []) k); discriminate.
      * destruct (lookup (fold_left put_entry es []) k) eqn:E; [discriminate|]. apply (proj1 IH eq_refl). now exists w.
    + intros H. assert (N : ~ mentions es k) by (intros [w I]; apply H; exists w; now right).
      apply IH in N. rewrite N. destruct (bytes_eqb k' k) eqn:E; [|reflexivity].
      apply bytes_eqb_eq in E. subst. exfalso. apply H. exists v. now left.
  - rewrite IH. unfold mentions. split; intros H [w I]; apply H; exists w; [destruct I as [I|I]; [discriminate|exact I]|now right].
Qed.
Lemma lookup_final es k v : final es k v -> lookup (fold_left put_entry es []) k = Some v.
Proof.
  intros (a & b & -> & N). rewrite fold_left_app. cbn [fold_left put_entry]. rewrite lookup_fold.
  apply lookup_mentions in N. rewrite N. cbn [lookup]. rewrite bytes_eqb_refl. reflexivity.
Qed.

(** *** enma.conf *)
Lemma after_prefix_some w : forall b r, after_prefix w b = Some r -> b = w ++ r.
Proof.
  induction w as [|x w IH]; intros b r H; [now injection H as ->|]. cbn [after_prefix] in H.
  destruct b as [|c b]; [discriminate|]. destruct (beqb c x) eqn:E; [|discriminate].
  apply beqb_eq in E. subst. cbn [app]. f_equal. now apply IH.
Qed.
Lemma after_prefix_app w r : after_prefix w (w ++ r) = Some r.
Proof. induction w as [|x w IH]; [reflexivity|]. cbn [app after_prefix]. rewrite beqb_refl. exact IH. Qed.
Lemma enma_line_spec p l e : ended p l -> one_line l -> enma_setting l e -> enma_line p = e.
Proof.
  intros E O S. unfold enma_line. destruct S as [l I|i k l Hi Hk No|i s s' v Hi Hs Hs' Hv].
  - pose proof (idle_no_word _ _ E I) as H.
    destruct (drop_while is_space p) as [|c b]; [reflexivity|]. subst c. reflexivity.
  - apply ended_app in E as (b & -> & E). apply whites in Hi. rewrite (drop_all _ _ _ Hi).
    assert (D : drop_while is_space b = b).
    { destruct Hk as (c & k' & -> & W). apply not_white in W. destruct E as [->| ->]; cbn [app]; now apply drop_stop. }
    rewrite D. destruct (after_prefix (lit "milter.socket") b) as [r|] eqn:A; [exfalso|reflexivity].
    apply after_prefix_some in A. destruct E as [->| ->]; [|now apply (No r)].
    destruct r as [|r0 r _] using rev_ind.
    + rewrite app_nil_r in A. assert (X : last ((k ++ l) ++ [byte_of 10]) NUL = last (lit "milter.socket") NUL) by now rewrite A.
      rewrite last_last in X. discriminate X.
    + rewrite app_assoc in A. apply app_inj_tail in A as [A _]. now apply (No r).
  - apply ended_app in E as (b & -> & E). apply whites in Hi. rewrite (drop_all _ _ _ Hi).
    apply ended_app in E as (b' & -> & E).
    replace (drop_while is_space (lit "milter.socket" ++ b')) with (lit "milter.socket" ++ b') by reflexivity.
    rewrite after_prefix_app. apply ended_app in E as (b1 & -> & E). apply whites in Hs. rewrite (drop_all _ _ _ Hs).
    apply ended_app in E as (b2 & -> & E).
    replace (drop_while is_space (lit ":" ++ b2)) with (":"%char :: b2) by reflexivity. rewrite beqb_refl.
    rewrite !one_line_app in O. destruct O as (_ & _ & _ & _ & O1 & O2).
    rewrite (without_lf_ended b2 (s' ++ v) E) by (apply one_line_app; auto).
    apply whites in Hs'. rewrite (drop_all _ _ _ Hs'). destruct (begins_head v Hv) as [-> Nv].
    destruct v; [congruence|reflexivity].
Qed.
Lemma enma_spec es content o : lists enma_setting es content -> last_given es o -> enma_socket (Some content) = o.
Proof.
  intros H G. unfold enma_socket.
  rewrite (fold_lists enma_setting _ (fun s (e : option bytes) => match e with Some v => Some v | None => s end)) with (es := es).
  - assert (K : forall b s, Forall (eq None) b ->
      fold_left (fun s (e : option bytes) => match e with Some v => Some v | None => s end) b s = s).
    { induction b as [|x b IH]; intros s F; [reflexivity|]. inversion F; subst. now apply IH. }
    destruct G as [[F ->]|(a & v & b & -> & F & ->)]; [now apply K|].
    rewrite fold_left_app. cbn [fold_left]. now apply K.
  - intros a p l e E O S. rewrite (enma_line_spec _ _ _ E O S). reflexivity.
  - intros a e S. rewrite <- (enma_line_spec [] [] e) by (auto; now right || intros []). reflexivity.
  - exact H.
Qed.

(** *** Connection specs *)
Lemma last_prefix_none fuel kept b : no_prefix b -> last_prefix fuel kept b = match kept with Some p => p ++ b | None => b end.
Proof.
  intros N. destruct fuel as [|k]; [reflexivity|]. cbn [last_prefix].
  destruct (after_prefix (lit "unix:") b) as [r|] eqn:E.
  { apply after_prefix_some in E. exfalso. now apply (N (lit "unix:") r); [left|]. }
  destruct (after_prefix (lit "local:") b) as [r|] eqn:E'; [|reflexivity].
  apply after_prefix_some in E'. exfalso. now apply (N (lit "local:") r); [right|].
Qed.
Lemma last_prefix_one fuel kept p b : local_prefix p -> last_prefix (S fuel) kept (p ++ b) = last_prefix fuel (Some p) b.
Proof.
  intros [->| ->]; cbn [last_prefix].
  - rewrite after_prefix_app. reflexivity.
  - replace (after_prefix (lit "unix:") (lit "local:" ++ b)) with (@None bytes) by reflexivity.
    rewrite after_prefix_app. reflexivity.
Qed.
Lemma last_prefix_all ps : forall p b fuel kept, Forall local_prefix ps -> local_prefix p -> no_prefix b ->
  (length ps < fuel)%nat -> last_prefix fuel kept (concat ps ++ p ++ b) = p ++ b.
Proof.
  induction ps as [|q ps IH]; intros p b fuel kept F P N L; (destruct fuel as [|fuel]; [cbn [length] in L; lia|]).
  - cbn [concat app]. rewrite (last_prefix_one fuel kept p b P). now rewrite last_prefix_none.
  - inversion F; subst. cbn [concat]. rewrite <- app_assoc, last_prefix_one by assumption.
    apply IH; auto. cbn [length] in L. lia.
Qed.
Lemma prefix_length p : local_prefix p -> (1 <= length p)%nat.
Proof. intros [->| ->]; cbn; lia. Qed.
Lemma applied_spec_spec s t : spec_means s t -> applied_spec s = t.
Proof.
  intros H. destruct H as [b|ps p b F P N|b N NS]; unfold applied_spec.
  - rewrite beqb_refl. change (lit "unix:" ++ "/"%char :: b) with (lit "unix:" ++ ("/"%char :: b)).
    apply (last_prefix_all [] (lit "unix:") ("/"%char :: b)); [constructor|now left| |cbn; lia].
    intros p t [->| ->]; discriminate.
  - assert (X : (length ps < length (concat ps ++ p ++ b))%nat).
    { rewrite !app_length. pose proof (prefix_length p P).
      assert (length ps <= length (concat ps))%nat; [|lia]. clear -F. induction F as [|q ps Q F IH]; [cbn; lia|].
      cbn [concat length]. rewrite app_length. pose proof (prefix_length q Q). lia. }
    assert (Y : exists c t, concat ps ++ p ++ b = c :: t /\ beqb c "/" = false).
    { destruct F as [|q ps Q F]; cbn [concat app].
      - destruct P as [->| ->]; eexists; eexists; split; reflexivity.
      - destruct Q as [->| ->]; eexists; eexists; split; reflexivity. }
    destruct Y as (c & t & Y & C). rewrite Y, C, <- Y. now apply last_prefix_all.
  - destruct b as [|c b]; [reflexivity|]. destruct (beqb c "/") eqn:E.
    + apply beqb_eq in E. subst. exfalso. now apply (NS b).
    + now rewrite last_prefix_none.
Qed.
