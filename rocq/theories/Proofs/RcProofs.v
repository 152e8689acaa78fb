(** How rc scripts and rc.conf are read. *)
From Verif.Base Require Import Bytes BytesFacts.
From Verif.Model Require Import PostfixTable Breaker Detect RcDetect.
From Verif.Spec Require Import PostfixSpec ConnectionSpecSpec.
From Verif.Spec Require BreakerSpec.
From Verif.Proofs Require Import PostfixProofs ConnectionSpecProofs BreakerProofs DetectProofs GreylistProofs ShellProofs ScriptProofs UnitProofs.
From Verif.Spec Require Import DetectSpec.
From Verif.Spec Require RcSpec.
Import List.
Import RcSpec(plain_value, plain_bare, plain_double, plain_single, not_given, script_variable, spells, spells_nothing, spells_text, spells_braced, spells_bare, quoted, quoted_plain, quoted_open, quoted_spelled, full, loads, sign, script_entry, SName, SDefault, SAssign, SArgs, SLoad, SOther, offers, offered, arguments, defaults, service, settings_of, settings_none, settings_missing, settings_file, says_yes, variable_says, option_says, first_of, listens).
Local Open Scope N_scope.

(** *** Parts of a text *)
Lemma prefix_within (a : bytes) : forall t i c r, ~ In c a -> a ++ t = i ++ c :: r -> exists t', i = a ++ t'.
Proof.
  induction a as [|x a IH]; intros t i c r N E; [now exists i|]. destruct i as [|y i]; cbn [app] in E.
  - exfalso. injection E as E _. apply N. now left.
  - injection E as E1 E2. subst y. destruct (IH t i c r) as [t' ->]; [intros I; apply N; now right|exact E2|]. now exists t'.
Qed.
Lemma split_once (c : byte) (a b r s : bytes) : ~ In c a -> ~ In c b -> a ++ c :: r = b ++ c :: s -> a = b /\ r = s.
Proof.
  revert b. induction a as [|x a IH]; intros [|y b] A B E; cbn [app] in E.
  - injection E as E. auto.
  - exfalso. injection E as E _. apply B. now left.
  - exfalso. injection E as E _. apply A. now left.
  - injection E as E1 E2. subst y. destruct (IH b) as [-> ->]; auto; intros I; [apply A|apply B]; now right.
Qed.
Lemma after_none w b : (forall r, b <> w ++ r) -> after_prefix w b = None.
Proof. intros H. destruct (after_prefix w b) as [r|] eqn:E; [|reflexivity]. apply after_prefix_some in E. exfalso. now apply (H r). Qed.
Lemma word_no c n : ~ BreakerSpec.name_char c -> word n -> ~ In c n.
Proof. intros C [_ F] I. rewrite Forall_forall in F. now apply C, F. Qed.
Ltac not_name := let H := fresh in intros H; apply word_name in H; discriminate H.
Lemma word_no_eq n : word n -> ~ In "="%char n. Proof. apply word_no. not_name. Qed.
Lemma word_full p v : word p -> Forall BreakerSpec.name_char v -> word (full p v).
Proof.
  intros [N F] V. split.
  - intros E. apply app_eq_nil in E as [E _]. contradiction.
  - unfold full. apply Forall_app. split; [exact F|]. apply Forall_app. split; [|exact V].
    constructor; [|constructor]. apply word_name. reflexivity.
Qed.
Lemma full_inj p v v' : full p v = full p v' -> v = v'.
Proof. unfold full. intros E. apply app_inv_head in E. cbn in E. now injection E. Qed.
Lemma full_app p v : full p v = full p [] ++ v.
Proof. unfold full. rewrite app_nil_r, <- app_assoc. reflexivity. Qed.
Lemma full_other p v : full p v <> p.
Proof. unfold full. intros E. rewrite <- (app_nil_r p) in E at 2. apply app_inv_head in E. discriminate. Qed.

(** *** Values *)
Lemma clean_none b : Forall clean b -> ~ In "$"%char b.
Proof. intros F I. rewrite Forall_forall in F. destruct (F _ I) as [N _]. now apply N. Qed.
Lemma literal r v t : plain_value v t -> rc_value r t = Some v.
Proof.
  intros H. unfold rc_value, normalize_value.
  assert (C : Forall clean v) by (destruct H; assumption).
  assert (U : unquote t = v).
  { destruct H as [b F B|b F|b F].
    - apply unquote_quiet. eapply Forall_impl; [|exact F]. apply clean_quiet.
    - change ([double_quote] ++ b ++ [double_quote]) with (dq :: b ++ [dq]). apply unquote_around. now left.
    - change ([single_quote] ++ b ++ [single_quote]) with (sq :: b ++ [sq]). apply unquote_around. now right. }
  rewrite U, (writes_argument _ _ (clean_writes v C)).
  pose proof (expand_text (rc_expand r) v [] C) as X. rewrite app_nil_r in X. rewrite X. cbn [expand]. rewrite app_nil_r. reflexivity.
Qed.
Lemma plain_dollar v t : plain_value v t -> ~ In "$"%char t.
Proof.
  intros H I. assert (C : Forall clean v) by (destruct H; assumption). apply clean_none in C.
  destruct H as [b F B|b F|b F]; [contradiction| |]; rewrite !in_app_iff in I; cbn [In] in I; intuition discriminate.
Qed.
(** What the variables of the script are is known. *)
Definition knows (scr : bytes -> bytes -> Prop) (r : rc) : Prop :=
  forall k x, scr k x -> word k /\ (forall c k', k = c :: k' -> ~ ConnectionSpecSpec.digit_char c) /\ variable (rc_other r) k = Some x.
Lemma spells_quiet scr r v t : knows scr r -> spells scr v t -> Forall quiet t.
Proof.
  intros K. induction 1 as [|b v t F W IH|k x v t R W IH|k x v t R W IH S].
  - constructor.
  - apply Forall_app. split; [|exact IH]. eapply Forall_impl; [|exact F]. apply clean_quiet.
  - destruct (K _ _ R) as ((_ & F) & _). repeat (apply Forall_app; split); try exact IH.
    + repeat (apply Forall_cons; [repeat split; discriminate|]). constructor.
    + eapply Forall_impl; [|exact F]. apply name_quiet.
    + repeat (apply Forall_cons; [repeat split; discriminate|]). constructor.
  - destruct (K _ _ R) as ((_ & F) & _). repeat (apply Forall_app; split); try exact IH.
    + repeat (apply Forall_cons; [repeat split; discriminate|]). constructor.
    + eapply Forall_impl; [|exact F]. apply name_quiet.
Qed.
Lemma spells_argument scr r v t : knows scr r -> spells scr v t -> is_argument t = false.
Proof.
  intros K. induction 1 as [|b v t F W IH|n x v t R W IH|n x v t R W IH S].
  - reflexivity.
  - destruct F as [|c b (C & _) F]; [exact IH|]. cbn [app]. unfold is_argument. apply beqb_neq in C. rewrite C.
    destruct (b ++ t); reflexivity.
  - reflexivity.
  - destruct (K _ _ R) as ((N & _) & D & _). destruct n as [|c n]; [congruence|]. specialize (D c n eq_refl).
    change (lit "$" ++ (c :: n) ++ t) with ("$"%char :: c :: n ++ t). unfold is_argument. rewrite beqb_refl. cbn [tl forallb andb].
    destruct (is_digit c) eqn:E; [|reflexivity]. exfalso. apply D. unfold is_digit in E. rewrite andb_true_iff, !N.leb_le in E. exact E.
Qed.
Lemma spells_expand scr r v t : knows scr r -> spells scr v t -> expand (rc_expand r) 0 t = v.
Proof.
  intros K. induction 1 as [|b v t F W IH|n x v t R W IH|n x v t R W IH S].
  - reflexivity.
  - rewrite expand_text by assumption. now rewrite IH.
  - destruct (K _ _ R) as (Wn & _ & V). change (lit "${" ++ n ++ lit "}" ++ t) with ("$"%char :: (lit "{" ++ n ++ lit "}" ++ t)).
    cbn [expand]. rewrite beqb_refl, (reference_braced n t Wn). cbn [eqb].
    unfold rc_expand at 1. rewrite V. cbn [some_else].
    f_equal. change (reference_text true n true) with (lit "{" ++ n ++ lit "}").
    replace (lit "{" ++ n ++ lit "}" ++ t) with ((lit "{" ++ n ++ lit "}") ++ t) by (rewrite <- !app_assoc; reflexivity).
    rewrite expand_skip. exact IH.
  - destruct (K _ _ R) as (Wn & _ & V). change (lit "$" ++ n ++ t) with ("$"%char :: (n ++ t)).
    cbn [expand]. rewrite beqb_refl, (reference_bare n t Wn S). cbn [eqb].
    unfold rc_expand at 1. rewrite V. cbn [some_else].
    f_equal. replace (reference_text false n false) with n by (unfold reference_text; cbn [app]; now rewrite app_nil_r).
    rewrite expand_skip. exact IH.
Qed.
Lemma valued scr r v t : knows scr r -> quoted scr v t -> rc_value r t = Some v.
Proof.
  intros K [v' t' P|v' t' S B|v' t' S]; [now apply literal| |]; unfold rc_value, normalize_value.
  - rewrite (unquote_quiet _ (spells_quiet _ _ _ _ K S)), (spells_argument _ _ _ _ K S), (spells_expand _ _ _ _ K S). reflexivity.
  - change ([double_quote] ++ t' ++ [double_quote]) with (dq :: t' ++ [dq]). rewrite unquote_around by now left.
    rewrite (spells_argument _ _ _ _ K S), (spells_expand _ _ _ _ K S). reflexivity.
Qed.

(** *** Patterns *)
Lemma find_absent p b : absent p b -> find_default p b = None.
Proof.
  induction b as [|c b IH]; intros A; [reflexivity|]. cbn [find_default].
  rewrite (after_none p (c :: b)) by (intros r E; apply (A [] r); exact E). apply IH. now apply (absent_tail p c).
Qed.
Lemma no_dollar p b : ~ In "$"%char b -> absent (lit "${" ++ p) b.
Proof. intros N x y ->. apply N. apply in_app_iff. right. now left. Qed.
Lemma absent_front p a b : ~ In "$"%char a -> absent (lit "${" ++ p) b -> absent (lit "${" ++ p) (a ++ b).
Proof.
  intros N A. induction a as [|c a IH]; [exact A|]. intros x y E. destruct x as [|d x]; cbn [app] in E.
  - injection E as E _. apply N. now left.
  - injection E as _ E. apply (IH ltac:(intros I; apply N; now right) x y E).
Qed.
Lemma before_none q b : ~ In q b -> before_last q b = None.
Proof.
  induction b as [|c b IH]; intros N; [reflexivity|]. cbn [before_last]. rewrite IH by (intros I; apply N; now right).
  replace (beqb c q) with false; [reflexivity|]. symmetry. apply beqb_neq. intros ->. apply N. now left.
Qed.
Lemma before_found q t e : ~ In q e -> before_last q (t ++ q :: e) = Some t.
Proof.
  intros N. induction t as [|c t IH]; cbn [app before_last].
  - rewrite before_none by exact N. rewrite beqb_refl. reflexivity.
  - rewrite IH. reflexivity.
Qed.
Lemma sign_none c b : BreakerSpec.name_char c -> default_sign (c :: b) = None.
Proof.
  intros H. unfold default_sign.
  assert (K : forall d, is_word d = false -> beqb c d = false).
  { intros d D. apply beqb_neq. intros ->. apply word_name in H. congruence. }
  rewrite !K by reflexivity. reflexivity.
Qed.
Lemma split_walk v : forall before r, Forall BreakerSpec.name_char v -> split_default before (v ++ r) = split_default (rev v ++ before) r.
Proof.
  induction v as [|c v IH]; intros before r F; [reflexivity|]. inversion F as [|? ? C F']; subst.
  cbn [app split_default]. rewrite (sign_none c (v ++ r) C). destruct before as [|b0 bs]; rewrite IH by exact F'; cbn [rev]; rewrite <- app_assoc; reflexivity.
Qed.
Lemma split_found v s t e : word v -> sign s -> ~ In "}"%char e -> split_default [] (v ++ s ++ t ++ lit "}" ++ e) = Some (v, t).
Proof.
  intros [N F] S E. rewrite split_walk by exact F. rewrite app_nil_r.
  assert (R : rev v <> []) by (intros X; apply N; rewrite <- (rev_involutive v), X; reflexivity).
  assert (K : forall x y R', default_sign (x :: y) = Some R' -> before_last "}" R' = Some t -> split_default (rev v) (x :: y) = Some (v, t)).
  { intros x y R' D B. cbn [split_default]. rewrite D. destruct (rev v) as [|r0 rs] eqn:Q; [congruence|]. rewrite B, <- Q, rev_involutive. reflexivity. }
  destruct S as [->|[->| ->]]; cbn [lit app]; (eapply K; [reflexivity|]); now apply before_found.
Qed.
Lemma find_found p i v s t e : word v -> sign s -> ~ In "$"%char i -> ~ In "}"%char e ->
  find_default (lit "${" ++ full p []) (i ++ lit "${" ++ full p v ++ s ++ t ++ lit "}" ++ e) = Some (v, t).
Proof.
  intros W S N E. rewrite (full_app p v), <- app_assoc.
  induction i as [|c i IH].
  - cbn [app]. set (X := full p [] ++ v ++ s ++ t ++ lit "}" ++ e).
    change (find_default (lit "${" ++ full p []) (lit "${" ++ X)) with
      (match (match after_prefix (lit "${" ++ full p []) (lit "${" ++ X) with Some r => split_default [] r | None => None end) with
       | Some x => Some x | None => find_default (lit "${" ++ full p []) (lit "{" ++ X) end).
    unfold X. rewrite (app_assoc (lit "${") (full p [])), after_prefix_app, split_found by assumption. reflexivity.
  - cbn [app find_default]. rewrite (after_none _ (c :: _)).
    + apply IH. intros I. apply N. now right.
    + intros r Q. apply N. cbn in Q. injection Q as Q _. left. exact Q.
Qed.
Lemma first_walk v : forall before r, before <> [] -> ~ In "="%char v -> first_equals before (v ++ r) = first_equals (rev v ++ before) r.
Proof.
  induction v as [|c v IH]; intros before r B N; [reflexivity|]. cbn [app first_equals]. destruct before as [|b0 bs]; [congruence|].
  replace (beqb c "=") with false by (symmetry; apply beqb_neq; intros ->; apply N; now left). cbv iota.
  rewrite IH by (discriminate || (intros I; apply N; now right)). cbn [rev]. rewrite <- app_assoc. reflexivity.
Qed.
Lemma first_found v t : v <> [] -> ~ In "="%char v -> first_equals [] (v ++ "="%char :: t) = Some (v, t).
Proof.
  intros V N. destruct v as [|c v]; [congruence|]. cbn [app first_equals].
  rewrite first_walk by (discriminate || (intros I; apply N; now right)).
  assert (R : rev v ++ [c] = rev (c :: v)) by reflexivity. rewrite R.
  destruct (rev (c :: v)) as [|r0 rs] eqn:Q; [cbn in Q; destruct (rev v); discriminate|]. cbn [first_equals].
  rewrite beqb_refl, <- Q, rev_involutive. reflexivity.
Qed.
Lemma last_none b : forall before, ~ In "="%char b -> last_equals before b = None.
Proof.
  induction b as [|c b IH]; intros before N; [reflexivity|]. cbn [last_equals]. rewrite IH by (intros I; apply N; now right).
  replace (beqb c "=") with false; [reflexivity|]. symmetry. apply beqb_neq. intros ->. apply N. now left.
Qed.
Lemma last_found v t : forall before, ~ In "="%char t -> t <> [] ->
  last_equals before (v ++ "="%char :: t) = match rev before ++ v with [] => None | n => Some (n, t) end.
Proof.
  induction v as [|c v IH]; intros before N T; cbn [app last_equals].
  - rewrite last_none by exact N. rewrite beqb_refl, app_nil_r. destruct t as [|t0 t]; [congruence|].
    destruct before as [|b0 bs]; [reflexivity|]. destruct (rev (b0 :: bs)) as [|r0 rs] eqn:Q; [|reflexivity].
    cbn in Q. destruct (rev bs); discriminate.
  - rewrite IH by assumption. cbn [rev]. rewrite <- app_assoc. cbn [app].
    destruct (rev before ++ c :: v) eqn:Q; [|reflexivity]. destruct (rev before); discriminate.
Qed.
Lemma load_true l t : loads l -> load_line (l ++ t) = true.
Proof.
  intros (w & x & W & ->). unfold load_line. rewrite <- app_assoc. apply whites in W. rewrite (drop_all _ _ _ W).
  rewrite <- app_assoc. change (drop_while is_space (lit "load_rc_conf " ++ x ++ t)) with (lit "load_rc_conf " ++ x ++ t).
  rewrite after_prefix_app. reflexivity.
Qed.
Lemma drop_split (p : byte -> bool) b : exists w, b = w ++ drop_while p b /\ Forall (fun c => p c = true) w.
Proof.
  induction b as [|c b (w & E & F)]; [now exists []|]. cbn [drop_while]. destruct (p c) eqn:P; [|now exists []].
  exists (c :: w). cbn [app]. split; [now rewrite <- E|now constructor].
Qed.
Lemma load_only p l : ended p l -> load_line p = true -> loads l.
Proof.
  intros E H. unfold load_line in H. destruct (after_prefix (lit "load_rc_conf ") (drop_while is_space p)) as [t|] eqn:A; [|discriminate].
  apply after_prefix_some in A. destruct (drop_split is_space p) as (w & Q & F). rewrite A in Q.
  assert (W : Forall white w) by (eapply Forall_impl; [|exact F]; intros c; apply is_space_white).
  destruct E as [->| ->].
  - destruct t as [|t0 t] using rev_ind.
    + exfalso. rewrite app_nil_r in Q. change (lit "load_rc_conf ") with (lit "load_rc_conf" ++ [byte_of 32]) in Q.
      rewrite app_assoc in Q. apply app_inj_tail in Q as [_ Q]. discriminate.
    + rewrite !app_assoc in Q. apply app_inj_tail in Q as [Q _]. exists w, t. split; [exact W|]. rewrite <- app_assoc in Q. exact Q.
  - now exists w, t.
Qed.
Lemma load_false p l : ended p l -> ~ loads l -> load_line p = false.
Proof. intros E N. destruct (load_line p) eqn:H; [|reflexivity]. exfalso. apply N. now apply (load_only p). Qed.

(** *** Lines of the script *)
Lemma ended_begins q l w r : ended q l -> ~ In (byte_of 10) w -> q = w ++ r -> exists r', l = w ++ r'.
Proof.
  intros [->| ->] N E; [|now exists r]. symmetry in E. exact (prefix_within w r l (byte_of 10) [] N E).
Qed.
Lemma miss k q l : ended q l -> ~ In (byte_of 10) k -> ~ begins_with (k ++ lit "=") l -> assigned k q = None.
Proof.
  intros E N B. unfold assigned. rewrite after_none; [reflexivity|]. intros r Q. apply B.
  apply (ended_begins q l _ r E); [|exact Q]. rewrite in_app_iff. intros [I|[I|[]]]; [contradiction|discriminate].
Qed.
Lemma hit k q t : ended q (k ++ lit "=" ++ t) -> one_line t -> t <> [] -> assigned k q = Some t.
Proof.
  intros E O N. rewrite app_assoc in E. apply ended_app in E as (t' & -> & E). unfold assigned. rewrite after_prefix_app.
  unfold some_text. rewrite (without_lf_ended _ _ E O). destruct t; [congruence|reflexivity].
Qed.
Lemma full_under p v : In "_"%char (full p v).
Proof. unfold full. apply in_app_iff. right. now left. Qed.
Lemma assign_not p v k t : word p -> word v -> word k -> ~ In "_"%char k -> ~ begins_with (k ++ lit "=") (full p v ++ lit "=" ++ t).
Proof.
  intros P [_ V] K N (r & E). rewrite <- app_assoc in E. apply split_once in E as [E _].
  - apply N. rewrite <- E. apply full_under.
  - apply word_no_eq. now apply word_full.
  - now apply word_no_eq.
Qed.
Lemma load_not k l : begins_with k l -> (forall c k', k = c :: k' -> ~ white c) -> k <> [] -> ~ begins_with k (lit "load_rc_conf ") ->
  ~ In " "%char k -> ~ loads l.
Proof.
  intros (r & ->) C K B S (w & t & W & E). destruct W as [|c w Wc W].
  - cbn [app] in E. change (lit "load_rc_conf ") with (lit "load_rc_conf" ++ [" "%char]) in E. rewrite <- app_assoc in E. cbn [app] in E.
    apply prefix_within in E as (t' & E); [|exact S]. apply B. exists (t' ++ [" "%char]). rewrite app_assoc, <- E. reflexivity.
  - destruct k as [|k0 k]; [congruence|]. injection E as E _. subst. now apply (C c k).
Qed.
Lemma name_is k : word k -> forall c k', k = c :: k' -> ~ white c.
Proof. intros [_ F] c k' -> W. inversion F as [|? ? C]; subst. apply name_not_space in C. apply white_is in W. congruence. Qed.
Definition named (p : bytes) (r : rc) (e : script_entry) : rc := match e with SName => set_name r (Some p) | _ => r end.
Lemma name_word_lit : word (lit "name"). Proof. apply word_b; [reflexivity|discriminate]. Qed.
Ltac no_lf := let H := fresh in intros H; vm_compute in H; intuition discriminate.
Lemma name_line_spec scr p r q l e : word p -> ended q l -> one_line l -> RcSpec.script_line scr p l e -> name_line r q = named p r e.
Proof.
  intros P E O M. unfold name_line. destruct M as [t Q|i v s x t e D H B L W S Q Y|v x t W Q Ab|a t N Q T Ab|l L|l B A F L D]; cbn [named].
  - rewrite (hit (lit "name") q t).
    + rewrite (literal r p t Q). reflexivity.
    + exact E.
    + change (lit "name=") with (lit "name" ++ lit "=") in O. rewrite !one_line_app in O. tauto.
    + intros ->. destruct P as [P _]. inversion Q; subst; congruence.
  - rewrite (miss _ q _ E); [reflexivity|no_lf|]. intros (r' & X'). apply B. symmetry in X'.
    change (i ++ lit "${" ++ full p v ++ s ++ t ++ lit "}" ++ e) with (i ++ "$"%char :: (lit "{" ++ full p v ++ s ++ t ++ lit "}" ++ e)) in X'.
    destruct (prefix_within (lit "name=") r' i "$"%char _ ltac:(no_lf) X') as (t' & ->). now exists t'.
  - rewrite (miss _ q _ E); [reflexivity|no_lf|]. apply assign_not; auto using name_word_lit. no_lf.
  - rewrite (miss _ q _ E); [reflexivity|no_lf|]. intros (r' & X). discriminate X.
  - rewrite (miss _ q _ E); [reflexivity|no_lf|]. intros B. revert L. apply (load_not (lit "name=")); auto.
    + intros c k' X W. injection X as X _. subst c. unfold white in W. intuition discriminate.
    + discriminate.
    + intros (x & X). discriminate X.
    + no_lf.
  - rewrite (miss _ q _ E); [reflexivity|no_lf|exact B].
Qed.

Lemma find_full p b : find_default (lit "${" ++ p ++ lit "_") b = find_default (lit "${" ++ full p []) b.
Proof. unfold full. rewrite app_nil_r. reflexivity. Qed.
Definition scripted (st : rc * bool) (e : script_entry) : rc * bool :=
  let (r, before) := st in
  match e with
  | SName | SOther => (r, before)
  | SDefault v x => (put_variable r v (Some x), before)
  | SAssign v x => (if before then put_variable r v (Some x) else r, before)
  | SArgs a => (set_args r (Some a), before)
  | SLoad => (r, false)
  end.
Lemma not_prefix p q l : ended q l -> ~ In (byte_of 10) p -> ~ begins_with p l -> after_prefix p q = None.
Proof. intros E N B. apply after_none. intros r Q. apply B. exact (ended_begins q l p r E N Q). Qed.
Lemma word_no_lf n : word n -> ~ In (byte_of 10) n. Proof. apply word_no. not_name. Qed.
Lemma word_no_dollar n : word n -> ~ In "$"%char n. Proof. apply word_no. not_name. Qed.
Lemma script_line_spec scr p st q l e : word p -> ended q l -> one_line l -> knows scr (fst st) -> RcSpec.script_line scr p l e ->
  script_line p st q = scripted st e.
Proof.
  intros P E O Kn M. destruct st as [r before]. cbn [fst] in Kn. unfold script_line. rewrite find_full, (without_lf_ended _ _ E O).
  replace (p ++ lit "_") with (full p []) by (unfold full; now rewrite app_nil_r).
  assert (Pf : word (full p [])) by (apply word_full; [exact P|constructor]).
  pose proof (word_no_lf _ Pf) as Plf.
  destruct M as [t Q|i v s x t e D H B L W S Q Y|v x t W Q Ab|a t N Q T Ab|l L|l B A F L D]; cbn [scripted].
  - assert (B : begins_with (lit "name=") (lit "name=" ++ t)) by now exists t.
    rewrite (load_false q _ E).
    2:{ apply (load_not (lit "name=")); auto; [|discriminate|intros (x & X); discriminate X|no_lf].
        intros c k' X W. injection X as X _. subst c. unfold white in W. intuition discriminate. }
    rewrite find_absent.
    2:{ apply no_dollar. rewrite in_app_iff. intros [I|I]; [revert I; no_lf|]. now apply (plain_dollar _ _ Q). }
    rewrite (not_prefix _ q _ E Plf).
    2:{ intros (r' & X). change (lit "name=") with (lit "name" ++ lit "=") in X. rewrite <- app_assoc in X. symmetry in X.
        destruct (prefix_within _ _ _ _ _ (word_no_eq _ Pf) X) as (t' & X').
        assert (I : In "_"%char (lit "name")) by (rewrite X'; apply in_app_iff; left; apply full_under). revert I. no_lf. }
    rewrite (miss _ q _ E); [reflexivity|no_lf|]. intros (x & X). discriminate X.
  - rewrite (load_false q _ E).
    + rewrite find_found by assumption. rewrite (valued scr r x t Kn Q). reflexivity.
    + intros (w & t' & Ww & X'). apply L. symmetry in X'. rewrite app_assoc in X'.
      change (i ++ lit "${" ++ full p v ++ s ++ t ++ lit "}" ++ e) with (i ++ "$"%char :: (lit "{" ++ full p v ++ s ++ t ++ lit "}" ++ e)) in X'.
      apply prefix_within in X' as (t'' & ->).
      * exists w, t''. split; [exact Ww|]. now rewrite <- app_assoc.
      * rewrite in_app_iff. intros [I|I]; [|revert I; no_lf]. rewrite Forall_forall in Ww. apply Ww in I. unfold white in I. intuition discriminate.
  - assert (Wf : word (full p v)) by (apply word_full; [exact P|apply W]).
    rewrite (load_false q _ E).
    2:{ apply (load_not (full p v ++ lit "=")).
        - exists t. now rewrite <- app_assoc.
        - intros c k' X Wc. destruct (full p v) as [|f0 f] eqn:Z; [destruct Wf; congruence|]. injection X as X _. subst c.
          exact (name_is _ Wf f0 f eq_refl Wc).
        - destruct (full p v); discriminate.
        - intros (x' & X). assert (I : In "="%char (lit "load_rc_conf ")) by (rewrite X, !in_app_iff; left; right; now left). revert I. no_lf.
        - rewrite in_app_iff. intros [I|[I|[]]]; [|discriminate]. revert I. apply word_no; [not_name|exact Wf]. }
    rewrite find_absent.
    2:{ rewrite app_assoc. apply absent_front; [|exact Ab]. rewrite in_app_iff. intros [I|[I|[]]]; [|discriminate]. revert I. now apply word_no_dollar. }
    rewrite full_app, <- app_assoc in E. apply ended_app in E as (q' & -> & E). rewrite after_prefix_app.
    rewrite full_app, <- app_assoc, one_line_app in O. rewrite (without_lf_ended _ _ E (proj2 O)).
    change (v ++ lit "=" ++ t) with (v ++ "="%char :: t). rewrite first_found by (apply W || now apply word_no_eq).
    rewrite (valued scr r x t Kn Q). reflexivity.
  - assert (B : begins_with (lit "command_args=") (lit "command_args=" ++ t)) by now exists t.
    rewrite (load_false q _ E).
    2:{ apply (load_not (lit "command_args=")); auto; [|discriminate|intros (x & X); discriminate X|no_lf].
        intros c k' X W. injection X as X _. subst c. unfold white in W. intuition discriminate. }
    rewrite find_absent.
    2:{ apply absent_front; [no_lf|exact Ab]. }
    rewrite (not_prefix _ q _ E Plf).
    2:{ intros (r' & X). change (lit "command_args=") with (lit "command_args" ++ lit "=") in X. rewrite <- app_assoc in X. symmetry in X.
        destruct (prefix_within _ _ _ _ _ (word_no_eq _ Pf) X) as (t' & X').
        unfold full in X'. rewrite app_nil_r, <- app_assoc in X'.
        change (lit "command_args") with (lit "command" ++ "_"%char :: lit "args") in X'.
        clear - N X' P.
        assert (Z : forall k, ~ In "_"%char k -> forall a x y, k ++ "_"%char :: x = a ++ "_"%char :: y -> In "_"%char x \/ k = a).
        { clear. induction k as [|c k IH]; intros K a x y H.
          - destruct a as [|a0 a]; [now right|]. cbn [app] in H. injection H as _ H. left. rewrite H. apply in_app_iff. right. now left.
          - destruct a as [|a0 a]; cbn [app] in H.
            + exfalso. injection H as H _. apply K. now left.
            + injection H as -> H. destruct (IH ltac:(intros I; apply K; now right) a x y H) as [I|I]; [now left|right; now rewrite I]. }
        destruct (Z (lit "command") ltac:(no_lf) p (lit "args") t' X') as [I|I]; [revert I; no_lf|congruence]. }
    rewrite (hit (lit "command_args") q t).
    + rewrite (valued scr r a t Kn Q). reflexivity.
    + exact E.
    + change (lit "command_args=") with (lit "command_args" ++ lit "=") in O. rewrite !one_line_app in O. tauto.
    + exact T.
  - assert (X : load_line q = true).
    { destruct E as [->| ->]; [now apply load_true|]. rewrite <- (app_nil_r l). now apply load_true. }
    rewrite X. reflexivity.
  - rewrite (load_false q l E L), find_absent by exact D. rewrite (not_prefix _ q l E Plf F), (miss _ q l E); [reflexivity|no_lf|exact A].
Qed.

(** *** A script *)
Lemma script_empty scr p e : RcSpec.script_line scr p [] e -> e = SOther.
Proof.
  intros H. assert (L : exists l : bytes, l = [] /\ RcSpec.script_line scr p l e) by (exists []; auto). clear H. destruct L as (l & L & H).
  destruct H as [t Q|i v s x t e D H B L' W S Q Y|v x t W Q Ab|a t N Q T Ab|l (w & t & W & ->)|l B A F L' D]; try discriminate.
  - apply app_eq_nil in L as [_ L]. discriminate.
  - apply app_eq_nil in L as [_ L]. discriminate.
  - apply app_eq_nil in L as [_ L]. discriminate.
  - reflexivity.
Qed.
Lemma names_spec scr p es content : word p -> lists (RcSpec.script_line scr p) es content ->
  fold_left name_line (physical content) rc_empty = fold_left (named p) es rc_empty.
Proof.
  intros P L. apply (fold_lists (RcSpec.script_line scr p)); [| |exact L].
  - intros r q l e E O M. now apply (name_line_spec scr p r q l).
  - intros r e M. apply script_empty in M. subst. reflexivity.
Qed.
Definition one_name (p : bytes) : rc := mk_rc (Some p) [] [] None None None.
Lemma named_fold p es : In SName es -> fold_left (named p) es rc_empty = one_name p.
Proof.
  assert (K : forall es, fold_left (named p) es (one_name p) = one_name p).
  { induction es0 as [|e es0 IH]; [reflexivity|]. destruct e; exact IH. }
  induction es as [|e es IH]; intros I; [destruct I|]. cbn [fold_left]. destruct e; cbn [named].
  1: exact (K es). all: destruct I as [I|I]; [discriminate|]; now apply IH.
Qed.
Definition same_but_other (a b : rc) : Prop :=
  rc_name a = rc_name b /\ rc_variables a = rc_variables b /\ rc_args a = rc_args b /\
  rc_rcvar a = rc_rcvar b /\ rc_rcvar_value a = rc_rcvar_value b.
Lemma others_keep ls : forall r, same_but_other (fold_left other_line ls r) r.
Proof.
  induction ls as [|l ls IH]; intros r; [repeat split|]. cbn [fold_left].
  assert (K : same_but_other (other_line r l) r).
  { unfold other_line. destruct (find_definition true false (cut_comment l)) as [[n raw]|]; repeat split. }
  destruct (IH (other_line r l)) as (A & B & C & D & E). destruct K as (A' & B' & C' & D' & E').
  unfold same_but_other. rewrite A, B, C, D, E. now repeat split.
Qed.
(** A name that is never followed by "=" is given no value. *)
Lemma definition_occurs lower b : forall flag n raw, find_definition lower flag b = Some (n, raw) ->
  exists x y, b = x ++ n ++ lit "=" ++ y /\ (x = [] -> flag = false) /\ (forall x' c, x = x' ++ [c] -> is_word c = false).
Proof.
  induction b as [|c b IH]; intros flag n raw H; [discriminate|]. cbn [find_definition] in H.
  match type of H with (match ?X with Some _ => _ | None => _ end = _) => destruct X as [[n' raw']|] eqn:D end.
  - injection H as -> ->. destruct flag; [discriminate|].
    pose proof (take_drop is_word (c :: b)) as TD.
    destruct (take_while is_word (c :: b)) as [|t0 t] eqn:T; [discriminate|].
    destruct (drop_while is_word (c :: b)) as [|d rest] eqn:R; [discriminate|].
    destruct (beqb d "=" && forallb (name_char lower) (t0 :: t)) eqn:Z; [|discriminate]. injection D as <- _.
    apply andb_true_iff in Z as [Z _]. apply beqb_eq in Z. subst d. exists [], rest. cbn [app]. split; [exact TD|]. split; [reflexivity|]. intros x' d X. destruct x'; discriminate X.
  - destruct (IH _ _ _ H) as (x & y & -> & F & W). exists (c :: x), y. split; [reflexivity|]. split; [discriminate|].
    intros x' d X. destruct x' as [|x0 x']; cbn [app] in X; injection X as X1 X2; [subst; now apply F|]. subst. now apply (W x').
Qed.
Lemma physical_part q content es scr p : lists (RcSpec.script_line scr p) es content -> In q (physical content) -> exists a b, content = a ++ q ++ b.
Proof.
  intros (ls & last & -> & F & L & _) I. rewrite (physical_file _ _ F L) in I. unfold file.
  clear F L. induction ls as [|l ls IH]; cbn [map concat app] in *.
  - destruct last as [|c last]; [destruct I|]. destruct I as [<-|[]]. exists [], []. now rewrite app_nil_r.
  - destruct I as [<-|I].
    + eexists [], _. cbn [app]. rewrite <- app_assoc. reflexivity.
    + destruct (IH I) as (a & b & E). exists ((l ++ [byte_of 10]) ++ a), b. rewrite <- (app_assoc (l ++ [byte_of 10]) _ last), E, <- !app_assoc. reflexivity.
Qed.
Lemma others_none k ls : (forall l, In l ls -> absent (k ++ lit "=") l) -> forall r, variable (rc_other r) k = None ->
  variable (rc_other (fold_left other_line ls r)) k = None.
Proof.
  induction ls as [|l ls IH]; intros A r N; [exact N|]. cbn [fold_left]. apply IH; [intros l' I; apply A; now right|].
  unfold other_line. destruct (find_definition true false (cut_comment l)) as [[n raw]|] eqn:D; [|exact N].
  destruct (definition_occurs _ _ _ _ _ D) as (x & y & E & _). unfold put_other. cbn [rc_other]. unfold variable in *. cbn [lookup].
  destruct (bytes_eqb n k) eqn:B; [|exact N]. apply bytes_eqb_eq in B. subst n. exfalso.
  pose proof (take_drop (fun c => negb (beqb c "#")) l) as TD. fold (cut_comment l) in TD. rewrite E in TD.
  apply (A l (or_introl eq_refl) x (y ++ drop_while (fun c => negb (beqb c "#")) l)).
  rewrite TD at 1. rewrite <- !app_assoc. reflexivity.
Qed.

(** A variable the script gives one value has it. *)
Lemma other_keeps k r q l : ended q l -> not_given k l -> word k -> variable (rc_other (other_line r q)) k = variable (rc_other r) k.
Proof.
  intros En A W. unfold other_line. destruct (find_definition true false (cut_comment q)) as [[n raw]|] eqn:D; [|reflexivity].
  destruct (definition_occurs _ _ _ _ _ D) as (x & y & E & _ & Wx). unfold put_other. cbn [rc_other]. unfold variable. cbn [lookup].
  destruct (bytes_eqb n k) eqn:B; [|reflexivity]. apply bytes_eqb_eq in B. subst n. exfalso.
  pose proof (take_drop (fun c => negb (beqb c "#")) q) as TD. fold (cut_comment q) in TD. rewrite E in TD.
  set (z := drop_while (fun c => negb (beqb c "#")) q) in TD.
  assert (X : exists y', l = x ++ k ++ lit "=" ++ y').
  { rewrite <- !app_assoc in TD. rewrite !app_assoc in TD. rewrite <- (app_assoc _ y z) in TD. destruct En as [-> | ->].
    - destruct (y ++ z) as [|d w] eqn:Q using rev_ind.
      + exfalso. rewrite app_nil_r in TD. apply app_inj_tail in TD as [_ TD]. discriminate TD.
      + rewrite app_assoc in TD. apply app_inj_tail in TD as [-> _]. exists w. rewrite <- !app_assoc. reflexivity.
    - exists (y ++ z). rewrite TD, <- !app_assoc. reflexivity. }
  destruct X as (y' & X). destruct (A x y' X) as (x' & c & -> & C). specialize (Wx x' c eq_refl). apply word_name in C. congruence.
Qed.
Lemma others_keep_one k ls : forall qs r, Forall2 (fun q l => ended q l) qs ls -> Forall (not_given k) ls -> word k ->
  variable (rc_other (fold_left other_line qs r)) k = variable (rc_other r) k.
Proof.
  induction ls as [|l ls IH]; intros qs r F A W; inversion F; subst; [reflexivity|]. inversion A; subst. cbn [fold_left].
  rewrite IH by assumption. now apply (other_keeps k r _ l).
Qed.
Lemma other_given k v t r q : ended q (k ++ lit "=" ++ t) -> word k -> plain_value v t -> variable (rc_other (other_line r q)) k = Some v.
Proof.
  intros En W P. pose proof W as [N F]. apply ended_app in En as (q1 & -> & En). apply ended_app in En as (q2 & -> & En). rewrite <- (app_nil_r t) in En. apply ended_app in En as (e & -> & E).
  unfold other_line.
  assert (H : find_definition true false (cut_comment (k ++ lit "=" ++ t ++ e)) = Some (k, t)).
  { pose proof (cut_named true [] k t e) as C. cbn [app] in C.
    assert (L : leader []) by (constructor; constructor).
    assert (Cv : Forall clean v) by (destruct P; assumption).
    assert (Qv : Forall quiet v) by (eapply Forall_impl; [|exact Cv]; apply clean_quiet).
    assert (Ht : no_hash t).
    { destruct P as [b _ _|b _|b _]; [now apply quiet_no_hash| |]; (constructor; [reflexivity|]); apply Forall_app; (split; [now apply quiet_no_hash|repeat constructor]). }
    rewrite (C L N F Ht). pose proof (found_here true [] k (t ++ cut_comment e) L N F) as X. cbn [app] in X. rewrite X. f_equal. f_equal.
    assert (Ee : ends_word (cut_comment e)) by (apply (cut_end e []); [exact E|constructor]).
    destruct P as [b _ B|b _|b _].
    - apply raw_plain; [exact Qv| |exact Ee]. eapply Forall_impl; [|exact B]. intros c Hc. apply Hc.
    - change ([double_quote] ++ b ++ [double_quote]) with (dq :: b ++ [dq]). cbn [app]. rewrite <- app_assoc. cbn [app]. now apply raw_double.
    - change ([single_quote] ++ b ++ [single_quote]) with (sq :: b ++ [sq]). cbn [app]. rewrite <- app_assoc. cbn [app]. now apply raw_single. }
  rewrite H, (literal r v t P). cbn [some_else]. unfold put_other, variable. cbn [rc_other lookup]. now rewrite bytes_eqb_refl.
Qed.
Lemma script_known content k v r : script_variable content k v -> variable (rc_other (fold_left other_line (physical content) r)) k = Some v.
Proof.
  intros (W & _ & a & t & b & last & -> & O & Ol & P & A & B & L). rewrite (physical_file _ _ O Ol).
  assert (K : forall ls, Forall2 (fun q l => ended q l) (map (fun l => l ++ [byte_of 10]) ls) ls).
  { induction ls as [|l ls IH]; constructor; [now left|exact IH]. }
  rewrite map_app, <- app_assoc, fold_left_app. cbn [map app fold_left]. rewrite fold_left_app.
  assert (X : variable (rc_other (fold_left other_line (map (fun l => l ++ [byte_of 10]) b)
      (other_line (fold_left other_line (map (fun l => l ++ [byte_of 10]) a) r) ((k ++ lit "=" ++ t) ++ [byte_of 10])))) k = Some v).
  { rewrite (others_keep_one k b) by auto. apply (other_given k v t); auto. now left. }
  destruct last as [|c last]; [exact X|]. cbn [fold_left]. rewrite (other_keeps k _ _ (c :: last)); auto. now right.
Qed.

Definition offers_from (before : bool) (es : list script_entry) (v x : bytes) : Prop :=
  In (SDefault v x) es \/ (before = true /\ exists a b, es = a ++ SAssign v x :: b /\ ~ In SLoad a).
Lemma offers_in before es v x : offers_from before es v x -> In v (offered es).
Proof.
  intros [I|(_ & a & b & -> & _)].
  - induction es as [|e es IH]; [destruct I|]. destruct I as [->|I]; [now left|]. specialize (IH I).
    destruct e; cbn [offered In]; auto.
  - induction a as [|e a IH]; [now left|]. destruct e; cbn [app offered In]; auto.
Qed.
Lemma offers_skip before e es v x : (forall y, e <> SDefault v y) -> (forall y, e <> SAssign v y) -> e <> SLoad ->
  offers_from before (e :: es) v x <-> offers_from before es v x.
Proof.
  intros D A L. split.
  - intros [[I|I]|(B & a & b & E & N)]; [now apply D in I|now left|]. right. split; [exact B|].
    destruct a as [|e' a]; cbn [app] in E; injection E as E1 E2; [now apply A in E1|]. exists a, b. split; [exact E2|]. intros I. apply N. now right.
  - intros [I|(B & a & b & -> & N)]; [left; now right|]. right. split; [exact B|]. exists (e :: a), b. split; [reflexivity|].
    intros [I|I]; [now apply L|contradiction].
Qed.
Lemma offers_load before es v x : offers_from before (SLoad :: es) v x <-> offers_from false es v x.
Proof.
  split.
  - intros [[I|I]|(B & a & b & E & N)]; [discriminate|now left|]. destruct a as [|e' a]; cbn [app] in E; injection E as E1 E2; [discriminate|].
    exfalso. apply N. left. now symmetry.
  - intros [I|(B & _)]; [left; now right|discriminate].
Qed.
Lemma offers_late es v x n y : offers_from false (SAssign n y :: es) v x <-> offers_from false es v x.
Proof.
  split.
  - intros [[I|I]|(B & _)]; [discriminate|now left|discriminate].
  - intros [I|(B & _)]; [left; now right|discriminate].
Qed.
Definition or_before (o old : option bytes) : option bytes := match o with Some _ => o | None => old end.
Lemma script_variables es : forall r before v, NoDup (offered es) ->
  (exists x, offers_from before es v x /\ variable (rc_variables (fst (fold_left scripted es (r, before)))) v = Some x) \/
  ((forall x, ~ offers_from before es v x) /\ variable (rc_variables (fst (fold_left scripted es (r, before)))) v = variable (rc_variables r) v).
Proof.
  induction es as [|e es IH]; intros r before v D; cbn [fold_left].
  - right. split; [|reflexivity]. intros x [[]|(_ & a & b & E & _)]. destruct a; discriminate.
  - assert (K : forall r' before', (forall x, offers_from before (e :: es) v x <-> offers_from before' es v x) -> NoDup (offered es) ->
        variable (rc_variables r') v = variable (rc_variables r) v ->
        (exists x, offers_from before (e :: es) v x /\ variable (rc_variables (fst (fold_left scripted es (r', before')))) v = Some x) \/
        ((forall x, ~ offers_from before (e :: es) v x) /\ variable (rc_variables (fst (fold_left scripted es (r', before')))) v = variable (rc_variables r) v)).
    { intros r' before' Q D' S. destruct (IH r' before' v D') as [(x & O & X)|[O X]].
      - left. exists x. split; [now apply Q|exact X].
      - right. split; [intros x O'; apply Q in O'; now apply (O x)|now rewrite X]. }
    assert (H : forall n y, offered (e :: es) = n :: offered es -> offers_from before (e :: es) n y ->
        (forall x, v <> n -> offers_from before (e :: es) v x <-> offers_from before es v x) ->
        (exists x, offers_from before (e :: es) v x /\ variable (rc_variables (fst (fold_left scripted es (put_variable r n (Some y), before)))) v = Some x) \/
        ((forall x, ~ offers_from before (e :: es) v x) /\
          variable (rc_variables (fst (fold_left scripted es (put_variable r n (Some y), before)))) v = variable (rc_variables r) v)).
    { intros n y Eo O Q. rewrite Eo in D. inversion D as [|? ? N D']; subst. destruct (bytes_eq_dec v n) as [->|V].
      - left. exists y. split; [exact O|]. destruct (IH (put_variable r n (Some y)) before n D') as [(x & O' & _)|[_ X]].
        + exfalso. apply N. now apply (offers_in before es n x).
        + rewrite X. unfold variable, put_variable. cbn [rc_variables lookup]. rewrite bytes_eqb_refl. reflexivity.
      - apply K; [intros x; now apply Q|exact D'|]. unfold variable, put_variable. cbn [rc_variables lookup].
        replace (bytes_eqb n v) with false; [reflexivity|]. symmetry. apply bytes_eqb_neq. congruence. }
    destruct e as [|n y|n y|a| |]; cbn [scripted].
    + apply K; [|exact D|reflexivity]. intros x. apply offers_skip; intros; discriminate.
    + apply H; [reflexivity|left; now left|]. intros x V. apply offers_skip; [intros z Z; injection Z as -> _; congruence| |]; intros; discriminate.
    + destruct before.
      * apply H; [reflexivity| |].
        -- right. split; [reflexivity|]. exists [], es. split; [reflexivity|intros []].
        -- intros x V. apply offers_skip; [intros; discriminate|intros z Z; injection Z as -> _; congruence|discriminate].
      * apply K; [|cbn [offered] in D; now inversion D|reflexivity]. intros x. apply offers_late.
    + apply K; [|exact D|reflexivity]. intros x. apply offers_skip; intros; discriminate.
    + apply K; [|exact D|reflexivity]. intros x. apply offers_load.
    + apply K; [|exact D|reflexivity]. intros x. apply offers_skip; intros; discriminate.
Qed.
Lemma script_args es : forall r before o, latest (arguments es) o -> rc_args (fst (fold_left scripted es (r, before))) = or_old o (rc_args r).
Proof.
  induction es as [|e es IH]; intros r before o H; cbn [fold_left].
  - destruct H as [[_ ->]|(l & x & E & _)]; [reflexivity|destruct l; discriminate].
  - destruct e as [|n y|n y|a| |]; cbn [scripted arguments] in *; try (now apply IH).
    + now rewrite (IH _ before o H).
    + destruct before; now rewrite (IH _ _ o H).
    + apply latest_cons in H as [[E ->]|[N H]].
      * rewrite (IH _ before None) by (left; split; [exact E|reflexivity]). reflexivity.
      * rewrite (IH _ before o H). destruct H as [[E _]|(l & x & _ & ->)]; [contradiction|reflexivity].
Qed.
Lemma script_rest es : forall r before, let r' := fst (fold_left scripted es (r, before)) in
  rc_name r' = rc_name r /\ rc_other r' = rc_other r /\ rc_rcvar r' = rc_rcvar r /\ rc_rcvar_value r' = rc_rcvar_value r.
Proof.
  induction es as [|e es IH]; intros r before; cbn [fold_left]; [repeat split|].
  destruct e as [|n y|n y|a| |]; cbn [scripted]; try apply IH.
  - destruct (IH (put_variable r n (Some y)) before) as (A & B & C & D). repeat split; assumption.
  - destruct before; [|apply IH]. destruct (IH (put_variable r n (Some y)) true) as (A & B & C & D). repeat split; assumption.
  - destruct (IH (set_args r (Some a)) before) as (A & B & C & D). repeat split; assumption.
Qed.
Lemma scripted_other st e : rc_other (fst (scripted st e)) = rc_other (fst st).
Proof. destruct st as [r []], e; reflexivity. Qed.
Lemma script_spec p es content : word p -> lists (RcSpec.script_line (script_variable content) p) es content -> In SName es ->
  exists r1, same_but_other r1 (one_name p) /\ parse_script content = fst (fold_left scripted es (r1, true)) /\
    r1 = fold_left other_line (physical content) (one_name p).
Proof.
  intros P L I. unfold parse_script. rewrite (names_spec _ p es content P L), (named_fold p es I). cbn [rc_name one_name].
  exists (fold_left other_line (physical content) (one_name p)). split; [apply others_keep|]. split; [|reflexivity].
  f_equal. remember (fold_left other_line (physical content) (one_name p)) as r1 eqn:R1.
  assert (Kn : knows (script_variable content) r1).
  { intros k x V. pose proof V as (Wk & Dk & _). split; [exact Wk|]. split; [exact Dk|]. rewrite R1. now apply script_known. }
  apply (fold_related (RcSpec.script_line (script_variable content) p) (script_line p) scripted
    (fun a b => a = b /\ knows (script_variable content) (fst a))) with (a := (r1, true)); [| |exact L|split; [reflexivity|exact Kn]].
  - intros a b q l e E O M [-> K]. rewrite (script_line_spec _ p b q l e P E O K M). split; [reflexivity|].
    intros k x V. rewrite scripted_other. now apply K.
  - intros [r before] b e M [<- K]. apply script_empty in M. subst. split; [reflexivity|exact K].
Qed.

(** *** rc.conf *)
Lemma idle_starts q l k r : ended q l -> idle_line l -> word k -> q <> k ++ r.
Proof.
  intros E I [N F] ->. pose proof (idle_no_word _ _ E I) as X. destruct k as [|c k]; [congruence|].
  inversion F as [|? ? C F']; subst. cbn [app] in X. rewrite drop_stop in X by now apply name_not_space.
  subst c. apply word_name in C. discriminate.
Qed.
Definition follows (fl : flavour) (p : bytes) (o args : option bytes) (r : rc) (env : environment) : Prop :=
  rc_name r = Some p /\ rc_rcvar r = None /\ rc_args r = args /\ variable (rc_other r) (lit "conf_file") = o /\
  (forall v, v <> [] -> variable (rc_variables r) v = env (full p v)) /\
  rc_rcvar_value r = match fl with FreeBSD => None | Pkgsrc _ _ => env p end.
Definition put_conf (env : environment) (e : option (bytes * bytes)) : environment :=
  match e with Some (n, v) => set env n v | None => env end.
Lemma sets_fold es : forall env, sets env es = fold_left put_conf es env.
Proof. induction es as [|[[n v]|] es IH]; intros env; cbn [sets fold_left put_conf]; auto. Qed.
Lemma conf_line_other fl p r q : rc_other (conf_line fl p r q) = rc_other r.
Proof.
  unfold conf_line, unknown_line. destruct (match after_prefix (p ++ lit "_") q with Some rest => _ | None => _ end) as [[n raw]|]; [reflexivity|].
  destruct fl; [destruct (after_prefix (lit "rcvar=`set_rcvar`") q); [reflexivity|]|destruct (assigned (lit "rcvar") q); [reflexivity|]];
    match goal with |- context [assigned ?k ?l] => destruct (assigned k l) end; reflexivity.
Qed.
Lemma conf_line_spec scr fl p o args r env q l e : word p -> ended q l -> one_line l -> knows scr r -> RcSpec.conf_line scr l e ->
  follows fl p o args r env -> follows fl p o args (conf_line fl p r q) (put_conf env e).
Proof.
  intros P E O Kk M (HN & HR & HA & HO & HV & HY). unfold conf_line.
  replace (p ++ lit "_") with (full p []) by (unfold full; now rewrite app_nil_r).
  assert (Pf : word (full p [])) by (apply word_full; [exact P|constructor]).
  assert (Pe : word (full p (lit "enable"))) by (apply word_full; [exact P|apply word_b; [reflexivity|discriminate]]).
  destruct M as [l I|n v t W R Q T Tn]; cbn [put_conf].
  - rewrite after_none by (intros r'; now apply (idle_starts q l)).
    replace (unknown_line fl p r q) with r; [now repeat split|].
    assert (K : forall k, word k -> assigned k q = None).
    { intros k Wk. unfold assigned. rewrite after_none; [reflexivity|]. intros r'. rewrite <- app_assoc. now apply (idle_starts q l). }
    unfold unknown_line, rcvar. rewrite HR. destruct fl as [|px rcd].
    + rewrite after_none.
      * change (p ++ lit "_enable") with (full p (lit "enable")). rewrite K by exact Pe. reflexivity.
      * intros r' X. apply (idle_starts q l (lit "rcvar") (lit "=`set_rcvar`" ++ r') E I); [apply word_b; [reflexivity|discriminate]|exact X].
    + rewrite K by (apply word_b; [reflexivity|discriminate]). rewrite K by exact P. reflexivity.
  - apply one_line_app in O as [_ O]. apply one_line_app in O as [_ O].
    pose proof E as E0. apply ended_app in E as (q1 & -> & E). apply ended_app in E as (q2 & -> & E).
    change (lit "=" ++ q2) with ("="%char :: q2) in *. change (lit "=" ++ t) with ("="%char :: t) in E0.
    (* is it one of its variables? *)
    destruct (after_prefix (full p []) (n ++ "="%char :: q2)) as [rest|] eqn:A.
    + apply after_prefix_some in A. symmetry in A. pose proof A as A'. apply prefix_within in A as (w & ->); [|now apply word_no_eq].
      rewrite <- app_assoc in A'. apply app_inv_head in A'. subst rest.
      assert (Lf : without_lf (w ++ "="%char :: q2) = w ++ "="%char :: t).
      { apply without_lf_ended; [|]. - destruct E as [->| ->]; [left; rewrite <- app_assoc; reflexivity|now right].
        - intros J. apply in_app_iff in J as [J|[J|J]]; [|discriminate|contradiction].
          apply (word_no_lf _ W). apply in_app_iff. now right. }
      rewrite Lf, last_found by assumption. cbn [rev app]. destruct w as [|w0 w].
      * rewrite app_nil_r in *.
        assert (U : unknown_line fl p r (full p [] ++ "="%char :: q2) = r).
        { assert (K : forall k, word k -> k <> full p [] -> assigned k (full p [] ++ "="%char :: q2) = None).
          { intros k Wk D. unfold assigned. rewrite after_none; [reflexivity|]. intros r' X. rewrite <- app_assoc in X.
            apply split_once in X as [X _]; [congruence|now apply word_no_eq|now apply word_no_eq]. }
          unfold unknown_line, rcvar. rewrite HR. destruct fl as [|px rcd].
          - rewrite after_none.
            + change (p ++ lit "_enable") with (full p (lit "enable")). rewrite K; [reflexivity|exact Pe|]. intros X. apply full_inj in X. discriminate.
            + intros r' X. change (lit "rcvar=`set_rcvar`" ++ r') with (lit "rcvar" ++ "="%char :: lit "`set_rcvar`" ++ r') in X.
              apply split_once in X as [X _]; [congruence|now apply word_no_eq|no_lf].
          - rewrite K; [|apply word_b; [reflexivity|discriminate]|congruence].
            rewrite K; [reflexivity|exact P|]. intros X. symmetry in X. now apply full_other in X. }
        rewrite U. repeat split; try assumption.
        -- intros v' V'. rewrite (HV v' V'). unfold set. replace (bytes_eqb (full p []) (full p v')) with false; [reflexivity|].
           symmetry. apply bytes_eqb_neq. intros X. apply full_inj in X. congruence.
        -- rewrite HY. destruct fl; [reflexivity|]. unfold set. replace (bytes_eqb (full p []) p) with false; [reflexivity|].
           symmetry. apply bytes_eqb_neq. apply full_other.
      * rewrite (valued scr r v t Kk Q). repeat split; try assumption.
        -- intros v' V'. unfold put_variable, variable. cbn [rc_variables lookup]. unfold set. rewrite <- full_app.
           destruct (bytes_eqb (w0 :: w) v') eqn:B.
           ++ apply bytes_eqb_eq in B. subst v'. rewrite bytes_eqb_refl. reflexivity.
           ++ replace (bytes_eqb (full p (w0 :: w)) (full p v')) with false; [exact (HV v' V')|].
              symmetry. apply bytes_eqb_neq. intros X. apply full_inj in X. apply bytes_eqb_neq in B. contradiction.
        -- cbn [put_variable rc_rcvar_value]. rewrite HY. destruct fl; [reflexivity|]. unfold set. rewrite <- full_app.
           replace (bytes_eqb (full p (w0 :: w)) p) with false; [reflexivity|]. symmetry. apply bytes_eqb_neq. apply full_other.
    + assert (Nf : forall v', n <> full p v').
      { intros v' ->. rewrite (full_app p v'), <- app_assoc, after_prefix_app in A. discriminate. }
      assert (Kn : forall k, word k -> k <> n -> assigned k (n ++ "="%char :: q2) = None).
      { intros k Wk D. unfold assigned. rewrite after_none; [reflexivity|]. intros r' X. rewrite <- app_assoc in X.
        apply split_once in X as [X _]; [congruence|now apply word_no_eq|now apply word_no_eq]. }
      assert (HVs : forall v', v' <> [] -> variable (rc_variables r) v' = set env n v (full p v')).
      { intros v' V'. rewrite (HV v' V'). unfold set. replace (bytes_eqb n (full p v')) with false; [reflexivity|].
        symmetry. apply bytes_eqb_neq. apply Nf. }
      unfold unknown_line, rcvar. rewrite HR. destruct fl as [|px rcd].
      * rewrite after_none.
        -- change (p ++ lit "_enable") with (full p (lit "enable")). rewrite Kn; [|exact Pe|intros X; symmetry in X; now apply Nf in X].
           repeat split; assumption.
        -- intros r' X. change (lit "rcvar=`set_rcvar`" ++ r') with (lit "rcvar" ++ "="%char :: lit "`set_rcvar`" ++ r') in X.
           apply split_once in X as [X _]; [congruence|now apply word_no_eq|no_lf].
      * rewrite Kn; [|apply word_b; [reflexivity|discriminate]|congruence].
        destruct (bytes_eq_dec p n) as [<-|D].
        -- rewrite (hit p _ t E0 O T), (valued scr r v t Kk Q). repeat split; try assumption.
           cbn [set_rcvar_value rc_rcvar_value]. unfold set. rewrite bytes_eqb_refl. reflexivity.
        -- rewrite Kn by assumption. repeat split; try assumption. rewrite HY. unfold set.
           replace (bytes_eqb n p) with false; [reflexivity|]. symmetry. apply bytes_eqb_neq. congruence.
Qed.
Lemma conf_empty scr e : RcSpec.conf_line scr [] e -> e = None.
Proof.
  intros H. assert (L : exists l : bytes, l = [] /\ RcSpec.conf_line scr l e) by (exists []; auto). clear H. destruct L as (l & L & H).
  destruct H; [reflexivity|]. apply app_eq_nil in L as [_ L]. discriminate.
Qed.
Lemma conf_file_spec scr fl p o args r env es content : word p -> lists (RcSpec.conf_line scr) es content -> knows scr r ->
  follows fl p o args r env -> follows fl p o args (parse_rc_conf fl p r (Some content)) (sets env es) /\ knows scr (parse_rc_conf fl p r (Some content)).
Proof.
  intros P L K F. rewrite sets_fold. unfold parse_rc_conf.
  apply (fold_related (RcSpec.conf_line scr) (conf_line fl p) put_conf (fun r env => follows fl p o args r env /\ knows scr r)); [| |exact L|split; assumption].
  - intros a b q l e E O M [R Ka]. split; [now apply (conf_line_spec scr fl p o args a b q l)|]. intros k x V. rewrite conf_line_other. now apply Ka.
  - intros a b e M R. apply conf_empty in M. subst. exact R.
Qed.
Lemma settings_follow scr fl p o args files fs env out : word p -> settings_of scr files env fs out -> forall r, knows scr r -> follows fl p o args r env ->
  follows fl p o args (fold_left (fun r f => parse_rc_conf fl p r (files f)) fs r) out.
Proof.
  intros P. induction 1 as [env|env f fs out N S IH|env f content es fs out C L S IH]; intros r K F; cbn [fold_left].
  - exact F.
  - rewrite N. now apply IH.
  - rewrite C. destruct (conf_file_spec scr fl p o args r env es content P L K F) as [F' K']. now apply IH.
Qed.
Lemma detect_spec fl sys script p env args : service (sy_file sys) (rc_script fl script) p env args ->
  exists o, follows fl p o args (rc_detect fl sys script) env /\
    forall content c, sy_file sys (rc_script fl script) = Some content -> RcSpec.script_conf content c -> o = c.
Proof.
  intros (P & content & es & env0 & C & L & I & D & Df & A & S).
  destruct (script_spec p es content P L I) as (r1 & (S1 & S2 & S3 & S4 & S5) & Q & R1).
  set (r := parse_script content).
  destruct (script_rest es r1 true) as (N1 & N2 & N3 & N4). rewrite <- Q in N1, N2, N3, N4. fold r in N1, N2, N3, N4.
  assert (F : follows fl p (variable (rc_other r1) (lit "conf_file")) args r env0).
  { unfold follows. rewrite N1, N3, N4, N2, S1, S4, S5. repeat split.
    - unfold r. rewrite Q, (script_args es r1 true args A), S3. destruct args; reflexivity.
    - intros v _. destruct (script_variables es r1 true v D) as [(x & O & X)|[O X]]; unfold r; rewrite Q, X.
      + destruct (Df (full p v)) as [(v' & x' & E & O' & ->)|[O' _]].
        * apply full_inj in E. subst v'.
          assert (U : forall es v a b before, NoDup (offered es) -> offers_from before es v a -> offers_from before es v b -> a = b).
          { clear. induction es as [|e es IH]; intros v a b before D A B.
            - exfalso. destruct A as [[]|(_ & x & y & E & _)]. destruct x; discriminate.
            - assert (K : forall n y, offered (e :: es) = n :: offered es -> (e = SDefault n y \/ e = SAssign n y) -> forall a, offers_from before (e :: es) v a -> v <> n -> offers_from before es v a).
              { intros n y _ He a' O V. apply offers_skip in O; [exact O| | |]; intros; destruct He as [-> | ->]; congruence. }
              assert (H : forall n y, offered (e :: es) = n :: offered es -> (e = SDefault n y \/ e = SAssign n y) -> forall a, offers_from before (e :: es) n a -> a = y).
              { intros n y Eo He a' O. rewrite Eo in D. inversion D as [|? ? N D']; subst.
                destruct O as [[O|O]|(Bt & x & z & E & Nl)].
                - destruct He as [He|He]; congruence.
                - exfalso. apply N. apply (offers_in before es n a'). now left.
                - destruct x as [|x0 x]; cbn [app] in E; injection E as E1 E2.
                  + destruct He as [He|He]; congruence.
                  + exfalso. apply N. apply (offers_in before es n a'). right. split; [exact Bt|]. exists x, z. split; [exact E2|].
                    intros J. apply Nl. now right. }
              destruct e as [|n y|n y|s| |].
              + cbn [offered] in D. apply (IH v a b before D); [apply offers_skip in A|apply offers_skip in B]; auto; intros; discriminate.
              + destruct (bytes_eq_dec v n) as [->|V].
                * rewrite (H n y eq_refl (or_introl eq_refl) a A), (H n y eq_refl (or_introl eq_refl) b B). reflexivity.
                * cbn [offered] in D. inversion D; subst. apply (IH v a b before); [assumption| |];
                    apply (K n y eq_refl (or_introl eq_refl)); assumption.
              + destruct (bytes_eq_dec v n) as [->|V].
                * rewrite (H n y eq_refl (or_intror eq_refl) a A), (H n y eq_refl (or_intror eq_refl) b B). reflexivity.
                * cbn [offered] in D. inversion D; subst. apply (IH v a b before); [assumption| |];
                    apply (K n y eq_refl (or_intror eq_refl)); assumption.
              + cbn [offered] in D. apply (IH v a b before D); [apply offers_skip in A|apply offers_skip in B]; auto; intros; discriminate.
              + cbn [offered] in D. apply (IH v a b false D); [now apply offers_load in A|now apply offers_load in B].
              + cbn [offered] in D. apply (IH v a b before D); [apply offers_skip in A|apply offers_skip in B]; auto; intros; discriminate. }
          f_equal. apply (U es v x x' true D O). destruct O' as [O'|O']; [now left|right; now split].
        * exfalso. apply (O' v x eq_refl). destruct O as [O|[_ O]]; [now left|now right].
      + rewrite S2. destruct (Df (full p v)) as [(v' & x' & E & O' & _)|[_ ->]]; [|reflexivity].
        exfalso. apply full_inj in E. subst v'. apply (O x'). destruct O' as [O'|O']; [now left|right; now split].
    - destruct fl; [reflexivity|]. destruct (Df p) as [(v' & x' & E & _)|[_ ->]]; [|reflexivity]. exfalso. symmetry in E. now apply full_other in E. }
  exists (variable (rc_other r1) (lit "conf_file")). split.
  - unfold rc_detect. rewrite C. fold r. assert (N : rc_name r = Some p) by (rewrite N1; exact S1). rewrite N.
    refine (settings_follow _ fl p _ args (sy_file sys) _ env0 env P S r _ F).
    intros k x V. pose proof V as (Wk & Dk & _). split; [exact Wk|]. split; [exact Dk|]. rewrite N2, R1. now apply script_known.
  - intros content' c C' [[Ab ->]|(f & V & ->)]; rewrite C in C'; injection C' as <-; rewrite R1; [|now apply script_known].
    apply (others_none (lit "conf_file")); [|reflexivity].
    intros l Il. destruct (physical_part l content es _ p L Il) as (a & b & E). intros x y El. apply (Ab (a ++ x) (y ++ b)).
    rewrite E, El, <- !app_assoc. reflexivity.
Qed.

(** *** What is made of it *)
Lemma yes_spec v : bytes_eqb (map upcase v) (lit "YES") = true <-> says_yes v.
Proof.
  rewrite bytes_eqb_eq. split.
  - intros H. destruct v as [|a [|b [|c [|d v]]]]; try discriminate H. exists a, b, c. split; [reflexivity|]. cbn [map] in H.
    injection H as A B C.
    assert (K : forall x k, 65 <= k <= 90 -> upcase x = byte_of k -> x = byte_of k \/ x = byte_of (k + 32)).
    { clear. intros x k Hk H. unfold upcase in H. destruct ((97 <=? code x) && (code x <=? 122)) eqn:E; [|now left]. right.
      apply andb_true_iff in E as [E1 E2]. apply N.leb_le in E1, E2. apply (f_equal code) in H. rewrite !code_byte_of in H.
      rewrite !N.mod_small in H by lia. apply code_inj. rewrite code_byte_of, N.mod_small by lia. lia. }
    destruct (K a 89 ltac:(lia) A) as [-> | ->], (K b 69 ltac:(lia) B) as [-> | ->], (K c 83 ltac:(lia) C) as [-> | ->]; vm_compute; tauto.
  - intros (a & b & c & -> & A & B & C). cbn [lit In] in A, B, C.
    destruct A as [<-|[<-|[]]], B as [<-|[<-|[]]], C as [<-|[<-|[]]]; reflexivity.
Qed.
Lemma variable_spec env n v o : v = env n -> variable_says env n o -> normalize_spec v = o.
Proof.
  intros -> H. unfold variable_says in H. destruct (env n) as [s|]; [|now subst].
  destruct H as [[B ->]|(t & T & ->)]; [now apply normalize_blank|now apply normalize_trimmed].
Qed.
Lemma flag_spec sys opt text o : option_says (sy_words sys) opt text o -> parameter_from_flags sys text opt = o.
Proof. destruct text as [f|]; cbn [option_says]; [apply option_spec|intros ->; reflexivity]. Qed.
Lemma listens_spec sys name env args o r fl c : follows fl name c args r env -> listens (sy_words sys) name env args o ->
  some_else (normalize_spec (variable (rc_variables r) (lit "socket")))
 (some_else (normalize_spec (variable (rc_variables r) (lit "sockfile")))
 (some_else (normalize_spec (variable (rc_variables r) (lit "connection_spec")))
 (some_else (parameter_from_flags sys (variable (rc_variables r) (lit "flags")) (lit "-p"))
            (parameter_from_flags sys (rc_args r) (lit "-p"))))) = o.
Proof.
  intros (_ & _ & HA & _ & HV & _) (a & b & d & e & f & A & B & D & E & F & O).
  pose proof (HV (lit "socket") ltac:(discriminate)) as V1. pose proof (HV (lit "sockfile") ltac:(discriminate)) as V2.
  pose proof (HV (lit "connection_spec") ltac:(discriminate)) as V3. pose proof (HV (lit "flags") ltac:(discriminate)) as V4.
  rewrite (variable_spec env _ _ _ V1 A), (variable_spec env _ _ _ V2 B), (variable_spec env _ _ _ V3 D), V4.
  rewrite (flag_spec _ _ _ _ E), HA, (flag_spec _ _ _ _ F).
  repeat match goal with H : first_of _ _ |- _ => inversion H; subst; clear H end; reflexivity.
Qed.
