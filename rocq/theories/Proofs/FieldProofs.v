(** The shared field decoders on a packet suffix [x] followed by other bytes [y]. *)
From Verif.Base Require Import Bytes BytesFacts.
From Verif.Model Require Import Decoder.
From Coq Require Import ZifyBool ZifyNat ZifyN.
Ltac Zify.zify_post_hook ::= Z.div_mod_to_equations.
Local Open Scope Z_scope.

Lemma no_nul_dec (s : bytes) : {no_nul s} + {~ no_nul s}.
Proof.
  destruct (no_nulb s) eqn:E; [left|right]; rewrite <- no_nulb_spec; congruence.
Qed.

(** Splitting at the first NUL. *)
Lemma split_nul (x : bytes) :
  no_nul x \/ exists s r, x = s ++ NUL :: r /\ no_nul s.
Proof.
  induction x as [|c x IH].
  - left. apply no_nul_nil.
  - destruct (ascii_eq_dec c NUL) as [->|Hc].
    + right. exists [], x. split; [reflexivity|apply no_nul_nil].
    + destruct IH as [IH|(s & r & -> & Hs)].
      * left. apply no_nul_cons. auto.
      * right. exists (c :: s), r. split; [reflexivity|]. apply no_nul_cons. auto.
Qed.

Lemma split_nul_unique s r s' r' :
  no_nul s -> no_nul s' -> s ++ NUL :: r = s' ++ NUL :: r' -> s = s' /\ r = r'.
Proof.
  revert s'. induction s as [|c s IH]; intros [|c' s'] Hs Hs' H; cbn [app] in H.
  - injection H as H. auto.
  - injection H as H1 H2. subst c'. apply no_nul_cons in Hs'. destruct Hs'; congruence.
  - injection H as H1 H2. subst c. apply no_nul_cons in Hs. destruct Hs; congruence.
  - injection H as -> H. apply no_nul_cons in Hs as [_ Hs]. apply no_nul_cons in Hs' as [_ Hs'].
    destruct (IH s' Hs Hs' H) as [-> ->]. auto.
Qed.

Lemma no_nul_split_absurd x s r : no_nul x -> x <> s ++ NUL :: r.
Proof. intros H ->. apply no_nul_app in H as [_ H]. apply no_nul_cons in H. tauto. Qed.

Lemma beqb_nul_false c : c <> NUL -> beqb c NUL = false.
Proof. apply beqb_neq. Qed.

Lemma find_null_found s r n :
  no_nul s -> (length s < n)%nat -> find_null (s ++ NUL :: r) n = Ok (Some (length s)).
Proof.
  revert n. induction s as [|c s IH]; intros n Hs Hn; (destruct n as [|n]; [simpl in Hn; lia|]);
    cbn [app find_null].
  - rewrite beqb_refl. reflexivity.
  - apply no_nul_cons in Hs as [Hc Hs]. rewrite (beqb_nul_false c Hc).
    rewrite IH; auto. simpl in Hn. lia.
Qed.

Lemma find_null_missing x y n :
  no_nul x -> n = length x -> find_null (x ++ y) n = Ok None.
Proof.
  intros Hx ->. induction x as [|c x IH]; cbn [length find_null app]; [reflexivity|].
  apply no_nul_cons in Hx as [Hc Hx]. rewrite (beqb_nul_false c Hc), IH; auto.
Qed.

Lemma strndup_ok_long p n : (n <= length p)%nat -> strndup_ok p n = true.
Proof.
  revert n. induction p as [|c p IH]; intros [|n] H; cbn [strndup_ok]; auto; simpl in H; try lia.
  destruct (beqb c NUL); auto. apply IH. lia.
Qed.

Lemma dntv_found s r y len :
  no_nul s -> zlen s < len ->
  decode_null_terminated_value (s ++ NUL :: r ++ y) len = Ok (length s).
Proof.
  intros Hs Hl. unfold decode_null_terminated_value, zlen in *.
  rewrite find_null_found by (auto; lia). reflexivity.
Qed.

Lemma dntv_missing x y len :
  no_nul x -> len = zlen x -> y <> [] ->
  decode_null_terminated_value (x ++ y) len = Fail (Some E_MISSING_NULL).
Proof.
  intros Hx -> Hy. unfold decode_null_terminated_value, zlen.
  rewrite find_null_missing by (auto; lia). cbn [bind].
  destruct (Z.ltb_spec (Z.of_nat (length x) + 1) 0); [lia|].
  rewrite strndup_ok_long; [reflexivity|].
  destruct y; [congruence|]. rewrite app_length. simpl length. lia.
Qed.

Lemma cstring_app s r : no_nul s -> cstring (s ++ NUL :: r) = Ok s.
Proof.
  induction s as [|c s IH]; intros Hs; cbn [app cstring].
  - rewrite beqb_refl. reflexivity.
  - apply no_nul_cons in Hs as [Hc Hs]. rewrite (beqb_nul_false c Hc), IH by auto. reflexivity.
Qed.

Lemma cstring_no_nul p s : cstring p = Ok s -> no_nul s /\ exists r, p = s ++ NUL :: r.
Proof.
  revert s. induction p as [|c p IH]; intros s H; cbn [cstring] in H; [discriminate|].
  destruct (beqb c NUL) eqn:E.
  - injection H as <-. apply beqb_eq in E as ->. split; [apply no_nul_nil|]. exists p. reflexivity.
  - destruct (cstring p) as [s'| |]; try discriminate. injection H as <-.
    destruct (IH s' eq_refl) as [H1 (r & ->)]. apply beqb_neq in E.
    split; [apply no_nul_cons; auto|]. exists r. reflexivity.
Qed.

Lemma skipn_after s r : skipn (S (length s)) (s ++ NUL :: r) = r.
Proof.
  change (s ++ NUL :: r) with (s ++ [NUL] ++ r). rewrite app_assoc.
  replace (S (length s)) with (length (s ++ [NUL])) by (rewrite app_length; simpl; lia).
  apply skipn_app_exact.
Qed.

Lemma firstn_before s r : firstn (length s) (s ++ NUL :: r) = s.
Proof. apply firstn_app_exact. Qed.

(** Length checks on a packet suffix [x]. *)
Lemma check_exact_ok x y : zlen x = 0 ->
  check_command_length (x ++ y) (zlen x) 0 COMPARE_EXACT = Ok tt.
Proof. intros H. unfold check_command_length. rewrite H. reflexivity. Qed.

Lemma check_exact_long x y len : len = zlen x -> 0 < len ->
  check_command_length (x ++ y) len 0 COMPARE_EXACT = Fail (Some E_LONG_COMMAND_LENGTH).
Proof.
  intros -> H. unfold check_command_length. rewrite zlen_app.
  pose proof (zlen_nonneg y).
  destruct (Z.eqb_spec (zlen x) 0); [lia|]. destruct (Z.ltb_spec 0 (zlen x)); [|lia].
  destruct (Z.leb_spec (zlen x - 0) (zlen x + zlen y)); [reflexivity|lia].
Qed.

Lemma check_at_least_ok p len k : k <= len ->
  check_command_length p len k COMPARE_AT_LEAST = Ok tt.
Proof. intros H. unfold check_command_length. destruct (Z.leb_spec k len); [reflexivity|lia]. Qed.

Lemma check_at_least_short x y len k : len = zlen x -> len < k ->
  check_command_length (x ++ y) len k COMPARE_AT_LEAST = Fail (Some E_SHORT_COMMAND_LENGTH).
Proof.
  intros -> H. unfold check_command_length. rewrite zlen_app.
  pose proof (zlen_nonneg y). pose proof (zlen_nonneg x).
  destruct (Z.leb_spec k (zlen x)); [lia|]. destruct (Z.ltb_spec k (zlen x)); [lia|].
  destruct (Z.ltb_spec (zlen x) 0); [lia|].
  destruct (Z.leb_spec (zlen x) (zlen x + zlen y)); [reflexivity|lia].
Qed.

Lemma in_not_nil {A} (a : A) l : In a l -> l <> [].
Proof. intros H ->. destruct H. Qed.

Lemma cstring_total p : In NUL p -> exists s, cstring p = Ok s.
Proof.
  intros H. destruct (split_nul p) as [Hn|(s & r & -> & Hs)].
  - destruct (Hn H).
  - exists s. apply cstring_app. exact Hs.
Qed.

Lemma zlen_zero {A} (l : list A) : zlen l = 0 -> l = [].
Proof. destruct l; [reflexivity|]. rewrite zlen_cons. pose proof (zlen_nonneg l). lia. Qed.

(** A decoder [f] of a packet suffix [x], given what follows it (at least the
    terminator): its result does not depend on
    what follows, is never undefined, and is success exactly with the (only) value related by
    [R], failure when there is none. *)
Definition decides {A : Type} (f : bytes -> res A) (R : A -> Prop) : Prop :=
  exists r, (forall y, In NUL y -> f y = r) /\
    match r with
    | Ok a => forall a', R a' <-> a' = a
    | Fail _ => forall a, ~ R a
    | UB => False
    end.

Lemma decides_ok {A} (f : bytes -> res A) (R : A -> Prop) a :
  (forall y, In NUL y -> f y = Ok a) -> (forall a', R a' <-> a' = a) -> decides f R.
Proof. intros H1 H2. exists (Ok a). auto. Qed.

Lemma decides_fail {A} (f : bytes -> res A) (R : A -> Prop) e :
  (forall y, In NUL y -> f y = Fail e) -> (forall a, ~ R a) -> decides f R.
Proof. intros H1 H2. exists (Fail e). auto. Qed.

Lemma decides_iff {A} (f : bytes -> res A) (R R' : A -> Prop) :
  (forall a, R a <-> R' a) -> decides f R -> decides f R'.
Proof.
  intros H (r & H1 & H2). exists r. split; [auto|]. destruct r; auto.
  - intros a'. rewrite <- H. apply H2.
  - intros a Ha. apply H in Ha. exact (H2 a Ha).
Qed.

Lemma decides_ext {A} (f g : bytes -> res A) (R : A -> Prop) :
  (forall y, In NUL y -> f y = g y) -> decides g R -> decides f R.
Proof. intros H (r & H1 & H2). exists r. split; [|exact H2]. intros y Hy. rewrite H; auto. Qed.

Lemma decides_map {A B} (g : A -> B) (f : bytes -> res A) (R : A -> Prop) (R' : B -> Prop) :
  decides f R ->
  (forall b, R' b <-> exists a, R a /\ b = g a) ->
  decides (fun y => let* a := f y in Ok (g a)) R'.
Proof.
  intros (r & H1 & H2) HR. destruct r as [a|e|]; [| |destruct H2].
  - apply decides_ok with (a := g a).
    + intros y Hy. rewrite H1 by auto. reflexivity.
    + intros b. rewrite HR. split.
      * intros (a' & Ha & ->). apply H2 in Ha. congruence.
      * intros ->. exists a. split; [apply H2|]; reflexivity.
  - apply decides_fail with (e := e).
    + intros y Hy. rewrite H1 by auto. reflexivity.
    + intros b Hb. apply HR in Hb as (a & Ha & _). exact (H2 a Ha).
Qed.
