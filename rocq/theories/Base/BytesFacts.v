(** Lemmas about [Bytes]. *)
From Verif.Base Require Import Bytes.
From Coq Require Import ZifyBool ZifyNat ZifyN.
Local Open Scope N_scope.
Ltac Zify.zify_post_hook ::= Z.div_mod_to_equations.

Lemma beqb_eq a b : beqb a b = true <-> a = b.
Proof. apply Ascii.eqb_eq. Qed.

Lemma beqb_refl a : beqb a a = true.
Proof. apply Ascii.eqb_refl. Qed.

Lemma beqb_neq a b : beqb a b = false <-> a <> b.
Proof. apply Ascii.eqb_neq. Qed.

Lemma bytes_eqb_eq a : forall b, bytes_eqb a b = true <-> a = b.
Proof.
  induction a as [|x a IH]; intros [|y b]; simpl; split; try congruence; try reflexivity.
  - intros H. apply andb_prop in H as [H1 H2].
    apply beqb_eq in H1. apply IH in H2. congruence.
  - intros H. injection H as -> ->. rewrite beqb_refl. simpl. apply IH. reflexivity.
Qed.

Lemma bytes_eqb_refl a : bytes_eqb a a = true.
Proof. apply bytes_eqb_eq. reflexivity. Qed.

Lemma bytes_eqb_neq a b : bytes_eqb a b = false <-> a <> b.
Proof.
  destruct (bytes_eqb a b) eqn:E.
  - apply bytes_eqb_eq in E. split; congruence.
  - split; intros _; [|reflexivity].
    intros ->. rewrite bytes_eqb_refl in E. discriminate.
Qed.

Lemma no_nulb_spec s : no_nulb s = true <-> no_nul s.
Proof.
  unfold no_nulb, no_nul. rewrite forallb_forall. split.
  - intros H Hin. apply H in Hin. rewrite beqb_refl in Hin. discriminate.
  - intros H x Hx. destruct (beqb x NUL) eqn:E; [|reflexivity].
    apply beqb_eq in E. subst. contradiction.
Qed.

Lemma no_nul_nil : no_nul [].
Proof. intros []. Qed.

Lemma no_nul_cons c s : no_nul (c :: s) <-> c <> NUL /\ no_nul s.
Proof.
  unfold no_nul. simpl. split.
  - intros H; split; [intros ->|intros Hi]; apply H; auto.
  - intros [H1 H2] [H|H]; [congruence|contradiction].
Qed.

Lemma no_nul_app a b : no_nul (a ++ b) <-> no_nul a /\ no_nul b.
Proof.
  unfold no_nul. split.
  - intros H; split; intros Hi; apply H, in_or_app; auto.
  - intros [H1 H2] Hi. apply in_app_or in Hi as [Hi|Hi]; auto.
Qed.

Lemma code_bound b : code b < 256.
Proof. apply N_ascii_bounded. Qed.

Lemma code_byte_of n : code (byte_of n) = n mod 256.
Proof.
  unfold code, byte_of. apply N_ascii_embedding. apply N.mod_lt. lia.
Qed.

Lemma byte_of_code b : byte_of (code b) = b.
Proof.
  unfold byte_of. rewrite N.mod_small by apply code_bound. apply ascii_N_embedding.
Qed.

Lemma code_inj a b : code a = code b -> a = b.
Proof.
  intros H. rewrite <- (byte_of_code a), <- (byte_of_code b), H. reflexivity.
Qed.

Lemma rd32_be32 n : n < 4294967296 ->
  rd32 (byte_of (n / 16777216)) (byte_of (n / 65536)) (byte_of (n / 256)) (byte_of n) = n.
Proof.
  intros H. unfold rd32. rewrite !code_byte_of. lia.
Qed.

Lemma rd32_bound a b c d : rd32 a b c d < 4294967296.
Proof.
  unfold rd32.
  pose proof (code_bound a). pose proof (code_bound b).
  pose proof (code_bound c). pose proof (code_bound d). lia.
Qed.

Lemma be32_rd32 a b c d : be32 (rd32 a b c d) = [a; b; c; d].
Proof.
  unfold be32, rd32.
  pose proof (code_bound a). pose proof (code_bound b).
  pose proof (code_bound c). pose proof (code_bound d).
  repeat f_equal; apply code_inj; rewrite code_byte_of; lia.
Qed.

Lemma be32_length n : length (be32 n) = 4%nat.
Proof. reflexivity. Qed.

Lemma be32_inj m n : m < 4294967296 -> n < 4294967296 -> be32 m = be32 n -> m = n.
Proof.
  intros Hm Hn H. unfold be32 in H. injection H as H1 H2 H3 H4.
  rewrite <- (rd32_be32 m Hm), <- (rd32_be32 n Hn). congruence.
Qed.

Lemma to_s32_small n : n < 2147483648 -> to_s32 n = Z.of_N n.
Proof. intros H. unfold to_s32. apply N.ltb_lt in H. rewrite H. reflexivity. Qed.

Lemma zlen_nil {A} : @zlen A [] = 0%Z. Proof. reflexivity. Qed.
Lemma zlen_cons {A} (x : A) l : zlen (x :: l) = (zlen l + 1)%Z.
Proof. unfold zlen. simpl length. lia. Qed.
Lemma zlen_app {A} (a b : list A) : zlen (a ++ b) = (zlen a + zlen b)%Z.
Proof. unfold zlen. rewrite app_length. lia. Qed.
Lemma zlen_nonneg {A} (l : list A) : (0 <= zlen l)%Z.
Proof. unfold zlen. lia. Qed.

Lemma ascii_eq_dec (a b : byte) : {a = b} + {a <> b}.
Proof. apply Ascii.ascii_dec. Qed.

Lemma bytes_eq_dec (a b : bytes) : {a = b} + {a <> b}.
Proof. apply list_eq_dec, ascii_eq_dec. Qed.

Lemma firstn_app_exact {A} (a b : list A) : firstn (length a) (a ++ b) = a.
Proof. rewrite firstn_app, Nat.sub_diag, firstn_all. simpl. apply app_nil_r. Qed.

Lemma skipn_app_exact {A} (a b : list A) : skipn (length a) (a ++ b) = b.
Proof. rewrite skipn_app, Nat.sub_diag, skipn_all. reflexivity. Qed.
