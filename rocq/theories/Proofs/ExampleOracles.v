(** A concrete instance of the external address functions, for the examples: every byte is
    printed as two letters. *)
From Verif.Base Require Import Bytes BytesFacts.
From Verif.Spec Require Import CommandGrammar.
From Coq Require Import ZifyBool ZifyNat ZifyN Permutation.
Ltac Zify.zify_post_hook ::= Z.div_mod_to_equations.
Local Open Scope N_scope.

Definition letter (n : N) : byte := byte_of (n + 97).
Definition toy_ntop (ip : bytes) : bytes :=
  concat (map (fun b => [letter (code b / 16); letter (code b mod 16)]) ip).

Fixpoint toy_read (s : bytes) : option bytes :=
  match s with
  | [] => Some []
  | a :: b :: s' =>
      match toy_read s' with
      | Some r => Some (byte_of ((code a - 97) * 16 + (code b - 97)) :: r)
      | None => None
      end
  | _ => None
  end.

Definition toy_pton (size : nat) (s : bytes) : option bytes :=
  match toy_read s with
  | Some ip => if Nat.eqb (length ip) size then Some ip else None
  | None => None
  end.

Lemma letter_code n : n < 16 -> code (letter n) = n + 97.
Proof. intros H. unfold letter. rewrite code_byte_of. apply N.mod_small. lia. Qed.

Lemma letter_not_nul n : n < 16 -> letter n <> NUL.
Proof.
  intros H E. apply (f_equal code) in E. rewrite letter_code in E by exact H.
  change (code NUL) with 0 in E. lia.
Qed.

Lemma toy_read_ntop ip : toy_read (toy_ntop ip) = Some ip.
Proof.
  induction ip as [|b ip IH]; [reflexivity|].
  unfold toy_ntop in *. cbn [map concat app toy_read]. rewrite IH.
  pose proof (code_bound b).
  rewrite !letter_code by lia.
  replace ((code b / 16 + 97 - 97) * 16 + (code b mod 16 + 97 - 97)) with (code b) by lia.
  rewrite byte_of_code. reflexivity.
Qed.

Lemma toy_no_nul ip : no_nul (toy_ntop ip).
Proof.
  induction ip as [|b ip IH]; [apply no_nul_nil|].
  unfold toy_ntop in *. cbn [map concat app]. pose proof (code_bound b).
  apply no_nul_cons. split; [apply letter_not_nul; lia|].
  apply no_nul_cons. split; [apply letter_not_nul; lia|]. exact IH.
Qed.

Lemma toy_prints_back size : (0 < size)%nat -> prints_back toy_ntop (toy_pton size) size.
Proof.
  intros Hs ip Hl. split; [|split; [apply toy_no_nul|]].
  - destruct ip; [simpl in Hl; lia|discriminate].
  - unfold toy_pton. rewrite toy_read_ntop. rewrite Hl, Nat.eqb_refl. reflexivity.
Qed.

Definition toy_sort (l : list bytes) : list bytes := rev l.
Lemma toy_sort_permutes l : Permutation (toy_sort l) l.
Proof. apply Permutation_sym, Permutation_rev. Qed.
