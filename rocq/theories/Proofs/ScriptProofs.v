(** Finding an assignment in a line of a script. *)
From Verif.Base Require Import Bytes BytesFacts.
From Verif.Model Require Import PostfixTable Breaker Detect.
From Verif.Spec Require Import PostfixSpec ConnectionSpecSpec.
From Verif.Spec Require BreakerSpec.
From Verif.Proofs Require Import PostfixProofs ConnectionSpecProofs BreakerProofs DetectProofs GreylistProofs ShellProofs.
From Verif.Spec Require Import DetectSpec.
Import List.
Local Open Scope N_scope.

(** *** Names of capital letters only, or of any *)
Definition names (low : bool) : byte -> Prop := if low then BreakerSpec.name_char else capital.
Lemma names_true low c : Detect.name_char low c = true <-> names low c.
Proof.
  destruct low; cbn [names Detect.name_char]; [apply word_name|].
  unfold is_upper, is_digit, capital. rewrite !orb_true_iff, !andb_true_iff, !N.leb_le, beqb_eq. split.
  - intros [[H|H]|H]; [auto|auto|]. right. right. now subst.
  - intros [H|[H|H]]; [auto|auto|]. right. apply code_inj. exact H.
Qed.
Lemma names_word low n : n <> [] -> Forall (names low) n -> word n.
Proof.
  intros N F. split; [exact N|]. eapply Forall_impl; [|exact F]. intros c. destruct low; cbn [names]; [auto|].
  unfold capital, BreakerSpec.name_char. tauto.
Qed.

(** *** Finding the definition *)
Definition defined_at (low : bool) (b : bytes) : option (bytes * bytes) :=
  match take_while is_word b, drop_while is_word b with
  | (_ :: _) as name, d :: rest =>
      if beqb d "=" && forallb (Detect.name_char low) name then Some (name, raw_value rest) else None
  | _, _ => None
  end.
Lemma find_unfold low flag c b : find_definition low flag (c :: b) =
  match (if flag then None else defined_at low (c :: b)) with Some r => Some r | None => find_definition low (is_word c) b end.
Proof. reflexivity. Qed.
Lemma defined_none low b : match drop_while is_word b with d :: _ => d <> "="%char | [] => True end -> defined_at low b = None.
Proof.
  intros H. unfold defined_at. destruct (take_while is_word b); [reflexivity|]. destruct (drop_while is_word b) as [|d r]; [reflexivity|].
  apply beqb_neq in H. rewrite H. reflexivity.
Qed.
Lemma find_leader low i : forall flag R r, Forall (fun c => c <> "="%char) i ->
  (i = [] \/ exists p c, i = p ++ [c] /\ white c) -> (i = [] -> flag = false) -> R <> [] ->
  defined_at low R = Some r -> find_definition low flag (i ++ R) = Some r.
Proof.
  induction i as [|c i IH]; intros flag R r F P Fl N D.
  - cbn [app]. destruct R as [|d R]; [congruence|]. rewrite find_unfold, (Fl eq_refl), D. reflexivity.
  - destruct P as [P|(p & w & P & W)]; [discriminate|]. cbn [app]. rewrite find_unfold, defined_none.
    + replace (if flag then None else None) with (@None (bytes * bytes)) by now destruct flag.
      inversion F; subst. apply IH; auto.
      * destruct p as [|c' p]; cbn [app] in P; injection P as -> ->; [now left|right; exists p, w; auto].
      * intros ->. destruct p as [|c' p]; cbn [app] in P; [injection P as ->|destruct p; discriminate].
        apply space_not_word. now apply white_is.
    + change (c :: i ++ R) with ((c :: i) ++ R). rewrite P in F |- *.
      destruct (drop_within w p R) as (d & x & -> & I); [apply space_not_word; now apply white_is|].
      rewrite Forall_forall in F. now apply F.
Qed.
Lemma defined_here low n rest : n <> [] -> Forall (names low) n -> defined_at low (n ++ "="%char :: rest) = Some (n, raw_value rest).
Proof.
  intros N F. pose proof (names_word low n N F) as W. unfold defined_at.
  destruct (word_stops n ("="%char :: rest) W) as [-> ->]; [right; exists "="%char, rest; split; reflexivity|].
  destruct n as [|c n]; [congruence|]. rewrite beqb_refl. replace (forallb (Detect.name_char low) (c :: n)) with true; [reflexivity|].
  symmetry. apply forallb_forall. intros x I. rewrite Forall_forall in F. now apply names_true, F.
Qed.
Lemma found_here low i n rest : leader i -> n <> [] -> Forall (names low) n ->
  find_definition low false (i ++ n ++ "="%char :: rest) = Some (n, raw_value rest).
Proof.
  intros Hl N C. apply leader_facts in Hl as [F P]. apply find_leader; auto.
  - eapply Forall_impl; [|exact F]. tauto.
  - destruct n; discriminate.
  - now apply defined_here.
Qed.
Lemma cut_named low i n V e' : leader i -> n <> [] -> Forall (names low) n -> no_hash V ->
  cut_comment (i ++ n ++ lit "=" ++ V ++ e') = i ++ n ++ "="%char :: V ++ cut_comment e'.
Proof.
  intros Hl N C V'. apply leader_facts in Hl as [F _]. rewrite cut_app by (eapply Forall_impl; [|exact F]; intros c [_ H]; now apply hash_neq).
  pose proof (names_word low n N C) as [_ W].
  rewrite cut_app by (apply quiet_no_hash; eapply Forall_impl; [|exact W]; apply name_quiet).
  rewrite cut_app by (repeat constructor). rewrite (cut_app _ _ V'). reflexivity.
Qed.
Lemma no_definition low b : (forall a c r, b = a ++ c :: "="%char :: r -> Detect.name_char low c = false) ->
  forall flag, find_definition low flag b = None.
Proof.
  induction b as [|c b IH]; intros H flag; [reflexivity|]. rewrite find_unfold.
  replace (if flag then None else defined_at low (c :: b)) with (@None (bytes * bytes)).
  - apply IH. intros a x r E. apply (H (c :: a) x r). now rewrite E.
  - destruct flag; [reflexivity|]. symmetry. unfold defined_at. pose proof (take_drop is_word (c :: b)) as T.
    destruct (take_while is_word (c :: b)) as [|x n]; [reflexivity|].
    destruct (drop_while is_word (c :: b)) as [|d rest]; [reflexivity|].
    destruct (beqb d "=") eqn:Q; [|reflexivity]. apply beqb_eq in Q. subst d.
    destruct (exists_last (l := x :: n) ltac:(discriminate)) as (n' & y & Y). rewrite Y in T |- *.
    assert (Z : Detect.name_char low y = false).
    { apply (H n' y rest). rewrite T at 1. rewrite <- app_assoc. reflexivity. }
    rewrite forallb_app. cbn [forallb]. rewrite Z, andb_false_r. reflexivity.
Qed.
