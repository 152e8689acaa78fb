(** Proofs about tables in the format of Postfix. *)
From Coq Require Import Lia.
From Verif.Base Require Import Bytes.
From Verif.Model Require Import PostfixTable.
From Verif.Spec Require Import PostfixSpec.
From Verif.Proofs Require ConnectionSpecProofs.
Local Open Scope N_scope.

(** *** Characters *)

Lemma beqb_eq a b : beqb a b = true <-> a = b.
Proof. apply Ascii.eqb_eq. Qed.
Lemma beqb_refl a : beqb a a = true.
Proof. apply Ascii.eqb_refl. Qed.
Lemma beqb_neq a b : beqb a b = false <-> a <> b.
Proof. apply Ascii.eqb_neq. Qed.

Ltac all_bytes c := destruct c as [[] [] [] [] [] [] [] []].

Lemma is_space_white c : is_space c = true <-> white c.
Proof.
  unfold white. split.
  - all_bytes c; intros H; try discriminate H; vm_compute; auto 10.
  - intros [->|[->|[->|[->|[->| ->]]]]]; reflexivity.
Qed.
Lemma not_white c : ~ white c <-> is_space c = false.
Proof.
  rewrite <- is_space_white. destruct (is_space c); split; intros H; congruence.
Qed.
Lemma is_flag_iff c : is_flag c = true <-> (c = "i" \/ c = "m" \/ c = "x")%char.
Proof.
  unfold is_flag. rewrite !orb_true_iff, !beqb_eq. tauto.
Qed.
Lemma is_digit_iff c : is_digit c = true <-> digit c.
Proof. unfold is_digit, digit. rewrite andb_true_iff, !N.leb_le. reflexivity. Qed.

Lemma white_not_flag c : white c -> is_flag c = false.
Proof. intros [->|[->|[->|[->|[->| ->]]]]]; reflexivity. Qed.

(** *** Runs of characters *)

Lemma drop_all p s b : Forall (fun c => p c = true) s -> drop_while p (s ++ b) = drop_while p b.
Proof. induction 1 as [|c s H F IH]; [reflexivity|]. cbn [app drop_while]. rewrite H. exact IH. Qed.
Lemma drop_stop p c b : p c = false -> drop_while p (c :: b) = c :: b.
Proof. intros H. cbn [drop_while]. rewrite H. reflexivity. Qed.
Lemma take_all p s b : Forall (fun c => p c = true) s -> take_while p (s ++ b) = s ++ take_while p b.
Proof. induction 1 as [|c s H F IH]; [reflexivity|]. cbn [app take_while]. rewrite H, IH. reflexivity. Qed.
Lemma take_stop p c b : p c = false -> take_while p (c :: b) = [].
Proof. intros H. cbn [take_while]. rewrite H. reflexivity. Qed.
Lemma take_drop p b : b = take_while p b ++ drop_while p b.
Proof. induction b as [|c b IH]; [reflexivity|]. cbn [take_while drop_while]. destruct (p c); cbn [app]; congruence. Qed.
Lemma take_forall p b : Forall (fun c => p c = true) (take_while p b).
Proof.
  induction b as [|c b IH]; [constructor|]. cbn [take_while]. destruct (p c) eqn:E; constructor; auto.
Qed.
Lemma drop_head p b c b' : drop_while p b = c :: b' -> p c = false.
Proof.
  induction b as [|d b IH]; [discriminate|]. cbn [drop_while]. destruct (p d) eqn:E; [exact IH|].
  intros H. injection H as -> _. exact E.
Qed.
Lemma whites s : Forall white s <-> Forall (fun c => is_space c = true) s.
Proof.
  split; intros H; eapply Forall_impl; try exact H; intros c; apply is_space_white.
Qed.
Lemma flags_true f : flags f <-> Forall (fun c => is_flag c = true) f.
Proof.
  split; intros H; eapply Forall_impl; try exact H; intros c; apply is_flag_iff.
Qed.

(** *** Lines *)

Lemma physical_line l b : one_line l -> physical (l ++ byte_of 10 :: b) = (l ++ [byte_of 10]) :: physical b.
Proof.
  induction l as [|c l IH]; intros H; [reflexivity|].
  cbn [app physical]. replace (beqb c lf) with false.
  - rewrite IH by (intros I; apply H; now right). reflexivity.
  - symmetry. apply beqb_neq. intros ->. apply H. now left.
Qed.
Lemma physical_last l : one_line l -> physical l = match l with [] => [] | _ => [l] end.
Proof.
  induction l as [|c l IH]; intros H; [reflexivity|].
  cbn [physical]. replace (beqb c lf) with false.
  - rewrite IH by (intros I; apply H; now right). destruct l; reflexivity.
  - symmetry. apply beqb_neq. intros ->. apply H. now left.
Qed.
Lemma physical_file ls last : Forall one_line ls -> one_line last ->
  physical (file ls last) = map (fun l => l ++ [byte_of 10]) ls ++ match last with [] => [] | _ => [last] end.
Proof.
  intros F L. unfold file. induction F as [|l ls H F IH]; [exact (physical_last last L)|].
  cbn [map concat app]. rewrite <- !app_assoc. cbn [app]. rewrite physical_line by exact H.
  rewrite IH. reflexivity.
Qed.

Lemma chomp_two c d b : chomp (c :: d :: b) =
  match b with [] => if beqb c cr && beqb d lf then [] else c :: chomp [d] | _ => c :: chomp (d :: b) end.
Proof. destruct b; reflexivity. Qed.
Lemma chomp_lf l t : content_is l t -> one_line l -> chomp (l ++ [byte_of 10]) = t.
Proof.
  intros C O.
  assert (G : forall l, one_line l -> chomp (l ++ [byte_of 10]) =
              match rev l with c :: l' => if beqb c cr then rev l' else l | [] => [] end).
  { clear. induction l as [|c l IH]; intros O; [reflexivity|].
    destruct l as [|d l].
    - cbn [app]. rewrite chomp_two. cbn [rev app]. destruct (beqb c cr) eqn:E; [reflexivity|].
      cbn [andb]. reflexivity.
    - change ((c :: d :: l) ++ [byte_of 10]) with (c :: d :: (l ++ [byte_of 10])). rewrite chomp_two.
      destruct (l ++ [byte_of 10]) as [|e r] eqn:E; [destruct l; discriminate|]. rewrite <- E. clear E e r.
      change (d :: l ++ [byte_of 10]) with ((d :: l) ++ [byte_of 10]). rewrite IH by (intros I; apply O; now right).
      change (rev (c :: d :: l)) with (rev (d :: l) ++ [c]).
      destruct (rev (d :: l)) as [|e r] eqn:E.
      { apply (f_equal (@length _)) in E. rewrite rev_length in E. discriminate. }
      cbn [app]. destruct (beqb e cr).
      + rewrite rev_app_distr. reflexivity.
      + reflexivity. }
  rewrite G by exact O. destruct C as [l|l N].
  - rewrite rev_app_distr. cbn [rev app]. change (beqb (byte_of 13) cr) with true. cbv iota. apply rev_involutive.
  - destruct (rev l) as [|c l'] eqn:E.
    + apply (f_equal (@rev _)) in E. rewrite rev_involutive in E. rewrite E. reflexivity.
    + destruct (beqb c cr) eqn:Ec; [|reflexivity]. apply beqb_eq in Ec. exfalso. apply (N (rev l')).
      apply (f_equal (@rev _)) in E. rewrite rev_involutive in E. rewrite E. cbn [rev]. rewrite Ec. reflexivity.
Qed.
Lemma chomp_end l t : content_is l t -> one_line l -> chomp l = t.
Proof.
  intros C O.
  assert (G : forall l, one_line l -> chomp l =
              match rev l with c :: l' => if beqb c cr then rev l' else l | [] => [] end).
  { clear. induction l as [|c l IH]; intros O; [reflexivity|].
    assert (Hc : beqb c lf = false) by (apply beqb_neq; intros ->; apply O; now left).
    destruct l as [|d l].
    - cbn [chomp rev app]. rewrite Hc. reflexivity.
    - assert (E1 : chomp (c :: d :: l) = c :: chomp (d :: l)).
      { rewrite chomp_two. destruct l; [|reflexivity].
        assert (Hd : beqb d lf = false) by (apply beqb_neq; intros ->; apply O; right; now left).
        rewrite Hd, andb_false_r. reflexivity. }
      rewrite E1, IH by (intros I; apply O; now right).
      change (rev (c :: d :: l)) with (rev (d :: l) ++ [c]).
      destruct (rev (d :: l)) as [|e r] eqn:E.
      { apply (f_equal (@length _)) in E. rewrite rev_length in E. discriminate. }
      cbn [app]. destruct (beqb e cr); [rewrite rev_app_distr|]; reflexivity. }
  rewrite G by exact O. destruct C as [l|l N].
  - rewrite rev_app_distr. cbn [rev app]. change (beqb (byte_of 13) cr) with true. cbv iota. apply rev_involutive.
  - destruct (rev l) as [|c l'] eqn:E.
    + apply (f_equal (@rev _)) in E. rewrite rev_involutive in E. rewrite E. reflexivity.
    + destruct (beqb c cr) eqn:Ec; [|reflexivity]. apply beqb_eq in Ec. exfalso. apply (N (rev l')).
      apply (f_equal (@rev _)) in E. rewrite rev_involutive in E. rewrite E. cbn [rev]. rewrite Ec. reflexivity.
Qed.

(** A line with or without its newline. *)
Definition ended (p l : bytes) : Prop := p = l ++ [byte_of 10] \/ p = l.
Lemma chomp_ended p l t : ended p l -> content_is l t -> one_line l -> chomp p = t.
Proof. intros [->| ->]; [apply chomp_lf|apply chomp_end]. Qed.
Lemma idle_ignored p l : ended p l -> idle_line l -> ignored_line p = true.
Proof.
  intros E I. unfold ignored_line.
  assert (G : drop_while is_space p = [] \/ exists b, drop_while is_space p = "#"%char :: b).
  { destruct I as [l W|w l W]; apply whites in W.
    - left. destruct E as [->| ->].
      + rewrite drop_all by exact W. reflexivity.
      + rewrite <- (app_nil_r l), drop_all by exact W. reflexivity.
    - right. destruct E as [->| ->].
      + rewrite <- app_assoc, drop_all by exact W. eexists. reflexivity.
      + rewrite drop_all by exact W. eexists. reflexivity. }
  destruct G as [-> | (b & ->)]; reflexivity.
Qed.
Lemma starting_not p l : ended p l -> starting_line l -> ignored_line p = false /\ continues_line p = false.
Proof.
  intros E (c & l' & -> & W & H). apply not_white in W. apply beqb_neq in H.
  assert (G : exists b, p = c :: b) by (destruct E as [->| ->]; eexists; reflexivity).
  destruct G as (b & ->). unfold ignored_line, continues_line. cbn [drop_while]. rewrite W. auto.
Qed.
Lemma continuation_adds p l a : ended p l -> continuation l a -> one_line l ->
  ignored_line p = false /\ continues_line p = true /\ chomp (drop_while is_space p) = a.
Proof.
  intros E (w & t & W & Nw & S & C & ->) O. apply whites in W.
  destruct S as (c & t' & -> & Wc & H). apply not_white in Wc. apply beqb_neq in H.
  assert (G : exists q, p = w ++ q /\ ended q (c :: t')).
  { destruct E as [->| ->].
    - exists ((c :: t') ++ [byte_of 10]). split; [now rewrite app_assoc|now left].
    - exists (c :: t'). split; [reflexivity|now right]. }
  destruct G as (q & -> & Eq).
  assert (Gq : exists b, q = c :: b) by (destruct Eq as [->| ->]; eexists; reflexivity).
  assert (D : drop_while is_space (w ++ q) = q).
  { rewrite drop_all by exact W. destruct Gq as (b & ->). apply drop_stop, Wc. }
  split.
  - unfold ignored_line. rewrite D. destruct Gq as (b & ->). exact H.
  - split.
    + destruct w as [|x w]; [contradiction|]. apply Forall_inv in W. exact W.
    + rewrite D. apply (chomp_ended q (c :: t') a Eq C). intros I. apply O. apply in_or_app. now right.
Qed.

Definition texts (ls : list logical) : list bytes := map lg_text ls.

Lemma each_idle ps : forall ls n current, Forall2 ended ps ls -> Forall idle_line ls -> forall qs,
  each_line (ps ++ qs) n current = each_line qs (n + N.of_nat (length ps)) current.
Proof.
  induction ps as [|p ps IH]; intros ls n current E F qs.
  - cbn [app length]. change (N.of_nat 0) with 0. rewrite N.add_0_r. reflexivity.
  - inversion E as [|? l ? ls' E1 E2]; subst. pose proof (Forall_inv F) as F1. apply Forall_inv_tail in F.
    cbn [app each_line]. rewrite (idle_ignored p l E1 F1).
    rewrite (IH ls' (n + 1) current E2 F qs). f_equal. cbn [length]. lia.
Qed.
Lemma each_continued ls added : continued ls added -> forall ps n text, Forall2 ended ps ls ->
  Forall one_line ls -> forall qs,
  each_line (ps ++ qs) n (Some text) = each_line qs (n + N.of_nat (length ps)) (Some (text ++ added)).
Proof.
  induction 1 as [|l ls t I C IH|l ls a t I C IH]; intros ps n text E O qs.
  - inversion E; subst. cbn [app length]. change (N.of_nat 0) with 0. rewrite N.add_0_r, app_nil_r. reflexivity.
  - inversion E as [|p ? ps' ? E1 E2]; subst. apply Forall_inv_tail in O.
    cbn [app each_line]. rewrite (idle_ignored p l E1 I). rewrite (IH ps' (n + 1) text E2 O qs).
    f_equal. cbn [length]. lia.
  - inversion E as [|p ? ps' ? E1 E2]; subst. pose proof (Forall_inv O) as O1. apply Forall_inv_tail in O.
    destruct (continuation_adds p l a E1 I O1) as (H1 & H2 & H3).
    cbn [app each_line]. rewrite H1, H2, H3. rewrite (IH ps' (n + 1) _ E2 O qs).
    rewrite <- !app_assoc. f_equal. cbn [length]. lia.
Qed.
Lemma each_logical ls out : logical_lines ls out -> forall ps n current, Forall2 ended ps ls ->
  Forall one_line ls ->
  texts (each_line ps n current) = match current with Some c => c :: out | None => out end.
Proof.
  induction 1 as [ls I|idle first text more added rest out I S C M L IH]; intros ps n current E O.
  - rewrite <- (app_nil_r ps), (each_idle ps ls n current E I). cbn [each_line]. destruct current; reflexivity.
  - apply Forall2_app_inv_r in E as (p1 & p2 & E1 & E2 & ->).
    inversion E2 as [|p ? p3 ? E3 E4]; subst. apply Forall2_app_inv_r in E4 as (p4 & p5 & E4 & E5 & ->).
    apply Forall_app in O as (_ & O). pose proof (Forall_inv O) as O1. apply Forall_inv_tail in O.
    apply Forall_app in O as (O2 & O3).
    rewrite (each_idle p1 idle n current E1 I).
    cbn [each_line]. destruct (starting_not p first E3 S) as (H1 & H2). rewrite H1, H2.
    rewrite (chomp_ended p first text E3 C O1).
    destruct current as [c|].
    + cbn [texts map lg_text]. f_equal. rewrite (each_continued more added M p4 _ text E4 O2 p5).
      apply (IH p5 _ (Some (text ++ added)) E5 O3).
    + rewrite (each_continued more added M p4 _ text E4 O2 p5).
      apply (IH p5 _ (Some (text ++ added)) E5 O3).
Qed.

Lemma ended_file ls last : Forall2 ended (map (fun l => l ++ [byte_of 10]) ls ++ match last with [] => [] | _ => [last] end)
                                   (ls ++ match last with [] => [] | _ => [last] end).
Proof.
  apply Forall2_app.
  - induction ls as [|l ls IH]; constructor; [now left|exact IH].
  - destruct last; constructor; [now right|constructor].
Qed.
Lemma lines_file ls last out : Forall one_line ls -> one_line last ->
  logical_lines (ls ++ match last with [] => [] | _ => [last] end) out -> texts (lines_of (file ls last)) = out.
Proof.
  intros F L H. unfold lines_of. rewrite (physical_file ls last F L).
  apply (each_logical _ _ H _ 0 None (ended_file ls last)).
  apply Forall_app. split; [exact F|]. destruct last; repeat constructor. exact L.
Qed.

(** Numbers, when every line is a logical line. *)
Lemma each_numbers ls : Forall starting_line ls -> forall ps n text, Forall2 ended ps ls ->
  map lg_number (each_line ps n (Some text)) = map (fun k => n + N.of_nat k) (seq 0 (S (length ls))) /\
  map lg_lineno (each_line ps n (Some text)) = map (fun k => n + N.of_nat k) (seq 1 (length ls)) ++ [n + N.of_nat (length ls)].
Proof.
  induction 1 as [|l ls S F IH]; intros ps n text E.
  - inversion E; subst. cbn [each_line map seq length app lg_number lg_lineno].
    change (N.of_nat 0) with 0. rewrite N.add_0_r. auto.
  - inversion E as [|p ? ps' ? E1 E2]; subst. destruct (starting_not p l E1 S) as (H1 & H2).
    cbn [each_line]. rewrite H1, H2. destruct (IH ps' (n + 1) (chomp p) E2) as (A & B).
    cbn [map lg_number lg_lineno]. rewrite A, B. split.
    + cbn [length]. change (seq 0 (Datatypes.S (Datatypes.S (length ls)))) with (O :: seq 1 (Datatypes.S (length ls))).
      rewrite <- (seq_shift _ 0). cbn [map]. f_equal; [lia|]. rewrite map_map. apply map_ext. intros k. lia.
    + cbn [length]. change (seq 1 (Datatypes.S (length ls))) with (1%nat :: seq 2 (length ls)).
      rewrite <- (seq_shift _ 1). cbn [map app]. rewrite map_map. f_equal.
      apply (f_equal2 (@app N)); [apply map_ext; intros k; lia|]. apply (f_equal (fun x => [x])). lia.
Qed.

(** *** Statements *)

Lemma after_pattern_reads f s a : flags f -> spaces s -> begins_text a -> after_pattern (f ++ s ++ a) = Some (f, a).
Proof.
  intros F (Ns & W) (c & a' & -> & Wc). apply flags_true in F. apply not_white in Wc.
  destruct s as [|d s]; [contradiction|]. pose proof (Forall_inv W) as Wd. apply Forall_inv_tail in W.
  unfold after_pattern. rewrite take_all, drop_all by exact F. cbn [app].
  rewrite take_stop, drop_stop by (apply white_not_flag, Wd). apply is_space_white in Wd. rewrite Wd.
  apply whites in W. rewrite drop_all by exact W. rewrite drop_stop by exact Wc. rewrite app_nil_r. reflexivity.
Qed.
Lemma after_pattern_shape b f a : after_pattern b = Some (f, a) ->
  exists s, b = f ++ s ++ a /\ flags f /\ spaces s /\ a <> [].
Proof.
  unfold after_pattern. intros H. pose proof (take_drop is_flag b) as E. pose proof (take_forall is_flag b) as F.
  destruct (drop_while is_flag b) as [|c r]; [discriminate|]. destruct (is_space c) eqn:Ec; [|discriminate].
  apply flags_true in F. pose proof (take_drop is_space r) as Er. pose proof (take_forall is_space r) as Fr.
  apply whites in Fr. apply is_space_white in Ec.
  destruct (drop_while is_space r) as [|d r'] eqn:D.
  - destruct r as [|d r']; [discriminate|]. injection H as <- <-. rewrite app_nil_r in Er.
    assert (Hl : (length (d :: r') - 1 <= length (d :: r'))%nat) by lia.
    exists (c :: firstn (length (d :: r') - 1) (d :: r')). repeat apply conj.
    + rewrite E at 1. f_equal. cbn [app]. f_equal. symmetry. apply firstn_skipn.
    + exact F.
    + discriminate.
    + constructor; [exact Ec|]. rewrite <- Er in Fr. rewrite <- (firstn_skipn (length (d :: r') - 1) (d :: r')) in Fr.
      apply Forall_app in Fr. apply Fr.
    + intros N. apply (f_equal (@length _)) in N. rewrite skipn_length in N. cbn [length] in N. lia.
  - injection H as <- <-. exists (c :: take_while is_space r). repeat apply conj.
    + rewrite E at 1. f_equal. cbn [app]. f_equal. exact Er.
    + exact F.
    + discriminate.
    + constructor; [exact Ec|exact Fr].
    + discriminate.
Qed.

Section Greedy.
  Context {A : Type} (after : bytes -> option A).
  Lemma greedy_none b : (forall x y, b = x ++ "/"%char :: y -> after y = None) -> greedy after b = None.
  Proof.
    induction b as [|c b IH]; intros H; [reflexivity|]. cbn [greedy].
    rewrite IH by (intros x y ->; apply (H (c :: x) y eq_refl)).
    destruct (beqb c "/") eqn:E; [|reflexivity]. apply beqb_eq in E as ->. rewrite (H [] b eq_refl). reflexivity.
  Qed.
  Lemma greedy_last p b a : after b = Some a -> (forall x y, b = x ++ "/"%char :: y -> after y = None) ->
    greedy after (p ++ "/"%char :: b) = Some (p, a).
  Proof.
    intros H N. induction p as [|c p IH].
    - cbn [app greedy]. rewrite (greedy_none b N). rewrite (proj2 (beqb_eq _ _) eq_refl), H. reflexivity.
    - cbn [app greedy]. rewrite IH. reflexivity.
  Qed.
  Lemma greedy_shape b p a : greedy after b = Some (p, a) -> exists r, b = p ++ "/"%char :: r /\ after r = Some a.
  Proof.
    revert p. induction b as [|c b IH]; intros p H; [discriminate|]. cbn [greedy] in H.
    destruct (greedy after b) as [[p' a']|].
    - injection H as <- ->. destruct (IH p' eq_refl) as (r & -> & Hr). exists r. auto.
    - destruct (beqb c "/") eqn:E; [|discriminate]. apply beqb_eq in E as ->.
      destruct (after b) as [a'|] eqn:Ea; [|discriminate]. injection H as <- ->. exists b. auto.
  Qed.
End Greedy.

Lemma opening_bang negated b : opening (bang negated ++ "/"%char :: b) = Some (negated, b).
Proof. destruct negated; reflexivity. Qed.
Lemma opening_shape b n r : opening b = Some (n, r) -> b = bang n ++ "/"%char :: r.
Proof.
  unfold opening. destruct b as [|c b]; [discriminate|]. destruct (beqb c "/") eqn:E.
  - apply beqb_eq in E as ->. intros H. injection H as <- ->. reflexivity.
  - destruct (beqb c "!") eqn:E'; [|discriminate]. apply beqb_eq in E' as ->.
    destruct b as [|d b]; [discriminate|]. destruct (beqb d "/") eqn:E''; [|discriminate].
    apply beqb_eq in E'' as ->. intros H. injection H as <- ->. reflexivity.
Qed.

Lemma no_slash_flags f x y : flags f -> f <> x ++ "/"%char :: y.
Proof.
  intros F ->. unfold flags in F. apply Forall_app in F as (_ & F). apply Forall_inv in F.
  destruct F as [H|[H|H]]; discriminate.
Qed.
Lemma not_white_bang negated b : is_space (match bang negated ++ "/"%char :: b with c :: _ => c | [] => "x"%char end) = false.
Proof. destruct negated; reflexivity. Qed.
Lemma drop_bang negated b : drop_while is_space (bang negated ++ "/"%char :: b) = bang negated ++ "/"%char :: b.
Proof. destruct negated; reflexivity. Qed.

Lemma rule_slash x y f s a : f ++ s ++ a = x ++ "/"%char :: y -> flags f -> Forall white s ->
  exists x', a = x' ++ "/"%char :: y.
Proof.
  intros E F W. revert x E. unfold flags in F.
  assert (G : forall l x, Forall (fun c => c <> "/"%char) l -> l ++ a = x ++ "/"%char :: y -> exists x', a = x' ++ "/"%char :: y).
  { intros l x H. revert x. induction H as [|c l N H IH]; intros x E; [eexists; exact E|].
    destruct x as [|d x]; cbn [app] in E.
    - injection E as E _. contradiction.
    - injection E as _ E. exact (IH x E). }
  intros x E. rewrite app_assoc in E. apply (G (f ++ s) x); [|exact E].
  apply Forall_app. split.
  - eapply Forall_impl; [|exact F]. intros c [->|[->| ->]]; discriminate.
  - eapply Forall_impl; [|exact W]. intros c [->|[->|[->|[->|[->| ->]]]]]; discriminate.
Qed.

Lemma if_line_bang negated b : if_line (bang negated ++ "/"%char :: b) = None.
Proof. destruct negated; [|destruct b as [|c [|d b]]]; try reflexivity. destruct b; reflexivity. Qed.

Lemma written_read s l : written s l -> statement_of l = Some s.
Proof.
  intros W. unfold statement_of. destruct W as [negated p f s Hs Hf|negated p f s a Hf Hs Ha Hc|s Hs].
  - destruct Hs as (Ns & W). destruct s as [|d s]; [contradiction|]. pose proof (Forall_inv W) as Wd.
    apply Forall_inv_tail in W. apply is_space_white in Wd. apply whites in W.
    assert (E : if_line (lit "if" ++ (d :: s) ++ bang negated ++ lit "/" ++ p ++ lit "/" ++ f) = Some (SIf negated p f)).
    { unfold if_line. change (lit "if" ++ (d :: s) ++ bang negated ++ lit "/" ++ p ++ lit "/" ++ f)
        with ("i"%char :: "f"%char :: d :: (s ++ bang negated ++ "/"%char :: p ++ "/"%char :: f)).
      rewrite drop_stop by reflexivity. rewrite Wd. cbn [beqb Ascii.eqb andb Bool.eqb].
      change (beqb "i" "i" && beqb "f" "f" && true) with true. cbv iota.
      rewrite drop_all by exact W. rewrite drop_bang, opening_bang.
      rewrite (greedy_last only_flags p f f).
      - reflexivity.
      - unfold only_flags. apply flags_true in Hf. rewrite (proj2 (forallb_forall _ _)); [reflexivity|].
        apply Forall_forall, Hf.
      - intros x y E. destruct (no_slash_flags f x y Hf E). }
    rewrite E. reflexivity.
  - change (lit "/" ++ p ++ lit "/" ++ f ++ s ++ a) with ("/"%char :: p ++ "/"%char :: f ++ s ++ a).
    rewrite if_line_bang. unfold rule_line. rewrite drop_bang, opening_bang.
    rewrite (greedy_last after_pattern p (f ++ s ++ a) (f, a)).
    + reflexivity.
    + apply after_pattern_reads; assumption.
    + intros x y E. destruct (after_pattern y) as [[f' a']|] eqn:Ey; [|reflexivity].
      destruct (after_pattern_shape y f' a' Ey) as (s' & -> & F' & S' & Na).
      destruct (rule_slash x _ f s a E Hf (proj2 Hs)) as (x' & Ex).
      destruct (Na (Hc x' f' s' a' Ex F' S')).
  - apply whites in Hs.
    assert (E : endif_prefix (lit "endif") (lit "endif" ++ s) = true).
    { cbn [endif_prefix lit list_ascii_of_string app]. rewrite !beqb_refl. cbn [andb].
      unfold all_space. apply forallb_forall, Forall_forall, Hs. }
    rewrite E. reflexivity.
Qed.

Lemma endif_shape l : endif_prefix (lit "endif") l = true -> exists s, l = lit "endif" ++ s /\ Forall white s.
Proof.
  intros H.
  assert (G : forall e l, endif_prefix e l = true -> exists s, l = e ++ s /\ Forall white s).
  { clear. induction e as [|c e IH]; intros l H.
    - exists l. split; [reflexivity|]. apply whites. apply Forall_forall. apply forallb_forall, H.
    - destruct l as [|d l]; [discriminate|]. cbn [endif_prefix] in H. apply andb_true_iff in H as (E & H).
      apply beqb_eq in E as ->. destruct (IH l H) as (s & -> & W). exists s. auto. }
  exact (G _ _ H).
Qed.
Lemma read_shaped s l : statement_of l = Some s -> shaped s l.
Proof.
  unfold statement_of. intros H.
  pose proof (take_drop is_space l) as El. pose proof (take_forall is_space l) as Wl. apply whites in Wl.
  destruct (if_line l) as [s'|] eqn:Ei.
  - injection H as ->. unfold if_line in Ei.
    destruct (drop_while is_space l) as [|c [|d [|e b]]]; try discriminate.
    destruct (beqb c "i" && beqb d "f" && is_space e) eqn:E; [|discriminate].
    apply andb_true_iff in E as (E & Ee). apply andb_true_iff in E as (Ec & Ed).
    apply beqb_eq in Ec as ->. apply beqb_eq in Ed as ->.
    destruct (opening (drop_while is_space b)) as [[n r]|] eqn:Eo; [|discriminate].
    apply opening_shape in Eo. destruct (greedy only_flags r) as [[p f]|] eqn:Eg; [|discriminate].
    injection Ei as <-. destruct (greedy_shape only_flags r p f Eg) as (r' & -> & Er).
    unfold only_flags in Er. destruct (forallb is_flag r') eqn:Ef; [|discriminate]. injection Er as ->.
    rewrite El. rewrite (take_drop is_space b), Eo.
    apply (shaped_if n p f (e :: take_while is_space b)).
    + exact Wl.
    + split; [discriminate|]. constructor; [apply is_space_white, Ee|]. apply whites, take_forall.
    + apply flags_true, Forall_forall. apply forallb_forall, Ef.
  - destruct (rule_line l) as [s'|] eqn:Er.
    + injection H as ->. unfold rule_line in Er.
      destruct (opening (drop_while is_space l)) as [[n r]|] eqn:Eo; [|discriminate].
      apply opening_shape in Eo. destruct (greedy after_pattern r) as [[p [f a]]|] eqn:Eg; [|discriminate].
      injection Er as <-. destruct (greedy_shape after_pattern r p (f, a) Eg) as (r' & -> & Ea).
      destruct (after_pattern_shape r' f a Ea) as (s & -> & F & S & Na).
      rewrite El, Eo. apply (shaped_rule n p f s); assumption.
    + destruct (endif_prefix (lit "endif") l) eqn:Ee; [|discriminate]. injection H as <-.
      destruct (endif_shape l Ee) as (s & -> & W). constructor. exact W.
Qed.

(** *** Variables *)

Lemma number_acc s : forall acc, number acc s = fold_left (fun v c => v * 10 + (code c - 48)) s acc.
Proof. induction s as [|c s IH]; intros acc; [reflexivity|]. cbn [number fold_left]. apply IH. Qed.
Lemma decimal_read n : number 0 (ConnectionSpec.decimal n) = n /\
  Forall (fun c => is_digit c = true) (ConnectionSpec.decimal n) /\ ConnectionSpec.decimal n <> [].
Proof.
  destruct (ConnectionSpecProofs.decimal_spec n) as (H & F & N). split; [|split; [|exact N]].
  - rewrite number_acc, ConnectionSpecProofs.digits_value_from, H. lia.
  - eapply Forall_impl; [|exact F]. intros c Hc. apply is_digit_iff. exact Hc.
Qed.

Lemma digit_not_special c : is_digit c = true -> beqb c "$" = false.
Proof. intros H. apply beqb_neq. intros ->. discriminate H. Qed.
Lemma digits_stop ps : (forall c, next_char ps = Some c -> ~ digit c) ->
  take_while is_digit (concat (map shown ps)) = [] /\ drop_while is_digit (concat (map shown ps)) = concat (map shown ps).
Proof.
  intros H. destruct ps as [|p ps]; [split; reflexivity|].
  assert (G : exists c b, concat (map shown (p :: ps)) = c :: b /\ next_char (p :: ps) = Some c).
  { destruct p; cbn [map concat shown]; eexists; eexists; split; reflexivity. }
  destruct G as (c & b & -> & Hc). specialize (H c Hc).
  assert (E : is_digit c = false) by (destruct (is_digit c) eqn:E; [apply is_digit_iff in E; contradiction|reflexivity]).
  split; [apply take_stop|apply drop_stop]; exact E.
Qed.

Lemma group_small groups n : n < 2147483648 -> group groups (ConnectionSpec.decimal n) = Some (group_text groups n).
Proof.
  intros H. unfold group. destruct (decimal_read n) as (E & _ & _). rewrite E.
  rewrite (proj2 (N.ltb_lt _ _) H). reflexivity.
Qed.

Lemma bare_variable n b : take_while is_digit b = [] -> drop_while is_digit b = b ->
  variable_of (ConnectionSpec.decimal n ++ b) = Some (VGroup (ConnectionSpec.decimal n), b).
Proof.
  intros T D. destruct (decimal_read n) as (_ & F & N).
  destruct (ConnectionSpec.decimal n) as [|c d] eqn:E; [contradiction|].
  unfold variable_of. change ((c :: d) ++ b) with (c :: (d ++ b)). cbv iota beta.
  pose proof (Forall_inv F) as Fc. rewrite (digit_not_special c Fc), Fc.
  change (c :: d ++ b) with ((c :: d) ++ b). rewrite take_all, drop_all by exact F.
  rewrite T, D, app_nil_r. reflexivity.
Qed.
Lemma closed_variable n close b : is_digit close = false ->
  closed close (ConnectionSpec.decimal n ++ close :: b) = Some (ConnectionSpec.decimal n, b).
Proof.
  intros Hc. destruct (decimal_read n) as (_ & F & N). unfold closed.
  rewrite take_all, drop_all by exact F. rewrite take_stop, drop_stop by exact Hc. rewrite app_nil_r.
  destruct (ConnectionSpec.decimal n); [contradiction|]. rewrite beqb_refl. reflexivity.
Qed.
Lemma lone_variable ps : (forall c, next_char ps = Some c ->
    c <> "$"%char /\ c <> "("%char /\ c <> "{"%char /\ ~ digit c) ->
  variable_of (concat (map shown ps)) = None.
Proof.
  intros H. destruct ps as [|p ps]; [reflexivity|].
  assert (G : exists c b, concat (map shown (p :: ps)) = c :: b /\ next_char (p :: ps) = Some c).
  { destruct p; cbn [map concat shown]; eexists; eexists; split; reflexivity. }
  destruct G as (c & b & -> & Hc). destruct (H c Hc) as (H1 & H2 & H3 & H4). unfold variable_of.
  apply beqb_neq in H1, H2, H3. rewrite H1, H2, H3.
  replace (is_digit c) with false; [reflexivity|].
  destruct (is_digit c) eqn:E; [apply is_digit_iff in E; contradiction|reflexivity].
Qed.

Lemma expand_step fuel groups b : expand (S fuel) groups ("$"%char :: b) =
  match variable_of b with
  | Some (VDollar, r) => option_map (cons "$"%char) (expand fuel groups r)
  | Some (VGroup d, r) =>
      match group groups d, expand fuel groups r with
      | Some g, Some e => Some (g ++ e)
      | _, _ => None
      end
  | None => option_map (cons "$"%char) (expand fuel groups b)
  end.
Proof. reflexivity. Qed.
Lemma expand_pieces groups ps : distinct ps -> forall fuel, (length (concat (map shown ps)) <= fuel)%nat ->
  expand fuel groups (concat (map shown ps)) = Some (concat (map (meant groups) ps)).
Proof.
  induction ps as [|p ps IH]; intros D fuel L.
  - destruct fuel; reflexivity.
  - destruct D as (Dp & D). specialize (IH D). cbn [map concat] in L |- *. rewrite app_length in L.
    destruct fuel as [|fuel]; [destruct p; cbn [shown length lit list_ascii_of_string app] in L; lia|].
    destruct p as [c| |n|n|n|]; cbn [shown meant] in *.
    + cbn [app expand]. apply beqb_neq in Dp. rewrite Dp. rewrite IH; [reflexivity|].
      cbn [length] in L. lia.
    + change (lit "$$" ++ concat (map shown ps)) with ("$"%char :: "$"%char :: concat (map shown ps)).
      rewrite expand_step. unfold variable_of. rewrite beqb_refl. rewrite IH; [reflexivity|].
      cbn [length lit list_ascii_of_string] in L. lia.
    + change ((lit "$" ++ ConnectionSpec.decimal n) ++ concat (map shown ps))
        with ("$"%char :: (ConnectionSpec.decimal n ++ concat (map shown ps))).
      rewrite expand_step. destruct Dp as (Dn & Dp). destruct (digits_stop ps Dp) as (T & R).
      rewrite (bare_variable n _ T R), (group_small groups n Dn). rewrite IH; [reflexivity|].
      rewrite app_length in L. cbn [length lit list_ascii_of_string] in L. lia.
    + rewrite <- !app_assoc. change (lit "$(" ++ ConnectionSpec.decimal n ++ lit ")" ++ concat (map shown ps))
        with ("$"%char :: "("%char :: (ConnectionSpec.decimal n ++ ")"%char :: concat (map shown ps))).
      rewrite expand_step. unfold variable_of.
      change (beqb "(" "$") with false. change (is_digit "(") with false. change (beqb "(" "(") with true. cbv iota.
      rewrite closed_variable by reflexivity. cbn [option_map]. rewrite (group_small groups n Dp).
      rewrite IH; [reflexivity|]. rewrite !app_length in L. cbn [length lit list_ascii_of_string] in L. lia.
    + rewrite <- !app_assoc. change (lit "${" ++ ConnectionSpec.decimal n ++ lit "}" ++ concat (map shown ps))
        with ("$"%char :: "{"%char :: (ConnectionSpec.decimal n ++ "}"%char :: concat (map shown ps))).
      rewrite expand_step. unfold variable_of.
      change (beqb "{" "$") with false. change (is_digit "{") with false. change (beqb "{" "(") with false.
      change (beqb "{" "{") with true. cbv iota.
      rewrite closed_variable by reflexivity. cbn [option_map]. rewrite (group_small groups n Dp).
      rewrite IH; [reflexivity|]. rewrite !app_length in L. cbn [length lit list_ascii_of_string] in L. lia.
    + change (lit "$" ++ concat (map shown ps)) with ("$"%char :: concat (map shown ps)).
      rewrite expand_step, (lone_variable ps Dp). rewrite IH; [reflexivity|].
      cbn [length lit list_ascii_of_string] in L. lia.
Qed.
Lemma expand_plain groups a : ~ In "$"%char a -> forall fuel, expand fuel groups a = Some a.
Proof.
  induction a as [|c a IH]; intros N fuel; [destruct fuel; reflexivity|].
  destruct fuel as [|fuel]; [reflexivity|]. cbn [expand].
  replace (beqb c "$") with false by (symmetry; apply beqb_neq; intros ->; apply N; now left).
  rewrite IH by (intros I; apply N; now right). reflexivity.
Qed.

(** *** Tables *)

Section Tables.
  Variable valid : regexp -> bool.
  Variable matches : regexp -> bytes -> option (list (option bytes)).

  Definition rule_entry (n : bool) (p f a : bytes) : entry := mk_entry n (create_regexp p f) (Action a).
  Definition block_entry (n : bool) (p f : bytes) (t : nat) : entry := mk_entry n (create_regexp p f) (Table t).

  Fixpoint build (t : table) (h : heap) (current : nat) : heap * nat :=
    match t with
    | TEnd => (h, current)
    | TRule n p f a next => build next (push h current (rule_entry n p f a)) current
    | TBlock n p f body next =>
        let new := length h in
        let '(h1, _) := build body (push h current (block_entry n p f new) ++ [[]]) new in
        build next h1 new
    end.

  Lemma parse_build t : compiles valid t -> forall h current tables ls ms, map (fun l => statement_of (lg_text l)) ls = map Some (statements t) ->
    parse_lines valid h (Some current) tables (ls ++ ms) =
    let '(h', current') := build t h current in parse_lines valid h' (Some current') tables ms.
  Proof.
    induction t as [|n p f a next IH|n p f body IHb next IHn]; intros C h current tables ls ms E.
    - destruct ls; [reflexivity|discriminate].
    - destruct C as (V & C). destruct ls as [|l ls]; [discriminate|]. cbn [statements map] in E.
      assert (E1 : statement_of (lg_text l) = Some (SRule n p f a)) by congruence.
      assert (E2 : map (fun l => statement_of (lg_text l)) ls = map Some (statements next)) by congruence.
      cbn [app parse_lines build]. rewrite E1, V. apply (IH C); assumption.
    - destruct C as (V & Cb & Cn). destruct ls as [|l ls]; [discriminate|]. cbn [statements map] in E.
      assert (E1 : statement_of (lg_text l) = Some (SIf n p f)) by congruence.
      assert (E2 : map (fun l => statement_of (lg_text l)) ls = map Some (statements body ++ SEndif :: statements next)) by congruence.
      clear E. rewrite map_app in E2. apply map_eq_app in E2 as (l1 & l2 & -> & E2 & E3).
      destruct l2 as [|l' l2]; [discriminate|]. cbn [map] in E3.
      assert (E4 : statement_of (lg_text l') = Some SEndif) by congruence.
      assert (E5 : map (fun l => statement_of (lg_text l)) l2 = map Some (statements next)) by congruence.
      cbn [app parse_lines build]. rewrite E1, V. rewrite <- app_assoc. fold (block_entry n p f (length h)).
      rewrite (IHb Cb _ (length h) (length h :: tables) l1 _ E2).
      destruct (build body (push h current (block_entry n p f (length h)) ++ [[]]) (length h)) as [h1 c1].
      cbn [app parse_lines]. rewrite E4. apply (IHn Cn). exact E5.
  Qed.

  (** The entries [es] stand for the table [t]; the arrays they refer to are numbered from [lo] to
      below [hi], inner ones higher. *)
  Inductive stands (h : heap) (hi : nat) : nat -> list entry -> table -> Prop :=
  | stands_end lo : stands h hi lo [] TEnd
  | stands_rule lo n p f a es next : stands h hi lo es next ->
      stands h hi lo (rule_entry n p f a :: es) (TRule n p f a next)
  | stands_block lo n p f u es body next : (lo <= u < hi)%nat ->
      stands h hi (S u) (nth u h []) body -> stands h hi lo es next ->
      stands h hi lo (block_entry n p f u :: es) (TBlock n p f body next).

  Lemma stands_lower h hi lo lo' es t : (lo' <= lo)%nat -> stands h hi lo es t -> stands h hi lo' es t.
  Proof.
    intros L S. revert lo' L. induction S; intros lo' L; constructor; auto; lia.
  Qed.
  Lemma stands_frame h h' hi hi' lo es t : (hi <= hi')%nat ->
    (forall u, (lo <= u < hi)%nat -> nth u h' [] = nth u h []) ->
    stands h hi lo es t -> stands h' hi' lo es t.
  Proof.
    intros L F S. induction S as [lo|lo n p f a es next S IH|lo n p f u es body next U Sb IHb Sn IHn].
    - constructor.
    - constructor. auto.
    - constructor; [lia| |auto]. rewrite F by exact U. apply IHb. intros v V. apply F. lia.
  Qed.
  Lemma stands_app h hi lo es t es' t' : stands h hi lo es t -> stands h hi lo es' t' ->
    stands h hi lo (es ++ es') (followed t t').
  Proof.
    intros S S'. induction S; cbn [app followed]; [exact S'|constructor; auto|constructor; auto].
  Qed.

  Lemma push_length h t e : (t < length h)%nat -> length (push h t e) = length h.
  Proof.
    intros L. unfold push. destruct (nth_error h t) as [es|] eqn:E; [|apply nth_error_None in E; lia].
    rewrite !app_length, firstn_length, skipn_length. cbn [length]. lia.
  Qed.
  Lemma push_same h t e : (t < length h)%nat -> nth t (push h t e) [] = nth t h [] ++ [e].
  Proof.
    intros L. unfold push. destruct (nth_error h t) as [es|] eqn:E; [|apply nth_error_None in E; lia].
    rewrite app_nth2; rewrite firstn_length; [|lia]. replace (t - Nat.min t (length h))%nat with O by lia.
    cbn [app nth]. rewrite (nth_error_nth h t [] E). reflexivity.
  Qed.
  Lemma push_other h t e u : (t < length h)%nat -> u <> t -> nth u (push h t e) [] = nth u h [].
  Proof.
    intros L N. unfold push. destruct (nth_error h t) as [es|] eqn:E; [|apply nth_error_None in E; lia].
    destruct (Nat.lt_ge_cases u t) as [U|U].
    - rewrite app_nth1; [|rewrite firstn_length; lia].
      rewrite <- (firstn_skipn t h) at 2. rewrite app_nth1; [reflexivity|rewrite firstn_length; lia].
    - rewrite app_nth2; rewrite firstn_length; [|lia]. replace (Nat.min t (length h)) with t by lia.
      cbn [app]. destruct (u - t)%nat as [|k] eqn:K; [lia|]. cbn [nth].
      rewrite <- (firstn_skipn (S t) h) at 2. rewrite app_nth2; rewrite firstn_length; [|lia].
      replace (Nat.min (S t) (length h)) with (S t) by lia. f_equal. lia.
  Qed.

  Record built (h : heap) (current : nat) (t : table) (h' : heap) : Prop := {
    built_grows : (length h <= length h')%nat;
    built_others : forall u, (u < length h)%nat -> u <> current -> nth u h' [] = nth u h [];
    built_here : exists es, nth current h' [] = nth current h [] ++ es /\
                            stands h' (length h') (length h) es t
  }.

  Lemma build_builds t : forall h current, (current < length h)%nat ->
    built h current (swallowed t) (fst (build t h current)) /\
    (snd (build t h current) < length (fst (build t h current)))%nat.
  Proof.
    induction t as [|n p f a next IH|n p f body IHb next IHn]; intros h current L; cbn [build swallowed].
    - cbn [fst snd]. split; [|exact L]. constructor; [apply le_n|reflexivity|]. exists []. split; [now rewrite app_nil_r|constructor].
    - pose proof (push_length h current (rule_entry n p f a) L) as PL.
      destruct (IH (push h current (rule_entry n p f a)) current ltac:(lia)) as ([G O (es & H & S)] & B).
      split; [|exact B]. rewrite PL in *. constructor; [exact G| |].
      + intros u U N. rewrite O by assumption. apply push_other; assumption.
      + exists (rule_entry n p f a :: es). split.
        * rewrite H, push_same by exact L. rewrite <- app_assoc. reflexivity.
        * constructor. exact S.
    - set (new := length h). set (h0 := push h current (block_entry n p f new) ++ [[]]).
      pose proof (push_length h current (block_entry n p f new) L) as PL.
      assert (L0 : length h0 = S new) by (unfold h0; rewrite app_length, PL; cbn [length]; lia).
      destruct (IHb h0 new ltac:(lia)) as ([Gb Ob (eb & Hb & Sb)] & Bb).
      destruct (build body h0 new) as [h1 c1]. cbn [fst snd] in *.
      destruct (IHn h1 new ltac:(lia)) as ([Gn On (en & Hn & Sn)] & Bn).
      destruct (build next h1 new) as [h2 c2]. cbn [fst snd] in *.
      split; [|exact Bn].
      assert (N0 : nth new h0 [] = []).
      { unfold h0. rewrite app_nth2 by (rewrite PL; unfold new; lia). rewrite PL. unfold new. rewrite Nat.sub_diag. reflexivity. }
      assert (K0 : forall u, (u < new)%nat -> nth u h0 [] = nth u (push h current (block_entry n p f new)) []).
      { intros u U. unfold h0. apply app_nth1. rewrite PL. exact U. }
      constructor.
      + unfold new in *. lia.
      + intros u U N. rewrite On by (unfold new in *; lia). rewrite Ob by (unfold new in *; lia).
        rewrite K0 by exact U. apply push_other; assumption.
      + exists [block_entry n p f new]. split.
        * rewrite On by (unfold new in *; lia). rewrite Ob by (unfold new in *; lia).
          rewrite K0 by exact L. apply push_same, L.
        * apply stands_block; [unfold new in *; lia| |constructor].
          rewrite Hn, Hb, N0. cbn [app]. apply stands_app.
          -- rewrite L0 in Sb. apply (stands_frame h1 h2 (length h1) (length h2) (S new) eb _ ltac:(lia)); [|exact Sb].
             intros u U. apply On; lia.
          -- apply (stands_lower h2 (length h2) (length h1)); [lia|exact Sn].
  Qed.

  (** *** Looking up *)

  Definition matching (p f text : bytes) : option (list (option bytes)) := matches (create_regexp p f) text.
  Definition filled (a : bytes) (groups : list (option bytes)) : found :=
    match expand (length a) groups a with Some a => Found a | None => RangeError end.

  Definition search (fuel : nat) (h : heap) (text : bytes) : list entry -> found :=
    fix each (es : list entry) : found :=
      match es with
      | [] => Nothing
      | e :: es =>
          let m := matches (e_regexp e) text in
          let groups := if e_negative e then None else m in
          if xorb (e_negative e) (match m with Some _ => true | None => false end) then
            match e_target e with
            | Action a => match expand_variables a groups with
                          | Some a => Found a
                          | None => RangeError
                          end
            | Table t' =>
                match find_action matches fuel h t' text with
                | Found a => match expand_variables a groups with
                             | Some a => Found a
                             | None => RangeError
                             end
                | RangeError => RangeError
                | Nothing => each es
                end
            end
          else each es
      end.
  Lemma find_search fuel h t text : find_action matches (S fuel) h t text = search fuel h text (nth t h []).
  Proof. reflexivity. Qed.

  Lemma fires_iff n p f text :
    xorb n (match matching p f text with Some _ => true | None => false end) = true <-> fires matching n p f text.
  Proof.
    unfold fires. destruct (matching p f text); destruct n; cbn; split; intros H; try discriminate; try reflexivity; try contradiction; congruence.
  Qed.
  Lemma action_iff n p f text a : fires matching n p f text ->
    action_of matching filled n p f text a
      (match expand_variables a (if n then None else matching p f text) with Some a => Found a | None => RangeError end).
  Proof.
    intros F. destruct n; cbn in *.
    - apply action_plain. reflexivity.
    - destruct (matching p f text) as [g|] eqn:E; [|contradiction]. cbn [expand_variables].
      apply (action_filled matching filled false p f text a g eq_refl E).
  Qed.

  Lemma search_looked text h hi es t lo : stands h hi lo es t -> forall fuel, (hi - lo <= fuel)%nat ->
    looked_twice matching filled text t (search fuel h text es).
  Proof.
    intros S. induction S as [lo|lo n p f a es next S IH|lo n p f u es body next U Sb IHb Sn IHn]; intros fuel L.
    - constructor.
    - cbn [search rule_entry e_negative e_regexp e_target]. fold (matching p f text).
      destruct (xorb n (match matching p f text with Some _ => true | None => false end)) eqn:X.
      + apply fires_iff in X. apply twice_rule; [exact X|]. apply action_iff, X.
      + assert (N : ~ fires matching n p f text) by (intros F; apply fires_iff in F; congruence).
        apply twice_rule_not; [exact N|]. apply IH, L.
    - cbn [search block_entry e_negative e_regexp e_target]. fold (matching p f text).
      destruct (xorb n (match matching p f text with Some _ => true | None => false end)) eqn:X.
      + apply fires_iff in X. destruct fuel as [|fuel]; [lia|]. rewrite find_search.
        specialize (IHb fuel ltac:(lia)).
        destruct (search fuel h text (nth u h [])) as [|a|] eqn:E.
        * apply twice_block_nothing; [exact X|exact IHb|]. apply IHn, L.
        * eapply twice_block; [exact X|exact IHb|]. apply action_iff, X.
        * apply twice_block_error; [exact X|exact IHb].
      + assert (N : ~ fires matching n p f text) by (intros F; apply fires_iff in F; congruence).
        apply twice_block_not; [exact N|]. apply IHn, L.
  Qed.

  (** @table holds [t]. *)
  Definition holds (h : heap) (t : table) : Prop :=
    (1 <= length h)%nat /\ stands h (length h) 1 (nth 0 h []) t.
  Lemma holds_new : holds heap_new TEnd.
  Proof. split; [apply le_n|constructor]. Qed.
  Lemma holds_find h t text : holds h t -> looked_twice matching filled text t (find matches h text).
  Proof.
    intros (L & S). unfold find. destruct (length h) as [|k] eqn:E; [lia|]. rewrite find_search.
    apply (search_looked text h (Datatypes.S k) _ _ 1%nat S). lia.
  Qed.
  Lemma holds_build h t0 t : holds h t0 -> holds (fst (build t h 0)) (followed t0 (swallowed t)).
  Proof.
    intros (L & S). destruct (build_builds t h 0 L) as ([G O (es & H & S')] & _).
    split; [lia|]. rewrite H. apply stands_app.
    - apply (stands_frame h _ (length h) _ 1 _ _ G); [|exact S]. intros u U. apply O; lia.
    - apply (stands_lower _ _ (length h)); [lia|exact S'].
  Qed.

  Lemma parse_holds h t0 t input : holds h t0 -> compiles valid t ->
    map (fun l => statement_of (lg_text l)) (lines_of input) = map Some (statements t) ->
    exists h', parse valid h input = (h', None) /\ holds h' (followed t0 (swallowed t)).
  Proof.
    intros H C E. unfold parse. rewrite <- (app_nil_r (lines_of input)).
    rewrite (parse_build t C h 0 [] _ [] E). pose proof (holds_build h t0 t H) as B.
    destruct (build t h 0) as [h' c']. cbn [parse_lines]. exists h'. auto.
  Qed.
  (** A line that cannot be read: what was before it counts. *)
  Lemma parse_stops h t0 t input ls l ms : holds h t0 -> compiles valid t ->
    lines_of input = ls ++ l :: ms ->
    map (fun l => statement_of (lg_text l)) ls = map Some (statements t) ->
    statement_of (lg_text l) = None ->
    exists h', parse valid h input = (h', Some (BadFormat (lg_text l) (lg_lineno l))) /\
               holds h' (followed t0 (swallowed t)).
  Proof.
    intros H C E Es En. unfold parse. rewrite E, (parse_build t C h 0 [] _ _ Es).
    pose proof (holds_build h t0 t H) as B. destruct (build t h 0) as [h' c'].
    cbn [parse_lines]. rewrite En. exists h'. auto.
  Qed.
  Lemma parse_invalid h t0 t input ls l ms n p f a : holds h t0 -> compiles valid t ->
    lines_of input = ls ++ l :: ms ->
    map (fun l => statement_of (lg_text l)) ls = map Some (statements t) ->
    statement_of (lg_text l) = Some (SRule n p f a) \/ statement_of (lg_text l) = Some (SIf n p f) ->
    valid (create_regexp p f) = false ->
    exists h', parse valid h input = (h', Some (BadValue p (lg_text l) (lg_number l))) /\
               holds h' (followed t0 (swallowed t)).
  Proof.
    intros H C E Es En V. unfold parse. rewrite E, (parse_build t C h 0 [] _ _ Es).
    pose proof (holds_build h t0 t H) as B. destruct (build t h 0) as [h' c'].
    cbn [parse_lines]. destruct En as [-> | ->]; rewrite V; exists h'; auto.
  Qed.

  (** When nothing follows a block it means what it says. *)
  Lemma followed_end t : followed t TEnd = t.
  Proof. induction t; cbn [followed]; congruence. Qed.
  Lemma swallowed_same t : blocks_last t -> swallowed t = t.
  Proof.
    induction t as [|n p f a next IH|n p f body IHb next IHn]; cbn [blocks_last swallowed]; intros H.
    - reflexivity.
    - rewrite IH by exact H. reflexivity.
    - destruct H as (H & ->). cbn [swallowed]. rewrite followed_end, IHb by exact H. reflexivity.
  Qed.

  Lemma fires_dec n p f text : fires matching n p f text \/ ~ fires matching n p f text.
  Proof.
    destruct (xorb n (match matching p f text with Some _ => true | None => false end)) eqn:X.
    - left. apply fires_iff, X.
    - right. intros F. apply fires_iff in F. congruence.
  Qed.
  Lemma action_unique n p f text a r r' : action_of matching filled n p f text a r ->
    action_of matching filled n p f text a r' -> r = r'.
  Proof. intros [] []; congruence. Qed.
  Lemma twice_unique text t r : looked_twice matching filled text t r ->
    forall r', looked_twice matching filled text t r' -> r = r'.
  Proof.
    induction 1 as [|n p f a next r F A|n p f a next r F L IH|n p f body next a r F L IH A|n p f body next F L IH
                   |n p f body next r F L IH L2 IH2|n p f body next r F L IH]; intros r' T; inversion T; subst; try contradiction; auto.
    - eapply action_unique; eassumption.
    - match goal with H : looked_twice _ _ text body _ |- _ => apply IH in H; injection H as -> end.
      eapply action_unique; eassumption.
    - match goal with H : looked_twice _ _ text body _ |- _ => apply IH in H; discriminate end.
    - match goal with H : looked_twice _ _ text body _ |- _ => apply IH in H; discriminate end.
    - match goal with H : looked_twice _ _ text body _ |- _ => apply IH in H; discriminate end.
    - match goal with H : looked_twice _ _ text body _ |- _ => apply IH in H; discriminate end.
    - match goal with H : looked_twice _ _ text body _ |- _ => apply IH in H; discriminate end.
    - match goal with H : looked_twice _ _ text body _ |- _ => apply IH in H; discriminate end.
  Qed.

  (** An answer without a dollar sign is the same filled in once more. *)
  Lemma looked_same text t r : looked_up matching filled text t r -> no_dollar r -> looked_twice matching filled text t r.
  Proof.
    induction 1 as [|n p f a next r F A|n p f a next r F L IH|n p f body next r F L IH N
                   |n p f body next r F L IH L2 IH2|n p f body next r F L IH]; intros P.
    - constructor.
    - apply twice_rule; assumption.
    - apply twice_rule_not; auto.
    - specialize (IH P). destruct r as [|a|]; [contradiction| |apply twice_block_error; assumption].
      eapply twice_block; [exact F|exact IH|].
      destruct n.
      + apply action_plain. reflexivity.
      + cbn in F. destruct (matching p f text) as [g|] eqn:E; [|contradiction].
        replace (Found a) with (filled a g); [apply action_filled; [reflexivity|exact E]|].
        unfold filled. rewrite expand_plain by exact P. reflexivity.
    - apply twice_block_nothing; auto. apply IH. exact I.
    - apply twice_block_not; auto.
  Qed.
End Tables.

(** *** Networks *)

Lemma v4_iff c : is_v4 c = true <-> v4_char c.
Proof. unfold is_v4, v4_char. rewrite orb_true_iff, is_digit_iff, beqb_eq. reflexivity. Qed.
Lemma v6_iff c : is_v6 c = true <-> v6_char c.
Proof.
  unfold is_v6, v6_char. rewrite !orb_true_iff, !andb_true_iff, !N.leb_le, is_digit_iff, beqb_eq. tauto.
Qed.
Lemma spaced_reads s a : spaces s -> begins_text a -> spaced_action (s ++ a) = Some a.
Proof.
  intros (N & W) (c & a' & -> & Wc). destruct s as [|d s]; [contradiction|].
  pose proof (Forall_inv W) as Wd. apply Forall_inv_tail in W. apply is_space_white in Wd. apply not_white in Wc.
  unfold spaced_action. cbn [app]. rewrite Wd. apply whites in W. rewrite drop_all by exact W.
  rewrite drop_stop by exact Wc. reflexivity.
Qed.
(** What may stop an address. *)
Definition stop (c : byte) : Prop := white c \/ c = "/"%char.
Lemma stop_not_class c : stop c -> is_v4 c = false /\ is_v6 c = false /\ is_digit c = false.
Proof. intros [[->|[->|[->|[->|[->| ->]]]]]| ->]; repeat split; reflexivity. Qed.
Lemma class_reads p a r c b action : (p = is_v4 \/ p = is_v6) -> a <> [] -> Forall (fun c => p c = true) a -> r = c :: b ->
  white c -> spaced_action r = Some action -> with_class p (a ++ r) = Some (a, action).
Proof.
  intros Hp N F -> W S. assert (P : p c = false) by (destruct (stop_not_class c (or_introl W)) as (A & B & _); destruct Hp as [-> | ->]; assumption).
  unfold with_class. rewrite take_all, drop_all by exact F. rewrite take_stop, drop_stop by exact P. rewrite app_nil_r.
  destruct a; [contradiction|]. replace (beqb c "/") with false; [rewrite S; reflexivity|].
  destruct W as [->|[->|[->|[->|[->| ->]]]]]; reflexivity.
Qed.
Lemma class_reads_mask p a m r c b action : (p = is_v4 \/ p = is_v6) -> a <> [] -> Forall (fun c => p c = true) a ->
  m <> [] -> Forall digit m -> r = c :: b -> white c -> spaced_action r = Some action ->
  with_class p (a ++ "/"%char :: m ++ r) = Some (a ++ lit "/" ++ m, action).
Proof.
  intros Hp N F Nm D -> W S. assert (P : p "/"%char = false) by (destruct Hp as [-> | ->]; reflexivity).
  assert (D' : Forall (fun c => is_digit c = true) m) by (eapply Forall_impl; [|exact D]; intros x; apply is_digit_iff).
  destruct (stop_not_class c (or_introl W)) as (_ & _ & Dc).
  unfold with_class. rewrite take_all, drop_all by exact F. rewrite take_stop, drop_stop by exact P. rewrite app_nil_r.
  destruct a as [|x a]; [contradiction|]. rewrite beqb_refl.
  rewrite take_all, drop_all by exact D'. rewrite take_stop, drop_stop by exact Dc. rewrite app_nil_r.
  destruct m as [|y m]; [contradiction|]. rewrite S. reflexivity.
Qed.
(** An address of the second kind is not one of the first, unless it is written like it. *)
Lemma class_other a r c b : Forall v6_char a -> ~ Forall v4_char a -> r = c :: b -> stop c -> with_class is_v4 (a ++ r) = None.
Proof.
  intros F N -> St. unfold with_class.
  assert (G : exists x y z, a = x ++ y :: z /\ Forall (fun c => is_v4 c = true) x /\ is_v4 y = false).
  { clear F St. induction a as [|d a IH].
    - exfalso. apply N. constructor.
    - destruct (is_v4 d) eqn:E.
      + destruct IH as (x & y & z & -> & Fx & Ey).
        * intros F. apply N. constructor; [apply v4_iff, E|exact F].
        * exists (d :: x), y, z. repeat split; [constructor; assumption|exact Ey].
      + exists [], d, a. repeat split; [constructor|exact E]. }
  destruct G as (x & y & z & -> & Fx & Ey).
  apply Forall_app in F as (_ & F). apply Forall_inv in F.
  assert (Hs : beqb y "/" = false).
  { apply beqb_neq. intros ->. destruct F as [F|[F|[F|F]]]; [destruct F as (F1 & F2)|destruct F as (F1 & F2)|destruct F as (F1 & F2)|discriminate];
      vm_compute in F1, F2; congruence. }
  assert (Hw : is_space y = false).
  { destruct (is_space y) eqn:E; [|reflexivity]. apply is_space_white in E. exfalso.
    destruct E as [->|[->|[->|[->|[->| ->]]]]]; destruct F as [F|[F|[F|F]]]; try discriminate F; destruct F as (F1 & F2);
      vm_compute in F1, F2; congruence. }
  rewrite <- app_assoc. cbn [app]. rewrite take_all, drop_all by exact Fx. rewrite take_stop, drop_stop by exact Ey.
  rewrite app_nil_r. destruct x; [reflexivity|]. rewrite Hs. unfold spaced_action. rewrite Hw. reflexivity.
Qed.
Lemma v4_dec a : Forall v4_char a \/ ~ Forall v4_char a.
Proof.
  destruct (forallb is_v4 a) eqn:E.
  - left. apply Forall_forall. intros c I. apply v4_iff. revert c I. apply forallb_forall, E.
  - right. intros F. assert (forallb is_v4 a = true); [|congruence]. apply forallb_forall. intros c I.
    apply v4_iff. revert c I. apply Forall_forall, F.
Qed.
Lemma v4_not_space c : v4_char c \/ v6_char c -> is_space c = false.
Proof.
  intros H. destruct (is_space c) eqn:E; [|reflexivity]. apply is_space_white in E. exfalso.
  assert (D : digit c \/ (97 <= code c <= 102) \/ (65 <= code c <= 70) \/ c = ":"%char \/ c = "."%char)
    by (destruct H as [[H|H]|[H|[H|[H|H]]]]; auto).
  destruct E as [->|[->|[->|[->|[->| ->]]]]]; destruct D as [F|[F|[F|[F|F]]]]; try discriminate F; destruct F as (F1 & F2);
    vm_compute in F1, F2; congruence.
Qed.
Lemma network_read a action l : written_network a action l -> cidr_line l = Some (a, action).
Proof.
  intros W. unfold cidr_line. destruct W as [a s action N C S B|a m s action N C Nm D S B].
  - assert (E : drop_while is_space (a ++ s ++ action) = a ++ s ++ action).
    { destruct a as [|x a]; [contradiction|]. apply drop_stop, v4_not_space.
      destruct C as [C|C]; apply Forall_inv in C; auto. }
    rewrite E. pose proof (spaced_reads s action S B) as R. destruct S as (Ns & Ws).
    destruct s as [|c s]; [contradiction|]. pose proof (Forall_inv Ws) as Wc.
    change ((c :: s) ++ action) with (c :: s ++ action) in *.
    destruct (v4_dec a) as [C4|C4].
    + rewrite (class_reads is_v4 a _ c (s ++ action) action); auto.
      eapply Forall_impl; [|exact C4]. intros x. apply v4_iff.
    + destruct C as [C|C]; [contradiction|].
      rewrite (class_other a _ c (s ++ action) C C4 eq_refl (or_introl Wc)).
      apply (class_reads is_v6 a _ c (s ++ action) action); auto.
      eapply Forall_impl; [|exact C]. intros x. apply v6_iff.
  - change (lit "/" ++ m ++ s ++ action) with ("/"%char :: m ++ s ++ action).
    assert (E : drop_while is_space (a ++ "/"%char :: m ++ s ++ action) = a ++ "/"%char :: m ++ s ++ action).
    { destruct a as [|x a]; [contradiction|]. apply drop_stop, v4_not_space.
      destruct C as [C|C]; apply Forall_inv in C; auto. }
    rewrite E. pose proof (spaced_reads s action S B) as R. destruct S as (Ns & Ws).
    destruct s as [|c s]; [contradiction|]. pose proof (Forall_inv Ws) as Wc.
    change ((c :: s) ++ action) with (c :: s ++ action) in *.
    destruct (v4_dec a) as [C4|C4].
    + rewrite (class_reads_mask is_v4 a m _ c (s ++ action) action); auto.
      eapply Forall_impl; [|exact C4]. intros x. apply v4_iff.
    + destruct C as [C|C]; [contradiction|].
      rewrite (class_other a _ "/"%char (m ++ c :: s ++ action) C C4 eq_refl (or_intror eq_refl)).
      apply (class_reads_mask is_v6 a m _ c (s ++ action) action); auto.
      eapply Forall_impl; [|exact C]. intros x. apply v6_iff.
Qed.

Section Cidr.
  Variables network address : Type.
  Variable network_of : bytes -> option network.
  Variable covers : network -> address -> bool.
  Lemma cidr_parsed ls rows : Forall2 (fun l '(a, n, action) => written_network a action (lg_text l) /\ network_of a = Some n) ls rows ->
    forall table ms, parse_cidr network network_of table (ls ++ ms) =
      parse_cidr network network_of (table ++ map (fun '(a, n, action) => (n, action)) rows) ms.
  Proof.
    induction 1 as [|l [[a n] action] ls rows (W & E) F IH]; intros table ms.
    - cbn [map app]. rewrite app_nil_r. reflexivity.
    - cbn [app parse_cidr]. rewrite (network_read a action _ W), E, IH. cbn [map]. rewrite <- app_assoc. reflexivity.
  Qed.
  Lemma cidr_first table a : find_cidr network address covers table a =
    option_map snd (List.find (fun '(n, _) => covers n a) table).
  Proof.
    induction table as [|[n action] table IH]; [reflexivity|]. cbn [find_cidr List.find].
    destruct (covers n a); [reflexivity|exact IH].
  Qed.
End Cidr.
