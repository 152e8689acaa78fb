(** Proofs about the rules of S25R. *)
From Verif.Base Require Import Bytes BytesFacts.
From Verif.Model Require Import SenderRules.
From Verif.Spec Require Import ConditionLibrarySpec.
Import List.

Inductive means : re -> bytes -> Prop :=
| means_eps : means Eps []
| means_class p c : p c = true -> means (Class p) [c]
| means_cat r s x y : means r x -> means s y -> means (Cat r s) (x ++ y)
| means_left r s x : means r x -> means (Alt r s) x
| means_right r s x : means s x -> means (Alt r s) x
| means_stop r : means (Star r) []
| means_more r x y : means r x -> means (Star r) y -> means (Star r) (x ++ y).

Lemma cat_iff : forall r s x, means (Cat r s) x <-> exists a b, x = a ++ b /\ means r a /\ means s b.
Proof.
  intros r s x. split.
  - intros H. remember (Cat r s) as q eqn:Q. destruct H as [| |r' s' a b A B| | | |]; try discriminate Q.
    injection Q as -> ->. exists a, b. tauto.
  - intros (a & b & -> & A & B). apply means_cat; assumption.
Qed.
Lemma nullable_iff : forall r, nullable r = true <-> means r [].
Proof.
  induction r as [| |p|r IHr s IHs|r IHr s IHs|r IHr]; cbn [nullable].
  - split; [discriminate | intros H; inversion H].
  - split; [intros _; constructor | reflexivity].
  - split; [discriminate | intros H; inversion H].
  - rewrite andb_true_iff, IHr, IHs. split.
    + intros [A B]. exact (means_cat _ _ _ _ A B).
    + intros H. apply cat_iff in H. destruct H as (x & y & D & A & B). symmetry in D. apply app_eq_nil in D. destruct D as [-> ->]. tauto.
  - rewrite orb_true_iff, IHr, IHs. split.
    + intros [A|B]; [apply means_left, A | apply means_right, B].
    + intros H. inversion H; subst; tauto.
  - split; [intros _; constructor | reflexivity].
Qed.
Lemma star_cons : forall r c s, means (Star r) (c :: s) -> exists x y, s = x ++ y /\ means r (c :: x) /\ means (Star r) y.
Proof.
  intros r c s H. remember (Star r) as q eqn:Q. remember (c :: s) as cs eqn:D. revert D.
  induction H as [| | | | | |r' x y A IHA B IHB]; try discriminate. injection Q as ->. intros D.
  destruct x as [|c' x]; cbn [app] in D.
  - apply IHB; [reflexivity | exact D].
  - injection D as -> <-. exists x, y. tauto.
Qed.
Lemma derivative_iff : forall c r s, means (derivative c r) s <-> means r (c :: s).
Proof.
  intros c. induction r as [| |p|r IHr q IHq|r IHr q IHq|r IHr]; intros s; cbn [derivative].
  - split; intros H; inversion H.
  - split; intros H; inversion H.
  - destruct (p c) eqn:P; split; intros H; inversion H; subst; try constructor; try assumption; congruence.
  - assert (C : means (Cat (derivative c r) q) s <-> exists x y, s = x ++ y /\ means r (c :: x) /\ means q y).
    { split.
      - intros H. apply cat_iff in H. destruct H as (x & y & -> & A & B). exists x, y. rewrite <- IHr. tauto.
      - intros (x & y & -> & A & B). apply means_cat; [apply IHr, A | exact B]. }
    assert (D : means (Cat r q) (c :: s) <-> means (Cat (derivative c r) q) s \/ (means r [] /\ means q (c :: s))).
    { rewrite C. split.
      - intros H. apply cat_iff in H. destruct H as (x & y & X & A & B). destruct x as [|c' x]; cbn [app] in X.
        + right. subst y. tauto.
        + injection X as <- ->. left. exists x, y. tauto.
      - intros [(x & y & -> & A & B)|[A B]].
        + exact (means_cat _ _ _ _ A B).
        + exact (means_cat _ _ _ _ A B). }
    rewrite D. destruct (nullable r) eqn:N.
    + apply nullable_iff in N. split.
      * intros H. inversion H; subst; [left; assumption | right; split; [exact N | apply IHq; assumption]].
      * intros [H|[_ H]]; [apply means_left, H | apply means_right, IHq, H].
    + split; [tauto|]. intros [H|[H _]]; [exact H|]. apply nullable_iff in H. congruence.
  - split; intros H; inversion H; subst; first [apply means_left, IHr; assumption | apply means_right, IHq; assumption
      | apply means_left; apply IHr; assumption | apply means_right; apply IHq; assumption].
  - split.
    + intros H. apply cat_iff in H. destruct H as (x & y & -> & A & B). apply IHr in A. exact (means_more _ _ _ A B).
    + intros H. apply star_cons in H. destruct H as (x & y & -> & A & B). apply means_cat; [apply IHr, A | exact B].
Qed.
Lemma matches_iff : forall s r, matches_whole r s = true <-> means r s.
Proof.
  induction s as [|c s IH]; intros r; cbn [matches_whole]; [apply nullable_iff|]. rewrite IH. apply derivative_iff.
Qed.

(** What the pieces mean. *)
Lemma alt_iff : forall r s x, means (Alt r s) x <-> means r x \/ means s x.
Proof.
  intros r s x. split; [intros H; inversion H; subst; tauto|].
  intros [H|H]; [apply means_left, H | apply means_right, H].
Qed.
Lemma eps_iff : forall x, means Eps x <-> x = [].
Proof. intros x. split; [intros H; inversion H; reflexivity | intros ->; constructor]. Qed.
Lemma class_iff : forall p x, means (Class p) x <-> exists c, x = [c] /\ p c = true.
Proof.
  intros p x. split; [intros H; inversion H; subst; eexists; split; [reflexivity | assumption]|].
  intros (c & -> & H). constructor. exact H.
Qed.
Lemma star_class_iff : forall p x, means (Star (Class p)) x <-> Forall (fun c => p c = true) x.
Proof.
  intros p x. split.
  - intros H. remember (Star (Class p)) as q eqn:Q. induction H as [| | | | | |r' x y A IHA B IHB]; try discriminate; [constructor|].
    injection Q as ->. apply class_iff in A. destruct A as (c & -> & P). apply Forall_cons; [exact P | apply IHB; reflexivity].
  - induction 1 as [|c x P F IH]; [constructor|]. change (c :: x) with ([c] ++ x). apply means_more; [constructor; exact P | exact IH].
Qed.
Lemma beqb_iff : forall x y, beqb x y = true <-> x = y.
Proof. apply beqb_eq. Qed.
Lemma text_iff : forall s x, means (text s) x <-> x = s.
Proof.
  induction s as [|c s IH]; intros x; cbn [text]; [apply eps_iff|]. rewrite cat_iff. split.
  - intros (a & b & -> & A & B). apply class_iff in A. destruct A as (c' & -> & P). apply beqb_iff in P. apply IH in B. subst. reflexivity.
  - intros ->. exists [c], s. repeat apply conj; [reflexivity | constructor; apply beqb_iff; reflexivity | apply IH; reflexivity].
Qed.
Lemma itext_iff : forall s x, means (itext s) x <-> map lower x = s.
Proof.
  induction s as [|c s IH]; intros x; cbn [itext].
  - rewrite eps_iff. destruct x; cbn; split; congruence.
  - rewrite cat_iff. split.
    + intros (a & b & -> & A & B). apply class_iff in A. destruct A as (c' & -> & P). apply beqb_iff in P. apply IH in B. subst. reflexivity.
    + intros H. destruct x as [|c' x]; [discriminate|]. cbn [map] in H. injection H as H1 H2.
      exists [c'], x. repeat apply conj; [reflexivity | constructor; apply beqb_iff; exact H1 | apply IH, H2].
Qed.
Lemma anything_means : forall x, means anything x.
Proof. intros x. apply star_class_iff. induction x; constructor; auto. Qed.
Lemma ch_iff : forall c x, means (ch c) x <-> x = [c].
Proof.
  intros c x. unfold ch. rewrite class_iff. split.
  - intros (c' & -> & P). apply beqb_iff in P. subst. reflexivity.
  - intros ->. exists c. split; [reflexivity | apply beqb_iff; reflexivity].
Qed.
Lemma digit_iff : forall x, means digit x <-> a_digit x.
Proof. intros x. apply class_iff. Qed.
Lemma star_without : forall p x, means (Star (Class (fun c => negb (p c)))) x <-> without p x.
Proof.
  intros p x. rewrite star_class_iff. unfold without. split; apply Forall_impl; intros c; destruct (p c); cbn; congruence.
Qed.
Lemma no_points : forall x, means (Star no_point) x <-> without is_point x.
Proof. intros x. apply (star_without is_point). Qed.
Lemma dots : forall x, means (Star dot) x <-> without is_newline x.
Proof. intros x. apply (star_without is_newline). Qed.
Lemma plus_class : forall p x, means (plus (Class p)) x <-> x <> [] /\ means (Star (Class p)) x.
Proof.
  intros p x. unfold plus. rewrite cat_iff. split.
  - intros (a & b & -> & A & B). apply class_iff in A. destruct A as (c & -> & P). split; [discriminate|].
    apply star_class_iff. apply Forall_cons; [exact P | apply star_class_iff, B].
  - intros [N H]. destruct x as [|c x]; [congruence|]. apply star_class_iff in H. inversion H; subst.
    exists [c], x. repeat apply conj; [reflexivity | constructor; assumption | apply star_class_iff; assumption].
Qed.
Lemma plus_points : forall x, means (plus no_point) x <-> x <> [] /\ without is_point x.
Proof. intros x. unfold no_point. rewrite plus_class. fold no_point. rewrite no_points. tauto. Qed.
Lemma plus_dots : forall x, means (plus dot) x <-> x <> [] /\ without is_newline x.
Proof. intros x. unfold dot. rewrite plus_class. fold dot. rewrite dots. tauto. Qed.
Lemma plus_digit_points : forall x, means (plus no_digit_point) x <-> x <> [] /\ without is_digit x /\ without is_point x.
Proof.
  intros x. unfold no_digit_point. rewrite plus_class, star_class_iff. unfold without. split; intros [N H]; (split; [exact N|]).
  - split; revert H; apply Forall_impl; intros c; destruct (is_digit c); unfold is_point; destruct (beqb c "."); cbn; congruence.
  - destruct H as [A B]. apply Forall_forall. intros c I. pose proof (proj1 (Forall_forall _ _) A c I) as H1. pose proof (proj1 (Forall_forall _ _) B c I) as H2.
    cbn beta in H1, H2. unfold is_point in H2. rewrite H1, H2. reflexivity.
Qed.
Lemma seq_cons : forall r l x, means (sequence (r :: l)) x <-> exists a b, x = a ++ b /\ means r a /\ means (sequence l) b.
Proof. intros r l x. apply cat_iff. Qed.
Lemma seq_last : forall r x, means (sequence [r]) x <-> means r x.
Proof.
  intros r x. rewrite seq_cons. split.
  - intros (a & b & -> & A & B). apply eps_iff in B. subst. rewrite app_nil_r. exact A.
  - intros A. exists x, []. repeat apply conj; [rewrite app_nil_r; reflexivity | exact A | constructor].
Qed.
Lemma existsb_matchers : forall l x, existsb (fun m => m x) (matchers l) = true <-> exists r, In r l /\ means r x.
Proof.
  intros l x. unfold matchers. rewrite existsb_exists. split.
  - intros (m & I & H). apply in_map_iff in I. destruct I as (r & <- & I). exists r. split; [exact I | apply matches_iff, H].
  - intros (r & I & H). exists (matches_whole r). split; [apply in_map, I | apply matches_iff, H].
Qed.
Lemma white_iff : forall x, existsb (fun m => m x) (matchers default_white) = true <-> trustworthy x.
Proof.
  intros x. rewrite existsb_matchers. unfold default_white, trustworthy, ends_with. split.
  - intros (r & I & H). apply in_map_iff in I. destruct I as (s & <- & I). exists s. split; [exact I|].
    apply cat_iff in H. destruct H as (a & b & -> & _ & B). apply text_iff in B. subst. exists a. reflexivity.
  - intros (s & I & l & ->). exists (domain_end s). split; [apply in_map, I|]. apply cat_iff. exists l, s.
    repeat apply conj; [reflexivity | apply anything_means | apply text_iff; reflexivity].
Qed.
Ltac open_seq H :=
  repeat (apply seq_cons in H; let a := fresh "a" in let b := fresh "b" in let A := fresh "A" in destruct H as (a & b & -> & A & H)).
Ltac piece := eexists _, _; split; [first [reflexivity | rewrite app_nil_r; reflexivity]|]; split.
Lemma seq_intro : forall r l a b, means r a -> means (sequence l) b -> means (sequence (r :: l)) (a ++ b).
Proof. intros r l a b A B. apply seq_cons. exists a, b. tauto. Qed.
Lemma five_digits : forall d, digits d -> length d = 5%nat -> exists a b c e f, d = [a; b; c; e; f] /\
  is_digit a = true /\ is_digit b = true /\ is_digit c = true /\ is_digit e = true /\ is_digit f = true.
Proof.
  intros d F L. do 5 (destruct d as [|? d]; [discriminate|]). destruct d; [|discriminate].
  unfold digits in F. rewrite Forall_forall in F. eexists _, _, _, _, _. split; [reflexivity|].
  repeat apply conj; apply F; cbn; tauto.
Qed.
Lemma line_iff : forall k, means (Alt (itext (lit "dhcp")) (Alt (itext (lit "dialup")) (Alt (itext (lit "ppp"))
           (Cat (option_re (Class (fun c => existsb (beqb (lower c)) (lit "achrsvx")))) (itext (lit "dsl")))))) k <->
  (same_letters k (lit "dhcp") \/ same_letters k (lit "dialup") \/ same_letters k (lit "ppp") \/ same_letters k (lit "dsl") \/
     exists c, In c (lit "achrsvx") /\ same_letters k (c :: lit "dsl")).
Proof.
  intros k. unfold same_letters. rewrite !alt_iff, !itext_iff, cat_iff.
  assert (X : (exists a b, k = a ++ b /\ means (option_re (Class (fun c => existsb (beqb (lower c)) (lit "achrsvx")))) a /\ means (itext (lit "dsl")) b) <->
    map lower k = lit "dsl" \/ exists c, In c (lit "achrsvx") /\ map lower k = c :: lit "dsl"); [|rewrite X; tauto].
  split.
  - intros (a & b & -> & A & B). apply itext_iff in B. apply alt_iff in A. destruct A as [A|A].
    + apply eps_iff in A. subst a. left. exact B.
    + apply class_iff in A. destruct A as (c & -> & P). apply existsb_exists in P. destruct P as (c' & I & P). apply beqb_iff in P.
      right. exists c'. split; [exact I|]. cbn [map app]. rewrite B, P. reflexivity.
  - intros [H|(c & I & H)].
    + exists [], k. repeat apply conj; [reflexivity | apply alt_iff; left; constructor | apply itext_iff, H].
    + destruct k as [|x k]; [discriminate|]. cbn [map] in H. injection H as H1 H2.
      exists [x], k. repeat apply conj; [reflexivity | apply alt_iff; right | apply itext_iff, H2].
      constructor. apply existsb_exists. exists c. split; [exact I | apply beqb_iff, H1].
Qed.
Lemma letter_iff : forall x, means letter_i x <-> exists c, x = [c] /\ (97 <= code (lower c) <= 122)%N.
Proof.
  intros x. unfold letter_i. rewrite class_iff. split; intros (c & -> & P); exists c; (split; [reflexivity|]).
  - apply andb_true_iff in P. rewrite !N.leb_le in P. exact P.
  - apply andb_true_iff. rewrite !N.leb_le. exact P.
Qed.
Lemma black_iff : forall x, existsb (fun m => m x) (matchers default_black) = true <-> suspicious x.
Proof.
  intros x. rewrite existsb_matchers. split.
  - intros (r & I & H). unfold default_black in I. cbn [In] in I.
    destruct I as [<-|[<-|[<-|[<-|[<-|[<-|[<-|[<-|[]]]]]]]]].
    + apply text_iff in H. apply rule_unknown. exact H.
    + open_seq H. apply eps_iff in H. apply ch_iff in A, A1. apply plus_dots in A0. subst.
      eapply rule_brackets; [reflexivity | tauto | tauto].
    + open_seq H. apply eps_iff in H. apply no_points in A. apply digit_iff in A0, A2. apply plus_digit_points in A1.
      apply dots in A3. apply ch_iff in A4. subst. destruct A1 as (N1 & N2 & N3).
      eapply rule_two_numbers; [reflexivity|..]; assumption.
    + open_seq H. apply eps_iff in H. apply no_points in A. apply digit_iff in A0, A1, A2, A3, A4.
      destruct A0 as (d1 & -> & D1), A1 as (d2 & -> & D2), A2 as (d3 & -> & D3), A3 as (d4 & -> & D4), A4 as (d5 & -> & D5).
      eapply (rule_five _ a [d1; d2; d3; d4; d5]); [reflexivity | exact A | repeat apply Forall_cons; try assumption; apply Forall_nil | reflexivity].
    + open_seq H. apply eps_iff in H. apply digit_iff in A0. apply no_points in A1. apply ch_iff in A2, A4, A6.
      apply plus_points in A3. apply plus_dots in A5. apply letter_iff in A7. destruct A7 as (c & -> & C). subst.
      apply alt_iff in A. destruct A3 as [A31 A32], A5 as [A51 A52].
      eapply (rule_label _ a); [|cbn [app]; reflexivity|..]; try assumption.
      destruct A as [A|A]; [left; apply eps_iff, A|]. right. apply cat_iff in A. destruct A as (l & p & -> & A & P).
      apply ch_iff in P. subst. apply plus_points in A. exists l. repeat apply conj; [reflexivity | tauto | tauto].
    + open_seq H. apply eps_iff in H. apply no_points in A, A2. apply digit_iff in A0, A3, A5. apply ch_iff in A1, A4. subst.
      eapply rule_hyphen; [reflexivity|..]; assumption.
    + open_seq H. apply eps_iff in H. apply no_points in A, A2. apply digit_iff in A0, A3. apply ch_iff in A1, A4, A6, A8.
      apply plus_points in A5. apply plus_dots in A7. subst. destruct A5, A7.
      eapply rule_ends; [reflexivity|..]; assumption.
    + open_seq H. apply eps_iff in H. apply line_iff in A. apply no_points in A0. apply digit_iff in A1. subst.
      eapply rule_line; [reflexivity|..]; assumption.
  - assert (X : forall n r, nth_error default_black n = Some r -> In r default_black) by (intros n r; apply nth_error_In).
    intros [H|s H N1 N2|a d b d' c rest H P1 P2 P3 P4 P5 P6 P7|a d rest H P1 P2 P3|first d a b c y rest F H P1 P2 P3 P4 P5 P6 P7
      |a d b d' d'' rest H P1 P2 P3 P4 P5|a d b d' c y rest H P1 P2 P3 P4 P5 P6 P7 P8|k a d rest H K P1 P2].
    + eexists. split; [apply (X 0%nat); reflexivity|]. apply text_iff. exact H.
    + eexists. split; [apply (X 1%nat); reflexivity|]. subst x. apply seq_intro; [apply ch_iff; reflexivity|].
      apply seq_intro; [apply plus_dots; tauto|]. apply seq_last. apply ch_iff. reflexivity.
    + eexists. split; [apply (X 2%nat); reflexivity|]. subst x.
      apply seq_intro; [apply no_points, P1|]. apply seq_intro; [apply digit_iff, P2|]. apply seq_intro; [apply plus_digit_points; tauto|].
      apply seq_intro; [apply digit_iff, P6|]. apply seq_intro; [apply dots, P7|]. apply seq_intro; [apply ch_iff; reflexivity|].
      apply seq_last, anything_means.
    + eexists. split; [apply (X 3%nat); reflexivity|]. subst x. destruct (five_digits _ P2 P3) as (d1 & d2 & d3 & d4 & d5 & -> & D1 & D2 & D3 & D4 & D5).
      apply seq_intro; [apply no_points, P1|].
      change ([d1; d2; d3; d4; d5] ++ rest) with ([d1] ++ [d2] ++ [d3] ++ [d4] ++ [d5] ++ rest).
      do 5 (apply seq_intro; [constructor; assumption|]). apply seq_last, anything_means.
    + eexists. split; [apply (X 4%nat); reflexivity|]. subst x. apply seq_intro.
      { apply alt_iff. destruct F as [->|(l & -> & L1 & L2)]; [left; constructor|]. right. apply means_cat; [apply plus_points; tauto | apply ch_iff; reflexivity]. }
      apply seq_intro; [apply digit_iff, P1|]. apply seq_intro; [apply no_points, P2|]. apply seq_intro; [apply ch_iff; reflexivity|].
      apply seq_intro; [apply plus_points; tauto|]. apply seq_intro; [apply ch_iff; reflexivity|]. apply seq_intro; [apply plus_dots; tauto|].
      apply seq_intro; [apply ch_iff; reflexivity|]. change (y :: rest) with ([y] ++ rest). apply seq_intro; [apply letter_iff; exists y; tauto|].
      apply seq_last, anything_means.
    + eexists. split; [apply (X 5%nat); reflexivity|]. subst x.
      apply seq_intro; [apply no_points, P1|]. apply seq_intro; [apply digit_iff, P2|]. apply seq_intro; [apply ch_iff; reflexivity|].
      apply seq_intro; [apply no_points, P3|]. apply seq_intro; [apply digit_iff, P4|]. apply seq_intro; [apply ch_iff; reflexivity|].
      apply seq_intro; [apply digit_iff, P5|]. apply seq_last, anything_means.
    + eexists. split; [apply (X 6%nat); reflexivity|]. subst x.
      apply seq_intro; [apply no_points, P1|]. apply seq_intro; [apply digit_iff, P2|]. apply seq_intro; [apply ch_iff; reflexivity|].
      apply seq_intro; [apply no_points, P3|]. apply seq_intro; [apply digit_iff, P4|]. apply seq_intro; [apply ch_iff; reflexivity|].
      apply seq_intro; [apply plus_points; tauto|]. apply seq_intro; [apply ch_iff; reflexivity|]. apply seq_intro; [apply plus_dots; tauto|].
      apply seq_intro; [apply ch_iff; reflexivity|]. apply seq_last, anything_means.
    + eexists. split; [apply (X 7%nat); reflexivity|]. subst x. apply seq_intro; [apply line_iff, K|].
      apply seq_intro; [apply no_points, P1|]. apply seq_intro; [apply digit_iff, P2|]. apply seq_last, anything_means.
Qed.
