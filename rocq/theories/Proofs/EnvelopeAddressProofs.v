(** Proofs about envelope addresses. *)
From Verif.Base Require Import Bytes BytesFacts.
From Verif.Model Require Import EnvelopeAddress.
From Verif.Spec Require Import EnvelopeAddressSpec.
From Coq Require Import Lia.
Local Open Scope N_scope.

(** *** Searching *)

(** [f] finds the longest piece with property [Q] at the start of its argument; [g] is the
    piece of a result. *)
Definition finds_here {A} (f : bytes -> option A) (g : A -> bytes) (Q : bytes -> Prop) : Prop :=
  forall s, match f s with
            | Some a => stands s [] (g a) /\ Q (g a) /\
                        (forall t, stands s [] t -> Q t -> (length t <= length (g a))%nat)
            | None => forall t, stands s [] t -> ~ Q t
            end.

Lemma stands_cons c s pre t : stands (c :: s) pre t ->
  (pre = [] /\ stands (c :: s) [] t) \/ exists pre', pre = c :: pre' /\ stands s pre' t.
Proof.
  destruct pre as [|x pre]; intros H; [left; auto|]. right. destruct H as [post H]. cbn [app] in H.
  injection H as <- H. exists pre. split; [reflexivity|]. exists post. exact H.
Qed.

Lemma scan_spec {A} (f : bytes -> option A) g Q : finds_here f g Q -> forall s,
  match scan f s with
  | Some a => leftmost Q s (g a)
  | None => nowhere Q s
  end.
Proof.
  intros F. induction s as [|c s IH]; cbn [scan].
  - pose proof (F []) as H. destruct (f []) as [a|].
    + destruct H as (H1 & H2 & H3). exists []. split; [exact H1|]. split; [exact H2|]. split; [cbn; lia|exact H3].
    + intros pre t [post E]. symmetry in E. apply app_eq_nil in E. destruct E as [-> E]. apply H. exists post. symmetry. exact E.
  - pose proof (F (c :: s)) as H. destruct (f (c :: s)) as [a|].
    + destruct H as (H1 & H2 & H3). exists []. split; [exact H1|]. split; [exact H2|]. split; [cbn; lia|exact H3].
    + destruct (scan f s) as [a|].
      * destruct IH as (pre & [post E] & H2 & H3 & H4). exists (c :: pre).
        split; [exists post; cbn [app]; rewrite E; reflexivity|]. split; [exact H2|]. split.
        -- intros pre' t' Ht HQ. destruct (stands_cons _ _ _ _ Ht) as [[-> Ht0]|(p & -> & Ht0)]; [elim (H _ Ht0 HQ)|].
           cbn [length]. specialize (H3 _ _ Ht0 HQ). lia.
        -- intros t' Ht HQ. destruct (stands_cons _ _ _ _ Ht) as [[X _]|(p & X & Ht0)]; [discriminate|].
           injection X as <-. exact (H4 _ Ht0 HQ).
      * intros pre t Ht HQ. destruct (stands_cons _ _ _ _ Ht) as [[-> Ht0]|(p & -> & Ht0)]; [exact (H _ Ht0 HQ)|exact (IH _ _ Ht0 HQ)].
Qed.

(** *** Runs of characters *)

Lemma prefix_rest f s : s = prefix_of f s ++ rest_of f s.
Proof. induction s as [|c s IH]; cbn; [reflexivity|]. destruct (f c); cbn [app]; [rewrite <- IH|]; reflexivity. Qed.
Lemma prefix_all f s : Forall (fun c => f c = true) (prefix_of f s).
Proof. induction s as [|c s IH]; cbn; [constructor|]. destruct (f c) eqn:E; constructor; assumption. Qed.
Lemma rest_head f s : match rest_of f s with c :: _ => f c = false | [] => True end.
Proof. induction s as [|c s IH]; cbn; [exact I|]. destruct (f c) eqn:E; [exact IH|exact E]. Qed.
Lemma prefix_longest f s t post : s = t ++ post -> Forall (fun c => f c = true) t -> exists q, prefix_of f s = t ++ q.
Proof.
  intros ->. revert post. induction t as [|c t IH]; intros post H; cbn [app prefix_of]; [eauto|].
  inversion H; subst. match goal with X : f c = true |- _ => rewrite X end.
  destruct (IH post) as [q ->]; [assumption|]. exists q. reflexivity.
Qed.

Lemma bracket_iff c : is_bracket c = false <-> c <> "<"%char /\ c <> ">"%char.
Proof.
  unfold is_bracket. rewrite Bool.orb_false_iff. rewrite <- !Bool.not_true_iff_false, !beqb_eq. tauto.
Qed.
Lemma white_iff c : is_white c = true <-> white c.
Proof.
  unfold is_white, white. rewrite Bool.orb_true_iff, Bool.andb_true_iff, beqb_eq, !N.leb_le. unfold code. tauto.
Qed.
Lemma token_iff c : is_token c = true <-> ~ white c /\ c <> "<"%char /\ c <> ">"%char.
Proof.
  unfold is_token. rewrite Bool.negb_true_iff, Bool.orb_false_iff, bracket_iff, <- white_iff, Bool.not_true_iff_false. tauto.
Qed.
Lemma word_iff s : word_of s <-> s <> [] /\ Forall (fun c => is_token c = true) s.
Proof.
  unfold word_of. split; intros [H1 H2]; (split; [exact H1|]); (eapply Forall_impl; [|exact H2]); intros c Hc;
    apply token_iff; exact Hc.
Qed.

Lemma no_brackets_forall s : no_brackets s <-> Forall (fun c => negb (is_bracket c) = true) s.
Proof.
  unfold no_brackets. rewrite Forall_forall. split.
  - intros [H1 H2] c Hc. apply Bool.negb_true_iff, bracket_iff. split; intros ->; auto.
  - intros H. split; intros X; specialize (H _ X); apply Bool.negb_true_iff, bracket_iff in H; tauto.
Qed.

(** *** The three searches *)

Lemma bracket_here_spec : finds_here bracket_here (fun a => "<"%char :: a ++ [">"%char]) bracketed.
Proof.
  intros s. unfold bracket_here. destruct s as [|c s].
  - intros t [post E] (a & -> & _). discriminate.
  - destruct (beqb c "<"%char) eqn:Ec.
    2:{ intros t [post E] (a & -> & _). cbn [app] in E. injection E as E _. subst c. rewrite beqb_refl in Ec. discriminate. }
    apply beqb_eq in Ec. subst c.
    set (f := fun x => negb (is_bracket x)). pose proof (prefix_rest f s) as Hs. pose proof (prefix_all f s) as Hp.
    pose proof (rest_head f s) as Hh.
    destruct (rest_of f s) as [|d r] eqn:Er.
    + intros t [post E] (a & -> & Ha). cbn [app] in E. injection E as E.
      rewrite app_nil_r in Hs. rewrite Forall_forall in Hp. rewrite <- Hs in Hp.
      assert (X : f ">"%char = true). { apply Hp. rewrite E. rewrite <- app_assoc. apply in_or_app. right. left. reflexivity. }
      discriminate X.
    + assert (U : forall t, stands ("<"%char :: s) [] t -> bracketed t ->
                   d = ">"%char /\ t = "<"%char :: prefix_of f s ++ [">"%char]).
      { intros t [post E] (a & -> & Ha). cbn [app] in E. injection E as E. rewrite <- app_assoc in E. cbn [app] in E.
        apply no_brackets_forall in Ha.
        destruct (prefix_longest f s a (">"%char :: post) E Ha) as [q Hq].
        destruct q as [|x q].
        - rewrite app_nil_r in Hq. rewrite Hq in *. rewrite Hs in E. apply app_inv_head in E. injection E as -> _. auto.
        - exfalso. rewrite Hq in Hs. rewrite E in Hs. rewrite <- app_assoc in Hs. apply app_inv_head in Hs.
          cbn [app] in Hs. injection Hs as X _. rewrite Hq in Hp. apply Forall_app in Hp. destruct Hp as [_ Hp].
          apply Forall_inv in Hp. rewrite <- X in Hp. discriminate. }
      destruct (beqb d ">"%char) eqn:Ed.
      * apply beqb_eq in Ed. subst d. split; [|split].
        -- exists r. cbn [app]. rewrite <- app_assoc. cbn [app]. f_equal. exact Hs.
        -- exists (prefix_of f s). split; [reflexivity|]. apply no_brackets_forall. exact Hp.
        -- intros t Ht HQ. destruct (U t Ht HQ) as [_ ->]. lia.
      * intros t Ht HQ. destruct (U t Ht HQ) as [-> _]. rewrite beqb_refl in Ed. discriminate.
Qed.

Lemma at_before_end_iff s : at_before_end s = true <-> exists a d, s = a ++ "@"%char :: d /\ d <> [].
Proof.
  induction s as [|c s IH]; cbn [at_before_end].
  - split; [discriminate|]. intros (a & d & E & _). symmetry in E. apply app_eq_nil in E. destruct E as [_ E]. discriminate.
  - destruct s as [|c2 s].
    + split; [discriminate|]. intros (a & d & E & Hd). destruct a as [|x a]; cbn [app] in E; injection E as _ E.
      * congruence.
      * symmetry in E. apply app_eq_nil in E. destruct E as [_ E]. discriminate.
    + rewrite Bool.orb_true_iff, beqb_eq, IH. split.
      * intros [->|(a & d & E & Hd)]; [exists [], (c2 :: s); split; [reflexivity|discriminate]|].
        exists (c :: a), d. rewrite E. auto.
      * intros (a & d & E & Hd). destruct a as [|x a]; cbn [app] in E; injection E as -> E; [left; reflexivity|right; eauto].
Qed.

Lemma with_at_iff t : Forall (fun c => is_token c = true) t -> (with_at t <-> at_before_end (tl t) = true).
Proof.
  intros Ht. rewrite at_before_end_iff. split.
  - intros (l & d & -> & [Hl _] & [Hd _]). destruct l as [|x l]; [congruence|]. exists l, d. auto.
  - intros (a & d & E & Hd). destruct t as [|x t]; cbn [tl] in E.
    + symmetry in E. apply app_eq_nil in E. destruct E as [_ E]. discriminate.
    + subst t. exists (x :: a), d. split; [reflexivity|].
      change (x :: a ++ "@"%char :: d) with ((x :: a) ++ "@"%char :: d) in Ht. apply Forall_app in Ht. destruct Ht as [H1 H2].
      inversion H2; subst. rewrite !word_iff. repeat split; auto; discriminate.
Qed.

Lemma with_at_token t : with_at t -> Forall (fun c => is_token c = true) t.
Proof.
  intros (l & d & -> & Hl & Hd). apply word_iff in Hl, Hd. apply Forall_app. split; [tauto|]. constructor; [reflexivity|tauto].
Qed.

Lemma at_here_spec : finds_here at_here (fun a => a) with_at.
Proof.
  intros s. unfold at_here. pose proof (prefix_rest is_token s) as Hs. pose proof (prefix_all is_token s) as Hp.
  destruct (at_before_end (tl (prefix_of is_token s))) eqn:E.
  - split; [exists (rest_of is_token s); exact Hs|]. split; [apply with_at_iff; assumption|].
    intros t [post Et] Hw. destruct (prefix_longest is_token s t post Et (with_at_token t Hw)) as [q ->].
    rewrite app_length. lia.
  - intros t [post Et] Hw. destruct (prefix_longest is_token s t post Et (with_at_token t Hw)) as [q Hq].
    assert (X : at_before_end (tl (prefix_of is_token s)) = true); [|congruence].
    apply with_at_iff; [exact Hp|]. rewrite Hq in Hp |- *. destruct Hw as (l & d & -> & Hl & Hd).
    exists l, (d ++ q). split; [rewrite <- app_assoc; reflexivity|]. split; [exact Hl|].
    apply word_iff in Hd. apply word_iff. destruct Hd as [Hd _]. split.
    + intros Z. apply app_eq_nil in Z. tauto.
    + rewrite <- app_assoc in Hp. apply Forall_app in Hp. destruct Hp as [_ Hp]. inversion Hp; assumption.
Qed.

Lemma token_here_spec : finds_here token_here (fun a => a) word_of.
Proof.
  intros s. unfold token_here. pose proof (prefix_rest is_token s) as Hs. pose proof (prefix_all is_token s) as Hp.
  assert (L : forall t, stands s [] t -> word_of t -> exists q, prefix_of is_token s = t ++ q).
  { intros t [post Et] Hw. apply word_iff in Hw. apply (prefix_longest is_token s t post Et). tauto. }
  destruct (prefix_of is_token s) as [|c p] eqn:E.
  - intros t Ht Hw. destruct (L t Ht Hw) as [q Hq]. symmetry in Hq. apply app_eq_nil in Hq. destruct Hw as [Hw _]. tauto.
  - split; [exists (rest_of is_token s); exact Hs|]. split; [apply word_iff; split; [discriminate|exact Hp]|].
    intros t Ht Hw. destruct (L t Ht Hw) as [q Hq]. rewrite Hq, app_length. lia.
Qed.

Lemma extract_address_spec s : contains_address s (extract_address s).
Proof.
  unfold extract_address. pose proof (scan_spec _ _ _ bracket_here_spec s) as H1. destruct (scan bracket_here s) as [a|].
  - apply ca_path. exact H1.
  - pose proof (scan_spec _ _ _ at_here_spec s) as H2. destruct (scan at_here s) as [a|].
    + apply ca_mailbox; assumption.
    + pose proof (scan_spec _ _ _ token_here_spec s) as H3. destruct (scan token_here s) as [a|].
      * apply ca_word; assumption.
      * apply ca_none; assumption.
Qed.

(** There is one such address only. *)
Lemma leftmost_unique Q s t t' : leftmost Q s t -> leftmost Q s t' -> t = t'.
Proof.
  intros (p & [q E] & H1 & H2 & H3) (p' & [q' E'] & H1' & H2' & H3').
  assert (Hl : length p = length p').
  { apply Nat.le_antisymm; [exact (H2 p' t' (ex_intro _ q' E') H1')|exact (H2' p t (ex_intro _ q E) H1)]. }
  assert (p = p').
  { rewrite E in E'. clear - E' Hl. revert p' Hl E'. induction p as [|x p IH]; intros [|y p'] Hl E'; try discriminate; [reflexivity|].
    cbn [app] in E'. injection E' as -> E'. injection Hl as Hl. f_equal. apply IH; assumption. }
  subst p'. assert (Hn : length t = length t').
  { apply Nat.le_antisymm; [exact (H3' t (ex_intro _ q E) H1)|exact (H3 t' (ex_intro _ q' E') H1')]. }
  rewrite E in E'. apply app_inv_head in E'. clear - E' Hn. revert t' Hn E'.
  induction t as [|x t IH]; intros [|y t'] Hn E'; try discriminate; [reflexivity|].
  cbn [app] in E'. injection E' as -> E'. injection Hn as Hn. f_equal. apply IH; assumption.
Qed.
Lemma leftmost_somewhere Q s t : leftmost Q s t -> nowhere Q s -> False.
Proof. intros (p & H & HQ & _) N. exact (N _ _ H HQ). Qed.
Lemma contains_unique s a b : contains_address s a -> contains_address s b -> a = b.
Proof.
  intros Ha Hb. destruct Ha as [a H|t H H2|t H H2 H3|H H2 H3], Hb as [b K|u K K2|u K K2 K3|K K2 K3];
    try (exfalso; match goal with A : leftmost ?Q s _, B : nowhere ?Q s |- _ => exact (leftmost_somewhere _ _ _ A B) end);
    try reflexivity;
    try (eapply leftmost_unique; eassumption).
  pose proof (leftmost_unique _ _ _ _ H K) as E. injection E as E. apply app_inj_tail in E. tauto.
Qed.

(** *** The domain *)

Lemma after_last_at_some s d : after_last_at s = Some d ->
  d <> [] /\ exists l, s = l ++ "@"%char :: d.
Proof.
  revert d. induction s as [|c s IH]; intros d H; cbn [after_last_at] in H; [discriminate|].
  destruct (after_last_at s) as [d'|].
  - injection H as <-. destruct (IH d' eq_refl) as [Hd (l & ->)]. split; [exact Hd|]. exists (c :: l). reflexivity.
  - destruct (beqb c "@"%char) eqn:E; [|discriminate]. apply beqb_eq in E. subst c.
    destruct s; [discriminate|]. injection H as <-. split; [discriminate|]. exists []. reflexivity.
Qed.
Lemma after_last_at_app l d : d <> [] -> ~ In "@"%char d -> after_last_at (l ++ "@"%char :: d) = Some d.
Proof.
  intros Hd Hn. induction l as [|c l IH]; cbn [app after_last_at].
  - assert (E : after_last_at d = None).
    { destruct (after_last_at d) as [x|] eqn:E; [|reflexivity]. apply after_last_at_some in E. destruct E as [_ (l & ->)].
      elim Hn. apply in_or_app. right. left. reflexivity. }
    rewrite E. rewrite beqb_refl. destruct d; [congruence|reflexivity].
  - rewrite IH. reflexivity.
Qed.

Lemma after_last_at_least s : match after_last_at s with
  | Some d => forall l' d', s = l' ++ "@"%char :: d' -> d' <> [] -> (length d <= length d')%nat
  | None => forall l' d', s = l' ++ "@"%char :: d' -> d' = []
  end.
Proof.
  induction s as [|c s IH]; cbn [after_last_at]; [intros l' d' E; destruct l'; discriminate|].
  destruct (after_last_at s) as [d|] eqn:L.
  - intros l' d' E Hd. destruct l' as [|x l']; cbn [app] in E; injection E as E1 E2.
    + subst d'. destruct (after_last_at_some _ _ L) as [_ (l & ->)]. rewrite app_length. cbn [length]. lia.
    + exact (IH l' d' E2 Hd).
  - assert (N : forall l' d', c :: s = l' ++ "@"%char :: d' -> d' <> [] -> c = "@"%char /\ s = d').
    { intros l' d' E Hd. destruct l' as [|x l']; cbn [app] in E; injection E as E1 E2; [auto|]. elim Hd. exact (IH l' d' E2). }
    destruct (beqb c "@"%char) eqn:B.
    + destruct s as [|y s].
      * intros l' d' E. destruct d' as [|z d']; [reflexivity|]. destruct (N l' _ E ltac:(discriminate)) as [_ X]. discriminate.
      * intros l' d' E Hd. destruct (N l' d' E Hd) as [_ <-]. lia.
    + intros l' d' E. destruct d' as [|z d']; [reflexivity|]. destruct (N l' _ E ltac:(discriminate)) as [X _].
      subst c. discriminate.
Qed.

Lemma domain_of_spec a : match domain_of a with
  | Some d => has_domain a d
  | None => forall d, ~ has_domain a d
  end.
Proof.
  unfold domain_of. destruct (existsb (fun c => beqb c "010"%char) a) eqn:Nl.
  - intros d (H & _). apply existsb_exists in Nl. destruct Nl as (c & Hc & E). apply beqb_eq in E. subst c. exact (H Hc).
  - assert (Hn : ~ In (byte_of 10) a).
    { intros Hi. apply Bool.not_true_iff_false in Nl. apply Nl. apply existsb_exists. exists (byte_of 10). split; [exact Hi|reflexivity]. }
    destruct a as [|x a]; [intros d (_ & (l & E & _) & _); destruct l; discriminate|].
    pose proof (after_last_at_least a) as L. destruct (after_last_at a) as [d|] eqn:E.
    + destruct (after_last_at_some _ _ E) as [Hd (l & ->)]. split; [exact Hn|]. split.
      * exists (x :: l). split; [reflexivity|]. split; [discriminate|exact Hd].
      * intros l' d' (E' & Hl & Hd'). destruct l' as [|y l']; [congruence|]. injection E' as _ E'. exact (L l' d' E' Hd').
    + intros d (_ & (l & E' & Hl & Hd) & _). destruct l as [|y l]; [congruence|]. injection E' as _ E'. elim Hd. exact (L l d E').
Qed.

(** *** Capital letters *)

Definition every_byte_b (P : byte -> bool) : bool := forallb P (map (fun n => byte_of (N.of_nat n)) (List.seq 0 256)).
Lemma every_byte_all (P : byte -> bool) : every_byte_b P = true -> forall b, P b = true.
Proof.
  unfold every_byte_b. intros H b. rewrite forallb_forall in H. apply H. apply in_map_iff. exists (N.to_nat (N_of_ascii b)). split.
  - rewrite N2Nat.id. unfold byte_of. rewrite N.mod_small by (pose proof (N_ascii_bounded b); lia). apply ascii_N_embedding.
  - apply in_seq. pose proof (N_ascii_bounded b). lia.
Qed.
Lemma lower_same f : every_byte_b (fun b => Bool.eqb (f (lower b)) (f b)) = true -> forall b : byte, f (lower b) = f b.
Proof. intros H b. apply Bool.eqb_prop. exact (every_byte_all _ H b). Qed.
Lemma lower_bracket b : is_bracket (lower b) = is_bracket b.
Proof. apply (lower_same is_bracket). vm_compute. reflexivity. Qed.
Lemma lower_token b : is_token (lower b) = is_token b.
Proof. apply (lower_same is_token). vm_compute. reflexivity. Qed.
Lemma lower_open b : beqb (lower b) "<"%char = beqb b "<"%char.
Proof. apply (lower_same (fun b => beqb b "<"%char)). vm_compute. reflexivity. Qed.
Lemma lower_close b : beqb (lower b) ">"%char = beqb b ">"%char.
Proof. apply (lower_same (fun b => beqb b ">"%char)). vm_compute. reflexivity. Qed.
Lemma lower_at b : beqb (lower b) "@"%char = beqb b "@"%char.
Proof. apply (lower_same (fun b => beqb b "@"%char)). vm_compute. reflexivity. Qed.
Lemma lower_lower b : lower (lower b) = lower b.
Proof.
  apply beqb_eq. revert b. apply (every_byte_all (fun b => beqb (lower (lower b)) (lower b))). vm_compute. reflexivity.
Qed.

Lemma prefix_lower f s : (forall b, f (lower b) = f b) -> prefix_of f (map lower s) = map lower (prefix_of f s).
Proof. intros H. induction s as [|c s IH]; cbn; [reflexivity|]. rewrite H. destruct (f c); cbn; congruence. Qed.
Lemma rest_lower f s : (forall b, f (lower b) = f b) -> rest_of f (map lower s) = map lower (rest_of f s).
Proof. intros H. induction s as [|c s IH]; cbn; [reflexivity|]. rewrite H. destruct (f c); cbn; congruence. Qed.
Lemma scan_lower (f : bytes -> option bytes) (s : bytes) : (forall s, f (map lower s) = option_map (map lower) (f s)) ->
  scan f (map lower s) = option_map (map lower) (scan f s).
Proof.
  intros H. induction s as [|c s IH].
  - cbn [scan map]. specialize (H []). cbn [map] in H. destruct (f []) as [a|]; [exact H|reflexivity].
  - pose proof (H (c :: s)) as E. cbn [map] in E. cbn [scan map]. rewrite E. destruct (f (c :: s)); [reflexivity|]. exact IH.
Qed.
Lemma at_before_end_lower s : at_before_end (map lower s) = at_before_end s.
Proof. induction s as [|c [|d s] IH]; try reflexivity. cbn [map at_before_end] in *. rewrite lower_at, IH. reflexivity. Qed.
Lemma bracket_here_lower s : bracket_here (map lower s) = option_map (map lower) (bracket_here s).
Proof.
  destruct s as [|c s]; [reflexivity|]. cbn [map]. unfold bracket_here. rewrite lower_open. destruct (beqb c "<"%char); [|reflexivity].
  assert (B : forall b, negb (is_bracket (lower b)) = negb (is_bracket b)) by (intros b; rewrite lower_bracket; reflexivity).
  rewrite (rest_lower _ _ B), (prefix_lower _ _ B). destruct (rest_of _ s) as [|d r]; [reflexivity|]. cbn [map].
  rewrite lower_close. destruct (beqb d ">"%char); reflexivity.
Qed.
Lemma at_here_lower s : at_here (map lower s) = option_map (map lower) (at_here s).
Proof.
  unfold at_here. rewrite (prefix_lower _ _ lower_token). cbv zeta.
  replace (tl (map lower (prefix_of is_token s))) with (map lower (tl (prefix_of is_token s))) by (destruct (prefix_of is_token s); reflexivity).
  rewrite at_before_end_lower. destruct (at_before_end _); reflexivity.
Qed.
Lemma token_here_lower s : token_here (map lower s) = option_map (map lower) (token_here s).
Proof. unfold token_here. rewrite (prefix_lower _ _ lower_token). destruct (prefix_of is_token s); reflexivity. Qed.
Lemma extract_lower (s : bytes) : extract_address (map lower s) = map lower (extract_address s).
Proof.
  unfold extract_address.
  rewrite (scan_lower _ _ bracket_here_lower), (scan_lower _ _ at_here_lower), (scan_lower _ _ token_here_lower).
  repeat (match goal with |- context [option_map (map lower) ?x] => destruct x; [reflexivity|cbn [option_map]] end). reflexivity.
Qed.
Lemma address_case s s' : map lower s = map lower s' -> address_spec s = address_spec s'.
Proof. intros H. unfold address_spec. rewrite <- !extract_lower, H. reflexivity. Qed.

(** *** Paths *)

Lemma path_address pre a post : no_brackets pre -> no_brackets a ->
  extract_address (pre ++ "<"%char :: a ++ ">"%char :: post) = a.
Proof.
  intros Hp Ha. apply (contains_unique (pre ++ "<"%char :: a ++ ">"%char :: post)); [apply extract_address_spec|]. apply ca_path.
  exists pre. split; [exists post; cbn [app]; rewrite <- app_assoc; reflexivity|].
  split; [exists a; auto|]. split.
  - intros pre' t' [post' E] (b & -> & _). destruct (Nat.le_gt_cases (length pre) (length pre')) as [L|L]; [exact L|].
    exfalso. apply (proj1 Hp). cbn [app] in E.
    assert (X : nth_error (pre ++ "<"%char :: a ++ ">"%char :: post) (length pre') = Some "<"%char).
    { rewrite E. rewrite nth_error_app2 by lia. rewrite Nat.sub_diag. reflexivity. }
    rewrite nth_error_app1 in X by exact L. exact (nth_error_In _ _ X).
  - intros t' [post' E] (b & -> & Hb). apply app_inv_head in E. cbn [app] in E. injection E as E.
    rewrite <- app_assoc in E. cbn [app] in E.
    cbn [length]. rewrite !app_length. cbn [length]. enough (length b <= length a)%nat by lia.
    clear - E Ha Hb. revert b E Hb. induction a as [|x a IH]; intros b E Hb; destruct b as [|y b]; cbn [length]; try lia.
    + injection E as E _. subst y. elim (proj2 Hb). left. reflexivity.
    + injection E as -> E. apply le_n_S, IH; [|exact E|].
      * split; intros X; [apply (proj1 Ha)|apply (proj2 Ha)]; right; exact X.
      * split; intros X; [apply (proj1 Hb)|apply (proj2 Hb)]; right; exact X.
Qed.
