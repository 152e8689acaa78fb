(** The parser of envelope arguments accepts exactly the texts of [EsmtpSpec]. *)
From Verif.Base Require Import Bytes BytesFacts.
From Verif.Model Require Import Esmtp.
From Verif.Spec Require Import EsmtpSpec.
From Coq Require Import ZifyBool ZifyNat ZifyN.
Local Open Scope N_scope.

Lemma code_eq a b : a = b <-> code a = code b.
Proof.
  split; [congruence|]. intros H. unfold code in H.
  rewrite <- (ascii_N_embedding a), <- (ascii_N_embedding b). congruence.
Qed.
Lemma code_byte a : code a < 256.
Proof. apply N_ascii_bounded. Qed.
Lemma beqb_code a b : beqb a b = (code a =? code b).
Proof.
  destruct (beqb a b) eqn:E.
  - apply beqb_eq in E. subst. symmetry. apply N.eqb_refl.
  - apply beqb_neq in E. symmetry. apply N.eqb_neq. intros H. apply E, code_eq, H.
Qed.

Ltac codes :=
  repeat match goal with
         | |- context [code (Ascii ?a ?b ?c ?d ?e ?f ?g ?h)] =>
             let v := eval vm_compute in (code (Ascii a b c d e f g h)) in
             change (code (Ascii a b c d e f g h)) with v
         | H : context [code (Ascii ?a ?b ?c ?d ?e ?f ?g ?h)] |- _ =>
             let v := eval vm_compute in (code (Ascii a b c d e f g h)) in
             change (code (Ascii a b c d e f g h)) with v in H
         end.
Ltac chars :=
  unfold is_space, is_cntrl, is_graph, is_atom_text, is_text, atom_char in *;
  unfold is_alnum, letter_or_digit in *;
  unfold lit in *; cbn [list_ascii_of_string In] in *;
  repeat rewrite beqb_code in *; repeat rewrite code_eq in *; codes.

Lemma alnum_spec c : is_alnum c = true <-> letter_or_digit c.
Proof. chars. lia. Qed.
Lemma name_char_spec c : is_alnum c || beqb c "-" || beqb c "." = true <->
  letter_or_digit c \/ In c (lit "-.").
Proof. chars. lia. Qed.
Lemma keyword_char_spec c : is_alnum c || beqb c "-" = true <-> letter_or_digit c \/ c = "-"%char.
Proof. chars. lia. Qed.
Lemma atom_char_spec c : is_atom_text c || beqb c "." = true <-> atom_char c \/ c = "."%char.
Proof. chars. lia. Qed.
Lemma value_char_spec c : is_graph c && negb (beqb c "=") = true <->
  33 <= code c <= 126 /\ c <> "="%char.
Proof. chars. lia. Qed.
Lemma text_spec c : is_text c = true <->
  1 <= code c <= 9 \/ code c = 11 \/ code c = 12 \/ 14 <= code c <= 126.
Proof. chars. lia. Qed.
Lemma plain_spec c : c <> NUL ->
  negb (is_space c) && (is_cntrl c || is_graph c) = true <->
  1 <= code c <= 8 \/ code c = 11 \/ 14 <= code c <= 31 \/ 33 <= code c <= 127.
Proof. unfold NUL, Ascii.zero. intros H. chars. lia. Qed.

(** *** The longest prefix *)

Definition stops (p : byte -> bool) (s : bytes) : Prop :=
  match s with [] => True | c :: _ => p c = false end.
Lemma munch_sound p s : forall t rest, munch p s = (t, rest) ->
  s = t ++ rest /\ Forall (fun c => p c = true) t /\ stops p rest.
Proof.
  induction s as [|c s IH]; intros t rest; cbn [munch].
  - intros [= <- <-]. repeat split; constructor.
  - destruct (p c) eqn:E.
    + destruct (munch p s) as [t' r'] eqn:Em. intros [= <- <-].
      destruct (IH _ _ eq_refl) as (-> & H1 & H2). split; [reflexivity|]. split; [constructor; auto|auto].
    + intros [= <- <-]. split; [reflexivity|]. split; [constructor|exact E].
Qed.
Lemma munch_complete p t rest : Forall (fun c => p c = true) t -> stops p rest ->
  munch p (t ++ rest) = (t, rest).
Proof.
  induction 1 as [|c t Hc Ht IH]; intros Hs; cbn [app munch].
  - destruct rest as [|c r]; [reflexivity|]. cbn in *. rewrite Hs. reflexivity.
  - rewrite Hc, IH by auto. reflexivity.
Qed.
Lemma Forall_iff {A} (P Q : A -> Prop) l : (forall a, P a <-> Q a) -> Forall P l -> Forall Q l.
Proof. intros H. apply Forall_impl. intros a. apply H. Qed.

(** *** Quotes and brackets *)

Section Bracketed.
Variables (stop : byte -> bool) (close : byte) (delimiters : list byte).
Hypothesis Hstop : forall c, stop c = true <-> In c delimiters.
Hypothesis Hclose : In close delimiters.
Hypothesis Hback : ~ In "\"%char delimiters.

Lemma bracketed_sound n : forall s t rest, (length s <= n)%nat -> no_nul s ->
  bracketed stop close s = Parsed (t, rest) ->
  exists q, quoted delimiters q /\ t = q ++ [close] /\ s = t ++ rest.
Proof.
  induction n as [|n IH]; intros s t rest Hl Hn H.
  { destruct s; [discriminate H|cbn in Hl; lia]. }
  destruct s as [|c s]; [discriminate H|]. cbn [bracketed] in H. cbn [length] in Hl.
  assert (Hn' : no_nul s) by (intros Hi; apply Hn; right; exact Hi).
  assert (Hc : c <> NUL) by (intros ->; apply Hn; left; reflexivity).
  destruct (stop c) eqn:Es.
  { destruct (beqb c close) eqn:Ec; [|discriminate H]. apply beqb_eq in Ec. subst c.
    injection H as <- <-. exists []. split; [constructor|]. split; reflexivity. }
  destruct (beqb c "\") eqn:Eb.
  { apply beqb_eq in Eb. subst c. destruct s as [|d s]; [discriminate H|].
    destruct (is_text d) eqn:Et; [|discriminate H].
    destruct (bracketed stop close s) as [[t' r']| |] eqn:E; try discriminate H.
    injection H as <- <-. cbn [length] in Hl.
    destruct (IH s t' r') as (q & Hq & -> & ->); [lia| |exact E|].
    { intros Hi; apply Hn'; right; exact Hi. }
    exists ("\"%char :: d :: q). split; [|split; reflexivity].
    apply quoted_pair; [apply text_spec, Et|exact Hq]. }
  destruct (is_space c) eqn:Esp; [discriminate H|].
  destruct (is_cntrl c || is_graph c) eqn:Eg; [|discriminate H].
  destruct (bracketed stop close s) as [[t' r']| |] eqn:E; try discriminate H.
  injection H as <- <-. destruct (IH s t' r') as (q & Hq & -> & ->); [lia|exact Hn'|exact E|].
  exists (c :: q). split; [|split; reflexivity]. apply quoted_char; [|apply beqb_neq, Eb| |exact Hq].
  - intros Hi. apply Hstop in Hi. congruence.
  - apply plain_spec; [exact Hc|]. rewrite Esp, Eg. reflexivity.
Qed.

Lemma bracketed_complete q rest : quoted delimiters q ->
  bracketed stop close (q ++ close :: rest) = Parsed (q ++ [close], rest).
Proof.
  induction 1 as [|c s Hd Hb Hr Hq IH|c s Ht Hq IH]; cbn [app bracketed].
  - rewrite (proj2 (Hstop close) Hclose), beqb_refl. reflexivity.
  - destruct (stop c) eqn:Es; [apply Hstop in Es; contradiction|].
    apply beqb_neq in Hb. rewrite Hb.
    assert (Hc : c <> NUL) by (intros ->; change (code NUL) with 0 in Hr; lia).
    apply (plain_spec _ Hc) in Hr. apply andb_true_iff in Hr. destruct Hr as [H1 H2].
    destruct (is_space c); [discriminate H1|]. rewrite H2, IH. reflexivity.
  - destruct (stop "\"%char) eqn:Es; [apply Hstop in Es; contradiction|].
    change (beqb "\" "\") with true. cbn match. apply text_spec in Ht. rewrite Ht, IH. reflexivity.
Qed.
End Bracketed.

Lemma bracket_stop c : beqb c "[" || beqb c "]" = true <-> In c (lit "[]").
Proof. chars. lia. Qed.
Lemma quote_stop c : beqb c """" = true <-> In c (lit """").
Proof. chars. lia. Qed.

(** *** Domains *)

Lemma no_nul_app a b : no_nul (a ++ b) <-> no_nul a /\ no_nul b.
Proof. unfold no_nul. rewrite in_app_iff. tauto. Qed.

Definition not_name (s : bytes) : Prop := stops (fun c => is_alnum c || beqb c "-" || beqb c ".") s.

Lemma domain_sound s d rest : no_nul s -> parse_domain s = Parsed (d, rest) ->
  domain_text d /\ s = d ++ rest.
Proof.
  intros Hn. destruct s as [|c s]; [discriminate|]. cbn [parse_domain].
  assert (Hn' : no_nul s) by (intros Hi; apply Hn; right; exact Hi).
  destruct (beqb c "[") eqn:Eb.
  - apply beqb_eq in Eb. subst c. destruct (bracketed _ _ s) as [[t r]| |] eqn:E; intros [= <- <-].
    destruct (bracketed_sound _ "]"%char _ bracket_stop (length s) s t r) as (q & Hq & -> & ->); auto.
    split; [apply domain_literal, Hq|reflexivity].
  - destruct (is_alnum c) eqn:Ea; [|discriminate].
    destruct (munch _ s) as [t r] eqn:E. intros [= <- <-].
    destruct (munch_sound _ _ _ _ E) as (-> & H1 & H2). split; [|reflexivity].
    apply domain_name; [apply alnum_spec, Ea|]. revert H1. apply Forall_iff. intros a. apply name_char_spec.
Qed.
Lemma domain_complete d rest : domain_text d -> not_name rest ->
  parse_domain (d ++ rest) = Parsed (d, rest).
Proof.
  intros [c s Hc Hs|s Hq] Hr; cbn [app parse_domain].
  - assert (beqb c "[" = false) as -> by (chars; lia).
    apply alnum_spec in Hc. rewrite Hc, munch_complete; [reflexivity| |exact Hr].
    revert Hs. apply Forall_iff. intros a. symmetry. apply name_char_spec.
  - rewrite <- app_assoc. change (beqb "[" "[") with true. cbn match.
    change (lit "]" ++ rest) with ("]"%char :: rest).
    rewrite (bracketed_complete _ _ (lit "[]")); [reflexivity|apply bracket_stop| | |exact Hq].
    + right. left. reflexivity.
    + cbn. intuition congruence.
Qed.

(** *** Source routes *)

Lemma route_sound n : forall s r rest, no_nul s -> parse_source_route n s = Parsed (r, rest) ->
  s = r ++ rest /\
  match r with
  | [] => match s with c :: _ => c <> "@"%char | [] => True end
  | _ :: _ => route_text r
  end.
Proof.
  induction n as [|n IH]; intros s r rest Hn H; [discriminate H|]. cbn [parse_source_route] in H.
  destruct s as [|c s]; [injection H as <- <-; split; auto|].
  destruct (beqb c "@") eqn:Ea.
  2:{ apply beqb_neq in Ea. injection H as <- <-. auto. }
  apply beqb_eq in Ea. subst c.
  assert (Hn' : no_nul s) by (intros Hi; apply Hn; right; exact Hi).
  destruct (parse_domain s) as [[d s1]| |] eqn:Ed; try discriminate H.
  destruct (domain_sound _ _ _ Hn' Ed) as [Hd ->].
  destruct s1 as [|k s2]; [injection H as <- <-; split; [reflexivity|apply route_one, Hd]|].
  destruct (beqb k ",") eqn:Ek.
  2:{ injection H as <- <-. split; [reflexivity|apply route_one, Hd]. }
  apply beqb_eq in Ek. subst k.
  destruct (parse_source_route n s2) as [[t s3]| |] eqn:Er; try discriminate H.
  injection H as <- <-.
  destruct (IH _ _ _ ltac:(apply no_nul_app in Hn'; intros Hi; apply (proj2 Hn'); right; exact Hi) Er) as [-> Ht].
  split; [cbn; rewrite <- app_assoc; reflexivity|].
  destruct t as [|x t]; [apply route_comma, Hd|apply route_more; auto].
Qed.
Lemma route_complete r rest : route_text r -> forall n, (length r < n)%nat ->
  parse_source_route n (r ++ ":"%char :: rest) = Parsed (r, ":"%char :: rest).
Proof.
  induction 1 as [d Hd|d Hd|d r Hd Hr IH]; intros n Hl; (destruct n as [|n]; [lia|]);
    cbn [app parse_source_route]; change (beqb "@" "@") with true; cbn match.
  - rewrite domain_complete by (auto; reflexivity). reflexivity.
  - rewrite <- app_assoc. rewrite domain_complete by (auto; reflexivity). cbn [lit list_ascii_of_string app].
    change (beqb "," ",") with true. cbn match.
    destruct n as [|n]; [cbn [length] in Hl; rewrite app_length in Hl; cbn in Hl; lia|].
    cbn [parse_source_route]. change (beqb ":" "@") with false. cbn match. reflexivity.
  - rewrite <- app_assoc. rewrite domain_complete by (auto; reflexivity). cbn [app].
    change (beqb "," ",") with true. cbn match.
    rewrite IH by (cbn [length] in Hl; rewrite app_length in Hl; cbn in Hl; lia). reflexivity.
Qed.

(** *** Local parts and mailboxes *)

Lemma local_sound s l rest : no_nul s -> parse_local_part s = Parsed (l, rest) ->
  local_text l /\ s = l ++ rest.
Proof.
  intros Hn. destruct s as [|c s]; cbn [parse_local_part].
  { intros [= <- <-]. split; [apply local_atoms; constructor|reflexivity]. }
  assert (Hn' : no_nul s) by (intros Hi; apply Hn; right; exact Hi).
  destruct (beqb c """") eqn:Eb.
  - apply beqb_eq in Eb. subst c. destruct (bracketed _ _ s) as [[t r]| |] eqn:E; intros [= <- <-].
    destruct (bracketed_sound _ """"%char _ quote_stop (length s) s t r) as (q & Hq & -> & ->); auto.
    split; [apply local_quoted, Hq|reflexivity].
  - intros H. assert (E : munch (fun c => is_atom_text c || beqb c ".") (c :: s) = (l, rest)) by congruence. clear H. destruct (munch_sound _ _ _ _ E) as (H0 & H1 & H2). split; [|exact H0].
    apply local_atoms. revert H1. apply Forall_iff. intros a. apply atom_char_spec.
Qed.
Lemma local_complete l rest : local_text l ->
  parse_local_part (l ++ "@"%char :: rest) = Parsed (l, "@"%char :: rest).
Proof.
  intros [s Hs|s Hq].
  - assert (Hm : munch (fun c => is_atom_text c || beqb c ".") (s ++ "@"%char :: rest)
                 = (s, "@"%char :: rest)).
    { apply munch_complete; [|reflexivity]. revert Hs. apply Forall_iff. intros a. symmetry. apply atom_char_spec. }
    destruct s as [|c s]; [reflexivity|]. cbn [app parse_local_part] in *.
    assert (beqb c """" = false) as ->.
    { inversion Hs as [|? ? Hc]; subst. chars. lia. }
    f_equal. exact Hm.
  - cbn [app parse_local_part]. change (beqb """" """") with true. cbn match.
    rewrite <- app_assoc. change (lit """" ++ "@"%char :: rest) with (""""%char :: "@"%char :: rest).
    rewrite (bracketed_complete _ _ (lit """")); [reflexivity|apply quote_stop| | |exact Hq].
    + left. reflexivity.
    + cbn. intuition congruence.
Qed.
Lemma mailbox_sound s m rest : no_nul s -> parse_mailbox s = Parsed (m, rest) ->
  s = m ++ rest /\ exists l d, local_text l /\ domain_text d /\ m = l ++ "@"%char :: d.
Proof.
  intros Hn. unfold parse_mailbox. destruct (parse_local_part s) as [[l s1]| |] eqn:El; try discriminate.
  destruct (local_sound _ _ _ Hn El) as [Hl ->]. destruct s1 as [|k s2]; [discriminate|].
  destruct (beqb k "@") eqn:Ek; [|discriminate]. apply beqb_eq in Ek. subst k.
  assert (Hn2 : no_nul s2) by (apply no_nul_app in Hn; intros Hi; apply (proj2 Hn); right; exact Hi).
  destruct s2 as [|x [|y s3]]; try discriminate.
  destruct (parse_domain _) as [[d s4]| |] eqn:Ed; try discriminate.
  destruct (domain_sound _ _ _ Hn2 Ed) as [Hd ->]. intros [= <- <-].
  split; [rewrite <- app_assoc; reflexivity|eauto].
Qed.
Lemma domain_nonempty d : domain_text d -> d <> [].
Proof. intros []; discriminate. Qed.
Lemma mailbox_complete l d rest : local_text l -> domain_text d ->
  parse_mailbox (l ++ "@"%char :: d ++ ">"%char :: rest) = Parsed (l ++ "@"%char :: d, ">"%char :: rest).
Proof.
  intros Hl Hd. unfold parse_mailbox. rewrite local_complete by exact Hl.
  change (beqb "@" "@") with true. cbn match.
  rewrite (domain_complete d (">"%char :: rest) Hd) by reflexivity.
  apply domain_nonempty in Hd. destruct d as [|x [|y d]]; [elim Hd; reflexivity| |]; reflexivity.
Qed.

(** *** Paths *)

Lemma prefix_of_sound p : forall s rest, prefix_of p s = Some rest -> s = p ++ rest.
Proof.
  induction p as [|a p IH]; intros s rest; cbn [prefix_of app]; [intros [= ->]; reflexivity|].
  destruct s as [|b s]; [discriminate|]. destruct (beqb a b) eqn:E; [|discriminate].
  apply beqb_eq in E. subst b. intros H. f_equal. apply IH, H.
Qed.
Lemma prefix_of_app p rest : prefix_of p (p ++ rest) = Some rest.
Proof. induction p as [|a p IH]; cbn [prefix_of app]; [reflexivity|]. rewrite beqb_refl. exact IH. Qed.

Lemma path_sound pm s path rest : no_nul s -> (exists s', s = "<"%char :: s') ->
  parse_path pm s = Parsed (path, rest) -> exists p, path_text pm p path /\ s = p ++ rest.
Proof.
  intros Hn [s1 ->]. cbn [parse_path]. change (beqb "<" "<") with true. cbn [negb]. cbn match.
  assert (Hn1 : no_nul s1) by (intros Hi; apply Hn; right; exact Hi).
  destruct s1 as [|k s2]; [vm_compute; discriminate|].
  destruct (beqb k ">") eqn:Ek.
  { apply beqb_eq in Ek. subst k. intros [= <- <-]. exists (lit "<>"). split; [constructor|reflexivity]. }
  destruct (if pm then _ else _) as [r|] eqn:Ep.
  { destruct pm; [|discriminate Ep]. apply prefix_of_sound in Ep. intros [= <- <-].
    exists (lit "<Postmaster>"). split; [constructor; reflexivity|exact Ep]. }
  clear Ep. remember (k :: s2) as s1 eqn:Es1.
  destruct (parse_source_route _ s1) as [[r s3]| |] eqn:Er; try discriminate.
  destruct (route_sound _ _ _ _ Hn1 Er) as [Es Hr].
  destruct r as [|x r].
  - cbn in Es. subst s3. cbn match.
    destruct (parse_mailbox s1) as [[m s4]| |] eqn:Em; try discriminate.
    destruct (mailbox_sound _ _ _ Hn1 Em) as (Es4 & l & d & Hl & Hd & ->).
    destruct s4 as [|k' rest']; [discriminate|]. destruct (beqb k' ">") eqn:Ek'; [|discriminate].
    apply beqb_eq in Ek'. subst k'. intros [= <- <-]. rewrite Es4.
    assert (l <> []) as Hl0.
    { intros ->. rewrite Es4 in Hr. cbn in Hr. congruence. }
    eexists. split.
    + change (">"%char :: []) with (lit ">"). cbn [app]. rewrite <- app_assoc. cbn [app].
      apply path_mailbox; auto.
    + cbn. rewrite <- !app_assoc. cbn. rewrite <- !app_assoc. reflexivity.
  - destruct s3 as [|k' s4]; [discriminate|]. destruct (beqb k' ":") eqn:Ek'; [|discriminate].
    apply beqb_eq in Ek'. subst k'.
    assert (Hn4 : no_nul s4).
    { rewrite Es in Hn1. apply no_nul_app in Hn1. intros Hi. apply (proj2 Hn1). right. exact Hi. }
    destruct (parse_mailbox s4) as [[m s5]| |] eqn:Em; try discriminate.
    destruct (mailbox_sound _ _ _ Hn4 Em) as (-> & l & d & Hl & Hd & ->).
    destruct s5 as [|k' rest']; [discriminate|]. destruct (beqb k' ">") eqn:Ek'; [|discriminate].
    apply beqb_eq in Ek'. subst k'. intros H.
    assert (path = Some ("<"%char :: (x :: r) ++ ":"%char :: l ++ "@"%char :: d ++ lit ">")) as ->.
    { injection H as <- _. do 2 f_equal. rewrite <- !app_assoc. reflexivity. }
    assert (rest' = rest) as -> by congruence. rewrite Es.
    eexists. split; [apply path_route; auto|].
    cbn [app]. do 2 f_equal. rewrite <- !app_assoc. cbn [app]. do 2 f_equal.
    rewrite <- !app_assoc. cbn [app]. do 2 f_equal. rewrite <- !app_assoc. reflexivity.
Qed.

Lemma no_postmaster l d rest : local_text l ->
  prefix_of (lit "<Postmaster>") ("<"%char :: l ++ "@"%char :: d ++ rest) = None.
Proof.
  intros Hl. destruct (prefix_of _ _) as [r|] eqn:E; [|reflexivity]. exfalso.
  apply prefix_of_sound in E. cbn in E.
  destruct Hl as [s Hs|s Hq]; [|discriminate E].
  assert (Hm : forall (a b c e : bytes), Forall (fun c => atom_char c \/ c = "."%char) a ->
             a ++ "@"%char :: b = c ++ ">"%char :: e -> Forall (fun x => x <> "@"%char) c -> False).
  { clear. induction a as [|x a IH]; intros b c e Ha E Hc.
    - destruct c as [|y c]; [discriminate E|]. injection E as <- _. inversion Hc; congruence.
    - inversion Ha as [|? ? Hx Ha']; subst. destruct c as [|y c].
      + injection E as -> _. revert Hx. chars. lia.
      + injection E as <- E. inversion Hc; subst. eapply IH; eauto. }
  assert (E' : s ++ "@"%char :: d ++ rest = lit "Postmaster" ++ ">"%char :: r) by (cbn; congruence).
  eapply Hm; [exact Hs|exact E'|]. cbn. repeat constructor; congruence.
Qed.

Lemma path_complete pm p path rest : path_text pm p path ->
  parse_path pm (p ++ rest) = Parsed (path, rest).
Proof.
  intros [| -> |l d Hl Hd p' Hl0|r l d Hr Hl Hd p'].
  - reflexivity.
  - reflexivity.
  - subst p'. change (("<"%char :: l ++ "@"%char :: d ++ lit ">") ++ rest)
      with ("<"%char :: (l ++ "@"%char :: d ++ lit ">") ++ rest).
    assert (Es : (l ++ "@"%char :: d ++ lit ">") ++ rest = l ++ "@"%char :: d ++ ">"%char :: rest).
    { rewrite <- app_assoc. cbn. rewrite <- app_assoc. reflexivity. }
    rewrite Es. unfold parse_path. rewrite no_postmaster by exact Hl.
    change (beqb "<" "<") with true. cbn [negb]. cbn match.
    replace (if pm then None else None) with (@None bytes) by (destruct pm; reflexivity).
    assert (Hk : exists k s2, l ++ "@"%char :: d ++ ">"%char :: rest = k :: s2 /\
                  beqb k ">" = false /\ beqb k "@" = false).
    { destruct l as [|k l]; [congruence|]. exists k. eexists. split; [reflexivity|].
      inversion Hl as [s Hs E|s Hq E]; subst; [|split; reflexivity].
      inversion Hs as [|? ? Hx]; subst. revert Hx. chars. lia. }
    destruct Hk as (k & s2 & Ek & E1 & E2).
    pose proof (mailbox_complete l d rest Hl Hd) as Hm. rewrite Ek in *. cbn match. rewrite E1.
    cbn [parse_source_route]. rewrite E2. rewrite Hm. change (beqb ">" ">") with true. cbn match.
    do 4 f_equal. cbn [app]. rewrite <- app_assoc. reflexivity.
  - subst p'. change (("<"%char :: r ++ ":"%char :: l ++ "@"%char :: d ++ lit ">") ++ rest)
      with ("<"%char :: (r ++ ":"%char :: l ++ "@"%char :: d ++ lit ">") ++ rest).
    assert (Es : (r ++ ":"%char :: l ++ "@"%char :: d ++ lit ">") ++ rest
                 = r ++ ":"%char :: l ++ "@"%char :: d ++ ">"%char :: rest).
    { rewrite <- app_assoc. cbn. rewrite <- app_assoc. cbn. rewrite <- app_assoc. reflexivity. }
    rewrite Es. unfold parse_path. change (beqb "<" "<") with true. cbn [negb]. cbn match.
    assert (Hk : exists r', r = "@"%char :: r') by (destruct Hr; eauto).
    destruct Hk as [r' Er].
    assert (prefix_of (lit "<Postmaster>") ("<"%char :: r ++ ":"%char :: l ++ "@"%char :: d ++ ">"%char :: rest) = None) as -> by (rewrite Er; reflexivity).
    replace (if pm then None else None) with (@None bytes) by (destruct pm; reflexivity).
    pose proof (route_complete r (l ++ "@"%char :: d ++ ">"%char :: rest) Hr
                  (S (length (r ++ ":"%char :: l ++ "@"%char :: d ++ ">"%char :: rest)))
                  ltac:(rewrite app_length; lia)) as Hp.
    rewrite Er in *. cbn [app] in *. change (beqb "@" ">") with false. cbn match.
    rewrite Hp. change (beqb ":" ":") with true. cbn match.
    rewrite mailbox_complete by auto. change (beqb ">" ">") with true. cbn match.
    do 4 f_equal. cbn [app]. rewrite <- !app_assoc. cbn [app]. reflexivity.
Qed.

(** *** Parameters *)

Lemma parameters_sound n : forall s ps rest, parse_parameters n s = Parsed (ps, rest) ->
  Forall parameter_ok ps /\ s = concat (map parameter_text ps) ++ rest.
Proof.
  induction n as [|n IH]; intros s ps rest H; [discriminate H|]. cbn [parse_parameters] in H.
  destruct s as [|c s1]; [injection H as <- <-; split; [constructor|reflexivity]|].
  destruct (beqb c " ") eqn:Ec; [|injection H as <- <-; split; [constructor|reflexivity]].
  apply beqb_eq in Ec. subst c. destruct s1 as [|k s2]; [discriminate H|].
  destruct (is_alnum k) eqn:Ek; [|discriminate H].
  destruct (munch _ s2) as [t s3] eqn:Et. destruct (munch_sound _ _ _ _ Et) as (-> & H1 & _).
  assert (Hkey : keyword (k :: t)).
  { split; [apply alnum_spec, Ek|]. revert H1. apply Forall_iff. intros a. apply keyword_char_spec. }
  destruct (match s3 with [] => _ | _ => _ end) as [value s4] eqn:Ev.
  destruct (parse_parameters n s4) as [[ps' r']| |] eqn:Ep; try discriminate H.
  injection H as <- <-. destruct (IH _ _ _ Ep) as [Hps Es4].
  assert (Hv : match value with Some v => parameter_value v | None => True end /\
               s3 = match value with Some v => "="%char :: v | None => [] end ++ s4).
  { destruct s3 as [|e s3']; [injection Ev as <- <-; auto|].
    destruct (beqb e "=") eqn:Ee; [|injection Ev as <- <-; auto].
    apply beqb_eq in Ee. subst e. destruct (munch _ s3') as [v s5] eqn:Em. injection Ev as <- <-.
    destruct (munch_sound _ _ _ _ Em) as (-> & Hf & _). split; [|reflexivity].
    revert Hf. apply Forall_iff. intros a. apply value_char_spec. }
  destruct Hv as [Hv ->]. split; [constructor; [split; assumption|exact Hps]|].
  cbn [map concat]. unfold parameter_text at 1. cbn [fst snd app]. rewrite Es4.
  f_equal. f_equal. rewrite <- !app_assoc. reflexivity.
Qed.

Lemma parameters_complete ps : forall n, Forall parameter_ok ps ->
  (length (concat (map parameter_text ps)) < n)%nat ->
  parse_parameters n (concat (map parameter_text ps)) = Parsed (ps, []).
Proof.
  induction ps as [|[k v] ps IH]; intros n Hp Hl; (destruct n as [|n]; [lia|]); [reflexivity|].
  inversion Hp as [|? ? [Hk Hv] Hps]; subst. cbn [fst snd] in *.
  cbn [map concat] in *. rewrite app_length in Hl. unfold parameter_text at 1.
  unfold parameter_text at 1 in Hl. cbn [fst snd app length] in *.
  destruct k as [|c k]; [contradiction|]. destruct Hk as [Hc Hk].
  cbn [parse_parameters]. change (beqb " " " ") with true. cbn [app]. cbn match.
  apply alnum_spec in Hc. rewrite Hc.
  assert (Hk' : Forall (fun c => is_alnum c || beqb c "-" = true) k).
  { revert Hk. apply Forall_iff. intros a. symmetry. apply keyword_char_spec. }
  set (r := concat (map parameter_text ps)) in *.
  assert (Hr : r = [] \/ exists r', r = " "%char :: r').
  { subst r. destruct ps as [|p ps]; [left; reflexivity|right]. cbn. eauto. }
  destruct v as [v|].
  - rewrite <- app_assoc. rewrite munch_complete; [|exact Hk'|reflexivity].
    cbn [app]. change (beqb "=" "=") with true. cbn match.
    rewrite munch_complete.
    + rewrite IH; [reflexivity|exact Hps|]. rewrite app_length in Hl. cbn in Hl. lia.
    + revert Hv. apply Forall_iff. intros a. symmetry. apply value_char_spec.
    + destruct Hr as [->|[r' ->]]; [exact I|reflexivity].
  - rewrite app_nil_r. rewrite munch_complete; [|exact Hk'|].
    + rewrite app_nil_r in Hl. cbn [length] in Hl.
      assert (IH' : parse_parameters n r = Parsed (ps, [])) by (apply IH; [exact Hps|lia]).
      destruct Hr as [Er|[r' Er]]; rewrite Er in *; cbn match.
      * rewrite IH'. reflexivity.
      * change (beqb " " "=") with false. cbn match. rewrite IH'. reflexivity.
    + destruct Hr as [->|[r' ->]]; [exact I|reflexivity].
Qed.

Lemma get_put t k v k' :
  get_parameter (put_parameter t k v) k' = if bytes_eqb k k' then Some v else get_parameter t k'.
Proof.
  induction t as [|[a w] t IH]; cbn [put_parameter get_parameter]; [reflexivity|].
  destruct (bytes_eqb a k) eqn:E; cbn [get_parameter].
  - apply bytes_eqb_eq in E. subst a. destruct (bytes_eqb k k'); reflexivity.
  - destruct (bytes_eqb a k') eqn:E'; [|exact IH].
    apply bytes_eqb_eq in E'. subst a. destruct (bytes_eqb k k') eqn:E2; [|reflexivity].
    apply bytes_eqb_eq in E2. subst k'. rewrite bytes_eqb_refl in E. discriminate.
Qed.
Lemma table_last ps k : last_parameter ps k (get_parameter (parameter_table ps) k).
Proof.
  unfold parameter_table. induction ps as [|[a v] ps IH] using rev_ind.
  - apply last_none. intros v [].
  - rewrite fold_left_app. cbn [fold_left fst snd]. rewrite get_put.
    destruct (bytes_eqb a k) eqn:E.
    + apply bytes_eqb_eq in E. subst a. apply last_some. intros v' [].
    + apply bytes_eqb_neq in E. inversion IH as [? ? Hn E0|b c ? w Hn E1].
      * apply last_none. intros v' Hi. apply in_app_iff in Hi. destruct Hi as [Hi|[Hi|[]]]; [eapply Hn; eauto|congruence].
      * rewrite <- app_assoc. cbn [app]. apply last_some. intros v' Hi. apply in_app_iff in Hi.
        destruct Hi as [Hi|[Hi|[]]]; [eapply Hn; eauto|congruence].
Qed.

(** *** Arguments *)

Lemma parameters_no_overread n : forall s, parse_parameters n s <> OverRead.
Proof.
  induction n as [|n IH]; intros s; cbn [parse_parameters]; [discriminate|].
  destruct s as [|c s1]; [discriminate|]. destruct (beqb c " "); [|discriminate].
  destruct s1 as [|k s2]; [discriminate|]. destruct (is_alnum k); [|discriminate].
  destruct (munch _ s2) as [t s3]. destruct (match s3 with [] => _ | _ => _ end) as [v s4].
  specialize (IH s4). destruct (parse_parameters n s4) as [[]| |]; congruence.
Qed.

Lemma argument_sound pm given s : no_nul s ->
  match parse_argument pm given s with
  | Accepted path t =>
      exists ps, argument_text pm s path ps /\
        t = match ps with [] => None | _ :: _ => Some (parameter_table ps) end /\
        (given = false \/ ps = [])
  | Dangling => given = true /\ exists path ps, argument_text pm s path ps /\ ps <> []
  | _ => True
  end.
Proof.
  intros Hn. unfold parse_argument. destruct s as [|c s]; [exact I|].
  destruct (beqb c "<") eqn:Ec; [|exact I]. apply beqb_eq in Ec. subst c.
  destruct (parse_path pm _) as [[path s1]| |] eqn:Ep; [|exact I|exact I].
  apply path_sound in Ep; [|exact Hn|eauto]. destruct Ep as (p & Hp & Es).
  destruct (parse_parameters _ s1) as [[ps s2]| |] eqn:Ea; [|exact I|exact I].
  apply parameters_sound in Ea. destruct Ea as [Hps ->].
  destruct s2; [|exact I]. rewrite app_nil_r in Es.
  destruct ps as [|p0 ps].
  - exists []. split; [|auto]. exists p. auto.
  - destruct given.
    + split; [reflexivity|]. exists path, (p0 :: ps). split; [exists p; auto|discriminate].
    + exists (p0 :: ps). split; [exists p; auto|auto].
Qed.

Lemma argument_complete pm given s path ps : argument_text pm s path ps ->
  parse_argument pm given s =
  match ps with
  | [] => Accepted path None
  | _ :: _ => if given then Dangling else Accepted path (Some (parameter_table ps))
  end.
Proof.
  intros (p & Hp & Hps & ->). unfold parse_argument.
  assert (Hs : exists p', p = "<"%char :: p') by (destruct Hp; try subst p; eexists; reflexivity).
  destruct Hs as [p' Es]. pose proof (path_complete pm p path (concat (map parameter_text ps)) Hp) as H.
  rewrite Es in *. cbn [app] in *. change (beqb "<" "<") with true. cbn match.
  rewrite H, parameters_complete; [reflexivity|exact Hps|lia].
Qed.

(** Without quotes and brackets nothing beyond the end is read. *)
Lemma domain_no_overread s : ~ In "["%char s -> parse_domain s <> OverRead.
Proof.
  destruct s as [|c s]; [discriminate|]. cbn [parse_domain]. intros H.
  destruct (beqb c "[") eqn:E; [apply beqb_eq in E; subst; elim H; left; reflexivity|].
  destruct (is_alnum c); [|discriminate]. destruct (munch _ s). discriminate.
Qed.
Lemma local_no_overread s : ~ In """"%char s -> parse_local_part s <> OverRead.
Proof.
  destruct s as [|c s]; [discriminate|]. cbn [parse_local_part]. intros H.
  destruct (beqb c """") eqn:E; [apply beqb_eq in E; subst; elim H; left; reflexivity|discriminate].
Qed.
Lemma route_no_overread n : forall s, no_nul s -> ~ In "["%char s -> parse_source_route n s <> OverRead.
Proof.
  induction n as [|n IH]; intros s Hn H; cbn [parse_source_route]; [discriminate|].
  destruct s as [|c s]; [discriminate|]. destruct (beqb c "@"); [|discriminate].
  assert (H' : ~ In "["%char s) by (intros Hi; apply H; right; exact Hi).
  assert (Hn' : no_nul s) by (intros Hi; apply Hn; right; exact Hi).
  pose proof (domain_no_overread _ H') as Hd.
  destruct (parse_domain s) as [[d s1]| |] eqn:Ed; [|discriminate|congruence].
  destruct (domain_sound _ _ _ Hn' Ed) as [_ ->].
  destruct s1 as [|k s2]; [discriminate|]. destruct (beqb k ","); [|discriminate].
  assert (Hr : parse_source_route n s2 <> OverRead).
  { apply IH.
    - apply no_nul_app in Hn'. intros Hi. apply (proj2 Hn'). right. exact Hi.
    - intros Hi. apply H', in_app_iff. right. right. exact Hi. }
  destruct (parse_source_route n s2) as [[]| |]; congruence.
Qed.
Lemma argument_no_overread pm given s : no_nul s -> ~ In """"%char s -> ~ In "["%char s ->
  parse_argument pm given s <> ReadsBeyond.
Proof.
  intros Hn Hq Hb. unfold parse_argument. destruct s as [|c s]; [discriminate|].
  destruct (beqb c "<") eqn:Ec; [|discriminate].
  assert (Hp : parse_path pm (c :: s) <> OverRead).
  { cbn [parse_path]. rewrite Ec. cbn [negb]. destruct s as [|k s2]; [vm_compute; discriminate|].
    destruct (beqb k ">"); [discriminate|]. destruct (if pm then _ else _); [discriminate|].
    assert (Hn1 : no_nul (k :: s2)) by (intros Hi; apply Hn; right; exact Hi).
    assert (Hq1 : ~ In """"%char (k :: s2)) by (intros Hi; apply Hq; right; exact Hi).
    assert (Hb1 : ~ In "["%char (k :: s2)) by (intros Hi; apply Hb; right; exact Hi).
    remember (k :: s2) as s1. clear dependent k.
    pose proof (route_no_overread (S (length s1)) s1 Hn1 Hb1) as Hr.
    destruct (parse_source_route _ s1) as [[r s3]| |] eqn:Er; [|discriminate|congruence].
    destruct (route_sound _ _ _ _ Hn1 Er) as [Es1 _].
    destruct (match r with [] => _ | _ => _ end) as [[r' s4]|] eqn:Em; [|discriminate].
    assert (Hs4 : exists p, s1 = p ++ s4).
    { destruct r as [|x r]; [injection Em as <- <-; exists []; exact Es1|].
      destruct s3 as [|k s5]; [discriminate Em|]. destruct (beqb k ":"); [|discriminate Em].
      injection Em as <- <-. exists ((x :: r) ++ [k]). rewrite <- app_assoc. exact Es1. }
    destruct Hs4 as [p Hs4].
    assert (Hm : parse_mailbox s4 <> OverRead).
    { assert (Hn4 : no_nul s4) by (rewrite Hs4 in Hn1; apply no_nul_app in Hn1; tauto).
      assert (Hq4 : ~ In """"%char s4) by (rewrite Hs4, in_app_iff in Hq1; tauto).
      assert (Hb4 : ~ In "["%char s4) by (rewrite Hs4, in_app_iff in Hb1; tauto).
      unfold parse_mailbox. pose proof (local_no_overread _ Hq4) as Hl.
      destruct (parse_local_part s4) as [[l s5]| |] eqn:El; [|discriminate|congruence].
      destruct (local_sound _ _ _ Hn4 El) as [_ ->]. destruct s5 as [|k s6]; [discriminate|].
      destruct (beqb k "@"); [|discriminate]. destruct s6 as [|x [|y s7]]; [discriminate|discriminate|].
      assert (Hb7 : ~ In "["%char (x :: y :: s7)).
      { intros Hi. apply Hb4, in_app_iff. right. right. exact Hi. }
      pose proof (domain_no_overread _ Hb7) as Hd.
      destruct (parse_domain _) as [[]| |]; congruence. }
    destruct (parse_mailbox s4) as [[m s5]| |]; [|discriminate|congruence].
    destruct s5 as [|k s6]; [discriminate|]. destruct (beqb k ">"); discriminate. }
  destruct (parse_path pm (c :: s)) as [[path s1]| |]; [|discriminate|congruence].
  pose proof (parameters_no_overread (S (length s1)) s1) as Ha.
  destruct (parse_parameters _ s1) as [[ps s2]| |]; [|discriminate|congruence].
  destruct s2; [|discriminate]. destruct ps; [discriminate|]. destruct given; discriminate.
Qed.
