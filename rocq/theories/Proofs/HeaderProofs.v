(** Header list edits: proofs. *)
From Coq Require Import Permutation.
From Verif.Base Require Import Bytes BytesFacts.
From Verif.Model Require Import Headers.
From Verif.Spec Require Import HeaderSpec.
Local Open Scope N_scope.

Lemma ostring_eqb_spec a b : ostring_eqb a b = true <-> a = b.
Proof.
  destruct a as [x|], b as [y|]; cbn; split; intros H; try discriminate; auto.
  - f_equal. apply bytes_eqb_eq. exact H.
  - injection H as ->. apply bytes_eqb_refl.
Qed.

Lemma header_eqb_spec a b : header_eqb a b = true <-> a = b.
Proof.
  unfold header_eqb. destruct a as [n v], b as [m w]. cbn [h_name h_value].
  rewrite andb_true_iff, ostring_eqb_spec. split.
  - intros [H ->]. apply bytes_eqb_eq in H as ->. reflexivity.
  - intros [= -> ->]. split; [apply bytes_eqb_refl|reflexivity].
Qed.

Lemma caseless_eqb_spec a b : caseless_eqb a b = true <-> caseless a b.
Proof.
  unfold caseless_eqb, caseless. split; [apply bytes_eqb_eq|intros ->; apply bytes_eqb_refl].
Qed.

Lemma occurrences_nil n : occurrences n [] = 0.
Proof. reflexivity. Qed.

Lemma occurrences_cons n h hs :
  occurrences n (h :: hs) = (if bytes_eqb (h_name h) n then 1 else 0) + occurrences n hs.
Proof.
  unfold occurrences, names. cbn [map count_occ].
  destruct (bytes_eq_dec (h_name h) n) as [->|Hne].
  - rewrite bytes_eqb_refl. lia.
  - destruct (bytes_eqb (h_name h) n) eqn:E; [apply bytes_eqb_eq in E; congruence|lia].
Qed.

Lemma occurrences_app n a b : occurrences n (a ++ b) = occurrences n a + occurrences n b.
Proof.
  induction a as [|h a IH]; [reflexivity|].
  cbn [app]. rewrite !occurrences_cons, IH. lia.
Qed.

Lemma nth_named_fun name i hs a h b a' h' b' :
  nth_named name i hs a h b -> nth_named name i hs a' h' b' -> a = a' /\ h = h' /\ b = b'.
Proof.
  intros (-> & Hn & Hi) (E & Hn' & Hi'). revert a' E Hi'. revert i Hi.
  induction a as [|x a IH]; intros i Hi a' E Hi'; destruct a' as [|y a']; cbn [app] in E.
  - injection E as <- <-. auto.
  - exfalso. injection E as <- ->. rewrite occurrences_nil in Hi. rewrite occurrences_cons in Hi'.
    subst name. rewrite bytes_eqb_refl in Hi'. lia.
  - exfalso. injection E as -> <-. rewrite occurrences_nil in Hi'. rewrite occurrences_cons in Hi.
    subst name. rewrite Hn', bytes_eqb_refl in Hi. lia.
  - injection E as <- E. rewrite occurrences_cons in Hi, Hi'.
    destruct (IH (occurrences name a + 1) eq_refl a' E) as (-> & -> & ->); auto.
    destruct (bytes_eqb (h_name x) name); lia.
Qed.

Lemma edit_nth_named_spec edit hs name : forall found index,
  match edit_nth_named edit found hs name index with
  | Some hs' => exists a h b, hs = a ++ h :: b /\ h_name h = name /\
                              index = found + occurrences name a + 1 /\ hs' = a ++ edit h ++ b
  | None => forall a h b, hs = a ++ h :: b -> h_name h = name ->
                          index <> found + occurrences name a + 1
  end.
Proof.
  induction hs as [|h hs IH]; intros found index; cbn [edit_nth_named].
  - intros a h b E. destruct a; discriminate.
  - destruct (bytes_eqb (h_name h) name) eqn:En; cbn [negb].
    + apply bytes_eqb_eq in En. destruct (found + 1 =? index) eqn:Ei.
      * exists [], h, hs. rewrite occurrences_nil. repeat split; auto. lia.
      * specialize (IH (found + 1) index).
        destruct (edit_nth_named edit (found + 1) hs name index) as [hs'|]; cbn [option_map].
        -- destruct IH as (a & x & b & -> & Hx & Hi & ->). exists (h :: a), x, b.
           rewrite occurrences_cons, En, bytes_eqb_refl. repeat split; auto. lia.
        -- intros a x b E Hx. destruct a as [|y a]; cbn [app] in E.
           ++ rewrite occurrences_nil. lia.
           ++ injection E as <- E. rewrite occurrences_cons, En, bytes_eqb_refl.
              specialize (IH a x b E Hx). lia.
    + specialize (IH found index).
      destruct (edit_nth_named edit found hs name index) as [hs'|]; cbn [option_map].
      * destruct IH as (a & x & b & -> & Hx & Hi & ->). exists (h :: a), x, b.
        rewrite occurrences_cons, En. repeat split; auto.
      * intros a x b E Hx. destruct a as [|y a]; cbn [app] in E.
        -- injection E as <- <-. rewrite Hx, bytes_eqb_refl in En. discriminate.
        -- injection E as <- E. rewrite occurrences_cons, En. apply (IH a x b E Hx).
Qed.

Lemma headers_add_spec hs name value : added name value hs (headers_add hs name value).
Proof.
  assert (H : forall pre, (forall x, In x pre -> ~ caseless (h_name x) name) ->
    added name value (pre ++ hs) (pre ++ headers_add hs name value)).
  { induction hs as [|h hs IH]; intros pre Hpre; cbn [headers_add].
    - rewrite app_nil_r. apply added_end. exact Hpre.
    - destruct (caseless_eqb (h_name h) name) eqn:E.
      + apply added_before; [exact Hpre|]. apply caseless_eqb_spec. exact E.
      + specialize (IH (pre ++ [h])). rewrite <- !app_assoc in IH. apply IH.
        intros x Hx. apply in_app_iff in Hx as [Hx|[<-|[]]]; [auto|].
        rewrite <- caseless_eqb_spec. congruence. }
  apply (H []). intros x [].
Qed.

Lemma first_match_split (P : header -> Prop) a h b a' h' b' :
  a ++ h :: b = a' ++ h' :: b' ->
  (forall x, In x a -> ~ P x) -> P h -> (forall x, In x a' -> ~ P x) -> P h' ->
  a = a' /\ h = h' /\ b = b'.
Proof.
  revert a'. induction a as [|x a IH]; intros [|y a'] E Ha Hh Ha' Hh'; cbn [app] in E.
  - injection E as <- <-. auto.
  - injection E as <- E. exfalso. apply (Ha' h); [left; reflexivity|exact Hh].
  - injection E as <- E. exfalso. apply (Ha x); [left; reflexivity|exact Hh'].
  - injection E as <- E. destruct (IH a' E) as (-> & -> & ->); auto.
    + intros z Hz. apply Ha. right. exact Hz.
    + intros z Hz. apply Ha'. right. exact Hz.
Qed.

Lemma added_fun name value hs r r' : added name value hs r -> added name value hs r' -> r = r'.
Proof.
  intros H H'. inversion H as [a h b Ha Hh E1 E2|a Ha E1 E2]; subst; inversion H' as [a' h' b' Ha' Hh' E1 E2|a' Ha' E1 E2]; subst.
  - symmetry in E1. destruct (first_match_split (fun x => caseless (h_name x) name) _ _ _ _ _ _ E1)
      as (-> & -> & ->); auto.
  - exfalso. apply (Ha' h); [|exact Hh]. apply in_app_iff. right. left. reflexivity.
  - exfalso. apply (Ha h'); [|exact Hh']. apply in_app_iff. right. left. reflexivity.
  - reflexivity.
Qed.

Lemma headers_insert_spec hs p name value :
  (p < 4294967296) -> (Z.of_nat (length hs) < 2147483648)%Z ->
  inserted p (mk_header name value) hs (headers_insert hs p name value).
Proof.
  intros Hp Hl. unfold headers_insert.
  destruct ((2147483648 <=? p) || (N.of_nat (length hs) <=? p)) eqn:E.
  - apply inserted_end. lia.
  - rewrite <- (firstn_skipn (N.to_nat p) hs) at 1. apply inserted_at.
    rewrite firstn_length. lia.
Qed.

Lemma inserted_fun p h hs r r' : inserted p h hs r -> inserted p h hs r' -> r = r'.
Proof.
  intros H H'. inversion H as [a b Ha E1 E2|a Ha E1 E2]; subst; inversion H' as [a' b' Ha' E1 E2|a' Ha' E1 E2]; subst.
  - assert (Hl : length a' = length a) by lia.
    apply (f_equal (firstn (length a))) in E1 as Ef. apply (f_equal (skipn (length a))) in E1 as Es.
    rewrite firstn_app_exact, <- Hl, firstn_app_exact in Ef.
    rewrite skipn_app_exact, <- Hl, skipn_app_exact in Es. congruence.
  - rewrite app_length in Ha'. destruct b; [|cbn in Ha'; lia]. rewrite app_nil_r. reflexivity.
  - rewrite app_length in Ha. destruct b'; [|cbn in Ha; lia]. rewrite app_nil_r. reflexivity.
  - reflexivity.
Qed.

Lemma headers_delete_spec hs name index ok r :
  headers_delete hs name index = (ok, r) <-> deleted name index hs ok r.
Proof.
  unfold headers_delete. pose proof (edit_nth_named_spec (fun _ => []) hs name 0 index) as H.
  destruct (edit_nth_named _ 0 hs name index) as [hs'|].
  - destruct H as (a & h & b & -> & Hn & Hi & ->). cbn [app] in *.
    assert (Hnn : nth_named name index (a ++ h :: b) a h b) by (repeat split; auto; lia).
    split.
    + intros [= <- <-]. exact (deleted_found _ _ _ _ _ _ Hnn).
    + intros Hd. inversion Hd as [? a' h' b' Hn' E1 E2 E3|? Hno E1 E2 E3]; subst.
      * destruct (nth_named_fun _ _ _ _ _ _ _ _ _ Hnn Hn') as (-> & -> & ->). reflexivity.
      * destruct (Hno _ _ _ Hnn).
  - assert (Hno : forall a h b, ~ nth_named name index hs a h b).
    { intros a h b (E & Hn & Hi). apply (H a h b E Hn). lia. }
    split.
    + intros [= <- <-]. apply deleted_none. exact Hno.
    + intros Hd. inversion Hd as [? a' h' b' Hn' E1 E2 E3|? _ E1 E2 E3]; subst; [|reflexivity].
      destruct (Hno _ _ _ Hn').
Qed.

Lemma headers_change_spec hs name index value r :
  headers_change hs name index (Some value) = (true, r) <-> changed name index value hs r.
Proof.
  unfold headers_change.
  pose proof (edit_nth_named_spec (fun h => [mk_header (h_name h) (Some value)]) hs name 0 index) as H.
  destruct (edit_nth_named _ 0 hs name index) as [hs'|].
  - destruct H as (a & h & b & -> & Hn & Hi & ->). cbn [app] in *.
    assert (Hnn : nth_named name index (a ++ h :: b) a h b) by (repeat split; auto; lia).
    split.
    + intros [= <-]. rewrite Hn. exact (changed_found _ _ _ _ _ _ _ Hnn).
    + intros Hd. inversion Hd as [? a' h' b' Hn' E1 E2|? ? Hno Hadd E1 E2]; subst.
      * destruct (nth_named_fun _ _ _ _ _ _ _ _ _ Hnn Hn') as (-> & -> & ->). reflexivity.
      * destruct (Hno _ _ _ Hnn).
  - assert (Hno : forall a h b, ~ nth_named name index hs a h b).
    { intros a h b (E & Hn & Hi). apply (H a h b E Hn). lia. }
    split.
    + intros [= <-]. apply changed_new; [exact Hno|apply headers_add_spec].
    + intros Hd. inversion Hd as [? a' h' b' Hn' E1 E2|? ? _ Hadd E1 E2]; subst.
      * destruct (Hno _ _ _ Hn').
      * f_equal. exact (added_fun _ _ _ _ _ (headers_add_spec hs name (Some value)) Hadd).
Qed.

Lemma headers_remove_spec hs h ok r :
  headers_remove hs h = (ok, r) <->
  (ok = true /\ exists a b, hs = a ++ h :: b /\ ~ In h a /\ r = a ++ b) \/
  (ok = false /\ ~ In h hs /\ r = hs).
Proof.
  revert ok r. induction hs as [|x hs IH]; intros ok r; cbn [headers_remove].
  - split.
    + intros [= <- <-]. right. auto.
    + intros [(_ & a & b & E & _)|(-> & _ & ->)]; [destruct a; discriminate|reflexivity].
  - destruct (header_eqb h x) eqn:E.
    + apply header_eqb_spec in E as <-. split.
      * intros [= <- <-]. left. split; [reflexivity|]. exists [], hs. auto.
      * intros [(-> & a & b & E & Hn & ->)|(_ & Hn & _)].
        -- destruct a as [|y a]; cbn [app] in *.
           ++ injection E as <-. reflexivity.
           ++ injection E as <- _. destruct Hn. left. reflexivity.
        -- destruct Hn. left. reflexivity.
    + assert (Hne : h <> x).
      { intros ->. rewrite (proj2 (header_eqb_spec x x) eq_refl) in E. discriminate. }
      destruct (headers_remove hs h) as [ok' r'] eqn:Er.
      split.
      * intros [= <- <-]. destruct (proj1 (IH ok' r') eq_refl) as [(-> & a & b & -> & Hn & ->)|(-> & Hn & ->)].
        -- left. split; [reflexivity|]. exists (x :: a), b. repeat split.
           intros [E'|Hi]; [congruence|exact (Hn Hi)].
        -- right. repeat split. intros [E'|Hi]; [congruence|exact (Hn Hi)].
      * intros [(-> & a & b & E' & Hn & ->)|(-> & Hn & ->)].
        -- destruct a as [|y a]; cbn [app] in *; [injection E' as <- _; congruence|].
           injection E' as <- E'. subst hs.
           assert (Hx : (ok', r') = (true, a ++ b)).
           { apply IH. left. split; [reflexivity|]. exists a, b. repeat split. intros Hi. apply Hn. right. exact Hi. }
           congruence.
        -- assert (Hx : (ok', r') = (false, hs)).
           { apply IH. right. repeat split. intros Hi. apply Hn. right. exact Hi. }
           congruence.
Qed.

Lemma headers_lookup_spec hs name h :
  headers_lookup hs name = Some h <->
  exists a b, hs = a ++ h :: b /\ h_name h = name /\ ~ In name (names a).
Proof.
  induction hs as [|x hs IH]; cbn [headers_lookup].
  - split; [discriminate|]. intros ([|? a] & b & E & _); discriminate.
  - destruct (bytes_eqb (h_name x) name) eqn:E.
    + apply bytes_eqb_eq in E. split.
      * intros [= <-]. exists [], hs. cbn. auto.
      * intros ([|y a] & b & E' & Hn & Hnot); cbn [app] in E'; injection E' as <- E'; [reflexivity|].
        destruct Hnot. left. exact E.
    + rewrite IH. split.
      * intros (a & b & -> & Hn & Hnot). exists (x :: a), b. repeat split; auto.
        intros [E'|Hi]; [|exact (Hnot Hi)]. rewrite E', bytes_eqb_refl in E. discriminate.
      * intros ([|y a] & b & E' & Hn & Hnot); cbn [app] in E'; injection E' as <- E'.
        -- rewrite Hn, bytes_eqb_refl in E. discriminate.
        -- exists a, b. repeat split; auto. intros Hi. apply Hnot. right. exact Hi.
Qed.

Lemma headers_lookup_none hs name :
  headers_lookup hs name = None <-> ~ In name (names hs).
Proof.
  induction hs as [|x hs IH]; cbn [headers_lookup names map In].
  - tauto.
  - destruct (bytes_eqb (h_name x) name) eqn:E.
    + apply bytes_eqb_eq in E. split; [discriminate|]. intros H. destruct H. auto.
    + rewrite IH. unfold names. split; [intros H [E'|Hi]; [|exact (H Hi)]|intros H Hi; apply H; auto].
      rewrite E', bytes_eqb_refl in E. discriminate.
Qed.

Lemma headers_find_spec hs h : headers_find hs h = true <-> In h hs.
Proof.
  unfold headers_find. rewrite existsb_exists. split.
  - intros (x & Hx & E). apply header_eqb_spec in E as <-. exact Hx.
  - intros H. exists h. split; [exact H|]. apply header_eqb_spec. reflexivity.
Qed.

(** The index of the first equal header. *)
Lemma index_in_same_name_spec hs target : forall found,
  match index_in_same_name found hs target with
  | Some i => exists a b, hs = a ++ target :: b /\ ~ In target a /\
                          i = found + occurrences (h_name target) a + 1
  | None => ~ In target hs
  end.
Proof.
  induction hs as [|h hs IH]; intros found; cbn [index_in_same_name].
  - intros [].
  - destruct (bytes_eqb (h_name h) (h_name target)) eqn:En; cbn [negb].
    + destruct (ostring_eqb (h_value h) (h_value target)) eqn:Ev.
      * assert (h = target) as ->.
        { destruct h, target. apply bytes_eqb_eq in En. apply ostring_eqb_spec in Ev. cbn in *. congruence. }
        exists [], hs. rewrite occurrences_nil. repeat split; auto. lia.
      * assert (Hne : h <> target).
        { intros ->. rewrite (proj2 (ostring_eqb_spec (h_value target) (h_value target)) eq_refl) in Ev. discriminate. }
        specialize (IH (found + 1)). destruct (index_in_same_name (found + 1) hs target) as [i|].
        -- destruct IH as (a & b & -> & Hni & Hi). exists (h :: a), b. repeat split.
           ++ intros [E|E]; [congruence|auto].
           ++ rewrite occurrences_cons, En. lia.
        -- intros [E|E]; [congruence|auto].
    + assert (Hne : h <> target) by (intros ->; rewrite bytes_eqb_refl in En; discriminate).
      specialize (IH found). destruct (index_in_same_name found hs target) as [i|].
      * destruct IH as (a & b & -> & Hni & Hi). exists (h :: a), b. repeat split.
        -- intros [E|E]; [congruence|auto].
        -- rewrite occurrences_cons, En. lia.
      * intros [E|E]; [congruence|auto].
Qed.
