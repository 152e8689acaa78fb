(** The header changes reported at end of message: proofs. *)
From Coq Require Import Permutation.
From Verif.Base Require Import Bytes BytesFacts.
From Verif.Model Require Import Headers.
From Verif.Spec Require Import HeaderSpec.
From Verif.Proofs Require Import HeaderProofs.
Local Open Scope N_scope.

(** The MTA's list with a mark on the original headers not yet accounted for. *)
Definition mlist := list (header * bool).
Definition all_of (m : mlist) : list header := map fst m.
Definition marked (m : mlist) : list header := map fst (filter snd m).
Definition unmarked (m : mlist) : list header := map fst (filter (fun x => negb (snd x)) m).

Lemma all_of_app a b : all_of (a ++ b) = all_of a ++ all_of b.
Proof. apply map_app. Qed.
Lemma all_of_cons h b m : all_of ((h, b) :: m) = h :: all_of m.
Proof. reflexivity. Qed.
Lemma marked_app a b : marked (a ++ b) = marked a ++ marked b.
Proof. unfold marked. rewrite filter_app, map_app. reflexivity. Qed.
Lemma unmarked_app a b : unmarked (a ++ b) = unmarked a ++ unmarked b.
Proof. unfold unmarked. rewrite filter_app, map_app. reflexivity. Qed.

Lemma marked_split m : forall A g B, marked m = A ++ g :: B ->
  exists m1 m2, m = m1 ++ (g, true) :: m2 /\ marked m1 = A /\ marked m2 = B.
Proof.
  induction m as [|[h b] m IH]; intros A g B E.
  - destruct A; discriminate.
  - unfold marked in E. cbn [filter snd] in E. destruct b.
    + cbn [map fst] in E. destruct A as [|x A]; cbn [app] in E.
      * injection E as <- E. exists [], m. repeat split. exact E.
      * injection E as <- E. destruct (IH A g B E) as (m1 & m2 & -> & H1 & H2).
        exists ((h, true) :: m1), m2. repeat split; auto. unfold marked in *. cbn. rewrite H1. reflexivity.
    + destruct (IH A g B E) as (m1 & m2 & -> & H1 & H2).
      exists ((h, false) :: m1), m2. repeat split; auto.
Qed.

Lemma all_split_permutation m : Permutation (all_of m) (unmarked m ++ marked m).
Proof.
  induction m as [|[h b] m IH]; [constructor|].
  destruct b; unfold all_of, unmarked, marked; cbn [map fst filter snd negb].
  - apply Permutation_cons_app. exact IH.
  - cbn [map fst app]. constructor. exact IH.
Qed.

(** Every marked header stands at the position its index says. *)
Definition aligned (original : list header) (m : mlist) : Prop :=
  forall m1 d m2, m = m1 ++ (d, true) :: m2 ->
    index_in_same_name 0 original d = Some (occurrences (h_name d) (all_of m1) + 1).

Lemma aligned_start original : NoDup original -> aligned original (map (fun h => (h, true)) original).
Proof.
  intros Hnd m1 d m2 E.
  assert (Eo : original = all_of m1 ++ d :: all_of m2).
  { apply (f_equal all_of) in E. unfold all_of in E at 1. rewrite map_map, map_id in E.
    rewrite E, all_of_app. reflexivity. }
  pose proof (index_in_same_name_spec original d 0) as H.
  destruct (index_in_same_name 0 original d) as [i|].
  - destruct H as (a & b & E' & Hn & ->). f_equal. rewrite E' in Eo.
    destruct (first_match_split (fun x => x = d) a d b (all_of m1) d (all_of m2) Eo) as (-> & _ & _); auto.
    + intros x Hx ->. exact (Hn Hx).
    + intros x Hx ->. rewrite E' in Hnd. rewrite Eo in Hnd. apply NoDup_remove_2 in Hnd.
      apply Hnd. apply in_app_iff. left. exact Hx.
  - destruct H. rewrite Eo. apply in_app_iff. right. left. reflexivity.
Qed.

Lemma aligned_in original m d : aligned original m -> In d (marked m) -> In d original.
Proof.
  intros Ha Hd. apply in_split in Hd as (A & B & E).
  destruct (marked_split m A d B E) as (m1 & m2 & -> & _ & _).
  specialize (Ha m1 d m2 eq_refl). pose proof (index_in_same_name_spec original d 0) as H.
  rewrite Ha in H. destruct H as (a & b & -> & _). apply in_app_iff. right. left. reflexivity.
Qed.

Lemma aligned_unique original m1 d m2 : aligned original (m1 ++ (d, true) :: m2) ->
  ~ In d (marked m1) /\ ~ In d (marked m2).
Proof.
  intros Ha. split; intros Hd; apply in_split in Hd as (A & B & E).
  - destruct (marked_split m1 A d B E) as (x & y & -> & _ & _).
    pose proof (Ha (x ++ (d, true) :: y) d m2 eq_refl) as H1.
    pose proof (Ha x d (y ++ (d, true) :: m2)) as H2. rewrite <- app_assoc in H2.
    specialize (H2 eq_refl). rewrite H2 in H1. injection H1 as H1.
    rewrite all_of_app, occurrences_app in H1. rewrite ?all_of_cons in H1.
    rewrite occurrences_cons, bytes_eqb_refl in H1. lia.
  - destruct (marked_split m2 A d B E) as (x & y & -> & _ & _).
    pose proof (Ha (m1 ++ (d, true) :: x) d y) as H1. rewrite <- app_assoc in H1. specialize (H1 eq_refl).
    pose proof (Ha m1 d _ eq_refl) as H2. rewrite H2 in H1. injection H1 as H1.
    rewrite all_of_app, occurrences_app in H1. rewrite ?all_of_cons in H1.
    rewrite occurrences_cons, bytes_eqb_refl in H1. lia.
Qed.

(** Splitting a list at two places. *)
Lemma two_splits {A} (a : list A) x b c y d : a ++ x :: b = c ++ y :: d ->
  (a = c /\ x = y /\ b = d) \/
  (exists e, a = c ++ y :: e /\ d = e ++ x :: b) \/
  (exists e, c = a ++ x :: e /\ b = e ++ y :: d).
Proof.
  revert c. induction a as [|z a IH]; intros [|w c] E; cbn [app] in E.
  - injection E as <- <-. auto.
  - injection E as <- ->. right. right. exists c. auto.
  - injection E as -> <-. right. left. exists a. auto.
  - injection E as <- E. destruct (IH c E) as [(-> & -> & ->)|[(e & -> & ->)|(e & -> & ->)]].
    + auto.
    + right. left. exists e. auto.
    + right. right. exists e. auto.
Qed.

(** Replacing the entry of a marked header by an unmarked one of the same name. *)
Lemma aligned_replace original m1 d m2 f : h_name f = h_name d ->
  aligned original (m1 ++ (d, true) :: m2) -> aligned original (m1 ++ (f, false) :: m2).
Proof.
  intros Hn Ha x e y E. apply two_splits in E as [(_ & E & _)|[(z & -> & ->)|(z & -> & ->)]].
  - discriminate E.
  - specialize (Ha x e (z ++ (d, true) :: m2)). rewrite <- app_assoc in Ha. apply (Ha eq_refl).
  - specialize (Ha (m1 ++ (d, true) :: z) e y). rewrite <- app_assoc in Ha.
    rewrite (Ha eq_refl). f_equal. rewrite !all_of_app, !occurrences_app. rewrite ?all_of_cons.
    rewrite !occurrences_cons, Hn. reflexivity.
Qed.

Lemma aligned_insert original m1 m2 f : ~ In (h_name f) (names (marked (m1 ++ m2))) ->
  aligned original (m1 ++ m2) -> aligned original (m1 ++ (f, false) :: m2).
Proof.
  intros Hn Ha x e y E. apply two_splits in E as [(_ & E & _)|[(z & -> & ->)|(z & -> & ->)]].
  - discriminate E.
  - specialize (Ha x e (z ++ m2)). rewrite <- app_assoc in Ha. apply (Ha eq_refl).
  - specialize (Ha (m1 ++ z) e y). rewrite <- app_assoc in Ha. rewrite (Ha eq_refl). f_equal.
    rewrite !all_of_app, !occurrences_app. rewrite ?all_of_cons. rewrite occurrences_cons.
    destruct (bytes_eqb (h_name f) (h_name e)) eqn:Eb; [|lia].
    apply bytes_eqb_eq in Eb. destruct Hn. rewrite Eb.
    unfold names. rewrite !marked_app. unfold marked at 3. cbn [filter snd map fst].
    rewrite !map_app. apply in_app_iff. right. apply in_app_iff. right. left. reflexivity.
Qed.

Lemma aligned_delete_last original m1 d m2 : marked m2 = [] ->
  aligned original (m1 ++ (d, true) :: m2) -> aligned original (m1 ++ m2).
Proof.
  intros Hm Ha x e y E. apply app_eq_app in E as (l & [[-> E2]|[-> E2]]).
  - destruct l as [|w l]; cbn [app] in E2.
    + exfalso. subst m2. unfold marked in Hm. cbn in Hm. discriminate.
    + injection E2 as <- ->. specialize (Ha x e (l ++ (d, true) :: m2)).
      rewrite <- app_assoc in Ha. apply (Ha eq_refl).
  - exfalso. subst m2. rewrite marked_app in Hm. unfold marked in Hm. cbn in Hm.
    apply app_eq_nil in Hm as [_ Hm]. discriminate.
Qed.

(** *** The MTA's side *)

Definition known_case (n : bytes) (hs : list header) : Prop :=
  forall x, In x hs -> caseless (h_name x) n -> h_name x = n.

Lemma mta_edit_exact edit n a h b : known_case n (a ++ h :: b) -> h_name h = n ->
  mta_edit edit (a ++ h :: b) n (N.to_nat (occurrences n a)) = Some (a ++ edit h ++ b).
Proof.
  intros Hk Hn. induction a as [|x a IH].
  - cbn [app mta_edit]. rewrite (proj2 (caseless_eqb_spec (h_name h) n)); [reflexivity|].
    rewrite Hn. reflexivity.
  - cbn [app mta_edit]. rewrite occurrences_cons.
    assert (IH' := IH (fun y Hy => Hk y (or_intror Hy))).
    destruct (caseless_eqb (h_name x) n) eqn:Ec.
    + apply caseless_eqb_spec in Ec. apply (Hk x (or_introl eq_refl)) in Ec.
      rewrite Ec, bytes_eqb_refl. replace (N.to_nat (1 + occurrences n a)) with (S (N.to_nat (occurrences n a))) by lia.
      rewrite IH'. reflexivity.
    + destruct (bytes_eqb (h_name x) n) eqn:Eb.
      * apply bytes_eqb_eq in Eb. rewrite Eb in Ec.
        assert (caseless_eqb n n = true) by (apply caseless_eqb_spec; reflexivity). congruence.
      * replace (0 + occurrences n a) with (occurrences n a) by lia. rewrite IH'. reflexivity.
Qed.

Lemma mta_change a h b n v i : known_case n (a ++ h :: b) -> h_name h = n ->
  has_text (mk_header n v) -> i = occurrences n a + 1 ->
  mta_apply (a ++ h :: b) (HChange n i v) = a ++ mk_header n v :: b.
Proof.
  intros Hk Hn (c & v' & Hv) ->. cbn [h_value] in Hv. subst v. cbn [mta_apply].
  replace (N.to_nat (occurrences n a + 1) - 1)%nat with (N.to_nat (occurrences n a)) by lia.
  rewrite (mta_edit_exact _ n a h b Hk Hn), Hn. reflexivity.
Qed.

Lemma mta_delete_exact a h b n i : known_case n (a ++ h :: b) -> h_name h = n ->
  i = occurrences n a + 1 -> mta_apply (a ++ h :: b) (HDelete n i) = a ++ b.
Proof.
  intros Hk Hn ->. cbn [mta_apply]. unfold mta_delete.
  replace (N.to_nat (occurrences n a + 1) - 1)%nat with (N.to_nat (occurrences n a)) by lia.
  rewrite (mta_edit_exact _ n a h b Hk Hn). reflexivity.
Qed.

(** Deleting the headers left over removes exactly the marked ones. *)
Lemma deletes_marked original universe : case_consistent universe ->
  forall k m, length (marked m) = k -> aligned original m -> incl (all_of m) universe ->
  mta_run (all_of m) (report_left original (marked m)) = unmarked m.
Proof.
  intros Hcc. induction k as [|k IH]; intros m Hk Ha Hu.
  - destruct (marked m) eqn:E; [|discriminate]. unfold report_left. cbn [rev map mta_run fold_left].
    clear -E. induction m as [|[h b] m IH]; [reflexivity|].
    destruct b; unfold marked in *; cbn [filter snd map fst] in E; [discriminate|].
    unfold all_of, unmarked in *. cbn [map fst filter snd negb]. rewrite IH; auto.
  - destruct (marked m) as [|? ?] eqn:E using rev_ind; [discriminate|]. clear IHl.
    destruct (marked_split m l x [] E) as (m1 & m2 & -> & H1 & H2).
    unfold report_left. rewrite rev_app_distr. cbn [rev app map].
    rewrite (Ha m1 x m2 eq_refl). unfold mta_run. cbn [fold_left].
    rewrite all_of_app. rewrite ?all_of_cons.
    rewrite mta_delete_exact; auto.
    + fold (all_of m2). rewrite <- all_of_app. fold (mta_run (all_of (m1 ++ m2))).
      fold (report_left original l).
      replace l with (marked (m1 ++ m2)).
      * change (mta_run (all_of (m1 ++ m2)) (report_left original (marked (m1 ++ m2))) =
                unmarked (m1 ++ (x, true) :: m2)).
        rewrite (IH (m1 ++ m2)).
        -- rewrite !unmarked_app. reflexivity.
        -- rewrite marked_app, H1, H2, app_nil_r. rewrite app_length in Hk. cbn in Hk. lia.
        -- exact (aligned_delete_last _ _ _ _ H2 Ha).
        -- intros y Hy. apply Hu. rewrite all_of_app in *. rewrite ?all_of_cons.
           apply in_app_iff in Hy as [Hy|Hy]; apply in_app_iff; [left|right; right]; exact Hy.
      * rewrite marked_app, H1, H2, app_nil_r. reflexivity.
    + intros y Hy Hc. apply Hcc; [| |exact Hc].
      * apply Hu. rewrite all_of_app. exact Hy.
      * apply Hu. rewrite all_of_app. apply in_app_iff. right. left. reflexivity.
Qed.

(** One final header. *)
Lemma headers_remove_at A g B : ~ In g A -> headers_remove (A ++ g :: B) g = (true, A ++ B).
Proof. intros H. apply headers_remove_spec. left. split; [reflexivity|]. exists A, B. auto. Qed.

Lemma report_keep original i f m1 m2 final : ~ In f (marked m1) ->
  report_final original (marked (m1 ++ (f, true) :: m2)) i (f :: final) =
  report_final original (marked (m1 ++ (f, false) :: m2)) (i + 1) final.
Proof.
  intros Hn. cbn [report_final].
  rewrite !marked_app. change (marked ((f, true) :: m2)) with (f :: marked m2).
  change (marked ((f, false) :: m2)) with (marked m2).
  rewrite (proj2 (headers_find_spec _ f)); [|apply in_app_iff; right; left; reflexivity].
  rewrite headers_remove_at by exact Hn. reflexivity.
Qed.

Lemma report_change original i f g m1 m2 final :
  aligned original (m1 ++ (g, true) :: m2) -> h_name f = h_name g ->
  ~ In (h_name g) (names (marked m1)) -> ~ In f (marked (m1 ++ (g, true) :: m2)) ->
  report_final original (marked (m1 ++ (g, true) :: m2)) i (f :: final) =
  let '(rs, p) := report_final original (marked (m1 ++ (f, false) :: m2)) (i + 1) final in
  (HChange (h_name f) (occurrences (h_name g) (all_of m1) + 1) (h_value f) :: rs, p).
Proof.
  intros Ha Hn Hfirst Hnot. cbn [report_final].
  destruct (headers_find (marked (m1 ++ (g, true) :: m2)) f) eqn:E;
    [apply headers_find_spec in E; contradiction|].
  rewrite (proj2 (headers_lookup_spec _ (h_name f) g)).
  - rewrite (Ha m1 g m2 eq_refl).
    rewrite !marked_app. change (marked ((g, true) :: m2)) with (g :: marked m2).
    change (marked ((f, false) :: m2)) with (marked m2).
    rewrite headers_remove_at; [reflexivity|].
    exact (proj1 (aligned_unique _ _ _ _ Ha)).
  - exists (marked m1), (marked m2). rewrite marked_app. rewrite Hn. auto.
Qed.

Lemma report_insert original i f m final : ~ In (h_name f) (names (marked m)) ->
  report_final original (marked m) i (f :: final) =
  let '(rs, p) := report_final original (marked m) (i + 1) final in
  (HInsert i (h_name f) (h_value f) :: rs, p).
Proof.
  intros Hn. cbn [report_final]. destruct (headers_find (marked m) f) eqn:E.
  - apply headers_find_spec in E. destruct Hn. apply in_map. exact E.
  - rewrite (proj2 (headers_lookup_none _ _) Hn). reflexivity.
Qed.

Lemma perm_mid {A} (a b d : list A) x : Permutation (a ++ b) d -> Permutation (a ++ x :: b) (d ++ [x]).
Proof.
  intros H. rewrite <- Permutation_middle, Permutation_app_comm. cbn [app]. 
  rewrite <- (Permutation_cons_append d x). constructor. rewrite Permutation_app_comm. exact H.
Qed.

(** All final headers: the marked entries left and a permutation. *)
Lemma report_all original universe : case_consistent universe ->
  forall final m i done, aligned original m -> incl (all_of m) universe -> incl final universe ->
  Forall has_text final -> Permutation (unmarked m) done ->
  exists rs m', report_final original (marked m) i final = (rs, marked m') /\
    mta_run (all_of m) rs = all_of m' /\ aligned original m' /\ incl (all_of m') universe /\
    Permutation (unmarked m') (done ++ final).
Proof.
  intros Hcc. induction final as [|f final IH]; intros m i done Ha Hu Hf Ht Hp.
  - exists [], m. rewrite app_nil_r. repeat split; auto.
  - inversion Ht as [|? ? Htf Ht']; subst.
    assert (Hf' : incl final universe) by (intros x Hx; apply Hf; right; exact Hx).
    assert (Hfu : In f universe) by (apply Hf; left; reflexivity).
    destruct (headers_find (marked m) f) eqn:Ef.
    + apply headers_find_spec in Ef. apply in_split in Ef as (A & B & E).
      destruct (marked_split m A f B E) as (m1 & m2 & -> & H1 & H2).
      pose proof (proj1 (aligned_unique _ _ _ _ Ha)) as Hn.
      rewrite (report_keep original i f m1 m2 final Hn).
      destruct (IH (m1 ++ (f, false) :: m2) (i + 1) (done ++ [f])) as (rs & m' & Hr & Hm & Ha' & Hu' & Hp').
      * exact (aligned_replace _ _ _ _ f eq_refl Ha).
      * rewrite all_of_app in *. exact Hu.
      * exact Hf'.
      * exact Ht'.
      * rewrite unmarked_app in *. exact (perm_mid _ _ _ f Hp).
      * exists rs, m'. repeat split; auto.
        -- rewrite <- Hm. rewrite !all_of_app. reflexivity.
        -- rewrite <- app_assoc in Hp'. exact Hp'.
    + assert (Hnot : ~ In f (marked m)) by (rewrite <- headers_find_spec; congruence).
      destruct (headers_lookup (marked m) (h_name f)) as [g|] eqn:El.
      * apply headers_lookup_spec in El as (A & B & E & Hg & HA).
        destruct (marked_split m A g B E) as (m1 & m2 & -> & H1 & H2).
        rewrite (report_change original i f g m1 m2 final Ha (eq_sym Hg)); [|congruence|exact Hnot].
        destruct (IH (m1 ++ (f, false) :: m2) (i + 1) (done ++ [f])) as (rs & m' & Hr & Hm & Ha' & Hu' & Hp').
        -- exact (aligned_replace _ _ _ _ f (eq_sym Hg) Ha).
        -- intros x Hx. rewrite all_of_app in *. rewrite ?all_of_cons in *.
           apply in_app_iff in Hx as [Hx|[<-|Hx]]; [|exact Hfu|].
           ++ apply Hu. apply in_app_iff. left. exact Hx.
           ++ apply Hu. apply in_app_iff. right. right. exact Hx.
        -- exact Hf'.
        -- exact Ht'.
        -- rewrite unmarked_app in *. exact (perm_mid _ _ _ f Hp).
        -- rewrite Hr. eexists; exists m'. split; [reflexivity|]. split; [|split; [exact Ha'|split; [exact Hu'|]]].
           ++ unfold mta_run. cbn [fold_left]. rewrite all_of_app. rewrite ?all_of_cons. fold (all_of m2).
              rewrite (mta_change (all_of m1) g (all_of m2)).
              ** rewrite <- Hm. rewrite all_of_app. rewrite ?all_of_cons. destruct f; reflexivity.
              ** intros x Hx Hc. apply Hcc; [|exact Hfu|exact Hc]. apply Hu. rewrite all_of_app. exact Hx.
              ** exact Hg.
              ** destruct f; exact Htf.
              ** rewrite Hg. reflexivity.
           ++ rewrite <- app_assoc in Hp'. exact Hp'.
      * apply headers_lookup_none in El.
        rewrite (report_insert original i f m final El).
        set (m1 := firstn (N.to_nat i) m). set (m2 := skipn (N.to_nat i) m).
        assert (Em : m = m1 ++ m2) by (symmetry; apply firstn_skipn).
        destruct (IH (m1 ++ (f, false) :: m2) (i + 1) (done ++ [f])) as (rs & m' & Hr & Hm & Ha' & Hu' & Hp').
        -- apply aligned_insert; rewrite <- Em; [exact El|exact Ha].
        -- intros x Hx. rewrite all_of_app in *. rewrite ?all_of_cons in *.
           apply in_app_iff in Hx as [Hx|[<-|Hx]]; [|exact Hfu|].
           ++ apply Hu. rewrite Em, all_of_app. apply in_app_iff. left. exact Hx.
           ++ apply Hu. rewrite Em, all_of_app. apply in_app_iff. right. exact Hx.
        -- exact Hf'.
        -- exact Ht'.
        -- rewrite Em in Hp. rewrite unmarked_app in *. exact (perm_mid _ _ _ f Hp).
        -- assert (Hmk : marked (m1 ++ (f, false) :: m2) = marked m).
           { rewrite Em, !marked_app. reflexivity. }
           rewrite Hmk in Hr. rewrite Hr. eexists; exists m'. split; [reflexivity|].
           split; [|split; [exact Ha'|split; [exact Hu'|]]].
           ++ unfold mta_run. cbn [fold_left mta_apply].
              rewrite <- Hm. unfold mta_run. f_equal.
              unfold all_of. rewrite map_app. cbn [map fst]. unfold m1, m2.
              rewrite <- firstn_map, <- skipn_map. destruct f; reflexivity.
           ++ rewrite <- app_assoc in Hp'. exact Hp'.
Qed.

Lemma reported_permutation original final :
  NoDup original -> case_consistent (original ++ final) -> Forall has_text final ->
  Permutation (mta_run original (header_changes original final)) final.
Proof.
  intros Hnd Hcc Ht. unfold header_changes.
  set (m := map (fun h => (h, true)) original).
  assert (Hall : all_of m = original) by (unfold m, all_of; rewrite map_map, map_id; reflexivity).
  assert (Hmk : marked m = original).
  { unfold marked, m. clear. induction original as [|h l IH]; [reflexivity|]. cbn. f_equal. exact IH. }
  assert (Hun : unmarked m = []).
  { unfold unmarked, m. clear. induction original as [|h l IH]; [reflexivity|exact IH]. }
  destruct (report_all original (original ++ final) Hcc final m 0 []) as (rs & m' & Hr & Hm & Ha' & Hu' & Hp').
  - exact (aligned_start original Hnd).
  - rewrite Hall. apply incl_appl, incl_refl.
  - apply incl_appr, incl_refl.
  - exact Ht.
  - rewrite Hun. constructor.
  - rewrite Hmk in Hr. rewrite Hr. unfold mta_run in *. rewrite fold_left_app. rewrite Hall in Hm. rewrite Hm.
    fold (mta_run (all_of m')).
    pose proof (deletes_marked original (original ++ final) Hcc _ m' eq_refl Ha' Hu') as H.
    unfold mta_run in H. rewrite H. exact Hp'.
Qed.

(** *** Exact reconstruction *)

Lemma shrunk_exact original universe : case_consistent universe ->
  forall dropped rest final, shrunk original dropped rest final ->
  forall mm i, aligned original (mm ++ map (fun h => (h, true)) rest) ->
  incl (all_of mm ++ rest) universe -> incl final universe -> Forall has_text final ->
  incl (names (marked mm)) dropped ->
  exists rs m', report_final original (marked (mm ++ map (fun h => (h, true)) rest)) i final = (rs, marked m') /\
    mta_run (all_of mm ++ rest) rs = all_of m' /\ aligned original m' /\ incl (all_of m') universe /\
    unmarked m' = unmarked mm ++ final.
Proof.
  intros Hcc dropped rest final H. induction H as [dropped|dropped h rest final H IH
    |dropped n v v' rest final Hnew Hnd H IH|dropped h rest final H IH]; intros mm i Ha Hu Hf Ht Hd.
  - exists [], mm. cbn [map] in *. rewrite !app_nil_r in *. repeat split; auto.
  - cbn [map] in *. inversion Ht as [|? ? Hth Ht']; subst.
    rewrite report_keep by exact (proj1 (aligned_unique _ _ _ _ Ha)).
    destruct (IH (mm ++ [(h, false)]) (i + 1)) as (rs & m' & Hr & Hm & Ha' & Hu' & Hp').
    + rewrite <- app_assoc. exact (aligned_replace _ _ _ _ h eq_refl Ha).
    + rewrite all_of_app, <- app_assoc. exact Hu.
    + intros x Hx. apply Hf. right. exact Hx.
    + exact Ht'.
    + rewrite marked_app. cbn [marked filter snd map]. rewrite app_nil_r. exact Hd.
    + rewrite <- app_assoc in Hr. exists rs, m'. split; [exact Hr|]. split; [|split; [exact Ha'|split; [exact Hu'|]]].
      * rewrite all_of_app, <- app_assoc in Hm. exact Hm.
      * rewrite unmarked_app, <- app_assoc in Hp'. exact Hp'.
  - cbn [map] in *. inversion Ht as [|? ? Hth Ht']; subst.
    rewrite (report_change original i (mk_header n v') (mk_header n v) mm _ final Ha eq_refl).
    2:{ intros Hi. apply Hnd, Hd. exact Hi. }
    2:{ intros Hi. apply Hnew. exact (aligned_in _ _ _ Ha Hi). }
    destruct (IH (mm ++ [(mk_header n v', false)]) (i + 1)) as (rs & m' & Hr & Hm & Ha' & Hu' & Hp').
    + rewrite <- app_assoc. exact (aligned_replace _ _ (mk_header n v) _ (mk_header n v') eq_refl Ha).
    + rewrite all_of_app, <- app_assoc. intros x Hx.
      apply in_app_iff in Hx as [Hx|Hx].
      * apply Hu, in_app_iff. left. exact Hx.
      * destruct Hx as [<-|Hx]; [apply Hf; left; reflexivity|].
        apply Hu, in_app_iff. right. right. exact Hx.
    + intros x Hx. apply Hf. right. exact Hx.
    + exact Ht'.
    + rewrite marked_app. cbn [marked filter snd map]. rewrite app_nil_r. exact Hd.
    + rewrite <- app_assoc in Hr. cbn [app] in Hr. rewrite Hr. eexists; exists m'. split; [reflexivity|].
      split; [|split; [exact Ha'|split; [exact Hu'|]]].
      * unfold mta_run in *. cbn [fold_left h_name h_value].
        rewrite (mta_change (all_of mm) (mk_header n v) rest n v').
        -- rewrite all_of_app, <- app_assoc in Hm. exact Hm.
        -- intros x Hx Hc. apply (Hcc x (mk_header n v)); [apply Hu; exact Hx| |exact Hc].
           apply Hu, in_app_iff. right. left. reflexivity.
        -- reflexivity.
        -- exact Hth.
        -- reflexivity.
      * rewrite unmarked_app, <- app_assoc in Hp'. exact Hp'.
  - destruct (IH (mm ++ [(h, true)]) i) as (rs & m' & Hr & Hm & Ha' & Hu' & Hp').
    + rewrite <- app_assoc. exact Ha.
    + rewrite all_of_app, <- app_assoc. exact Hu.
    + exact Hf.
    + exact Ht.
    + rewrite marked_app. unfold names. rewrite map_app. intros x Hx. apply in_app_iff in Hx as [Hx|Hx].
      * right. apply Hd. exact Hx.
      * destruct Hx as [<-|[]]. left. reflexivity.
    + rewrite <- app_assoc in Hr. exists rs, m'. split; [exact Hr|]. split; [|split; [exact Ha'|split; [exact Hu'|]]].
      * rewrite all_of_app, <- app_assoc in Hm. exact Hm.
      * rewrite unmarked_app in Hp'. cbn [unmarked filter snd negb map] in Hp'. rewrite app_nil_r in Hp'. exact Hp'.
Qed.

Lemma kept_exact original universe : case_consistent universe ->
  forall rest final, kept original rest final ->
  forall done, aligned original (map (fun h => (h, false)) done ++ map (fun h => (h, true)) rest) ->
  incl (done ++ rest) universe -> incl final universe -> Forall has_text final ->
  exists rs m', report_final original rest (N.of_nat (length done)) final = (rs, marked m') /\
    mta_run (done ++ rest) rs = all_of m' /\ aligned original m' /\ incl (all_of m') universe /\
    unmarked m' = done ++ final.
Proof.
  assert (Hmf : forall l, marked (map (fun h => (h, false)) l) = []).
  { unfold marked. induction l as [|x l IH]; [reflexivity|exact IH]. }
  assert (Hmt : forall l, marked (map (fun h => (h, true)) l) = l).
  { unfold marked. induction l as [|x l IH]; [reflexivity|cbn; f_equal; exact IH]. }
  assert (Haf : forall b l, all_of (map (fun h => (h, b)) l) = l).
  { intros b l. unfold all_of. rewrite map_map, map_id. reflexivity. }
  assert (Huf : forall l, unmarked (map (fun h => (h, false)) l) = l).
  { unfold unmarked. induction l as [|x l IH]; [reflexivity|cbn; f_equal; exact IH]. }
  assert (Hpm : forall done rest, marked (map (fun h => (h, false)) done ++ map (fun h => (h, true)) rest) = rest).
  { intros. rewrite marked_app, Hmf, Hmt. reflexivity. }
  intros Hcc rest final H. induction H as [h rest final H IH|n v v' rest final Hnew H IH
    |n v rest final Hn H IH|rest final H]; intros done Ha Hu Hf Ht.
  - inversion Ht as [|? ? Hth Ht']; subst.
    destruct (IH (done ++ [h])) as (rs & m' & Hr & Hm & Ha' & Hu' & Hp').
    + rewrite map_app, <- app_assoc. cbn [map app] in *. exact (aligned_replace _ _ _ _ h eq_refl Ha).
    + rewrite <- app_assoc. exact Hu.
    + intros x Hx. apply Hf. right. exact Hx.
    + exact Ht'.
    + exists rs, m'. rewrite <- !app_assoc in *. repeat split; auto.
      rewrite <- Hr. rewrite <- (Hpm done (h :: rest)) at 1. cbn [map].
      rewrite report_keep by (rewrite Hmf; intros []).
      rewrite marked_app. change (marked ((h, false) :: map (fun h0 => (h0, true)) rest)) with (marked (map (fun h0 => (h0, true)) rest)).
      rewrite Hmf, Hmt. rewrite app_length. cbn [length app]. f_equal. lia.
  - inversion Ht as [|? ? Hth Ht']; subst.
    destruct (IH (done ++ [mk_header n v'])) as (rs & m' & Hr & Hm & Ha' & Hu' & Hp').
    + rewrite map_app, <- app_assoc. cbn [map app] in *.
      exact (aligned_replace _ _ (mk_header n v) _ (mk_header n v') eq_refl Ha).
    + rewrite <- app_assoc. intros x Hx. apply in_app_iff in Hx as [Hx|[<-|Hx]].
      * apply Hu, in_app_iff. left. exact Hx.
      * apply Hf. left. reflexivity.
      * apply Hu, in_app_iff. right. right. exact Hx.
    + intros x Hx. apply Hf. right. exact Hx.
    + exact Ht'.
    + assert (Hrep := report_change original (N.of_nat (length done)) (mk_header n v') (mk_header n v)
        (map (fun h => (h, false)) done) (map (fun h => (h, true)) rest) final Ha eq_refl).
      rewrite Hmf in Hrep. specialize (Hrep (fun x => x)).
      pose proof (Hpm done (mk_header n v :: rest)) as Hp1. cbn [map] in Hp1. rewrite Hp1 in Hrep.
      rewrite Hrep; clear Hrep.
      2:{ intros Hi. apply Hnew. rewrite <- Hp1 in Hi. exact (aligned_in _ _ _ Ha Hi). }
      rewrite marked_app. change (marked ((mk_header n v', false) :: map (fun h0 => (h0, true)) rest)) with (marked (map (fun h0 => (h0, true)) rest)).
      rewrite Hmf, Hmt, Haf. cbn [app].
      rewrite app_length in Hr. cbn [length] in Hr.
      replace (N.of_nat (length done) + 1) with (N.of_nat (length done + 1)) by lia. rewrite Hr.
      eexists; exists m'. split; [reflexivity|]. rewrite <- !app_assoc in *. split; [|repeat split; auto].
      unfold mta_run in *. cbn [fold_left h_name h_value].
      rewrite (mta_change done (mk_header n v) rest n v'); auto.
      intros x Hx Hc. apply (Hcc x (mk_header n v)); [apply Hu; exact Hx| |exact Hc].
      apply Hu, in_app_iff. right. left. reflexivity.
  - inversion Ht as [|? ? Hth Ht']; subst.
    destruct (IH (done ++ [mk_header n v])) as (rs & m' & Hr & Hm & Ha' & Hu' & Hp').
    + rewrite map_app, <- app_assoc. cbn [map app]. apply aligned_insert; [|exact Ha].
      rewrite Hpm. exact Hn.
    + rewrite <- app_assoc. intros x Hx. apply in_app_iff in Hx as [Hx|[<-|Hx]].
      * apply Hu, in_app_iff. left. exact Hx.
      * apply Hf. left. reflexivity.
      * apply Hu, in_app_iff. right. exact Hx.
    + intros x Hx. apply Hf. right. exact Hx.
    + exact Ht'.
    + assert (Hrep := report_insert original (N.of_nat (length done)) (mk_header n v) (map (fun h => (h, true)) rest) final).
      rewrite Hmt in Hrep. rewrite (Hrep Hn). clear Hrep.
      rewrite app_length in Hr. cbn [length] in Hr.
      replace (N.of_nat (length done) + 1) with (N.of_nat (length done + 1)) by lia. rewrite Hr.
      eexists; exists m'. split; [reflexivity|]. rewrite <- !app_assoc in *. split; [|repeat split; auto].
      rewrite <- Hm. unfold mta_run in *. cbn [fold_left h_name h_value mta_apply]. f_equal.
      rewrite Nat2N.id, firstn_app_exact, skipn_app_exact. reflexivity.
  - destruct (shrunk_exact original universe Hcc [] rest final H (map (fun h => (h, false)) done)
                (N.of_nat (length done))) as (rs & m' & Hr & Hm & Ha' & Hu' & Hp'); auto.
    + rewrite Haf. exact Hu.
    + rewrite Hmf. intros x [].
    + rewrite Hpm in Hr. rewrite Haf in Hm. rewrite Huf in Hp'. exists rs, m'. auto.
Qed.

Lemma reported_exact original final :
  NoDup original -> case_consistent (original ++ final) -> Forall has_text final ->
  kept original original final ->
  mta_run original (header_changes original final) = final.
Proof.
  intros Hnd Hcc Ht Hk. unfold header_changes.
  destruct (kept_exact original (original ++ final) Hcc original final Hk []) as (rs & m' & Hr & Hm & Ha' & Hu' & Hp').
  - exact (aligned_start original Hnd).
  - apply incl_appl, incl_refl.
  - apply incl_appr, incl_refl.
  - exact Ht.
  - cbn [length N.of_nat app] in *. rewrite Hr. unfold mta_run in *. rewrite fold_left_app, Hm.
    pose proof (deletes_marked original (original ++ final) Hcc _ m' eq_refl Ha' Hu') as H.
    unfold mta_run in H. rewrite H. exact Hp'.
Qed.
