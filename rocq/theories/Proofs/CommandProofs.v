(** The command decoder against the command grammar, and the encoder's packets. *)
From Verif.Base Require Import Bytes BytesFacts.
From Verif.Model Require Import Decoder Encoder CommandCodec.
From Verif.Spec Require Import FrameSpec CommandGrammar.
From Verif.Proofs Require Import FieldProofs FramingProofs.
From Coq Require Import ZifyBool ZifyNat ZifyN.
Ltac Zify.zify_post_hook ::= Z.div_mod_to_equations.
Local Open Scope Z_scope.

(** *** Tables *)

Lemma lookup_insert_same t k v : lookup (insert t k v) k = Some v.
Proof.
  induction t as [|[k' v'] t IH]; cbn [insert lookup].
  - rewrite bytes_eqb_refl. reflexivity.
  - destruct (bytes_eqb k' k) eqn:E; cbn [lookup]; rewrite E; auto.
Qed.

Lemma lookup_insert_other t k k' v : k <> k' -> lookup (insert t k v) k' = lookup t k'.
Proof.
  intros H. induction t as [|[k0 v0] t IH]; cbn [insert lookup].
  - destruct (bytes_eqb k k') eqn:E; [|reflexivity]. apply bytes_eqb_eq in E. congruence.
  - destruct (bytes_eqb k0 k) eqn:E; cbn [lookup].
    + apply bytes_eqb_eq in E as ->. destruct (bytes_eqb k k') eqn:E; [|reflexivity].
      apply bytes_eqb_eq in E. congruence.
    + rewrite IH. reflexivity.
Qed.

Lemma insert_keys t k v x : In x (map fst (insert t k v)) <-> x = k \/ In x (map fst t).
Proof.
  induction t as [|[k0 v0] t IH]; cbn [insert map fst In].
  - intuition congruence.
  - destruct (bytes_eqb k0 k) eqn:E; cbn [map fst In].
    + apply bytes_eqb_eq in E as ->. intuition congruence.
    + rewrite IH. intuition congruence.
Qed.

Lemma insert_nodup t k v : NoDup (map fst t) -> NoDup (map fst (insert t k v)).
Proof.
  induction t as [|[k0 v0] t IH]; cbn [insert map fst]; intros H.
  - constructor; [intros []|constructor].
  - inversion H as [|? ? Hn Hd Heq]; subst.
    destruct (bytes_eqb k0 k) eqn:E; cbn [map fst].
    + constructor; auto.
    + constructor; auto. rewrite insert_keys. apply bytes_eqb_neq in E. intuition congruence.
Qed.

Lemma lookup_in t k v : lookup t k = Some v -> In (k, v) t.
Proof.
  induction t as [|[k0 v0] t IH]; cbn [lookup]; [discriminate|].
  destruct (bytes_eqb k0 k) eqn:E.
  - intros [= ->]. apply bytes_eqb_eq in E as ->. left. reflexivity.
  - intros H. right. auto.
Qed.

Lemma lookup_nodup t k v : NoDup (map fst t) -> In (k, v) t -> lookup t k = Some v.
Proof.
  induction t as [|[k0 v0] t IH]; cbn [lookup map fst]; intros Hd Hi; [destruct Hi|].
  inversion Hd as [|? ? Hn Hd' Heq]; subst. destruct Hi as [[= -> ->]|Hi].
  - rewrite bytes_eqb_refl. reflexivity.
  - destruct (bytes_eqb k0 k) eqn:E; [|auto].
    apply bytes_eqb_eq in E as ->. exfalso. apply Hn. apply in_map_iff. exists (k, v). auto.
Qed.

Lemma lookup_none t k : lookup t k = None <-> ~ In k (map fst t).
Proof.
  induction t as [|[k0 v0] t IH]; cbn [lookup map fst In]; [tauto|].
  destruct (bytes_eqb k0 k) eqn:E.
  - apply bytes_eqb_eq in E. split; [discriminate|tauto].
  - apply bytes_eqb_neq in E. rewrite IH. tauto.
Qed.

(** *** Macro names *)

Lemma normalized_bare k : k <> [] -> bare_name k (normalized_key k).
Proof.
  destruct k as [|c k]; [congruence|intros _]. unfold normalized_key.
  destruct (beqb c "{"%char && beqb (last (c :: k) NUL) "}"%char) eqn:E.
  - apply andb_prop in E as [E1 E2]. apply beqb_eq in E1 as ->. apply beqb_eq in E2.
    destruct k as [|d k] using rev_ind; [discriminate E2|]. clear IHk.
    change ("{"%char :: k ++ [d]) with (("{"%char :: k) ++ [d]) in E2.
    rewrite last_last in E2. subst d.
    replace (length ("{"%char :: k ++ ["}"%char]) - 2)%nat with (length k)
      by (simpl; rewrite app_length; simpl; lia).
    rewrite firstn_app_exact. constructor.
  - constructor. intros n [= -> ->].
    change ("{"%char :: n ++ ["}"%char]) with (("{"%char :: n) ++ ["}"%char]) in E.
    rewrite last_last, !beqb_refl in E. discriminate.
Qed.

Lemma bare_name_fun k n n' : bare_name k n -> bare_name k n' -> n = n'.
Proof.
  intros H1 H2. destruct H1 as [n|k H1]; inversion H2 as [m Hm|k' H2' Hk]; subst; auto.
  - apply app_inj_tail in Hm as [-> _]. reflexivity.
  - destruct (H2' n eq_refl).
  - destruct (H1 n' eq_refl).
Qed.

Definition received (acc : table) (kvs : list (bytes * bytes)) : table :=
  fold_left (fun t kv => insert t (normalized_key (fst kv)) (snd kv)) kvs acc.

Lemma received_app acc a b : received acc (a ++ b) = received (received acc a) b.
Proof. apply fold_left_app. Qed.

Lemma received_nodup kvs : forall acc,
  NoDup (map fst acc) -> NoDup (map fst (received acc kvs)).
Proof.
  induction kvs as [|[k v] kvs IH]; intros acc H; cbn [received fold_left]; auto.
  apply IH, insert_nodup, H.
Qed.

Lemma received_lookup kvs name :
  Forall pair_ok kvs -> last_value kvs name (lookup (received [] kvs) name).
Proof.
  induction kvs as [|[k v] kvs IH] using rev_ind; intros Hok.
  - constructor. intros k v [].
  - apply Forall_app in Hok as [Hok Hkv]. inversion Hkv as [|? ? [Hk _] _]; subst. cbn [fst] in Hk.
    pose proof (normalized_bare k Hk) as Hb. specialize (IH Hok).
    rewrite received_app. cbn [received fold_left fst snd].
    destruct (bytes_eq_dec (normalized_key k) name) as [He|Hne].
    + rewrite He, lookup_insert_same. apply last_some with (after := []); [congruence|].
      intros k' v' [].
    + rewrite lookup_insert_other by exact Hne.
      inversion IH as [kvs' n H Hn|before k0 v0 after n Hb0 Ha Hn]; subst.
      * constructor. intros k' v' Hi. apply in_app_or in Hi as [Hi|[[= <- <-]|[]]].
        -- exact (H k' v' Hi).
        -- intros Hb'. apply Hne. exact (bare_name_fun _ _ _ Hb Hb').
      * rewrite <- app_assoc. cbn [app]. constructor; auto.
        intros k' v' Hi. apply in_app_or in Hi as [Hi|[[= <- <-]|[]]].
        -- exact (Ha k' v' Hi).
        -- intros Hb'. apply Hne. exact (bare_name_fun _ _ _ Hb Hb').
Qed.

Lemma last_split_unique (P : bytes * bytes -> Prop) :
  forall b1 x1 a1 b2 x2 a2,
  b1 ++ x1 :: a1 = b2 ++ x2 :: a2 -> P x1 -> P x2 ->
  (forall y, In y a1 -> ~ P y) -> (forall y, In y a2 -> ~ P y) -> x1 = x2.
Proof.
  induction b1 as [|y b1 IH]; intros x1 a1 [|z b2] x2 a2 H P1 P2 H1 H2; cbn [app] in H.
  - congruence.
  - injection H as -> ->. exfalso. apply (H1 x2); auto. apply in_or_app. right. left. reflexivity.
  - injection H as -> <-. exfalso. apply (H2 x1); auto. apply in_or_app. right. left. reflexivity.
  - injection H as -> H. eauto.
Qed.

Lemma last_value_fun kvs name a b : last_value kvs name a -> last_value kvs name b -> a = b.
Proof.
  intros H1 H2. destruct H1 as [kvs name H1|b1 k1 v1 a1 name Hb1 Ha1];
    inversion H2 as [kvs' n H Hn|b2 k2 v2 a2 n Hb2 Ha2 He]; subst; auto.
  - exfalso. apply (H1 k2 v2); auto. apply in_or_app. right. left. reflexivity.
  - exfalso. apply (H k1 v1); auto. apply in_or_app. right. left. reflexivity.
  - assert (Hx : (k2, v2) = (k1, v1)).
    { apply (last_split_unique (fun kv => bare_name (fst kv) name) _ _ _ _ _ _ He); auto.
      - intros [k v] Hi. exact (Ha2 k v Hi).
      - intros [k v] Hi. exact (Ha1 k v Hi). }
    congruence.
Qed.

Lemma received_table_of kvs : Forall pair_ok kvs -> table_of kvs (received [] kvs).
Proof.
  intros H. split; [apply received_nodup; constructor|].
  intros name value. pose proof (received_lookup kvs name H) as Hr. split.
  - intros <-. exact Hr.
  - intros Hv. exact (last_value_fun _ _ _ _ Hr Hv).
Qed.

Lemma table_of_same kvs t t' : table_of kvs t -> table_of kvs t' -> same_table t t'.
Proof.
  intros [_ H] [_ H'] k. symmetry. apply H'. apply H. reflexivity.
Qed.

(** *** Simple fields *)

Lemma decode_string_decides c x :
  decides (fun y => decode_string (c :: x ++ y) (zlen (c :: x)))
          (fun s => s <> [] /\ no_nul s /\ exists rest, x = s ++ NUL :: rest).
Proof.
  unfold decode_string. cbn [skipn]. rewrite zlen_cons.
  replace (zlen x + 1 - 1) with (zlen x) by lia.
  destruct (split_nul x) as [Hx|(s & r & -> & Hs)].
  - apply decides_fail with (e := Some E_MISSING_NULL).
    + intros y Hy. rewrite dntv_missing; eauto using in_not_nil.
    + intros s (_ & _ & rest & He). exact (no_nul_split_absurd _ _ _ Hx He).
  - destruct s as [|a s].
    + apply decides_fail with (e := None).
      * intros y Hy. rewrite <- app_assoc. cbn [app].
        rewrite (dntv_found [] r y); [reflexivity|apply no_nul_nil|].
        cbn [app]. rewrite zlen_cons, zlen_nil. pose proof (zlen_nonneg r). lia.
      * intros s (Hne & Hs' & rest & He).
        destruct (split_nul_unique [] r s rest no_nul_nil Hs' He) as [<- _]. congruence.
    + apply decides_ok with (a := a :: s).
      * intros y Hy. rewrite <- app_assoc. cbn [app].
        change (a :: s ++ NUL :: r ++ y) with ((a :: s) ++ NUL :: r ++ y).
        rewrite (dntv_found (a :: s) r y); [|exact Hs|].
        -- cbn [bind length Nat.eqb]. apply cstring_app. exact Hs.
        -- change (a :: s ++ NUL :: r) with ((a :: s) ++ NUL :: r).
           rewrite zlen_app, !zlen_cons. pose proof (zlen_nonneg r). lia.
      * intros s'. split.
        -- intros (_ & Hs' & rest & He).
           destruct (split_nul_unique _ _ _ _ Hs Hs' He) as [<- _]. reflexivity.
        -- intros ->. split; [discriminate|split; [exact Hs|]]. exists r. reflexivity.
Qed.

Lemma decode_empty_decides {A} (c : byte) (x : bytes) (a : A) :
  decides (fun y => decode_empty (c :: x ++ y) (zlen (c :: x)) a)
          (fun a' => x = [] /\ a' = a).
Proof.
  unfold decode_empty. cbn [skipn]. rewrite zlen_cons.
  replace (zlen x + 1 - 1) with (zlen x) by lia.
  destruct x as [|b x].
  - apply decides_ok with (a := a).
    + intros y Hy. reflexivity.
    + intros a'. intuition.
  - apply decides_fail with (e := Some E_LONG_COMMAND_LENGTH).
    + intros y Hy. rewrite check_exact_long; auto. rewrite zlen_cons.
      pose proof (zlen_nonneg x). lia.
    + intros a' [H _]. discriminate.
Qed.

Lemma header_content_decides x :
  decides (fun y => decode_header_content (x ++ y) (zlen x))
          (fun nv => fst nv <> [] /\ no_nul (fst nv) /\ no_nul (snd nv) /\
                     exists rest, x = fst nv ++ NUL :: snd nv ++ NUL :: rest).
Proof.
  unfold decode_header_content.
  destruct (split_nul x) as [Hx|(s & r & -> & Hs)].
  - apply decides_fail with (e := Some E_MISSING_NULL).
    + intros y Hy. rewrite dntv_missing; eauto using in_not_nil.
    + intros s (_ & _ & _ & rest & He). exact (no_nul_split_absurd _ _ _ Hx He).
  - assert (Hlen : zlen s < zlen (s ++ NUL :: r)).
    { rewrite zlen_app, !zlen_cons. pose proof (zlen_nonneg r). lia. }
    assert (Hsub : zlen (s ++ NUL :: r) - Z.of_nat (S (length s)) = zlen r).
    { rewrite zlen_app, !zlen_cons. unfold zlen. lia. }
    destruct s as [|a s].
    + apply decides_fail with (e := None).
      * intros y Hy. rewrite <- app_assoc. cbn [app].
        rewrite (dntv_found [] r y); [reflexivity|apply no_nul_nil|exact Hlen].
      * intros [n v] (Hne & Hn' & _ & rest & He). cbn [fst snd] in *.
        destruct (split_nul_unique [] r n _ no_nul_nil Hn' He) as [<- _]. congruence.
    + set (n := a :: s) in *.
      destruct (split_nul r) as [Hr|(v & r' & -> & Hv)].
      * apply decides_fail with (e := Some E_MISSING_NULL).
        -- intros y Hy. rewrite <- app_assoc. cbn [app].
           rewrite (dntv_found n r y); [|exact Hs|exact Hlen].
           cbn [bind]. replace (Nat.eqb (length n) 0) with false by reflexivity.
           rewrite cstring_app by exact Hs. cbn [bind].
           rewrite skipn_after, Hsub.
           rewrite dntv_missing; eauto using in_not_nil.
        -- intros [n' v'] (Hne & Hn' & Hv' & rest & He). cbn [fst snd] in *.
           destruct (split_nul_unique _ _ _ _ Hs Hn' He) as [_ He'].
           exact (no_nul_split_absurd _ _ _ Hr He').
      * apply decides_ok with (a := (n, v)).
        -- intros y Hy. rewrite <- app_assoc. cbn [app].
           rewrite (dntv_found n _ y); [|exact Hs|exact Hlen].
           cbn [bind]. replace (Nat.eqb (length n) 0) with false by reflexivity.
           rewrite cstring_app by exact Hs. cbn [bind].
           rewrite skipn_after, Hsub. rewrite <- app_assoc. cbn [app].
           rewrite (dntv_found v r' y); [|exact Hv|].
           ++ cbn [bind]. rewrite cstring_app by exact Hv. reflexivity.
           ++ rewrite zlen_app, !zlen_cons. pose proof (zlen_nonneg r'). lia.
        -- intros [n' v']. cbn [fst snd]. split.
           ++ intros (_ & Hn' & Hv' & rest & He).
              destruct (split_nul_unique _ _ _ _ Hs Hn' He) as [<- He'].
              destruct (split_nul_unique _ _ _ _ Hv Hv' He') as [<- _]. reflexivity.
           ++ intros [= -> ->]. split; [discriminate|split; [exact Hs|split; [exact Hv|]]].
              exists r'. reflexivity.
Qed.

Lemma read32_word n r : word n -> read32 (be32 n ++ r) = Ok n.
Proof. intros H. unfold read32, be32. cbn [app]. rewrite rd32_be32 by exact H. reflexivity. Qed.

(** Cutting a word off. *)
Lemma take_word x :
  zlen x < 4 \/ exists n r, word n /\ x = be32 n ++ r.
Proof.
  destruct (split4 x) as [H|(a & b & c & d & r & ->)].
  - left. unfold zlen. lia.
  - right. exists (rd32 a b c d), r. split; [apply rd32_bound|]. rewrite be32_rd32. reflexivity.
Qed.

Lemma word_inj m n r s : word m -> word n -> be32 m ++ r = be32 n ++ s -> m = n /\ r = s.
Proof.
  intros Hm Hn H. assert (H4 : be32 m = be32 n /\ r = s).
  { unfold be32 in *. cbn [app] in H. injection H as H1 H2 H3 H4 H5.
    rewrite H1, H2, H3, H4. auto. }
  destruct H4 as [H4 ->]. split; [|reflexivity]. apply be32_inj in H4; auto.
Qed.

Lemma zlen_be32 n r : zlen (be32 n ++ r) = zlen r + 4.
Proof. rewrite zlen_app. unfold zlen at 1. rewrite be32_length. lia. Qed.

Lemma negotiate_option_decides c x :
  decides (fun y => decode_negotiate_option (c :: x ++ y) (zlen (c :: x)))
    (fun r => snd r = 13 /\ word (o_version (fst r)) /\ word (o_action (fst r)) /\
              word (o_step (fst r)) /\
              exists rest, x = be32 (o_version (fst r)) ++ be32 (o_action (fst r)) ++
                               be32 (o_step (fst r)) ++ rest).
Proof.
  unfold decode_negotiate_option. rewrite zlen_cons.
  replace (zlen x + 1 - 1) with (zlen x) by lia.
  destruct (take_word x) as [Hx|(v & x1 & Hv & ->)].
  { apply decides_fail with (e := Some E_SHORT_COMMAND_LENGTH).
    - intros y Hy. cbn [skipn]. rewrite (check_at_least_short _ y) by lia. reflexivity.
    - intros [o n] (_ & _ & _ & _ & rest & He). rewrite He, zlen_be32 in Hx.
      match type of Hx with zlen ?l + _ < _ => pose proof (zlen_nonneg l) end. lia. }
  destruct (take_word x1) as [Hx|(a & x2 & Ha & ->)].
  { apply decides_fail with (e := Some E_SHORT_COMMAND_LENGTH).
    - intros y Hy. cbn [skipn]. rewrite zlen_be32.
      pose proof (zlen_nonneg x1).
      rewrite check_at_least_ok by lia. cbn [bind].
      rewrite <- app_assoc, read32_word by exact Hv. cbn [bind].
      unfold be32 at 1. cbn [app skipn]. rewrite (check_at_least_short _ y) by lia. reflexivity.
    - intros [o n] (_ & Hv' & _ & _ & rest & He). apply word_inj in He as [_ He]; auto.
      rewrite He, zlen_be32 in Hx.
      match type of Hx with zlen ?l + _ < _ => pose proof (zlen_nonneg l) end. lia. }
  destruct (take_word x2) as [Hx|(s & x3 & Hs & ->)].
  { apply decides_fail with (e := Some E_SHORT_COMMAND_LENGTH).
    - intros y Hy. cbn [skipn]. rewrite !zlen_be32.
      pose proof (zlen_nonneg x2).
      rewrite check_at_least_ok by lia. cbn [bind].
      rewrite <- !app_assoc, read32_word by exact Hv. cbn [bind].
      unfold be32 at 1. cbn [app skipn]. rewrite check_at_least_ok by lia. cbn [bind].
      unfold be32 at 1. cbn [app skipn]. rewrite read32_word by exact Ha. cbn [bind].
      unfold be32 at 1 2. cbn [app skipn]. rewrite (check_at_least_short _ y) by lia. reflexivity.
    - intros [o n] (_ & Hv' & Ha' & _ & rest & He). apply word_inj in He as [_ He]; auto.
      apply word_inj in He as [_ He]; auto.
      rewrite He, zlen_be32 in Hx.
      match type of Hx with zlen ?l + _ < _ => pose proof (zlen_nonneg l) end. lia. }
  apply decides_ok with (a := (mk_option v a s, 13)).
  - intros y Hy. cbn [skipn]. rewrite !zlen_be32.
    pose proof (zlen_nonneg x3).
    rewrite check_at_least_ok by lia. cbn [bind].
    rewrite <- !app_assoc, read32_word by exact Hv. cbn [bind].
    unfold be32 at 1. cbn [app skipn]. rewrite check_at_least_ok by lia. cbn [bind].
    unfold be32 at 1. cbn [app skipn]. rewrite read32_word by exact Ha. cbn [bind].
    unfold be32 at 1 2. cbn [app skipn]. rewrite check_at_least_ok by lia. cbn [bind].
    unfold be32 at 1 2. cbn [app skipn]. rewrite read32_word by exact Hs. reflexivity.
  - intros [[v' a' s'] n]. cbn [fst snd o_version o_action o_step]. split.
    + intros (-> & Hv' & Ha' & Hs' & rest & He).
      apply word_inj in He as [<- He]; auto. apply word_inj in He as [<- He]; auto.
      apply word_inj in He as [<- He]; auto.
    + intros [= -> -> -> ->]. repeat split; auto. exists x3. rewrite <- ?app_assoc. reflexivity.
Qed.

Lemma negotiate_decides x :
  decides (fun y => decode_negotiate ("O"%char :: x ++ y) (zlen ("O"%char :: x)))
    (fun c => exists v a s, word v /\ word a /\ word s /\ c = CNegotiate (mk_option v a s) /\
                            x = be32 v ++ be32 a ++ be32 s).
Proof.
  unfold decode_negotiate.
  destruct (negotiate_option_decides "O"%char x) as (r & H1 & H2).
  destruct r as [[[v a s] n]|e|]; [| |destruct H2].
  - destruct (proj2 (H2 _) eq_refl) as (Hn & Hv & Ha & Hs & rest & Hx).
    cbn [fst snd o_version o_action o_step] in *. subst n.
    assert (Hl : zlen ("O"%char :: x) - 13 = zlen rest).
    { rewrite zlen_cons, Hx, !zlen_be32. lia. }
    destruct rest as [|b rest].
    + apply decides_ok with (a := CNegotiate (mk_option v a s)).
      * intros y Hy. rewrite H1 by auto. cbn [bind]. rewrite Hl. rewrite zlen_nil.
        unfold check_command_length. reflexivity.
      * intros c. split.
        -- intros (v' & a' & s' & Hv' & Ha' & Hs' & -> & He). rewrite Hx in He.
           rewrite app_nil_r in He.
           apply word_inj in He as [<- He]; auto. apply word_inj in He as [<- He]; auto.
           rewrite <- (app_nil_r (be32 s)), <- (app_nil_r (be32 s')) in He.
           apply word_inj in He as [<- He]; auto.
        -- intros ->. exists v, a, s. rewrite Hx, app_nil_r. repeat split; auto.
    + apply decides_fail with (e := Some E_LONG_COMMAND_LENGTH).
      * intros y Hy. rewrite H1 by auto. cbn [bind]. rewrite Hl.
        change (Z.to_nat 13) with 13%nat. rewrite Hx. unfold be32. cbn [app skipn].
        change (b :: rest ++ y) with ((b :: rest) ++ y).
        rewrite check_exact_long; auto. rewrite zlen_cons. pose proof (zlen_nonneg rest). lia.
      * intros c (v' & a' & s' & Hv' & Ha' & Hs' & -> & He). rewrite Hx in He.
        apply word_inj in He as [<- He]; auto. apply word_inj in He as [<- He]; auto.
        rewrite <- (app_nil_r (be32 s')) in He.
        apply word_inj in He as [<- He]; auto. discriminate.
  - apply decides_fail with (e := e).
    + intros y Hy. rewrite H1 by auto. reflexivity.
    + intros c (v & a & s & Hv & Ha & Hs & _ & He).
      apply (H2 (mk_option v a s, 13)). cbn [fst snd o_version o_action o_step].
      repeat split; auto. exists []. rewrite app_nil_r. exact He.
Qed.

(** *** define-macro *)

Lemma check_macro_context_spec c :
  (In c macro_contexts /\ check_macro_context c = Ok tt) \/
  (~ In c macro_contexts /\ check_macro_context c = Fail (Some E_UNKNOWN_MACRO_CONTEXT)).
Proof.
  unfold check_macro_context.
  destruct (existsb (beqb c) ["C"; "H"; "M"; "R"; "T"; "L"; "N"; "B"; "E"; "U"]%char) eqn:E.
  - left. split; [|reflexivity]. apply existsb_exists in E as (d & Hd & He).
    apply beqb_eq in He as ->. exact Hd.
  - right. split; [|reflexivity]. intros Hi.
    assert (H : existsb (beqb c) macro_contexts = true).
    { apply existsb_exists. exists c. split; [exact Hi|apply beqb_refl]. }
    change macro_contexts with ["C"; "H"; "M"; "R"; "T"; "L"; "N"; "B"; "E"; "U"]%char in H.
    congruence.
Qed.

Definition pairs_of (x : bytes) (kvs : list (bytes * bytes)) : Prop :=
  Forall pair_ok kvs /\ x = concat (map pair_bytes kvs).

Lemma pairs_of_nil kvs : pairs_of [] kvs -> kvs = [].
Proof.
  intros [_ H]. destruct kvs as [|[k v] kvs]; [reflexivity|].
  cbn in H. unfold pair_bytes in H. cbn [fst] in H. destruct k; discriminate.
Qed.

Lemma define_macros_decides n : forall x acc, (length x <= n)%nat ->
  exists r,
    (forall fuel y, (length x < fuel)%nat -> In NUL y ->
       decode_define_macros fuel (x ++ y) (zlen x) acc = r) /\
    match r with
    | Ok t => exists kvs, pairs_of x kvs /\ t = received acc kvs /\
                          forall kvs', pairs_of x kvs' -> kvs' = kvs
    | Fail _ => forall kvs, ~ pairs_of x kvs
    | UB => False
    end.
Proof.
  induction n as [|n IH]; intros x acc Hx.
  { destruct x; [|simpl in Hx; lia]. exists (Ok acc). split.
    - intros fuel y _ _. destruct fuel; reflexivity.
    - exists []. split; [split; constructor|split; [reflexivity|apply pairs_of_nil]]. }
  destruct x as [|c0 x0].
  { exists (Ok acc). split.
    - intros fuel y _ _. destruct fuel; reflexivity.
    - exists []. split; [split; constructor|split; [reflexivity|apply pairs_of_nil]]. }
  set (x := c0 :: x0) in *.
  assert (Hpos : zlen x <=? 0 = false).
  { apply Z.leb_gt. unfold x. rewrite zlen_cons. pose proof (zlen_nonneg x0). lia. }
  assert (Hstep : forall fuel y, (length x < fuel)%nat ->
    decode_define_macros fuel (x ++ y) (zlen x) acc =
    let* n0 := decode_null_terminated_value (x ++ y) (zlen x) in
    if Nat.eqb n0 0 then Fail None
    else
      let p1 := skipn (S n0) (x ++ y) in
      let len1 := zlen x - Z.of_nat (S n0) in
      let* m := decode_null_terminated_value p1 len1 in
      decode_define_macros (pred fuel) (skipn (S m) p1) (len1 - Z.of_nat (S m))
        (insert acc (normalized_key (firstn n0 (x ++ y))) (firstn m p1))).
  { intros fuel y Hf. destruct fuel as [|fuel]; [lia|]. cbn [decode_define_macros pred].
    rewrite Hpos. reflexivity. }
  clearbody x. clear c0 x0.
  destruct (split_nul x) as [Hnn|(k & r & -> & Hk)].
  { exists (Fail (Some E_MISSING_NULL)). split.
    - intros fuel y Hf Hy. rewrite Hstep by exact Hf. rewrite dntv_missing; eauto using in_not_nil.
    - intros kvs [_ He]. destruct kvs as [|[k v] kvs].
      + cbn in He. subst x. discriminate Hpos.
      + cbn [map concat] in He. unfold pair_bytes at 1 in He. rewrite <- app_assoc in He.
        exact (no_nul_split_absurd _ _ _ Hnn He). }
  assert (Hlen : zlen k < zlen (k ++ NUL :: r)).
  { rewrite zlen_app, !zlen_cons. pose proof (zlen_nonneg r). lia. }
  assert (Hsub : zlen (k ++ NUL :: r) - Z.of_nat (S (length k)) = zlen r).
  { rewrite zlen_app, !zlen_cons. unfold zlen. lia. }
  assert (Hfirst : forall kvs, pairs_of (k ++ NUL :: r) kvs ->
    exists v rest, kvs = (k, v) :: rest /\ k <> [] /\ no_nul v /\
                   r = v ++ NUL :: concat (map pair_bytes rest) /\ Forall pair_ok rest).
  { intros kvs [Hok He]. destruct kvs as [|[k' v] rest].
    - cbn in He. destruct k; discriminate.
    - inversion Hok as [|? ? (H1 & H2 & H3) Hok' Heq]; subst. cbn [fst snd] in *.
      cbn [map concat] in He. unfold pair_bytes at 1 in He. cbn [fst snd] in He.
      rewrite <- app_assoc in He. cbn [app] in He. rewrite <- app_assoc in He. cbn [app] in He.
      destruct (split_nul_unique _ _ _ _ Hk H2 He) as [-> ->].
      exists v, rest. auto. }
  destruct k as [|kc k'].
  { exists (Fail None). split.
    - intros fuel y Hf Hy. rewrite Hstep by exact Hf. rewrite <- app_assoc. cbn [app].
      rewrite (dntv_found [] r y); [reflexivity|apply no_nul_nil|exact Hlen].
    - intros kvs Hp. destruct (Hfirst kvs Hp) as (v & rest & _ & Hne & _). congruence. }
  set (k := kc :: k') in *.
  destruct (split_nul r) as [Hr|(v & r' & -> & Hv)].
  { exists (Fail (Some E_MISSING_NULL)). split.
    - intros fuel y Hf Hy. rewrite Hstep by exact Hf. rewrite <- app_assoc. cbn [app].
      rewrite (dntv_found k r y); [|exact Hk|exact Hlen]. cbn [bind].
      replace (Nat.eqb (length k) 0) with false by reflexivity. cbv zeta.
      rewrite skipn_after, Hsub. rewrite dntv_missing; eauto using in_not_nil.
    - intros kvs Hp. destruct (Hfirst kvs Hp) as (v & rest & _ & _ & _ & He & _).
      exact (no_nul_split_absurd _ _ _ Hr He). }
  assert (Hlen' : zlen v < zlen (v ++ NUL :: r')).
  { rewrite zlen_app, !zlen_cons. pose proof (zlen_nonneg r'). lia. }
  assert (Hsub' : zlen (v ++ NUL :: r') - Z.of_nat (S (length v)) = zlen r').
  { rewrite zlen_app, !zlen_cons. unfold zlen. lia. }
  destruct (IH r' (insert acc (normalized_key k) v)) as (res & Hres & Hdec).
  { rewrite !app_length in Hx. simpl length in Hx. rewrite app_length in Hx.
    simpl length in Hx. lia. }
  exists res. split.
  - intros fuel y Hf Hy. rewrite Hstep by exact Hf. rewrite <- app_assoc. cbn [app].
    rewrite (dntv_found k _ y); [|exact Hk|exact Hlen]. cbn [bind].
    replace (Nat.eqb (length k) 0) with false by reflexivity. cbv zeta.
    rewrite skipn_after, Hsub, firstn_before. rewrite <- app_assoc. cbn [app].
    rewrite (dntv_found v r' y); [|exact Hv|exact Hlen']. cbn [bind].
    rewrite skipn_after, Hsub', firstn_before. apply Hres; [|exact Hy].
    rewrite app_length in Hf. simpl length in Hf. rewrite app_length in Hf. simpl length in Hf. lia.
  - destruct res as [t|e|]; auto.
    + destruct Hdec as (kvs & [Hok He] & Ht & Huniq). exists ((k, v) :: kvs). split; [split|split].
      * constructor; auto. split; [discriminate|auto].
      * cbn [map concat]. unfold pair_bytes at 1. cbn [fst snd].
        rewrite <- app_assoc. cbn [app]. rewrite <- app_assoc. cbn [app]. rewrite <- He. reflexivity.
      * exact Ht.
      * intros kvs' Hp. destruct (Hfirst kvs' Hp) as (v' & rest & -> & _ & Hv' & He' & Hok').
        destruct (split_nul_unique _ _ _ _ Hv Hv' He') as [<- He'']. f_equal.
        apply Huniq. split; auto.
    + intros kvs' Hp. destruct (Hfirst kvs' Hp) as (v' & rest & -> & _ & Hv' & He' & Hok').
      destruct (split_nul_unique _ _ _ _ Hv Hv' He') as [<- He''].
      apply (Hdec rest). split; auto.
Qed.

Lemma define_decides ctx x :
  decides (fun y => decode_define_macro ("D"%char :: ctx :: x ++ y) (zlen ("D"%char :: ctx :: x)))
    (fun c => In ctx macro_contexts /\
              exists kvs, pairs_of x kvs /\ c = CDefineMacro ctx (received [] kvs)).
Proof.
  destruct (define_macros_decides (length x) x [] (Nat.le_refl _)) as (r & Hr & Hdec).
  destruct (check_macro_context_spec ctx) as [[Hin Hctx]|[Hout Hctx]].
  - assert (Hnn : ctx <> NUL).
    { intros ->. unfold macro_contexts in Hin. simpl in Hin.
      repeat (destruct Hin as [Hin|Hin]; [discriminate Hin|]). destruct Hin. }
    assert (Hrun : forall y, In NUL y ->
      decode_define_macro ("D"%char :: ctx :: x ++ y) (zlen ("D"%char :: ctx :: x)) =
      let* macros := r in Ok (CDefineMacro ctx macros)).
    { intros y Hy. unfold decode_define_macro.
      destruct (cstring_total (x ++ y)) as [s Hs]; [apply in_or_app; auto|].
      cbn [cstring]. rewrite (beqb_nul_false ctx Hnn), Hs.
      replace (beqb "D" NUL) with false by reflexivity. cbn [bind].
      rewrite check_at_least_ok by (rewrite !zlen_cons; pose proof (zlen_nonneg s); lia).
      cbn [bind]. unfold deref. cbn [nth_error bind]. rewrite Hctx. cbn [bind skipn].
      replace (zlen ("D"%char :: ctx :: x) - 2) with (zlen x) by (rewrite !zlen_cons; lia).
      rewrite Hr; [reflexivity| |exact Hy]. simpl. rewrite app_length. lia. }
    destruct r as [t|e|]; [| |destruct Hdec].
    + destruct Hdec as (kvs & Hp & -> & Hu).
      apply decides_ok with (a := CDefineMacro ctx (received [] kvs)).
      * intros y Hy. rewrite Hrun by exact Hy. reflexivity.
      * intros c. split.
        -- intros (_ & kvs' & Hp' & ->). rewrite (Hu kvs' Hp'). reflexivity.
        -- intros ->. split; [exact Hin|]. exists kvs. auto.
    + apply decides_fail with (e := e).
      * intros y Hy. rewrite Hrun by exact Hy. reflexivity.
      * intros c (_ & kvs & Hp & _). exact (Hdec kvs Hp).
  - destruct (ascii_eq_dec ctx NUL) as [->|Hnn].
    + apply decides_fail with (e := Some E_SHORT_COMMAND_LENGTH).
      * intros y Hy. reflexivity.
      * intros c (H & _). exact (Hout H).
    + apply decides_fail with (e := Some E_UNKNOWN_MACRO_CONTEXT).
      * intros y Hy. unfold decode_define_macro.
        destruct (cstring_total (x ++ y)) as [s Hs]; [apply in_or_app; auto|].
        cbn [cstring]. rewrite (beqb_nul_false ctx Hnn), Hs.
        replace (beqb "D" NUL) with false by reflexivity. cbn [bind].
        rewrite check_at_least_ok by (rewrite !zlen_cons; pose proof (zlen_nonneg s); lia).
        cbn [bind]. unfold deref. cbn [nth_error bind]. rewrite Hctx. reflexivity.
      * intros c (H & _). exact (Hout H).
Qed.

(** *** connect *)

Lemma has_prefix_spec prefix : forall s,
  (has_prefix prefix s = true /\ exists r, s = prefix ++ r /\ skipn (length prefix) s = r) \/
  (has_prefix prefix s = false /\ forall r, s <> prefix ++ r).
Proof.
  induction prefix as [|a prefix IH]; intros s; cbn [has_prefix].
  - left. split; [reflexivity|]. exists s. split; reflexivity.
  - destruct s as [|b s].
    + right. split; [reflexivity|]. intros r. discriminate.
    + destruct (beqb a b) eqn:E; cbn [andb].
      * apply beqb_eq in E as ->. destruct (IH s) as [[H (r & -> & Hr)]|[H Hr]].
        -- left. split; [exact H|]. exists r. split; [reflexivity|exact Hr].
        -- right. split; [exact H|]. intros r [= He]. exact (Hr r He).
      * right. split; [reflexivity|]. intros r [= -> He]. rewrite beqb_refl in E. discriminate.
Qed.

Lemma ipv6_text_spec text :
  ipv6_text text (if has_prefix (lit "IPv6:") text then skipn 5 text else text).
Proof.
  destruct (has_prefix_spec (lit "IPv6:") text) as [[-> (r & -> & _)]|[-> Hr]].
  - change (skipn 5 (lit "IPv6:" ++ r)) with r. constructor.
  - constructor. exact Hr.
Qed.

Lemma ipv6_text_fun t a b : ipv6_text t a -> ipv6_text t b -> a = b.
Proof.
  intros H1 H2. destruct H1 as [s|s H1].
  - inversion H2 as [s' He|s' H2' He]; subst; [reflexivity|]. destruct (H2' s eq_refl).
  - inversion H2 as [s' He|s' H2' He]; subst; [|reflexivity]. destruct (H1 b eq_refl).
Qed.

Section Connect.
  Variables (pton4 pton6 : bytes -> option bytes).

  (** The part after the family byte and port. *)
  Definition decode_text (p : ptr) (len : Z) : res bytes :=
    let* m := decode_null_terminated_value p len in
    if Nat.eqb m 0 then Fail None else cstring p.

  Lemma decode_text_decides x :
    decides (fun y => decode_text (x ++ y) (zlen x))
            (fun s => s <> [] /\ no_nul s /\ exists rest, x = s ++ NUL :: rest).
  Proof.
    eapply decides_ext; [|exact (decode_string_decides "C"%char x)].
    intros y _. unfold decode_text, decode_string. cbn [skipn]. rewrite zlen_cons.
    replace (zlen x + 1 - 1) with (zlen x) by lia. reflexivity.
  Qed.

  (** What follows the host name, and must have a family byte. *)
  Definition decode_family (host : bytes) (family : byte) (p1 : ptr) (len1 : Z) : res command :=
    if beqb family "U"%char then
      let* _ := check_command_length p1 len1 0 COMPARE_EXACT in
      Ok (CConnect host AUnspec)
    else if beqb family "4"%char || beqb family "6"%char || beqb family "L"%char then
      let* _ := check_command_length p1 len1 2 COMPARE_AT_LEAST in
      let* port1 := deref p1 0 in
      let* port2 := deref p1 1 in
      let* text := decode_text (skipn 2 p1) (len1 - 2) in
      if beqb family "4"%char then
        match pton4 text with
        | Some ip => Ok (CConnect host (AInet (port1, port2) ip))
        | None => Fail (Some E_INVALID_FORMAT)
        end
      else if beqb family "6"%char then
        match pton6 (if has_prefix (lit "IPv6:") text then skipn 5 text else text) with
        | Some ip => Ok (CConnect host (AInet6 (port1, port2) ip))
        | None => Fail (Some E_INVALID_FORMAT)
        end
      else if Nat.leb SUN_PATH_SIZE (length text) then UB
      else Ok (CConnect host (AUnix text))
    else Fail (Some E_UNKNOWN_SOCKET_FAMILY).

  Lemma connect_unfold host family x y :
    no_nul host -> host <> [] ->
    decode_connect_content pton4 pton6 ((host ++ NUL :: family :: x) ++ y)
      (zlen (host ++ NUL :: family :: x)) =
    decode_family host family (x ++ y) (zlen x).
  Proof.
    intros Hh Hne. unfold decode_connect_content. rewrite <- app_assoc. cbn [app].
    change (NUL :: family :: x ++ y) with (NUL :: (family :: x) ++ y).
    rewrite (dntv_found host (family :: x) y); [|exact Hh|].
    2:{ rewrite zlen_app, !zlen_cons. pose proof (zlen_nonneg x). lia. }
    cbn [bind]. destruct host as [|h0 host']; [congruence|]. set (host := h0 :: host') in *.
    replace (Nat.eqb (length host) 0) with false by reflexivity.
    rewrite cstring_app by exact Hh. cbn [bind].
    assert (Hd : deref (host ++ NUL :: (family :: x) ++ y) (S (length host)) = Ok family).
    { unfold deref. rewrite nth_error_app2 by lia.
      replace (S (length host) - length host)%nat with 1%nat by lia. reflexivity. }
    rewrite Hd. cbn [bind].
    assert (Hs : skipn (S (S (length host))) (host ++ NUL :: (family :: x) ++ y) = x ++ y).
    { replace (host ++ NUL :: (family :: x) ++ y) with ((host ++ [NUL; family]) ++ x ++ y)
        by (rewrite <- app_assoc; reflexivity).
      replace (S (S (length host))) with (length (host ++ [NUL; family]))
        by (rewrite app_length; simpl; lia).
      apply skipn_app_exact. }
    rewrite Hs.
    replace (zlen (host ++ NUL :: family :: x) - Z.of_nat (S (S (length host)))) with (zlen x)
      by (rewrite zlen_app, !zlen_cons; unfold zlen; lia).
    unfold decode_family, decode_text.
    destruct (beqb family "U"); [reflexivity|].
    destruct (beqb family "4" || beqb family "6" || beqb family "L"); [|reflexivity].
    destruct (check_command_length (x ++ y) (zlen x) 2 COMPARE_AT_LEAST); cbn [bind]; auto.
    destruct (deref (x ++ y) 0); cbn [bind]; auto.
    destruct (deref (x ++ y) 1); cbn [bind]; auto.
    destruct (decode_null_terminated_value (skipn 2 (x ++ y)) (zlen x - 2)) as [m| |];
      cbn [bind]; auto.
    destruct (Nat.eqb m 0); cbn [bind]; auto.
  Qed.

  Lemma family_decides host family x :
    (forall p1 p2 path rest, family = "L"%char -> no_nul path ->
        x = p1 :: p2 :: path ++ NUL :: rest -> (length path < 108)%nat) ->
    decides (fun y => decode_family host family (x ++ y) (zlen x))
      (fun c => exists a, address_bytes pton4 pton6 (family :: x) a /\ c = CConnect host a).
  Proof.
    intros Hlong. unfold decode_family.
    destruct (beqb family "U") eqn:EU.
    { apply beqb_eq in EU as ->. destruct x as [|b x].
      - apply decides_ok with (a := CConnect host AUnspec).
        + intros y Hy. reflexivity.
        + intros c. split.
          * intros (a & Ha & ->). inversion Ha. reflexivity.
          * intros ->. exists AUnspec. split; [constructor|reflexivity].
      - apply decides_fail with (e := Some E_LONG_COMMAND_LENGTH).
        + intros y Hy. rewrite (check_exact_long _ y); auto. rewrite zlen_cons.
          pose proof (zlen_nonneg x). lia.
        + intros c (a & Ha & ->). inversion Ha. }
    apply beqb_neq in EU.
    destruct (beqb family "4" || beqb family "6" || beqb family "L") eqn:E46L.
    2:{ apply decides_fail with (e := Some E_UNKNOWN_SOCKET_FAMILY); [reflexivity|].
        intros c (a & Ha & ->). inversion Ha; subst; try congruence; discriminate E46L. }
    destruct x as [|p1 [|p2 x]].
    { apply decides_fail with (e := Some E_SHORT_COMMAND_LENGTH).
      - intros y Hy. rewrite (check_at_least_short [] y) by (auto; reflexivity). reflexivity.
      - intros c (a & Ha & ->). inversion Ha; subst; congruence. }
    { apply decides_fail with (e := Some E_SHORT_COMMAND_LENGTH).
      - intros y Hy. rewrite (check_at_least_short [p1] y) by (auto; reflexivity). reflexivity.
      - intros c (a & Ha & ->). inversion Ha; subst; congruence. }
    destruct (decode_text_decides x) as (r & Hr & Hdec).
    assert (Hrun : forall y, In NUL y ->
      (let* _ := check_command_length ((p1 :: p2 :: x) ++ y) (zlen (p1 :: p2 :: x)) 2
                   COMPARE_AT_LEAST in
       let* port1 := deref ((p1 :: p2 :: x) ++ y) 0 in
       let* port2 := deref ((p1 :: p2 :: x) ++ y) 1 in
       let* text := decode_text (skipn 2 ((p1 :: p2 :: x) ++ y)) (zlen (p1 :: p2 :: x) - 2) in
       if beqb family "4"%char then
         match pton4 text with
         | Some ip => Ok (CConnect host (AInet (port1, port2) ip))
         | None => Fail (Some E_INVALID_FORMAT)
         end
       else if beqb family "6"%char then
         match pton6 (if has_prefix (lit "IPv6:") text then skipn 5 text else text) with
         | Some ip => Ok (CConnect host (AInet6 (port1, port2) ip))
         | None => Fail (Some E_INVALID_FORMAT)
         end
       else if Nat.leb SUN_PATH_SIZE (length text) then UB
       else Ok (CConnect host (AUnix text)))
      =
      let* text := r in
       if beqb family "4"%char then
         match pton4 text with
         | Some ip => Ok (CConnect host (AInet (p1, p2) ip))
         | None => Fail (Some E_INVALID_FORMAT)
         end
       else if beqb family "6"%char then
         match pton6 (if has_prefix (lit "IPv6:") text then skipn 5 text else text) with
         | Some ip => Ok (CConnect host (AInet6 (p1, p2) ip))
         | None => Fail (Some E_INVALID_FORMAT)
         end
       else if Nat.leb SUN_PATH_SIZE (length text) then UB
       else Ok (CConnect host (AUnix text))).
    { intros y Hy.
      rewrite check_at_least_ok by (rewrite !zlen_cons; pose proof (zlen_nonneg x); lia).
      cbn [bind app deref nth_error skipn].
      replace (zlen (p1 :: p2 :: x) - 2) with (zlen x) by (rewrite !zlen_cons; lia).
      rewrite Hr by exact Hy. reflexivity. }
    destruct r as [text|e|]; [| |destruct Hdec].
    2:{ apply decides_fail with (e := e).
        - intros y Hy. rewrite Hrun by exact Hy. reflexivity.
        - intros c (a & Ha & ->).
          inversion Ha; subst; try congruence;
            match goal with H : no_nul ?t |- _ => apply (Hdec t); eauto end. }
    destruct (proj2 (Hdec text) eq_refl) as (Hne & Hnn & rest & ->).
    assert (Huniq : forall t rest', no_nul t -> text ++ NUL :: rest = t ++ NUL :: rest' -> t = text).
    { intros t rest' Ht He. destruct (split_nul_unique _ _ _ _ Hnn Ht He) as [<- _]. reflexivity. }
    destruct (beqb family "4") eqn:E4.
    { apply beqb_eq in E4 as ->. cbn [bind] in Hrun.
      destruct (pton4 text) as [ip|] eqn:Eip.
      - eapply decides_ok; [exact Hrun|]. intros c. split.
        + intros (a & Ha & ->). inversion Ha as [|? ? t ip' rest' H1 H2 H3 H4 H5| |]; subst.
          rewrite (Huniq t rest' H2 ltac:(congruence)) in H3. congruence.
        + intros ->. eexists. split; [|reflexivity]. constructor; auto.
      - eapply decides_fail; [exact Hrun|]. intros c (a & Ha & ->).
        inversion Ha as [|? ? t ip' rest' H1 H2 H3 H4 H5| |]; subst.
        rewrite (Huniq t rest' H2 ltac:(congruence)) in H3. congruence. }
    apply beqb_neq in E4.
    destruct (beqb family "6") eqn:E6.
    { apply beqb_eq in E6 as ->. cbn [bind] in Hrun.
      pose proof (ipv6_text_spec text) as Htext.
      set (plain := if has_prefix (lit "IPv6:") text then skipn 5 text else text) in *.
      destruct (pton6 plain) as [ip|] eqn:Eip.
      - eapply decides_ok; [intros y Hy; rewrite Hrun by exact Hy; match goal with |- context [pton6 ?q] => change q with plain end; rewrite Eip; reflexivity|]. intros c. split.
        + intros (a & Ha & ->). inversion Ha as [| |? ? t pl ip' rest' H1 H2 H3 H4 H5 H6|]; subst.
          rewrite (Huniq t rest' H2 ltac:(congruence)) in H3.
          assert (pl = plain) as -> by exact (ipv6_text_fun _ _ _ H3 Htext). congruence.
        + intros ->. eexists. split; [|reflexivity]. econstructor; eauto.
      - eapply decides_fail; [intros y Hy; rewrite Hrun by exact Hy; match goal with |- context [pton6 ?q] => change q with plain end; rewrite Eip; reflexivity|]. intros c (a & Ha & ->).
        inversion Ha as [| |? ? t pl ip' rest' H1 H2 H3 H4 H5 H6|]; subst.
        rewrite (Huniq t rest' H2 ltac:(congruence)) in H3.
        assert (pl = plain) as -> by exact (ipv6_text_fun _ _ _ H3 Htext). congruence. }
    apply beqb_neq in E6.
    destruct (beqb family "L") eqn:EL.
    2:{ exfalso. clear - E46L E4 E6 EL. destruct (beqb family "4") eqn:A; [apply beqb_eq in A; congruence|]. destruct (beqb family "6") eqn:B; [apply beqb_eq in B; congruence|]. discriminate. }
    apply beqb_eq in EL as ->.
    pose proof (Hlong p1 p2 text rest eq_refl Hnn eq_refl) as Hl.
    cbn [bind] in Hrun.
    replace (Nat.leb SUN_PATH_SIZE (length text)) with false in Hrun
      by (symmetry; apply Nat.leb_gt; exact Hl).
    eapply decides_ok; [exact Hrun|]. intros c. split.
    - intros (a & Ha & ->). inversion Ha as [| | |? ? t rest' H1 H2 H3 H4]; subst.
      rewrite (Huniq t rest' H2 ltac:(congruence)). reflexivity.
    - intros ->. eexists. split; [|reflexivity]. constructor; auto.
  Qed.

  Lemma connect_decides x :
    ~ unguarded_command ("C"%char :: x) ->
    decides (fun y => decode_connect_content pton4 pton6 (x ++ y) (zlen x))
      (fun c => exists host a rest, host <> [] /\ no_nul host /\ x = host ++ NUL :: rest /\
                  address_bytes pton4 pton6 rest a /\ c = CConnect host a).
  Proof.
    intros Hug. destruct (split_nul x) as [Hx|(host & r & -> & Hh)].
    - apply decides_fail with (e := Some E_MISSING_NULL).
      + intros y Hy. unfold decode_connect_content.
        rewrite dntv_missing; eauto using in_not_nil.
      + intros c (host & a & rest & _ & _ & He & _). exact (no_nul_split_absurd _ _ _ Hx He).
    - destruct host as [|h0 host'].
      { apply decides_fail with (e := None).
        - intros y Hy. unfold decode_connect_content. rewrite <- app_assoc. cbn [app].
          rewrite (dntv_found [] r y); [reflexivity|apply no_nul_nil|].
          rewrite zlen_cons, zlen_nil. pose proof (zlen_nonneg r). lia.
        - intros c (host & a & rest & Hne & Hh' & He & _).
          destruct (split_nul_unique [] r host rest no_nul_nil Hh' He) as [<- _]. congruence. }
      set (host := h0 :: host') in *.
      assert (Hne : host <> []) by discriminate.
      destruct r as [|family x].
      { exfalso. apply Hug. constructor; auto. }
      eapply decides_iff.
      2:{ eapply decides_ext.
          - intros y _. apply connect_unfold; auto.
          - apply family_decides. intros p1 p2 path rest -> Hp ->.
            apply Nat.nle_gt. intros Hle. apply Hug. constructor; auto. }
      intros c. split.
      + intros (a & Ha & ->). exists host, a, (family :: x). auto.
      + intros (host2 & a & rest & Hne' & Hh' & He & Ha & ->).
        destruct (split_nul_unique _ _ _ _ Hh Hh' He) as [<- <-]. eauto.
  Qed.
End Connect.

(** *** The whole decoder *)

Section Decoder.
  Variables (pton4 pton6 : bytes -> option bytes).

  (** The grammar with the exact table the decoder builds. *)
  Definition exact_packet (x : bytes) (c : command) : Prop :=
    match c with
    | CDefineMacro ctx t =>
        exists kvs, x = "D"%char :: ctx :: concat (map pair_bytes kvs) /\
                    In ctx macro_contexts /\ Forall pair_ok kvs /\ t = received [] kvs
    | _ => command_packet pton4 pton6 x c
    end.

  Lemma exact_packet_sound x c : exact_packet x c -> command_packet pton4 pton6 x c.
  Proof.
    destruct c; cbn [exact_packet]; auto.
    intros (kvs & -> & Hin & Hok & ->). constructor; auto. apply received_table_of, Hok.
  Qed.

  Lemma exact_packet_complete x c :
    command_packet pton4 pton6 x c -> exists c', exact_packet x c' /\ same_command c c'.
  Proof.
    intros H. destruct H as [v a s Hv Ha Hs|ctx kvs t Hin Hok Ht| | | | | | | | | | | | |];
      try (eexists; split; [|reflexivity]; cbn [exact_packet]; constructor; auto; fail).
    exists (CDefineMacro ctx (received [] kvs)). split.
    - exists kvs. auto.
    - split; [reflexivity|]. apply (table_of_same kvs); auto. apply received_table_of, Hok.
  Qed.

  Lemma command_decides x :
    ~ unguarded_command x ->
    decides (fun y => decode_command pton4 pton6 (x ++ y) (zlen x)) (exact_packet x).
  Proof.
    intros Hug. destruct x as [|c x]; [exfalso; apply Hug; constructor|].
    unfold decode_command. cbn [app]. unfold deref. cbn [nth_error bind].
    destruct (beqb c "O") eqn:E.
    { apply beqb_eq in E as ->. eapply decides_iff; [|apply negotiate_decides].
      intros d. split.
      - intros (v & a & s & Hv & Ha & Hs & -> & ->). cbn [exact_packet]. constructor; auto.
      - intros H. destruct d; cbn [exact_packet] in H; try (inversion H; fail).
        + inversion H; subst. eauto 10.
        + destruct H as (? & He & _). discriminate He. }
    apply beqb_neq in E. rename E into EO.
    destruct (beqb c "D") eqn:E.
    { apply beqb_eq in E as ->. destruct x as [|ctx x]; [exfalso; apply Hug; constructor|].
      eapply decides_iff; [|apply define_decides].
      intros d. split.
      - intros (Hin & kvs & [Hok ->] & ->). exists kvs. auto.
      - intros H. destruct d; cbn [exact_packet] in H; try (inversion H; fail).
        destruct H as (kvs & [= <- ->] & Hin & Hok & ->). split; [exact Hin|].
        exists kvs. split; [split; auto|reflexivity]. }
    apply beqb_neq in E. rename E into ED.
    destruct (beqb c "C") eqn:E.
    { apply beqb_eq in E as ->. cbn [skipn].
      replace (zlen ("C"%char :: x) - 1) with (zlen x) by (rewrite zlen_cons; lia).
      eapply decides_iff; [|apply connect_decides; exact Hug].
      intros d. split.
      - intros (host & a & rest & Hne & Hh & -> & Ha & ->). constructor; auto.
      - intros H. destruct d; cbn [exact_packet] in H; try (inversion H; fail).
        + destruct H as (? & He & _). discriminate He.
        + inversion H; subst. eauto 10. }
    apply beqb_neq in E. rename E into EC.
    destruct (beqb c "H") eqn:E.
    { apply beqb_eq in E as ->.
      eapply decides_map; [apply (decode_string_decides "H"%char)|].
      intros d. split.
      - intros H. destruct d; cbn [exact_packet] in H; try (inversion H; fail).
        + destruct H as (? & He & _). discriminate He.
        + inversion H; subst. eauto 10.
      - intros (s & (Hne & Hs & rest & ->) & ->). constructor; auto. }
    apply beqb_neq in E. rename E into EH.
    destruct (beqb c "M") eqn:E.
    { apply beqb_eq in E as ->.
      eapply decides_map; [apply (decode_string_decides "M"%char)|].
      intros d. split.
      - intros H. destruct d; cbn [exact_packet] in H; try (inversion H; fail).
        + destruct H as (? & He & _). discriminate He.
        + inversion H; subst. eauto 10.
      - intros (s & (Hne & Hs & rest & ->) & ->). constructor; auto. }
    apply beqb_neq in E. rename E into EM.
    destruct (beqb c "R") eqn:E.
    { apply beqb_eq in E as ->.
      eapply decides_map; [apply (decode_string_decides "R"%char)|].
      intros d. split.
      - intros H. destruct d; cbn [exact_packet] in H; try (inversion H; fail).
        + destruct H as (? & He & _). discriminate He.
        + inversion H; subst. eauto 10.
      - intros (s & (Hne & Hs & rest & ->) & ->). constructor; auto. }
    apply beqb_neq in E. rename E into ER.
    destruct (beqb c "T") eqn:E.
    { apply beqb_eq in E as ->.
      eapply decides_iff; [|apply decode_empty_decides].
      intros d. split.
      - intros (-> & ->). constructor.
      - intros H. destruct d; cbn [exact_packet] in H; try (inversion H; fail).
        + destruct H as (? & He & _). discriminate He.
        + inversion H; subst. auto. }
    apply beqb_neq in E. rename E into ET.
    destruct (beqb c "L") eqn:E.
    { apply beqb_eq in E as ->. cbn [skipn].
      replace (zlen ("L"%char :: x) - 1) with (zlen x) by (rewrite zlen_cons; lia).
      eapply (decides_map (fun nv => CHeader (fst nv) (snd nv))); [apply header_content_decides|].
      intros d. split.
      - intros H. destruct d; cbn [exact_packet] in H; try (inversion H; fail).
        + destruct H as (? & He & _). discriminate He.
        + inversion H; subst. exists (name, value). cbn [fst snd]. eauto 10.
      - intros ([n v] & (Hne & Hn & Hv & rest & ->) & ->). cbn [fst snd] in *.
        constructor; auto. }
    apply beqb_neq in E. rename E into EL.
    destruct (beqb c "N") eqn:E.
    { apply beqb_eq in E as ->.
      eapply decides_iff; [|apply decode_empty_decides].
      intros d. split.
      - intros (-> & ->). constructor.
      - intros H. destruct d; cbn [exact_packet] in H; try (inversion H; fail).
        + destruct H as (? & He & _). discriminate He.
        + inversion H; subst. auto. }
    apply beqb_neq in E. rename E into EN.
    assert (Hchunk : forall y, chunk_at (x ++ y) (zlen x) = Ok x).
    { intros y. unfold chunk_at. rewrite zlen_app.
      pose proof (zlen_nonneg x). pose proof (zlen_nonneg y).
      destruct (Z.ltb_spec (zlen x) 0); [lia|].
      destruct (Z.leb_spec (zlen x) (zlen x + zlen y)); [|lia].
      unfold zlen. rewrite Nat2Z.id, firstn_app_exact. reflexivity. }
    destruct (beqb c "B") eqn:E.
    { apply beqb_eq in E as ->. cbn [skipn].
      replace (zlen ("B"%char :: x) - 1) with (zlen x) by (rewrite zlen_cons; lia).
      apply decides_ok with (a := CBody x).
      - intros y Hy. rewrite Hchunk. reflexivity.
      - intros d. split.
        + intros H. destruct d; cbn [exact_packet] in H; try (inversion H; fail).
          * destruct H as (? & He & _). discriminate He.
          * inversion H; subst. reflexivity.
        + intros ->. constructor. }
    apply beqb_neq in E. rename E into EB.
    destruct (beqb c "E") eqn:E.
    { apply beqb_eq in E as ->. unfold decode_end_of_message. cbn [skipn].
      replace (zlen ("E"%char :: x) - 1) with (zlen x) by (rewrite zlen_cons; lia).
      destruct x as [|b x].
      - apply decides_ok with (a := CEndOfMessage None); [reflexivity|].
        intros d. split.
        + intros H. destruct d; cbn [exact_packet] in H; try (inversion H; fail).
          * destruct H as (? & He & _). discriminate He.
          * inversion H; subst; congruence.
        + intros ->. constructor.
      - apply decides_ok with (a := CEndOfMessage (Some (b :: x))).
        + intros y Hy. destruct (Z.ltb_spec 1 (zlen ("E"%char :: b :: x))) as [Hl|Hl].
          * rewrite Hchunk. reflexivity.
          * rewrite !zlen_cons in Hl. pose proof (zlen_nonneg x). lia.
        + intros d. split.
          * intros H. destruct d; cbn [exact_packet] in H; try (inversion H; fail).
            -- destruct H as (? & He & _). discriminate He.
            -- inversion H; subst; congruence.
          * intros ->. constructor. discriminate. }
    apply beqb_neq in E. rename E into EE.
    destruct (beqb c "A") eqn:E.
    { apply beqb_eq in E as ->.
      eapply decides_iff; [|apply decode_empty_decides].
      intros d. split.
      - intros (-> & ->). constructor.
      - intros H. destruct d; cbn [exact_packet] in H; try (inversion H; fail).
        + destruct H as (? & He & _). discriminate He.
        + inversion H; subst. auto. }
    apply beqb_neq in E. rename E into EA.
    destruct (beqb c "Q") eqn:E.
    { apply beqb_eq in E as ->.
      eapply decides_iff; [|apply decode_empty_decides].
      intros d. split.
      - intros (-> & ->). constructor.
      - intros H. destruct d; cbn [exact_packet] in H; try (inversion H; fail).
        + destruct H as (? & He & _). discriminate He.
        + inversion H; subst. auto. }
    apply beqb_neq in E. rename E into EQ.
    destruct (beqb c "U") eqn:E.
    { apply beqb_eq in E as ->.
      eapply decides_map; [apply (decode_string_decides "U"%char)|].
      intros d. split.
      - intros H. destruct d; cbn [exact_packet] in H; try (inversion H; fail).
        + destruct H as (? & He & _). discriminate He.
        + inversion H; subst. eauto 10.
      - intros (s & (Hne & Hs & rest & ->) & ->). constructor; auto. }
    apply beqb_neq in E. rename E into EU.
    apply decides_fail with (e := Some E_UNEXPECTED_COMMAND); [reflexivity|].
    intros d H. destruct d; cbn [exact_packet] in H;
      try (inversion H; subst; congruence).
    destruct H as (? & He & _). congruence.
  Qed.
End Decoder.
