(** The parsers of file modes and flag lists meet their specification. *)
From Verif.Base Require Import Bytes BytesFacts.
From Verif.Model Require Import FileMode.
From Verif.Spec Require Import ParseSpec.
From Coq Require Import ZifyBool ZifyNat ZifyN.
Local Open Scope N_scope.

(** *** File modes *)

Lemma parse_digits_spec s : forall i m,
  (i + N.of_nat (length s) <= 3 /\ Forall octal s ->
   parse_digits i m s = Some (m * 8 ^ N.of_nat (length s) + octal_value s)) /\
  (~ (i + N.of_nat (length s) <= 3 /\ Forall octal s) -> i <= 3 -> parse_digits i m s = None).
Proof.
  induction s as [|c s IH]; intros i m; cbn [length parse_digits octal_value].
  - split; [intros _; f_equal; cbn; lia|]. intros H Hi. exfalso. apply H. split; [cbn; lia|constructor].
  - destruct (IH (i + 1) (N.lor (N.shiftl m 3) (code c - 48))) as [IH1 IH2]. split.
    + intros [Hl Ho]. inversion Ho as [|? ? Hc Ho' E]; subst.
      destruct (2 <? i) eqn:E; [lia|]. unfold octal in Hc.
      replace ((48 <=? code c) && (code c <=? 55)) with true by lia.
      rewrite IH1 by (split; [lia|exact Ho']). f_equal.
      rewrite Nat2N.inj_succ, N.pow_succ_r'.
      assert (Hd : code c - 48 < 8) by lia.
      replace (N.lor (N.shiftl m 3) (code c - 48)) with (m * 8 + (code c - 48)); [lia|].
      rewrite N.shiftl_mul_pow2. change (2 ^ 3) with 8.
      rewrite N.add_nocarry_lxor, N.lxor_lor; auto.
      all: apply N.bits_inj; intros k; rewrite N.land_spec, N.bits_0;
        change 8 with (2 ^ 3); rewrite <- N.shiftl_mul_pow2;
        (destruct (N.ltb_spec k 3);
         [rewrite N.shiftl_spec_low by lia; reflexivity|];
         apply andb_false_intro2; destruct (N.eq_dec (code c - 48) 0) as [Ez|Ez];
         [rewrite Ez; apply N.bits_0|];
         apply N.bits_above_log2;
         assert (N.log2 (code c - 48) < 3) by (apply N.log2_lt_pow2; lia); lia).
    + intros H Hi. destruct (2 <? i) eqn:E; [reflexivity|].
      destruct ((48 <=? code c) && (code c <=? 55)) eqn:Ec; [|reflexivity].
      apply IH2; [|lia]. intros [H1 H2]. apply H. split; [lia|]. constructor; [unfold octal; lia|exact H2].
Qed.

Lemma class_bits_some c b : class_bits c = Some b <->
  (c = "a"%char /\ b = 511) \/ (c = "u"%char /\ b = 448) \/ (c = "g"%char /\ b = 56) \/
  (c = "o"%char /\ b = 7).
Proof.
  unfold class_bits.
  destruct (beqb c "a") eqn:Ea; [apply beqb_eq in Ea; subst; split; [intros [= <-]; auto|intuition congruence]|].
  destruct (beqb c "u") eqn:Eu; [apply beqb_eq in Eu; subst; split; [intros [= <-]; auto|intuition congruence]|].
  destruct (beqb c "g") eqn:Eg; [apply beqb_eq in Eg; subst; split; [intros [= <-]; auto|intuition congruence]|].
  destruct (beqb c "o") eqn:Eo; [apply beqb_eq in Eo; subst; split; [intros [= <-]; auto 10|intuition congruence]|].
  apply beqb_neq in Ea, Eu, Eg, Eo. split; [discriminate|intuition congruence].
Qed.
Lemma permission_bits_some c b : permission_bits c = Some b <->
  (c = "r"%char /\ b = 292) \/ (c = "w"%char /\ b = 146) \/ (c = "x"%char /\ b = 73).
Proof.
  unfold permission_bits.
  destruct (beqb c "r") eqn:Ea; [apply beqb_eq in Ea; subst; split; [intros [= <-]; auto|intuition congruence]|].
  destruct (beqb c "w") eqn:Eu; [apply beqb_eq in Eu; subst; split; [intros [= <-]; auto|intuition congruence]|].
  destruct (beqb c "x") eqn:Eg; [apply beqb_eq in Eg; subst; split; [intros [= <-]; auto|intuition congruence]|].
  apply beqb_neq in Ea, Eu, Eg. split; [discriminate|intuition congruence].
Qed.

Definition is_class (c : byte) : Prop := In c (lit "augo").
Definition is_permission (c : byte) : Prop := In c (lit "rwx").
Lemma class_iff c : is_class c <-> exists b, class_bits c = Some b.
Proof.
  unfold is_class. cbn. split.
  - intros H. setoid_rewrite class_bits_some. intuition subst; eauto 10.
  - intros [b H]. apply class_bits_some in H. intuition.
Qed.
Lemma permission_iff c : is_permission c <-> exists b, permission_bits c = Some b.
Proof.
  unfold is_permission. cbn. split.
  - intros H. setoid_rewrite permission_bits_some. intuition subst; eauto 10.
  - intros [b H]. apply permission_bits_some in H. intuition.
Qed.

(** The class covers the right's bit. *)
Lemma class_covers c b w r : class_bits c = Some b ->
  (N.testbit b (mode_bit w r) = true <-> class_names c w).
Proof.
  rewrite class_bits_some.
  intros [[-> ->]|[[-> ->]|[[-> ->]|[-> ->]]]]; destruct w, r; cbv [mode_bit class_names];
    vm_compute; intuition congruence.
Qed.
Lemma permission_covers c b w r : permission_bits c = Some b ->
  (N.testbit b (mode_bit w r) = true <-> permission_names c r).
Proof.
  rewrite permission_bits_some.
  intros [[-> ->]|[[-> ->]|[-> ->]]]; destruct w, r; cbv [mode_bit permission_names];
    vm_compute; intuition congruence.
Qed.
Lemma class_small c b : class_bits c = Some b -> b < 512.
Proof. rewrite class_bits_some. intuition lia. Qed.

Lemma lor_small a b : a < 512 -> b < 512 -> N.lor a b < 512.
Proof.
  intros Ha Hb. destruct (N.eq_dec (N.lor a b) 0) as [E|E]; [lia|].
  change 512 with (2 ^ 9). apply N.log2_lt_pow2; [lia|]. rewrite N.log2_lor.
  apply N.max_lub_lt.
  - destruct (N.eq_dec a 0) as [->|]; [cbn; lia|]. apply N.log2_lt_pow2; [lia|exact Ha].
  - destruct (N.eq_dec b 0) as [->|]; [cbn; lia|]. apply N.log2_lt_pow2; [lia|exact Hb].
Qed.
Lemma land_small a b : a < 512 -> N.land a b < 512.
Proof.
  intros Ha. destruct (N.eq_dec (N.land a b) 0) as [E|E]; [lia|].
  change 512 with (2 ^ 9). apply N.log2_lt_pow2; [lia|].
  apply N.le_lt_trans with (N.log2 a).
  - apply N.le_trans with (N.min (N.log2 a) (N.log2 b)); [apply N.log2_land|apply N.le_min_l].
  - assert (a <> 0) by (intros ->; apply E; reflexivity). apply N.log2_lt_pow2; [lia|exact Ha].
Qed.

(** The targets are read up to the first byte that is not a class. *)
Lemma parse_targets_spec cs : forall first t rest,
  Forall is_class cs -> (first = true -> cs <> []) ->
  (match rest with [] => True | c :: _ => ~ is_class c end) ->
  exists t', parse_targets first t (cs ++ rest) = Some (t', rest) /\ (t < 512 -> t' < 512) /\
    (forall w r, N.testbit t' (mode_bit w r) = true <->
       N.testbit t (mode_bit w r) = true \/ exists c, In c cs /\ class_names c w).
Proof.
  induction cs as [|c cs IH]; intros first t rest Hc Hf Hr.
  - destruct first; [elim Hf; reflexivity|]. exists t. split; [|split; [auto|]].
    + destruct rest as [|c rest]; cbn; [reflexivity|].
      destruct (class_bits c) eqn:E; [|reflexivity]. elim Hr. apply class_iff. eauto.
    + intros w r. split; [auto|]. intros [H|(c & [] & _)]; exact H.
  - inversion Hc as [|? ? Hc1 Hc2]; subst. apply class_iff in Hc1 as [b Hb].
    destruct (IH false (N.lor t b) rest Hc2 ltac:(discriminate) Hr) as (t' & E & Hs & Hw).
    exists t'. cbn. rewrite Hb. split; [exact E|]. split.
    + intros Ht. apply Hs, lor_small; [exact Ht|]. now apply class_small in Hb.
    + intros w r. rewrite Hw, N.lor_spec, orb_true_iff, (class_covers _ _ _ _ Hb). split.
      * intros [[H|H]|(c' & Hi & H)]; [auto|right; exists c; cbn; auto|right; exists c'; cbn; auto].
      * intros [H|(c' & [<-|Hi] & H)]; [auto|auto|right; eauto].
Qed.

Lemma parse_targets_inv s : forall first t t' rest,
  parse_targets first t s = Some (t', rest) ->
  exists cs, s = cs ++ rest /\ Forall is_class cs /\ (first = true -> s <> [] -> cs <> []) /\
    match rest with [] => True | c :: _ => ~ is_class c end.
Proof.
  induction s as [|c s IH]; intros first t t' rest H; cbn in H.
  - injection H as <- <-. exists []. repeat split; auto. 
  - destruct (class_bits c) as [b|] eqn:Eb.
    + apply IH in H as (cs & -> & Hc & _ & Hr). exists (c :: cs). repeat split; auto; try discriminate.
      constructor; [apply class_iff; eauto|exact Hc].
    + destruct first; [discriminate|]. injection H as <- <-. exists []. repeat split; auto; try discriminate.
      rewrite class_iff. intros [b Hb]. congruence.
Qed.

Lemma parse_permissions_spec ps : forall t m,
  Forall is_permission ps ->
  exists m', parse_permissions t m ps = Some m' /\ (t < 512 -> m < 512 -> m' < 512) /\
    (forall w r, N.testbit m' (mode_bit w r) = true <->
       N.testbit m (mode_bit w r) = true \/
       (N.testbit t (mode_bit w r) = true /\ exists p, In p ps /\ permission_names p r)).
Proof.
  induction ps as [|p ps IH]; intros t m Hp; cbn [parse_permissions].
  - exists m. split; [reflexivity|]. split; [auto|]. intros w r. split; [auto|].
    intros [H|(_ & p & [] & _)]; exact H.
  - inversion Hp as [|? ? Hp1 Hp2]; subst. apply permission_iff in Hp1 as [b Hb]. rewrite Hb.
    destruct (IH t (N.lor m (N.land t b)) Hp2) as (m' & E & Hs & Hw). exists m'.
    split; [exact E|]. split.
    + intros Ht Hm. apply Hs; [exact Ht|]. apply lor_small; [exact Hm|]. now apply land_small.
    + intros w r. rewrite Hw, N.lor_spec, N.land_spec, orb_true_iff, andb_true_iff, (permission_covers _ _ _ _ Hb).
      split.
      * intros [[H|[H1 H2]]|(H1 & p' & Hi & H2)]; [auto|right; split; [exact H1|]; exists p; cbn; auto|].
        right. split; [exact H1|]. exists p'. cbn. auto.
      * intros [H|(H1 & p' & [<-|Hi] & H2)]; [auto|auto|right; eauto].
Qed.
Lemma parse_permissions_inv ps : forall t m m', parse_permissions t m ps = Some m' -> Forall is_permission ps.
Proof.
  induction ps as [|p ps IH]; intros t m m' H; [constructor|]. cbn in H.
  destruct (permission_bits p) eqn:E; [|discriminate].
  constructor; [apply permission_iff; eauto|eapply IH; eauto].
Qed.

Lemma mode_determined a b :
  a < 512 -> b < 512 ->
  (forall w r, N.testbit a (mode_bit w r) = true <-> N.testbit b (mode_bit w r) = true) -> a = b.
Proof.
  intros Ha Hb H. apply N.bits_inj. intros i.
  destruct (N.ltb_spec i 9) as [Hi|Hi].
  - assert (Hwr : exists w r, mode_bit w r = i).
    { assert (Hc : i = 0 \/ i = 1 \/ i = 2 \/ i = 3 \/ i = 4 \/ i = 5 \/ i = 6 \/ i = 7 \/ i = 8) by lia.
      repeat destruct Hc as [->|Hc]; [exists Others, Execute|exists Others, Write|exists Others, Read|
        exists Group, Execute|exists Group, Write|exists Group, Read|
        exists User, Execute|exists User, Write|subst; exists User, Read]; reflexivity. }
    destruct Hwr as (w & r & <-). specialize (H w r).
    destruct (N.testbit a _), (N.testbit b _); intuition.
  - assert (Hhigh : forall x, x < 512 -> N.testbit x i = false).
    { intros x Hx. destruct (N.eq_dec x 0) as [->|Hn]; [apply N.bits_0|]. apply N.bits_above_log2.
      assert (N.log2 x < 9) by (apply N.log2_lt_pow2; lia). lia. }
    now rewrite !Hhigh.
Qed.

Lemma eq_not_class : ~ is_class "="%char.
Proof. unfold is_class. cbn. intuition discriminate. Qed.

Lemma symbolic_mode cs ps :
  cs <> [] -> ps <> [] -> Forall is_class cs -> Forall is_permission ps ->
  exists m, parse_file_mode_symbol (cs ++ "="%char :: ps) = Some m /\ m < 512 /\
    (forall w r, N.testbit m (mode_bit w r) = true <->
       (exists c, In c cs /\ class_names c w) /\ (exists p, In p ps /\ permission_names p r)).
Proof.
  intros Hc Hp Hcs Hps. unfold parse_file_mode_symbol.
  destruct (parse_targets_spec cs true 0 ("="%char :: ps) Hcs (fun _ => Hc) eq_not_class) as (t & E & Hs & Hw).
  rewrite E. cbn [beqb Ascii.eqb Bool.eqb].
  destruct ps as [|p ps]; [congruence|].
  destruct (parse_permissions_spec (p :: ps) t 0 Hps) as (m & Em & Hm & Hw').
  exists m. split; [exact Em|]. split; [apply Hm; [apply Hs|]; lia|].
  intros w r. rewrite Hw', Hw, !N.bits_0. intuition discriminate.
Qed.

Lemma symbol_first cs ps : cs <> [] -> Forall is_class cs ->
  parse_file_mode (cs ++ "="%char :: ps) = parse_file_mode_symbol (cs ++ "="%char :: ps).
Proof.
  intros Hc Hcs. destruct cs as [|c cs]; [congruence|]. inversion Hcs as [|? ? H _]; subst.
  cbn [app parse_file_mode].
  destruct H as [<-|[<-|[<-|[<-|[]]]]]; reflexivity.
Qed.

Theorem parse_file_mode_spec s m : parse_file_mode s = Some m <-> mode_string s m.
Proof.
  split.
  - destruct s as [|c s]; [intros [= <-]; constructor|]. cbn [parse_file_mode].
    destruct (beqb c "a" || beqb c "u" || beqb c "g" || beqb c "o") eqn:E1.
    + intros H. pose proof H as H0. unfold parse_file_mode_symbol in H.
      destruct (parse_targets true 0 (c :: s)) as [[t rest]|] eqn:Et; [|discriminate].
      apply parse_targets_inv in Et as (cs & Es & Hcs & Hne & _).
      destruct rest as [|e ps]; [discriminate|]. destruct (beqb e "=") eqn:Ee; [|discriminate].
      apply beqb_eq in Ee. subst e. destruct ps as [|p ps]; [discriminate|].
      assert (Hc : cs <> []) by (apply Hne; [reflexivity|discriminate]).
      pose proof (parse_permissions_inv _ _ _ _ H) as Hps. rewrite Es.
      destruct (symbolic_mode cs (p :: ps) Hc ltac:(discriminate) Hcs Hps) as (m' & E & Hs & Hw).
      rewrite <- Es in E. assert (m = m') by congruence.
      subst m'. now apply mode_symbolic.
    + destruct ((48 <=? code c) && (code c <=? 55)) eqn:E2; [|discriminate].
      intros H. destruct (parse_digits_spec (c :: s) 0 0) as [H1 H2].
      assert (Hd : 0 + N.of_nat (length (c :: s)) <= 3 /\ Forall octal (c :: s)).
      { assert (Hdec : {Forall octal (c :: s)} + {~ Forall octal (c :: s)}).
        { apply Forall_dec. intros x. unfold octal.
          destruct (48 <=? code x) eqn:A, (code x <=? 55) eqn:B; [left; lia|right; lia|right; lia|right; lia]. }
        destruct (N.leb_spec (N.of_nat (length (c :: s))) 3) as [Hl|Hl], Hdec as [Ho|Ho]; auto;
          (rewrite H2 in H; [discriminate| |lia]; intros [? ?]; (contradiction || lia)). }
      rewrite H1 in H by exact Hd. rewrite N.mul_0_l, N.add_0_l in H.
      assert (m = octal_value (c :: s)) as -> by congruence.
      destruct Hd. apply mode_octal; [cbn [length] in *; lia|assumption].
  - intros H. destruct H as [|s Hl Ho|cs ps m Hc Hp Hcs Hps Hm Hw].
    + reflexivity.
    + destruct s as [|c s]; [cbn in Hl; lia|]. cbn [parse_file_mode].
      inversion Ho as [|? ? Hc Ho']; subst. unfold octal in Hc.
      assert (Hn : forall x, code x > 55 -> beqb c x = false).
      { intros x Hx. apply beqb_neq. intros ->. lia. }
      rewrite !Hn by (vm_compute; reflexivity). cbn [orb].
      replace ((48 <=? code c) && (code c <=? 55)) with true by lia.
      destruct (parse_digits_spec (c :: s) 0 0) as [H1 _]. rewrite H1; [f_equal; lia|].
      split; [cbn [length] in *; lia|exact Ho].
    + rewrite symbol_first by assumption.
      destruct (symbolic_mode cs ps Hc Hp Hcs Hps) as (m' & -> & Hm' & Hw'). f_equal.
      apply mode_determined; auto. intros w r. rewrite Hw, Hw'. reflexivity.
Qed.

(** *** Flag lists *)

Lemma split_bar_app w rest :
  ~ In "|"%char w -> split_bar (w ++ "|"%char :: rest) = w :: split_bar rest.
Proof.
  induction w as [|c w IH]; intros H; [reflexivity|]. cbn [app split_bar].
  destruct (beqb c "|") eqn:E; [apply beqb_eq in E; subst; elim H; now left|].
  rewrite IH; [reflexivity|]. intros Hi. apply H. now right.
Qed.
Lemma split_bar_last w : ~ In "|"%char w -> split_bar w = [w].
Proof.
  induction w as [|c w IH]; intros H; [reflexivity|]. cbn [split_bar].
  destruct (beqb c "|") eqn:E; [apply beqb_eq in E; subst; elim H; now left|].
  rewrite IH; [reflexivity|]. intros Hi. apply H. now right.
Qed.

Definition term := (option bool * bytes)%type.
Definition term_ok (t : term) : Prop := ~ In "|"%char (snd t) /\ (fst t = None -> no_sign (snd t)).

Lemma term_no_bar t : term_ok t -> ~ In "|"%char (term_text t).
Proof.
  intros [H _] Hi. unfold term_text in Hi. apply in_app_or in Hi as [Hi|Hi]; [|contradiction].
  destruct (fst t) as [[]|]; cbn in Hi; intuition discriminate.
Qed.

Lemma split_terms ts : Forall term_ok ts -> ts <> [] -> split_bar (terms_text ts) = map term_text ts.
Proof.
  induction ts as [|t ts IH]; intros Hf Hn; [congruence|]. inversion Hf as [|? ? Ht Hts]; subst.
  destruct ts as [|t' ts].
  - cbn. apply split_bar_last. now apply term_no_bar.
  - change (terms_text (t :: t' :: ts)) with (term_text t ++ "|"%char :: terms_text (t' :: ts)).
    rewrite split_bar_app by (now apply term_no_bar). rewrite IH by (auto; discriminate). reflexivity.
Qed.

Lemma strsplit_terms ts :
  Forall term_ok ts -> ts <> [(None, [])] -> strsplit_bar (terms_text ts) = map term_text ts.
Proof.
  intros Hf Hn. destruct ts as [|t ts]; [reflexivity|]. rewrite <- split_terms by (auto; discriminate).
  destruct (terms_text (t :: ts)) eqn:E; [|reflexivity]. exfalso.
  destruct ts as [|t' ts].
  - cbn in E. destruct t as [[[]|] n]; cbn in E; try discriminate. elim Hn. now rewrite E.
  - change (terms_text (t :: t' :: ts)) with (term_text t ++ "|"%char :: terms_text (t' :: ts)) in E.
    destruct (term_text t); discriminate.
Qed.

(** The effect of a term with its effective sign. *)
Definition effect (c : flags_class) (default : N) (local : bool) (name : bytes) (flags : N) : N :=
  if bytes_eqb name (lit "all") then if local then N.lor flags (flags_mask c) else 0
  else match value_by_nick c name with
       | Some v =>
           let v := if (v =? 0) && bytes_eqb name (lit "default") then default else v in
           if local then N.lor flags v else N.ldiff flags v
       | None => flags
       end.
Definition is_known (c : flags_class) (name : bytes) : bool :=
  bytes_eqb name (lit "all") || match value_by_nick c name with Some _ => true | None => false end.
Definition sign_of (append : bool) (t : term) : bool :=
  match fst t with Some s => s | None => append end.

Lemma flag_term_text c default append flags unknown t :
  term_ok t ->
  flag_term c default append (flags, unknown) (term_text t) =
  (effect c default (sign_of append t) (snd t) flags,
   unknown ++ if is_known c (snd t) then [] else [snd t]).
Proof.
  intros [_ Hs]. destruct t as [s n]. cbn [fst snd] in *.
  assert (Hfin : forall local : bool,
    (if bytes_eqb n (lit "all") then (if local then N.lor flags (flags_mask c) else 0, unknown)
     else match value_by_nick c n with
          | Some v =>
              (if local
               then N.lor flags (if (v =? 0) && bytes_eqb n (lit "default") then default else v)
               else N.ldiff flags (if (v =? 0) && bytes_eqb n (lit "default") then default else v),
               unknown)
          | None => (flags, unknown ++ [n])
          end) = (effect c default local n flags, unknown ++ if is_known c n then [] else [n])).
  { intros local. unfold effect, is_known.
    destruct (bytes_eqb n (lit "all")); [cbn [orb]; now rewrite app_nil_r|]. cbn [orb].
    destruct (value_by_nick c n); [now rewrite app_nil_r|reflexivity]. }
  unfold flag_term, term_text, sign_of. cbn [fst snd].
  destruct s as [[]|]; cbn [sign_text lit list_ascii_of_string app].
  - exact (Hfin true).
  - exact (Hfin false).
  - specialize (Hs eq_refl). destruct n as [|k n]; [exact (Hfin append)|]. cbn in Hs. destruct Hs as [H1 H2].
    apply beqb_neq in H1, H2. rewrite H1, H2. exact (Hfin append).
Qed.

Lemma fold_terms c default append ts : forall flags unknown,
  Forall term_ok ts ->
  fold_left (flag_term c default append) (map term_text ts) (flags, unknown) =
  (fold_left (fun f t => effect c default (sign_of append t) (snd t) f) ts flags,
   unknown ++ filter (fun n => negb (is_known c n)) (map snd ts)).
Proof.
  induction ts as [|t ts IH]; intros flags unknown Hf; cbn [map fold_left filter].
  - now rewrite app_nil_r.
  - inversion Hf as [|? ? Ht Hts]; subst. rewrite flag_term_text by exact Ht. rewrite IH by exact Hts.
    f_equal. rewrite <- app_assoc. f_equal. now destruct (is_known c (snd t)).
Qed.

Lemma value_by_nick_some c n v : value_by_nick c n = Some v <->
  exists before after, c = before ++ (n, v) :: after /\ forall v', ~ In (n, v') before.
Proof.
  split.
  - revert v. induction c as [|[n' v'] c IH]; intros v H; [discriminate|]. cbn in H.
    destruct (bytes_eqb n' n) eqn:E.
    + apply bytes_eqb_eq in E. injection H as <-. subst. exists [], c. split; [reflexivity|]. intros ? [].
    + apply IH in H as (b & a & -> & Hn). exists ((n', v') :: b), a. split; [reflexivity|].
      intros x [Hx|Hx]; [|exact (Hn x Hx)]. injection Hx as -> ->. now rewrite bytes_eqb_refl in E.
  - intros (b & a & -> & Hn). induction b as [|[n' v'] b IH]; cbn.
    + now rewrite bytes_eqb_refl.
    + destruct (bytes_eqb n' n) eqn:E.
      * apply bytes_eqb_eq in E. subst. elim (Hn v'). now left.
      * apply IH. intros x Hx. apply (Hn x). now right.
Qed.
Lemma value_by_nick_none c n : value_by_nick c n = None <-> forall v, ~ In (n, v) c.
Proof.
  induction c as [|[n' v'] c IH]; cbn; [intuition|].
  destruct (bytes_eqb n' n) eqn:E.
  - apply bytes_eqb_eq in E. subst. split; [discriminate|]. intros H. elim (H v'). now left.
  - apply bytes_eqb_neq in E. rewrite IH. split.
    + intros H v [Hv|Hv]; [congruence|exact (H v Hv)].
    + intros H v Hv. apply (H v). now right.
Qed.
Lemma is_known_spec c n : is_known c n = true <-> known c n.
Proof.
  unfold is_known, known. rewrite orb_true_iff, bytes_eqb_eq.
  destruct (value_by_nick c n) as [v|] eqn:E.
  - split; [|auto]. intros _. right. apply value_by_nick_some in E as (b & a & -> & _).
    exists v. apply in_or_app. right. now left.
  - rewrite value_by_nick_none in E. split; [intros [H|H]; [auto|discriminate]|].
    intros [H|[v H]]; [auto|elim (E v H)].
Qed.

Lemma mask_bits c i : N.testbit (flags_mask c) i = true <-> exists n v, In (n, v) c /\ N.testbit v i = true.
Proof.
  unfold flags_mask.
  assert (H : forall m, N.testbit (fold_left (fun m v => N.lor m (snd v)) c m) i = true <->
                        N.testbit m i = true \/ exists n v, In (n, v) c /\ N.testbit v i = true).
  { induction c as [|[n v] c IH]; intros m; cbn [fold_left snd].
    - split; [auto|]. intros [H|(n & v & [] & _)]; exact H.
    - rewrite IH, N.lor_spec, orb_true_iff. split.
      + intros [[H|H]|(n' & v' & Hi & H)]; [auto|right; exists n, v; cbn; auto|right; exists n', v'; cbn; auto].
      + intros [H|(n' & v' & [E|Hi] & H)]; [auto|injection E as -> ->; auto|right; eauto]. }
  rewrite H, N.bits_0. intuition discriminate.
Qed.

(** The names as the model sees them. *)
Lemma names_bits_value c default n v :
  names_bits c default n v <->
  n <> lit "all" /\ exists v0, value_by_nick c n = Some v0 /\
    v = (if (v0 =? 0) && bytes_eqb n (lit "default") then default else v0).
Proof.
  split.
  - intros [n0 v0 b a E Hb Hall Hz|b a E Hb].
    + split; [exact Hall|]. exists v0. split; [apply value_by_nick_some; eauto|].
      destruct ((v0 =? 0) && bytes_eqb n0 (lit "default")) eqn:Ed; [|reflexivity].
      apply andb_true_iff in Ed as [E1 E2]. apply bytes_eqb_eq in E2. elim Hz; [lia|exact E2].
    + split; [discriminate|]. exists 0. split; [apply value_by_nick_some; eauto|reflexivity].
  - intros (Hall & v0 & E & ->). apply value_by_nick_some in E as (b & a & E & Hb).
    destruct ((v0 =? 0) && bytes_eqb n (lit "default")) eqn:Ed.
    + apply andb_true_iff in Ed as [E1 E2]. apply bytes_eqb_eq in E2. apply N.eqb_eq in E1. subst.
      eapply names_default; eauto.
    + eapply names_flag; eauto. intros -> ->. rewrite bytes_eqb_refl in Ed. discriminate.
Qed.

Lemma effect_bit c default s n flags i :
  (forall b, decides c default s n i b -> N.testbit (effect c default s n flags) i = b) /\
  ((forall b, ~ decides c default s n i b) ->
   N.testbit (effect c default s n flags) i = N.testbit flags i).
Proof.
  unfold effect. destruct (bytes_eqb n (lit "all")) eqn:Ea.
  - apply bytes_eqb_eq in Ea. subst n. split.
    + intros b Hd. inversion Hd as [? n v Hi Hv| |? ? v ? Hn Hv]; subst.
      * rewrite N.lor_spec. apply orb_true_iff. right. apply mask_bits. eauto.
      * apply N.bits_0.
      * apply names_bits_value in Hn as [Hn _]. congruence.
    + intros Hn. destruct s.
      * rewrite N.lor_spec. destruct (N.testbit (flags_mask c) i) eqn:Em; [|apply orb_false_r].
        apply mask_bits in Em as (n & v & Hi & Hv). elim (Hn true). eapply decides_all_on; eauto.
      * elim (Hn false). constructor.
  - apply bytes_eqb_neq in Ea. destruct (value_by_nick c n) as [v0|] eqn:Ev.
    + set (v := if (v0 =? 0) && bytes_eqb n (lit "default") then default else v0).
      assert (Hv : names_bits c default n v) by (apply names_bits_value; eauto).
      split.
      * intros b Hd. inversion Hd as [? n' v' Hi Hv'|? E|? ? v' ? Hn Hv']; subst; try congruence.
        apply names_bits_value in Hn as (_ & v1 & E1 & ->). rewrite Ev in E1. injection E1 as <-.
        fold v in Hv'. destruct b; [rewrite N.lor_spec, Hv'; apply orb_true_r|].
        rewrite N.ldiff_spec, Hv'. apply andb_false_r.
      * intros Hn. destruct (N.testbit v i) eqn:Eb; [elim (Hn s); eapply decides_flag; eauto|].
        destruct s; [rewrite N.lor_spec, Eb; apply orb_false_r|].
        rewrite N.ldiff_spec, Eb. apply andb_true_r.
    + split; [|reflexivity]. intros b Hd. inversion Hd as [? n' v' Hi Hv'|? E|? ? v' ? Hn Hv']; subst; try congruence.
      apply names_bits_value in Hn as (_ & v1 & E1 & _). congruence.
Qed.

Section Flags.
  Variables (c : flags_class) (default : N).
  Notation final append ts flags :=
    (fold_left (fun f t => effect c default (sign_of append t) (snd t) f) ts flags).

  Lemma fold_untouched append i ts : forall flags,
    (forall t b, In t ts -> ~ decides c default (sign_of append t) (snd t) i b) ->
    N.testbit (final append ts flags) i = N.testbit flags i.
  Proof.
    induction ts as [|t ts IH]; intros flags H; [reflexivity|]. cbn [fold_left]. rewrite IH.
    - apply effect_bit. intros b. apply H. now left.
    - intros t' b Ht. apply H. now right.
  Qed.

  Lemma fold_decided append i before t after b flags :
    decides c default (sign_of append t) (snd t) i b ->
    (forall t' b', In t' after -> ~ decides c default (sign_of append t') (snd t') i b') ->
    N.testbit (final append (before ++ t :: after) flags) i = b.
  Proof.
    intros Hd Ha. rewrite fold_left_app. cbn [fold_left]. rewrite fold_untouched by exact Ha.
    now apply effect_bit.
  Qed.
End Flags.

Lemma flags_from_text c lead ts base default :
  readable lead ts ->
  flags_from_string c (flags_text lead ts) base default =
  (fold_left (fun f t => effect c default (sign_of (match lead with Some s => s | None => true end) t) (snd t) f)
     ts (match lead with Some _ => base | None => 0 end),
   filter (fun n => negb (is_known c n)) (map snd ts)).
Proof.
  intros (Hf & Hl & Hn). unfold flags_from_string, flags_text.
  assert (Hfin : forall append flags,
    fold_left (flag_term c default append) (strsplit_bar (terms_text ts)) (flags, []) =
    (fold_left (fun f t => effect c default (sign_of append t) (snd t) f) ts flags,
     filter (fun n => negb (is_known c n)) (map snd ts))).
  { intros append flags. rewrite strsplit_terms by assumption. now rewrite fold_terms. }
  destruct lead as [[]|]; cbn [sign_text lit list_ascii_of_string app].
  - exact (Hfin true base).
  - exact (Hfin false base).
  - specialize (Hl eq_refl). destruct (terms_text ts) as [|k s]; [exact (Hfin true 0)|]. cbn in Hl. destruct Hl as [H1 H2].
    apply beqb_neq in H1, H2. rewrite H1, H2. exact (Hfin true 0).
Qed.

(** Every text can be read. *)
Fixpoint read_terms (ws : list bytes) : list term :=
  match ws with
  | [] => []
  | w :: ws' =>
      match w with
      | k :: rest => if beqb k "+" then (Some true, rest) else if beqb k "-" then (Some false, rest)
                     else (None, w)
      | [] => (None, w)
      end :: read_terms ws'
  end.
Lemma read_term_text w ws : map term_text (read_terms (w :: ws)) = w :: map term_text (read_terms ws).
Proof.
  cbn [read_terms map]. f_equal. destruct w as [|k w]; [reflexivity|].
  destruct (beqb k "+") eqn:E1; [apply beqb_eq in E1; now subst|].
  destruct (beqb k "-") eqn:E2; [apply beqb_eq in E2; now subst|reflexivity].
Qed.
Lemma read_terms_text ws : map term_text (read_terms ws) = ws.
Proof. induction ws as [|w ws IH]; [reflexivity|]. rewrite read_term_text. now f_equal. Qed.
Lemma read_terms_ok ws : Forall (fun w => ~ In "|"%char w) ws -> Forall term_ok (read_terms ws).
Proof.
  induction 1 as [|w ws Hw Hws IH]; [constructor|]. cbn [read_terms]. constructor; [|exact IH].
  destruct w as [|k w]; [split; cbn; auto|].
  destruct (beqb k "+") eqn:E1; [split; cbn; [intros Hi; apply Hw; now right|discriminate]|].
  destruct (beqb k "-") eqn:E2; [split; cbn; [intros Hi; apply Hw; now right|discriminate]|].
  apply beqb_neq in E1, E2. split; cbn; [exact Hw|auto].
Qed.
Lemma split_bar_words s : Forall (fun w => ~ In "|"%char w) (split_bar s) /\ split_bar s <> [].
Proof.
  induction s as [|c s [IH1 IH2]]; cbn; [split; [repeat constructor; auto|discriminate]|].
  destruct (beqb c "|") eqn:E; [split; [constructor; [intros []|exact IH1]|discriminate]|].
  apply beqb_neq in E. destruct (split_bar s) as [|w ws]; [congruence|].
  inversion IH1 as [|? ? Hw Hws]; subst. split; [|discriminate]. constructor; [|exact Hws].
  intros [H|H]; [congruence|contradiction].
Qed.
Fixpoint join_bar (ws : list bytes) : bytes :=
  match ws with [] => [] | [w] => w | w :: ws' => w ++ "|"%char :: join_bar ws' end.
Lemma join_split s : join_bar (split_bar s) = s.
Proof.
  induction s as [|c s IH]; [reflexivity|]. cbn [split_bar].
  destruct (split_bar_words s) as [_ Hn].
  destruct (beqb c "|") eqn:E.
  - apply beqb_eq in E. subst c. destruct (split_bar s) as [|w ws]; [congruence|].
    change (join_bar ([] :: w :: ws)) with ("|"%char :: join_bar (w :: ws)). now rewrite IH.
  - destruct (split_bar s) as [|w ws]; [congruence|]. destruct ws as [|w' ws]; cbn in *; now f_equal.
Qed.
Lemma terms_join ts : terms_text ts = join_bar (map term_text ts).
Proof. induction ts as [|t [|t' ts] IH]; try reflexivity. cbn in *. now rewrite IH. Qed.

Lemma text_readable s : exists lead ts, readable lead ts /\ s = flags_text lead ts.
Proof.
  assert (Hbody : forall rest, exists ts, Forall term_ok ts /\ ts <> [(None, [])] /\ rest = terms_text ts).
  { intros rest. destruct rest as [|c rest]; [exists []; repeat split; [constructor|discriminate]|].
    exists (read_terms (split_bar (c :: rest))).
    split; [apply read_terms_ok, split_bar_words|].
    assert (E : c :: rest = terms_text (read_terms (split_bar (c :: rest))))
      by (now rewrite terms_join, read_terms_text, join_split).
    split; [|exact E]. intros H. rewrite H in E. discriminate. }
  assert (Hs : forall lead rest, (lead = None -> no_sign rest) ->
    exists ts, readable lead ts /\ sign_text lead ++ rest = flags_text lead ts).
  { intros lead rest H. destruct (Hbody rest) as (ts & H1 & H2 & ->). exists ts.
    split; [split; [exact H1|split; [exact H|exact H2]]|reflexivity]. }
  destruct s as [|k s].
  - destruct (Hs None [] (fun _ => I)) as (ts & H & E). exists None, ts. auto.
  - destruct (beqb k "+") eqn:E1; [|destruct (beqb k "-") eqn:E2].
    + apply beqb_eq in E1. subst. destruct (Hs (Some true) s ltac:(discriminate)) as (ts & H & E).
      exists (Some true), ts. auto.
    + apply beqb_eq in E2. subst. destruct (Hs (Some false) s ltac:(discriminate)) as (ts & H & E).
      exists (Some false), ts. auto.
    + apply beqb_neq in E1, E2. destruct (Hs None (k :: s)) as (ts & H & E); [cbn; auto|].
      exists None, ts. auto.
Qed.
