(** The connection spec parser yields the address a spec names. *)
From Verif.Base Require Import Bytes BytesFacts.
From Verif.Model Require Import ConnectionSpec.
From Verif.Spec Require Import CommandGrammar ConnectionSpecSpec.
From Coq Require Import ZifyBool ZifyNat ZifyN.
Ltac Zify.zify_post_hook ::= Z.div_mod_to_equations.
Local Open Scope N_scope.

(** *** Numbers *)

Lemma digits_value_from s : forall v,
  fold_left (fun v c => v * 10 + (code c - 48)) s v = v * 10 ^ N.of_nat (length s) + number s.
Proof.
  induction s as [|c s IH]; intros v; cbn [fold_left length number].
  - change (10 ^ N.of_nat 0) with 1. lia.
  - rewrite IH. rewrite Nat2N.inj_succ, N.pow_succ_r'. nia.
Qed.
Lemma digits_value_number s : digits_value s = number s.
Proof. unfold digits_value. rewrite digits_value_from. lia. Qed.
Lemma number_app a b : number (a ++ b) = number a * 10 ^ N.of_nat (length b) + number b.
Proof.
  induction a as [|c a IH]; cbn [app number]; [lia|].
  rewrite IH, app_length, Nat2N.inj_add, N.pow_add_r. nia.
Qed.

Lemma digit_code n : n < 10 -> code (ascii_of_N (48 + n)) = 48 + n.
Proof. intros H. unfold code. apply N_ascii_embedding. lia. Qed.
Lemma decimal_digits_spec fuel : forall n, n < 10 ^ N.of_nat fuel -> (0 < fuel)%nat ->
  number (decimal_digits fuel n) = n /\ Forall digit_char (decimal_digits fuel n) /\
  decimal_digits fuel n <> [].
Proof.
  induction fuel as [|fuel IH]; intros n Hn Hf; [lia|]. cbn [decimal_digits].
  destruct (n <? 10) eqn:E.
  - split; [|split; [|discriminate]].
    + cbn [number length]. change (10 ^ N.of_nat 0) with 1. rewrite digit_code by lia. lia.
    + constructor; [|constructor]. unfold digit_char. rewrite digit_code by lia. lia.
  - rewrite Nat2N.inj_succ, N.pow_succ_r' in Hn.
    destruct fuel as [|fuel]; [change (10 ^ N.of_nat 0) with 1 in Hn; lia|].
    assert (Hd : n / 10 < 10 ^ N.of_nat (S fuel)).
    { apply N.div_lt_upper_bound; lia. }
    destruct (IH _ Hd ltac:(lia)) as (H1 & H2 & H3).
    pose proof (N.mod_lt n 10 ltac:(lia)) as Hm. pose proof (N.div_mod n 10 ltac:(lia)) as Hdm.
    split; [|split].
    + rewrite number_app, H1. cbn [number length]. change (N.of_nat 1) with 1. change (N.of_nat 0) with 0.
      rewrite N.pow_1_r, N.pow_0_r, digit_code by exact Hm. lia.
    + apply Forall_app. split; [exact H2|]. constructor; [|constructor]. unfold digit_char.
      rewrite digit_code by exact Hm. lia.
    + intros E'. apply app_eq_nil in E'. destruct E'. discriminate.
Qed.
Lemma decimal_spec n : number (decimal n) = n /\ Forall digit_char (decimal n) /\ decimal n <> [].
Proof.
  apply decimal_digits_spec; [|lia]. rewrite Nat2N.inj_succ, N.pow_succ_r'.
  assert (H : n < 2 ^ N.of_nat (N.size_nat n)).
  { destruct n as [|p]; [cbn; lia|]. cbn [N.size_nat].
    pose proof (N.size_gt (N.pos p)) as Hs. cbn [N.size] in Hs.
    replace (N.of_nat (Pos.size_nat p)) with (N.pos (Pos.size p)); [exact Hs|].
    clear. induction p as [p IH|p IH|]; cbn [Pos.size Pos.size_nat]; [| |reflexivity];
      rewrite Nat2N.inj_succ, <- IH; lia. }
  assert (Hp : 2 ^ N.of_nat (N.size_nat n) <= 10 ^ N.of_nat (N.size_nat n))
    by (apply N.pow_le_mono_l; lia).
  lia.
Qed.

Lemma atoi_small s : number s < 2147483648 -> atoi s = Z.of_N (number s).
Proof.
  intros H. unfold atoi. rewrite digits_value_number.
  rewrite N.min_l by lia. rewrite N.mod_small by lia. apply to_s32_small, H.
Qed.

(** *** Hosts *)

Lemma split_last_app s c : split_last (s ++ [c]) = Some (s, c).
Proof.
  induction s as [|a s IH]; cbn [app split_last]; [reflexivity|]. rewrite IH. reflexivity.
Qed.
Lemma split_last_sound s : forall t c, split_last s = Some (t, c) -> s = t ++ [c].
Proof.
  induction s as [|a s IH]; intros t c; cbn [split_last]; [discriminate|].
  destruct (split_last s) as [[t' d]|] eqn:E.
  - intros [= <- <-]. cbn. f_equal. apply IH. reflexivity.
  - intros [= <- <-]. destruct s as [|b s]; [reflexivity|]. cbn [split_last] in E.
    destruct (split_last s) as [[]|]; discriminate.
Qed.

Lemma digit_spec c : is_digit c = true <-> digit_char c.
Proof. unfold is_digit, digit_char. lia. Qed.
Lemma at_not_digit c : is_digit c = true -> beqb c "@" = false.
Proof. intros H. apply beqb_neq. intros ->. discriminate H. Qed.

Section Hosts.
Variables (any : bytes) (pton resolve : bytes -> option bytes).

Lemma parse_host_iff h ip :
  parse_host pton resolve h = Some ip <-> host_part any pton resolve ("@"%char :: h) ip.
Proof.
  unfold parse_host. split.
  - destruct h as [|c h]; [intros H; apply host_name; [discriminate|exact H]|].
    destruct (beqb c "[") eqn:E.
    + apply beqb_eq in E. subst c. destruct (split_last h) as [[t l]|] eqn:El; [|discriminate].
      destruct (beqb l "]") eqn:E2; [|discriminate]. apply beqb_eq in E2. subst l.
      apply split_last_sound in El. subst h. intros H.
      exact (host_literal any pton resolve t ip H).
    + apply beqb_neq in E. intros H. apply host_name; [congruence|exact H].
  - intros H. inversion H as [|t ip' Ht E|t ip' Hn Ht E]; subst.
    + change (beqb "[" "[") with true. cbn match. change (lit "]") with ["]"%char].
      rewrite split_last_app. exact Ht.
    + destruct h as [|c h]; [exact Ht|]. destruct (beqb c "[") eqn:E; [|exact Ht].
      apply beqb_eq in E. subst c. elim (Hn h). reflexivity.
Qed.

Lemma scan_port_sound s : forall ds ip, scan_port any pton resolve s = Some (ds, ip) ->
  exists host, s = ds ++ host /\ Forall digit_char ds /\ host_part any pton resolve host ip.
Proof.
  induction s as [|c s IH]; intros ds ip; cbn [scan_port].
  - intros [= <- <-]. exists []. split; [reflexivity|]. split; [constructor|constructor].
  - destruct (beqb c "@") eqn:Ea.
    + apply beqb_eq in Ea. subst c. destruct (parse_host _ _ s) as [ip'|] eqn:E; [|discriminate].
      intros [= <- <-]. exists ("@"%char :: s). split; [reflexivity|]. split; [constructor|].
      apply parse_host_iff, E.
    + destruct (is_digit c) eqn:Ed; [|discriminate].
      destruct (scan_port any pton resolve s) as [[ds' ip']|] eqn:E; [|discriminate].
      intros [= <- <-]. destruct (IH _ _ eq_refl) as (host & -> & Hd & Hh).
      exists host. split; [reflexivity|]. split; [constructor; [apply digit_spec, Ed|exact Hd]|exact Hh].
Qed.
Lemma scan_port_complete ds host ip : Forall digit_char ds -> host_part any pton resolve host ip ->
  scan_port any pton resolve (ds ++ host) = Some (ds, ip).
Proof.
  induction 1 as [|c ds Hc Hds IH]; intros Hh; cbn [app].
  - assert (Hh' := Hh). destruct Hh as [|t ip Ht|t ip Hn Ht]; [reflexivity| |].
    + cbn [lit list_ascii_of_string app scan_port]. change (beqb "@" "@") with true. cbn match.
      assert (H : parse_host pton resolve ("["%char :: t ++ ["]"%char]) = Some ip).
      { apply parse_host_iff. exact Hh'. }
      rewrite H. reflexivity.
    + cbn [scan_port]. change (beqb "@" "@") with true. cbn match.
      rewrite (proj2 (parse_host_iff t ip)); [reflexivity|exact Hh'].
  - apply digit_spec in Hc. cbn [scan_port]. rewrite at_not_digit, Hc, IH by auto. reflexivity.
Qed.

Lemma port_and_host_sound s p ip : 
  (forall digits rest, s = digits ++ rest -> Forall digit_char digits -> number digits < 2147483648) ->
  parse_port_and_host any pton resolve s = Some (p, ip) ->
  exists ds host, s = ds ++ host /\ Forall digit_char ds /\ number ds <= 65535 /\ p = number ds /\
                  host_part any pton resolve host ip.
Proof.
  intros Hf. unfold parse_port_and_host.
  destruct (scan_port any pton resolve s) as [[ds ip']|] eqn:E; [|discriminate].
  destruct (scan_port_sound _ _ _ E) as (host & -> & Hd & Hh).
  rewrite atoi_small by (eapply Hf; eauto).
  destruct (65535 <? Z.of_N (number ds))%Z eqn:El; [discriminate|]. intros [= <- <-].
  exists ds, host. split; [reflexivity|]. split; [exact Hd|]. split; [lia|]. split; [|exact Hh].
  rewrite Z.mod_small by lia. lia.
Qed.
Lemma port_and_host_complete ds host ip : Forall digit_char ds -> number ds <= 65535 ->
  host_part any pton resolve host ip ->
  parse_port_and_host any pton resolve (ds ++ host) = Some (number ds, ip).
Proof.
  intros Hd Hn Hh. unfold parse_port_and_host. rewrite (scan_port_complete _ _ _ Hd Hh).
  rewrite atoi_small by lia.
  destruct (65535 <? Z.of_N (number ds))%Z eqn:El; [lia|]. rewrite Z.mod_small by lia.
  do 2 f_equal. lia.
Qed.
End Hosts.

(** *** Specs *)

Lemma prefix_then_sound p : forall s r, has_prefix_then p s = Some r -> s = p ++ r.
Proof.
  induction p as [|a p IH]; intros s r; cbn [has_prefix_then app]; [intros [= ->]; reflexivity|].
  destruct s as [|b s]; [discriminate|]. destruct (beqb a b) eqn:E; [|discriminate].
  apply beqb_eq in E. subst b. intros H. f_equal. apply IH, H.
Qed.

Section Specs.
Variables (pton4 pton6 resolve4 resolve6 : bytes -> option bytes).
Notation parse := (parse_spec pton4 pton6 resolve4 resolve6).
Notation names := (names pton4 pton6 resolve4 resolve6).

Lemma parse_spec_sound s a : port_fits s -> parse s = SpecAddress a -> names s a.
Proof.
  intros Hf. unfold parse_spec.
  destruct (after_colon s) as [[|x content]|] eqn:Ec; try discriminate.
  destruct (has_prefix_then (lit "unix:") s) as [r|] eqn:E1.
  { apply prefix_then_sound in E1. subst s.
    assert (x :: content = r) as <- by (cbn in Ec; congruence).
    destruct (108 <=? _); [discriminate|]. intros [= <-]. apply names_unix. discriminate. }
  destruct (has_prefix_then (lit "local:") s) as [r|] eqn:E2.
  { apply prefix_then_sound in E2. subst s.
    assert (x :: content = r) as <- by (cbn in Ec; congruence).
    destruct (108 <=? _); [discriminate|]. intros [= <-]. apply names_local. discriminate. }
  destruct (has_prefix_then (lit "inet:") s) as [r|] eqn:E3.
  { apply prefix_then_sound in E3. subst s.
    assert (x :: content = r) as Er by (cbn in Ec; congruence). rewrite Er.
    destruct (parse_port_and_host _ _ _ r) as [[p ip]|] eqn:Ep; [|discriminate]. intros [= <-].
    apply port_and_host_sound in Ep.
    - destruct Ep as (ds & host & -> & Hd & Hn & -> & Hh). apply names_inet; auto. congruence.
    - intros ds rest -> Hd. apply (Hf ds rest); auto. }
  destruct (has_prefix_then (lit "inet6:") s) as [r|] eqn:E4; [|discriminate].
  apply prefix_then_sound in E4. subst s.
  assert (x :: content = r) as Er by (cbn in Ec; congruence). rewrite Er.
  destruct (parse_port_and_host _ _ _ r) as [[p ip]|] eqn:Ep; [|discriminate]. intros [= <-].
  apply port_and_host_sound in Ep.
  - destruct Ep as (ds & host & -> & Hd & Hn & -> & Hh). apply names_inet6; auto. congruence.
  - intros ds rest -> Hd. apply (Hf ds rest); auto.
Qed.

Lemma parse_spec_complete s a : path_fits s -> names s a -> parse s = SpecAddress a.
Proof.
  intros Hp H. unfold parse_spec. destruct H as [path Hne|path Hne|ds host ip Hd Hn Hh Hne|ds host ip Hd Hn Hh Hne].
  - specialize (Hp path (or_introl eq_refl)). cbn. destruct path; [congruence|].
    destruct (108 <=? N.of_nat (length (a :: path))) eqn:E; [lia|reflexivity].
  - specialize (Hp path (or_intror eq_refl)). cbn. destruct path; [congruence|].
    destruct (108 <=? N.of_nat (length (a :: path))) eqn:E; [lia|reflexivity].
  - change (after_colon (lit "inet:" ++ ds ++ host)) with (Some (ds ++ host)).
    destruct (ds ++ host) as [|x r] eqn:E; [congruence|]. cbn [lit list_ascii_of_string app].
    cbn [has_prefix_then]. cbn match. rewrite <- E, (port_and_host_complete _ _ _ ds host ip) by auto. reflexivity.
  - change (after_colon (lit "inet6:" ++ ds ++ host)) with (Some (ds ++ host)).
    destruct (ds ++ host) as [|x r] eqn:E; [congruence|]. cbn [lit list_ascii_of_string app].
    rewrite <- E. cbn -[parse_port_and_host app]. rewrite (port_and_host_complete _ _ _ ds host ip) by auto. reflexivity.
Qed.

Lemma address_printed_back ntop4 ntop6 a :
  prints_back ntop4 pton4 4 -> prints_back ntop6 pton6 16 -> saddr_ok a ->
  parse (address_to_spec ntop4 ntop6 a) = SpecAddress a.
Proof.
  intros H4 H6 Ha. destruct a as [path|port ip|port ip]; cbn [saddr_ok address_to_spec] in *.
  - destruct Ha as (Hne & _ & Hl). apply parse_spec_complete; [|constructor; exact Hne].
    intros p [E|E]; [|discriminate E]. assert (p = path) as -> by (cbn in E; congruence). exact Hl.
  - destruct Ha as [Hp Hl]. destruct (decimal_spec port) as (Hn & Hd & Hne).
    destruct (H4 ip Hl) as (_ & _ & Hb).
    assert (En : names (lit "inet:" ++ decimal port ++ lit "@[" ++ ntop4 ip ++ lit "]")
                       (SInet (number (decimal port)) ip)).
    { apply names_inet; [exact Hd|rewrite Hn; exact Hp| |].
      - apply host_literal, Hb.
      - intros E. apply app_eq_nil in E. apply Hne, E. }
    rewrite Hn in En. apply parse_spec_complete; [|exact En]. intros p [E|E]; discriminate E.
  - destruct Ha as [Hp Hl]. destruct (decimal_spec port) as (Hn & Hd & Hne).
    destruct (H6 ip Hl) as (_ & _ & Hb).
    assert (En : names (lit "inet6:" ++ decimal port ++ lit "@[" ++ ntop6 ip ++ lit "]")
                       (SInet6 (number (decimal port)) ip)).
    { apply names_inet6; [exact Hd|rewrite Hn; exact Hp| |].
      - apply host_literal, Hb.
      - intros E. apply app_eq_nil in E. apply Hne, E. }
    rewrite Hn in En. apply parse_spec_complete; [|exact En]. intros p [E|E]; discriminate E.
Qed.

(** The only way to write outside an object is a path that is too long. *)
Lemma parse_spec_overflow s : parse s = SpecOverflow ->
  exists path, (s = lit "unix:" ++ path \/ s = lit "local:" ++ path) /\ 108 <= N.of_nat (length path).
Proof.
  unfold parse_spec. destruct (after_colon s) as [[|x content]|] eqn:Ec; try discriminate.
  destruct (has_prefix_then (lit "unix:") s) as [r|] eqn:E1.
  { apply prefix_then_sound in E1. subst s.
    assert (x :: content = r) as <- by (cbn in Ec; congruence).
    destruct (108 <=? _) eqn:El; [|discriminate]. intros _. exists (x :: content). split; [auto|lia]. }
  destruct (has_prefix_then (lit "local:") s) as [r|] eqn:E2.
  { apply prefix_then_sound in E2. subst s.
    assert (x :: content = r) as <- by (cbn in Ec; congruence).
    destruct (108 <=? _) eqn:El; [|discriminate]. intros _. exists (x :: content). split; [auto|lia]. }
  destruct (has_prefix_then (lit "inet:") s).
  { destruct (parse_port_and_host _ _ _ _) as [[]|]; discriminate. }
  destruct (has_prefix_then (lit "inet6:") s); [|discriminate].
  destruct (parse_port_and_host _ _ _ _) as [[]|]; discriminate.
Qed.
End Specs.
