(** C95: the conditions that come with milter-manager; C96: the restriction to accounts; C97: policies. *)
From Coq Require Import Permutation.
From Verif.Base Require Import Bytes BytesFacts.
From Verif.Model Require Import CommandCodec Macros Conditions SenderRules.
From Verif.Model Require ConnectionSpec.
From Verif.Spec Require Import ConditionSpec ConditionLibrarySpec.
From Verif.Proofs Require Import MacroProofs ConditionProofs SenderRuleProofs ConditionLibrary ConditionAccounts.
Import List.

(** *** C95 *)
Section Library.
  Context {E : Type}.

  (** "Remote Network": the filter is told of the connection if and only if the address is known and either one of
      the networks added as remote or neither local by itself nor one of those added as local; otherwise it is
      turned away. *)
  Section Network.
    Context (network : Type) (includes : network -> address -> bool).
    Definition from_outside (local remote : list network) (x : address) : Prop :=
      x <> UnknownAddress /\
      ((ip_address x /\ exists n, In n remote /\ includes n x = true) \/
       (~ local_by_itself x /\ ~ (ip_address x /\ exists n, In n local /\ includes n x = true))).
    Theorem C95_remote_network : forall local remote (e : E) host x,
      (from_outside local remote x -> let_in [remote_network_condition E network includes local remote] e (connect_of host x)) /\
      (~ from_outside local remote x -> turned_away [remote_network_condition E network includes local remote] e (connect_of host x)).
    Proof.
      intros local remote e host x. pose proof (remote_iff network includes local remote x) as R. split; intros H.
      - apply connect_let. apply R in H. rewrite H. reflexivity.
      - apply connect_turned. destruct (remote_address network includes local remote x); [exfalso; apply H, R; reflexivity | reflexivity].
    Qed.
  End Network.

  (** "S25R", with the rules that come with it: by IPv4 (or with only_check_ipv4 off), a host whose name is suspicious and
      not of the white list is told to the filter; everybody else is not. *)
  Theorem C95_s25r : forall only4 (e : E) host x,
    let wanted := (only4 = true -> exists a p, x = IPv4 a p) /\ ~ trustworthy host /\ suspicious host in
    let k := s25r_condition E only4 (matchers default_white) (matchers default_black) in
    (wanted -> let_in [k] e (connect_of host x)) /\ (~ wanted -> turned_away [k] e (connect_of host x)).
  Proof.
    intros only4 e host x wanted k. unfold k, s25r_condition. rewrite connect_let, connect_turned. unfold white, black, matched.
    pose proof (white_iff host) as W. pose proof (black_iff host) as B.
    assert (I : (only4 && negb (is_ipv4 x) = false) <-> (only4 = true -> exists a p, x = IPv4 a p)).
    { destruct only4; cbn [andb].
      - destruct x; cbn [is_ipv4 negb]; split; intros H; try (intros _; eexists _, _; reflexivity); try reflexivity; try discriminate H;
          destruct (H eq_refl) as (y & p & D); discriminate D.
      - split; [intros _ H; discriminate H | reflexivity]. }
    unfold wanted. rewrite <- I, <- W, <- B. 
    destruct (only4 && negb (is_ipv4 x)), (existsb _ (matchers default_white)), (existsb _ (matchers default_black));
      (split; intros H; [|]); try reflexivity; exfalso; intuition congruence.
  Qed.
  (** With other rules: a host that a matcher of the white list accepts is not told, whatever the black list says; nor
      one that no list knows. *)
  Theorem C95_s25r_lists : forall whites blacks (e : E) host a p,
    let k := s25r_condition E true whites blacks in
    (~ (exists m, In m whites /\ m host = true) /\ (exists m, In m blacks /\ m host = true) -> let_in [k] e (connect_of host (IPv4 a p))) /\
    ((exists m, In m whites /\ m host = true) \/ ~ (exists m, In m blacks /\ m host = true) -> turned_away [k] e (connect_of host (IPv4 a p))).
  Proof.
    intros whites blacks e host a p k. unfold k, s25r_condition. rewrite connect_let, connect_turned. unfold white, black, matched.
    cbn [is_ipv4 negb andb]. rewrite <- !existsb_exists.
    destruct (existsb _ whites), (existsb _ blacks); (split; intros H); try reflexivity; exfalso; intuition congruence.
  Qed.

  (** "DNSBL Listed" and "Not DNSBL Listed": whatever the order in which the answers arrive, an IPv4 client counts as
      listed if and only if one of the services answers as expected; others never do. *)
  Section Dnsbl.
    Context (network : Type) (services : list (bytes * option network)) (arrival : E -> N -> list bool)
            (as_expected : E -> N -> bytes * option network -> bool).
    Hypothesis arrives : forall e a, Permutation (arrival e a) (map (as_expected e a) services).
    Definition is_listed (e : E) (x : address) : Prop :=
      exists a p s, x = IPv4 a p /\ In s services /\ as_expected e a s = true.
    Theorem C95_dnsbl : forall e host x,
      (is_listed e x -> let_in [dnsbl_condition E network services arrival] e (connect_of host x) /\
                        turned_away [not_dnsbl_condition E network services arrival] e (connect_of host x)) /\
      (~ is_listed e x -> turned_away [dnsbl_condition E network services arrival] e (connect_of host x) /\
                          let_in [not_dnsbl_condition E network services arrival] e (connect_of host x)).
    Proof.
      intros e host x. unfold dnsbl_condition, not_dnsbl_condition. rewrite !connect_let, !connect_turned.
      assert (L : listed E network services arrival e x = true <-> is_listed e x).
      { unfold listed, is_listed. destruct x as [a p|a p|s|]; [|split; [discriminate | intros (? & ? & ? & D & _); discriminate D]..].
        rewrite pop_any by (rewrite (Permutation_length (arrives e a)), map_length; reflexivity).
        rewrite existsb_exists. split.
        - intros (b & I & ->). apply (Permutation_in _ (arrives e a)) in I. apply in_map_iff in I. destruct I as (s & D & I).
          exists a, p, s. tauto.
        - intros (a' & p' & s & D & I & Y). injection D as <- <-. exists true. split; [|reflexivity].
          apply (Permutation_in _ (Permutation_sym (arrives e a))). apply in_map_iff. exists s. tauto. }
      destruct (listed E network services arrival e x).
      - split; intros H; [split; reflexivity | exfalso; apply H, L; reflexivity].
      - split; intros H; [apply L in H; discriminate H | split; reflexivity].
    Qed.
  End Dnsbl.
  (** The name that is looked up. *)
  Theorem C95_dnsbl_query : forall a b c d domain, (a < 256 -> b < 256 -> c < 256 -> d < 256 ->
    query_domain (ip4 a b c d) domain =
      ConnectionSpec.decimal d ++ lit "." ++ ConnectionSpec.decimal c ++ lit "." ++ ConnectionSpec.decimal b ++ lit "." ++
      ConnectionSpec.decimal a ++ lit "." ++ domain)%N.
  Proof.
    intros a b c d domain A B C D. unfold query_domain, dotted.
    assert (W : forall n, (n < 256)%N -> without is_point (ConnectionSpec.decimal n)).
    { intros n L. assert (F : forallb (fun i => forallb (fun x => negb (is_point x)) (ConnectionSpec.decimal (N.of_nat i))) (List.seq 0 256) = true) by (vm_compute; reflexivity).
      rewrite forallb_forall in F. specialize (F (N.to_nat n)). rewrite N2Nat.id in F. apply Forall_forall. intros x I.
      assert (X : forallb (fun x => negb (is_point x)) (ConnectionSpec.decimal n) = true) by (apply F, in_seq; lia).
      rewrite forallb_forall in X. specialize (X x I). destruct (is_point x); [discriminate X | reflexivity]. }
    assert (S3 : (N.shiftr (ip4 a b c d) 24 mod 256 = a)%N).
    { rewrite N.shiftr_div_pow2. change (2 ^ 24)%N with 16777216%N. unfold ip4.
      replace ((a * 16777216 + b * 65536 + c * 256 + d) / 16777216)%N with a by (apply (N.div_unique _ _ _ (b * 65536 + c * 256 + d)); lia).
      apply N.mod_small. exact A. }
    assert (S2 : (N.shiftr (ip4 a b c d) 16 mod 256 = b)%N).
    { rewrite N.shiftr_div_pow2. change (2 ^ 16)%N with 65536%N. unfold ip4.
      replace ((a * 16777216 + b * 65536 + c * 256 + d) / 65536)%N with (a * 256 + b)%N by (apply (N.div_unique _ _ _ (c * 256 + d)); lia).
      symmetry. apply (N.mod_unique _ _ a); lia. }
    assert (S1 : (N.shiftr (ip4 a b c d) 8 mod 256 = c)%N).
    { rewrite N.shiftr_div_pow2. change (2 ^ 8)%N with 256%N. unfold ip4.
      replace ((a * 16777216 + b * 65536 + c * 256 + d) / 256)%N with (a * 65536 + b * 256 + c)%N by (apply (N.div_unique _ _ _ d); lia).
      symmetry. apply (N.mod_unique _ _ (a * 256 + b)); lia. }
    assert (S0 : (N.shiftr (ip4 a b c d) 0 mod 256 = d)%N).
    { rewrite N.shiftr_0_r. unfold ip4. symmetry. apply (N.mod_unique _ _ (a * 65536 + b * 256 + c)); lia. }
    rewrite S3, S2, S1, S0. change (lit ".") with ["."%char]. cbn [app].
    rewrite (split_plain _ [] _ (W a A)), (split_plain _ [] _ (W b B)), (split_plain _ [] _ (W c C)), (split_last _ [] (W d D)).
    cbn [app rev join_points]. rewrite <- !app_assoc. change (lit ".") with ["."%char]. cbn [app]. reflexivity.
  Qed.

  (** "No Stress" and "Stress Notify": under a threshold of at least one, from that number of sessions on the first
      turns filters away and the second tells them {stress}=yes; no filter is stopped by the second. *)
  Theorem C95_no_stress : forall (n_sessions : E -> N) threshold e host x,
    ((0 < threshold <= n_sessions e)%N -> turned_away [no_stress_condition E n_sessions threshold] e (connect_of host x)) /\
    (~ (0 < threshold <= n_sessions e)%N -> let_in [no_stress_condition E n_sessions threshold] e (connect_of host x)).
  Proof.
    intros n threshold e host x. unfold no_stress_condition. rewrite connect_let, connect_turned. unfold stressing.
    destruct (N.eqb_spec threshold 0) as [Z|Z], (N.leb_spec threshold (n e)) as [L|L]; split; intros H; try reflexivity; exfalso; lia.
  Qed.
  Theorem C95_stress_notify : forall (n_sessions : E -> N) threshold e host x f, c_quitted f = false ->
    exists t, snd (tell [stress_notify_condition E n_sessions threshold] f e (connect_of host x)) = Told t /\
      lookup t (lit "stress") = if ((0 <? threshold) && (threshold <=? n_sessions e))%N then Some (lit "yes")
                                else stage_value (pa_macros (c_agent f)) "C"%char (lit "stress").
  Proof.
    intros n threshold e host x f Q. unfold tell, connect_of, concerned. cbn [c_stage]. rewrite Q. cbn [negb].
    unfold asked, stoppers_at, passed, stress_notify_condition. cbn [c_stage k_stoppers filter fst stage_beq map snd any_stops guarded stage_command].
    eexists. split; [reflexivity|]. rewrite ensure_lookup. unfold stressing.
    destruct (N.eqb_spec threshold 0) as [->|N0]; [reflexivity|]. replace (0 <? threshold)%N with true by (symmetry; apply N.ltb_lt; lia).
    cbn [andb]. destruct (threshold <=? n e)%N; [|reflexivity]. apply set_own_value. reflexivity.
  Qed.

  (** "Authenticated" and "Unauthenticated": a filter with the one is told MAIL if and only if the MTA has given
      {auth_type} or {auth_authen} for the connection, for HELO or for this message; a filter with the other if and only if not. *)
  Definition has_authenticated (l : list (event E)) : Prop :=
    exists s t n v, (s = AtConnect \/ s = AtHelo \/ s = AtFrom) /\ mta_gave s t l /\ In (n, v) t /\ (n = lit "auth_type" \/ n = lit "auth_authen").
  Theorem C95_authenticated : forall l (e : E) from, hash_tables l ->
    let told k := exists t, snd (tell [k] (fst (run [k] child_new l)) e (mail_of from)) = Told t in
    let stopped k := snd (tell [k] (fst (run [k] child_new l)) e (mail_of from)) = Stopped in
    (has_authenticated l -> told (authenticated_condition E) /\ stopped (unauthenticated_condition E)) /\
    (~ has_authenticated l -> stopped (authenticated_condition E) /\ told (unauthenticated_condition E)).
  Proof.
    intros l e from U told stopped. unfold told, stopped.
    assert (X : forall p n, let f := fst (run [asks_mail p n] child_new l) in known l f /\
                if p (set_macro_context (c_agent f) "M"%char) then snd (tell [asks_mail p n] f e (mail_of from)) = Stopped
                else exists t, snd (tell [asks_mail p n] f e (mail_of from)) = Told t).
    { intros p n f. pose proof (known_run p n [] l child_new (known_new (E := E)) U) as K. cbn [app] in K. fold f in K. split; [exact K|].
      destruct (asks_mail_tell p n f e (mail_of from) (proj1 K)) as (f' & o & T & _ & _ & O). rewrite T. cbn [snd]. apply O. reflexivity. }
    destruct (X (fun a => negb (authenticated a)) (lit "Authenticated")) as [KA TA].
    destruct (X authenticated (lit "Unauthenticated")) as [KU TU]. clear X.
    change (asks_mail (fun a => negb (authenticated a)) (lit "Authenticated")) with (authenticated_condition E) in KA, TA.
    change (asks_mail authenticated (lit "Unauthenticated")) with (unauthenticated_condition E) in KU, TU.
    pose proof (authenticated_iff _ _ KA) as IA. pose proof (authenticated_iff _ _ KU) as IU. cbv beta in TA. unfold has_authenticated.
    split; intros H.
    - rewrite (proj2 IA H) in TA. rewrite (proj2 IU H) in TU. cbn [negb] in TA. split; [exact TA | exact TU].
    - destruct (authenticated (set_macro_context (c_agent (fst (run [authenticated_condition E] child_new l))) "M"%char)); [exfalso; apply H, IA; reflexivity|].
      destruct (authenticated (set_macro_context (c_agent (fst (run [unauthenticated_condition E] child_new l))) "M"%char)); [exfalso; apply H, IU; reflexivity|].
      cbn [negb] in TA. split; [exact TA | exact TU].
  Qed.

  (** "Trust": the filter is told {trusted_domain}=yes with MAIL if and only if a matcher accepts the sender's domain in
      lower case. *)
  Theorem C95_trust_partial : forall domains (e : E) f user domain, c_quitted f = false -> tables_ok (pa_macros (c_agent f)) ->
    user <> [] -> ~ In "@"%char user -> domain <> [] -> without is_newline user -> without is_newline domain ->
    stage_value (pa_macros (c_agent f)) "M"%char (lit "trusted_domain") = None ->
    exists t, snd (tell [trust_condition E domains] f e (mail_of (lit "<" ++ user ++ lit "@" ++ domain ++ lit ">"))) = Told t /\
      (lookup t (lit "trusted_domain") = Some (lit "yes") <-> exists m, In m domains /\ m (map lower domain) = true).
  Proof.
    intros domains e f user domain Q OK U A D W1 W2 N. unfold tell, mail_of, concerned. cbn [c_stage]. rewrite Q. cbn [negb].
    unfold asked, stoppers_at, passed, trust_condition.
    cbn [c_stage k_stoppers filter fst stage_beq map snd any_stops stage_command c_arguments].
    unfold trusted. rewrite (sender_domain user domain U A D W1 W2). unfold matched.
    cbn [guarded]. eexists. split; [reflexivity|]. rewrite ensure_lookup. pose proof (existsb_exists (fun m : bytes -> bool => m (map lower domain)) domains) as X.
    rewrite <- X. destruct (existsb _ domains).
    - rewrite set_own_value by reflexivity. rewrite bytes_eqb_refl. tauto.
    - unfold stage_value in N. cbn [set_macro_context pa_macros]. unfold stage_value. rewrite N. split; discriminate.
  Qed.

  (** "Sendmail Compatible": with Postfix, the macros {if_addr}, {if_name} and {daemon_port} that the MTA did not give are told with
      the connection as they are guessed; those it gave, and all others, are told as they are. *)
  Section Sendmail.
    Context (postfix : bytes -> bool) (guess_address guess_port : E -> address -> option bytes) (resolved : E -> bytes -> option bytes).
    Theorem C95_sendmail : forall e host x t0, NoDup (map fst t0) ->
      exists t, snd (run [sendmail_condition E postfix guess_address guess_port resolved] child_new
                         [EMacros AtConnect t0; ECommand e (connect_of host x)]) = [Told t] /\
        match lookup t0 (lit "v") with
        | Some v => if postfix v then
            lookup t (lit "if_addr") = first_of (lookup t0 (lit "if_addr")) (guess_address e x) /\
            lookup t (lit "daemon_port") = first_of (lookup t0 (lit "daemon_port")) (guess_port e x) /\
            lookup t (lit "if_name") = first_of (lookup t0 (lit "if_name"))
              (match lookup t (lit "if_addr") with Some i => resolved e i | None => None end) /\
            forall n, ~ In n [lit "if_addr"; lit "daemon_port"; lit "if_name"] -> lookup t n = lookup t0 n
            else forall n, lookup t n = lookup t0 n
        | None => forall n, lookup t n = lookup t0 n
        end.
    Proof.
      intros e host x t0 U.
      pose (a0 := set_macro_context (set_macros_hash_table pagent_new "C"%char t0) "C"%char).
      assert (K0 : at_connect a0 (lookup t0)).
      { repeat apply conj; [reflexivity | reflexivity | apply hash_ok, new_ok|]. intros n. unfold a0. cbn [set_macro_context pa_macros].
        exact (hash_value pagent_new "C"%char t0 "C"%char n U). }
      cbn [run step define_macros]. unfold tell, connect_of, concerned. cbn [c_stage child_new c_quitted negb].
      unfold asked, stoppers_at, passed, sendmail_condition.
      cbn [c_stage k_stoppers filter fst stage_beq map snd any_stops stage_command c_arguments c_agent].
      cbn [guarded].
      eexists. split; [reflexivity|]. change (c_agent child_new) with pagent_new.
      change (set_macro_context (set_macros_hash_table pagent_new "C" t0) "C") with a0. unfold is_postfix. rewrite (at_connect_macro a0 _ (lit "v") K0) by reflexivity.
      assert (Same : forall n, lookup (ensure_macros (pa_macros a0) "C") n = lookup t0 n) by (intros n; rewrite ensure_lookup; apply K0).
      destruct (lookup t0 (lit "v")) as [v|]; [|exact Same]. destruct (postfix v); [|exact Same]. clear Same.
      pose proof (at_connect_default a0 _ (lit "if_addr") (guess_address e x) K0 eq_refl) as K1.
      set (a1 := default_macro (lit "if_addr") (guess_address e x) a0) in *. cbv zeta.
      rewrite (at_connect_macro a1 _ (lit "if_addr") K1) by reflexivity. cbv beta. rewrite bytes_eqb_refl.
      set (d := match first_of (lookup t0 (lit "if_addr")) (guess_address e x) with Some i => resolved e i | None => None end).
      pose proof (at_connect_default a1 _ (lit "if_name") d K1 eq_refl) as K2.
      pose proof (at_connect_default _ _ (lit "daemon_port") (guess_port e x) K2 eq_refl) as K3.
      destruct K3 as (_ & _ & _ & V).
      assert (L : forall n, lookup (ensure_macros (pa_macros (default_macro (lit "daemon_port") (guess_port e x) (default_macro (lit "if_name") d a1))) "C") n =
        if bytes_eqb (lit "daemon_port") n then first_of (lookup t0 (lit "daemon_port")) (guess_port e x)
        else if bytes_eqb (lit "if_name") n then first_of (lookup t0 (lit "if_name")) d
        else if bytes_eqb (lit "if_addr") n then first_of (lookup t0 (lit "if_addr")) (guess_address e x) else lookup t0 n).
      { intros n. rewrite ensure_lookup, V.
        change (bytes_eqb (lit "if_name") (lit "daemon_port")) with false. change (bytes_eqb (lit "if_addr") (lit "daemon_port")) with false.
        change (bytes_eqb (lit "if_addr") (lit "if_name")) with false. reflexivity. }
      rewrite !L. repeat apply conj.
      - change (bytes_eqb (lit "daemon_port") (lit "if_addr")) with false. change (bytes_eqb (lit "if_name") (lit "if_addr")) with false.
        rewrite bytes_eqb_refl. reflexivity.
      - rewrite bytes_eqb_refl. reflexivity.
      - change (bytes_eqb (lit "daemon_port") (lit "if_name")) with false. rewrite bytes_eqb_refl.
        change (bytes_eqb (lit "daemon_port") (lit "if_addr")) with false. change (bytes_eqb (lit "if_name") (lit "if_addr")) with false.
        rewrite bytes_eqb_refl. reflexivity.
      - intros n N. rewrite L.
        destruct (bytes_eqb (lit "daemon_port") n) eqn:B1; [exfalso; apply N; apply bytes_eqb_eq in B1; right; left; exact B1|].
        destruct (bytes_eqb (lit "if_name") n) eqn:B2; [exfalso; apply N; apply bytes_eqb_eq in B2; right; right; left; exact B2|].
        destruct (bytes_eqb (lit "if_addr") n) eqn:B3; [exfalso; apply N; apply bytes_eqb_eq in B3; left; exact B3|]. reflexivity.
    Qed.
    (** At MAIL, {i} is "dummy-id" if the MTA did not give it. *)
    Theorem C95_sendmail_id : forall e from t1, NoDup (map fst t1) ->
      exists t, snd (run [sendmail_condition E postfix guess_address guess_port resolved] child_new
                         [EMacros AtFrom t1; ECommand e (mail_of from)]) = [Told t] /\
        lookup t (lit "i") = first_of (lookup t1 (lit "i"))
          (match lookup t1 (lit "v") with Some v => if postfix v then Some (lit "dummy-id") else None | None => None end) /\
        forall n, n <> lit "i" -> lookup t n = lookup t1 n.
    Proof.
      intros e from t1 U.
      pose (b0 := set_macros_hash_table pagent_new "M"%char t1).
      assert (OK : tables_ok (pa_macros b0)) by (apply hash_ok, new_ok).
      assert (V : forall c n, stage_value (pa_macros b0) c n = if beqb "M" c then lookup t1 n else None).
      { intros c n. unfold b0. rewrite (hash_value pagent_new "M"%char t1 c n U). destruct (beqb "M" c); reflexivity. }
      assert (M : forall n, plain_name n -> macro (set_macro_context b0 "M"%char) n = lookup t1 n).
      { intros n P. rewrite (macro_at _ _ _ OK P). unfold macro_search_order. cbn [latest_value]. rewrite !V.
        change (beqb "C" "M") with false. change (beqb "H" "M") with false. change (beqb "M" "M") with true.
        change (beqb "M" "C") with false. change (beqb "M" "H") with false. cbv iota. destruct (lookup t1 n); reflexivity. }
      cbn [run step define_macros]. unfold tell, mail_of, concerned. cbn [c_stage child_new c_quitted negb].
      unfold asked, stoppers_at, passed, sendmail_condition.
      cbn [c_stage k_stoppers filter fst stage_beq map snd any_stops stage_command c_arguments c_agent]. cbn [guarded].
      eexists. split; [reflexivity|]. change (c_agent child_new) with pagent_new.
      change (set_macros_hash_table pagent_new "M" t1) with b0.
      unfold is_postfix, default_macro. rewrite !M by reflexivity.
      assert (Same : forall n, lookup (ensure_macros (pa_macros (set_macro_context b0 "M")) "M") n = lookup t1 n).
      { intros n. rewrite ensure_lookup. cbn [set_macro_context pa_macros]. rewrite V. reflexivity. }
      destruct (match lookup t1 (lit "v") with Some v => postfix v | None => false end) eqn:X;
        destruct (lookup t1 (lit "i")) as [i|] eqn:I; (split; [|intros n N]); cbn [first_of]; try (rewrite Same; try exact I; reflexivity).
      - rewrite ensure_lookup, set_own_value by reflexivity. rewrite bytes_eqb_refl.
        destruct (lookup t1 (lit "v")) as [v|]; [rewrite X; reflexivity | discriminate X].
      - rewrite ensure_lookup, set_own_value by reflexivity. replace (bytes_eqb (lit "i") n) with false by (symmetry; apply bytes_eqb_neq; congruence).
        rewrite V. reflexivity.
      - rewrite Same, I. destruct (lookup t1 (lit "v")) as [v|]; [rewrite X; reflexivity | reflexivity].
    Qed.
  End Sendmail.
End Library.
Print Assumptions C95_remote_network.
Print Assumptions C95_s25r.
Print Assumptions C95_s25r_lists.
Print Assumptions C95_dnsbl.
Print Assumptions C95_dnsbl_query.
Print Assumptions C95_no_stress.
Print Assumptions C95_stress_notify.
Print Assumptions C95_authenticated.
Print Assumptions C95_trust_partial.
Print Assumptions C95_sendmail.
Print Assumptions C95_sendmail_id.

Example ex_remote : from_outside N (fun n x => match x with IPv4 a _ => (a =? n)%N | _ => false end) [] [ip4 10 0 0 7] (IPv4 (ip4 10 0 0 7) 25) /\
  ~ from_outside N (fun n x => match x with IPv4 a _ => (a =? n)%N | _ => false end) [] [ip4 10 0 0 7] (IPv4 (ip4 10 0 0 8) 25) /\
  from_outside N (fun _ _ => false) [] [] (IPv4 (ip4 172 32 0 1) 25) /\
  ~ from_outside N (fun _ _ => false) [] [] (IPv6 1 25).
Proof.
  unfold from_outside, local_by_itself, between, ip4. repeat apply conj.
  - discriminate.
  - left. split; [exact I|]. exists (ip4 10 0 0 7). split; [left; reflexivity | reflexivity].
  - intros [_ [[_ (n & [<-|[]] & H)]|[H _]]]; [discriminate H|]. apply H. right. left. lia.
  - discriminate.
  - right. split; [lia|]. intros [_ (n & [] & _)].
  - intros [_ [[_ (n & [] & _)]|[H _]]]. apply H. left. reflexivity.
Qed.
Example ex_s25r : suspicious (lit "ppp-12345.example.com") /\ ~ trustworthy (lit "ppp-12345.example.com") /\
  map (fun h => snd (tell [s25r_condition unit true (matchers default_white) (matchers default_black)] child_new tt (connect_of h (IPv4 1 25))))
    [lit "ppp-12345.example.com"; lit "mail-sor-f41.google.com"; lit "mail.example.com"; lit "unknown"; lit "1.2.3.4.example.com"; lit "host1.example2.net"] =
  [Told []; Stopped; Stopped; Told []; Told []; Stopped].
Proof.
  split; [apply (rule_five _ (lit "ppp-") (lit "12345") (lit ".example.com")); [reflexivity | repeat constructor | repeat constructor | reflexivity]|].
  split; [intros H; apply white_iff in H; vm_compute in H; discriminate H | vm_compute; reflexivity].
Qed.
Example ex_dnsbl : query_domain (ip4 192 0 2 99) (lit "zen.spamhaus.org") = lit "99.2.0.192.zen.spamhaus.org".
Proof. vm_compute. reflexivity. Qed.
Example ex_authenticated :
  snd (run [authenticated_condition unit] child_new
         [EMacros AtFrom [(lit "auth_authen", lit "me")]; ECommand tt (mail_of (lit "<a@b>")); EAbort; ECommand tt (mail_of (lit "<a@b>"))]) =
  [Told [(lit "auth_authen", lit "me")]; Stopped].
Proof. vm_compute. reflexivity. Qed.
Example ex_trust : snd (tell [trust_condition unit [bytes_eqb (lit "gmail.com")]] child_new tt (mail_of (lit "<he@GMail.com>"))) =
  Told [(lit "trusted_domain", lit "yes")].
Proof. vm_compute. reflexivity. Qed.
(** A sender whose local part is a quoted string with "@" in it, and a domain given to trust.add_envelope_from_domain with capital
    letters, are not recognised. *)
Theorem C95_trust_refuted :
  snd (tell [trust_condition unit [bytes_eqb (lit "gmail.com")]] child_new tt (mail_of (lit "<""he@home""@gmail.com>"))) = Told [] /\
  forall from, snd (tell [trust_condition unit [bytes_eqb (lit "GMail.com")]] child_new tt (mail_of from)) = Told [].
Proof.
  split; [vm_compute; reflexivity|]. intros from.
  assert (T : trusted [bytes_eqb (lit "GMail.com")] from = false).
  { unfold trusted. destruct (from_domain from) as [d|]; [|reflexivity]. unfold matched. cbn [existsb]. rewrite orb_false_r.
    apply bytes_eqb_neq. intros D. destruct d as [|c d]; [discriminate D|]. cbn [map] in D. injection D as D _.
    revert D. clear. destruct c as [[] [] [] [] [] [] [] []]; vm_compute; discriminate. }
  unfold tell, mail_of, concerned. cbn [c_stage child_new c_quitted negb].
  unfold asked, stoppers_at, passed, trust_condition. cbn [c_stage k_stoppers filter fst stage_beq map snd any_stops stage_command c_arguments].
  rewrite T. reflexivity.
Qed.
Print Assumptions C95_trust_refuted.
(** What does not begin with "<" is no sender's address. *)
Theorem C95_trust_form : forall (E : Type) domains (e : E) from, hd NUL from <> "<"%char ->
  snd (tell [trust_condition E domains] child_new e (mail_of from)) = Told [].
Proof.
  intros E domains e from H.
  assert (T : trusted domains from = false).
  { unfold trusted, from_domain. destruct from as [|c [|c' s]]; try reflexivity. cbn [hd] in H.
    destruct (beqb c "<"%char) eqn:X; [apply beqb_eq in X; congruence|]. reflexivity. }
  unfold tell, mail_of, concerned. cbn [c_stage child_new c_quitted negb].
  unfold asked, stoppers_at, passed, trust_condition. cbn [c_stage k_stoppers filter fst stage_beq map snd any_stops stage_command c_arguments].
  rewrite T. reflexivity.
Qed.
Print Assumptions C95_trust_form.
Example ex_sendmail :
  snd (run [sendmail_condition unit (fun v => bytes_eqb v (lit "Postfix 3.7")) (fun _ _ => Some (lit "192.0.2.1")) (fun _ _ => None) (fun _ _ => Some (lit "mx.example.com"))]
           child_new [EMacros AtConnect [(lit "v", lit "Postfix 3.7")]; ECommand tt (connect_of (lit "h") UnknownAddress)]) =
  [Told [(lit "v", lit "Postfix 3.7"); (lit "if_addr", lit "192.0.2.1"); (lit "if_name", lit "mx.example.com")]].
Proof. vm_compute. reflexivity. Qed.

(** *** C96 *)
Section Accounts.
  Context {E : Type} (name : bytes) (restricted : bytes -> bool).
  Let k : condition E := restrict_condition E name restricted.
  (** At the beginning of the session, or after an abort. *)
  Definition afresh (l : list (event E)) : Prop := l = [] \/ exists l', l = l' ++ [EAbort].
  (** The filter is told the recipients that are restricted accounts and no others.  It is told the content unless there is
      another recipient after which the MTA has given no macros for a recipient. *)
  Theorem C96_accounts_partial : forall l0 (e : E) from rcpts f0,
    afresh l0 -> (forall s t, In (EMacros s t) l0 -> free_of_flag t) -> (forall t r, In (Some t, r) rcpts -> free_of_flag t) ->
    f0 = fst (run [k] child_new l0) ->
    exists t os o, snd (run [k] f0 (ECommand e (mail_of from) :: recipients_of e rcpts ++ [ECommand e data_command])) = Told t :: os ++ [o] /\
      Forall2 (fun p o => if restricted (snd p) then exists t, o = Told t else o = Stopped) rcpts os /\
      ((exists l1 ot r l2, rcpts = l1 ++ (ot, r) :: l2 /\ restricted r = false /\ Forall (fun p => fst p = None) l2) -> o = Stopped) /\
      (~ (exists l1 ot r l2, rcpts = l1 ++ (ot, r) :: l2 /\ restricted r = false /\ Forall (fun p => fst p = None) l2) -> exists t, o = Told t).
  Proof.
    intros l0 e from rcpts f0 A F0 F1 ->. pose proof (restrict_run name restricted l0 child_new only_new F0) as I. fold k in I.
    assert (R : stage_value (pa_macros (c_agent (fst (run [k] child_new l0)))) "R"%char flag = None).
    { destruct A as [->|(l' & ->)]; [reflexivity|]. rewrite run_app. cbn [fst run step].
      assert (Q : c_quitted (fst (run [k] child_new l')) = false).
      { apply (restrict_run name restricted l' child_new only_new). intros s t J. apply (F0 s t), in_or_app. left. exact J. }
      unfold abort. rewrite Q. cbn [fst c_agent]. rewrite clear_value. reflexivity. }
    destruct (tell_mail name restricted _ e from I R) as (f1 & t & T & Fl). fold k in T.
    destruct (run_recipients name restricted e rcpts f1 false Fl F1) as (f2 & os & Ru & Fl2 & O). fold k in Ru.
    exists t, os, (snd (tell [k] f2 e data_command)).
    split.
    { cbn [run step]. rewrite T. rewrite run_app, Ru. cbn [fst snd run step]. destruct (tell [k] f2 e data_command). cbn [fst snd app]. reflexivity. }
    split; [exact O|]. pose proof (tell_data name restricted f2 _ e Fl2) as D. fold k in D.
    pose proof (pending_iff restricted rcpts false) as P. destruct (fold_left (pending restricted) rcpts false).
    - split; intros H; [exact D|]. exfalso. apply H. destruct (proj1 P eq_refl) as [X|[X _]]; [exact X | discriminate X].
    - split; intros H; [|exact D]. assert (X : false = true) by (apply P; left; exact H). discriminate X.
  Qed.
End Accounts.
Print Assumptions C96_accounts_partial.
(** With a list of accounts, a recipient is restricted if one of the accounts matches its address. *)
Theorem C96_account_list : forall accounts a, a <> [] -> ~ In (byte_of 10) a ->
  in_list accounts ("<"%char :: a ++ [">"%char]) = true <-> exists m, In m accounts /\ m a = true.
Proof.
  intros accounts a H N.
  assert (B : bare_address ("<"%char :: a ++ [">"%char]) = a).
  { unfold bare_address. destruct a as [|c a]; [congruence|]. cbn [app]. rewrite last_last, removelast_last, !beqb_refl. cbn [andb].
    assert (F : newline_free (c :: a) = true).
    { unfold newline_free. apply forallb_forall. intros x Hx. apply negb_true_iff. apply not_true_iff_false. intros X.
      apply beqb_eq in X. subst x. exact (N Hx). }
    rewrite F. reflexivity. }
  unfold in_list. rewrite B. apply existsb_exists.
Qed.
Print Assumptions C96_account_list.
Definition ex_restricted : bytes -> bool := in_list [bytes_eqb (lit "bob@example.com")].
Definition ex_bob : bytes := lit "<bob@example.com>".
Definition ex_ann : bytes := lit "<ann@example.com>".
Definition ex_outcomes (rcpts : list (option table * bytes)) : list outcome :=
  snd (run [restrict_condition unit (lit "Restrict Accounts") ex_restricted] child_new
         (ECommand tt (mail_of (lit "<a@b>")) :: recipients_of tt rcpts ++ [ECommand tt data_command])).
Example ex_accounts : ex_outcomes [(None, ex_bob)] = [Told []; Told []; Told []] /\ ex_outcomes [(None, ex_ann)] = [Told []; Stopped; Stopped].
Proof. vm_compute. split; reflexivity. Qed.
(** The documentation says that the filter applies if the restricted account is among the recipients.  Without macros for
    recipients, a second recipient takes the message from it; with them, the last recipient decides, for the whole
    message. *)
Theorem C96_accounts_refuted :
  (** without macros, bob's mail is not filtered because ann gets it too *)
  ex_outcomes [(None, ex_bob); (None, ex_ann)] = [Told []; Told []; Stopped; Stopped] /\
  (** with macros, the last recipient decides *)
  (exists t, ex_outcomes [(Some [(lit "rcpt_host", lit "h")], ex_bob); (Some [(lit "rcpt_host", lit "h")], ex_ann)] = [Told []; Told t; Stopped; Stopped]) /\
  (exists t, ex_outcomes [(Some [(lit "rcpt_host", lit "h")], ex_ann); (Some [(lit "rcpt_host", lit "h")], ex_bob)] = [Told []; Stopped; Told t; Told []]) /\
  (** and without an abort between, the message before decides *)
  snd (run [restrict_condition unit (lit "Restrict Accounts") ex_restricted] child_new
         (ECommand tt (mail_of (lit "<a@b>")) :: recipients_of tt [(None, ex_bob); (None, ex_ann)] ++
          ECommand tt (mail_of (lit "<a@b>")) :: recipients_of tt [(None, ex_bob)] ++ [ECommand tt data_command])) =
    [Told []; Told []; Stopped; Told []; Told [(flag, lit "true")]; Stopped].
Proof. repeat apply conj; try (eexists; vm_compute; reflexivity); vm_compute; reflexivity. Qed.
Print Assumptions C96_accounts_refuted.

(** *** C97 *)
Section Policies.
  Context {E : Type} (ps : list policy) (milter : bytes).
  Let k : condition E := policy_condition E ps milter.
  Definition fits {A} (m : matcher A) (x : A) : Prop := exists p, m = Some p /\ p x = true.
  Definition names (p : policy) : Prop := In milter (p_milters p).
  (** A filter is turned away at a connection if and only if one of the policies that name it accepts neither the host nor the
      address; at MAIL and RCPT likewise by the sender and the recipient. *)
  Theorem C97_connect : forall e host x,
    let wrong := exists p, In p ps /\ names p /\ ~ fits (p_host p) host /\ ~ fits (p_address p) x in
    (wrong -> turned_away [k] e (connect_of host x)) /\ (~ wrong -> let_in [k] e (connect_of host x)).
  Proof.
    intros e host x wrong.
    assert (X : existsb (policy_connect milter host x) ps = true <-> wrong).
    { rewrite existsb_exists. unfold wrong, policy_connect, targets, names.
      assert (M : forall p, existsb (bytes_eqb milter) (p_milters p) = true <-> In milter (p_milters p)).
      { intros p. rewrite existsb_exists. split; [intros (n & I & B); apply bytes_eqb_eq in B; subst; exact I | intros I; exists milter; split; [exact I | apply bytes_eqb_refl]]. }
      assert (C : forall A (m : matcher A) y, case_eq m y = true <-> fits m y).
      { intros A m y. unfold case_eq, fits. destruct m as [q|]; split; [intros H; exists q; tauto | intros (q' & D & H); injection D as ->; exact H | discriminate | intros (q' & D & _); discriminate D]. }
      split; intros (p & I & H); exists p; (split; [exact I|]).
      - destruct (existsb _ (p_milters p)) eqn:T; [|discriminate H]. split; [apply M, T|]. rewrite <- !C.
        destruct (case_eq (p_host p) host), (case_eq (p_address p) x); try discriminate H. split; discriminate.
      - destruct H as (T & H1 & H2). apply M in T. rewrite T. rewrite <- C in H1, H2.
        destruct (case_eq (p_host p) host), (case_eq (p_address p) x); try reflexivity; exfalso; [apply H1 | apply H1 | apply H2]; reflexivity. }
    assert (Y : forall f, c_quitted f = false ->
      (existsb (policy_connect milter host x) ps = true -> snd (tell [k] f e (connect_of host x)) = Stopped) /\
      (existsb (policy_connect milter host x) ps = false -> exists t, snd (tell [k] f e (connect_of host x)) = Told t)).
    { intros f Q. unfold tell, connect_of, concerned. cbn [c_stage]. rewrite Q. cbn [negb].
      unfold asked, stoppers_at, passed, k, policy_condition. cbn [c_stage k_stoppers filter fst stage_beq map snd any_stops c_arguments].
      unfold on_connect, says. destruct (existsb _ ps); cbn [guarded]; split; intros H; try discriminate H; [reflexivity | eexists; reflexivity]. }
    split; intros H f Q.
    - apply (Y f Q), X, H.
    - apply (Y f Q). destruct (existsb _ ps) eqn:B; [exfalso; apply H, X; reflexivity | reflexivity].
  Qed.
  (** No policy ever stops a filter at HELO. *)
  Theorem C97_helo : forall e fqdn, let_in [k] e (mk_command AtHelo [Text fqdn]).
  Proof.
    intros e fqdn f Q. unfold tell, concerned. cbn [c_stage]. rewrite Q. cbn [negb].
    unfold asked, stoppers_at, passed, k, policy_condition. cbn [c_stage k_stoppers filter fst stage_beq map snd any_stops c_arguments].
    destruct ps; cbn [guarded]; eexists; reflexivity.
  Qed.
  Theorem C97_from : forall e from,
    let wrong := exists p, In p ps /\ names p /\ ~ fits (p_from p) from in
    (wrong -> turned_away [k] e (mail_of from)) /\ (~ wrong -> let_in [k] e (mail_of from)).
  Proof.
    intros e from wrong.
    assert (X : existsb (policy_from milter from) ps = true <-> wrong).
    { rewrite existsb_exists. unfold wrong, policy_from, targets, names. split; intros (p & I & H); exists p; (split; [exact I|]).
      - destruct (existsb _ (p_milters p)) eqn:T; [|discriminate H]. apply existsb_exists in T. destruct T as (n & J & B). apply bytes_eqb_eq in B. subst n.
        split; [exact J|]. intros (q & D & Y). rewrite D in H. cbn [case_eq] in H. rewrite Y in H. discriminate H.
      - destruct H as (T & H). replace (existsb (bytes_eqb milter) (p_milters p)) with true by (symmetry; apply existsb_exists; exists milter; split; [exact T | apply bytes_eqb_refl]).
        destruct (p_from p) as [q|]; cbn [case_eq]; [|reflexivity]. destruct (q from) eqn:Y; [exfalso; apply H; exists q; tauto | reflexivity]. }
    assert (Y : forall f, c_quitted f = false ->
      (existsb (policy_from milter from) ps = true -> snd (tell [k] f e (mail_of from)) = Stopped) /\
      (existsb (policy_from milter from) ps = false -> exists t, snd (tell [k] f e (mail_of from)) = Told t)).
    { intros f Q. unfold tell, mail_of, concerned. cbn [c_stage]. rewrite Q. cbn [negb].
      unfold asked, stoppers_at, passed, k, policy_condition. cbn [c_stage k_stoppers filter fst stage_beq map snd any_stops c_arguments].
      unfold says. destruct (existsb _ ps); cbn [guarded]; split; intros H; try discriminate H; [reflexivity | eexists; reflexivity]. }
    split; intros H f Q.
    - apply (Y f Q), X, H.
    - apply (Y f Q). destruct (existsb _ ps) eqn:B; [exfalso; apply H, X; reflexivity | reflexivity].
  Qed.
  Theorem C97_recipient : forall e r f, c_quitted f = false -> c_processing f = true ->
    let wrong := exists p, In p ps /\ names p /\ ~ fits (p_recipient p) r in
    (wrong -> snd (tell [k] f e (recipient_of r)) = Stopped) /\ (~ wrong -> exists t, snd (tell [k] f e (recipient_of r)) = Told t).
  Proof.
    intros e r f Q P wrong.
    assert (X : existsb (policy_recipient milter r) ps = true <-> wrong).
    { rewrite existsb_exists. unfold wrong, policy_recipient, targets, names. split; intros (p & I & H); exists p; (split; [exact I|]).
      - destruct (existsb _ (p_milters p)) eqn:T; [|discriminate H]. apply existsb_exists in T. destruct T as (n & J & B). apply bytes_eqb_eq in B. subst n.
        split; [exact J|]. intros (q & D & Y). rewrite D in H. cbn [case_eq] in H. rewrite Y in H. discriminate H.
      - destruct H as (T & H). replace (existsb (bytes_eqb milter) (p_milters p)) with true by (symmetry; apply existsb_exists; exists milter; split; [exact T | apply bytes_eqb_refl]).
        destruct (p_recipient p) as [q|]; cbn [case_eq]; [|reflexivity]. destruct (q r) eqn:Y; [exfalso; apply H; exists q; tauto | reflexivity]. }
    unfold tell, recipient_of, concerned. cbn [c_stage]. rewrite Q, P. cbn [negb andb].
    unfold asked, stoppers_at, passed, k, policy_condition. cbn [c_stage k_stoppers filter fst stage_beq map snd any_stops c_arguments].
    unfold says. destruct (existsb (policy_recipient milter r) ps); cbn [guarded].
    - split; intros H; [reflexivity | exfalso; apply H, X; reflexivity].
    - split; intros H; [apply X in H; discriminate H | eexists; reflexivity].
  Qed.
  (** In a message, the filter is told the content if and only if every policy names it. *)
  Theorem C97_data : forall e f, c_quitted f = false -> c_processing f = true ->
    ((exists p, In p ps /\ ~ names p) -> snd (tell [k] f e data_command) = Stopped) /\
    ((forall p, In p ps -> names p) -> exists t, snd (tell [k] f e data_command) = Told t).
  Proof.
    intros e f Q P. unfold tell, data_command, concerned. cbn [c_stage]. rewrite Q, P. cbn [negb andb].
    unfold asked, stoppers_at, passed, k, policy_condition. cbn [c_stage k_stoppers filter fst stage_beq map snd any_stops c_arguments].
    assert (M : forall p, existsb (bytes_eqb milter) (p_milters p) = true <-> names p).
    { intros p. unfold names. rewrite existsb_exists. split; [intros (n & I & B); apply bytes_eqb_eq in B; subst; exact I | intros I; exists milter; split; [exact I | apply bytes_eqb_refl]]. }
    unfold says, policy_data, targets. split.
    - intros (p & I & N). replace (existsb _ ps) with true; [reflexivity|]. symmetry. apply existsb_exists. exists p. split; [exact I|].
      destruct (existsb (bytes_eqb milter) (p_milters p)) eqn:B; [exfalso; apply N, M, B | reflexivity].
    - intros H. replace (existsb _ ps) with false; [eexists; reflexivity|]. symmetry. apply not_true_iff_false. intros B.
      apply existsb_exists in B. destruct B as (p & I & B). rewrite (proj2 (M p) (H p I)) in B. discriminate B.
  Qed.
End Policies.
Print Assumptions C97_connect.
Print Assumptions C97_helo.
Print Assumptions C97_from.
Print Assumptions C97_recipient.
Print Assumptions C97_data.
Definition ex_policy (m : bytes) (from : bytes) : policy := mk_policy [m] (Some (fun _ => true)) None None (Some (bytes_eqb from)) (Some (fun _ => true)).
Example ex_policies :
  snd (run [policy_condition unit [ex_policy (lit "a") (lit "<x@y>")] (lit "a")] child_new
        [ECommand tt (connect_of (lit "h") UnknownAddress); ECommand tt (mail_of (lit "<x@y>")); ECommand tt data_command; EAbort; ECommand tt (mail_of (lit "<z@y>"))]) =
  [Told []; Told []; Told []; Stopped].
Proof. vm_compute. reflexivity. Qed.
(** One expects of a policy that what it does not say does not matter, that its FQDN counts, and that policies for different filters
    have nothing to do with each other: none of it holds. *)
Theorem C97_policies_refuted :
  (** a policy about the sender only turns its filters away from every connection *)
  (forall host x e, turned_away [policy_condition unit [mk_policy [lit "a"] None None None (Some (fun _ => true)) None] (lit "a")] e (connect_of host x)) /\
  (** a policy about the name given in HELO stops nobody there *)
  (forall fqdn e, let_in [policy_condition unit [mk_policy [lit "a"] None None (Some (fun _ => false)) None None] (lit "a")] e (mk_command AtHelo [Text fqdn])) /\
  (** with two policies for two filters, neither is told any content *)
  (forall milter f e, c_quitted f = false -> c_processing f = true ->
     snd (tell [policy_condition unit [ex_policy (lit "a") (lit "<x@y>"); ex_policy (lit "b") (lit "<x@y>")] milter] f e data_command) = Stopped).
Proof.
  repeat apply conj.
  - intros host x e. apply (C97_connect (E := unit)). eexists. split; [left; reflexivity|]. cbn [p_host p_address]. unfold fits.
    repeat apply conj; [left; reflexivity | intros (q & D & _); discriminate D | intros (q & D & _); discriminate D].
  - intros fqdn e. apply (C97_helo (E := unit)).
  - intros milter f e Q P. apply (C97_data (E := unit)); [exact Q | exact P|]. unfold names.
    destruct (bytes_eqb milter (lit "a")) eqn:B.
    + apply bytes_eqb_eq in B. subst milter. exists (ex_policy (lit "b") (lit "<x@y>")). split; [right; left; reflexivity|].
      intros [D|[]]. discriminate D.
    + apply bytes_eqb_neq in B. exists (ex_policy (lit "a") (lit "<x@y>")). split; [left; reflexivity|]. intros [D|[]]. congruence.
Qed.
Print Assumptions C97_policies_refuted.
