(** libmilter's callbacks and functions: which callbacks are called, and that on the wire a
    libmilter filter is a filter that makes the corresponding calls on its context. *)
From Verif.Base Require Import Bytes BytesFacts.
From Verif.Model Require Import Decoder Encoder CommandCodec ReplyCodec Status Option Macros ReplyCode Client Libmilter.
From Verif.Spec Require Import CommandGrammar ReplyGrammar ReplyCodeSpec ClientSpec LibmilterSpec.
From Verif.Proofs Require Import ClientProofs ClientSession ClientFacts.
From Coq Require Import ZifyBool ZifyNat ZifyN.
Local Open Scope Z_scope.

(** *** Statuses *)
Lemma status_to_returned v : status_to v = returned (Some v).
Proof.
  unfold status_to.
  destruct (Z.eqb_spec v 0) as [->|H0]; [reflexivity|].
  destruct (Z.eqb_spec v 1) as [->|H1]; [reflexivity|].
  destruct (Z.eqb_spec v 2) as [->|H2]; [reflexivity|].
  destruct (Z.eqb_spec v 3) as [->|H3]; [reflexivity|].
  destruct (Z.eqb_spec v 4) as [->|H4]; [reflexivity|].
  destruct (Z.eqb_spec v 7) as [->|H7]; [reflexivity|].
  destruct (Z.eqb_spec v 8) as [->|H8]; [reflexivity|].
  destruct (Z.eqb_spec v 10) as [->|H10]; [reflexivity|].
  unfold returned. destruct v as [|p|p]; try reflexivity; try congruence.
  repeat (destruct p as [p|p|]; try reflexivity; try congruence).
Qed.

Lemma returned_cases v : In (returned v)
  [S_CONTINUE; S_REJECT; S_DISCARD; S_ACCEPT; S_TEMPORARY_FAILURE; S_NO_REPLY; S_SKIP; S_ALL_OPTIONS; S_DEFAULT].
Proof.
  destruct v as [v|]; [rewrite <- status_to_returned|cbn; tauto]. unfold status_to.
  repeat (match goal with |- context [if ?b then _ else _] => destruct b end; [cbn; tauto|]).
  cbn. tauto.
Qed.

Lemma signal_status_plain m v : m <> CAbort -> signal_status m (option_map status_to v) = returned v.
Proof.
  intros Hm. unfold signal_status.
  replace (match m with CAbort => S_DEFAULT | _ => S_NOT_CHANGE end) with S_NOT_CHANGE
    by (destruct m; congruence).
  destruct v as [v|]; [|reflexivity]. cbn [option_map]. rewrite status_to_returned.
  pose proof (returned_cases (Some v)) as H. revert H. generalize (returned (Some v)). intros s H. cbn in H.
  repeat (destruct H as [<-|H]; [reflexivity|]). destruct H.
Qed.

Lemma signal_status_not_progress m s :
  (s = None \/ exists v, s = Some (status_to v)) \/ s = Some S_DEFAULT -> signal_status m s <> S_PROGRESS.
Proof.
  unfold signal_status.
  assert (D : match m with CAbort => S_DEFAULT | _ => S_NOT_CHANGE end = S_DEFAULT \/
              match m with CAbort => S_DEFAULT | _ => S_NOT_CHANGE end = S_NOT_CHANGE) by (destruct m; auto).
  intros [[->|[v ->]]| ->].
  - destruct D as [-> | ->]; discriminate.
  - rewrite status_to_returned. pose proof (returned_cases (Some v)) as H. revert H. generalize (returned (Some v)). intros s H. cbn in H.
    repeat (destruct H as [<-|H]; [destruct D as [-> | ->]; discriminate|]). destruct H.
  - destruct D as [-> | ->]; discriminate.
Qed.

Lemma is_final_decisive v : is_final v = true <-> decisive v.
Proof. unfold is_final, decisive. lia. Qed.

(** *** Functions *)
Lemma digit_of n : (n < 10)%N -> is_digit (byte_of (48 + n)) = true /\ (code (byte_of (48 + n)) - 48 = n)%N /\
  is_c_space (byte_of (48 + n)) = false /\ beqb (byte_of (48 + n)) "-"%char = false /\
  beqb (byte_of (48 + n)) "+"%char = false.
Proof.
  intros H.
  assert (n = 0 \/ n = 1 \/ n = 2 \/ n = 3 \/ n = 4 \/ n = 5 \/ n = 6 \/ n = 7 \/ n = 8 \/ n = 9)%N as C by lia.
  repeat (destruct C as [->|C]; [vm_compute; auto 10|]). subst n. vm_compute. auto 10.
Qed.

Lemma atoi_written s c : written_code s c -> as_uint (atoi s) = c.
Proof.
  intros (x & y & z & -> & (Hx & Hy & Hz) & ->).
  destruct (digit_of x Hx) as (X1 & X2 & X3 & X4 & X5).
  destruct (digit_of y Hy) as (Y1 & Y2 & _). destruct (digit_of z Hz) as (Z1 & Z2 & _).
  unfold atoi. cbn [skip_c_space]. rewrite X3, X4, X5.
  cbn [leading_digits]. rewrite X1, Y1, Z1, X2, Y2, Z2.
  unfold as_uint, as_int.
  replace (Z.min (((0 * 10 + Z.of_N x) * 10 + Z.of_N y) * 10 + Z.of_N z) 9223372036854775807)
    with (Z.of_N (x * 100 + y * 10 + z)) by lia.
  rewrite (Z.mod_small (_ + _)) by lia. rewrite Z.mod_small by lia. lia.
Qed.

Lemma atoi_negative s c : written_code s c -> (0 < c)%N ->
  (1000 <= as_uint (atoi ("-"%char :: s)))%N.
Proof.
  intros (x & y & z & -> & (Hx & Hy & Hz) & ->) P.
  destruct (digit_of x Hx) as (X1 & X2 & _).
  destruct (digit_of y Hy) as (Y1 & Y2 & _). destruct (digit_of z Hz) as (Z1 & Z2 & _).
  unfold atoi. cbn [skip_c_space]. change (is_c_space "-"%char) with false. cbv iota.
  change (beqb "-"%char "-"%char) with true. cbv iota.
  cbn [leading_digits]. rewrite X1, Y1, Z1, X2, Y2, Z2.
  unfold as_uint, as_int.
  replace (Z.max (- (((0 * 10 + Z.of_N x) * 10 + Z.of_N y) * 10 + Z.of_N z)) (-9223372036854775808))
    with (- Z.of_N (x * 100 + y * 10 + z)) by lia.
  rewrite (Z.mod_small (_ + _)) by lia.
  replace ((- Z.of_N (x * 100 + y * 10 + z) + 2147483648 - 2147483648) mod 4294967296)
    with (4294967296 - Z.of_N (x * 100 + y * 10 + z)); [lia|].
  apply Z.mod_unique with (q := -1); [left|]; lia.
Qed.

Lemma as_uint_index i : Z.of_N i < 2147483648 -> as_uint (Z.of_N i) = i.
Proof. intros H. unfold as_uint. rewrite Z.mod_small by lia. lia. Qed.

Lemma existsb_In c (l : bytes) : existsb (beqb c) l = true <-> In c l.
Proof.
  rewrite existsb_exists. split.
  - intros (x & Hx & E). apply beqb_eq in E. now subst.
  - intros H. exists c. split; [exact H|]. now apply beqb_eq.
Qed.

Lemma join_lines_spec ls :
  (Forall reply_line ls -> join_lines ls = Some (lines_text ls)) /\
  (~ Forall reply_line ls -> join_lines ls = None).
Proof.
  induction ls as [|l ls [IH1 IH2]].
  - split; [reflexivity|]. intros H. now destruct H.
  - split.
    + intros H. inversion H as [|? ? [Hl Hc] Hr]; subst. cbn [join_lines].
      replace (MAXREPLYLEN <? Z.of_nat (length l)) with false by (unfold MAXREPLYLEN, bytes in *; lia).
      destruct (existsb (beqb CR) l) eqn:E; [apply existsb_In in E; contradiction|].
      rewrite (IH1 Hr). destruct ls as [|l' ls]; cbn [lines_text]; [now rewrite app_nil_r|reflexivity].
    + intros H. cbn [join_lines].
      destruct (MAXREPLYLEN <? Z.of_nat (length l)) eqn:E1; [reflexivity|].
      destruct (existsb (beqb CR) l) eqn:E2; [reflexivity|].
      rewrite IH2; [reflexivity|]. intros F. apply H. constructor; [|exact F].
      split; [unfold MAXREPLYLEN, bytes in *; lia|]. intros C. apply existsb_In in C. unfold CR in E2. congruence.
Qed.

Lemma asks_meaning f ks : asks f ks -> index_fits f ->
  match ks with
  | [] => exists ok, smfi_meaning f = Returns ok
  | k :: ks' => ks' = [] /\ smfi_meaning f = Calls k
  end.
Proof.
  intros H Hi. destruct H; cbn [smfi_meaning]; try (split; reflexivity); cbn [index_fits] in Hi.
  - cbn [smfi_setreply]. rewrite (atoi_written _ _ H). auto.
  - unfold smfi_setmlreply. rewrite (proj1 (join_lines_spec ls) H0).
    destruct (lines_text ls) as [|b t] eqn:E; [contradiction|]. cbn [smfi_setreply].
    rewrite (atoi_written _ _ H). auto.
  - unfold smfi_setmlreply. rewrite (proj1 (join_lines_spec ls) H), H0. eauto.
  - unfold smfi_setmlreply. rewrite (proj2 (join_lines_spec ls) H). eauto.
  - rewrite as_uint_index by lia. auto.
  - rewrite as_uint_index by lia. auto.
  - split; [reflexivity|]. replace ((0 <=? Z.of_nat (length b)) && (Z.of_nat (length b) <=? Z.of_nat (length b))) with true by lia.
    rewrite Nat2Z.id, firstn_all. reflexivity.
  - eauto.
Qed.

Section Wire.
  Variable outcome : nat -> write_outcome.

  Lemma do_calls_app c ks ks' : do_calls outcome c (ks ++ ks') =
    let (c1, e1) := do_calls outcome c ks in
    let (c2, e2) := do_calls outcome c1 ks' in (c2, e1 ++ e2).
  Proof.
    revert c. induction ks as [|k ks IH]; intros c; cbn [app do_calls].
    - destruct (do_calls outcome c ks'). reflexivity.
    - destruct (do_call outcome c k) as [[ok c1] e1]. rewrite IH.
      destruct (do_calls outcome c1 ks) as [c2 e2]. destruct (do_calls outcome c2 ks') as [c3 e3].
      now rewrite <- app_assoc.
  Qed.

  (** The calls of a callback that has the filter's context. *)
  Lemma do_smfis_calls fs ks : ask_all fs ks -> forall c,
    exists evs, do_smfis outcome c OwnContext fs = (fst (do_calls outcome c ks), evs, true) /\
      sent evs = sent (snd (do_calls outcome c ks)).
  Proof.
    induction 1 as [|f fs ks ks' Hf Hi _ IH]; intros c.
    - exists []. auto.
    - cbn [do_smfis]. unfold do_smfi. pose proof (asks_meaning f ks Hf Hi) as M.
      destruct ks as [|k rest].
      + destruct M as [ok ->]. destruct (IH c) as (evs & E & S). rewrite E.
        eexists. split; [reflexivity|]. cbn [app]. exact S.
      + destruct M as [-> ->]. cbn [app do_calls].
        destruct (do_call outcome c k) as [[ok c1] e1]. destruct (IH c1) as (evs & E & S). rewrite E.
        destruct (do_calls outcome c1 ks') as [c2 e2]. cbn [fst snd] in *.
        eexists. split; [reflexivity|]. rewrite !sent_app, S, <- app_assoc. reflexivity.
  Qed.

  Lemma ask_all_app_inv fs fs' ks : ask_all (fs ++ fs') ks ->
    exists k1 k2, ks = k1 ++ k2 /\ ask_all fs k1 /\ ask_all fs' k2.
  Proof.
    revert ks. induction fs as [|f fs IH]; intros ks H.
    - exists [], ks. repeat split; [constructor|exact H].
    - cbn [app] in H. inversion H as [|? ? k k' Hf Hi Hr]; subst.
      destruct (IH _ Hr) as (k1 & k2 & -> & H1 & H2).
      exists (k ++ k1), k2. rewrite app_assoc. repeat split; [now constructor|exact H2].
  Qed.

  Lemma invoke_calls react c i ks : context_of i = OwnContext -> ask_all (r_calls (react i)) ks ->
    exists evs, invoke outcome react c i = (fst (do_calls outcome c ks), evs, true, r_return (react i)) /\
      sent evs = sent (snd (do_calls outcome c ks)).
  Proof.
    intros Hc H. unfold invoke. rewrite Hc. destruct (do_smfis_calls _ _ H c) as (evs & E & S).
    rewrite E. eauto.
  Qed.

  Lemma ask_all_app fs ks fs' ks' : ask_all fs ks -> ask_all fs' ks' -> ask_all (fs ++ fs') (ks ++ ks').
  Proof.
    induction 1 as [|f fs k ks Hf Hi _ IH]; intros H; [exact H|].
    cbn [app]. rewrite <- app_assoc. constructor; auto.
  Qed.

  Definition runs d react before c m (is : list invocation) v ks evs s :=
    called (d_has d) react (in_message_processing before) m is v /\
    ask_all (concat (map (fun i => r_calls (react i)) is)) ks /\
    run_handler outcome d react before c m = (is, fst (do_calls outcome c ks), evs, true, s) /\
    sent evs = sent (snd (do_calls outcome c ks)) /\
    (m <> CAbort -> s = option_map status_to v) /\
    ((s = None \/ exists u, s = Some (status_to u)) \/ s = Some S_DEFAULT).

  Lemma run_eom_runs react c is evs0 ks :
    ask_all (r_calls (react IEom)) ks ->
    exists evs, run_eom outcome react is c evs0 =
        (is ++ [IEom], fst (do_calls outcome c ks), evs0 ++ evs, true, Some (status_to (r_return (react IEom)))) /\
      sent evs = sent (snd (do_calls outcome c ks)).
  Proof.
    intros H. unfold run_eom. destruct (invoke_calls react c IEom ks eq_refl H) as (evs & E & S).
    rewrite E. eauto.
  Qed.

  (** The handler of a command does what [called] says. *)
  Lemma run_handler_runs d react before c m :
    m <> CQuit -> command_stage m <> None -> well_behaved react ->
    exists is v ks evs s, runs d react before c m is v ks evs s.
  Proof.
    intros Hq Hm [Hw Hn].
    assert (Null : forall f i, concerns m = Some (f, i) -> d_has d f = false ->
      run_handler outcome d react before c m = ([], c, [], true, None) ->
      exists is v ks evs s, runs d react before c m is v ks evs s).
    { intros f i C H E. exists [], None, [], [], None. repeat split; auto.
      - eapply cd_null; eauto.
      - constructor. }
    assert (One : forall f i, concerns m = Some (f, i) -> d_has d f = true -> context_of i = OwnContext ->
      (last_piece m = [] \/ d_has d FnBody = false) -> (m = CAbort -> in_message_processing before = true) ->
      run_handler outcome d react before c m =
        (let '(c1, evs, ok, v) := invoke outcome react c i in ([i], c1, evs, ok, Some (status_to v))) ->
      exists is v ks evs s, runs d react before c m is v ks evs s).
    { intros f i C H Hc Hp Ha E. destruct (Hw i) as [ks Hk].
      destruct (invoke_calls react c i ks Hc Hk) as (evs & E' & S). rewrite E' in E.
      exists [i], (Some (r_return (react i))), ks, evs, (Some (status_to (r_return (react i)))).
      repeat split; auto.
      - eapply cd_call; eauto.
      - cbn [map concat]. now rewrite app_nil_r.
      - left. right. eauto. }
    destruct m; try congruence; try (cbn in Hm; congruence);
      try (match goal with
           | C : context [concerns ?m] |- _ =>
               match eval cbn [concerns] in (concerns m) with
               | Some (?f, ?i) =>
                   destruct (d_has d f) eqn:E;
                   [apply (One f i); auto; [discriminate|]|apply (Null f i); auto];
                   cbn [run_handler plain_invocation]; rewrite E; reflexivity
               end
           end; fail).
    - (* negotiate *)
      destruct (d_has d FnNegotiate) eqn:E.
      + destruct (Hn (o_action o) (o_step o)) as (Hc & _).
        exists [INegotiate (o_action o) (o_step o)], (Some (r_return (react (INegotiate (o_action o) (o_step o))))), [], [],
          (Some (status_to (r_return (react (INegotiate (o_action o) (o_step o)))))).
        repeat split; auto.
        * eapply cd_call; [reflexivity|exact E|left; reflexivity|discriminate].
        * cbn [map concat]. rewrite Hc. constructor.
        * cbn [run_handler plain_invocation]. rewrite E. unfold invoke. rewrite Hc. reflexivity.
        * left. right. eauto.
      + eapply Null; [reflexivity|exact E|]. cbn [run_handler plain_invocation]. now rewrite E.
    - (* end of message *)
      destruct (d_has d FnEom) eqn:E; [|eapply Null; [reflexivity|exact E|]; cbn [run_handler]; now rewrite E].
      assert (Alone : last_piece (CEndOfMessage chunk) = [] \/ d_has d FnBody = false ->
        exists is v ks evs s, runs d react before c (CEndOfMessage chunk) is v ks evs s).
      { intros Hp. eapply One; [reflexivity|exact E|reflexivity|exact Hp|discriminate|].
        cbn [run_handler]. rewrite E. unfold run_eom.
        destruct chunk as [[|b0 b]|]; try (destruct (invoke outcome react c IEom) as [[[? ?] ?] ?]; reflexivity).
        destruct Hp as [Hp|Hp]; [discriminate Hp|]. rewrite Hp.
        destruct (invoke outcome react c IEom) as [[[? ?] ?] ?]; reflexivity. }
      destruct chunk as [[|b0 b]|]; try (apply Alone; left; reflexivity).
      destruct (d_has d FnBody) eqn:Eb; [|apply Alone; now right].
      destruct (Hw (IBody (b0 :: b))) as [ks1 Hk1].
      destruct (invoke_calls react c (IBody (b0 :: b)) ks1 eq_refl Hk1) as (evs1 & E1 & S1).
      destruct (is_final (r_return (react (IBody (b0 :: b))))) eqn:Ef.
      + exists [IBody (b0 :: b)], (Some (r_return (react (IBody (b0 :: b))))), ks1, evs1,
          (Some (status_to (r_return (react (IBody (b0 :: b)))))).
        repeat split; auto.
        * apply (cd_decided _ _ _ (CEndOfMessage (Some (b0 :: b)))); auto; [discriminate|]. now apply is_final_decisive.
        * cbn [map concat]. now rewrite app_nil_r.
        * cbn [run_handler]. rewrite E, Eb, E1, Ef. reflexivity.
        * left. right. eauto.
      + destruct (Hw IEom) as [ks2 Hk2].
        destruct (run_eom_runs react (fst (do_calls outcome c ks1)) [IBody (b0 :: b)] evs1 ks2 Hk2) as (evs2 & E2 & S2).
        exists [IBody (b0 :: b); IEom], (Some (r_return (react IEom))), (ks1 ++ ks2), (evs1 ++ evs2),
          (Some (status_to (r_return (react IEom)))).
        repeat split; auto.
        * apply (cd_piece _ _ _ (CEndOfMessage (Some (b0 :: b)))); auto; [discriminate|].
          intros H. apply is_final_decisive in H. cbn [last_piece] in H. congruence.
        * cbn [map concat]. rewrite app_nil_r. now apply ask_all_app.
        * cbn [run_handler]. rewrite E, Eb, E1, Ef. cbn [negb]. rewrite E2, do_calls_app.
          destruct (do_calls outcome c ks1) as [c1 e1]. cbn [fst].
          destruct (do_calls outcome c1 ks2) as [c2 e2]. reflexivity.
        * rewrite do_calls_app, sent_app, S1, S2.
          destruct (do_calls outcome c ks1) as [c1 e1]. cbn [fst snd].
          destruct (do_calls outcome c1 ks2) as [c2 e2]. cbn [snd]. now rewrite sent_app.
        * left. right. eauto.
    - (* abort *)
      destruct (d_has d FnAbort) eqn:E; [|eapply Null; [reflexivity|exact E|]; cbn [run_handler]; now rewrite E].
      destruct (in_message_processing before) eqn:Em.
      + eapply One; [reflexivity|exact E|reflexivity|left; reflexivity|auto|].
        cbn [run_handler]. rewrite E, Em. reflexivity.
      + exists [], None, [], [], (Some S_DEFAULT). repeat split; auto.
        * rewrite Em. now apply cd_no_message.
        * constructor.
        * cbn [run_handler]. now rewrite E, Em.
        * congruence.
  Qed.

  Lemma is_0_returned v : returned v = S_CONTINUE -> v = Some 0.
  Proof.
    destruct v as [v|]; [|discriminate]. rewrite <- status_to_returned. unfold status_to.
    destruct (Z.eqb_spec v 0) as [->|H0]; [reflexivity|].
    repeat (match goal with |- context [if ?b then _ else _] => destruct b end; [discriminate|]). discriminate.
  Qed.

  (** What was called determines the options stored. *)
  Lemma answered_option_spec d react b o is v :
    called (d_has d) react b (CNegotiate o) is v -> well_behaved react ->
    answered_option d react o = option_answer o react v.
  Proof.
    intros H [_ Hn]. destruct (Hn (o_action o) (o_step o)) as (_ & Ha & Hs). unfold answered_option.
    inversion H as [? C|? ? ? C E|? ? ? C E|? ?|? ? ? Hp|? ? ? Hp]; subst; try discriminate C.
    - injection C as <- <-. rewrite E. reflexivity.
    - injection C as <- <-. rewrite E. cbn [andb option_answer].
      unfold word in Ha, Hs.
      destruct (Z.eqb_spec (r_return (react (INegotiate (o_action o) (o_step o)))) 0) as [->|Hz].
      + rewrite !N.mod_small by assumption. reflexivity.
      + destruct (r_return _); [congruence|reflexivity|reflexivity].
    - cbn in Hp. congruence.
    - cbn in Hp. congruence.
  Qed.

  (** A command to a libmilter filter is a command to its context. *)
  Lemma lib_command_refines d react c m : well_behaved react ->
    exists is x c' evs evs',
      exchange_of (d_has d) (in_message_processing (cc_state c)) m react is x /\ x_command x = m /\
      lib_command outcome d (mk_lib c false true) m react = (mk_lib c' false true, is, evs) /\
      client_run outcome c (ops_of x) = (c', evs') /\ sent evs = sent evs'.
  Proof.
    intros Hw.
    assert (D : m = CQuit \/ (exists x t, m = CDefineMacro x t) \/ (m <> CQuit /\ command_stage m <> None))
      by (destruct m; auto; try (right; right; split; discriminate); right; left; eauto).
    destruct D as [->|[(x & t & ->)|[Hq Hs]]].
    - exists [], (XNow CQuit [] (mk_option 0 0 0) [] S_DEFAULT). do 3 eexists. split; [|split; [|split; [|split]]].
      + apply (exchange_is _ _ _ _ _ None); [constructor; reflexivity|constructor|reflexivity|discriminate|exact I].
      + reflexivity.
      + cbn [lib_command l_client l_closed]. reflexivity.
      + cbn [ops_of client_run client_step]. reflexivity.
      + reflexivity.
    - exists [], (XNow (CDefineMacro x t) [] (mk_option 0 0 0) [] S_DEFAULT). do 3 eexists. split; [|split; [|split; [|split]]].
      + apply (exchange_is _ _ _ _ _ None); [constructor; reflexivity|constructor|reflexivity|discriminate|exact I].
      + reflexivity.
      + cbn [lib_command l_client l_closed command_stage]. reflexivity.
      + cbn [ops_of client_run client_step command_stage do_calls]. reflexivity.
      + reflexivity.
    - destruct (run_handler_runs d react (cc_state c) (receive_command c m) m Hq Hs Hw)
        as (is & v & ks & evs & s & Hc & Hk & E & S & Hv & Hs').
      pose (o := match m with CNegotiate o => answered_option d react o | _ => mk_option 0 0 0 end).
      pose (x := XNow m ks o [] (signal_status m s)).
      assert (Hp : signal_status m s <> S_PROGRESS) by (now apply signal_status_not_progress).
      exists is, x.
      destruct (command_stage m) as [t|] eqn:Et; [|congruence].
      pose (c2 := fst (do_calls outcome (receive_command c m) ks)).
      pose (c3 := match m with CAbort => reset_message_related_data c2 | _ => c2 end).
      exists (fst (respond outcome c3 t o [] (signal_status m s))),
        (evs ++ snd (respond outcome c3 t o [] (signal_status m s))),
        (snd (do_calls outcome (receive_command c m) ks) ++ snd (respond outcome c3 t o [] (signal_status m s))).
      split; [|split; [|split; [|split]]].
      + unfold x. eapply exchange_is; eauto.
        * intros Ha. rewrite (Hv Ha). now apply signal_status_plain.
        * destruct m; try exact I. unfold o. eapply answered_option_spec; eauto.
      + reflexivity.
      + unfold lib_command. cbn [l_client l_closed]. rewrite Et.
        replace (match m with CQuit => _ | _ => _ end) with
          (let '(is, c2, evs, ok, s) := run_handler outcome d react (cc_state c) (receive_command c m) m in
            if ok then
              let c3 := match m with CAbort => reset_message_related_data c2 | _ => c2 end in
              let s := signal_status m s in
              match s with
              | S_PROGRESS => (mk_lib c3 false true, is, evs)
              | _ => let (c4, evs') := respond outcome c3 t o [] s in (mk_lib c4 false true, is, evs ++ evs')
              end
            else (mk_lib c2 false false, is, evs)) by (unfold o; destruct m; try reflexivity; congruence).
        rewrite E. cbv zeta. fold c2. fold c3.
        destruct (respond outcome c3 t o [] (signal_status m s)) as [c4 e4]. cbn [fst snd].
        destruct (signal_status m s); try reflexivity. congruence.
      + unfold x. cbn [ops_of client_run].
        replace (client_step outcome c (OpCommand m ks o [] (signal_status m s))) with
          (let (c2, evs) := do_calls outcome (receive_command c m) ks in
           let c3 := match m with CAbort => reset_message_related_data c2 | _ => c2 end in
           match signal_status m s with
           | S_PROGRESS => (c3, evs)
           | _ => let (c4, evs') := respond outcome c3 t o [] (signal_status m s) in (c4, evs ++ evs')
           end).
        * unfold c3, c2 in *.
          destruct (do_calls outcome (receive_command c m) ks) as [c2' e2]. cbn [fst snd].
          destruct (respond outcome _ t o [] (signal_status m s)) as [c4 e4]. cbn [fst snd].
          destruct (signal_status m s); try congruence; cbv beta iota; now rewrite app_nil_r.
        * cbn [client_step]. rewrite Et. destruct m; try reflexivity; congruence.
      + rewrite !sent_app. now rewrite S.
  Qed.

  Definition commands (l : list (command * (invocation -> reaction))) : list lib_op :=
    map (fun p => LCommand (fst p) (snd p)) l.

  Lemma lib_run_refines d l : Forall (fun p => well_behaved (snd p)) l -> forall c,
    exists is xs c' evs evs',
      session_of (d_has d) l is xs /\ map x_command xs = map fst l /\
      lib_run outcome d (mk_lib c false true) (commands l) = (mk_lib c' false true, is, evs) /\
      client_run outcome c (concat (map ops_of xs)) = (c', evs') /\ sent evs = sent evs'.
  Proof.
    induction 1 as [|[m react] l Hw _ IH]; intros c.
    - exists [], [], c, [], []. repeat split; auto; constructor.
    - destruct (lib_command_refines d react c m Hw) as (is & x & c1 & evs & evs' & X & Xm & E & E' & S).
      destruct (IH c1) as (is2 & xs & c2 & evs2 & evs2' & X2 & Xm2 & E2 & E2' & S2).
      exists (is ++ is2), (x :: xs), c2, (evs ++ evs2), (evs' ++ evs2'). repeat split.
      + econstructor; eauto.
      + cbn [map fst]. now rewrite Xm, Xm2.
      + cbn [commands map lib_run]. unfold lib_step at 1. cbn [l_defined fst snd]. rewrite E.
        fold (commands l). rewrite E2. reflexivity.
      + cbn [map concat]. rewrite client_run_app, E', E2'. reflexivity.
      + rewrite !sent_app. now rewrite S, S2.
  Qed.

  (** *** The state of the context *)
  Lemma do_reply_state c s : cc_state (fst (do_reply outcome c s)) = cc_state c.
  Proof.
    unfold do_reply. destruct (create_reply_packet c s) as [p c1] eqn:E.
    destruct (create_reply_told _ _ _ _ E) as [_ H2]. assert (H3 : cc_state c1 = cc_state c) by apply H2.
    destruct p as [b|]; [|exact H3].
    pose proof (write_packet_quietly outcome c1 b) as (_ & W2 & _).
    destruct (write_packet outcome c1 b) as [[ok c2] evs2]. cbn in *. destruct W2 as (W2 & _). congruence.
  Qed.

  Lemma reply_on_end_of_message_state c s :
    cc_state (fst (reply_on_end_of_message outcome c s)) = cc_state c.
  Proof.
    unfold reply_on_end_of_message. pose proof (flush_quietly outcome c) as (_ & F2 & _).
    destruct (flush outcome c) as [[ok c1] evs1]. cbn [fst snd] in *. destruct F2 as (F2 & _).
    destruct ok; cbn [negb]; [|exact F2].
    destruct (create_reply_packet c1 s) as [p c2] eqn:E. destruct (create_reply_told _ _ _ _ E) as [_ H2].
    destruct H2 as (H2 & _).
    destruct p as [b|]; [|cbn; congruence].
    assert (Hq : exists b' c3, match cc_quarantine c2 with
                       | None => (b, c2)
                       | Some r => let (q, c3) := encode c2 (EQuarantine r) in
                                   ((match q with Some q => q | None => [] end) ++ b, c3)
                       end = (b', c3) /\ cc_state c3 = cc_state c2).
    { destruct (cc_quarantine c2) as [r|]; [|do 2 eexists; repeat split].
      destruct (encode c2 (EQuarantine r)) as [q c3] eqn:Eq. destruct (encode_told _ _ _ _ Eq) as [_ Q2].
      do 2 eexists. split; [reflexivity|]. apply Q2. }
    destruct Hq as (b' & c3 & -> & Q1).
    pose proof (write_packet_quietly outcome c3 b') as (_ & W2 & _).
    destruct (write_packet outcome c3 b') as [[ok' c4] evs4]. cbn in *. destruct W2 as (W2 & _). congruence.
  Qed.

  Lemma respond_state c t o q s : t <> TQuit -> cc_state (fst (respond outcome c t o q s)) = Replied t.
  Proof.
    intros Ht.
    assert (plain : forall t0, cc_state (fst (plain_response outcome c t0 s)) = Replied t0).
    { intros t0. unfold plain_response. rewrite do_reply_state. reflexivity. }
    destruct t; cbn [respond]; auto; try congruence.
    - unfold negotiate_response.
      assert (send : forall c0, cc_state c0 = Replied TNegotiate ->
                cc_state (fst (match negotiate_packet c0 q with
                | Some p => let '(_, c1, evs) := write_packet outcome (with_encoder c0 p) p in (c1, evs)
                | None => (c0, [EvCrash])
                end)) = Replied TNegotiate).
      { intros c0 H. destruct (negotiate_packet c0 q) as [p|]; [|exact H].
        pose proof (write_packet_quietly outcome (with_encoder c0 p) p) as (_ & W2 & _).
        destruct (write_packet outcome (with_encoder c0 p) p) as [[ok c1] evs1]. cbn in *.
        destruct W2 as (W2 & _). cbn in W2. congruence. }
      destruct (match s with S_DEFAULT => S_ALL_OPTIONS | _ => s end) eqn:Es; try reflexivity; try (apply send; reflexivity).
      destruct (encode (with_state (with_status c S_REJECT) (Replied TNegotiate)) EReject) as [p c1] eqn:E.
      destruct (encode_told _ _ _ _ E) as [_ H2]. destruct H2 as (H2 & _). cbn in H2.
      destruct p as [p|]; [|exact H2].
      pose proof (write_packet_quietly outcome c1 p) as (_ & W2 & _).
      destruct (write_packet outcome c1 p) as [[ok c2] evs1]. cbn in *. destruct W2 as (W2 & _). congruence.
    - unfold end_of_message_response.
      match goal with |- context [reply_on_end_of_message outcome ?a ?b] =>
        pose proof (reply_on_end_of_message_state a b) as H;
        destruct (reply_on_end_of_message outcome a b) as [c1 evs1] end.
      cbn in H. destruct (cc_message c1); exact H.
  Qed.

  Lemma step_state c m ks o q s c' evs : s <> S_PROGRESS ->
    client_step outcome c (OpCommand m ks o q s) = (c', evs) ->
    match command_stage m with
    | Some TQuit => True
    | Some t => cc_state c' = Replied t
    | None => cc_state c' = cc_state c
    end.
  Proof.
    intros Hs H.
    destruct (command_stage m) as [t|] eqn:Et.
    - assert (D : t = TQuit \/ t <> TQuit) by (destruct t; auto; right; discriminate).
      destruct D as [->|Hq]; [exact I|].
      assert (E : cc_state c' = Replied t); [|destruct t; auto].
      assert (E : exists c3, c' = fst (respond outcome c3 t o q s)).
      { cbn [client_step] in H. rewrite Et in H.
        destruct m; try discriminate Et; try (injection Et as <-; congruence);
          destruct (do_calls outcome (receive_command c _) ks) as [c2 e2]; cbv zeta in H;
          match type of H with context [respond outcome ?c3 t o q s] => exists c3;
            destruct (respond outcome c3 t o q s) as [c4 e4] end;
          destruct s; try congruence; injection H as <- _; reflexivity. }
      destruct E as [c3 ->]. now apply respond_state.
    - destruct m; try discriminate Et. cbn [client_step command_stage] in H.
      destruct (do_calls outcome (receive_command c (CDefineMacro context macros)) ks) as [c2 e2] eqn:E.
      injection H as <- <-. destruct (do_calls_facts _ _ _ _ _ E) as (_ & (K & _) & _). exact K.
  Qed.

  Definition open_state (m : command) (b : bool) : bool :=
    match command_stage m with
    | Some t => in_message_processing (Replied t)
    | None => b
    end.

  (** In an ordered session the context's state tells whether a message is being handled. *)
  Lemma lib_run_calls d l : Forall (fun p => well_behaved (snd p)) l -> forall now c,
    ordered now (map fst l) -> in_message_processing (cc_state c) = now ->
    exists is c' evs,
      calls_of (d_has d) now l is /\
      lib_run outcome d (mk_lib c false true) (commands l) = (mk_lib c' false true, is, evs).
  Proof.
    induction 1 as [|[m react] l Hw _ IH]; intros now c Ho Hc.
    - exists [], c, []. split; [constructor|reflexivity].
    - destruct (lib_command_refines d react c m Hw) as (is & x & c1 & evs & evs' & X & Xm & E & E' & S).
      cbn [map fst] in Ho.
      assert (Hn : l = [] \/ (ordered (message_open now m) (map fst l) /\
                 m <> CQuit /\ open_state m now = message_open now m)).
      { inversion Ho as [|? ? Hm Hr|? ? ? Hr|? ? Hm Hr|? ? ? Hm Hr|? ? ? ? Hr|?]; subst.
        all: try (left; destruct l; [reflexivity|discriminate]).
        all: right; try (match goal with H : match ?m with _ => _ end |- _ => destruct m; try contradiction end);
          repeat split; auto; discriminate. }
      destruct Hn as [->|[Ho' [Hq Hs]]].
      + exists (is ++ []), c1, (evs ++ []). split.
        * destruct X as [m react is v ks answer s Hcd]. econstructor; [rewrite <- Hc; exact Hcd|constructor].
        * cbn [commands map lib_run]. unfold lib_step. cbn [l_defined fst snd]. rewrite E. reflexivity.
      + assert (Hc1 : in_message_processing (cc_state c1) = message_open now m).
        { destruct X as [m react is v ks answer s Hcd _ _ Hp _]. cbn [ops_of client_run] in E'.
          destruct (client_step outcome c (OpCommand m ks answer [] s)) as [c1' e1] eqn:Ec. injection E' as <- _.
          pose proof (step_state _ _ _ _ _ _ _ _ Hp Ec) as St.
          unfold open_state in Hs. destruct (command_stage m) as [t|] eqn:Et; [|congruence].
          destruct t; try (now rewrite St). destruct m; try discriminate Et. congruence. }
        destruct (IH _ c1 Ho' Hc1) as (is2 & c2 & evs2 & C2 & E2).
        exists (is ++ is2), c2, (evs ++ evs2). split.
        * destruct X as [m react is v ks answer s Hcd]. econstructor; [rewrite <- Hc; exact Hcd|exact C2].
        * cbn [commands map lib_run]. unfold lib_step at 1. cbn [l_defined fst snd]. rewrite E.
          fold (commands l). rewrite E2. reflexivity.
  Qed.

  (** *** Closing *)
  Definition is_close (i : invocation) : bool := match i with IClose => true | _ => false end.

  Lemma handler_no_close d react before c m is c' evs ok s :
    run_handler outcome d react before c m = (is, c', evs, ok, s) -> times is_close is = 0%nat.
  Proof.
    unfold run_handler, run_eom.
    destruct m; cbn [plain_invocation];
      repeat match goal with
      | |- context [if ?b then _ else _] => destruct b
      | |- context [match ?x with Some _ => _ | None => _ end] => destruct x
      | |- context [match ?x with [] => _ | _ :: _ => _ end] => destruct x
      | |- context [invoke outcome react ?c ?i] => destruct (invoke outcome react c i) as [[[? ?] ?] ?]
      end; intros H; injection H; intros; subst; reflexivity.
  Qed.

  Lemma command_no_close d l m react l' is evs :
    lib_command outcome d l m react = (l', is, evs) ->
    times is_close is = 0%nat /\ l_closed l' = l_closed l /\ (l_closed l = true -> is = []).
  Proof.
    unfold lib_command. intros H.
    assert (G : forall t (b : bool) x, x = (if l_closed l then ([], receive_command (l_client l) m, [], true, None)
        else run_handler outcome d react (cc_state (l_client l)) (receive_command (l_client l) m) m) ->
      (let '(is, c2, evs, ok, s) := x in
       if ok : bool then
         let c3 := match m with CAbort => reset_message_related_data c2 | _ => c2 end in
         let s := signal_status m s in
         let o := match m with
                       | CNegotiate o => if l_closed l then o else answered_option d react o
                       | _ => mk_option 0 0 0
                       end in
         match s with
         | S_PROGRESS => (mk_lib c3 (l_closed l) true, is, evs)
         | _ => let (c4, evs') := respond outcome c3 t o [] s in (mk_lib c4 (l_closed l) true, is, evs ++ evs')
         end
       else (mk_lib c2 (l_closed l) false, is, evs)) = (l', is, evs) ->
      times is_close is = 0%nat /\ l_closed l' = l_closed l /\ (l_closed l = true -> is = [])).
    { intros t b x Hx. destruct x as [[[[is0 c2] evs0] ok] s].
      assert (T : times is_close is0 = 0%nat /\ (l_closed l = true -> is0 = [])).
      { destruct (l_closed l); [injection Hx as -> _ _ _ _; auto|].
        split; [eapply handler_no_close; symmetry; exact Hx|discriminate]. }
      destruct T as [T1 T2].
      destruct ok; [|intros E; injection E as <- <- <-; auto]. cbv zeta.
      match goal with |- context [respond outcome ?c3 t ?o [] ?s] =>
        destruct (respond outcome c3 t o [] s) as [c4 e4] end.
      destruct (signal_status m s); intros E; injection E as <- <- <-; auto. }
    destruct (command_stage m) as [t|] eqn:Et.
    - destruct m; try discriminate Et; try (eapply (G t true); [reflexivity|exact H]).
      injection H as <- <- <-. auto.
    - destruct m; try discriminate Et. injection H as <- <- <-. auto.
  Qed.

  (** xxfi_close is the last callback, and is called once at most. *)
  Lemma lib_run_close d ops : forall l l' is evs, lib_run outcome d l ops = (l', is, evs) ->
    (l_closed l = true -> is = []) /\
    exists is', times is_close is' = 0%nat /\ (is = is' \/ is = is' ++ [IClose]).
  Proof.
    induction ops as [|op ops IH]; intros l l' is evs H; cbn [lib_run] in H.
    - injection H as <- <- <-. split; [auto|]. exists []. auto.
    - destruct (lib_step outcome d l op) as [[l1 is1] evs1] eqn:E1.
      destruct (lib_run outcome d l1 ops) as [[l2 is2] evs2] eqn:E2. injection H as <- <- <-.
      destruct (IH _ _ _ _ E2) as [I1 (is' & I2 & I3)].
      unfold lib_step in E1. destruct (l_defined l).
      + destruct op as [m react|react].
        * destruct (command_no_close _ _ _ _ _ _ _ E1) as (C1 & C2 & C3).
          split.
          -- intros Hc. rewrite (C3 Hc), I1; [reflexivity|congruence].
          -- exists (is1 ++ is'). split.
             ++ unfold times in *. rewrite filter_app, app_length. lia.
             ++ destruct I3 as [-> | ->]; [auto|right; apply app_assoc].
        * unfold lib_finish in E1. destruct (l_closed l) eqn:Ec.
          -- injection E1 as <- <- <-. cbn [l_closed] in I1. rewrite (I1 eq_refl). split; [auto|].
             exists []. auto.
          -- destruct (d_has d FnClose).
             ++ destruct (invoke outcome react (l_client l) IClose) as [[[c1 e1] ok] v].
                injection E1 as <- <- <-. cbn [l_closed] in I1. rewrite (I1 eq_refl). split; [discriminate|].
                exists []. auto.
             ++ injection E1 as <- <- <-. cbn [l_closed] in I1. rewrite (I1 eq_refl). split; [discriminate|].
                exists []. auto.
      + injection E1 as <- <- <-. cbn [app]. split; [exact I1|]. eauto.
  Qed.
End Wire.
