(** C104: when the breaker says that the system is under stress. *)
From Verif.Base Require Import Bytes BytesFacts.
From Verif.Model Require Import PostfixTable Netstat Breaker.
From Verif.Spec Require Import PostfixSpec NetstatSpec BreakerSpec ConnectionSpecSpec.
From Verif.Proofs Require Import PostfixProofs NetstatProofs BreakerProofs.
Import List.
Local Open Scope N_scope.

Definition occurs (x b : bytes) : Prop := exists u t, b = u ++ x ++ t.
(** The list of processes shows Postfix: "master" and, in any case of letters, "postfix" on one line. *)
Definition shows_postfix (lines : list bytes) : Prop :=
  exists l, In l lines /\ occurs (lit "master") l /\ occurs (lit "postfix") (map lower l).
Definition listing (lines : list bytes) : bytes := concat (map (fun l => l ++ [byte_of 10]) lines).
(** A limit as Postfix has it: digits, and their value. *)
Definition limit_text (t : bytes) (n : N) : Prop := t <> [] /\ Forall digit_char t /\ ConnectionSpecSpec.number t = n.

(** The process limit in force for the service smtp: its own, or the default. *)
Inductive smtp_limit (kvs : list (bytes * bytes)) (ss : list service) (n : N) : Prop :=
| own_limit s : first_named ss (lit "smtp") s -> limit_text (sv_maxproc s) n -> smtp_limit kvs ss n
| default_limit t : (exists s, first_named ss (lit "smtp") s /\ sv_maxproc s = lit "-") \/
    Forall (fun s => sv_name s <> lit "smtp") ss ->
    assigned kvs (lit "default_process_limit") t -> limit_text t n -> smtp_limit kvs ss n.

(** Postfix as it is found on a computer. *)
Record postfix_installed (m : machine) (kvs : list (bytes * bytes)) (ss : list service) : Prop := {
  processes : exists lines, Forall one_line lines /\ mc_processes m = listing lines /\ shows_postfix lines;
  settings : exists out, mc_run m (lit "postconf") = Output out /\ postconf_lists kvs out;
  limit_known : exists t, assigned kvs (lit "default_process_limit") t;
  services : exists d content, assigned kvs (lit "config_directory") d /\
    (forall d', d <> d' ++ lit "/") /\ mc_file m (d ++ lit "/master.cf") = Some content /\ master_lists ss content }.

Lemma physical_listing lines : Forall one_line lines -> physical (listing lines) = map (fun l => l ++ [byte_of 10]) lines.
Proof.
  induction 1 as [|l lines H F IH]; [reflexivity|]. unfold listing in *. cbn [map concat].
  rewrite <- app_assoc. cbn [app]. rewrite physical_line by exact H. rewrite IH. reflexivity.
Qed.
Lemma postfix_found m kvs ss : postfix_installed m kvs ss -> is_postfix m = true.
Proof.
  intros [(lines & F & E & (l & I & A & B)) _ _ _]. unfold is_postfix. rewrite E, physical_listing by exact F.
  apply existsb_exists. exists (l ++ [byte_of 10]). split; [apply in_map_iff; eauto|].
  apply andb_true_intro. split; apply contains_iff.
  - destruct A as (u & t & ->). exists u, (t ++ [byte_of 10]). rewrite <- !app_assoc. reflexivity.
  - rewrite map_app. destruct B as (u & t & ->). exists u, (t ++ map lower [byte_of 10]). rewrite <- !app_assoc. reflexivity.
Qed.
Lemma master_path_plain d : (forall d', d <> d' ++ lit "/") -> master_path d = d ++ lit "/master.cf".
Proof.
  intros H. destruct d as [|c d]; [reflexivity|]. unfold master_path.
  destruct (beqb (last (c :: d) NUL) "/") eqn:E; [|reflexivity]. apply beqb_eq in E. exfalso.
  apply (H (removelast (c :: d))).
  rewrite (app_removelast_last NUL (l := c :: d)) at 1 by discriminate. rewrite E. reflexivity.
Qed.

(** The threshold is three quarters of the limit, and is not looked for again; the system is under
    stress if and only if there is such a threshold and it is reached. *)
Theorem C104_stress : forall m kvs ss limit n, postfix_installed m kvs ss -> smtp_limit kvs ss limit ->
  let t := 3 * limit / 4 in
  exists b, stressing m new_breaker n = (b, Gives (negb (t =? 0) && (t <=? n))) /\
  forall m' n', stressing m' b n' = (b, Gives (negb (t =? 0) && (t <=? n'))).
Proof.
  intros m kvs ss limit n I L t. exists (mk_breaker (Some (Z.of_N t))).
  assert (G : detect_threshold m = Gives (Z.of_N t)).
  { unfold detect_threshold. rewrite (postfix_found _ _ _ I). unfold postfix_threshold.
    destruct I as [_ (out & R & P) (t0 & A0) (d & content & D & S & F & M)].
    assert (Q : process_limit m = Gives (Z.of_N limit)).
    { unfold process_limit, postfix_postconf. rewrite R.
      destruct L as [s Fs (N & T & V)|t1 W A1 (N & T & V)].
      - rewrite (read_postconf_spec kvs out d t0 P D A0). cbn [fd_directory fd_default].
        rewrite (master_path_plain d S), F, (master_limit_spec ss content M), (find_first _ _ _ Fs).
        destruct (bytes_eqb (sv_maxproc s) (lit "-")) eqn:E.
        + exfalso. apply bytes_eqb_eq in E. rewrite E in T. inversion T as [|? ? [H _] _]. vm_compute in H. congruence.
        + cbn [some_or]. rewrite (to_i_number _ N T), V. reflexivity.
      - rewrite (read_postconf_spec kvs out d t1 P D A1). cbn [fd_directory fd_default].
        rewrite (master_path_plain d S), F, (master_limit_spec ss content M).
        assert (Z0 : match find (fun s => bytes_eqb (sv_name s) (lit "smtp")) ss with
                     | Some s => if bytes_eqb (sv_maxproc s) (lit "-") then None else Some (to_i (sv_maxproc s))
                     | None => None end = None).
        { destruct W as [(s & Fs & E)|W]; [rewrite (find_first _ _ _ Fs), E; reflexivity|rewrite (find_no _ _ W); reflexivity]. }
        rewrite Z0. cbn [some_or]. rewrite (to_i_number _ N T), V. reflexivity. }
    rewrite Q. f_equal. unfold t. rewrite Z.quot_div_nonneg by lia. rewrite N2Z.inj_div, N2Z.inj_mul. reflexivity. }
  assert (C : forall k, (if (Z.of_N t =? 0)%Z then false else (Z.of_N t <=? Z.of_N k)%Z) = negb (t =? 0) && (t <=? k)).
  { intros k. destruct (N.eqb_spec t 0) as [E|E].
    - rewrite E. reflexivity.
    - destruct (Z.eqb_spec (Z.of_N t) 0) as [E'|E']; [lia|]. cbn [negb andb].
      destruct (N.leb_spec t k); [apply Z.leb_le|apply Z.leb_gt]; lia. }
  split.
  - unfold stressing, threshold. cbn [new_breaker bk_threshold]. rewrite G, C. reflexivity.
  - intros m' n'. unfold stressing, threshold. cbn [bk_threshold]. rewrite C. reflexivity.
Qed.
Print Assumptions C104_stress.
(** Without Postfix there is no threshold, and a threshold that was set counts. *)
Theorem C104_no_postfix : forall m lines n, Forall one_line lines -> mc_processes m = listing lines ->
  ~ shows_postfix lines -> stressing m new_breaker n = (mk_breaker (Some 0%Z), Gives false).
Proof.
  intros m lines n F E H. unfold stressing, threshold, detect_threshold. cbn [new_breaker bk_threshold].
  assert (G : is_postfix m = false).
  { apply not_true_is_false. intros K. apply H. unfold is_postfix in K. rewrite E, physical_listing in K by exact F.
    apply existsb_exists in K. destruct K as (l & I & K). apply in_map_iff in I. destruct I as (l0 & <- & I).
    apply andb_prop in K. destruct K as [A B]. apply contains_iff in A, B. exists l0. split; [exact I|].
    assert (T : forall x b c, (forall y z, x <> y ++ c :: z) -> occurs x (b ++ [c]) -> x <> [] -> occurs x b).
    { clear. intros x b c N (u & t & E) Nx. destruct t as [|d t] using rev_ind.
      - exfalso. rewrite app_nil_r in E. destruct x as [|y x] using rev_ind; [congruence|].
        rewrite app_assoc in E. apply app_inj_tail in E. destruct E as [_ <-]. exact (N x [] eq_refl).
      - rewrite !app_assoc in E. apply app_inj_tail in E. destruct E as [-> _]. exists u, t. rewrite <- app_assoc. reflexivity. }
    rewrite map_app in B. split; [eapply (T _ _ _ _ A)|eapply (T _ _ _ _ B)]; discriminate. }
  rewrite G. reflexivity.
  Unshelve.
  all: intros y z K; assert (J : In (byte_of 10) (y ++ byte_of 10 :: z)) by (rewrite in_app_iff; right; left; reflexivity).
  1: rewrite <- K in J; cbn in J; repeat (destruct J as [J|J]; [discriminate|]); exact J.
  assert (J' : In (lower (byte_of 10)) (y ++ lower (byte_of 10) :: z)) by (rewrite in_app_iff; right; left; reflexivity).
  rewrite <- K in J'. cbn in J'; repeat (destruct J' as [J'|J']; [discriminate|]); exact J'.
Qed.
Print Assumptions C104_no_postfix.
Theorem C104_given : forall m t n, (0 < t)%N ->
  stressing m (set_threshold new_breaker (Some (Z.of_N t))) n = (mk_breaker (Some (Z.of_N t)), Gives (t <=? n)).
Proof.
  intros m t n H. unfold stressing, threshold, set_threshold. cbn [bk_threshold].
  destruct (Z.eqb_spec (Z.of_N t) 0) as [E|E]; [lia|]. f_equal. f_equal.
  destruct (N.leb_spec t n); [apply Z.leb_le|apply Z.leb_gt]; lia.
Qed.
Print Assumptions C104_given.

(** An installation. *)
Definition postconf_out (limit : bytes) : bytes :=
  lit "config_directory" ++ lit " = " ++ lit "/etc/postfix" ++ byte_of 10 ::
  lit "default_process_limit" ++ lit " = " ++ limit ++ byte_of 10 ::
  lit "relayhost" ++ lit " = " ++ byte_of 10 :: [].
Definition install (limit master : bytes) : machine :=
  mk_machine (listing [lit " 1200 ? Ss 0:01 /usr/lib/Postfix/sbin/master -w"]) []
    (fun c => if bytes_eqb c (lit "postconf") then Output (postconf_out limit) else CannotRun)
    (fun _ => false)
    (fun p => if bytes_eqb p (lit "/etc/postfix/master.cf") then Some master else None).
Definition master_text (lines : list bytes) : bytes := listing lines.
Example C104_example :
  stressing (install (lit "100") (master_text [lit "# service"; lit "smtp inet n - - - 40 smtpd"])) new_breaker 30
    = (mk_breaker (Some 30%Z), Gives true) /\
  stressing (install (lit "100") (master_text [lit "# service"; lit "smtp inet n - - - - smtpd"; lit "  -o x=y"])) new_breaker 74
    = (mk_breaker (Some 75%Z), Gives false).
Proof. vm_compute. auto. Qed.
Definition sample_service := mk_service (lit "smtp") (lit "inet") (lit "40").
Definition sample_machine := install (lit "100") (master_text [lit "# service"; lit "smtp inet n - - - 40 smtpd"]).
Ltac col' := split; [discriminate|repeat (apply Forall_cons; [right; split; [reflexivity|discriminate]|]); apply Forall_nil].
Ltac not_in' := let H := fresh in intros H; cbn in H; repeat (destruct H as [H|H]; [discriminate|]); exact H.
Example C104_installed : postfix_installed sample_machine
  [(lit "config_directory", lit "/etc/postfix"); (lit "default_process_limit", lit "100")] [sample_service] /\
  smtp_limit [(lit "config_directory", lit "/etc/postfix"); (lit "default_process_limit", lit "100")] [sample_service] 40.
Proof.
  split.
  - split.
    + exists [lit " 1200 ? Ss 0:01 /usr/lib/Postfix/sbin/master -w"]. split; [repeat constructor; not_in'|]. split; [reflexivity|].
      eexists. split; [left; reflexivity|]. split.
      * exists (lit " 1200 ? Ss 0:01 /usr/lib/Postfix/sbin/"), (lit " -w"). reflexivity.
      * exists (lit " 1200 ? ss 0:01 /usr/lib/"), (lit "/sbin/master -w"). reflexivity.
    + exists (postconf_out (lit "100")). split; [reflexivity|].
      assert (W : forall k, forallb (fun c => is_word c) k = true -> Forall name_char k).
      { intros k H. apply Forall_forall. intros c I. rewrite forallb_forall in H. apply H in I. unfold is_word, is_digit in I.
        rewrite !orb_true_iff, !andb_true_iff, !N.leb_le, beqb_eq in I. unfold name_char.
        destruct I as [[[I|I]|I]|I]; auto. subst. right. right. right. reflexivity. }
      apply one_setting; [discriminate|apply W; reflexivity|split; [not_in'|eexists _, _; split; [reflexivity|reflexivity]]|].
      apply one_setting; [discriminate|apply W; reflexivity|split; [not_in'|eexists _, _; split; [reflexivity|reflexivity]]|].
      apply empty_setting; [discriminate|apply W; reflexivity|discriminate|discriminate|]. constructor.
    + exists (lit "100"), [(lit "config_directory", lit "/etc/postfix")], []. split; [reflexivity|constructor].
    + eexists (lit "/etc/postfix"), _. split; [exists [], [(lit "default_process_limit", lit "100")]; split; [reflexivity|repeat constructor; discriminate]|].
      split; [|split; [reflexivity|]].
      { intros d' E. apply (f_equal (@rev ascii)) in E. rewrite rev_app_distr in E. discriminate. }
      apply (comment _ (lit " service")); [not_in'|].
      apply (one_service sample_service [] (lit "smtp inet n - - - 40 smtpd")); [|constructor].
      exists (lit "n"), (lit "-"), (lit "-"), (lit "-"), (lit " "), (lit " "), (lit " "), (lit " "), (lit " "), (lit " "), (lit " "), (lit "smtpd").
      split; [repeat (apply Forall_cons; [col'|]); apply Forall_nil|].
      split; [repeat (apply Forall_cons; [split; [discriminate|repeat constructor]|]); apply Forall_nil|].
      split; [not_in'|]. split; [intros t; discriminate|reflexivity].
  - apply (own_limit _ _ _ sample_service).
    + exists [], []. split; [reflexivity|]. split; [reflexivity|constructor].
    + split; [discriminate|]. split; [|reflexivity]. apply Forall_forall. intros c I. cbn in I.
      destruct I as [<-|[<-|[]]]; split; vm_compute; discriminate.
Qed.

(** A limit of one process, as for postscreen, is no limit. *)
Theorem C104_one_refuted : ~ (forall limit master l n, limit_text l limit -> 0 < limit ->
  master = master_text [lit "smtp inet n - - - " ++ l ++ lit " postscreen"] -> limit <= n ->
  snd (stressing (install (lit "100") master) new_breaker n) = Gives true).
Proof.
  intros H. specialize (H 1 (master_text [lit "smtp inet n - - - " ++ lit "1" ++ lit " postscreen"]) (lit "1") 1000).
  assert (G : limit_text (lit "1") 1).
  { split; [discriminate|]. split; [|reflexivity]. repeat constructor; vm_compute; discriminate. }
  specialize (H G ltac:(reflexivity) eq_refl ltac:(discriminate)). vm_compute in H. discriminate.
Qed.
Print Assumptions C104_one_refuted.
(** The service that sends mail is taken for the one that receives it if it comes first; a service
    under the name of its port is not found; a limit on a line that continues is not seen. *)
Theorem C104_type_refuted : ~ (forall columns n,
  snd (stressing (install (lit "100") (master_text [lit "smtp unix " ++ columns; lit "smtp inet n - - - 40 smtpd"])) new_breaker n) = Gives (30 <=? n)).
Proof. intros H. specialize (H (lit "- - - - 4 smtp") 3). vm_compute in H. discriminate. Qed.
Print Assumptions C104_type_refuted.
Theorem C104_name_refuted : ~ (forall name n,
  name = lit "smtp" \/ name = lit "25" \/ name = lit "192.0.2.1:smtp" ->
  snd (stressing (install (lit "100") (master_text [name ++ lit " inet n - - - 40 smtpd"])) new_breaker n) = Gives (30 <=? n)).
Proof. intros H. specialize (H (lit "25") 30 (or_intror (or_introl eq_refl))). vm_compute in H. discriminate. Qed.
Print Assumptions C104_name_refuted.
Theorem C104_continued_refuted : ~ (forall a b n, a ++ lit " " ++ b = lit "smtp inet n - - - 40 smtpd" ->
  snd (stressing (install (lit "100") (master_text [a; lit " " ++ b])) new_breaker n) = Gives (30 <=? n)) /\
  (** there is no threshold at all then, not even that of the default limit *)
  (forall n,
     snd (stressing (install (lit "100") (master_text [lit "smtp inet n - -"; lit " - 40 smtpd"])) new_breaker n)
     = Gives false).
Proof.
  split.
  - intros H. specialize (H (lit "smtp inet n - -") (lit "- 40 smtpd") 30 eq_refl). vm_compute in H. discriminate.
  - intros n. vm_compute. reflexivity.
Qed.
Print Assumptions C104_continued_refuted.
(** The postconf of the Postfix that runs is not the one asked. *)
Theorem C104_postconf_refuted : ~ (forall m n,
  mc_processes m = listing [lit "/opt/postfix/libexec/postfix/master"] ->
  mc_commands m = listing [lit "/opt/postfix/libexec/postfix/master"] ->
  mc_executable m (lit "/opt/postfix/sbin/postconf") = true ->
  mc_run m (lit "/opt/postfix/sbin/postconf") = Output (postconf_out (lit "40")) -> (forall p, mc_file m p = None) ->
  snd (stressing m new_breaker n) = Gives (30 <=? n)).
Proof.
  intros H.
  specialize (H (mk_machine (listing [lit "/opt/postfix/libexec/postfix/master"]) (listing [lit "/opt/postfix/libexec/postfix/master"])
    (fun c => if bytes_eqb c (lit "postconf") then Output (postconf_out (lit "400")) else Output (postconf_out (lit "40")))
    (fun _ => true) (fun _ => None)) 30 eq_refl eq_refl eq_refl eq_refl (fun _ => eq_refl)).
  vm_compute in H. discriminate.
Qed.
Print Assumptions C104_postconf_refuted.
