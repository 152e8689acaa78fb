(** How units of systemd are read. *)
From Verif.Base Require Import Bytes BytesFacts.
From Verif.Model Require Import PostfixTable Breaker Detect.
From Verif.Spec Require Import PostfixSpec ConnectionSpecSpec.
From Verif.Spec Require BreakerSpec.
From Verif.Proofs Require Import PostfixProofs ConnectionSpecProofs BreakerProofs DetectProofs GreylistProofs ShellProofs.
From Verif.Spec Require Import DetectSpec.
Import List.
Local Open Scope N_scope.

(** *** White space around a text *)
Definition open_end (c : byte) : bool := is_space c || beqb c NUL.
Lemma rstrip_end b c e : open_end c = false -> Forall white e -> rstrip ((b ++ [c]) ++ e) = b ++ [c].
Proof.
  intros C F. unfold rstrip. rewrite rev_app_distr, drop_all.
  - rewrite rev_app_distr. cbn [rev app]. rewrite drop_stop by exact C. cbn [rev]. rewrite rev_involutive. reflexivity.
  - apply Forall_rev. eapply Forall_impl; [|exact F]. intros x H. rewrite (white_is _ H). reflexivity.
Qed.
Lemma rstrip_blank e : Forall white e -> rstrip e = [].
Proof.
  intros F. unfold rstrip. rewrite <- (app_nil_r (rev e)), drop_all; [reflexivity|].
  apply Forall_rev. eapply Forall_impl; [|exact F]. intros x H. rewrite (white_is _ H). reflexivity.
Qed.
Lemma strip_tight w t e : Forall white w -> begins_text t -> (exists b c, t = b ++ [c] /\ open_end c = false) -> Forall white e ->
  strip (w ++ t ++ e) = t.
Proof.
  intros W B (b & c & E & C) F. unfold strip. apply whites in W. rewrite (drop_all _ _ _ W).
  replace (drop_while is_space (t ++ e)) with (t ++ e).
  - rewrite E. now apply rstrip_end.
  - destruct B as (x & t' & -> & N). symmetry. cbn [app]. apply drop_stop. now apply not_white.
Qed.
Lemma strip_blank l : Forall white l -> strip l = [].
Proof.
  intros F. unfold strip. pose proof F as G. apply whites in G. rewrite <- (app_nil_r l), (drop_all _ _ _ G). reflexivity.
Qed.
Lemma tight_open t : tight t -> exists b c, t = b ++ [c] /\ open_end c = false.
Proof.
  intros (_ & b & c & E & W & Z & _). exists b, c. split; [exact E|]. unfold open_end. apply not_white in W. rewrite W.
  apply beqb_neq. exact Z.
Qed.
Lemma lf_white : white (byte_of 10). Proof. unfold white. tauto. Qed.
Lemma ended_white p e : ended p e -> Forall white e -> Forall white p.
Proof. intros [->| ->] F; [apply Forall_app; split; [exact F|]; constructor; [exact lf_white|constructor]|exact F]. Qed.

(** *** Lines of a unit *)
Definition unit_says (l : bytes) : unit_entry :=
  match section_line l with
  | Some s => USection s
  | None => match unit_setting [] l with Some (n, v) => USet n v | None => UIdle end
  end.
Lemma setting_walk n : forall before r, before <> [] -> ~ In "="%char n -> unit_setting before (n ++ r) = unit_setting (rev n ++ before) r.
Proof.
  induction n as [|c n IH]; intros before r N I; [reflexivity|]. cbn [app unit_setting]. destruct before as [|b0 before]; [congruence|].
  replace (beqb c "=") with false by (symmetry; apply beqb_neq; intros ->; apply I; now left). cbv iota.
  rewrite IH by (discriminate || (intros J; apply I; now right)). cbn [rev]. rewrite <- app_assoc. reflexivity.
Qed.
Lemma white_no_eq s : Forall white s -> ~ In "="%char s.
Proof. intros F I. rewrite Forall_forall in F. now apply (white_not_eq _ (F _ I)). Qed.
Lemma setting_found n s s' v : unit_name n -> Forall white s -> Forall white s' -> begins_text v ->
  unit_setting [] (n ++ s ++ lit "=" ++ s' ++ v) = Some (n, v).
Proof.
  intros (T & Q & _) S S' B. destruct T as ((c & n' & E & W) & n'' & d & E' & W' & _).
  rewrite E. cbn [app unit_setting].
  rewrite setting_walk by (discriminate || (intros I; apply Q; rewrite E; now right)).
  rewrite setting_walk; [|destruct (rev n'); discriminate|now apply white_no_eq].
  change (lit "=" ++ s' ++ v) with ("="%char :: s' ++ v). cbn [unit_setting].
  assert (X : rev s ++ rev n' ++ [c] = rev (n ++ s)) by (rewrite E, rev_app_distr; reflexivity).
  rewrite X. assert (Y : rev (n ++ s) <> []) by (rewrite E; cbn [app rev]; intros H; apply app_eq_nil in H as [_ H]; discriminate).
  destruct (rev (n ++ s)) as [|b0 before] eqn:R; [congruence|]. rewrite beqb_refl. apply whites in S'. rewrite (drop_all _ _ _ S').
  destruct (begins_head _ B) as [-> Nv]. destruct v as [|v0 v]; [congruence|]. clear Nv.
  assert (D : drop_while is_space (b0 :: before) = rev n).
  { rewrite <- R, rev_app_distr. rewrite drop_all by (apply whites; now apply Forall_rev).
    rewrite E', rev_app_distr. cbn [rev app]. apply drop_stop. now apply not_white. }
  rewrite D. destruct (rev n) as [|r0 rn] eqn:Rn; [exfalso; rewrite E' in Rn; rewrite rev_app_distr in Rn; discriminate|].
  rewrite <- Rn, rev_involutive, E. reflexivity.
Qed.
(** The name begins with the character the line begins with. *)
Lemma setting_begins c : forall b before n v, is_space c = false -> unit_setting (before ++ [c]) b = Some (n, v) -> exists n', n = c :: n'.
Proof.
  induction b as [|x b IH]; intros before n v C H; [discriminate|]. cbn [unit_setting] in H.
  destruct (before ++ [c]) as [|b0 bs] eqn:E; [destruct before; discriminate|].
  destruct (if beqb x "=" then drop_while is_space b else []) as [|v0 v'].
  - rewrite <- E in H. apply (IH (x :: before) n v C H).
  - rewrite <- E in H. injection H as H _.
    assert (D : exists d, drop_while is_space (before ++ [c]) = d ++ [c]).
    { clear -C. induction before as [|y before [d IH]]; cbn [app drop_while].
      - rewrite C. now exists [].
      - destruct (is_space y); [now exists d|]. now exists (y :: before). }
    destruct D as [d D]. rewrite D in H. destruct (d ++ [c]) as [|d0 ds] eqn:E'; [destruct d; discriminate|].
    assert (H2 : rev (d ++ [c]) = n) by (rewrite E'; exact H). rewrite rev_app_distr in H2. exists (rev d). now symmetry.
Qed.
Lemma section_found n : n <> [] -> section_line (lit "[" ++ n ++ lit "]") = Some n.
Proof.
  intros N. change (lit "[" ++ n ++ lit "]") with ("["%char :: n ++ ["]"%char]). unfold section_line.
  destruct n as [|c n]; [congruence|]. cbn [app]. destruct (n ++ ["]"%char]) as [|x y] eqn:E; [destruct n; discriminate|].
  rewrite <- E. replace (last ("["%char :: c :: n ++ ["]"%char]) NUL) with "]"%char.
  - rewrite !beqb_refl. cbn [andb tl]. change (c :: n ++ ["]"%char]) with ((c :: n) ++ ["]"%char]). rewrite removelast_last. reflexivity.
  - change ("["%char :: c :: n ++ ["]"%char]) with (("["%char :: c :: n) ++ ["]"%char]). now rewrite last_last.
Qed.
Lemma section_none c l : c <> "["%char -> section_line (c :: l) = None.
Proof. intros N. unfold section_line. apply beqb_neq in N. rewrite N. destruct l as [|a [|b l]]; reflexivity. Qed.

(** Is one of the lines that do nothing, or the same. *)
Definition same_entry (a b : unit_entry) : Prop :=
  a = b \/ b = UIdle /\ exists n v, a = USet n v /\ exists c n', n = c :: n' /\ (c = "#"%char \/ c = ";"%char).
Lemma unit_line_spec p l e : ended p l -> unit_line l e -> same_entry (unit_says (strip p)) e.
Proof.
  intros E H. destruct H as [l F|w c l F C|w n e W N Q F|w n s s' v e W N S S' T F].
  - left. rewrite strip_blank by now apply (ended_white p l). reflexivity.
  - apply ended_app in E as (b & -> & E). apply whites in F. unfold strip. rewrite (drop_all _ _ _ F).
    assert (B : exists t, b = c :: t) by (destruct E as [->| ->]; eexists; reflexivity).
    destruct B as [t ->].
    assert (Wc : is_space c = false) by (destruct C as [->| ->]; reflexivity).
    rewrite drop_stop by exact Wc.
    assert (R : exists t', rstrip (c :: t) = c :: t').
    { unfold rstrip. cbn [rev]. assert (D : exists d, drop_while (fun c => is_space c || beqb c NUL) (rev t ++ [c]) = d ++ [c]).
      { assert (O : open_end c = false) by (destruct C as [->| ->]; reflexivity). clear -O.
        induction (rev t) as [|y r [d IH]]; cbn [app drop_while].
        - unfold open_end in O. rewrite O. now exists [].
        - destruct (is_space y || beqb y NUL); [now exists d|]. now exists (y :: r). }
      destruct D as [d ->]. rewrite rev_app_distr. now exists (rev d). }
    destruct R as [t' ->]. unfold unit_says. rewrite section_none by (destruct C as [->| ->]; discriminate).
    destruct (unit_setting [] (c :: t')) as [[n v]|] eqn:U; [|now left].
    right. split; [reflexivity|]. exists n, v. split; [reflexivity|]. exists c. cbn [unit_setting] in U.
    destruct (setting_begins c t' [] n v Wc U) as [n' ->]. now exists n'.
  - left. apply ended_app in E as (b & -> & E). apply ended_app in E as (b1 & -> & E). apply ended_app in E as (b2 & -> & E).
    apply ended_app in E as (b3 & -> & E).
    replace (w ++ lit "[" ++ n ++ lit "]" ++ b3) with (w ++ (lit "[" ++ n ++ lit "]") ++ b3) by (rewrite <- !app_assoc; reflexivity).
    rewrite strip_tight.
    + unfold unit_says. rewrite section_found by exact N. reflexivity.
    + exact W.
    + exists "["%char, (n ++ lit "]"). split; [reflexivity|]. apply not_white. reflexivity.
    + exists (lit "[" ++ n), "]"%char. split; [rewrite <- app_assoc; reflexivity|reflexivity].
    + now apply (ended_white b3 e).
  - left. apply ended_app in E as (b & -> & E). apply ended_app in E as (b1 & -> & E). apply ended_app in E as (b2 & -> & E).
    apply ended_app in E as (b3 & -> & E). apply ended_app in E as (b4 & -> & E). apply ended_app in E as (b5 & -> & E).
    replace (w ++ n ++ s ++ lit "=" ++ s' ++ v ++ b5) with (w ++ (n ++ s ++ lit "=" ++ s' ++ v) ++ b5) by (rewrite <- !app_assoc; reflexivity).
    rewrite strip_tight.
    + unfold unit_says. rewrite (setting_found n s s' v N S S') by apply T.
      destruct N as (((c & n' & -> & _) & _) & _ & X). cbn [app]. rewrite section_none; [reflexivity|].
      intros ->. apply (X "["%char n' eq_refl). now left.
    + exact W.
    + destruct N as (((c & n' & -> & Y) & _) & _ & X). exists c, (n' ++ s ++ lit "=" ++ s' ++ v). split; [reflexivity|exact Y].
    + destruct (tight_open _ T) as (t & c & -> & O). exists (n ++ s ++ lit "=" ++ s' ++ t), c. split; [rewrite <- !app_assoc; reflexivity|exact O].
    + now apply (ended_white b5 e).
Qed.

(** *** A unit *)
Definition take_entry (sys : system) (u : unit_info) (e : unit_entry) : unit_info :=
  match e with
  | USection s => mk_unit (Some s) (un_description u) (un_exec u) (un_variables u)
  | UIdle => u
  | USet name value =>
      match un_section u with
      | None => u
      | Some s =>
          if bytes_eqb s (lit "Unit") then
            if bytes_eqb name (lit "Description") then mk_unit (un_section u) (Some value) (un_exec u) (un_variables u) else u
          else if bytes_eqb s (lit "Service") then
            if bytes_eqb name (lit "ExecStart") then mk_unit (un_section u) (un_description u) (Some value) (un_variables u)
            else if bytes_eqb name (lit "EnvironmentFile") then
              match sy_file sys (without_dash value) with
              | Some content => mk_unit (un_section u) (un_description u) (un_exec u) (extract_variables false None (un_variables u) content)
              | None => u
              end
            else u
          else u
      end
  end.
Lemma parse_unit_line_says sys u p : parse_unit_line sys u p = take_entry sys u (unit_says (strip p)).
Proof.
  unfold parse_unit_line, unit_says. destruct (section_line (strip p)); [reflexivity|].
  destruct (unit_setting [] (strip p)) as [[n v]|]; reflexivity.
Qed.
Lemma take_same sys u a b : same_entry a b -> take_entry sys u a = take_entry sys u b.
Proof.
  intros [->|(-> & n & v & -> & c & n' & -> & C)]; [reflexivity|]. cbn [take_entry].
  assert (X : forall k, k = lit "Description" \/ k = lit "ExecStart" \/ k = lit "EnvironmentFile" -> bytes_eqb (c :: n') k = false).
  { intros k K. apply bytes_eqb_neq. destruct C as [->| ->], K as [->|[->| ->]]; discriminate. }
  rewrite !X by auto. destruct (un_section u) as [s|]; [|reflexivity].
  destruct (bytes_eqb s (lit "Unit")); [reflexivity|]. destruct (bytes_eqb s (lit "Service")); reflexivity.
Qed.
Lemma unit_spec sys es content : lists unit_line es content ->
  parse_unit sys content = fold_left (take_entry sys) es (mk_unit None None None []).
Proof.
  intros H. unfold parse_unit. apply (fold_lists unit_line); [| |exact H].
  - intros a p l e E O M. rewrite parse_unit_line_says. apply take_same. now apply (unit_line_spec p l e).
  - intros a e M. pose proof (unit_line_spec [] [] e (or_intror eq_refl) M) as X.
    rewrite <- (take_same sys a _ _ X). reflexivity.
Qed.

Lemma latest_cons {A} (x : A) l o : latest (x :: l) o <-> (l = [] /\ o = Some x) \/ (l <> [] /\ latest l o).
Proof.
  split.
  - intros [[H _]|(l' & y & E & ->)]; [discriminate|]. destruct l' as [|z l']; cbn [app] in E; injection E as -> ->.
    + now left.
    + right. split; [destruct l'; discriminate|]. right. now exists l', y.
  - intros [[-> ->]|[N [[-> _]|(l' & y & -> & ->)]]].
    + right. now exists [], x.
    + congruence.
    + right. now exists (x :: l'), y.
Qed.
Definition or_old {A} (o old : option A) : option A := match o with Some _ => o | None => old end.
Lemma latest_exists {A} (l : list A) : exists o, latest l o.
Proof. destruct l as [|x l _] using rev_ind; [exists None; now left|exists (Some x); right; now exists l, x]. Qed.
Lemma description_spec sys es : forall u o, latest (given (lit "Unit") (lit "Description") (un_section u) es) o ->
  un_description (fold_left (take_entry sys) es u) = or_old o (un_description u).
Proof.
  induction es as [|e es IH]; intros u o H; cbn [fold_left].
  - destruct H as [[_ ->]|(l & x & E & _)]; [reflexivity|destruct l; discriminate].
  - destruct e as [|s|n v]; cbn [given take_entry] in *.
    + now apply IH.
    + now rewrite (IH _ o).
    + destruct (un_section u) as [s|] eqn:Eu; [|apply IH; now rewrite Eu].
      destruct (bytes_eqb s (lit "Unit")) eqn:U; cbn [andb] in H.
      * destruct (bytes_eqb n (lit "Description")) eqn:D; [|apply IH; now rewrite Eu].
        apply latest_cons in H as [[E ->]|[N H]].
        -- rewrite (IH _ None) by (left; split; [exact E|reflexivity]). reflexivity.
        -- rewrite (IH _ o) by exact H. destruct H as [[E _]|(l & x & _ & ->)]; [contradiction|reflexivity].
      * assert (K : forall u', un_section u' = Some s -> un_description u' = un_description u ->
          un_description (fold_left (take_entry sys) es u') = or_old o (un_description u)).
        { intros u' E1 E2. rewrite (IH u' o) by now rewrite E1. now rewrite E2. }
        destruct (bytes_eqb s (lit "Service")); [|now apply K].
        destruct (bytes_eqb n (lit "ExecStart")); [now apply K|].
        destruct (bytes_eqb n (lit "EnvironmentFile")); [|now apply K].
        destruct (sy_file sys (without_dash v)); now apply K.
Qed.
Lemma exec_spec sys es : forall u o, latest (given (lit "Service") (lit "ExecStart") (un_section u) es) o ->
  un_exec (fold_left (take_entry sys) es u) = or_old o (un_exec u).
Proof.
  induction es as [|e es IH]; intros u o H; cbn [fold_left].
  - destruct H as [[_ ->]|(l & x & E & _)]; [reflexivity|destruct l; discriminate].
  - destruct e as [|s|n v]; cbn [given take_entry] in *.
    + now apply IH.
    + now rewrite (IH _ o).
    + destruct (un_section u) as [s|] eqn:Eu; [|apply IH; now rewrite Eu].
      assert (K : forall u' o', latest (given (lit "Service") (lit "ExecStart") (Some s) es) o' -> un_section u' = Some s -> un_exec u' = un_exec u ->
          un_exec (fold_left (take_entry sys) es u') = or_old o' (un_exec u)).
      { intros u' o' L E1 E2. rewrite (IH u' o') by now rewrite E1. now rewrite E2. }
      destruct (bytes_eqb s (lit "Unit")) eqn:U.
      * apply bytes_eqb_eq in U. subst s. change (bytes_eqb (lit "Unit") (lit "Service")) with false in H. cbn [andb] in H.
        destruct (bytes_eqb n (lit "Description")); now apply K.
      * destruct (bytes_eqb s (lit "Service")) eqn:V; cbn [andb] in H; [|now apply K].
        destruct (bytes_eqb n (lit "ExecStart")) eqn:D.
        -- apply latest_cons in H as [[E ->]|[N H]].
           ++ rewrite (IH _ None) by (left; split; [exact E|reflexivity]). reflexivity.
           ++ rewrite (IH _ o) by exact H. destruct H as [[E _]|(l & x & _ & ->)]; [contradiction|reflexivity].
        -- destruct (bytes_eqb n (lit "EnvironmentFile")); [|now apply K].
           destruct (sy_file sys (without_dash v)); now apply K.
Qed.

(** *** Environment files *)
Definition pieces (e : option (bytes * bytes)) : option (bytes * list piece) :=
  match e with Some (n, b) => Some (n, [Text b]) | None => None end.
Lemma white_end e : Forall white e -> line_end e.
Proof. intros F. destruct e as [|c e]; [constructor|]. apply end_blank. split; [discriminate|exact F]. Qed.
Lemma env_shell l e : env_line l e -> shell_line l (pieces e).
Proof.
  intros [l' I|w n b x W N C Cl B E|w n b x W N C Cl E|w n b x W N C Cl E]; cbn [pieces].
  - now apply shell_idle.
  - apply shell_plain; auto using clean_writes, white_end. now constructor.
  - apply shell_double; auto using clean_writes, white_end. now constructor.
  - apply shell_single; auto using white_end. now constructor.
Qed.
Lemma lists_map {A B} (M : bytes -> A -> Prop) (N : bytes -> B -> Prop) f es content :
  (forall l e, M l e -> N l (f e)) -> lists M es content -> lists N (map f es) content.
Proof.
  intros H (ls & last & E & F & L & F2). exists ls, last. repeat split; auto.
  clear -H F2. induction F2; constructor; auto.
Qed.
Lemma sets_runs es : forall env, runs env (map pieces es) (sets env es).
Proof.
  induction es as [|[[n b]|] es IH]; intros env; cbn [map pieces sets].
  - constructor.
  - econstructor; [|apply IH]. rewrite <- (app_nil_r b) at 2. repeat constructor.
  - constructor. apply IH.
Qed.
Lemma file_name v f : names_file v f -> without_dash v = f.
Proof.
  intros [g|g N]; cbn [without_dash]; [rewrite beqb_refl; reflexivity|]. destruct g as [|c g]; [reflexivity|].
  cbn [without_dash]. replace (beqb c "-") with false; [reflexivity|]. symmetry. apply beqb_neq. intros ->. now apply (N g).
Qed.
Lemma environment_spec sys es : forall u env out,
  environment_of (sy_file sys) env (given (lit "Service") (lit "EnvironmentFile") (un_section u) es) out ->
  (forall m, variable (un_variables u) m = env m) ->
  forall m, variable (un_variables (fold_left (take_entry sys) es u)) m = out m.
Proof.
  induction es as [|e es IH]; intros u env out H R; cbn [fold_left].
  - cbn [given] in H. inversion H; subst. exact R.
  - destruct e as [|s|n v]; cbn [given take_entry] in *.
    + now apply (IH u env).
    + now apply (IH _ env).
    + destruct (un_section u) as [s|] eqn:Eu; [|apply (IH u env); [now rewrite Eu|exact R]].
      assert (K : forall u', environment_of (sy_file sys) env (given (lit "Service") (lit "EnvironmentFile") (Some s) es) out ->
         un_section u' = Some s -> un_variables u' = un_variables u -> forall m, variable (un_variables (fold_left (take_entry sys) es u')) m = out m).
      { intros u' L E1 E2. apply (IH u' env); [now rewrite E1|]. intros m. rewrite E2. apply R. }
      destruct (bytes_eqb s (lit "Unit")) eqn:U.
      * apply bytes_eqb_eq in U. subst s. change (bytes_eqb (lit "Unit") (lit "Service")) with false in H. cbn [andb] in H.
        destruct (bytes_eqb n (lit "Description")); now apply K.
      * destruct (bytes_eqb s (lit "Service")) eqn:V; cbn [andb] in H; [|now apply K].
        destruct (bytes_eqb n (lit "ExecStart")) eqn:D.
        { apply bytes_eqb_eq in D. subst n. change (bytes_eqb (lit "ExecStart") (lit "EnvironmentFile")) with false in H. now apply K. }
        destruct (bytes_eqb n (lit "EnvironmentFile")) eqn:D'; [|now apply K].
        inversion H as [|? ? f ? ? Nf Ff H'|? ? f content fs ? ? Nf Ff Lf H']; subst; rewrite (file_name _ _ Nf), Ff.
        -- now apply K.
        -- apply (IH _ (sets env fs)); [exact H'|]. cbn [un_variables]. intros m.
           apply (extract_spec None (map pieces fs) content (un_variables u) env (sets env fs)); [|exact R|apply sets_runs].
           now apply (lists_map env_line shell_line pieces _ _ env_shell).
Qed.

(** *** Options *)
Lemma behind_absent opt ws : ~ In opt ws -> behind_last opt ws = None.
Proof.
  induction ws as [|w ws IH]; intros N; [reflexivity|]. cbn [behind_last]. rewrite IH by (intros I; apply N; now right).
  replace (bytes_eqb w opt) with false; [reflexivity|]. symmetry. apply bytes_eqb_neq. intros ->. apply N. now left.
Qed.
Lemma behind_found opt a f b : ~ In opt (f :: b) -> behind_last opt (a ++ opt :: f :: b) = Some (Some f).
Proof.
  intros N. induction a as [|w a IH].
  - cbn [app]. change (behind_last opt (opt :: f :: b)) with
      (match behind_last opt (f :: b) with Some r => Some r | None => if bytes_eqb opt opt then Some (hd_error (f :: b)) else None end).
    rewrite behind_absent by exact N. rewrite bytes_eqb_refl. reflexivity.
  - cbn [app behind_last]. rewrite IH. reflexivity.
Qed.
Lemma attached_none opt ws : Forall (fun w => ~ begins_with opt w) ws -> forall acc, fold_left (attached opt) ws acc = acc.
Proof.
  induction 1 as [|w ws N F IH]; intros acc; [reflexivity|]. cbn [fold_left]. rewrite IH. unfold attached.
  destruct (after_prefix opt w) as [r|] eqn:E; [|reflexivity]. apply after_prefix_some in E. exfalso. apply N. now exists r.
Qed.
Lemma variable_false f : no_variable f -> is_variable (Some f) = false.
Proof.
  intros N. destruct f as [|c f]; [reflexivity|]. cbn [is_variable]. apply beqb_neq. intros ->. now apply (N f).
Qed.
Lemma option_spec sys opt text o : option_argument opt (sy_words sys text) o -> parameter_from_flags sys (Some text) opt = o.
Proof.
  intros H. unfold parameter_from_flags. cbv zeta. set (ws := sy_words sys text) in *. clearbody ws.
  destruct H as [ws F|a f b N V|a f b N Nf V NE F|a f b N V F].
  - rewrite behind_absent, attached_none; [reflexivity|exact F|]. intros I. rewrite Forall_forall in F. apply (F _ I). exists []. now rewrite app_nil_r.
  - rewrite behind_found by exact N. rewrite variable_false by exact V. reflexivity.
  - rewrite behind_absent.
    + rewrite fold_left_app. cbn [fold_left]. rewrite attached_none by exact F. unfold attached. rewrite after_prefix_app.
      destruct f as [|c f]; [congruence|]. replace (beqb c "=") with false by (symmetry; apply beqb_neq; intros ->; now apply (NE f)).
      rewrite variable_false by exact V. reflexivity.
    + rewrite in_app_iff in *. cbn [In]. intros [I|[I|I]]; [tauto| |tauto].
      apply (f_equal (@length byte)) in I. rewrite app_length in I. destruct f; [congruence|cbn [length] in I; lia].
  - rewrite behind_absent.
    + rewrite fold_left_app. cbn [fold_left]. rewrite attached_none by exact F. unfold attached. rewrite after_prefix_app, beqb_refl.
      rewrite variable_false by exact V. reflexivity.
    + rewrite in_app_iff in *. cbn [In]. intros [I|[I|I]]; [tauto| |tauto].
      apply (f_equal (@length byte)) in I. rewrite app_length in I. cbn [length] in I. lia.
Qed.

(** *** Specs from the environment *)
Lemma normalize_trimmed s t : trimmed s t -> normalize_spec (Some s) = Some t.
Proof.
  intros (a & b & -> & A & B & T). unfold normalize_spec.
  rewrite strip_tight; [|exact A|apply T|now apply tight_open|exact B].
  destruct T as ((c & t' & -> & _) & _). reflexivity.
Qed.
Lemma normalize_blank s : blank_text s -> normalize_spec (Some s) = None.
Proof. intros H. unfold normalize_spec. rewrite strip_blank by exact H. reflexivity. Qed.
