(** How init scripts are read. *)
From Verif.Base Require Import Bytes BytesFacts.
From Verif.Model Require Import PostfixTable Breaker Detect InitDetect.
From Verif.Spec Require Import PostfixSpec ConnectionSpecSpec.
From Verif.Spec Require BreakerSpec.
From Verif.Proofs Require Import PostfixProofs ConnectionSpecProofs BreakerProofs DetectProofs GreylistProofs ShellProofs ScriptProofs UnitProofs RcProofs.
From Verif.Spec Require Import DetectSpec.
From Verif.Spec Require RcSpec InitSpec.
Import List.
Import InitSpec(no_assignment, script_line, line_idle, line_other, line_plain, line_double, line_single, variables_after, names_shell, empty_header).
Local Open Scope N_scope.

(** *** Lines *)
Lemma prefix_of_cut b : exists t, b = cut_comment b ++ t.
Proof. unfold cut_comment. eexists. apply take_drop. Qed.
Lemma cut_unassigned low p l : ended p l -> no_assignment (names low) l -> find_definition low false (cut_comment p) = None.
Proof.
  intros E N. apply no_definition. intros a c r Q. destruct (prefix_of_cut p) as [t T]. rewrite Q in T.
  destruct (Detect.name_char low c) eqn:C; [|reflexivity]. exfalso. apply names_true in C.
  rewrite <- app_assoc in T. cbn [app] in T. destruct E as [->| ->].
  - destruct (exists_last (l := "="%char :: r ++ t) ltac:(discriminate)) as (x & y & Y). rewrite Y in T.
    change (a ++ c :: x ++ [y]) with (a ++ (c :: x) ++ [y]) in T. rewrite app_assoc in T.
    apply app_inj_tail in T as [T <-]. destruct x as [|z x]; cbn [app] in Y; [discriminate|]. injection Y as <- Y.
    now apply (N a c x).
  - now apply (N a c (r ++ t)).
Qed.
Lemma line_assign low own vs env p l n ps v : ended p l -> script_line (names low) l (Some (n, ps)) -> means env ps v ->
  (forall m, variable vs m = env m) -> extract_line low own vs p = (n, Some v) :: vs.
Proof.
  intros E S M R. unfold extract_line.
  assert (Hf : forall m, referred m -> expand_variable own vs m = env m).
  { intros m (_ & N & _). unfold expand_variable. apply bytes_eqb_neq in N. rewrite N. apply R. }
  inversion S as [| |i n' ps' t e Li N C W NW Le|i n' ps' t e Li N C W Le|i n' b e Li N C Cl Le]; subst.
  - apply ended_app in E as (y0 & -> & E); apply ended_app in E as (y1 & -> & E); apply ended_app in E as (y2 & -> & E);
    apply ended_app in E as (e' & -> & E).
    pose proof (writes_quiet _ _ W) as Q. rewrite (cut_named low) by auto using quiet_no_hash.
    assert (NW' : Forall (fun c => ~ white c) t) by (eapply Forall_impl; [|exact NW]; intros c Hc; apply Hc).
    rewrite found_here, raw_plain by eauto using cut_end.
    rewrite (normalized _ env ps t t v Hf W M) by now apply unquote_quiet. reflexivity.
  - apply ended_app in E as (y0 & -> & E); apply ended_app in E as (y1 & -> & E); apply ended_app in E as (y2 & -> & E);
    apply ended_app in E as (y3 & -> & E); apply ended_app in E as (y4 & -> & E);
    apply ended_app in E as (e' & -> & E).
    pose proof (writes_quiet _ _ W) as Q.
    replace (i ++ n ++ lit "=" ++ [double_quote] ++ t ++ [double_quote] ++ e')
      with (i ++ n ++ lit "=" ++ (dq :: t ++ [dq]) ++ e') by (cbn [app]; rewrite <- app_assoc; reflexivity).
    rewrite (cut_named low); auto.
    + rewrite found_here by assumption. cbn [app]. rewrite <- app_assoc. cbn [app]. rewrite raw_double by assumption.
      rewrite (normalized _ env ps t _ v Hf W M) by (apply unquote_around; now left). reflexivity.
    + constructor; [reflexivity|]. apply Forall_app. split; [now apply quiet_no_hash|repeat constructor].
  - apply ended_app in E as (y0 & -> & E); apply ended_app in E as (y1 & -> & E); apply ended_app in E as (y2 & -> & E);
    apply ended_app in E as (y3 & -> & E); apply ended_app in E as (y4 & -> & E);
    apply ended_app in E as (e' & -> & E).
    pose proof (clean_writes _ Cl) as W. pose proof (writes_quiet _ _ W) as Q.
    replace (i ++ n ++ lit "=" ++ [single_quote] ++ b ++ [single_quote] ++ e')
      with (i ++ n ++ lit "=" ++ (sq :: b ++ [sq]) ++ e') by (cbn [app]; rewrite <- app_assoc; reflexivity).
    rewrite (cut_named low); auto.
    + rewrite found_here by assumption. cbn [app]. rewrite <- app_assoc. cbn [app]. rewrite raw_single by assumption.
      rewrite (normalized _ env [Text b] b _ v Hf W M) by (apply unquote_around; now right). reflexivity.
    + constructor; [reflexivity|]. apply Forall_app. split; [now apply quiet_no_hash|repeat constructor].
Qed.
Lemma no_equals low b flag : ~ In "="%char b -> find_definition low flag b = None.
Proof.
  intros H. apply no_definition. intros a c r E. exfalso. apply H. rewrite E. apply in_app_iff. right. right. now left.
Qed.
Lemma line_nothing low own vs p l : ended p l -> script_line (names low) l None -> extract_line low own vs p = vs.
Proof.
  intros E S. unfold extract_line. inversion S as [? I|? N| | |]; subst; [|now rewrite (cut_unassigned low p l E N)].
  rewrite no_equals; [reflexivity|]. destruct I as [l F|w l F].
  - intros H. apply take_in in H. rewrite Forall_forall in F. destruct E as [->| ->].
    + apply in_app_iff in H as [H|[H|[]]]; [now apply (white_not_eq _ (F _ H))|discriminate H].
    + now apply (white_not_eq _ (F _ H)).
  - apply ended_app in E as (b & -> & E). rewrite cut_app by now apply white_no_hash.
    apply ended_app in E as (b' & -> & E). rewrite in_app_iff. intros [H|H].
    + rewrite Forall_forall in F. now apply (white_not_eq _ (F _ H)).
    + exact H.
Qed.
Lemma nothing_says P e : script_line P [] e -> e = None.
Proof.
  assert (K : forall (i n r : bytes), n <> [] -> i ++ n ++ r = [] -> False).
  { intros i n r N X. apply app_eq_nil in X as [_ X]. apply app_eq_nil in X as [X _]. contradiction. }
  intros H. assert (L : exists l : bytes, l = [] /\ script_line P l e) by (exists []; auto). clear H.
  destruct L as (l & L & H). destruct H; try reflexivity; exfalso;
    (eapply K; [|exact L]; assumption).
Qed.
Lemma script_runs low own es ps : Forall2 (stands (script_line (names low))) ps es -> forall vs env out,
  (forall m, variable vs m = env m) -> runs env es out ->
  forall m, variable (fold_left (extract_line low own) ps vs) m = out m.
Proof.
  induction 1 as [|p e ps es (l & E & O & M) F IH]; intros vs env out R H; inversion H; subst; cbn [fold_left].
  - exact R.
  - rewrite (line_nothing low own vs p l E M). now apply (IH vs env).
  - match goal with Hm : means env _ ?v |- _ => rewrite (line_assign low own vs env p l _ _ v E M Hm R);
      apply (IH _ (set env n v)) end; [|assumption].
    intros m. unfold variable, set. cbn [lookup]. destruct (bytes_eqb n m); [reflexivity|apply R].
Qed.
Lemma script_spec low own es content vs env out : lists (script_line (names low)) es content -> (forall m, variable vs m = env m) ->
  runs env es out -> forall m, variable (extract_variables low own vs content) m = out m.
Proof.
  intros H R Hr. unfold extract_variables. destruct (lists_lines _ _ _ H) as [F|(es' & e & -> & Me & F)].
  - now apply (script_runs low own es _ F vs env).
  - apply nothing_says in Me. subst. apply runs_snoc in Hr. now apply (script_runs low own es' _ F vs env).
Qed.
Lemma runs_both es : forall env ds out, runs env (es ++ ds) out -> exists mid, runs env es mid /\ runs mid ds out.
Proof.
  induction es as [|[[n ps]|] es IH]; intros env ds out H; cbn [app] in H.
  - exists env. split; [constructor|exact H].
  - inversion H; subst. match goal with X : runs _ (es ++ ds) _ |- _ => destruct (IH _ _ _ X) as (mid & A & B) end.
    exists mid. split; [econstructor; eauto|exact B].
  - inversion H; subst. match goal with X : runs _ (es ++ ds) _ |- _ => destruct (IH _ _ _ X) as (mid & A & B) end.
    exists mid. split; [now constructor|exact B].
Qed.

(** *** The first line *)
Lemma indent_line low own vs c l : is_space c = true -> extract_line low own vs (c :: l) = extract_line low own vs l.
Proof.
  intros S. unfold extract_line, cut_comment. cbn [take_while].
  assert (H : beqb c "#" = false) by (apply beqb_neq; intros ->; discriminate). rewrite H. cbn [negb].
  rewrite find_unfold, defined_none; cbn [drop_while]; rewrite (space_not_word _ S); [reflexivity|]. intros ->. discriminate.
Qed.
Lemma leading_white low own b : forall vs, fold_left (extract_line low own) (physical (drop_while is_space b)) vs = fold_left (extract_line low own) (physical b) vs.
Proof.
  induction b as [|c b IH]; intros vs; [reflexivity|]. cbn [drop_while]. destruct (is_space c) eqn:S; [|reflexivity].
  rewrite IH. cbn [physical]. destruct (beqb c lf) eqn:L.
  - cbn [fold_left]. rewrite (indent_line low own vs c [] S). reflexivity.
  - destruct (physical b) as [|p ps]; cbn [fold_left]; rewrite (indent_line low own vs c _ S); reflexivity.
Qed.
Lemma physical_front a : forall b, one_line a -> b <> [] -> exists p ps, physical b = p :: ps /\ physical (a ++ b) = (a ++ p) :: ps.
Proof.
  induction a as [|c a IH]; intros b O N.
  - destruct b as [|c b]; [congruence|]. cbn [app physical]. destruct (beqb c lf); [eauto|]. destruct (physical b); eauto.
  - destruct (IH b) as (p & ps & P & Q); [intros I; apply O; now right|exact N|]. exists p, ps. split; [exact P|].
    cbn [app physical]. rewrite Q. replace (beqb c lf) with false; [reflexivity|]. symmetry. apply beqb_neq. intros ->. apply O. now left.
Qed.
Lemma first_line x : x <> [] -> exists t p ps, physical x = p :: ps /\ ended p t /\ one_line t /\
  exists r, x = t ++ r /\ (r = [] \/ exists r', r = newline :: r').
Proof.
  induction x as [|c x IH]; intros N; [congruence|]. cbn [physical]. destruct (beqb c lf) eqn:L.
  - apply beqb_eq in L. subst c. exists [], [lf], (physical x). split; [reflexivity|]. split; [now left|]. split; [intros []|].
    exists (lf :: x). split; [reflexivity|]. right. now exists x.
  - apply beqb_neq in L. destruct x as [|d x].
    + exists [c], [c], []. split; [reflexivity|]. split; [now right|]. split; [intros [H|[]]; now apply L|].
      exists []. split; [reflexivity|now left].
    + destruct IH as (t & p & ps & P & E & O & r & X & R); [discriminate|]. rewrite P. exists (c :: t), (c :: p), ps.
      split; [reflexivity|]. split; [destruct E as [->| ->]; [now left|now right]|].
      split; [intros [H|H]; [now apply L|now apply O]|]. exists r. split; [cbn [app]; now rewrite X|exact R].
Qed.
Lemma shebang_spec own vs content : names_shell content ->
  extract_variables false own vs (without_shebang content) = extract_variables false own vs content.
Proof.
  intros H. unfold without_shebang. destruct (after_prefix (lit "#!") content) as [r|] eqn:A; [|reflexivity].
  destruct (after_prefix (lit "/bin/sh") (drop_while is_space r)) as [x|] eqn:B; [|reflexivity].
  apply after_prefix_some in A, B. pose proof (take_drop is_space r) as T. rewrite B in T.
  assert (W : Forall white (take_while is_space r)).
  { apply Forall_forall. intros c I. apply is_space_white. clear -I. induction r as [|d r IH]; cbn [take_while] in I; [contradiction|].
    destruct (is_space d) eqn:S; [|contradiction]. destruct I as [<-|I]; auto. }
  unfold extract_variables. rewrite leading_white. remember (take_while is_space r) as s eqn:Hs. clear Hs B.
  assert (C0 : forall p, extract_line false own vs ((lit "#!" ++ s ++ lit "/bin/sh") ++ p) = vs) by reflexivity.
  destruct x as [|c x0] eqn:X.
  - rewrite A, T, app_nil_r. destruct (H s [] [] W) as [O _]; [now rewrite A, T, app_nil_r|intros []|now left|].
    assert (P : physical (lit "#!" ++ s ++ lit "/bin/sh") = [lit "#!" ++ s ++ lit "/bin/sh"]).
    { destruct (physical_front (lit "#!" ++ s) (lit "/bin/sh")) as (p & ps & P & Q).
      - intros I. apply in_app_iff in I as [I|I]; [vm_compute in I; intuition discriminate|now apply O].
      - discriminate.
      - change (physical (lit "/bin/sh")) with [lit "/bin/sh"] in P. injection P as <- <-. rewrite <- app_assoc in Q. exact Q. }
    rewrite P. cbn [fold_left physical]. specialize (C0 []). rewrite app_nil_r in C0. now rewrite C0.
  - rewrite <- X in *. destruct (first_line x) as (t & p & ps & P & E & O & r' & Xr & R); [subst; discriminate|].
    destruct (H s t r' W) as [Os Nt]; [now rewrite A, T, Xr|exact O|exact R|].
    destruct (physical_front (lit "#!" ++ s ++ lit "/bin/sh") x) as (p' & ps' & P' & Q').
    + intros I. rewrite !in_app_iff in I. destruct I as [I|[I|I]]; [vm_compute in I; intuition discriminate|now apply Os|vm_compute in I; intuition discriminate].
    + subst. discriminate.
    + rewrite P in P'. injection P' as <- <-. rewrite P. rewrite A, T. rewrite <- !app_assoc in Q'. rewrite Q'. cbn [fold_left].
      specialize (C0 p). rewrite <- !app_assoc in C0. rewrite C0. unfold extract_line at 2. rewrite (cut_unassigned false p t E Nt). reflexivity.
Qed.

(** *** The header *)
Lemma physical_whole content : concat (physical content) = content.
Proof.
  induction content as [|c b IH]; [reflexivity|]. cbn [physical]. destruct (beqb c lf); cbn [concat app]; [now rewrite IH|].
  destruct (physical b) as [|p ps]; cbn [concat app] in *; now rewrite <- IH.
Qed.
Lemma block_prefix content : exists r, content = first_block content ++ r.
Proof.
  assert (K : forall ls, exists r, concat ls = concat (hash_lines ls) ++ r).
  { induction ls as [|l ls (r & R)]; [now exists []|].
    cbn [concat hash_lines]. destruct l as [|c l]; [now exists (concat ls)|]. destruct (beqb c "#"); [|now exists ((c :: l) ++ concat ls)].
    exists r. cbn [concat]. rewrite <- app_assoc. now rewrite <- R. }
  destruct (K (physical content)) as [r R]. exists r. rewrite physical_whole in R. exact R.
Qed.
Lemma end_there b a : info_over b = Some a -> b = info_end ++ a.
Proof.
  unfold info_over. destruct (after_prefix info_end b) as [[|c r]|] eqn:E; try discriminate.
  - intros H. injection H as <-. now apply after_prefix_some in E.
  - destruct (beqb c lf); [|discriminate]. intros H. injection H as <-. now apply after_prefix_some in E.
Qed.
Lemma end_found b : forall t a, last_end b = Some (t, a) -> b = t ++ info_end ++ a.
Proof.
  induction b as [|c b IH]; intros t a H; [discriminate|]. cbn [last_end] in H. destruct (last_end b) as [[t' a']|].
  - injection H as <- <-. cbn [app]. now rewrite (IH t' a' eq_refl).
  - destruct (info_over b) as [a'|] eqn:E; [|discriminate]. injection H as <- <-. apply end_there in E. now rewrite E.
Qed.
Lemma info_within b : forall flag pre text behind, split_info flag b = (pre, Some (text, behind)) ->
  b = pre ++ info_begin ++ text ++ info_end ++ behind.
Proof.
  induction b as [|c b IH]; intros flag pre text behind H; [discriminate|]. cbn [split_info] in H.
  destruct (if flag then bind (after_prefix info_begin (c :: b)) last_end else None) as [x|] eqn:E.
  - injection H as <- ->. destruct flag; [|discriminate]. destruct (after_prefix info_begin (c :: b)) as [r|] eqn:A; [|discriminate].
    apply after_prefix_some in A. cbn [bind] in E. apply end_found in E. rewrite A, E. reflexivity.
  - destruct (split_info (beqb c lf) b) as [t o] eqn:S. injection H as <- ->. cbn [app]. f_equal. now apply (IH (beqb c lf)).
Qed.
Lemma unmarked_empty text : text <> [] -> unmarked text = [] -> text = lit "# ".
Proof.
  intros N. unfold unmarked. destruct (first_line text N) as (t & p & ps & P & E & O & r & X & R). rewrite P. cbn [map concat].
  intros H. apply app_eq_nil in H as [H1 H2]. assert (Q : p = lit "# ").
  { unfold unmark in H1. destruct (after_prefix (lit "# ") p) as [q|] eqn:A.
    - subst q. apply after_prefix_some in A. now rewrite app_nil_r in A.
    - subst p. exfalso. apply N.
      destruct text as [|c x]; [reflexivity|]. exfalso. cbn [physical] in P. destruct (beqb c lf); [discriminate|]. destruct (physical x); discriminate. }
  subst p. destruct E as [E|E]; [exfalso; destruct t as [|a [|b [|d t]]]; try discriminate; injection E as _ E; destruct t; discriminate|].
  subst t. destruct R as [->|(r' & ->)]; [now rewrite app_nil_r in X|]. exfalso.
  rewrite X in P. change (physical (lit "# " ++ newline :: r')) with ((lit "# " ++ [newline]) :: physical r') in P. discriminate.
Qed.
Lemma last_nonempty b t a : last_end b = Some (t, a) -> t <> [].
Proof.
  destruct b as [|c b]; [discriminate|]. cbn [last_end]. destruct (last_end b) as [[t' a']|]; [intros H; injection H as <- _; discriminate|].
  destruct (info_over b); [|discriminate]. intros H. injection H as <- _. discriminate.
Qed.
Lemma info_nonempty b : forall flag pre text behind, split_info flag b = (pre, Some (text, behind)) -> text <> [].
Proof.
  induction b as [|c b IH]; intros flag pre text behind H; [discriminate|]. cbn [split_info] in H.
  destruct (if flag then bind (after_prefix info_begin (c :: b)) last_end else None) as [x|] eqn:E.
  - injection H as _ ->. destruct flag; [|discriminate]. destruct (after_prefix info_begin (c :: b)) as [r|]; [|discriminate].
    cbn [bind] in E. now apply last_nonempty in E.
  - destruct (split_info (beqb c lf) b) as [t o] eqn:S. injection H as _ ->. now apply (IH (beqb c lf) t text behind).
Qed.
Lemma info_parsed content pre text behind i : absent empty_header content ->
  split_info true (first_block content) = (pre, Some (text, behind)) -> exists j, parse_info i text = Some j.
Proof.
  intros H S. pose proof (info_nonempty _ _ _ _ _ S) as N. apply info_within in S. destruct (block_prefix content) as [r R].
  unfold parse_info. destruct (unmarked text) as [|c u] eqn:U; [|eexists; reflexivity]. exfalso.
  apply (unmarked_empty _ N) in U. subst text. apply (H pre (behind ++ r)). rewrite R, S, <- !app_assoc. reflexivity.
Qed.
Lemma absent_part w a b : absent w (a ++ b) -> absent w b.
Proof. intros H x y E. apply (H (a ++ x) y). now rewrite E, <- app_assoc. Qed.
Lemma absent_shebang w content : absent w content -> absent w (without_shebang content).
Proof.
  intros H. unfold without_shebang. destruct (after_prefix (lit "#!") content) as [r|] eqn:A; [|exact H].
  destruct (after_prefix (lit "/bin/sh") (drop_while is_space r)) as [x|] eqn:B; [|exact H].
  apply after_prefix_some in A, B. pose proof (take_drop is_space r) as T. rewrite B in T. pose proof (take_drop is_space x) as X.
  rewrite X in T. rewrite T in A. rewrite A in H. now repeat apply absent_part in H.
Qed.

(** *** What is known after a script was read *)
Lemma deb_detected sys script env : InitSpec.debian_service (sy_file sys) script env ->
  exists content i vs, sy_file sys (init_script script) = Some content /\ deb_detect sys script content = Some (i, vs) /\
    (forall m, variable vs m = env m) /\ (absent (lit "### BEGIN INIT INFO") content -> i = []).
Proof.
  intros (content & F & N & A & es & L & R). exists content. unfold deb_detect. apply absent_shebang in A.
  assert (I : exists i, (match snd (split_info true (first_block (without_shebang content))) with
    | Some (text, _) => parse_info [] text | None => Some [] end) = Some i /\ (absent (lit "### BEGIN INIT INFO") content -> i = [])).
  { destruct (split_info true (first_block (without_shebang content))) as [pre [[text behind]|]] eqn:S; cbn [snd]; [|now exists []].
    destruct (info_parsed _ _ _ _ [] A S) as [j J]. exists j. split; [exact J|]. intros B. exfalso.
    apply info_within in S. destruct (block_prefix (without_shebang content)) as [r Hr]. apply absent_shebang in B.
    apply (B pre (nl ++ text ++ info_end ++ behind ++ r)). rewrite Hr, S. unfold info_begin. rewrite <- !app_assoc. reflexivity. }
  destruct I as (i & -> & I). eexists i, _. split; [exact F|]. split; [reflexivity|]. split; [|exact I].
  assert (K : forall own env, runs nothing_set es env -> forall m, variable (extract_variables false own [] (without_shebang content)) m = env m).
  { intros own e H. rewrite (shebang_spec _ _ _ N). apply (script_spec false own es content [] nothing_set); [exact L|reflexivity|exact H]. }
  destruct (sy_file sys (lit "/etc/default/" ++ script)) as [c|]; [|now apply K].
  destruct R as (ds & D & R). apply runs_both in R as (mid & R1 & R2).
  apply (script_spec false _ ds c _ mid); [exact D|now apply K|exact R2].
Qed.
Lemma rh_detected sys script content env : InitSpec.redhat_service (sy_file sys) script content env ->
  sy_file sys (init_script script) = Some content /\ (exists i, rh_info content = Some i) /\
    forall m, variable (rh_variables sys script content) m = env m.
Proof.
  intros (F & A & es & L & R). split; [exact F|]. split.
  - unfold rh_info. destruct (split_info true (first_block content)) as [pre [[text behind]|]] eqn:S; [|eexists; reflexivity].
    destruct (info_parsed _ _ _ _ (parse_tags [] pre) A S) as [j ->]. eexists. reflexivity.
  - unfold rh_variables.
    assert (K : forall own env, runs nothing_set es env -> forall m, variable (extract_variables true own [] content) m = env m).
    { intros own e H. apply (script_spec true own es content [] nothing_set); [exact L|reflexivity|exact H]. }
    destruct (sy_file sys (lit "/etc/sysconfig/" ++ script)) as [c|]; [|now apply K].
    destruct R as (ds & D & R). apply runs_both in R as (mid & R1 & R2).
    apply (script_spec true _ ds c _ mid); [exact D|now apply K|exact R2].
Qed.
Lemma contains_spec w b : contains w b = true <-> exists x y, b = x ++ w ++ y.
Proof.
  induction b as [|c b IH]; cbn [contains].
  - destruct (after_prefix w []) as [r|] eqn:E.
    + apply after_prefix_some in E. split; [intros _; now exists [], r|reflexivity].
    + split; [discriminate|]. intros (x & y & H). symmetry in H. apply app_eq_nil in H as [-> H].
      assert (X : after_prefix w (w ++ y) = Some y) by apply after_prefix_app. rewrite H in X. congruence.
  - destruct (after_prefix w (c :: b)) as [r|] eqn:E.
    + apply after_prefix_some in E. split; [intros _; now exists [], r|reflexivity].
    + rewrite IH. split.
      * intros (x & y & ->). now exists (c :: x), y.
      * intros ([|d x] & y & H); cbn [app] in H.
        -- rewrite H, after_prefix_app in E. discriminate.
        -- injection H as <- H. now exists x, y.
Qed.
Lemma example_spec c x : InitSpec.example_file c x -> clamav_example c = x.
Proof.
  intros [|content es L M|content es L M]; [reflexivity| |]; unfold clamav_example; rewrite (settings_spec _ _ L).
  - destruct (lookup (fold_left put_entry es []) (lit "Example")) eqn:E; [reflexivity|]. apply lookup_mentions in E. contradiction.
  - apply lookup_mentions in M. now rewrite M.
Qed.
Lemma greylist_delay c es m : InitSpec.greylist_file c es -> longest_delay es m -> greylist_extra (parse_greylist c) = m.
Proof.
  intros G [A B]. destruct c as [c|]; cbn [InitSpec.greylist_file] in G.
  - destruct (greylist_extra_spec _ _ G) as [P Q]. apply N.le_antisymm.
    + destruct Q as [->|Q]; [lia|now apply A].
    + destruct B as [->|B]; [lia|now apply P].
  - subst es. destruct B as [->|[]]. reflexivity.
Qed.
Lemma greylist_listens c es o : InitSpec.greylist_file c es -> last_socket es o -> greylist_socket (parse_greylist c) = o.
Proof.
  intros G L. destruct c as [c|]; cbn [InitSpec.greylist_file] in G; [now apply (greylist_socket_spec es)|]. subst es.
  destruct L as [[_ ->]|(a & p & b & E & _)]; [reflexivity|]. destruct a; discriminate.
Qed.

(** *** The tags of a script of Red Hat *)
Lemma info_walk l : forall r flag, one_line l -> (flag = true -> l <> lit "### BEGIN INIT INFO") ->
  split_info flag (l ++ lf :: r) = (let (t, o) := split_info true r in (l ++ lf :: t, o)).
Proof.
  assert (K : forall l r flag, one_line l -> (flag = true -> l <> lit "### BEGIN INIT INFO") ->
    (if flag then bind (after_prefix info_begin (l ++ lf :: r)) last_end else None) = None).
  { clear. intros l r flag O H. destruct flag; [|reflexivity]. rewrite after_none; [reflexivity|]. intros x E. unfold info_begin, nl in E. rewrite <- app_assoc in E.
    cbn [app] in E. apply split_once in E as [E _]; [now apply H|exact O|]. intros I. vm_compute in I. intuition discriminate. }
  induction l as [|c l IH]; intros r flag O H.
  - pose proof (K [] r flag O H) as Q. cbn [app] in Q |- *. cbn [split_info]. rewrite Q. change (beqb lf lf) with true. now destruct (split_info true r).
  - pose proof (K (c :: l) r flag O H) as Q. cbn [app] in Q |- *. cbn [split_info]. rewrite Q.
    replace (beqb c lf) with false by (symmetry; apply beqb_neq; intros ->; apply O; now left).
    rewrite IH; [|intros I; apply O; now right|discriminate]. now destruct (split_info true r).
Qed.
Definition lines_of (hs : list bytes) : bytes := concat (map (fun l => l ++ [byte_of 10]) hs).
Lemma no_info hs : Forall one_line hs -> ~ In (lit "### BEGIN INIT INFO") hs -> split_info true (lines_of hs) = (lines_of hs, None).
Proof.
  intros F. induction F as [|h hs O F IH]; intros N; [reflexivity|]. unfold lines_of. cbn [map concat]. rewrite <- app_assoc. cbn [app].
  change (byte_of 10) with lf. rewrite info_walk; [|exact O|intros _ E; apply N; now left].
  fold (lines_of hs). change (concat (map (fun l : list byte => l ++ [lf]) hs)) with (lines_of hs). rewrite IH by (intros I; apply N; now right). reflexivity.
Qed.
Lemma physical_lines hs : Forall one_line hs -> physical (lines_of hs) = map (fun l => l ++ [byte_of 10]) hs.
Proof.
  intros F. pose proof (physical_file hs [] F ltac:(intros [])) as P. unfold file in P. rewrite !app_nil_r in P. exact P.
Qed.
Lemma hash_ended hs rest : Forall InitSpec.hashed hs -> match rest with (c :: _) :: _ => c <> "#"%char | _ => True end ->
  hash_lines (map (fun l => l ++ [byte_of 10]) hs ++ rest) = map (fun l => l ++ [byte_of 10]) hs.
Proof.
  intros F R. induction F as [|h hs (t & ->) F IH]; cbn [map app].
  - destruct rest as [|[|c l] rest]; try reflexivity. cbn [hash_lines]. apply beqb_neq in R. now rewrite R.
  - cbn [hash_lines lit app]. change (hash_lines ((("#"%char :: t) ++ [byte_of 10]) :: map (fun l => l ++ [byte_of 10]) hs ++ rest)) with ((("#"%char :: t) ++ [byte_of 10]) :: hash_lines (map (fun l => l ++ [byte_of 10]) hs ++ rest)). rewrite IH. reflexivity.
Qed.
Lemma unmark_ended h : one_line h -> unmark (h ++ [byte_of 10]) = unmark h ++ [byte_of 10].
Proof.
  intros O. unfold unmark. destruct (after_prefix (lit "# ") h) as [r|] eqn:E.
  - apply after_prefix_some in E. rewrite E, <- app_assoc, after_prefix_app. reflexivity.
  - rewrite after_none; [reflexivity|]. intros r X. destruct h as [|a [|b h]]; cbn [app lit] in X; try discriminate.
    injection X as -> -> X. cbn in E. discriminate.
Qed.
Lemma unmark_in h c : In c (unmark h) -> In c h.
Proof.
  unfold unmark. destruct (after_prefix (lit "# ") h) as [r|] eqn:E; [|auto]. apply after_prefix_some in E. rewrite E. intros I. apply in_app_iff. now right.
Qed.
Lemma unmarked_lines hs : Forall one_line hs -> unmarked (lines_of hs) = lines_of (map unmark hs).
Proof.
  intros F. unfold unmarked. rewrite (physical_lines _ F). unfold lines_of. rewrite !map_map. f_equal. apply map_ext_in. intros h I.
  rewrite Forall_forall in F. now apply unmark_ended, F.
Qed.
Lemma strip_in c b : In c (strip b) -> In c b.
Proof.
  assert (D : forall p l, In c (drop_while p l) -> In c l).
  { induction l as [|x l IH]; [auto|]. cbn [drop_while]. destruct (p x); [|auto]. intros H. right. auto. }
  unfold strip, rstrip. rewrite <- in_rev. intros H. apply D in H. rewrite <- in_rev in H. now apply D in H.
Qed.
Lemma backslash_in b : ends_with_backslash b = true -> In (byte_of 92) b.
Proof.
  unfold ends_with_backslash. destruct (rev b) as [|c r] eqn:E; [discriminate|]. intros H. apply beqb_eq in H. subst c.
  apply in_rev. rewrite E. now left.
Qed.
Lemma tag_key ts line k v : tag_of ts line = Some (k, v) -> exists r, line = k ++ ":"%char :: r.
Proof.
  induction ts as [|t ts IH]; [discriminate|]. cbn [tag_of]. destruct (after_prefix (t ++ lit ":") line) as [r|] eqn:E; [|exact IH].
  intros H. injection H as <- _. apply after_prefix_some in E. rewrite <- app_assoc in E. now exists r.
Qed.
Lemma tag_step i h e o : one_line h -> InitSpec.hashed h -> ~ In (byte_of 92) h -> InitSpec.tag_says h e -> lookup i (lit "config") = o ->
  exists i', tag_line (i, false) (unmark h ++ [byte_of 10]) = (i', false) /\ lookup i' (lit "config") = match e with Some v => Some v | None => o end.
Proof.
  intros O H B T L. destruct T as [s v e Hs Hv He|l N].
  - change (unmark (lit "# config:" ++ s ++ v ++ e)) with (lit "config:" ++ s ++ v ++ e). rewrite <- !app_assoc.
    change (tag_line (i, false) (lit "config:" ++ s ++ v ++ e ++ [byte_of 10])) with ((lit "config", strip (s ++ v ++ e ++ [byte_of 10])) :: i, false).
    eexists. split; [reflexivity|]. cbn [lookup]. rewrite bytes_eqb_refl. f_equal. destruct Hv as [Hb Ht].
    rewrite strip_tight; [reflexivity|exact Hs|exact Hb|apply tight_open; now split|]. apply Forall_app. split; [exact He|]. constructor; [exact lf_white|constructor].
  - unfold tag_line. destruct (tag_of tags (unmark l ++ [byte_of 10])) as [[k v]|] eqn:E.
    + eexists. split; [reflexivity|]. cbn [lookup]. replace (bytes_eqb k (lit "config")) with false; [exact L|]. symmetry. apply bytes_eqb_neq. intros ->.
      apply tag_key in E as [r E]. destruct H as [t ->]. unfold unmark in E. destruct (after_prefix (lit "# ") (lit "#" ++ t)) as [x|] eqn:A; [|discriminate E].
      apply after_prefix_some in A. apply N. rewrite A. destruct (exists_last (l := lit "config" ++ ":"%char :: r) ltac:(discriminate)) as (y & z & Y).
      rewrite Y in E. apply app_inj_tail in E as [-> <-]. destruct r as [|r0 r] using rev_ind.
      * change (lit "config" ++ [":"%char]) with (lit "config" ++ lit ":") in Y. apply app_inj_tail in Y as [_ Y]. discriminate Y.
      * clear IHr. replace (lit "config" ++ ":"%char :: r ++ [r0]) with ((lit "config:" ++ r) ++ [r0]) in Y by (rewrite <- app_assoc; reflexivity).
        apply app_inj_tail in Y as [<- _]. now exists r.
    + destruct (after_prefix (lit "description:") (unmark l ++ [byte_of 10])) as [r|] eqn:A; [|eexists; split; [reflexivity|exact L]].
      replace (ends_with_backslash (strip r)) with false; [eexists; split; [reflexivity|exact L]|]. symmetry.
      destruct (ends_with_backslash (strip r)) eqn:X; [|reflexivity]. exfalso. apply backslash_in, strip_in in X. apply after_prefix_some in A.
      assert (I : In (byte_of 92) (unmark l ++ [byte_of 10])) by (rewrite A; apply in_app_iff; now right).
      apply in_app_iff in I as [I|[I|[]]]; [|discriminate I]. now apply B, unmark_in.
Qed.
Lemma tags_spec content b i : InitSpec.tagged content b -> rh_info content = Some i -> lookup i (lit "config") = b.
Proof.
  intros (hs & ls & last & es & -> & F & O & H & N & B & R & T & G) I. apply Forall_app in F as [Fh Fl].
  assert (K : first_block (file (hs ++ ls) last) = lines_of hs).
  { unfold first_block. rewrite physical_file; [|apply Forall_app; now split|exact O]. rewrite map_app, <- app_assoc, hash_ended; [reflexivity|exact H|].
    destruct ls as [|l ls]; cbn [map app hd] in *.
    - destruct last as [|c last]; [exact Logic.I|]. cbn. intros ->. apply R. now exists last.
    - destruct l as [|c l]; cbn [app]; [discriminate|]. intros ->. apply R. now exists l. }
  unfold rh_info in I. rewrite K, (no_info _ Fh N) in I. injection I as <-. unfold parse_tags. rewrite (unmarked_lines _ Fh).
  assert (Fu : Forall one_line (map unmark hs)).
  { apply Forall_map. eapply Forall_impl; [|exact Fh]. intros h Oh X. now apply Oh, unmark_in. }
  rewrite (physical_lines _ Fu), map_map. clear K Fu N R Fl O.
  assert (Q : forall j, exists j', fold_left tag_line (map (fun x => unmark x ++ [byte_of 10]) hs) (j, false) = (j', false) /\
    lookup j' (lit "config") = fold_left (fun s (e : option bytes) => match e with Some v => Some v | None => s end) es (lookup j (lit "config"))).
  { clear G. induction T as [|h e hs es Th T IH]; intros j; [now exists j|]. inversion Fh; inversion H; inversion B; subst. cbn [map fold_left].
    destruct (tag_step j h e (lookup j (lit "config"))) as (j' & E & J); auto. match goal with |- exists _, fold_left _ _ ?s = _ /\ _ => replace s with (j', false) by (symmetry; exact E) end. rewrite <- J. now apply IH. }
  destruct (Q []) as (j & -> & J). cbn [fst]. rewrite J. cbn [lookup].
  assert (Z : forall xs s, Forall (eq None) xs -> fold_left (fun s (e : option bytes) => match e with Some v => Some v | None => s end) xs s = s).
  { clear. intros xs s X. induction X as [|x xs <- X IH]; [reflexivity|exact IH]. }
  destruct G as [[G ->]|(a & v & c & -> & G & ->)]; [now apply Z|]. rewrite fold_left_app. cbn [fold_left]. now apply Z.
Qed.
