(** How assignments of the shell are read. *)
From Verif.Base Require Import Bytes BytesFacts.
From Verif.Model Require Import PostfixTable Breaker Detect.
From Verif.Spec Require Import PostfixSpec ConnectionSpecSpec.
From Verif.Spec Require BreakerSpec.
From Verif.Proofs Require Import PostfixProofs ConnectionSpecProofs BreakerProofs DetectProofs GreylistProofs.
From Verif.Spec Require Import DetectSpec.
Import List.
Local Open Scope N_scope.

(** *** Finding the definition *)
Definition definition_at (b : bytes) : option (bytes * bytes) :=
  match take_while is_word b, drop_while is_word b with
  | (_ :: _) as name, d :: rest =>
      if beqb d "=" && forallb (name_char false) name then Some (name, raw_value rest) else None
  | _, _ => None
  end.
Lemma find_step flag c b : find_definition false flag (c :: b) =
  match (if flag then None else definition_at (c :: b)) with Some r => Some r | None => find_definition false (is_word c) b end.
Proof. reflexivity. Qed.
Lemma definition_none b : match drop_while is_word b with d :: _ => d <> "="%char | [] => True end -> definition_at b = None.
Proof.
  intros H. unfold definition_at. destruct (take_while is_word b); [reflexivity|]. destruct (drop_while is_word b) as [|d r]; [reflexivity|].
  apply beqb_neq in H. rewrite H. reflexivity.
Qed.
Lemma drop_in p b : match drop_while p b with d :: _ => In d b | [] => True end.
Proof.
  induction b as [|c b IH]; [exact I|]. cbn [drop_while]. destruct (p c); [|now left].
  destruct (drop_while p b); [exact I|now right].
Qed.
Lemma find_none b : forall flag, ~ In "="%char b -> find_definition false flag b = None.
Proof.
  induction b as [|c b IH]; intros flag N; [reflexivity|]. rewrite find_step, definition_none.
  - replace (if flag then None else None) with (@None (bytes * bytes)) by now destruct flag.
    apply IH. intros H. apply N. now right.
  - pose proof (drop_in is_word (c :: b)) as D. destruct (drop_while is_word (c :: b)) as [|d r]; [exact I|].
    intros ->. contradiction.
Qed.
Lemma drop_within w a R : is_word w = false -> exists d r, drop_while is_word ((a ++ [w]) ++ R) = d :: r /\ In d (a ++ [w]).
Proof.
  intros H. induction a as [|c a (d & r & E & I)].
  - cbn [app drop_while]. rewrite H. exists w, R. split; [reflexivity|now left].
  - cbn [app drop_while] in *. destruct (is_word c).
    + rewrite E. exists d, r. split; [reflexivity|now right].
    + eexists. eexists. split; [reflexivity|now left].
Qed.
Lemma find_skip i : forall flag R r, Forall (fun c => c <> "="%char) i ->
  (i = [] \/ exists p c, i = p ++ [c] /\ white c) -> (i = [] -> flag = false) -> R <> [] ->
  definition_at R = Some r -> find_definition false flag (i ++ R) = Some r.
Proof.
  induction i as [|c i IH]; intros flag R r F P Fl N D.
  - cbn [app]. destruct R as [|d R]; [congruence|]. rewrite find_step, (Fl eq_refl), D. reflexivity.
  - destruct P as [P|(p & w & P & W)]; [discriminate|]. cbn [app]. rewrite find_step, definition_none.
    + replace (if flag then None else None) with (@None (bytes * bytes)) by now destruct flag.
      inversion F; subst. apply IH; auto.
      * destruct p as [|c' p]; cbn [app] in P; injection P as -> ->; [now left|right; exists p, w; auto].
      * intros ->. destruct p as [|c' p]; cbn [app] in P; [injection P as ->|destruct p; discriminate].
        apply space_not_word. now apply white_is.
    + change (c :: i ++ R) with ((c :: i) ++ R). rewrite P in F |- *.
      destruct (drop_within w p R) as (d & x & -> & I); [apply space_not_word; now apply white_is|].
      rewrite Forall_forall in F. now apply F.
Qed.

(** *** Values *)
Definition quiet (c : byte) : Prop := c <> dq /\ c <> sq /\ c <> "#"%char.
Lemma name_quiet c : BreakerSpec.name_char c -> quiet c.
Proof. intros H. unfold BreakerSpec.name_char in H. repeat split; intros ->; vm_compute in H; intuition congruence. Qed.
Lemma clean_quiet c : clean c -> quiet c.
Proof. intros (A & B & C & D & E). repeat split; assumption. Qed.
Lemma writes_quiet ps t : writes ps t -> Forall quiet t.
Proof.
  assert (K : forall n, referred n -> Forall quiet n).
  { intros n ((_ & F) & _). eapply Forall_impl; [|exact F]. apply name_quiet. }
  induction 1 as [|b ps t F W IH|n ps t R W IH|n ps t R W IH S].
  - constructor.
  - apply Forall_app. split; [|exact IH]. eapply Forall_impl; [|exact F]. apply clean_quiet.
  - repeat (apply Forall_app; split); auto.
    + repeat constructor; discriminate.
    + repeat constructor; discriminate.
  - repeat (apply Forall_app; split); auto. repeat constructor; discriminate.
Qed.
Lemma writes_argument ps t : writes ps t -> is_argument t = false.
Proof.
  induction 1 as [|b ps t F W IH|n ps t R W IH|n ps t R W IH S].
  - reflexivity.
  - destruct F as [|c b (C & _) F]; [exact IH|]. cbn [app]. unfold is_argument. apply beqb_neq in C. rewrite C.
    destruct (b ++ t); reflexivity.
  - reflexivity.
  - destruct R as ((N & _) & _ & D). destruct n as [|c n]; [congruence|]. specialize (D c n eq_refl).
    change (lit "$" ++ (c :: n) ++ t) with ("$"%char :: c :: n ++ t). unfold is_argument. rewrite beqb_refl. cbn [tl forallb andb].
    destruct (is_digit c) eqn:E; [|reflexivity]. exfalso. apply D. unfold is_digit in E. rewrite andb_true_iff, !N.leb_le in E. exact E.
Qed.
Lemma expand_skip f x t : expand f (length x) (x ++ t) = expand f 0 t.
Proof. induction x as [|c x IH]; [reflexivity|]. cbn [length app expand]. exact IH. Qed.
Lemma expand_text f b t : Forall clean b -> expand f 0 (b ++ t) = b ++ expand f 0 t.
Proof.
  induction 1 as [|c b (C & _) F IH]; [reflexivity|]. cbn [app expand]. apply beqb_neq in C. rewrite C, IH. reflexivity.
Qed.
Lemma reference_braced n t : word n -> reference (lit "{" ++ n ++ lit "}" ++ t) = Some (true, n, true).
Proof.
  intros W. change (lit "{" ++ n ++ lit "}" ++ t) with ("{"%char :: n ++ "}"%char :: t). unfold reference.
  rewrite beqb_refl. destruct (word_stops n ("}"%char :: t) W) as [-> ->]; [right; exists "}"%char, t; split; reflexivity|].
  destruct W as [N _]. destruct n; [congruence|reflexivity].
Qed.
Lemma reference_bare n t : word n -> stops t -> reference (n ++ t) = Some (false, n, false).
Proof.
  intros W S. assert (E : t = [] \/ exists c r', t = c :: r' /\ is_word c = false).
  { destruct S as [->|(c & t' & -> & H & _)]; [now left|right; exists c, t'; split; auto].
    destruct (is_word c) eqn:X; [|reflexivity]. apply word_name in X. contradiction. }
  destruct (word_stops n t W E) as [T D]. destruct W as [N F]. destruct n as [|c n]; [congruence|]. clear N.
  assert (H : beqb c "{" = false).
  { inversion F as [|? ? H]; subst. apply beqb_neq. intros ->. vm_compute in H. intuition congruence. }
  change ((c :: n) ++ t) with (c :: n ++ t) in *. unfold reference. rewrite H, T, D.
  f_equal. f_equal. destruct S as [->|(c' & t' & -> & _ & B)]; [reflexivity|]. now apply beqb_neq.
Qed.
Lemma expand_writes f env ps t : (forall n, referred n -> f n = env n) -> writes ps t ->
  forall v, means env ps v -> expand f 0 t = v.
Proof.
  intros Hf. induction 1 as [|b ps t F W IH|n ps t R W IH|n ps t R W IH S]; intros v M; inversion M; subst.
  - reflexivity.
  - rewrite expand_text by assumption. f_equal. now apply IH.
  - pose proof R as (Wn & _). change (lit "${" ++ n ++ lit "}" ++ t) with ("$"%char :: (lit "{" ++ n ++ lit "}" ++ t)).
    cbn [expand]. rewrite beqb_refl, (reference_braced n t Wn). cbn [eqb].
    rewrite (Hf n R). match goal with H : env n = Some _ |- _ => rewrite H end.
    f_equal. change (reference_text true n true) with (lit "{" ++ n ++ lit "}").
    replace (lit "{" ++ n ++ lit "}" ++ t) with ((lit "{" ++ n ++ lit "}") ++ t) by (rewrite <- !app_assoc; reflexivity).
    rewrite expand_skip. now apply IH.
  - pose proof R as (Wn & _). change (lit "$" ++ n ++ t) with ("$"%char :: (n ++ t)).
    cbn [expand]. rewrite beqb_refl, (reference_bare n t Wn S). cbn [eqb].
    rewrite (Hf n R). match goal with H : env n = Some _ |- _ => rewrite H end.
    f_equal. replace (reference_text false n false) with n by (unfold reference_text; cbn [app]; now rewrite app_nil_r).
    rewrite expand_skip. now apply IH.
Qed.
Lemma unquote_around q t : q = dq \/ q = sq -> unquote (q :: t ++ [q]) = t.
Proof.
  intros Q. unfold unquote. destruct t as [|c t]; [destruct Q as [->| ->]; reflexivity|].
  cbn [app]. change (q :: c :: t ++ [q]) with ((q :: c :: t) ++ [q]) at 1. rewrite last_last, beqb_refl, andb_true_r.
  cbn [tl]. change (c :: t ++ [q]) with ((c :: t) ++ [q]). rewrite removelast_last.
  destruct Q as [->| ->]; reflexivity.
Qed.
Lemma unquote_quiet t : Forall quiet t -> unquote t = t.
Proof.
  intros F. destruct F as [|c t (A & B & _) F]; [reflexivity|]. unfold unquote. apply beqb_neq in A. apply beqb_neq in B.
  rewrite A, B. destruct t; reflexivity.
Qed.
Lemma until_first q t r : ~ In q t -> until q (t ++ q :: r) = Some t.
Proof.
  induction t as [|c t IH]; intros N; cbn [app until].
  - rewrite beqb_refl. reflexivity.
  - replace (beqb c q) with false by (symmetry; apply beqb_neq; intros ->; apply N; now left).
    rewrite IH by (intros I; apply N; now right). reflexivity.
Qed.
Lemma quiet_no_dq t : Forall quiet t -> ~ In dq t.
Proof. intros F I. rewrite Forall_forall in F. apply F in I. now destruct I. Qed.
Lemma raw_plain t ce : Forall quiet t -> Forall (fun c => ~ white c) t -> ends_word ce -> raw_value (t ++ ce) = t.
Proof.
  intros Q W E.
  assert (T : take_while non_space (t ++ ce) = t).
  { rewrite take_all.
    - destruct E as [->|(c & r & -> & S)]; [cbn; now rewrite app_nil_r|].
      rewrite take_stop, app_nil_r by (unfold non_space; rewrite S; reflexivity). reflexivity.
    - eapply Forall_impl; [|exact W]. intros c H. unfold non_space. apply not_white in H. now rewrite H. }
  destruct t as [|c t].
  - cbn [app] in *. destruct E as [->|(c & r & -> & S)]; [reflexivity|]. unfold raw_value.
    replace (beqb c dq) with false by (symmetry; apply beqb_neq; intros ->; discriminate S).
    replace (beqb c sq) with false by (symmetry; apply beqb_neq; intros ->; discriminate S). exact T.
  - cbn [app] in *. unfold raw_value. inversion Q as [|? ? (A & B & _)]; subst. apply beqb_neq in A. apply beqb_neq in B.
    rewrite A, B. exact T.
Qed.
Lemma raw_double t ce : Forall quiet t -> raw_value (dq :: t ++ dq :: ce) = dq :: t ++ [dq].
Proof. intros Q. unfold raw_value. rewrite beqb_refl, until_first by now apply quiet_no_dq. reflexivity. Qed.
Lemma raw_single t ce : Forall quiet t -> raw_value (sq :: t ++ sq :: ce) = sq :: t ++ [sq].
Proof.
  intros Q. unfold raw_value. change (beqb sq dq) with false. rewrite beqb_refl, until_first; [reflexivity|].
  intros I. rewrite Forall_forall in Q. apply Q in I. now destruct I as (_ & N & _).
Qed.

(** *** Comments *)
Definition no_hash (b : bytes) : Prop := Forall (fun c => negb (beqb c "#") = true) b.
Lemma cut_app a b : no_hash a -> cut_comment (a ++ b) = a ++ cut_comment b.
Proof. intros H. unfold cut_comment. apply take_all. exact H. Qed.
Lemma hash_neq c : c <> "#"%char -> negb (beqb c "#") = true.
Proof. intros H. apply beqb_neq in H. now rewrite H. Qed.
Lemma white_no_hash s : Forall white s -> no_hash s.
Proof. intros F. eapply Forall_impl; [|exact F]. intros c H. apply hash_neq. intros ->. vm_compute in H. intuition discriminate. Qed.
Lemma quiet_no_hash s : Forall quiet s -> no_hash s.
Proof. intros F. eapply Forall_impl; [|exact F]. intros c (_ & _ & H). now apply hash_neq. Qed.
Lemma cut_end e' e : ended e' e -> line_end e -> ends_word (cut_comment e').
Proof.
  intros E L. destruct L as [|s S|s t S].
  - destruct E as [->| ->]; [right; exists (byte_of 10), []; split; reflexivity|now left].
  - pose proof S as [N F]. apply white_no_hash in F. destruct E as [->| ->].
    + rewrite (cut_app _ _ F). now apply spaces_end.
    + rewrite <- (app_nil_r s), (cut_app _ _ F). now apply spaces_end.
  - pose proof S as [N F]. apply white_no_hash in F. apply ended_app in E as (b & -> & E). rewrite (cut_app _ _ F).
    now apply spaces_end.
Qed.

(** *** A line *)
Lemma leader_facts i : leader i ->
  Forall (fun c => c <> "="%char /\ c <> "#"%char) i /\ (i = [] \/ exists p c, i = p ++ [c] /\ white c).
Proof.
  assert (K : forall w, Forall white w -> Forall (fun c => c <> "="%char /\ c <> "#"%char) w).
  { intros w F. eapply Forall_impl; [|exact F]. intros c H. split; intros ->; vm_compute in H; intuition discriminate. }
  assert (L : forall w, Forall white w -> w <> [] -> exists p c, w = p ++ [c] /\ white c).
  { intros w F N. destruct w as [|c w _] using rev_ind; [congruence|]. apply Forall_app in F as [_ F]. inversion F; subst. eauto. }
  intros [w F|w s F [N S]].
  - split; [now apply K|]. destruct w as [|c w]; [now left|]. right. now apply L.
  - split.
    + rewrite !Forall_app. split; [now apply K|]. split; [|now apply K]. repeat constructor; discriminate.
    + right. destruct (L s S N) as (p & c & -> & W). exists (w ++ lit "export" ++ p), c. split; [|exact W].
      rewrite <- !app_assoc. reflexivity.
Qed.
Lemma capital_true c : capital c -> name_char false c = true.
Proof.
  unfold capital, name_char, is_upper, is_digit. intros [H|[H|H]].
  - rewrite !orb_true_iff, !andb_true_iff, !N.leb_le. auto.
  - rewrite !orb_true_iff, !andb_true_iff, !N.leb_le. auto.
  - rewrite !orb_true_iff. right. apply beqb_eq.
    rewrite <- (ascii_N_embedding c). unfold code in H. rewrite H. reflexivity.
Qed.
Lemma capital_word n : n <> [] -> Forall capital n -> word n.
Proof. intros N F. split; [exact N|]. eapply Forall_impl; [|exact F]. intros c. unfold capital, BreakerSpec.name_char. tauto. Qed.
Lemma definition_here n rest : n <> [] -> Forall capital n -> definition_at (n ++ "="%char :: rest) = Some (n, raw_value rest).
Proof.
  intros N F. pose proof (capital_word n N F) as W. unfold definition_at.
  destruct (word_stops n ("="%char :: rest) W) as [-> ->]; [right; exists "="%char, rest; split; reflexivity|].
  destruct n as [|c n]; [congruence|]. rewrite beqb_refl. replace (forallb (name_char false) (c :: n)) with true; [reflexivity|].
  symmetry. apply forallb_forall. intros x I. rewrite Forall_forall in F. now apply capital_true, F.
Qed.
Lemma find_here i n rest : leader i -> n <> [] -> Forall capital n ->
  find_definition false false (i ++ n ++ "="%char :: rest) = Some (n, raw_value rest).
Proof.
  intros Hl N C. apply leader_facts in Hl as [F P]. apply find_skip; auto.
  - eapply Forall_impl; [|exact F]. tauto.
  - destruct n; discriminate.
  - now apply definition_here.
Qed.
Lemma cut_line i n V e' : leader i -> Forall capital n -> no_hash V ->
  cut_comment (i ++ n ++ lit "=" ++ V ++ e') = i ++ n ++ "="%char :: V ++ cut_comment e'.
Proof.
  intros Hl C V'. apply leader_facts in Hl as [F _]. rewrite cut_app by (eapply Forall_impl; [|exact F]; intros c [_ H]; now apply hash_neq).
  rewrite cut_app by (apply quiet_no_hash; eapply Forall_impl; [|exact C]; intros c H; apply name_quiet; unfold capital, BreakerSpec.name_char in *; tauto).
  rewrite cut_app by (repeat constructor). rewrite (cut_app _ _ V'). reflexivity.
Qed.
Lemma normalized f env ps t raw v : (forall n, referred n -> f n = env n) -> writes ps t -> means env ps v ->
  unquote raw = t -> normalize_value f raw = Some v.
Proof.
  intros Hf W M U. unfold normalize_value. rewrite U, (writes_argument _ _ W). f_equal. now apply (expand_writes f env ps t).
Qed.
Lemma clean_writes b : Forall clean b -> writes [Text b] b.
Proof. intros F. rewrite <- (app_nil_r b) at 2. now repeat constructor. Qed.
Lemma extract_assign own vs env p l n ps v : ended p l -> shell_line l (Some (n, ps)) -> means env ps v ->
  (forall m, variable vs m = env m) -> extract_line false own vs p = (n, Some v) :: vs.
Proof.
  intros E S M R. unfold extract_line.
  assert (Hf : forall m, referred m -> expand_variable own vs m = env m).
  { intros m (_ & N & _). unfold expand_variable. apply bytes_eqb_neq in N. rewrite N. apply R. }
  inversion S as [| |i n' ps' t e Li N C W NW Le|i n' ps' t e Li N C W Le|i n' b e Li N C Cl Le]; subst.
  - apply ended_app in E as (y0 & -> & E); apply ended_app in E as (y1 & -> & E); apply ended_app in E as (y2 & -> & E);
    apply ended_app in E as (e' & -> & E).
    pose proof (writes_quiet _ _ W) as Q. rewrite cut_line by auto using quiet_no_hash.
    assert (NW' : Forall (fun c => ~ white c) t) by (eapply Forall_impl; [|exact NW]; intros c Hc; apply Hc).
    rewrite find_here, raw_plain by eauto using cut_end.
    rewrite (normalized _ env ps t t v Hf W M) by now apply unquote_quiet. reflexivity.
  - apply ended_app in E as (y0 & -> & E); apply ended_app in E as (y1 & -> & E); apply ended_app in E as (y2 & -> & E);
    apply ended_app in E as (y3 & -> & E); apply ended_app in E as (y4 & -> & E);
    apply ended_app in E as (e' & -> & E).
    pose proof (writes_quiet _ _ W) as Q.
    replace (i ++ n ++ lit "=" ++ [double_quote] ++ t ++ [double_quote] ++ e')
      with (i ++ n ++ lit "=" ++ (dq :: t ++ [dq]) ++ e') by (cbn [app]; rewrite <- app_assoc; reflexivity).
    rewrite cut_line; auto.
    + rewrite find_here by assumption. cbn [app]. rewrite <- app_assoc. cbn [app]. rewrite raw_double by assumption.
      rewrite (normalized _ env ps t _ v Hf W M) by (apply unquote_around; now left). reflexivity.
    + constructor; [reflexivity|]. apply Forall_app. split; [now apply quiet_no_hash|repeat constructor].
  - apply ended_app in E as (y0 & -> & E); apply ended_app in E as (y1 & -> & E); apply ended_app in E as (y2 & -> & E);
    apply ended_app in E as (y3 & -> & E); apply ended_app in E as (y4 & -> & E);
    apply ended_app in E as (e' & -> & E).
    pose proof (clean_writes _ Cl) as W. pose proof (writes_quiet _ _ W) as Q.
    replace (i ++ n ++ lit "=" ++ [single_quote] ++ b ++ [single_quote] ++ e')
      with (i ++ n ++ lit "=" ++ (sq :: b ++ [sq]) ++ e') by (cbn [app]; rewrite <- app_assoc; reflexivity).
    rewrite cut_line; auto.
    + rewrite find_here by assumption. cbn [app]. rewrite <- app_assoc. cbn [app]. rewrite raw_single by assumption.
      rewrite (normalized _ env [Text b] b _ v Hf W M) by (apply unquote_around; now right). reflexivity.
    + constructor; [reflexivity|]. apply Forall_app. split; [now apply quiet_no_hash|repeat constructor].
Qed.
Lemma white_not_eq c : white c -> c <> "="%char.
Proof. intros H ->. vm_compute in H. intuition discriminate. Qed.
Lemma take_in p b c : In c (take_while p b) -> In c b.
Proof. rewrite (take_drop p b) at 2. rewrite in_app_iff. auto. Qed.
Lemma extract_nothing own vs p l : ended p l -> shell_line l None -> extract_line false own vs p = vs.
Proof.
  intros E S. unfold extract_line. rewrite find_none; [reflexivity|].
  inversion S as [? I|w s n e Hw Hs Hn He| | |]; subst.
  - destruct I as [l F|w l F].
    + intros H. apply take_in in H. rewrite Forall_forall in F. destruct E as [->| ->].
      * apply in_app_iff in H as [H|[H|[]]]; [now apply (white_not_eq _ (F _ H))|discriminate H].
      * now apply (white_not_eq _ (F _ H)).
    + apply ended_app in E as (b & -> & E). rewrite cut_app by now apply white_no_hash.
      rewrite in_app_iff. intros [H|H].
      * rewrite Forall_forall in F. now apply (white_not_eq _ (F _ H)).
      * destruct E as [->| ->]; exact H.
  - assert (N : ~ In "="%char (w ++ lit "export" ++ s ++ n ++ e)).
    { destruct Hs as [_ Hs]. destruct Hn as [_ Hn]. rewrite Forall_forall in Hw, Hs, Hn, He. rewrite !in_app_iff.
      intros [H|[H|[H|[H|H]]]].
      - now apply (white_not_eq _ (Hw _ H)).
      - vm_compute in H. intuition discriminate.
      - now apply (white_not_eq _ (Hs _ H)).
      - apply Hn in H. vm_compute in H. intuition congruence.
      - now apply (white_not_eq _ (He _ H)). }
    intros H. apply take_in in H. destruct E as [->| ->]; [|contradiction].
    apply in_app_iff in H as [H|[H|[]]]; [contradiction|discriminate H].
Qed.

(** *** A file *)
Definition stands {E} (M : bytes -> E -> Prop) (p : bytes) (e : E) : Prop := exists l, ended p l /\ one_line l /\ M l e.
Lemma lists_lines {E} (M : bytes -> E -> Prop) es content : lists M es content ->
  Forall2 (stands M) (physical content) es \/ exists es' e, es = es' ++ [e] /\ M [] e /\ Forall2 (stands M) (physical content) es'.
Proof.
  intros (ls & last & -> & F & L & F2). rewrite (physical_file _ _ F L).
  revert es F2. induction F as [|l ls H F IH]; intros es F2.
  - inversion F2 as [|? e ? es' HM F2']; subst. inversion F2'; subst. cbn [map app].
    destruct last as [|c last].
    + right. exists [], e. repeat split; auto.
    + left. constructor; [|constructor]. exists (c :: last). split; [now right|]. split; assumption.
  - inversion F2 as [|? e ? es' HM F2']; subst. cbn [map app].
    assert (Q : stands M (l ++ [byte_of 10]) e) by (exists l; split; [now left|split; assumption]).
    destruct (IH es' F2') as [X|(es'' & e' & -> & Me & X)].
    + left. constructor; assumption.
    + right. exists (e :: es''), e'. split; [reflexivity|]. split; [exact Me|]. constructor; assumption.
Qed.
Lemma empty_says e : shell_line [] e -> e = None.
Proof.
  assert (K : forall (i n r : bytes), n <> [] -> i ++ n ++ r = [] -> False).
  { intros i n r N X. apply app_eq_nil in X as [_ X]. apply app_eq_nil in X as [X _]. contradiction. }
  intros H. assert (L : exists l : bytes, l = [] /\ shell_line l e) by (exists []; auto). clear H.
  destruct L as (l & L & H). destruct H; try reflexivity; exfalso;
    (eapply K; [|exact L]; assumption).
Qed.
Lemma runs_snoc env es out : runs env (es ++ [None]) out -> runs env es out.
Proof.
  revert env. induction es as [|[[n ps]|] es IH]; intros env H; cbn [app] in H; inversion H; subst.
  - assumption.
  - econstructor; eauto.
  - constructor. auto.
Qed.
Lemma extract_runs own es ps : Forall2 (stands shell_line) ps es -> forall vs env out,
  (forall m, variable vs m = env m) -> runs env es out ->
  forall m, variable (fold_left (extract_line false own) ps vs) m = out m.
Proof.
  induction 1 as [|p e ps es (l & E & O & M) F IH]; intros vs env out R H; inversion H; subst; cbn [fold_left].
  - exact R.
  - rewrite (extract_nothing own vs p l E M). now apply (IH vs env).
  - match goal with Hm : means env _ ?v |- _ => rewrite (extract_assign own vs env p l _ _ v E M Hm R);
      apply (IH _ (set env n v)) end; [|assumption].
    intros m. unfold variable, set. cbn [lookup]. destruct (bytes_eqb n m); [reflexivity|apply R].
Qed.
Lemma extract_spec own es content vs env out : lists shell_line es content -> (forall m, variable vs m = env m) ->
  runs env es out -> forall m, variable (extract_variables false own vs content) m = out m.
Proof.
  intros H R Hr. unfold extract_variables. destruct (lists_lines _ _ _ H) as [F|(es' & e & -> & Me & F)].
  - now apply (extract_runs own es _ F vs env).
  - apply empty_says in Me. subst. apply runs_snoc in Hr. now apply (extract_runs own es' _ F vs env).
Qed.
