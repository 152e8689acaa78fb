(** How the comments at the beginning of init scripts are read. *)
From Verif.Base Require Import Bytes BytesFacts.
From Verif.Model Require Import PostfixTable Breaker Detect InitDetect.
From Verif.Spec Require Import PostfixSpec ConnectionSpecSpec.
From Verif.Proofs Require Import PostfixProofs ConnectionSpecProofs DetectProofs UnitProofs RcProofs InitProofs.
From Verif.Spec Require Import DetectSpec.
From Verif.Spec Require RcSpec InitSpec.
From Verif.Spec Require Import InfoSpec.
Import List.
Local Open Scope N_scope.

Lemma trimmed_open t : trimmed t -> exists b c, t = b ++ [c] /\ open_end c = false.
Proof.
  intros (_ & b & c & E & W & Z). exists b, c. split; [exact E|]. unfold open_end. apply not_white in W. rewrite W. now apply beqb_neq.
Qed.
Lemma key_is c : keyword_char c -> key_char c = true.
Proof.
  intros [H|[H| ->]]; [| |reflexivity]; unfold key_char, code; rewrite !orb_true_iff, !andb_true_iff, !N.leb_le; tauto.
Qed.
Lemma colon_key : key_char ":" = false.
Proof. reflexivity. Qed.

(** *** The entries *)
Lemma fields_key k : forall value run bl r, Forall keyword_char k -> k ++ run <> [] ->
  info_fields value run bl (k ++ ":"%char :: r) = (let (v, es) := info_fields [] [] true r in (rev value, (rev run ++ k, v) :: es)).
Proof.
  induction k as [|c k IH]; intros value run bl r F N.
  - cbn [app] in *. cbn [info_fields]. change (beqb ":" ":") with true. cbn iota. destruct run as [|x run]; [congruence|]. now rewrite app_nil_r.
  - inversion F as [|? ? C F']; subst. cbn [app info_fields]. destruct (beqb c ":") eqn:E.
    + apply beqb_eq in E. subst c. apply key_is in C. discriminate.
    + rewrite (key_is _ C), IH; [|exact F'|intros X; apply app_eq_nil in X as [_ X]; discriminate].
      destruct (info_fields [] [] true r) as [v es]. cbn [rev]. now rewrite <- app_assoc.
Qed.
Lemma fields_blank s : forall r, Forall white s -> info_fields [] [] true (s ++ r) = info_fields [] [] true r.
Proof.
  induction s as [|c s IH]; intros r F; [reflexivity|]. inversion F as [|? ? C F']; subst. apply white_is in C. cbn [app info_fields].
  assert (E : beqb c ":" = false) by (destruct (beqb c ":") eqn:E; [|reflexivity]; apply beqb_eq in E; subst; discriminate C).
  assert (K : key_char c = false).
  { unfold key_char. unfold is_space in C. destruct (beqb c "-") eqn:D; [apply beqb_eq in D; subst; discriminate C|].
    rewrite orb_true_iff, andb_true_iff, N.eqb_eq, !N.leb_le in C. rewrite orb_false_r, orb_false_iff, !andb_false_iff, !N.leb_gt. lia. }
  rewrite E, K, C. cbn [andb]. now apply IH.
Qed.
Lemma fields_text x : forall value run r, ~ In ":"%char x -> exists value' run',
  info_fields value run false (x ++ r) = info_fields value' run' false r /\ run' ++ value' = rev x ++ run ++ value.
Proof.
  induction x as [|c x IH]; intros value run r N; [now exists value, run|].
  cbn [app info_fields]. assert (E : beqb c ":" = false) by (apply beqb_neq; intros ->; apply N; now left). rewrite E.
  assert (N' : ~ In ":"%char x) by (intros I; apply N; now right). cbn [andb].
  destruct (key_char c) eqn:K.
  - destruct (IH value (c :: run) r N') as (v' & r' & A & B). exists v', r'. split; [exact A|]. rewrite B. cbn [rev]. now rewrite <- app_assoc.
  - destruct (IH (c :: run ++ value) [] r N') as (v' & r' & A & B). exists v', r'. split; [exact A|]. rewrite B. cbn [rev app]. now rewrite <- app_assoc.
Qed.
Lemma fields_line y value r : ~ In ":"%char y ->
  info_fields value [] false (y ++ lf :: r) = info_fields (rev (y ++ [lf]) ++ value) [] false r.
Proof.
  intros N. destruct (fields_text y value [] (lf :: r) N) as (v' & r' & A & B). rewrite A. cbn [info_fields]. change (beqb lf ":") with false.
  change (key_char lf) with false. cbn [andb]. rewrite B. now rewrite rev_unit.
Qed.
Lemma fields_end y value : ~ In ":"%char y -> info_fields value [] false y = (rev value ++ y, []).
Proof.
  intros N. destruct (fields_text y value [] [] N) as (v' & r' & A & B). rewrite app_nil_r in A. rewrite A. cbn [info_fields]. rewrite B.
  cbn [app]. now rewrite rev_app_distr, rev_involutive.
Qed.
Lemma white_split b : exists s x, b = s ++ x /\ Forall white s /\ drop_while is_space b = x /\ (x = [] \/ begins_text x).
Proof.
  induction b as [|c b IH]; [exists [], []; auto|]. destruct (is_space c) eqn:E.
  - destruct IH as (s & x & -> & F & D & X). exists (c :: s), x. split; [reflexivity|]. split; [constructor; [now apply is_space_white|exact F]|].
    split; [cbn [drop_while]; now rewrite E|exact X].
  - exists [], (c :: b). split; [reflexivity|]. split; [constructor|]. split; [now apply drop_stop|]. right. exists c, b. split; [reflexivity|]. now apply not_white.
Qed.
Lemma fields_begin x : begins_text x -> ~ In ":"%char x -> forall r, info_fields [] [] true (x ++ r) = info_fields [] [] false (x ++ r).
Proof.
  intros (c & x' & -> & W) N r. apply not_white in W. cbn [app info_fields]. rewrite W. destruct (beqb c ":"); reflexivity.
Qed.
(** What follows a keyword: up to the end of a line, or to the end. *)
Lemma value_line body r : ~ In ":"%char body -> exists value,
  info_fields [] [] true (body ++ lf :: r) = info_fields value [] (match value with [] => true | _ => false end) r /\
  rev value = drop_while is_space (body ++ [lf]).
Proof.
  intros N. destruct (white_split (body ++ [lf])) as (s & x & E & F & D & X). rewrite D.
  replace (body ++ lf :: r) with ((body ++ [lf]) ++ r) by (now rewrite <- app_assoc). rewrite E, <- app_assoc, (fields_blank _ _ F).
  destruct X as [->|X]; [exists []; now split|]. exists (rev x). split; [|apply rev_involutive].
  assert (Nx : ~ In ":"%char x).
  { intros I. assert (J : In ":"%char (body ++ [lf])) by (rewrite E; apply in_app_iff; now right). apply in_app_iff in J as [J|[J|[]]]; [now apply N|discriminate J]. }
  rewrite (fields_begin _ X Nx). destruct (exists_last (l := x)) as (y & c & Y); [destruct X as (? & ? & -> & _); discriminate|].
  rewrite Y, app_assoc in E. apply app_inj_tail in E as [_ <-]. rewrite Y, <- app_assoc. cbn [app]. rewrite fields_line.
  - rewrite app_nil_r. destruct (rev (y ++ [lf])) eqn:Q; [rewrite rev_unit in Q; discriminate|reflexivity].
  - intros I. apply Nx. rewrite Y. apply in_app_iff. now left.
Qed.
Lemma value_end body : ~ In ":"%char body -> info_fields [] [] true body = (drop_while is_space body, []).
Proof.
  intros N. destruct (white_split body) as (s & x & E & F & D & X). rewrite D, E, (fields_blank _ _ F).
  destruct X as [->|X]; [reflexivity|].
  assert (Nx : ~ In ":"%char x) by (intros I; apply N; rewrite E; apply in_app_iff; now right).
  rewrite <- (app_nil_r x) at 1. rewrite (fields_begin _ X Nx), app_nil_r. now rewrite fields_end.
Qed.
Definition entry (kb : bytes * bytes) : bytes := fst kb ++ ":"%char :: snd kb.
Definition proper (kb : bytes * bytes) : Prop := keyword (fst kb) /\ ~ In ":"%char (snd kb).
Lemma fields_all items : forall value bl kb, Forall proper items -> proper kb ->
  info_fields value [] bl (concat (map (fun x => entry x ++ [lf]) items) ++ entry kb) =
  (rev value, map (fun x => (fst x, drop_while is_space (snd x ++ [lf]))) items ++ [(fst kb, drop_while is_space (snd kb))]).
Proof.
  induction items as [|[k b] items IH]; intros value bl [k' b'] F ((N & K) & C); cbn [fst snd] in *.
  - cbn [map concat app]. unfold entry. cbn [fst snd]. rewrite fields_key; [|exact K|now rewrite app_nil_r]. rewrite (value_end _ C). reflexivity.
  - inversion F as [|? ? ((N1 & K1) & C1) F']; subst. cbn [fst snd] in *. cbn [map concat]. unfold entry at 1. cbn [fst snd]. rewrite <- !app_assoc. cbn [app].
    rewrite fields_key; [|exact K1|now rewrite app_nil_r].
    destruct (value_line b (concat (map (fun x => entry x ++ [lf]) items) ++ entry (k', b')) C1) as (v & -> & V).
    rewrite (IH v _ (k', b') F'); [|now split]. cbn [fst snd app rev]. now rewrite V.
Qed.

(** *** Their texts *)
Lemma join_text t : forall run c r, one_line t -> ~ In lf run -> is_space c = false ->
  join_lines run (t ++ c :: r) = rev run ++ t ++ c :: join_lines [] r.
Proof.
  assert (FL : forall run, ~ In lf run -> flush run = rev run).
  { intros run N. unfold flush. destruct (existsb (beqb lf) run) eqn:E; [|reflexivity]. apply existsb_exists in E as (x & I & X). apply beqb_eq in X. now subst. }
  induction t as [|x t IH]; intros run c r O N C; cbn [app join_lines].
  - now rewrite C, (FL _ N).
  - assert (O' : one_line t) by (intros I; apply O; now right). destruct (is_space x) eqn:X.
    + rewrite IH; [|exact O'| |exact C]; [cbn [rev]; now rewrite <- app_assoc|]. intros [I|I]; [subst; apply O; now left|now apply N].
    + rewrite IH; [|exact O'|intros []|exact C]. now rewrite (FL _ N).
Qed.
Lemma join_white s : forall run r, Forall white s -> join_lines run (s ++ r) = join_lines (rev s ++ run) r.
Proof.
  induction s as [|c s IH]; intros run r F; [reflexivity|]. inversion F as [|? ? C F']; subst. apply white_is in C. cbn [app join_lines].
  rewrite C, IH by exact F'. cbn [rev]. now rewrite <- app_assoc.
Qed.
Lemma join_told t run r : one_line t -> trimmed t -> join_lines run (t ++ r) = flush run ++ t ++ join_lines [] r.
Proof.
  intros O (B & b & c & E & W & _). destruct B as (x & t' & -> & X). apply not_white in X, W. cbn [app join_lines]. rewrite X. f_equal.
  destruct b as [|y b]; cbn [app] in E; [injection E as -> ->; reflexivity|]. injection E as <- ->. rewrite <- app_assoc. cbn [app].
  rewrite (join_text b [] c r); [rewrite <- app_assoc; reflexivity| |intros []|exact W]. intros I. apply O. right. apply in_app_iff. now left.
Qed.
Lemma flush_white run : Forall white run -> Forall white (flush run).
Proof.
  intros F. unfold flush. destruct (existsb (beqb lf) run); [constructor; [now left|constructor]|]. now apply Forall_rev.
Qed.
Definition tail_lines (cs : list (bytes * bytes * bytes)) : bytes :=
  concat (map (fun c => lf :: fst (fst c) ++ snd (fst c) ++ snd c) cs).
Definition tail_proper (c : bytes * bytes * bytes) : Prop :=
  Forall white (fst (fst c)) /\ told (snd (fst c)) /\ one_line (snd (fst c)) /\ Forall white (snd c).
Lemma join_tail cs : forall run e z, Forall tail_proper cs -> Forall white run -> Forall white e -> Forall white z ->
  exists sp, Forall white sp /\
    join_lines run (e ++ tail_lines cs ++ z) = concat (map (fun c => lit " " ++ snd (fst c)) cs) ++ sp.
Proof.
  induction cs as [|[[w t] e'] cs IH]; intros run e z F R E Z; rewrite (join_white e _ _ E).
  - cbn [tail_lines map concat app]. unfold tail_lines. cbn [map concat app]. rewrite <- (app_nil_r z), (join_white z _ _ Z). cbn [join_lines].
    exists (flush (rev z ++ rev e ++ run)). split; [|reflexivity]. apply flush_white. repeat (apply Forall_app; split); auto using Forall_rev.
  - inversion F as [|? ? (W & T & O & E') F']; subst. cbn [fst snd] in *. unfold tail_lines. cbn [map concat fst snd]. fold (tail_lines cs).
    rewrite <- !app_assoc. cbn [app]. rewrite <- !app_assoc. cbn [join_lines]. change (is_space lf) with true. cbn iota. rewrite (join_white w _ _ W), (join_told _ _ _ O (proj1 T)).
    destruct (IH [] e' z F' ltac:(constructor) E' Z) as (sp & S & ->). exists sp. split; [exact S|].
    replace (flush (rev w ++ lf :: rev e ++ run)) with (lit " "); [cbn [lit app]; now rewrite <- !app_assoc|].
    unfold flush. replace (existsb (beqb lf) (rev w ++ lf :: rev e ++ run)) with true; [reflexivity|]. symmetry. apply existsb_exists. exists lf. split; [|apply beqb_refl].
    apply in_app_iff. right. now left.
Qed.
Lemma value_told s v e cs z : Forall white s -> told v -> one_line v -> Forall white e -> Forall tail_proper cs -> Forall white z ->
  strip (join_lines [] (drop_while is_space (s ++ v ++ e ++ tail_lines cs ++ z))) = v ++ concat (map (fun c => lit " " ++ snd (fst c)) cs).
Proof.
  intros S (T & _) O E F Z. apply whites in S. rewrite (drop_all _ _ _ S). destruct T as ((x & v' & -> & X) & L).
  assert (T : trimmed (x :: v')) by (split; [now exists x, v'|exact L]).
  change ((x :: v') ++ e ++ tail_lines cs ++ z) with (x :: v' ++ e ++ tail_lines cs ++ z). rewrite drop_stop by now apply not_white.
  change (x :: v' ++ e ++ tail_lines cs ++ z) with ((x :: v') ++ e ++ tail_lines cs ++ z). rewrite (join_told _ _ _ O T). change (flush []) with (@nil byte). cbn [app].
  destruct (join_tail cs [] e z F ltac:(constructor) E Z) as (sp & Sp & ->).
  change (x :: v' ++ concat (map (fun c => lit " " ++ snd (fst c)) cs) ++ sp) with ((x :: v') ++ concat (map (fun c => lit " " ++ snd (fst c)) cs) ++ sp).
  rewrite app_assoc. pose proof (strip_tight [] ((x :: v') ++ concat (map (fun c => lit " " ++ snd (fst c)) cs)) sp) as Q. cbn [app] in Q |- *. rewrite Q; [reflexivity|constructor| | |exact Sp].
  - exists x. eexists. split; [reflexivity|exact X].
  - destruct cs as [|c0 cs0] using rev_ind; [cbn [map concat]; rewrite app_nil_r; now apply trimmed_open|].
    apply Forall_app in F as [_ F]. inversion F as [|? ? (_ & Tc & _) _]; subst. destruct (trimmed_open _ (proj1 Tc)) as (b & c & B & C).
    rewrite map_app, concat_app. cbn [map concat]. rewrite app_nil_r. destruct c0 as [[w0 t0] e0]. cbn [fst snd] in *. rewrite B. exists (x :: v' ++ concat (map (fun c => lit " " ++ snd (fst c)) cs0) ++ lit " " ++ b), c.
    split; [cbn [app]; now rewrite <- !app_assoc|exact C].
Qed.
Lemma value_empty s z : Forall white s -> Forall white z -> strip (join_lines [] (drop_while is_space (s ++ z))) = [].
Proof.
  intros S Z. apply whites in S, Z. rewrite (drop_all _ _ _ S). rewrite <- (app_nil_r z), (drop_all _ _ _ Z). reflexivity.
Qed.

(** *** The marks *)
Lemma over_some r z : info_over r = Some z -> exists t, r = lf :: mark_end ++ t /\ (t = [] \/ exists t', t = lf :: t').
Proof.
  unfold info_over. destruct (after_prefix info_end r) as [t|] eqn:E; [|discriminate]. apply after_prefix_some in E. intros H.
  exists t. split; [exact E|]. destruct t as [|c t]; [now left|]. destruct (beqb c lf) eqn:B; [|discriminate]. apply beqb_eq in B. subst. right. now exists t.
Qed.
Lemma over_lines ps : Forall one_line ps -> ~ In mark_end ps -> info_over (lf :: lines_of ps) = None.
Proof.
  intros F N. destruct (info_over (lf :: lines_of ps)) as [z|] eqn:E; [|reflexivity]. exfalso. apply over_some in E as (t & E & T). injection E as E.
  destruct F as [|p ps O F]; [discriminate E|]. unfold lines_of in E. cbn [map concat] in E. fold (lines_of ps) in E. rewrite <- app_assoc in E. cbn [app] in E.
  assert (M : one_line mark_end) by (intros I; vm_compute in I; intuition discriminate).
  destruct T as [->|(t' & ->)].
  - apply M. assert (I : In (byte_of 10) (p ++ byte_of 10 :: lines_of ps)) by (apply in_app_iff; right; now left). rewrite E in I. exact I.
  - change (p ++ lf :: lines_of ps = mark_end ++ lf :: t') in E. apply split_once in E as [-> _]; [|exact O|exact M]. apply N. now left.
Qed.
Lemma over_other c r : c <> lf -> info_over (c :: r) = None.
Proof.
  intros N. destruct (info_over (c :: r)) as [z|] eqn:E; [|reflexivity]. apply over_some in E as (t & E & _). injection E as -> _. congruence.
Qed.
Lemma end_none ps : Forall one_line ps -> ~ In mark_end ps -> forall x, one_line x -> last_end (x ++ lf :: lines_of ps) = None.
Proof.
  intros F. induction F as [|p ps O F IH]; intros N.
  - induction x as [|c x IHx]; intros Ox; [reflexivity|]. cbn [app last_end]. rewrite IHx by (intros I; apply Ox; now right).
    destruct x as [|d x]; [reflexivity|]. cbn [app]. rewrite over_other; [reflexivity|]. intros ->. apply Ox. right. now left.
  - assert (N' : ~ In mark_end ps) by (intros I; apply N; now right). assert (Fp : Forall one_line (p :: ps)) by now constructor.
    assert (Q : lines_of (p :: ps) = p ++ lf :: lines_of ps) by (unfold lines_of; cbn [map concat]; now rewrite <- app_assoc).
    induction x as [|c x IHx]; intros Ox; cbn [app last_end].
    + rewrite Q, (IH N' p O). destruct p as [|d p]; cbn [app]; [now rewrite over_lines|]. rewrite over_other; [reflexivity|]. intros ->. apply O. now left.
    + rewrite IHx by (intros I; apply Ox; now right). destruct x as [|d x]; cbn [app]; [now rewrite over_lines|].
      rewrite over_other; [reflexivity|]. intros ->. apply Ox. right. now left.
Qed.
Lemma end_found a c r z : info_over r = Some z -> last_end r = None -> last_end (a ++ c :: r) = Some (a ++ [c], z).
Proof.
  intros H N. induction a as [|x a IH]; cbn [app last_end]; [now rewrite N, H|now rewrite IH].
Qed.
Lemma end_at t ps : t <> [] -> Forall one_line ps -> ~ In mark_end ps ->
  last_end (t ++ lf :: mark_end ++ lf :: lines_of ps) = Some (t, lf :: lines_of ps).
Proof.
  intros T F N. destruct (exists_last T) as (a & c & ->). rewrite <- app_assoc. cbn [app]. apply end_found.
  - unfold info_over. change (lf :: mark_end ++ lf :: lines_of ps) with (info_end ++ lf :: lines_of ps). now rewrite after_prefix_app.
  - cbn [last_end]. rewrite (end_none ps F N) by (intros I; vm_compute in I; intuition discriminate). reflexivity.
Qed.
Lemma begin_lines pre r : Forall one_line pre -> ~ In mark_begin pre ->
  split_info true (lines_of pre ++ r) = (let (t, o) := split_info true r in (lines_of pre ++ t, o)).
Proof.
  intros F. induction F as [|p pre O F IH]; intros N; [change (split_info true r = (let (t, o) := split_info true r in (t, o))); now destruct (split_info true r)|].
  replace (lines_of (p :: pre) ++ r) with (p ++ lf :: lines_of pre ++ r) by (unfold lines_of; cbn [map concat]; now rewrite <- !app_assoc).
  rewrite info_walk; [|exact O|intros _ E; apply N; now left]. rewrite IH by (intros I; apply N; now right). destruct (split_info true r) as [t o].
  f_equal. unfold lines_of. cbn [map concat]. now rewrite <- !app_assoc.
Qed.
Lemma info_found pre t post : Forall one_line pre -> ~ In mark_begin pre -> t <> [] -> Forall one_line post -> ~ In mark_end post ->
  split_info true (lines_of pre ++ mark_begin ++ lf :: t ++ lf :: mark_end ++ lf :: lines_of post) = (lines_of pre, Some (t, lf :: lines_of post)).
Proof.
  intros F N T P M. rewrite (begin_lines _ _ F N).
  assert (Q : split_info true (mark_begin ++ lf :: t ++ lf :: mark_end ++ lf :: lines_of post) = ([], Some (t, lf :: lines_of post))).
  { change (mark_begin ++ lf :: t ++ lf :: mark_end ++ lf :: lines_of post) with ("#"%char :: (lit "## BEGIN INIT INFO" ++ lf :: t ++ lf :: mark_end ++ lf :: lines_of post)).
    cbn [split_info]. change ("#"%char :: lit "## BEGIN INIT INFO" ++ lf :: t ++ lf :: mark_end ++ lf :: lines_of post) with (info_begin ++ t ++ lf :: mark_end ++ lf :: lines_of post).
    rewrite after_prefix_app. cbn [bind]. now rewrite (end_at _ _ T P M). }
  rewrite Q. now rewrite app_nil_r.
Qed.

(** *** The lines of the header *)
Lemma tail_of ls ts : Forall2 continued ls ts -> Forall one_line ls ->
  exists cs, Forall tail_proper cs /\ map (fun c => snd (fst c)) cs = ts /\ concat (map (fun l => lf :: unmark l) ls) = tail_lines cs /\
    ~ In ":"%char (tail_lines cs).
Proof.
  intros F. induction F as [|l t ls ts C F IH]; intros O; [exists []; repeat split; auto|].
  inversion O as [|? ? Ol O']; subst. destruct (IH O') as (cs & P & M & L & N). destruct C as [w t e W T E].
  exists ((w, t, e) :: cs). assert (Ot : one_line t) by (intros I; apply Ol; rewrite !in_app_iff; tauto).
  split; [constructor; [repeat split; auto; apply T|exact P]|]. split; [cbn [map fst snd]; now rewrite M|]. split.
  - cbn [map concat]. unfold unmark at 1. rewrite after_prefix_app, L. reflexivity.
  - unfold tail_lines. cbn [map concat fst snd]. fold (tail_lines cs). cbn [app]. intros [I|I]; [discriminate I|]. rewrite !in_app_iff in I.
    assert (X : forall s, Forall white s -> ~ In ":"%char s).
    { intros s S J. rewrite Forall_forall in S. apply S, white_is in J. discriminate J. }
    destruct I as [[I|[I|I]]|I]; [now apply (X w)|now apply (proj2 T)|now apply (X e)|now apply N].
Qed.
Lemma entry_of ls kv : info_entry ls kv -> Forall one_line ls -> exists l ls' body,
  ls = l :: ls' /\ unmark l ++ concat (map (fun l => lf :: unmark l) ls') = entry (fst kv, body) /\ proper (fst kv, body) /\ l <> [] /\
  (forall z, Forall white z -> strip (join_lines [] (drop_while is_space (body ++ z))) = snd kv).
Proof.
  assert (X : forall s, Forall white s -> ~ In ":"%char s).
  { intros s S J. rewrite Forall_forall in S. apply S, white_is in J. discriminate J. }
  intros H O. destruct H as [k s K S|k s v e ls ts K S V E C].
  - exists (lit "# " ++ k ++ lit ":" ++ s), [], s. split; [reflexivity|]. split; [cbn [map concat]; unfold unmark; rewrite after_prefix_app, app_nil_r; reflexivity|].
    split; [split; [exact K|now apply X]|]. split; [discriminate|]. intros z Z. now apply value_empty.
  - inversion O as [|? ? Ol O']; subst. destruct (tail_of ls ts C O') as (cs & P & M & L & N).
    exists (lit "# " ++ k ++ lit ":" ++ s ++ v ++ e), ls, (s ++ v ++ e ++ tail_lines cs). split; [reflexivity|].
    split; [unfold unmark at 1; rewrite after_prefix_app, L; unfold entry; cbn [fst snd]; rewrite <- !app_assoc; reflexivity|].
    split; [split; [exact K|]|].
    { cbn [snd]. rewrite !in_app_iff. intros [I|[I|[I|I]]]; [now apply (X s)|now apply (proj2 V)|now apply (X e)|now apply N]. }
    split; [discriminate|]. intros z Z. cbn [fst snd]. rewrite <- !app_assoc. rewrite value_told; auto.
    + rewrite <- M, map_map. reflexivity.
    + intros I. apply Ol. do 2 right. apply in_app_iff. right. right. rewrite !in_app_iff. tauto.
Qed.

Lemma lines_cons l ls : lines_of (l :: ls) = l ++ lf :: lines_of ls.
Proof. unfold lines_of. cbn [map concat]. now rewrite <- app_assoc. Qed.
Lemma lines_app a b : lines_of (a ++ b) = lines_of a ++ lines_of b.
Proof. unfold lines_of. now rewrite map_app, concat_app. Qed.
(** Lines with a newline between them. *)
Lemma lines_join l ls : lines_of (l :: ls) = (l ++ concat (map (fun x => lf :: x) ls)) ++ [lf].
Proof.
  revert l. induction ls as [|x ls IH]; intros l; [cbn [map concat]; rewrite app_nil_r; unfold lines_of; cbn [map concat]; now rewrite app_nil_r|].
  rewrite lines_cons, IH. cbn [map concat]. rewrite <- !app_assoc. reflexivity.
Qed.
Lemma header_items parts es : Forall2 info_entry parts es -> Forall (Forall one_line) parts ->
  exists items, Forall proper items /\ map fst items = map fst es /\
    lines_of (map unmark (concat parts)) = concat (map (fun x => entry x ++ [lf]) items) /\
    forall z, Forall white z -> map (fun x => (fst x, strip (join_lines [] (drop_while is_space (snd x ++ z))))) items = es.
Proof.
  intros F. induction F as [|p [k v] parts es H F IH]; intros O; [exists []; repeat split; auto|].
  inversion O as [|? ? Op O']; subst. destruct (IH O') as (items & P & M & L & V). destruct (entry_of _ _ H Op) as (l & ls & body & -> & E & B & _ & W). cbn [fst snd] in *.
  exists ((k, body) :: items). split; [now constructor|]. split; [cbn [map fst]; now rewrite M|]. split.
  - cbn [concat]. rewrite map_app, lines_app, L. cbn [map concat]. f_equal. rewrite lines_join, map_map. now rewrite E.
  - intros z Z. cbn [map fst snd]. now rewrite (V z Z), (W z Z).
Qed.
Lemma header_parsed hs es : header_lines hs es -> Forall one_line hs ->
  exists t, lines_of hs = t ++ [lf] /\ t <> [] /\ forall i, parse_info i t = Some (rev es ++ i).
Proof.
  intros (N & parts & -> & F) O.
  assert (Op : Forall (Forall one_line) parts).
  { clear -O. induction parts as [|p parts IH]; [constructor|]. cbn [concat] in O. apply Forall_app in O as [A B]. constructor; auto. }
  destruct (header_items _ _ F Op) as (items & P & M & L & V).
  destruct (exists_last (l := items)) as (its & kb & I); [intros ->; destruct es; [congruence|discriminate M]|]. subst items.
  destruct (exists_last (l := concat parts)) as (hs & h & Hs).
  { destruct F as [|p [k v] parts es Hp F]; [congruence|]. inversion Op; subst. destruct (entry_of _ _ Hp) as (l & ls & ? & -> & _); [assumption|]. discriminate. }
  rewrite Hs in *. apply Forall_app in O as [Oh Ol]. inversion Ol as [|? ? O1 _]; subst.
  assert (Hn : h <> []).
  { assert (J : In h (concat parts)) by (rewrite Hs; apply in_app_iff; right; now left). apply in_concat in J as (p & Ip & Ih).
    clear -F Ip Ih. induction F as [|q kv parts es Hq F IH]; [contradiction|]. destruct Ip as [->|Ip]; [|now apply IH]. clear IH.
    destruct Hq as [k s|k s v e ls ts _ _ _ _ C]; [destruct Ih as [<-|[]]; discriminate|]. destruct Ih as [<-|Ih]; [discriminate|].
    induction C as [|l t ls ts Hl C IHC]; [contradiction|]. destruct Ih as [<-|Ih]; [destruct Hl; discriminate|now apply IHC]. }
  exists (lines_of hs ++ h). split; [rewrite lines_app, lines_cons; cbn [lines_of map concat]; now rewrite <- app_assoc|].
  split; [intros X; apply app_eq_nil in X as [_ X]; contradiction|]. intros i.
  assert (U : unmarked (lines_of hs ++ h) = concat (map (fun x => entry x ++ [lf]) its) ++ entry kb).
  { unfold unmarked. change (lines_of hs ++ h) with (file hs h). rewrite (physical_file _ _ Oh O1). destruct h as [|c h]; [congruence|].
    rewrite map_app, concat_app. cbn [map concat]. rewrite app_nil_r.
    rewrite !map_app, lines_app, concat_app in L. cbn [map concat] in L. rewrite app_nil_r, lines_cons in L. cbn [lines_of map concat] in L.
    rewrite app_assoc in L. change (unmark (c :: h) ++ [lf]) with (unmark (c :: h) ++ [lf]) in L.
    assert (Q : (lines_of (map unmark hs) ++ unmark (c :: h)) ++ [lf] = (concat (map (fun x => entry x ++ [lf]) its) ++ entry kb) ++ [lf]).
    { rewrite <- !app_assoc. rewrite <- !app_assoc in L. exact L. }
    apply app_inj_tail in Q as [Q _]. rewrite <- Q. f_equal. rewrite map_map. unfold lines_of. rewrite map_map. f_equal. apply map_ext_in. intros x Ix.
    rewrite Forall_forall in Oh. now apply unmark_ended, Oh. }
  apply Forall_app in P as [Pi Pk]. inversion Pk as [|? ? Pk1 _]; subst.
  unfold parse_info. rewrite U. destruct (concat (map (fun x => entry x ++ [lf]) its) ++ entry kb) as [|c t] eqn:T.
  { apply app_eq_nil in T as [_ T]. unfold entry in T. apply app_eq_nil in T as [_ T]. discriminate. }
  rewrite <- T, (fields_all its [] false kb Pi Pk1). cbn [snd]. do 2 f_equal. rewrite map_app, map_map. cbn [map fst snd].
  f_equal. transitivity (map (fun x => (fst x, strip (join_lines [] (drop_while is_space (snd x ++ [lf]))))) its ++
                         map (fun x => (fst x, strip (join_lines [] (drop_while is_space (snd x ++ []))))) [kb]); [cbn [map]; now rewrite app_nil_r|].
  pose proof (V [lf] ltac:(constructor; [exact lf_white|constructor])) as V1. pose proof (V [] ltac:(constructor)) as V0.
  rewrite map_app in V0, V1. rewrite <- V1. f_equal. rewrite <- V0 in V1. cbn [map] in V1 |- *. apply app_inj_tail in V1 as [_ V1]. now rewrite V1.
Qed.
Lemma lookup_given es k o i : given es k o -> lookup (rev es ++ i) k = match o with Some v => Some v | None => lookup i k end.
Proof.
  assert (Z : forall (b i : list (bytes * bytes)), ~ (exists v, In (k, v) b) -> lookup (rev b ++ i) k = lookup i k).
  { clear. induction b as [|[k' v'] b IH]; intros i N; [reflexivity|]. cbn [rev]. rewrite <- app_assoc. cbn [app]. rewrite IH; [|intros (v & I); apply N; exists v; now right].
    cbn [lookup]. replace (bytes_eqb k' k) with false; [reflexivity|]. symmetry. apply bytes_eqb_neq. intros ->. apply N. exists v'. now left. }
  intros [[N ->]|(a & v & b & -> & N & ->)]; [now apply Z|]. rewrite rev_app_distr. cbn [rev]. rewrite <- !app_assoc. rewrite (Z b _ N). cbn [app lookup].
  now rewrite bytes_eqb_refl.
Qed.

(** *** The comment at the beginning *)
Lemma block_of hs ls last : Forall one_line (hs ++ ls) -> one_line last -> Forall InitSpec.hashed hs -> ~ InitSpec.hashed (hd last ls) ->
  first_block (file (hs ++ ls) last) = lines_of hs.
Proof.
  intros F O H R. unfold first_block. rewrite physical_file; [|exact F|exact O]. rewrite map_app, <- app_assoc, hash_ended; [reflexivity|exact H|].
  destruct ls as [|l ls]; cbn [map app hd] in *.
  - destruct last as [|c last]; [exact Logic.I|]. cbn. intros ->. apply R. now exists last.
  - destruct l as [|c l]; cbn [app]; [discriminate|]. intros ->. apply R. now exists l.
Qed.
Lemma header_hashed hs es : header_lines hs es -> Forall InitSpec.hashed hs.
Proof.
  intros (_ & parts & -> & F). induction F as [|p kv parts es H F IH]; [constructor|]. cbn [concat]. apply Forall_app. split; [|exact IH]. clear IH F.
  destruct H as [k s|k s v e ls ts _ _ _ _ C].
  - constructor; [eexists; reflexivity|constructor].
  - constructor; [eexists; reflexivity|]. induction C as [|l t ls ts Hl C IHC]; [constructor|]. constructor; [destruct Hl; eexists; reflexivity|exact IHC].
Qed.
Lemma commented_parsed content pre es post : commented content pre es post ->
  exists t, split_info true (first_block content) = (lines_of pre, Some (t, lf :: lines_of post)) /\
    (forall i, parse_info i t = Some (rev es ++ i)) /\ Forall one_line pre /\ Forall one_line post.
Proof.
  intros (hs & ls & last & -> & F & O & Hp & Hq & R & Nb & Ne & H).
  replace (pre ++ mark_begin :: hs ++ mark_end :: post ++ ls) with ((pre ++ mark_begin :: hs ++ mark_end :: post) ++ ls) in * by (rewrite <- !app_assoc; cbn [app]; now rewrite <- !app_assoc).
  rewrite block_of; [|exact F|exact O| |exact R].
  - apply Forall_app in F as [F _]. apply Forall_app in F as [Fp F]. inversion F as [|? ? _ F1]; subst. apply Forall_app in F1 as [Fh F1]. inversion F1 as [|? ? _ Fq]; subst.
    destruct (header_parsed _ _ H Fh) as (t & T & N & P). exists t. split; [|auto]. rewrite lines_app, lines_cons, lines_app, lines_cons, T, <- !app_assoc. cbn [app].
    now apply info_found.
  - apply Forall_app. split; [exact Hp|]. constructor; [now eexists|]. apply Forall_app. split; [now apply (header_hashed _ es)|]. constructor; [now eexists|exact Hq].
Qed.
Lemma begins_hash content pre es post : commented content pre es post -> exists t, content = "#"%char :: t.
Proof.
  intros (hs & ls & last & -> & _ & _ & Hp & _). unfold file. destruct Hp as [|p pre (t & ->) Hp]; cbn [map concat app]; eexists; reflexivity.
Qed.
Lemma debian_parsed content es : debian_header content es ->
  match snd (split_info true (first_block (without_shebang content))) with Some (text, _) => parse_info [] text | None => Some [] end = Some (rev es).
Proof.
  intros (pre & post & Np & H).
  assert (Q : exists c, commented c pre es post /\ without_shebang content = c).
  { destruct H as [H|(l & c & (s & e & S & E & ->) & O & -> & H)].
    - exists content. split; [exact H|]. unfold without_shebang. rewrite after_none; [reflexivity|]. intros r X.
      destruct H as (hs & ls & last & -> & _ & _ & Hp & _). unfold file in X. destruct Hp as [|p pre' Hh Hp]; [discriminate X|].
      inversion Np as [|? ? N1 _]; subst. apply N1. destruct Hh as (t & ->). cbn [map concat] in X. cbn [lit app] in X. injection X as X.
      destruct t as [|x t]; cbn [app] in X; [discriminate X|]. injection X as -> _. now exists t.
    - exists c. split; [exact H|]. destruct (begins_hash _ _ _ _ H) as (t & T). unfold without_shebang. rewrite <- !app_assoc, after_prefix_app.
      apply whites in S. rewrite (drop_all _ _ _ S). change (drop_while is_space (lit "/bin/sh" ++ e ++ newline :: c)) with (lit "/bin/sh" ++ e ++ newline :: c).
      rewrite after_prefix_app. apply whites in E. rewrite (drop_all _ _ _ E), T. reflexivity. }
  destruct Q as (c & Hc & ->). destruct (commented_parsed _ _ _ _ Hc) as (t & -> & P & _). cbn [snd]. rewrite (P []). now rewrite app_nil_r.
Qed.

(** *** The description of a script of Red Hat *)
Notation description := (lit "description").
Notation backslash := (byte_of 92).
Lemma back_ends v : ends_with_backslash (v ++ [backslash]) = true.
Proof. unfold ends_with_backslash. now rewrite rev_unit. Qed.
Lemma tight_ends v : tight v -> ends_with_backslash v = false.
Proof. intros (_ & b & c & -> & _ & _ & C). unfold ends_with_backslash. rewrite rev_unit. now apply beqb_neq. Qed.
Lemma back_begins v : trailing v -> begins_text (v ++ [backslash]).
Proof.
  intros [->|(c & v' & -> & W)]; [exists backslash, []; split; [reflexivity|now apply not_white]|]. exists c, (v' ++ [backslash]). now split.
Qed.
Lemma strip_back w v e : Forall white w -> trailing v -> Forall white e -> strip (w ++ v ++ [backslash] ++ e) = v ++ [backslash].
Proof.
  intros W T E. rewrite (app_assoc v). apply strip_tight; [exact W|now apply back_begins| |exact E]. exists v, backslash. now split.
Qed.
Lemma strip_text w v e : Forall white w -> tight v -> Forall white e -> strip (w ++ v ++ e) = v.
Proof. intros W T E. apply strip_tight; [exact W|apply T|now apply tight_open|exact E]. Qed.
Lemma normal_back v : trailing v -> normalize_description (v ++ [backslash]) = v.
Proof.
  intros T. unfold normalize_description. pose proof (strip_back [] v [] ltac:(constructor) T ltac:(constructor)) as Q. cbn [app] in Q. rewrite Q, back_ends. apply removelast_last.
Qed.
Lemma normal_text v : tight v -> normalize_description v = v.
Proof.
  intros T. unfold normalize_description. pose proof (strip_text [] v [] ltac:(constructor) T ltac:(constructor)) as Q. cbn [app] in Q. rewrite app_nil_r in Q. rewrite Q.
  now rewrite tight_ends.
Qed.
Lemma ended_blank e : Forall white e -> Forall white (e ++ [lf]).
Proof. intros E. apply Forall_app. split; [exact E|constructor; [exact lf_white|constructor]]. Qed.
Lemma first_tag j r : tag_line (j, false) (lit "description:" ++ r) =
  ((description, normalize_description (strip r)) :: j, ends_with_backslash (strip r)).
Proof. unfold tag_line. change (tag_of tags (lit "description:" ++ r)) with (@None (bytes * bytes)). now rewrite after_prefix_app. Qed.
Lemma more_tag j u l : lookup j description = Some u ->
  tag_line (j, true) l = ((description, u ++ normalize_description (strip l)) :: j, ends_with_backslash (strip l)).
Proof. intros L. unfold tag_line. now rewrite L. Qed.
Lemma unmark_app r : unmark (lit "# " ++ r) = r.
Proof. unfold unmark. now rewrite after_prefix_app. Qed.
Lemma looked (v : bytes) j : lookup ((description, v) :: j) description = Some v.
Proof. cbn [lookup]. now rewrite bytes_eqb_refl. Qed.
Notation told_lines ls := (map (fun x => unmark x ++ [lf]) ls).
Lemma parts_step ls vs : Forall2 description_part ls vs -> forall j u, lookup j description = Some u ->
  exists j', fold_left tag_line (told_lines ls) (j, true) = (j', true) /\ lookup j' description = Some (u ++ concat vs).
Proof.
  intros F. induction F as [|l v ls vs P F IH]; intros j u L; [exists j; split; [reflexivity|cbn [concat]; now rewrite app_nil_r]|].
  cbn [map fold_left]. destruct P as [w v e W T E]. rewrite unmark_app, (more_tag _ _ _ L), <- !app_assoc, (strip_back w v (e ++ [lf]) W T (ended_blank _ E)).
  rewrite (normal_back _ T), back_ends. destruct (IH ((description, u ++ v) :: j) (u ++ v) (looked _ _)) as (j' & A & B). exists j'. split; [exact A|].
  rewrite B. cbn [concat]. now rewrite <- app_assoc.
Qed.
Lemma end_step l w j u : description_end l w -> lookup j description = Some u ->
  exists j', tag_line (j, true) (unmark l ++ [lf]) = (j', false) /\ lookup j' description = Some (u ++ w).
Proof.
  intros D L. rewrite (more_tag _ _ _ L). destruct D as [w v e W T E|w W]; rewrite unmark_app.
  - rewrite <- !app_assoc, (strip_text w v (e ++ [lf]) W T (ended_blank _ E)), (normal_text _ T), (tight_ends _ T). eexists. split; [reflexivity|apply looked].
  - rewrite (strip_blank _ (ended_blank _ W)). eexists. split; [reflexivity|apply looked].
Qed.
Lemma tag_keys ts line k v : tag_of ts line = Some (k, v) -> In k ts.
Proof.
  induction ts as [|t ts IH]; cbn [tag_of]; [discriminate|]. destruct (after_prefix (t ++ lit ":") line) as [r|]; [intros H; injection H as <- _; now left|intros H; right; now apply IH].
Qed.
Lemma tag_part_step ls o j : tag_part ls o -> Forall InitSpec.hashed ls ->
  exists j', fold_left tag_line (told_lines ls) (j, false) = (j', false) /\
    lookup j' description = match o with Some v => Some v | None => lookup j description end.
Proof.
  intros [l N|ls' d D] H.
  - inversion H as [|? ? Hl _]; subst. cbn [map fold_left]. unfold tag_line. destruct (tag_of tags (unmark l ++ [lf])) as [[k v]|] eqn:E.
    + eexists. split; [reflexivity|]. apply tag_keys in E. cbn [lookup]. replace (bytes_eqb k description) with false; [reflexivity|]. symmetry. apply bytes_eqb_neq.
      intros ->. vm_compute in E. intuition discriminate.
    + rewrite after_none; [now exists j|]. intros r X. destruct Hl as (t & ->). unfold unmark in X. destruct (after_prefix (lit "# ") (lit "#" ++ t)) as [q|] eqn:Q; [|discriminate X].
      apply after_prefix_some in Q. apply N. rewrite Q. destruct q as [|c q] using rev_ind; [cbn in X; discriminate X|]. clear IHq.
      destruct (exists_last (l := lit "description:" ++ r) ltac:(discriminate)) as (y & z & Y). rewrite Y in X. apply app_inj_tail in X as [X <-].
      destruct r as [|r0 r] using rev_ind.
      * rewrite app_nil_r in Y. change (lit "description:") with (lit "description" ++ [":"%char]) in Y. apply app_inj_tail in Y as [_ Y]. discriminate Y.
      * clear IHr. rewrite app_assoc in Y. apply app_inj_tail in Y as [Y _]. exists r. rewrite X, <- Y. reflexivity.
  - destruct D as [s v e S T E|s v e ls1 vs l w S T E P D].
    + cbn [map fold_left]. change (lit "# description:" ++ s ++ v ++ e) with (lit "# " ++ lit "description:" ++ s ++ v ++ e). rewrite unmark_app, <- !app_assoc, first_tag.
      rewrite (strip_text s v (e ++ [lf]) S T (ended_blank _ E)), (normal_text _ T), (tight_ends _ T). eexists. split; [reflexivity|apply looked].
    + cbn [map fold_left]. change (lit "# description:" ++ s ++ v ++ [backslash] ++ e) with (lit "# " ++ lit "description:" ++ s ++ v ++ [backslash] ++ e). rewrite unmark_app, <- !app_assoc, first_tag.
      rewrite (strip_back s v (e ++ [lf]) S T (ended_blank _ E)), (normal_back _ T), back_ends. rewrite map_app, fold_left_app.
      destruct (parts_step ls1 vs P ((description, v) :: j) v (looked _ _)) as (j1 & A1 & L1).
      cbn [map fold_left].
      destruct (end_step l w j1 _ D L1) as (j2 & A & L2). exists j2. split; [etransitivity; [|exact A]; f_equal; exact A1|]. rewrite L2. now rewrite <- app_assoc.
Qed.
Definition latest (es : list (option bytes)) (o : option bytes) : option bytes :=
  fold_left (fun s (e : option bytes) => match e with Some v => Some v | None => s end) es o.
Lemma tag_lines_step ls es : tag_lines_say ls es -> Forall InitSpec.hashed ls -> forall j,
  exists j', fold_left tag_line (told_lines ls) (j, false) = (j', false) /\ lookup j' description = latest es (lookup j description).
Proof.
  intros (parts & -> & F). induction F as [|p e parts es P F IH]; intros H j; [now exists j|]. cbn [concat] in *. apply Forall_app in H as [Hp H].
  rewrite map_app, fold_left_app. destruct (tag_part_step _ _ j P Hp) as (j1 & A1 & L). destruct (IH H j1) as (j2 & A & B). exists j2. split; [etransitivity; [|exact A]; f_equal; exact A1|]. rewrite B, L. reflexivity.
Qed.
Lemma tags_parsed ls es j : tag_lines_say ls es -> Forall InitSpec.hashed ls -> Forall one_line ls ->
  lookup (parse_tags j (lines_of ls)) description = latest es (lookup j description) /\
  lookup (parse_tags j (lf :: lines_of ls)) description = latest es (lookup j description).
Proof.
  intros T H F.
  assert (Fu : Forall one_line (map unmark ls)).
  { apply Forall_map. eapply Forall_impl; [|exact F]. intros h Oh X. now apply Oh, unmark_in. }
  destruct (tag_lines_step _ _ T H j) as (j' & A & B).
  assert (Q : physical (unmarked (lines_of ls)) = told_lines ls) by (rewrite (unmarked_lines _ F), (physical_lines _ Fu), map_map; reflexivity).
  split; unfold parse_tags; [rewrite Q; now replace (fold_left tag_line (told_lines ls) (j, false)) with (j', false)|].
  assert (U : unmarked (lf :: lines_of ls) = lf :: unmarked (lines_of ls)) by reflexivity.
  rewrite U. change (physical (lf :: unmarked (lines_of ls))) with ([lf] :: physical (unmarked (lines_of ls))). rewrite Q. cbn [fold_left].
  change (tag_line (j, false) [lf]) with (j, false). now replace (fold_left tag_line (told_lines ls) (j, false)) with (j', false).
Qed.
Lemma latest_given es o : last_given es o -> latest es None = o.
Proof.
  assert (Z : forall xs s, Forall (eq None) xs -> latest xs s = s).
  { clear. intros xs s X. induction X as [|x xs <- X IH]; [reflexivity|exact IH]. }
  intros [[G ->]|(a & v & c & -> & G & ->)]; [now apply Z|]. unfold latest. rewrite fold_left_app. cbn [fold_left]. now apply Z.
Qed.
Lemma redhat_described content o i : redhat_tags content o -> rh_info content = Some i -> lookup i description = o.
Proof.
  intros [c hs ls last es o' -> F O H N R T G|c pre es post a b o' C D A B G] E.
  - unfold rh_info in E. rewrite (block_of _ _ _ F O H R) in E. apply Forall_app in F as [F _]. rewrite (no_info _ F N) in E. injection E as <-.
    destruct (tags_parsed hs es [] T H F) as [-> _]. now apply latest_given.
  - pose proof C as (_ & _ & _ & _ & _ & _ & Hp & Hq & _). destruct (commented_parsed _ _ _ _ C) as (t & S & P & Fp & Fq).
    unfold rh_info in E. rewrite S, P in E. injection E as <-. destruct (tags_parsed post b (rev es ++ parse_tags [] (lines_of pre)) B Hq Fq) as [_ ->].
    rewrite (lookup_given es description None); [|left; now split]. destruct (tags_parsed pre a [] A Hp Fp) as [-> _].
    rewrite <- (latest_given _ _ G). unfold latest. now rewrite fold_left_app.
Qed.
