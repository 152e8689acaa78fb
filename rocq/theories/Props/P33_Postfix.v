(** C91: tables in the format of Postfix. *)
From Verif.Base Require Import Bytes.
From Verif.Model Require Import PostfixTable.
From Verif.Spec Require Import PostfixSpec.
From Verif.Proofs Require Import PostfixProofs.
Local Open Scope N_scope.

(** The logical lines of a file. *)
Theorem C91_lines input out : says input out -> map lg_text (lines_of input) = out.
Proof. intros (ls & last & -> & F & L & H). exact (lines_file ls last out F L H). Qed.
Print Assumptions C91_lines.

Ltac not_in := let H := fresh in intros H; cbn [In lit list_ascii_of_string] in H;
  repeat (destruct H as [H|H]; [discriminate|]); exact H.
Ltac is_white := unfold white; vm_compute; auto 10.
Ltac whiteout := repeat (apply Forall_cons; [is_white|]); apply Forall_nil.
Definition br : string := String (ascii_of_N 10) "".
Definition ret : string := String (ascii_of_N 13) "".
Definition sample : bytes :=
  file [lit "# comment"; lit "/a/"; []; lit "   # more"; lit ("  OK" ++ ret); lit "/b/ NO"] (lit "endif").
Lemma plain_content l : existsb (beqb (byte_of 13)) l = false -> content_is l l.
Proof.
  intros H. apply content_all. intros l' ->. rewrite existsb_app in H. cbn [existsb] in H.
  rewrite beqb_refl, orb_true_r in H. discriminate.
Qed.
Lemma starting c l : is_space c = false -> beqb c "#" = false -> starting_line (c :: l).
Proof. intros H H'. exists c, l. split; [reflexivity|]. split; [apply not_white, H|apply beqb_neq, H']. Qed.
Example C91_lines_example :
  map lg_text (lines_of sample) = [lit "/a/ OK"; lit "/b/ NO"; lit "endif"].
Proof.
  apply C91_lines. eexists _, _. split; [reflexivity|]. split; [|split; [not_in|]].
  - repeat (apply Forall_cons; [not_in|]). apply Forall_nil.
  - refine (logical_more [lit "# comment"] (lit "/a/") (lit "/a/") [[]; lit "   # more"; lit ("  OK" ++ ret)]
              (lit " OK") [lit "/b/ NO"; lit "endif"] [lit "/b/ NO"; lit "endif"] _ _ _ _ _).
    + apply Forall_cons; [|apply Forall_nil]. exact (idle_comment [] (lit " comment") (Forall_nil _)).
    + apply starting; reflexivity.
    + apply plain_content. reflexivity.
    + apply continued_idle; [apply idle_blank, Forall_nil|].
      apply continued_idle; [refine (idle_comment (lit "   ") (lit " more") _); whiteout|].
      refine (continued_more _ [] (lit "OK") [] _ continued_none).
      exists (lit "  "), (lit ("OK" ++ ret)). split; [whiteout|]. split; [discriminate|].
      split; [apply starting; reflexivity|]. split; [exact (content_cr (lit "OK"))|reflexivity].
    + refine (logical_more [] (lit "/b/ NO") (lit "/b/ NO") [] [] [lit "endif"] [lit "endif"] _ _ _ _ _).
      * apply Forall_nil.
      * apply starting; reflexivity.
      * apply plain_content. reflexivity.
      * apply continued_none.
      * refine (logical_more [] (lit "endif") (lit "endif") [] [] [] [] _ _ _ _ _).
        -- apply Forall_nil.
        -- apply starting; reflexivity.
        -- apply plain_content. reflexivity.
        -- apply continued_none.
        -- apply logical_none, Forall_nil.
Qed.

(** A line is taken as the statement that is written on it, and nothing else is taken. *)
Theorem C91_statement s l : written s l -> statement_of l = Some s.
Proof. apply written_read. Qed.
Print Assumptions C91_statement.
Theorem C91_statement_only s l : statement_of l = Some s -> shaped s l.
Proof. apply read_shaped. Qed.
Print Assumptions C91_statement_only.
Example C91_statement_example :
  statement_of (lit "!/^owner-.*/im  550 5.7.1 No") = Some (SRule true (lit "^owner-.*") (lit "im") (lit "550 5.7.1 No")) /\
  statement_of (lit "if /a/b/") = Some (SIf false (lit "a/b") []) /\ statement_of (lit "a OK") = None.
Proof.
  split; [|split; reflexivity].
  apply (C91_statement (SRule true (lit "^owner-.*") (lit "im") (lit "550 5.7.1 No"))).
  refine (written_rule true (lit "^owner-.*") (lit "im") (lit "  ") (lit "550 5.7.1 No") _ _ _ _).
  - repeat (apply Forall_cons; [tauto|]). apply Forall_nil.
  - split; [discriminate|whiteout].
  - exists "5"%char, (lit "50 5.7.1 No"). split; [reflexivity|]. apply not_white. reflexivity.
  - intros x f s y E _ _. exfalso.
    assert (H : In "/"%char (lit "550 5.7.1 No")) by (rewrite E; apply in_or_app; right; now left).
    revert H. not_in.
Qed.

(** Several files can be read into one table. *)
Fixpoint load (valid : regexp -> bool) (h : heap) (inputs : list bytes) : heap * list (option failure) :=
  match inputs with
  | [] => (h, [])
  | i :: inputs => let (h, f) := parse valid h i in
                   let (h, fs) := load valid h inputs in (h, f :: fs)
  end.
Definition together (ts : list table) : table := fold_right followed TEnd ts.
Section Lookup.
  Variable valid : regexp -> bool.
  Variable matches : regexp -> bytes -> option (list (option bytes)).
  Notation found_by_rules := (looked_up (matching matches) filled).
  Notation found_by_code := (looked_twice (matching matches) filled).

  Lemma followed_assoc a b c : followed (followed a b) c = followed a (followed b c).
  Proof. induction a; cbn [followed]; congruence. Qed.
  Lemma statements_of input t : file_of input t ->
    map (fun l => statement_of (lg_text l)) (lines_of input) = map Some (statements t).
  Proof.
    intros (out & S & F). rewrite <- (map_map lg_text statement_of), (C91_lines input out S). clear S.
    induction F as [|s l ss ls W F IH]; [reflexivity|]. cbn [map]. rewrite (written_read s l W), IH. reflexivity.
  Qed.
  Lemma load_holds inputs ts : Forall2 (fun i t => file_of i t /\ compiles valid t) inputs ts ->
    forall h t0, holds h t0 -> exists h', load valid h inputs = (h', map (fun _ => None) inputs) /\
      holds h' (followed t0 (together (map swallowed ts))).
  Proof.
    induction 1 as [|i t inputs ts (F & C) H IH]; intros h t0 Ho.
    - exists h. cbn [load map together fold_right]. rewrite followed_end. auto.
    - destruct (parse_holds valid matches h t0 t i Ho C (statements_of i t F)) as (h1 & E1 & H1).
      destruct (IH h1 _ H1) as (h2 & E2 & H2). exists h2. cbn [load map]. rewrite E1, E2. split; [reflexivity|].
      cbn [together fold_right]. rewrite followed_assoc in H2. exact H2.
  Qed.

  (** The answer for a text is that of the first rule that fires, as Postfix says, when no block is
      followed by anything and the answer has no dollar sign in it. *)
  Theorem C91_lookup inputs ts :
    Forall2 (fun i t => file_of i t /\ compiles valid t /\ blocks_last t) inputs ts ->
    exists h, load valid heap_new inputs = (h, map (fun _ => None) inputs) /\
      forall text r, found_by_rules text (together ts) r -> no_dollar r -> find matches h text = r.
  Proof.
    intros H.
    assert (H1 : Forall2 (fun i t => file_of i t /\ compiles valid t) inputs ts)
      by (clear - H; induction H as [|i t is ts' (A & B & _) H IH]; constructor; auto).
    destruct (load_holds inputs ts H1 heap_new TEnd holds_new) as (h & E & Ho).
    exists h. split; [exact E|]. intros text r L D.
    assert (S : map swallowed ts = ts).
    { clear - H. induction H as [|i t inputs ts (_ & _ & B) H IH]; [reflexivity|]. cbn [map].
      rewrite (swallowed_same t B), IH. reflexivity. }
    rewrite S in Ho. cbn [followed] in Ho.
    exact (twice_unique matches text _ _ (holds_find matches h _ text Ho) r (looked_same matches text _ r L D)).
  Qed.
  (** In every case: what follows a block belongs to it, and an answer is filled in again by every
      block around it. *)
  Theorem C91_behaviour inputs ts :
    Forall2 (fun i t => file_of i t /\ compiles valid t) inputs ts ->
    exists h, load valid heap_new inputs = (h, map (fun _ => None) inputs) /\
      forall text r, find matches h text = r <-> found_by_code text (together (map swallowed ts)) r.
  Proof.
    intros H. destruct (load_holds inputs ts H heap_new TEnd holds_new) as (h & E & Ho).
    exists h. split; [exact E|]. cbn [followed] in Ho. intros text r. pose proof (holds_find matches h _ text Ho) as F.
    split; [intros <-; exact F|]. intros L. exact (twice_unique matches text _ _ F r L).
  Qed.

  (** A line that cannot be read, or a pattern that cannot be compiled, stops the reading; the rules
      before it are in force. *)
  Theorem C91_error inputs ts input t before line rest :
    Forall2 (fun i t => file_of i t /\ compiles valid t) inputs ts -> compiles valid t ->
    says input (before ++ line :: rest) -> Forall2 written (statements t) before ->
    (forall s, ~ shaped s line) \/
    (exists n p f a, (written (SRule n p f a) line \/ written (SIf n p f) line) /\
                     valid (create_regexp p f) = false) ->
    exists h e, load valid heap_new (inputs ++ [input]) = (h, map (fun _ => None) inputs ++ [Some e]) /\
      e <> NoMethod /\
      forall text r, find matches h text = r <->
                     found_by_code text (together (map swallowed (ts ++ [t]))) r.
  Proof.
    intros H C E0 W Bad. apply C91_lines in E0.
    assert (E : exists ls l ms, lines_of input = ls ++ l :: ms /\ map lg_text ls = before /\ lg_text l = line).
    { clear - E0. revert before E0. induction (lines_of input) as [|x xs IH]; intros before E0.
      - destruct before; discriminate E0.
      - destruct before as [|b before]; cbn [map app] in E0; injection E0 as E1 E2.
        + exists [], x, xs. auto.
        + destruct (IH before E2) as (ls & l & ms & -> & M & L). exists (x :: ls), l, ms. cbn [map app]. rewrite M, E1. auto. }
    destruct E as (ls & l & ms & E & <- & <-).
    destruct (load_holds inputs ts H heap_new TEnd holds_new) as (h & El & Ho).
    assert (Es : map (fun l => statement_of (lg_text l)) ls = map Some (statements t)).
    { clear - W. rewrite <- (map_map lg_text statement_of).
      induction W as [|s x ss xs W F IH]; [reflexivity|]. cbn [map]. rewrite (written_read s x W), IH. reflexivity. }
    assert (G : exists h' e, parse valid h input = (h', Some e) /\ e <> NoMethod /\
                  holds h' (followed (followed TEnd (together (map swallowed ts))) (swallowed t))).
    { destruct Bad as [Bad|(n & p & f & a & Hs & V)].
      - destruct (parse_stops valid matches h _ t input ls l ms Ho C E Es) as (h' & Ep & Hp).
        + destruct (statement_of (lg_text l)) as [s|] eqn:Ex; [|reflexivity]. destruct (Bad s (read_shaped s _ Ex)).
        + exists h', (BadFormat (lg_text l) (lg_lineno l)). split; [exact Ep|]. split; [discriminate|exact Hp].
      - destruct (parse_invalid valid matches h _ t input ls l ms n p f a Ho C E Es) as (h' & Ep & Hp).
        + destruct Hs as [Hs|Hs]; [left|right]; exact (written_read _ _ Hs).
        + exact V.
        + exists h', (BadValue p (lg_text l) (lg_number l)). split; [exact Ep|]. split; [discriminate|exact Hp]. }
    destruct G as (h' & e & Ep & Ne & Hp). exists h', e. split; [|split; [exact Ne|]].
    - assert (A : forall is h0 h1 fs, load valid h0 is = (h1, fs) -> load valid h0 (is ++ [input]) =
                    let (h2, f) := parse valid h1 input in (h2, fs ++ [f])).
      { clear. induction is as [|i is IH]; intros h0 h1 fs L.
        - cbn [load app] in *. injection L as <- <-. destruct (parse valid h0 input). reflexivity.
        - cbn [load app] in *. destruct (parse valid h0 i) as [h2 f]. destruct (load valid h2 is) as [h3 fs'] eqn:E.
          injection L as <- <-. rewrite (IH h2 h3 fs' E). destruct (parse valid h3 input). reflexivity. }
      rewrite (A _ _ _ _ El), Ep. reflexivity.
    - intros text r.
      assert (T : followed (followed TEnd (together (map swallowed ts))) (swallowed t) = together (map swallowed (ts ++ [t]))).
      { cbn [followed]. clear. induction ts as [|u ts IH]; cbn [map app together fold_right followed].
        - symmetry. apply followed_end.
        - rewrite followed_assoc. f_equal. exact IH. }
      rewrite T in Hp. pose proof (holds_find matches h' _ text Hp) as F.
      split; [intros <-; exact F|]. intros L. exact (twice_unique matches text _ _ F r L).
  Qed.
End Lookup.
Print Assumptions C91_lookup.
Print Assumptions C91_behaviour.
Print Assumptions C91_error.

(** Variables in an action. *)
Theorem C91_variables groups ps : distinct ps ->
  expand_variables (concat (map shown ps)) (Some groups) = Some (concat (map (meant groups) ps)).
Proof. intros D. apply expand_pieces; [exact D|apply le_n]. Qed.
Print Assumptions C91_variables.
Example C91_variables_example :
  expand_variables (lit "550 Use ${1}+$(2)@$3 $$ $ $9!") (Some [Some (lit "all"); Some (lit "user"); None; Some (lit "example.com")]) =
  Some (lit "550 Use user+@example.com $ $ !").
Proof.
  apply (C91_variables [Some (lit "all"); Some (lit "user"); None; Some (lit "example.com")]
    (map Char (lit "550 Use ") ++ [Curly 1; Char "+"; Round 2; Char "@"; Bare 3; Char " "; Dollar; Char " "; Lone; Char " "; Bare 9; Char "!"])%list%char).
  cbn [app map lit list_ascii_of_string distinct next_char].
  repeat apply conj; try discriminate; try reflexivity;
    intros c Hc; injection Hc as <-; unfold digit; vm_compute; intuition congruence.
Qed.

(** *** An example: patterns are looked for literally; the group 1 is what follows. *)
Fixpoint after (p t : bytes) : option bytes :=
  match p, t with
  | [], _ => Some t
  | c :: p, d :: t => if beqb c d then after p t else None
  | _ :: _, [] => None
  end.
Fixpoint literally (p t : bytes) : option bytes :=
  match after p t with
  | Some r => Some r
  | None => match t with [] => None | _ :: t => literally p t end
  end.
Definition literal (r : regexp) (text : bytes) : option (list (option bytes)) :=
  option_map (fun rest => [Some (x_pattern r); Some rest]) (literally (x_pattern r) text).
Definition anything (_ : regexp) : bool := true.
Definition look (ls : list string) (text : string) : found :=
  find literal (fst (parse anything heap_new (file (map lit ls) []))) (lit text).

Ltac simple_lines := repeat match goal with
  | |- logical_lines [] [] => apply logical_none, Forall_nil
  | |- logical_lines (?l :: ?r) (?l :: ?o) =>
      refine (eq_ind _ (fun x => logical_lines _ (x :: o)) (logical_more [] l l [] [] r o (Forall_nil _) _ _ continued_none _) _ _);
      [apply starting; reflexivity|apply plain_content; reflexivity| |apply app_nil_r]
  end.
Lemma simple_says ls : Forall one_line ls -> Forall (fun l => starting_line l /\ content_is l l) ls -> says (file ls []) ls.
Proof.
  intros O F. exists ls, []. split; [reflexivity|]. split; [exact O|]. split; [intros []|]. rewrite app_nil_r. clear O.
  induction F as [|l ls (S & C) F IH]; [apply logical_none, Forall_nil|].
  pose proof (logical_more [] l l [] [] ls ls (Forall_nil _) S C continued_none IH) as H. rewrite app_nil_r in H. exact H.
Qed.
Ltac simple_file := apply simple_says;
  [repeat (apply Forall_cons; [not_in|]); apply Forall_nil
  |repeat (apply Forall_cons; [split; [apply starting; reflexivity|apply plain_content; reflexivity]|]); apply Forall_nil].
Lemma rule_written p a : clear_action a -> begins_text a ->
  written (SRule false p [] a) (lit "/" ++ p ++ lit "/ " ++ a).
Proof.
  intros C B. refine (written_rule false p [] (lit " ") a (Forall_nil _) _ B C). split; [discriminate|whiteout].
Qed.
Lemma no_slash a : ~ In "/"%char a -> clear_action a.
Proof. intros N x f s y E. destruct N. rewrite E. apply in_or_app. right. now left. Qed.
Ltac rule := apply rule_written; [apply no_slash; not_in|eexists _, _; split; [reflexivity|apply not_white; reflexivity]].
Lemma if_written p : written (SIf false p []) (lit "if /" ++ p ++ lit "/").
Proof.
  refine (written_if false p [] (lit " ") _ (Forall_nil _)). split; [discriminate|whiteout].
Qed.

Definition block_table : table :=
  TRule false (lit "root") [] (lit "OK") (TBlock false (lit "owner-") [] (TRule false (lit "@") [] (lit "to $1") TEnd) TEnd).
Definition block_file : list string := ["/root/ OK"; "if /owner-/"; "/@/ to $1"; "endif"]%string.
Lemma block_file_of : file_of (file (map lit block_file) []) block_table.
Proof.
  exists (map lit block_file). split; [simple_file|].
  apply Forall2_cons; [rule|]. apply Forall2_cons; [exact (if_written (lit "owner-"))|].
  apply Forall2_cons; [rule|]. apply Forall2_cons; [exact (written_endif [] (Forall_nil _))|]. apply Forall2_nil.
Qed.
Example C91_lookup_example :
  (look block_file "owner-x@example.com"%string) = Found (lit "to example.com") /\
  (look block_file "x@example.com"%string) = Nothing /\ (look block_file "root@example.com"%string) = Found (lit "OK").
Proof.
  destruct (C91_lookup anything literal [file (map lit block_file) []] [block_table]) as (h & E & H).
  { apply Forall2_cons; [|apply Forall2_nil]. split; [exact block_file_of|]. cbn. auto 10. }
  unfold look. cbn [load map] in E. destruct (parse anything heap_new (file (map lit block_file) [])) as [h' f] eqn:P.
  injection E as -> _. cbn [fst]. cbn [together fold_right block_table followed] in H.
  repeat apply conj; apply H.
  - apply looked_rule_not; [vm_compute; auto|]. apply looked_block; [vm_compute; discriminate| |discriminate].
    apply looked_rule; [vm_compute; discriminate|].
    exact (action_filled _ filled false (lit "@") [] (lit "owner-x@example.com") (lit "to $1")
             [Some (lit "@"); Some (lit "example.com")] eq_refl eq_refl).
  - not_in.
  - apply looked_rule_not; [vm_compute; auto|]. apply looked_block_not; [vm_compute; auto|]. apply looked_end.
  - exact I.
  - apply looked_rule; [vm_compute; discriminate|].
    exact (action_filled _ filled false (lit "root") [] (lit "root@example.com") (lit "OK")
             [Some (lit "root"); Some (lit "@example.com")] eq_refl eq_refl).
  - not_in.
Qed.

Example C91_error_example :
  exists h e, parse anything heap_new (file (map lit ["/root/ OK"; "wrong"; "/@/ NO"]%string) []) = (h, Some e) /\
    find literal h (lit "root@x") = Found (lit "OK") /\ find literal h (lit "x@x") = Nothing.
Proof.
  destruct (C91_error anything literal [] [] (file (map lit ["/root/ OK"; "wrong"; "/@/ NO"]%string) [])
              (TRule false (lit "root") [] (lit "OK") TEnd) [lit "/root/ OK"] (lit "wrong") [lit "/@/ NO"])
    as (h & e & E & _ & F).
  - apply Forall2_nil.
  - cbn. auto.
  - simple_file.
  - apply Forall2_cons; [rule|apply Forall2_nil].
  - left. intros s S. assert (N : forall c, white c -> c <> "w"%char)
      by (intros c W ->; vm_compute in W; intuition discriminate).
    remember (lit "wrong") as b eqn:Eb. destruct S as [n p f s w W|n p f s w a W|s W].
    + destruct w as [|c w]; [discriminate Eb|]. injection Eb as Ec _. exact (N c (Forall_inv W) Ec).
    + destruct w as [|c w]; [destruct n; discriminate Eb|]. injection Eb as Ec _. exact (N c (Forall_inv W) Ec).
    + discriminate Eb.
  - exists h, e. cbn [app load map] in E. destruct (parse _ _ _) as [h' f]. injection E as -> ->. split; [reflexivity|].
    cbn [app map swallowed together fold_right followed] in F. split; apply F.
    + apply twice_rule; [vm_compute; discriminate|].
      exact (action_filled _ filled false (lit "root") [] (lit "root@x") (lit "OK") [Some (lit "root"); Some (lit "@x")] eq_refl eq_refl).
    + apply twice_rule_not; [vm_compute; auto|]. apply twice_end.
Qed.

(** *** Where it fails *)

(** A rule after [endif] is looked at only if the condition of the block holds. *)
Definition after_file : list string := ["if /owner-/"; "/list/ OK"; "endif"; "/@/ REJECT"]%string.
Definition after_table : table :=
  TBlock false (lit "owner-") [] (TRule false (lit "list") [] (lit "OK") TEnd) (TRule false (lit "@") [] (lit "REJECT") TEnd).
Theorem C91_after_block_refuted :
  file_of (file (map lit after_file) []) after_table /\
  looked_up (matching literal) filled (lit "x@example.com") after_table (Found (lit "REJECT")) /\
  (look after_file "x@example.com"%string) = Nothing.
Proof.
  split; [|split; [|vm_compute; reflexivity]].
  - exists (map lit after_file). split; [simple_file|].
    apply Forall2_cons; [exact (if_written (lit "owner-"))|]. apply Forall2_cons; [rule|].
    apply Forall2_cons; [exact (written_endif [] (Forall_nil _))|]. apply Forall2_cons; [rule|]. apply Forall2_nil.
  - apply looked_block_not; [vm_compute; auto|]. apply looked_rule; [vm_compute; discriminate|].
    exact (action_filled _ filled false (lit "@") [] (lit "x@example.com") (lit "REJECT")
             [Some (lit "@"); Some (lit "example.com")] eq_refl eq_refl).
Qed.
Print Assumptions C91_after_block_refuted.

(** In a block the text looked up can itself use variables: they are replaced a second time. *)
Theorem C91_twice_refuted :
  (look block_file "owner-a@$1"%string) = Found (lit "to a@$1") /\
  looked_up (matching literal) filled (lit "owner-a@$1") block_table (Found (lit "to $1")).
Proof.
  split; [vm_compute; reflexivity|].
  apply looked_rule_not; [vm_compute; auto|]. apply looked_block; [vm_compute; discriminate| |discriminate].
  apply looked_rule; [vm_compute; discriminate|].
  exact (action_filled _ filled false (lit "@") [] (lit "owner-a@$1") (lit "to $1")
           [Some (lit "@"); Some (lit "$1")] eq_refl eq_refl).
Qed.
Print Assumptions C91_twice_refuted.

(** A slash in the action followed by white space is taken for the end of the pattern; white space
    at the end belongs to the action. *)
Theorem C91_slash_refuted :
  statement_of (lit "/a/ 550 see http://x/ now") = Some (SRule false (lit "a/ 550 see http://x") [] (lit "now")) /\
  statement_of (lit "/a/ OK ") = Some (SRule false (lit "a") [] (lit "OK ")).
Proof. split; vm_compute; reflexivity. Qed.
Print Assumptions C91_slash_refuted.

(** How a pattern is compiled: as written, never minding the case, with [.] matching newlines exactly
    when [m] is among the flags. *)
Theorem C91_flags p f :
  x_pattern (create_regexp p f) = p /\ x_ignorecase (create_regexp p f) = true /\
  (x_multiline (create_regexp p f) = true <-> In "m"%char f).
Proof.
  apply conj; [reflexivity|]. apply conj; [reflexivity|].
  unfold create_regexp, has_flag. cbn [x_multiline]. rewrite existsb_exists. split.
  - intros [c [I E]]. apply Ascii.eqb_eq in E. subst c. exact I.
  - intros I. exists "m"%char. split; [exact I | reflexivity].
Qed.
Print Assumptions C91_flags.
Example C91_flags_example :
  create_regexp (lit "^free .*money") (lit "xm") = mk_regexp (lit "^free .*money") true true /\
  create_regexp (lit "^free .*money") (lit "ix") = mk_regexp (lit "^free .*money") true false.
Proof. split; reflexivity. Qed.

(** The flag that switches to matching the case does nothing, nor does [x]. *)
Theorem C91_flag_refuted p : create_regexp p (lit "i") = create_regexp p [] /\ create_regexp p (lit "x") = create_regexp p [].
Proof. split; reflexivity. Qed.
Print Assumptions C91_flag_refuted.

(** A missing [endif], or one too many with something after it, is a NoMethodError; one too many at
    the end is not noticed. *)
Definition fails (ls : list string) : option failure := snd (parse anything heap_new (file (map lit ls) [])).
Theorem C91_unbalanced_refuted :
  fails ["if /a/"; "/b/ OK"]%string = Some NoMethod /\
  fails ["if /a/"; "endif"; "endif"; "/b/ OK"]%string = Some NoMethod /\
  fails ["if /a/"; "endif"; "endif"]%string = None.
Proof. repeat split; vm_compute; reflexivity. Qed.
Print Assumptions C91_unbalanced_refuted.

(** The line named by an error is right when each line is a logical line, but for lines without a
    pattern it is the next one. *)
Theorem C91_number ls : ls <> [] -> Forall one_line ls -> Forall starting_line ls ->
  map lg_number (lines_of (file ls [])) = map N.of_nat (seq 1 (length ls)).
Proof.
  intros N O F. unfold lines_of. rewrite (physical_file ls [] O (fun x => match x with end)), app_nil_r.
  destruct ls as [|l ls]; [contradiction|]. cbn [map].
  pose proof (Forall_inv F) as Fl. apply Forall_inv_tail in F.
  destruct (starting_not (l ++ [byte_of 10]) l (or_introl eq_refl) Fl) as (H1 & H2).
  cbn [each_line]. rewrite H1, H2.
  assert (E : Forall2 ended (map (fun l => l ++ [byte_of 10]) ls) ls)
    by (clear; induction ls; constructor; [now left|assumption]).
  rewrite (proj1 (each_numbers ls F _ (0 + 1) (chomp (l ++ [byte_of 10])) E)).
  cbn [length]. rewrite <- (seq_shift _ 0), map_map. apply map_ext. intros k. lia.
Qed.
Print Assumptions C91_number.
Example C91_number_example : map lg_number (lines_of (file [lit "/a/ b"; lit "/c/ d"; lit "endif"] [])) = [1; 2; 3].
Proof.
  apply (C91_number [lit "/a/ b"; lit "/c/ d"; lit "endif"]); [discriminate| |].
  - repeat (apply Forall_cons; [not_in|]). apply Forall_nil.
  - repeat (apply Forall_cons; [apply starting; reflexivity|]). apply Forall_nil.
Qed.
Theorem C91_number_refuted :
  fails ["wrong"; "/a/ OK"]%string = Some (BadFormat (lit "wrong") 2) /\
  snd (parse (fun r => negb (bytes_eqb (x_pattern r) (lit "("))) heap_new
         (file [lit "/(/ OK"; []; []; lit "/a/ OK"] [])) = Some (BadValue (lit "(") (lit "/(/ OK") 3).
Proof. split; vm_compute; reflexivity. Qed.
Print Assumptions C91_number_refuted.

(** *** Networks *)
Section Networks.
  Variables network address : Type.
  Variable network_of : bytes -> option network.
  Variable covers : network -> address -> bool.
  Definition row_written (l : bytes) (row : bytes * network * bytes) : Prop :=
    let '(a, n, action) := row in written_network a action l /\ network_of a = Some n.

  Lemma rows_logical : forall ls rows, Forall2 row_written (map lg_text ls) rows ->
    Forall2 (fun l '(a, n, action) => written_network a action (lg_text l) /\ network_of a = Some n) ls rows.
  Proof.
    induction ls as [|l ls IH]; intros rows F; inversion F as [|? [[a n] action] ? rows' W F']; subst; constructor; auto.
  Qed.
  (** The first network, in the order of the file, that has the address decides. *)
  Theorem C91_network input out rows : says input out -> Forall2 row_written out rows ->
    exists table, parse_cidr network network_of [] (lines_of input) = (table, None) /\
      forall a, (exists before w n action after, rows = before ++ (w, n, action) :: after /\
                   Forall (fun '(_, n, _) => covers n a = false) before /\ covers n a = true /\
                   find_cidr network address covers table a = Some action) \/
                (Forall (fun '(_, n, _) => covers n a = false) rows /\
                 find_cidr network address covers table a = None).
  Proof.
    intros S F. rewrite <- (C91_lines input out S) in F. apply rows_logical in F.
    exists (map (fun '(_, n, action) => (n, action)) rows). split.
    - rewrite <- (app_nil_r (lines_of input)). rewrite (cidr_parsed network network_of _ rows F). reflexivity.
    - intros a. clear. induction rows as [|[[w n] action] rows IH].
      + right. split; [constructor|reflexivity].
      + cbn [map find_cidr]. destruct (covers n a) eqn:E.
        * left. exists [], w, n, action, rows. repeat split; [constructor|exact E].
        * destruct IH as [(before & w' & n' & action' & after & -> & B & C & H)|(B & H)].
          -- left. exists ((w, n, action) :: before), w', n', action', after. repeat split; auto.
          -- right. split; [constructor; assumption|exact H].
  Qed.
  (** A line that is not one, or an address that is none, stops the reading. *)
  Theorem C91_network_error input ls l ms rows : lines_of input = ls ++ l :: ms ->
    Forall2 row_written (map lg_text ls) rows ->
    cidr_line (lg_text l) = None \/
    (exists a action, written_network a action (lg_text l) /\ network_of a = None) ->
    exists e, parse_cidr network network_of [] (lines_of input) =
              (map (fun '(_, n, action) => (n, action)) rows, Some e) /\
      e <> NoMethod.
  Proof.
    intros E F Bad. rewrite E, (cidr_parsed network network_of _ rows (rows_logical _ _ F)). cbn [app parse_cidr].
    destruct Bad as [-> | (a & action & W & Na)].
    - eexists. split; [reflexivity|discriminate].
    - rewrite (network_read a action _ W), Na. eexists. split; [reflexivity|discriminate].
  Qed.
End Networks.
Print Assumptions C91_network.
Print Assumptions C91_network_error.
Definition v4_line (a m action : bytes) : bytes := a ++ lit "/" ++ m ++ lit " " ++ action.
Example C91_network_example :
  let covers (n a : bytes) := match after (firstn 9 n) a with Some _ => true | None => false end in
  let input := file [lit "192.168.1.1  OK"; lit "192.168.1.0/24 550 no"] [] in
  let table := fst (parse_cidr bytes Some [] (lines_of input)) in
  find_cidr bytes bytes covers table (lit "192.168.1.7") = Some (lit "OK").
Proof.
  intros covers input table.
  destruct (C91_network bytes bytes Some covers input [lit "192.168.1.1  OK"; lit "192.168.1.0/24 550 no"]
              [(lit "192.168.1.1", lit "192.168.1.1", lit "OK"); (lit "192.168.1.0/24", lit "192.168.1.0/24", lit "550 no")])
    as (t & E & H).
  - simple_file.
  - apply Forall2_cons; [split; [|reflexivity]|apply Forall2_cons; [split; [|reflexivity]|apply Forall2_nil]].
    + refine (written_plain (lit "192.168.1.1") (lit "  ") (lit "OK") _ _ _ _).
      * discriminate.
      * left. apply Forall_forall. intros c Hc. apply v4_iff. revert c Hc. apply forallb_forall. reflexivity.
      * split; [discriminate|whiteout].
      * eexists _, _. split; [reflexivity|apply not_white; reflexivity].
    + refine (written_mask (lit "192.168.1.0") (lit "24") (lit " ") (lit "550 no") _ _ _ _ _ _).
      * discriminate.
      * left. apply Forall_forall. intros c Hc. apply v4_iff. revert c Hc. apply forallb_forall. reflexivity.
      * discriminate.
      * apply Forall_forall. intros c Hc. apply is_digit_iff. revert c Hc. apply forallb_forall. reflexivity.
      * split; [discriminate|whiteout].
      * eexists _, _. split; [reflexivity|apply not_white; reflexivity].
  - unfold table. rewrite E. cbn [fst]. destruct (H (lit "192.168.1.7")) as [(b & w & n & a & af & Er & B & C & F)|(B & _)].
    + rewrite F. destruct b as [|x b]; cbn [app] in Er; [injection Er as _ _ <- _; reflexivity|]. injection Er as <- _. apply Forall_inv in B. vm_compute in B. discriminate.
    + apply Forall_inv in B. vm_compute in B. discriminate.
Qed.
