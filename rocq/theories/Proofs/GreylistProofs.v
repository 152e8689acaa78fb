(** How greylist.conf is read. *)
From Verif.Base Require Import Bytes BytesFacts.
From Verif.Model Require Import PostfixTable Breaker Detect.
From Verif.Spec Require Import PostfixSpec ConnectionSpecSpec.
From Verif.Spec Require BreakerSpec.
From Verif.Proofs Require Import PostfixProofs ConnectionSpecProofs BreakerProofs DetectProofs.
From Verif.Spec Require Import DetectSpec.
Import List.
Local Open Scope N_scope.

(** *** Files line by line, up to a relation *)
Lemma fold_related {A B E} (M : bytes -> E -> Prop) (f : A -> bytes -> A) (g : B -> E -> B) (R : A -> B -> Prop) :
  (forall a b p l e, ended p l -> one_line l -> M l e -> R a b -> R (f a p) (g b e)) ->
  (forall a b e, M [] e -> R a b -> R a (g b e)) ->
  forall es content a b, lists M es content -> R a b -> R (fold_left f (physical content) a) (fold_left g es b).
Proof.
  intros Hf Hn es content a b (ls & last & -> & F & L & F2) HR.
  rewrite (physical_file _ _ F L).
  revert a b es F2 HR. induction F as [|l ls H F IH]; intros a b es F2 HR.
  - inversion F2 as [|? e ? es' HM F2']; subst. inversion F2'; subst. cbn [map app fold_left].
    destruct last as [|c last]; cbn [fold_left].
    + now apply Hn.
    + exact (Hf a b (c :: last) (c :: last) e (or_intror eq_refl) L HM HR).
  - inversion F2 as [|? e ? es' HM F2']; subst. cbn [map app fold_left].
    apply IH; [exact F2'|]. exact (Hf a b (l ++ [byte_of 10]) l e (or_introl eq_refl) H HM HR).
Qed.

(** *** No line is ever continued *)
Lemma ends_lf l : ends_with_backslash (l ++ [byte_of 10]) = false.
Proof. unfold ends_with_backslash. rewrite rev_app_distr. reflexivity. Qed.
Definition kept (p : bytes) : bool := negb (is_comment p).
Lemma normalize_mapped ls : forall acc,
  fold_left normalize_step (map (fun l => l ++ [byte_of 10]) ls) (acc, false) =
  (rev (filter kept (map (fun l => l ++ [byte_of 10]) ls)) ++ acc, false).
Proof.
  induction ls as [|l ls IH]; intros acc; [reflexivity|]. cbn [map fold_left filter]. unfold normalize_step at 2.
  unfold kept at 1. destruct (is_comment (l ++ [byte_of 10])); cbn [negb]; [apply IH|].
  rewrite ends_lf, IH. cbn [rev]. rewrite <- app_assoc. reflexivity.
Qed.
Lemma normalize_kept ls last : Forall one_line ls -> one_line last ->
  normalize_lines (file ls last) = filter kept (physical (file ls last)).
Proof.
  intros F L. unfold normalize_lines. rewrite (physical_file _ _ F L), fold_left_app, normalize_mapped.
  rewrite filter_app, app_nil_r. destruct last as [|c last]; cbn [fold_left fst filter].
  - rewrite rev_involutive, ?app_nil_r. reflexivity.
  - unfold normalize_step. replace (kept (c :: last)) with (negb (is_comment (c :: last))) by reflexivity.
    destruct (is_comment (c :: last)); cbn [fst negb rev].
    + rewrite rev_involutive, ?app_nil_r. reflexivity.
    + rewrite rev_involutive. reflexivity.
Qed.
Definition greylist_step (g : greylist) (p : bytes) : greylist :=
  if is_comment p then g else parse_greylist_line g p.
Lemma fold_filtered ps : forall g, fold_left parse_greylist_line (filter kept ps) g = fold_left greylist_step ps g.
Proof.
  induction ps as [|p ps IH]; intros g; [reflexivity|]. cbn [filter fold_left]. unfold kept, greylist_step at 2.
  destruct (is_comment p); cbn [negb fold_left]; apply IH.
Qed.

(** *** The first word of a line *)
Lemma word_b k : forallb is_word k = true -> k <> [] -> word k.
Proof.
  intros H N. split; [exact N|]. apply Forall_forall. intros c I. apply word_name.
  rewrite forallb_forall in H. now apply H.
Qed.
Definition ends_word (r : bytes) : Prop := r = [] \/ exists c r', r = c :: r' /\ is_space c = true.
Lemma ends_word_stop r : ends_word r -> r = [] \/ exists c r', r = c :: r' /\ is_word c = false.
Proof. intros [->|(c & r' & -> & H)]; [now left|right; exists c, r'; split; auto; now apply space_not_word]. Qed.
Lemma first_word w k r : word w -> word k -> ends_word r ->
  bind (after_prefix w (k ++ r)) after_spaces = if bytes_eqb w k then after_spaces r else None.
Proof.
  intros W K E. destruct (bytes_eqb w k) eqn:B.
  - apply bytes_eqb_eq in B. subst. rewrite after_prefix_app. reflexivity.
  - destruct (after_prefix w (k ++ r)) as [r'|] eqn:A; [|reflexivity]. cbn [bind].
    destruct r' as [|c r']; [reflexivity|]. cbn [after_spaces]. destruct (is_space c) eqn:S; [|reflexivity].
    exfalso. apply after_prefix_some in A.
    assert (X : take_while is_word (k ++ r) = k) by (apply word_stops; auto using ends_word_stop).
    assert (Y : take_while is_word (w ++ c :: r') = w).
    { apply word_stops; auto. right. exists c, r'. split; auto. now apply space_not_word. }
    rewrite A, Y in X. subst. rewrite bytes_eqb_refl in B. discriminate.
Qed.
Lemma spaces_end s v : spaces s -> ends_word (s ++ v).
Proof.
  intros [N F]. destruct s as [|c s]; [congruence|]. right. exists c, (s ++ v). split; [reflexivity|].
  inversion F; subst. now apply white_is.
Qed.
Lemma spaces_skip s v : spaces s -> after_spaces (s ++ v) = Some (drop_while is_space v).
Proof.
  intros [N F]. destruct s as [|c s]; [congruence|]. inversion F; subst. cbn [app after_spaces].
  rewrite white_is by assumption. f_equal. apply drop_all. now apply whites.
Qed.
Definition acl_w : word (lit "acl"). Proof. apply word_b; [reflexivity|discriminate]. Qed.
Definition racl_w : word (lit "racl"). Proof. apply word_b; [reflexivity|discriminate]. Qed.
Definition dacl_w : word (lit "dacl"). Proof. apply word_b; [reflexivity|discriminate]. Qed.
Definition socket_w : word (lit "socket"). Proof. apply word_b; [reflexivity|discriminate]. Qed.
Lemma acl_first x i k r : word (x ++ lit "acl") -> Forall white i -> word k -> ends_word r ->
  acl_line x (i ++ k ++ r) =
  if bytes_eqb (x ++ lit "acl") k then match after_spaces r with Some t => Some t | None => None end
  else if bytes_eqb (lit "acl") k then after_spaces r else None.
Proof.
  intros X I K E. apply whites in I. unfold acl_line. rewrite (drop_all _ _ _ I), (word_begins _ _ K).
  rewrite (first_word _ _ _ X K E), (first_word _ _ _ acl_w K E).
  destruct (bytes_eqb (x ++ lit "acl") k) eqn:B; [|reflexivity].
  destruct (after_spaces r); [reflexivity|]. destruct (bytes_eqb (lit "acl") k); reflexivity.
Qed.

(** *** Delays *)
Lemma absent_tail w c t : absent w (c :: t) -> absent w t.
Proof. intros H a b E. apply (H (c :: a) b). cbn [app]. congruence. Qed.
Lemma absent_here w pre R : absent w pre -> (exists p c, pre = p ++ [c] /\ ~ In c w) -> after_prefix w (pre ++ R) = None.
Proof.
  intros A (p & c & P & N). destruct (after_prefix w (pre ++ R)) as [r|] eqn:E; [|reflexivity]. exfalso.
  apply after_prefix_some in E. apply app_eq_app in E as [l [[E _]|[E _]]].
  - apply (A [] l). exact E.
  - apply N. rewrite E, P. rewrite in_app_iff, in_app_iff. left. right. now left.
Qed.
Lemma white_not_tarpit c : white c -> ~ In c (lit "tarpit").
Proof. intros [->|[->|[->|[->|[->| ->]]]]] H; vm_compute in H; intuition discriminate. Qed.
Lemma tarpit_skip pre : forall flag R n, absent (lit "tarpit") pre ->
  (pre = [] \/ exists p c, pre = p ++ [c] /\ white c) -> (pre = [] -> flag = false) ->
  tarpit_here R = Some n -> R <> [] -> tarpit_from flag (pre ++ R) = Some n.
Proof.
  induction pre as [|c pre IH]; intros flag R n A P Fl H N.
  - cbn [app]. destruct R as [|d R]; [congruence|]. cbn [tarpit_from]. rewrite (Fl eq_refl), H. reflexivity.
  - destruct P as [P|(p & d & P & W)]; [discriminate|]. cbn [app tarpit_from].
    assert (X : tarpit_here ((c :: pre) ++ R) = None).
    { unfold tarpit_here. rewrite absent_here; [reflexivity|exact A|]. exists p, d. split; [exact P|now apply white_not_tarpit]. }
    cbn [app] in X. rewrite X. replace (if flag then None else None) with (@None BinNums.N) by now destruct flag.
    apply IH; auto.
    + now apply absent_tail in A.
    + destruct p as [|c' p]; cbn [app] in P; injection P as -> ->; [now left|right; exists p, d; auto].
    + intros ->. destruct p as [|c' p]; cbn [app] in P; [injection P as ->|destruct p; discriminate].
      apply space_not_word. now apply white_is.
Qed.
Lemma tarpit_absent t : forall flag, absent (lit "tarpit") t -> tarpit_from flag t = None.
Proof.
  induction t as [|c t IH]; intros flag A; [reflexivity|]. cbn [tarpit_from].
  assert (X : tarpit_here (c :: t) = None).
  { unfold tarpit_here. destruct (after_prefix (lit "tarpit") (c :: t)) as [r|] eqn:E; [|reflexivity].
    apply after_prefix_some in E. exfalso. now apply (A [] r). }
  rewrite X. replace (if flag then None else None) with (@None BinNums.N) by now destruct flag.
  apply IH. now apply absent_tail in A.
Qed.
Lemma digit_start d r : digits_text d -> drop_while is_space (d ++ r) = d ++ r.
Proof.
  intros [N F]. destruct d as [|c d]; [congruence|]. inversion F as [|? ? H]; subst. cbn [app]. apply drop_stop.
  unfold is_space. destruct H. apply orb_false_iff. split; [apply N.eqb_neq; lia|]. apply andb_false_iff. right. apply N.leb_gt. lia.
Qed.
Lemma digits_are d : Forall digit_char d -> Forall (fun c => is_digit c = true) d.
Proof. intros H. eapply Forall_impl; [|exact H]. intros c. apply digit_true. Qed.
Lemma digits_mean d : Forall digit_char d -> digits 0 d = number d.
Proof. intros H. rewrite (digits_number _ H), digits_value_from. lia. Qed.
Lemma space_not_digit c : is_space c = true -> is_digit c = false.
Proof.
  intros H. apply space_not_word in H. unfold is_word in H. rewrite !orb_false_iff in H. tauto.
Qed.
Lemma delays_spec text n : delays text n -> tarpit_time text = Some n.
Proof.
  intros (pre & s & d & u & m & post & -> & A & _ & P & S & D & U & T & ->).
  unfold tarpit_time. apply tarpit_skip; auto; [|discriminate].
  unfold tarpit_here. rewrite after_prefix_app. cbn [bind].
  rewrite (spaces_skip _ _ S), (digit_start _ _ D). pose proof D as [N F]. pose proof (digits_are _ F) as F'.
  assert (Z : forall r, (r = [] \/ exists c r', r = c :: r' /\ is_digit c = false) ->
    take_while is_digit (d ++ r) = d /\ drop_while is_digit (d ++ r) = r).
  { intros r H. rewrite (take_all _ _ _ F'), (drop_all _ _ _ F'). destruct H as [->|(c & r' & -> & H)].
    - cbn. rewrite app_nil_r. auto.
    - rewrite (take_stop _ _ _ H), (drop_stop _ _ _ H), app_nil_r. auto. }
  assert (B : at_boundary post = true).
  { destruct T as [->|(c & p & -> & W)]; [reflexivity|]. cbn. now rewrite (space_not_word c (white_is _ W)). }
  destruct (Z (u ++ post)) as [Z1 Z2].
  { destruct U; cbn [app].
    - destruct T as [->|(c & p & -> & W)]; [now left|right; exists c, p; split; auto; apply space_not_digit, white_is, W].
    - right; exists "s"%char, post; split; reflexivity.
    - right; exists "m"%char, post; split; reflexivity.
    - right; exists "h"%char, post; split; reflexivity.
    - right; exists "d"%char, post; split; reflexivity.
    - right; exists "w"%char, post; split; reflexivity. }
  rewrite Z1, Z2. destruct d as [|d0 d]; [congruence|]. rewrite (digits_mean _ F).
  destruct U.
  - cbn [app]. rewrite N.mul_1_r. destruct T as [->|(c & p & -> & W)]; [reflexivity|].
    assert (I : is_unit c = false).
    { destruct W as [->|[->|[->|[->|[->| ->]]]]]; reflexivity. }
    rewrite I, (space_not_word c (white_is _ W)). reflexivity.
  - change (lit "s" ++ post) with ("s"%char :: post). cbv beta iota. rewrite B. change (is_unit "s") with true. cbn [andb]. unfold seconds.
    change (beqb "s" "m") with false. change (beqb "s" "h") with false. change (beqb "s" "d") with false. change (beqb "s" "w") with false.
    rewrite N.mul_1_r. reflexivity.
  - change (lit "m" ++ post) with ("m"%char :: post). cbv beta iota. rewrite B. change (is_unit "m") with true. reflexivity.
  - change (lit "h" ++ post) with ("h"%char :: post). cbv beta iota. rewrite B. change (is_unit "h") with true. cbn [andb]. unfold seconds.
    change (beqb "h" "m") with false. change (beqb "h" "h") with true. cbv iota. f_equal. lia.
  - change (lit "d" ++ post) with ("d"%char :: post). cbv beta iota. rewrite B. change (is_unit "d") with true. cbn [andb]. unfold seconds.
    change (beqb "d" "m") with false. change (beqb "d" "h") with false. change (beqb "d" "d") with true. cbv iota. f_equal. lia.
  - change (lit "w" ++ post) with ("w"%char :: post). cbv beta iota. rewrite B. change (is_unit "w") with true. cbn [andb]. unfold seconds.
    change (beqb "w" "m") with false. change (beqb "w" "h") with false. change (beqb "w" "d") with false. change (beqb "w" "w") with true. cbv iota. f_equal. lia.
Qed.

(** *** Sockets *)
Lemma lazy_first {A} (after : bytes -> option A) path : forall t, ~ In dq path ->
  lazy_quote after (path ++ dq :: t) =
  match after t with Some a => Some (path, a) | None => match lazy_quote after t with Some (x, a) => Some (path ++ dq :: x, a) | None => None end end.
Proof.
  induction path as [|c path IH]; intros t N.
  - cbn [app lazy_quote]. rewrite beqb_refl. destruct (after t); [reflexivity|]. destruct (lazy_quote after t) as [[x a]|]; reflexivity.
  - cbn [app lazy_quote]. replace (beqb c dq) with false.
    + rewrite IH by (intros I; apply N; now right). destruct (after t); [reflexivity|].
      destruct (lazy_quote after t) as [[x a]|]; reflexivity.
    + symmetry. apply beqb_neq. intros ->. apply N. now left.
Qed.
Lemma lazy_none {A} (after : bytes -> option A) t : ~ In dq t -> lazy_quote after t = None.
Proof.
  induction t as [|c t IH]; intros N; [reflexivity|]. cbn [lazy_quote]. replace (beqb c dq) with false.
  - rewrite IH by (intros I; apply N; now right). reflexivity.
  - symmetry. apply beqb_neq. intros ->. apply N. now left.
Qed.
Lemma quoted_first {A} (after : bytes -> option A) path t : path <> [] -> ~ In dq path -> ~ In dq t ->
  quoted after (dq :: path ++ dq :: t) = match after t with Some a => Some (path, a) | None => None end.
Proof.
  intros N P T. destruct path as [|c path]; [congruence|]. cbn [app quoted]. rewrite beqb_refl.
  rewrite lazy_first by (intros I; apply P; now right). rewrite (lazy_none after t T).
  destruct (after t); reflexivity.
Qed.
Lemma white_not_dq t : Forall white t -> ~ In dq t.
Proof. intros F I. rewrite Forall_forall in F. apply F in I. vm_compute in I. intuition discriminate. Qed.
Lemma digit_not_dq t : Forall digit_char t -> ~ In dq t.
Proof. intros F I. rewrite Forall_forall in F. apply F in I. destruct I as [I _]. vm_compute in I. apply I. reflexivity. Qed.
Lemma all_white t : Forall white t -> all_space t = true.
Proof. intros F. unfold all_space. apply forallb_forall. intros c I. rewrite Forall_forall in F. now apply white_is, F. Qed.
Lemma mode_not_space t m : digits_text m -> all_space (t ++ m) = false.
Proof.
  intros [N F]. destruct m as [|c m]; [congruence|]. inversion F as [|? ? H]; subst.
  unfold all_space. rewrite forallb_app. apply andb_false_iff. right. cbn [forallb].
  pose proof (digit_start (c :: m) [] (conj N F)) as X. cbn [app drop_while] in X. rewrite app_nil_r in X.
  destruct (is_space c) eqn:E; [|reflexivity]. exfalso.
  apply space_not_digit in E. rewrite (digit_true c H) in E. discriminate.
Qed.
Lemma variable_first i k r : Forall white i -> word k -> ends_word r ->
  variable_line (i ++ k ++ r) =
  match after_spaces r with
  | None => None
  | Some rest =>
      match quoted only_space rest with
      | Some (v, _) => Some (k, GText v)
      | None => match quoted only_number rest with Some (v, n) => Some (k, GPair v n) | None => Some (k, GText rest) end
      end
  end.
Proof.
  intros I K E. apply whites in I. unfold variable_line. rewrite (drop_all _ _ _ I), (word_begins _ _ K).
  destruct (word_stops k r K (ends_word_stop _ E)) as [-> ->]. destruct K as [N _]. destruct k; [congruence|reflexivity].
Qed.

(** *** A line *)
Definition summary := (option bytes * N)%type.
Definition say (s : summary) (e : gl_entry) : summary :=
  match e with GIdle => s | GSocket p => (Some p, snd s) | GDelay n => (fst s, N.max (snd s) n) end.
Definition shows (g : greylist) (s : summary) : Prop := greylist_socket g = fst s /\ greylist_extra g = snd s.
Definition take_line (g : greylist) (l : bytes) : greylist :=
  match acl_line (lit "r") l with
  | Some acl =>
      match tarpit_time acl with
      | Some n => mk_greylist (gl_variables g) (Some (N.max (match gl_tarpit g with Some m => m | None => 0 end) n))
      | None => g
      end
  | None =>
      match acl_line (lit "d") l with
      | Some _ => g
      | None => match variable_line l with Some kv => mk_greylist (kv :: gl_variables g) (gl_tarpit g) | None => g end
      end
  end.
Lemma idle_drop l : idle_line l -> match drop_while is_space l with [] => True | c :: _ => c = "#"%char end.
Proof. intros I. exact (idle_no_word l l (or_intror eq_refl) I). Qed.
Lemma take_nothing g t : (match drop_while is_space t with [] => True | c :: _ => is_word c = false end) -> take_line g t = g.
Proof.
  intros H. unfold take_line, acl_line, variable_line. destruct (drop_while is_space t) as [|c b]; [reflexivity|].
  assert (forall x, is_word x = true -> beqb c x = false) as X.
  { intros x W. apply beqb_neq. intros ->. congruence. }
  assert (Y : forall x w, is_word x = true -> after_prefix (x :: w) (c :: b) = None).
  { intros x w W. cbn [after_prefix]. rewrite (X x W). reflexivity. }
  change (lit "r" ++ lit "acl") with ("r"%char :: lit "acl"). change (lit "d" ++ lit "acl") with ("d"%char :: lit "acl").
  change (lit "acl") with ("a"%char :: lit "cl").
  rewrite !Y by reflexivity. cbn [bind take_while]. rewrite H. reflexivity.
Qed.
Lemma take_socket g i r rest v : Forall white i -> ends_word r -> after_spaces r = Some rest ->
  (quoted only_space rest = Some (v, tt) \/
   quoted only_space rest = None /\ (exists n, quoted only_number rest = Some (v, n)) \/
   quoted only_space rest = None /\ quoted only_number rest = None /\ rest = v) ->
  exists x, take_line g (i ++ lit "socket" ++ r) = mk_greylist ((lit "socket", x) :: gl_variables g) (gl_tarpit g) /\
            (x = GText v \/ exists n, x = GPair v n).
Proof.
  intros I E A H. unfold take_line.
  rewrite (acl_first (lit "r") i (lit "socket") r racl_w I socket_w E), (acl_first (lit "d") i (lit "socket") r dacl_w I socket_w E).
  change (bytes_eqb (lit "r" ++ lit "acl") (lit "socket")) with false. change (bytes_eqb (lit "d" ++ lit "acl") (lit "socket")) with false.
  change (bytes_eqb (lit "acl") (lit "socket")) with false. cbv iota.
  rewrite (variable_first _ _ _ I socket_w E), A.
  destruct H as [->|[[-> [n ->]]|(-> & -> & ->)]]; eexists; split; try reflexivity; eauto.
Qed.
Lemma socket_shows g s p x : shows g s -> x = GText p \/ (exists n, x = GPair p n) ->
  shows (mk_greylist ((lit "socket", x) :: gl_variables g) (gl_tarpit g)) (Some p, snd s).
Proof.
  intros [S X] H. split; [|exact X]. unfold greylist_socket. cbn [gl_variables lookup]. rewrite bytes_eqb_refl.
  destruct H as [->|[n ->]]; reflexivity.
Qed.
Lemma acl_taken i k s text : Forall white i -> acl_word k -> spaces s -> begins_text text ->
  acl_line (lit "r") (i ++ k ++ s ++ text) = Some text.
Proof.
  intros I K S B. assert (W : word k) by (destruct K as [->| ->]; [exact acl_w|exact racl_w]).
  rewrite (acl_first (lit "r") i k _ racl_w I W (spaces_end _ _ S)), (spaces_skip _ _ S).
  destruct (begins_head _ B) as [-> _].
  destruct K as [->| ->]; reflexivity.
Qed.
Lemma take_line_spec g s t e : greylist_line t e -> shows g s -> shows (take_line g t) (say s e).
Proof.
  intros H R. destruct H as [l I|i sp path t I S N Q T|i sp path t m I S N Q T D|i sp path I S B Q|i k sp v I K NA NS S|i k I K|i c l I W NC|i k sp text n I K S B D|i k sp text I K S B A]; cbn [say].
  - rewrite take_nothing; [exact R|]. apply idle_drop in I. destruct (drop_while is_space l); [exact I|subst; reflexivity].
  - destruct (take_socket g i (sp ++ [double_quote] ++ path ++ [double_quote] ++ t)
      ([double_quote] ++ path ++ [double_quote] ++ t) path I (spaces_end _ _ S)) as (x & -> & X).
    + rewrite (spaces_skip _ _ S). reflexivity.
    + left. change ([double_quote] ++ path ++ [double_quote] ++ t) with (dq :: path ++ dq :: t).
      rewrite quoted_first by auto using white_not_dq. unfold only_space. rewrite (all_white _ T). reflexivity.
    + now apply socket_shows.
  - destruct (take_socket g i (sp ++ [double_quote] ++ path ++ [double_quote] ++ t ++ m)
      ([double_quote] ++ path ++ [double_quote] ++ t ++ m) path I (spaces_end _ _ S)) as (x & -> & X).
    + rewrite (spaces_skip _ _ S). reflexivity.
    + right. left. change ([double_quote] ++ path ++ [double_quote] ++ t ++ m) with (dq :: path ++ dq :: t ++ m).
      assert (Z : ~ In dq (t ++ m)).
      { rewrite in_app_iff. intros [Z|Z]; revert Z; [now apply white_not_dq|apply digit_not_dq; apply D]. }
      rewrite !quoted_first by auto. unfold only_space. rewrite (mode_not_space _ _ D). split; [reflexivity|].
      unfold only_number. apply whites in T. rewrite (drop_all _ _ _ T).
      pose proof (digit_start m [] D) as X. rewrite app_nil_r in X. rewrite X.
      destruct D as [Nm F]. destruct m as [|m0 m]; [congruence|].
      replace (forallb is_digit (m0 :: m)) with true; [eexists; reflexivity|].
      symmetry. apply forallb_forall. intros c Ic. rewrite Forall_forall in F. now apply digit_true, F.
    + now apply socket_shows.
  - destruct (take_socket g i (sp ++ path) path path I (spaces_end _ _ S)) as (x & -> & X).
    + rewrite (spaces_skip _ _ S). destruct (begins_head _ B) as [-> _]. reflexivity.
    + right. right. assert (Z : forall A (f : bytes -> option A), quoted f path = None).
      { intros A f. destruct path as [|c [|d path]]; try reflexivity. cbn [quoted]. replace (beqb c dq) with false; [reflexivity|].
        symmetry. apply beqb_neq. intros ->. apply Q. now left. }
      rewrite !Z. auto.
    + now apply socket_shows.
  - unfold take_line. rewrite (acl_first (lit "r") i k _ racl_w I K (spaces_end _ _ S)), (acl_first (lit "d") i k _ dacl_w I K (spaces_end _ _ S)).
    rewrite (spaces_skip _ _ S).
    replace (bytes_eqb (lit "r" ++ lit "acl") k) with false by (symmetry; apply bytes_eqb_neq; intros <-; apply NA; now right).
    replace (bytes_eqb (lit "acl") k) with false by (symmetry; apply bytes_eqb_neq; intros <-; apply NA; now left).
    destruct (bytes_eqb (lit "d" ++ lit "acl") k); [exact R|].
    rewrite (variable_first _ _ _ I K (spaces_end _ _ S)), (spaces_skip _ _ S).
    assert (Z : forall x, shows (mk_greylist ((k, x) :: gl_variables g) (gl_tarpit g)) s).
    { intros x. destruct R as [R1 R2]. split; [|exact R2]. unfold greylist_socket. cbn [gl_variables lookup].
      replace (bytes_eqb k (lit "socket")) with false by (symmetry; apply bytes_eqb_neq; exact NS). exact R1. }
    destruct (quoted only_space (drop_while is_space v)) as [[x u]|]; [apply Z|].
    destruct (quoted only_number (drop_while is_space v)) as [[x u]|]; apply Z.
  - unfold take_line. assert (E : ends_word []) by now left.
    rewrite <- (app_nil_r k). rewrite (acl_first (lit "r") i k _ racl_w I K E), (acl_first (lit "d") i k _ dacl_w I K E).
    rewrite (variable_first _ _ _ I K E). cbn [after_spaces].
    destruct (bytes_eqb (lit "r" ++ lit "acl") k), (bytes_eqb (lit "d" ++ lit "acl") k), (bytes_eqb (lit "acl") k); exact R.
  - rewrite take_nothing; [exact R|]. apply whites in I. rewrite (drop_all _ _ _ I).
    rewrite drop_stop by now apply not_white. destruct (is_word c) eqn:E; [|reflexivity]. apply word_name in E. contradiction.
  - unfold take_line. rewrite acl_taken by assumption. rewrite (delays_spec _ _ D). destruct R as [R1 R2].
    split; [exact R1|]. unfold greylist_extra in R2 |- *. cbn [gl_tarpit say snd]. rewrite R2. reflexivity.
  - unfold take_line. rewrite acl_taken by assumption. unfold tarpit_time. rewrite (tarpit_absent _ _ A). exact R.
Qed.

(** A line that says something is no comment. *)
Lemma name_no_comment i c r : Forall white i -> BreakerSpec.name_char c -> is_comment (i ++ c :: r) = false.
Proof.
  intros I H. apply whites in I. unfold is_comment. rewrite (drop_all _ _ _ I), drop_stop by now apply name_not_space.
  apply beqb_neq. intros ->. vm_compute in H. intuition congruence.
Qed.
Lemma content_prefix l t : content_is l t -> exists x, l = t ++ x.
Proof. intros [l'|l' _]; [exists [byte_of 13]; reflexivity|exists []; now rewrite app_nil_r]. Qed.
Lemma said_no_comment p l t e : ended p l -> content_is l t -> greylist_line t e -> e <> GIdle -> is_comment p = false.
Proof.
  intros E C H N.
  assert (P : exists x, p = t ++ x).
  { apply content_prefix in C as [x ->]. destruct E as [->| ->]; [exists (x ++ [byte_of 10]); now rewrite app_assoc|now exists x]. }
  destruct P as [x ->].
  assert (G : exists i c r, t = i ++ c :: r /\ Forall white i /\ BreakerSpec.name_char c).
  { destruct H as [l' I|i sp path t I S N' Q T|i sp path t m I S N' Q T D|i sp path I S B Q|i k sp v I K NA NS S|i k I K|i c l' I W NC|i k sp text n I K S B D|i k sp text I K S B A];
      try congruence.
    - exists i, "s"%char. eexists. split; [reflexivity|]. split; [exact I|]. apply word_name. reflexivity.
    - exists i, "s"%char. eexists. split; [reflexivity|]. split; [exact I|]. apply word_name. reflexivity.
    - exists i, "s"%char. eexists. split; [reflexivity|]. split; [exact I|]. apply word_name. reflexivity.
    - destruct K as [->| ->].
      + exists i, "a"%char. eexists. split; [reflexivity|]. split; [exact I|]. apply word_name. reflexivity.
      + exists i, "r"%char. eexists. split; [reflexivity|]. split; [exact I|]. apply word_name. reflexivity. }
  destruct G as (i & c & r & -> & I & W). rewrite <- app_assoc. cbn [app]. now apply name_no_comment.
Qed.
Lemma greylist_step_spec g s p l e : ended p l -> one_line l -> greylist_says l e -> shows g s -> shows (greylist_step g p) (say s e).
Proof.
  intros E O (t & C & H & _) R. unfold greylist_step. destruct (is_comment p) eqn:B.
  - destruct e; [exact R| |]; rewrite (said_no_comment _ _ _ _ E C H) in B by discriminate; discriminate.
  - change (parse_greylist_line g p) with (take_line g (chomp p)). rewrite (chomp_ended _ _ _ E C O). now apply take_line_spec.
Qed.
Lemma greylist_spec es content : lists greylist_says es content ->
  shows (parse_greylist (Some content)) (fold_left say es (None, 0)).
Proof.
  intros H. assert (X : parse_greylist (Some content) = fold_left greylist_step (physical content) (mk_greylist [] None)).
  { destruct H as (ls & last & -> & F & L & _). unfold parse_greylist. rewrite (normalize_kept _ _ F L). apply fold_filtered. }
  rewrite X. apply (fold_related greylist_says _ say shows); [| |exact H|split; reflexivity].
  - intros a b p l e E O M R. now apply (greylist_step_spec a b p l e).
  - intros a b e M R. pose proof (greylist_step_spec a b [] [] e (or_intror eq_refl) (fun x => x) M R) as Y. exact Y.
Qed.
Lemma say_socket es : forall s o, last_socket es o -> fst (fold_left say es s) = match o with Some p => Some p | None => fst s end.
Proof.
  assert (K : forall b s, (forall q, ~ In (GSocket q) b) -> fst (fold_left say b s) = fst s).
  { induction b as [|e b IH]; intros s H; [reflexivity|]. cbn [fold_left].
    rewrite IH by (intros q I; apply (H q); now right). destruct e; try reflexivity. exfalso. apply (H path). now left. }
  intros s o [[N ->]|(a & p & b & -> & N & ->)]; [now apply K|].
  rewrite fold_left_app. cbn [fold_left say]. rewrite (K _ _ N). reflexivity.
Qed.
Lemma say_delay es : forall s, snd s <= snd (fold_left say es s) /\
  (forall n, In (GDelay n) es -> n <= snd (fold_left say es s)) /\
  (snd (fold_left say es s) = snd s \/ In (GDelay (snd (fold_left say es s))) es).
Proof.
  induction es as [|e es IH]; intros s; cbn [fold_left].
  - split; [lia|]. split; [intros n []|now left].
  - destruct (IH (say s e)) as (A & B & C). destruct e as [|p|n]; cbn [say] in *; cbn [snd] in *.
    + split; [exact A|]. split; [intros n [I|I]; [discriminate|auto]|]. destruct C as [C|C]; [now left|right; now right].
    + split; [exact A|]. split; [intros n [I|I]; [discriminate|auto]|]. destruct C as [C|C]; [now left|right; now right].
    + split; [lia|]. split.
      * intros m [I|I]; [injection I as ->; lia|auto].
      * destruct C as [C|C]; [|right; now right]. destruct (N.max_spec (snd s) n) as [[L M]|[L M]]; rewrite M in C.
        -- right. left. rewrite M, C. reflexivity.
        -- left. rewrite M. exact C.
Qed.
Lemma greylist_socket_spec es content o : lists greylist_says es content -> last_socket es o ->
  greylist_socket (parse_greylist (Some content)) = o.
Proof.
  intros H L. destruct (greylist_spec _ _ H) as [-> _]. rewrite (say_socket _ _ _ L). destruct o; reflexivity.
Qed.
Lemma greylist_extra_spec es content : lists greylist_says es content ->
  longest_delay es (greylist_extra (parse_greylist (Some content))).
Proof.
  intros H. destruct (greylist_spec _ _ H) as [_ ->]. destruct (say_delay es (None, 0)) as (_ & B & C).
  split; [exact B|exact C].
Qed.
