(** Lemmas on the report of milter-test-server. *)
From Verif.Base Require Import Bytes BytesFacts.
From Verif.Model Require Import Headers ReplyCode ReplyCodec TestMessage TestReport.
From Verif.Model Require Server.
From Verif.Spec Require Import HeaderSpec MailSpec ReportSpec.
From Verif.Proofs Require Import HeaderProofs MailProofs.
From Coq Require Import ZifyBool ZifyNat ZifyN.
Local Open Scope N_scope.

Definition change_of (m : mark) : change :=
  match m with Kept => Same | Removed => Gone | Added => New end.
Definition report {A} (items : list (mark * A)) : list (change * A) :=
  map (fun x => (change_of (fst x), snd x)) items.

Lemma marked_line color m s : marked color m s = report_line color (change_of m, s).
Proof. destruct color, m; unfold marked, report_line, painted; cbn; rewrite ?app_nil_r; reflexivity. Qed.

Lemma report_app {A} (a b : list (mark * A)) : report (a ++ b) = report a ++ report b.
Proof. apply map_app. Qed.
Lemma before_app {A} (a b : list (change * A)) : before (a ++ b) = before a ++ before b.
Proof. unfold before. now rewrite filter_app, map_app. Qed.
Lemma after_app {A} (a b : list (change * A)) : after (a ++ b) = after a ++ after b.
Proof. unfold after. now rewrite filter_app, map_app. Qed.

Lemma report_all {A} m (l : list A) :
  before (report (map (pair m) l)) = match m with Added => [] | _ => l end /\
  after (report (map (pair m) l)) = match m with Removed => [] | _ => l end.
Proof.
  induction l as [|x l [IH1 IH2]]; [now destruct m|].
  unfold before, after, report in *. cbn [map fst snd filter]. destruct m; cbn [change_of fst map snd] in *;
  rewrite ?IH1, ?IH2; auto.
Qed.

(** *** Differences *)

Lemma recipients_sides : forall o r,
  before (report (diff_recipients o r)) = o /\ after (report (diff_recipients o r)) = r.
Proof.
  induction o as [|x o IH]; intros r.
  - cbn [diff_recipients]. apply (report_all Added).
  - destruct r as [|y r]; [apply (report_all Removed (x :: o))|]. cbn [diff_recipients].
    destruct (IH r) as [H1 H2]. destruct (bytes_eqb x y) eqn:E.
    + apply bytes_eqb_eq in E as <-. unfold before, after, report in *. cbn. now rewrite H1, H2.
    + unfold before, after, report in *. cbn. now rewrite H1, H2.
Qed.

Lemma from_sides o r :
  before (report (diff_from o r)) = [o] /\ after (report (diff_from o r)) = [r].
Proof.
  unfold diff_from. destruct (bytes_eqb o r) eqn:E; [|now cbn]. apply bytes_eqb_eq in E as <-. now cbn.
Qed.

Lemma diff_headers_nil r : diff_headers [] r = map (pair Added) r.
Proof. now destruct r. Qed.
Lemma diff_headers_nil_r o : diff_headers o [] = map (pair Removed) o.
Proof. now destruct o. Qed.
Lemma diff_headers_cons o os r rs :
  diff_headers (o :: os) (r :: rs)
  = if header_eqb o r then (Kept, o) :: diff_headers os rs
    else if negb (existsb (fun h => header_eqb h r) (o :: os)) then (Added, r) :: diff_headers (o :: os) rs
    else if negb (existsb (fun h => header_eqb h o) (r :: rs)) then (Removed, o) :: diff_headers os (r :: rs)
    else if bytes_eqb (h_name o) (h_name r) then (Removed, o) :: (Added, r) :: diff_headers os rs
    else (Added, r) :: diff_headers (o :: os) rs.
Proof. reflexivity. Qed.

Lemma headers_sides : forall o r,
  before (report (diff_headers o r)) = o /\ after (report (diff_headers o r)) = r.
Proof.
  induction o as [|x o IH]; [intros r; rewrite diff_headers_nil; apply (report_all Added)|].
  induction r as [|y r IHr]; [rewrite diff_headers_nil_r; apply (report_all Removed (x :: o))|].
  rewrite diff_headers_cons. destruct IHr as [R1 R2].
  destruct (IH r) as [H1 H2]. destruct (IH (y :: r)) as [K1 K2].
  destruct (header_eqb x y) eqn:E.
  { apply header_eqb_spec in E as <-. unfold before, after, report in *. cbn. now rewrite H1, H2. }
  destruct (negb _); [unfold before, after, report in *; cbn [map filter fst snd change_of]; now rewrite R1, R2|].
  destruct (negb _); [unfold before, after, report in *; cbn [map filter fst snd change_of]; now rewrite K1, K2|].
  destruct (bytes_eqb _ _); unfold before, after, report in *; cbn [map filter fst snd change_of].
  - now rewrite H1, H2.
  - now rewrite R1, R2.
Qed.

Lemma existsb_header hs h : existsb (fun x => header_eqb x h) hs = true <-> In h hs.
Proof.
  rewrite existsb_exists. split.
  - intros (x & Hx & E). apply header_eqb_spec in E as ->. exact Hx.
  - intros H. exists h. split; [exact H|]. now apply header_eqb_spec.
Qed.

(** Only new headers: none is reported gone. *)
Lemma headers_only_new o r :
  mixed (fun h => ~ List.In h o) o r -> Forall (fun x => fst x <> Removed) (diff_headers o r).
Proof.
  assert (K : forall all, (forall h, List.In h o -> List.In h all) -> mixed (fun h => ~ List.In h all) o r ->
              Forall (fun x => fst x <> Removed) (diff_headers o r)).
  { intros all Hall Hm. induction Hm as [|x base l Hm IH|x base l Hx Hm IH].
    - constructor.
    - rewrite diff_headers_cons. replace (header_eqb x x) with true by (symmetry; now apply header_eqb_spec).
      constructor; [discriminate|]. apply IH. intros h Hh. apply Hall. now right.
    - specialize (IH Hall). destruct base as [|b base].
      + rewrite diff_headers_nil in *. constructor; [discriminate|exact IH].
      + rewrite diff_headers_cons.
        assert (E : existsb (fun h => header_eqb h x) (b :: base) = false).
        { apply not_true_iff_false. rewrite existsb_header. intros H. apply Hx, Hall, H. }
        destruct (header_eqb b x) eqn:Eb.
        { exfalso. apply header_eqb_spec in Eb as ->. apply Hx, Hall. now left. }
        rewrite E. constructor; [discriminate|exact IH]. }
  intros H. apply (K o); auto.
Qed.

Lemma mixed_in {A} (P : A -> Prop) base l : mixed P base l -> forall x, List.In x base -> List.In x l.
Proof. induction 1; intros y; cbn; firstorder. Qed.

(** Only deleted headers: none is reported new. *)
Lemma headers_only_gone o r :
  mixed (fun h => ~ List.In h r) r o -> Forall (fun x => fst x <> Added) (diff_headers o r).
Proof.
  assert (K : forall all, (forall h, List.In h r -> List.In h all) -> mixed (fun h => ~ List.In h all) r o ->
              Forall (fun x => fst x <> Added) (diff_headers o r)).
  { intros all Hall Hm. induction Hm as [|x base l Hm IH|x base l Hx Hm IH].
    - constructor.
    - rewrite diff_headers_cons. replace (header_eqb x x) with true by (symmetry; now apply header_eqb_spec).
      constructor; [discriminate|]. apply IH. intros h Hh. apply Hall. now right.
    - specialize (IH Hall). destruct base as [|b base].
      + rewrite diff_headers_nil_r in *. constructor; [discriminate|exact IH].
      + rewrite diff_headers_cons.
        destruct (header_eqb x b) eqn:Eb.
        { exfalso. apply header_eqb_spec in Eb as ->. apply Hx, Hall. now left. }
        replace (existsb (fun h => header_eqb h b) (x :: l)) with true.
        2:{ symmetry. apply existsb_header. right. eapply mixed_in; [exact Hm|now left]. }
        replace (existsb (fun h => header_eqb h x) (b :: base)) with false.
        2:{ symmetry. apply not_true_iff_false. rewrite existsb_header. intros H. apply Hx, Hall, H. }
        constructor; [discriminate|exact IH]. }
  intros H. apply (K r); auto.
Qed.

(** *** Lines *)

Lemma header_lines_text h ls :
  ~ List.In lf (h_name h) -> header_lines h = Done ls -> lines_of (in_writing h) ls.
Proof.
  unfold header_lines, in_writing. destruct (h_value h) as [v|]; [|discriminate]. intros Hn [= <-].
  unfold strsplit_lines. destruct v as [|c v].
  - split; [|cbn; now rewrite <- !app_assoc]. constructor; [|constructor].
    rewrite in_app_iff. intros [H|[H|[]]]; [contradiction|discriminate].
  - set (value := c :: v). pose proof (split_lines_no_lf value) as Hl. pose proof (unsplit_split value) as Hu.
    destruct (split_lines value) as [|l ls]; [discriminate|].
    inversion Hl; subst. split.
    + constructor; [|assumption]. intros H. apply in_app_or in H as [H|[H|[H|H]]]; try contradiction; discriminate.
    + unfold unsplit in Hu. cbn [map concat] in Hu |- *. change (lit ": ") with (lit ":" ++ lit " ").
      rewrite <- !app_assoc in *. unfold value in Hu. change LF with lf in *.
      exact (f_equal (fun t => h_name h ++ ":"%char :: " "%char :: t) Hu).
Qed.

Lemma before_block m (ls : list bytes) (rest : list (mark * bytes)) :
  before (report (map (pair m) ls ++ rest)) = match m with Added => [] | _ => ls end ++ before (report rest)
  /\ after (report (map (pair m) ls ++ rest)) = match m with Removed => [] | _ => ls end ++ after (report rest).
Proof.
  rewrite report_app, before_app, after_app. destruct (report_all m ls) as [-> ->]. auto.
Qed.

Lemma print_headers_text color : forall items lines,
  Forall (fun x => ~ List.In lf (h_name (snd x))) items ->
  print_headers color items = Done lines ->
  exists texts, lines = map (report_line color) (report texts) /\
    header_texts (before (report items)) (before (report texts)) /\
    header_texts (after (report items)) (after (report texts)).
Proof.
  induction items as [|[m h] items IH]; intros lines Hn H; cbn [print_headers] in H.
  - injection H as <-. exists []. repeat split; constructor.
  - destruct (header_lines h) as [ls| |] eqn:El; try discriminate. cbn [bind] in H.
    destruct (print_headers color items) as [more| |]; try discriminate. injection H as <-.
    inversion Hn as [|? ? Hh Hn']; subst. destruct (IH more Hn' eq_refl) as (texts & -> & B & A).
    pose proof (header_lines_text h ls Hh El) as Ht.
    exists (map (pair m) ls ++ texts). destruct (before_block m ls texts) as [-> ->]. split; [|split].
    + rewrite report_app, map_app. f_equal. unfold report. rewrite !map_map. apply map_ext.
      intros s. apply marked_line.
    + destruct m; cbn; first [now constructor|exact B].
    + destruct m; cbn; first [now constructor|exact A].
Qed.

Lemma print_headers_done color items :
  Forall (fun x => h_value (snd x) <> None) items -> exists lines, print_headers color items = Done lines.
Proof.
  induction 1 as [|[m h] items Hh _ [lines IH]]; [now eexists|]. cbn [print_headers snd] in *.
  unfold header_lines. destruct (h_value h); [|congruence]. cbn [bind]. rewrite IH. now eexists.
Qed.

(** *** Requests *)

Lemma starts_with_spec p s : starts_with p s = true <-> exists r, s = p ++ r.
Proof.
  revert s. induction p as [|c p IH]; intros s; cbn.
  - split; [intros _; now exists s|reflexivity].
  - destruct s as [|d s]; [split; [discriminate|intros [r H]; discriminate]|].
    rewrite andb_true_iff, IH. split.
    + intros [E [r ->]]. apply Ascii.eqb_eq in E as ->. now exists r.
    + intros [r [= -> ->]]. split; [apply Ascii.eqb_refl|now exists r].
Qed.

Lemma normalize_brackets a : in_brackets a (normalize a).
Proof.
  unfold normalize. destruct (starts_with (lit "<") a && ends_with ">" a) eqn:E.
  - apply andb_true_iff in E as [E1 E2].
    destruct a as [|c a _] using rev_ind; [discriminate|].
    assert (c = ">"%char) as ->.
    { clear E1. unfold ends_with in E2. 
      rewrite rev_app_distr in E2. cbn in E2. now apply Ascii.eqb_eq in E2. }
    destruct a as [|d a]; [discriminate|].
    apply starts_with_spec in E1 as [r E1]. injection E1 as -> _.
    apply (Bracketed a).
  - apply Bare. intros inner ->. apply not_true_iff_false in E. apply E. apply andb_true_iff.
    split; [now destruct inner|]. change (lit "<" ++ inner ++ lit ">") with ((lit "<" ++ inner) ++ [">"%char]).
    now rewrite ends_with_snoc.
Qed.

Lemma remove_first_without l r : without r l (Server.remove_first l r).
Proof.
  assert (K : forall a, ~ List.In r a -> without r (a ++ l) (a ++ Server.remove_first l r)).
  { induction l as [|x l IH]; intros a Ha; cbn [Server.remove_first].
    - apply WithoutNone. now rewrite app_nil_r.
    - destruct (bytes_eqb x r) eqn:E.
      + apply bytes_eqb_eq in E as ->. now apply WithoutFirst.
      + replace (a ++ x :: l) with ((a ++ [x]) ++ l) by (now rewrite <- app_assoc).
        replace (a ++ x :: Server.remove_first l r) with ((a ++ [x]) ++ Server.remove_first l r) by (now rewrite <- app_assoc).
        apply IH. rewrite in_app_iff. intros [H|[->|[]]]; [contradiction|].
        now rewrite bytes_eqb_refl in E. }
  apply (K []). easy.
Qed.

(** What the record says of the letter after some requests. *)
Definition tells (l : mail) (x : bool * letter) : Prop :=
  lt_from (snd x) = ml_from l /\ lt_recipients (snd x) = ml_recipients l /\
  lt_headers (snd x) = ml_headers l /\
  if fst x then lt_body (snd x) = ml_replaced l else ml_replaced l = [] /\ lt_body (snd x) = ml_body l.

Definition request_ok (r : reply) : Prop :=
  match r with RInsertHeader i _ _ => i < 4294967296 | _ => True end.

Lemma edit_nth_named_length f : (forall h, length (f h) <= 1)%nat -> forall hs n name i hs',
  edit_nth_named f n hs name i = Some hs' -> (length hs' <= length hs)%nat.
Proof.
  intros Hf. induction hs as [|h hs IH]; intros n name i hs' H; cbn in H; [discriminate|].
  destruct (negb _).
  - destruct (edit_nth_named f n hs name i) eqn:E; [|discriminate]. injection H as <-. cbn. apply IH in E. lia.
  - destruct (n + 1 =? i).
    + injection H as <-. rewrite app_length. specialize (Hf h). cbn. lia.
    + destruct (edit_nth_named f (n + 1) hs name i) eqn:E; [|discriminate]. injection H as <-. cbn. apply IH in E. lia.
Qed.
Lemma headers_add_length hs n v : length (headers_add hs n v) = S (length hs).
Proof. induction hs as [|h hs IH]; cbn; [reflexivity|]. destruct (caseless_eqb _ _); cbn; lia. Qed.

Lemma edit_length l r : (length (ml_headers (edit l r)) <= S (length (ml_headers l)))%nat.
Proof.
  destruct r;
    cbn [edit ml_put_headers ml_put_from ml_put_recipients ml_put_replaced ml_put_quarantine ml_headers]; try lia.
  - now rewrite headers_add_length.
  - unfold headers_insert. destruct (_ || _); [rewrite app_length; cbn; lia|].
    rewrite app_length. cbn. rewrite <- (firstn_skipn (N.to_nat index) (ml_headers l)) at 3.
    rewrite app_length. lia.
  - unfold headers_change. destruct (edit_nth_named _ _ _ _ _) eqn:E; cbn [snd]; [|now rewrite headers_add_length].
    apply edit_nth_named_length in E; [lia|]. intros; cbn; lia.
  - unfold headers_delete. destruct (edit_nth_named _ _ _ _ _) eqn:E; cbn [snd]; [|lia].
    apply edit_nth_named_length in E; [lia|]. intros; cbn; lia.
Qed.

Lemma edit_requested l r x :
  tells l x -> request_ok r -> (Z.of_nat (length (ml_headers l)) < 2147483648)%Z ->
  exists y, requested r x y /\ tells (edit l r) y.
Proof.
  destruct x as [b [f rs hs t]]. unfold tells. cbn [fst snd lt_from lt_recipients lt_headers lt_body].
  intros (-> & -> & -> & Hb) Hr Hl.
  destruct r; cbn [request_ok] in Hr.
  all: try (eexists; split; [apply RqOther; exact I|now repeat split]).
  - eexists; split; [apply RqAdd, headers_add_spec|]. now repeat split.
  - eexists; split; [apply RqInsert, headers_insert_spec; assumption|]. now repeat split.
  - assert (E : headers_change (ml_headers l) name index (Some value)
                = (true, snd (headers_change (ml_headers l) name index (Some value)))).
    { unfold headers_change. now destruct (edit_nth_named _ _ _ _ _). }
    eexists; split; [apply RqChange, headers_change_spec; exact E|]. now repeat split.
  - eexists; split; [eapply RqDelete, headers_delete_spec, surjective_pairing|]. now repeat split.
  - eexists; split; [apply RqFrom, normalize_brackets|]. now repeat split.
  - eexists; split; [apply RqAddRecipient, normalize_brackets|]. now repeat split.
  - eexists; split; [eapply RqDeleteRecipient; [apply normalize_brackets|apply remove_first_without]|].
    now repeat split.
  - destruct b.
    + subst t. eexists; split; [apply RqMoreBody|]. now repeat split.
    + destruct Hb as [Hb ->]. eexists; split; [apply RqBody|]. cbn. now rewrite Hb.
Qed.

Lemma edits_requested : forall rs l x,
  tells l x -> Forall request_ok rs ->
  (Z.of_nat (length (ml_headers l) + length rs) < 2147483648)%Z ->
  exists y, all_requested rs x y /\ tells (fold_left edit rs l) y.
Proof.
  induction rs as [|r rs IH]; intros l x Ht Hr Hl; cbn [fold_left].
  - exists x. split; [constructor|exact Ht].
  - inversion Hr as [|? ? Hr1 Hr2]; subst. cbn [length] in Hl.
    destruct (edit_requested l r x Ht Hr1) as (y & Hy & Hty); [lia|].
    destruct (IH (edit l r) y Hty Hr2) as (z & Hz & Htz); [pose proof (edit_length l r); lia|].
    exists z. split; [econstructor; eassumption|exact Htz].
Qed.

Lemma edit_keeps l r : ml_original_from (edit l r) = ml_original_from l /\
  ml_original_recipients (edit l r) = ml_original_recipients l /\
  ml_original_headers (edit l r) = ml_original_headers l /\ ml_body (edit l r) = ml_body l.
Proof. destruct r; now repeat split. Qed.
Lemma edits_keep rs : forall l, ml_original_from (fold_left edit rs l) = ml_original_from l /\
  ml_original_recipients (fold_left edit rs l) = ml_original_recipients l /\
  ml_original_headers (fold_left edit rs l) = ml_original_headers l /\ ml_body (fold_left edit rs l) = ml_body l.
Proof.
  induction rs as [|r rs IH]; intros l; cbn [fold_left]; [now repeat split|].
  destruct (IH (edit l r)) as (-> & -> & -> & ->). apply edit_keeps.
Qed.

(** *** Names and values of the headers *)

Lemma in_headers_add hs n v h : List.In h (headers_add hs n v) -> List.In h hs \/ h = mk_header n v.
Proof.
  induction hs as [|x hs IH]; cbn; [intuition|]. destruct (caseless_eqb _ _); cbn; intuition.
Qed.
Lemma in_edit_nth_named f hs : forall n name i hs' h,
  edit_nth_named f n hs name i = Some hs' -> List.In h hs' ->
  List.In h hs \/ exists x, List.In x hs /\ h_name x = name /\ List.In h (f x).
Proof.
  induction hs as [|x hs IH]; intros n name i hs' h H Hin; cbn in H; [discriminate|].
  destruct (negb _) eqn:En.
  - destruct (edit_nth_named f n hs name i) eqn:E; [|discriminate]. injection H as <-.
    destruct Hin as [->|Hin]; [now left; left|]. destruct (IH _ _ _ _ h E Hin) as [?|(y & ? & ? & ?)]; [left; now right|].
    right. exists y. split; [now right|auto].
  - apply negb_false_iff, bytes_eqb_eq in En. destruct (n + 1 =? i).
    + injection H as <-. rewrite in_app_iff in Hin. destruct Hin as [Hin|Hin]; [right; exists x; split; [now left|auto]|left; now right].
    + destruct (edit_nth_named f (n + 1) hs name i) eqn:E; [|discriminate]. injection H as <-.
      destruct Hin as [->|Hin]; [now left; left|]. destruct (IH _ _ _ _ h E Hin) as [?|(y & ? & ? & ?)]; [left; now right|].
      right. exists y. split; [now right|auto].
Qed.

Lemma edit_headers (P : bytes -> option bytes -> Prop) l r :
  Forall (fun h => P (h_name h) (h_value h)) (ml_headers l) ->
  match r with
  | RAddHeader n v => P n (Some v)
  | RInsertHeader _ n v => P n v
  | RChangeHeader n _ v => P n (Some v)
  | _ => True
  end ->
  Forall (fun h => P (h_name h) (h_value h)) (ml_headers (edit l r)).
Proof.
  intros Hl Hr. rewrite Forall_forall in *.
  destruct r; cbn [edit ml_put_headers ml_put_from ml_put_recipients ml_put_replaced ml_put_quarantine ml_headers];
    intros h Hh; auto.
  - apply in_headers_add in Hh as [Hh| ->]; auto.
  - unfold headers_insert in Hh. destruct (_ || _).
    + rewrite in_app_iff in Hh. destruct Hh as [Hh|[<-|[]]]; auto.
    + rewrite in_app_iff in Hh.
      destruct Hh as [Hh|[<-|Hh]]; auto.
      * apply Hl. rewrite <- (firstn_skipn (N.to_nat index)). apply in_or_app. now left.
      * apply Hl. rewrite <- (firstn_skipn (N.to_nat index)). apply in_or_app. now right.
  - unfold headers_change in Hh. destruct (edit_nth_named _ _ _ _ _) eqn:E; cbn [snd] in Hh.
    + destruct (in_edit_nth_named _ _ _ _ _ _ _ E Hh) as [?|(x & Hx & <- & [<-|[]])]; auto.
    + apply in_headers_add in Hh as [Hh| ->]; auto.
  - unfold headers_delete in Hh. destruct (edit_nth_named _ _ _ _ _) eqn:E; cbn [snd] in Hh; auto.
    destruct (in_edit_nth_named _ _ _ _ _ _ _ E Hh) as [?|(x & Hx & _ & [])]; auto.
Qed.

(** *** Character sets *)

Lemma after_text_none p s : p <> [] -> (forall a b, s <> a ++ p ++ b) -> after_text p s = None.
Proof.
  intros Hp. induction s as [|c s IH]; intros H.
  - cbn. destruct (starts_with p []) eqn:E; [|reflexivity]. apply starts_with_spec in E as [r E].
    now destruct (H [] r).
  - cbn. destruct (starts_with p (c :: s)) eqn:E.
    + apply starts_with_spec in E as [r E]. now destruct (H [] r).
    + apply IH. intros a b ->. now destruct (H (c :: a) b).
Qed.
Lemma after_text_some p a b :
  (forall a' b', a ++ p ++ b = a' ++ p ++ b' -> (length a <= length a')%nat) ->
  after_text p (a ++ p ++ b) = Some b.
Proof.
  induction a as [|c a IH]; intros H.
  - cbn [app]. assert (E : starts_with p (p ++ b) = true) by (apply starts_with_spec; now exists b).
    destruct (p ++ b) as [|x t] eqn:Es; cbn [after_text]; rewrite E, <- Es, skipn_app_exact; reflexivity.
  - cbn [app after_text]. destruct (starts_with p (c :: a ++ p ++ b)) eqn:E.
    + apply starts_with_spec in E as [r E]. specialize (H [] r E). cbn in H. lia.
    + apply IH. intros a' b' E'. specialize (H (c :: a') b'). cbn in H. rewrite E' in H. specialize (H eq_refl). lia.
Qed.

Lemma cut_spec c a b : ~ List.In c a -> cut c (a ++ c :: b) = Some (a, b).
Proof.
  induction a as [|x a IH]; intros H; cbn.
  - now rewrite beqb_refl.
  - replace (beqb x c) with false; [|symmetry; apply beqb_neq; intros ->; apply H; now left].
    rewrite IH; [reflexivity|]. intros X. apply H. now right.
Qed.
Lemma cut_none c a : ~ List.In c a -> cut c a = None.
Proof.
  induction a as [|x a IH]; intros H; cbn; [reflexivity|].
  replace (beqb x c) with false; [|symmetry; apply beqb_neq; intros ->; apply H; now left].
  rewrite IH; [reflexivity|]. intros X. apply H. now right.
Qed.
