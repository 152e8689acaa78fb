(** C89: the logger.  What is logged, where it goes and how it looks. *)
From Verif.Base Require Import Bytes BytesFacts.
From Verif.Model Require Import FileMode Logger.
From Verif.Model Require ConnectionSpec.
From Verif.Spec Require Import LoggerSpec.
From Verif.Spec Require ParseSpec.
From Verif.Proofs Require Import LoggerProofs.
From Verif.Proofs Require ConnectionSpecProofs.
From Verif.Props Require P08_Parsing.
Import List.
Local Open Scope N_scope.

(** *** Who gets a message *)

(** After any history of ordinary calls a message goes to exactly the connected sinks that want its
    level, once each and in the order of their connection. *)
Theorem C89_who env ops o m :
  ordinary_from env no_wish ops ->
  let s := run env logger_new ops in
  lg_dead s = None -> logs o m -> ~ deadly env (m_level m) ->
  (forall domain level time text, o = GLibLog domain level time text -> ~ deadly env level) ->
  exists oss,
    Forall2 (delivered env (wishes env ops) (items_of ops) (lg_output s) m) (w_sinks (wishes env ops)) oss /\
    lg_out (step env s o) = rev (concat oss) ++ lg_out s /\ lg_dead (step env s o) = None.
Proof.
  intros Ho s Hd Hl Hf Hg. assert (K : keeps (wishes env ops) s) by (apply run_keeps; auto using new_keeps).
  unfold items_of. change 0 with (lg_item logger_new). rewrite <- (run_item env ops logger_new Hd). fold s.
  unfold step. rewrite Hd. destruct Hl as [m|m|domain flags l level time text Hi Hb]; cbn [call fst].
  - now apply log_all.
  - now apply emit_all.
  - unfold glib_log. specialize (Hg _ _ _ _ eq_refl).
    destruct (fatal env (l + flags)) eqn:Ef; [apply fatal_deadly in Ef; contradiction|].
    assert (El : glib_level (l + flags) = Some level).
    { assert (flags = 0 \/ flags = 1 \/ flags = 2 \/ flags = 3) as Hflags by lia.
      cbn [of_glib In] in Hi.
      repeat destruct Hi as [Hi|Hi]; try contradiction; injection Hi as <- <-;
        destruct Hflags as [->|[->|[->| ->]]]; reflexivity. }
    rewrite El. apply emit_all; [exact K|exact Hd|exact Hf].
Qed.
Print Assumptions C89_who.

(** What a level string asks for: the last word about a level counts; what it does not mention is as
    before if it starts with a sign, and off otherwise; an unknown name makes it an error. *)
Definition level_words : list (bytes * N) :=
  (lit "default", 0) :: map (fun n => (snd n, 2 ^ N.of_nat (fst n))) level_names.
Theorem C89_level_strings lead ts now :
  ParseSpec.readable lead ts ->
  match level_given (Some (ParseSpec.flags_text lead ts)) now with
  | inr unknown =>
      unknown <> [] /\ forall n, In n unknown <-> In n (map snd ts) /\ ~ ParseSpec.known level_words n
  | inl l =>
      (forall n, In n (map snd ts) -> ParseSpec.known level_words n) /\
      forall i, 1 <= i ->
        (forall before t after b, ts = before ++ t :: after ->
           ParseSpec.decides level_words standard (ParseSpec.effective lead t) (snd t) i b ->
           (forall t' b', In t' after ->
              ~ ParseSpec.decides level_words standard (ParseSpec.effective lead t') (snd t') i b') ->
           N.testbit l i = b) /\
        ((forall t b, In t ts ->
            ~ ParseSpec.decides level_words standard (ParseSpec.effective lead t) (snd t) i b) ->
         N.testbit l i = match lead with Some _ => N.testbit (or_standard now) i | None => false end)
  end.
Proof.
  intros Hr. unfold level_given, level_from_string.
  change level_words with level_class. change standard with default_level.
  set (text := ParseSpec.flags_text lead ts).
  set (base := if (now =? LEVEL_DEFAULT) && starts_signed text then default_level else now).
  (* the general parser *)
  assert (G : forall n, In n (snd (flags_from_string level_class text base default_level)) <->
                        In n (map snd ts) /\ ~ ParseSpec.known level_class n)
    by (intros n; now apply P08_Parsing.C49_unknown).
  assert (B : forall i,
    (forall before t after b, ts = before ++ t :: after ->
       ParseSpec.decides level_class default_level (ParseSpec.effective lead t) (snd t) i b ->
       (forall t' b', In t' after ->
          ~ ParseSpec.decides level_class default_level (ParseSpec.effective lead t') (snd t') i b') ->
       N.testbit (fst (flags_from_string level_class text base default_level)) i = b) /\
    ((forall t b, In t ts ->
        ~ ParseSpec.decides level_class default_level (ParseSpec.effective lead t) (snd t) i b) ->
     N.testbit (fst (flags_from_string level_class text base default_level)) i =
     match lead with Some _ => N.testbit (or_standard now) i | None => false end)).
  { intros i. split.
    - intros before t after b -> Hd Ha. unfold text. now apply P08_Parsing.C49_last_decides.
    - intros Hn. unfold text. rewrite (P08_Parsing.C49_untouched _ _ _ _ _ _ Hr Hn).
      destruct lead as [sg|]; [|reflexivity]. f_equal. unfold base.
      assert (Es : starts_signed text = true) by (unfold text, ParseSpec.flags_text; destruct sg; reflexivity).
      rewrite Es, andb_true_r. now destruct now. }
  clearbody base.
  destruct (bytes_eqb text (lit "all")) eqn:Ea.
  - apply bytes_eqb_eq in Ea. rewrite Ea in *. clear Ea.
    assert (Et : flags_from_string level_class (lit "all") base default_level = (1023, [])) by reflexivity.
    rewrite Et in *. cbn [fst snd] in *. split.
    + intros n Hn. destruct (bytes_eqb n (lit "all")) eqn:E1; [left; now apply bytes_eqb_eq|].
      destruct (value_by_nick level_class n) as [v|] eqn:Ev.
      * right. exists v. clear -Ev. induction level_class as [|[k w] c IH]; [discriminate|]. cbn [value_by_nick] in Ev.
        destruct (bytes_eqb k n) eqn:E; [|right; now apply IH]. apply bytes_eqb_eq in E. injection Ev as <-. subst. now left.
      * exfalso. apply (G n). split; [exact Hn|]. intros [Hk|[v Hv]]; [apply bytes_eqb_neq in E1; contradiction|].
        clear -Ev Hv. induction level_class as [|[k w] c IH]; [destruct Hv|]. cbn [value_by_nick] in Ev.
        destruct (bytes_eqb k n) eqn:E; [discriminate|]. destruct Hv as [Hv|Hv]; [|now apply IH].
        injection Hv as -> ->. now rewrite bytes_eqb_refl in E.
    + intros i Hi.
      assert (Eb : N.testbit 1022 i = N.testbit 1023 i).
      { replace i with (N.succ (i - 1)) by lia. change 1022 with (2 * 511). change 1023 with (2 * 511 + 1).
        now rewrite N.testbit_even_succ, N.testbit_odd_succ by lia. }
      change LEVEL_ALL with 1022. rewrite Eb. apply B.
  - clear Ea. destruct (flags_from_string level_class text base default_level) as [l u]. cbn [fst snd] in *.
    destruct u as [|n0 u].
    + split; [|intros i _; apply B]. intros n Hn.
      destruct (bytes_eqb n (lit "all")) eqn:E1; [left; now apply bytes_eqb_eq|].
      destruct (value_by_nick level_class n) as [v|] eqn:Ev.
      * right. exists v. clear -Ev. induction level_class as [|[k w] c IH]; [discriminate|]. cbn [value_by_nick] in Ev.
        destruct (bytes_eqb k n) eqn:E; [|right; now apply IH]. apply bytes_eqb_eq in E. injection Ev as <-. subst. now left.
      * exfalso. apply (G n). split; [exact Hn|]. intros [Hk|[v Hv]]; [apply bytes_eqb_neq in E1; contradiction|].
        clear -Ev Hv. induction level_class as [|[k w] c IH]; [destruct Hv|]. cbn [value_by_nick] in Ev.
        destruct (bytes_eqb k n) eqn:E; [discriminate|]. destruct Hv as [Hv|Hv]; [|now apply IH].
        injection Hv as -> ->. now rewrite bytes_eqb_refl in E.
    + split; [discriminate|]. intros n. apply G.
Qed.
Print Assumptions C89_level_strings.

(** A string that is an error changes nothing and is told so; any other is taken. *)
Theorem C89_string_calls env s :
  lg_dead s = None ->
  (forall name u, level_given name (lg_target s) = inr u -> call env s (SetLevelString name) = (s, false)) /\
  (forall name l, level_given name (lg_target s) = inl l ->
     snd (call env s (SetLevelString name)) = true /\ lg_target (step env s (SetLevelString name)) = l) /\
  (forall name u, item_given name (lg_item s) = inr u -> call env s (SetItemString name) = (s, false)) /\
  (forall name l, item_given name (lg_item s) = inl l ->
     snd (call env s (SetItemString name)) = true /\ lg_item (step env s (SetItemString name)) = l).
Proof.
  intros Hd. unfold step. rewrite Hd.
  repeat apply conj; intros name x E; cbn [call]; rewrite E; try reflexivity; now split.
Qed.
Print Assumptions C89_string_calls.

(** Without a level "default", or none, is asked for. *)
Theorem C89_no_level now item : level_given None now = inl 0 /\ item_given None item = inl 0.
Proof. now split. Qed.
Print Assumptions C89_no_level.

(** An item string is read as a flag list of the items; with a sign and no items so far, that is the
    time. *)
Definition item_words : list (bytes * N) :=
  [(lit "default", 0); (lit "none", 2 ^ 0); (lit "domain", 2 ^ 1); (lit "level", 2 ^ 2); (lit "location", 2 ^ 3);
   (lit "time", 2 ^ 4); (lit "name", 2 ^ 5); (lit "pid", 2 ^ 6)].
Theorem C89_item_strings lead ts now :
  ParseSpec.readable lead ts ->
  match item_given (Some (ParseSpec.flags_text lead ts)) now with
  | inr unknown =>
      unknown <> [] /\ forall n, In n unknown <-> In n (map snd ts) /\ ~ ParseSpec.known item_words n
  | inl l =>
      forall i,
        (forall before t after b, ts = before ++ t :: after ->
           ParseSpec.decides item_words 16 (ParseSpec.effective lead t) (snd t) i b ->
           (forall t' b', In t' after ->
              ~ ParseSpec.decides item_words 16 (ParseSpec.effective lead t') (snd t') i b') ->
           N.testbit l i = b) /\
        ((forall t b, In t ts ->
            ~ ParseSpec.decides item_words 16 (ParseSpec.effective lead t) (snd t) i b) ->
         N.testbit l i =
         match lead with Some _ => N.testbit (match now with 0 => 16 | _ => now end) i | None => false end)
  end.
Proof.
  intros Hr. unfold item_given, item_from_string. change item_words with item_class.
  change 16 with default_item. set (text := ParseSpec.flags_text lead ts).
  set (base := if (now =? 0) && starts_signed text then default_item else now).
  assert (G : forall n, In n (snd (flags_from_string item_class text base default_item)) <->
                        In n (map snd ts) /\ ~ ParseSpec.known item_class n)
    by (intros n; now apply P08_Parsing.C49_unknown).
  assert (B : forall i,
    (forall before t after b, ts = before ++ t :: after ->
       ParseSpec.decides item_class default_item (ParseSpec.effective lead t) (snd t) i b ->
       (forall t' b', In t' after ->
          ~ ParseSpec.decides item_class default_item (ParseSpec.effective lead t') (snd t') i b') ->
       N.testbit (fst (flags_from_string item_class text base default_item)) i = b) /\
    ((forall t b, In t ts ->
        ~ ParseSpec.decides item_class default_item (ParseSpec.effective lead t) (snd t) i b) ->
     N.testbit (fst (flags_from_string item_class text base default_item)) i =
     match lead with Some _ => N.testbit (match now with 0 => default_item | _ => now end) i | None => false end)).
  { intros i. split.
    - intros before t after b -> Hd Ha. unfold text. now apply P08_Parsing.C49_last_decides.
    - intros Hn. unfold text. rewrite (P08_Parsing.C49_untouched _ _ _ _ _ _ Hr Hn).
      destruct lead as [sg|]; [|reflexivity]. f_equal. unfold base.
      assert (Es : starts_signed text = true) by (unfold text, ParseSpec.flags_text; destruct sg; reflexivity).
      rewrite Es, andb_true_r. now destruct now. }
  clearbody base. destruct (flags_from_string item_class text base default_item) as [l u]. cbn [fst snd] in *.
  destruct u as [|n0 u]; [exact B|]. split; [discriminate|]. intros n. apply G.
Qed.
Print Assumptions C89_item_strings.

(** The start of the library is a history like any other: MILTER_LOG_PATH, MILTER_LOG_LEVEL and
    MILTER_LOG_ITEM are set as by the user, with a warning for what is wrong. *)
Definition warning (line : N) (time text : bytes) : op :=
  Log (mk_message (Some (lit "milter-core")) 8 (Some (lit "milter-logger.c")) line
         (Some (lit "milter_logger_internal_init")) time text).
Definition start (path : option bytes) (r : fopen_result) (level item : option bytes) (time : bytes) : list op :=
  [ConnectDefault; SetPath path r] ++
  match path, r with
  | Some p, NotOpened e =>
      if bytes_eqb p (lit "-") then []
      else [warning 121 time (lit "[logger][path][set][warning] failed to set log output path: <" ++ p ++
                              lit ">: " ++ e)]
  | _, _ => []
  end ++
  [SetLevelString level] ++
  match level_given level 0 with
  | inl _ => []
  | inr u => [warning 129 time (lit "[logger][level][set][warning] " ++ unknown_text u (lit "MilterLogLevelFlags"))]
  end ++
  [SetItemString item] ++
  match item_given item 0 with
  | inl _ => []
  | inr u => [warning 137 time (lit "[logger][item][set][warning] " ++ unknown_text u (lit "MilterLogItemFlags"))]
  end.
Theorem C89_start env path r level item time :
  logger_init env path r level item time = run env logger_new (start path r level item time).
Proof.
  unfold logger_init, start. set (s0 := put_handlers logger_new [HDefault]).
  unfold run. rewrite !fold_left_app.
  assert (E0 : fold_left (step env) [ConnectDefault; SetPath path r] logger_new = fst (set_path s0 path r)).
  { cbn [fold_left]. unfold step at 1. change (lg_dead (step env logger_new ConnectDefault)) with (@None death).
    cbv iota. cbn [call fst]. change (step env logger_new ConnectDefault) with s0.
    now destruct (set_path s0 path r). }
  assert (D0 : lg_dead (fst (set_path s0 path r)) = None /\ lg_target (fst (set_path s0 path r)) = 0 /\
               lg_item (fst (set_path s0 path r)) = 0).
  { unfold set_path. destruct path as [p|]; [|now repeat apply conj]. destruct (bytes_eqb p (lit "-")); [now repeat apply conj|].
    destruct r; now repeat apply conj. }
  rewrite E0. clear E0.
  set (s1 := match snd (set_path s0 path r) with
             | Some e => warn env (fst (set_path s0 path r)) 121 time (lit "[logger][path][set][warning] " ++ e)
             | None => fst (set_path s0 path r) end).
  match goal with |- context [fold_left (step env) ?l (fst (set_path s0 path r))] =>
    assert (E1 : fold_left (step env) l (fst (set_path s0 path r)) = s1) end.
  { unfold s1. destruct D0 as (D0 & _). revert D0. destruct path as [p|]; [|reflexivity]. cbn [set_path].
    destruct (bytes_eqb p (lit "-")); [destruct r; reflexivity|]. destruct r as [|e]; [reflexivity|]. cbn [fst snd].
    intros D0. cbn [fold_left]. unfold step, warn. rewrite D0. reflexivity. }
  rewrite E1. clear E1.
  assert (T1 : lg_target s1 = 0 /\ lg_item s1 = 0).
  { unfold s1. destruct (snd (set_path s0 path r)); [|apply D0]. unfold warn. destruct (lg_dead _); [apply D0|].
    match goal with |- context [log env ?s ?m] => pose proof (log_alike env s m) as (-> & -> & _) end. apply D0. }
  match goal with |- ?lhs = _ => assert (El : lhs = 
    (let s := s1 in
     let s := match level_given level (lg_target s) with
              | inl l => match lg_dead s with Some _ => s | None => set_target s l end
              | inr u => warn env s 129 time (lit "[logger][level][set][warning] " ++ unknown_text u (lit "MilterLogLevelFlags"))
              end in
     match item_given item (lg_item s) with
     | inl i => match lg_dead s with Some _ => s | None => put_item s i end
     | inr u => warn env s 137 time (lit "[logger][item][set][warning] " ++ unknown_text u (lit "MilterLogItemFlags"))
     end)) by (unfold s1; destruct (set_path s0 path r); reflexivity); rewrite El; clear El end.
  clearbody s1. clear D0 s0. destruct T1 as [T1 I1]. cbv zeta. rewrite T1.
  set (s2 := match level_given level 0 with inl _ => _ | inr _ => _ end).
  assert (E2 : fold_left (step env) match level_given level 0 with
      | inl _ => []
      | inr u => [warning 129 time (lit "[logger][level][set][warning] " ++ unknown_text u (lit "MilterLogLevelFlags"))]
      end (fold_left (step env) [SetLevelString level] s1) = s2).
  { unfold s2. cbn [fold_left]. unfold step at 2, warn. destruct (lg_dead s1) as [x|] eqn:D.
    - destruct (level_given level 0); [reflexivity|]. cbn [fold_left]. apply step_dead. congruence.
    - cbn [call]. rewrite T1. destruct (level_given level 0); [reflexivity|]. cbn [fst fold_left].
      unfold step. rewrite D. reflexivity. }
  rewrite E2. clear E2.
  assert (I2 : lg_item s2 = 0).
  { unfold s2. destruct (level_given level 0); [destruct (lg_dead s1); exact I1|]. unfold warn.
    destruct (lg_dead s1); [exact I1|]. match goal with |- context [log env ?s ?m] => pose proof (log_alike env s m) as (_ & -> & _) end.
    exact I1. }
  clearbody s2. rewrite I2. cbn [fold_left]. unfold step at 2, warn. destruct (lg_dead s2) as [x|] eqn:D.
  - destruct (item_given item 0); [reflexivity|]. cbn [fold_left]. symmetry. apply step_dead. congruence.
  - cbn [call]. rewrite I2. destruct (item_given item 0); [reflexivity|]. cbn [fst fold_left].
    unfold step. rewrite D. reflexivity.
Qed.
Print Assumptions C89_start.

(** *** Where the lines go *)

(** Once the path is set, lines go to the file that was there, whatever is done to its name.  When the
    log is opened again, they go to what is there now, a new file if there is none. *)
Theorem C89_rotation env ops p ops1 t ops2 :
  let s := run env logger_new ops in
  let s1 := step env s (SetPath (Some p) Opened) in
  let s2 := run env s1 ops1 in
  let s3 := step env s2 (Reopen Opened t) in
  let s4 := run env s3 ops2 in
  p <> lit "-" -> Forall stays ops1 -> Forall stays ops2 -> lg_dead s4 = None ->
  exists f g before closing opening after,
    file_at (lg_directory s1) p = Some f /\ lg_out s1 = lg_out s /\
    lg_out s2 = before ++ lg_out s1 /\ Forall (placed (ToFile f)) before /\
    lg_out s3 = opening ++ closing ++ lg_out s2 /\
    Forall (placed (ToFile f)) closing /\ Forall (placed (ToFile g)) opening /\
    file_at (lg_directory s3) p = Some g /\
    (forall h, file_at (lg_directory s2) p = Some h -> g = h) /\
    (file_at (lg_directory s2) p = None -> unwritten g (closing ++ lg_out s2)) /\
    lg_out s4 = after ++ lg_out s3 /\ Forall (placed (ToFile g)) after.
Proof.
  intros s s1 s2 s3 s4 Hp H1 H2 Hd.
  assert (D3 : lg_dead s3 = None).
  { destruct (lg_dead s3) eqn:E; [|reflexivity]. unfold s4 in Hd. rewrite run_dead in Hd by congruence. congruence. }
  assert (D2 : lg_dead s2 = None).
  { destruct (lg_dead s2) eqn:E; [|reflexivity]. unfold s3 in D3. rewrite step_dead in D3 by congruence. congruence. }
  assert (D1 : lg_dead s1 = None).
  { destruct (lg_dead s1) eqn:E; [|reflexivity]. unfold s2 in D2. rewrite run_dead in D2 by congruence. congruence. }
  assert (D0 : lg_dead s = None).
  { destruct (lg_dead s) eqn:E; [|reflexivity]. unfold s1 in D1. rewrite step_dead in D1 by congruence. congruence. }
  assert (F0 : filed s) by (apply run_filed, new_filed).
  assert (E1 : s1 = append_to (put_path s None ToStdout) p).
  { unfold s1, step. rewrite D0. cbn [call]. unfold set_path.
    destruct (bytes_eqb p (lit "-")) eqn:E; [apply bytes_eqb_eq in E; contradiction|reflexivity]. }
  destruct (append_at (put_path s None ToStdout) p (stdout_filed _ _ F0)) as (f & Fo & Fp & Ff & _ & _ & Fout & _).
  rewrite <- E1 in *.
  assert (F1 : filed s1) by (rewrite E1; apply append_filed, stdout_filed, F0). clearbody s1. clear E1.
  destruct (stays_run env ops1 s1 H1) as ((before & Eb & Hb) & So & Sp). fold s2 in Eb, So, Sp.
  rewrite Fo in Hb, So. rewrite Fp in Sp.
  assert (F2 : filed s2) by now apply run_filed. clearbody s2.
  assert (E3 : s3 = reopen env s2 Opened t) by (unfold s3, step; now rewrite D2).
  rewrite E3 in D3. destruct (reopen_at env s2 p t F2 Sp D3) as (g & closing & opening & R1 & R2 & R3 & R4 & R5 & R6 & R7 & R8).
  rewrite <- E3 in *. clearbody s3. rewrite So in R2.
  destruct (stays_run env ops2 s3 H2) as ((after & Ea & Ha) & _). fold s4 in Ea. rewrite R4 in Ha.
  exists f, g, before, closing, opening, after. repeat apply conj; auto.
Qed.
Print Assumptions C89_rotation.

(** Without a path, or with "-", the lines go to the standard output. *)
Theorem C89_stdout env s path r ops :
  lg_dead s = None -> path = None \/ path = Some (lit "-") -> Forall stays ops ->
  exists new, lg_out (run env (step env s (SetPath path r)) ops) = new ++ lg_out s /\ Forall (placed ToStdout) new.
Proof.
  intros Hd Hp Ho. assert (E : step env s (SetPath path r) = put_path s None ToStdout).
  { unfold step. rewrite Hd. now destruct Hp as [->| ->]. }
  rewrite E. destruct (stays_run env ops (put_path s None ToStdout) Ho) as (Hn & _). exact Hn.
Qed.
Print Assumptions C89_stdout.

(** *** How a line looks *)

(** If no part of a message has a line break, its line has one, at the end. *)
Definition unbroken (t : bytes) : Prop := ~ In "010"%char t.
Definition whole (t : option bytes) : Prop := match t with Some t => unbroken t | None => True end.
Lemma unbroken_app a b : unbroken a -> unbroken b -> unbroken (a ++ b).
Proof. unfold unbroken. intros Ha Hb H. apply in_app_or in H. tauto. Qed.
Lemma unbroken_lit t : forallb (fun c => negb (beqb c "010")) t = true -> unbroken t.
Proof.
  intros H Hi. rewrite forallb_forall in H. apply H in Hi. apply negb_true_iff in Hi.
  apply beqb_neq in Hi. congruence.
Qed.
Lemma unbroken_tag t : unbroken t -> unbroken (tag t).
Proof.
  intros H. unfold tag. change ("["%char :: t ++ ["]"%char]) with (["["%char] ++ t ++ ["]"%char]).
  apply unbroken_app; [now apply unbroken_lit|]. apply unbroken_app; [exact H|now apply unbroken_lit].
Qed.
Lemma unbroken_when b t : unbroken t -> unbroken (when b t).
Proof. destruct b; [auto|]. now intros _ []. Qed.
Lemma unbroken_concat l : Forall unbroken l -> unbroken (concat l).
Proof. induction 1; [intros []|]. cbn [concat]. now apply unbroken_app. Qed.
Lemma unbroken_joined l : Forall unbroken l -> unbroken (joined l).
Proof.
  induction 1 as [|x l Hx Hl IH]; [intros []|]. destruct l as [|y l]; [exact Hx|].
  change (joined (x :: y :: l)) with (x ++ lit " " ++ joined (y :: l)).
  apply unbroken_app; [exact Hx|]. apply unbroken_app; [now apply unbroken_lit|exact IH].
Qed.
Lemma unbroken_decimal n : unbroken (ConnectionSpec.decimal n).
Proof.
  intros Hi. destruct (ConnectionSpecProofs.decimal_spec n) as (_ & H & _). rewrite Forall_forall in H.
  apply H in Hi. vm_compute in Hi. intuition congruence.
Qed.
Lemma unbroken_escape t : unbroken t -> unbroken (escape t).
Proof.
  intros H. unfold escape. change ("027"%char :: "["%char :: t ++ ["m"%char]) with (["027"%char; "["%char] ++ t ++ ["m"%char]).
  apply unbroken_app; [now apply unbroken_lit|]. apply unbroken_app; [exact H|now apply unbroken_lit].
Qed.
Theorem C89_one_line env items d m t :
  line_of env items d m t ->
  unbroken (m_text m) -> whole (m_domain m) -> unbroken (m_time m) -> whole (m_file m) -> whole (m_function m) ->
  whole (e_program env) ->
  exists body, t = body ++ ["010"%char] /\ unbroken body.
Proof.
  intros Hl Ht Hd Htime Hf Hg Hp.
  assert (S : forall x, shown env d m x -> unbroken x).
  { intros x [f b _ Hi|_]; [|exact Ht].
    assert (unbroken f /\ unbroken b) as [Uf Ub].
    { unfold colors in Hi. cbn [In] in Hi. repeat destruct Hi as [Hi|Hi]; try contradiction; injection Hi as _ <- <-;
        split; apply unbroken_lit; reflexivity. }
    apply unbroken_app; [apply unbroken_escape, unbroken_app; [now apply unbroken_lit|exact Uf]|].
    apply unbroken_app; [now apply unbroken_escape|]. apply unbroken_app; [exact Ht|]. apply unbroken_escape. now apply unbroken_lit. }
  assert (M : unbroken (of_message items m)).
  { unfold of_message. repeat apply unbroken_app; apply unbroken_when.
    - apply unbroken_concat. unfold level_names. cbn [map fst snd].
      repeat constructor; apply unbroken_when; apply unbroken_lit; reflexivity.
    - destruct (m_domain m); [now apply unbroken_tag|intros []].
    - now apply unbroken_tag. }
  assert (P : unbroken (of_process env items)).
  { unfold of_process. apply unbroken_app; apply unbroken_when; apply unbroken_tag; [|apply unbroken_decimal].
    unfold program. destruct (e_program env); [exact Hp|now apply unbroken_lit]. }
  assert (L : Forall unbroken (located items m)).
  { unfold located. destruct (item items 3); [|constructor]. destruct (m_file m) as [f|]; [|constructor].
    constructor.
    - apply unbroken_app; [exact Hf|]. apply unbroken_app; [now apply unbroken_lit|].
      apply unbroken_app; [|now apply unbroken_lit]. unfold signed_decimal.
      destruct (m_line m <? 2147483648); [apply unbroken_decimal|].
      apply unbroken_app; [now apply unbroken_lit|apply unbroken_decimal].
    - destruct (m_function m); constructor; [|constructor]. apply unbroken_app; [exact Hg|now apply unbroken_lit]. }
  assert (U : forall x, unbroken x -> Forall unbroken (unless_empty x)) by (intros [|c x] Hx; repeat constructor; exact Hx).
  destruct Hl as [x Hx _|x Hx _]; eexists; (split; [reflexivity|]).
  - apply unbroken_joined. repeat apply Forall_app_intro || (apply Forall_app; split); auto.
  - assert (W : Forall unbroken (unless_empty (of_message items m) ++ unless_empty (of_process env items)))
      by (apply Forall_app; split; auto).
    destruct (unless_empty (of_message items m) ++ unless_empty (of_process env items)) as [|w ws]; [now apply S|].
    apply unbroken_app; [now apply unbroken_joined|]. apply unbroken_app; [now apply unbroken_lit|now apply S].
Qed.
Print Assumptions C89_one_line.

(** *** Syslog *)

(** A syslog logger is opened with its identity, and the facility of MILTER_LOG_SYSLOG_FACILITY, else
    of its own, else mail. *)
Theorem C89_facility env s identity facility time :
  lg_dead (step env s (SyslogNew identity facility time)) = None -> lg_dead s = None ->
  exists n rest, lg_out (step env s (SyslogNew identity facility time)) = SyslogOpened identity n :: rest ++ lg_out s /\
    Forall (placed (lg_output s)) rest /\
    match e_syslog_facility env, facility with
    | Some f, _ | None, Some f => facility_means f n
    | None, None => n = 2 * 8
    end.
Proof.
  intros Hd Hs. destruct (stays_step env s (SyslogNew identity facility time) I) as ((new & En & Hn) & _).
  assert (R : forall f, facility_means f (resolve_facility f)).
  { intros f. unfold resolve_facility.
    assert (N1 : forall k v, In (k, v) facilities <-> exists n, v = n * 8 /\ In (n, k) facility_names).
    { intros k v. unfold facilities, facility_names. cbn [In]. split.
      - intros H. repeat destruct H as [H|H]; try contradiction; injection H as <- <-; eexists;
          (split; [|repeat (first [now left|right])]); reflexivity.
      - intros (n & -> & H). repeat destruct H as [H|H]; try contradiction; injection H as <- <-;
          repeat (first [now left|right]). }
    assert (SL : forall a b, same_name a b = true <-> same_letters a b) by (intros; apply bytes_eqb_eq).
    destruct (find (fun x => same_name f (fst x)) facilities) as [[k v]|] eqn:E.
    - apply find_some in E as [Hi E]. cbn [fst snd] in *. apply SL in E. apply N1 in Hi as (n & -> & Hi).
      now apply (facility_named f n k).
    - apply facility_mail. intros n k Hi Hk. assert (Hi' : In (k, n * 8) facilities) by (apply N1; eauto).
      apply (find_none _ _ E) in Hi'. cbn [fst] in Hi'. apply SL in Hk. congruence. }
  unfold step in *. rewrite Hs in *. cbn [call fst] in *. unfold syslog_new in *.
  match type of Hd with lg_dead (match lg_dead ?x with Some _ => _ | None => _ end) = _ => set (s1 := x) in * end.
  destruct (lg_dead s1) eqn:D1; [congruence|]. cbn [lg_out put_handlers put_out put_syslogs] in *.
  destruct new as [|o rest].
  - exfalso. assert (G : exists new, lg_out s1 = new ++ lg_out s).
    { unfold s1. destruct (e_syslog_level env); [destruct (level_given _ _)|].
      - exists []. unfold syslog_set_target. now destruct (nth _ _ _).
      - match goal with |- context [log env ?x ?m] => destruct (log_placed env x m) as (new & E & _); exists new; exact E end.
      - exists []. unfold syslog_set_target. now destruct (nth _ _ _). }
    destruct G as (new & G). rewrite G in En. apply (f_equal (@length _)) in En. cbn in En. rewrite app_length in En. lia.
  - injection En as <- En. apply Forall_inv_tail in Hn. eexists. exists rest. split; [cbn; now rewrite En|]. split; [exact Hn|].
    unfold facility_of. cbn [sl_facility]. destruct (e_syslog_facility env); [apply R|]. destruct facility; [apply R|reflexivity].
Qed.
Print Assumptions C89_facility.

(** *** Example *)

Definition env0 : environment := mk_env None None None None (fun _ => false) (Some (lit "milter-manager")) 29.
Definition said (level : N) (text : bytes) : message :=
  mk_message (Some (lit "milter-manager")) level (Some (lit "main.c")) 7 (Some (lit "f")) (lit "2010-01-01T00:00:00Z") text.
(** A log file that is rotated, with a syslog logger for statistics beside it. *)
Definition day : list op :=
  [ConnectDefault; SetLevelString (Some (lit "+info")); SetItemString (Some (lit "time|name|pid|level"));
   SyslogNew (Some (lit "mm")) (Some (lit "Local3")) (lit "T"); SyslogSetLevelString 0 (Some (lit "statistics"))].
Definition night : list op :=
  [Log (said LEVEL_INFO (lit "one")); Log (said LEVEL_DEBUG (lit "no")); Renamed (lit "log") (lit "log.1");
   Log (said LEVEL_STATISTICS (lit "two"))].
Example C89_example :
  let s := run env0 logger_new day in
  let s1 := step env0 s (SetPath (Some (lit "log")) Opened) in
  let s2 := run env0 s1 night in
  let s3 := step env0 s2 (Reopen Opened (lit "T")) in
  let s4 := run env0 s3 [Log (said LEVEL_MESSAGE (lit "three"))] in
  ordinary_from env0 no_wish (day ++ SetPath (Some (lit "log")) Opened :: night) /\
  Forall stays night /\ ~ deadly env0 LEVEL_MESSAGE /\ lg_dead s4 = None /\
  wishes env0 day = mk_wish 318 [] 1 [Output; Syslog 0 256] /\
  file_at (lg_directory s3) (lit "log.1") = Some 0%nat /\ file_at (lg_directory s3) (lit "log") = Some 1%nat /\
  lg_out s4 =
    [Written (ToFile 1) (lit "[message][2010-01-01T00:00:00Z] [milter-manager][29]: three" ++ ["010"%char]);
     Written (ToFile 1) (lit "[info][T] [milter-manager][29]: [logger][reopen][open]" ++ ["010"%char]);
     Written (ToFile 0) (lit "[info][T] [milter-manager][29]: [logger][reopen][close]" ++ ["010"%char]);
     Syslogged 5 (lit "[statistics] two");
     Written (ToFile 0) (lit "[statistics][2010-01-01T00:00:00Z] [milter-manager][29]: two" ++ ["010"%char]);
     Written (ToFile 0) (lit "[info][2010-01-01T00:00:00Z] [milter-manager][29]: one" ++ ["010"%char]);
     SyslogOpened (Some (lit "mm")) 152].
Proof.
  cbv zeta. repeat apply conj; try (vm_compute; reflexivity).
  - vm_compute. repeat apply conj; auto. intros k [<-|[]]. reflexivity.
  - repeat constructor.
  - unfold deadly. cbn. intuition discriminate.
Qed.

Example C89_strings_example :
  level_given (Some (lit "+debug|-message")) 0 = inl 334 /\
  level_given (Some (lit "error|info")) 512 = inl 36 /\
  level_given (Some (lit "error|notice")) 512 = inr [lit "notice"] /\
  level_given (Some (lit "all")) 0 = inl 1022 /\
  item_given (Some (lit "+pid")) 0 = inl 80 /\
  ParseSpec.readable (Some true) [(None, lit "debug"); (Some false, lit "message")] /\
  ParseSpec.flags_text (Some true) [(None, lit "debug"); (Some false, lit "message")] = lit "+debug|-message".
Proof.
  repeat apply conj; try (vm_compute; reflexivity); try discriminate.
  repeat constructor; cbn; intuition discriminate.
Qed.

(** *** What does not hold *)

(** A line of the log need not be a message: one with a line break looks like two. *)
Theorem C89_one_line_refuted :
  lg_out (run env0 logger_new [ConnectDefault; SetItem 1; Log (said LEVEL_MESSAGE (lit "from=<a" ++ "010"%char :: lit "accepted>"))]) =
    [Written ToStdout (lit "from=<a" ++ "010"%char :: lit "accepted>" ++ ["010"%char])] /\
  lg_out (run env0 logger_new [ConnectDefault; SetItem 1; Log (said LEVEL_MESSAGE (lit "from=<a"));
                               Log (said LEVEL_MESSAGE (lit "accepted>"))]) =
    [Written ToStdout (lit "accepted>" ++ ["010"%char]); Written ToStdout (lit "from=<a" ++ ["010"%char])].
Proof. split; vm_compute; reflexivity. Qed.
Print Assumptions C89_one_line_refuted.

(** The level given as the property "target-level" is the target level, but messages of it are not
    logged. *)
Theorem C89_level_property_refuted :
  let s := run env0 logger_new [ConnectDefault; SetLevelProperty LEVEL_ALL] in
  resolved s = LEVEL_ALL /\ lg_out (step env0 s (Log (said LEVEL_DEBUG (lit "x")))) = [] /\
  lg_out (run env0 logger_new [ConnectDefault; SetLevel LEVEL_ALL; Log (said LEVEL_DEBUG (lit "x"))]) <> [].
Proof. vm_compute. repeat apply conj; congruence. Qed.
Print Assumptions C89_level_property_refuted.

(** A syslog logger does not get what it asked for any more after another one is gone. *)
Theorem C89_two_syslogs_refuted :
  let before := [SyslogNew (Some (lit "a")) None (lit "T"); SyslogSetLevel 0 LEVEL_ALL] in
  let s := run env0 logger_new before in
  let s' := run env0 s [SyslogNew (Some (lit "b")) None (lit "T"); SyslogDispose 1] in
  nth 0 (lg_syslogs s') None = nth 0 (lg_syslogs s) None /\ lg_handlers s' = lg_handlers s /\
  lg_out (step env0 s (Log (said LEVEL_DEBUG (lit "x")))) = Syslogged 7 (lit "x") :: lg_out s /\
  lg_out (step env0 s' (Log (said LEVEL_DEBUG (lit "x")))) = lg_out s'.
Proof. vm_compute. repeat apply conj; reflexivity. Qed.
Print Assumptions C89_two_syslogs_refuted.

(** A path that cannot be opened is reported, and the old one is given up. *)
Theorem C89_failed_path_refuted :
  let s := run env0 logger_new [ConnectDefault; SetPath (Some (lit "log")) Opened] in
  snd (call env0 s (SetPath (Some (lit "/x")) (NotOpened (lit "EACCES")))) = false /\
  lg_output s = ToFile 0 /\ lg_output (step env0 s (SetPath (Some (lit "/x")) (NotOpened (lit "EACCES")))) = ToStdout.
Proof. vm_compute. repeat apply conj; reflexivity. Qed.
Print Assumptions C89_failed_path_refuted.

(** After a failure to open the log again it stays closed, although the next time it could be opened. *)
Theorem C89_failed_reopen_refuted :
  let s := run env0 logger_new [ConnectDefault; SetPath (Some (lit "log")) Opened; Reopen (NotOpened (lit "ENFILE")) (lit "T")] in
  lg_output (step env0 s (Reopen Opened (lit "T"))) = ToStdout /\ lg_path (step env0 s (Reopen Opened (lit "T"))) = None.
Proof. vm_compute. split; reflexivity. Qed.
Print Assumptions C89_failed_reopen_refuted.

(** Turning off the only level that is on turns others on. *)
Theorem C89_off_refuted :
  let s := run env0 logger_new [ConnectDefault; SetItem 1; SetLevelString (Some (lit "critical"))] in
  let s' := step env0 s (SetLevelString (Some (lit "-critical"))) in
  lg_out (step env0 s (Log (said LEVEL_MESSAGE (lit "x")))) = [] /\
  lg_out (step env0 s' (Log (said LEVEL_MESSAGE (lit "x")))) = [Written ToStdout (lit "x" ++ ["010"%char])] /\
  lg_out (step env0 s' (Log (said LEVEL_CRITICAL (lit "x")))) = [Written ToStdout (lit "x" ++ ["010"%char])].
Proof. vm_compute. repeat apply conj; reflexivity. Qed.
Print Assumptions C89_off_refuted.

(** With MILTER_DEBUG=fatal-warnings the process ends before the warning is written. *)
Theorem C89_fatal_refuted :
  let env := mk_env None (Some (lit "fatal-warnings")) None None (fun _ => false) None 1 in
  let s := run env logger_new [ConnectDefault; Log (said LEVEL_WARNING (lit "x"))] in
  lg_dead s = Some Aborted /\ lg_out s = [].
Proof. vm_compute. split; reflexivity. Qed.
Print Assumptions C89_fatal_refuted.

(** Setting the identity of a syslog logger leaves syslog with freed memory. *)
Theorem C89_identity_refuted :
  lg_dead (run env0 logger_new [SyslogNew (Some (lit "a")) None (lit "T"); SyslogSetIdentity 0 (Some (lit "b"));
                                Log (said LEVEL_MESSAGE (lit "x"))]) = Some Crashed.
Proof. vm_compute. reflexivity. Qed.
Print Assumptions C89_identity_refuted.

(** Whether a syslog logger follows the level of the logger depends on whether that was set before the
    syslog logger was made, even to the same value. *)
Theorem C89_syslog_follows_refuted :
  let s := run env0 logger_new [SyslogNew None None (lit "T"); SetLevel LEVEL_ALL] in
  let s' := run env0 logger_new [SetLevel default_level; SyslogNew None None (lit "T"); SetLevel LEVEL_ALL] in
  lg_out (step env0 s (Log (said LEVEL_INFO (lit "x")))) = Syslogged 6 (lit "x") :: lg_out s /\
  lg_out (step env0 s' (Log (said LEVEL_INFO (lit "x")))) = lg_out s'.
Proof. vm_compute. split; reflexivity. Qed.
Print Assumptions C89_syslog_follows_refuted.
