(** Lemmas about the logger. *)
From Verif.Base Require Import Bytes BytesFacts.
From Verif.Model Require Import FileMode Logger.
From Verif.Model Require ConnectionSpec.
From Verif.Spec Require Import LoggerSpec.
Import List.
Local Open Scope N_scope.

(** *** Sets of levels *)

Lemma has_spec a b : has a b = true <-> exists i, N.testbit a i = true /\ N.testbit b i = true.
Proof.
  unfold has. rewrite negb_true_iff, N.eqb_neq. split.
  - intros H. exists (N.log2 (N.land a b)). apply N.bit_log2 in H. rewrite N.land_spec in H.
    now apply andb_true_iff in H.
  - intros (i & Ha & Hb) H. assert (E : N.testbit (N.land a b) i = false) by now rewrite H, N.bits_0.
    rewrite N.land_spec, Ha, Hb in E. discriminate.
Qed.
Lemma has_sym a b : has a b = has b a.
Proof. unfold has. now rewrite N.land_comm. Qed.
Lemma meets_spec a b : meets a b = true <-> exists i, N.testbit a i = true /\ N.testbit b i = true.
Proof.
  unfold meets. rewrite existsb_exists. split.
  - intros (i & _ & H). apply andb_true_iff in H. eauto.
  - intros (i & Ha & Hb). exists (N.to_nat i). rewrite N2Nat.id, Ha, Hb. split; [|reflexivity].
    apply in_seq. split; [lia|]. cbn [Nat.add].
    assert (i < N.size a); [|lia].
    destruct (N.lt_ge_cases i (N.size a)) as [?|Hge]; [assumption|].
    exfalso. destruct (N.eq_dec a 0) as [->|Hn]; [now rewrite N.bits_0 in Ha|].
    rewrite N.size_log2 in Hge by assumption.
    rewrite N.bits_above_log2 in Ha by lia. discriminate.
Qed.
Lemma meets_has a b : meets a b = has a b.
Proof. apply eq_true_iff_eq. now rewrite meets_spec, has_spec. Qed.
Lemma has_lor_r a b c : has a (N.lor b c) = has a b || has a c.
Proof.
  apply eq_true_iff_eq. rewrite orb_true_iff, !has_spec. split.
  - intros (i & Ha & Hb). rewrite N.lor_spec in Hb. apply orb_true_iff in Hb as [Hb|Hb]; eauto.
  - intros [(i & Ha & Hb)|(i & Ha & Hb)]; exists i; rewrite N.lor_spec, Hb; split; auto using orb_true_r.
Qed.
Lemma has_fold a l : forall b,
  has a (fold_left (fun x y => N.lor x (snd y)) l b) = has a b || existsb (fun y : bytes * N => has a (snd y)) l.
Proof.
  induction l as [|y l IH]; intros b; cbn [fold_left existsb]; [now rewrite orb_false_r|].
  now rewrite IH, has_lor_r, orb_assoc.
Qed.
Lemma has_0_r a : has a 0 = false.
Proof. unfold has. now rewrite N.land_0_r. Qed.
Lemma has_pow a i : has a (2 ^ N.of_nat i) = bit a i.
Proof.
  apply eq_true_iff_eq. rewrite has_spec. unfold bit. split.
  - intros (j & Ha & Hj). rewrite N.pow2_bits_eqb in Hj. apply N.eqb_eq in Hj. now subst.
  - intros H. exists (N.of_nat i). split; [exact H|]. now rewrite N.pow2_bits_eqb, N.eqb_refl.
Qed.

(** *** The line *)

Lemma item_has items i :
  has (if items =? 0 then default_item else items) (2 ^ N.of_nat i) = item items i.
Proof. rewrite has_pow. unfold item, default_item. now destruct items. Qed.

Lemma bracketed_tag t : bracketed t = tag t.
Proof. reflexivity. Qed.

Lemma tags_spec level :
  flat_map (fun v : bytes * N => if has level (snd v) then bracketed (fst v) else []) level_class =
  concat (map (fun n => when (bit level (fst n)) (tag (snd n))) level_names).
Proof.
  unfold level_class, level_names. cbn [flat_map map concat fst snd].
  unfold LEVEL_DEFAULT. rewrite has_0_r. cbn [app].
  change LEVEL_NONE with (2 ^ N.of_nat 0). change LEVEL_CRITICAL with (2 ^ N.of_nat 1).
  change LEVEL_ERROR with (2 ^ N.of_nat 2). change LEVEL_WARNING with (2 ^ N.of_nat 3).
  change LEVEL_MESSAGE with (2 ^ N.of_nat 4). change LEVEL_INFO with (2 ^ N.of_nat 5).
  change LEVEL_DEBUG with (2 ^ N.of_nat 6). change LEVEL_TRACE with (2 ^ N.of_nat 7).
  change LEVEL_STATISTICS with (2 ^ N.of_nat 8). change LEVEL_PROFILE with (2 ^ N.of_nat 9).
  rewrite !has_pow. reflexivity.
Qed.
Lemma tags_mask level :
  (if has level (flags_mask level_class)
   then flat_map (fun v : bytes * N => if has level (snd v) then bracketed (fst v) else []) level_class else []) =
  flat_map (fun v : bytes * N => if has level (snd v) then bracketed (fst v) else []) level_class.
Proof.
  destruct (has level (flags_mask level_class)) eqn:E; [reflexivity|].
  unfold flags_mask in E. rewrite has_fold, has_0_r in E. cbn [orb] in E.
  assert (G : forall c : flags_class, existsb (fun y : bytes * N => has level (snd y)) c = false ->
    [] = flat_map (fun v : bytes * N => if has level (snd v) then bracketed (fst v) else []) c).
  { induction c as [|v c IH]; [reflexivity|]. cbn [existsb flat_map]. intros H.
    apply orb_false_iff in H as [-> H]. now apply IH. }
  now apply G.
Qed.

Definition joint (ws : list bytes) (t : bytes) : bytes := joined (ws ++ [t]).
Lemma joined_cons x l : l <> [] -> joined (x :: l) = x ++ lit " " ++ joined l.
Proof. destruct l; [congruence|reflexivity]. Qed.
Lemma tag_nonempty t : tag t <> [].
Proof. discriminate. Qed.

Lemma shown_ok env d m : shown env d m (log_message env d (m_level m) (m_text m)).
Proof.
  assert (Hc : colorized env d = true <-> in_color env d).
  { unfold colorized, in_color. destruct (e_colorize env) as [n|].
    - destruct (bytes_eqb n (lit "console")) eqn:E1.
      + apply bytes_eqb_eq in E1. subst. split; [now left|reflexivity].
      + apply bytes_eqb_neq in E1. destruct (bytes_eqb n (lit "none")) eqn:E2.
        * apply bytes_eqb_eq in E2. subst. split; [discriminate|]. intros [H|[_ H]]; congruence.
        * apply bytes_eqb_neq in E2. split.
          -- intros H. right. split; [exact H|congruence].
          -- intros [H|[H _]]; congruence.
    - split.
      + intros H. right. split; [exact H|discriminate].
      + intros [H|[H _]]; congruence. }
  unfold log_message. destruct (colorized env d) eqn:Ec.
  - apply proj1 in Hc. specialize (Hc eq_refl).
    unfold color_of.
    repeat match goal with
    | |- context [m_level m =? ?c] => destruct (N.eqb_spec (m_level m) c) as [E|?]
    end;
    try (match goal with |- shown _ _ _ (?p ++ _) => idtac end;
      match goal with E : m_level m = ?c |- shown _ _ _ ((ESC :: lit "[01;" ++ ?f ++ lit "m" ++ ESC :: lit "[" ++ ?b ++ lit "m") ++ _) =>
        exact (shown_colored env d m f b Hc ltac:(rewrite E; unfold colors; cbn; auto 20)) end).
    apply shown_plain. intros _ c Hi. unfold colors in Hi. cbn [In] in Hi.
    repeat destruct Hi as [Hi|Hi]; try contradiction; injection Hi as Hi _; symmetry in Hi;
      match goal with n : m_level m <> _ |- _ => exact (n Hi) end.
  - apply shown_plain. intros H. apply Hc in H. congruence.
Qed.

Definition grouped (l P : bytes) : bytes := match P with [] => l | _ => sep l (lit " ") ++ P end.
Lemma line_ok env s m : line_of env (lg_item s) (lg_output s) m (line env s m).
Proof.
  unfold line. set (items := lg_item s). set (d := lg_output s). set (t := log_message env d (m_level m) (m_text m)).
  assert (Ht : shown env d m t) by apply shown_ok.
  change [byte_of 10] with ["010"%char]. clearbody t.
  unfold prefix.
  change ITEM_LEVEL with (2 ^ N.of_nat 2). change ITEM_DOMAIN with (2 ^ N.of_nat 1).
  change ITEM_TIME with (2 ^ N.of_nat 4). change ITEM_NAME with (2 ^ N.of_nat 5).
  change ITEM_PID with (2 ^ N.of_nat 6). change ITEM_LOCATION with (2 ^ N.of_nat 3).
  rewrite !item_has.
  set (M := of_message items m). set (P := of_process env items).
  assert (EM :
    (if item items 4
     then match m_domain m with
          | Some d0 => if item items 1
                       then (if item items 2 && has (m_level m) (flags_mask level_class)
                             then [] ++ flat_map (fun v : bytes * N => if has (m_level m) (snd v) then bracketed (fst v) else []) level_class
                             else []) ++ bracketed d0
                       else if item items 2 && has (m_level m) (flags_mask level_class)
                            then [] ++ flat_map (fun v : bytes * N => if has (m_level m) (snd v) then bracketed (fst v) else []) level_class
                            else []
          | None => if item items 2 && has (m_level m) (flags_mask level_class)
                    then [] ++ flat_map (fun v : bytes * N => if has (m_level m) (snd v) then bracketed (fst v) else []) level_class
                    else []
          end ++ bracketed (m_time m)
     else match m_domain m with
          | Some d0 => if item items 1
                       then (if item items 2 && has (m_level m) (flags_mask level_class)
                             then [] ++ flat_map (fun v : bytes * N => if has (m_level m) (snd v) then bracketed (fst v) else []) level_class
                             else []) ++ bracketed d0
                       else if item items 2 && has (m_level m) (flags_mask level_class)
                            then [] ++ flat_map (fun v : bytes * N => if has (m_level m) (snd v) then bracketed (fst v) else []) level_class
                            else []
          | None => if item items 2 && has (m_level m) (flags_mask level_class)
                    then [] ++ flat_map (fun v : bytes * N => if has (m_level m) (snd v) then bracketed (fst v) else []) level_class
                    else []
          end) = M).
  { unfold M, of_message. cbn [app].
    rewrite <- tags_spec, <- tags_mask.
    destruct (item items 2), (has (m_level m) (flags_mask level_class)), (m_domain m), (item items 1), (item items 4);
      cbn [andb when app]; rewrite ?bracketed_tag, ?app_nil_r, <- ?app_assoc; reflexivity. }
  rewrite !EM. clear EM.
  assert (EP : forall l : bytes,
    (if item items 6
     then (if item items 5 then if item items 5 then sep l (lit " ") ++ bracketed (null_text (e_program env)) else l
           else sep (if item items 5 then sep l (lit " ") ++ bracketed (null_text (e_program env)) else l) (lit " ")) ++
          bracketed (ConnectionSpec.decimal (e_pid env))
     else if item items 5 then sep l (lit " ") ++ bracketed (null_text (e_program env)) else l) =
    grouped l P).
  { intros l. unfold grouped, P, of_process. rewrite !bracketed_tag. unfold program, null_text.
    destruct (item items 5), (item items 6); cbn [when app]; rewrite ?app_nil_r, <- ?app_assoc; try reflexivity. }
  rewrite EP. clear EP.
  set (L := grouped M P).
  assert (EL : L = joined (unless_empty M ++ unless_empty P)).
  { unfold L, grouped. destruct M as [|a M'], P as [|b P']; cbn [unless_empty app sep joined]; try reflexivity.
    rewrite <- app_assoc. reflexivity. }
  assert (NL : L = [] <-> unless_empty M ++ unless_empty P = []).
  { unfold L, grouped. destruct M as [|a M'], P as [|b P']; cbn; split; congruence. }
  destruct (if item items 3 then m_file m else None) as [f|] eqn:Ef.
  - assert (El : located items m =
      (f ++ lit ":" ++ signed_decimal (m_line m) ++ lit ":") ::
      match m_function m with Some g => [g ++ lit "():"] | None => [] end).
    { unfold located. destruct (item items 3); [now rewrite Ef|discriminate]. }
    assert (Hne : located items m ++ [t] <> []) by (rewrite El; discriminate).
    assert (E : joined (unless_empty M ++ unless_empty P ++ located items m ++ [t]) =
      sep L (lit " ") ++ joined (located items m ++ [t])).
    { unfold L, grouped. set (R := located items m ++ [t]) in *. clearbody R.
      destruct M as [|a M'], P as [|b P']; cbn [unless_empty app];
        rewrite ?joined_cons by (assumption || discriminate); cbn [sep app]; rewrite <- ?app_assoc; reflexivity. }
    replace ((sep L (lit " ") ++ f ++ lit ":" ++ signed_decimal (m_line m) ++ lit ": " ++
      match m_function m with Some g => g ++ lit "(): " | None => [] end) ++ t ++ ["010"%char])
      with (joined (unless_empty M ++ unless_empty P ++ located items m ++ [t]) ++ ["010"%char]).
    + apply line_located; [exact Ht|]. rewrite El. discriminate.
    + rewrite E, El.
      destruct (m_function m) as [g|]; cbn [app joined]; rewrite <- !app_assoc; reflexivity.
  - assert (El : located items m = []).
    { unfold located. destruct (item items 3); [now rewrite Ef|reflexivity]. }
    replace (sep L (lit ": ") ++ t ++ ["010"%char]) with
      (match unless_empty M ++ unless_empty P with [] => t | w :: ws => joined (w :: ws) ++ lit ": " ++ t end ++ ["010"%char]).
    + now apply line_plain.
    + destruct (unless_empty M ++ unless_empty P) as [|w ws] eqn:Ew.
      * rewrite (proj2 NL) by reflexivity. reflexivity.
      * rewrite <- EL. destruct L as [|c L'] eqn:E0; [discriminate (proj1 NL eq_refl)|].
        cbn [sep]. now rewrite <- !app_assoc.
Qed.

(** *** Deliveries *)

Lemma fatal_deadly env level : fatal env level = true <-> deadly env level.
Proof.
  unfold fatal, deadly, LEVEL_CRITICAL, LEVEL_WARNING. destruct (e_debug env) as [d|].
  - rewrite !andb_true_iff, !orb_true_iff, !andb_true_iff, !orb_true_iff, !bytes_eqb_eq, !N.leb_le, N.eqb_eq.
    split.
    + intros ([H1 H2] & [[->| ->]|[-> [->| ->]]]); [left|left|right|right]; split; auto; lia.
    + intros [[[H|H] ?]|[[H|H] ?]]; injection H as H; subst d; (split; [lia|]); auto 6.
  - rewrite andb_false_r. split; [discriminate|]. intros [[[H|H] _]|[[H|H] _]]; discriminate.
Qed.

Lemma priority_spec level : priority level = first_priority priorities level.
Proof.
  unfold priority. cbn [first_priority priorities].
  change LEVEL_CRITICAL with (2 ^ N.of_nat 1).
  change LEVEL_ERROR with (2 ^ N.of_nat 2). change LEVEL_WARNING with (2 ^ N.of_nat 3).
  change LEVEL_MESSAGE with (2 ^ N.of_nat 4). change LEVEL_INFO with (2 ^ N.of_nat 5).
  change LEVEL_DEBUG with (2 ^ N.of_nat 6). change LEVEL_TRACE with (2 ^ N.of_nat 7).
  change LEVEL_STATISTICS with (2 ^ N.of_nat 8).
  rewrite !has_pow. reflexivity.
Qed.

(** Nothing but the output and the life of the process differs. *)
Definition alike (s s' : logger) : Prop :=
  lg_target s' = lg_target s /\ lg_item s' = lg_item s /\ lg_levels s' = lg_levels s /\
  lg_interesting s' = lg_interesting s /\ lg_path s' = lg_path s /\ lg_output s' = lg_output s /\
  lg_handlers s' = lg_handlers s /\ lg_syslogs s' = lg_syslogs s /\ lg_held s' = lg_held s /\
  lg_directory s' = lg_directory s /\ lg_files s' = lg_files s.
Lemma alike_refl s : alike s s.
Proof. now repeat apply conj. Qed.
Lemma alike_trans s1 s2 s3 : alike s1 s2 -> alike s2 s3 -> alike s1 s3.
Proof. unfold alike. intros H1 H2. repeat apply conj; (etransitivity; [apply H2|apply H1]). Qed.
Lemma run_handler_alike env m s h : alike s (run_handler env m s h).
Proof.
  unfold run_handler. destruct (lg_dead s); [apply alike_refl|]. destruct h as [|i].
  - unfold default_handler. destruct (negb _); [apply alike_refl|]. destruct (fatal _ _); now repeat apply conj.
  - unfold syslog_handler. destruct (nth _ _ _); [|apply alike_refl]. destruct (negb _); [apply alike_refl|].
    destruct (lg_held s); now repeat apply conj.
Qed.
Lemma handlers_alike env m hs : forall s, alike s (fold_left (run_handler env m) hs s).
Proof.
  induction hs as [|h hs IH]; intros s; [apply alike_refl|]. cbn [fold_left].
  eapply alike_trans; [apply run_handler_alike|apply IH].
Qed.
Lemma emit_alike env s m : alike s (emit env s m).
Proof. apply handlers_alike. Qed.
Lemma log_alike env s m : alike s (log env s m).
Proof. unfold log. destruct (has _ _); [apply emit_alike|apply alike_refl]. Qed.

(** Levels by name. *)
Definition value (l : list (bytes * N)) (k : bytes) : N :=
  match find (fun x => bytes_eqb (fst x) k) l with Some x => snd x | None => 0 end.
Lemma value_set l k v n : value (set_key l k v) n = if bytes_eqb k n then v else value l n.
Proof.
  unfold value. induction l as [|[k' v'] l IH]; cbn [set_key find fst snd].
  - destruct (bytes_eqb k n); reflexivity.
  - destruct (bytes_eqb k' k) eqn:E; cbn [find fst snd].
    + apply bytes_eqb_eq in E. subst k'. destruct (bytes_eqb k n); reflexivity.
    + destruct (bytes_eqb k' n) eqn:E2; [|exact IH].
      apply bytes_eqb_eq in E2. subst k'. apply bytes_eqb_neq in E.
      assert (E3 : bytes_eqb k n = false) by (apply bytes_eqb_neq; congruence). now rewrite E3.
Qed.
Lemma keys_set l k v : NoDup (map fst l) -> NoDup (map fst (set_key l k v)) /\
  (forall n, In n (map fst (set_key l k v)) <-> n = k \/ In n (map fst l)).
Proof.
  induction l as [|[k' v'] l IH]; cbn [set_key map fst]; intros H.
  - split; [constructor; [intros []|constructor]|]. intros n. cbn. intuition congruence.
  - apply NoDup_cons_iff in H as [Hi H]. destruct (IH H) as [I1 I2]. destruct (bytes_eqb k' k) eqn:E; cbn [map fst].
    + apply bytes_eqb_eq in E. subst k'. split; [now constructor|]. intros n. cbn. intuition congruence.
    + apply bytes_eqb_neq in E. split.
      * constructor; [|exact I1]. rewrite I2. intros [?|?]; [congruence|contradiction].
      * intros n. cbn. rewrite I2. intuition congruence.
Qed.
Lemma value_in l : NoDup (map fst l) -> forall k v, In (k, v) l -> value l k = v.
Proof.
  unfold value. induction l as [|[k' v'] l IH]; intros H k v Hi; [destruct Hi|].
  cbn [map fst] in H. apply NoDup_cons_iff in H as [Hn H]. cbn [find fst snd].
  destruct (bytes_eqb k' k) eqn:E.
  - apply bytes_eqb_eq in E. subst k'. destruct Hi as [Hi|Hi]; [now injection Hi|].
    elim Hn. apply in_map_iff. now exists (k, v).
  - destruct Hi as [Hi|Hi]; [injection Hi as -> ->; now rewrite bytes_eqb_refl in E|]. now apply IH.
Qed.
Lemma has_levels a l : NoDup (map fst l) ->
  existsb (fun y : bytes * N => has a (snd y)) l = true <-> exists k, has a (value l k) = true.
Proof.
  intros H. rewrite existsb_exists. split.
  - intros ([k v] & Hi & Ha). exists k. now rewrite (value_in l H k v Hi).
  - intros (k & Hk). unfold value in Hk. destruct (find _ l) as [[k' v]|] eqn:E; [|now rewrite has_0_r in Hk].
    exists (k', v). split; [|exact Hk]. now apply find_some in E.
Qed.
Lemma has_interests a l :
  existsb (meets a) (interests l) = true <-> exists k, has a (latest l k) = true.
Proof.
  rewrite existsb_exists. unfold interests. split.
  - intros (v & Hi & Hv). apply in_map_iff in Hi as ([k w] & <- & Hi). cbn [fst] in Hv.
    exists k. now rewrite <- meets_has.
  - intros (k & Hk). exists (latest l k). rewrite meets_has. split; [|exact Hk].
    unfold latest in Hk. destruct (find _ l) as [[k' v]|] eqn:E; [|now rewrite has_0_r in Hk].
    apply in_map_iff. exists (k', v). apply find_some in E as [Hi E]. cbn [fst] in E |- *.
    apply bytes_eqb_eq in E. subst k'. now split.
Qed.

(** *** The wishes are kept *)

Definition handler_of (k : sink) : handler := match k with Output => HDefault | Syslog i _ => HSyslog i end.
Definition syslog_level (ks : list sink) : N :=
  match find (fun k => negb (is_output k)) ks with Some (Syslog _ l) => l | _ => 0 end.

Record keeps (w : wish) (s : logger) : Prop := mk_keeps {
  k_target : lg_target s = w_level w;
  k_handlers : lg_handlers s = map handler_of (w_sinks w);
  k_created : length (lg_syslogs s) = w_created w;
  k_live : forall i l, In (Syslog i l) (w_sinks w) ->
             exists y, nth i (lg_syslogs s) None = Some y /\ sl_target y = l /\ (i < w_created w)%nat;
  k_gone : forall i y, nth i (lg_syslogs s) None = Some y -> exists l, In (Syslog i l) (w_sinks w);
  k_one : forall i l j l', In (Syslog i l) (w_sinks w) -> In (Syslog j l') (w_sinks w) -> i = j;
  k_held : lg_held s <> HeldFreed;
  k_keys : NoDup (map fst (lg_levels s));
  k_default : value (lg_levels s) (lit "default") = or_standard (w_level w);
  k_syslog : value (lg_levels s) (lit "syslog") = syslog_level (w_sinks w);
  k_others : forall n, n <> lit "default" -> n <> lit "syslog" -> value (lg_levels s) n = latest (w_interests w) n;
  k_reserved : latest (w_interests w) (lit "default") = 0 /\ latest (w_interests w) (lit "syslog") = 0;
  k_interesting : lg_interesting s = fold_left (fun a x => N.lor a (snd x)) (lg_levels s) 0
}.

Lemma keeps_alike w s s' : alike s s' -> keeps w s -> keeps w s'.
Proof.
  intros (E1 & E2 & E3 & E4 & E5 & E6 & E7 & E8 & E9 & _) H. destruct H.
  constructor; rewrite ?E1, ?E3, ?E4, ?E7, ?E8, ?E9; assumption.
Qed.

Lemma resolved_spec w s : keeps w s -> resolved s = or_standard (w_level w).
Proof. intros H. unfold resolved. rewrite (k_target _ _ H). now destruct (w_level w). Qed.

Lemma interesting_spec w s a : keeps w s ->
  has a (lg_interesting s) = true <->
  has a (or_standard (w_level w)) = true \/ has a (syslog_level (w_sinks w)) = true \/
  existsb (meets a) (interests (w_interests w)) = true.
Proof.
  intros H. rewrite (k_interesting _ _ H), has_fold, has_0_r, orb_false_l.
  rewrite (has_levels a _ (k_keys _ _ H)), has_interests. split.
  - intros (k & Hk).
    destruct (bytes_eqb k (lit "default")) eqn:E1; [apply bytes_eqb_eq in E1; subst; rewrite (k_default _ _ H) in Hk; auto|].
    destruct (bytes_eqb k (lit "syslog")) eqn:E2; [apply bytes_eqb_eq in E2; subst; rewrite (k_syslog _ _ H) in Hk; auto|].
    apply bytes_eqb_neq in E1, E2. rewrite (k_others _ _ H) in Hk by assumption. right. right. eauto.
  - intros [Ha|[Ha|(k & Ha)]].
    + exists (lit "default"). now rewrite (k_default _ _ H).
    + exists (lit "syslog"). now rewrite (k_syslog _ _ H).
    + exists k. destruct (k_reserved _ _ H) as [R1 R2].
      destruct (bytes_eqb k (lit "default")) eqn:E1; [apply bytes_eqb_eq in E1; subst; rewrite R1, has_0_r in Ha; discriminate|].
      destruct (bytes_eqb k (lit "syslog")) eqn:E2; [apply bytes_eqb_eq in E2; subst; rewrite R2, has_0_r in Ha; discriminate|].
      apply bytes_eqb_neq in E1, E2. now rewrite (k_others _ _ H).
Qed.

Lemma syslog_level_in w s i l : keeps w s -> In (Syslog i l) (w_sinks w) -> syslog_level (w_sinks w) = l.
Proof.
  intros H Hi. unfold syslog_level.
  destruct (find (fun k => negb (is_output k)) (w_sinks w)) as [[|j l']|] eqn:E.
  - apply find_some in E as [_ E]. discriminate.
  - apply find_some in E as [E _]. destruct (k_live _ _ H _ _ Hi) as (y & Ey & El & _).
    destruct (k_live _ _ H _ _ E) as (y' & Ey' & El' & _).
    rewrite (k_one _ _ H _ _ _ _ Hi E) in Ey. congruence.
  - apply (find_none _ _ E) in Hi. discriminate.
Qed.

(** A message that someone wants is interesting. *)
Lemma wanted_interesting w s k m : keeps w s -> In k (w_sinks w) -> wants w k (m_level m) = true ->
  has (lg_interesting s) (m_level m) = true.
Proof.
  intros H Hi Hw. rewrite has_sym. apply (interesting_spec w s _ H). destruct k as [|i l]; cbn [wants] in Hw.
  - left. now rewrite <- meets_has.
  - destruct l as [|p].
    + apply orb_true_iff in Hw as [Hw|Hw]; [left; now rewrite <- meets_has|auto].
    + right. left. rewrite (syslog_level_in w s i _ H Hi), <- meets_has. exact Hw.
Qed.

(** One handler. *)
Lemma run_handler_delivers env w s k m : keeps w s -> In k (w_sinks w) -> lg_dead s = None ->
  ~ deadly env (m_level m) ->
  exists os, delivered env w (lg_item s) (lg_output s) m k os /\
    lg_out (run_handler env m s (handler_of k)) = os ++ lg_out s /\
    lg_dead (run_handler env m s (handler_of k)) = None.
Proof.
  intros H Hi Hd Hf. unfold run_handler. rewrite Hd. destruct k as [|i l]; cbn [handler_of].
  - unfold default_handler. rewrite (resolved_spec w s H).
    destruct (has (m_level m) (or_standard (w_level w))) eqn:E; cbn [negb].
    + destruct (fatal env (m_level m)) eqn:Ef; [apply fatal_deadly in Ef; contradiction|].
      exists [Written (lg_output s) (line env s m)]. repeat apply conj; [|reflexivity|exact Hd].
      constructor; [cbn [wants]; now rewrite meets_has|apply line_ok].
    + exists []. repeat apply conj; [|reflexivity|exact Hd]. constructor. cbn [wants]. now rewrite meets_has.
  - unfold syslog_handler. destruct (k_live _ _ H _ _ Hi) as (y & Ey & El & _). rewrite Ey, El.
    assert (Ew : has (m_level m) (if l =? LEVEL_DEFAULT then lg_interesting s else l) = wants w (Syslog i l) (m_level m)).
    { cbn [wants]. destruct l as [|p]; cbn [N.eqb LEVEL_DEFAULT].
      - apply eq_true_iff_eq. rewrite (interesting_spec w s _ H), (syslog_level_in w s i _ H Hi), has_0_r, orb_true_iff, meets_has.
        intuition discriminate.
      - now rewrite meets_has. }
    rewrite Ew. destruct (wants w (Syslog i l) (m_level m)) eqn:E; cbn [negb].
    + pose proof (k_held _ _ H) as Hh. rewrite priority_spec.
      exists [Syslogged (first_priority priorities (m_level m)) (syslog_text m)].
      split; [now constructor|].
      change LEVEL_STATISTICS with (2 ^ N.of_nat 8). rewrite has_pow. unfold syslog_text, when.
      destruct (lg_held s); [now split|now split|congruence].
    + exists []. repeat apply conj; [now constructor|reflexivity|exact Hd].
Qed.

Lemma emit_delivers env w m : ~ deadly env (m_level m) -> forall ks s, keeps w s -> incl ks (w_sinks w) ->
  lg_dead s = None ->
  exists oss, Forall2 (delivered env w (lg_item s) (lg_output s) m) ks oss /\
    lg_out (fold_left (run_handler env m) (map handler_of ks) s) = rev (concat oss) ++ lg_out s /\
    lg_dead (fold_left (run_handler env m) (map handler_of ks) s) = None.
Proof.
  intros Hf ks. induction ks as [|k ks IH]; intros s H Hi Hd.
  - exists []. now repeat apply conj.
  - cbn [map fold_left].
    destruct (run_handler_delivers env w s k m H ltac:(apply Hi; now left) Hd Hf) as (os & H1 & H2 & H3).
    pose proof (run_handler_alike env m s (handler_of k)) as Ha.
    destruct (IH (run_handler env m s (handler_of k)) (keeps_alike _ _ _ Ha H) ltac:(intros x Hx; apply Hi; now right) H3)
      as (oss & I1 & I2 & I3).
    destruct Ha as (_ & Ei & _ & _ & _ & Eo & _). rewrite Ei, Eo in I1.
    exists (os :: oss). repeat apply conj; [now constructor| |exact I3].
    rewrite I2, H2. cbn [concat]. rewrite rev_app_distr, <- app_assoc.
    destruct H1; reflexivity.
Qed.

Lemma emit_all env w s m : keeps w s -> lg_dead s = None -> ~ deadly env (m_level m) ->
  exists oss, Forall2 (delivered env w (lg_item s) (lg_output s) m) (w_sinks w) oss /\
    lg_out (emit env s m) = rev (concat oss) ++ lg_out s /\ lg_dead (emit env s m) = None.
Proof.
  intros H Hd Hf. unfold emit. rewrite (k_handlers _ _ H). apply emit_delivers; auto. apply incl_refl.
Qed.

Lemma log_all env w s m : keeps w s -> lg_dead s = None -> ~ deadly env (m_level m) ->
  exists oss, Forall2 (delivered env w (lg_item s) (lg_output s) m) (w_sinks w) oss /\
    lg_out (log env s m) = rev (concat oss) ++ lg_out s /\ lg_dead (log env s m) = None.
Proof.
  intros H Hd Hf. unfold log. destruct (has (lg_interesting s) (m_level m)) eqn:E; [now apply emit_all|].
  exists (map (fun _ => []) (w_sinks w)).
  assert (G : forall ks, incl ks (w_sinks w) ->
    Forall2 (delivered env w (lg_item s) (lg_output s) m) ks (map (fun _ => []) ks) /\
    concat (map (fun _ : sink => @nil out) ks) = []).
  { induction ks as [|k ks IH]; intros Hi; [now split; constructor|]. cbn [map concat app].
    destruct (IH ltac:(intros x Hx; apply Hi; now right)) as [I1 I2]. split; [|exact I2].
    constructor; [|exact I1]. constructor.
    destruct (wants w k (m_level m)) eqn:Ew; [|reflexivity].
    rewrite (wanted_interesting w s k m H ltac:(apply Hi; now left) Ew) in E. discriminate. }
  destruct (G (w_sinks w) (incl_refl _)) as [G1 G2]. repeat apply conj; [exact G1|now rewrite G2|exact Hd].
Qed.

(** *** Every ordinary call keeps them *)

Lemma nth_put {A} (l : list A) (d y : A) : forall i j, (i < length l)%nat ->
  nth j (firstn i l ++ y :: skipn (S i) l) d = if Nat.eqb i j then y else nth j l d.
Proof.
  induction l as [|x l IH]; intros i j Hi; [inversion Hi|].
  destruct i as [|i]; [destruct j; reflexivity|]. cbn [firstn skipn app]. destruct j as [|j]; [reflexivity|].
  cbn [nth Nat.eqb]. apply IH. cbn in Hi. lia.
Qed.
Lemma length_put {A} (l : list A) (y : A) i : (i < length l)%nat ->
  length (firstn i l ++ y :: skipn (S i) l) = length l.
Proof. intros H. rewrite app_length, firstn_length. cbn [length]. rewrite skipn_length. lia. Qed.

Lemma value_other l k v n : n <> k -> value (set_key l k v) n = value l n.
Proof. intros H. rewrite value_set. destruct (bytes_eqb k n) eqn:E; [apply bytes_eqb_eq in E; congruence|reflexivity]. Qed.
Lemma value_same l k v : value (set_key l k v) k = v.
Proof. now rewrite value_set, bytes_eqb_refl. Qed.

Lemma keeps_level w s l : keeps w s ->
  keeps (mk_wish l (w_interests w) (w_created w) (w_sinks w)) (set_target s l).
Proof.
  intros H. unfold set_target, set_interesting.
  destruct H as [H1 H2 H3 H4 H5 H6 H7 H8 H9 H10 H11 H12 H13].
  constructor; cbn; try assumption; try reflexivity.
  - now apply keys_set.
  - rewrite value_same. now destruct l.
  - rewrite value_other by discriminate. exact H10.
  - intros n N1 N2. rewrite value_other by congruence. now apply H11.
Qed.

Lemma keeps_interest w s n l : keeps w s -> n <> lit "default" -> n <> lit "syslog" ->
  keeps (mk_wish (w_level w) ((n, l) :: w_interests w) (w_created w) (w_sinks w)) (set_interesting s n l).
Proof.
  intros H N1 N2. unfold set_interesting.
  destruct H as [H1 H2 H3 H4 H5 H6 H7 H8 H9 H10 H11 [H12 H12'] H13].
  assert (L : forall k, latest ((n, l) :: w_interests w) k = if bytes_eqb n k then l else latest (w_interests w) k).
  { intros k. unfold latest. cbn [find fst snd]. now destruct (bytes_eqb n k). }
  constructor; cbn -[latest lit]; try assumption; try reflexivity.
  - now apply keys_set.
  - rewrite value_other by (now apply not_eq_sym). exact H9.
  - rewrite value_other by (now apply not_eq_sym). exact H10.
  - intros k K1 K2. rewrite value_set, L. destruct (bytes_eqb n k); [reflexivity|now apply H11].
  - rewrite !L. assert (E1 : bytes_eqb n (lit "default") = false) by now apply bytes_eqb_neq.
    assert (E2 : bytes_eqb n (lit "syslog") = false) by now apply bytes_eqb_neq. rewrite E1, E2. now split.
Qed.

Lemma filter_handlers f g ks : (forall k, g (handler_of k) = f k) ->
  filter g (map handler_of ks) = map handler_of (filter f ks).
Proof.
  intros H. induction ks as [|k ks IH]; [reflexivity|]. cbn [map filter]. rewrite H, IH. now destruct (f k).
Qed.
Lemma syslog_level_outputs ks : (forall k, In k ks -> k = Output) -> syslog_level ks = 0.
Proof.
  intros H. unfold syslog_level. destruct (find _ ks) as [[|i l]|] eqn:E; try reflexivity.
  apply find_some in E as [E _]. apply H in E. discriminate.
Qed.
Lemma syslog_level_filter ks : syslog_level (filter (fun k => negb (is_output k)) ks) = syslog_level ks.
Proof.
  unfold syslog_level. f_equal. induction ks as [|[|i l] ks IH]; [reflexivity|exact IH|]. reflexivity.
Qed.
Lemma syslog_level_app ks k : syslog_level (ks ++ [Output]) = syslog_level ks /\
  ((forall x, In x ks -> x = Output) -> syslog_level (ks ++ [k]) = syslog_level [k]).
Proof.
  unfold syslog_level. split.
  - induction ks as [|[|i l] ks IH]; [reflexivity|exact IH|reflexivity].
  - intros H. induction ks as [|x ks IH]; [reflexivity|]. rewrite (H x) by now left. cbn [app find is_output negb].
    apply IH. intros y Hy. apply H. now right.
Qed.

Lemma keeps_connect w s : keeps w s ->
  keeps (mk_wish (w_level w) (w_interests w) (w_created w) (w_sinks w ++ [Output]))
        (put_handlers s (lg_handlers s ++ [HDefault])).
Proof.
  intros [H1 H2 H3 H4 H5 H6 H7 H8 H9 H10 H11 H12 H13].
  assert (I : forall i l, In (Syslog i l) (w_sinks w ++ [Output]) <-> In (Syslog i l) (w_sinks w)).
  { intros i l. rewrite in_app_iff. cbn. intuition discriminate. }
  constructor; cbn; try assumption.
  - now rewrite H2, map_app.
  - intros i l. rewrite I. apply H4.
  - intros i y Hy. destruct (H5 i y Hy) as [l Hl]. exists l. now apply I.
  - intros i l j l'. rewrite !I. apply H6.
  - now rewrite (proj1 (syslog_level_app _ Output)).
Qed.
Lemma keeps_disconnect w s : keeps w s ->
  keeps (mk_wish (w_level w) (w_interests w) (w_created w) (filter (fun k => negb (is_output k)) (w_sinks w)))
        (put_handlers s (filter (fun h => negb (is_default h)) (lg_handlers s))).
Proof.
  intros [H1 H2 H3 H4 H5 H6 H7 H8 H9 H10 H11 H12 H13].
  assert (I : forall i l, In (Syslog i l) (filter (fun k => negb (is_output k)) (w_sinks w)) <-> In (Syslog i l) (w_sinks w)).
  { intros i l. rewrite filter_In. cbn. intuition. }
  constructor; cbn; try assumption.
  - rewrite H2. apply filter_handlers. now intros [|].
  - intros i l. rewrite I. apply H4.
  - intros i y Hy. destruct (H5 i y Hy) as [l Hl]. exists l. now apply I.
  - intros i l j l'. rewrite !I. apply H6.
  - now rewrite syslog_level_filter.
Qed.

Lemma keeps_dispose w s i : keeps w s ->
  keeps (mk_wish (w_level w) (w_interests w) (w_created w) (filter (fun k => negb (is_syslog_of i k)) (w_sinks w)))
        (syslog_dispose s i).
Proof.
  intros H. unfold syslog_dispose. destruct (nth i (lg_syslogs s) None) as [y|] eqn:Ey.
  - destruct (k_gone _ _ H _ _ Ey) as [l0 Hl0]. pose proof (k_live _ _ H _ _ Hl0) as (y' & _ & _ & Hlt).
    pose proof (k_one _ _ H) as One.
    destruct H as [H1 H2 H3 H4 H5 H6 H7 H8 H9 H10 H11 H12 H13].
    assert (O : forall k, In k (filter (fun k => negb (is_syslog_of i k)) (w_sinks w)) -> k = Output).
    { intros [|j l] Hk; [reflexivity|]. apply filter_In in Hk as [Hk Hj]. cbn in Hj.
      rewrite (One _ _ _ _ Hl0 Hk), Nat.eqb_refl in Hj. discriminate. }
    constructor; cbn -[nth update lit]; try assumption; try reflexivity; try discriminate.
    + rewrite H2. apply filter_handlers. now intros [|].
    + unfold update; cbn -[nth firstn skipn app length]. rewrite length_put by (rewrite H3; exact Hlt). exact H3.
    + intros j l Hj. apply O in Hj. discriminate.
    + intros j y0. unfold update; cbn -[nth firstn skipn app length]. rewrite nth_put by (rewrite H3; exact Hlt).
      destruct (Nat.eqb_spec i j) as [?|Hn]; [discriminate|]. intros Hy.
      destruct (H5 _ _ Hy) as [l Hl]. elim Hn. eapply One; eassumption.
    + intros j l j' l' Hj. apply O in Hj. discriminate.
    + now apply keys_set.
    + rewrite value_other by discriminate. exact H9.
    + rewrite value_same. now rewrite syslog_level_outputs.
    + intros n N1 N2. rewrite value_other by congruence. now apply H11.
  - assert (E : filter (fun k => negb (is_syslog_of i k)) (w_sinks w) = w_sinks w).
    { assert (G : forall ks, incl ks (w_sinks w) -> filter (fun k => negb (is_syslog_of i k)) ks = ks).
      { induction ks as [|k ks IH]; [reflexivity|]. intros Hi. cbn [filter].
        rewrite IH by (intros x Hx; apply Hi; now right).
        destruct k as [|j l]; [reflexivity|]. cbn. destruct (Nat.eqb_spec i j) as [<-|]; [|reflexivity].
        destruct (k_live _ _ H i l ltac:(apply Hi; now left)) as (y & Hy & _). congruence. }
      apply G, incl_refl. }
    rewrite E. now destruct w.
Qed.

Lemma keeps_syslog_level w s i (f : N -> N) l : keeps w s ->
  (forall y, nth i (lg_syslogs s) None = Some y -> f (sl_target y) = l) ->
  keeps (mk_wish (w_level w) (w_interests w) (w_created w) (map (with_level i f) (w_sinks w)))
        (syslog_set_target s i l).
Proof.
  intros H Hf. unfold syslog_set_target. destruct (nth i (lg_syslogs s) None) as [y|] eqn:Ey.
  - specialize (Hf y eq_refl).
    destruct (k_gone _ _ H _ _ Ey) as [l0 Hl0]. pose proof (k_live _ _ H _ _ Hl0) as (y' & Ey' & Hl & Hlt).
    rewrite Ey in Ey'. injection Ey' as <-. pose proof (k_one _ _ H) as One.
    pose proof (syslog_level_in w s i l0 H Hl0) as Hsl.
    destruct H as [H1 H2 H3 H4 H5 H6 H7 H8 H9 H10 H11 H12 H13].
    assert (I : forall j v, In (Syslog j v) (map (with_level i f) (w_sinks w)) -> j = i /\ v = l).
    { intros j v Hj. apply in_map_iff in Hj as ([|j' v'] & E & Hj); [discriminate|]. cbn in E.
      assert (j' = i) by (symmetry; eapply One; eassumption). subst j'. rewrite Nat.eqb_refl in E.
      injection E as <- <-. split; [reflexivity|].
      destruct (H4 _ _ Hj) as (y' & Ey' & El & _). rewrite Ey in Ey'. injection Ey' as <-. now rewrite <- El. }
    assert (J : In (Syslog i l) (map (with_level i f) (w_sinks w))).
    { apply in_map_iff. exists (Syslog i l0). split; [|exact Hl0]. cbn. rewrite Nat.eqb_refl. subst. reflexivity. }
    constructor; cbn -[nth update lit]; try assumption; try reflexivity.
    + rewrite H2, map_map. apply map_ext. intros [|j v]; [reflexivity|]. cbn. now destruct (Nat.eqb i j).
    + unfold update; cbn -[nth firstn skipn app length]. rewrite length_put by (rewrite H3; exact Hlt). exact H3.
    + intros j v Hj. apply I in Hj as [-> ->]. unfold update; cbn -[nth firstn skipn app length].
      rewrite nth_put by (rewrite H3; exact Hlt). rewrite Nat.eqb_refl. eexists. split; [reflexivity|]. now split.
    + intros j y0. unfold update; cbn -[nth firstn skipn app length]. rewrite nth_put by (rewrite H3; exact Hlt).
      destruct (Nat.eqb_spec i j) as [<-|Hn]; [intros _; now exists l|]. intros Hy.
      destruct (H5 _ _ Hy) as [v Hv]. elim Hn. eapply One; eassumption.
    + intros j v j' v' Hj Hj'. apply I in Hj as [-> _]. apply I in Hj' as [-> _]. reflexivity.
    + now apply keys_set.
    + rewrite value_other by discriminate. exact H9.
    + rewrite value_same. symmetry. unfold syslog_level.
      destruct (find _ (map (with_level i f) (w_sinks w))) as [[|j v]|] eqn:E.
      * apply find_some in E as [_ E]. discriminate.
      * apply find_some in E as [E _]. now apply I in E as [_ ->].
      * apply (find_none _ _ E) in J. discriminate.
    + intros n N1 N2. rewrite value_other by congruence. now apply H11.
  - assert (E : map (with_level i f) (w_sinks w) = w_sinks w).
    { rewrite <- (map_id (w_sinks w)) at 2. apply map_ext_in. intros [|j v] Hj; [reflexivity|]. cbn.
      destruct (Nat.eqb_spec i j) as [<-|]; [|reflexivity].
      destruct (k_live _ _ H _ _ Hj) as (y & Hy & _). congruence. }
    rewrite E. now destruct w.
Qed.

Lemma keeps_out w s o : keeps w s -> keeps w (put_out s o).
Proof. apply keeps_alike. now repeat apply conj. Qed.

Lemma keeps_new env w s identity facility time : keeps w s ->
  (forall k, In k (w_sinks w) -> k = Output) ->
  lg_dead (syslog_new env s identity facility time) = None ->
  keeps (wish_step env w (SyslogNew identity facility time)) (syslog_new env s identity facility time).
Proof.
  intros H O Hd. unfold syslog_new in *. cbn [wish_step].
  set (i := length (lg_syslogs s)) in *.
  set (s0 := put_syslogs s (lg_syslogs s ++ [Some (mk_syslogger identity LEVEL_DEFAULT facility)]) (lg_held s)) in *.
  set (level := match e_syslog_level env with Some n => asked (Some n) 0 | None => w_level w end).
  match goal with |- keeps _ (match lg_dead ?x with Some _ => ?x | None => _ end) => set (s1 := x) in * end.
  destruct (lg_dead s1) as [|] eqn:Ed1; [congruence|]. clear Hd.
  assert (Hi : i = w_created w) by (unfold i; apply (k_created _ _ H)).
  (* what is the same after the level is set *)
  assert (S1 : exists y, lg_syslogs s1 = lg_syslogs s ++ [Some y] /\ sl_target y = level /\
    lg_target s1 = lg_target s /\ lg_handlers s1 = lg_handlers s /\ lg_held s1 = lg_held s /\
    NoDup (map fst (lg_levels s1)) /\ value (lg_levels s1) (lit "syslog") = level /\
    (forall n, n <> lit "syslog" -> value (lg_levels s1) n = value (lg_levels s) n) /\
    lg_interesting s1 = fold_left (fun a x => N.lor a (snd x)) (lg_levels s1) 0).
  { assert (Set_ : forall l, l = level -> s1 = syslog_set_target s0 i l -> exists y, lg_syslogs s1 = lg_syslogs s ++ [Some y] /\ sl_target y = level /\
      lg_target s1 = lg_target s /\ lg_handlers s1 = lg_handlers s /\ lg_held s1 = lg_held s /\
      NoDup (map fst (lg_levels s1)) /\ value (lg_levels s1) (lit "syslog") = level /\
      (forall n, n <> lit "syslog" -> value (lg_levels s1) n = value (lg_levels s) n) /\
      lg_interesting s1 = fold_left (fun a x => N.lor a (snd x)) (lg_levels s1) 0).
    { intros l -> ->. unfold syslog_set_target.
      assert (En : nth i (lg_syslogs s0) None = Some (mk_syslogger identity LEVEL_DEFAULT facility)).
      { cbn -[nth]. unfold i. rewrite app_nth2 by lia. now rewrite Nat.sub_diag. }
      rewrite En. exists (mk_syslogger identity level facility).
      unfold set_interesting. cbn -[firstn skipn]. unfold update, i. cbn -[firstn skipn].
      repeat apply conj; try reflexivity.
      - rewrite firstn_app, firstn_all, Nat.sub_diag. cbn [firstn].
        rewrite app_nil_r, skipn_all2 by (rewrite app_length; cbn; lia). reflexivity.
      - apply keys_set, (k_keys _ _ H).
      - apply value_same.
      - intros n Hn. now apply value_other. }
    unfold level in *. destruct (e_syslog_level env) as [name|].
    - unfold asked in *. destruct (level_given (Some name) LEVEL_DEFAULT) as [l|u] eqn:El;
        change (level_given (Some name) LEVEL_DEFAULT) with (level_given (Some name) 0) in El; rewrite El in *.
      + now apply (Set_ l).
      + clear Set_. exists (mk_syslogger identity LEVEL_DEFAULT facility).
        match goal with s1 := log env s0 ?m |- _ => pose proof (log_alike env s0 m) as Ha; fold s1 in Ha end.
        destruct Ha as (A1 & A2 & A3 & A4 & A5 & A6 & A7 & A8 & A9 & _).
        rewrite A1, A3, A4, A7, A8, A9.
        repeat apply conj; try reflexivity.
        * apply (k_keys _ _ H).
        * cbn -[lit]. rewrite (k_syslog _ _ H). now apply syslog_level_outputs.
        * apply (k_interesting _ _ H).
    - apply (Set_ (lg_target s0)); [|reflexivity]. cbn. apply (k_target _ _ H). }
  clearbody s1. destruct S1 as (y & Y1 & Y2 & Y3 & Y4 & Y5 & Y6 & Y7 & Y8 & Y9).
  assert (I : forall j v, In (Syslog j v) (w_sinks w ++ [Syslog (w_created w) level]) -> j = i /\ v = level).
  { intros j v Hj. apply in_app_or in Hj as [Hj|[Hj|[]]]; [apply O in Hj; discriminate|].
    injection Hj as <- <-. now split. }
  destruct H as [H1 H2 H3 H4 H5 H6 H7 H8 H9 H10 H11 H12 H13].
  constructor; cbn -[nth update lit]; try assumption.
  - now rewrite Y3.
  - rewrite Y4, H2, map_app. cbn. now rewrite Hi.
  - rewrite Y1, app_length, H3. cbn. lia.
  - intros j v Hj. apply I in Hj as [-> ->]. exists y. rewrite Y1, app_nth2 by (unfold i; lia).
    unfold i at 1. rewrite Nat.sub_diag. cbn. repeat apply conj; [reflexivity|exact Y2|]. rewrite Hi. lia.
  - intros j y0 Hy. rewrite Y1 in Hy. destruct (Nat.lt_ge_cases j (length (lg_syslogs s))) as [Hlt|Hge].
    + rewrite app_nth1 in Hy by exact Hlt. destruct (H5 _ _ Hy) as [l Hl]. apply O in Hl. discriminate.
    + exists level. apply in_or_app. right. left.
      assert (j = i); [|subst j; now rewrite Hi].
      rewrite app_nth2 in Hy by exact Hge. unfold i.
      destruct (j - length (lg_syslogs s))%nat as [|k] eqn:Ek; [lia|]. cbn in Hy. destruct k; discriminate.
  - intros j v j' v' Hj Hj'. apply I in Hj as [-> _]. now apply I in Hj' as [-> _].
  - destruct identity; [discriminate|]. now rewrite Y5.
  - rewrite Y8 by discriminate. exact H9.
  - rewrite Y7. rewrite (proj2 (syslog_level_app _ (Syslog (w_created w) level)) O). reflexivity.
  - intros n N1 N2. rewrite Y8 by exact N2. now apply H11.
Qed.

Lemma put_path_keeps w s p d : keeps w s -> keeps w (put_path s p d).
Proof. intros []. now constructor. Qed.
Lemma put_directory_keeps w s p d : keeps w s -> keeps w (put_directory s p d).
Proof. intros []. now constructor. Qed.
Lemma append_keeps w s p : keeps w s -> keeps w (append_to s p).
Proof.
  intros H. unfold append_to. destruct (file_at _ _); [now apply put_path_keeps|].
  now apply put_path_keeps, put_directory_keeps.
Qed.
Lemma log_keeps env w s m : keeps w s -> keeps w (log env s m).
Proof. apply keeps_alike, log_alike. Qed.
Lemma reopen_keeps env w s r t : keeps w s -> keeps w (reopen env s r t).
Proof.
  intros H. unfold reopen. destruct (lg_path s) as [p|]; [|exact H].
  set (s1 := log env s _). assert (H1 : keeps w s1) by now apply log_keeps. clearbody s1.
  destruct (lg_dead s1); [exact H1|].
  set (s2 := match r with Opened => _ | NotOpened _ => _ end).
  assert (H2 : keeps w s2).
  { unfold s2. destruct r; [now apply append_keeps|]. apply put_path_keeps, log_keeps. now apply put_path_keeps. }
  clearbody s2. destruct (lg_dead s2); [exact H2|]. now apply log_keeps.
Qed.

Lemma step_dead env s o : lg_dead s <> None -> step env s o = s.
Proof. intros H. unfold step. destruct (lg_dead s); [reflexivity|congruence]. Qed.

Lemma step_keeps env w s o : keeps w s -> ordinary w o -> lg_dead (step env s o) = None ->
  keeps (wish_step env w o) (step env s o).
Proof.
  intros H Ho Hd. destruct (lg_dead s) as [x|] eqn:Es.
  { rewrite step_dead in Hd by congruence. congruence. }
  assert (Hs : step env s o = fst (call env s o)) by (unfold step; now rewrite Es).
  rewrite Hs in *. clear Hs.
  destruct o as [m|m|d l t x|l|n|l|n l|i|n|p r|r t| | |i f t|i|i l|i n|i l|i x|a b|a]; cbn [call fst] in *;
    cbn [ordinary] in Ho; try contradiction.
  - now apply log_keeps.
  - eapply keeps_alike; [apply emit_alike|exact H].
  - cbn [wish_step]. unfold glib_log in *. destruct (fatal env l); [discriminate|]. destruct (glib_level l); [|exact H].
    eapply keeps_alike; [apply emit_alike|exact H].
  - now apply keeps_level.
  - cbn [wish_step]. unfold asked. rewrite (k_target _ _ H).
    destruct (level_given n (w_level w)); cbn [fst]; [now apply keeps_level|]. now destruct w.
  - now apply keeps_interest.
  - cbn [wish_step]. destruct H; now constructor.
  - cbn [wish_step]. destruct (item_given n (lg_item s)); cbn [fst]; [destruct H; now constructor|exact H].
  - cbn [wish_step]. unfold set_path. destruct p as [p|]; cbn [fst]; [|now apply put_path_keeps].
    destruct (bytes_eqb p (lit "-")); [now apply put_path_keeps|].
    destruct r; cbn [fst]; [apply append_keeps|]; now apply put_path_keeps.
  - now apply reopen_keeps.
  - now apply keeps_connect.
  - now apply keeps_disconnect.
  - now apply keeps_new.
  - now apply keeps_dispose.
  - apply (keeps_syslog_level w s i (fun _ => l) l H). reflexivity.
  - cbn [wish_step].
    destruct (nth i (lg_syslogs s) None) as [y|] eqn:Ey.
    + destruct (level_given n (sl_target y)) as [l|u] eqn:El; cbn [fst].
      * apply keeps_syslog_level; [exact H|]. intros y' Hy'. rewrite Ey in Hy'. injection Hy' as <-.
        unfold asked. now rewrite El.
      * assert (E : map (with_level i (asked n)) (w_sinks w) = w_sinks w).
        { rewrite <- (map_id (w_sinks w)) at 2. apply map_ext_in. intros [|j v] Hj; [reflexivity|]. cbn.
          destruct (Nat.eqb_spec i j) as [<-|]; [|reflexivity].
          destruct (k_live _ _ H _ _ Hj) as (y' & Hy' & Ht & _). rewrite Ey in Hy'. injection Hy' as <-.
          unfold asked. rewrite <- Ht, El. reflexivity. }
        rewrite E. now destruct w.
    + cbn [fst]. assert (E : map (with_level i (asked n)) (w_sinks w) = w_sinks w).
      { rewrite <- (map_id (w_sinks w)) at 2. apply map_ext_in. intros [|j v] Hj; [reflexivity|]. cbn.
        destruct (Nat.eqb_spec i j) as [<-|]; [|reflexivity].
        destruct (k_live _ _ H _ _ Hj) as (y & Hy & _). congruence. }
      rewrite E. now destruct w.
  - cbn [wish_step]. destruct (file_at _ a); [|exact H]. destruct (bytes_eqb a b); [exact H|].
    now apply put_directory_keeps.
  - cbn [wish_step]. now apply put_directory_keeps.
Qed.

Lemma run_dead env ops : forall s, lg_dead s <> None -> run env s ops = s.
Proof.
  induction ops as [|o ops IH]; intros s H; [reflexivity|]. cbn [run fold_left]. rewrite step_dead by exact H.
  now apply IH.
Qed.
Lemma run_keeps env ops : forall w s, keeps w s -> ordinary_from env w ops -> lg_dead (run env s ops) = None ->
  keeps (fold_left (wish_step env) ops w) (run env s ops).
Proof.
  induction ops as [|o ops IH]; intros w s H Ho Hd; [exact H|]. cbn [fold_left run ordinary_from] in *.
  destruct Ho as [Ho Hos]. apply IH; [|exact Hos|exact Hd]. apply step_keeps; [exact H|exact Ho|].
  destruct (lg_dead (step env s o)) as [x|] eqn:E; [|reflexivity].
  assert (E2 : run env (step env s o) ops = step env s o) by (apply run_dead; congruence).
  unfold run in E2. rewrite E2 in Hd. congruence.
Qed.
Lemma new_keeps : keeps no_wish logger_new.
Proof.
  constructor; cbn -[lit value latest]; try reflexivity; try (intros; contradiction); try discriminate.
  - intros i y. destruct i; discriminate.
  - repeat constructor. intros [].
  - intros n N1 N2. unfold value. cbn [find fst snd].
    destruct (bytes_eqb (lit "default") n) eqn:E; [apply bytes_eqb_eq in E; congruence|reflexivity].
  - now split.
Qed.

(** *** Places *)

Lemma run_handler_placed env m s h : exists new,
  lg_out (run_handler env m s h) = new ++ lg_out s /\ Forall (placed (lg_output s)) new.
Proof.
  unfold run_handler. destruct (lg_dead s); [exists []; now split|]. destruct h as [|i].
  - unfold default_handler. destruct (negb _); [exists []; now split|]. destruct (fatal _ _); [exists []; now split|].
    exists [Written (lg_output s) (line env s m)]. split; [reflexivity|]. now repeat constructor.
  - unfold syslog_handler. destruct (nth _ _ _); [|exists []; now split]. destruct (negb _); [exists []; now split|].
    destruct (lg_held s); try (exists []; now split); eexists [_]; (split; [reflexivity|]); now repeat constructor.
Qed.
Lemma handlers_placed env m hs : forall s, exists new,
  lg_out (fold_left (run_handler env m) hs s) = new ++ lg_out s /\ Forall (placed (lg_output s)) new.
Proof.
  induction hs as [|h hs IH]; intros s; [exists []; now split|]. cbn [fold_left].
  destruct (run_handler_placed env m s h) as (n1 & E1 & F1). destruct (IH (run_handler env m s h)) as (n2 & E2 & F2).
  pose proof (run_handler_alike env m s h) as (_ & _ & _ & _ & _ & Eo & _). rewrite Eo in F2.
  exists (n2 ++ n1). rewrite E2, E1, app_assoc. split; [reflexivity|]. apply Forall_app. now split.
Qed.
Lemma emit_placed env s m : exists new, lg_out (emit env s m) = new ++ lg_out s /\ Forall (placed (lg_output s)) new.
Proof. apply handlers_placed. Qed.
Lemma log_placed env s m : exists new, lg_out (log env s m) = new ++ lg_out s /\ Forall (placed (lg_output s)) new.
Proof. unfold log. destruct (has _ _); [apply emit_placed|exists []; now split]. Qed.

Lemma stays_step env s o : stays o ->
  (exists new, lg_out (step env s o) = new ++ lg_out s /\ Forall (placed (lg_output s)) new) /\
  lg_output (step env s o) = lg_output s /\ lg_path (step env s o) = lg_path s.
Proof.
  intros Ho. unfold step. destruct (lg_dead s); [repeat apply conj; [exists []; now split|reflexivity|reflexivity]|].
  assert (Same : forall s', lg_out s' = lg_out s -> lg_output s' = lg_output s -> lg_path s' = lg_path s ->
    (exists new, lg_out s' = new ++ lg_out s /\ Forall (placed (lg_output s)) new) /\
    lg_output s' = lg_output s /\ lg_path s' = lg_path s).
  { intros s' E1 E2 E3. repeat apply conj; auto. exists []. now split. }
  destruct o as [m|m|d l t x|l|n|l|n l|i|n|p r|r t| | |i f t|i|i l|i n|i l|i x|a b|a]; cbn [call fst stays] in *;
    try contradiction; try (apply Same; reflexivity).
  - pose proof (log_alike env s m) as (_ & _ & _ & _ & Ep & Eo & _). repeat apply conj; auto. apply log_placed.
  - pose proof (emit_alike env s m) as (_ & _ & _ & _ & Ep & Eo & _). repeat apply conj; auto. apply emit_placed.
  - unfold glib_log. destruct (fatal env l); [now apply Same|]. destruct (glib_level l); [|now apply Same].
    match goal with |- context [emit env s ?m] =>
      pose proof (emit_alike env s m) as (_ & _ & _ & _ & Ep & Eo & _); repeat apply conj; auto; apply emit_placed end.
  - destruct (level_given n (lg_target s)); cbn [fst]; now apply Same.
  - destruct (item_given n (lg_item s)); cbn [fst]; now apply Same.
  - unfold syslog_new.
    set (s0 := put_syslogs s _ _).
    set (s1 := match e_syslog_level env with Some _ => _ | None => _ end).
    assert (G : (exists new, lg_out s1 = new ++ lg_out s /\ Forall (placed (lg_output s)) new) /\
      lg_output s1 = lg_output s /\ lg_path s1 = lg_path s).
    { assert (T : forall v j, (exists new, lg_out (syslog_set_target s0 j v) = new ++ lg_out s /\ Forall (placed (lg_output s)) new) /\
        lg_output (syslog_set_target s0 j v) = lg_output s /\ lg_path (syslog_set_target s0 j v) = lg_path s).
      { intros v j. unfold syslog_set_target. destruct (nth _ _ _); now apply Same. }
      unfold s1. destruct (e_syslog_level env); [|apply T]. destruct (level_given _ _); [apply T|].
      match goal with |- context [log env s0 ?m] =>
        pose proof (log_alike env s0 m) as (_ & _ & _ & _ & Ep & Eo & _); destruct (log_placed env s0 m) as (new & E & F) end.
      repeat apply conj; auto. exists new. now split. }
    clearbody s1. destruct G as ((new & E & F) & Eo & Ep).
    destruct (lg_dead s1); [repeat apply conj; auto; exists new; now split|].
    cbn. repeat apply conj; auto. exists (SyslogOpened i (facility_of env (mk_syslogger i LEVEL_DEFAULT f)) :: new).
    cbn. rewrite E. split; [reflexivity|]. now constructor.
  - unfold syslog_dispose. destruct (nth _ _ _); [|now apply Same]. cbn. repeat apply conj; auto.
    exists [SyslogClosed]. split; [reflexivity|]. now repeat constructor.
  - unfold syslog_set_target. destruct (nth _ _ _); now apply Same.
  - destruct (nth _ _ _) as [y|]; [|now apply Same]. destruct (level_given _ _); cbn [fst]; [|now apply Same].
    unfold syslog_set_target. destruct (nth _ _ _); now apply Same.
  - unfold syslog_set_property. destruct (nth _ _ _); now apply Same.
  - unfold syslog_set_identity. destruct (nth _ _ _); now apply Same.
  - destruct (file_at _ a); [|now apply Same]. destruct (bytes_eqb a b); now apply Same.
Qed.
Lemma stays_run env ops : forall s, Forall stays ops ->
  (exists new, lg_out (run env s ops) = new ++ lg_out s /\ Forall (placed (lg_output s)) new) /\
  lg_output (run env s ops) = lg_output s /\ lg_path (run env s ops) = lg_path s.
Proof.
  induction ops as [|o ops IH]; intros s H; [repeat apply conj; [exists []; now split|reflexivity|reflexivity]|].
  apply Forall_cons_iff in H as [Ho H]. cbn [run fold_left].
  destruct (stays_step env s o Ho) as ((n1 & E1 & F1) & O1 & P1).
  destruct (IH (step env s o) H) as ((n2 & E2 & F2) & O2 & P2). unfold run in *.
  rewrite E1 in E2. rewrite O1 in F2, O2. rewrite P1 in P2. repeat apply conj; auto.
  exists (n2 ++ n1). rewrite E2, app_assoc. split; [reflexivity|]. apply Forall_app. now split.
Qed.

(** Files are numbered as they are made. *)
Definition made (s : logger) (d : dest) : Prop := match d with ToFile f => (f < lg_files s)%nat | ToStdout => True end.
Definition filed (s : logger) : Prop :=
  Forall (fun x => (snd x < lg_files s)%nat) (lg_directory s) /\
  Forall (fun o => match o with Written d _ => made s d | _ => True end) (lg_out s) /\
  made s (lg_output s).

Lemma file_at_in l p f : file_at l p = Some f -> In (p, f) l.
Proof.
  induction l as [|[q g] l IH]; [discriminate|]. cbn [file_at]. destruct (bytes_eqb q p) eqn:E.
  - apply bytes_eqb_eq in E. intros H. injection H as <-. subst. now left.
  - intros H. right. now apply IH.
Qed.
Lemma filed_more s s' : filed s -> lg_directory s' = lg_directory s -> lg_files s' = lg_files s ->
  lg_output s' = lg_output s -> (exists new, lg_out s' = new ++ lg_out s /\ Forall (placed (lg_output s)) new) -> filed s'.
Proof.
  intros (H1 & H2 & H3) Ed Ef Eo (new & En & Hn). unfold filed, made. rewrite Ed, Ef, Eo, En. repeat apply conj; auto.
  apply Forall_app. split; [|exact H2]. eapply Forall_impl; [|exact Hn]. intros [d t| | |] Hp; cbn in *; auto.
  subst d. exact H3.
Qed.
Lemma log_filed env s m : filed s -> filed (log env s m).
Proof.
  intros H. pose proof (log_alike env s m) as (_ & _ & _ & _ & _ & Eo & _ & _ & _ & Ed & Ef).
  eapply filed_more; eauto. apply log_placed.
Qed.
Lemma append_filed s p : filed s -> filed (append_to s p).
Proof.
  intros (H1 & H2 & H3). unfold append_to. destruct (file_at (lg_directory s) p) as [f|] eqn:E.
  - repeat apply conj; auto. cbn. apply file_at_in in E. rewrite Forall_forall in H1. now apply H1 in E.
  - repeat apply conj; cbn.
    + constructor; [cbn; lia|]. eapply Forall_impl; [|exact H1]. cbn. intros. lia.
    + eapply Forall_impl; [|exact H2]. intros [[f|] t| | |] Hm; cbn in *; auto.
    + lia.
Qed.
Lemma stdout_filed s p : filed s -> filed (put_path s p ToStdout).
Proof. intros (H1 & H2 & H3). now repeat apply conj. Qed.
Lemma reopen_filed env s r t : filed s -> filed (reopen env s r t).
Proof.
  intros H. unfold reopen. destruct (lg_path s) as [p|]; [|exact H].
  set (s1 := log env s _). assert (H1 : filed s1) by now apply log_filed. clearbody s1.
  destruct (lg_dead s1); [exact H1|].
  set (s2 := match r with Opened => _ | NotOpened _ => _ end).
  assert (H2 : filed s2).
  { unfold s2. destruct r; [now apply append_filed|]. apply stdout_filed, log_filed. now apply stdout_filed. }
  clearbody s2. destruct (lg_dead s2); [exact H2|]. now apply log_filed.
Qed.
Lemma directory_syslog_new env s i f t :
  lg_directory (syslog_new env s i f t) = lg_directory s /\ lg_files (syslog_new env s i f t) = lg_files s.
Proof.
  unfold syslog_new. set (s0 := put_syslogs s _ _).
  set (s1 := match e_syslog_level env with Some _ => _ | None => _ end).
  assert (G : lg_directory s1 = lg_directory s /\ lg_files s1 = lg_files s).
  { assert (T : forall v j, lg_directory (syslog_set_target s0 j v) = lg_directory s /\ lg_files (syslog_set_target s0 j v) = lg_files s).
    { intros v j. unfold syslog_set_target. now destruct (nth _ _ _). }
    unfold s1. destruct (e_syslog_level env); [|apply T]. destruct (level_given _ _); [apply T|].
    match goal with |- context [log env s0 ?m] => pose proof (log_alike env s0 m) as (_ & _ & _ & _ & _ & _ & _ & _ & _ & Ed & Ef) end.
    now split. }
  clearbody s1. destruct (lg_dead s1); exact G.
Qed.
Lemma unlinked_forall P l p : Forall P l -> Forall P (unlinked l p).
Proof. intros H. unfold unlinked. apply Forall_forall. intros x Hx. apply filter_In in Hx as [Hx _]. rewrite Forall_forall in H. auto. Qed.
Lemma step_filed env s o : filed s -> filed (step env s o).
Proof.
  intros H.
  assert (Hst : stays o -> lg_directory (step env s o) = lg_directory s -> lg_files (step env s o) = lg_files s -> filed (step env s o)).
  { intros Ho Ed Ef. destruct (stays_step env s o Ho) as (Hn & Eo & _). eapply filed_more; eauto. }
  destruct (lg_dead s) as [x|] eqn:Es; [rewrite step_dead by congruence; exact H|].
  assert (E : step env s o = fst (call env s o)) by (unfold step; now rewrite Es).
  destruct o as [m|m|d l t x|l|n|l|n l|i|n|p r|r t| | |i f t|i|i l|i n|i l|i x|a b|a];
    lazymatch goal with
    | |- filed (step _ _ (Renamed _ _)) => idtac
    | |- filed (step _ _ (Removed _)) => idtac
    | |- filed (step _ _ (SetPath _ _)) => idtac
    | |- filed (step _ _ (Reopen _ _)) => idtac
    | |- _ => apply Hst; [exact I| |]
    end; rewrite E; cbn [call fst]; try reflexivity.
  - apply (log_alike env s m).
  - apply (log_alike env s m).
  - apply (emit_alike env s m).
  - apply (emit_alike env s m).
  - unfold glib_log. destruct (fatal env l); [reflexivity|]. destruct (glib_level l); [|reflexivity]. apply emit_alike.
  - unfold glib_log. destruct (fatal env l); [reflexivity|]. destruct (glib_level l); [|reflexivity]. apply emit_alike.
  - now destruct (level_given n (lg_target s)).
  - now destruct (level_given n (lg_target s)).
  - now destruct (item_given n (lg_item s)).
  - now destruct (item_given n (lg_item s)).
  - unfold set_path. destruct p as [p|]; cbn [fst]; [|now apply stdout_filed].
    destruct (bytes_eqb p (lit "-")); [now apply stdout_filed|].
    destruct r; cbn [fst]; [apply append_filed|]; now apply stdout_filed.
  - now apply reopen_filed.
  - apply directory_syslog_new.
  - apply directory_syslog_new.
  - unfold syslog_dispose. now destruct (nth _ _ _).
  - unfold syslog_dispose. now destruct (nth _ _ _).
  - unfold syslog_set_target. now destruct (nth _ _ _).
  - unfold syslog_set_target. now destruct (nth _ _ _).
  - destruct (nth _ _ _) as [y|] eqn:Ey; [|reflexivity]. destruct (level_given _ _); [|reflexivity]. cbn [fst]. unfold syslog_set_target. now rewrite Ey.
  - destruct (nth _ _ _) as [y|] eqn:Ey; [|reflexivity]. destruct (level_given _ _); [|reflexivity]. cbn [fst]. unfold syslog_set_target. now rewrite Ey.
  - unfold syslog_set_property. now destruct (nth _ _ _).
  - unfold syslog_set_property. now destruct (nth _ _ _).
  - unfold syslog_set_identity. now destruct (nth _ _ _).
  - unfold syslog_set_identity. now destruct (nth _ _ _).
  - destruct (file_at (lg_directory s) a) as [f|] eqn:Ea; [|exact H]. destruct (bytes_eqb a b); [exact H|].
    destruct H as (H1 & H2 & H3). repeat apply conj; auto. cbn. constructor; [|now apply unlinked_forall, unlinked_forall].
    cbn. apply file_at_in in Ea. rewrite Forall_forall in H1. now apply H1 in Ea.
  - destruct H as (H1 & H2 & H3). repeat apply conj; auto. cbn. now apply unlinked_forall.
Qed.
Lemma run_filed env ops : forall s, filed s -> filed (run env s ops).
Proof. induction ops as [|o ops IH]; intros s H; [exact H|]. apply IH. now apply step_filed. Qed.
Lemma new_filed : filed logger_new.
Proof. repeat apply conj; cbn; auto. Qed.

Definition unwritten (f : nat) (os : list out) : Prop := forall t, ~ In (Written (ToFile f) t) os.

Lemma append_at s p : filed s -> exists f, lg_output (append_to s p) = ToFile f /\ lg_path (append_to s p) = Some p /\
  file_at (lg_directory (append_to s p)) p = Some f /\
  (forall h, file_at (lg_directory s) p = Some h -> f = h) /\
  (file_at (lg_directory s) p = None -> unwritten f (lg_out s)) /\
  lg_out (append_to s p) = lg_out s /\ lg_dead (append_to s p) = lg_dead s.
Proof.
  intros (H1 & H2 & H3). unfold append_to. destruct (file_at (lg_directory s) p) as [f|] eqn:E.
  - exists f. repeat apply conj; auto; [intros; congruence|discriminate].
  - exists (lg_files s). cbn. rewrite bytes_eqb_refl. repeat apply conj; auto; [discriminate|].
    intros _ t Hi. rewrite Forall_forall in H2. apply H2 in Hi. cbn in Hi. lia.
Qed.

Lemma reopen_at env s p t : filed s -> lg_path s = Some p -> lg_dead (reopen env s Opened t) = None ->
  exists g closing opening,
    lg_out (reopen env s Opened t) = opening ++ closing ++ lg_out s /\
    Forall (placed (lg_output s)) closing /\ Forall (placed (ToFile g)) opening /\
    lg_output (reopen env s Opened t) = ToFile g /\ lg_path (reopen env s Opened t) = Some p /\
    file_at (lg_directory (reopen env s Opened t)) p = Some g /\
    (forall h, file_at (lg_directory s) p = Some h -> g = h) /\
    (file_at (lg_directory s) p = None -> unwritten g (closing ++ lg_out s)).
Proof.
  intros H Hp Hd. unfold reopen in *. rewrite Hp in *.
  match goal with H : context [match lg_dead (log env s ?m) with _ => _ end] |- _ => set (s1 := log env s m) in * end.
  assert (F1 : filed s1) by now apply log_filed.
  destruct (log_placed env s (own LEVEL_INFO 663 (lit "milter_logger_reopen") t (lit "[logger][reopen][close]"))) as (closing & Ec & Hc).
  fold s1 in Ec.
  pose proof (log_alike env s (own LEVEL_INFO 663 (lit "milter_logger_reopen") t (lit "[logger][reopen][close]"))) as Ha.
  fold s1 in Ha. destruct Ha as (_ & _ & _ & _ & _ & _ & _ & _ & _ & Ed & _).
  clearbody s1. destruct (lg_dead s1) as [|] eqn:D1; [congruence|].
  destruct (append_at s1 p F1) as (g & Go & Gp & Gf & G1 & G2 & Gout & Gd). rewrite Gd, D1 in *.
  match goal with |- context [log env (append_to s1 p) ?m] =>
    destruct (log_placed env (append_to s1 p) m) as (opening & Eo & Ho);
    pose proof (log_alike env (append_to s1 p) m) as (_ & _ & _ & _ & Ap & Ao & _ & _ & _ & Ad & _) end.
  exists g, closing, opening. rewrite Eo, Gout, Ec, Ao, Go, Ap, Gp, Ad. rewrite Ed in G1, G2. rewrite Go in Ho. rewrite Ec in G2.
  repeat apply conj; auto.
Qed.

(** *** Items *)
Lemma reopen_item env s r t : lg_item (reopen env s r t) = lg_item s.
Proof.
  unfold reopen. destruct (lg_path s) as [p|]; [|reflexivity].
  set (s1 := log env s _). assert (H1 : lg_item s1 = lg_item s) by apply log_alike. clearbody s1.
  destruct (lg_dead s1); [exact H1|].
  set (s2 := match r with Opened => _ | NotOpened _ => _ end).
  assert (H2 : lg_item s2 = lg_item s).
  { unfold s2. destruct r.
    - unfold append_to. destruct (file_at _ _); exact H1.
    - cbn [lg_item put_path]. match goal with |- context [log env ?x ?m] => pose proof (log_alike env x m) as (_ & -> & _) end. exact H1. }
  clearbody s2. destruct (lg_dead s2); [exact H2|]. rewrite <- H2. apply log_alike.
Qed.
Lemma syslog_new_item env s i f t : lg_item (syslog_new env s i f t) = lg_item s.
Proof.
  unfold syslog_new. set (s0 := put_syslogs s _ _).
  set (s1 := match e_syslog_level env with Some _ => _ | None => _ end).
  assert (G : lg_item s1 = lg_item s).
  { assert (T : forall v j, lg_item (syslog_set_target s0 j v) = lg_item s).
    { intros v j. unfold syslog_set_target. now destruct (nth _ _ _). }
    unfold s1. destruct (e_syslog_level env); [|apply T]. destruct (level_given _ _); [apply T|].
    match goal with |- context [log env s0 ?m] => pose proof (log_alike env s0 m) as (_ & -> & _) end. reflexivity. }
  clearbody s1. destruct (lg_dead s1); exact G.
Qed.
Lemma step_item env s o : lg_dead s = None -> lg_item (step env s o) = item_step (lg_item s) o.
Proof.
  intros Hd. unfold step. rewrite Hd.
  destruct o as [m|m|d l t x|l|n|l|n l|i|n|p r|r t| | |i f t|i|i l|i n|i l|i x|a b|a]; cbn [call fst item_step]; try reflexivity.
  - apply log_alike.
  - apply emit_alike.
  - unfold glib_log. destruct (fatal env l); [reflexivity|]. destruct (glib_level l); [|reflexivity]. apply emit_alike.
  - now destruct (level_given n (lg_target s)).
  - now destruct (item_given n (lg_item s)).
  - unfold set_path. destruct p as [p|]; [|reflexivity]. destruct (bytes_eqb p (lit "-")); [reflexivity|].
    destruct r; [|reflexivity]. cbn. unfold append_to. now destruct (file_at _ _).
  - apply reopen_item.
  - apply syslog_new_item.
  - unfold syslog_dispose. now destruct (nth _ _ _).
  - unfold syslog_set_target. now destruct (nth _ _ _).
  - destruct (nth _ _ _) as [y|] eqn:Ey; [|reflexivity]. destruct (level_given _ _); [|reflexivity]. cbn [fst]. unfold syslog_set_target. now rewrite Ey.
  - unfold syslog_set_property. now destruct (nth _ _ _).
  - unfold syslog_set_identity. now destruct (nth _ _ _).
  - destruct (file_at (lg_directory s) a); [|reflexivity]. now destruct (bytes_eqb a b).
Qed.
Lemma run_item env ops : forall s, lg_dead (run env s ops) = None -> lg_item (run env s ops) = fold_left item_step ops (lg_item s).
Proof.
  induction ops as [|o ops IH]; intros s Hd; [reflexivity|]. unfold run in *. cbn [fold_left] in *.
  rewrite IH by exact Hd. f_equal. apply step_item. destruct (lg_dead s) eqn:E; [|reflexivity].
  rewrite step_dead in Hd by congruence. fold (run env s ops) in Hd. rewrite run_dead in Hd by congruence. congruence.
Qed.
