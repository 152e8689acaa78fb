From Verif.Base Require Import Bytes BytesFacts.
From Verif.Model Require Import Status Encoder Egg Configuration FileMode Options.
From Verif.Spec Require Import OptionsSpec.
Local Open Scope Z_scope.

(** ** Numbers *)

Lemma digit_value_table c d : digit_value c = Some d -> d < 16 ->
  0 <= d /\ nth_error (lit "0123456789abcdef") (Z.to_nat d) = Some (lower c).
Proof.
  destruct c as [a0 a1 a2 a3 a4 a5 a6 a7].
  destruct a0, a1, a2, a3, a4, a5, a6, a7; intros H; vm_compute in H; try discriminate H; injection H as <-;
    intros L; try (exfalso; lia); (split; [lia | reflexivity]).
Qed.

Lemma table_digit_value c d : 0 <= d < 16 ->
  nth_error (lit "0123456789abcdef") (Z.to_nat d) = Some (lower c) -> digit_value c = Some d.
Proof.
  intros R H.
  assert (K : d = 0 \/ d = 1 \/ d = 2 \/ d = 3 \/ d = 4 \/ d = 5 \/ d = 6 \/ d = 7 \/ d = 8 \/ d = 9 \/ d = 10 \/
              d = 11 \/ d = 12 \/ d = 13 \/ d = 14 \/ d = 15) by lia.
  destruct c as [a0 a1 a2 a3 a4 a5 a6 a7].
  repeat (destruct K as [->|K]; [destruct a0, a1, a2, a3, a4, a5, a6, a7; vm_compute in H; first [discriminate H | reflexivity]|]).
  subst d. destruct a0, a1, a2, a3, a4, a5, a6, a7; vm_compute in H; first [discriminate H | reflexivity].
Qed.

Lemma digit_in_of base c d : base <= 16 -> digit_in base c = Some d <-> digit_of base c d.
Proof.
  intros B. unfold digit_in, digit_of. split.
  - destruct (digit_value c) as [x|] eqn:E; [|discriminate]. destruct (Z.ltb_spec x base); [|discriminate].
    intros H1. injection H1 as <-. destruct (digit_value_table _ _ E ltac:(lia)) as [P Q]. split; [lia|exact Q].
  - intros [R H]. rewrite (table_digit_value c d ltac:(lia) H). destruct (Z.ltb_spec d base); [reflexivity|lia].
Qed.

Lemma read_digits_of base : base <= 16 -> forall s v, numeral base s v -> forall rest acc,
  read_digits base acc (s ++ rest) = read_digits base (acc * base ^ zlen s + v) rest.
Proof.
  intros B s v H. induction H as [c d D | s v c d N IH D]; intros rest acc.
  - cbn [app read_digits]. apply digit_in_of in D; [|exact B]. rewrite D. f_equal. unfold zlen. cbn [length]. change (Z.of_nat 1) with 1. rewrite Z.pow_1_r. reflexivity.
  - rewrite <- app_assoc. cbn [app]. rewrite IH. cbn [read_digits]. apply digit_in_of in D; [|exact B]. rewrite D. f_equal.
    unfold zlen. rewrite app_length. cbn [length]. rewrite Nat2Z.inj_add, Z.pow_add_r by lia. change (Z.of_nat 1) with 1. rewrite Z.pow_1_r. lia.
Qed.

Lemma numeral_nonempty base s v : numeral base s v -> s <> [].
Proof. intros []; [discriminate|]. intros E. apply app_eq_nil in E. destruct E; discriminate. Qed.

Lemma numeral_read base s v : base <= 16 -> numeral base s v -> read_digits base 0 s = (v, []).
Proof.
  intros B H. rewrite <- (app_nil_r s). rewrite (read_digits_of base B s v H). cbn [read_digits].
  rewrite Z.mul_0_l. reflexivity.
Qed.

Lemma read_numeral_acc base : base <= 16 -> forall s s0 v0 v, (s0 = [] /\ v0 = 0 \/ numeral base s0 v0) -> s0 ++ s <> [] ->
  read_digits base v0 s = (v, []) -> numeral base (s0 ++ s) v.
Proof.
  intros B. induction s as [|c s IH]; intros s0 v0 v H0 N R.
  - cbn [read_digits] in R. injection R as <-. rewrite app_nil_r in *. destruct H0 as [[-> _]|H0]; [congruence|exact H0].
  - cbn [read_digits] in R. destruct (digit_in base c) as [d|] eqn:D; [|discriminate].
    apply digit_in_of in D; [|exact B].
    replace (s0 ++ c :: s) with ((s0 ++ [c]) ++ s) by (rewrite <- app_assoc; reflexivity).
    apply (IH (s0 ++ [c]) (v0 * base + d) v).
    + right. destruct H0 as [[-> ->]|H0].
      * cbn [app]. rewrite Z.mul_0_l, Z.add_0_l. apply N_one, D.
      * rewrite Z.mul_comm. apply N_more; assumption.
    + rewrite <- app_assoc. cbn [app]. intros E. apply app_eq_nil in E. destruct E. discriminate.
    + exact R.
Qed.

Lemma read_numeral base s v : base <= 16 -> s <> [] -> read_digits base 0 s = (v, []) -> numeral base s v.
Proof. intros B N R. apply (read_numeral_acc base B s [] 0 v); auto. Qed.

Lemma numeral_nonneg base s v : numeral base s v -> 0 <= v.
Proof. intros H. induction H as [c d [D _] | s v c d N IH [D _]]; nia. Qed.

Lemma is_space_white c : is_space c = true <-> In c white.
Proof.
  split.
  - destruct c as [a0 a1 a2 a3 a4 a5 a6 a7]. destruct a0, a1, a2, a3, a4, a5, a6, a7; intros H; vm_compute in H; try discriminate H; vm_compute; tauto.
  - intros H. cbn in H. intuition (subst c; reflexivity).
Qed.

Lemma skip_spaces_app sp s : incl sp white -> skip_spaces (sp ++ s) = skip_spaces s.
Proof.
  induction sp as [|c sp IH]; intros H; [reflexivity|]. cbn [app skip_spaces].
  rewrite (proj2 (is_space_white c)) by (apply H; left; reflexivity). apply IH. intros x X. apply H. right. exact X.
Qed.

Lemma skip_spaces_split s : exists sp, s = sp ++ skip_spaces s /\ incl sp white.
Proof.
  induction s as [|c s (sp & E & I)]; [exists []; split; [reflexivity | intros x []]|]. cbn [skip_spaces].
  destruct (is_space c) eqn:S.
  - exists (c :: sp). split; [cbn [app]; f_equal; exact E|]. intros x [<-|X]; [apply is_space_white, S|auto].
  - exists []. split; [reflexivity|intros x []].
Qed.

Definition clamp (n : Z) : Z := if n <? LONG_MIN then LONG_MIN else if LONG_MAX <? n then LONG_MAX else n.
Definition out_of_range (n : Z) : bool := (n <? LONG_MIN) || (LONG_MAX <? n).

(** The magnitude part of [strtol]. *)
Definition scan (s2 : bytes) : option (Z * bytes) :=
    match s2 with
    | a :: x :: d :: t =>
        if beqb a "0" && (beqb x "x" || beqb x "X") then
          match digit_in 16 d with
          | Some _ => Some (read_digits 16 0 (d :: t))
          | None => Some (0, x :: d :: t)
          end
        else if beqb a "0" then Some (read_digits 8 0 s2)
        else match digit_in 10 a with Some _ => Some (read_digits 10 0 s2) | None => None end
    | a :: _ =>
        if beqb a "0" then Some (read_digits 8 0 s2)
        else match digit_in 10 a with Some _ => Some (read_digits 10 0 s2) | None => None end
    | [] => None
    end.

Lemma numeral_head base c s v : base <= 16 -> numeral base (c :: s) v -> exists d, digit_in base c = Some d.
Proof.
  intros B H. apply numeral_read in H; [|exact B]. cbn [read_digits] in H. destruct (digit_in base c) as [d|]; [eauto|discriminate].
Qed.

Lemma scan_magnitude s v : magnitude s v -> scan s = Some (v, []).
Proof.
  intros [c s' v' C N | s' v' N | x s' v' X N].
  - destruct (numeral_head 10 c s' v' ltac:(lia) N) as [d D]. pose proof (numeral_read 10 _ _ ltac:(lia) N) as R.
    apply beqb_neq in C. destruct s' as [|x [|e t]]; cbn [scan]; rewrite C; cbn [andb]; rewrite D, R; reflexivity.
  - pose proof (numeral_read 8 _ _ ltac:(lia) N) as R. pose proof N as N'.
    destruct s' as [|x [|e t]]; cbn [scan]; rewrite beqb_refl; cbn [andb]; rewrite R; try reflexivity.
    assert (K : beqb x "x" || beqb x "X" = false).
    { apply orb_false_iff. cbn [read_digits] in R. change (digit_in 8 "0") with (Some 0) in R. cbn iota in R.
      split; apply beqb_neq; intros ->; cbn [read_digits] in R;
        [change (digit_in 8 "x") with (@None Z) in R | change (digit_in 8 "X") with (@None Z) in R]; discriminate. }
    rewrite K. reflexivity.
  - pose proof (numeral_read 16 _ _ ltac:(lia) N) as R. destruct s' as [|e t]; [apply numeral_nonempty in N; congruence|].
    destruct (numeral_head 16 e t v' ltac:(lia) N) as [d D]. cbn [scan]. rewrite beqb_refl.
    assert (K : beqb x "x" || beqb x "X" = true).
    { cbn in X. destruct X as [<-|[<-|[]]]; reflexivity. }
    rewrite K. cbn [andb]. rewrite D, R. reflexivity.
Qed.

Lemma magnitude_scan s v : scan s = Some (v, []) -> magnitude s v.
Proof.
  intros H.
  assert (G : forall a t, s = a :: t ->
    (if beqb a "0" then Some (read_digits 8 0 s) else match digit_in 10 a with Some _ => Some (read_digits 10 0 s) | None => None end) = Some (v, []) ->
    magnitude s v).
  { intros a t E. subst s. destruct (beqb a "0") eqn:A.
    - apply beqb_eq in A. subst a. intros K. injection K as K. apply M_octal. apply read_numeral; [lia|discriminate|exact K].
    - destruct (digit_in 10 a); [|discriminate]. intros K. injection K as K. apply M_decimal.
      + apply beqb_neq, A.
      + apply read_numeral; [lia|discriminate|exact K]. }
  destruct s as [|a [|x [|d t]]]; [discriminate | | |].
  - apply (G a []); [reflexivity|exact H].
  - apply (G a [x]); [reflexivity|exact H].
  - cbn [scan] in H. destruct (beqb a "0" && (beqb x "x" || beqb x "X")) eqn:A.
    + apply andb_true_iff in A. destruct A as [A X]. apply beqb_eq in A. subst a.
      destruct (digit_in 16 d); [|discriminate]. injection H as H. apply M_hexadecimal.
      * apply orb_true_iff in X. destruct X as [X|X]; apply beqb_eq in X; subst x; cbn; tauto.
      * apply read_numeral; [lia|discriminate|exact H].
    + apply (G a (x :: d :: t)); [reflexivity|exact H].
Qed.

Lemma strtol_scan s : strtol s =
  let s1 := skip_spaces s in
  let '(negative, s2) :=
    match s1 with
    | c :: s' => if beqb c "-" then (true, s') else if beqb c "+" then (false, s') else (false, s1)
    | [] => (false, s1)
    end in
  match scan s2 with
  | None => (0, s, false)
  | Some (v, rest) => let v := if negative then - v else v in (clamp v, rest, out_of_range v)
  end.
Proof.
  unfold strtol. cbv zeta. fold (scan).
  destruct (match skip_spaces s with
    | c :: s' => if beqb c "-" then (true, s') else if beqb c "+" then (false, s') else (false, skip_spaces s)
    | [] => (false, skip_spaces s) end) as [neg s2].
  change (match scan s2 with
    | None => (0, s, false)
    | Some (v, rest) => if (if neg then - v else v) <? LONG_MIN then (LONG_MIN, rest, true)
        else if LONG_MAX <? (if neg then - v else v) then (LONG_MAX, rest, true) else ((if neg then - v else v), rest, false)
    end = match scan s2 with
    | None => (0, s, false)
    | Some (v, rest) => (clamp (if neg then - v else v), rest, out_of_range (if neg then - v else v))
    end).
  destruct (scan s2) as [[v rest]|]; [|reflexivity]. unfold clamp, out_of_range.
  destruct ((if neg then - v else v) <? LONG_MIN); [reflexivity|]. destruct (LONG_MAX <? (if neg then - v else v)); reflexivity.
Qed.

Lemma magnitude_head s v : magnitude s v -> exists c t, s = c :: t /\ is_space c = false /\ beqb c "-" = false /\ beqb c "+" = false.
Proof.
  assert (G : forall base c t v, base <= 16 -> numeral base (c :: t) v -> is_space c = false /\ beqb c "-" = false /\ beqb c "+" = false).
  { intros base c t w B N. destruct (numeral_head base c t w B N) as [d D]. unfold digit_in in D.
    destruct (digit_value c) as [x|] eqn:E; [|discriminate]. clear -E.
    destruct c as [a0 a1 a2 a3 a4 a5 a6 a7]. destruct a0, a1, a2, a3, a4, a5, a6, a7; vm_compute in E; try discriminate E; repeat split. }
  intros [c t w C N | t w N | x t w X N].
  - exists c, t. split; [reflexivity|]. exact (G 10 _ _ _ ltac:(lia) N).
  - eexists _, _. split; [reflexivity|]. repeat split.
  - eexists _, _. split; [reflexivity|]. repeat split.
Qed.

Lemma strtol_integer s n : integer_text s n -> strtol s = (clamp n, [], out_of_range n).
Proof.
  intros [sp sign t v W S M | sp t v W M]; rewrite strtol_scan; rewrite (skip_spaces_app sp _ W); cbv zeta;
    destruct (magnitude_head t v M) as (c & u & E & P1 & P2 & P3); pose proof (scan_magnitude t v M) as Q.
  - destruct S as [->| ->]; cbn [app lit list_ascii_of_string].
    + rewrite E. cbn [skip_spaces]. rewrite P1. cbn iota beta. rewrite P2, P3. rewrite <- E, Q. reflexivity.
    + change (skip_spaces ("+"%char :: t)) with ("+"%char :: t). cbn iota beta.
      change (beqb "+" "-") with false. rewrite beqb_refl. cbn iota. rewrite Q. reflexivity.
  - cbn [app lit list_ascii_of_string]. change (skip_spaces ("-"%char :: t)) with ("-"%char :: t). cbn iota beta.
    rewrite beqb_refl. rewrite Q. reflexivity.
Qed.

Lemma integer_strtol s v e : strtol s = (v, [], e) -> s = [] \/ exists n, integer_text s n.
Proof.
  rewrite strtol_scan. cbv zeta. destruct (skip_spaces_split s) as (sp & E & W). intros H.
  destruct (skip_spaces s) as [|c t] eqn:K.
  - cbn [scan] in H. left. congruence.
  - destruct (beqb c "-") eqn:C1; [|destruct (beqb c "+") eqn:C2].
    + apply beqb_eq in C1. subst c. destruct (scan t) as [[w rest]|] eqn:Q; [|left; congruence].
      right. injection H as _ -> _. exists (- w). rewrite E. apply (I_negative sp t w W (magnitude_scan t w Q)).
    + apply beqb_eq in C2. subst c. destruct (scan t) as [[w rest]|] eqn:Q; [|left; congruence].
      right. injection H as _ -> _. exists w. rewrite E. apply (I_positive sp (lit "+") t w W); [right; reflexivity | exact (magnitude_scan t w Q)].
    + destruct (scan (c :: t)) as [[w rest]|] eqn:Q; [|left; congruence].
      right. injection H as _ -> _. exists w. rewrite E. apply (I_positive sp [] (c :: t) w W); [left; reflexivity | exact (magnitude_scan _ w Q)].
Qed.

Lemma strtol_empty : strtol [] = (0, [], false).
Proof. reflexivity. Qed.

(** ** Settings *)
Section Settings.
  Variable valid_spec : bytes -> bool.
  Variable user_of : N -> option bytes.
  Variable group_of : N -> option bytes.
  Notation set := (manager_set valid_spec).
  Notation options := (manager_options valid_spec user_of group_of).

  Definition later {A} (pick : ask -> option A) (before : option A) (a : ask) : option A :=
    match pick a with Some v => Some v | None => before end.

  Lemma options_fold {A : Type} (proj : manager -> option A) (pick : ask -> option A) :
    (forall a m m', set a m = (m', true) -> proj m' = later pick (proj m) a) ->
    forall us m m', options us m = Some m' -> forall l, map (asked user_of group_of) us = map Some l ->
    proj m' = fold_left (later pick) l (proj m).
  Proof.
    intros H. induction us as [|u us IH]; intros m m' E l L; cbn [manager_options] in E.
    - injection E as <-. destruct l; [reflexivity|discriminate].
    - destruct l as [|a l]; [discriminate|]. cbn [map] in L. injection L as La Ll. rewrite La in E.
      destruct (set a m) as [m1 ok] eqn:S. destruct ok; [|discriminate].
      rewrite (IH _ _ E _ Ll), (H _ _ _ S). reflexivity.
  Qed.

  Definition o_spec m := p_spec (m_parent m).
  Definition o_pid_file m := p_pid_file (m_parent m).
  Definition o_user m := p_user (m_parent m).
  Definition o_group m := p_group (m_parent m).
  Definition o_socket_group m := p_socket_group (m_parent m).
  Definition o_mode m := Some (p_mode (m_parent m)).
  Definition o_n_workers m := if m_custom_n_workers m then Some (p_n_workers (m_parent m)) else None.
  Definition o_backend m := p_backend (m_parent m).
  Definition o_daemon m := if m_custom_daemon m then Some (p_daemon (m_parent m)) else None.
  Definition o_max_pending m := if m_custom_max_pending m then Some (p_max_pending (m_parent m)) else None.

  Ltac facility v m :=
    unfold set_syslog_facility; destruct (same_facility (p_facility (m_parent m)) (Some v)); [reflexivity|];
    cbn; destruct (p_logger (m_parent m)); reflexivity.

  Ltac by_ask :=
    intros a m m' S; destruct a as [v| |v|d|v|v|v|k|n|k|n|v|n]; unfold manager_set in S;
    cbn [client_set] in S; unfold client_set_spec in S;
    repeat match type of S with context [if ?x then _ else _] => destruct x; [|try discriminate S] end;
    try discriminate S; injection S as <-;
    first [reflexivity | match goal with |- context [set_syslog_facility (Some ?v) (m_parent ?m)] => facility v m end | idtac].

  Lemma set_spec_p a m m' : set a m = (m', true) -> o_spec m' = later pick_spec (o_spec m) a.
  Proof. revert a m m'. unfold o_spec. by_ask. Qed.
  Lemma set_pid_file_p a m m' : set a m = (m', true) -> o_pid_file m' = later pick_pid_file (o_pid_file m) a.
  Proof. revert a m m'. unfold o_pid_file. by_ask. Qed.
  Lemma set_user_p a m m' : set a m = (m', true) -> o_user m' = later pick_user (o_user m) a.
  Proof. revert a m m'. unfold o_user. by_ask. Qed.
  Lemma set_group_p a m m' : set a m = (m', true) -> o_group m' = later pick_group (o_group m) a.
  Proof. revert a m m'. unfold o_group. by_ask. Qed.
  Lemma set_socket_group_p a m m' : set a m = (m', true) -> o_socket_group m' = later pick_socket_group (o_socket_group m) a.
  Proof. revert a m m'. unfold o_socket_group. by_ask. Qed.
  Lemma set_n_workers_p a m m' : set a m = (m', true) -> o_n_workers m' = later pick_n_workers (o_n_workers m) a.
  Proof. revert a m m'. unfold o_n_workers. by_ask. Qed.
  Lemma set_backend_p a m m' : set a m = (m', true) -> o_backend m' = later pick_backend (o_backend m) a.
  Proof. revert a m m'. unfold o_backend. by_ask. Qed.
  Lemma set_daemon_p a m m' : set a m = (m', true) -> o_daemon m' = later pick_daemon (o_daemon m) a.
  Proof. revert a m m'. unfold o_daemon. by_ask. Qed.
  Lemma set_max_pending_p a m m' : set a m = (m', true) -> o_max_pending m' = later pick_max_pending (o_max_pending m) a.
  Proof. revert a m m'. unfold o_max_pending. by_ask. Qed.
  Lemma set_mode_p a m m' : set a m = (m', true) -> o_mode m' = later pick_mode (o_mode m) a.
  Proof. revert a m m'. unfold o_mode. by_ask. Qed.

  Lemma later_given {A} (pick : ask -> option A) l x :
    fold_left (later pick) l (Some x) = Some (given (last_asked pick l) x).
  Proof.
    unfold last_asked. change (fun before a => match pick a with Some v => Some v | None => before end) with (later pick).
    assert (G : forall l o, fold_left (later pick) l (Some (given o x)) = Some (given (fold_left (later pick) l o) x)).
    { clear l. induction l as [|a l IH]; intros o; [reflexivity|]. cbn [fold_left].
      destruct (pick a) as [v|] eqn:P; unfold later at 2 4; rewrite P; [|apply IH]. exact (IH (Some v)). }
    exact (G l None).
  Qed.

  (** The configuration names what the command line does. *)
  Definition agrees (m : manager) : Prop :=
    let p := m_parent m in let s := m_settings m in
    (forall v, p_spec p = Some v -> s_manager_connection_spec s = Some v) /\
    (forall v, p_pid_file p = Some v -> s_pid_file s = Some v) /\
    (forall v, p_user p = Some v -> s_effective_user s = Some v) /\
    (forall v, p_group p = Some v -> s_effective_group s = Some v) /\
    (forall v, p_socket_group p = Some v -> s_manager_unix_socket_group s = Some v) /\
    (p_mode p <> 0%N -> s_manager_unix_socket_mode s = p_mode p).

  Lemma set_agrees a m m' : agrees m -> set a m = (m', true) -> agrees m'.
  Proof.
    intros (A1 & A2 & A3 & A4 & A5 & A6) S. unfold agrees.
    destruct a as [v| |v|d|v|v|v|k|n|k|n|v|n]; unfold manager_set in S;
      cbn [client_set] in S; unfold client_set_spec in S;
      try (match type of S with context [if ?x then _ else _] => destruct x end; [|discriminate S]);
      injection S as <-.
    3: {
      unfold set_syslog_facility. destruct (same_facility (p_facility (m_parent m)) (Some v)); [repeat split; assumption|].
      cbn [p_logger p_with_syslog]. destruct (p_logger (m_parent m)); repeat split; assumption. }
    all: cbv zeta; repeat split; cbn in *; try assumption; congruence.
  Qed.

  Lemma options_agrees us : forall m m', agrees m -> options us m = Some m' -> agrees m'.
  Proof.
    induction us as [|u us IH]; intros m m' A E; cbn [manager_options] in E; [injection E as <-; exact A|].
    destruct (asked user_of group_of u) as [a|]; [|discriminate].
    destruct (set a m) as [m1 ok] eqn:S. destruct ok; [|discriminate]. exact (IH _ _ (set_agrees _ _ _ A S) E).
  Qed.

  Lemma new_agrees b paths f : agrees (manager_new b paths f).
  Proof. repeat split; cbn; congruence. Qed.

  Lemma asked_all us : forall m m', options us m = Some m' -> exists l, map (asked user_of group_of) us = map Some l.
  Proof.
    induction us as [|u us IH]; intros m m' E; cbn [manager_options] in E; [exists []; reflexivity|].
    destruct (asked user_of group_of u) as [a|] eqn:A; [|discriminate].
    destruct (set a m) as [m1 ok] eqn:S. destruct ok; [|discriminate]. destruct (IH _ _ E) as [l L].
    exists (a :: l). cbn [map]. rewrite A, L. reflexivity.
  Qed.

  (** What the command line asked for is remembered, and nothing else. *)
  Definition remembers (l : list ask) (m : manager) : Prop :=
    o_pid_file m = last_asked pick_pid_file l /\ o_user m = last_asked pick_user l /\
    o_group m = last_asked pick_group l /\ o_socket_group m = last_asked pick_socket_group l /\
    p_mode (m_parent m) = given (last_asked pick_mode l) 0%N /\
    o_n_workers m = last_asked pick_n_workers l /\ o_backend m = last_asked pick_backend l /\
    o_daemon m = last_asked pick_daemon l /\ o_max_pending m = last_asked pick_max_pending l /\
    p_packet_buffer (m_parent m) = 0%N.

  Lemma set_buffer_p a m m' : set a m = (m', true) -> p_packet_buffer (m_parent m') = p_packet_buffer (m_parent m).
  Proof. revert a m m'. by_ask. Qed.

  Lemma options_buffer us : forall m m', options us m = Some m' -> p_packet_buffer (m_parent m') = p_packet_buffer (m_parent m).
  Proof.
    induction us as [|u us IH]; intros m m' E; cbn [manager_options] in E; [injection E as <-; reflexivity|].
    destruct (asked user_of group_of u) as [a|]; [|discriminate].
    destruct (set a m) as [m1 ok] eqn:S. destruct ok; [|discriminate]. rewrite (IH _ _ E). exact (set_buffer_p _ _ _ S).
  Qed.

  Lemma options_remember b paths f us m l : options us (manager_new b paths f) = Some m ->
    map (asked user_of group_of) us = map Some l ->
    remembers l m /\ o_spec m = last_asked pick_spec l.
  Proof.
    intros E L. split; [|exact (options_fold o_spec pick_spec set_spec_p _ _ _ E _ L)].
    unfold remembers.
    split; [exact (options_fold o_pid_file pick_pid_file set_pid_file_p _ _ _ E _ L)|].
    split; [exact (options_fold o_user pick_user set_user_p _ _ _ E _ L)|].
    split; [exact (options_fold o_group pick_group set_group_p _ _ _ E _ L)|].
    split; [exact (options_fold o_socket_group pick_socket_group set_socket_group_p _ _ _ E _ L)|].
    split.
    { pose proof (options_fold o_mode pick_mode set_mode_p _ _ _ E _ L) as H. unfold o_mode in H.
      cbn [manager_new m_parent start_syslog p_with_syslog p_mode] in H.
      change (p_mode (set_syslog_facility (Some (lit "mail")) parent_new)) with 0%N in H.
      rewrite later_given in H. injection H as H. exact H. }
    split; [exact (options_fold o_n_workers pick_n_workers set_n_workers_p _ _ _ E _ L)|].
    split; [exact (options_fold o_backend pick_backend set_backend_p _ _ _ E _ L)|].
    split; [exact (options_fold o_daemon pick_daemon set_daemon_p _ _ _ E _ L)|].
    split; [exact (options_fold o_max_pending pick_max_pending set_max_pending_p _ _ _ E _ L)|].
    rewrite (options_buffer _ _ _ E). reflexivity.
  Qed.

  (** *** Loading again *)
  Lemma syslog_fields m : let p := m_parent m in let p' := m_parent (apply_syslog m) in
    p_spec p' = p_spec p /\ p_pid_file p' = p_pid_file p /\ p_user p' = p_user p /\ p_group p' = p_group p /\
    p_mode p' = p_mode p /\ p_socket_group p' = p_socket_group p /\ p_n_workers p' = p_n_workers p /\
    p_backend p' = p_backend p /\ p_daemon p' = p_daemon p /\ p_max_pending p' = p_max_pending p /\
    p_packet_buffer p' = p_packet_buffer p.
  Proof.
    cbv zeta. unfold apply_syslog, set_syslog_facility. cbn [m_parent m_with_parent].
    destruct (s_use_syslog (m_settings m)); [|repeat split; reflexivity].
    destruct (p_logger (m_parent m)); [|repeat split; reflexivity].
    destruct (same_facility (p_facility (m_parent m)) (s_syslog_facility (m_settings m))); [repeat split; reflexivity|].
    cbn [p_logger p_with_syslog]. destruct (p_logger (m_parent m)); repeat split; reflexivity.
  Qed.

  Ltac options_cases p m :=
    destruct (p_spec p), (p_pid_file p), (p_user p), (p_group p), (p_mode p =? 0)%N, (p_socket_group p),
      (m_custom_n_workers m), (p_backend p), (m_custom_max_pending m).

  (** The settings after [apply_custom]. *)
  Lemma custom_settings m : let p := m_parent m in let s := m_settings m in let s' := m_settings (apply_custom m) in
    s_manager_connection_spec s' = or_else (p_spec p) (s_manager_connection_spec s) /\
    s_pid_file s' = or_else (p_pid_file p) (s_pid_file s) /\
    s_effective_user s' = or_else (p_user p) (s_effective_user s) /\
    s_effective_group s' = or_else (p_group p) (s_effective_group s) /\
    s_manager_unix_socket_group s' = or_else (p_socket_group p) (s_manager_unix_socket_group s) /\
    s_manager_unix_socket_mode s' = (if (p_mode p =? 0)%N then s_manager_unix_socket_mode s else p_mode p) /\
    s_n_workers s' = given (o_n_workers m) (s_n_workers s) /\
    s_event_loop_backend s' = given (p_backend p) (s_event_loop_backend s) /\
    s_max_pending_finished_sessions s' = given (o_max_pending m) (s_max_pending_finished_sessions s) /\
    s_daemon s' = s_daemon s /\ s_default_packet_buffer_size s' = s_default_packet_buffer_size s.
  Proof.
    cbv zeta. unfold apply_custom, o_n_workers, o_max_pending. cbv zeta.
    destruct m as [p c w d x]. cbn [m_parent m_custom_n_workers m_custom_max_pending m_settings m_conf].
    unfold m_settings. cbn [m_conf m_with_settings with_settings c_settings]. generalize (c_settings c) as s. intros s.
    destruct p as [a1 a2 a3 a4 a5 a6 a7 a8 a9 a10 a11 a12 a13].
    cbn [p_spec p_pid_file p_user p_group p_mode p_socket_group p_n_workers p_backend p_max_pending].
    destruct a1, a2, a3, a4, (a5 =? 0)%N, a6, w, a8, x; repeat split; reflexivity.
  Qed.

  Lemma or_else_twice a b : or_else (or_else a b) a = or_else a b.
  Proof. destruct a, b; reflexivity. Qed.

  Definition loaded (b : build) (e : load_event) (s : settings) : settings :=
    c_settings (fst (reload b (l_evaluate e) (l_evaluate_custom e) (mk_configuration (l_paths e) (l_files e) s))).

  Lemma reload_facts b e m : let m' := fst (manager_reload b e m) in let p := m_parent m in
    let s := loaded b e (m_settings m) in
    (o_spec m' = o_spec m /\ o_pid_file m' = o_pid_file m /\ o_user m' = o_user m /\ o_group m' = o_group m /\
     o_socket_group m' = o_socket_group m /\ p_mode (m_parent m') = p_mode p /\ o_n_workers m' = o_n_workers m /\
     o_backend m' = o_backend m /\ o_daemon m' = o_daemon m /\ o_max_pending m' = o_max_pending m /\
     p_packet_buffer (m_parent m') = p_packet_buffer p) /\
    (get_spec m' = or_else (o_spec m) (s_manager_connection_spec s) /\
     get_pid_file m' = or_else (o_pid_file m) (s_pid_file s) /\
     get_user m' = or_else (o_user m) (s_effective_user s) /\
     get_group m' = or_else (o_group m) (s_effective_group s) /\
     get_socket_group m' = or_else (o_socket_group m) (s_manager_unix_socket_group s) /\
     get_mode m' = (if (p_mode p =? 0)%N
                    then if (s_manager_unix_socket_mode s =? 0)%N then 432%N else s_manager_unix_socket_mode s
                    else p_mode p) /\
     get_n_workers m' = given (o_n_workers m) (s_n_workers s) /\
     get_backend m' = given (o_backend m) (s_event_loop_backend s) /\
     get_daemon m' = given (o_daemon m) (s_daemon s) /\
     get_max_pending m' = given (o_max_pending m) (s_max_pending_finished_sessions s) /\
     get_packet_buffer m' = s_default_packet_buffer_size s) /\
    agrees m'.
  Proof.
    cbv zeta. unfold manager_reload, loaded.
    destruct (reload b (l_evaluate e) (l_evaluate_custom e) (mk_configuration (l_paths e) (l_files e) (m_settings m))) as [c ok].
    cbn [fst].
    set (m1 := mk_manager (m_parent m) c (m_custom_n_workers m) (m_custom_daemon m) (m_custom_max_pending m)).
    destruct (syslog_fields m1) as (Y1 & Y2 & Y3 & Y4 & Y5 & Y6 & Y7 & Y8 & Y9 & Y10 & Y11).
    assert (Z : m_conf (apply_syslog m1) = c) by reflexivity.
    set (m2 := apply_syslog m1) in *.
    assert (F1 : m_custom_n_workers m2 = m_custom_n_workers m) by reflexivity.
    assert (F2 : m_custom_daemon m2 = m_custom_daemon m) by reflexivity.
    assert (F3 : m_custom_max_pending m2 = m_custom_max_pending m) by reflexivity.
    clearbody m2. cbn [m1 m_parent] in Y1, Y2, Y3, Y4, Y5, Y6, Y7, Y8, Y9, Y10, Y11. clear m1.
    destruct (custom_settings m2) as (C1 & C2 & C3 & C4 & C5 & C6 & C7 & C8 & C9 & C10 & C11).
    assert (P : m_parent (apply_custom m2) = m_parent m2) by reflexivity.
    assert (G1 : m_custom_n_workers (apply_custom m2) = m_custom_n_workers m2) by reflexivity.
    assert (G2 : m_custom_daemon (apply_custom m2) = m_custom_daemon m2) by reflexivity.
    assert (G3 : m_custom_max_pending (apply_custom m2) = m_custom_max_pending m2) by reflexivity.
    set (m3 := apply_custom m2) in *. clearbody m3.
    assert (S : m_settings m2 = c_settings c) by (unfold m_settings; rewrite Z; reflexivity).
    rewrite S in *. clear S Z.
    unfold o_spec, o_pid_file, o_user, o_group, o_socket_group, o_n_workers, o_backend, o_daemon, o_max_pending in *.
    rewrite F1 in C7, G1. rewrite F3 in C9, G3. rewrite F2 in G2. rewrite Y7 in C7. rewrite Y10 in C9. rewrite ?Y1, ?Y2, ?Y3, ?Y4, ?Y5, ?Y6, ?Y8 in C1, C2, C3, C4, C5, C6, C8.
    split; [rewrite P, G1, G2, G3, Y1, Y2, Y3, Y4, Y5, Y6, Y7, Y8, Y9, Y10, Y11; repeat split; reflexivity|].
    split.
    - unfold get_spec, get_pid_file, get_user, get_group, get_socket_group, get_mode, get_n_workers, get_backend, get_daemon,
        get_max_pending, get_packet_buffer.
      rewrite C1, C2, C3, C4, C5, C6, C7, C8, C9, C10, C11, P, G1, G2, G3, Y1, Y2, Y3, Y4, Y5, Y6, Y7, Y8, Y9, Y10.
      rewrite !or_else_twice. repeat split.
      + destruct (p_mode (m_parent m) =? 0)%N eqn:E0.
        * destruct (s_manager_unix_socket_mode (c_settings c) =? 0)%N eqn:E1; [rewrite E0; reflexivity|rewrite E1; reflexivity].
        * cbv zeta. rewrite E0, E0. reflexivity.
      + destruct (m_custom_n_workers m); reflexivity.
      + destruct (p_backend (m_parent m)); reflexivity.
      + destruct (m_custom_daemon m); reflexivity.
      + destruct (m_custom_max_pending m); reflexivity.
    - unfold agrees. rewrite C1, C2, C3, C4, C5, C6, P, Y1, Y2, Y3, Y4, Y5, Y6.
      do 5 (split; [intros v ->; reflexivity|]). intros N. apply N.eqb_neq in N. rewrite N. reflexivity.
  Qed.

  Definition keeps (l : list ask) (m : manager) : Prop :=
    remembers l m /\ agrees m /\ forall v, last_asked pick_spec l = Some v -> o_spec m = Some v.

  Lemma reload_keeps b e l m : keeps l m -> keeps l (fst (manager_reload b e m)).
  Proof.
    intros (R & A & S). destruct (reload_facts b e m) as (F & _ & A').
    destruct F as (F1 & F2 & F3 & F4 & F5 & F6 & F7 & F8 & F9 & F10 & F11).
    unfold keeps, remembers. rewrite F1, F2, F3, F4, F5, F6, F7, F8, F9, F10, F11. exact (conj R (conj A' S)).
  Qed.

  Lemma reloads_keep b es : forall l m, keeps l m -> keeps l (reloads b es m).
  Proof. induction es as [|e es IH]; intros l m K; [exact K|]. cbn [reloads]. apply IH, reload_keeps, K. Qed.

  Lemma reloads_app b es e m : reloads b (es ++ [e]) m = fst (manager_reload b e (reloads b es m)).
  Proof. revert m. induction es as [|x es IH]; intros m; [reflexivity|]. cbn [app reloads]. apply IH. Qed.

  Lemma parse_keeps b paths f env us m l :
    manager_parse valid_spec user_of group_of env us (manager_new b paths f) = Some m ->
    map (asked user_of group_of) us = map Some l -> keeps l m.
  Proof.
    unfold manager_parse. destruct (options us (manager_new b paths f)) as [m0|] eqn:E; [|discriminate].
    intros P L. injection P as P. destruct (options_remember _ _ _ _ _ _ E L) as [R S].
    pose proof (options_agrees us _ _ (new_agrees b paths f) E) as A.
    destruct (get_spec m0) as [v|] eqn:G.
    - subst m. split; [exact R|]. split; [exact A|]. intros w W. rewrite S. exact W.
    - assert (N : p_spec (m_parent m0) = None /\ s_manager_connection_spec (m_settings m0) = None).
      { unfold get_spec, or_else in G. destruct (s_manager_connection_spec (m_settings m0)); [discriminate|]. auto. }
      destruct N as [N1 N2]. unfold o_spec in S. rewrite N1 in S.
      unfold manager_set in P. cbn [client_set] in P. unfold client_set_spec in P.
      destruct (valid_spec (fallback_spec env)).
      + cbn [fst] in P. subst m. split; [exact R|]. split; [|rewrite <- S; intros; discriminate].
        destruct A as (A1 & A2 & A3 & A4 & A5 & A6). repeat split; cbn; try assumption. congruence.
      + cbn [fst] in P. subst m. split; [exact R|]. split; [|rewrite <- S; intros; discriminate].
        destruct A as (A1 & A2 & A3 & A4 & A5 & A6). repeat split; cbn; try assumption. congruence.
  Qed.

  (** With a spec fixed at build time the fallback never comes into play. *)
  Lemma options_spec us : forall m m', s_manager_connection_spec (m_settings m) <> None -> options us m = Some m' ->
    s_manager_connection_spec (m_settings m') <> None.
  Proof.
    assert (G : forall a m m', set a m = (m', true) -> s_manager_connection_spec (m_settings m) <> None ->
      s_manager_connection_spec (m_settings m') <> None).
    { intros a m m' S N. destruct a as [v| |v|d|v|v|v|k|n|k|n|v|n]; unfold manager_set in S;
      cbn [client_set] in S; unfold client_set_spec in S;
      try (match type of S with context [if ?x then _ else _] => destruct x end; [|discriminate S]);
      injection S as <-; first [exact N | cbn; discriminate]. }
    induction us as [|u us IH]; intros m m' N E; cbn [manager_options] in E; [injection E as <-; exact N|].
    destruct (asked user_of group_of u) as [a|]; [|discriminate].
    destruct (set a m) as [m1 ok] eqn:S. destruct ok; [|discriminate]. exact (IH _ _ (G _ _ _ S N) E).
  Qed.

  Lemma parse_spec b paths f env us m l : b_connection_spec b <> None ->
    manager_parse valid_spec user_of group_of env us (manager_new b paths f) = Some m ->
    map (asked user_of group_of) us = map Some l -> o_spec m = last_asked pick_spec l.
  Proof.
    intros B. unfold manager_parse. destruct (options us (manager_new b paths f)) as [m0|] eqn:E; [|discriminate].
    intros P L. injection P as P. destruct (options_remember _ _ _ _ _ _ E L) as [_ S].
    pose proof (options_spec us (manager_new b paths f) m0 B E) as N.
    unfold get_spec, or_else in P. destruct (s_manager_connection_spec (m_settings m0)); [|congruence]. subst m. exact S.
  Qed.

  Lemma reloads_spec b es : forall m, o_spec (reloads b es m) = o_spec m.
  Proof.
    induction es as [|e es IH]; intros m; [reflexivity|]. cbn [reloads]. rewrite IH.
    destruct (reload_facts b e m) as [[F _] _]. exact F.
  Qed.

  (** *** The system log *)
  Definition logs_named (p : parent) : Prop := forall f, p_logger p = Some f -> f = p_facility p.

  Lemma same_facility_eq a b : same_facility a b = true -> a = b.
  Proof. destruct a, b; cbn [same_facility]; try discriminate; try reflexivity. intros H. apply bytes_eqb_eq in H. congruence. Qed.

  Lemma facility_named f p : logs_named p -> logs_named (set_syslog_facility f p).
  Proof.
    intros L. unfold set_syslog_facility. destruct (same_facility (p_facility p) f) eqn:E; [exact L|].
    cbn [p_logger p_with_syslog]. destruct (p_logger p) as [g|] eqn:G.
    - intros h. cbn. congruence.
    - intros h. cbn. congruence.
  Qed.

  Lemma set_named a m m' : logs_named (m_parent m) -> set a m = (m', true) -> logs_named (m_parent m').
  Proof.
    intros L S. destruct a as [v| |v|d|v|v|v|k|n|k|n|v|n]; unfold manager_set in S;
      cbn [client_set] in S; unfold client_set_spec in S;
      try (match type of S with context [if ?x then _ else _] => destruct x end; [|discriminate S]);
      injection S as <-; first [exact L | apply facility_named, L | intros h; cbn; congruence].
  Qed.

  Lemma options_named us : forall m m', logs_named (m_parent m) -> options us m = Some m' -> logs_named (m_parent m').
  Proof.
    induction us as [|u us IH]; intros m m' A E; cbn [manager_options] in E; [injection E as <-; exact A|].
    destruct (asked user_of group_of u) as [a|]; [|discriminate].
    destruct (set a m) as [m1 ok] eqn:S. destruct ok; [|discriminate]. exact (IH _ _ (set_named _ _ _ A S) E).
  Qed.

  Lemma syslog_named m : logs_named (m_parent m) -> logs_named (m_parent (apply_syslog m)).
  Proof.
    intros L. unfold apply_syslog. cbn [m_parent m_with_parent]. destruct (s_use_syslog (m_settings m)).
    - destruct (p_logger (m_parent m)); [apply facility_named, L|]. intros h. cbn. congruence.
    - intros h. cbn. discriminate.
  Qed.

  Lemma reload_named b e m : logs_named (m_parent m) -> logs_named (m_parent (fst (manager_reload b e m))).
  Proof.
    intros L. unfold manager_reload.
    destruct (reload b (l_evaluate e) (l_evaluate_custom e) (mk_configuration (l_paths e) (l_files e) (m_settings m))) as [c ok].
    cbn [fst]. change (m_parent (apply_custom ?x)) with (m_parent x). apply syslog_named. exact L.
  Qed.

  Lemma reloads_named b es : forall m, logs_named (m_parent m) -> logs_named (m_parent (reloads b es m)).
  Proof. induction es as [|e es IH]; intros m L; [exact L|]. cbn [reloads]. apply IH, reload_named, L. Qed.

  Lemma parse_named b paths f env us m :
    manager_parse valid_spec user_of group_of env us (manager_new b paths f) = Some m -> logs_named (m_parent m).
  Proof.
    unfold manager_parse. destruct (options us (manager_new b paths f)) as [m0|] eqn:E; [|discriminate].
    intros P. injection P as P.
    assert (L : logs_named (m_parent m0)).
    { apply (options_named us (manager_new b paths f)); [|exact E]. intros h. cbn. congruence. }
    destruct (get_spec m0); [subst m; exact L|].
    unfold manager_set in P. cbn [client_set] in P. unfold client_set_spec in P.
    destruct (valid_spec (fallback_spec env)); cbn [fst] in P; subst m; exact L.
  Qed.

  Lemma reload_log b e m : logs_named (m_parent m) ->
    let s := loaded b e (m_settings m) in let m' := fst (manager_reload b e m) in
    (s_use_syslog s = false -> log_facility (m_parent m') = None) /\
    (s_use_syslog s = true -> log_facility (m_parent m) <> None ->
       log_facility (m_parent m') = Some (given (s_syslog_facility s) (lit "mail"))) /\
    (s_use_syslog s = true -> log_facility (m_parent m) = None ->
       log_facility (m_parent m') = Some (given (p_facility (m_parent m)) (lit "mail"))).
  Proof.
    cbv zeta. intros L. unfold manager_reload, loaded.
    destruct (reload b (l_evaluate e) (l_evaluate_custom e) (mk_configuration (l_paths e) (l_files e) (m_settings m))) as [c ok].
    cbn [fst]. change (m_parent (apply_custom ?x)) with (m_parent x).
    unfold apply_syslog. cbn [m_parent m_with_parent m_settings m_conf].
    change (m_settings (mk_manager (m_parent m) c (m_custom_n_workers m) (m_custom_daemon m) (m_custom_max_pending m))) with (c_settings c).
    split; [intros ->; reflexivity|]. split; intros ->; unfold log_facility at 1.
    - destruct (p_logger (m_parent m)) as [g|] eqn:G; [|congruence]. intros _.
      unfold set_syslog_facility. destruct (same_facility (p_facility (m_parent m)) (s_syslog_facility (c_settings c))) eqn:F.
      + apply same_facility_eq in F. unfold log_facility. rewrite G. rewrite (L _ G), F. reflexivity.
      + cbn [p_logger p_with_syslog]. rewrite G. unfold log_facility. cbn. reflexivity.
    - destruct (p_logger (m_parent m)) as [g|] eqn:G; [discriminate|]. intros _. reflexivity.
  Qed.

  (** ** Plain programs *)
  Notation cset := (client_set valid_spec).
  Notation coptions := (client_options valid_spec user_of group_of).

  Lemma coptions_fold {A : Type} (proj : parent -> option A) (pick : ask -> option A) :
    (forall a m m', cset a m = (m', true) -> proj m' = later pick (proj m) a) ->
    forall us m m', coptions us m = Some m' -> forall l, map (asked user_of group_of) us = map Some l ->
    proj m' = fold_left (later pick) l (proj m).
  Proof.
    intros H. induction us as [|u us IH]; intros m m' E l L; cbn [client_options] in E.
    - injection E as <-. destruct l; [reflexivity|discriminate].
    - destruct l as [|a l]; [discriminate|]. cbn [map] in L. injection L as La Ll. rewrite La in E.
      destruct (cset a m) as [m1 ok] eqn:S. destruct ok; [|discriminate].
      rewrite (IH _ _ E _ Ll), (H _ _ _ S). reflexivity.
  Qed.

  Ltac by_cask :=
    let a := fresh "a" in let q := fresh "q" in let q' := fresh "q'" in intros a q q' S; destruct a as [v| |v|d|v|v|v|k|n|k|n|v|n];
    cbn [client_set] in S; unfold client_set_spec in S;
    try (match type of S with context [if ?x then _ else _] => destruct x end; [|discriminate S]);
    injection S as <-;
    first [reflexivity
          | unfold set_syslog_facility; destruct (same_facility (p_facility q) (Some v)); [reflexivity|];
            cbn; destruct (p_logger q); reflexivity].

  Definition client_remembers (l : list ask) (p : parent) : Prop :=
    p_pid_file p = last_asked pick_pid_file l /\ p_user p = last_asked pick_user l /\
    p_group p = last_asked pick_group l /\ p_socket_group p = last_asked pick_socket_group l /\
    p_mode p = given (last_asked pick_mode l) 0%N /\
    p_n_workers p = given (last_asked pick_n_workers l) 0%N /\ p_backend p = last_asked pick_backend l /\
    p_daemon p = given (last_asked pick_daemon l) false /\
    p_max_pending p = given (last_asked pick_max_pending l) 0%N /\
    p_packet_buffer p = given (last_asked pick_packet_buffer l) 0%N.

  Lemma some_given {A} (x y : A) : Some x = Some y -> x = y.
  Proof. congruence. Qed.

  Lemma coptions_remember us p l : coptions us parent_new = Some p -> map (asked user_of group_of) us = map Some l ->
    client_remembers l p /\ p_spec p = last_asked pick_spec l.
  Proof.
    intros E L. split; [|refine (coptions_fold p_spec pick_spec _ _ _ _ E _ L); by_cask].
    unfold client_remembers.
    split; [refine (coptions_fold p_pid_file pick_pid_file _ _ _ _ E _ L); by_cask|].
    split; [refine (coptions_fold p_user pick_user _ _ _ _ E _ L); by_cask|].
    split; [refine (coptions_fold p_group pick_group _ _ _ _ E _ L); by_cask|].
    split; [refine (coptions_fold p_socket_group pick_socket_group _ _ _ _ E _ L); by_cask|].
    split; [apply some_given; rewrite <- later_given; refine (coptions_fold (fun p => Some (p_mode p)) pick_mode _ _ _ _ E _ L); by_cask|].
    split; [apply some_given; rewrite <- later_given; refine (coptions_fold (fun p => Some (p_n_workers p)) pick_n_workers _ _ _ _ E _ L); by_cask|].
    split; [refine (coptions_fold p_backend pick_backend _ _ _ _ E _ L); by_cask|].
    split; [apply some_given; rewrite <- later_given; refine (coptions_fold (fun p => Some (p_daemon p)) pick_daemon _ _ _ _ E _ L); by_cask|].
    split; [apply some_given; rewrite <- later_given; refine (coptions_fold (fun p => Some (p_max_pending p)) pick_max_pending _ _ _ _ E _ L); by_cask|].
    apply some_given; rewrite <- later_given; refine (coptions_fold (fun p => Some (p_packet_buffer p)) pick_packet_buffer _ _ _ _ E _ L); by_cask.
  Qed.

  Lemma cparse_remember env us p l : client_parse valid_spec user_of group_of env us parent_new = Some p ->
    map (asked user_of group_of) us = map Some l ->
    client_remembers l p /\
    p_spec p = match last_asked pick_spec l with
               | Some v => Some v
               | None => if valid_spec (fallback_spec env) then Some (fallback_spec env) else None
               end.
  Proof.
    unfold client_parse. destruct (coptions us parent_new) as [p0|] eqn:E; [|discriminate]. intros P L. injection P as P.
    destruct (coptions_remember us p0 l E L) as [R S]. rewrite <- S. destruct (p_spec p0) as [v|] eqn:Q.
    - subst p. rewrite Q. split; [exact R|reflexivity].
    - unfold client_set_spec in P. destruct (valid_spec (fallback_spec env)); subst p; split; try reflexivity; exact R.
  Qed.

  (** A program that starts was given only values it accepts. *)
  Lemma coptions_syslog us : forall p p' l, coptions us p = Some p' -> map (asked user_of group_of) us = map Some l ->
    (p_logger p = None \/ p_logger p = Some (p_facility p)) ->
    p_facility p' = fold_left (later pick_facility) l (p_facility p) /\
    p_logger p' = if match p_logger p with Some _ => true | None => existsb is_syslog l end then Some (p_facility p') else None.
  Proof.
    induction us as [|u us IH]; intros p p' l E L W; cbn [client_options] in E.
    - injection E as <-. destruct l; [|discriminate]. split; [reflexivity|]. destruct W as [-> | ->]; reflexivity.
    - destruct l as [|a l]; [discriminate|]. cbn [map] in L. injection L as La Ll. rewrite La in E.
      destruct (cset a p) as [p1 ok] eqn:S. destruct ok; [|discriminate].
      assert (Q : p_facility p1 = later pick_facility (p_facility p) a /\
                  (p_logger p1 = if match p_logger p with Some _ => true | None => is_syslog a end then Some (p_facility p1) else None)).
      { destruct a as [v| |v| | | | | | | | | |]; cbn [client_set] in S;
          try (injection S as <-; split; [reflexivity|]; destruct W as [W|W]; cbn; rewrite W; reflexivity).
        - unfold client_set_spec in S. destruct (valid_spec v); [|discriminate]. injection S as <-. split; [reflexivity|]. destruct W as [W|W]; cbn; rewrite W; reflexivity.
        - injection S as <-. unfold later. cbn [pick_facility is_syslog]. unfold set_syslog_facility. destruct (same_facility (p_facility p) (Some v)) eqn:F.
          + unfold same_facility in F. destruct (p_facility p) as [w|] eqn:G; [|discriminate]. apply bytes_eqb_eq in F. subst w.
            split; [reflexivity|]. destruct W as [W|W]; rewrite W; reflexivity.
          + cbn [p_with_syslog p_logger]. destruct W as [W|W]; rewrite W; split; try reflexivity. }
      destruct Q as [Q1 Q2].
      destruct (IH _ _ _ E Ll) as [I1 I2].
      { rewrite Q2. destruct (match p_logger p with Some _ => true | None => is_syslog a end); auto. }
      split; [rewrite I1, Q1; reflexivity|]. rewrite I2, Q2. cbn [existsb]. destruct (p_logger p) as [x|]; [reflexivity|]. destruct (is_syslog a); reflexivity.
  Qed.

  Lemma cparse_syslog env us p l : client_parse valid_spec user_of group_of env us parent_new = Some p ->
    map (asked user_of group_of) us = map Some l ->
    p_facility p = last_asked pick_facility l /\
    p_logger p = if existsb is_syslog l then Some (last_asked pick_facility l) else None.
  Proof.
    unfold client_parse. destruct (coptions us parent_new) as [p0|] eqn:E; [|discriminate]. intros P L. injection P as P.
    destruct (coptions_syslog us _ _ l E L (or_introl eq_refl)) as [F G]. cbn [parent_new p_logger] in G.
    assert (Q : p_facility p = p_facility p0 /\ p_logger p = p_logger p0).
    { destruct (p_spec p0); subst p; [split; reflexivity|]. unfold client_set_spec. destruct (valid_spec (fallback_spec env)); split; reflexivity. }
    destruct Q as [-> ->]. rewrite G, F. split; reflexivity.
  Qed.

  Lemma coptions_valid us : forall p p', coptions us p = Some p' ->
    exists l, map (asked user_of group_of) us = map Some l /\ forall v, In (A_spec v) l -> valid_spec v = true.
  Proof.
    induction us as [|u us IH]; intros p p' E; cbn [client_options] in E; [exists []; split; [reflexivity|intros v []]|].
    destruct (asked user_of group_of u) as [a|] eqn:A; [|discriminate].
    destruct (cset a p) as [p1 ok] eqn:S. destruct ok; [|discriminate]. destruct (IH _ _ E) as (l & L & V).
    exists (a :: l). split; [cbn [map]; rewrite A, L; reflexivity|]. intros v [->|I]; [|exact (V v I)].
    cbn [client_set] in S. unfold client_set_spec in S. destruct (valid_spec v); [reflexivity|discriminate].
  Qed.

  Lemma coptions_starts us : forall p l, map (asked user_of group_of) us = map Some l ->
    (forall v, In (A_spec v) l -> valid_spec v = true) -> exists p', coptions us p = Some p'.
  Proof.
    induction us as [|u us IH]; intros p l L V; cbn [client_options]; [eauto|].
    destruct l as [|a l]; [discriminate|]. cbn [map] in L. injection L as La Ll. rewrite La.
    assert (S : snd (cset a p) = true).
    { destruct a; try reflexivity. cbn [client_set]. unfold client_set_spec. rewrite V by (left; reflexivity). reflexivity. }
    destruct (cset a p) as [p1 ok]. cbn [snd] in S. subst ok. apply (IH p1 l Ll). intros v I. apply V. right. exact I.
  Qed.
End Settings.
