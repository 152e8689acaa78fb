(** C72-C73: the sessions of milter-manager and the check of their connections. *)
From Coq Require Import Arith NArith List Bool Lia Permutation.
From Verif.Model Require Import Sessions.
From Verif.Spec Require Import SessionsSpec.
From Verif.Proofs Require Import SessionsProofs.
Import ListNotations.
Local Open Scope N_scope.

(** ** C72: the manager knows exactly the sessions in progress, and gives every ended one back once. *)
Theorem C72_known : forall ops, NoDup (b_leaders (now ops)) /\
  forall s, In s (b_leaders (now ops)) <-> in_progress ops s.
Proof.
  intros ops. destruct (now_facts ops) as (bef & aft & S & T & X & C). split; [exact (n_nodup _ S)|].
  intros s. unfold in_progress. rewrite (n_in _ S), C. pose proof (u_over _ _ _ T s) as U. cbn in U.
  destruct (b_over (now ops) s); intuition discriminate.
Qed.
Print Assumptions C72_known.

Theorem C72_freed_once : forall ops, NoDup (ended (history ops)) /\ NoDup (freed (history ops)) /\
  incl (freed (history ops)) (ended (history ops)) /\
  Permutation (freed (history (ops ++ [Report]))) (ended (history (ops ++ [Report]))).
Proof.
  intros ops. destruct (now_facts ops) as (bef & aft & S & T & X & C).
  pose proof (u_freed _ _ _ T) as P. cbn [new_book b_done] in P. rewrite app_nil_r in P.
  split; [exact (u_nodup _ _ _ T)|]. split; [|split].
  - pose proof (Permutation_NoDup (Permutation_sym P) (u_nodup _ _ _ T)) as N.
    clear - N. induction (freed (history ops)) as [|x l IH]; [constructor|]. inversion N as [|y z A B]; subst.
    constructor; [|exact (IH B)]. intros I. apply A. apply in_or_app. left. exact I.
  - intros s H. apply (Permutation_in s P). apply in_or_app. left. exact H.
  - destruct (now_facts (ops ++ [Report])) as (bf & af & S' & T' & X' & C').
    pose proof (u_freed _ _ _ T') as P'. cbn [new_book b_done] in P'. rewrite app_nil_r in P'.
    replace (b_done (now (ops ++ [Report]))) with (@nil nat) in P' by (rewrite now_app; reflexivity).
    rewrite app_nil_r in P'. exact P'.
Qed.
Print Assumptions C72_freed_once.

(** A session that has negotiated ends, at the latest, with the connection. *)
Theorem C72_close_partial : forall before s between, in_progress before s ->
  In s (ended (history (before ++ [Negotiate s] ++ between ++ [Close s]))).
Proof.
  intros before s between [C O].
  set (b0 := now before). destruct (now_facts before) as (bef & aft & S & T & X & Cn).
  assert (Ov : b_over b0 s = false).
  { destruct (b_over b0 s) eqn:Q; [|reflexivity]. apply (u_over _ _ _ T) in Q as [Q|Q]; [discriminate | contradiction]. }
  assert (Ch : b_children (now (before ++ [Negotiate s])) s = true).
  { rewrite now_app. cbn [book_run book_step fst]. fold b0. rewrite Ov. cbn [negb].
    assert (L : (s <? b_count b0)%nat = true) by (apply Nat.ltb_lt; unfold b0; rewrite Cn; exact C).
    rewrite L. cbn [andb fst b_children]. unfold set_at. rewrite Nat.eqb_refl. reflexivity. }
  destruct (now_facts (before ++ [Negotiate s])) as (bf1 & af1 & S1 & T1 & X1 & C1).
  pose proof (run_children between _ _ _ _ S1 X1 Ch) as Ch2. rewrite <- now_app in Ch2.
  set (ops := (before ++ [Negotiate s]) ++ between) in *.
  destruct (now_facts ops) as (bf2 & af2 & S2 & T2 & X2 & C2).
  replace (before ++ [Negotiate s] ++ between ++ [Close s]) with (ops ++ [Close s]) by (unfold ops; rewrite <- !app_assoc; reflexivity).
  rewrite history_app. rewrite ended_app, in_app_iff. cbn [book_run book_step].
  pose proof (n_child _ S2 s Ch2) as L. apply Nat.ltb_lt in L. rewrite L, Ch2. cbn [andb].
  destruct (b_over (now ops) s) eqn:Q.
  - left. apply (u_over _ _ _ T2) in Q as [Q|Q]; [discriminate | exact Q].
  - right. apply Nat.ltb_lt in L. destruct (finished_facts (now ops) s S2 L Q) as (b' & E & _). rewrite E.
    cbn [snd app]. left. reflexivity.
Qed.
Print Assumptions C72_close_partial.

Definition all (s : nat) : bool := true.
Definition only (l : list nat) (s : nat) : bool := existsb (Nat.eqb s) l.

Example C72_example :
  let ops := [Establish 5; Negotiate 0; Establish 5; Negotiate 1; Negotiated 1; Close 0; Tick all (only [1%nat]); Establish 5; Report] in
  history ops = [Over 0; Checked 1; Lost 1; Over 1; Freed 1; Freed 0] /\ b_leaders (now ops) = [2%nat] /\ in_progress [Establish 5] 0.
Proof. cbv zeta. split; [reflexivity|]. split; [reflexivity|]. split; [cbn; lia | intros []]. Qed.

(** A session whose connection ends before it negotiates is kept for ever, whatever else happens. *)
Theorem C72_close_refuted : forall before interval more, let s := established before in
  Forall (about_others s) more ->
  In s (b_leaders (now (before ++ [Establish interval; Close s] ++ more))).
Proof.
  intros before interval more s F. destruct (now_facts before) as (bef & aft & S & T & X & C).
  set (ops := before ++ [Establish interval; Close s]).
  assert (E : now ops = now (before ++ [Establish interval])).
  { unfold ops. rewrite !now_app. cbn [book_run book_step fst].
    set (b1 := start_checker _ interval). cbn [fst].
    assert (Ch : b_children b1 s = false).
    { unfold b1. rewrite (proj1 (proj2 (proj2 (proj2 (proj2 (start_facts _ _)))))). cbn [b_children].
      destruct (b_children (now before) s) eqn:Q; [|reflexivity]. apply (n_child _ S) in Q. rewrite C in Q. unfold s in Q. lia. }
    rewrite Ch, andb_false_r. reflexivity. }
  rewrite app_assoc. fold ops. rewrite now_app, E.
  destruct (now_facts (before ++ [Establish interval])) as (bf & af & S1 & T1 & X1 & C1).
  set (b := now (before ++ [Establish interval])) in *.
  assert (Es : established (before ++ [Establish interval]) = Datatypes.S s).
  { unfold established, s. rewrite filter_app, app_length. cbn. unfold established. lia. }
  rewrite Es in C1.
  assert (Ch : b_children b s = false).
  { unfold b. rewrite now_app. cbn [book_run book_step fst].
    rewrite (proj1 (proj2 (proj2 (proj2 (proj2 (start_facts _ _)))))). cbn [b_children].
    destruct (b_children (now before) s) eqn:Q; [|reflexivity]. apply (n_child _ S) in Q. rewrite C in Q. unfold s in Q. lia. }
  assert (Ov : b_over b s = false).
  { unfold b. rewrite now_app. cbn [book_run book_step fst].
    rewrite (proj2 (proj2 (proj2 (proj2 (proj2 (proj2 (start_facts _ _))))))). cbn [b_over].
    destruct (b_over (now before) s) eqn:Q; [|reflexivity]. apply (n_over _ S) in Q. rewrite C in Q. unfold s in Q. lia. }
  assert (L : (s < b_count b)%nat) by (rewrite C1; lia).
  pose proof (silent_run more b bf af s S1 X1 L Ch Ov F) as R.
  destruct (run_facts more b bf af S1 X1) as (b' & e & bf' & af' & Er & S' & _ & _ & C'). rewrite Er in *. cbn [fst] in *.
  apply (n_in _ S'). split; [rewrite C'; lia | exact R].
Qed.
Print Assumptions C72_close_refuted.

Example C72_close_refuted_example :
  b_leaders (now ([] ++ [Establish 5; Close 0] ++ [Establish 5; Close 1; Tick all all; Tick all all; Report])) = [1%nat; 0%nat]
  /\ Forall (about_others 0) [Establish 5; Close 1; Tick all all; Tick all all; Report].
Proof. split; [reflexivity|]. repeat constructor; discriminate. Qed.

(** ** C73: while filters are being waited for the agent's connection is checked, for every session, and
    a lost one ends the session. *)
Theorem C73_every_session : forall before ops s M,
  b_timer (now before) <> None -> b_processing (now before) s = true -> in_progress (before ++ ops) s ->
  Forall (fun o => match o with Establish i => 0 < i | _ => True end) ops -> busy s ops ->
  (forall pre suf, ops = pre ++ suf -> (length (b_leaders (now (before ++ pre))) <= M)%nat) ->
  (2 * (M / 30 + 1) <= ticks ops)%nat ->
  exists e, history (before ++ ops) = history before ++ e /\ In (Checked s) e.
Proof.
  intros before ops s M T P [_ G] F B Len Ti. rewrite history_app. eexists. split; [reflexivity|].
  destruct (now_facts before) as (bef & aft & S & Te & X & C).
  destruct (n_proc _ S s P) as (_ & O & Cn).
  apply (round ops (now before) bef aft s M S X); auto.
  - apply (n_in _ S). auto.
  - intros pre suf E. rewrite <- now_app. exact (Len pre suf E).
  - rewrite <- now_app. destruct (now_facts (before ++ ops)) as (bf & af & S' & Te' & _).
    destruct (b_over (now (before ++ ops)) s) eqn:Q; [|reflexivity]. apply (u_over _ _ _ Te') in Q as [Q|Q]; [discriminate | contradiction].
  - assert (La : (length aft <= M)%nat).
    { specialize (Len [] ops eq_refl). rewrite app_nil_r, (proj1 X), app_length in Len. lia. }
    apply (Nat.le_trans _ (batches M + batches M)).
    + unfold phi. destruct aft as [|x a]; [lia|]. destruct (existsb (Nat.eqb s) (x :: a)) eqn:Q.
      * apply existsb_in in Q. apply index_lt in Q.
        assert (H : (batches (index s (x :: a)) <= batches M)%nat) by (apply batches_le; lia). lia.
      * apply batches_le in La. lia.
    + unfold batches, per_check. lia.
Qed.
Print Assumptions C73_every_session.

Theorem C73_lost : forall ops waiting gone s, let e := snd (book_step (now ops) (Tick waiting gone)) in
  In (Checked s) e -> (gone s = true <-> In (Lost s) e) /\ (gone s = true <-> In s (ended e)).
Proof.
  intros ops waiting gone s. destruct (now_facts ops) as (bef & aft & S & T & X & C).
  exact (tick_lost (now ops) bef aft waiting gone s S X).
Qed.
Print Assumptions C73_lost.

(** The timer: off without sessions; on after every new session, if configured, unless a check took away
    the last session at some time before. *)
Theorem C73_off : forall ops, b_leaders (now ops) = [] -> b_timer (now ops) = None.
Proof. intros ops. apply (run_idle ops new_book [] [] new_sane new_split). reflexivity. Qed.
Print Assumptions C73_off.

Theorem C73_on_partial : forall ops i, 0 < i ->
  (forall pre waiting gone suf, ops = pre ++ Tick waiting gone :: suf -> b_timer (now pre) <> None ->
     b_leaders (now (pre ++ [Tick waiting gone])) <> []) ->
  b_timer (now (ops ++ [Establish i])) = Some i.
Proof.
  intros ops i Z H.
  assert (L : b_id (now ops) = true -> b_timer (now ops) <> None).
  { apply (run_live ops new_book [] [] new_sane new_split); [discriminate|]. intros pre w g suf E. exact (H pre w g suf E). }
  destruct (now_facts ops) as (bef & aft & S & T & X & C).
  rewrite now_app. cbn [book_run book_step fst]. unfold start_checker. apply N.ltb_lt in Z. rewrite Z. cbn [b_id b_interval].
  destruct (b_id (now ops)) eqn:I; cbn [negb orb]; [|reflexivity].
  destruct (N.eqb_spec i (b_interval (now ops))) as [E|E]; cbn [negb]; [|reflexivity]. cbn [b_timer].
  specialize (L eq_refl). destruct (b_timer (now ops)) as [j|] eqn:Tj; [|congruence].
  destruct (n_timer _ S j Tj) as (_ & J & _). congruence.
Qed.
Print Assumptions C73_on_partial.

Example C73_example :
  let before := [Establish 5; Negotiate 0; Negotiated 0] in
  let ops := [Establish 5; Tick all (only []); Tick (only [0%nat]) (only [])] in
  b_timer (now before) = Some 5 /\ b_processing (now before) 0 = true /\ in_progress (before ++ ops) 0 /\ busy 0 ops /\
  (2 * (2 / 30 + 1) <= ticks ops)%nat /\ history (before ++ ops) = [Checked 0; Checked 0].
Proof.
  cbv zeta. do 2 (split; [vm_compute; reflexivity|]). split; [split; [vm_compute; lia | vm_compute; intros []]|].
  split; [repeat constructor|]. split; [vm_compute; lia | vm_compute; reflexivity].
Qed.

Example C73_lost_example : let ops := [Establish 5; Negotiate 0; Negotiated 0; Establish 5] in
  snd (book_step (now ops) (Tick all all)) = [Checked 0; Lost 0; Over 0].
Proof. reflexivity. Qed.

(** Once a check has found the connection of the only session lost, new sessions are not checked: the
    timer is gone but its id is still there. *)
Theorem C73_on_refuted : forall i more, 0 < i ->
  Forall (fun o => match o with Establish j => j = i | Close _ | Done _ => False | _ => True end) more ->
  let ops := [Establish i; Negotiate 0; Negotiated 0; Tick all all; Establish i; Negotiate 1; Negotiated 1] in
  in_progress ops 1 /\ b_processing (now ops) 1 = true /\ b_timer (now ops) = None /\
  forall s, ~ In (Checked s) (snd (book_run (now ops) more)).
Proof.
  intros i more Z F ops.
  assert (E : history ops = [Checked 0; Lost 0; Over 0] /\ b_id (now ops) = true /\ b_interval (now ops) = i /\
              b_timer (now ops) = None /\ b_processing (now ops) 1 = true).
  { pose (b := mk_book 1 [] None [0%nat] true i None (set_at (fun _ => false) 0 true)
                       (set_at (set_at (fun _ => false) 0 true) 0 false) (set_at (fun _ => false) 0 true)).
    assert (Z' : (0 <? i) = true) by (apply N.ltb_lt; exact Z).
    assert (R : book_run new_book [Establish i; Negotiate 0; Negotiated 0; Tick all all] = (b, [Checked 0; Lost 0; Over 0])).
    { unfold b. destruct i as [|p]; [discriminate Z|]. vm_compute. reflexivity. }
    change ops with ([Establish i; Negotiate 0; Negotiated 0; Tick all all] ++ [Establish i; Negotiate 1; Negotiated 1]).
    unfold history, now. rewrite run_app, R. clear R.
    assert (R : book_step b (Establish i) =
      (mk_book 2 [1%nat] None [0%nat] true i None (b_children b) (b_processing b) (b_over b), [])).
    { cbn [book_step]. unfold start_checker. rewrite Z'. cbn [b_id b_interval b]. rewrite N.eqb_refl. reflexivity. }
    cbn [book_run]. rewrite R. clear R. vm_compute. repeat split. }
  destruct E as (E1 & E2 & E3 & E4 & E5).
  split; [split; [cbn; lia | rewrite E1; cbn; lia]|]. split; [exact E5|]. split; [exact E4|].
  apply (dead_run i more (now ops) Z E2 E3 E4 F).
Qed.
Print Assumptions C73_on_refuted.

Example C73_on_refuted_example :
  history [Establish 5; Negotiate 0; Negotiated 0; Tick all all; Establish 5; Negotiate 1; Negotiated 1; Tick all all; Tick all all]
  = [Checked 0; Lost 0; Over 0].
Proof. reflexivity. Qed.
