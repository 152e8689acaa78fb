(** C63-C67: the life of a daemon. *)
From Coq Require Import Arith NArith List Bool Lia.
From Verif.Model Require Import Service.
From Verif.Spec Require Import ServiceSpec.
From Verif.Proofs Require Import ServiceProofs.
Import ListNotations.
Local Open Scope N_scope.

Lemma life_run : forall m l listened ops, exists s, service_run m l (service_start listened) ops = (s, life m l listened ops).
Proof. intros m l listened ops. unfold life. destruct (service_run m l (service_start listened) ops) as [s o]. exists s. reflexivity. Qed.

Lemma life_app : forall m l listened a b s, service_run m l (service_start listened) a = (s, life m l listened a) ->
  life m l listened (a ++ b) = life m l listened a ++ snd (service_run m l s b).
Proof.
  intros m l listened a b s E. unfold life at 1. rewrite run_app, E. destruct (service_run m l s b). reflexivity.
Qed.

(** ** C63: every connection is served once, in order, and every ended session is reported once. *)
Theorem C63_accounting_partial : forall m l listened ops, loops m -> short ops ->
  let outs := life m l listened ops in
  taken outs = seq 0 (length (taken outs)) /\
  (exists waiting, taken outs = served outs ++ waiting /\ (m = SingleLoop -> waiting = [])) /\
  NoDup (over outs) /\ incl (over outs) (served outs) /\
  reported outs <= N.of_nat (length (over outs)) /\
  (0 < l_max_pending l -> N.of_nat (length (over outs)) <= reported outs + l_max_pending l).
Proof.
  intros m l listened ops M G outs. destruct (life_run m l listened ops) as [s E].
  exact (whole_accounting m l listened ops s _ M G E).
Qed.
Print Assumptions C63_accounting_partial.

(** When the loop comes to rest nothing is left to report, unless the limit of connections was hit. *)
Theorem C63_reports_all : forall m l listened ops, loops m -> short (ops ++ [Idle]) ->
  ~ In Suspended (life m l listened ops) ->
  N.of_nat (length (over (life m l listened (ops ++ [Idle])))) = reported (life m l listened (ops ++ [Idle])).
Proof.
  intros m l listened ops M G NS. destruct (life_run m l listened ops) as [s E].
  unfold short in G. rewrite app_length in G. cbn [length] in G.
  rewrite (life_app _ _ _ _ _ _ E). cbn [service_run].
  destruct (service_step m l s Idle) as [t te] eqn:T. cbn [snd]. rewrite app_nil_r.
  apply (whole_idle m l listened ops s _ M) with (s' := t); [unfold GUINT; lia | exact E | unfold GUINT; lia | exact NS | exact T].
Qed.
Print Assumptions C63_reports_all.

Example C63_accounting_example :
  life Worker (mk_limits 0 2 10) false
    [Incoming (Accepted true); Incoming (Accepted true); Setup true; Incoming (Accepted true); Setup false; Finish 0; Setup true; Finish 2; Idle]
  = [Connected 0; Connected 1; Established 0; Connected 2; StartFailed 1; Ended 1; Ended 0; Established 2;
     Ended 2; SessionsFinished 3; Maintain].
Proof. reflexivity. Qed.

Example C63_reports_all_example : let ops := [Incoming (Accepted true); Incoming (Accepted false); Finish 0] in
  loops SingleLoop /\ short (ops ++ [Idle]) /\ ~ In Suspended (life SingleLoop (mk_limits 3 0 10) false ops) /\
  reported (life SingleLoop (mk_limits 3 0 10) false ops) = 0 /\
  reported (life SingleLoop (mk_limits 3 0 10) false (ops ++ [Idle])) = 2.
Proof. split; [left; reflexivity|]. split; [reflexivity|]. split; [cbn; intuition discriminate|]. split; reflexivity. Qed.

(** With a thread for accepting the counting is wrong: a session that ends while a connection is being
    counted stays counted for ever, and a shutdown never ends the daemon though no session is left. *)
Theorem C63_accept_thread_refuted : exists ops, forall more,
  let outs := life AcceptLoop (mk_limits 0 0 0) false (ops ++ more) in
  In Shutdown ops /\ taken outs = [0%nat; 1%nat] /\ over outs = [0%nat; 1%nat] /\ open outs = 0 /\ ~ In Quit outs.
Proof.
  exists [AcceptorCheck; AcceptorAccept (Accepted true); AcceptorStore; Setup true;
     AcceptorCheck; AcceptorAccept (Accepted true); Finish 0; Idle; AcceptorStore; Setup true; Finish 1; Idle; Shutdown].
  intros more. cbv zeta. set (ops := [AcceptorCheck; _; _; _; _; _; _; _; _; _; _; _; _]).
  destruct (service_run AcceptLoop (mk_limits 0 0 0) (service_start false) ops) as [s o] eqn:E.
  assert (X : life AcceptLoop (mk_limits 0 0 0) false (ops ++ more) = o).
  { unfold life. rewrite run_app, E.
    assert (S : forall more, service_run AcceptLoop (mk_limits 0 0 0) s more = (s, [])).
    { intros q. vm_compute in E. injection E as <- _. induction q as [|x q IH]; [reflexivity|].
      cbn [service_run].
      match goal with |- context [service_step ?m ?l ?st x] =>
        replace (service_step m l st x) with (st, @nil service_event) by (destruct x; reflexivity) end.
      rewrite IH. reflexivity. }
    rewrite S. cbn [snd]. apply app_nil_r. }
  rewrite X. vm_compute in E. injection E as _ <-. split; [cbn; tauto|]. repeat (split; [reflexivity|]).
  cbn. intuition discriminate.
Qed.
Print Assumptions C63_accept_thread_refuted.

(** In multi-thread mode the first session that starts is undefined behaviour, and one that does not
    start is never reported nor uncounted. *)
Theorem C63_thread_pool_refuted : forall l listened,
  v_undefined (fst (service_run MultiThread l (service_start listened) [Incoming (Accepted true)])) = true /\
  let outs := life MultiThread l listened [Incoming (Accepted false); Finish 0; Idle; Shutdown] in
  over outs = [0%nat] /\ reported outs = 0 /\ ~ In Quit outs.
Proof.
  intros [c p i] listened.
  split; [destruct c; reflexivity|]. cbv zeta.
  replace (life MultiThread (mk_limits c p i) listened [Incoming (Accepted false); Finish 0; Idle; Shutdown])
    with [Connected 0; StartFailed 0; Ended 0] by (destruct c; reflexivity).
  split; [reflexivity|]. split; [reflexivity|]. cbn [In]. intuition discriminate.
Qed.
Print Assumptions C63_thread_pool_refuted.

(** ** C64: never more sessions at a time than the limit allows. *)
Theorem C64_limit : forall m l listened ops, loops m -> short ops -> 0 < l_max_connections l ->
  let outs := life m l listened ops in
  open outs <= l_max_connections l /\
  N.of_nat (length (taken outs)) <= N.of_nat (length (over outs)) + l_max_connections l.
Proof.
  intros m l listened ops M G L outs. destruct (life_run m l listened ops) as [s E].
  exact (whole_limit m l listened ops s _ M G E L).
Qed.
Print Assumptions C64_limit.

Example C64_limit_example :
  let outs := life SingleLoop (mk_limits 2 0 10) false
    [Incoming (Accepted true); Incoming (Accepted true); Finish 0; Idle; Incoming (Accepted true)] in
  open outs = 2 /\ length (taken outs) = 3%nat /\ length (over outs) = 1%nat.
Proof. split; [|split]; reflexivity. Qed.

(** But the connection that comes when the limit is reached stops the daemon for good: no session ends
    any more, no shutdown is obeyed. *)
Theorem C64_resumes_refuted : forall m l listened ops r more, loops m -> short ops ->
  0 < l_max_connections l -> open (life m l listened ops) = l_max_connections l ->
  ~ In Suspended (life m l listened ops) -> existsb ends ops = false ->
  ~ In AcceptError (life m l listened ops) ->
  life m l listened (ops ++ Incoming r :: more) = life m l listened ops ++ [Suspended].
Proof.
  intros m l listened ops r more M G L O NS NE NA. destruct (life_run m l listened ops) as [s E].
  rewrite (life_app _ _ _ _ _ _ E). f_equal.
  exact (whole_frozen m l listened ops s _ M G E r more L O NS NE NA).
Qed.
Print Assumptions C64_resumes_refuted.

Example C64_resumes_refuted_example :
  let ops := [Incoming (Accepted true); Incoming (Accepted true)] in
  let l := mk_limits 2 0 10 in
  open (life SingleLoop l false ops) = l_max_connections l /\
  life SingleLoop l false (ops ++ [Incoming (Accepted true); Finish 0; Idle; Finish 1; Idle; Shutdown])
  = [Connected 0; Established 0; Connected 1; Established 1; Suspended].
Proof. split; reflexivity. Qed.

(** ** C65: "maintain" comes exactly when it is due. *)
Theorem C65_maintains : forall m l listened ops, loops m -> short ops ->
  upkeep (l_interval l) 0 0 False (life m l listened ops).
Proof.
  intros m l listened ops M G. destruct (life_run m l listened ops) as [s E].
  exact (i_upkeep _ _ _ _ (i_weak _ _ _ _ (whole_inv m l listened ops s _ M G E))).
Qed.
Print Assumptions C65_maintains.

Example C65_maintains_example :
  life SingleLoop (mk_limits 0 0 2) false
    [Incoming (Accepted true); Incoming (Accepted true); Incoming (Accepted true); Incoming (Accepted true);
     Finish 0; Idle; Finish 1; Idle; Finish 2; Idle; Finish 3; Idle]
  = [Connected 0; Established 0; Connected 1; Established 1; Connected 2; Established 2; Connected 3; Established 3;
     Ended 0; SessionsFinished 1; Ended 1; SessionsFinished 1; Maintain;
     Ended 2; SessionsFinished 1; Ended 3; SessionsFinished 1; Maintain].
Proof. reflexivity. Qed.

(** ** C66: a shutdown lets the sessions in progress end, takes no new ones, and then ends the daemon. *)
Theorem C66_shutdown : forall m l listened ops more, loops m -> short (ops ++ Shutdown :: more) ->
  ~ In Suspended (life m l listened ops) ->
  let outs := life m l listened (ops ++ Shutdown :: more) in
  taken outs = taken (life m l listened ops) /\ (In Quit outs <-> open outs = 0).
Proof.
  intros m l listened ops more M G NS outs. destruct (life_run m l listened ops) as [s E].
  unfold short in G. rewrite app_length in G. cbn [length] in G. subst outs.
  rewrite (life_app _ _ _ _ _ _ E). destruct (service_run m l s (Shutdown :: more)) as [s2 o2] eqn:R. cbn [snd].
  assert (G1 : N.of_nat (length ops) < GUINT) by (unfold GUINT; lia).
  destruct (whole_shutdown m l listened ops s _ M G1 E more s2 o2 ltac:(unfold GUINT; lia) NS R) as (T & Q & _).
  split; [rewrite taken_app, T; apply app_nil_r | exact Q].
Qed.
Print Assumptions C66_shutdown.

Theorem C66_keeps_running : forall m l listened ops, loops m -> short ops ->
  existsb ends ops = false -> ~ In Quit (life m l listened ops).
Proof.
  intros m l listened ops M G X. destruct (life_run m l listened ops) as [s E].
  exact (whole_unasked m l listened ops s _ M G E X).
Qed.
Print Assumptions C66_keeps_running.

(** A daemon that opened its socket when it began to run closes it at once. *)
Theorem C66_closes_socket_partial : forall m l ops more, loops m -> short (ops ++ Shutdown :: more) ->
  ~ In Suspended (life m l false ops) ->
  listening (fst (service_run m l (service_start false) (ops ++ Shutdown :: more))) = false.
Proof.
  intros m l ops more M G NS. destruct (life_run m l false ops) as [s E].
  unfold short in G. rewrite app_length in G. cbn [length] in G.
  rewrite run_app, E. destruct (service_run m l s (Shutdown :: more)) as [s2 o2] eqn:R. cbn [fst].
  assert (G1 : N.of_nat (length ops) < GUINT) by (unfold GUINT; lia).
  destruct (whole_shutdown m l false ops s _ M G1 E more s2 o2 ltac:(unfold GUINT; lia) NS R) as (_ & _ & A & B).
  unfold listening. rewrite A, (B eq_refl). reflexivity.
Qed.
Print Assumptions C66_closes_socket_partial.

(** One that listened before, as milter-manager does, keeps it open as long as it lives: the MTA's
    connections are taken by the kernel and never answered. *)
Theorem C66_closes_socket_refuted : forall l ops, short ops ->
  listening (fst (service_run SingleLoop l (service_start true) ops)) = true.
Proof.
  intros l ops G. destruct (life_run SingleLoop l true ops) as [s E]. rewrite E. cbn [fst]. unfold listening.
  rewrite (whole_listening SingleLoop l true ops s _ (or_introl eq_refl) G E eq_refl eq_refl). reflexivity.
Qed.
Print Assumptions C66_closes_socket_refuted.

Example C66_shutdown_example :
  let ops := [Incoming (Accepted true); Incoming (Accepted true); Finish 0] in
  let more := [Incoming (Accepted true); Idle; Finish 1; Idle] in
  life SingleLoop (mk_limits 0 0 0) true (ops ++ Shutdown :: more)
  = [Connected 0; Established 0; Connected 1; Established 1; Ended 0; SessionsFinished 1; Ended 1; Quit;
     SessionsFinished 1; Maintain] /\
  existsb ends ops = false /\ ~ In Quit (life SingleLoop (mk_limits 0 0 0) true ops).
Proof. split; [reflexivity|]. split; [reflexivity|]. cbn. intuition discriminate. Qed.

(** ** C67: a connection that cannot be accepted does no harm. *)
Theorem C67_accept_failure_partial : forall l listened ops more, short ops ->
  (l_max_connections l = 0 \/ open (life SingleLoop l listened ops) < l_max_connections l) ->
  let before := life SingleLoop l listened ops in
  let with_failure := life SingleLoop l listened (ops ++ Incoming Failed :: more) in
  let without := life SingleLoop l listened (ops ++ more) in
  exists rest, without = before ++ rest /\
    (with_failure = before ++ AcceptError :: rest \/ with_failure = before ++ rest).
Proof.
  intros l listened ops more G L before with_failure without.
  destruct (life_run SingleLoop l listened ops) as [s E].
  subst before with_failure without. rewrite !(life_app _ _ _ _ _ _ E).
  exists (snd (service_run SingleLoop l s more)). split; [reflexivity|].
  rewrite (whole_open SingleLoop l listened ops s _ (or_introl eq_refl) G E) in L.
  cbn [service_run]. unfold service_step.
  destruct (negb (v_running s) || v_stuck s || v_undefined s);
    [right; destruct (service_run SingleLoop l s more); reflexivity|].
  cbn [threaded negb]. rewrite andb_true_r.
  destruct (v_watching s); [|right; destruct (service_run SingleLoop l s more); reflexivity].
  unfold incoming. replace (at_limit l s) with false.
  - left. destruct (service_run SingleLoop l s more); reflexivity.
  - unfold at_limit. symmetry. apply andb_false_iff. destruct L as [-> | L]; [left; reflexivity | right].
    apply N.leb_gt. exact L.
Qed.
Print Assumptions C67_accept_failure_partial.

Example C67_accept_failure_example :
  life SingleLoop (mk_limits 0 0 0) false ([Incoming (Accepted true)] ++ Incoming Failed :: [Incoming (Accepted true)])
  = [Connected 0; Established 0; AcceptError; Connected 1; Established 1].
Proof. reflexivity. Qed.

(** A worker process that fails to accept once never takes a connection again, and goes on living. *)
Theorem C67_accept_failure_refuted : forall l listened more, short (Incoming Failed :: more) ->
  let outs := life Worker l listened (Incoming Failed :: more) in
  taken outs = [] /\ (existsb ends more = false -> ~ In Quit outs).
Proof.
  intros l listened more G outs. destruct (life_run Worker l listened (Incoming Failed :: more)) as [s E].
  split.
  - unfold short in G. cbn [length] in G. cbn [service_run] in E.
    destruct (service_step Worker l (service_start listened) (Incoming Failed)) as [t te] eqn:T.
    assert (I : inv Worker l t ([] ++ te)).
    { eapply step_inv; [right; reflexivity | apply start_inv | reflexivity | exact T]. }
    destruct (service_run Worker l t more) as [u ue] eqn:U. injection E as <- E.
    subst outs. rewrite <- E, taken_app.
    assert (X : v_watching t = false /\ taken te = [] /\ v_next t = 0%nat).
    { destruct l as [c p i]. destruct c as [|c]; vm_compute in T; injection T as <- <-; repeat split; reflexivity. }
    destruct X as (X1 & X2 & X3).
    destruct (run_unwatched Worker l more t te u ue (or_intror eq_refl) I) as [Y _];
      [rewrite X3; unfold GUINT; lia | exact X1 | exact U | rewrite X2, Y; reflexivity].
  - intros X. apply C66_keeps_running; [right; reflexivity | exact G | exact X].
Qed.
Print Assumptions C67_accept_failure_refuted.
