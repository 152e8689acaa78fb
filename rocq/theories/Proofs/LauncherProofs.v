(** The launcher: distinct command lines, one reply, processes forgotten when they exit. *)
From Verif.Base Require Import Bytes BytesFacts.
From Verif.Model Require Import Control Launcher.
From Verif.Spec Require Import LauncherSpec.
From Coq Require Import ZifyBool ZifyNat ZifyN.

(** What a request does. *)
Lemma request_cases i y l line user :
  (exists m, launcher_step i l (Request y (Launch line user)) = (l, [Replied (Error m)])) \/
  (exists pid who, launcher_step i l (Request y (Launch line user)) =
     (mk_process pid line user :: l, [Started (mk_process pid line user) who; Replied Success]) /\
     ~ In line (map p_command_line l) /\
     match user with
     | None => who = i
     | Some u => exists pw, y_passwd y u = Some pw /\ who = setup_child (y_grants y) (Some pw) i
     end).
Proof.
  cbn [launcher_step]. unfold launch.
  destruct (existsb _ l) eqn:E; [left; eexists; reflexivity|].
  assert (N : ~ In line (map p_command_line l)).
  { intros I. apply in_map_iff in I as (p & <- & I). assert (X : existsb (fun q => bytes_eqb (p_command_line q) (p_command_line p)) l = true).
    { apply existsb_exists. exists p. split; [exact I|apply bytes_eqb_refl]. } congruence. }
  destruct user as [u|].
  - destruct (y_passwd y u) as [pw|]; [|left; eexists; reflexivity].
    destruct (y_parses y line); cbn [negb]; [|left; eexists; reflexivity].
    destruct (y_spawn y) as [pid|]; [|left; eexists; reflexivity]. right. exists pid. eexists. split; [reflexivity|]. split; [exact N|eauto].
  - destruct (y_parses y line); cbn [negb]; [|left; eexists; reflexivity].
    destruct (y_spawn y) as [pid|]; [|left; eexists; reflexivity]. right. exists pid. eexists. split; [reflexivity|]. split; [exact N|reflexivity].
Qed.

Lemma step_answered i l o : answered o (snd (launcher_step i l o)).
Proof.
  destruct o as [y [line user]|pid].
  - destruct (request_cases i y l line user) as [(m & ->)|(pid & who & -> & _)]; cbn [snd answered].
    + right. exists m. auto.
    + left. exists (mk_process pid line user). auto.
  - cbn [launcher_step snd answered]. destruct (existsb _ l); auto.
Qed.

Lemma run_answered i l ops : Forall2 answered ops (snd (launcher_run i l ops)).
Proof.
  revert l. induction ops as [|o ops IH]; intros l; cbn [launcher_run]; [constructor|].
  pose proof (step_answered i l o) as H. destruct (launcher_step i l o) as [l1 e]. specialize (IH l1).
  destruct (launcher_run i l1 ops) as [l2 es]. constructor; auto.
Qed.

Lemma forget_incl l pid p : In p (forget l pid) -> In p l.
Proof. induction l as [|q l IH]; cbn [forget]; [auto|]. destruct (Z.eqb _ _); cbn [In]; [auto|]. intros [->|H]; auto. Qed.

Lemma step_distinct i l o : NoDup (map p_command_line l) -> NoDup (map p_command_line (fst (launcher_step i l o))).
Proof.
  intros H. destruct o as [y [line user]|pid].
  - destruct (request_cases i y l line user) as [(m & ->)|(pid & who & -> & N & _)]; cbn [fst map]; [exact H|].
    constructor; [exact N|exact H].
  - cbn [launcher_step fst]. induction l as [|p l IH]; cbn [forget]; [exact H|]. cbn [map] in H. inversion H; subst.
    destruct (Z.eqb _ _); [assumption|]. cbn [map]. constructor; [|auto]. intros I. apply in_map_iff in I as (q & E & I).
    apply forget_incl in I. apply (in_map p_command_line) in I. congruence.
Qed.

Lemma run_distinct i l ops : NoDup (map p_command_line l) -> NoDup (map p_command_line (fst (launcher_run i l ops))).
Proof.
  revert l. induction ops as [|o ops IH]; intros l H; cbn [launcher_run]; [exact H|].
  pose proof (step_distinct i l o H) as H1. destruct (launcher_step i l o) as [l1 e]. specialize (IH l1 H1).
  destruct (launcher_run i l1 ops) as [l2 es]. exact IH.
Qed.

Lemma filter_all (A : Type) (f : A -> bool) l : (forall x, In x l -> f x = true) -> filter f l = l.
Proof. induction l as [|x l IH]; intros H; cbn [filter]; [reflexivity|]. rewrite (H x) by (left; reflexivity). f_equal. apply IH. intros y I. apply H. right. exact I. Qed.

Lemma forget_filter l pid : NoDup (map p_pid l) -> forget l pid = filter (fun p => negb (Z.eqb (p_pid p) pid)) l.
Proof.
  induction l as [|p l IH]; intros H; cbn [forget filter]; [reflexivity|]. cbn [map] in H. inversion H as [|? ? H1 H2]; subst.
  destruct (Z.eqb_spec (p_pid p) pid) as [E|E]; cbn [negb].
  - symmetry. apply filter_all. intros q I. apply (in_map p_pid) in I.
    destruct (Z.eqb_spec (p_pid q) pid) as [E'|E']; [|reflexivity]. exfalso. apply H1. rewrite E, <- E'. exact I.
  - f_equal. apply IH, H2.
Qed.

Lemma step_lives i l o : NoDup (map p_pid l) ->
  Forall (fun p => ~ In (p_pid p) (map p_pid l)) (started (snd (launcher_step i l o))) ->
  fst (launcher_step i l o) = lives_on l (o, snd (launcher_step i l o)) /\
  NoDup (map p_pid (fst (launcher_step i l o))).
Proof.
  intros H F. destruct o as [y [line user]|pid].
  - destruct (request_cases i y l line user) as [(m & E)|(pid & who & E & _)]; rewrite E in *; cbn [fst snd lives_on] in *.
    + split; [reflexivity|exact H].
    + split; [reflexivity|]. cbn [map]. inversion F; subst. constructor; auto.
  - cbn [launcher_step fst snd lives_on] in *. rewrite forget_filter by exact H. split; [reflexivity|].
    clear F. induction l as [|p l IH]; cbn [filter]; [exact H|]. cbn [map] in H. inversion H as [|? ? H1 H2]; subst.
    destruct (negb _); [|auto]. cbn [map]. constructor; [|auto]. intros I. apply H1.
    apply in_map_iff in I as (q & <- & I). apply filter_In in I as [I _]. apply in_map, I.
Qed.

Lemma run_lives i ops l : NoDup (map p_pid l) ->
  fresh_pids l (combine ops (snd (launcher_run i l ops))) ->
  fst (launcher_run i l ops) = living l (combine ops (snd (launcher_run i l ops))).
Proof.
  revert l. induction ops as [|o ops IH]; intros l H F; cbn [launcher_run]; [reflexivity|].
  cbn [launcher_run] in F. pose proof (step_lives i l o H) as S. destruct (launcher_step i l o) as [l1 e]. specialize (IH l1).
  destruct (launcher_run i l1 ops) as [l2 es]. cbn [fst snd combine living fresh_pids] in *.
  destruct F as [F1 F2]. destruct (S F1) as [-> S2]. apply IH; auto.
Qed.
