(** C39, C56: the launcher's processes and who they run as. *)
From Verif.Base Require Import Bytes BytesFacts.
From Verif.Model Require Import Control Launcher.
From Verif.Spec Require Import LauncherSpec.
From Verif.Proofs Require Import LauncherProofs.

(** *** C39 *)

(** Whatever is asked and whatever the system does: one reply to each request, which is success exactly
    when the process asked for was started. *)
Theorem C39_one_reply i ops : Forall2 answered ops (snd (launcher_run i [] ops)).
Proof. apply run_answered. Qed.
Print Assumptions C39_one_reply.

(** No two processes it knows have the same command line. *)
Theorem C39_distinct i ops : NoDup (map p_command_line (fst (launcher_run i [] ops))).
Proof. apply run_distinct. constructor. Qed.
Print Assumptions C39_distinct.

(** It knows exactly the children that live, if pids of living children are not given twice: none is
    forgotten early, none kept after its exit.  So no two living children have the same command
    line. *)
Theorem C39_known_are_living i ops :
  let '(l, evs) := launcher_run i [] ops in
  fresh_pids [] (combine ops evs) ->
  l = living [] (combine ops evs) /\ NoDup (map p_command_line (living [] (combine ops evs))).
Proof.
  pose proof (run_lives i ops [] ltac:(constructor)) as H. pose proof (C39_distinct i ops) as D.
  destruct (launcher_run i [] ops) as [l evs]. cbn [fst snd] in *. intros F. specialize (H F). split; [exact H|].
  rewrite <- H. exact D.
Qed.
Print Assumptions C39_known_are_living.

Definition root := mk_identity 0 0 None.
Definition mail := mk_passwd (lit "mail") 8 12.
Definition works (pid : Z) (g : grants) :=
  mk_system (fun u => if bytes_eqb u (lit "mail") then Some mail else None) (fun _ => true) (Some pid) g (lit "sorry").
Definition all_granted := mk_grants true true true.

Example C39_example :
  let ops := [Request (works 10 all_granted) (Launch (lit "a") (Some (lit "mail")));
              Request (works 11 all_granted) (Launch (lit "a") None);
              Request (works 12 all_granted) (Launch (lit "b") None);
              Exit 10; Request (works 13 all_granted) (Launch (lit "a") (Some (lit "nobody")))] in
  let '(l, evs) := launcher_run root [] ops in
  l = [mk_process 12 (lit "b") None] /\
  map replies evs = [[Success]; [Error (lit "sorry")]; [Success]; []; [Error (lit "sorry")]] /\
  fresh_pids [] (combine ops evs).
Proof. cbn. repeat split; repeat constructor; cbn; intuition discriminate. Qed.

(** *** C56 *)

(** A process for which a user was asked runs as that user, with the user's group and groups, if the
    system grants all three changes; one for which none was asked runs as the launcher. *)
Theorem C56_runs_as_partial i l y line user :
  y_grants y = all_granted ->
  match user with
  | None => Forall (eq i) (runs_as (snd (launcher_step i l (Request y (Launch line user)))))
  | Some u => Forall (fun who => exists pw, y_passwd y u = Some pw /\
                                 who = mk_identity (pw_uid pw) (pw_gid pw) (Some (pw_name pw)))
                     (runs_as (snd (launcher_step i l (Request y (Launch line user)))))
  end.
Proof.
  intros G. destruct (request_cases i y l line user) as [(m & ->)|(pid & who & -> & _ & H)].
  - destruct user; constructor.
  - cbn [snd runs_as flat_map app]. destruct user as [u|].
    + destruct H as (pw & H & ->). constructor; [|constructor]. exists pw. split; [exact H|]. rewrite G. reflexivity.
    + subst who. repeat constructor.
Qed.
Print Assumptions C56_runs_as_partial.

(** When a change is refused the process is run all the same, and success is replied: it runs with the
    launcher's own user. *)
Theorem C56_refused_refuted i g :
  g_setgid g && g_initgroups g && g_setuid g = false ->
  let evs := snd (launcher_step i [] (Request (works 10 g) (Launch (lit "a") (Some (lit "mail"))))) in
  map i_uid (runs_as evs) = [i_uid i] /\ replies evs = [Success].
Proof. destruct g as [[] [] []]; cbn; intros H; try discriminate; split; reflexivity. Qed.
Print Assumptions C56_refused_refuted.

Example C56_example :
  runs_as (snd (launcher_step root [] (Request (works 10 all_granted) (Launch (lit "a") (Some (lit "mail")))))) =
  [mk_identity 8 12 (Some (lit "mail"))].
Proof. reflexivity. Qed.
