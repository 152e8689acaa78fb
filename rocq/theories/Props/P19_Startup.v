(** C68-C71: starting and stopping daemons. *)
From Verif.Base Require Import Bytes BytesFacts.
From Verif.Model Require Import Startup.
From Verif.Spec Require Import StartupSpec.
From Verif.Proofs Require Import StartupProofs.
Local Open Scope N_scope.

(** ** C68: the PID file and the socket at their paths are those of the running daemon. *)
Theorem C68_in_place_partial : forall conf f ops k i pid, separate conf ops ->
  let h := machine_run (fresh_machine f) ops in
  running (h_running h) k = Some (i, pid) -> i = conf k /\ in_place h k i pid.
Proof.
  intros conf f ops k i pid (O & A & F) h R.
  pose proof (run_inv conf O A ops _ (fresh_inv conf f) F) as I.
  split; [exact (v_conf _ _ I _ _ _ R) | exact (v_place _ _ I _ _ _ R)].
Qed.
Print Assumptions C68_in_place_partial.

(** Nothing else is touched. *)
Theorem C68_elsewhere : forall conf f ops q, separate conf ops ->
  (forall k i pid a, In (Start k i pid a) ops -> ~ In q (places i)) ->
  h_files (machine_run (fresh_machine f) ops) q = f q.
Proof.
  intros conf f ops q (O & A & F) N.
  rewrite (run_elsewhere conf O A ops (fresh_machine f) q (fresh_inv conf f) F); [reflexivity|].
  intros k [[]|K]. rewrite <- flat_map_concat_map in K. apply in_flat_map in K as (o & H & K).
  destruct o as [j i pid a|j a|j]; [|destruct K|destruct K]. destruct K as [->|[]].
  pose proof (proj1 (Forall_forall _ _) F _ H) as E. cbn beta iota in E. rewrite <- E. exact (N _ _ _ _ H).
Qed.
Print Assumptions C68_elsewhere.

(** A stop cleans up. *)
Theorem C68_stop_partial : forall conf f ops k i pid a, separate conf ops ->
  let h := machine_run (fresh_machine f) ops in
  running (h_running h) k = Some (i, pid) -> all_allowed a ->
  i_remove_on_close i = true -> i_remove_pid i = true ->
  let h' := fst (machine_step h (Stop k a)) in
  running (h_running h') k = None /\ (forall p, In p (places i) -> h_files h' p = None) /\
  (forall n, i_address i = Inet n -> h_ports h' n = None).
Proof.
  intros conf f ops k i pid a (O & A & F) h R W C1 C2.
  exact (stop_removes conf O h k i pid a (run_inv conf O A ops _ (fresh_inv conf f) F) R W C1 C2).
Qed.
Print Assumptions C68_stop_partial.

Definition sock : bytes := lit "/run/a.sock".
Definition pidf : bytes := lit "/run/a.pid".
Definition yes : allows := mk_allows true true true true true.
Definition one (first : bool) : instance := mk_instance (Unix sock) true true (Some pidf) true first.
Definition net (first : bool) : instance := mk_instance (Inet 10025) true true (Some pidf) true first.
Definition many (k : nat) : instance :=
  match k with 0%nat => one true | _ => mk_instance (Inet (N.of_nat k)) true true None true false end.

Example C68_example : let ops := [Start 0 (many 0) 5 yes; Start 1 (many 1) 6 yes; Crash 0; Start 0 (many 0) 7 yes] in
  separate many ops /\ 
  let h := machine_run (fresh_machine (fun _ => None)) ops in
  running (h_running h) 0 = Some (one true, 7) /\ h_files h pidf = Some (PidOf 7) /\ h_files h sock = Some (SocketOf 0) /\
  h_ports h 1 = Some 1%nat /\
  h_files (fst (machine_step h (Stop 0 yes))) pidf = None /\ h_files (fst (machine_step h (Stop 0 yes))) sock = None.
Proof.
  cbv zeta. split.
  - split; [|split].
    + intros [|k]; cbn; [|constructor]. constructor; [|constructor; [intros [] | constructor]].
      intros [H|[]]. discriminate.
    + intros [|j] [|k] H; split; cbn; try tauto; try congruence.
      intros m n E1 E2. injection E1 as <-. injection E2 as <-. lia.
    + repeat constructor.
  - repeat split.
Qed.

(** Two daemons with one socket: the second takes it over though the first is running, and the end of
    the first takes away the socket and the PID file of the second. *)
Theorem C68_taken_over_refuted : exists i ops more,
  let h := machine_run (fresh_machine (fun _ => None)) ops in
  let h' := machine_run h more in
  running (h_running h) 1 = Some (i, 1) /\ running (h_running h) 2 = Some (i, 2) /\
  ~ in_place h 1 i 1 /\
  running (h_running h') 2 = Some (i, 2) /\ forall p, In p (places i) -> h_files h' p = None.
Proof.
  exists (one true), [Start 1 (one true) 1 yes; Start 2 (one true) 2 yes], [Stop 1 yes].
  split; [reflexivity|]. split; [reflexivity|]. split; [intros [H _]; discriminate|]. split; [reflexivity|].
  intros p [<-|[<-|[]]]; reflexivity.
Qed.
Print Assumptions C68_taken_over_refuted.

(** A filter program started a second time by mistake fails, but takes the PID file of the first with it. *)
Theorem C68_failed_start_refuted : exists i ops,
  let h := machine_run (fresh_machine (fun _ => None)) ops in
  running (h_running h) 1 = Some (i, 1) /\ in_place h 1 i 1 /\
  let '(h', r) := machine_step h (Start 2 i 2 yes) in
  r = Some (Exits false) /\ running (h_running h') 1 = Some (i, 1) /\ h_files h' pidf = None /\ i_pid_file i = Some pidf.
Proof.
  exists (net false), [Start 1 (net false) 1 yes]. repeat split.
Qed.
Print Assumptions C68_failed_start_refuted.

(** If the PID file cannot be written milter-manager leaves its socket behind and says it succeeded. *)
Theorem C68_left_behind_refuted : exists i a,
  let '(h, r) := machine_step (fresh_machine (fun _ => None)) (Start 1 i 1 a) in
  r = Some (Exits true) /\ running (h_running h) 1 = None /\ h_files h sock = Some (SocketOf 1) /\
  i_remove_on_close i = true /\ i_address i = Unix sock.
Proof. exists (one true), (mk_allows true true false true true). repeat split. Qed.
Print Assumptions C68_left_behind_refuted.

(** ** C69: a daemon can be started again, whatever a crash left behind. *)
Theorem C69_restart : forall conf f ops k pid a, separate conf ops ->
  let h := machine_run (fresh_machine f) ops in
  running (h_running h) k = None -> all_allowed a -> i_remove_on_create (conf k) = true ->
  snd (machine_step h (Start k (conf k) pid a)) = Some Runs.
Proof.
  intros conf f ops k pid a (O & A & F) h R W C.
  exact (start_works conf A h k pid a (run_inv conf O A ops _ (fresh_inv conf f) F) R W C).
Qed.
Print Assumptions C69_restart.

Example C69_example :
  let h := machine_run (fresh_machine (fun _ => None)) [Start 0 (many 0) 5 yes; Crash 0] in
  h_files h sock = Some (SocketOf 0) /\ running (h_running h) 0 = None /\
  snd (machine_step h (Start 0 (many 0) 6 yes)) = Some Runs.
Proof. repeat split. Qed.

(** Without removal of old sockets it cannot. *)
Theorem C69_needs_removal : forall h k i pid a p, i_remove_on_create i = false -> i_address i = Unix p ->
  h_files h p <> None -> running (h_running h) k = None ->
  (i_pid_file i = Some p -> i_first i = true) ->
  snd (machine_step h (Start k i pid a)) = Some (Exits false).
Proof.
  intros h k i pid a p C A F R N. cbn [machine_step]. rewrite R. unfold start.
  assert (L : forall h', h_files h' p <> None -> snd (listen h' k i a) = false).
  { intros h' F'. unfold listen. rewrite A, C. destruct (h_files h' p) eqn:E; [|congruence].
    cbn [andb]. rewrite E. reflexivity. }
  destruct (i_first i).
  - specialize (L h F). destruct (listen h k i a) as [h1 ok]. cbn [snd] in L. subst ok. reflexivity.
  - unfold write_pid. destruct (i_pid_file i) as [q|] eqn:P.
    + destruct (a_write_pid a); [|reflexivity].
      assert (Q : q <> p) by (intros ->; specialize (N eq_refl); discriminate).
      match goal with |- context [listen ?x k i a] => specialize (L x) end. cbn [h_files] in L.
      rewrite put_other in L by exact Q. specialize (L F).
      match goal with |- context [listen ?x k i a] => destruct (listen x k i a) as [h1 ok] end. cbn [snd] in L. subst ok.
      destruct (cleanup h1 i false true a). reflexivity.
    + specialize (L h F). destruct (listen h k i a) as [h1 ok]. cbn [snd] in L. subst ok.
      destruct (cleanup h1 i false true a). reflexivity.
Qed.
Print Assumptions C69_needs_removal.

Example C69_needs_removal_example :
  let i := mk_instance (Unix sock) false true (Some pidf) true true in
  snd (machine_step (machine_run (fresh_machine (fun _ => None)) [Start 1 i 1 yes; Crash 1]) (Start 1 i 2 yes))
  = Some (Exits false).
Proof. reflexivity. Qed.

(** ** C70: root's rights are given up completely. *)
Theorem C70_dropped_partial : forall t user g unix w w' owner, w_uid w = 0 ->
  drop_privilege t user (Some g) unix w = (w', true, owner) ->
  exists e gid, t_user t (match user with Some u => u | None => lit "nobody" end) = Some e /\ t_group t g = Some gid /\
    w_uid w' = e_uid e /\ w_gid w' = gid /\ w_groups w' = gid :: e_member e /\
    (t_chown t = true -> unix = true -> owner = Some (w_uid w')) /\
    (e_uid e <> 0 -> gid <> 0 -> ~ In 0 (e_member e) -> unprivileged w').
Proof.
  intros t user g unix w w' owner Z E. destruct (drop_success _ _ _ _ _ _ _ Z E) as (e & gid & U & G & -> & ->).
  exists e, gid. cbn [w_uid w_gid w_groups]. split; [exact U|]. split; [exact G|]. do 3 (split; [reflexivity|]).
  split; [intros -> ->; reflexivity|]. intros A B C. split; [exact A|]. split; [exact B|]. cbn. intros [D|D]; [congruence | contradiction].
Qed.
Print Assumptions C70_dropped_partial.

(** Others keep what they have. *)
Theorem C70_others : forall t user group unix w, w_uid w <> 0 -> drop_privilege t user group unix w = (w, true, None).
Proof. exact drop_other. Qed.
Print Assumptions C70_others.

Definition root : who := mk_who 0 0 [0; 4].
Definition db : rights :=
  mk_rights (fun u => if bytes_eqb u (lit "milter") then Some (mk_entry (lit "milter") 100 [100; 50]) else None)
            (fun g => if bytes_eqb g (lit "milter") then Some 100 else None) true true true true.

Example C70_example :
  drop_privilege db (Some (lit "milter")) (Some (lit "milter")) true root = (mk_who 100 100 [100; 100; 50], true, Some 100)
  /\ unprivileged (mk_who 100 100 [100; 100; 50]).
Proof. split; [reflexivity|]. split; [discriminate|]. split; [discriminate|]. cbn. intuition discriminate. Qed.

(** With a user but without a group, which is the default, the group and all the supplementary groups
    of root are kept. *)
Theorem C70_groups_refuted : forall t u e unix w, w_uid w = 0 -> t_user t u = Some e -> t_setuid t = true ->
  exists owner, drop_privilege t (Some u) None unix w = (mk_who (e_uid e) (w_gid w) (w_groups w), true, owner).
Proof.
  intros t u e unix w Z U S. unfold drop_privilege, switch_group, switch_user, find_password. rewrite Z, U, S. cbn [N.eqb negb].
  eexists. reflexivity.
Qed.
Print Assumptions C70_groups_refuted.

Example C70_groups_example : exists owner w',
  drop_privilege db (Some (lit "milter")) None true root = (w', true, owner) /\ ~ unprivileged w'.
Proof. eexists _, _. split; [reflexivity|]. intros (_ & H & _). apply H. reflexivity. Qed.

(** A socket that cannot be given to the user is not an error. *)
Theorem C70_owner_refuted : exists t user group w w' owner,
  drop_privilege t user group true w = (w', true, owner) /\ w_uid w = 0 /\ w_uid w' <> 0 /\ owner <> Some (w_uid w').
Proof.
  exists (mk_rights (t_user db) (t_group db) false true true true), (Some (lit "milter")), (Some (lit "milter")), root.
  eexists _, _. split; [reflexivity|]. split; [reflexivity|]. split; discriminate.
Qed.
Print Assumptions C70_owner_refuted.

(** ** C71: milter-manager serves only with its socket open and the rights given up, and says so if it
    does not get that far. *)
Theorem C71_order : forall t k c w w', In (w', Serves) (fst (manager_main t k c w)) ->
  exists before after owner, fst (manager_main t k c w) = before ++ (w, Listens) :: after /\
    In (w', Serves) after /\ (forall x, ~ In (x, Serves) before) /\ (forall x, ~ In (x, ControllerListens) before) /\
    drop_privilege t (c_user c) (c_group c) (c_unix c) w = (w', true, owner) /\ k_run k = true.
Proof. exact main_serves. Qed.
Print Assumptions C71_order.

Theorem C71_rights : forall t k c w w', w_uid w = 0 ->
  In (w', Serves) (fst (manager_main t k c w)) \/ In (w', ControllerListens) (fst (manager_main t k c w)) ->
  exists e, t_user t (match c_user c with Some u => u | None => lit "nobody" end) = Some e /\ w_uid w' = e_uid e.
Proof.
  intros t k c w w' Z [H|H].
  - destruct (main_serves _ _ _ _ _ H) as (_ & _ & o & _ & _ & _ & _ & D & _). exact (drop_uid _ _ _ _ _ _ _ Z D).
  - destruct (main_controller _ _ _ _ _ H) as [o D]. exact (drop_uid _ _ _ _ _ _ _ Z D).
Qed.
Print Assumptions C71_rights.

(** Left out: failures of the last step, milter_client_run. *)
Theorem C71_failure_partial : forall t k c w, c_show c = false ->
  (snd (manager_main t k c w) = false -> forall w', ~ In (w', Serves) (fst (manager_main t k c w))) /\
  (k_run k = true -> (forall w', ~ In (w', Serves) (fst (manager_main t k c w))) -> snd (manager_main t k c w) = false).
Proof.
  intros t k c w S. split; [intros F w'; exact (main_failure _ _ _ _ _ F)|].
  intros R N. destruct (snd (manager_main t k c w)) eqn:F; [|reflexivity]. exfalso.
  unfold manager_main in F, N. rewrite S in F, N. cbv zeta in F, N.
  destruct (c_privilege c && (w_uid w =? 0) && negb (k_launcher k)); [discriminate|].
  destruct (negb (k_listen k)); [discriminate|].
  destruct (drop_privilege t (c_user c) (c_group c) (c_unix c) w) as [[w' ok] o].
  destruct (negb ok); [discriminate|]. destruct (c_daemon c && negb (k_daemonize k)); [discriminate|].
  rewrite R in N. apply (N w'). cbn [fst]. rewrite !in_app_iff. cbn [In]. tauto.
Qed.
Print Assumptions C71_failure_partial.

Theorem C71_success : forall t k c w w' owner,
  c_show c = false -> k_launcher k = true -> k_listen k = true -> k_daemonize k = true ->
  k_run k = true -> drop_privilege t (c_user c) (c_group c) (c_unix c) w = (w', true, owner) ->
  snd (manager_main t k c w) = true /\ In (w', Serves) (fst (manager_main t k c w)).
Proof. exact main_works. Qed.
Print Assumptions C71_success.

Definition fine : luck := mk_luck true true true true true true.
Definition usual : settings := mk_settings None false (Some (lit "milter")) (Some (lit "milter")) true true true.

Example C71_example : let m := mk_who 100 100 [100; 100; 50] in
  manager_main db fine usual root =
  ([(root, Load SystemDir); (root, Load (CustomDir (lit "milter"))); (root, Launcher); (root, Listens);
    (m, ControllerListens); (m, Daemonizes); (m, Serves)], true).
Proof. reflexivity. Qed.

(** If it cannot run, say because the PID file cannot be written, it says it succeeded. *)
Theorem C71_failure_refuted : exists t k c w,
  snd (manager_main t k c w) = true /\ c_show c = false /\ forall w', ~ In (w', Serves) (fst (manager_main t k c w)).
Proof.
  exists db, (mk_luck true true true true true false), usual, root. split; [reflexivity|]. split; [reflexivity|].
  intros w'. cbn. intuition discriminate.
Qed.
Print Assumptions C71_failure_refuted.

(** Files that the unprivileged user can write are evaluated as root. *)
Theorem C71_custom_refuted : forall t k c u e w, c_user c = Some u -> t_user t u = Some e -> k_custom k = true ->
  In (w, Load (CustomDir u)) (fst (manager_main t k c w)).
Proof.
  intros t k c u e w C U K. unfold manager_main.
  assert (H : In (w, Load (CustomDir u)) (load_all w (base_sources c ++ custom_of t k c))).
  { unfold load_all, custom_of. rewrite C, U, K. apply in_map_iff. exists (CustomDir u). split; [reflexivity|].
    apply in_or_app. right. left. reflexivity. }
  destruct (c_show c); cbn [fst]; [rewrite !in_app_iff; tauto|].
  destruct (c_privilege c && (w_uid w =? 0) && negb (k_launcher k)); cbn [fst]; [rewrite !in_app_iff; tauto|].
  destruct (k_listen k); cbn [negb fst]; [|rewrite !in_app_iff; tauto].
  destruct (drop_privilege t (c_user c) (c_group c) (c_unix c) w) as [[w1 ok] o].
  destruct ok; cbn [negb fst]; [|rewrite !in_app_iff; tauto].
  destruct (c_daemon c && negb (k_daemonize k)); cbn [fst]; rewrite !in_app_iff; tauto.
Qed.
Print Assumptions C71_custom_refuted.
