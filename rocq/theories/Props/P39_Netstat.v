(** C102, C103: the connection checker that asks netstat. *)
From Verif.Base Require Import Bytes BytesFacts.
From Verif.Model Require Import ConnectionSpec Netstat.
From Verif.Spec Require Import NetstatSpec.
From Verif.Proofs Require Import NetstatProofs.
Import List.
Local Open Scope N_scope.

(** After any use of the checker, a session is given up if and only if the server is local, netstat
    is there, the client's port is known and the output of the run made at this check shows last, of
    the connections with the client, one in state CLOSE_WAIT or without state. *)
Theorem C102_given_up : forall netstat found lifetime us now local six text port rs out,
  let s := do_uses netstat (new_checker found lifetime) us in
  netstat (ck_runs s) = Output out -> prints rs out ->
  (snd (check netstat now s local (mk_client (family_six six) text port)) = false <->
   local = true /\ found = true /\ port <> 0 /\
   exists r, shown rs six (text, decimal port) r /\ (rw_state r = None \/ rw_state r = Some (lit "CLOSE_WAIT"))).
Proof.
  intros netstat found lifetime us now local six text port rs out s E P.
  destruct (uses_reached netstat found lifetime us) as [F L]. fold s in F, L. clearbody s.
  set (c := mk_client (family_six six) text port).
  unfold check, connected. destruct local; cbn [negb]; [|split; [discriminate|intros (? & _); discriminate]].
  destruct (sought s c) eqn:K.
  - assert (G : found = true /\ port <> 0).
    { unfold sought in K. rewrite F in K. apply andb_prop in K. destruct K as [K1 K2]. split; [exact K1|].
      unfold c in K2. destruct six; cbn [family_six cl_family cl_port] in K2; intros ->; discriminate. }
    destruct G as [Gf Gp]. rewrite (info_sought netstat now s c false K).
    destruct (lookup_printed netstat s rs out six text port L E P now) as [O H].
    destruct (update_database netstat now s) as [s' ok]. cbn [fst snd] in O, H. subst ok. cbn [negb].
    fold c in H. destruct (lookup s' c) as [i|]; cbn [snd].
    + destruct H as (r & S & ->). cbn [info_of in_state]. split.
      * intros B. do 3 (split; [assumption || reflexivity|]). exists r. split; [exact S|].
        destruct (rw_state r) as [st|]; [right|left; reflexivity].
        apply negb_false_iff, bytes_eqb_eq in B. subst. reflexivity.
      * intros (_ & _ & _ & r' & S' & B). rewrite <- (shown_unique _ _ _ _ _ S S') in B.
        destruct B as [B|B]; rewrite B; [reflexivity|]. rewrite bytes_eqb_refl. reflexivity.
    + split; [discriminate|]. intros (_ & _ & _ & r & S & _). exfalso. exact (shown_none _ _ _ _ S H).
  - rewrite (info_unsought netstat now s c false K). cbn [snd]. split; [discriminate|].
    intros (_ & Gf & Gp & _). exfalso. unfold sought in K. rewrite F, Gf in K. unfold c in K.
    destruct six; cbn [family_six cl_family cl_port andb] in K; apply negb_false_iff, N.eqb_eq in K; contradiction.
Qed.
Print Assumptions C102_given_up.
(** Without an output no session is given up: netstat missing, failing or not to be run, and
    clients that do not use TCP. *)
Theorem C102_without_output : forall netstat s now local c,
  ck_found s = false \/ cl_family c = OtherFamily \/
  ck_last_update s = None /\ (netstat (ck_runs s) = Fails \/ netstat (ck_runs s) = CannotRun) ->
  snd (check netstat now s local c) = true.
Proof.
  intros netstat s now local c H. unfold check, connected. destruct local; [|reflexivity]. cbn [negb].
  destruct (sought s c) eqn:K.
  - assert (G : ck_last_update s = None /\ (netstat (ck_runs s) = Fails \/ netstat (ck_runs s) = CannotRun)).
    { unfold sought in K. destruct H as [H|[H|H]]; [rewrite H in K; discriminate|rewrite H in K; rewrite andb_false_r in K; discriminate|exact H]. }
    destruct G as [L G]. rewrite (info_sought netstat now s c false K), (update_always netstat now s L).
    destruct G as [G|G]; rewrite G; cbn [negb]; [|reflexivity].
    unfold lookup. cbn [ck_database]. destruct (cl_family c); reflexivity.
  - rewrite (info_unsought netstat now s c false K). reflexivity.
Qed.
Print Assumptions C102_without_output.

Definition sample : bytes :=
  lit "Active Internet connections (w/o servers)" ++ byte_of 10 ::
  lit "Proto Recv-Q Send-Q Local Address           Foreign Address         State      " ++ byte_of 10 ::
  lit "tcp        0      0 192.168.1.2:25          203.0.113.9:40000       ESTABLISHED" ++ byte_of 10 ::
  lit "tcp6       1      0 ::1:25                  ::1:50000               CLOSE_WAIT " ++ byte_of 10 :: [].
Definition sample_rows : list row :=
  [ mk_row false (lit "192.168.1.2", lit "25") (lit "203.0.113.9", lit "40000") (Some (lit "ESTABLISHED"));
    mk_row true (lit "::1", lit "25") (lit "::1", lit "50000") (Some (lit "CLOSE_WAIT")) ].

Ltac not_in := let H := fresh in intros H; cbn in H; repeat (destruct H as [H|H]; [discriminate|]); exact H.
Ltac col := split; [discriminate|repeat (apply Forall_cons; [right; split; [reflexivity|discriminate]|]); apply Forall_nil].
Ltac gap_ := split; [discriminate|repeat constructor].
Lemma sample_printed : prints sample_rows sample.
Proof.
  unfold sample, sample_rows.
  apply prints_other; [not_in|intros b'; discriminate|].
  apply prints_other; [not_in|intros b'; discriminate|].
  apply prints_connection.
  { exists (lit "tcp"), (lit "        "), (lit "      "), (lit " "), (lit "          "), (lit "0"), (lit "0"),
      (lit "192.168.1.2:25"), (lit "203.0.113.9:40000"), (lit "       ESTABLISHED").
    split; [left; reflexivity|]. do 4 (split; [gap_|]). do 2 (split; [col|]).
    do 2 (split; [split; [exists ":"%char; split; [left; reflexivity|reflexivity]|split; [not_in|split; [discriminate|split; [not_in|split; [not_in|col]]]]]|]).
    split; [|reflexivity]. split; [col|]. exists (lit "       "), []. split; [gap_|]. split; [reflexivity|]. split; [left; reflexivity|not_in]. }
  apply prints_connection.
  { exists (lit "tcp6"), (lit "       "), (lit "      "), (lit " "), (lit "                  "), (lit "1"), (lit "0"),
      (lit "::1:25"), (lit "::1:50000"), (lit "               CLOSE_WAIT ").
    split; [reflexivity|]. do 4 (split; [gap_|]). do 2 (split; [col|]).
    do 2 (split; [split; [exists ":"%char; split; [left; reflexivity|reflexivity]|split; [not_in|split; [discriminate|split; [not_in|split; [not_in|col]]]]]|]).
    split; [|reflexivity]. split; [col|]. exists (lit "               "), (lit " "). split; [gap_|]. split; [reflexivity|].
    split; [right; eexists _, _; split; [reflexivity|left; reflexivity]|not_in]. }
  constructor.
Qed.
Definition always (out : bytes) : nat -> ran := fun _ => Output out.
Example C102_example :
  snd (check (always sample) 7 (new_checker true 5) true (mk_client Inet6 (lit "::1") 50000)) = false /\
  snd (check (always sample) 7 (new_checker true 5) true (mk_client Inet4 (lit "203.0.113.9") 40000)) = true /\
  snd (check (always sample) 7 (new_checker true 5) true (mk_client Inet4 (lit "203.0.113.9") 40001)) = true /\
  snd (check (always sample) 7 (new_checker true 5) false (mk_client Inet6 (lit "::1") 50000)) = true.
Proof. vm_compute. auto. Qed.

(** A session that netstat shows as closed is kept: when the SMTP server listens on a socket for
    both kinds of addresses, so that its IPv4 clients are shown in the lines for tcp6; when an IPv6
    address is shown with dots. *)
Definition mapped : bytes :=
  lit "tcp6 0 0 ::ffff:192.168.1.2:25 ::ffff:203.0.113.9:40000 CLOSE_WAIT" ++ [byte_of 10].
Theorem C102_mapped_refuted : ~ (forall lifetime now c,
  cl_port c = 40000 -> cl_text c = lit "203.0.113.9" \/ cl_text c = lit "::ffff:203.0.113.9" ->
  cl_family c <> OtherFamily ->
  snd (check (always mapped) now (new_checker true lifetime) true c) = false).
Proof.
  intros H. specialize (H 5 0 (mk_client Inet6 (lit "::ffff:203.0.113.9") 40000) eq_refl (or_intror eq_refl) ltac:(discriminate)).
  vm_compute in H. discriminate.
Qed.
Print Assumptions C102_mapped_refuted.
Theorem C102_dual_stack_refuted : ~ (forall lifetime now,
  snd (check (always (lit "tcp6 0 0 192.168.1.2:25 203.0.113.9:40000 CLOSE_WAIT" ++ [byte_of 10])) now
         (new_checker true lifetime) true (mk_client Inet4 (lit "203.0.113.9") 40000)) = false).
Proof. intros H. specialize (H 5 0). vm_compute in H. discriminate. Qed.
Print Assumptions C102_dual_stack_refuted.
(** One line for a protocol with another name, as "tcp46" on FreeBSD, and no session is given up. *)
Theorem C102_tcp46_refuted : ~ (forall other, ~ In (byte_of 10) other ->
  snd (check (always (other ++ byte_of 10 :: sample)) 0 (new_checker true 5) true (mk_client Inet6 (lit "::1") 50000)) = false).
Proof.
  intros H. specialize (H (lit "tcp46 0 0 *.25 *.* LISTEN") ltac:(not_in)). vm_compute in H. discriminate.
Qed.
Print Assumptions C102_tcp46_refuted.
(** A connection that has gone, or is closing in another way, counts as there. *)
Theorem C102_gone_refuted : ~ (forall rs out six text port, prints rs out -> port <> 0 ->
  (forall r, shown rs six (text, decimal port) r -> rw_state r <> Some (lit "ESTABLISHED")) ->
  snd (check (always out) 0 (new_checker true 5) true (mk_client (family_six six) text port)) = false).
Proof.
  intros H. specialize (H [] [] false (lit "203.0.113.9") 40000 prints_end ltac:(discriminate)).
  assert (G : forall r, shown [] false (lit "203.0.113.9", decimal 40000) r -> rw_state r <> Some (lit "ESTABLISHED")).
  { intros r (b & a & E & _). destruct b; discriminate. }
  specialize (H G). vm_compute in H. discriminate.
Qed.
Print Assumptions C102_gone_refuted.

(** The interface is that of the last connection shown, if it is established; a second run is made
    if the first does not show the client. *)
Theorem C103_interface : forall netstat lifetime us now six text port rs out rs' out',
  let s := do_uses netstat (new_checker true lifetime) us in
  netstat (ck_runs s) = Output out -> prints rs out ->
  netstat (Datatypes.S (ck_runs s)) = Output out' -> prints rs' out' ->
  port <> 0 ->
  exists answer, snd (interface netstat now s (mk_client (family_six six) text port)) = Gives answer /\
  let peer := (text, decimal port) in
  (forall r, shown rs six peer r \/ (Forall (fun r => ~ is_with six peer r) rs /\ shown rs' six peer r) ->
     rw_state r = Some (lit "ESTABLISHED") -> answer = Some (fst (rw_local r), Some (snd (rw_local r)))) /\
  (forall r, shown rs six peer r \/ (Forall (fun r => ~ is_with six peer r) rs /\ shown rs' six peer r) ->
     rw_state r <> Some (lit "ESTABLISHED") -> answer = None) /\
  (Forall (fun r => ~ is_with six peer r) (rs ++ rs') -> answer = None).
Proof.
  intros netstat lifetime us now six text port rs out rs' out' s E P E' P' Np.
  destruct (uses_reached netstat true lifetime us) as [F L]. fold s in F, L. clearbody s.
  set (c := mk_client (family_six six) text port).
  assert (K : sought s c = true).
  { unfold sought. rewrite F. unfold c. destruct six; cbn [family_six cl_family cl_port andb]; apply negb_true_iff, N.eqb_neq; exact Np. }
  assert (Q : forall r, (if established (info_of r) then Some (in_local_ip (info_of r), in_local_port (info_of r)) else None) =
                        match rw_state r with Some st => if bytes_eqb st (lit "ESTABLISHED") then Some (fst (rw_local r), Some (snd (rw_local r))) else None | None => None end).
  { intros r. unfold established. cbn [info_of in_state in_local_ip in_local_port]. destruct (rw_state r); reflexivity. }
  assert (Q1 : forall r, rw_state r = Some (lit "ESTABLISHED") ->
     match rw_state r with Some st => if bytes_eqb st (lit "ESTABLISHED") then Some (fst (rw_local r), Some (snd (rw_local r))) else None | None => None end = Some (fst (rw_local r), Some (snd (rw_local r)))).
  { intros r ->. rewrite bytes_eqb_refl. reflexivity. }
  assert (Q2 : forall r, rw_state r <> Some (lit "ESTABLISHED") ->
     match rw_state r with Some st => if bytes_eqb st (lit "ESTABLISHED") then Some (fst (rw_local r), Some (snd (rw_local r))) else None | None => None end = None).
  { intros r H. destruct (rw_state r) as [st|]; [|reflexivity]. destruct (bytes_eqb st (lit "ESTABLISHED")) eqn:B; [|reflexivity].
    apply bytes_eqb_eq in B. congruence. }
  unfold interface. rewrite (info_sought netstat now s c true K).
  destruct (lookup_printed netstat s rs out six text port L E P now) as [O H].
  rewrite (update_always netstat now s L) in *. cbn [fst snd] in O, H. rewrite O. cbn [negb].
  fold c in H.
  match type of H with context [lookup ?a ?b] => set (s1 := a) in *; destruct (lookup s1 b) as [i|] end.
  - destruct H as (r0 & S0 & ->). cbn [snd]. eexists. split; [reflexivity|]. cbn zeta. rewrite Q. repeat split.
    + intros r [S|[N S]] B; [rewrite (shown_unique _ _ _ _ _ S0 S); apply Q1; exact B|exfalso; exact (shown_none _ _ _ _ S0 N)].
    + intros r [S|[N S]] B; [rewrite (shown_unique _ _ _ _ _ S0 S); apply Q2; exact B|exfalso; exact (shown_none _ _ _ _ S0 N)].
    + intros N. apply Forall_app in N. exfalso. exact (shown_none _ _ _ _ S0 (proj1 N)).
  - destruct (lookup_printed netstat (purge_cache s1) rs' out' six text port eq_refl E' P' now) as [O' H'].
    destruct (update_database netstat now (purge_cache s1)) as [s2 ok]. cbn [fst snd] in O', H'. subst ok. cbn [negb].
    fold c in H'. destruct (lookup s2 c) as [i|].
    + destruct H' as (r0 & S0 & ->). cbn [snd]. eexists. split; [reflexivity|]. cbn zeta. rewrite Q. repeat split.
      * intros r [S|[_ S]] B; [exfalso; exact (shown_none _ _ _ _ S H)|rewrite (shown_unique _ _ _ _ _ S0 S); apply Q1; exact B].
      * intros r [S|[_ S]] B; [exfalso; exact (shown_none _ _ _ _ S H)|rewrite (shown_unique _ _ _ _ _ S0 S); apply Q2; exact B].
      * intros N. apply Forall_app in N. exfalso. exact (shown_none _ _ _ _ S0 (proj2 N)).
    + cbn [snd]. eexists. split; [reflexivity|]. cbn zeta. repeat split.
      * intros r [S|[_ S]]; [exfalso; exact (shown_none _ _ _ _ S H)|exfalso; exact (shown_none _ _ _ _ S H')].
Qed.
Print Assumptions C103_interface.
Example C103_example :
  snd (interface (always sample) 0 (new_checker true 5) (mk_client Inet4 (lit "203.0.113.9") 40000)) =
  Gives (Some (lit "192.168.1.2", Some (lit "25"))).
Proof. reflexivity. Qed.

(** netstat is run at every check of a local server with a known client, whatever the lifetime of
    the database. *)
Definition asks (found : bool) (u : use) : bool :=
  match u with
  | Check _ local c => local && found && match cl_family c with OtherFamily => false | _ => negb (cl_port c =? 0) end
  | Interface _ c => false
  end.
Theorem C103_runs : forall netstat found lifetime us,
  (forall now c, ~ In (Interface now c) us) ->
  ck_runs (do_uses netstat (new_checker found lifetime) us) = length (filter (asks found) us).
Proof.
  intros netstat found lifetime us. induction us as [|u us IH] using rev_ind; intros H; [reflexivity|].
  unfold do_uses in *. rewrite fold_left_app, filter_app, app_length. cbn [fold_left].
  rewrite <- IH by (intros now c I; apply (H now c); rewrite in_app_iff; auto). clear IH.
  destruct (uses_reached netstat found lifetime us) as [F L]. unfold do_uses in F, L.
  set (s := fold_left (do_use netstat) us (new_checker found lifetime)) in *.
  destruct u as [now local c|now c]; [|exfalso; apply (H now c); rewrite in_app_iff; right; left; reflexivity].
  cbn [do_use filter asks]. unfold check, connected. destruct local; cbn [negb andb]; [|cbn [fst length]; lia].
  destruct (connection_info netstat now s c false) as [s' r] eqn:E. cbn [fst].
  destruct (info_runs netstat now s c false s' r L E) as [_ R]. unfold sought in R. rewrite F in R.
  match type of R with context [if ?b then _ else _] => destruct b end; cbn [length]; lia.
Qed.
Print Assumptions C103_runs.
Theorem C103_lifetime_refuted : ~ (forall now c, 
  let s := fst (check (always sample) now (new_checker true 5) true c) in
  ck_runs (fst (check (always sample) now s true c)) = ck_runs s).
Proof. intros H. specialize (H 0 (mk_client Inet6 (lit "::1") 50000)). vm_compute in H. discriminate. Qed.
Print Assumptions C103_lifetime_refuted.
