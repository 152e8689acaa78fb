(** C13, C14, C15: combining verdicts and options. *)
From Coq Require Import Permutation.
From Verif.Base Require Import Bytes.
From Verif.Model Require Import Decoder Status Option.
From Verif.Spec Require Import VerdictSpec.
From Verif.Proofs Require Import VerdictProofs.

(** *** C13 *)

Theorem C13_strongest_verdict vs v : Forall verdict vs ->
  compile_statuses None vs = Some v <-> strongest vs v.
Proof. exact (compile_strongest vs v). Qed.
Print Assumptions C13_strongest_verdict.

Theorem C13_verdict_exists vs : Forall verdict vs -> vs <> [] ->
  exists v, compile_statuses None vs = Some v.
Proof.
  intros Hv Hne. destruct (compile_strongest_from vs None) as (v & H & _); eauto.
Qed.
Print Assumptions C13_verdict_exists.

Theorem C13_order_irrelevant vs vs' : Forall verdict vs -> Permutation vs vs' ->
  compile_statuses None vs = compile_statuses None vs'.
Proof. exact (compile_permutation vs vs'). Qed.
Print Assumptions C13_order_irrelevant.

(** For two verdicts the comparison says which is stronger. *)
Theorem C13_compare v w : verdict v -> verdict w ->
  ((status_compare v w > 0)%Z <-> stronger v w) /\
  ((status_compare v w < 0)%Z <-> stronger w v) /\
  ((status_compare v w = 0)%Z <-> v = w).
Proof.
  rewrite !stronger_rank. intros Hv Hw. apply verdict_rank in Hv, Hw.
  destruct v, w; cbn in *; try lia; intuition (try lia; try congruence).
Qed.
Print Assumptions C13_compare.

Example C13_example :
  Forall verdict [S_ACCEPT; S_TEMPORARY_FAILURE; S_CONTINUE; S_REJECT; S_ACCEPT] /\
  compile_statuses None [S_ACCEPT; S_TEMPORARY_FAILURE; S_CONTINUE; S_REJECT; S_ACCEPT] = Some S_REJECT.
Proof. split; [repeat constructor; cbn; tauto|reflexivity]. Qed.

Local Open Scope N_scope.

(** *** C14 *)

Theorem C14_combine dest src :
  let '(ok, o) := option_combine dest src in
  (ok = true <-> o_version src <= o_version dest) /\
  (ok = false -> o = dest) /\
  (ok = true ->
     o_version o = o_version src /\
     (forall i, N.testbit (o_action o) i = true <->
                N.testbit (o_action dest) i = true /\ N.testbit (o_action src) i = true) /\
     (forall i, N.testbit (o_step o) i = true <->
                N.testbit (o_step dest) i = true /\ N.testbit (o_step src) i = true)).
Proof.
  unfold option_combine. destruct (o_version dest <? o_version src) eqn:E.
  - split; [split; [discriminate|lia]|]. split; [reflexivity|discriminate].
  - split; [split; [lia|reflexivity]|]. split; [discriminate|]. intros _. cbn [o_version o_action o_step].
    split; [reflexivity|]. split; intros i; rewrite N.land_spec, andb_true_iff; reflexivity.
Qed.
Print Assumptions C14_combine.

Example C14_example :
  option_combine (mk_option 6 0x1ff 0x1fffff) (mk_option 4 0x21 0x2) = (true, mk_option 4 0x21 0x2) /\
  option_combine (mk_option 2 0x3f 0x7f) (mk_option 6 0x1ff 0) = (false, mk_option 2 0x3f 0x7f).
Proof. split; reflexivity. Qed.

(** *** C15 *)

(** Filters that ask for a newer protocol than [dest]'s are left out; see C14 for why they
    cannot have negotiated. *)
Theorem C15_actions dest os i :
  N.testbit (o_action (option_merge_all dest os)) i = true <->
  N.testbit (o_action dest) i = true \/
  exists o, In o os /\ o_version o <= o_version dest /\ N.testbit (o_action o) i = true.
Proof. exact (merge_all_action os i dest). Qed.
Print Assumptions C15_actions.

Theorem C15_suppressed dest os i : In i (no_event_bits ++ no_reply_bits) ->
  N.testbit (o_step (option_merge_all dest os)) i = true <->
  N.testbit (o_step dest) i = true /\
  forall o, In o os -> o_version o <= o_version dest -> N.testbit (o_step o) i = true.
Proof. exact (merge_all_no os i dest). Qed.
Print Assumptions C15_suppressed.

Theorem C15_enabled dest os i : In i yes_bits ->
  N.testbit (o_step (option_merge_all dest os)) i = true <->
  N.testbit (o_step dest) i = true \/
  exists o, In o os /\ o_version o <= o_version dest /\ N.testbit (o_step o) i = true.
Proof. exact (merge_all_yes os i dest). Qed.
Print Assumptions C15_enabled.

Theorem C15_unknown_steps_dropped dest os i :
  ~ In i (no_event_bits ++ no_reply_bits) -> ~ In i yes_bits ->
  (exists o, In o os /\ o_version o <= o_version dest) ->
  N.testbit (o_step (option_merge_all dest os)) i = false.
Proof. exact (merge_all_unknown os i dest). Qed.
Print Assumptions C15_unknown_steps_dropped.

Theorem C15_version dest os : o_version (option_merge_all dest os) = o_version dest.
Proof. exact (merge_all_version os dest). Qed.
Print Assumptions C15_version.

Theorem C15_order_irrelevant dest os os' : Permutation os os' ->
  option_merge_all dest os = option_merge_all dest os'.
Proof. intros H. exact (merge_all_permutation os os' H dest). Qed.
Print Assumptions C15_order_irrelevant.

Example C15_example :
  option_merge_all (mk_option 6 0x1 0x1fffff) [mk_option 6 0x10 0x80002; mk_option 2 0x20 0x403] =
  mk_option 6 0x31 0x100c02.
Proof. reflexivity. Qed.
