(** The accounting of recipients. *)
From Verif.Base Require Import Bytes BytesFacts.
From Verif.Model Require Import Decoder Encoder CommandCodec ReplyCodec Status Option Macros Client
                                Server.
From Verif.Spec Require Import ServerSpec.
From Verif.Proofs Require Import ServerInv.
From Coq Require Import ZifyBool ZifyNat ZifyN Permutation.
Local Open Scope N_scope.

Section Recipients.
  Variables (ntop4 ntop6 : bytes -> bytes).
  Variable sort_keys : list bytes -> list bytes.
  Notation run := (server_run ntop4 ntop6 sort_keys (fun _ => Taken) (fun _ => false) (fun _ => None)).

  (** A session between two commands whose filter wants and answers recipients. *)
  Record ready (m : message) (s : server) : Prop := {
    rd_crashed : sv_crashed s = false;
    rd_timer : sv_timer s = None;
    rd_next : sv_next s = [];
    rd_quitted : sv_quitted s = false;
    rd_option : exists o, sv_option s = Some o /\
                  N.land (o_step o) STEP_NO_ENVELOPE_RECIPIENT = 0 /\
                  N.land (o_step o) STEP_NO_REPLY_ENVELOPE_RECIPIENT = 0;
    rd_message : sv_message s = Some m
  }.

  Lemma quiet_react depth s :
    Server.react ntop4 ntop6 sort_keys (fun _ => Taken) (fun _ => false) (fun _ => None) depth s = s.
  Proof. destruct depth; cbn; [reflexivity|]. now destruct (sv_crashed s). Qed.

  Definition round (p : bytes * reply) : list op := [Call (ARcpt (fst p)); Flushed; Receive (snd p)].

  (** The message's data after a recipient was answered. *)
  Definition answered (m : message) (r : bytes) (a : reply) (m' : message) : Prop :=
    match refusal a with
    | None => mr_recipients m' = mr_recipients m ++ [r] /\ mr_tempfailed m' = mr_tempfailed m /\
              mr_rejected m' = mr_rejected m
    | Some S_TEMPORARY_FAILURE =>
        mr_recipients m' = remove_first (mr_recipients m ++ [r]) r /\
        mr_tempfailed m' = mr_tempfailed m ++ [Some r] /\ mr_rejected m' = mr_rejected m
    | Some _ =>
        mr_recipients m' = remove_first (mr_recipients m ++ [r]) r /\
        mr_tempfailed m' = mr_tempfailed m /\ mr_rejected m' = mr_rejected m ++ [Some r]
    end.

  Lemma called depth s r m :
    ready m s ->
    let s1 := server_step ntop4 ntop6 sort_keys (fun _ => Taken) (fun _ => false) (fun _ => None)
                depth s (Call (ARcpt r)) in
    sv_crashed s1 = false /\ sv_next s1 = [XRcpt] /\ sv_quitted s1 = false /\
    sv_option s1 = sv_option s /\ sv_current s1 = Some r /\
    exists m1, sv_message s1 = Some m1 /\ mr_recipients m1 = mr_recipients m ++ [r] /\
      mr_tempfailed m1 = mr_tempfailed m /\ mr_rejected m1 = mr_rejected m.
  Proof.
    intros [] s1. destruct rd_option0 as (o & Eo & Hno & _).
    destruct s. cbn in *. subst.
    unfold s1, server_step, step, call, call_body, log, enter, is_enable_step, send, write_packet,
      macro_prefix.
    cbn -[encode_command macros_before N.land Server.react]. rewrite Hno.
    cbn -[encode_command macros_before N.land Server.react].
    match goal with |- context [macros_before ?a ?b ?c] => destruct (macros_before a b c) as [[t|] a'] end;
      cbn -[encode_command Server.react];
      (split; [reflexivity|split; [reflexivity|split; [reflexivity|split; [reflexivity|split;
        [reflexivity|eexists; split; [reflexivity|auto]]]]]]).
  Qed.

  Lemma flushed_rcpt depth s o :
    sv_crashed s = false -> sv_next s = [XRcpt] -> sv_option s = Some o ->
    N.land (o_step o) STEP_NO_REPLY_ENVELOPE_RECIPIENT = 0 ->
    let s1 := server_step ntop4 ntop6 sort_keys (fun _ => Taken) (fun _ => false) (fun _ => None)
                depth s Flushed in
    sv_crashed s1 = false /\ sv_next s1 = [] /\ sv_quitted s1 = sv_quitted s /\
    sv_option s1 = Some o /\ sv_current s1 = sv_current s /\ sv_message s1 = sv_message s /\
    sv_state s1 = XRcpt.
  Proof.
    intros Hc Hn Ho Hs s1. destruct s. cbn in *. subst.
    unfold s1, server_step, step, log, flushed, deliver, emit, process_next_state, set_state, log, need_reply.
    cbn -[N.land Server.react]. rewrite Hs. cbn -[Server.react]. rewrite quiet_react. cbn. auto 10.
  Qed.

  (** The state after a refusal was noted, but for the timer and the history. *)
  Definition noted (s s' : server) (m' : message) : Prop :=
    sv_crashed s' = false /\ sv_next s' = sv_next s /\ sv_quitted s' = sv_quitted s /\
    sv_state s' = sv_state s /\ sv_option s' = sv_option s /\ sv_message s' = Some m'.

  Lemma refused s v r m1 :
    sv_crashed s = false -> sv_state s = XRcpt -> sv_current s = Some r -> sv_message s = Some m1 ->
    noted s (refuse s v)
      (let m2 := match v with
                 | S_TEMPORARY_FAILURE =>
                     mr_put_recipients m1 (mr_recipients m1) (mr_tempfailed m1 ++ [Some r]) (mr_rejected m1)
                 | _ =>
                     mr_put_recipients m1 (mr_recipients m1) (mr_tempfailed m1) (mr_rejected m1 ++ [Some r])
                 end in
       mr_put_recipients m2 (remove_first (mr_recipients m2) r) (mr_tempfailed m2) (mr_rejected m2)).
  Proof.
    intros Hc Hs Hr Hm. unfold refuse. rewrite Hs. unfold refuse_recipient. rewrite Hr.
    unfold noted, on_message. cbn. rewrite Hm, Hs. auto 10.
  Qed.

  Notation quiet := (Server.react ntop4 ntop6 sort_keys (fun _ => Taken) (fun _ => false) (fun _ => None)).

  Lemma quiet_emit depth s e : emit (quiet depth) s e = log s e.
  Proof. apply quiet_react. Qed.

  Lemma final_rcpt depth s r m :
    sv_crashed s = false -> sv_state s = XRcpt -> sv_quitted s = false -> sv_message s = Some m ->
    noted s (final_reply (quiet depth) s r true) m /\ sv_timer (final_reply (quiet depth) s r true) = None.
  Proof.
    intros Hc Hs Hq Hm. unfold final_reply. cbn [sv_quitted disable_timeout put_timer]. rewrite Hq.
    rewrite quiet_emit, log_eq by exact Hc. unfold end_message. cbn [sv_state put_trace disable_timeout put_timer].
    rewrite Hs. cbn. rewrite Hs. unfold noted. cbn. auto 10.
  Qed.

  Lemma answer depth s r a m1 m :
    sv_crashed s = false -> sv_next s = [] -> sv_quitted s = false -> sv_state s = XRcpt ->
    sv_current s = Some r -> sv_message s = Some m1 ->
    mr_recipients m1 = mr_recipients m ++ [r] -> mr_tempfailed m1 = mr_tempfailed m ->
    mr_rejected m1 = mr_rejected m -> answers_recipient a = true ->
    (exists o, sv_option s = Some o /\ N.land (o_step o) STEP_NO_ENVELOPE_RECIPIENT = 0 /\
               N.land (o_step o) STEP_NO_REPLY_ENVELOPE_RECIPIENT = 0) ->
    let s1 := server_step ntop4 ntop6 sort_keys (fun _ => Taken) (fun _ => false) (fun _ => None)
                depth s (Receive a) in
    exists m', ready m' s1 /\ answered m r a m'.
  Proof.
    intros Hc Hn Hq Hst Hcu Hm Er Et Ej Ha Ho s1.
    assert (Hready : forall s0 s' m', noted s0 s' m' -> sv_next s0 = [] -> sv_quitted s0 = false ->
              sv_option s0 = sv_option s -> sv_timer s' = None -> ready m' s').
    { intros s0 s' m' (A & B & C & D & E & G) H1 H2 H3 Ht. constructor; try congruence.
      rewrite E, H3. exact Ho. }
    unfold s1, server_step, step. rewrite Hc. rewrite log_eq by exact Hc.
    set (s0 := put_trace s (In (Receive a) :: sv_trace s)).
    assert (Hrefuse : forall v, noted s0 (refuse s0 v) _)
      by (intros v; apply (refused s0 v r m1); assumption).
    unfold answered.
    destruct a; try discriminate Ha; cbn [receive refusal].
    - (* continue *)
      cbn [sv_state disable_timeout put_timer]. change (sv_state s0) with (sv_state s).
      rewrite Hst. cbn [answerable sv_quitted disable_timeout put_timer].
      change (sv_quitted s0) with (sv_quitted s). rewrite Hq. cbn zeta. rewrite quiet_emit, log_eq by exact Hc.
      cbn [sv_state put_trace put_timer disable_timeout]. change (sv_state s0) with (sv_state s). rewrite Hst.
      exists m1. split; [|auto]. constructor; auto.
    - (* reply-code *)
      set (v := if _ && _ then _ else _). specialize (Hrefuse v).
      remember (refuse s0 v) as s2 eqn:E2. clear E2.
      destruct Hrefuse as (A & B & C & D & E & G). rewrite A.
      cbn [sv_state disable_timeout put_timer]. rewrite D. change (sv_state s0) with (sv_state s).
      rewrite Hst. cbn [answerable]. cbn zeta. cbn [sv_quitted disable_timeout put_timer]. rewrite C.
      change (sv_quitted s0) with (sv_quitted s). rewrite Hq, quiet_emit, log_eq by exact A.
      unfold end_message. cbn [sv_state put_trace disable_timeout put_timer]. rewrite D.
      change (sv_state s0) with (sv_state s). rewrite Hst. cbn [sstate_in sstate_rank N.leb N.compare
        Pos.compare Pos.compare_cont sstate_eqb N.eqb Pos.eqb andb negb].
      eexists. split.
      + constructor; cbn [sv_crashed sv_timer sv_next sv_quitted sv_option sv_message put_trace
                          disable_timeout put_timer];
          [exact A|reflexivity|now rewrite B|now rewrite C|rewrite E; exact Ho|exact G].
      + unfold v. destruct (_ && _); cbn; rewrite ?Er, ?Et, ?Ej; auto.
    - specialize (Hrefuse S_TEMPORARY_FAILURE).
      remember (refuse s0 S_TEMPORARY_FAILURE) as s2 eqn:E2. clear E2.
      destruct Hrefuse as (A & B & C & D & E & G). rewrite A.
      destruct (final_rcpt depth s2 RTemporaryFailure _ A (eq_trans D Hst) (eq_trans C Hq) G) as [K1 K2].
      eexists. split; [eapply Hready; [exact K1|exact (eq_trans B Hn)|exact (eq_trans C Hq)|exact E|exact K2]|].
      cbn; rewrite ?Er, ?Et, ?Ej; auto.
    - specialize (Hrefuse S_REJECT).
      remember (refuse s0 S_REJECT) as s2 eqn:E2. clear E2.
      destruct Hrefuse as (A & B & C & D & E & G). rewrite A.
      destruct (final_rcpt depth s2 RReject _ A (eq_trans D Hst) (eq_trans C Hq) G) as [K1 K2].
      eexists. split; [eapply Hready; [exact K1|exact (eq_trans B Hn)|exact (eq_trans C Hq)|exact E|exact K2]|].
      cbn; rewrite ?Er, ?Et, ?Ej; auto.
  Qed.

  Lemma round_ready depth s m p :
    ready m s -> answers_recipient (snd p) = true ->
    exists m', ready m' (run depth s (round p)) /\ answered m (fst p) (snd p) m'.
  Proof.
    destruct p as [r a]. cbn [fst snd]. intros Hr Ha. unfold run, round. cbn [fold_left fst snd].
    pose proof (rd_option _ _ Hr) as (o & Eo & Hno & Hnr).
    destruct (called depth s r m Hr) as (H1 & H2 & H3 & H4 & H5 & m1 & H6 & H7 & H8 & H9).
    remember (server_step _ _ _ _ _ _ depth s (Call (ARcpt r))) as s1 eqn:E1. clear E1.
    destruct (flushed_rcpt depth s1 o H1 H2 ltac:(congruence) Hnr) as (K1 & K2 & K3 & K4 & K5 & K6 & K7).
    remember (server_step _ _ _ _ _ _ depth s1 Flushed) as s2 eqn:E2. clear E2.
    apply (answer depth s2 r a m1 m); auto; try congruence. exists o. auto.
  Qed.

  (** *** Lists *)

  Lemma remove_first_perm r : forall l, Permutation (r :: remove_first (l ++ [r]) r) (l ++ [r]).
  Proof.
    induction l as [|x l IH]; cbn.
    - rewrite bytes_eqb_refl. reflexivity.
    - destruct (bytes_eqb x r) eqn:E.
      + apply bytes_eqb_eq in E. subst. reflexivity.
      + rewrite perm_swap. now apply perm_skip.
  Qed.

  Lemma remove_first_snoc r l : ~ List.In r l -> remove_first (l ++ [r]) r = l.
  Proof.
    induction l as [|x l IH]; cbn; intros H.
    - now rewrite bytes_eqb_refl.
    - destruct (bytes_eqb x r) eqn:E.
      + apply bytes_eqb_eq in E. subst. tauto.
      + f_equal. tauto.
  Qed.

  Lemma answered_perm m r a m' :
    answered m r a m' ->
    Permutation (mr_recipients m') (mr_recipients m ++ recipients_with None [(r, a)]) /\
    mr_tempfailed m' = mr_tempfailed m ++ map Some (recipients_with (Some S_TEMPORARY_FAILURE) [(r, a)]) /\
    mr_rejected m' = mr_rejected m ++ map Some (recipients_with (Some S_REJECT) [(r, a)]).
  Proof.
    unfold answered, recipients_with. cbn [filter snd fst map].
    assert (Hp : Permutation (remove_first (mr_recipients m ++ [r]) r) (mr_recipients m ++ [])).
    { rewrite app_nil_r. apply (Permutation_cons_inv (a := r)).
      rewrite remove_first_perm. symmetry. apply Permutation_cons_append. }
    destruct (refusal a) as [v|] eqn:Er.
    - assert (Hv : v = S_TEMPORARY_FAILURE \/ v = S_REJECT).
      { destruct a; try discriminate Er; cbn in Er; try (injection Er as <-; auto).
        destruct (_ && _); auto. }
      destruct Hv as [-> | ->]; intros (-> & -> & ->); cbn; rewrite ?app_nil_r in *; auto.
    - intros (-> & -> & ->). cbn. rewrite !app_nil_r. auto.
  Qed.

  Lemma recipients_with_app v l l' :
    recipients_with v (l ++ l') = recipients_with v l ++ recipients_with v l'.
  Proof. unfold recipients_with. now rewrite filter_app, map_app. Qed.

  Lemma run_app depth s l l' : run depth s (l ++ l') = run depth (run depth s l) l'.
  Proof. unfold server_run. apply fold_left_app. Qed.

  Lemma rounds depth l : forall s m,
    ready m s -> (forall p, List.In p l -> answers_recipient (snd p) = true) ->
    exists m', ready m' (run depth s (concat (map round l))) /\
      Permutation (mr_recipients m') (mr_recipients m ++ recipients_with None l) /\
      mr_tempfailed m' = mr_tempfailed m ++ map Some (recipients_with (Some S_TEMPORARY_FAILURE) l) /\
      mr_rejected m' = mr_rejected m ++ map Some (recipients_with (Some S_REJECT) l).
  Proof.
    induction l as [|p l IH]; intros s m Hr Hl.
    - exists m. cbn. rewrite !app_nil_r. auto.
    - cbn [map concat]. rewrite run_app.
      destruct (round_ready depth s m p Hr (Hl p (or_introl eq_refl))) as (m1 & Hr1 & Ha).
      destruct (IH _ m1 Hr1 (fun q Hq => Hl q (or_intror Hq))) as (m' & Hr' & P1 & P2 & P3).
      exists m'. split; [exact Hr'|].
      destruct p as [r a]. destruct (answered_perm m r a m1 Ha) as (Q1 & Q2 & Q3).
      change ((r, a) :: l) with ([(r, a)] ++ l). rewrite !recipients_with_app, !map_app, !app_assoc.
      rewrite <- Q2, <- Q3. split; [|auto]. rewrite P1. now apply Permutation_app_tail.
  Qed.

  (** With distinct recipients the accepted ones keep their order. *)
  Lemma rounds_distinct depth l : forall s m,
    ready m s -> (forall p, List.In p l -> answers_recipient (snd p) = true) ->
    NoDup (mr_recipients m ++ map fst l) ->
    exists m', ready m' (run depth s (concat (map round l))) /\
      mr_recipients m' = mr_recipients m ++ recipients_with None l.
  Proof.
    induction l as [|p l IH]; intros s m Hr Hl Hd.
    - exists m. cbn. rewrite !app_nil_r. auto.
    - cbn [map concat]. rewrite run_app.
      destruct (round_ready depth s m p Hr (Hl p (or_introl eq_refl))) as (m1 & Hr1 & Ha).
      destruct p as [r a]. cbn [map fst] in Hd.
      assert (Hn : ~ List.In r (mr_recipients m)).
      { intros Hi. apply NoDup_remove_2 in Hd. apply Hd, in_or_app. now left. }
      assert (E1 : mr_recipients m1 = mr_recipients m ++ recipients_with None [(r, a)]).
      { unfold answered in Ha. cbn [fst snd] in Ha. unfold recipients_with. cbn.
        destruct (refusal a) as [v|] eqn:Er.
        - assert (mr_recipients m1 = remove_first (mr_recipients m ++ [r]) r) as ->
            by (destruct v; apply Ha).
          rewrite remove_first_snoc by exact Hn. cbn. now rewrite app_nil_r.
        - apply Ha. }
      destruct (IH _ m1 Hr1 (fun q Hq => Hl q (or_intror Hq))) as (m' & Hr' & P1).
      { rewrite E1, <- app_assoc. unfold recipients_with. cbn.
        destruct (refusal a); cbn; [|exact Hd]. now apply NoDup_remove_1 in Hd. }
      exists m'. split; [exact Hr'|].
      change ((r, a) :: l) with ([(r, a)] ++ l). rewrite recipients_with_app, app_assoc, <- E1.
      exact P1.
  Qed.
End Recipients.
