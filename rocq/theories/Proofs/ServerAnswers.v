(** Between two commands there is an answer; calls while a command is unanswered are refused. *)
From Verif.Base Require Import Bytes BytesFacts.
From Verif.Model Require Import Decoder Encoder CommandCodec ReplyCodec Status Option Macros Client
                                Server.
From Verif.Spec Require Import ServerSpec.
From Verif.Proofs Require Import ServerInv ServerFacts.
From Coq Require Import ZifyBool ZifyNat ZifyN.
Local Open Scope N_scope.

(** The command an event puts on the wire. *)
Definition command_sent (e : event) : option sstate :=
  match e with Sent x _ _ | Lost x _ _ => Some x | _ => None end.
(** Sends of abort, quit and body packets, failed writes and changes of the option. *)
Definition disturbs (e : event) : bool :=
  match e with
  | Sent x _ _ | Lost x _ _ => overtakes x || sstate_eqb x XBody
  | Error WriteFailed | In (Call (ANegotiate _)) | In (Call (ASetOption _)) => true
  | _ => false
  end.
Definition is_answer (e : event) : bool :=
  match e with In (Receive r) => negb (is_modification r) | _ => false end.

Section Answers.
  Variables (ntop4 ntop6 : bytes -> bytes).
  Variable sort_keys : list bytes -> list bytes.

  Notation ok := (trace_ok ntop4 ntop6 sort_keys).

  Definition all_await (o : option moption) (l : list sstate) : Prop :=
    forall z, List.In z l -> awaits o z = true.
  Lemma all_await_forallb o l : all_await o l -> forallb (awaits o) l = true.
  Proof. intros H. apply forallb_forall. exact H. Qed.

  Lemma still_busy x e before : forall between,
    command_sent e = Some x -> overtakes x = false -> awaits (session_option before) x = true ->
    l_unflushed (link_of before) = [] -> l_todo (link_of before) = [] ->
    ok (between ++ e :: before) ->
    forallb (fun e => negb (disturbs e) && negb (is_answer e)) between = true ->
    let t := between ++ e :: before in
    outstanding t = true /\ session_option t = session_option before /\
    all_await (session_option before) (l_unflushed (link_of t)) /\
    all_await (session_option before) (l_todo (link_of t)).
  Proof.
    intros between He Hu Ha Hun Htd. induction between as [|f between IH]; intros Hok Hb.
    - cbn [app]. unfold outstanding.
      destruct e; try discriminate He; injection He as ->; cbn; rewrite Hu, Hun, Htd; cbn;
        (split; [reflexivity|split; [reflexivity|split; [|intros z []]]]);
        intros z [<-|[]]; exact Ha.
    - cbn [app] in *. cbn [forallb] in Hb. apply andb_true_iff in Hb as [Hf Hb].
      apply andb_true_iff in Hf as [Hd Hn]. apply negb_true_iff in Hd, Hn.
      destruct Hok as [Hev Hok]. destruct (IH Hok Hb) as (H1 & H2 & H3 & H4). clear IH.
      set (t := between ++ e :: before) in *. unfold outstanding in *.
      destruct f; cbn [link_of session_option]; try (split; [exact H1|split; [exact H2|auto]]; fail).
      + (* In *)
        destruct o; cbn [link_of session_option l_busy l_unflushed l_todo] in *.
        * destruct c; try discriminate Hd; cbn; auto.
        * cbn. rewrite H1, H2. cbn. split; [now apply all_await_forallb|].
          split; [reflexivity|]. split; [intros z []|exact H3].
        * cbn in Hn. apply negb_false_iff in Hn. cbn. rewrite H1, Hn.
          destruct r; try discriminate Hn; cbn; auto.
        * auto.
      + (* Sent *)
        destruct Hev as [Hev _]. cbn in Hd. apply orb_false_iff in Hd as [Hd _].
        specialize (Hev Hd). unfold outstanding in Hev. congruence.
      + destruct Hev as [Hev _]. cbn in Hd. apply orb_false_iff in Hd as [Hd _].
        specialize (Hev Hd). unfold outstanding in Hev. congruence.
      + (* Delivered *)
        cbn [l_busy l_unflushed l_todo]. split; [exact H1|]. split; [exact H2|]. split; [exact H3|].
        intros z Hz. apply H4. destruct (l_todo (link_of t)); [contradiction|now right].
      + (* Error *)
        destruct e0; try discriminate Hd; cbn; auto.
  Qed.

  Lemma answer_between x y e f later between before :
    ok (later ++ f :: between ++ e :: before) ->
    command_sent e = Some x -> command_sent f = Some y -> overtakes x = false -> overtakes y = false ->
    awaits (session_option before) x = true ->
    l_unflushed (link_of before) = [] -> l_todo (link_of before) = [] ->
    forallb (fun e => negb (disturbs e)) between = true ->
    exists r, List.In (In (Receive r)) between /\ is_modification r = false.
  Proof.
    intros Hok He Hf Hux Huy Ha Hun Htd Hd.
    destruct (trace_ok_split _ _ _ _ _ _ Hok) as [Hev Hok']. clear Hok.
    destruct (existsb is_answer between) eqn:Ex.
    - apply existsb_exists in Ex as (e' & Hi & He').
      destruct e'; try discriminate He'. destruct o; try discriminate He'.
      exists r. split; [exact Hi|]. now apply negb_true_iff in He'.
    - exfalso.
      assert (Hall : forallb (fun e => negb (disturbs e) && negb (is_answer e)) between = true).
      { clear -Ex Hd. induction between as [|g l IH]; cbn in *; [reflexivity|].
        apply orb_false_iff in Ex as [E1 E2]. apply andb_true_iff in Hd as [D1 D2].
        rewrite D1, E1, IH; auto. }
      destruct (still_busy x e before between He Hux Ha Hun Htd Hok' Hall) as (H1 & _).
      assert (H0 : outstanding (between ++ e :: before) = false).
      { destruct f; try discriminate Hf; injection Hf as ->; destruct Hev as [Hev _]; auto. }
      congruence.
  Qed.

  (** *** Refused calls *)

  Variable writes : list event -> write_outcome.
  Variable stops : list event -> bool.

  Lemma busy_write (react : server -> server) s p x tm :
    urgent x = false -> sv_timer s = Some tm ->
    write_packet ntop4 ntop6 sort_keys writes react s p x = (false, react (log s (Error Busy))).
  Proof. intros Hu Ht. unfold write_packet, is_processing. rewrite Hu, Ht. reflexivity. Qed.

  Lemma refused_call (react : server -> server) s c cmd x k :
    (forall s, extends s (react s)) ->
    sv_crashed s = false -> agrees ntop4 ntop6 sort_keys k s ->
    outstanding (sv_trace s) = true -> command_of c = Some (cmd, x) -> overtakes x = false ->
    stops (In (Call c) :: sv_trace s) = false ->
    wanted (session_option (In (Call c) :: sv_trace s)) x ->
    let s' := call ntop4 ntop6 sort_keys writes stops react s c in
    exists l, sv_trace s' = l ++ Error Busy :: In (Call c) :: sv_trace s /\
              (sv_crashed s' = false -> exists l', l = Return false :: l').
  Proof.
    intros Hext Hc [Hb _] Ho Hcmd Hu Hst Hw s'. unfold s'. clear s'.
    assert (Htm : exists tm, sv_timer s = Some tm).
    { pose proof (ag_timer _ _ _ _ _ _ _ _ _ _ _ _ Hb Ho). destruct (sv_timer s); [eauto|congruence]. }
    destruct Htm as [tm Htm].
    pose proof (ag_option _ _ _ _ _ _ _ _ _ _ _ _ Hb) as Eo.
    unfold call. rewrite log_eq by exact Hc.
    set (s0 := put_trace s (In (Call c) :: sv_trace s)).
    cut (exists s2, call_body ntop4 ntop6 sort_keys writes stops react s0 c = (false, s2) /\
           exists s1, s2 = react (log s1 (Error Busy)) /\ sv_trace s1 = sv_trace s0 /\
                      sv_crashed s1 = false).
    { intros (s2 & -> & s1 & -> & E1 & E2).
      destruct (Hext (log s1 (Error Busy))) as [l [Hl _]].
      assert (E3 : sv_trace (log s1 (Error Busy)) = Error Busy :: In (Call c) :: sv_trace s)
        by (rewrite log_eq by exact E2; cbn [sv_trace put_trace]; now rewrite E1).
      rewrite E3 in Hl. remember (react (log s1 (Error Busy))) as s2 eqn:Es2. clear Es2.
      unfold log. destruct (sv_crashed s2) eqn:Hc2.
      - exists l. rewrite Hc2. split; [exact Hl|discriminate].
      - exists (Return false :: l). cbn [sv_trace put_trace]. rewrite Hl. split; [reflexivity|eauto]. }
    assert (Hsend : forall s1 cmd', sv_timer s1 = Some tm -> sv_trace s1 = sv_trace s0 ->
              sv_crashed s1 = false ->
              exists s2, send ntop4 ntop6 sort_keys writes react s1 cmd' x = (false, s2) /\
                exists s1', s2 = react (log s1' (Error Busy)) /\ sv_trace s1' = sv_trace s0 /\
                            sv_crashed s1' = false).
    { intros s1 cmd' H1 H2 H3. unfold send. rewrite (busy_write _ _ _ _ tm); [|exact Hu|exact H1].
      eexists. split; [reflexivity|]. eexists. split; [reflexivity|]. now split. }
    assert (Hen : forall s1 step, sv_option s1 = sv_option s -> step = decline_step x ->
              match x with XNegotiate | XQuit | XAbort | XEndOfMessage => False | _ => True end ->
              session_option (In (Call c) :: sv_trace s) = session_option (sv_trace s) ->
              is_enable_step s1 step = false).
    { intros s1 step E1 -> Hx E2. unfold is_enable_step. rewrite E1, Eo, <- E2.
      unfold wanted in Hw. destruct x; try contradiction;
        (destruct (session_option _) as [o|]; [|contradiction]); destruct Hw as [-> _]; reflexivity. }
    destruct c; cbn in Hcmd; try discriminate Hcmd; injection Hcmd as <- <-; try discriminate Hu;
      cbn [call_body enter].
    - now apply Hsend.
    - change (sv_trace (put_macros _ _)) with (In (Call (AConnect host a)) :: sv_trace s). rewrite Hst.
      rewrite Hen; auto.
    - change (sv_trace s0) with (In (Call (AHelo fqdn)) :: sv_trace s). rewrite Hst.
      rewrite Hen; auto.
    - change (sv_trace (put_macros _ _)) with (In (Call (AFrom from)) :: sv_trace s). rewrite Hst.
      rewrite Hen; auto.
    - change (sv_trace (put_macros _ _)) with (In (Call (ARcpt recipient)) :: sv_trace s). rewrite Hst.
      rewrite Hen; auto.
    - change (sv_trace (put_macros _ _)) with (In (Call AData) :: sv_trace s). rewrite Hst.
      change (sv_option (put_macros _ _)) with (sv_option s).
      cbn [wanted session_option] in Hw. rewrite <- Eo in Hw.
      destruct (sv_option s) as [o|] eqn:Eo'; [|contradiction].
      destruct Hw as [Hw1 Hw2]. specialize (Hw2 eq_refl).
      rewrite Hen; auto. destruct (N.ltb_spec (o_version o) 4); [lia|]. cbn [orb].
      apply Hsend; auto.
    - rewrite Hen; auto.
    - change (sv_trace (put_macros _ _)) with (In (Call (AHeader name value)) :: sv_trace s). rewrite Hst.
      rewrite Hen; auto.
    - change (sv_trace (put_macros _ _)) with (In (Call AEndOfHeader) :: sv_trace s). rewrite Hst.
      rewrite Hen; auto.
    - change (sv_trace (put_macros _ _)) with (In (Call (ABody chunk)) :: sv_trace s). rewrite Hst.
      rewrite Hen; auto. unfold flush_body.
      match goal with |- context [send _ _ _ _ _ ?s1 ?cmd' _] =>
        destruct (Hsend s1 cmd') as (s2 & -> & H2); auto end.
      exists s2. auto.
    - change (sv_trace (put_macros _ _)) with (In (Call (AEndOfMessage chunk)) :: sv_trace s). rewrite Hst.
      apply Hsend; auto.
  Qed.

  (** *** Replies passed on *)

  Definition forwards (e : event) : bool := match e with Forward _ => true | _ => false end.

  (** Nothing but the reply just received is passed on, and at once. *)
  Lemma no_other_forward l e t :
    ok (l ++ e :: t) -> forallb nested l = true ->
    (forall r, e <> In (Receive r)) -> forallb (fun e => negb (forwards e)) l = true.
  Proof.
    intros Hok Hn He. induction l as [|f l IH]; [reflexivity|].
    cbn [app trace_ok forallb] in *. destruct Hok as [Hev Hok]. apply andb_true_iff in Hn as [_ Hn].
    rewrite (IH Hok Hn), andb_true_r. destruct f; try reflexivity. exfalso.
    destruct Hev as [[t' Et] _]. destruct l as [|g l]; cbn in Et; injection Et as E1 _.
    - exact (He r E1).
    - subst g. cbn in Hn. discriminate.
  Qed.

  Lemma modification_step (react : server -> server) s r k :
    (forall s, extends s (react s)) -> is_modification r = true ->
    sv_crashed s = false -> agrees ntop4 ntop6 sort_keys k s ->
    let s' := receive ntop4 ntop6 sort_keys writes react (log s (In (Receive r))) r in
    let t := sv_trace s in
    if sstate_eqb (stage t) XEndOfMessage then
      if quit_said t then sv_trace s' = In (Receive r) :: t
      else exists l, forallb nested l = true /\ sv_trace s' = l ++ Forward r :: In (Receive r) :: t
    else exists l, forallb nested l = true /\
                   sv_trace s' = l ++ Error InvalidState :: In (Receive r) :: t.
  Proof.
    intros Hext Hm Hc [[] _] s' t. unfold s', t. rewrite <- ag_state, <- ag_quit.
    rewrite log_eq by exact Hc. set (s0 := put_trace s (In (Receive r) :: sv_trace s)).
    assert (Hmod : forall s1 before after,
      sv_trace s1 = sv_trace s0 -> sv_state s1 = sv_state s -> sv_quitted s1 = sv_quitted s ->
      sv_crashed s1 = false ->
      (forall s, sv_trace (before s) = sv_trace s /\ sv_crashed (before s) = sv_crashed s) ->
      (forall s, sv_trace (after s) = sv_trace s) ->
      if sstate_eqb (sv_state s) XEndOfMessage then
        if sv_quitted s
        then sv_trace (modification react s1 r before after) = In (Receive r) :: sv_trace s
        else exists l, forallb nested l = true /\ sv_trace (modification react s1 r before after)
                       = l ++ Forward r :: In (Receive r) :: sv_trace s
      else exists l, forallb nested l = true /\ sv_trace (modification react s1 r before after)
                     = l ++ Error InvalidState :: In (Receive r) :: sv_trace s).
    { intros s1 before after E1 E2 E3 E4 Hbe Haf. unfold modification. rewrite E2, E3.
      assert (Hi : exists l, forallb nested l = true /\ sv_trace (invalid_state react s1)
                     = l ++ Error InvalidState :: In (Receive r) :: sv_trace s).
      { destruct (Hext (log s1 (Error InvalidState))) as [l [Hl Hn]]. exists l. split; [exact Hn|].
        unfold invalid_state, emit. rewrite Hl, log_eq by exact E4. cbn [sv_trace put_trace].
        now rewrite E1. }
      destruct (sv_state s); cbn [sstate_eqb sstate_rank N.eqb Pos.eqb]; try exact Hi.
      destruct (sv_quitted s); [exact E1|].
      destruct (Hbe s1) as [B1 B2].
      destruct (Hext (log (before s1) (Forward r))) as [l [Hl Hn]]. exists l. split; [exact Hn|].
      rewrite Haf. unfold emit. rewrite Hl, log_eq by congruence. cbn [sv_trace put_trace].
      now rewrite B1, E1. }
    destruct r; try discriminate Hm; cbn [receive]; apply Hmod; auto.
  Qed.
End Answers.
