(** The conversation of milter-test-server: the run. *)
From Verif.Base Require Import Bytes BytesFacts.
From Verif.Model Require Import Decoder Encoder CommandCodec ReplyCodec Status Option Headers Macros
                                Client Server TestServer.
From Verif.Model Require TestMessage TestReport.
From Verif.Spec Require Import ReportSpec ConversationSpec.
From Verif.Proofs Require Import ReportProofs ConversationProofs.
From Coq Require Import ZifyBool ZifyNat ZifyN Lia.
Import List.
Local Open Scope N_scope.

(** The packets of commands sent, and the errors. *)
Definition packet_of (e : event) : list bytes := match e with Sent _ _ p => [p] | _ => [] end.
Definition packets (t : list event) : list bytes := flat_map packet_of (rev t).
Definition faulty (e : event) : bool := match e with Error _ | Lost _ _ _ | Crash => true | _ => false end.

Lemma packets_cons e t : packets (e :: t) = packets t ++ packet_of e.
Proof. unfold packets. cbn [rev]. rewrite flat_map_app. cbn. now rewrite app_nil_r. Qed.

Tactic Notation "fields" := cbn [put_state put_last put_status put_rcpt_status put_next put_option put_timer put_skip_body put_body put_queue put_negotiated put_processing put_quitted put_current put_message put_encoder put_macros put_requests put_trace put_crashed sv_state sv_last sv_status sv_rcpt_status sv_next sv_option sv_timer sv_skip_body sv_body sv_queue sv_negotiated sv_processing sv_quitted sv_current sv_message sv_encoder sv_macros sv_requests sv_trace sv_crashed].
Tactic Notation "fields" "in" hyp(H) := cbn [put_state put_last put_status put_rcpt_status put_next put_option put_timer put_skip_body put_body put_queue put_negotiated put_processing put_quitted put_current put_message put_encoder put_macros put_requests put_trace put_crashed sv_state sv_last sv_status sv_rcpt_status sv_next sv_option sv_timer sv_skip_body sv_body sv_queue sv_negotiated sv_processing sv_quitted sv_current sv_message sv_encoder sv_macros sv_requests sv_trace sv_crashed] in H.

(** The parts of the context that matter here. *)
Definition core (s : server) : server :=
  mk_server (sv_state s) XStart (sv_status s) (sv_rcpt_status s) (sv_next s) (sv_option s) (sv_timer s)
            false (sv_body s) (sv_queue s) false false (sv_quitted s) (sv_current s) None [] pagent_new
            None (sv_trace s) (sv_crashed s).

Lemma increment_last_snoc q n : increment_last (q ++ [n]) = q ++ [(n + 1) mod 4294967296].
Proof.
  induction q as [|m q IH]; [reflexivity|]. cbn [app increment_last].
  destruct (q ++ [n]) as [|k r] eqn:E; [now destruct q|]. now rewrite IH.
Qed.

Section Run.
  Variables (ntop4 ntop6 : bytes -> bytes) (sort_keys : list bytes -> list bytes).
  Variable pl : plan.
  Variable o : moption.

  Notation hands := (test_handlers pl).
  Notation react := (Server.react ntop4 ntop6 sort_keys (fun _ => Taken) (fun _ => false) hands).
  Notation call d := (Server.call ntop4 ntop6 sort_keys (fun _ => Taken) (fun _ => false) (react d)).
  Notation enc := (encode_command ntop4 ntop6 sort_keys []).

  (** The option of the context after the negotiation. *)
  Definition agreed : moption :=
    mk_option (o_version o) (N.land all_actions (o_action o)) (N.land all_steps (o_step o)).

  Record Live (s : server) (p : pdata) (fs : list (list api)) (done : list command) : Prop := mk_live {
    l_crashed : sv_crashed s = false;
    l_quitted : sv_quitted s = false;
    l_body : sv_body s = [];
    l_option : sv_option s = Some agreed;
    l_replay : replay pl (sv_trace s) = mk_conv p fs (sv_state s);
    l_wish : pd_option p = Some o;
    l_hung : pd_hung p = false;
    l_error : pd_error p = None;
    l_connected : pd_connected p = true;
    l_sent : packets (sv_trace s) = map enc done;
    l_clean : forallb (fun e => negb (faulty e)) (sv_trace s) = true
  }.

  Lemma idle d s p fs v : sv_crashed s = false -> replay pl (sv_trace s) = mk_conv p ([] :: fs) v -> react d s = s.
  Proof.
    intros Hc Hr. destruct d; [reflexivity|]. cbn [Server.react]. rewrite Hc. unfold test_handlers. rewrite Hr.
    cbn [cv_data cv_calls]. now destruct (pd_hung p).
  Qed.

  Lemma react_call d s p a f fs v :
    sv_crashed s = false -> replay pl (sv_trace s) = mk_conv p ((a :: f) :: fs) v -> pd_hung p = false ->
    react (S d) s = react d (call d s a).
  Proof.
    intros Hc Hr Hh. cbn [Server.react]. rewrite Hc. unfold test_handlers at 1. rewrite Hr.
    cbn [cv_data cv_calls]. now rewrite Hh.
  Qed.

  (** Calls that send nothing. *)
  Definition alike (s s' : server) : Prop :=
    sv_state s' = sv_state s /\ sv_status s' = sv_status s /\ sv_timer s' = sv_timer s /\
    sv_next s' = sv_next s /\ sv_current s' = sv_current s /\
    (sv_rcpt_status s' = sv_rcpt_status s \/ sv_rcpt_status s' = S_DEFAULT) /\
    (sv_queue s' = sv_queue s \/ sv_queue s' = []).

  Lemma alike_trans s1 s2 s3 : alike s1 s2 -> alike s2 s3 -> alike s1 s3.
  Proof.
    intros (A1 & A2 & A3 & A4 & A5 & A6 & A7) (B1 & B2 & B3 & B4 & B5 & B6 & B7).
    repeat apply conj; try congruence; destruct A6, A7, B6, B7; intuition congruence.
  Qed.

  Lemma quiet_calls : forall q d s p fs rest done,
    Live s p ((q ++ rest) :: fs) done -> Forall (fun a => quiet a = true) q ->
    exists s', react (length q + d) s = react d s' /\ Live s' p (rest :: fs) done /\ alike s s'.
  Proof.
    induction q as [|a q IH]; intros d s p fs rest done L Q.
    { exists s. split; [reflexivity|]. split; [exact L|]. repeat apply conj; auto. }
    pose proof (Forall_inv Q) as Ha. apply Forall_inv_tail in Q.
    destruct L as [Lc Lq Lb Lo Lr Lw Lh Le Ln Ls Lcl].
    assert (E : exists s', call (length q + d) s a = s' /\ Live s' p ((q ++ rest) :: fs) done /\ alike s s').
    { eexists. split; [reflexivity|]. unfold Server.call, log. rewrite Lc.
      destruct a as [| | | | | | | | | | | | | | | | | |m]; try discriminate Ha;
      cbn [call_body put_trace sv_crashed]; unfold reset_message_related_data;
      cbn [sv_crashed put_macros put_message put_queue put_rcpt_status put_processing put_skip_body];
      (split; [constructor; cbn; rewrite ?Lc; cbn;
               first [assumption | rewrite Lr; reflexivity
                     | unfold packets in Ls |- *; cbn; rewrite !flat_map_app; cbn; now rewrite !app_nil_r]
              |repeat apply conj; cbn; rewrite ?Lc; cbn; auto]). }
    destruct E as (s1 & E1 & L1 & A1). destruct (IH d s1 p fs rest done L1 Q) as (s2 & E2 & L2 & A2).
    exists s2. split; [|split; [exact L2|exact (alike_trans _ _ _ A1 A2)]].
    rewrite <- E2, <- E1. apply (react_call _ _ _ _ _ _ _ Lc Lr Lh).
  Qed.

  (** *** Sending *)

  Notation macro_prefix := (Server.macro_prefix ntop4 ntop6 sort_keys).
  Notation send f := (Server.send ntop4 ntop6 sort_keys (fun _ => Taken) f).

  Lemma prefix_core s x : exists pre s', macro_prefix s x = (pre, s') /\ core s' = core s.
  Proof.
    unfold Server.macro_prefix. destruct (macro_command x) as [c|]; [|now exists [], s].
    destruct (macros_before _ _ _) as [[t|] a]; eexists _, _; (split; [reflexivity|reflexivity]).
  Qed.

  Lemma send_core f s c x :
    sv_crashed s = false -> urgent x = true \/ sv_timer s = None ->
    match c with CNegotiate _ => False | _ => True end ->
    exists pre s', send f s c x = (true, s') /\
      core s' = core (put_next (put_trace (if urgent x then s else put_timer s (Some TWriting))
                                          (Sent x pre (enc c) :: sv_trace s)) (sv_next s ++ [x])).
  Proof.
    intros Hc Ht Hn. unfold Server.send.
    assert (E : encode_command ntop4 ntop6 sort_keys (sv_encoder s) c = enc c) by (destruct c; try reflexivity; destruct Hn).
    rewrite E. unfold Server.write_packet, is_processing. cbn [put_encoder sv_timer].
    replace (negb (urgent x) && match sv_timer s with Some _ => true | None => false end) with false.
    2:{ destruct Ht as [->| ->]; [reflexivity|now rewrite andb_false_r]. }
    set (s1 := if urgent x then put_encoder s (enc c) else put_timer (put_encoder s (enc c)) (Some TWriting)).
    destruct (prefix_core s1 x) as (pre & s2 & -> & E2). cbv beta iota zeta.
    assert (Hc2 : sv_crashed s2 = false).
    { change (sv_crashed (core s2) = false). rewrite E2. unfold s1. now destruct (urgent x). }
    eexists pre, _. split; [reflexivity|]. unfold log. rewrite Hc2.
    assert (F : forall A (g : server -> A), g (core s2) = g (core s1)) by (intros; now rewrite E2).
    unfold core in *. cbn [put_next put_trace sv_state sv_last sv_status sv_rcpt_status sv_next sv_option sv_timer sv_skip_body sv_body sv_queue sv_negotiated sv_processing sv_quitted sv_current sv_message sv_encoder sv_macros sv_requests sv_trace sv_crashed] in *.
    injection E2 as I1 I2 I3 I4 I5 I6 I7 I8 I9 I10 I11 I12.
    rewrite I1, I2, I3, I4, I5, I6, I7, I8, I9, I10, I11, I12. clear. unfold s1. now destruct (urgent x).
  Qed.

  Lemma agreed_asked b : N.land all_steps b = b -> asked agreed b = asked o b.
  Proof.
    intros H. unfold asked, agreed. cbn [o_step].
    rewrite (N.land_comm all_steps), <- N.land_assoc, H. reflexivity.
  Qed.

  (** Not declined by the filter. *)
  Definition wanted (c : command) : Prop :=
    match c with
    | CConnect _ _ => asked o STEP_NO_CONNECT = false
    | CHelo _ => asked o STEP_NO_HELO = false
    | CEnvelopeFrom _ => asked o STEP_NO_ENVELOPE_FROM = false
    | CEnvelopeRecipient _ => asked o STEP_NO_ENVELOPE_RECIPIENT = false
    | CUnknown _ => asked o STEP_NO_UNKNOWN || (o_version o <? 3) = false
    | CData => asked o STEP_NO_DATA || (o_version o <? 4) = false
    | CHeader _ _ => asked o STEP_NO_HEADERS = false
    | CEndOfHeader => asked o STEP_NO_END_OF_HEADER = false
    | CBody _ => asked o STEP_NO_BODY = false
    | _ => True
    end.
  Definition fits (c : command) : Prop :=
    match c with CBody b => N.of_nat (length b) <= 65535 | _ => True end.

  Lemma all_wanted p : Forall wanted (r_connect pl o p).
  Proof.
    unfold r_connect, r_helo, r_from, r_rcpt, r_unknown, r_data, r_header, r_eoh, r_body, unless.
    repeat (apply Forall_app; split).
    all: match goal with |- Forall _ (if ?b then _ else _) => destruct b eqn:E | _ => idtac end.
    all: try apply Forall_nil.
    all: try (apply Forall_cons; [exact E || exact I|apply Forall_nil]).
    - apply Forall_forall. intros c Hc. apply in_map_iff in Hc as (x & <- & _). exact E.
    - destruct (pl_unknown pl); [apply Forall_cons; [exact E|]|]; apply Forall_nil.
    - apply Forall_forall. intros c Hc. apply in_map_iff in Hc as (x & <- & _). exact E.
    - apply Forall_forall. intros c Hc. apply in_map_iff in Hc as (x & <- & _). exact E.
  Qed.
  Lemma after_wanted x p : Forall wanted (after pl o x p).
  Proof.
    pose proof (all_wanted p) as H. unfold r_connect in H. apply Forall_app in H as [_ H2].
    pose proof H2 as H3. unfold r_helo in H3. apply Forall_app in H3 as [_ H3].
    pose proof H3 as H4. unfold r_from in H4. apply Forall_app in H4 as [_ H4].
    pose proof H4 as H5. unfold r_rcpt in H5. apply Forall_app in H5 as [_ H5].
    pose proof H5 as H6. unfold r_unknown in H6. apply Forall_app in H6 as [_ H6].
    pose proof H6 as H7. unfold r_data in H7. apply Forall_app in H7 as [_ H7].
    pose proof H7 as H8. unfold r_header in H8. apply Forall_app in H8 as [_ H8].
    pose proof H8 as H9. unfold r_eoh in H9. apply Forall_app in H9 as [_ H9].
    destruct x; cbn [after]; try apply Forall_nil; try assumption. apply all_wanted.
  Qed.

  Lemma enabled s b : sv_option s = Some agreed -> N.land all_steps b = b -> is_enable_step s b = asked o b.
  Proof. intros Ho Hb. unfold is_enable_step. rewrite Ho. exact (agreed_asked b Hb). Qed.

  Notation body f := (Server.call_body ntop4 ntop6 sort_keys (fun _ => Taken) (fun _ => false) f).

  Lemma call_send f s c :
    sv_option s = Some agreed -> wanted c -> 1 <= place c <= 10 -> place c <> 9 -> sv_status s = S_NOT_CHANGE ->
    exists s2, body f s (api_of c) = send f s2 c (state_of c) /\
      core s2 = core (match c with CEnvelopeRecipient r => put_current s (Some r) | _ => s end).
  Proof.
    intros Ho Hw Hp H9 Hs.
    destruct c; cbn [place] in *; try lia; cbn [api_of state_of call_body wanted] in *; unfold on_message, enter.
    all: try (rewrite enabled; [|exact Ho|reflexivity]).
    all: try rewrite Hw.
    all: try (eexists; split; [reflexivity|unfold core; cbn; now rewrite ?Hs]).
    - cbn [put_macros put_message sv_option]. rewrite Ho. apply orb_false_elim in Hw as [Hw Hv].
      unfold agreed at 1. cbn [o_version]. rewrite Hw, Hv. cbn [orb].
      eexists; split; [reflexivity|unfold core; cbn; now rewrite ?Hs].
    - apply orb_false_elim in Hw as [Hw Hv]. rewrite Hw.
      eexists; split; [reflexivity|unfold core; cbn; now rewrite ?Hs].
  Qed.

  (** [c] is on its way. *)
  Record Sending (s' : server) (p : pdata) (fs : list (list api)) (done : list command) (c : command)
    (x : sstate) (v : status) (q : list N) (r : option bytes) : Prop := mk_sending {
    g_live : Live s' p fs (done ++ [c]);
    g_timer : sv_timer s' = Some TWriting;
    g_next : sv_next s' = [state_of c];
    g_state : sv_state s' = x;
    g_status : sv_status s' = S_NOT_CHANGE;
    g_rcpt : sv_rcpt_status s' = v;
    g_queue : sv_queue s' = match c with CBody _ => q ++ [1] | _ => q end;
    g_current : sv_current s' = match c with CEnvelopeRecipient to => Some to | _ => r end
  }.

  Lemma call_sends d s p fs f done c :
    Live s p ((api_of c :: f) :: fs) done -> sv_timer s = None -> sv_next s = [] -> sv_status s = S_NOT_CHANGE ->
    1 <= place c <= 10 -> wanted c -> fits c ->
    exists pre s1, call d s (api_of c) = s1 /\
      core s1 = core (put_trace
        (match c with CEnvelopeRecipient r => put_current (put_next (put_timer s (Some TWriting)) [state_of c]) (Some r)
         | CBody _ => put_queue (put_next (put_timer s (Some TWriting)) [state_of c]) (sv_queue s ++ [1])
         | _ => put_next (put_timer s (Some TWriting)) [state_of c] end)
        (Return true :: Sent (state_of c) pre (enc c) :: Server.In (Call (api_of c)) :: sv_trace s)).
  Proof.
    intros L Ht Hx Hs Hp Hw Hf. destruct L as [Lc Lq Lb Lo Lr Lw Lh Le Ln Ls Lcl].
    unfold Server.call. set (s0 := put_trace s (Server.In (Call (api_of c)) :: sv_trace s)).
    replace (log s (Server.In (Call (api_of c)))) with s0 by (unfold log; now rewrite Lc).
    assert (Hu : urgent (state_of c) = false) by (destruct c; cbn in *; try reflexivity; lia).
    destruct (N.eq_dec (place c) 9) as [H9|H9].
    - destruct c; try discriminate H9. cbn [api_of call_body wanted state_of fits] in *. unfold on_message, enter.
      rewrite enabled; [|exact Lo|reflexivity]. rewrite Hw.
      unfold flush_body.
      cbn [put_body put_queue sv_body put_macros put_message sv_queue].
      set (s3 := put_queue _ _).
      replace (sv_body s3) with chunk by (cbn; now rewrite Lb).
      change (sv_body s0) with (sv_body s). rewrite Lb. cbn [app].
      destruct (send_core (react d) s3 (CBody chunk) XBody) as (pre & s4 & -> & E4).
      { exact Lc. } { right. exact Ht. } { exact I. }
      cbv beta iota zeta. eexists pre, _. split; [reflexivity|].
      assert (Hc4 : sv_crashed s4 = false).
      { change (sv_crashed (core s4) = false). rewrite E4. exact Lc. }
      unfold log. cbn [put_queue put_body sv_crashed]. rewrite Hc4.
      unfold core in *. cbn [urgent state_of] in E4. unfold s3, s0 in E4. fields in E4. injection E4 as I1 I2 I3 I4 I5 I6 I7 I8 I9 I10 I11 I12.
      fields. rewrite I1, I2, I3, I4, I5, I6, I7, I8, I9, I10, I11, I12.
      rewrite increment_last_snoc, Hx, Lb.
      replace (length (packed_chunk chunk)) with (length chunk).
      2:{ unfold packed_chunk. rewrite firstn_all2; [reflexivity|]. cbv [MILTER_CHUNK_SIZE]. clear - Hf. lia. }
      cbn [app]. rewrite skipn_all. reflexivity.
    - destruct (call_send (react d) s0 c Lo Hw Hp H9 Hs) as (s2 & -> & E2).
      assert (F : forall A (g : server -> A), g (core s2) = g (core (match c with CEnvelopeRecipient r => put_current s0 (Some r) | _ => s0 end)))
        by (intros; now rewrite E2).
      destruct (send_core (react d) s2 c (state_of c)) as (pre & s4 & -> & E4).
      { change (sv_crashed (core s2) = false). rewrite (F _ sv_crashed). destruct c; exact Lc. }
      { right. change (sv_timer (core s2) = None). rewrite (F _ sv_timer). destruct c; exact Ht. }
      { destruct c; try exact I. cbn in Hp. lia. }
      eexists pre, _. split; [reflexivity|]. rewrite Hu in E4.
      assert (Hc4 : sv_crashed s4 = false).
      { change (sv_crashed (core s4) = false). rewrite E4. change (sv_crashed (core s2) = false).
        rewrite (F _ sv_crashed). destruct c; exact Lc. }
      unfold log. rewrite Hc4. unfold core in *. fields in E4. injection E4 as I1 I2 I3 I4 I5 I6 I7 I8 I9 I10 I11 I12.
      injection E2 as J1 J2 J3 J4 J5 J6 J7 J8 J9 J10 J11 J12.
      fields. rewrite I1, I2, I3, I4, I5, I6, I7, I8, I9, I10, I11, I12.
      rewrite J1, J2, J3, J4, J5, J7, J8, J9, J10, J11, J12.
      unfold s0. destruct c; cbn [place] in H9; try congruence; fields; rewrite Hx; reflexivity.
  Qed.

  Lemma send_one d s p fs done c :
    Live s p ([api_of c] :: fs) done -> sv_timer s = None -> sv_next s = [] -> sv_status s = S_NOT_CHANGE ->
    1 <= place c <= 10 -> wanted c -> fits c ->
    Sending (react (S d) s) p ([] :: fs) done c (sv_state s) (sv_rcpt_status s) (sv_queue s) (sv_current s).
  Proof.
    intros L Ht Hx Hs Hp Hw Hf.
    destruct (call_sends d s p fs [] done c L Ht Hx Hs Hp Hw Hf) as (pre & s1 & E1 & C).
    pose proof L as [Lc Lq Lb Lo Lr Lw Lh Le Ln Ls Lcl].
    rewrite (react_call d s p (api_of c) [] fs _ Lc Lr Lh), E1.
    unfold core in C. fields in C. injection C as I1 I2 I3 I4 I5 I6 I7 I8 I9 I10 I11 I12.
    assert (L1 : Live s1 p ([] :: fs) (done ++ [c])).
    { constructor; try assumption.
      - rewrite I12. destruct c; exact Lc.
      - rewrite I9. destruct c; exact Lq.
      - rewrite I7. destruct c; exact Lb.
      - rewrite I5. destruct c; exact Lo.
      - rewrite I11, I1. cbn [replay observe]. rewrite Lr. destruct c; reflexivity.
      - rewrite I11, !packets_cons, map_app, Ls. cbn [packet_of map]. now rewrite !app_nil_r.
      - rewrite I11. exact Lcl. }
    rewrite (idle d s1 p fs (sv_state s1)); [|exact (l_crashed _ _ _ _ L1)|exact (l_replay _ _ _ _ L1)].
    constructor; [exact L1|..].
    - rewrite I6. now destruct c.
    - rewrite I4. now destruct c.
    - rewrite I1. now destruct c.
    - rewrite I2. now destruct c.
    - rewrite I3. now destruct c.
    - rewrite I8. now destruct c.
    - rewrite I10. now destruct c.
  Qed.

  (** A handler whose calls are [q] and the command [c]. *)
  Lemma send_calls depth s p fs done q c :
    Live s p ((q ++ [api_of c]) :: fs) done -> sv_timer s = None -> sv_next s = [] -> sv_status s = S_NOT_CHANGE ->
    Forall (fun a => quiet a = true) q -> (length q < depth)%nat ->
    1 <= place c <= 10 -> wanted c -> fits c ->
    exists v u, (v = sv_rcpt_status s \/ v = S_DEFAULT) /\ (u = sv_queue s \/ u = []) /\
    Sending (react depth s) p ([] :: fs) done c (sv_state s) v u (sv_current s).
  Proof.
    intros L Ht Hx Hs Q Hd Hp Hw Hf.
    destruct (quiet_calls q (depth - length q) s p fs [api_of c] done L Q) as (s1 & E1 & L1 & A1 & A2 & A3 & A4 & A5 & A6 & A7).
    replace (length q + (depth - length q))%nat with depth in E1 by lia. rewrite E1.
    destruct (depth - length q)%nat as [|d] eqn:Ed; [lia|].
    exists (sv_rcpt_status s1), (sv_queue s1). split; [exact A6|]. split; [exact A7|].
    rewrite <- A1, <- A5. apply send_one; try assumption; congruence.
  Qed.

  (** *** Signals *)

  Definition signal (e : event) : bool :=
    match e with
    | Forward _ | Unasked _ | Stopped _ | Expired _ | Delivered _ | Processed _ | ShutDown => true
    | _ => false
    end.

  (** Nothing is wrong with the run. *)
  Record Sound (s : server) (p : pdata) (fs : list (list api)) (done : list command) : Prop := mk_sound {
    d_crashed : sv_crashed s = false;
    d_replay : replay pl (sv_trace s) = mk_conv p fs (sv_state s);
    d_hung : pd_hung p = false;
    d_sent : packets (sv_trace s) = map enc done;
    d_clean : forallb (fun e => negb (faulty e)) (sv_trace s) = true
  }.
  Lemma live_sound s p fs done : Live s p fs done -> Sound s p fs done.
  Proof. intros [Lc Lq Lb Lo Lr Lw Lh Le Ln Ls Lcl]. now constructor. Qed.

  Lemma log_signal s e p0 fs done calls b p1 :
    Sound s p0 fs done -> signal e = true -> on_signal pl (sv_state s) e p0 = (calls, b, p1) ->
    pd_hung p1 = false ->
    Sound (log s e) p1 (calls :: tl fs) done /\ log s e = put_trace s (e :: sv_trace s).
  Proof.
    intros [Hc Hr Hh Hs Hcl] He Ho H1. unfold log. rewrite Hc. split; [|reflexivity].
    constructor; try assumption.
    - fields. cbn [replay]. rewrite Hr.
      destruct e; try discriminate He; cbn [observe cv_state cv_data cv_calls]; rewrite Ho; reflexivity.
    - fields. rewrite packets_cons, Hs. destruct e; try discriminate He; cbn [packet_of]; now rewrite app_nil_r.
    - fields. cbn [forallb]. rewrite Hcl. now destruct e.
  Qed.

  (** The first event of an operation. *)
  Lemma log_op s w p fs done :
    Sound s p fs done -> match w with Call _ => False | _ => True end ->
    Sound (log s (Server.In w)) p [[]] done /\
    log s (Server.In w) = put_trace s (Server.In w :: sv_trace s).
  Proof.
    intros [Hc Hr Hh Hs Hcl] Hw. unfold log. rewrite Hc. split; [|reflexivity].
    constructor; try assumption.
    - fields. cbn [replay]. rewrite Hr. destruct w; [destruct Hw| | |]; reflexivity.
    - fields. rewrite packets_cons, Hs. cbn [packet_of]. now rewrite app_nil_r.
  Qed.

  Lemma sound_state s x p fs done :
    Sound s p fs done ->
    Sound (set_state s x) p fs done /\
    core (set_state s x) = core (put_trace (put_state s x) (Entered x :: sv_trace s)).
  Proof.
    intros [Hc Hr Hh Hs Hcl]. unfold set_state, log.
    assert (E : sv_crashed (put_state (if sstate_in XNegotiate x XEndOfMessage then put_last s x else s) x) = false)
      by (now destruct (sstate_in _ _ _)).
    rewrite E. split; [|now destruct (sstate_in _ _ _)].
    constructor; try assumption.
    - destruct (sstate_in _ _ _); fields; cbn [replay]; rewrite Hr; reflexivity.
    - destruct (sstate_in _ _ _); fields; rewrite packets_cons, Hs; cbn [packet_of]; now rewrite app_nil_r.
    - destruct (sstate_in _ _ _); exact Hcl.
  Qed.

  Lemma sound_core s s' p fs done : core s' = core s -> Sound s p fs done -> Sound s' p fs done.
  Proof.
    intros C [Hc Hr Hh Hs Hcl]. unfold core in C. injection C as I1 I2 I3 I4 I5 I6 I7 I8 I9 I10 I11 I12.
    constructor; congruence.
  Qed.

  (** *** The end of a flush *)

  Definition due (c : command) : option timer :=
    if silent o c then None
    else match c with
         | CBody _ => None
         | CEndOfMessage _ => Some TEndOfMessageReply
         | _ => Some TReading
         end.

  Lemma reply_needed s c :
    sv_option s = Some agreed -> need_reply s (state_of c) = Some (negb (silent o c)).
  Proof.
    intros Ho. unfold need_reply. rewrite Ho. f_equal.
    assert (E : forall b, N.land all_steps b = b -> (N.land (o_step agreed) b =? 0) = negb (asked o b)).
    { intros b Hb. rewrite <- (agreed_asked b Hb). unfold asked. now rewrite negb_involutive. }
    unfold silent, silent_place.
    destruct c; cbn [state_of no_reply_step place existsb fst snd andb orb N.eqb Pos.eqb];
      rewrite ?orb_false_r; try (apply E; reflexivity); now rewrite N.land_0_r.
  Qed.

  Notation deliver f := (Server.deliver ntop4 ntop6 sort_keys (fun _ => Taken) f).
  Notation next_state f := (Server.process_next_state ntop4 ntop6 sort_keys (fun _ => Taken) f).

  Lemma processed_next f s c p fs done :
    Sound s p fs done -> sv_option s = Some agreed -> sv_body s = [] -> 1 <= place c <= 10 ->
    Sound (next_state f s (state_of c)) p fs done /\
    core (next_state f s (state_of c))
    = core (put_timer (put_trace (put_state s (state_of c)) (Entered (state_of c) :: sv_trace s)) (due c)).
  Proof.
    intros S Ho Hb Hp.
    assert (G : forall s1 t, core s1 = core (disable_timeout s) ->
      Sound (put_timer (set_state s1 (state_of c)) t) p fs done /\
      core (put_timer (set_state s1 (state_of c)) t)
      = core (put_timer (put_trace (put_state s (state_of c)) (Entered (state_of c) :: sv_trace s)) t)).
    { intros s1 t C.
      assert (S1 : Sound s1 p fs done).
      { eapply sound_core; [exact C|]. destruct S as [Hc Hr Hh Hs Hcl]. now constructor. }
      destruct (sound_state s1 (state_of c) p fs done S1) as [[Hc Hr Hh Hs Hcl] C2].
      split; [now constructor|]. unfold core in C, C2 |- *. fields in C2. fields in C. fields.
      injection C2 as I1 I2 I3 I4 I5 I6 I7 I8 I9 I10 I11 I12.
      injection C as J1 J2 J3 J4 J5 J6 J7 J8 J9 J10 J11 J12.
      rewrite ?I1, ?I2, ?I3, ?I4, ?I5, ?I6, ?I7, ?I8, ?I9, ?I10, ?I11, ?I12.
      rewrite ?J1, ?J2, ?J3, ?J4, ?J5, ?J6, ?J7, ?J8, ?J9, ?J10, ?J11, ?J12. reflexivity. }
    assert (Hn : forall s1, core s1 = core (disable_timeout s) ->
       need_reply (set_state s1 (state_of c)) (state_of c) = Some (negb (silent o c)) /\
       sv_body (set_state s1 (state_of c)) = [] /\
       put_timer (set_state s1 (state_of c)) None = set_state s1 (state_of c)).
    { intros s1 C.
      assert (S1 : Sound s1 p fs done).
      { eapply sound_core; [exact C|]. destruct S as [Hc Hr Hh Hs Hcl]. now constructor. }
      destruct (sound_state s1 (state_of c) p fs done S1) as [_ C2].
      unfold core in C, C2. fields in C2. fields in C. unfold disable_timeout in C. fields in C.
      injection C2 as I1 I2 I3 I4 I5 I6 I7 I8 I9 I10 I11 I12.
      injection C as J1 J2 J3 J4 J5 J6 J7 J8 J9 J10 J11 J12.
      split; [apply reply_needed; congruence|]. split; [congruence|].
      destruct (set_state s1 (state_of c)). cbn in I6 |- *. now rewrite I6, J6. }
    assert (Rest : forall s1, core s1 = core (disable_timeout s) -> place c <> 9 -> place c <> 10 ->
       let s2 := match need_reply (set_state s1 (state_of c)) (state_of c) with
                 | None => crash (set_state s1 (state_of c))
                 | Some true => put_timer (set_state s1 (state_of c)) (Some TReading)
                 | Some false => set_state s1 (state_of c)
                 end in
       Sound s2 p fs done /\
       core s2 = core (put_timer (put_trace (put_state s (state_of c)) (Entered (state_of c) :: sv_trace s)) (due c))).
    { intros s1 C H9 H10 s2. unfold s2. destruct (Hn s1 C) as (-> & _ & Et). unfold due.
      destruct (silent o c); cbn [negb].
      - rewrite <- Et. apply G, C.
      - replace (match c with CBody _ => None | CEndOfMessage _ => Some TEndOfMessageReply | _ => Some TReading end)
          with (Some TReading) by (destruct c; try reflexivity; cbn in *; congruence). apply G, C. }
    destruct c; cbn [place] in Hp; try lia; cbn [state_of Server.process_next_state] in *.
    all: try (apply Rest; [reflexivity|discriminate|discriminate]).
    - unfold process_next_state_body. destruct (Hn (disable_timeout s) eq_refl) as (_ & -> & Et).
      unfold due. rewrite <- Et. destruct (silent o (CBody chunk)); apply G; reflexivity.
    - unfold due. replace (silent o (CEndOfMessage chunk)) with false by reflexivity. apply G. reflexivity.
  Qed.

  Notation step d := (Server.step ntop4 ntop6 sort_keys (fun _ => Taken) (fun _ => false) (react d)).

  Definition queued (c : command) (q : list N) : list N := match c with CBody _ => q ++ [1] | _ => q end.
  Definition named (c : command) (r : option bytes) : option bytes :=
    match c with CEnvelopeRecipient to => Some to | _ => r end.

  (** [c] was sent, the context is in its state. *)
  Record Waiting (s : server) (p : pdata) (fs : list (list api)) (done : list command) (c : command)
    (t : option timer) (q : list N) (r : option bytes) : Prop := mk_waiting {
    w_live : Live s p fs done;
    w_timer : sv_timer s = t;
    w_next : sv_next s = [];
    w_state : sv_state s = state_of c;
    w_status : sv_status s = S_NOT_CHANGE;
    w_queue : sv_queue s = q;
    w_current : sv_current s = r
  }.

  Lemma same_wish p q c : keeps c p q -> pd_option p = Some o -> pd_hung p = false -> pd_error p = None ->
    pd_connected p = true ->
    pd_option q = Some o /\ pd_hung q = false /\ pd_error q = None /\ pd_connected q = true.
  Proof. intros (K1 & K2 & K3 & K4 & K5 & K6 & K7 & _). intuition congruence. Qed.

  (** The signal [e] makes the handlers send what comes behind the current state. *)
  Lemma signal_sends depth s p0 p fs done c q r t e f c' l' n :
    Waiting s p0 fs done c t q r -> t = None -> signal e = true ->
    Leads pl o n f p (c' :: l') -> (n < depth)%nat -> on_signal pl (state_of c) e p0 = f p ->
    pd_option p = Some o -> pd_hung p = false -> pd_error p = None -> pd_connected p = true ->
    wanted c' -> fits c' ->
    exists p' v u, keeps c' p p' /\ after pl o (state_of c') p' = l' /\
      (u = q \/ u = []) /\
      Sending (react depth (log s e)) p' ([] :: tl fs) done c' (state_of c) v u r.
  Proof.
    intros [L T X St Ss Sq Sr] Ht He (c1 & l1 & calls & p' & El & E & Q & Hq & K & Hp & A) Hd E0 P1 P2 P3 P4 Hw Hf.
    injection El as <- <-.
    destruct (same_wish p p' c' K P1 P2 P3 P4) as (O1 & O2 & O3 & O4).
    rewrite E, <- St in E0.
    destruct (log_signal s e p0 fs done _ _ p' (live_sound _ _ _ _ L) He E0 O2) as [S1 E1].
    destruct L as [Lc Lq Lb Lo Lr Lw Lh Le Ln Ls Lcl].
    assert (L1 : Live (log s e) p' ((calls ++ [api_of c']) :: tl fs) done).
    { destruct S1 as [Hc Hr Hh Hs Hcl]. constructor; try assumption; rewrite E1; assumption. }
    destruct (send_calls depth (log s e) p' (tl fs) done calls c' L1) as (v & u & _ & Hu & S);
      try assumption; try (rewrite E1; fields; congruence).
    { clear - Hq Hd. lia. }
    exists p', v, u. split; [exact K|]. split; [exact A|]. split.
    { rewrite E1 in Hu. rewrite <- Sq. exact Hu. }
    replace (sv_state (log s e)) with (state_of c) in S by (rewrite E1; fields; congruence).
    replace (sv_current (log s e)) with r in S by (rewrite E1; fields; congruence).
    exact S.
  Qed.

  Lemma flush depth s p fs done c x v q r :
    Sending s p fs done c x v q r -> 1 <= place c <= 10 ->
    exists s1, step depth s Flushed = react depth (log s1 (Delivered (state_of c))) /\
      Waiting s1 p [[]] (done ++ [c]) c (due c) (queued c q) (named c r).
  Proof.
    intros [L T X St Ss Sv Sq Sr] Hp. unfold Server.step. rewrite (l_crashed _ _ _ _ L).
    destruct (log_op s Flushed p fs (done ++ [c]) (live_sound _ _ _ _ L) I) as [S1 E1].
    unfold Server.flushed. rewrite E1. fields. rewrite X. cbn [fold_left].
    unfold Server.deliver, emit.
    match goal with |- context [next_state (react depth) ?x (state_of c)] => set (s0 := x) end.
    assert (S0 : Sound s0 p [[]] (done ++ [c])).
    { rewrite E1 in S1. destruct S1 as [Hc Hr Hh Hs Hcl]. now constructor. }
    destruct L as [Lc Lq Lb Lo Lr Lw Lh Le Ln Ls Lcl].
    destruct (processed_next (react depth) s0 c p [[]] (done ++ [c]) S0 Lo Lb Hp) as [S2 C2].
    set (s2 := next_state (react depth) s0 (state_of c)) in *. clearbody s2.
    eexists. split; [reflexivity|]. unfold core, s0 in C2. fields in C2. injection C2 as I1 I2 I3 I4 I5 I6 I7 I8 I9 I10 I11 I12.
    constructor; unfold queued, named; try congruence.
    destruct S2 as [Hc Hr Hh Hs Hcl]. constructor; try assumption; congruence.
  Qed.

  Lemma flush_waits depth s p fs done c x v q r :
    Sending s p fs done c x v q r -> 1 <= place c <= 10 -> silent o c = false ->
    Waiting (step depth s Flushed) p [[]] (done ++ [c]) c (due c) (queued c q) (named c r).
  Proof.
    intros S Hp Hs. destruct (flush depth s p fs done c x v q r S Hp) as (s1 & -> & [L T X St Ss Sq Sr]).
    destruct (log_signal s1 (Delivered (state_of c)) p [[]] (done ++ [c]) [] false p (live_sound _ _ _ _ L) eq_refl)
      as [S1 E1].
    { cbn [on_signal]. apply transited_waits with (o := o); [exact (l_wish _ _ _ _ L)|exact Hs]. }
    { exact (l_hung _ _ _ _ L). }
    rewrite (idle depth _ p [] (sv_state (log s1 (Delivered (state_of c))))).
    2:{ exact (d_crashed _ _ _ _ S1). } 2:{ exact (d_replay _ _ _ _ S1). }
    destruct L as [Lc Lq Lb Lo Lr Lw Lh Le Ln Ls Lcl].
    constructor; try (rewrite E1; assumption).
    destruct S1 as [Hc Hr Hh Hs1 Hcl]. constructor; try assumption; rewrite E1; assumption.
  Qed.

  Lemma flush_silent depth s p fs done c c' l' x v q r :
    Sending s p fs done c x v q r -> 1 <= place c <= 10 -> silent o c = true ->
    after pl o (state_of c) p = c' :: l' -> bridged o (place c) (c' :: l') -> (11 < depth)%nat -> fits c' ->
    exists p' v' u, keeps c' p p' /\ after pl o (state_of c') p' = l' /\
      (u = queued c q \/ u = []) /\
      Sending (step depth s Flushed) p' [[]] (done ++ [c]) c' (state_of c) v' u (named c r).
  Proof.
    intros S Hp Hs Ha Hb Hd Hf. destruct (flush depth s p fs done c x v q r S Hp) as (s1 & -> & W).
    pose proof (w_live _ _ _ _ _ _ _ _ W) as L.
    apply (signal_sends depth s1 p p [[]] (done ++ [c]) c (queued c q) (named c r) (due c) (Delivered (state_of c))
             (on_transited pl (state_of c)) c' l' 11 W).
    - unfold due. now rewrite Hs.
    - reflexivity.
    - rewrite <- Ha. apply (transited_leads pl o p (l_wish _ _ _ _ L) c Hs). now rewrite Ha.
    - exact Hd.
    - reflexivity.
    - exact (l_wish _ _ _ _ L).
    - exact (l_hung _ _ _ _ L).
    - exact (l_error _ _ _ _ L).
    - exact (l_connected _ _ _ _ L).
    - pose proof (after_wanted (state_of c) p) as H. rewrite Ha in H. exact (Forall_inv H).
    - exact Hf.
  Qed.

  (** *** Answers that let the conversation go on *)

  Lemma waiting_op s w p fs done c t q r :
    Waiting s p fs done c t q r -> match w with Call _ => False | _ => True end ->
    Waiting (log s (Server.In w)) p [[]] done c t q r.
  Proof.
    intros [L T X St Ss Sq Sr] Hw.
    destruct (log_op s w p fs done (live_sound _ _ _ _ L) Hw) as [S1 E1].
    destruct L as [Lc Lq Lb Lo Lr Lw Lh Le Ln Ls Lcl]. destruct S1 as [Hc Hr Hh Hs Hcl].
    constructor; try (rewrite E1; assumption).
    constructor; try assumption; rewrite E1; assumption.
  Qed.
  Lemma waiting_stop s p fs done c t q r :
    Waiting s p fs done c t q r -> Waiting (disable_timeout s) p fs done c None q r.
  Proof.
    intros [[Lc Lq Lb Lo Lr Lw Lh Le Ln Ls Lcl] T X St Ss Sq Sr]. constructor; try assumption; try reflexivity.
    now constructor.
  Qed.
  Lemma waiting_queue s p fs done c t q r q' :
    Waiting s p fs done c t q r -> Waiting (put_queue s q') p fs done c t q' r.
  Proof.
    intros [[Lc Lq Lb Lo Lr Lw Lh Le Ln Ls Lcl] T X St Ss Sq Sr]. constructor; try assumption; try reflexivity.
    now constructor.
  Qed.
  Lemma waiting_refused s p fs done c t q r v m :
    Waiting s p fs done c t q r ->
    Waiting (put_current (put_message (put_rcpt_status s v) m) None) p fs done c t q None.
  Proof.
    intros [[Lc Lq Lb Lo Lr Lw Lh Le Ln Ls Lcl] T X St Ss Sq Sr]. constructor; try assumption; try reflexivity.
    now constructor.
  Qed.

  Lemma go_on depth s p fs done c c' l' t q r :
    Waiting s p fs done c t q r -> 1 <= place c <= 9 -> q = [1] \/ place c <> 9 ->
    after pl o (state_of c) p = c' :: l' -> (11 < depth)%nat -> fits c' ->
    exists p' v u, keeps c' p p' /\ after pl o (state_of c') p' = l' /\
      (u = match c with CBody _ => [] | _ => q end \/ u = []) /\
      Sending (step depth s (Receive RContinue)) p' [[]] done c' (state_of c) v u r.
  Proof.
    intros W Hp Hq Ha Hd Hf. unfold Server.step.
    rewrite (l_crashed _ _ _ _ (w_live _ _ _ _ _ _ _ _ W)).
    pose proof (waiting_stop _ _ _ _ _ _ _ _ (waiting_op s (Receive RContinue) _ _ _ _ _ _ _ W I)) as W1.
    set (s1 := disable_timeout (log s (Server.In (Receive RContinue)))) in *.
    unfold Server.receive. fold s1. rewrite (w_state _ _ _ _ _ _ _ _ W1).
    pose proof (l_quitted _ _ _ _ (w_live _ _ _ _ _ _ _ _ W1)) as Hqt.
    assert (G : forall s2 q2, Waiting s2 p [[]] done c None q2 r ->
      exists p' v u, keeps c' p p' /\ after pl o (state_of c') p' = l' /\ (u = q2 \/ u = []) /\
        Sending (react depth (log s2 (Forward RContinue))) p' [[]] done c' (state_of c) v u r).
    { intros s2 q2 W2. pose proof (w_live _ _ _ _ _ _ _ _ W2) as L.
      apply (signal_sends depth s2 p p [[]] done c q2 r None (Forward RContinue)
               (on_continue pl (state_of c)) c' l' 11 W2).
      - reflexivity.
      - reflexivity.
      - rewrite <- Ha. apply continue_leads; [exact (l_wish _ _ _ _ L)|]. now rewrite Ha.
      - exact Hd.
      - reflexivity.
      - exact (l_wish _ _ _ _ L).
      - exact (l_hung _ _ _ _ L).
      - exact (l_error _ _ _ _ L).
      - exact (l_connected _ _ _ _ L).
      - pose proof (after_wanted (state_of c) p) as H. rewrite Ha in H. exact (Forall_inv H).
      - exact Hf. }
    assert (Other : place c <> 9 -> answerable (state_of c) = true ->
      exists p' v u, keeps c' p p' /\ after pl o (state_of c') p' = l' /\ (u = q \/ u = []) /\
        Sending (if answerable (state_of c) then
                   if sv_quitted s1 then s1
                   else let s2 := emit (react depth) s1 (Forward RContinue) in
                        match sv_state s2 with XEndOfMessage => emit_processed (react depth) s2 | _ => s2 end
                 else invalid_state (react depth) s1) p' [[]] done c' (state_of c) v u r).
    { intros H9 Hans. rewrite Hans, Hqt. cbv zeta. unfold emit.
      destruct (G s1 q W1) as (p' & v & u & K & A & U & S). exists p', v, u.
      split; [exact K|]. split; [exact A|]. split; [exact U|].
      rewrite (g_state _ _ _ _ _ _ _ _ _ S). destruct c; cbn [state_of place] in *; try exact S; clear - Hp; lia. }
    destruct c; cbn [place] in *; try (exfalso; clear - Hp; lia); cbn [state_of] in *; try (apply Other; [discriminate|reflexivity]).
    rewrite Hqt. unfold decrement_body_count. rewrite (w_queue _ _ _ _ _ _ _ _ W1).
    destruct Hq as [->|Hq]; [|now elim Hq]. cbn [N.eqb Pos.eqb]. unfold emit.
    destruct (G (put_queue s1 []) [] (waiting_queue _ _ _ _ _ _ _ _ [] W1)) as (p' & v & u & K & A & U & S).
    exists p', v, u. split; [exact K|]. split; [exact A|]. split; [exact U|].
    rewrite (l_body _ _ _ _ (g_live _ _ _ _ _ _ _ _ _ S)). exact S.
  Qed.

  Lemma go_skip depth s p fs done chunk t q r :
    Waiting s p fs done (CBody chunk) t q r -> (11 < depth)%nat ->
    exists p' v, keeps (CEndOfMessage None) (put_chunks p []) p' /\
      Sending (step depth s (Receive RSkip)) p' [[]] done (CEndOfMessage None) XBody v [] r.
  Proof.
    intros W Hd. unfold Server.step.
    rewrite (l_crashed _ _ _ _ (w_live _ _ _ _ _ _ _ _ W)).
    pose proof (waiting_stop _ _ _ _ _ _ _ _ (waiting_op s (Receive RSkip) _ _ _ _ _ _ _ W I)) as W1.
    set (s1 := disable_timeout (log s (Server.In (Receive RSkip)))) in *.
    unfold Server.receive. fold s1. rewrite (w_state _ _ _ _ _ _ _ _ W1).
    pose proof (w_live _ _ _ _ _ _ _ _ W1) as L.
    rewrite (l_quitted _ _ _ _ L). cbn [state_of].
    assert (Ha : after pl o XBody (put_chunks p []) = [CEndOfMessage None]).
    { cbn. unfold r_body, unless. now destruct (asked o _). }
    destruct (signal_sends depth s1 p (put_chunks p []) [[]] done (CBody chunk) q r None (Forward RSkip)
                (on_continue pl XBody) (CEndOfMessage None) [] 11 W1) as (p' & v & u & K & A & U & S);
      try reflexivity; try exact I; try exact Hd; try apply L.
    { rewrite <- Ha. apply continue_leads; [exact (l_wish _ _ _ _ L)|]. now rewrite Ha. }
    exists p', v. split; [exact K|]. unfold emit.
    destruct S as [[Lc Lq Lb Lo Lr Lw Lh Le Ln Ls Lcl] T X St Ss Sv Sq Sr].
    constructor; try assumption; try reflexivity. now constructor.
  Qed.

  Lemma removed_left r left left' : without r left left' -> remove_first left r = left'.
  Proof.
    intros [a b Ha|l Hl].
    - induction a as [|x a IH]; cbn [remove_first app].
      + now rewrite bytes_eqb_refl.
      + destruct (bytes_eqb x r) eqn:E; [apply bytes_eqb_eq in E as ->; elim Ha; now left|]. f_equal. apply IH. intros H. apply Ha. now right.
    - induction l as [|x l IH]; [reflexivity|]. cbn [remove_first].
      destruct (bytes_eqb x r) eqn:E; [apply bytes_eqb_eq in E as ->; elim Hl; now left|]. f_equal. apply IH. intros H. apply Hl. now right.
  Qed.

  (** What a refusal makes of the data. *)
  Definition replied (a : reply) (p : pdata) : pdata := put_reply p (say a (pd_reply p)).
  Definition struck (p : pdata) (left : list bytes) : pdata :=
    put_mail p (TestReport.ml_put_recipients (pd_mail p) left).

  Lemma refusal_signal x a word p :
    refusal a word -> on_signal pl x (Forward a) p = on_refusal pl x (replied a p).
  Proof. intros [ | | | ]; destruct p; reflexivity. Qed.

  Lemma refuse_here s p fs done to t q v :
    Waiting s p fs done (CEnvelopeRecipient to) t q (Some to) ->
    exists m, refuse s v = put_current (put_message (put_rcpt_status s v) m) None.
  Proof.
    intros W. unfold refuse. rewrite (w_state _ _ _ _ _ _ _ _ W). cbn [state_of].
    unfold refuse_recipient. rewrite (w_current _ _ _ _ _ _ _ _ W). eexists. reflexivity.
  Qed.

  (** *** The end *)

  Definition kept (s s' : server) : Prop :=
    sv_state s' = sv_state s /\ sv_status s' = sv_status s /\ sv_rcpt_status s' = sv_rcpt_status s /\
    sv_next s' = sv_next s.
  (** What comes behind the handlers sends nothing more. *)
  Definition Tail (g : server -> server) : Prop :=
    forall s p fs done, Sound s p fs done ->
    (exists fs', Sound (g s) p fs' done) /\ kept s (g s).

  Lemma kept_refl s : kept s s.
  Proof. now repeat split. Qed.
  Lemma kept_trans s1 s2 s3 : kept s1 s2 -> kept s2 s3 -> kept s1 s3.
  Proof. intros (A1 & A2 & A3 & A4) (B1 & B2 & B3 & B4). repeat split; congruence. Qed.
  Lemma tail_id : Tail (fun s => s).
  Proof. intros s p fs done S. split; [now exists fs|apply kept_refl]. Qed.
  Lemma tail_comp g h : Tail g -> Tail h -> Tail (fun s => h (g s)).
  Proof.
    intros G H s p fs done S. destruct (G s p fs done S) as [(fs1 & S1) K1].
    destruct (H (g s) p fs1 done S1) as [S2 K2]. split; [exact S2|exact (kept_trans _ _ _ K1 K2)].
  Qed.

  (** A signal nobody minds. *)
  Lemma ignored d s p fs done e :
    Sound s p fs done -> signal e = true -> (exists b, on_signal pl (sv_state s) e p = ([], b, p)) ->
    Sound (emit (react d) s e) p ([] :: tl fs) done /\ emit (react d) s e = put_trace s (e :: sv_trace s).
  Proof.
    intros S He (b & Ho). destruct (log_signal s e p fs done [] b p S He Ho (d_hung _ _ _ _ S)) as [S1 E1].
    unfold emit. rewrite (idle d _ p (tl fs) (sv_state (log s e))).
    - split; [exact S1|exact E1].
    - exact (d_crashed _ _ _ _ S1).
    - exact (d_replay _ _ _ _ S1).
  Qed.

  Lemma tail_processed d : Tail (emit_processed (react d)).
  Proof.
    intros s p fs done S. unfold emit_processed. destruct (sv_message s) as [m|]; [|split; [now exists fs|apply kept_refl]].
    set (m2 := mr_put_status _ _).
    assert (S1 : Sound (put_message s (Some m2)) p fs done) by (destruct S; now constructor).
    destruct (ignored d _ p fs done (Processed m2) S1 eq_refl) as [S2 E2]; [now exists false|].
    split.
    - exists ([] :: tl fs). destruct S2. now constructor.
    - rewrite E2. now repeat split.
  Qed.
  Lemma tail_end d b : Tail (fun s => end_message (react d) s b).
  Proof.
    intros s p fs done S. unfold end_message. destruct (_ && _); [exact (tail_processed d s p fs done S)|exact (tail_id s p fs done S)].
  Qed.
  Lemma tail_clear : Tail (fun s => match sv_state s with XBody => clear_body_count s | _ => s end).
  Proof.
    intros s p fs done S.
    assert (C : (exists fs', Sound (clear_body_count s) p fs' done) /\ kept s (clear_body_count s)).
    { split; [exists fs; destruct S; now constructor|now repeat split]. }
    destruct (sv_state s); try exact C; (split; [now exists fs|apply kept_refl]).
  Qed.

  Lemma urgent_call d s p f fs done c :
    Sound s p ((api_of c :: f) :: fs) done -> c = CAbort \/ c = CQuit ->
    Sound (call d s (api_of c)) p (f :: fs) (done ++ [c]) /\
    sv_state (call d s (api_of c)) = sv_state s /\ sv_status (call d s (api_of c)) = sv_status s /\
    sv_rcpt_status (call d s (api_of c)) = sv_rcpt_status s /\
    sv_next (call d s (api_of c)) = sv_next s ++ [state_of c].
  Proof.
    intros [Hc Hr Hh Hs Hcl] Cc. unfold Server.call.
    set (s0 := put_trace s (Server.In (Call (api_of c)) :: sv_trace s)).
    replace (log s (Server.In (Call (api_of c)))) with s0 by (unfold log; now rewrite Hc).
    assert (B : exists s1 (h : server -> server), body (react d) s0 (api_of c) = (let (ok, s2) := send (react d) s1 c (state_of c) in (ok, h s2)) /\
      sv_crashed s1 = false /\ sv_trace s1 = sv_trace s0 /\ kept s0 s1 /\
      (forall s2, sv_crashed (h s2) = sv_crashed s2 /\ sv_trace (h s2) = sv_trace s2 /\ kept s2 (h s2))).
    { destruct Cc as [->| ->].
      - exists s0, (fun s => put_processing s false). split; [reflexivity|]. split; [exact Hc|]. split; [reflexivity|].
        split; [apply kept_refl|]. intros s2. now repeat split.
      - exists (put_quitted s0 true), (fun s => s).
        split; [cbn [api_of state_of call_body]; now destruct (send (react d) (put_quitted s0 true) CQuit XQuit)|]. split; [exact Hc|]. split; [reflexivity|].
        split; [now repeat split|]. intros s2. now repeat split. }
    destruct B as (s1 & h & -> & Hc1 & Ht1 & (K1 & K2 & K3 & K4) & Hh1).
    destruct (send_core (react d) s1 c (state_of c) Hc1) as (pre & s2 & -> & C2).
    { left. now destruct Cc as [->| ->]. } { now destruct Cc as [->| ->]. }
    replace (urgent (state_of c)) with true in C2 by (now destruct Cc as [->| ->]).
    unfold core in C2. fields in C2. injection C2 as I1 I2 I3 I4 I5 I6 I7 I8 I9 I10 I11 I12.
    destruct (Hh1 s2) as (J1 & J2 & (M1 & M2 & M3 & M4)).
    unfold log. rewrite J1, I12, Hc1. fields.
    unfold s0 in *. fields in K1. fields in K2. fields in K3. fields in K4. fields in Ht1.
    split; [|repeat split; congruence].
    constructor; fields.
    - congruence.
    - rewrite J2, I11, Ht1. cbn [replay observe]. rewrite Hr. cbn [cv_data cv_calls cv_state tl].
      now rewrite M1, I1, K1.
    - exact Hh.
    - rewrite J2, I11, Ht1, !packets_cons, Hs, map_app. cbn [packet_of map]. now rewrite !app_nil_r.
    - rewrite J2, I11, Ht1. exact Hcl.
  Qed.

  Lemma abort_calls depth s p fs done :
    Sound s p ([AAbort; AQuit] :: fs) done -> (2 <= depth)%nat ->
    Sound (react depth s) p ([] :: fs) (done ++ [CAbort; CQuit]) /\
    sv_state (react depth s) = sv_state s /\ sv_status (react depth s) = sv_status s /\
    sv_rcpt_status (react depth s) = sv_rcpt_status s /\
    sv_next (react depth s) = sv_next s ++ [XAbort; XQuit].
  Proof.
    intros S Hd. destruct depth as [|[|d]]; try lia.
    rewrite (react_call _ _ _ _ _ _ _ (d_crashed _ _ _ _ S) (d_replay _ _ _ _ S) (d_hung _ _ _ _ S)).
    destruct (urgent_call (Datatypes.S d) s p [AQuit] fs done CAbort S (or_introl eq_refl)) as (S1 & A1 & A2 & A3 & A4).
    cbn [api_of] in *. set (s1 := call (Datatypes.S d) s AAbort) in *.
    rewrite (react_call _ _ _ _ _ _ _ (d_crashed _ _ _ _ S1) (d_replay _ _ _ _ S1) (d_hung _ _ _ _ S1)).
    destruct (urgent_call d s1 p [] fs (done ++ [CAbort]) CQuit S1 (or_intror eq_refl)) as (S2 & B1 & B2 & B3 & B4).
    cbn [api_of] in *. set (s2 := call d s1 AQuit) in *.
    rewrite (idle d s2 p fs (sv_state s2) (d_crashed _ _ _ _ S2) (d_replay _ _ _ _ S2)).
    rewrite <- app_assoc in S2. split; [exact S2|]. repeat split; try congruence.
    rewrite B4, A4, <- app_assoc. reflexivity.
  Qed.
  Lemma quit_calls depth s p fs done :
    Sound s p ([AQuit] :: fs) done -> (1 <= depth)%nat ->
    Sound (react depth s) p ([] :: fs) (done ++ [CQuit]) /\
    sv_state (react depth s) = sv_state s /\ sv_status (react depth s) = sv_status s /\
    sv_rcpt_status (react depth s) = sv_rcpt_status s /\
    sv_next (react depth s) = sv_next s ++ [XQuit].
  Proof.
    intros S Hd. destruct depth as [|d]; try lia.
    rewrite (react_call _ _ _ _ _ _ _ (d_crashed _ _ _ _ S) (d_replay _ _ _ _ S) (d_hung _ _ _ _ S)).
    destruct (urgent_call d s p [] fs done CQuit S (or_intror eq_refl)) as (S2 & B1 & B2 & B3 & B4).
    cbn [api_of state_of] in *. set (s2 := call d s AQuit) in *.
    rewrite (idle d s2 p fs (sv_state s2) (d_crashed _ _ _ _ S2) (d_replay _ _ _ _ S2)).
    split; [exact S2|]. repeat split; congruence.
  Qed.

  (** The status after an abort. *)
  Definition verdict (x : sstate) (v rcpt : status) : status :=
    if is_pass v && sstate_in XDefineMacro x XEndOfMessage && negb (sstate_eqb x XEndOfMessage)
    then if sstate_eqb x XRcpt && negb (status_eqb rcpt S_DEFAULT) then rcpt else S_ABORT
    else v.

  Lemma delivered_abort d s p fs done :
    Sound s p fs done ->
    exists fs', Sound (deliver (react d) s XAbort) p fs' done /\
    sv_status (deliver (react d) s XAbort) = verdict (sv_state s) (sv_status s) (sv_rcpt_status s).
  Proof.
    intros S. unfold Server.deliver. cbn [Server.process_next_state].
    set (s2 := if is_pass _ && _ && _ then _ else _).
    assert (S2 : Sound s2 p fs done /\ sv_status s2 = verdict (sv_state s) (sv_status s) (sv_rcpt_status s)).
    { unfold s2, verdict, disable_timeout. fields. destruct (_ && _ && _).
      - destruct (_ && _); (split; [destruct S; now constructor|reflexivity]).
      - split; [destruct S; now constructor|reflexivity]. }
    destruct S2 as [S2 V2]. destruct (sound_state s2 XAbort p fs done S2) as [S3 C3].
    destruct (tail_processed d _ p fs done S3) as [(fs4 & S4) (_ & K2 & _)].
    set (s4 := emit_processed (react d) (set_state s2 XAbort)) in *.
    assert (S5 : Sound (reset_message_related_data s4) p fs4 done) by (destruct S4; now constructor).
    destruct (ignored d _ p fs4 done (Delivered XAbort) S5 eq_refl) as [S6 E6].
    { exists false. reflexivity. }
    eexists. split; [exact S6|]. rewrite E6. change (sv_status s4 = verdict (sv_state s) (sv_status s) (sv_rcpt_status s)).
    rewrite K2. change (sv_status (core (set_state s2 XAbort)) = verdict (sv_state s) (sv_status s) (sv_rcpt_status s)).
    rewrite C3. exact V2.
  Qed.
  Lemma delivered_quit d s p fs done :
    Sound s p fs done ->
    exists fs', Sound (deliver (react d) s XQuit) p fs' done /\
    sv_status (deliver (react d) s XQuit) = sv_status s.
  Proof.
    intros S. unfold Server.deliver. cbn [Server.process_next_state].
    assert (S0 : Sound (disable_timeout s) p fs done) by (destruct S; now constructor).
    destruct (ignored d _ p fs done ShutDown S0 eq_refl) as [S1 E1]; [now exists false|].
    destruct (sound_state _ XQuit p _ done S1) as [S2 C2].
    destruct (ignored d _ p _ done (Delivered XQuit) S2 eq_refl) as [S3 E3]; [now exists false|].
    eexists. split; [exact S3|]. rewrite E3.
    change (sv_status (core (set_state (emit (react d) (disable_timeout s) ShutDown) XQuit)) = sv_status s).
    rewrite C2, E1. reflexivity.
  Qed.

  Lemma closed_abort depth s p fs done :
    Sound s p fs done -> sv_next s = [XAbort; XQuit] ->
    exists fs', Sound (step depth s Flushed) p fs' done /\
      sv_status (step depth s Flushed) = verdict (sv_state s) (sv_status s) (sv_rcpt_status s).
  Proof.
    intros S Hn. unfold Server.step. rewrite (d_crashed _ _ _ _ S).
    destruct (log_op s Flushed p fs done S I) as [S1 E1].
    unfold Server.flushed. set (s1 := log s (Server.In Flushed)) in *.
    assert (S2 : Sound (put_next s1 []) p [[]] done) by (destruct S1; now constructor).
    replace (sv_next s1) with [XAbort; XQuit] by (rewrite E1; fields; congruence). cbn [fold_left].
    destruct (delivered_abort depth _ p _ done S2) as (fs3 & S3 & V3).
    destruct (delivered_quit depth _ p _ done S3) as (fs4 & S4 & V4).
    exists fs4. split; [exact S4|]. rewrite V4, V3. fields. now rewrite E1.
  Qed.
  Lemma closed_quit depth s p fs done :
    Sound s p fs done -> sv_next s = [XQuit] ->
    exists fs', Sound (step depth s Flushed) p fs' done /\ sv_status (step depth s Flushed) = sv_status s.
  Proof.
    intros S Hn. unfold Server.step. rewrite (d_crashed _ _ _ _ S).
    destruct (log_op s Flushed p fs done S I) as [S1 E1].
    unfold Server.flushed. set (s1 := log s (Server.In Flushed)) in *.
    assert (S2 : Sound (put_next s1 []) p [[]] done) by (destruct S1; now constructor).
    replace (sv_next s1) with [XQuit] by (rewrite E1; fields; congruence). cbn [fold_left].
    destruct (delivered_quit depth _ p _ done S2) as (fs4 & S4 & V4).
    exists fs4. split; [exact S4|]. rewrite V4. fields. now rewrite E1.
  Qed.

  Lemma ends_abort depth s w g s1 e p p1 fs done :
    step depth s w = g (react depth (log s1 e)) -> Tail g -> Sound s1 p fs done -> sv_next s1 = [] ->
    signal e = true -> on_signal pl (sv_state s1) e p = abort p1 -> pd_hung p1 = false -> (2 <= depth)%nat ->
    exists fs', Sound (step depth (step depth s w) Flushed) (put_over p1) fs' (done ++ [CAbort; CQuit]) /\
      sv_status (step depth (step depth s w) Flushed)
      = verdict (sv_state s1) (sv_status s1) (sv_rcpt_status s1).
  Proof.
    intros -> G S Hn He Ho Hh Hd.
    destruct (log_signal s1 e p fs done _ _ (put_over p1) S He Ho Hh) as [S1 E1].
    destruct (abort_calls depth _ _ _ _ S1 Hd) as (S2 & A1 & A2 & A3 & A4).
    destruct (G _ _ _ _ S2) as [(fs3 & S3) (K1 & K2 & K3 & K4)].
    destruct (closed_abort depth _ _ _ _ S3) as (fs4 & S4 & V4).
    { rewrite K4, A4, E1. fields. now rewrite Hn. }
    exists fs4. split; [exact S4|]. rewrite V4, K1, K2, K3, A1, A2, A3, E1. reflexivity.
  Qed.
  Lemma ends_quit depth s w g s1 e p p1 fs done :
    step depth s w = g (react depth (log s1 e)) -> Tail g -> Sound s1 p fs done -> sv_next s1 = [] ->
    signal e = true -> on_signal pl (sv_state s1) e p = quit p1 -> pd_hung p1 = false -> (1 <= depth)%nat ->
    exists fs', Sound (step depth (step depth s w) Flushed) (put_over p1) fs' (done ++ [CQuit]) /\
      sv_status (step depth (step depth s w) Flushed) = sv_status s1.
  Proof.
    intros -> G S Hn He Ho Hh Hd.
    destruct (log_signal s1 e p fs done _ _ (put_over p1) S He Ho Hh) as [S1 E1].
    destruct (quit_calls depth _ _ _ _ S1 Hd) as (S2 & A1 & A2 & A3 & A4).
    destruct (G _ _ _ _ S2) as [(fs3 & S3) (K1 & K2 & K3 & K4)].
    destruct (closed_quit depth _ _ _ _ S3) as (fs4 & S4 & V4).
    { rewrite K4, A4, E1. fields. now rewrite Hn. }
    exists fs4. split; [exact S4|]. rewrite V4, K2, A2, E1. reflexivity.
  Qed.

  (** *** Answers *)

  Notation receive f := (Server.receive ntop4 ntop6 sort_keys (fun _ => Taken) f).

  Lemma put_queue_id s : put_queue s (sv_queue s) = s.
  Proof. now destruct s. Qed.
  Lemma end_rcpt d s : sv_state s = XRcpt -> end_message (react d) s true = s.
  Proof. intros H. unfold end_message. now rewrite H. Qed.

  Lemma refusal_shape a word :
    refusal a word ->
    exists v, status_word v = lit word /\ is_pass v = false /\ status_eqb v S_DEFAULT = false /\
      forall d s, sv_crashed (refuse s v) = false -> sv_quitted (refuse s v) = false ->
      answerable (sv_state (refuse s v)) = true ->
      exists q g, receive (react d) s a = g (react d (log (put_queue (disable_timeout (refuse s v)) q) (Forward a))) /\
        Tail g /\ (sv_state (refuse s v) <> XBody -> q = sv_queue (refuse s v)) /\
        (forall s2, sv_state s2 = XRcpt -> g s2 = s2).
  Proof.
    assert (F : forall d s (r : reply), sv_crashed s = false -> sv_quitted s = false ->
      exists q g, final_reply (react d) s r true = g (react d (log (put_queue (disable_timeout s) q) (Forward r))) /\
        Tail g /\ (sv_state s <> XBody -> q = sv_queue s) /\ (forall s2, sv_state s2 = XRcpt -> g s2 = s2)).
    { intros d s r Hc Hq. exists (sv_queue s).
      exists (fun s => match sv_state (end_message (react d) s true) with
                       | XBody => clear_body_count (end_message (react d) s true)
                       | _ => end_message (react d) s true end).
      split; [|split; [|split; [reflexivity|]]].
      - unfold final_reply. cbn [disable_timeout put_timer sv_quitted]. rewrite Hq. unfold emit.
        change (sv_queue s) with (sv_queue (disable_timeout s)). now rewrite put_queue_id.
      - exact (tail_comp _ _ (tail_end d true) tail_clear).
      - intros s2 H2. rewrite (end_rcpt d s2 H2), H2. reflexivity. }
    assert (C : forall c e t v,
      (if (400 <=? c) && (c <? 500) then S_TEMPORARY_FAILURE else S_REJECT) = v ->
      forall d s, sv_crashed (refuse s v) = false -> sv_quitted (refuse s v) = false ->
      answerable (sv_state (refuse s v)) = true ->
      exists q g, receive (react d) s (RReplyCode c e t)
                  = g (react d (log (put_queue (disable_timeout (refuse s v)) q) (Forward (RReplyCode c e t)))) /\
        Tail g /\ (sv_state (refuse s v) <> XBody -> q = sv_queue (refuse s v)) /\
        (forall s2, sv_state s2 = XRcpt -> g s2 = s2)).
    { intros c e t v Hv d s Hc Hq Ha. cbn [Server.receive]. rewrite Hv.
      set (s0 := refuse s v) in *. rewrite Hc.
      change (sv_state (disable_timeout s0)) with (sv_state s0). change (sv_quitted (disable_timeout s0)) with (sv_quitted s0).
      rewrite Ha, Hq.
      exists (match sv_state s0 with XBody => [] | _ => sv_queue s0 end), (fun s => end_message (react d) s true).
      split; [|split; [apply tail_end|split; [|apply end_rcpt]]].
      2:{ now destruct (sv_state s0). }
      unfold emit.
      assert (E : match sv_state s0 with XBody => clear_body_count (disable_timeout s0) | _ => disable_timeout s0 end
                  = put_queue (disable_timeout s0) (match sv_state s0 with XBody => [] | _ => sv_queue s0 end)).
      { destruct (sv_state s0); try reflexivity;
          change (sv_queue s0) with (sv_queue (disable_timeout s0)); now rewrite put_queue_id. }
      rewrite E. change (sv_quitted (put_queue (disable_timeout s0) _)) with (sv_quitted s0). now rewrite Hq. }
    intros [ | |c e t Hc|c e t Hc].
    - exists S_REJECT. split; [reflexivity|]. split; [reflexivity|]. split; [reflexivity|].
      intros d s Hc Hq _. cbn [Server.receive]. rewrite Hc. now apply F.
    - exists S_TEMPORARY_FAILURE. split; [reflexivity|]. split; [reflexivity|]. split; [reflexivity|].
      intros d s Hc Hq _. cbn [Server.receive]. rewrite Hc. now apply F.
    - exists S_TEMPORARY_FAILURE. split; [reflexivity|]. split; [reflexivity|]. split; [reflexivity|].
      apply C. replace (400 <=? c) with true by (symmetry; apply N.leb_le; lia).
      now replace (c <? 500) with true by (symmetry; apply N.ltb_lt; lia).
    - exists S_REJECT. split; [reflexivity|]. split; [reflexivity|]. split; [reflexivity|].
      apply C. destruct Hc as [Hc|Hc].
      + now replace (400 <=? c) with false by (symmetry; apply N.leb_gt; lia).
      + replace (c <? 500) with false by (symmetry; apply N.ltb_ge; lia). now rewrite andb_false_r.
  Qed.

  Lemma settled_shape a word :
    settled a word ->
    exists v, status_word v = lit word /\ is_pass v = false /\
      (forall p x, on_signal pl x (Forward a) p = abort p) /\ (forall said, say a said = said) /\
      forall d s, sv_quitted s = false ->
      exists g, receive (react d) s a = g (react d (log (put_status (disable_timeout s) v) (Forward a))) /\ Tail g.
  Proof.
    assert (F : forall d s v (r : reply), sv_quitted s = false ->
      exists g, final_reply (react d) (put_status s v) r false
                = g (react d (log (put_status (disable_timeout s) v) (Forward r))) /\ Tail g).
    { intros d s v r Hq.
      exists (fun s => match sv_state (end_message (react d) s false) with
                       | XBody => clear_body_count (end_message (react d) s false)
                       | _ => end_message (react d) s false end).
      split; [|exact (tail_comp _ _ (tail_end d false) tail_clear)].
      unfold final_reply. cbn [disable_timeout put_timer put_status sv_quitted]. rewrite Hq. reflexivity. }
    intros [ | | ].
    - exists S_ACCEPT. repeat (split; [reflexivity|]). intros d s Hq. now apply F.
    - exists S_DISCARD. repeat (split; [reflexivity|]). intros d s Hq. now apply F.
    - exists S_ERROR. repeat (split; [reflexivity|]). intros d s Hq. exists (fun s => s). split; [|apply tail_id].
      cbn [Server.receive]. cbn [disable_timeout put_timer put_status sv_quitted]. rewrite Hq. reflexivity.
  Qed.

  (** The end as the spec tells it. *)
  Definition Finished (s : server) (done : list command) (e : ending) : Prop :=
    packets (sv_trace s) = map enc done /\ forallb (fun e => negb (faulty e)) (sv_trace s) = true /\
    exits_with_success pl s = true /\
    match e with
    | Ended word said others requests =>
        print_result pl s
        = PResult (status_told word said) (reason requests)
            (fold_left TestReport.edit requests
               (TestReport.ml_put_recipients (TestReport.mail_new (pl_message pl)) others))
    | NoAnswer t => print_result pl s = PError (OfTimeout t)
    end.

  Lemma finished_ended s p fs done word said left requests v :
    Sound s p fs done -> sv_status s = v -> status_word v = lit word -> pd_error p = None -> pd_connected p = true ->
    pd_reply p = said ->
    pd_mail p = fold_left TestReport.edit requests
                  (TestReport.ml_put_recipients (TestReport.mail_new (pl_message pl)) left) ->
    TestReport.ml_quarantine (pd_mail p) = reason requests ->
    Finished s done (Ended word said left requests).
  Proof.
    intros [Hc Hr Hh Hs Hcl] Hv Hw He Hk Hsaid Hm Hq. split; [exact Hs|]. split; [exact Hcl|].
    unfold exits_with_success, print_result. rewrite Hr. cbn [cv_data]. split; [exact Hk|].
    rewrite He, Hsaid, Hq, Hm. f_equal. unfold status_line, status_told. now rewrite Hv, Hw.
  Qed.
  Lemma finished_late s p fs done t :
    Sound s p fs done -> pd_error p = Some (OfTimeout t) -> pd_connected p = true ->
    Finished s done (NoAnswer t).
  Proof.
    intros [Hc Hr Hh Hs Hcl] He Hk. split; [exact Hs|]. split; [exact Hcl|].
    unfold exits_with_success, print_result. rewrite Hr. cbn [cv_data]. split; [exact Hk|]. now rewrite He.
  Qed.

  (** The data so far. *)
  Definition told (p : pdata) (left : list bytes) (said : code) (requests : list reply) : Prop :=
    pd_mail p = fold_left TestReport.edit requests
                  (TestReport.ml_put_recipients (TestReport.mail_new (pl_message pl)) left) /\
    pd_reply p = said.

  Lemma quarantine_reason requests : forall l r,
    TestReport.ml_quarantine l = r ->
    TestReport.ml_quarantine (fold_left TestReport.edit requests l)
    = fold_left (fun r x => match x with RQuarantine t => Some t | _ => r end) requests r.
  Proof.
    induction requests as [|x rs IH]; intros l r H; cbn [fold_left]; [exact H|].
    apply IH. destruct x; cbn; try exact H; reflexivity.
  Qed.
  Lemma told_reason p left said requests :
    told p left said requests -> TestReport.ml_quarantine (pd_mail p) = reason requests.
  Proof. intros [-> _]. apply quarantine_reason. reflexivity. Qed.

  Notation run d := (fold_left (fun s w => step d s w)).

  Lemma verdict_final x v r : is_pass v = false -> verdict x v r = v.
  Proof. intros H. unfold verdict. now rewrite H. Qed.

  Lemma live_op s w p fs done :
    Live s p fs done -> match w with Call _ => False | _ => True end ->
    Live (log s (Server.In w)) p [[]] done /\
    log s (Server.In w) = put_trace s (Server.In w :: sv_trace s).
  Proof.
    intros L Hw. destruct (log_op s w p fs done (live_sound _ _ _ _ L) Hw) as [S1 E1]. split; [|exact E1].
    destruct L as [Lc Lq Lb Lo Lr Lw Lh Le Ln Ls Lcl]. destruct S1 as [Hc Hr Hh Hs Hcl].
    constructor; try assumption; rewrite E1; assumption.
  Qed.

  (** A refusal that ends the message. *)
  Lemma end_refuse depth s p fs done a word left said requests :
    Live s p fs done -> sv_next s = [] -> answerable (sv_state s) = true -> sv_state s <> XRcpt ->
    refusal a word -> told p left said requests -> (2 <= depth)%nat ->
    Finished (run depth [Receive a; Flushed] s) (done ++ [CAbort; CQuit]) (Ended word (say a said) left requests).
  Proof.
    intros L Hx Hans H4 Ha T Hd. cbn [fold_left].
    destruct (refusal_shape a word Ha) as (v & Hv & Hpass & _ & R).
    destruct (live_op s (Receive a) p fs done L I) as [L1 E1].
    set (s1 := log s (Server.In (Receive a))) in *.
    assert (Er : refuse s1 v = put_status s1 v).
    { unfold refuse. replace (sv_state s1) with (sv_state s) by now rewrite E1. now destruct (sv_state s). }
    destruct (R depth s1) as (q' & g & E & G & _).
    { rewrite Er. exact (l_crashed _ _ _ _ L1). } { rewrite Er. exact (l_quitted _ _ _ _ L1). }
    { rewrite Er, E1. exact Hans. }
    assert (Es : step depth s (Receive a) = receive (react depth) s1 a).
    { unfold Server.step. now rewrite (l_crashed _ _ _ _ L). }
    rewrite E in Es. rewrite Er in Es.
    assert (S1 : Sound (put_queue (disable_timeout (put_status s1 v)) q') p [[]] done)
      by (destruct L1; now constructor).
    destruct (ends_abort depth s (Receive a) g _ (Forward a) p (replied a p) _ done Es G S1) as (fs' & S2 & V2).
    - change (sv_next s1 = []). now rewrite E1.
    - reflexivity.
    - rewrite (refusal_signal _ a word p Ha). unfold on_refusal.
      change (sv_state (put_queue (disable_timeout (put_status s1 v)) q')) with (sv_state s1).
      replace (sv_state s1) with (sv_state s) by now rewrite E1. now destruct (sv_state s).
    - exact (l_hung _ _ _ _ L1).
    - exact Hd.
    - eapply finished_ended; [exact S2| |exact Hv| | | | |].
      + rewrite V2. apply verdict_final. exact Hpass.
      + exact (l_error _ _ _ _ L1).
      + exact (l_connected _ _ _ _ L1).
      + cbn. now rewrite (proj2 T).
      + exact (proj1 T).
      + exact (told_reason _ _ _ _ T).
  Qed.

  (** A recipient is refused, and no other is left. *)
  Lemma end_refused depth s p fs done to t q a word left said :
    Waiting s p fs done (CEnvelopeRecipient to) t q (Some to) -> pd_last p = to ->
    refusal a word -> told p left said [] -> without to left [] -> (2 <= depth)%nat ->
    Finished (run depth [Receive a; Flushed] s) (done ++ [CAbort; CQuit]) (Ended word (say a said) [] []).
  Proof.
    intros W Hto Ha T Hwo Hd. cbn [fold_left].
    destruct (refusal_shape a word Ha) as (v & Hv & Hpass & Hdef & R).
    pose proof (waiting_op s (Receive a) _ _ _ _ _ _ _ W I) as W1.
    set (s1 := log s (Server.In (Receive a))) in *.
    destruct (refuse_here s1 _ _ _ _ _ _ v W1) as (m & Er).
    destruct (R depth s1) as (q' & g & E & G & _).
    { rewrite Er. exact (l_crashed _ _ _ _ (w_live _ _ _ _ _ _ _ _ W1)). }
    { rewrite Er. exact (l_quitted _ _ _ _ (w_live _ _ _ _ _ _ _ _ W1)). }
    { rewrite Er. change (answerable (sv_state s1) = true). now rewrite (w_state _ _ _ _ _ _ _ _ W1). }
    assert (Es : step depth s (Receive a) = receive (react depth) s1 a).
    { unfold Server.step. now rewrite (l_crashed _ _ _ _ (w_live _ _ _ _ _ _ _ _ W)). }
    rewrite E in Es. rewrite Er in Es.
    pose proof (w_live _ _ _ _ _ _ _ _ W1) as L1.
    set (s2 := put_queue (disable_timeout (put_current (put_message (put_rcpt_status s1 v) m) None)) q') in *.
    assert (S1 : Sound s2 p [[]] done) by (destruct L1; now constructor).
    destruct (ends_abort depth s (Receive a) g s2 (Forward a) p (struck (replied a p) []) _ done Es G S1) as (fs' & S2 & V2).
    - exact (w_next _ _ _ _ _ _ _ _ W1).
    - reflexivity.
    - rewrite (refusal_signal _ a word p Ha). unfold on_refusal.
      change (sv_state s2) with (sv_state s1). rewrite (w_state _ _ _ _ _ _ _ _ W1). cbn [state_of].
      replace (remove_first (TestReport.ml_recipients (pd_mail (replied a p))) (pd_last (replied a p))) with (@nil bytes).
      { reflexivity. }
      change (pd_mail (replied a p)) with (pd_mail p). change (pd_last (replied a p)) with (pd_last p).
      rewrite (proj1 T), Hto. symmetry. exact (removed_left _ _ _ Hwo).
    - exact (l_hung _ _ _ _ L1).
    - exact Hd.
    - eapply finished_ended; [exact S2| |exact Hv| | | | |].
      + rewrite V2. change (verdict (sv_state s1) (sv_status s1) v = v).
        rewrite (w_state _ _ _ _ _ _ _ _ W1), (w_status _ _ _ _ _ _ _ _ W1). unfold verdict. cbn [state_of].
        rewrite Hdef. reflexivity.
      + exact (l_error _ _ _ _ L1).
      + exact (l_connected _ _ _ _ L1).
      + cbn. now rewrite (proj2 T).
      + cbn [struck put_over put_mail pd_mail replied put_reply]. rewrite (proj1 T). reflexivity.
      + change (TestReport.ml_quarantine (pd_mail p) = None). now rewrite (proj1 T).
  Qed.

  (** A recipient is refused, and others are left. *)
  Lemma go_refused depth s p fs done to c' l' t q a word left left' said :
    Waiting s p fs done (CEnvelopeRecipient to) t q (Some to) -> pd_last p = to ->
    refusal a word -> told p left said [] -> without to left left' -> left' <> [] ->
    after pl o XRcpt p = c' :: l' -> (11 < depth)%nat -> fits c' ->
    exists p' v u, keeps c' (struck (replied a p) left') p' /\ after pl o (state_of c') p' = l' /\
      (u = q \/ u = []) /\
      Sending (step depth s (Receive a)) p' [[]] done c' XRcpt v u None.
  Proof.
    intros W Hto Ha T Hwo Hne Haf Hd Hf.
    destruct (refusal_shape a word Ha) as (v & Hv & Hpass & Hdef & R).
    pose proof (waiting_op s (Receive a) _ _ _ _ _ _ _ W I) as W1.
    set (s1 := log s (Server.In (Receive a))) in *.
    destruct (refuse_here s1 _ _ _ _ _ _ v W1) as (m & Er).
    pose proof (w_live _ _ _ _ _ _ _ _ W1) as L1.
    destruct (R depth s1) as (q' & g & E & _ & Q & G).
    { rewrite Er. exact (l_crashed _ _ _ _ L1). }
    { rewrite Er. exact (l_quitted _ _ _ _ L1). }
    { rewrite Er. change (answerable (sv_state s1) = true). now rewrite (w_state _ _ _ _ _ _ _ _ W1). }
    assert (Es : step depth s (Receive a) = receive (react depth) s1 a).
    { unfold Server.step. now rewrite (l_crashed _ _ _ _ (w_live _ _ _ _ _ _ _ _ W)). }
    rewrite E in Es. rewrite Er in Es, Q.
    assert (Hq : q' = q).
    { rewrite Q.
      - exact (w_queue _ _ _ _ _ _ _ _ W1).
      - change (sv_state s1 <> XBody). now rewrite (w_state _ _ _ _ _ _ _ _ W1). }
    subst q'.
    pose proof (waiting_queue _ _ _ _ _ _ _ _ q (waiting_stop _ _ _ _ _ _ _ _ (waiting_refused _ _ _ _ _ _ _ _ v m W1))) as W2.
    set (s2 := put_queue (disable_timeout (put_current (put_message (put_rcpt_status s1 v) m) None)) q) in *.
    set (p1 := struck (replied a p) left').
    assert (Haf1 : after pl o XRcpt p1 = c' :: l') by exact Haf.
    destruct (signal_sends depth s2 p p1 [[]] done (CEnvelopeRecipient to) q None None (Forward a)
                (on_continue pl XRcpt) c' l' 11 W2) as (p' & v' & u & K & A & U & S).
    - reflexivity.
    - reflexivity.
    - rewrite <- Haf1. apply continue_leads; [exact (l_wish _ _ _ _ L1)|]. now rewrite Haf1.
    - exact Hd.
    - rewrite (refusal_signal _ a word p Ha). unfold on_refusal. cbn [state_of].
      replace (remove_first (TestReport.ml_recipients (pd_mail (replied a p))) (pd_last (replied a p))) with left'.
      { cbn [TestReport.ml_put_recipients TestReport.ml_recipients]. now destruct left'. }
      change (pd_mail (replied a p)) with (pd_mail p). change (pd_last (replied a p)) with (pd_last p).
      rewrite (proj1 T), Hto. symmetry. exact (removed_left _ _ _ Hwo).
    - exact (l_wish _ _ _ _ L1).
    - exact (l_hung _ _ _ _ L1).
    - exact (l_error _ _ _ _ L1).
    - exact (l_connected _ _ _ _ L1).
    - pose proof (after_wanted XRcpt p1) as H. rewrite Haf1 in H. exact (Forall_inv H).
    - exact Hf.
    - exists p', v', u. split; [exact K|]. split; [exact A|]. split; [exact U|].
      rewrite Es, G; [exact S|]. exact (g_state _ _ _ _ _ _ _ _ _ S).
  Qed.

  Lemma end_settle depth s p fs done a word left said requests :
    Live s p fs done -> sv_next s = [] -> settled a word -> told p left said requests -> (2 <= depth)%nat ->
    Finished (run depth [Receive a; Flushed] s) (done ++ [CAbort; CQuit]) (Ended word (say a said) left requests).
  Proof.
    intros L Hx Ha T Hd. cbn [fold_left].
    destruct (settled_shape a word Ha) as (v & Hv & Hpass & Hab & Hsay & R).
    destruct (live_op s (Receive a) p fs done L I) as [L1 E1].
    set (s1 := log s (Server.In (Receive a))) in *.
    destruct (R depth s1) as (g & E & G). { exact (l_quitted _ _ _ _ L1). }
    assert (Es : step depth s (Receive a) = receive (react depth) s1 a).
    { unfold Server.step. now rewrite (l_crashed _ _ _ _ L). }
    rewrite E in Es.
    assert (S1 : Sound (put_status (disable_timeout s1) v) p [[]] done)
      by (destruct L1; now constructor).
    destruct (ends_abort depth s (Receive a) g _ (Forward a) p p _ done Es G S1) as (fs' & S2 & V2).
    - change (sv_next s1 = []). now rewrite E1.
    - reflexivity.
    - apply Hab.
    - exact (l_hung _ _ _ _ L1).
    - exact Hd.
    - eapply finished_ended; [exact S2| |exact Hv| | | | |].
      + rewrite V2. apply verdict_final. exact Hpass.
      + exact (l_error _ _ _ _ L1).
      + exact (l_connected _ _ _ _ L1).
      + rewrite Hsay. exact (proj2 T).
      + exact (proj1 T).
      + exact (told_reason _ _ _ _ T).
  Qed.

  Lemma end_shut depth s p fs done c t q r left said :
    Waiting s p fs done c t q r -> 1 <= place c <= 9 -> place c <> 4 -> told p left said [] -> (2 <= depth)%nat ->
    Finished (run depth [Receive RShutdown; Flushed] s) (done ++ [CAbort; CQuit]) (Ended "abort" said left []).
  Proof.
    intros W Hp H4 T Hd. cbn [fold_left].
    pose proof (waiting_op s (Receive RShutdown) _ _ _ _ _ _ _ W I) as W1.
    set (s1 := log s (Server.In (Receive RShutdown))) in *.
    pose proof (w_live _ _ _ _ _ _ _ _ W1) as L1.
    assert (Es : step depth s (Receive RShutdown) = (fun s => s) (react depth (log (disable_timeout s1) (Forward RShutdown)))).
    { unfold Server.step. rewrite (l_crashed _ _ _ _ (w_live _ _ _ _ _ _ _ _ W)). fold s1.
      cbn [Server.receive]. change (sv_quitted (disable_timeout s1)) with (sv_quitted s1).
      rewrite (l_quitted _ _ _ _ L1). reflexivity. }
    assert (S1 : Sound (disable_timeout s1) p [[]] done) by (destruct L1; now constructor).
    destruct (ends_abort depth s (Receive RShutdown) _ _ (Forward RShutdown) p p _ done Es tail_id S1) as (fs' & S2 & V2).
    - exact (w_next _ _ _ _ _ _ _ _ W1).
    - reflexivity.
    - reflexivity.
    - exact (l_hung _ _ _ _ L1).
    - exact Hd.
    - eapply finished_ended with (v := S_ABORT); [exact S2| |reflexivity| | | | |].
      + rewrite V2. change (verdict (sv_state s1) (sv_status s1) (sv_rcpt_status s1) = S_ABORT).
        rewrite (w_state _ _ _ _ _ _ _ _ W1), (w_status _ _ _ _ _ _ _ _ W1). clear - Hp H4.
        destruct c; cbn in Hp, H4; try lia; reflexivity.
      + exact (l_error _ _ _ _ L1).
      + exact (l_connected _ _ _ _ L1).
      + exact (proj2 T).
      + exact (proj1 T).
      + exact (told_reason _ _ _ _ T).
  Qed.

  Lemma end_late depth s p fs done t done' :
    Live s p fs done -> sv_timer s = Some t -> sv_next s = [] -> t <> TWriting ->
    done' = done ++ [CAbort; CQuit] -> (2 <= depth)%nat ->
    Finished (run depth [Fire; Flushed] s) done' (NoAnswer t).
  Proof.
    intros L Ht Hx Hw -> Hd. cbn [fold_left].
    destruct (log_op s Fire p fs done (live_sound _ _ _ _ L) I) as [S1 E1].
    set (s1 := log s (Server.In Fire)) in *.
    assert (Es : step depth s Fire = (fun s => emit (react depth) s ShutDown) (react depth (log s1 (Expired t)))).
    { unfold Server.step. rewrite (l_crashed _ _ _ _ L). fold s1. unfold fire.
      replace (sv_timer s1) with (Some t) by (rewrite E1; fields; congruence). reflexivity. }
    destruct (ends_abort depth s Fire _ _ (Expired t) p (put_error p (Some (OfTimeout t)) (pd_connected p)) [[]] done Es) as (fs' & S2 & V2).
    - intros s2 p2 fs2 done2 S2. destruct (ignored depth s2 p2 fs2 done2 ShutDown S2 eq_refl) as [S3 E3]; [now exists false|].
      split; [eexists; exact S3|]. rewrite E3. now repeat split.
    - exact S1.
    - rewrite E1. exact Hx.
    - reflexivity.
    - destruct t; try reflexivity. now elim Hw.
    - exact (l_hung _ _ _ _ L).
    - exact Hd.
    - eapply finished_late; [exact S2|reflexivity|exact (l_connected _ _ _ _ L)].
  Qed.

  (** *** The end of the message *)

  Record AtEnd (s : server) (p : pdata) (fs : list (list api)) (done : list command) (v : status) : Prop := mk_at_end {
    e_live : Live s p fs done;
    e_timer : sv_timer s = Some TEndOfMessageReply;
    e_next : sv_next s = [];
    e_state : sv_state s = XEndOfMessage;
    e_status : sv_status s = v
  }.

  Lemma end_emit d s p fs done v r :
    AtEnd s p fs done v -> changing r = true ->
    AtEnd (emit (react d) s (Forward r)) (put_mail p (TestReport.edit (pd_mail p) r)) ([] :: tl fs) done v.
  Proof.
    intros [L T X St Ss] Hr.
    destruct (log_signal s (Forward r) p fs done [] false (put_mail p (TestReport.edit (pd_mail p) r))
                (live_sound _ _ _ _ L) eq_refl) as [S1 E1].
    { destruct r; try discriminate Hr; reflexivity. }
    { exact (l_hung _ _ _ _ L). }
    unfold emit. rewrite (idle d _ _ (tl fs) (sv_state (log s (Forward r))) (d_crashed _ _ _ _ S1) (d_replay _ _ _ _ S1)).
    destruct L as [Lc Lq Lb Lo Lr Lw Lh Le Ln Ls Lcl]. destruct S1 as [Hc Hr1 Hh Hs Hcl].
    constructor; try (rewrite E1; assumption). constructor; try assumption; rewrite E1; assumption.
  Qed.

  Lemma end_request d s p fs done v r :
    AtEnd s p fs done v -> changing r = true ->
    AtEnd (step d s (Receive r)) (put_mail p (TestReport.edit (pd_mail p) r)) [[]] done
          (match r with RQuarantine _ => S_QUARANTINE | _ => v end).
  Proof.
    intros [L T X St Ss] Hr. unfold Server.step. rewrite (l_crashed _ _ _ _ L).
    destruct (live_op s (Receive r) p fs done L I) as [L1 E1].
    set (s1 := log s (Server.In (Receive r))) in *.
    assert (A1 : AtEnd s1 p [[]] done v) by (constructor; [exact L1|rewrite E1; assumption..]).
    clearbody s1. clear - A1 Hr.
    assert (P : forall s p fs v m, AtEnd s p fs done v -> AtEnd (put_message s m) p fs done v).
    { intros s p0 fs v0 m [[Lc Lq Lb Lo Lr Lw Lh Le Ln Ls Lcl] T X St Ss]. now repeat constructor. }
    assert (M : forall s v b a, AtEnd s p [[]] done v -> AtEnd (b s) p [[]] done v ->
      (forall s p, AtEnd s p [[]] done v -> AtEnd (a s) p [[]] done v) ->
      AtEnd (modification (react d) s r b a) (put_mail p (TestReport.edit (pd_mail p) r)) [[]] done v).
    { intros s v0 b a A B C. unfold modification. rewrite (e_state _ _ _ _ _ A), (l_quitted _ _ _ _ (e_live _ _ _ _ _ A)).
      apply C. exact (end_emit d _ _ _ _ _ _ B Hr). }
    destruct r; try discriminate Hr; cbn [Server.receive]; unfold on_message;
      try (apply M; [exact A1|exact A1|intros; first [apply P; assumption|assumption]]).
    - apply M; [exact A1| |auto]. destruct A1 as [[Lc Lq Lb Lo Lr Lw Lh Le Ln Ls Lcl] T X St Ss]. now repeat constructor.
    - assert (A2 : AtEnd (put_status s1 S_QUARANTINE) p [[]] done S_QUARANTINE).
      { destruct A1 as [[Lc Lq Lb Lo Lr Lw Lh Le Ln Ls Lcl] T X St Ss]. now repeat constructor. }
      apply M; [exact A2|exact A2|]. intros. apply P; assumption.
  Qed.

  Definition so_far (requests : list reply) : status -> status :=
    fold_left (fun v r => match r with RQuarantine _ => S_QUARANTINE | _ => v end) requests.

  Lemma end_requests d requests : forall s p fs done v left said before,
    AtEnd s p fs done v -> Forall (fun r => changing r = true) requests -> told p left said before ->
    exists p' fs', AtEnd (run d (map Receive requests) s) p' fs' done (so_far requests v) /\
      told p' left said (before ++ requests).
  Proof.
    induction requests as [|r rs IH]; intros s p fs done v left said before A F T; cbn [map fold_left].
    { exists p, fs. rewrite app_nil_r. now split. }
    destruct (IH _ _ _ done _ left said (before ++ [r]) (end_request d _ _ _ _ _ _ A (Forall_inv F)) (Forall_inv_tail F))
      as (p' & fs' & A' & T').
    { destruct T as [T1 T2]. split; [|exact T2]. cbn [put_mail pd_mail]. rewrite fold_left_app, T1. reflexivity. }
    exists p', fs'. rewrite <- app_assoc in T'. now split.
  Qed.

  Lemma so_far_reason requests : forall v r,
    v = (match r with Some _ => S_QUARANTINE | None => S_NOT_CHANGE end) ->
    so_far requests v
    = match fold_left (fun r x => match x with RQuarantine t => Some t | _ => r end) requests r : option bytes with
      | Some _ => S_QUARANTINE | None => S_NOT_CHANGE end.
  Proof.
    induction requests as [|x rs IH]; intros v r H; cbn [so_far fold_left]; [exact H|].
    apply IH. now destruct x.
  Qed.

  Lemma end_pass depth s p fs done v left said requests :
    AtEnd s p fs done v -> told p left said requests -> (1 <= depth)%nat ->
    v = match reason requests with Some _ => S_QUARANTINE | None => S_NOT_CHANGE end ->
    Finished (run depth [Receive RContinue; Flushed] s) (done ++ [CQuit])
             (Ended (if reason requests then "quarantine" else "pass") said left requests).
  Proof.
    intros [L T X St Ss] Td Hd Hv. cbn [fold_left].
    destruct (live_op s (Receive RContinue) p fs done L I) as [L1 E1].
    set (s1 := log s (Server.In (Receive RContinue))) in *.
    assert (St1 : sv_state s1 = XEndOfMessage) by now rewrite E1.
    assert (Es : step depth s (Receive RContinue)
                 = (fun s => match sv_state s with XEndOfMessage => emit_processed (react depth) s | _ => s end)
                     (react depth (log (disable_timeout s1) (Forward RContinue)))).
    { unfold Server.step. rewrite (l_crashed _ _ _ _ L). fold s1. cbn [Server.receive].
      change (sv_state (disable_timeout s1)) with (sv_state s1). rewrite St1. cbn [answerable].
      change (sv_quitted (disable_timeout s1)) with (sv_quitted s1). rewrite (l_quitted _ _ _ _ L1). reflexivity. }
    assert (S1 : Sound (disable_timeout s1) p [[]] done) by (destruct L1; now constructor).
    destruct (ends_quit depth s (Receive RContinue) _ (disable_timeout s1) (Forward RContinue) p p [[]] done Es) as (fs' & S2 & V2).
    - intros s2 p2 fs2 done2 S2. destruct (sv_state s2); try exact (tail_id s2 p2 fs2 done2 S2).
      exact (tail_processed depth s2 p2 fs2 done2 S2).
    - exact S1.
    - change (sv_next s1 = []). now rewrite E1.
    - reflexivity.
    - change (sv_state (disable_timeout s1)) with (sv_state s1). rewrite St1. reflexivity.
    - exact (l_hung _ _ _ _ L1).
    - exact Hd.
    - eapply finished_ended; [exact S2|exact V2| | | | | |].
      + change (status_word (sv_status s1) = lit (if reason requests then "quarantine" else "pass")).
        rewrite E1. fields. rewrite Ss, Hv. now destruct (reason requests).
      + exact (l_error _ _ _ _ L1).
      + exact (l_connected _ _ _ _ L1).
      + exact (proj2 Td).
      + exact (proj1 Td).
      + exact (told_reason _ _ _ _ Td).
  Qed.

  (** *** The whole *)

  Lemma after_places x p : Forall (fun c => 1 <= place c <= 10) (after pl o x p).
  Proof.
    assert (H : Forall (fun c => 1 <= place c <= 10) (r_connect pl o p)).
    { unfold r_connect, r_helo, r_from, r_rcpt, r_unknown, r_data, r_header, r_eoh, r_body, unless.
      repeat (apply Forall_app; split).
      all: match goal with |- Forall _ (if ?b then _ else _) => destruct b | _ => idtac end.
      all: try apply Forall_nil.
      all: try (apply Forall_cons; [cbn; lia|apply Forall_nil]).
      - apply Forall_forall. intros c Hc. apply in_map_iff in Hc as (y & <- & _). cbn; lia.
      - destruct (pl_unknown pl); [apply Forall_cons; [cbn; lia|]|]; apply Forall_nil.
      - apply Forall_forall. intros c Hc. apply in_map_iff in Hc as (y & <- & _). cbn; lia.
      - apply Forall_forall. intros c Hc. apply in_map_iff in Hc as (y & <- & _). cbn; lia. }
    pose proof H as H1. unfold r_connect in H1. apply Forall_app in H1 as [_ H2].
    pose proof H2 as H3. unfold r_helo in H3. apply Forall_app in H3 as [_ H3].
    pose proof H3 as H4. unfold r_from in H4. apply Forall_app in H4 as [_ H4].
    pose proof H4 as H5. unfold r_rcpt in H5. apply Forall_app in H5 as [_ H5].
    pose proof H5 as H6. unfold r_unknown in H6. apply Forall_app in H6 as [_ H6].
    pose proof H6 as H7. unfold r_data in H7. apply Forall_app in H7 as [_ H7].
    pose proof H7 as H8. unfold r_header in H8. apply Forall_app in H8 as [_ H8].
    pose proof H8 as H9. unfold r_eoh in H9. apply Forall_app in H9 as [_ H9].
    destruct x; cbn [after]; try apply Forall_nil; assumption.
  Qed.

  Lemma keeps_told c p p' left said : keeps c p p' -> told p left said [] -> told p' left said [].
  Proof. intros (_ & K2 & K3 & _) [T1 T2]. split; congruence. Qed.
  Lemma keeps_last c p p' : keeps c p p' -> forall to, c = CEnvelopeRecipient to -> pd_last p' = to.
  Proof. intros (_ & _ & _ & _ & _ & _ & _ & K) to ->. exact K. Qed.
  Lemma fluent_tail c cs : fluent o (c :: cs) -> fluent o cs.
  Proof. intros F a c1 d b E. apply (F (c :: a) c1 d b). now rewrite E. Qed.
  Lemma fluent_bridged c cs : fluent o (c :: cs) -> silent o c = true -> bridged o (place c) cs.
  Proof. intros F S d b -> j Hj. exact (F [] c d b eq_refl S j Hj). Qed.

  Lemma not_last c p : 1 <= place c <= 10 -> after pl o (state_of c) p <> [] -> 1 <= place c <= 9.
  Proof. intros Hp Ha. destruct c; cbn in *; try lia; now elim Ha. Qed.

  Lemma places_answerable c : 1 <= place c <= 10 -> answerable (state_of c) = true.
  Proof. destruct c; cbn; try reflexivity; lia. Qed.

  Lemma waiting_end s p fs done t q r :
    Waiting s p fs done (CEndOfMessage None) t q r -> t = Some TEndOfMessageReply ->
    AtEnd s p fs done S_NOT_CHANGE.
  Proof. intros [L T X St Ss Sq Sr] ->. now constructor. Qed.

  Lemma talks depth cs left said ops sent e :
    (11 < depth)%nat -> talk o cs left said ops sent e ->
    forall s p fs done c cs' x v q r,
    cs = c :: cs' -> Sending s p fs done c x v q r -> after pl o (state_of c) p = cs' ->
    1 <= place c <= 10 -> fluent o cs -> Forall fits cs -> silent_place o 9 = true \/ q = [] ->
    told p left said [] -> (forall to, c = CEnvelopeRecipient to -> pd_last p = to) ->
    Finished (run depth ops s) (done ++ sent) e.
  Proof.
    intros Hd T.
    assert (D2 : (2 <= depth)%nat) by lia. assert (D1 : (1 <= depth)%nat) by lia.
    induction T as [c0 cs left said ops sent e Hs T IH
                   |c0 cs left said ops sent e Hs Hne T IH
                   |to cs left left' said a word ops sent e Hs Ha Hwo Hne T IH
                   |to cs left said a word Hs Ha Hwo
                   |c0 cs left said a word Hs Ha H4 Hne
                   |c0 cs left said a word Hs Ha Hne
                   |c0 cs left said Hs H4 Hne
                   |chunk cs left said ops sent e Hs T IH
                   |c0 cs left said Hs H9 Hne
                   |left said requests Hr
                   |left said requests a word Hr Ha
                   |left said requests Hr];
    intros s p fs done c cs' x v q r Ec S Af Hp F Fi Hq Td Hl; injection Ec as <- <-.
    (* no answer *)
    - destruct cs as [|c' l']; [inversion T|].
      pose proof (Forall_inv (Forall_inv_tail Fi)) as Hf.
      destruct (flush_silent depth s p fs done c0 c' l' x v q r S Hp Hs Af (fluent_bridged _ _ F Hs) Hd Hf)
        as (p' & v' & u & K & A & U & S').
      cbn [fold_left]. replace (done ++ c0 :: sent) with ((done ++ [c0]) ++ sent) by now rewrite <- app_assoc.
      pose proof (after_places (state_of c0) p) as P. rewrite Af in P.
      eapply IH; [reflexivity|exact S'|exact A|exact (Forall_inv P)|exact (fluent_tail _ _ F)|exact (Forall_inv_tail Fi)
                 | |exact (keeps_told _ _ _ _ _ K Td)|exact (keeps_last _ _ _ K)].
      destruct Hq as [Hq|Hq]; [now left|]. destruct U as [U|U]; [|now right].
      destruct c0; cbn [queued] in U; try (right; congruence). left. exact Hs.
    (* continue *)
    - pose proof (flush_waits depth s p fs done c0 x v q r S Hp Hs) as W.
      destruct cs as [|c' l']; [now elim Hne|].
      pose proof (Forall_inv (Forall_inv_tail Fi)) as Hf.
      assert (Hp9 : 1 <= place c0 <= 9) by (apply (not_last c0 p Hp); rewrite Af; discriminate).
      destruct (go_on depth _ _ _ _ c0 c' l' _ _ _ W Hp9) as (p' & v' & u & K & A & U & S').
      { destruct (N.eq_dec (place c0) 9) as [E9|E9]; [left|now right].
        destruct c0; try discriminate E9. destruct Hq as [Hq|Hq].
        - unfold silent in Hs. cbn [place] in Hs. congruence.
        - cbn [queued]. now rewrite Hq. }
      { exact Af. } { exact Hd. } { exact Hf. }
      cbn [fold_left]. replace (done ++ c0 :: sent) with ((done ++ [c0]) ++ sent) by now rewrite <- app_assoc.
      pose proof (after_places (state_of c0) p) as P. rewrite Af in P.
      eapply IH; [reflexivity|exact S'|exact A|exact (Forall_inv P)|exact (fluent_tail _ _ F)|exact (Forall_inv_tail Fi)
                 | |exact (keeps_told _ _ _ _ _ K Td)|exact (keeps_last _ _ _ K)].
      destruct Hq as [Hq|Hq]; [now left|]. right. destruct U as [U|U]; [|exact U].
      destruct c0; cbn [queued] in U; congruence.
    (* a recipient refused *)
    - pose proof (flush_waits depth s p fs done _ x v q r S Hp Hs) as W.
      destruct cs as [|c' l']; [inversion T|].
      pose proof (Forall_inv (Forall_inv_tail Fi)) as Hf.
      destruct (go_refused depth _ _ _ _ to c' l' _ _ a word left left' said W (Hl to eq_refl) Ha Td Hwo Hne Af Hd Hf)
        as (p' & v' & u & K & A & U & S').
      cbn [fold_left]. replace (done ++ CEnvelopeRecipient to :: sent) with ((done ++ [CEnvelopeRecipient to]) ++ sent) by now rewrite <- app_assoc.
      pose proof (after_places XRcpt p) as P. change (after pl o XRcpt p) with (after pl o (state_of (CEnvelopeRecipient to)) p) in P. rewrite Af in P.
      eapply IH; [reflexivity|exact S'|exact A|exact (Forall_inv P)|exact (fluent_tail _ _ F)|exact (Forall_inv_tail Fi)
                 | | |exact (keeps_last _ _ _ K)].
      + destruct Hq as [Hq|Hq]; [now left|]. right. destruct U as [U|U]; [|exact U]. cbn [queued] in U. congruence.
      + eapply keeps_told; [exact K|]. destruct Td as [T1 T2]. split.
        * cbn [struck put_mail pd_mail replied put_reply]. rewrite T1. reflexivity.
        * cbn [struck put_mail pd_reply replied put_reply]. now rewrite T2.
    (* every recipient refused *)
    - pose proof (flush_waits depth s p fs done _ x v q r S Hp Hs) as W. cbn [fold_left].
      pose proof (end_refused depth _ _ _ _ to _ _ a word left said W (Hl to eq_refl) Ha Td Hwo D2) as R.
      rewrite <- app_assoc in R. exact R.
    (* refused *)
    - pose proof (flush_waits depth s p fs done _ x v q r S Hp Hs) as W. cbn [fold_left].
      assert (R : Finished (run depth [Receive a; Flushed] (step depth s Flushed)) ((done ++ [c0]) ++ [CAbort; CQuit])
                    (Ended word (say a said) left [])).
      { apply (end_refuse depth _ p [[]]); try assumption.
        - exact (w_live _ _ _ _ _ _ _ _ W).
        - exact (w_next _ _ _ _ _ _ _ _ W).
        - rewrite (w_state _ _ _ _ _ _ _ _ W). exact (places_answerable c0 Hp).
        - rewrite (w_state _ _ _ _ _ _ _ _ W). clear - H4. destruct c0; try discriminate. now elim H4. }
      rewrite <- app_assoc in R. exact R.
    (* accepted, discarded *)
    - pose proof (flush_waits depth s p fs done _ x v q r S Hp Hs) as W. cbn [fold_left].
      assert (R : Finished (run depth [Receive a; Flushed] (step depth s Flushed)) ((done ++ [c0]) ++ [CAbort; CQuit])
                    (Ended word (say a said) left [])).
      { apply (end_settle depth _ p [[]]); try assumption.
        - exact (w_live _ _ _ _ _ _ _ _ W).
        - exact (w_next _ _ _ _ _ _ _ _ W). }
      destruct (settled_shape a word Ha) as (_ & _ & _ & _ & E & _). rewrite E in R.
      rewrite <- app_assoc in R. exact R.
    (* shut down *)
    - pose proof (flush_waits depth s p fs done _ x v q r S Hp Hs) as W. cbn [fold_left].
      assert (Hp9 : 1 <= place c0 <= 9) by (apply (not_last c0 p Hp); now rewrite Af).
      pose proof (end_shut depth _ _ _ _ _ _ _ _ left said W Hp9 H4 Td D2) as R.
      rewrite <- app_assoc in R. exact R.
    (* enough of the body *)
    - pose proof (flush_waits depth s p fs done _ x v q r S Hp Hs) as W.
      destruct (go_skip depth _ _ _ _ chunk _ _ _ W Hd) as (p' & v' & K & S').
      cbn [fold_left]. replace (done ++ CBody chunk :: sent) with ((done ++ [CBody chunk]) ++ sent) by now rewrite <- app_assoc.
      eapply IH; [reflexivity|exact S'|reflexivity|cbn; lia| |repeat constructor|now right| |discriminate].
      + intros a c1 d b E. destruct a as [|y [|z a]]; discriminate E.
      + eapply keeps_told; [exact K|]. exact Td.
    (* too late *)
    - pose proof (flush_waits depth s p fs done _ x v q r S Hp Hs) as W. cbn [fold_left].
      assert (Hp9 : 1 <= place c0 <= 9) by (apply (not_last c0 p Hp); now rewrite Af).
      apply (end_late depth (step depth s Flushed) p [[]] (done ++ [c0]) TReading).
      + exact (w_live _ _ _ _ _ _ _ _ W).
      + rewrite (w_timer _ _ _ _ _ _ _ _ W). unfold due. rewrite Hs. clear - Hp9 H9. destruct c0; cbn in *; try reflexivity; lia.
      + exact (w_next _ _ _ _ _ _ _ _ W).
      + discriminate.
      + now rewrite <- app_assoc.
      + exact D2.
    (* the end of the message *)
    - pose proof (flush_waits depth s p fs done _ x v q r S Hp eq_refl) as W. cbn [fold_left].
      destruct (end_requests depth requests _ _ _ _ _ left said [] (waiting_end _ _ _ _ _ _ _ W eq_refl) Hr Td) as (p' & fs' & A & T).
      rewrite fold_left_app. pose proof (so_far_reason requests S_NOT_CHANGE None eq_refl) as Ev. rewrite Ev in A.
      pose proof (end_pass depth _ _ _ _ _ left said requests A T D1 eq_refl) as R.
      rewrite <- app_assoc in R. exact R.
    - pose proof (flush_waits depth s p fs done _ x v q r S Hp eq_refl) as W. cbn [fold_left].
      destruct (end_requests depth requests _ _ _ _ _ left said [] (waiting_end _ _ _ _ _ _ _ W eq_refl) Hr Td) as (p' & fs' & A & T).
      rewrite fold_left_app.
      replace (done ++ [CEndOfMessage None; CAbort; CQuit]) with ((done ++ [CEndOfMessage None]) ++ [CAbort; CQuit])
        by now rewrite <- app_assoc.
      destruct Ha as [Ha|Ha].
      + apply (end_refuse depth _ p' fs'); try assumption.
        * exact (e_live _ _ _ _ _ A).
        * exact (e_next _ _ _ _ _ A).
        * now rewrite (e_state _ _ _ _ _ A).
        * now rewrite (e_state _ _ _ _ _ A).
      + apply (end_settle depth _ p' fs'); try assumption.
        * exact (e_live _ _ _ _ _ A).
        * exact (e_next _ _ _ _ _ A).
    - pose proof (flush_waits depth s p fs done _ x v q r S Hp eq_refl) as W. cbn [fold_left].
      destruct (end_requests depth requests _ _ _ _ _ left said [] (waiting_end _ _ _ _ _ _ _ W eq_refl) Hr Td) as (p' & fs' & A & T).
      rewrite fold_left_app.
      apply (end_late depth _ p' fs' (done ++ [CEndOfMessage None]) TEndOfMessageReply).
      + exact (e_live _ _ _ _ _ A).
      + exact (e_timer _ _ _ _ _ A).
      + exact (e_next _ _ _ _ _ A).
      + discriminate.
      + now rewrite <- app_assoc.
      + exact D2.
  Qed.

  (** *** The negotiation *)

  Record Asking (s : server) (fs : list (list api)) : Prop := mk_asking {
    a_sound : Sound s (pdata_new pl) fs [CNegotiate (offer pl)];
    a_quitted : sv_quitted s = false;
    a_body : sv_body s = [];
    a_option : sv_option s = Some (offer pl);
    a_next : sv_next s = [];
    a_state : sv_state s = XNegotiate;
    a_status : sv_status s = S_NOT_CHANGE;
    a_queue : sv_queue s = [];
    a_current : sv_current s = None
  }.

  Lemma negotiates depth :
    Asking (run depth [Call (ANegotiate (offer pl)); Flushed] server_new) [[]].
  Proof.
    cbn [fold_left].
    set (s1 := step depth server_new (Call (ANegotiate (offer pl)))).
    assert (E1 : s1 = mk_server XStart XStart S_NOT_CHANGE S_DEFAULT [XNegotiate] (Some (offer pl)) (Some TWriting) false [] []
                       false false false None None (enc (CNegotiate (offer pl))) pagent_new None
                       [Return true; Sent XNegotiate [] (enc (CNegotiate (offer pl))); Server.In (Call (ANegotiate (offer pl)))] false).
    { unfold s1, Server.step, Server.call, log. cbn [sv_crashed server_new call_body].
      unfold Server.send, Server.write_packet, Server.macro_prefix, is_processing, log.
      unfold server_new. fields. generalize (enc (CNegotiate (offer pl))). intros. reflexivity. }
    clearbody s1. subst s1.
    set (s1 := mk_server _ _ _ _ _ _ _ _ _ _ _ _ _ _ _ _ _ _ _ _).
    assert (S1 : Sound s1 (pdata_new pl) [[]] [CNegotiate (offer pl)]) by (constructor; reflexivity).
    destruct (log_op s1 Flushed _ _ _ S1 I) as [S2 E2].
    unfold Server.step. change (sv_crashed s1) with false. cbv iota. unfold Server.flushed.
    set (s2 := log s1 (Server.In Flushed)) in *.
    replace (sv_next s2) with [XNegotiate] by now rewrite E2. cbn [fold_left].
    unfold Server.deliver. cbn [Server.process_next_state].
    assert (S3 : Sound (disable_timeout (put_next s2 [])) (pdata_new pl) [[]] [CNegotiate (offer pl)])
      by (destruct S2; now constructor).
    destruct (sound_state _ XNegotiate _ _ _ S3) as [S4 C4].
    set (s4 := set_state (disable_timeout (put_next s2 [])) XNegotiate) in *. clearbody s4.
    unfold core, disable_timeout in C4. rewrite E2 in C4. fields in C4.
    injection C4 as I1 I2 I3 I4 I5 I6 I7 I8 I9 I10 I11 I12.
    unfold need_reply. rewrite I5. change (sv_option s1) with (Some (offer pl)). cbn [no_reply_step].
    rewrite N.land_0_r. cbn [N.eqb].
    assert (S5 : Sound (put_timer s4 (Some TReading)) (pdata_new pl) [[]] [CNegotiate (offer pl)])
      by (destruct S4; now constructor).
    destruct (ignored depth _ _ _ _ (Delivered XNegotiate) S5 eq_refl) as [S6 E6]; [now exists false|].
    constructor; [exact S6|rewrite E6; fields; congruence..].
  Qed.

  Lemma asked_macros reqs :
    Forall (fun x : byte * list bytes => (length (snd x) <= 1)%nat) reqs ->
    exists l, request_macros reqs = Some l /\ Forall (fun a => quiet a = true) l /\ (length l <= length reqs)%nat.
  Proof.
    induction 1 as [|[c symbols] reqs H _ IH]; [exists []; cbn; auto|].
    destruct IH as (l & E & Q & L). cbn [request_macros]. rewrite E. cbn [snd] in H.
    destruct symbols as [|y [|z symbols]]; cbn [set_macro_loop app length] in *.
    - exists l. split; [reflexivity|]. split; [exact Q|lia].
    - eexists. split; [reflexivity|]. split; [apply Forall_cons; [reflexivity|exact Q]|cbn [length]; lia].
    - lia.
  Qed.

  Lemma begins depth s fs (reqs : option requests) c cs :
    Asking s fs -> o_version o <= pl_version pl ->
    match reqs with Some reqs => Forall (fun x : byte * list bytes => (length (snd x) <= 1)%nat) reqs /\ (11 + length reqs < depth)%nat
    | None => (11 < depth)%nat end ->
    r_connect pl o (pdata_new pl) = c :: cs -> fits c ->
    exists p v, Sending (step depth s (Receive (RNegotiate o reqs))) p [[]] [CNegotiate (offer pl)] c XNegotiate v [] None /\
      keeps c (put_opt (pdata_new pl) (Some o)) p /\ after pl o (state_of c) p = cs.
  Proof.
    intros [S Hq Hb Ho Hx St Ss Sq Sc] Hv Hreq Ec Hf.
    unfold Server.step. rewrite (d_crashed _ _ _ _ S).
    destruct (log_op s (Receive (RNegotiate o reqs)) _ _ _ S I) as [S1 E1].
    set (s1 := log s (Server.In (Receive (RNegotiate o reqs)))) in *.
    cbn [Server.receive]. replace (sv_option (disable_timeout s1)) with (Some (offer pl)) by (rewrite E1; unfold disable_timeout; fields; congruence).
    unfold option_combine. cbn [offer o_version o_action o_step].
    replace (pl_version pl <? o_version o) with false by (symmetry; apply N.ltb_ge; exact Hv).
    replace (sv_state s1) with XNegotiate by (rewrite E1; fields; congruence).
    fields. replace (sv_quitted (disable_timeout s1)) with false by (rewrite E1; cbn; congruence).
    fold agreed. set (s2 := put_requests (put_negotiated (put_option (disable_timeout s1) (Some agreed)) true) reqs).
    set (p1 := put_opt (pdata_new pl) (Some o)).
    assert (S2 : Sound s2 (pdata_new pl) [[]] [CNegotiate (offer pl)]) by (destruct S1; now constructor).
    assert (Hl : Leads pl o 11 (continue_negotiate pl) p1 (c :: cs)).
    { rewrite <- Ec. change (r_connect pl o (pdata_new pl)) with (after pl o XNegotiate p1).
      apply (continue_leads pl o p1 eq_refl XNegotiate). cbn [after]. change (r_connect pl o p1) with (r_connect pl o (pdata_new pl)).
      now rewrite Ec. }
    destruct Hl as (c1 & l1 & q & p' & El & E & Q & L & K & Pc & A). injection El as <- <-.
    assert (M : exists macros, match reqs with Some r => request_macros r | None => Some [] end = Some macros /\
                Forall (fun a => quiet a = true) macros /\ (11 + length macros < depth)%nat).
    { destruct reqs as [reqs|].
      - destruct Hreq as [R D]. destruct (asked_macros reqs R) as (l & M1 & M2 & M3). exists l.
        split; [exact M1|]. split; [exact M2|lia].
      - exists []. split; [reflexivity|]. split; [apply Forall_nil|cbn; lia]. }
    destruct M as (macros & M1 & M2 & M3).
    assert (St2 : sv_state s2 = XNegotiate) by (unfold s2, disable_timeout; fields; rewrite E1; fields; congruence).
    destruct (log_signal s2 (Forward (RNegotiate o reqs)) _ _ _ (macros ++ q ++ [api_of c]) true p' S2 eq_refl) as [S3 E3].
    { rewrite St2. cbn [on_signal on_reply]. unfold on_negotiate. cbn [pdata_new pd_option].
      rewrite M1. cbn [on_continue]. fold p1. now rewrite E. }
    { destruct K as (_ & _ & _ & _ & _ & _ & K & _). now rewrite K. }
    assert (L3 : Live (log s2 (Forward (RNegotiate o reqs))) p' (((macros ++ q) ++ [api_of c]) :: []) [CNegotiate (offer pl)]).
    { rewrite app_assoc in S3. cbn [tl] in S3.
      destruct K as (K1 & K2 & K3 & K4 & K5 & K6 & K7 & _). destruct S3 as [Hc Hr Hh Hs Hcl].
      constructor; try assumption; rewrite ?E3; unfold s2, disable_timeout; fields; rewrite ?E1; fields; congruence. }
    unfold emit.
    destruct (send_calls depth _ p' [] _ (macros ++ q) c L3) as (v & u & _ & U & R).
    - rewrite E3. reflexivity.
    - rewrite E3. unfold s2, disable_timeout. fields. rewrite E1. exact Hx.
    - rewrite E3. unfold s2, disable_timeout. fields. rewrite E1. exact Ss.
    - apply Forall_app. now split.
    - rewrite app_length. lia.
    - exact Pc.
    - pose proof (all_wanted (pdata_new pl)) as H. rewrite Ec in H. exact (Forall_inv H).
    - exact Hf.
    - exists p', v. split; [|split; [exact K|exact A]].
      replace (sv_state (log s2 (Forward (RNegotiate o reqs)))) with XNegotiate in R by (rewrite E3; exact (eq_sym St2)).
      replace (sv_current (log s2 (Forward (RNegotiate o reqs)))) with (@None bytes) in R
        by (rewrite E3; unfold s2, disable_timeout; fields; rewrite E1; fields; congruence).
      replace (sv_queue (log s2 (Forward (RNegotiate o reqs)))) with (@nil N) in U
        by (rewrite E3; unfold s2, disable_timeout; fields; rewrite E1; fields; congruence).
      assert (Eu : u = []) by now destruct U. rewrite Eu in R. exact R.
  Qed.

  Lemma conversation depth (reqs : option requests) ops sent e :
    o_version o <= pl_version pl ->
    match reqs with Some reqs => Forall (fun x : byte * list bytes => (length (snd x) <= 1)%nat) reqs /\ (11 + length reqs < depth)%nat
    | None => (11 < depth)%nat end ->
    fluent o (r_connect pl o (pdata_new pl)) -> Forall fits (r_connect pl o (pdata_new pl)) ->
    talk o (r_connect pl o (pdata_new pl)) (TestMessage.msg_recipients (pl_message pl)) None ops sent e ->
    Finished (test_run ntop4 ntop6 sort_keys (fun _ => Taken) pl depth (Flushed :: Receive (RNegotiate o reqs) :: ops))
             (CNegotiate (offer pl) :: sent) e.
  Proof.
    intros Hv Hreq F Fi T.
    assert (Hd : (11 < depth)%nat) by (destruct reqs as [reqs|]; [destruct Hreq; lia|exact Hreq]).
    destruct (r_connect pl o (pdata_new pl)) as [|c cs] eqn:Ec; [inversion T|].
    unfold test_run, server_run.
    change (Call (ANegotiate (offer pl)) :: Flushed :: Receive (RNegotiate o reqs) :: ops)
      with ([Call (ANegotiate (offer pl)); Flushed] ++ Receive (RNegotiate o reqs) :: ops).
    rewrite fold_left_app. pose proof (negotiates depth) as A.
    change (fold_left (server_step ntop4 ntop6 sort_keys (fun _ => Taken) (fun _ => false) (test_handlers pl) depth))
      with (run depth).
    generalize dependent (run depth [Call (ANegotiate (offer pl)); Flushed] server_new). intros s A.
    destruct (begins depth s _ reqs c cs A Hv Hreq Ec (Forall_inv Fi)) as (p & v & S & K & Af).
    change (CNegotiate (offer pl) :: sent) with ([CNegotiate (offer pl)] ++ sent). cbn [fold_left].
    pose proof (after_places XNegotiate (pdata_new pl)) as P. cbn [after] in P. rewrite Ec in P.
    eapply (talks depth _ _ _ _ _ _ Hd T); [reflexivity|exact S|exact Af|exact (Forall_inv P)|exact F|exact Fi|now right| |exact (keeps_last _ _ _ K)].
    eapply keeps_told; [exact K|]. split; reflexivity.
  Qed.
End Run.
