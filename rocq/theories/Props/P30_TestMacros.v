(** C88: milter-test-server tells the filter the macros of the command line before each command. *)
From Verif.Base Require Import Bytes BytesFacts.
From Verif.Model Require Import Decoder Encoder CommandCodec ReplyCodec Option Headers Macros Client Server
                                TestServer TestOptions.
From Verif.Model Require TestMessage.
From Verif.Spec Require Import MacroSpec MacroHistorySpec ServerSpec TestMacroSpec TestOptionsSpec.
From Verif.Proofs Require Import CommandProofs MacroProofs ServerInv ServerCalls ServerMacros TestMacros.
From Verif.Props Require Import P28_MacroHistory P29_TestOptions.
Import List.
Local Open Scope N_scope.

Lemma pack_inj a b : pack a = pack b -> a = b.
Proof.
  unfold pack. intros H. apply (f_equal (skipn 4)) in H.
  now rewrite !skipn_app, !skipn_all2 in H by reflexivity.
Qed.

Lemma trace_ok_at ntop4 ntop6 sort_keys t later e earlier :
  trace_ok ntop4 ntop6 sort_keys t -> t = later ++ e :: earlier -> event_ok ntop4 ntop6 sort_keys e earlier.
Proof.
  intros T ->. induction later as [|x later IH]; cbn in T; [exact (proj1 T)|exact (IH (proj2 T))].
Qed.

Definition wrote (x : sstate) (prefix packet : bytes) (e : event) : Prop :=
  e = Sent x prefix packet \/ e = Lost x prefix packet.

Section Run.
  Variables (ntop4 ntop6 : bytes -> bytes).
  Variable sort_keys : list bytes -> list bytes.
  Variable writes : list event -> write_outcome.
  Variable pl : plan.
  Variable depth : nat.
  Variable ops : list op.
  Hypothesis no_call : forall c, ~ In (Call c) ops.
  Hypothesis stages : forall o reqs c symbols,
    In (Receive (RNegotiate o (Some reqs))) ops -> In (c, symbols) reqs -> In c request_stages.
  Hypothesis tables : forall c, NoDup (map fst (pl_macros pl c)).

  Definition user (c : api) (t : list event) : Prop := t = [] /\ exists o, c = ANegotiate o.
  Definition allowed (o : op) : Prop := In o ops.
  Notation all_called := (called (test_handlers pl) user allowed).

  Lemma run_called : all_called (sv_trace (test_run ntop4 ntop6 sort_keys writes pl depth ops)).
  Proof.
    unfold test_run. cbn [server_run fold_left].
    assert (H : forall l s, incl l ops -> all_called (sv_trace s) ->
      all_called (sv_trace (server_run ntop4 ntop6 sort_keys writes (fun _ => false) (test_handlers pl) depth s l))).
    { induction l as [|o l IH]; intros s Hl Hs; [exact Hs|].
      cbn [server_run fold_left]. apply IH; [intros y Hy; apply Hl; now right|].
      apply (server_step_M ntop4 ntop6 sort_keys writes (fun _ => false) (test_handlers pl) user allowed); [exact Hs|].
      specialize (Hl o (or_introl eq_refl)). destruct o; try exact Hl. destruct (no_call _ Hl). }
    apply (H ops); [apply incl_refl|].
    apply (server_step_M ntop4 ntop6 sort_keys writes (fun _ => false) (test_handlers pl) user allowed).
    - apply CalledNew.
    - right. right. split; [reflexivity|]. eexists. reflexivity.
  Qed.

  Lemma called_op t : all_called t -> forall o, In (Server.In o) t -> (exists c, o = Call c) \/ In o ops.
  Proof.
    induction 1 as [|e t He Ht IH|c t Hq Hf Ht IH|c t ok Hq Hf Ht IH]; intros o Ho.
    - destruct Ho.
    - destruct Ho as [->|Ho]; [|now apply IH]. destruct o; [contradiction|right; exact He..].
    - destruct Ho as [[= <-]|Ho]; [left; eauto|now apply IH].
    - destruct Ho as [Ho|[[= <-]|Ho]]; [discriminate|left; eauto|now apply IH].
  Qed.
  Lemma called_before later x prefix packet e before :
    wrote x prefix packet e -> all_called (later ++ e :: before) -> all_called before.
  Proof.
    intros He. remember (later ++ e :: before) as t eqn:E. intros H. revert later E.
    induction H as [|e' t He' Ht IH|c t Hq Hf Ht IH|c t ok Hq Hf Ht IH]; intros later E.
    - now destruct later.
    - destruct later as [|y later]; injection E as -> E; [now subst|]. now apply (IH later).
    - destruct later as [|y later]; injection E as E1 E.
      + destruct He; subst; discriminate.
      + now apply (IH later).
    - destruct later as [|y [|z later]]; cbn in E.
      + injection E as E1 E. destruct He; subst; discriminate.
      + injection E as E1 E2 E. destruct He; subst; discriminate.
      + injection E as E1 E2 E. now apply (IH later).
  Qed.

  Lemma run_trace_ok : trace_ok ntop4 ntop6 sort_keys (sv_trace (test_run ntop4 ntop6 sort_keys writes pl depth ops)).
  Proof. unfold test_run. exact (proj1 (run_inv _ _ _ _ _ _ _ _ _ (new_inv _ _ _))). Qed.

  Lemma run_usual : Forall usual_event (sv_trace (test_run ntop4 ntop6 sort_keys writes pl depth ops)).
  Proof.
    apply Forall_forall. intros e He. destruct e; try exact I. destruct r; try exact I.
    destruct reqs as [reqs|]; [|exact I]. cbn. apply Forall_forall. intros [c symbols] Hc. cbn [fst].
    apply in_split in He as (a & b & E).
    destruct (trace_ok_at _ _ _ _ _ _ _ run_trace_ok E) as ((t' & ->) & _).
    destruct (called_op _ run_called (Receive (RNegotiate o (Some reqs)))) as [[c' H]|H].
    - rewrite E. apply in_or_app. right. right. left. reflexivity.
    - discriminate H.
    - exact (stages _ _ _ _ H Hc).
  Qed.

  Lemma told_define c h n v : latest (ODefine c (pl_macros pl c) :: h) c n v <-> lookup (pl_macros pl c) n = Some v.
  Proof.
    split.
    - intros H. inversion H; subst; [now apply lookup_nodup|]. match goal with H : ~ MacroSpec.touches _ _ _ |- _ => destruct H; reflexivity end.
    - intros H. now apply latest_define, lookup_in.
  Qed.
  Lemma untold c h n v : Forall (tame pl) h -> ~ In c usual_stages -> ~ latest h c n v.
  Proof.
    intros Ht Hc H. induction H; try (apply Forall_inv in Ht; exact (Hc Ht) || exact (Hc (proj1 Ht))).
    apply Forall_inv_tail in Ht. auto.
  Qed.

  Lemma run_clean later x prefix packet e before :
    wrote x prefix packet e ->
    sv_trace (test_run ntop4 ntop6 sort_keys writes pl depth ops) = later ++ e :: before ->
    J pl before.
  Proof.
    intros He E.
    pose proof run_called as Hc. rewrite E in Hc. apply (called_before _ _ _ _ _ _ He) in Hc.
    pose proof run_usual as Hu. rewrite E in Hu. apply Forall_app in Hu as [_ Hu]. apply Forall_inv_tail in Hu.
    apply (called_J pl user allowed); auto.
  Qed.

  Lemma told later x prefix packet e before c n v :
    wrote x prefix packet e ->
    sv_trace (test_run ntop4 ntop6 sort_keys writes pl depth ops) = later ++ e :: before ->
    stage_of x = Some c ->
    (latest (macro_calls before) c n v <->
     belongs ntop4 ntop6 sort_keys (fun c n v => lookup (pl_macros pl c) n = Some v) x packet c n v).
  Proof.
    intros He E Hx.
    pose proof run_called as Hc. rewrite E in Hc. apply (called_before _ _ _ _ _ _ He) in Hc.
    pose proof run_usual as Hu. rewrite E in Hu. apply Forall_app in Hu as [_ Hu]. apply Forall_inv_tail in Hu.
    assert (Hs : sent_ok ntop4 ntop6 sort_keys x packet before).
    { pose proof (trace_ok_at _ _ _ _ _ _ _ run_trace_ok E) as H. destruct He; subst e; exact H. }
    clear E He.
    assert (HJ : J pl before) by (apply (called_J pl user allowed); auto).
    destruct (sstate_eqb x XBody) eqn:Eb.
    { destruct x; try discriminate Eb. injection Hx as <-. cbn [belongs]. split; [|tauto]. apply untold; [apply HJ|].
      cbn. intros H. repeat destruct H as [H|H]; discriminate || exact H. }
    destruct Hs as [_ Hs]. rewrite Eb in Hs. destruct Hs as (_ & a & cmd & t & -> & Hcmd & Hp).
    assert (Ht : all_called t /\ test_handlers pl t = Some a).
    { inversion Hc as [|e' t' Hf| a' t' Hq Hf Ht|]; subst; [contradiction|]. split; [exact Ht|].
      destruct Hf as [Hf|(_ & o & ->)]; [exact Hf|]. injection Hcmd as <- <-. discriminate Hx. }
    destruct Ht as [Ht Ha].
    assert (Em : macro_calls (Server.In (Call a) :: t) = macro_calls t) by (destruct a; try discriminate Hcmd; reflexivity).
    rewrite Em.
    apply Forall_inv_tail in Hu.
    assert (HJt : J pl t) by (apply (called_J pl user allowed); auto).
    destruct HJt as [A B _]. unfold test_handlers in Ha. destruct (pd_hung _); [discriminate|].
    destruct (cv_calls (replay pl t)) as [|[|a' f] fs]; try discriminate Ha. injection Ha as ->.
    destruct B as [B _].
    assert (Hpk : x <> XNegotiate) by (intros ->; discriminate Hx). specialize (Hp Hpk). clear Hpk.
    destruct a; try discriminate Hcmd; injection Hcmd as <- <-; try discriminate Eb; cbn [stage_of] in Hx; try discriminate Hx;
      injection Hx as <-; cbn [ready] in B; cbn [belongs];
      try (destruct B as (h & ->); apply told_define).
    - destruct B as (h & -> & h2 & ->). cbn [encode_command]. split.
      + intros H. apply set_many_inv in H as [[_ H]|[Hn H]].
        * cbn [last_update] in H. destruct (bytes_eqb (lit "{rcpt_addr}") n) eqn:En; [|discriminate].
          apply bytes_eqb_eq in En as <-. injection H as <-. left. split; [reflexivity|exact Hp].
        * right. apply told_define in H. split; [|exact H]. intros ->. apply Hn. split; [reflexivity|]. now left.
      + intros [[-> H]|[Hn H]].
        * rewrite Hp in H. apply pack_inj in H. cbn [command_payload] in H. injection H as H. apply app_inj_tail in H as [<- _].
          exact (latest_set_many [] [] _ _ _ _ (fun H => H)).
        * apply latest_older; [|now apply told_define]. intros [_ [H1|[]]]. exact (Hn (eq_sym H1)).
    - split; [|tauto]. apply untold; [exact A|]. cbn. intros H. repeat destruct H as [H|H]; discriminate || exact H.
  Qed.
End Run.

(** Whatever the filter answers and however writing goes: before each command of the program goes one
    packet with the macros the plan has for the stage of the command, limited to those the filter asked
    for; for a recipient [{rcpt_addr}] is the recipient in that very command; nothing goes before
    headers, body, and commands without macros. *)
Theorem C88_macros ntop4 ntop6 sort_keys writes pl depth ops later x prefix packet before :
  let t := sv_trace (test_run ntop4 ntop6 sort_keys writes pl depth ops) in
  t = later ++ Sent x prefix packet :: before \/ t = later ++ Lost x prefix packet :: before ->
  (forall c, ~ In (Call c) ops) ->
  (forall o reqs c symbols,
     In (Receive (RNegotiate o (Some reqs))) ops -> In (c, symbols) reqs -> In c request_stages) ->
  (forall c, NoDup (map fst (pl_macros pl c))) ->
  tells ntop4 ntop6 sort_keys (fun c n v => lookup (pl_macros pl c) n = Some v)
        (asked_macros before) x packet prefix.
Proof.
  intros t E Hcall Hst Htab.
  assert (He : exists e, wrote x prefix packet e /\ t = later ++ e :: before).
  { destruct E as [E|E]; eexists; split; try exact E; unfold wrote; auto. }
  destruct He as (e & He & Et).
  assert (Hd : forall c table, In (Server.In (Call (AMacro (ODefine c table)))) before -> NoDup (map fst table)).
  { intros c table H.
    destruct (run_clean ntop4 ntop6 sort_keys writes pl depth ops Hcall Hst later x prefix packet e before He Et) as [A _ _].
    rewrite Forall_forall in A.
    assert (Hin : In (ODefine c table) (macro_calls before)).
    { apply in_flat_map. eexists. split; [exact H|]. now left. }
    apply A in Hin as [_ ->]. apply Htab. }
  pose proof (C20_history ntop4 ntop6 sort_keys writes (fun _ => false) (test_handlers pl) depth
                (Call (ANegotiate (offer pl)) :: ops) later x prefix packet before E Hd) as H.
  unfold tells. destruct (stage_of x) as [c|] eqn:Hx; [|exact H].
  pose proof (told ntop4 ntop6 sort_keys writes pl depth ops Hcall Hst Htab later x prefix packet e before c) as T.
  destruct H as [[-> H]|(table & Hne & Hnd & -> & H)].
  - exists []. split; [apply NoDup_nil|]. split; [reflexivity|]. intros n v. split; [discriminate|].
    intros [H1 H2]. exfalso. apply (H n v). split; [now apply T|exact H2].
  - exists table. split; [exact Hnd|]. split; [now destruct table|].
    intros n v. rewrite H. unfold due_macro. now rewrite (T n v He Et Hx).
Qed.
Print Assumptions C88_macros.

Lemma tells_given ntop4 ntop6 sort_keys (given given' : byte -> bytes -> bytes -> Prop) asked x packet prefix :
  (forall c n v, given c n v <-> given' c n v) ->
  tells ntop4 ntop6 sort_keys given asked x packet prefix -> tells ntop4 ntop6 sort_keys given' asked x packet prefix.
Proof.
  intros G. unfold tells. destruct (stage_of x) as [c|]; [|auto]. intros (table & H1 & H2 & H3).
  exists table. split; [exact H1|]. split; [exact H2|]. intros n v. rewrite H3. unfold belongs.
  specialize (G c n v). destruct x; tauto.
Qed.

(** The same from the command line to the wire: the macros before a command are those of the options. *)
Theorem C88_command_line ntop4 ntop6 sort_keys writes program_name l s depth ops later x prefix packet before :
  let t := sv_trace (test_run ntop4 ntop6 sort_keys writes (plan_of s) depth ops) in
  parse_options program_name l = TestMessage.Done s ->
  t = later ++ Sent x prefix packet :: before \/ t = later ++ Lost x prefix packet :: before ->
  (forall c, ~ In (Call c) ops) ->
  (forall o reqs c symbols,
     In (Receive (RNegotiate o (Some reqs))) ops -> In (c, symbols) reqs -> In c request_stages) ->
  tells ntop4 ntop6 sort_keys (fun c n v => ~ In ":"%char n /\ macro_given program_name l c n v)
        (asked_macros before) x packet prefix.
Proof.
  intros t Hl E Hcall Hst.
  apply (tells_given ntop4 ntop6 sort_keys (fun c n v => lookup (pl_macros (plan_of s) c) n = Some v)).
  - intros c n v. apply (C87_macros program_name l s Hl c).
  - apply (C88_macros ntop4 ntop6 sort_keys writes (plan_of s) depth ops later x prefix packet before E Hcall Hst).
    intros c. apply (C87_macros program_name l s Hl c).
Qed.
Print Assumptions C88_command_line.

(** The filter asks for one macro of MAIL, one of RCPT and one of DATA that is not there. *)
Definition toy (b : bytes) : bytes := b.
Definition two_recipients : list opt :=
  [OMacro "M"%char (lit "i:1"); OMacro "R"%char (lit "{rcpt_addr}:x"); OMacro "T"%char (lit "y:z");
   OMessage (TestMessage.GFrom (lit "a@b")); OMessage (TestMessage.GRecipient (lit "c@d"));
   OMessage (TestMessage.GRecipient (lit "e@f"))].
Definition picky : list op :=
  [Flushed;
   Receive (RNegotiate (mk_option 6 0 0)
     (Some [("M"%char, [lit "i"]); ("R"%char, [lit "{rcpt_addr}"]); ("T"%char, [lit "none"]);
            ("C"%char, []); ("H"%char, []); ("N"%char, []); ("E"%char, [])]));
   Flushed; Receive RContinue; Flushed; Receive RContinue; Flushed; Receive RContinue; Flushed;
   Receive RContinue; Flushed; Receive RContinue; Flushed; Receive RContinue; Flushed].
Definition prefixes (s : settings) : list (sstate * bytes) :=
  flat_map (fun e => match e with Sent x prefix _ => [(x, prefix)] | _ => [] end)
           (rev (sv_trace (test_run toy toy (fun l => l) (fun _ => Taken) (plan_of s) 20 picky))).
Definition expected : list (sstate * bytes) :=
  [(XNegotiate, []); (XConnect, []); (XHelo, []);
   (XFrom, pack (lit "DMi" ++ [NUL] ++ lit "1" ++ [NUL]));
   (XRcpt, pack (lit "DR{rcpt_addr}" ++ [NUL] ++ lit "<c@d>" ++ [NUL]));
   (XRcpt, pack (lit "DR{rcpt_addr}" ++ [NUL] ++ lit "<e@f>" ++ [NUL]));
   (XData, []); (XHeader, [])].
Example C88_example :
  (forall c, ~ In (Call c) picky) /\
  exists s, parse_options (lit "test") two_recipients = TestMessage.Done s /\
    prefixes s = expected.
Proof.
  split.
  - intros c H. unfold picky in H. repeat destruct H as [H|H]; discriminate || exact H.
  - assert (H : match parse_options (lit "test") two_recipients with
      | TestMessage.Done s => prefixes s = expected
      | _ => False end).
    { vm_compute. reflexivity. }
    destruct (parse_options (lit "test") two_recipients) as [s| |]; try contradiction. exists s. split; [reflexivity|exact H].
Qed.
