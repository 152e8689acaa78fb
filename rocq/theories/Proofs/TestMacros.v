(** The macros that milter-test-server sets before each of its commands. *)
From Verif.Base Require Import Bytes BytesFacts.
From Verif.Model Require Import Decoder Encoder CommandCodec ReplyCodec Status Option Headers Macros Client
                                Server TestServer.
From Verif.Spec Require Import MacroSpec MacroHistorySpec.
From Verif.Proofs Require Import ServerInv ServerCalls.
Import List.
Local Open Scope N_scope.

(** The stages that have a table of macros in the program. *)
Definition usual_stages : list byte := ["C"; "H"; "M"; "R"; "T"; "N"; "E"]%char.
Section Plan.
  Variable pl : plan.

  (** The calls on the store of macros the program may make. *)
  Definition tame (o : macro_op) : Prop :=
    match o with
    | ODefine c t => In c usual_stages /\ t = pl_macros pl c
    | OSet c _ _ | OSetMany c _ => In c usual_stages
    | _ => True
    end.

  (** The macros were set when the command is sent. *)
  Definition headed (c : byte) (h : list macro_op) : Prop := exists h', h = ODefine c (pl_macros pl c) :: h'.
  Definition ready (h : list macro_op) (c : api) : Prop :=
    match c with
    | AConnect _ _ => headed "C" h
    | AHelo _ => headed "H" h
    | AFrom _ => headed "M" h
    | ARcpt r => exists h', h = OSetMany "R" [(lit "{rcpt_addr}", Some r)] :: h' /\ headed "R" h'
    | AData => headed "T" h
    | AEndOfHeader => headed "N" h
    | AEndOfMessage _ => headed "E" h
    | AMacro o => tame o
    | _ => True
    end.
  Fixpoint wf (h : list macro_op) (f : list api) : Prop :=
    match f with
    | [] => True
    | c :: f' =>
        ready h c /\
        match c with
        | AMacro o => wf (o :: h) f'
        | AReset => wf (OClearMessage :: h) f'
        | _ => forall h', wf h' f'
        end
    end.
  Definition free (f : list api) : Prop := forall h, wf h f.

  Lemma wf_app a : forall h b, wf h a -> free b -> wf h (a ++ b).
  Proof.
    induction a as [|c a IH]; intros h b Ha Hb; [apply Hb|].
    cbn [wf app] in *. destruct Ha as [Hc Ha]. split; [exact Hc|].
    destruct c; try (intros h'); apply IH; auto.
  Qed.
  Definition good (f : part) : Prop := forall p, free (fst (fst (f p))).

  Lemma good_or f g : good f -> good g -> good (or_else f g).
  Proof.
    intros Hf Hg p h. unfold or_else. specialize (Hf p h). destruct (f p) as [[calls sent] p1].
    cbn [fst] in Hf. destruct sent; [exact Hf|]. specialize (Hg p1).
    destruct (g p1) as [[more sent'] p2]. now apply wf_app.
  Qed.
  Lemma good_if b f : good f -> good (only_if b f).
  Proof. intros Hf p h. unfold only_if. destruct (b p); [apply Hf|exact I]. Qed.

  Ltac usual := cbn; tauto.
  Ltac easy_part :=
    let p := fresh in let h := fresh in intros p h;
    repeat match goal with |- context[if ?b then _ else _] => destruct b
                         | |- context[match ?b with [] => _ | _ => _ end] => destruct b
                         | |- context[match ?b with Some _ => _ | None => _ end] => destruct b end;
    cbn; repeat match goal with
                | |- True => exact I
                | |- forall _, _ => intros ?
                | |- _ /\ _ => split
                | |- headed _ _ => eexists; reflexivity
                | |- _ \/ _ => tauto
                | |- _ = _ => reflexivity
                end.
  Lemma connect_good : good (send_connect pl). Proof. unfold send_connect. easy_part. Qed.
  Lemma helo_good : good (send_helo pl). Proof. unfold send_helo. easy_part. Qed.
  Lemma from_good : good (send_from pl). Proof. unfold send_from. easy_part. Qed.
  Lemma unknown_good : good (send_unknown pl). Proof. unfold send_unknown. easy_part. Qed.
  Lemma data_good : good (send_data pl). Proof. unfold send_data. easy_part. Qed.
  Lemma header_good : good send_header.
  Proof. intros p h. unfold send_header. destruct (flag _ _), (pd_headers p); cbn; auto. Qed.
  Lemma eoh_good : good (send_eoh pl). Proof. unfold send_eoh. easy_part. Qed.
  Lemma body_good : good send_body. Proof. unfold send_body. easy_part. Qed.
  Lemma eom_good : good (send_eom pl). Proof. unfold send_eom. easy_part. Qed.
  Lemma rcpt_good : good (send_rcpt pl).
  Proof.
    intros p h. unfold send_rcpt. destruct (pd_recipients p) as [|r rs]; [exact I|].
    destruct (flag _ _); cbn; repeat split; try tauto.
    eexists. split; [reflexivity|]. eexists. reflexivity.
  Qed.
  Lemma quit_good : good quit. Proof. intros p h. cbn. auto. Qed.
  Lemma abort_good : good abort. Proof. intros p h. cbn. auto. Qed.

  Hint Resolve good_or good_if connect_good helo_good from_good unknown_good data_good header_good eoh_good
    body_good eom_good rcpt_good quit_good abort_good : good.

  Lemma continue_good x : good (on_continue pl x).
  Proof.
    destruct x; cbn [on_continue];
      unfold continue_negotiate, continue_connect, continue_helo, continue_from, continue_rcpt, continue_unknown,
        continue_data, continue_header, continue_eoh, continue_body; auto 40 with good.
  Qed.
  Lemma transited_good x : good (on_transited pl x).
  Proof.
    destruct x; cbn [on_transited];
      unfold transited_connect, transited_helo, transited_from, transited_rcpt, transited_unknown,
        transited_data, transited_header, transited_eoh, transited_body; auto 40 with good;
      intros p h; exact I.
  Qed.

  Definition usual_requests (reqs : option requests) : Prop :=
    match reqs with Some reqs => Forall (fun x => In (fst x) usual_stages) reqs | None => True end.
  Lemma request_good reqs : forall l, Forall (fun x : byte * list bytes => In (fst x) usual_stages) reqs ->
    request_macros reqs = Some l -> free l.
  Proof.
    induction reqs as [|[c symbols] reqs IH]; intros l Hr E; cbn [request_macros] in E.
    - injection E as <-. intros h. exact I.
    - apply Forall_cons_iff in Hr as [Hc Hr]. cbn [fst] in Hc.
      destruct (set_macro_loop c symbols) as [a|] eqn:Ea; [|discriminate].
      destruct (request_macros reqs) as [b|]; [|discriminate]. injection E as <-.
      intros h. apply wf_app; [|now apply IH].
      unfold set_macro_loop in Ea. destruct symbols as [|x [|y symbols]]; [| |discriminate]; injection Ea as <-.
      + exact I.
      + cbn. auto.
  Qed.

  Lemma reply_good x r :
    match r with RNegotiate _ reqs => usual_requests reqs | _ => True end -> good (on_reply pl x r).
  Proof.
    intros Hr p h.
    destruct r; cbn [on_reply]; try exact I; try apply continue_good; try apply abort_good.
    1: { unfold on_negotiate. destruct (pd_option p); [apply abort_good|].
      assert (Hm : forall l, match reqs with Some reqs => request_macros reqs | None => Some [] end = Some l -> free l).
      { destruct reqs as [reqs|]; [intros l; exact (request_good reqs l Hr)|]. intros l [= <-] h'. exact I. }
      destruct (match reqs with Some reqs => request_macros reqs | None => Some [] end) as [l|]; [|exact I].
      specialize (Hm l eq_refl). pose proof (continue_good x (put_opt p (Some o))) as Hg.
      destruct (on_continue pl x (put_opt p (Some o))) as [[calls sent] p2]. now apply wf_app. }
    all: unfold on_refusal, on_skip; destruct x; try apply abort_good; try apply continue_good.
    all: destruct (TestReport.ml_recipients _); [apply abort_good|apply continue_good].
  Qed.

  Definition usual_event (e : event) : Prop :=
    match e with Forward (RNegotiate _ reqs) => usual_requests reqs | _ => True end.
  Lemma signal_good x e : usual_event e -> good (on_signal pl x e).
  Proof.
    intros He p h. destruct e; try exact I.
    - apply reply_good. destruct r; exact I || exact He.
    - destruct x0; apply continue_good.
    - destruct t; try exact I; apply abort_good.
    - apply transited_good.
  Qed.

  (** The calls still to be made. *)
  Record J (t : list event) : Prop := {
    J_clean : Forall tame (macro_calls t);
    J_top : match cv_calls (replay pl t) with f :: _ => wf (macro_calls t) f | [] => True end;
    J_rest : Forall free (tl (cv_calls (replay pl t)))
  }.

  Definition is_signal (e : event) : bool :=
    match e with
    | Server.In _ | Return _ | Entered _ | Sent _ _ _ | Lost _ _ _ | Crash => false
    | _ => true
    end.

  Lemma J_signal e t : is_signal e = true -> usual_event e -> J t -> J (e :: t).
  Proof.
    intros Hs He [A B C].
    assert (E : cv_calls (replay pl (e :: t))
                = fst (fst (on_signal pl (cv_state (replay pl t)) e (cv_data (replay pl t))))
                  :: tl (cv_calls (replay pl t))).
    { cbn [replay]. pose proof (signal_good (cv_state (replay pl t)) e He) as _.
      destruct e; try discriminate Hs; cbn [observe];
      match goal with |- context[on_signal ?a ?b ?c ?d] => destruct (on_signal a b c d) as [[calls sent] p2] end; reflexivity. }
    constructor.
    - cbn [macro_calls flat_map]. apply Forall_app. split; [|exact A].
      destruct e; try discriminate Hs; try apply Forall_nil. destruct x; cbn; auto using Forall_nil, Forall_cons.
    - rewrite E. now apply signal_good.
    - rewrite E. exact C.
  Qed.

  Variables (user : api -> list event -> Prop) (allowed : op -> Prop).
  Hypothesis user_new : forall c t, user c t -> t = [] /\ exists o, c = ANegotiate o.

  Lemma called_J t : called (test_handlers pl) user allowed t -> Forall usual_event t -> J t.
  Proof.
    induction 1 as [|e t He Ht IH|c t Hq Hf Ht IH|c t ok Hq Hf Ht IH]; intros U.
    - constructor; cbn; auto.
    - apply Forall_cons_iff in U as [Ue U]. specialize (IH U).
      destruct (is_signal e) eqn:Hs; [now apply J_signal|].
      destruct IH as [A B C].
      destruct e as [o| | | | | | | | | | | |ok|]; try discriminate Hs.
      + destruct o; [contradiction|constructor; cbn; auto..].
      + constructor; assumption.
      + constructor; assumption.
      + constructor; assumption.
      + constructor; cbn [macro_calls flat_map macro_calls_of app replay observe cv_calls]; [exact A| |].
        * destruct (cv_calls (replay pl t)) as [|f [|g fs]]; try exact I. cbn [tl] in *.
          now apply Forall_inv in C.
        * destruct (cv_calls (replay pl t)) as [|f [|g fs]]; try apply Forall_nil. cbn [tl] in *.
          now apply Forall_inv_tail in C.
      + constructor; assumption.
    - apply Forall_cons_iff in U as [Ue U]. specialize (IH U).
      assert (Em : macro_calls (Server.In (Call c) :: t) = macro_calls t) by (destruct c; try discriminate Hq; reflexivity).
      destruct Hf as [Hf|Hf].
      + destruct IH as [A B C]. unfold test_handlers in Hf.
        destruct (pd_hung _); [discriminate|].
        constructor.
        * rewrite Em. exact A.
        * cbn [replay observe cv_calls]. exact I.
        * cbn [replay observe cv_calls tl].
          destruct (cv_calls (replay pl t)) as [|[|c' f] fs]; try discriminate Hf. injection Hf as ->.
          cbn [tl] in *. apply Forall_cons; [|exact C]. intros h. cbn [wf] in B.
          destruct c; try discriminate Hq; apply B.
      + apply user_new in Hf as (-> & o & ->). constructor; cbn; auto. 
        apply Forall_cons; [intros h; exact I|apply Forall_nil].
    - apply Forall_cons_iff in U as [_ U]. apply Forall_cons_iff in U as [_ U]. specialize (IH U).
      destruct Hf as [Hf|Hf]; [|apply user_new in Hf as (_ & o & ->); discriminate Hq].
      destruct IH as [A B C]. unfold test_handlers in Hf. destruct (pd_hung _); [discriminate|].
      destruct (cv_calls (replay pl t)) as [|[|c' f] fs] eqn:Ec; try discriminate Hf. injection Hf as ->.
      assert (Ecalls : cv_calls (replay pl (Return ok :: Server.In (Call c) :: t)) = f :: fs).
      { cbn [replay observe cv_calls]. now rewrite Ec. }
      constructor.
      + destruct c; try discriminate Hq; cbn [macro_calls flat_map macro_calls_of app];
          apply Forall_cons; try exact A; [exact I|exact (proj1 B)].
      + rewrite Ecalls. destruct c; try discriminate Hq; exact (proj2 B).
      + rewrite Ecalls. exact C.
  Qed.

  Lemma called_tail e t : called (test_handlers pl) user allowed (e :: t) ->
    called (test_handlers pl) user allowed t \/
    exists c t', t = Server.In (Call c) :: t' /\ quiet c = true /\ called (test_handlers pl) user allowed t'.
  Proof. intros H. inversion H; subst; eauto 8. Qed.
End Plan.
