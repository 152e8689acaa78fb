(** What the report of a processed message contains. *)
From Verif.Base Require Import Bytes BytesFacts.
From Verif.Model Require Import Decoder Encoder CommandCodec ReplyCodec Status Option Headers Macros
                                Client Server.
From Verif.Spec Require Import HeaderSpec ServerSpec MessageReportSpec.
From Verif.Proofs Require Import HeaderProofs.
From Coq Require Import ZifyBool ZifyNat ZifyN Permutation.
Local Open Scope N_scope.

(** *** The order of headers added one after the other *)

Definition put_header (hs : list header) (h : header) : list header :=
  headers_add hs (h_name h) (h_value h).
Definition filed (l : list header) : list header := fold_left put_header l [].

Lemma filed_snoc l h : filed (l ++ [h]) = put_header (filed l) h.
Proof. unfold filed. now rewrite fold_left_app. Qed.

Lemma put_header_perm hs h : Permutation (put_header hs h) (h :: hs).
Proof.
  unfold put_header. destruct h as [n v]. cbn [h_name h_value].
  induction hs as [|x hs IH]; cbn [headers_add]; [reflexivity|].
  destruct (caseless_eqb _ _); [reflexivity|].
  rewrite IH. apply perm_swap.
Qed.
Lemma filed_perm l : Permutation (filed l) l.
Proof.
  induction l as [|h l IH] using rev_ind; [reflexivity|].
  rewrite filed_snoc, put_header_perm, IH. apply Permutation_cons_append.
Qed.

Definition named (name : bytes) (h : header) : bool := caseless_eqb (h_name h) name.

Lemma caseless_swap (a b c : bytes) : caseless_eqb a b = true -> caseless_eqb a c = caseless_eqb b c.
Proof.
  intros H. apply caseless_eqb_spec in H. unfold caseless in H. unfold caseless_eqb.
  change (bytes_eqb (map lower a) (map lower c) = bytes_eqb (map lower b) (map lower c)).
  now rewrite H.
Qed.
Lemma caseless_sym (a b : bytes) : caseless_eqb a b = caseless_eqb b a.
Proof.
  destruct (caseless_eqb a b) eqn:E; symmetry.
  - apply caseless_eqb_spec. apply caseless_eqb_spec in E. now symmetry.
  - destruct (caseless_eqb b a) eqn:E'; [|reflexivity].
    apply caseless_eqb_spec in E'. symmetry in E'. apply caseless_eqb_spec in E'. congruence.
Qed.

Lemma put_header_named name hs h :
  filter (named name) (put_header hs h) =
  if named name h then h :: filter (named name) hs else filter (named name) hs.
Proof.
  unfold put_header. destruct h as [n v]. unfold named at 2. cbn [h_name h_value].
  induction hs as [|x hs IH]; cbn [headers_add filter].
  - unfold named. cbn [h_name]. reflexivity.
  - destruct (caseless_eqb (h_name x) n) eqn:E.
    + cbn [filter]. unfold named at 1. cbn [h_name]. reflexivity.
    + cbn [filter]. rewrite IH. destruct (named name x) eqn:Ex; [|reflexivity].
      destruct (caseless_eqb n name) eqn:En; [|reflexivity].
      exfalso. unfold named in Ex.
      assert (Hx : caseless_eqb (h_name x) n = caseless_eqb name n) by now apply caseless_swap.
      rewrite Hx, caseless_sym, En in E. discriminate.
Qed.
Lemma filed_named name l : filter (named name) (filed l) = rev (filter (named name) l).
Proof.
  induction l as [|h l IH] using rev_ind; [reflexivity|].
  rewrite filed_snoc, put_header_named, IH, filter_app, rev_app_distr. cbn [filter].
  destruct (named name h); reflexivity.
Qed.

(** Without two headers of the same name the order is kept. *)
Lemma put_header_new hs h :
  (forall x, List.In x hs -> caseless_eqb (h_name x) (h_name h) = false) ->
  put_header hs h = hs ++ [h].
Proof.
  unfold put_header. destruct h as [n v]. cbn [h_name h_value].
  induction hs as [|x hs IH]; intros H; cbn [headers_add app]; [reflexivity|].
  rewrite (H x (or_introl eq_refl)), IH; [reflexivity|]. intros y Hy. apply H. now right.
Qed.
Lemma filed_distinct l :
  ForallOrdPairs (fun a b => ~ caseless (h_name a) (h_name b)) l -> filed l = l.
Proof.
  assert (G : forall l acc,
    ForallOrdPairs (fun a b => ~ caseless (h_name a) (h_name b)) l ->
    (forall a b, List.In a acc -> List.In b l -> ~ caseless (h_name a) (h_name b)) ->
    fold_left put_header l acc = acc ++ l).
  { clear l. induction l as [|h l IH]; intros acc Hl Ha; cbn [fold_left]; [now rewrite app_nil_r|].
    inversion Hl as [|? ? Hh Hl']; subst. rewrite put_header_new.
    - rewrite IH; [now rewrite <- app_assoc|exact Hl'|].
      intros a b Hin Hb. apply in_app_or in Hin as [Hin|[<-|[]]].
      + apply Ha; [exact Hin|now right].
      + rewrite Forall_forall in Hh. now apply Hh.
    - intros x Hx. destruct (caseless_eqb _ _) eqn:E; [|reflexivity].
      exfalso. apply caseless_eqb_spec in E. apply (Ha x h Hx (or_introl eq_refl) E). }
  intros H. apply (G l []); [exact H|]. intros a b [].
Qed.

(** *** The report against the history *)

Record contents := mk_contents {
  k_from : option bytes; k_headers : list header; k_size : N; k_added : list header;
  k_removed : list header; k_quarantine : bool }.
Definition of_message (m : message) : contents :=
  mk_contents (mr_from m) (mr_headers m) (mr_body_size m) (mr_added m) (mr_removed m)
              (mr_quarantine m).
Definition held (s : server) : contents :=
  of_message (match sv_message s with Some m => m | None => message_new end).
Definition contents_of (t : list event) : contents :=
  let es := episode t in
  mk_contents (sender es) (filed (flat_map header_given es))
              (total es mod 18446744073709551616)
              (filed (flat_map header_added es)) (filed (flat_map header_removed es))
              (existsb asks_quarantine es).
Definition nothing : contents := of_message message_new.

Fixpoint reports_ok (t : list event) : Prop :=
  match t with
  | [] => True
  | e :: t' => match e with Processed m => of_message m = contents_of t' | _ => True end /\ reports_ok t'
  end.

Definition G (s : server) : Prop :=
  reports_ok (sv_trace s) /\ (sv_crashed s = false -> held s = contents_of (sv_trace s)).

Definition boundary (e : event) : bool :=
  match e with Processed _ => true | In (Call AReset) => true | _ => false end.
(** Events that say nothing of the contents. *)
Definition silent (e : event) : bool :=
  match e with
  | Processed _ | In (Call (AFrom _)) | In (Call (AHeader _ _)) | In (Call (ABody _))
  | In (Call (AEndOfMessage _)) | In (Call AReset) => false
  | Forward r => negb (edits r)
  | _ => true
  end.

Lemma episode_cons e t : boundary e = false -> episode (e :: t) = episode t ++ [e].
Proof.
  intros H. destruct e as [o| | | | | | | | |m| | | |]; try reflexivity; [|discriminate H].
  destruct o as [c| | |]; try reflexivity. destruct c; try reflexivity. discriminate H.
Qed.
Lemma sender_snoc es e :
  sender (es ++ [e]) = match e with In (Call (AFrom f)) => Some f | _ => sender es end.
Proof.
  induction es as [|x es IH]; cbn [app sender].
  - destruct e as [o| | | | | | | | |m| | | |]; reflexivity.
  - rewrite IH.
    assert (Hx : (match x with In (Call (AFrom f)) => match sender es with Some g => Some g | None => Some f end
                  | _ => sender es end) = sender (x :: es)) by reflexivity.
    destruct e as [o| | | | | | | | |m| | | |]; try exact Hx.
    destruct o as [c| | |]; try exact Hx. destruct c; try exact Hx.
    destruct x as [o'| | | | | | | | |m'| | | |]; try reflexivity.
    destruct o' as [c'| | |]; try reflexivity. destruct c'; reflexivity.
Qed.
Lemma total_snoc es e : total (es ++ [e]) = total es + bytes_given e.
Proof. induction es as [|x es IH]; cbn [app total]; [lia|]. rewrite IH. lia. Qed.

Lemma contents_cons e t :
  boundary e = false ->
  contents_of (e :: t) =
  mk_contents (match e with In (Call (AFrom f)) => Some f | _ => k_from (contents_of t) end)
              (fold_left put_header (header_given e) (k_headers (contents_of t)))
              ((k_size (contents_of t) + bytes_given e) mod 18446744073709551616)
              (fold_left put_header (header_added e) (k_added (contents_of t)))
              (fold_left put_header (header_removed e) (k_removed (contents_of t)))
              (k_quarantine (contents_of t) || asks_quarantine e).
Proof.
  intros H. unfold contents_of. cbn [k_from k_headers k_size k_added k_removed k_quarantine].
  rewrite (episode_cons e t H), sender_snoc, total_snoc, !flat_map_app, existsb_app.
  cbn [flat_map existsb]. rewrite !app_nil_r, orb_false_r. unfold filed. rewrite !fold_left_app.
  rewrite N.add_mod_idemp_l by discriminate. reflexivity.
Qed.
Lemma contents_silent e t : silent e = true -> contents_of (e :: t) = contents_of t.
Proof.
  intros H. rewrite contents_cons.
  2:{ destruct e as [o| | | | | | | | |m| | | |]; try reflexivity; [|discriminate H].
      destruct o as [c| | |]; try reflexivity. destruct c; try reflexivity; discriminate H. }
  assert (Hf : (match e with In (Call (AFrom f)) => Some f | _ => k_from (contents_of t) end)
               = k_from (contents_of t)).
  { destruct e as [o| | | | | | | | |m| | | |]; try reflexivity.
    destruct o as [c| | |]; try reflexivity. destruct c; try reflexivity; discriminate H. }
  assert (H1 : header_given e = []).
  { destruct e as [o| | | | | | | | |m| | | |]; try reflexivity.
    destruct o as [c| | |]; try reflexivity. destruct c; try reflexivity; discriminate H. }
  assert (H2 : bytes_given e = 0).
  { destruct e as [o| | | | | | | | |m| | | |]; try reflexivity.
    destruct o as [c| | |]; try reflexivity. destruct c; try reflexivity; discriminate H. }
  assert (H3 : header_added e = [] /\ header_removed e = [] /\ asks_quarantine e = false).
  { destruct e as [o| | |r| | | | | |m| | | |]; auto. destruct r; auto; discriminate H. }
  destruct H3 as (H3 & H4 & H5). rewrite Hf, H1, H2, H3, H4, H5. cbn [fold_left].
  rewrite orb_false_r, N.add_0_r. unfold contents_of. cbn [k_from k_headers k_size k_added k_removed k_quarantine].
  now rewrite N.mod_mod by discriminate.
Qed.
Lemma contents_boundary e t : boundary e = true -> contents_of (e :: t) = nothing.
Proof.
  intros H. unfold contents_of.
  assert (E : episode (e :: t) = []).
  { destruct e as [o| | | | | | | | |m| | | |]; try discriminate H; [|reflexivity].
    destruct o as [c| | |]; try discriminate H. destruct c; try discriminate H. reflexivity. }
  rewrite E. reflexivity.
Qed.

Lemma G_same s s' :
  sv_trace s' = sv_trace s -> held s' = held s -> (sv_crashed s' = false -> sv_crashed s = false) ->
  G s -> G s'.
Proof. intros E1 E2 E3 [H1 H2]. split; rewrite E1; [exact H1|]. rewrite E2. auto. Qed.

Lemma silent_not_processed e t :
  silent e = true -> reports_ok t -> reports_ok (e :: t).
Proof. intros He H. split; [|exact H]. destruct e; try exact I. discriminate He. Qed.
Lemma log_G s e : silent e = true -> G s -> G (log s e).
Proof.
  intros He [H1 H2]. unfold log. destruct (sv_crashed s) eqn:Hc; [split; [exact H1|congruence]|].
  split; cbn [sv_trace put_trace]; [now apply silent_not_processed|].
  intros _. rewrite contents_silent by exact He. exact (H2 eq_refl).
Qed.

Lemma log_keeps_crashed s e : sv_crashed (log s e) = sv_crashed s.
Proof. unfold log. destruct (sv_crashed s) eqn:E; [exact E|exact E]. Qed.

Section Content.
  Variables (ntop4 ntop6 : bytes -> bytes).
  Variable sort_keys : list bytes -> list bytes.
  Variable writes : list event -> write_outcome.
  Variable stops : list event -> bool.

  Section Step.
    Variable react : server -> server.
    Hypothesis react_G : forall s, G s -> G (react s).
    Hypothesis react_crashed : forall s, sv_crashed s = true -> react s = s.
    Hypothesis react_quiet : forall s m t, sv_trace s = Processed m :: t -> react s = s.
    (** The handlers of the signals of edits make no calls. *)
    Hypothesis react_edits : forall s r t,
      edits r = true -> sv_trace s = Forward r :: t -> react s = s.

    Lemma emit_G s e : silent e = true -> G s -> G (emit react s e).
    Proof. intros He H. now apply react_G, log_G. Qed.

    Lemma emit_processed_G s : G s -> G (emit_processed react s).
    Proof.
      intros [H1 H2]. unfold emit_processed. destruct (sv_message s) as [m|] eqn:Em; [|now split].
      set (m2 := mr_put_status _ (sv_status s)).
      assert (E2 : of_message m2 = of_message m).
      { unfold m2. destruct (sv_state s); reflexivity. }
      clearbody m2. unfold emit, log.
      destruct (sv_crashed (put_message s (Some m2))) eqn:Hc; cbn in Hc.
      - rewrite react_crashed by exact Hc. split; [exact H1|]. cbn. congruence.
      - rewrite (react_quiet _ m2 (sv_trace s)) by reflexivity. cbn [sv_trace put_trace put_message].
        split; cbn [sv_trace put_message put_trace reports_ok].
        + split; [|exact H1]. rewrite E2. specialize (H2 Hc). unfold held in H2. now rewrite Em in H2.
        + intros _. symmetry. now apply contents_boundary.
    Qed.

    Lemma write_packet_G s p x :
      G s -> G (snd (write_packet ntop4 ntop6 sort_keys writes react s p x)).
    Proof.
      intros HF. unfold write_packet.
      destruct (negb (urgent x) && is_processing s); [now apply emit_G|].
      set (s1 := if urgent x then s else put_timer s (Some TWriting)).
      assert (H1 : G s1) by (unfold s1; destruct (urgent x); exact HF).
      assert (H2 : G (snd (macro_prefix ntop4 ntop6 sort_keys s1 x))).
      { unfold macro_prefix. destruct (macro_command x); [|exact H1].
        destruct (macros_before _ _ _) as [[]]; exact H1. }
      destruct (macro_prefix ntop4 ntop6 sort_keys s1 x) as [prefix s2]. cbn [snd] in H2.
      destruct (writes (sv_trace s2)); cbn [snd].
      - exact (log_G s2 (Sent x prefix p) eq_refl H2).
      - exact (log_G s2 (Lost x prefix p) eq_refl H2).
      - apply emit_G; [reflexivity|exact H2].
    Qed.
    Lemma send_G s c x :
      G s -> G (snd (send ntop4 ntop6 sort_keys writes react s c x)).
    Proof. intros H. exact (write_packet_G (put_encoder s _) _ x H). Qed.
    Lemma flush_body_G s :
      G s -> G (snd (flush_body ntop4 ntop6 sort_keys writes react s)).
    Proof.
      intros H. unfold flush_body.
      pose proof (send_G (put_queue s (sv_queue s ++ [0]))
                    (CBody (sv_body (put_queue s (sv_queue s ++ [0])))) XBody H) as H1.
      destruct (send _ _ _ _ _ _ _ _) as [[] s2]; exact H1.
    Qed.
    Lemma set_state_G s x : G s -> G (set_state s x).
    Proof.
      intros H. unfold set_state. apply log_G; [reflexivity|].
      now destruct (sstate_in _ _ _).
    Qed.
    Lemma crash_G s : G s -> G (crash s).
    Proof. intros H. split; [|discriminate]. apply (log_G s Crash eq_refl H). Qed.
    Lemma skip_G s x : G s -> G (snd (skip react s x)).
    Proof. intros H. apply emit_G; [reflexivity|]. now apply set_state_G. Qed.
    Lemma stop_G s x : G s -> G (stop_on_state react s x).
    Proof.
      intros H. unfold stop_on_state.
      assert (H1 : G (emit react (set_state (put_status s S_STOP) x) (Stopped x))).
      { apply emit_G; [reflexivity|]. now apply set_state_G. }
      destruct (sstate_in _ _ _); [now apply emit_processed_G|exact H1].
    Qed.

    Lemma call_G s c : sv_crashed s = false -> G s -> G (call ntop4 ntop6 sort_keys writes stops react s c).
    Proof.
      intros Hc [H1 H2]. unfold call. specialize (H2 Hc).
      assert (E0 : log s (In (Call c)) = put_trace s (In (Call c) :: sv_trace s)) by (unfold log; now rewrite Hc).
      rewrite E0. set (s0 := put_trace s (In (Call c) :: sv_trace s)).
      assert (R0 : reports_ok (In (Call c) :: sv_trace s)) by (split; [exact I|exact H1]).
      assert (Hs : silent (In (Call c)) = true -> forall s1, sv_trace s1 = sv_trace s0 -> held s1 = held s0 -> G s1).
      { intros He s1 E1 E2. split; rewrite E1; [exact R0|]. intros _. rewrite E2. unfold s0. cbn [sv_trace put_trace].
        rewrite contents_silent by exact He. exact H2. }
      assert (Ht : forall s1, sv_trace s1 = sv_trace s0 ->
                boundary (In (Call c)) = false ->
                held s1 = mk_contents (match In (Call c) with In (Call (AFrom f)) => Some f | _ => k_from (held s) end)
                  (fold_left put_header (header_given (In (Call c))) (k_headers (held s)))
                  ((k_size (held s) + bytes_given (In (Call c))) mod 18446744073709551616)
                  (k_added (held s)) (k_removed (held s)) (k_quarantine (held s)) -> G s1).
      { intros s1 E1 Hb E2. split; rewrite E1; [exact R0|]. intros _. unfold s0. cbn [sv_trace put_trace].
        rewrite E2, contents_cons by exact Hb. rewrite H2. cbn [header_added header_removed asks_quarantine fold_left].
        now rewrite orb_false_r. }
      assert (Hsize : (k_size (held s)) mod 18446744073709551616 = k_size (held s)).
      { rewrite H2. unfold contents_of. cbn [k_size]. now rewrite N.mod_mod by discriminate. }
      cut (G (snd (call_body ntop4 ntop6 sort_keys writes stops react s0 c))).
      { destruct (call_body _ _ _ _ _ _ _ _) as [ok s1]. apply (log_G s1 (Return ok)). reflexivity. }
      assert (Hheld : held s0 = held s) by reflexivity.
      assert (Hfield : of_message (match sv_message s0 with Some m => m | None => message_new end) = held s)
        by reflexivity.
      destruct c; cbn [call_body];
        try (assert (Hg : forall s1, sv_trace s1 = sv_trace s0 -> held s1 = held s0 -> G s1) by (exact (Hs eq_refl)));
        try (destruct (stops _);
               [cbn [snd]; apply stop_G; first [apply Hg; reflexivity
                 | apply Ht; [reflexivity|reflexivity|]; cbn [header_given bytes_given fold_left];
                   rewrite ?N.add_0_r, ?Hsize; reflexivity]|]);
        try (destruct (is_enable_step _ _);
               [apply skip_G; first [apply Hg; reflexivity
                 | apply Ht; [reflexivity|reflexivity|]; cbn [header_given bytes_given fold_left];
                   rewrite ?N.add_0_r, ?Hsize; reflexivity]|]);
        try (apply send_G; first [apply Hg; reflexivity
                 | apply Ht; [reflexivity|reflexivity|]; cbn [header_given bytes_given fold_left];
                   rewrite ?N.add_0_r, ?Hsize; reflexivity]).
      - destruct (sv_option _); [|apply crash_G, Hg; reflexivity].
        destruct (_ || _); (apply skip_G || apply send_G); apply Hg; reflexivity.
      - apply flush_body_G. apply Ht; reflexivity.
      - pose proof (send_G s0 CAbort XAbort (Hg s0 eq_refl eq_refl)) as H3.
        destruct (send _ _ _ _ _ _ _ _). exact H3.
      - apply set_state_G. apply Hg; reflexivity.
      - apply Hg; reflexivity.
      - apply Hg; reflexivity.
      - apply Hg; reflexivity.
      - split; [exact R0|]. intros _. symmetry. now apply contents_boundary.
      - apply Hg; reflexivity.
    Qed.

    Lemma deliver_G s x :
      G s -> G (deliver ntop4 ntop6 sort_keys writes react s x).
    Proof.
      intros H. apply emit_G; [reflexivity|].
      assert (Hset : forall y, G (set_state (disable_timeout s) y))
        by (intros y; apply set_state_G; exact H).
      assert (Hdef : forall s' y, G s' ->
                G (match need_reply (set_state s' y) y with
                        | None => crash (set_state s' y)
                        | Some true => put_timer (set_state s' y) (Some TReading)
                        | Some false => set_state s' y
                        end)).
      { intros s' y H'. pose proof (set_state_G s' y H') as H1.
        destruct (need_reply _ _) as [[]|]; [exact H1|exact H1|now apply crash_G]. }
      unfold process_next_state. destruct x; try (apply Hdef; exact H).
      - now apply emit_G.
      - unfold process_next_state_body. specialize (Hset XBody).
        destruct (sv_body _); [exact Hset|].
        destruct (need_reply _ _) as [[]|]; [exact Hset|now apply flush_body_G|now apply crash_G].
      - exact (Hset XEndOfMessage).
      - apply set_state_G, emit_G; [reflexivity|exact H].
      - match goal with |- G (reset_message_related_data (emit_processed react ?s2)) =>
          assert (H2 : G s2) by (apply set_state_G; now destruct (is_pass _ && _ && _));
          generalize dependent s2 end.
        intros s2 H2. pose proof (emit_processed_G s2 H2) as [H3 H4].
        split; [exact H3|]. intros Hc. specialize (H4 Hc).
        change (nothing = contents_of (sv_trace (emit_processed react s2))). rewrite <- H4.
        unfold held. replace (sv_message (emit_processed react s2)) with (@None message); [reflexivity|].
        unfold emit_processed. destruct (sv_message s2) eqn:Em; [reflexivity|now rewrite Em].
    Qed.

    Lemma flushed_G s : G s -> G (flushed ntop4 ntop6 sort_keys writes react s).
    Proof.
      intros H. unfold flushed. assert (H1 : G (put_next s [])) by exact H.
      revert H1. generalize (put_next s []) as s1.
      induction (sv_next s) as [|x k IH]; intros s1 H1; cbn [fold_left]; [exact H1|].
      now apply IH, deliver_G.
    Qed.

    Lemma end_message_G s b : G s -> G (end_message react s b).
    Proof. intros H. unfold end_message. destruct (_ && _); [now apply emit_processed_G|exact H]. Qed.

    Lemma final_reply_G s r b : edits r = false -> G s -> G (final_reply react s r b).
    Proof.
      intros He H. unfold final_reply. destruct (sv_quitted _); [exact H|].
      assert (H1 : G (end_message react (emit react (disable_timeout s) (Forward r)) b)).
      { apply end_message_G, emit_G; [cbn [silent]; now rewrite He|exact H]. }
      destruct (sv_state (end_message _ _ _)); exact H1.
    Qed.

    Lemma refuse_G s v : G s -> G (refuse s v).
    Proof.
      intros H. unfold refuse. destruct (sv_state s); try exact H.
      unfold refuse_recipient.
      assert (H1 : G (on_message (put_rcpt_status s v)
                  (fun m => match v with
                            | S_TEMPORARY_FAILURE =>
                                mr_put_recipients m (mr_recipients m)
                                  (mr_tempfailed m ++ [sv_current s]) (mr_rejected m)
                            | _ =>
                                mr_put_recipients m (mr_recipients m) (mr_tempfailed m)
                                  (mr_rejected m ++ [sv_current s])
                            end))).
      { apply (G_same s); [reflexivity| |auto|exact H]. destruct v; reflexivity. }
      set (s1 := on_message _ _) in *. clearbody s1.
      destruct (sv_current s).
      - apply (G_same s1); [reflexivity|reflexivity|auto|exact H1].
      - destruct (sv_message s1) as [m|]; [|exact H1].
        destruct (mr_recipients m); [exact H1|now apply crash_G].
    Qed.

    (** An edit of the message: passed on, then recorded. *)
    Lemma edit_G s r f :
      edits r = true -> sv_crashed s = false -> G s ->
      (forall m, of_message (f m) =
         let k := of_message m in
         mk_contents (k_from k) (k_headers k) (k_size k)
           (fold_left put_header (header_added (Forward r)) (k_added k))
           (fold_left put_header (header_removed (Forward r)) (k_removed k))
           (k_quarantine k || asks_quarantine (Forward r))) ->
      G (modification react s r (fun s => s) (fun s => on_message s f)).
    Proof.
      intros He Hc H Hf. unfold modification.
      assert (Hinv : G (invalid_state react s)) by (apply emit_G; [reflexivity|exact H]).
      destruct (sv_state s); try exact Hinv.
      destruct (sv_quitted s); [exact H|].
      unfold emit. unfold log. rewrite Hc. destruct H as [H1 H2].
      rewrite (react_edits _ r (sv_trace s)); [|exact He|reflexivity].
      split; [split; [exact I|exact H1]|]. intros _.
      unfold held. cbn [sv_message on_message put_message put_trace sv_trace].
      rewrite Hf. fold (held s). rewrite (H2 Hc).
      rewrite contents_cons by reflexivity. cbn [header_given bytes_given fold_left].
      rewrite N.add_0_r. unfold contents_of. cbn [k_from k_headers k_size k_added k_removed k_quarantine].
      now rewrite N.mod_mod by discriminate.
    Qed.

    Lemma plain_G s r before :
      edits r = false -> (forall s, G s -> G (before s)) ->
      G s -> G (modification react s r before (fun s => s)).
    Proof.
      intros He Hb H. unfold modification, invalid_state.
      destruct (sv_state s); try (apply emit_G; [reflexivity|exact H]).
      destruct (sv_quitted s); [exact H|]. apply emit_G; [cbn [silent]; now rewrite He|auto].
    Qed.

    Lemma receive_G s r :
      sv_crashed s = false -> G s ->
      G (receive ntop4 ntop6 sort_keys writes react (log s (In (Receive r))) r).
    Proof.
      intros Hc H.
      assert (H0 : G (log s (In (Receive r)))) by (apply log_G; [reflexivity|exact H]).
      assert (Hc0 : sv_crashed (log s (In (Receive r))) = false) by (rewrite log_keeps_crashed; exact Hc).
      remember (log s (In (Receive r))) as s0 eqn:E0. clear E0.
      assert (Hf : forall e, silent e = true -> G (emit react (disable_timeout s0) e))
        by (intros e He; apply emit_G; [exact He|exact H0]).
      destruct r; cbn [receive];
        try (apply edit_G; [reflexivity|exact Hc0|exact H0|
               intros m; cbn [header_added header_removed asks_quarantine fold_left];
               rewrite ?orb_false_r, ?orb_true_r; reflexivity]);
        try (apply plain_G; [reflexivity|intros s' Hs'; exact Hs'|exact H0]).
      - destruct (match sv_option _ with Some _ => _ | None => _ end) as [[] o'].
        + assert (Hi : G (invalid_state react (put_option (disable_timeout s0) (Some o'))))
            by (apply emit_G; [reflexivity|exact H0]).
          destruct (sv_state s0); try exact Hi.
          destruct (sv_quitted _); [exact H0|]. apply emit_G; [reflexivity|exact H0].
        + apply emit_G; [reflexivity|exact H0].
      - cbn zeta.
        assert (Ho : forall x, G (if answerable x then
                  if sv_quitted (disable_timeout s0) then disable_timeout s0
                  else match sv_state (emit react (disable_timeout s0) (Forward RContinue)) with
                       | XEndOfMessage =>
                           emit_processed react (emit react (disable_timeout s0) (Forward RContinue))
                       | _ => emit react (disable_timeout s0) (Forward RContinue)
                       end
                 else invalid_state react (disable_timeout s0))).
        { intros x. destruct (answerable x); [|now apply Hf].
          destruct (sv_quitted _); [exact H0|].
          specialize (Hf (Forward RContinue) eq_refl).
          destruct (sv_state (emit _ _ _)); try exact Hf. now apply emit_processed_G. }
        destruct (sv_state (disable_timeout s0)); try (apply Ho).
        destruct (sv_quitted _); [exact H0|].
        assert (Hd : G (decrement_body_count react (disable_timeout s0))).
        { unfold decrement_body_count. destruct (sv_queue _) as [|n q]; [exact H0|].
          destruct (n =? 1); [|exact H0]. apply emit_G; [reflexivity|exact H0]. }
        destruct (sv_body _); [exact Hd|]. now apply flush_body_G.
      - match goal with |- context [refuse s0 ?v] => pose proof (refuse_G s0 v H0) as H1;
          set (s1 := refuse s0 v) in * end. clearbody s1.
        destruct (sv_crashed s1); [exact H1|].
        destruct (answerable _); [|apply emit_G; [reflexivity|exact H1]].
        set (s2 := match sv_state (disable_timeout s1) with
                   | XBody => if sv_quitted (disable_timeout s1) then disable_timeout s1
                              else clear_body_count (disable_timeout s1)
                   | _ => disable_timeout s1
                   end).
        assert (H2 : G s2)
          by (unfold s2; destruct (sv_state _); try exact H1; destruct (sv_quitted _); exact H1).
        cbn zeta. destruct (sv_quitted s2); [exact H2|].
        apply end_message_G, emit_G; [reflexivity|exact H2].
      - pose proof (refuse_G s0 S_TEMPORARY_FAILURE H0) as H1.
        destruct (sv_crashed (refuse _ _)); [exact H1|now apply final_reply_G].
      - pose proof (refuse_G s0 S_REJECT H0) as H1.
        destruct (sv_crashed (refuse _ _)); [exact H1|now apply final_reply_G].
      - now apply final_reply_G.
      - now apply final_reply_G.
      - destruct (sv_quitted _); [exact H0|apply emit_G; [reflexivity|exact H0]].
      - destruct (sv_quitted _); [exact H0|now apply Hf].
      - assert (Hi : G (invalid_state react (disable_timeout s0))) by (now apply Hf).
        destruct (sv_state _); try exact Hi.
        destruct (sv_quitted _); [exact H0|]. exact (Hf (Forward RSkip) eq_refl).
    Qed.

    Lemma step_G s o : G s -> G (step ntop4 ntop6 sort_keys writes stops react s o).
    Proof.
      intros H. unfold step. destruct (sv_crashed s) eqn:Hc; [exact H|].
      destruct o.
      - now apply call_G.
      - apply flushed_G, log_G; [reflexivity|exact H].
      - now apply receive_G.
      - unfold fire. destruct (sv_timer _); [|now apply log_G].
        apply emit_G; [reflexivity|]. apply emit_G; [reflexivity|]. now apply log_G.
    Qed.
  End Step.

  Variable handlers : list event -> option api.
  Hypothesis quiet_edits : forall r t, edits r = true -> handlers (Forward r :: t) = None.
  Hypothesis quiet_reports : forall m t, handlers (Processed m :: t) = None.
  Notation React := (Server.react ntop4 ntop6 sort_keys writes stops handlers).

  Lemma react_crashed depth s : sv_crashed s = true -> React depth s = s.
  Proof. intros H. destruct depth; cbn [Server.react]; [reflexivity|]. now rewrite H. Qed.
  Lemma react_quiet depth s m t : sv_trace s = Processed m :: t -> React depth s = s.
  Proof.
    intros Et. destruct depth as [|d]; cbn [Server.react]; [reflexivity|].
    rewrite Et, quiet_reports. now destruct (sv_crashed s).
  Qed.
  Lemma react_edits depth s r t :
    edits r = true -> sv_trace s = Forward r :: t -> React depth s = s.
  Proof.
    intros He Et. destruct depth as [|d]; cbn [Server.react]; [reflexivity|].
    rewrite Et, quiet_edits by exact He. now destruct (sv_crashed s).
  Qed.
  Lemma react_G depth s : G s -> G (React depth s).
  Proof.
    revert s. induction depth as [|d IH]; intros s H; cbn [Server.react]; [exact H|].
    destruct (sv_crashed s) eqn:Hc; [exact H|]. destruct (handlers (sv_trace s)); [|exact H].
    apply IH, call_G; auto.
    - intros; now apply react_crashed.
    - intros; eapply react_quiet; eassumption.
  Qed.

  Lemma run_reports depth ops :
    reports_ok (sv_trace (server_run ntop4 ntop6 sort_keys writes stops handlers depth server_new ops)).
  Proof.
    cut (G (server_run ntop4 ntop6 sort_keys writes stops handlers depth server_new ops));
      [intros []; auto|].
    assert (H : G server_new) by (split; [exact I|reflexivity]).
    revert H. generalize server_new as s.
    induction ops as [|o ops IH]; intros s H; [exact H|].
    apply IH. unfold server_step. apply step_G; [| | | |exact H].
    - intros; now apply react_G.
    - intros; now apply react_crashed.
    - intros; eapply react_quiet; eassumption.
    - intros; eapply react_edits; eassumption.
  Qed.

  Lemma reports_at later m t : reports_ok (later ++ Processed m :: t) -> of_message m = contents_of t.
  Proof. induction later as [|e l IH]; cbn [app reports_ok]; [intros [H _]; exact H|]. intros [_ H]. auto. Qed.
End Content.
