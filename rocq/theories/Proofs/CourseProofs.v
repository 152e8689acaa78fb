(** What holds in every course of a message (see CourseSpec). *)
From Coq Require Import Lia Permutation.
From Verif.Base Require Import Bytes.
From Verif.Model Require Import Decoder CommandCodec ReplyCodec Status Option Headers Server Children.
From Verif.Spec Require Import HeaderSpec ManagerSpec MessageSpec CourseSpec.
Local Open Scope N_scope.

Scheme ends_mut := Minimality for ends Sort Prop with rest_mut := Minimality for rest Sort Prop.
Combined Scheme ends_rest_ind from ends_mut, rest_mut.

(** *** Answers *)

Definition answers (es : list event) : list event := filter is_answer es.

Lemma answers_app a b : answers (a ++ b) = answers a ++ answers b.
Proof. apply filter_app. Qed.
Lemma answers_sent k cs : answers (sent k cs) = [].
Proof. unfold sent. induction cs as [|c cs IH]; [reflexivity|exact IH]. Qed.
Lemma answers_aborts total early stay : answers (aborts total early stay) = [].
Proof.
  unfold aborts. generalize (filter (fun i => existsb (Nat.eqb i) stay || early i) (seq 0 total)).
  intros l. induction l as [|i l IH]; [reflexivity|exact IH].
Qed.
Lemma answers_edits convert again rs c es c' : edits convert again rs c es c' -> answers es = [].
Proof. induction 1; auto. Qed.
Lemma answers_ignored rs es : ignored rs es -> answers es = [].
Proof. induction 1; auto. Qed.
Lemma answers_works k c es c' : works k c es c' -> answers es = [].
Proof.
  unfold works. destruct (wk_evaluated k).
  - intros (H & _). exact (answers_ignored _ _ H).
  - apply answers_edits.
Qed.
Lemma answers_changes size original c es : changes size original c es -> answers es = [].
Proof.
  intros (chunks & requests & _ & _ & ->). rewrite !answers_app.
  assert (A : answers (map OReplaceBody chunks) = []) by (induction chunks; auto).
  assert (B : answers (map OHeader requests) = []) by (induction requests; auto).
  rewrite A, B. destruct (c_from c) as [[f p]|]; destruct (c_quarantine c); reflexivity.
Qed.

Definition nays (ops : list op) : bool := existsb says_no ops.
Lemma nays_app a b : nays (a ++ b) = nays a || nays b.
Proof. apply existsb_app. Qed.
Lemma nays_goes_on k n : nays (goes_on_times k n) = false.
Proof. unfold goes_on_times. induction n as [|n IH]; [reflexivity|]. cbn. exact IH. Qed.
Lemma nays_edits convert again rs c es c' i : edits convert again rs c es c' -> nays (map (KReply i) rs) = false.
Proof. induction 1; auto. Qed.
Lemma nays_ignored rs es i : ignored rs es -> nays (map (KReply i) rs) = false.
Proof. induction 1 as [| |r rs es E _ IH]; auto. destruct r; try discriminate E; exact IH. Qed.
Lemma nays_works k c es c' i : works k c es c' -> nays (map (KReply i) (wk_requests k)) = false.
Proof.
  unfold works. destruct (wk_evaluated k).
  - intros (H & _). exact (nays_ignored _ _ _ H).
  - apply nays_edits.
Qed.
Lemma refusal_is clean r e : refusal clean r = Some e ->
  is_answer e = true /\ lets_pass e = false /\ forall i, says_no (KReply i r) = true.
Proof.
  unfold refusal. destruct r; try discriminate; try (destruct clean; [|discriminate]).
  1: destruct ((400 <=? code) && (code <? 600)); [|discriminate].
  all: intros [= <-]; auto.
Qed.

(** One answer per command; the last one says no exactly if some filter does. *)
Definition settled (ops : list op) (es : list event) : Prop :=
  exists e, answers es = [e] /\ lets_pass e = negb (nays ops).

Section Course.
  Variables (size : N) (total : nat) (early : nat -> bool) (fresh : list sstate) (clean : bool).
  Variable final : list header -> content -> list event.
  Hypothesis Hfinal : forall original c, changes size original c (final original c).

  Let final_none original c : answers (final original c) = [].
  Proof. exact (answers_changes _ _ _ _ (Hfinal original c)). Qed.

  Lemma heard_settled x hs body said k ks cmds ops es result :
    heard size total early fresh clean x hs body said k ks cmds ops es result -> settled ops es.
  Proof.
    induction 1 as [said k ks cmds|said k k' ks before c after chunks ops es result Hb Hc _ IH
                   |said k before c after F N|said k ks before c after r e E R F]; unfold settled.
    - exists (OAnswer S_CONTINUE). rewrite answers_app, answers_sent, nays_goes_on. auto.
    - destruct IH as (e & A & P). exists e. rewrite answers_app, answers_sent, !nays_app, nays_goes_on.
      auto.
    - exists (OAnswer S_ACCEPT). rewrite answers_app, answers_sent, nays_app, nays_goes_on. auto.
    - destruct (refusal_is _ _ _ R) as (A & P & S). exists e.
      rewrite answers_app, answers_sent, nays_app, nays_goes_on. unfold answers at 1. cbn [filter app].
      rewrite A. fold (answers (aborts total early (map wk_filter ks))). rewrite answers_aborts.
      split; [reflexivity|]. unfold replies, nays. cbn [existsb]. rewrite S, P. reflexivity.
  Qed.

  Lemma ends_rest_settled original :
    (forall said stay k ks c cmds ops es,
       ends size total early fresh clean final original said stay k ks c cmds ops es -> settled ops es) /\
    (forall said stay ks c ops es,
       rest size total early fresh clean final original said stay ks c ops es -> settled ops es).
  Proof.
    apply (ends_rest_ind size total early fresh clean final original
             (fun _ _ _ _ _ _ ops es => settled ops es) (fun _ _ _ _ ops es => settled ops es)).
    - intros said stay k ks c cmds es c' ops es' W _ (e & A & P). exists e.
      rewrite !answers_app, answers_sent, (answers_works _ _ _ _ W), !nays_app, nays_goes_on, A, P.
      split; [reflexivity|]. unfold last_answer. f_equal. change (nays ops = nays (KFlushed (wk_filter k) ::
        map (KReply (wk_filter k)) (wk_requests k) ++ [KReply (wk_filter k) RContinue]) || nays ops).
      unfold nays at 2. cbn [existsb says_no orb].
      fold (nays (map (KReply (wk_filter k)) (wk_requests k) ++ [KReply (wk_filter k) RContinue])).
      rewrite nays_app, (nays_works _ _ _ _ _ W). reflexivity.
    - intros said stay k ks c before last es c' ops es' W _ (e & A & P). exists e.
      rewrite !answers_app, answers_sent, (answers_works _ _ _ _ W), !nays_app, nays_goes_on, A, P.
      split; [reflexivity|]. f_equal.
      unfold nays at 2. cbn [existsb says_no orb].
      fold (nays (map (KReply (wk_filter k)) (wk_requests k) ++ [KReply (wk_filter k) RAccept])).
      rewrite nays_app, (nays_works _ _ _ _ _ W). reflexivity.
    - intros said stay k ks c before cmd after ops es _ _ (e & A & P). exists e.
      rewrite !answers_app, answers_sent, !nays_app, nays_goes_on, A, P. auto.
    - intros said stay k ks c before cmd after r e _ _ R _. exists e.
      destruct (refusal_is _ _ _ R) as (A & P & S).
      rewrite answers_app, answers_sent, nays_app, nays_goes_on. unfold answers at 1. cbn [filter app].
      rewrite A. fold (answers (aborts total early (stay ++ map wk_filter ks))). rewrite answers_aborts.
      split; [reflexivity|]. unfold replies, nays. cbn [existsb]. rewrite S, P. reflexivity.
    - intros said stay k ks c before last es c' r e W _ R _. exists e.
      destruct (refusal_is _ _ _ R) as (A & P & S).
      rewrite !answers_app, answers_sent, (answers_works _ _ _ _ W), final_none, nays_app, nays_goes_on.
      unfold answers. cbn [filter app].
      rewrite A. fold (answers (aborts total early (stay ++ map wk_filter ks))). rewrite answers_aborts.
      split; [reflexivity|]. unfold nays. cbn [existsb orb says_no]. rewrite existsb_app. cbn [existsb].
      rewrite S, P. cbn [orb]. rewrite orb_true_r. reflexivity.
    - intros said stay c v _ V1 V2. exists (OAnswer v).
      rewrite answers_app, final_none. split; [reflexivity|].
      assert (D : forall a b : sstate, {a = b} + {a <> b}) by decide equality.
      destruct (List.In_dec D XEndOfMessage said) as [I|I];
        [rewrite (V1 I)|rewrite (V2 I)]; reflexivity.
    - intros said stay k ks c chunks ops es _ _ _ _ H. exact H.
  Qed.

  Lemma course_answers said x hs body k ks cs ops es :
    course size total early fresh clean final said x hs body k ks cs ops es ->
    length (answers es) = length cs.
  Proof.
    induction 1 as [| said x hs body k ks c x' hs' body' cs ops es k' ks' said' ops' es' _ H _ IH
                   | said x hs body k ks c x' hs' body' ops es _ H | said hs body k ks ops es H].
    - reflexivity.
    - destruct (heard_settled _ _ _ _ _ _ _ _ _ _ H) as (e & A & _).
      rewrite answers_app, app_length, A, IH. reflexivity.
    - destruct (heard_settled _ _ _ _ _ _ _ _ _ _ H) as (e & A & _). rewrite A. reflexivity.
    - destruct (proj1 (ends_rest_settled _) _ _ _ _ _ _ _ _ H) as (e & A & _). rewrite A. reflexivity.
  Qed.

  (** Going on means that nobody has said no. *)
  Lemma heard_nays x hs body said k ks cmds ops es more :
    heard size total early fresh clean x hs body said k ks cmds ops es (Some more) -> nays ops = false.
  Proof.
    intros H. remember (Some more) as result eqn:E. revert more E.
    induction H as [said k ks cmds|said k k' ks before c after chunks ops es result Hb Hc _ IH
                   |said k before c after F N|said k ks before c after r e E R F]; intros more Er.
    - apply nays_goes_on.
    - rewrite !nays_app, nays_goes_on, (IH more Er). reflexivity.
    - discriminate.
    - discriminate.
  Qed.

  Lemma course_verdict said x hs body k ks cs ops es :
    course size total early fresh clean final said x hs body k ks cs ops es ->
    (nays ops = false -> forallb lets_pass (answers es) = true) /\
    (nays ops = true -> exists e, answers es = removelast (answers es) ++ [e] /\ lets_pass e = false /\
                                  forallb lets_pass (removelast (answers es)) = true).
  Proof.
    induction 1 as [| said x hs body k ks c x' hs' body' cs ops es k' ks' said' ops' es' _ H _ IH
                   | said x hs body k ks c x' hs' body' ops es _ H | said hs body k ks ops es H].
    - split; [reflexivity|discriminate].
    - destruct (heard_settled _ _ _ _ _ _ _ _ _ _ H) as (e & A & P).
      pose proof (heard_nays _ _ _ _ _ _ _ _ _ _ H) as N. rewrite N in P.
      change (nays (Mta c :: ops ++ ops')) with (nays (ops ++ ops')).
      rewrite nays_app, answers_app, A, N. cbn [orb app].
      destruct IH as (IH1 & IH2). split.
      + intros N'. cbn [forallb]. rewrite P. exact (IH1 N').
      + intros N'. destruct (IH2 N') as (e' & E & Pe & F). exists e'.
        destruct (answers es') as [|a l]; [destruct (removelast []); discriminate E|].
        change (removelast (e :: a :: l)) with (e :: removelast (a :: l)).
        cbn [app forallb]. rewrite <- E, P. auto.
    - destruct (heard_settled _ _ _ _ _ _ _ _ _ _ H) as (e & A & P).
      change (nays (Mta c :: ops)) with (nays ops). rewrite A. cbn [removelast forallb app].
      split; intros E; [rewrite P, E; reflexivity|]. exists e. rewrite P, E. auto.
    - destruct (proj1 (ends_rest_settled _) _ _ _ _ _ _ _ _ H) as (e & A & P).
      change (nays (Mta (CEndOfMessage None) :: ops)) with (nays ops). rewrite A. cbn [removelast forallb app].
      split; intros E; [rewrite P, E; reflexivity|]. exists e. rewrite P, E. auto.
  Qed.
End Course.

(** *** Order *)

Definition last_of (p : option command) (cs : list command) : option command :=
  fold_left (fun _ c => Some c) cs p.
Lemma last_of_app p a b : last_of p (a ++ b) = last_of (last_of p a) b.
Proof. apply fold_left_app. Qed.
Lemma in_order_app p a b : in_order p (a ++ b) = in_order p a && in_order (last_of p a) b.
Proof.
  revert p. induction a as [|c a IH]; intros p; [reflexivity|].
  cbn [app in_order]. rewrite IH, andb_assoc. reflexivity.
Qed.
Lemma in_order_prefix p a b : in_order p (a ++ b) = true -> in_order p a = true.
Proof. rewrite in_order_app. intros H. apply andb_true_iff in H as (H & _). exact H. Qed.

Lemma sent_to_app i a b : sent_to i (a ++ b) = sent_to i a ++ sent_to i b.
Proof. apply flat_map_app. Qed.
Lemma sent_to_self k cs : sent_to (wk_filter k) (sent k cs) = cs.
Proof.
  unfold sent, sent_to. induction cs as [|c cs IH]; [reflexivity|].
  cbn [map flat_map]. rewrite Nat.eqb_refl, IH. reflexivity.
Qed.
Lemma sent_to_other i k cs : i <> wk_filter k -> sent_to i (sent k cs) = [].
Proof.
  intros D. unfold sent, sent_to. induction cs as [|c cs IH]; [reflexivity|].
  cbn [map flat_map]. rewrite (proj2 (Nat.eqb_neq _ _) D), IH. reflexivity.
Qed.
Lemma sent_to_edits i convert again rs c es c' : edits convert again rs c es c' -> sent_to i es = [].
Proof. induction 1; auto. Qed.
Lemma sent_to_ignored i rs es : ignored rs es -> sent_to i es = [].
Proof. induction 1; auto. Qed.
Lemma sent_to_works i k c es c' : works k c es c' -> sent_to i es = [].
Proof.
  unfold works. destruct (wk_evaluated k).
  - intros (H & _). exact (sent_to_ignored _ _ _ H).
  - apply sent_to_edits.
Qed.
Lemma sent_to_changes i size original c es : changes size original c es -> sent_to i es = [].
Proof.
  intros (chunks & requests & _ & _ & ->). rewrite !sent_to_app.
  assert (A : sent_to i (map OReplaceBody chunks) = []) by (induction chunks; auto).
  assert (B : sent_to i (map OHeader requests) = []) by (induction requests; auto).
  rewrite A, B. destruct (c_from c) as [[f p]|]; destruct (c_quarantine c); reflexivity.
Qed.
Lemma sent_to_refusal i clean r e es : refusal clean r = Some e -> sent_to i (e :: es) = sent_to i es.
Proof.
  intros R. destruct (refusal_is _ _ _ R) as (A & _). destruct e; try discriminate A; reflexivity.
Qed.
Lemma sent_to_aborts i total early stay :
  sent_to i (aborts total early stay) = [] \/
  sent_to i (aborts total early stay) = [CAbort] /\ (List.In i stay \/ early i = true).
Proof.
  unfold aborts. pose proof (seq_NoDup total 0) as D. revert D. generalize (seq 0 total) as l.
  induction l as [|j l IH]; intros D; [left; reflexivity|].
  apply NoDup_cons_iff in D as (Dj & D). cbn [filter].
  destruct (existsb (Nat.eqb j) stay || early j) eqn:E; [|exact (IH D)].
  cbn [map]. unfold sent_to. cbn [flat_map]. destruct (Nat.eqb_spec i j) as [<-|N]; [|exact (IH D)].
  right. split.
  - assert (Z : forall m, ~ List.In i m -> flat_map (fun e => match e with OSent j c => if Nat.eqb i j then [c] else [] | _ => [] end)
               (map (fun j => OSent j CAbort) m) = []).
    { induction m as [|a m IHm]; intros Hm; [reflexivity|]. cbn [map flat_map].
      rewrite (proj2 (Nat.eqb_neq i a)); [|intros ->; apply Hm; left; reflexivity].
      apply IHm. intros Hi. apply Hm. right. exact Hi. }
    rewrite Z; [reflexivity|]. intros Hi. apply filter_In in Hi as (Hi & _). exact (Dj Hi).
  - apply orb_true_iff in E as [E|E]; [left|right; exact E].
    apply existsb_exists in E as (b & Hb & Eb). apply Nat.eqb_eq in Eb as ->. exact Hb.
Qed.

(** Where a filter in front is when the MTA has sent everything up to a stage. *)
Definition at_stage (x : sstate) (p : option command) : Prop :=
  match x, p with
  | XData, None | XHeader, Some (CHeader _ _) | XEndOfHeader, Some CEndOfHeader
  | XBody, Some (CBody _) => True
  | _, _ => False
  end.
Lemma in_order_headers convert hs p : hs <> [] -> p = None ->
  let cs := map (fun h => CHeader (h_name h) (shown convert (h_value h))) hs in
  in_order p cs = true /\ at_stage XHeader (last_of p cs).
Proof.
  intros N ->. destruct hs as [|h hs]; [contradiction|]. clear N. cbv zeta. cbn [map in_order may_follow andb last_of fold_left].
  generalize (h_name h) (shown convert (h_value h)). clear h.
  induction hs as [|h hs IH]; intros n v; [split; [reflexivity|exact I]|].
  cbn [map in_order may_follow andb fold_left]. apply IH.
Qed.
Lemma in_order_chunks chunks p : p = Some CEndOfHeader -> in_order p (map CBody chunks) = true /\
  (chunks <> [] -> at_stage XBody (last_of p (map CBody chunks))) /\
  (chunks = [] -> last_of p (map CBody chunks) = p).
Proof.
  intros ->. destruct chunks as [|b chunks]; [split; [reflexivity|]; split; [contradiction|reflexivity]|].
  cbn [map in_order may_follow andb last_of fold_left].
  assert (G : in_order (Some (CBody b)) (map CBody chunks) = true /\
              at_stage XBody (fold_left (fun _ c => Some c) (map CBody chunks) (Some (CBody b)))).
  { revert b. induction chunks as [|a chunks IH]; intros b; [split; [reflexivity|exact I]|].
    cbn [map in_order may_follow andb fold_left]. apply IH. }
  destruct G as (G1 & G2). split; [exact G1|]. split; [intros _; exact G2|discriminate].
Qed.
Lemma chunked_some size body chunks : chunked size body chunks -> body <> [] -> chunks <> [].
Proof. intros H N. destruct H; congruence. Qed.
Lemma handed_order convert x hs chunks : hs <> [] -> (x = XBody -> chunks <> []) ->
  x = XHeader \/ x = XEndOfHeader \/ x = XBody ->
  in_order None (handed convert x hs chunks) = true /\ at_stage x (last_of None (handed convert x hs chunks)).
Proof.
  intros N C X. unfold handed. rewrite in_order_app, last_of_app.
  destruct (in_order_headers convert hs None N eq_refl) as (O & A). rewrite O.
  set (p := last_of None _) in *. destruct p as [[]|]; try contradiction A.
  destruct X as [->|[->| ->]]; [split; [reflexivity|exact I]|split; [reflexivity|exact I]|].
  destruct (in_order_chunks chunks _ eq_refl) as (O' & A' & _).
  cbn [in_order may_follow andb]. rewrite O'. split; [reflexivity|]. exact (A' (C eq_refl)).
Qed.
Lemma commands_order convert hs chunks : hs <> [] ->
  in_order None (commands convert hs chunks) = true /\
  last_of None (commands convert hs chunks) = Some (CEndOfMessage None).
Proof.
  intros N. unfold commands. rewrite in_order_app, last_of_app.
  destruct (in_order_headers convert hs None N eq_refl) as (O & A). rewrite O.
  set (p := last_of None _) in *. destruct p as [[]|]; try contradiction A.
  destruct (in_order_chunks chunks _ eq_refl) as (O' & A1 & A2).
  cbn [in_order may_follow andb]. rewrite in_order_app, O'.
  change (last_of (Some (CHeader _ _)) (CEndOfHeader :: _)) with
    (last_of (Some CEndOfHeader) (map CBody chunks ++ [CEndOfMessage None])).
  rewrite last_of_app. split; [|reflexivity]. cbn [andb in_order].
  destruct chunks as [|b chunks].
  - reflexivity.
  - specialize (A1 ltac:(discriminate)). destruct (last_of _ (map CBody (b :: chunks))) as [[]|]; try contradiction A1.
    reflexivity.
Qed.

(** What a filter was given before: [i] is in front, or waits, or is through and takes part, or is
    out of it. *)
Record place (early : nat -> bool) (stay : list nat) (k : nat) (ks : list nat) (front : option command -> Prop)
             (i : nat) (p : option command) : Prop := {
  place_front : i = k -> front p;
  place_behind : List.In i ks -> p = None;
  place_stay : List.In i stay -> exists chunk, p = Some (CEndOfMessage chunk);
  place_early : early i = true -> p = None
}.

Section Order.
  Variables (size : N) (total : nat) (early : nat -> bool) (fresh : list sstate) (clean : bool).
  Variable final : list header -> content -> list event.
  Hypothesis Hfinal : forall original c, changes size original c (final original c).
  Let final_none i original c : sent_to i (final original c) = [].
  Proof. exact (sent_to_changes _ _ _ _ _ (Hfinal original c)). Qed.

  Lemma aborts_order i p stay :
    (List.In i stay -> p = None \/ exists chunk, p = Some (CEndOfMessage chunk)) ->
    (early i = true -> p = None) ->
    in_order p (sent_to i (aborts total early stay)) = true.
  Proof.
    intros S E. destruct (sent_to_aborts i total early stay) as [->|(-> & [H|H])]; [reflexivity| |].
    - destruct (S H) as [->|(chunk & ->)]; reflexivity.
    - rewrite (E H). reflexivity.
  Qed.

  Definition distinct (l : list nat) : Prop := NoDup l /\ Forall (fun i => early i = false) l.

  Lemma heard_order i x hs body said k ks cmds ops es result p :
    heard size total early fresh clean x hs body said k ks cmds ops es result ->
    distinct (wk_filter k :: map wk_filter ks) ->
    hs <> [] -> x = XHeader \/ x = XEndOfHeader \/ x = XBody ->
    place early [] (wk_filter k) (map wk_filter ks)
          (fun p => in_order p cmds = true /\ at_stage x (last_of p cmds)) i p ->
    in_order p (sent_to i es) = true /\
    match result with
    | None => True
    | Some (k', ks', _) =>
        distinct (wk_filter k' :: map wk_filter ks') /\
        place early [] (wk_filter k') (map wk_filter ks') (at_stage x) i (last_of p (sent_to i es))
    end.
  Proof.
    intros H. revert p.
    induction H as [said k ks cmds|said k k' ks before c after chunks ops es result Hb Hc _ IH
                   |said k before c after F N|said k ks before c after r e E R F]; intros p D Hh Hx P.
    - rewrite sent_to_app. cbn [sent_to flat_map]. rewrite app_nil_r. fold (sent_to i (sent k cmds)).
      destruct (Nat.eq_dec i (wk_filter k)) as [->|Ni].
      + rewrite sent_to_self. destruct (place_front _ _ _ _ _ _ _ P eq_refl) as (O & A).
        split; [exact O|]. split; [exact D|]. destruct D as (D1 & D2). constructor.
        * intros _. exact A.
        * intros B. apply NoDup_cons_iff in D1 as (D1 & _). contradiction.
        * intros [].
        * intros B. apply Forall_cons_iff in D2 as (D2 & _). congruence.
      + rewrite (sent_to_other _ _ _ Ni). split; [reflexivity|]. split; [exact D|]. destruct P. constructor; auto.
        intros ->. contradiction.
    - rewrite sent_to_app.
      assert (D' : distinct (wk_filter k' :: map wk_filter ks)).
      { destruct D as (D1 & D2). apply NoDup_cons_iff in D1 as (_ & D1). apply Forall_cons_iff in D2 as (_ & D2). split; assumption. }
      destruct (handed_order (wk_convert k') x hs chunks Hh (fun X => chunked_some _ _ _ Hc (Hb X)) Hx) as (O' & A').
      destruct (Nat.eq_dec i (wk_filter k)) as [->|Ni].
      + rewrite sent_to_self. destruct (place_front _ _ _ _ _ _ _ P eq_refl) as (O & _).
        rewrite <- (app_nil_l after) in O. change (c :: [] ++ after) with ([c] ++ after) in O. rewrite app_assoc in O.
        apply in_order_prefix in O.
        rewrite in_order_app, O, (last_of_app p (before ++ [c]) (sent_to (wk_filter k) es)).
        destruct D as (D1 & D2). apply NoDup_cons_iff in D1 as (D1 & _). apply Forall_cons_iff in D2 as (D2 & _).
        cbn [andb]. apply IH; auto. constructor.
        * intros Ek. exfalso. apply D1. left. congruence.
        * intros B. exfalso. apply D1. right. exact B.
        * intros [].
        * congruence.
      + rewrite (sent_to_other _ _ _ Ni). cbn [app]. apply IH; auto. destruct P as [P1 P2 P3 P4]. constructor; auto.
        * intros ->. rewrite (P2 (or_introl eq_refl)). auto.
        * intros B. apply P2. right. exact B.
    - rewrite sent_to_app. cbn [sent_to flat_map]. rewrite app_nil_r. fold (sent_to i (sent k (before ++ [c]))).
      split; [|exact I]. destruct (Nat.eq_dec i (wk_filter k)) as [->|Ni].
      + rewrite sent_to_self. destruct (place_front _ _ _ _ _ _ _ P eq_refl) as (O & _).
        change (c :: after) with ([c] ++ after) in O. rewrite app_assoc in O. exact (in_order_prefix _ _ _ O).
      + rewrite (sent_to_other _ _ _ Ni). reflexivity.
    - rewrite sent_to_app, (sent_to_refusal i clean r e _ R).
      split; [|exact I]. destruct (Nat.eq_dec i (wk_filter k)) as [->|Ni].
      + rewrite sent_to_self. destruct (place_front _ _ _ _ _ _ _ P eq_refl) as (O & _).
        change (c :: after) with ([c] ++ after) in O. rewrite app_assoc in O. apply in_order_prefix in O.
        rewrite in_order_app, O. destruct D as (D1 & D2).
        apply NoDup_cons_iff in D1 as (D1 & _). apply Forall_cons_iff in D2 as (D2 & _).
        apply aborts_order; [contradiction|congruence].
      + rewrite (sent_to_other _ _ _ Ni). destruct P as [P1 P2 P3 P4]. apply aborts_order; auto.
  Qed.

  Lemma ends_rest_order i original :
    (forall said stay k ks c cmds ops es,
       ends size total early fresh clean final original said stay k ks c cmds ops es -> forall p,
       distinct (stay ++ wk_filter k :: map wk_filter ks) ->
       place early stay (wk_filter k) (map wk_filter ks)
             (fun p => in_order p cmds = true /\ last_of p cmds = Some (CEndOfMessage None)) i p ->
       in_order p (sent_to i es) = true) /\
    (forall said stay ks c ops es,
       rest size total early fresh clean final original said stay ks c ops es -> forall p,
       distinct (stay ++ map wk_filter ks) ->
       (List.In i (map wk_filter ks) -> p = None) ->
       (List.In i stay -> exists chunk, p = Some (CEndOfMessage chunk)) ->
       (early i = true -> p = None) ->
       in_order p (sent_to i es) = true).
  Proof.
    apply (ends_rest_ind size total early fresh clean final original
      (fun said stay k ks c cmds ops es => forall p,
         distinct (stay ++ wk_filter k :: map wk_filter ks) ->
         place early stay (wk_filter k) (map wk_filter ks)
               (fun p => in_order p cmds = true /\ last_of p cmds = Some (CEndOfMessage None)) i p ->
         in_order p (sent_to i es) = true)
      (fun said stay ks c ops es => forall p,
         distinct (stay ++ map wk_filter ks) ->
         (List.In i (map wk_filter ks) -> p = None) ->
         (List.In i stay -> exists chunk, p = Some (CEndOfMessage chunk)) ->
         (early i = true -> p = None) ->
         in_order p (sent_to i es) = true)).
    - intros said stay k ks c cmds es c' ops es' W _ IH p (D1 & D2) P. destruct P as [P1 P2 P3 P4].
      rewrite !sent_to_app, (sent_to_works i _ _ _ _ W). cbn [app].
      assert (D' : distinct ((stay ++ [wk_filter k]) ++ map wk_filter ks))
        by (rewrite <- app_assoc; split; assumption).
      pose proof (NoDup_remove_2 _ _ _ D1) as Nk. rewrite in_app_iff in Nk.
      destruct (Nat.eq_dec i (wk_filter k)) as [Ei|Ni].
      + rewrite Ei in *. rewrite sent_to_self. destruct (P1 eq_refl) as (O & L). rewrite in_order_app, O, L. cbn [andb].
        apply IH; auto.
        * intros B. exfalso. apply Nk. right. exact B.
        * intros _. exists None. reflexivity.
        * intros E. apply Forall_app in D2 as (_ & D2). apply Forall_cons_iff in D2 as (D2 & _). congruence.
      + rewrite (sent_to_other _ _ _ Ni). cbn [app]. apply IH; auto.
        intros B. apply in_app_iff in B as [B|[B|[]]]; [exact (P3 B)|congruence].
    - intros said stay k ks c before last es c' ops es' W _ IH p (D1 & D2) P. destruct P as [P1 P2 P3 P4].
      rewrite !sent_to_app, (sent_to_works i _ _ _ _ W). cbn [app].
      pose proof (NoDup_remove_1 _ _ _ D1) as D1'. pose proof (NoDup_remove_2 _ _ _ D1) as Nk. rewrite in_app_iff in Nk.
      apply Forall_app in D2 as (Ds & D2). apply Forall_cons_iff in D2 as (Dk & D2).
      assert (D' : distinct (stay ++ map wk_filter ks)) by (split; [exact D1'|apply Forall_app; split; assumption]).
      destruct (Nat.eq_dec i (wk_filter k)) as [Ei|Ni].
      + rewrite Ei in *. rewrite sent_to_self. destruct (P1 eq_refl) as (O & L). rewrite in_order_app, O. cbn [andb].
        apply IH; auto; [| |congruence]; intros B; exfalso; apply Nk; auto.
      + rewrite (sent_to_other _ _ _ Ni). cbn [app]. apply IH; auto.
    - intros said stay k ks c before cmd after ops es Na _ IH p (D1 & D2) P. destruct P as [P1 P2 P3 P4].
      rewrite !sent_to_app.
      pose proof (NoDup_remove_1 _ _ _ D1) as D1'. pose proof (NoDup_remove_2 _ _ _ D1) as Nk. rewrite in_app_iff in Nk.
      apply Forall_app in D2 as (Ds & D2). apply Forall_cons_iff in D2 as (Dk & D2).
      assert (D' : distinct (stay ++ map wk_filter ks)) by (split; [exact D1'|apply Forall_app; split; assumption]).
      destruct (Nat.eq_dec i (wk_filter k)) as [Ei|Ni].
      + rewrite Ei in *. rewrite sent_to_self. destruct (P1 eq_refl) as (O & _).
        change (cmd :: after) with ([cmd] ++ after) in O. rewrite app_assoc in O. apply in_order_prefix in O.
        rewrite in_order_app, O. cbn [andb].
        apply IH; auto; [| |congruence]; intros B; exfalso; apply Nk; auto.
      + rewrite (sent_to_other _ _ _ Ni). cbn [app]. apply IH; auto.
    - intros said stay k ks c before cmd after r e Na _ R _ p (D1 & D2) P. destruct P as [P1 P2 P3 P4].
      rewrite sent_to_app, (sent_to_refusal i clean r e _ R).
      pose proof (NoDup_remove_2 _ _ _ D1) as Nk.
      apply Forall_app in D2 as (Ds & D2). apply Forall_cons_iff in D2 as (Dk & D2).
      destruct (Nat.eq_dec i (wk_filter k)) as [Ei|Ni].
      + rewrite Ei in *. rewrite sent_to_self. destruct (P1 eq_refl) as (O & _).
        change (cmd :: after) with ([cmd] ++ after) in O. rewrite app_assoc in O. apply in_order_prefix in O.
        rewrite in_order_app, O. apply aborts_order; [contradiction|congruence].
      + rewrite (sent_to_other _ _ _ Ni). apply aborts_order; auto.
        intros B. apply in_app_iff in B as [B|B]; [right; exact (P3 B)|left; exact (P2 B)].
    - intros said stay k ks c before last es c' r e W _ R _ p (D1 & D2) P. destruct P as [P1 P2 P3 P4].
      rewrite !sent_to_app, (sent_to_works i _ _ _ _ W), final_none, (sent_to_refusal i clean r e _ R). cbn [app].
      pose proof (NoDup_remove_2 _ _ _ D1) as Nk.
      apply Forall_app in D2 as (Ds & D2). apply Forall_cons_iff in D2 as (Dk & D2).
      destruct (Nat.eq_dec i (wk_filter k)) as [Ei|Ni].
      + rewrite Ei in *. rewrite sent_to_self. destruct (P1 eq_refl) as (O & _).
        rewrite in_order_app, O. apply aborts_order; [contradiction|congruence].
      + rewrite (sent_to_other _ _ _ Ni). apply aborts_order; auto.
        intros B. apply in_app_iff in B as [B|B]; [right; exact (P3 B)|left; exact (P2 B)].
    - intros said stay c v _ _ _ p _ _ _ _. rewrite sent_to_app, final_none. reflexivity.
    - intros said stay k ks c chunks ops es Hh Hb Hc _ IH p D P1 P2 P3. apply IH; [exact D|].
      destruct (commands_order (wk_convert k) (c_headers c) chunks Hh) as (O & L).
      constructor; auto.
      + intros Ei. rewrite (P1 (or_introl (eq_sym Ei))). auto.
      + intros B. apply P1. right. exact B.
  Qed.

  Lemma grows_some x hs body c x' hs' body' : grows x hs body c x' hs' body' ->
    (x = XData \/ hs <> []) -> hs' <> [] /\ (x' = XHeader \/ x' = XEndOfHeader \/ x' = XBody).
  Proof.
    intros G. destruct G as [x hs n v X|hs|x hs body b X B]; intros H; split; auto.
    - intros E. apply app_eq_nil in E as (_ & E). discriminate E.
    - destruct H as [H|H]; [discriminate H|exact H].
    - destruct H as [H|H]; [destruct X as [X|X]; congruence|exact H].
  Qed.
  Lemma grows_order convert x hs body c x' hs' body' p : grows x hs body c x' hs' body' -> at_stage x p ->
    in_order p [shown_command convert c] = true /\ at_stage x' (last_of p [shown_command convert c]).
  Proof.
    intros G A. destruct G as [x hs n v [->| ->]|hs|x hs body b [->| ->] B];
      destruct p as [[]|]; try contradiction A; split; try reflexivity; exact I.
  Qed.

  Lemma course_order i said x hs body k ks cs ops es p :
    course size total early fresh clean final said x hs body k ks cs ops es ->
    distinct (wk_filter k :: map wk_filter ks) ->
    (x = XData \/ hs <> []) ->
    place early [] (wk_filter k) (map wk_filter ks) (at_stage x) i p ->
    in_order p (sent_to i es) = true.
  Proof.
    intros H. revert p.
    induction H as [| said x hs body k ks c x' hs' body' cs ops es k' ks' said' ops' es' G H _ IH
                   | said x hs body k ks c x' hs' body' ops es G H | said hs body k ks ops es H];
      intros p D Hh P.
    - reflexivity.
    - destruct (grows_some _ _ _ _ _ _ _ G Hh) as (Hh' & Hx').
      assert (P' : place early [] (wk_filter k) (map wk_filter ks) (fun p =>
          in_order p [shown_command (wk_convert k) c] = true /\
          at_stage x' (last_of p [shown_command (wk_convert k) c])) i p).
      { destruct P as [P1 P2 P3 P4]. constructor; auto. intros Ei. apply (grows_order _ _ _ _ _ _ _ _ _ G (P1 Ei)). }
      destruct (heard_order i _ _ _ _ _ _ _ _ _ _ p H D Hh' Hx' P') as (O & D' & P'').
      rewrite sent_to_app, in_order_app, O. cbn [andb]. apply IH; auto.
    - destruct (grows_some _ _ _ _ _ _ _ G Hh) as (Hh' & Hx').
      assert (P' : place early [] (wk_filter k) (map wk_filter ks) (fun p =>
          in_order p [shown_command (wk_convert k) c] = true /\
          at_stage x' (last_of p [shown_command (wk_convert k) c])) i p).
      { destruct P as [P1 P2 P3 P4]. constructor; auto. intros Ei. apply (grows_order _ _ _ _ _ _ _ _ _ G (P1 Ei)). }
      destruct (heard_order i _ _ _ _ _ _ _ _ _ _ p H D Hh' Hx' P') as (O & _). exact O.
    - apply (proj1 (ends_rest_order i hs) _ _ _ _ _ _ _ _ H); [exact D|].
      destruct P as [P1 P2 P3 P4]. constructor; auto.
      intros Ei. specialize (P1 Ei). destruct p as [[]|]; try contradiction P1. split; reflexivity.
  Qed.
End Order.
