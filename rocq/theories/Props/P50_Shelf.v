(** The shelf of a mail: C120. *)
From Verif.Base Require Import Bytes BytesFacts.
From Verif.Model Require Import CommandCodec Shelf.
From Verif.Spec Require Import ShelfSpec.
Import List.

Lemma lookup_same t k v : lookup (replace t k v) k = Some v.
Proof. unfold replace. cbn [lookup]. now rewrite bytes_eqb_refl. Qed.
Lemma lookup_other t k k' v : k <> k' -> lookup (replace t k v) k' = lookup t k'.
Proof.
  intros N. unfold replace. cbn [lookup]. replace (bytes_eqb k k') with false by (symmetry; now apply bytes_eqb_neq).
  induction t as [|[q d] t IH]; [reflexivity|]. cbn [filter fst lookup]. destruct (bytes_eqb q k) eqn:E; cbn [negb].
  - apply bytes_eqb_eq in E. subst q. replace (bytes_eqb k k') with false by (symmetry; now apply bytes_eqb_neq). exact IH.
  - cbn [lookup]. now rewrite IH.
Qed.
Section Proofs.
  Variables (V : Type) (dump : V -> bytes) (yaml : bytes -> option V).
  Notation performed := (performed V dump yaml). Notation history := (history V dump yaml). Notation happen := (happen V dump yaml).

  Lemma quiet_lookup l k : quiet l k -> forall t, lookup (performed t l) k = lookup t k.
  Proof.
    induction l as [|a l IH]; intros Q t; [reflexivity|]. unfold Shelf.performed. cbn [fold_left]. fold (performed (fst (perform V dump yaml t a)) l).
    rewrite IH by (intros ch w I; apply (Q ch w); now right). destruct a as [ch q w|ch q|ch]; cbn [perform fst]; try reflexivity.
    apply lookup_other. intros ->. apply (Q ch w). now left.
  Qed.
  Lemma puts_lookup l k v t : puts l k v -> lookup (performed t l) k = Some (dump v).
  Proof.
    intros (l1 & ch & l2 & -> & Q). unfold Shelf.performed. rewrite fold_left_app. cbn [fold_left perform fst].
    fold (performed t l1). fold (performed (replace (performed t l1) k (dump v)) l2). rewrite quiet_lookup by exact Q. apply lookup_same.
  Qed.
  Lemma keeps_lookup i k e w : keeps i k e -> lookup (happen w e i) k = lookup (w i) k.
  Proof.
    destruct e as [[j c] l]. intros [N|[A Q]]; cbn [fst snd Shelf.happen] in *.
    - destruct (Nat.eqb_spec j i); [contradiction|reflexivity].
    - destruct (Nat.eqb_spec j i); [subst j|reflexivity]. unfold receive. destruct c; try (now apply quiet_lookup). now elim A.
  Qed.
  Lemma all_keep i k l : Forall (keeps i k) l -> forall w, lookup (fold_left happen l w i) k = lookup (w i) k.
  Proof. intros F. induction F as [|e l E F IH]; intros w; [reflexivity|]. cbn [fold_left]. rewrite IH. now apply keeps_lookup. Qed.
  Lemma there_lookup l i k v : there l i k v -> lookup (history l i) k = Some (dump v).
  Proof.
    intros (l1 & c & acts & l2 & -> & A & P & F). unfold Shelf.history. rewrite fold_left_app. cbn [fold_left]. rewrite (all_keep _ _ _ F).
    unfold Shelf.happen at 1. rewrite PeanoNat.Nat.eqb_refl. unfold receive. destruct c; try (now apply puts_lookup). now elim A.
  Qed.
  Lemma not_there_lookup l i k : not_there l i k -> lookup (history l i) k = None.
  Proof.
    intros [F|(l1 & acts & l2 & -> & F)]; unfold Shelf.history.
    - now rewrite (all_keep _ _ _ F).
    - rewrite fold_left_app. cbn [fold_left]. rewrite (all_keep _ _ _ F). unfold Shelf.happen at 1. now rewrite PeanoNat.Nat.eqb_refl.
  Qed.
  Lemma replace_keys t k v : NoDup (map fst t) -> NoDup (map fst (replace t k v)).
  Proof.
    intros D. unfold replace. cbn [map fst]. constructor.
    - intros I. apply in_map_iff in I as ([q d] & E & I). apply filter_In in I as [_ I]. cbn [fst] in *. subst q. now rewrite bytes_eqb_refl in I.
    - induction t as [|[q d] t IH]; [constructor|]. cbn [map fst] in D. inversion D as [|x xs N D']; subst. cbn [filter fst].
      destruct (negb (bytes_eqb q k)); [|now apply IH]. cbn [map fst]. constructor; [|now apply IH].
      intros I. apply N. apply in_map_iff in I as (e & E & I). apply filter_In in I as [I _]. apply in_map_iff. now exists e.
  Qed.
  Lemma performed_keys l : forall t, NoDup (map fst t) -> NoDup (map fst (performed t l)).
  Proof.
    induction l as [|a l IH]; intros t D; [exact D|]. unfold Shelf.performed. cbn [fold_left]. apply IH.
    destruct a; cbn [perform fst]; try exact D. now apply replace_keys.
  Qed.
  Lemma history_keys l i : NoDup (map fst (history l i)).
  Proof.
    unfold Shelf.history. assert (G : forall w, (forall j, NoDup (map fst (w j))) -> NoDup (map fst (fold_left happen l w i))); [|apply G; constructor].
    induction l as [|[[j c] acts] l IH]; intros w D; [apply D|]. cbn [fold_left]. apply IH. intros q. cbn [Shelf.happen].
    destruct (Nat.eqb j q); [|apply D]. unfold receive. destruct c; try (apply performed_keys, D). constructor.
  Qed.
  Lemma lookup_in t k d : NoDup (map fst t) -> (lookup t k = Some d <-> In (k, d) t).
  Proof.
    induction t as [|[q x] t IH]; intros D; [cbn [lookup In]; split; [discriminate|contradiction]|].
    cbn [map fst] in D. inversion D as [|y ys N D']; subst. cbn [lookup In]. destruct (bytes_eqb q k) eqn:E.
    - apply bytes_eqb_eq in E. subst q. split; [intros [= ->]; now left|]. intros [I|I]; [now injection I as ->|].
      exfalso. apply N. apply in_map_iff. now exists (k, d).
    - rewrite (IH D'). split; [intros I; now right|]. intros [I|I]; [|exact I]. injection I as -> ->. now rewrite bytes_eqb_refl in E.
  Qed.
  Lemma pairs_in t l : pairs V yaml t = Some l -> map fst l = map fst t /\ forall k v, In (k, v) l <-> exists d, In (k, d) t /\ yaml d = Some v /\ In (k, v) l.
  Proof.
    revert l. induction t as [|[k d] t IH]; intros l; cbn [pairs].
    - intros [= <-]. split; [reflexivity|]. intros k v. split; [intros []|intros (d & [] & _)].
    - destruct (yaml d) as [v|] eqn:Y; [|discriminate]. destruct (pairs V yaml t) as [r|]; [|discriminate]. intros [= <-].
      destruct (IH _ eq_refl) as [K H]. split; [cbn [map fst]; now rewrite K|]. intros q w. split; [|intros (x & _ & _ & I); exact I].
      intros [I|I].
      + injection I as -> ->. exists d. split; [now left|]. split; [exact Y|now left].
      + destruct (proj1 (H q w) I) as (x & A & B & C). exists x. split; [now right|]. split; [exact B|now right].
  Qed.
  Lemma pairs_some t : (forall k d, In (k, d) t -> yaml d <> None) -> exists l, pairs V yaml t = Some l.
  Proof.
    induction t as [|[k d] t IH]; intros H; [now exists []|]. cbn [pairs]. destruct (yaml d) as [v|] eqn:Y; [|now elim (H k d (or_introl eq_refl))].
    destruct IH as [l ->]; [intros q x I; apply (H q x); now right|]. now exists ((k, v) :: l).
  Qed.
  Lemma decided l i k : (exists v, there (V := V) l i k v) \/ not_there l i k.
  Proof.
    induction l as [|[[j c] acts] l IH] using rev_ind; [right; left; constructor|].
    assert (K : keeps i k (j, c, acts) -> (exists v, there (V := V) (l ++ [(j, c, acts)]) i k v) \/ not_there (l ++ [(j, c, acts)]) i k).
    { intros KE. destruct IH as [(v & l1 & c' & a' & l2 & -> & A & P & F)|[F|(l1 & a' & l2 & -> & F)]].
      - left. exists v, l1, c', a', (l2 ++ [(j, c, acts)]). rewrite <- app_assoc. split; [reflexivity|]. split; [exact A|]. split; [exact P|].
        apply Forall_app. split; [exact F|constructor; [exact KE|constructor]].
      - right. left. apply Forall_app. split; [exact F|constructor; [exact KE|constructor]].
      - right. right. exists l1, a', (l2 ++ [(j, c, acts)]). rewrite <- app_assoc. split; [reflexivity|]. apply Forall_app. split; [exact F|constructor; [exact KE|constructor]]. }
    destruct (PeanoNat.Nat.eq_dec j i) as [->|N]; [|apply K; now left].
    assert (C : c = CAbort \/ c <> CAbort) by (destruct c; try (now left); right; discriminate).
    destruct C as [->|C]; [right; right; exists l, acts, []; now split|].
    assert (Q : quiet acts k \/ exists v, puts (V := V) acts k v).
    { clear. induction acts as [|a acts IH] using rev_ind; [left; intros ch w []|].
      assert (D : (exists ch v, a = Put ch k v) \/ forall ch v, a <> Put ch k v).
      { destruct a as [ch q v|ch q|ch]; try (right; discriminate). destruct (bytes_eqb q k) eqn:E.
        - apply bytes_eqb_eq in E. subst q. left. now exists ch, v.
        - right. intros ch' v' [= _ -> _]. now rewrite bytes_eqb_refl in E. }
      destruct D as [(ch & v & ->)|D]; [right; exists v, acts, ch, []; split; [reflexivity|intros ? ? []]|].
      destruct IH as [Q|(v & l1 & ch & l2 & -> & Q)].
      - left. intros ch w I. apply in_app_iff in I as [I|[I|[]]]; [now apply (Q ch w)|now apply (D ch w)].
      - right. exists v, l1, ch, (l2 ++ [a]). rewrite <- app_assoc. split; [reflexivity|]. intros ch' w I.
        apply in_app_iff in I as [I|[I|[]]]; [now apply (Q ch' w)|now apply (D ch' w)]. }
    destruct Q as [Q|(v & P)]; [apply K; right; now split|]. left. exists v, l, c, acts, []. repeat split; try assumption. constructor.
  Qed.
End Proofs.

(** What was put last for a key is read for every child of the session, until something is aborted. *)
Theorem C120_read : forall V dump yaml (l : list (nat * command * list (action V))) i k v child,
  there l i k v -> yaml (dump v) = Some v ->
  perform V dump yaml (history V dump yaml l i) (Get child k) = (history V dump yaml l i, Got v).
Proof. intros * T Y. cbn [perform]. now rewrite (there_lookup _ _ _ _ _ _ _ T), Y. Qed.
Print Assumptions C120_read.

(** Nothing is read for a key nobody put since the start of the session or since the last abort. *)
Theorem C120_nothing : forall V dump yaml (l : list (nat * command * list (action V))) i k child,
  not_there l i k -> perform V dump yaml (history V dump yaml l i) (Get child k) = (history V dump yaml l i, Nothing).
Proof. intros * T. cbn [perform]. now rewrite (not_there_lookup _ _ _ _ _ _ T). Qed.
Print Assumptions C120_nothing.

(** One of the two holds, for every key and session. *)
Theorem C120_either : forall V (l : list (nat * command * list (action V))) i k, (exists v, there l i k v) \/ not_there l i k.
Proof. intros. apply decided. Qed.
Print Assumptions C120_either.

(** Going through the shelf gives every key once, with what was put last for it. *)
Theorem C120_each : forall V dump yaml (l : list (nat * command * list (action V))) i child,
  (forall v, yaml (dump v) = Some v) ->
  exists ps, perform V dump yaml (history V dump yaml l i) (Each child) = (history V dump yaml l i, Pairs ps) /\
    NoDup (map fst ps) /\ forall k v, In (k, v) ps <-> there l i k v.
Proof.
  intros * Y. pose proof (history_keys V dump yaml l i) as D.
  assert (G : forall k d, In (k, d) (history V dump yaml l i) -> exists v, d = dump v /\ there l i k v).
  { intros k d I. apply (lookup_in _ _ _ D) in I. destruct (decided V l i k) as [(v & T)|T].
    - rewrite (there_lookup _ _ _ _ _ _ _ T) in I. injection I as <-. now exists v.
    - rewrite (not_there_lookup _ _ _ _ _ _ T) in I. discriminate. }
  destruct (pairs_some V yaml (history V dump yaml l i)) as [ps P].
  { intros k d I. destruct (G k d I) as (v & -> & _). rewrite Y. discriminate. }
  exists ps. cbn [perform]. rewrite P. destruct (pairs_in _ _ _ _ P) as [K H]. split; [reflexivity|]. split; [now rewrite K|].
  intros k v. split.
  - intros I. destruct (proj1 (H k v) I) as (d & A & B & _). destruct (G k d A) as (w & -> & T). rewrite Y in B. injection B as ->. exact T.
  - intros T. pose proof (there_lookup V dump yaml _ _ _ _ T) as L. apply (lookup_in _ _ _ D) in L.
    assert (J : In k (map fst ps)) by (rewrite K; apply in_map_iff; now exists (k, dump v)).
    apply in_map_iff in J as ([q w] & E & J). cbn [fst] in E. subst q. destruct (proj1 (H k w) J) as (d & A & B & _).
    apply (lookup_in _ _ _ D) in A, L. rewrite A in L. injection L as ->. rewrite Y in B. now injection B as <-.
Qed.
Print Assumptions C120_each.

(** Two sessions at a time, as in the manual: a recipient is remembered until the data is asked for. *)
Definition b2o (b : bytes) : option bytes := Some b.
Definition mails : list (nat * command * list (action bytes)) :=
  [(1%nat, CEnvelopeFrom (lit "a"), []); (1%nat, CEnvelopeRecipient (lit "someone"), [Put (lit "clamav") (lit "stop") (lit "no"); Put (lit "milter") (lit "stop") (lit "yes")]);
   (2%nat, CEnvelopeRecipient (lit "other"), [Put (lit "milter") (lit "stop") (lit "other")]); (2%nat, CAbort, []);
   (1%nat, CData, [Get (lit "clamav") (lit "stop")])].
Example C120_there : there mails 1 (lit "stop") (lit "yes") /\ not_there mails 2 (lit "stop").
Proof.
  split.
  - exists [(1%nat, CEnvelopeFrom (lit "a"), [])], (CEnvelopeRecipient (lit "someone")),
      [Put (lit "clamav") (lit "stop") (lit "no"); Put (lit "milter") (lit "stop") (lit "yes")],
      [(2%nat, CEnvelopeRecipient (lit "other"), [Put (lit "milter") (lit "stop") (lit "other")]); (2%nat, CAbort, []); (1%nat, CData, [Get (lit "clamav") (lit "stop")])].
    split; [reflexivity|]. split; [discriminate|]. split.
    + exists [Put (lit "clamav") (lit "stop") (lit "no")], (lit "milter"), []. split; [reflexivity|intros ? ? []].
    + constructor; [left; discriminate|]. constructor; [left; discriminate|]. constructor; [|constructor].
      right. split; [discriminate|]. intros ch w [I|[]]. discriminate.
  - right. exists (firstn 3 mails), [], [(1%nat, CData, [Get (lit "clamav") (lit "stop")])]. split; [reflexivity|]. constructor; [left; discriminate|constructor].
Qed.
Example C120_example :
  snd (perform bytes (fun b => b) b2o (history bytes (fun b => b) b2o mails 1%nat) (Get (lit "clamav") (lit "stop"))) = Got (lit "yes") /\
  snd (perform bytes (fun b => b) b2o (history bytes (fun b => b) b2o mails 1%nat) (Each (lit "clamav"))) = Pairs [(lit "stop", lit "yes")] /\
  snd (perform bytes (fun b => b) b2o (history bytes (fun b => b) b2o mails 2%nat) (Get (lit "clamav") (lit "stop"))) = Nothing.
Proof. repeat split. Qed.

(** The end of a mail does not clear the shelf: the next mail of the session reads what was put for the last one. *)
Theorem C120_next_refuted : forall V dump yaml (v : V) child to chunk from, yaml (dump v) = Some v ->
  perform V dump yaml (history V dump yaml
    [(1%nat, CEnvelopeRecipient to, [Put child (lit "stop") v]); (1%nat, CData, []); (1%nat, CEndOfMessage chunk, []); (1%nat, CEnvelopeFrom from, [])] 1%nat)
    (Get child (lit "stop")) = ([(lit "stop", dump v)], Got v).
Proof. intros * Y. cbn. now rewrite Y. Qed.
Print Assumptions C120_next_refuted.
(** A value that YAML.load does not read back stays, and going through the shelf raises for everybody. *)
Theorem C120_load_refuted : forall V dump (yaml : bytes -> option V) v w child other, yaml (dump w) = None ->
  snd (perform V dump yaml (history V dump yaml [(1%nat, CData, [Put child (lit "a") v; Put child (lit "b") w])] 1%nat) (Each other)) = Raises.
Proof. intros * Y. cbn. now rewrite Y. Qed.
Print Assumptions C120_load_refuted.
