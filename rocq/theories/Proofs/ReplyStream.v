(** Whole reply packets, and streams of replies. *)
From Verif.Base Require Import Bytes BytesFacts.
From Verif.Model Require Import Decoder Encoder MacroStage ReplyCodec.
From Verif.Model Require CommandCodec.
From Verif.Spec Require Import FrameSpec CommandGrammar ReplyGrammar.
From Verif.Proofs Require Import FieldProofs FramingProofs CommandProofs CommandStream ReplyProofs.
From Coq Require Import ZifyBool ZifyNat ZifyN.
Ltac Zify.zify_post_hook ::= Z.div_mod_to_equations.
Local Open Scope Z_scope.

Lemma indexed_header_inside_dec x : indexed_header_inside x \/ ~ indexed_header_inside x.
Proof.
  destruct (Nat.ltb_spec (length x) 2) as [Hs|Hl]; [left; left; exact Hs|].
  destruct (take_word x) as [Hshort|(i & x1 & Hi & ->)].
  { right. intros [H|[(i & rest & Hi & ->)|(i & n & v & rest & _ & _ & _ & ->)]]; [lia| |];
      rewrite zlen_be32 in Hshort;
      match type of Hshort with zlen ?l + _ < _ => pose proof (zlen_nonneg l) end; lia. }
  assert (Hin : indexed_header_inside (be32 i ++ x1) ->
            (exists r, x1 = NUL :: r) \/
            (exists n v r, no_nul n /\ no_nul v /\ x1 = n ++ NUL :: v ++ NUL :: r)).
  { intros [H|[(i' & rest & Hi' & He)|(i' & n & v & rest & Hi' & Hn & Hv & He)]]; [lia| |];
      apply word_inj in He as [_ He]; eauto 10. }
  destruct (split_nul x1) as [Hn|(n & r & -> & Hn)].
  - right. intros H. destruct (Hin H) as [(r & ->)|(n & v & r & _ & _ & ->)].
    + exact (no_nul_split_absurd _ [] _ Hn eq_refl).
    + exact (no_nul_split_absurd _ _ _ Hn eq_refl).
  - destruct n as [|c n].
    + left. right. left. exists i, r. auto.
    + destruct (split_nul r) as [Hr|(v & r' & -> & Hv)].
      * right. intros H. destruct (Hin H) as [(r' & He)|(n' & v & r' & Hn' & Hv & He)].
        -- apply no_nul_cons in Hn as [Hc _]. injection He as Hx _. exact (Hc Hx).
        -- destruct (split_nul_unique _ _ _ _ Hn Hn' He) as [_ He'].
           exact (no_nul_split_absurd _ _ _ Hr He').
      * left. right. right. exists i, (c :: n), v, r'. auto.
Qed.

(** The grammar with the exact request table the decoder builds. *)
Definition exact_reply (x : bytes) (r : reply) : Prop :=
  match r with
  | RNegotiate _ _ => exists x', x = "O"%char :: x' /\ exact_negotiate x' r
  | _ => reply_packet x r
  end.

Lemma exact_reply_sound x r : exact_reply x r -> reply_packet x r.
Proof.
  destruct r; cbn [exact_reply]; auto.
  intros (x' & -> & v & a & s & rs & Hv & Ha & Hs & -> & Hok & He). injection He as -> ->.
  destruct rs as [|r0 rs].
  - cbn [map concat]. rewrite app_nil_r. constructor; auto.
  - constructor; auto; [discriminate|]. apply received_requests_of, Hok.
Qed.

Lemma exact_reply_complete x r :
  reply_packet x r -> exists r', exact_reply x r' /\ same_reply r r'.
Proof.
  intros H. destruct H as [v a s Hv Ha Hs|v a s rs t Hv Ha Hs Hne Hok Ht|
                          | | | | | | | | | | | | | | | | | | | | | | ];
    try (eexists; split; [|reflexivity]; cbn [exact_reply]; econstructor; eauto; fail).
  - exists (RNegotiate (mk_option v a s) None). split; [|reflexivity].
    eexists. split; [reflexivity|]. exists v, a, s, []. cbn [map concat].
    rewrite app_nil_r. repeat split; auto.
  - exists (RNegotiate (mk_option v a s) (Some (received_requests [] rs))). split.
    + eexists. split; [reflexivity|]. exists v, a, s, rs. repeat split; auto.
      destruct rs; [congruence|reflexivity].
    + split; [reflexivity|]. apply (requests_of_same rs); auto. apply received_requests_of, Hok.
Qed.

Definition exact_pair (x : bytes) (q : reply * option derror) : Prop :=
  exact_reply x (fst q) /\ snd q = None.

Lemma decides_plain (f : bytes -> res reply) (R : reply -> Prop) x :
  decides f R -> (forall r, R r <-> exact_reply x r) ->
  decides (fun y => plain (f y)) (exact_pair x).
Proof.
  intros H HR. eapply (decides_map (fun r => (r, None))); [exact H|].
  intros [r e]. unfold exact_pair. cbn [fst snd]. split.
  - intros [H1 ->]. exists r. rewrite HR. auto.
  - intros (r' & H1 & H2). injection H2 as -> ->. rewrite <- HR. auto.
Qed.

(** A simple one-letter reply. *)
Lemma empty_reply (c : byte) (x : bytes) (r0 : reply) :
  (forall x r, exact_reply (c :: x) r <-> x = [] /\ r = r0) ->
  decides (fun y => plain (decode_empty (c :: x ++ y) (zlen (c :: x)) r0)) (exact_pair (c :: x)).
Proof.
  intros H. eapply decides_plain; [apply reply_empty_decides|].
  intros r. symmetry. apply H.
Qed.

Ltac invert_exact H :=
  match type of H with
  | exact_reply _ ?r =>
      destruct r; cbn [exact_reply] in H;
      try (destruct H as (? & H & _); discriminate H);
      try (inversion H; subst; fail)
  end.

Ltac simple_reply :=
  let H := fresh in
  apply empty_reply; intros ? ?; split;
  [ intros H; invert_exact H; inversion H; subst; auto
  | intros [-> ->]; cbn [exact_reply]; constructor ].

Lemma reply_decides x :
  zlen x < 2 ^ 62 ->
  ~ unguarded_reply x ->
  decides (fun y => decode_reply (x ++ y) (zlen x)) (exact_pair x).
Proof.
  intros Hbig Hug. destruct x as [|c x]; [exfalso; apply Hug; constructor|].
  unfold decode_reply. cbn [app]. unfold deref at 1. cbn [nth_error bind].
  assert (Hlm1 : zlen (c :: x) - 1 = zlen x) by (rewrite zlen_cons; lia).
  destruct (beqb c "O") eqn:E.
  { apply beqb_eq in E as ->. eapply decides_plain; [apply negotiate_reply_decides|].
    intros r. split.
    - intros H. pose proof H as H'.
      destruct H' as (v & a & s & rs & _ & _ & _ & _ & _ & ->). exists x. auto.
    - intros H. destruct r; cbn [exact_reply] in H; try (inversion H; fail).
      destruct H as (x' & [= <-] & H). exact H. }
  apply beqb_neq in E. rename E into EO.
  destruct (beqb c "c") eqn:E. { apply beqb_eq in E as ->. simple_reply. }
  apply beqb_neq in E. rename E into Ec.
  destruct (beqb c "y") eqn:E.
  { apply beqb_eq in E as ->. eapply decides_plain; [apply reply_code_decides; exact Hug|].
    intros r. split.
    - intros H. inversion H; subst. exact H.
    - intros H. invert_exact H. exact H. }
  apply beqb_neq in E. rename E into Ey.
  destruct (beqb c "t") eqn:E. { apply beqb_eq in E as ->. simple_reply. }
  apply beqb_neq in E. rename E into Et.
  destruct (beqb c "r") eqn:E. { apply beqb_eq in E as ->. simple_reply. }
  apply beqb_neq in E. rename E into Er.
  destruct (beqb c "a") eqn:E. { apply beqb_eq in E as ->. simple_reply. }
  apply beqb_neq in E. rename E into Ea.
  destruct (beqb c "d") eqn:E. { apply beqb_eq in E as ->. simple_reply. }
  apply beqb_neq in E. rename E into Ed.
  destruct (beqb c "h") eqn:E.
  { apply beqb_eq in E as ->. cbn [skipn]. rewrite Hlm1.
    eapply (decides_map (fun nv => (RAddHeader (fst nv) (snd nv), None)));
      [apply header_content_decides|].
    intros [r e]. unfold exact_pair. cbn [fst snd]. split.
    - intros [H ->]. invert_exact H. inversion H; subst.
      exists (name, value). cbn [fst snd]. eauto 10.
    - intros ([n v] & (Hne & Hn & Hv & rest & ->) & Hp). cbn [fst snd] in *.
      injection Hp as -> ->. split; [|reflexivity]. constructor; auto. }
  apply beqb_neq in E. rename E into Eh.
  assert (Hlp1 : zlen (c :: x) + 1 = zlen x + 2) by (rewrite zlen_cons; lia).
  assert (Hb : zlen x < 2 ^ 62) by (rewrite zlen_cons in Hbig; lia).
  destruct (beqb c "i") eqn:E.
  { apply beqb_eq in E as ->. cbn [skipn]. rewrite Hlp1.
    assert (Hin : indexed_header_inside x).
    { destruct (indexed_header_inside_dec x) as [H|H]; [exact H|].
      exfalso. apply Hug. constructor. exact H. }
    eapply (decides_map (fun r => (RInsertHeader (fst (fst r)) (snd (fst r)) (snd r), None)));
      [apply indexed_header_decides; auto|].
    intros [r e]. unfold exact_pair. cbn [fst snd]. split.
    - intros [H ->]. invert_exact H. destruct value as [w|]; inversion H; subst.
      + exists (index, name, Some w). cbn [fst snd]. split; [|reflexivity].
        split; [auto|split; [auto|split; [auto|]]]. exists w, rest.
        split; [assumption|]. split; [|reflexivity]. destruct w; [congruence|reflexivity].
      + exists (index, name, None). cbn [fst snd]. split; [|reflexivity].
        split; [auto|split; [auto|split; [auto|]]]. exists [], rest.
        split; [apply no_nul_nil|]. split; reflexivity.
    - intros ([[i n] o] & (Hi & Hne & Hn & v & rest & Hv & -> & ->) & Hp). cbn [fst snd] in Hp.
      injection Hp as -> ->. split; [|reflexivity]. cbn [exact_reply].
      destruct v as [|b v]; cbn [none_if_empty].
      + apply rp_insert_empty; auto.
      + apply rp_insert_header; auto. discriminate. }
  apply beqb_neq in E. rename E into Ei.
  destruct (beqb c "m") eqn:E.
  { apply beqb_eq in E as ->. cbn [skipn]. rewrite Hlp1.
    assert (Hin : indexed_header_inside x).
    { destruct (indexed_header_inside_dec x) as [H|H]; [exact H|].
      exfalso. apply Hug. constructor. exact H. }
    eapply decides_ext.
    2:{ eapply (decides_map (fun r => (match snd r with
                   | Some v => RChangeHeader (snd (fst r)) (fst (fst r)) v
                   | None => RDeleteHeader (snd (fst r)) (fst (fst r))
                   end, None)));
          [apply indexed_header_decides; [exact Hb|exact Hin]|].
        intros [r e]. unfold exact_pair. cbn [fst snd]. split.
        - intros [H ->]. invert_exact H; inversion H; subst.
          + exists (index, name, Some value). cbn [fst snd]. split; [|reflexivity].
            split; [auto|split; [auto|split; [auto|]]]. exists value, rest.
            split; [assumption|]. split; [|reflexivity]. destruct value; [congruence|reflexivity].
          + exists (index, name, None). cbn [fst snd]. split; [|reflexivity].
            split; [auto|split; [auto|split; [auto|]]]. exists [], rest.
            split; [apply no_nul_nil|]. split; reflexivity.
        - intros ([[i n] o] & (Hi & Hne & Hn & v & rest & Hv & -> & ->) & Hp). cbn [fst snd] in Hp.
          destruct v as [|b v]; cbn [none_if_empty] in Hp; injection Hp as -> ->;
            (split; [|reflexivity]); cbn [exact_reply].
          + apply rp_delete_header; auto.
          + apply rp_change_header; auto. discriminate. }
    intros y _. cbv beta.
    destruct (decode_header_content_with_index (x ++ y) (zlen x + 2)) as [[[i n] [v|]]|e|]; reflexivity. }
  apply beqb_neq in E. rename E into Em.
  destruct (beqb c "e") eqn:E.
  { apply beqb_eq in E as ->. cbn [skipn]. rewrite Hlm1.
    eapply (decides_map (fun r => (RChangeFrom (fst r) (snd r), None)));
      [apply two_string_decides|].
    intros [r e]. unfold exact_pair. cbn [fst snd]. split.
    - intros [H ->]. invert_exact H. inversion H; subst.
      + exists (from, None). cbn [fst snd]. auto.
      + eexists (from, Some _). cbn [fst snd]. eauto 10.
    - intros ([f o] & (Hne & Hf & Ho) & Hp). cbn [fst snd] in *. injection Hp as -> ->.
      split; [|reflexivity]. destruct o as [s|].
      + destruct Ho as (Hs & Hsn & rest & ->). constructor; auto.
      + subst x. constructor; auto. }
  apply beqb_neq in E. rename E into Ee.
  destruct (beqb c "+") eqn:E.
  { apply beqb_eq in E as ->. unfold decode_add_recipient. cbn [skipn]. rewrite Hlm1.
    destruct (split_nul x) as [Hn|(s & rest & -> & Hs)].
    { exfalso. apply Hug. constructor. exact Hn. }
    apply decides_ok with (a := (RAddRecipient s None, None)).
    - intros y Hy. rewrite <- app_assoc. cbn [app].
      rewrite (dntv_found s rest y); [|exact Hs|].
      + rewrite cstring_app by exact Hs. reflexivity.
      + rewrite zlen_app, zlen_cons. pose proof (zlen_nonneg rest). lia.
    - intros [r e]. unfold exact_pair. cbn [fst snd]. split.
      + intros [H ->]. invert_exact H. inversion H; subst.
        match goal with He : _ ++ NUL :: _ = _ ++ NUL :: _, Hr : no_nul recipient |- _ =>
          apply split_nul_unique in He as [He _]; auto; subst end. reflexivity.
      + intros Hp. injection Hp as -> ->. split; [|reflexivity]. constructor. exact Hs. }
  apply beqb_neq in E. rename E into Eplus.
  destruct (beqb c "2") eqn:E.
  { apply beqb_eq in E as ->. cbn [skipn]. rewrite Hlm1.
    eapply (decides_map (fun r => (RAddRecipient (fst r) (snd r), None)));
      [apply two_string_decides|].
    intros [r e]. unfold exact_pair. cbn [fst snd]. split.
    - intros [H ->]. invert_exact H. inversion H; subst.
      + exists (recipient, None). cbn [fst snd]. auto.
      + eexists (recipient, Some _). cbn [fst snd]. eauto 10.
    - intros ([f o] & (Hne & Hf & Ho) & Hp). cbn [fst snd] in *. injection Hp as -> ->.
      split; [|reflexivity]. destruct o as [s|].
      + destruct Ho as (Hs & Hsn & rest & ->). constructor; auto.
      + subst x. constructor; auto. }
  apply beqb_neq in E. rename E into E2.
  destruct (beqb c "-") eqn:E.
  { apply beqb_eq in E as ->.
    eapply (decides_map (fun r => (RDeleteRecipient r, None))); [apply reply_string_decides|].
    intros [r e]. unfold exact_pair. cbn [fst snd]. split.
    - intros [H ->]. invert_exact H. inversion H; subst. eauto 10.
    - intros (s & (Hne & Hs & rest & ->) & Hp). injection Hp as -> ->.
      split; [|reflexivity]. constructor; auto. }
  apply beqb_neq in E. rename E into Eminus.
  destruct (beqb c "b") eqn:E.
  { apply beqb_eq in E as ->. cbn [skipn]. rewrite Hlm1.
    assert (Hchunk : forall y, CommandCodec.chunk_at (x ++ y) (zlen x) = Ok x).
    { intros y. unfold CommandCodec.chunk_at. rewrite zlen_app.
      pose proof (zlen_nonneg x). pose proof (zlen_nonneg y).
      destruct (Z.ltb_spec (zlen x) 0); [lia|].
      destruct (Z.leb_spec (zlen x) (zlen x + zlen y)); [|lia].
      unfold zlen. rewrite Nat2Z.id, firstn_app_exact. reflexivity. }
    apply decides_ok with (a := (RReplaceBody x, None)).
    - intros y Hy. rewrite Hchunk. reflexivity.
    - intros [r e]. unfold exact_pair. cbn [fst snd]. split.
      + intros [H ->]. invert_exact H. inversion H; subst. reflexivity.
      + intros Hp. injection Hp as -> ->. split; [|reflexivity]. constructor. }
  apply beqb_neq in E. rename E into Eb.
  destruct (beqb c "p") eqn:E. { apply beqb_eq in E as ->. simple_reply. }
  apply beqb_neq in E. rename E into Ep.
  destruct (beqb c "q") eqn:E.
  { apply beqb_eq in E as ->.
    eapply (decides_map (fun r => (RQuarantine r, None))); [apply reply_string_decides|].
    intros [r e]. unfold exact_pair. cbn [fst snd]. split.
    - intros [H ->]. invert_exact H. inversion H; subst. eauto 10.
    - intros (s & (Hne & Hs & rest & ->) & Hp). injection Hp as -> ->.
      split; [|reflexivity]. constructor; auto. }
  apply beqb_neq in E. rename E into Eq.
  destruct (beqb c "f") eqn:E. { apply beqb_eq in E as ->. simple_reply. }
  apply beqb_neq in E. rename E into Ef.
  destruct (beqb c "4") eqn:E. { apply beqb_eq in E as ->. simple_reply. }
  apply beqb_neq in E. rename E into E4.
  destruct (beqb c "s") eqn:E. { apply beqb_eq in E as ->. simple_reply. }
  apply beqb_neq in E. rename E into Es.
  apply decides_fail with (e := Some E_UNEXPECTED_COMMAND); [reflexivity|].
  intros [r e] [H _]. cbn [fst] in H. apply exact_reply_sound in H. inversion H; subst; congruence.
Qed.

(** *** The handler *)

Lemma reply_handler_spec p :
  zlen p < 2147483648 ->
  ~ unguarded_reply p ->
  (exists r, exact_reply p r /\ forall more, reply_handler (p ++ more) (zlen p) = HOk [r] None) \/
  ((forall r, ~ exact_reply p r) /\
   exists e, forall more, reply_handler (p ++ more) (zlen p) = HFail e).
Proof.
  intros Hbig Hug. destruct (reply_decides p) as (r & Hr & Hdec); [lia|exact Hug|].
  assert (Hh : forall more, reply_handler (p ++ more) (zlen p) =
                 match r with Ok (q, e) => HOk [q] e | Fail e => HFail e | UB => HUB end).
  { intros more. unfold reply_handler. rewrite <- app_assoc, Hr by apply in_nul_tail.
    reflexivity. }
  destruct r as [[q e]|e|]; [left|right|destruct Hdec].
  - destruct (proj2 (Hdec (q, e)) eq_refl) as [H1 H2]. cbn [fst snd] in *. subst e.
    exists q. split; [exact H1|exact Hh].
  - split; [|exists e; exact Hh]. intros q Hq. apply (Hdec (q, None)). split; [exact Hq|reflexivity].
Qed.

Lemma exact_reply_fun p r r' :
  zlen p < 2147483648 -> ~ unguarded_reply p -> exact_reply p r -> exact_reply p r' -> r = r'.
Proof.
  intros Hbig Hug H H'. destruct (reply_decides p) as (q & _ & Hdec); [lia|exact Hug|].
  destruct q as [q|e|]; [|destruct (Hdec (r, None)); split; auto|destruct Hdec].
  pose proof (proj1 (Hdec (r, None)) (conj H eq_refl)).
  pose proof (proj1 (Hdec (r', None)) (conj H' eq_refl)). congruence.
Qed.

Lemma reply_self_contained p :
  zlen p < 2147483648 -> ~ unguarded_reply p -> self_contained reply_handler p.
Proof.
  intros Hbig Hug more.
  assert (He : reply_handler p (zlen p) = reply_handler (p ++ []) (zlen p))
    by (rewrite app_nil_r; reflexivity).
  rewrite He.
  destruct (reply_handler_spec p Hbig Hug) as [(c & _ & H)|(_ & e & H)]; rewrite !H; reflexivity.
Qed.

Lemma reply_alone p :
  zlen p < 2147483648 -> ~ unguarded_reply p ->
  (exists c, exact_reply p c /\ alone reply_handler p = HOk [c] None) \/
  ((forall c, ~ exact_reply p c) /\ exists e, alone reply_handler p = HFail e).
Proof.
  intros Hbig Hug.
  assert (He : alone reply_handler p = reply_handler (p ++ []) (zlen p))
    by (rewrite app_nil_r; reflexivity).
  rewrite He.
  destruct (reply_handler_spec p Hbig Hug) as [(c & H1 & H2)|(H1 & e & H2)].
  - left. exists c. rewrite H2. auto.
  - right. split; [exact H1|]. exists e. apply H2.
Qed.

Lemma receive_replies ps :
  Forall (fun p => zlen p < 2147483648 /\ ~ unguarded_reply p) ps ->
  exists good rs rest,
    ps = good ++ rest /\
    Forall2 exact_reply good rs /\
    match rest with
    | [] => receive (alone reply_handler) ps = (rs, [], Complete)
    | bad :: _ => (forall r, ~ exact_reply bad r) /\
                  exists es, receive (alone reply_handler) ps = (rs, es, Refused)
    end.
Proof.
  induction ps as [|p ps IH]; intros Hall.
  - exists [], [], []. split; [reflexivity|split; [constructor|reflexivity]].
  - inversion Hall as [|? ? [Hbig Hp] Hps Heq]; subst. cbn [receive].
    destruct (reply_alone p Hbig Hp) as [(c & Hc & ->)|(Hno & e & ->)].
    + destruct (IH Hps) as (good & cs & rest & -> & Hg & Hr).
      exists (p :: good), (c :: cs), rest. split; [reflexivity|split; [constructor; auto|]].
      destruct rest as [|bad rest'].
      * rewrite Hr. reflexivity.
      * destruct Hr as [Hno (es & Hr)]. split; [exact Hno|]. exists es. rewrite Hr. reflexivity.
    + exists [], [], (p :: ps). split; [reflexivity|split; [constructor|]].
      split; [exact Hno|]. eexists. reflexivity.
Qed.

(** *** The encoder's packets *)

Lemma join_not_nil ws : ws <> [] -> Forall (fun w : bytes => w <> []) ws -> join_symbols ws <> [].
Proof.
  destruct ws as [|w ws]; [congruence|]. intros _ H. inversion H as [|? ? Hw _]; subst.
  destruct w as [|c w]; [congruence|]. destruct ws; discriminate.
Qed.

Lemma join_no_nul ws : Forall no_nul ws -> no_nul (join_symbols ws).
Proof.
  induction ws as [|w ws IH]; intros H; [apply no_nul_nil|].
  inversion H as [|? ? Hw Hws]; subst. destruct ws as [|w' ws]; [exact Hw|].
  change (join_symbols (w :: w' :: ws)) with (w ++ " "%char :: join_symbols (w' :: ws)).
  apply no_nul_app. split; [exact Hw|]. apply no_nul_cons. split; [discriminate|]. auto.
Qed.

Lemma get_symbols_none t c : ~ In c (map fst t) -> get_symbols t c = None.
Proof.
  induction t as [|[c' s] t IH]; intros H; cbn [get_symbols]; [reflexivity|].
  destruct (beqb c' c) eqn:E.
  - apply beqb_eq in E. exfalso. apply H. left. exact E.
  - apply IH. intros Hi. apply H. right. exact Hi.
Qed.

Lemma encode_requests_entries t :
  sendable_requests t ->
  exists rs, encode_requests t = Some (concat (map request_bytes rs)) /\
    Forall request_ok rs /\ (t <> [] -> rs <> []) /\ requests_of rs t.
Proof.
  induction t as [|[c symbols] t IH]; intros [Hnd Hall].
  - exists []. split; [reflexivity|split; [constructor|split; [congruence|]]].
    intros c ws. cbn [get_symbols]. split.
    + intros <-. constructor. intros s t [].
    + intros H. inversion H as [|before ? ? after]; [reflexivity|]. destruct before; discriminate.
  - inversion Hall as [|? ? ((stage & Hst) & Hne & Hsy) Hall' Heq]; subst. cbn [fst snd] in *.
    cbn [map fst] in Hnd. inversion Hnd as [|? ? Hnotin Hnd' Heq]; subst.
    destruct (IH (conj Hnd' Hall')) as (rs & He & Hok & _ & Hreq).
    exists ((stage, join_symbols symbols) :: rs). cbn [encode_requests].
    rewrite (proj2 (command_stage_iff c stage) Hst). destruct symbols as [|s0 sy]; [destruct (Hne eq_refl)|].
    rewrite He. cbn [map concat]. unfold request_bytes at 2. cbn [fst snd].
    assert (Hws : Forall no_space (s0 :: sy)).
    { eapply Forall_impl; [|exact Hsy]. intros a (_ & _ & H). exact H. }
    assert (Hnn : Forall no_nul (s0 :: sy)).
    { eapply Forall_impl; [|exact Hsy]. intros a (_ & H & _). exact H. }
    assert (Hnz : Forall (fun w : bytes => w <> []) (s0 :: sy)).
    { eapply Forall_impl; [|exact Hsy]. intros a (H & _). exact H. }
    split; [rewrite <- !app_assoc; reflexivity|]. split; [|split; [discriminate|]].
    + constructor; [|exact Hok]. split.
      * unfold word. cbn [fst]. unfold stage_command in Hst.
        assert (N.to_nat stage < 7)%nat; [|lia].
        change 7%nat with (length (lit "CHMRTEN")). apply nth_error_Some. congruence.
      * split; [exists c; exact Hst|]. split; cbn [snd].
        -- apply join_not_nil; [discriminate|exact Hnz].
        -- apply join_no_nul, Hnn.
    + intros c' ws. cbn [get_symbols].
      destruct (beqb c c') eqn:E.
      * apply beqb_eq in E as ->.
        assert (Hrest : forall s t0, In (s, t0) rs -> ~ stage_command s c').
        { assert (Hl : last_request rs c' None).
          { apply Hreq. apply get_symbols_none. exact Hnotin. }
          inversion Hl; auto. }
        split.
        -- intros <-. apply (lr_some [] stage _ rs); auto. apply join_spaced; [discriminate|exact Hws].
        -- intros Hl. apply (last_request_fun _ _ _ _ (lr_some [] stage _ rs c' _ Hst
             (join_spaced _ Hne Hws) Hrest) Hl).
      * apply beqb_neq in E.
        assert (Hns : ~ stage_command stage c').
        { intros H. apply E. exact (stage_command_fun _ _ _ Hst H). }
        etransitivity; [apply (Hreq c' ws)|]. split; intros Hl; inversion Hl as [? ? H|before s tx after ? w Hs0 Hw Ha Hx]; subst.
        -- constructor. intros s tx [Hp|Hi]; [injection Hp as <- <-; exact Hns|eauto].
        -- apply (lr_some ((stage, join_symbols (s0 :: sy)) :: before)); auto.
        -- constructor. intros s tx Hi. apply (H s tx). right. exact Hi.
        -- destruct before as [|b before].
           ++ cbn [app] in Hx. injection Hx as -> _ _. contradiction.
           ++ cbn [app] in Hx. injection Hx as _ <-. constructor; auto.
Qed.

Lemma meant_packet e r :
  means e r ->
  exists p r', reply_payload e = Payload p /\ exact_reply p r' /\ same_reply r r' /\
               ~ unguarded_reply p.
Proof.
  intros H.
  destruct H as [o Hv Ha Hs|o Hv Ha Hs|o t Hv Ha Hs Hne Hreq| |a b c n text ext msg Hc Ht Hct
    | | | | |n v Hne Hn Hv|i n v v' Hi Hne Hn Hov Hv|n i v Hi Hne Hn Hv Hve|n i v Hi Hne Hn Hv
    |n i Hi Hne Hn|f p p' Hne Hf Hpn Hp|rc p p' Hne Hr Hpn Hp|rc Hne Hr|b Hb Hl| |q Hne Hq| | | ];
    cbn [reply_payload];
    try (eexists _, _; split; [reflexivity|]; split;
         [|split; [reflexivity|intros Hx; inversion Hx]]; cbn [exact_reply]; constructor; fail).
  - eexists _, _. split; [reflexivity|]. split; [|split; [reflexivity|intros Hx; inversion Hx]].
    destruct o as [v a s]. eexists. split; [reflexivity|]. exists v, a, s, []. cbn [map concat].
    rewrite app_nil_r. repeat split; auto.
  - eexists _, _. split; [reflexivity|]. split; [|split; [reflexivity|intros Hx; inversion Hx]].
    destruct o as [v a s]. rewrite app_nil_r. eexists. split; [reflexivity|].
    exists v, a, s, []. cbn [map concat]. rewrite app_nil_r. repeat split; auto.
  - destruct (encode_requests_entries t Hreq) as (rs & He & Hok & Hrs & Hof). rewrite He.
    destruct o as [v a s].
    exists ("O"%char :: be32 v ++ be32 a ++ be32 s ++ concat (map request_bytes rs)),
           (RNegotiate (mk_option v a s) (Some (received_requests [] rs))).
    split; [reflexivity|]. split; [|split; [|intros Hx; inversion Hx]].
    + eexists. split; [reflexivity|]. exists v, a, s, rs. repeat split; auto.
      destruct rs; [destruct (Hrs Hne eq_refl)|reflexivity].
    + split; [reflexivity|]. apply (requests_of_same rs); auto. apply received_requests_of, Hok.
  - eexists _, _. split; [reflexivity|]. split; [|split; [reflexivity|]].
    + cbn [exact_reply app]. apply rp_code; auto. intros _ [].
    + intros Hx. cbn [app] in Hx. inversion Hx as [| | | |a' b' c' tx ex rest Htx Hcx Hin He1]; subst.
      match goal with He : _ ++ NUL :: rest = _ ++ [NUL] |- _ =>
        apply split_nul_unique in He as [_ He]; auto; subst rest end.
      destruct Hin.
  - destruct n as [|b n]; [congruence|]. cbn [encode_header].
    eexists _, _. split; [reflexivity|]. split; [|split; [reflexivity|intros Hx; inversion Hx]].
    cbn [exact_reply]. apply (rp_add_header (b :: n)); auto.
  - destruct n as [|b n]; [congruence|]. cbn [encode_header].
    assert (Hug : forall w, no_nul w ->
              ~ unguarded_reply ("i"%char :: be32 i ++ (b :: n) ++ NUL :: w ++ [NUL])).
    { intros w Hw Hx. inversion Hx as [|x Hin He| | |]; subst. apply Hin. right. right.
      exists i, (b :: n), w, []. auto. }
    destruct Hv as [| |vc v]; cbn [optional_no_nul] in Hov.
    + eexists _, _. split; [reflexivity|]. split; [|split; [reflexivity|]].
      * cbn [exact_reply]. apply (rp_insert_empty i (b :: n) []); auto.
      * apply Hug, no_nul_nil.
    + eexists _, _. split; [reflexivity|]. split; [|split; [reflexivity|]].
      * cbn [exact_reply]. apply (rp_insert_empty i (b :: n) []); auto.
      * apply Hug, no_nul_nil.
    + eexists _, _. split; [reflexivity|]. split; [|split; [reflexivity|]].
      * cbn [exact_reply]. apply (rp_insert_header i (b :: n) (vc :: v) []); auto. discriminate.
      * apply Hug, Hov.
  - destruct n as [|b n]; [congruence|]. cbn [encode_header].
    eexists _, _. split; [reflexivity|]. split; [|split; [reflexivity|]].
    + cbn [exact_reply]. apply (rp_change_header (b :: n) i v []); auto.
    + intros Hx. inversion Hx as [| |x Hin He| |]; subst. apply Hin. right. right.
      exists i, (b :: n), v, []. auto.
  - destruct n as [|b n]; [congruence|]. cbn [encode_header].
    assert (He : v = None \/ v = Some []) by (inversion Hv; auto).
    destruct He as [-> | ->]; cbn [app];
      (eexists _, _; split; [reflexivity|]; split; [|split; [reflexivity|]];
       [ cbn [exact_reply]; apply (rp_delete_header (b :: n) i []); auto
       | intros Hx; inversion Hx as [| |x Hin Hex| |]; subst; apply Hin; right; right;
         exists i, (b :: n), [], []; split; [auto|]; split; [auto|];
         split; [apply no_nul_nil|reflexivity] ]).
  - destruct n as [|b n]; [congruence|]. cbn [encode_header].
    eexists _, _. split; [reflexivity|]. split; [|split; [reflexivity|]].
    + cbn [exact_reply]. apply (rp_delete_header (b :: n) i []); auto.
    + intros Hx. inversion Hx as [| |x Hin Hex| |]; subst. apply Hin. right. right.
      exists i, (b :: n), [], []. split; [auto|]. split; [auto|]. split; [apply no_nul_nil|reflexivity].
  - destruct f as [|b f]; [congruence|].
    eexists _, _. split; [reflexivity|]. split; [|split; [reflexivity|intros Hx; inversion Hx]].
    destruct Hp as [| |vc v]; cbn [exact_reply encode_parameters has_parameters].
    + apply (rp_change_from (b :: f)); auto.
    + apply (rp_change_from (b :: f)); auto.
    + apply (rp_change_from_parameters (b :: f) (vc :: v) []); auto. discriminate.
  - destruct rc as [|b rc]; [congruence|].
    destruct Hp as [| |vc v]; cbn [encode_parameters has_parameters];
      (eexists _, _; split; [reflexivity|]; split; [|split; [reflexivity|intros Hx]]);
      cbn [exact_reply].
    + apply (rp_add_recipient (b :: rc)); auto.
    + inversion Hx as [| | |x Hn He|]; subst. exact (no_nul_split_absurd _ (b :: rc) _ Hn eq_refl).
    + apply (rp_add_recipient (b :: rc)); auto.
    + inversion Hx as [| | |x Hn He|]; subst. exact (no_nul_split_absurd _ (b :: rc) _ Hn eq_refl).
    + apply (rp_add_recipient_parameters (b :: rc) (vc :: v) []); auto. discriminate.
    + inversion Hx.
  - destruct rc as [|b rc]; [congruence|].
    eexists _, _. split; [reflexivity|]. split; [|split; [reflexivity|intros Hx; inversion Hx]].
    cbn [exact_reply]. apply (rp_delete_recipient (b :: rc) []); auto.
  - destruct b as [|c b]; [congruence|].
    eexists _, _. split; [reflexivity|]. split; [|split; [reflexivity|intros Hx; inversion Hx]].
    unfold packed_chunk. rewrite firstn_all2; [constructor|].
    unfold zlen in Hl. unfold MILTER_CHUNK_SIZE. lia.
  - destruct q as [|b q]; [congruence|].
    eexists _, _. split; [reflexivity|]. split; [|split; [reflexivity|intros Hx; inversion Hx]].
    cbn [exact_reply]. apply (rp_quarantine (b :: q) []); auto.
Qed.

Lemma replies_received es rs ps chunks :
  Forall2 means es rs ->
  Forall2 (fun e p => reply_payload e = Payload p /\ zlen p < 2147483648) es ps ->
  concat chunks = concat (map frame ps) ->
  fits (concat chunks) ->
  exists d rs' out,
    feeds reply_handler decoder_new chunks = (Some d, rs', out) /\
    Forall2 same_reply rs rs' /\ Forall (fun r => fst r = true) out /\
    end_decode d = (true, None).
Proof.
  intros Hm Hp He Hfit.
  assert (Hrec : exists rs', receive (alone reply_handler) ps = (rs', [], Complete) /\
                   Forall2 same_reply rs rs' /\
                   Forall (fun p => zlen p < 2147483648 /\ ~ unguarded_reply p) ps).
  { clear He Hfit chunks. revert ps Hp. induction Hm as [|e r es rs H1 Hm IH]; intros ps Hp.
    - inversion Hp; subst. exists []. split; [reflexivity|]. split; constructor.
    - inversion Hp as [|? p ? ps' [Hpay Hl] Hp' E1 E2]; subst.
      destruct (IH ps' Hp') as (rs' & Hr & H2 & Hall).
      destruct (meant_packet e r H1) as (p' & r' & Hpay' & Hex & Hsame & Hug).
      assert (p' = p) as -> by congruence. cbn [receive].
      destruct (reply_alone p Hl Hug) as [(c & Hc & ->)|(Hno & _)].
      + rewrite Hr. exists (c :: rs'). split; [reflexivity|]. split; [|constructor; auto].
        constructor; [|exact H2].
        rewrite (exact_reply_fun p c r' Hl Hug Hc Hex). exact Hsame.
      + destruct (Hno _ Hex). }
  destruct Hrec as (rs' & Hr & Hsame & Hall).
  assert (Hf : framed ([] ++ concat chunks) ps []).
  { cbn [app]. rewrite He. apply framed_frames.
    eapply Forall_impl; [|exact Hall]. intros p [H _]. exact H. }
  assert (Hself : Forall (self_contained reply_handler) ps).
  { eapply Forall_impl; [|exact Hall]. intros p [H1 H2]. apply reply_self_contained; auto. }
  pose proof (feeds_spec reply_handler chunks decoder_new [] ps []
                represents_new Hf Hself Hfit) as H.
  rewrite Hr in H. unfold feeds_ok in H.
  destruct (feeds reply_handler decoder_new chunks) as [[d' evs] out].
  destruct H as (-> & (d & -> & Hd) & Hout).
  exists d, rs', out. split; [reflexivity|split; [exact Hsame|split; [exact Hout|]]].
  unfold represents in Hd. unfold end_decode.
  destruct (d_state d); auto; exfalso.
  - destruct Hd as (_ & Hd & _). congruence.
  - destruct Hd as (n & _ & _ & Hd & _). unfold be32 in Hd. discriminate.
  - destruct Hd.
Qed.
