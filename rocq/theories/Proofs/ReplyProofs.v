(** The reply decoder against the reply grammar, and the encoder's packets. *)
From Verif.Base Require Import Bytes BytesFacts.
From Verif.Model Require Import Decoder Encoder MacroStage ReplyCodec.
From Verif.Model Require CommandCodec.
From Verif.Spec Require Import FrameSpec CommandGrammar ReplyGrammar.
From Verif.Proofs Require Import FieldProofs FramingProofs CommandProofs CommandStream.
From Coq Require Import ZifyBool ZifyNat ZifyN.
Ltac Zify.zify_post_hook ::= Z.div_mod_to_equations.
Local Open Scope Z_scope.

(** *** Request tables *)

Lemma get_set_same t c s : get_symbols (set_symbols t c s) c = Some s.
Proof.
  induction t as [|[c' s'] t IH]; cbn [set_symbols get_symbols].
  - rewrite beqb_refl. reflexivity.
  - destruct (beqb c' c) eqn:E; cbn [get_symbols]; rewrite E; auto.
Qed.

Lemma get_set_other t c c' s : c <> c' -> get_symbols (set_symbols t c s) c' = get_symbols t c'.
Proof.
  intros H. induction t as [|[c0 s0] t IH]; cbn [set_symbols get_symbols].
  - destruct (beqb c c') eqn:E; [|reflexivity]. apply beqb_eq in E. congruence.
  - destruct (beqb c0 c) eqn:E; cbn [get_symbols].
    + apply beqb_eq in E as ->. destruct (beqb c c') eqn:E; [|reflexivity].
      apply beqb_eq in E. congruence.
    + rewrite IH. reflexivity.
Qed.

(** *** Stages *)

Lemma stage_command_iff stage c :
  stage_command stage c <-> macro_stage_to_command stage = Some c.
Proof.
  unfold stage_command. destruct stage as [|p]; [reflexivity|].
  destruct (N.ltb_spec (N.pos p) 7) as [H|H].
  - assert (Hc : (p = 1 \/ p = 2 \/ p = 3 \/ p = 4 \/ p = 5 \/ p = 6)%positive) by lia.
    repeat (destruct Hc as [->|Hc]; [reflexivity|]). subst p. reflexivity.
  - assert (Hn : nth_error (lit "CHMRTEN") (N.to_nat (N.pos p)) = None).
    { apply nth_error_None. change (length (lit "CHMRTEN")) with 7%nat. lia. }
    rewrite Hn. unfold macro_stage_to_command.
    do 3 (destruct p as [p|p|]; try solve [reflexivity|lia]).
Qed.

Lemma stage_command_fun stage c c' : stage_command stage c -> stage_command stage c' -> c = c'.
Proof. rewrite !stage_command_iff. congruence. Qed.

Lemma command_stage_iff c stage :
  command_to_macro_stage c = Some stage <-> stage_command stage c.
Proof.
  rewrite stage_command_iff. unfold command_to_macro_stage. split.
  - repeat match goal with
           | |- context [beqb c ?d] =>
               let E := fresh in
               destruct (beqb c d) eqn:E;
               [apply beqb_eq in E; subst c; intros E'; injection E' as <-; reflexivity|clear E]
           end. discriminate.
  - unfold macro_stage_to_command.
    destruct stage as [|p]; [intros [= <-]; reflexivity|].
    do 3 (destruct p as [p|p|];
          try solve [discriminate|intros H; injection H as <-; reflexivity]).
Qed.

(** *** Words *)

Lemma split_spaces_spaced s : spaced s (split_spaces s).
Proof.
  induction s as [|c s IH]; cbn [split_spaces].
  - constructor. intros [].
  - destruct (beqb c " ") eqn:E.
    + apply beqb_eq in E as ->. apply (spaced_more [] s); [intros []|exact IH].
    + apply beqb_neq in E. inversion IH as [w Hw He1 He2|w s' ws Hw Hs He1 He2]; subst.
      * constructor. intros [H|H]; [congruence|exact (Hw H)].
      * rewrite <- He2 in *. apply (spaced_more (c :: w) s'); auto.
        intros [H|H]; [congruence|exact (Hw H)].
Qed.

Lemma split_space_unique a r b s :
  no_space a -> no_space b -> a ++ " "%char :: r = b ++ " "%char :: s -> a = b /\ r = s.
Proof.
  revert b. induction a as [|x a IH]; intros [|y b] Ha Hb H; cbn [app] in H.
  - injection H as H. auto.
  - injection H as H1 H2. subst y. exfalso. apply Hb. left. reflexivity.
  - injection H as H1 H2. subst x. exfalso. apply Ha. left. reflexivity.
  - injection H as -> H. destruct (IH b) as [-> ->]; auto.
    + intros Hi. apply Ha. right. exact Hi.
    + intros Hi. apply Hb. right. exact Hi.
Qed.

Lemma no_space_split_absurd x a r : no_space x -> x <> a ++ " "%char :: r.
Proof. intros H ->. apply H. apply in_or_app. right. left. reflexivity. Qed.

Lemma split_space (x : bytes) :
  no_space x \/ exists a r, x = a ++ " "%char :: r /\ no_space a.
Proof.
  induction x as [|c x IH].
  - left. intros [].
  - destruct (ascii_eq_dec c " "%char) as [->|Hc].
    + right. exists [], x. split; [reflexivity|]. intros [].
    + destruct IH as [IH|(a & r & -> & Ha)].
      * left. intros [H|H]; auto.
      * right. exists (c :: a), r. split; [reflexivity|]. intros [H|H]; auto.
Qed.

Lemma spaced_fun s ws : spaced s ws -> forall ws', spaced s ws' -> ws = ws'.
Proof.
  induction 1 as [w Hw|w s ws Hw Hs IH]; intros ws' H'.
  - inversion H' as [w' Hw' He|w' s' ws'' Hw' Hs' He]; subst; auto.
    exfalso. exact (no_space_split_absurd _ _ _ Hw eq_refl).
  - inversion H' as [w' Hw' He|w' s' ws'' Hw' Hs' He]; subst.
    + exfalso. exact (no_space_split_absurd _ _ _ Hw' eq_refl).
    + destruct (split_space_unique _ _ _ _ Hw' Hw He) as [-> ->]. f_equal. auto.
Qed.

Lemma join_spaced ws :
  ws <> [] -> Forall no_space ws -> spaced (join_symbols ws) ws.
Proof.
  induction ws as [|w ws IH]; intros Hne Hall; [congruence|].
  inversion Hall as [|? ? Hw Hws]; subst. destruct ws as [|w' ws].
  - constructor. exact Hw.
  - change (join_symbols (w :: w' :: ws)) with (w ++ " "%char :: join_symbols (w' :: ws)).
    constructor; auto. apply IH; [discriminate|exact Hws].
Qed.

(** *** The negotiate reply *)

Definition received_requests (acc : requests) (rs : list (N * bytes)) : requests :=
  fold_left (fun t r => match macro_stage_to_command (fst r) with
                        | Some c => set_symbols t c (split_spaces (snd r))
                        | None => t
                        end) rs acc.

Lemma received_requests_get rs c :
  Forall request_ok rs -> last_request rs c (get_symbols (received_requests [] rs) c).
Proof.
  induction rs as [|[stage text] rs IH] using rev_ind; intros Hok.
  - constructor. intros s t [].
  - apply Forall_app in Hok as [Hok Hr].
    inversion Hr as [|? ? (_ & (c0 & Hc0) & _ & _) _]; subst. cbn [fst snd] in *.
    specialize (IH Hok). unfold received_requests in *. rewrite fold_left_app.
    cbn [fold_left fst snd]. pose proof Hc0 as Hc0'. apply stage_command_iff in Hc0' as ->.
    destruct (ascii_eq_dec c0 c) as [->|Hne].
    + rewrite get_set_same. apply lr_some with (after := []); auto using split_spaces_spaced.
    + rewrite get_set_other by exact Hne.
      assert (Hlast : ~ stage_command stage c).
      { intros H. apply Hne. exact (stage_command_fun _ _ _ Hc0 H). }
      inversion IH as [rs' c' H Hn|before s0 t0 after c' ws Hs0 Hw Ha Hn]; subst.
      * constructor. intros s t Hi. apply in_app_or in Hi as [Hi|[[= <- <-]|[]]]; eauto.
      * rewrite <- app_assoc. cbn [app]. constructor; auto.
        intros s t Hi. apply in_app_or in Hi as [Hi|[[= <- <-]|[]]]; eauto.
Qed.

Lemma last_split_unique_n (P : N * bytes -> Prop) :
  forall b1 x1 a1 b2 x2 a2,
  b1 ++ x1 :: a1 = b2 ++ x2 :: a2 -> P x1 -> P x2 ->
  (forall y, In y a1 -> ~ P y) -> (forall y, In y a2 -> ~ P y) -> x1 = x2.
Proof.
  induction b1 as [|y b1 IH]; intros x1 a1 [|z b2] x2 a2 H P1 P2 H1 H2; cbn [app] in H.
  - congruence.
  - injection H as -> ->. exfalso. apply (H1 x2); auto. apply in_or_app. right. left. reflexivity.
  - injection H as -> <-. exfalso. apply (H2 x1); auto. apply in_or_app. right. left. reflexivity.
  - injection H as -> H. eauto.
Qed.

Lemma last_request_fun rs c a b : last_request rs c a -> last_request rs c b -> a = b.
Proof.
  intros H1 H2. destruct H1 as [rs c H1|b1 s1 t1 a1 c ws1 Hs1 Hw1 Ha1];
    inversion H2 as [rs' c' H Hn|b2 s2 t2 a2 c' ws2 Hs2 Hw2 Ha2 He]; subst; auto.
  - exfalso. apply (H1 s2 t2); auto. apply in_or_app. right. left. reflexivity.
  - exfalso. apply (H s1 t1); auto. apply in_or_app. right. left. reflexivity.
  - assert (Hx : (s2, t2) = (s1, t1)).
    { apply (last_split_unique_n (fun r => stage_command (fst r) c) _ _ _ _ _ _ He); auto.
      - intros [k v] Hi. exact (Ha2 k v Hi).
      - intros [k v] Hi. exact (Ha1 k v Hi). }
    injection Hx as -> ->. f_equal. exact (spaced_fun _ _ Hw1 _ Hw2).
Qed.

Lemma received_requests_of rs : Forall request_ok rs -> requests_of rs (received_requests [] rs).
Proof.
  intros H c ws. pose proof (received_requests_get rs c H) as Hr. split.
  - intros <-. exact Hr.
  - intros Hw. exact (last_request_fun _ _ _ _ Hr Hw).
Qed.

Lemma requests_of_same rs t t' : requests_of rs t -> requests_of rs t' -> same_requests t t'.
Proof. intros H H' c. symmetry. apply H'. apply H. reflexivity. Qed.

Definition entries_of (x : bytes) (rs : list (N * bytes)) : Prop :=
  Forall request_ok rs /\ x = concat (map request_bytes rs).

Lemma entries_of_nil rs : entries_of [] rs -> rs = [].
Proof.
  intros [_ H]. destruct rs as [|[s t] rs]; [reflexivity|].
  cbn in H. unfold request_bytes, be32 in H. discriminate.
Qed.

Lemma macros_requests_decides n : forall x acc, (length x <= n)%nat ->
  exists r,
    (forall fuel y, (length x < fuel)%nat -> In NUL y ->
       decode_macros_requests fuel (x ++ y) (zlen x) acc = r) /\
    match r with
    | Ok t => exists rs, entries_of x rs /\ t = received_requests acc rs /\
                         forall rs', entries_of x rs' -> rs' = rs
    | Fail _ => forall rs, ~ entries_of x rs
    | UB => False
    end.
Proof.
  induction n as [|n IH]; intros x acc Hx.
  { destruct x; [|simpl in Hx; lia]. exists (Ok acc). split.
    - intros fuel y _ _. destruct fuel; reflexivity.
    - exists []. split; [split; constructor|split; [reflexivity|apply entries_of_nil]]. }
  destruct x as [|c0 x0].
  { exists (Ok acc). split.
    - intros fuel y _ _. destruct fuel; reflexivity.
    - exists []. split; [split; constructor|split; [reflexivity|apply entries_of_nil]]. }
  assert (Hpos : zlen (c0 :: x0) <=? 0 = false).
  { apply Z.leb_gt. rewrite zlen_cons. pose proof (zlen_nonneg x0). lia. }
  remember (c0 :: x0) as x eqn:Hxe.
  assert (Hstep : forall fuel y, (length x < fuel)%nat ->
    decode_macros_requests fuel (x ++ y) (zlen x) acc =
    let* _ := check_command_length (x ++ y) (zlen x) 4 COMPARE_AT_LEAST in
    let* stage := read32 (x ++ y) in
    let p1 := skipn 4 (x ++ y) in
    let len1 := zlen x - 4 in
    let* n := decode_null_terminated_value p1 len1 in
    if Nat.eqb n 0 then Fail None
    else
      match macro_stage_to_command stage with
      | None => Fail (Some E_UNEXPECTED_MACRO_STAGE)
      | Some c =>
          let* symbols := cstring p1 in
          decode_macros_requests (pred fuel) (skipn (S n) p1) (len1 - Z.of_nat (S n))
            (set_symbols acc c (split_spaces symbols))
      end).
  { intros fuel y Hf. destruct fuel as [|fuel]; [lia|]. cbn [decode_macros_requests pred].
    rewrite Hpos. reflexivity. }
  assert (Hnonnil : x <> []) by (rewrite Hxe; discriminate).
  clear Hxe c0 x0.
  destruct (take_word x) as [Hshort|(stage & x1 & Hstage & ->)].
  { exists (Fail (Some E_SHORT_COMMAND_LENGTH)). split.
    - intros fuel y Hf Hy. rewrite Hstep by exact Hf.
      rewrite (check_at_least_short _ y) by (auto; lia). reflexivity.
    - intros rs [_ He]. destruct rs as [|[s t] rs]; [cbn in He; congruence|].
      cbn [map concat] in He. unfold request_bytes at 1 in He. cbn [fst snd] in He.
      rewrite <- !app_assoc in He. rewrite He, zlen_be32 in Hshort.
      match type of Hshort with zlen ?l + _ < _ => pose proof (zlen_nonneg l) end. lia. }
  assert (Hfirst : forall rs, entries_of (be32 stage ++ x1) rs ->
    exists t rest, rs = (stage, t) :: rest /\ request_ok (stage, t) /\
      x1 = t ++ NUL :: concat (map request_bytes rest) /\ Forall request_ok rest).
  { intros rs [Hok He]. destruct rs as [|[s t] rest]; [cbn in He; congruence|].
    inversion Hok as [|? ? H1 Hok' Heq]; subst. pose proof H1 as (Hw & _). cbn [fst] in Hw.
    cbn [map concat] in He. unfold request_bytes at 1 in He. cbn [fst snd] in He.
    rewrite <- !app_assoc in He. apply word_inj in He as [-> He]; auto.
    exists t, rest. auto. }
  assert (Hl1 : zlen (be32 stage ++ x1) - 4 = zlen x1) by (rewrite zlen_be32; lia).
  assert (Hstep1 : forall fuel y, (length (be32 stage ++ x1) < fuel)%nat ->
    decode_macros_requests fuel ((be32 stage ++ x1) ++ y) (zlen (be32 stage ++ x1)) acc =
    let* n := decode_null_terminated_value (x1 ++ y) (zlen x1) in
    if Nat.eqb n 0 then Fail None
    else
      match macro_stage_to_command stage with
      | None => Fail (Some E_UNEXPECTED_MACRO_STAGE)
      | Some c =>
          let* symbols := cstring (x1 ++ y) in
          decode_macros_requests (pred fuel) (skipn (S n) (x1 ++ y)) (zlen x1 - Z.of_nat (S n))
            (set_symbols acc c (split_spaces symbols))
      end).
  { intros fuel y Hf. rewrite Hstep by exact Hf. rewrite Hl1.
    rewrite check_at_least_ok by (rewrite zlen_be32; pose proof (zlen_nonneg x1); lia).
    cbn [bind]. rewrite <- app_assoc, read32_word by exact Hstage. cbn [bind].
    change (skipn 4 (be32 stage ++ x1 ++ y)) with (x1 ++ y). reflexivity. }
  clear Hstep.
  destruct (split_nul x1) as [Hnn|(t & r & -> & Ht)].
  { exists (Fail (Some E_MISSING_NULL)). split.
    - intros fuel y Hf Hy. rewrite Hstep1 by exact Hf.
      rewrite dntv_missing; eauto using in_not_nil.
    - intros rs Hp. destruct (Hfirst rs Hp) as (t & rest & _ & _ & He & _).
      exact (no_nul_split_absurd _ _ _ Hnn He). }
  assert (Hlen : zlen t < zlen (t ++ NUL :: r)).
  { rewrite zlen_app, !zlen_cons. pose proof (zlen_nonneg r). lia. }
  assert (Hsub : zlen (t ++ NUL :: r) - Z.of_nat (S (length t)) = zlen r).
  { rewrite zlen_app, !zlen_cons. unfold zlen. lia. }
  destruct t as [|tc t'].
  { exists (Fail None). split.
    - intros fuel y Hf Hy. rewrite Hstep1 by exact Hf. rewrite <- app_assoc. cbn [app].
      rewrite (dntv_found [] r y); [reflexivity|apply no_nul_nil|exact Hlen].
    - intros rs Hp. destruct (Hfirst rs Hp) as (t & rest & _ & (_ & _ & Hne & Hn) & He & _).
      cbn [snd] in *. destruct (split_nul_unique [] _ _ _ no_nul_nil Hn He) as [<- _]. congruence. }
  set (t := tc :: t') in *.
  destruct (macro_stage_to_command stage) as [c|] eqn:Hc.
  2:{ exists (Fail (Some E_UNEXPECTED_MACRO_STAGE)). split.
      - intros fuel y Hf Hy. rewrite Hstep1 by exact Hf. rewrite <- app_assoc. cbn [app].
        rewrite (dntv_found t r y); [|exact Ht|exact Hlen]. cbn [bind].
        replace (Nat.eqb (length t) 0) with false by reflexivity. reflexivity.
      - intros rs Hp. destruct (Hfirst rs Hp) as (t2 & rest & _ & (_ & (c & Hc') & _) & _).
        cbn [fst] in Hc'. apply stage_command_iff in Hc'. congruence. }
  destruct (IH r (set_symbols acc c (split_spaces t))) as (res & Hres & Hdec).
  { rewrite !app_length in Hx. simpl length in Hx. lia. }
  exists res. split.
  - intros fuel y Hf Hy. rewrite Hstep1 by exact Hf. rewrite <- app_assoc. cbn [app].
    rewrite (dntv_found t r y); [|exact Ht|exact Hlen]. cbn [bind].
    replace (Nat.eqb (length t) 0) with false by reflexivity.
    rewrite cstring_app by exact Ht. cbn [bind]. rewrite skipn_after, Hsub.
    apply Hres; [|exact Hy]. rewrite !app_length in Hf. simpl length in Hf. lia.
  - assert (Hok1 : request_ok (stage, t)).
    { split; [exact Hstage|split; [exists c; apply stage_command_iff, Hc|split; [discriminate|]]].
      exact Ht. }
    destruct res as [tb|e|]; auto.
    + destruct Hdec as (rs & [Hok He] & Htb & Huniq). exists ((stage, t) :: rs).
      split; [split|split].
      * constructor; auto.
      * cbn [map concat]. unfold request_bytes at 1. cbn [fst snd].
        rewrite <- !app_assoc. cbn [app]. rewrite <- He. reflexivity.
      * unfold received_requests in *. cbn [fold_left fst snd]. rewrite Hc. exact Htb.
      * intros rs' Hp. destruct (Hfirst rs' Hp) as (t2 & rest & -> & (_ & _ & _ & Hn2) & He2 & Hok2).
        cbn [snd] in Hn2. destruct (split_nul_unique _ _ _ _ Ht Hn2 He2) as [<- He3]. f_equal.
        apply Huniq. split; auto.
    + intros rs' Hp. destruct (Hfirst rs' Hp) as (t2 & rest & -> & (_ & _ & _ & Hn2) & He2 & Hok2).
      cbn [snd] in Hn2. destruct (split_nul_unique _ _ _ _ Ht Hn2 He2) as [<- He3].
      apply (Hdec rest). split; auto.
Qed.

(** The negotiate reply with the exact table. *)
Definition exact_negotiate (x : bytes) (r : reply) : Prop :=
  exists v a s rs, word v /\ word a /\ word s /\
    x = be32 v ++ be32 a ++ be32 s ++ concat (map request_bytes rs) /\ Forall request_ok rs /\
    r = RNegotiate (mk_option v a s)
          (match rs with [] => None | _ :: _ => Some (received_requests [] rs) end).

Lemma negotiate_reply_decides x :
  decides (fun y => decode_reply_negotiate ("O"%char :: x ++ y) (zlen ("O"%char :: x)))
          (exact_negotiate x).
Proof.
  unfold decode_reply_negotiate.
  destruct (negotiate_option_decides "O"%char x) as (r & H1 & H2).
  destruct r as [[[v a s] n]|e|]; [| |destruct H2].
  - destruct (proj2 (H2 _) eq_refl) as (Hn & Hv & Ha & Hs & rest & Hx).
    cbn [fst snd o_version o_action o_step] in *. subst n.
    assert (Hl : zlen ("O"%char :: x) - 13 = zlen rest).
    { rewrite zlen_cons, Hx, !zlen_be32. lia. }
    assert (Hparse : forall v' a' s' q, word v' -> word a' -> word s' ->
              x = be32 v' ++ be32 a' ++ be32 s' ++ q -> v' = v /\ a' = a /\ s' = s /\ q = rest).
    { intros v' a' s' q Hv' Ha' Hs' He. rewrite Hx in He.
      apply word_inj in He as [<- He]; auto. apply word_inj in He as [<- He]; auto.
      apply word_inj in He as [<- He]; auto. }
    destruct (macros_requests_decides (length rest) rest [] (Nat.le_refl _)) as (r & Hr & Hdec).
    assert (Hrun : forall y, In NUL y ->
      (let* r0 := decode_negotiate_option ("O"%char :: x ++ y) (zlen ("O"%char :: x)) in
       let '(o, processed) := r0 in
       let p1 := skipn (Z.to_nat processed) ("O"%char :: x ++ y) in
       let len1 := zlen ("O"%char :: x) - processed in
       let* _ := check_command_length p1 len1 0 COMPARE_AT_LEAST in
       if len1 =? 0 then Ok (RNegotiate o None)
       else let* reqs := decode_macros_requests (S (length ("O"%char :: x ++ y))) p1 len1 [] in
            Ok (RNegotiate o (Some reqs))) =
      match rest with
      | [] => Ok (RNegotiate (mk_option v a s) None)
      | _ :: _ => let* reqs := r in Ok (RNegotiate (mk_option v a s) (Some reqs))
      end).
    { intros y Hy. rewrite H1 by exact Hy. cbn [bind]. cbv zeta. rewrite Hl.
      pose proof (zlen_nonneg rest).
      rewrite check_at_least_ok by lia. cbn [bind].
      destruct rest as [|b rest]; [reflexivity|].
      destruct (Z.eqb_spec (zlen (b :: rest)) 0) as [Hz|Hz].
      { apply zlen_zero in Hz. discriminate. }
      change (Z.to_nat 13) with 13%nat.
      assert (Hsk : skipn 13 ("O"%char :: x ++ y) = (b :: rest) ++ y).
      { rewrite Hx. unfold be32. reflexivity. }
      rewrite Hsk, Hr; [reflexivity| |exact Hy].
      rewrite Hx. simpl length. rewrite app_length. unfold be32. simpl length. lia. }
    destruct rest as [|b rest].
    + apply decides_ok with (a := RNegotiate (mk_option v a s) None); [exact Hrun|].
      intros q. split.
      * intros (v' & a' & s' & rs & Hv' & Ha' & Hs' & He & Hok & ->).
        destruct (Hparse v' a' s' _ Hv' Ha' Hs' He) as (-> & -> & -> & Hq).
        rewrite (entries_of_nil rs (conj Hok (eq_sym Hq))). reflexivity.
      * intros ->. exists v, a, s, []. repeat split; auto.
    + destruct r as [t|e|]; [| |destruct Hdec].
      * destruct Hdec as (rs & [Hok Hrs] & -> & Huniq).
        apply decides_ok with (a := RNegotiate (mk_option v a s) (Some (received_requests [] rs))).
        -- intros y Hy. rewrite Hrun by exact Hy. reflexivity.
        -- intros q. split.
           ++ intros (v' & a' & s' & rs' & Hv' & Ha' & Hs' & He & Hok' & ->).
              destruct (Hparse v' a' s' _ Hv' Ha' Hs' He) as (-> & -> & -> & Hq).
              rewrite (Huniq rs' (conj Hok' (eq_sym Hq))).
              destruct rs as [|r0 rs]; [discriminate|]. reflexivity.
           ++ intros ->. exists v, a, s, rs. rewrite <- Hrs. repeat split; auto.
              destruct rs as [|r0 rs]; [discriminate|]. reflexivity.
      * apply decides_fail with (e := e).
        -- intros y Hy. rewrite Hrun by exact Hy. reflexivity.
        -- intros q (v' & a' & s' & rs' & Hv' & Ha' & Hs' & He & Hok' & ->).
           destruct (Hparse v' a' s' _ Hv' Ha' Hs' He) as (-> & -> & -> & Hq).
           exact (Hdec rs' (conj Hok' (eq_sym Hq))).
  - apply decides_fail with (e := e).
    + intros y Hy. rewrite H1 by exact Hy. reflexivity.
    + intros q (v' & a' & s' & rs' & Hv' & Ha' & Hs' & He & Hok' & ->).
      apply (H2 (mk_option v' a' s', 13)). cbn [fst snd o_version o_action o_step].
      repeat split; auto. eexists. exact He.
Qed.

(** *** Fields *)

Lemma reply_string_decides c x :
  decides (fun y => decode_string (c :: x ++ y) (zlen (c :: x)))
          (fun s => s <> [] /\ no_nul s /\ exists rest, x = s ++ NUL :: rest).
Proof. exact (decode_string_decides c x). Qed.

Lemma reply_empty_decides c x (a : reply) :
  decides (fun y => decode_empty (c :: x ++ y) (zlen (c :: x)) a)
          (fun a' => x = [] /\ a' = a).
Proof. exact (decode_empty_decides c x a). Qed.

Definition none_if_empty (v : bytes) : option bytes :=
  match v with [] => None | _ :: _ => Some v end.

(** Index, name and value; the caller passes a length two larger than the content. *)
Lemma indexed_header_decides x :
  zlen x < 2 ^ 62 ->
  indexed_header_inside x ->
  decides (fun y => decode_header_content_with_index (x ++ y) (zlen x + 2))
          (fun r => let '(i, n, o) := r in
             word i /\ n <> [] /\ no_nul n /\
             exists v rest, no_nul v /\ o = none_if_empty v /\
                            x = be32 i ++ n ++ NUL :: v ++ NUL :: rest).
Proof.
  intros Hbig Hin. unfold decode_header_content_with_index.
  pose proof (zlen_nonneg x) as Hpos.
  rewrite Z.mod_small by lia.
  destruct Hin as [Hshort|[(i & rest & Hi & ->)|(i & n & v & rest & Hi & Hn & Hv & ->)]].
  - assert (Hlt : zlen x < 2) by (unfold zlen; lia).
    destruct (Z.ltb_spec (zlen x + 2) 4); [|lia].
    apply decides_fail with (e := None); [reflexivity|].
    intros [[i n] o] (_ & _ & _ & v & rest & _ & _ & ->). rewrite zlen_be32 in Hlt.
    match type of Hlt with zlen ?l + _ < _ => pose proof (zlen_nonneg l) end. lia.
  - rewrite zlen_be32. rewrite zlen_be32 in Hbig, Hpos.
    pose proof (zlen_nonneg (NUL :: rest)) as Hp.
    destruct (Z.ltb_spec (zlen (NUL :: rest) + 4 + 2) 4); [lia|].
    apply decides_fail with (e := None).
    + intros y Hy. rewrite <- app_assoc, read32_word by exact Hi. cbn [bind].
      change (skipn 4 (be32 i ++ (NUL :: rest) ++ y)) with ((NUL :: rest) ++ y). cbn [app].
      rewrite (dntv_found [] rest y); [reflexivity|apply no_nul_nil|].
      rewrite zlen_nil, zlen_cons. pose proof (zlen_nonneg rest). lia.
    + intros [[i' n] o] (Hi' & Hne & Hn & v & r & Hv & -> & He).
      apply word_inj in He as [_ He]; auto.
      destruct (split_nul_unique [] rest n _ no_nul_nil Hn He) as [<- _]. congruence.
  - set (tl := n ++ NUL :: v ++ NUL :: rest) in *.
    rewrite zlen_be32. rewrite zlen_be32 in Hbig, Hpos.
    pose proof (zlen_nonneg tl) as Hp.
    destruct (Z.ltb_spec (zlen tl + 4 + 2) 4); [lia|].
    assert (Hl : zlen tl = zlen n + zlen v + zlen rest + 2).
    { unfold tl. rewrite zlen_app, zlen_cons, zlen_app, zlen_cons. lia. }
    assert (Hparse : forall i' n' v' r', word i' -> no_nul n' -> no_nul v' ->
              be32 i ++ tl = be32 i' ++ n' ++ NUL :: v' ++ NUL :: r' ->
              i' = i /\ n' = n /\ v' = v).
    { intros i' n' v' r' Hi' Hn' Hv' He. apply word_inj in He as [-> He]; auto.
      destruct (split_nul_unique _ _ _ _ Hn Hn' He) as [<- He2].
      destruct (split_nul_unique _ _ _ _ Hv Hv' He2) as [<- _]. auto. }
    pose proof (zlen_nonneg n). pose proof (zlen_nonneg v). pose proof (zlen_nonneg rest).
    destruct n as [|c n].
    + apply decides_fail with (e := None).
      * intros y Hy. rewrite <- app_assoc, read32_word by exact Hi. cbn [bind].
        change (skipn 4 (be32 i ++ tl ++ y)) with (tl ++ y). unfold tl. cbn [app].
        rewrite (dntv_found [] (v ++ NUL :: rest) y); [reflexivity|apply no_nul_nil|].
        change (NUL :: v ++ NUL :: rest) with tl. rewrite zlen_nil. lia.
      * intros [[i' n'] o] (Hi' & Hne & Hn' & v' & r' & Hv' & -> & He).
        destruct (Hparse i' n' v' r' Hi' Hn' Hv' He) as (_ & -> & _). congruence.
    + apply decides_ok with (a := (i, c :: n, none_if_empty v)).
      * intros y Hy. rewrite <- app_assoc, read32_word by exact Hi. cbn [bind].
        change (skipn 4 (be32 i ++ tl ++ y)) with (tl ++ y). unfold tl.
        rewrite <- app_assoc. cbn [app].
        change (c :: n ++ NUL :: (v ++ NUL :: rest) ++ y)
          with ((c :: n) ++ NUL :: (v ++ NUL :: rest) ++ y).
        rewrite (dntv_found (c :: n) _ y); [|exact Hn|].
        2:{ change (c :: n ++ NUL :: v ++ NUL :: rest) with tl. lia. }
        cbn [bind]. replace (Nat.eqb (length (c :: n)) 0) with false by reflexivity.
        rewrite cstring_app by exact Hn. cbn [bind]. rewrite skipn_after.
        rewrite <- app_assoc. cbn [app].
        rewrite (dntv_found v rest y); [|exact Hv|].
        2:{ change (c :: n ++ NUL :: v ++ NUL :: rest) with tl. rewrite Hl. unfold zlen in *. lia. }
        cbn [bind]. destruct v as [|b v]; [reflexivity|].
        replace (Nat.eqb (length (b :: v)) 0) with false by reflexivity.
        change (b :: v ++ NUL :: rest ++ y) with ((b :: v) ++ NUL :: rest ++ y).
        rewrite cstring_app by exact Hv. reflexivity.
      * intros [[i' n'] o]. split.
        -- intros (Hi' & Hne & Hn' & v' & r' & Hv' & -> & He).
           destruct (Hparse i' n' v' r' Hi' Hn' Hv' He) as (-> & -> & ->). reflexivity.
        -- intros [= -> -> ->]. split; [exact Hi|split; [discriminate|split; [exact Hn|]]].
           exists v, rest. auto.
Qed.

Lemma two_string_decides x :
  decides (fun y => decode_two_string (x ++ y) (zlen x))
          (fun r => let '(f, o) := r in
             f <> [] /\ no_nul f /\
             match o with
             | None => x = f ++ [NUL]
             | Some s => s <> [] /\ no_nul s /\ exists rest, x = f ++ NUL :: s ++ NUL :: rest
             end).
Proof.
  unfold decode_two_string.
  destruct (split_nul x) as [Hx|(s & r & -> & Hs)].
  { apply decides_fail with (e := Some E_MISSING_NULL).
    - intros y Hy. rewrite dntv_missing; eauto using in_not_nil.
    - intros [f [s|]] (_ & _ & H).
      + destruct H as (_ & _ & rest & He). exact (no_nul_split_absurd _ _ _ Hx He).
      + exact (no_nul_split_absurd _ _ _ Hx H). }
  assert (Hlen : zlen s < zlen (s ++ NUL :: r)).
  { rewrite zlen_app, !zlen_cons. pose proof (zlen_nonneg r). lia. }
  assert (Hsub : zlen (s ++ NUL :: r) - Z.of_nat (S (length s)) = zlen r).
  { rewrite zlen_app, !zlen_cons. unfold zlen. lia. }
  destruct s as [|a s].
  { apply decides_fail with (e := None).
    - intros y Hy. rewrite <- app_assoc. cbn [app].
      rewrite (dntv_found [] r y); [reflexivity|apply no_nul_nil|exact Hlen].
    - intros [f [s|]] (Hne & Hf & H).
      + destruct H as (_ & _ & rest & He).
        destruct (split_nul_unique [] r f _ no_nul_nil Hf He) as [<- _]. congruence.
      + destruct (split_nul_unique [] r f _ no_nul_nil Hf H) as [<- _]. congruence. }
  set (n := a :: s) in *.
  assert (Hrun : forall y,
    (let* n0 := decode_null_terminated_value ((n ++ NUL :: r) ++ y) (zlen (n ++ NUL :: r)) in
     if Nat.eqb n0 0 then Fail None
     else
       let* first := cstring ((n ++ NUL :: r) ++ y) in
       let p1 := skipn (S n0) ((n ++ NUL :: r) ++ y) in
       let len1 := zlen (n ++ NUL :: r) - Z.of_nat (S n0) in
       if len1 <=? 0 then Ok (first, None)
       else
         let* m := decode_null_terminated_value p1 len1 in
         if Nat.eqb m 0 then Fail None
         else let* second := cstring p1 in Ok (first, Some second)) =
    if zlen r <=? 0 then Ok (n, None)
    else let* m := decode_null_terminated_value (r ++ y) (zlen r) in
         if Nat.eqb m 0 then Fail None
         else let* second := cstring (r ++ y) in Ok (n, Some second)).
  { intros y. rewrite <- app_assoc. cbn [app].
    rewrite (dntv_found n r y); [|exact Hs|exact Hlen].
    cbn [bind]. replace (Nat.eqb (length n) 0) with false by reflexivity.
    rewrite cstring_app by exact Hs. cbn [bind]. cbv zeta. rewrite skipn_after, Hsub. reflexivity. }
  eapply decides_ext; [intros y _; apply Hrun|]. clear Hrun.
  destruct r as [|b r].
  { apply decides_ok with (a := (n, None)); [reflexivity|].
    intros [f [q|]]; (split; [intros (_ & Hf & H)|intros Heq]).
    - destruct H as (_ & _ & rest & He).
      destruct (split_nul_unique _ _ _ _ Hs Hf He) as [<- He2]. destruct q; discriminate.
    - discriminate.
    - destruct (split_nul_unique _ _ _ _ Hs Hf H) as [<- _]. reflexivity.
    - injection Heq as ->. split; [discriminate|auto]. }
  destruct (Z.leb_spec (zlen (b :: r)) 0) as [Hz|_].
  { rewrite zlen_cons in Hz. pose proof (zlen_nonneg r). lia. }
  assert (Hnone : forall f, no_nul f -> n ++ NUL :: b :: r <> f ++ [NUL]).
  { intros f Hf He. destruct (split_nul_unique _ _ _ _ Hs Hf He) as [_ H]. discriminate. }
  set (r2 := b :: r) in *.
  destruct (split_nul r2) as [Hr|(v & r3 & Hr2 & Hv)].
  { apply decides_fail with (e := Some E_MISSING_NULL).
    - intros y Hy. rewrite dntv_missing; eauto using in_not_nil.
    - intros [f [q|]] (_ & Hf & H).
      + destruct H as (_ & _ & rest & He).
        destruct (split_nul_unique _ _ _ _ Hs Hf He) as [_ He2].
        exact (no_nul_split_absurd _ _ _ Hr He2).
      + exact (Hnone f Hf H). }
  clearbody r2. subst r2.
  assert (Hl3 : zlen v < zlen (v ++ NUL :: r3)).
  { rewrite zlen_app, !zlen_cons. pose proof (zlen_nonneg r3). lia. }
  destruct v as [|vc v].
  { apply decides_fail with (e := None).
    - intros y Hy. rewrite <- app_assoc. cbn [app].
      rewrite (dntv_found [] r3 y); [reflexivity|apply no_nul_nil|exact Hl3].
    - intros [f [q|]] (_ & Hf & H).
      + destruct H as (Hq & Hqn & rest & He).
        destruct (split_nul_unique _ _ _ _ Hs Hf He) as [_ He2].
        destruct (split_nul_unique [] _ _ _ no_nul_nil Hqn He2) as [<- _]. congruence.
      + exact (Hnone f Hf H). }
  set (w := vc :: v) in *.
  apply decides_ok with (a := (n, Some w)).
  - intros y Hy. rewrite <- app_assoc. cbn [app].
    rewrite (dntv_found w r3 y); [|exact Hv|exact Hl3]. cbn [bind].
    replace (Nat.eqb (length w) 0) with false by reflexivity.
    rewrite cstring_app by exact Hv. reflexivity.
  - intros [f [q|]]; (split; [intros (_ & Hf & H)|intros Heq]).
    + destruct H as (Hq & Hqn & rest & He).
      destruct (split_nul_unique _ _ _ _ Hs Hf He) as [<- He2].
      destruct (split_nul_unique _ _ _ _ Hv Hqn He2) as [<- _]. reflexivity.
    + injection Heq as -> ->. split; [discriminate|split; [exact Hs|]].
      split; [discriminate|split; [exact Hv|]]. exists r3. reflexivity.
    + destruct (Hnone f Hf H).
    + discriminate.
Qed.

(** *** Reply codes *)

Lemma find_space_found s r n :
  no_space s -> (length s < n)%nat -> find_space (s ++ " "%char :: r) n = Ok (Some (length s)).
Proof.
  revert n. induction s as [|c s IH]; intros n Hs Hn; (destruct n as [|n]; [simpl in Hn; lia|]);
    cbn [app find_space].
  - rewrite beqb_refl. reflexivity.
  - destruct (beqb c " ") eqn:E.
    + apply beqb_eq in E as ->. exfalso. apply Hs. left. reflexivity.
    + rewrite IH; auto.
      * intros H. apply Hs. right. exact H.
      * simpl in Hn. lia.
Qed.

Lemma find_space_missing x y : no_space x -> find_space (x ++ y) (length x) = Ok None.
Proof.
  intros Hx. induction x as [|c x IH]; cbn [length find_space app]; [reflexivity|].
  destruct (beqb c " ") eqn:E.
  - apply beqb_eq in E as ->. exfalso. apply Hx. left. reflexivity.
  - rewrite IH; auto. intros H. apply Hx. right. exact H.
Qed.

Lemma strndup_prefix s r : no_nul s -> strndup (s ++ r) (length s) = Ok s.
Proof.
  induction s as [|c s IH]; intros Hs; cbn [length strndup app]; [reflexivity|].
  apply no_nul_cons in Hs as [Hc Hs]. rewrite (beqb_nul_false c Hc), IH by auto. reflexivity.
Qed.

Definition text_of_code (p1 : ptr) (len1 : Z) : res (bytes * option bytes) :=
  let* space := find_space p1 (Z.to_nat len1) in
  match space with
  | None => let* ext := cstring p1 in Ok (ext, None)
  | Some i =>
      let* ext := strndup p1 i in
      let* message := cstring (skipn (S i) p1) in
      Ok (ext, Some message)
  end.

Lemma skipn_after_any {A} (a : list A) x r : skipn (S (length a)) (a ++ x :: r) = r.
Proof. induction a as [|b a IH]; [reflexivity|exact IH]. Qed.

Lemma text_of_code_spec u rest y :
  no_nul u -> (no_space u -> no_space rest) ->
  exists ext msg,
    text_of_code (u ++ NUL :: rest ++ y) (zlen (u ++ NUL :: rest)) = Ok (ext, msg) /\
    no_space ext /\ no_nul ext /\
    u = match msg with None => ext | Some m => ext ++ " "%char :: m end.
Proof.
  intros Hu Hr. unfold text_of_code, zlen. rewrite Nat2Z.id.
  destruct (split_space u) as [Hs|(e & m & -> & He)].
  - replace (u ++ NUL :: rest ++ y) with ((u ++ NUL :: rest) ++ y)
      by (rewrite <- app_assoc; reflexivity).
    rewrite find_space_missing.
    2:{ intros H. apply in_app_or in H as [H|[H|H]]; [auto|discriminate|].
        exact (Hr Hs H). }
    cbn [bind]. rewrite <- app_assoc. cbn [app].
    rewrite cstring_app by exact Hu. exists u, None. auto.
  - apply no_nul_app in Hu as [Hue Hum]. apply no_nul_cons in Hum as [_ Hum].
    rewrite <- !app_assoc. cbn [app].
    rewrite find_space_found; [|exact He|].
    2:{ rewrite app_length. cbn [length]. lia. }
    cbn [bind]. rewrite strndup_prefix by exact Hue. cbn [bind]. rewrite skipn_after_any.
    rewrite cstring_app by exact Hum. exists e, (Some m). auto.
Qed.

Fixpoint first_space (s : bytes) : option (bytes * bytes) :=
  match s with
  | [] => None
  | c :: s' => if beqb c " " then Some ([], s')
               else match first_space s' with Some (e, m) => Some (c :: e, m) | None => None end
  end.

Lemma first_space_none s : no_space s -> first_space s = None.
Proof.
  induction s as [|c s IH]; intros H; cbn [first_space]; [reflexivity|].
  destruct (beqb c " ") eqn:E.
  - apply beqb_eq in E as ->. exfalso. apply H. left. reflexivity.
  - rewrite IH; [reflexivity|]. intros Hi. apply H. right. exact Hi.
Qed.

Lemma first_space_some e m : no_space e -> first_space (e ++ " "%char :: m) = Some (e, m).
Proof.
  induction e as [|c e IH]; intros H; cbn [first_space app]; [reflexivity|].
  destruct (beqb c " ") eqn:E.
  - apply beqb_eq in E as ->. exfalso. apply H. left. reflexivity.
  - rewrite IH; [reflexivity|]. intros Hi. apply H. right. exact Hi.
Qed.

Definition code_parse (text : bytes) : bytes * option bytes :=
  let u := match text with c :: u => if beqb c " " then u else text | [] => text end in
  match first_space u with None => (u, None) | Some (e, m) => (e, Some m) end.

Lemma head_not_space c s : no_space (c :: s) -> beqb c " " = false.
Proof. intros H. apply beqb_neq. intros ->. apply H. left. reflexivity. Qed.

Lemma code_text_parse text e m : code_text text e m -> code_parse text = (e, m).
Proof.
  intros H. unfold code_parse. destruct H as [e Hs|e Hs|e m Hs Hne|e m Hs].
  - destruct e as [|c e]; [reflexivity|]. rewrite (head_not_space c e Hs).
    rewrite first_space_none by exact Hs. reflexivity.
  - rewrite beqb_refl, first_space_none by exact Hs. reflexivity.
  - destruct e as [|c e]; [congruence|]. cbn [app]. rewrite (head_not_space c e Hs).
    change (c :: e ++ " "%char :: m) with ((c :: e) ++ " "%char :: m).
    rewrite first_space_some by exact Hs. reflexivity.
  - rewrite beqb_refl, first_space_some by exact Hs. reflexivity.
Qed.

Lemma code_text_fun text e m : code_text text e m -> forall e' m', code_text text e' m' ->
  e = e' /\ m = m'.
Proof.
  intros H e' m' H'. apply code_text_parse in H, H'. rewrite H in H'. injection H'. auto.
Qed.

Lemma deref_at (p : ptr) i c : nth_error p i = Some c -> deref p i = Ok c.
Proof. intros H. unfold deref. rewrite H. reflexivity. Qed.

Lemma reply_code_decides x :
  ~ unguarded_reply ("y"%char :: x) ->
  decides (fun y => decode_reply_code ("y"%char :: x ++ y) (zlen ("y"%char :: x)))
          (reply_packet ("y"%char :: x)).
Proof.
  intros Hug. unfold decode_reply_code. cbn [skipn].
  replace (zlen ("y"%char :: x) - 1) with (zlen x) by (rewrite zlen_cons; lia).
  assert (Hinv : forall r, reply_packet ("y"%char :: x) r ->
    exists a b c n text ext msg rest, x = a :: b :: c :: text ++ NUL :: rest /\
      smtp_code a b c n /\ no_nul text /\ code_text text ext msg /\
      (msg = None -> no_space rest) /\ r = RReplyCode n ext msg).
  { intros r H. inversion H; subst. eauto 20. }
  destruct x as [|a [|b [|c x]]];
    try (apply decides_fail with (e := Some E_SHORT_COMMAND_LENGTH);
         [ intros y Hy; rewrite check_at_least_short; [reflexivity|reflexivity|reflexivity]
         | intros r H; apply Hinv in H as (? & ? & ? & ? & ? & ? & ? & ? & He & _); discriminate He ]).
  assert (Hl : 3 <= zlen (a :: b :: c :: x)).
  { rewrite !zlen_cons. pose proof (zlen_nonneg x). lia. }
  assert (Hstep : forall y, In NUL y ->
    (let* _ := check_command_length ((a :: b :: c :: x) ++ y) (zlen (a :: b :: c :: x)) 3 COMPARE_AT_LEAST in
     let* a := deref ((a :: b :: c :: x) ++ y) 0 in
     if negb (beqb a "4"%char || beqb a "5"%char) then Fail (Some E_LONG_COMMAND_LENGTH)
     else
     let* b0 := deref ((a :: b :: c :: x) ++ y) 1 in
     if negb (is_digit b0) then Fail (Some E_LONG_COMMAND_LENGTH)
     else
       let* c0 := deref ((a :: b :: c :: x) ++ y) 2 in
       if negb (is_digit c0) then Fail (Some E_LONG_COMMAND_LENGTH)
       else
         let* n := decode_null_terminated_value ((a :: b :: c :: x) ++ y) (zlen (a :: b :: c :: x)) in
         if Nat.eqb n 0 then Fail None
         else
           let* sep := deref ((a :: b :: c :: x) ++ y) 3 in
           let p1 := if beqb sep " "%char then skipn 4 ((a :: b :: c :: x) ++ y)
                     else skipn 3 ((a :: b :: c :: x) ++ y) in
           let len1 := if beqb sep " "%char then zlen (a :: b :: c :: x) - 4
                       else zlen (a :: b :: c :: x) - 3 in
           let* space := find_space p1 (Z.to_nat len1) in
           match space with
           | None => let* ext := cstring p1 in Ok (RReplyCode (atoi3 a b0 c0) ext None)
           | Some i =>
               let* ext := strndup p1 i in
               let* message := cstring (skipn (S i) p1) in
               Ok (RReplyCode (atoi3 a b0 c0) ext (Some message))
           end) =
     if negb (beqb a "4"%char || beqb a "5"%char) then Fail (Some E_LONG_COMMAND_LENGTH)
     else if negb (is_digit b) then Fail (Some E_LONG_COMMAND_LENGTH)
     else if negb (is_digit c) then Fail (Some E_LONG_COMMAND_LENGTH)
     else
       let* n := decode_null_terminated_value ((a :: b :: c :: x) ++ y) (zlen (a :: b :: c :: x)) in
       if Nat.eqb n 0 then Fail None
       else
         let* sep := deref ((a :: b :: c :: x) ++ y) 3 in
         let* t := (if beqb sep " "%char then text_of_code (skipn 4 ((a :: b :: c :: x) ++ y)) (zlen x - 1)
                   else text_of_code (x ++ y) (zlen x)) in
         Ok (RReplyCode (atoi3 a b c) (fst t) (snd t))).
  { intros y Hy. rewrite check_at_least_ok by exact Hl. cbn [bind app]. unfold deref at 1 2 3.
    cbn [nth_error bind]. change (skipn 3 (a :: b :: c :: x ++ y)) with (x ++ y).
    replace (zlen (a :: b :: c :: x) - 4) with (zlen x - 1) by (rewrite !zlen_cons; lia).
    replace (zlen (a :: b :: c :: x) - 3) with (zlen x) by (rewrite !zlen_cons; lia).
    destruct (negb (beqb a "4" || beqb a "5")); [reflexivity|].
    destruct (negb (is_digit b)); [reflexivity|]. destruct (negb (is_digit c)); [reflexivity|].
    destruct (decode_null_terminated_value _ _) as [n|e|]; [|reflexivity|reflexivity]. cbn [bind].
    destruct (Nat.eqb n 0); [reflexivity|].
    destruct (deref (a :: b :: c :: x ++ y) 3) as [sep|e|]; [|reflexivity|reflexivity]. cbn [bind].
    unfold text_of_code.
    destruct (beqb sep " "); destruct (find_space _ _) as [[i|]|e|]; try reflexivity; cbn [bind].
    - destruct (strndup _ _); try reflexivity. cbn [bind]. destruct (cstring _); reflexivity.
    - destruct (cstring _); reflexivity.
    - destruct (strndup _ _); try reflexivity. cbn [bind]. destruct (cstring _); reflexivity.
    - destruct (cstring _); reflexivity. }
  eapply decides_ext; [exact Hstep|]. clear Hstep.
  assert (Hbad : forall r, reply_packet ("y"%char :: a :: b :: c :: x) r ->
            exists n text ext msg rest, x = text ++ NUL :: rest /\
              smtp_code a b c n /\ no_nul text /\ code_text text ext msg /\
              (msg = None -> no_space rest) /\ r = RReplyCode n ext msg).
  { intros r H. apply Hinv in H as (a' & b' & c' & n & text & ext & msg & rest & He & H).
    injection He as -> -> -> He. exists n, text, ext, msg, rest. tauto. }
  clear Hinv.
  destruct (beqb a "4" || beqb a "5") eqn:Ea; cbn [negb].
  2:{ apply decides_fail with (e := Some E_LONG_COMMAND_LENGTH); [reflexivity|].
      intros r H. apply Hbad in H as (n & text & ext & msg & rest & _ & (Ha & _) & _).
      destruct Ha as [-> | ->]; discriminate Ea. }
  destruct (is_digit b) eqn:Eb; cbn [negb].
  2:{ apply decides_fail with (e := Some E_LONG_COMMAND_LENGTH); [reflexivity|].
      intros r H. apply Hbad in H as (n & text & ext & msg & rest & _ & (_ & Hb & _) & _).
      congruence. }
  destruct (is_digit c) eqn:Ec; cbn [negb].
  2:{ apply decides_fail with (e := Some E_LONG_COMMAND_LENGTH); [reflexivity|].
      intros r H. apply Hbad in H as (n & text & ext & msg & rest & _ & (_ & _ & Hc & _) & _).
      congruence. }
  assert (Hcode : smtp_code a b c (atoi3 a b c)).
  { split; [|split; [exact Eb|split; [exact Ec|reflexivity]]].
    apply orb_true_iff in Ea as [E|E]; apply beqb_eq in E; auto. }
  assert (Habc : no_nul [a; b; c]).
  { assert (Hd : forall d, is_digit d = true -> d <> NUL).
    { intros d H ->. discriminate H. }
    apply no_nul_cons. split.
    - apply orb_true_iff in Ea as [E|E]; apply beqb_eq in E; subst a; discriminate.
    - apply no_nul_cons. split; [apply Hd, Eb|]. apply no_nul_cons. split; [apply Hd, Ec|].
      apply no_nul_nil. }
  destruct (split_nul x) as [Hx|(text & rest & -> & Ht)].
  { apply decides_fail with (e := Some E_MISSING_NULL).
    - intros y Hy. rewrite dntv_missing; eauto using in_not_nil.
      change (a :: b :: c :: x) with ([a; b; c] ++ x). apply no_nul_app. auto.
    - intros r H. apply Hbad in H as (n & text & ext & msg & rest & He & _).
      exact (no_nul_split_absurd _ _ _ Hx He). }
  assert (Hn3 : no_nul (a :: b :: c :: text)).
  { change (a :: b :: c :: text) with ([a; b; c] ++ text). apply no_nul_app. auto. }
  assert (Hdntv : forall y, decode_null_terminated_value
                ((a :: b :: c :: text ++ NUL :: rest) ++ y) (zlen (a :: b :: c :: text ++ NUL :: rest))
              = Ok (length (a :: b :: c :: text))).
  { intros y.
    replace ((a :: b :: c :: text ++ NUL :: rest) ++ y)
      with ((a :: b :: c :: text) ++ NUL :: rest ++ y)
      by (cbn [app]; rewrite <- app_assoc; reflexivity).
    apply dntv_found; [exact Hn3|]. rewrite !zlen_cons, zlen_app, zlen_cons.
    pose proof (zlen_nonneg rest). lia. }
  assert (Hconcl : forall ext msg,
            code_text text ext msg -> (msg = None -> no_space rest) ->
            forall r, reply_packet ("y"%char :: a :: b :: c :: text ++ NUL :: rest) r <->
                      r = RReplyCode (atoi3 a b c) ext msg).
  { intros ext msg Hct Hsp r. split.
    - intros H. apply Hbad in H as (n & text' & ext' & msg' & rest' & He & (_ & _ & _ & Hnn) & Ht' & Hct' & _ & ->).
      destruct (split_nul_unique _ _ _ _ Ht Ht' He) as [<- _].
      destruct (code_text_fun _ _ _ Hct _ _ Hct') as [-> ->].
      destruct Hcode as (_ & _ & _ & Hn'). congruence.
    - intros ->. apply rp_code; auto. }
  assert (Hnos : forall ext, code_text text ext None -> no_space rest).
  { intros ext Hct Hi. apply Hug. apply (ur_code a b c text ext rest); auto. }
  destruct text as [|s text'].
  - (* code only *)
    assert (Hct : code_text [] [] None) by (apply ct_plain; intros []).
    destruct (text_of_code_spec [] rest [NUL] no_nul_nil (fun _ => Hnos _ Hct))
      as (ext & msg & _ & _ & _ & _).
    apply decides_ok with (a := RReplyCode (atoi3 a b c) [] None); [|apply Hconcl; eauto].
    intros y Hy. rewrite Hdntv. cbn [bind length Nat.eqb].
    unfold deref. cbn [app nth_error bind]. change (beqb NUL " ") with false. cbv iota.
    destruct (text_of_code_spec [] rest y no_nul_nil (fun _ => Hnos _ Hct))
      as (ext' & msg' & Hrun & _ & _ & Hu).
    cbn [app] in Hrun. rewrite Hrun. cbn [bind fst snd].
    destruct msg' as [m|]; [destruct ext'; discriminate|]. subst ext'. reflexivity.
  - apply no_nul_cons in Ht as Ht'. destruct Ht' as [Hs Ht'].
    destruct (beqb s " ") eqn:Es.
    + apply beqb_eq in Es as ->.
      assert (Hsp : no_space text' -> no_space rest).
      { intros H. apply (Hnos text'). apply ct_space. exact H. }
      destruct (split_space text') as [Hno|(e & m & -> & He)].
      * apply decides_ok with (a := RReplyCode (atoi3 a b c) text' None).
        2:{ apply Hconcl; [apply ct_space; exact Hno|auto]. }
        intros y Hy. rewrite Hdntv. cbn [bind length Nat.eqb].
        unfold deref. cbn [app nth_error bind skipn]. rewrite beqb_refl.
        replace (zlen (" "%char :: text' ++ NUL :: rest) - 1) with (zlen (text' ++ NUL :: rest))
          by (rewrite zlen_cons; lia).
        rewrite <- app_assoc. cbn [app].
        destruct (text_of_code_spec text' rest y Ht' Hsp) as (ext & msg & Hrun & _ & _ & Hu).
        rewrite Hrun. cbn [bind fst snd].
        destruct msg as [m|]; [|congruence]. exfalso. exact (no_space_split_absurd _ _ _ Hno Hu).
      * apply decides_ok with (a := RReplyCode (atoi3 a b c) e (Some m)).
        2:{ apply Hconcl; [apply ct_space_message; exact He|discriminate]. }
        intros y Hy. rewrite Hdntv. cbn [bind length Nat.eqb].
        unfold deref. cbn [app nth_error bind skipn]. rewrite beqb_refl.
        replace (zlen (" "%char :: (e ++ " "%char :: m) ++ NUL :: rest) - 1)
          with (zlen ((e ++ " "%char :: m) ++ NUL :: rest)) by (rewrite zlen_cons; lia).
        replace (((e ++ " "%char :: m) ++ NUL :: rest) ++ y)
          with ((e ++ " "%char :: m) ++ NUL :: rest ++ y)
          by (rewrite <- (app_assoc _ (NUL :: rest)); reflexivity).
        destruct (text_of_code_spec (e ++ " "%char :: m) rest y Ht' Hsp)
          as (ext & msg & Hrun & Hse & _ & Hu).
        rewrite Hrun. cbn [bind fst snd].
        destruct msg as [m'|].
        -- destruct (split_space_unique _ _ _ _ He Hse Hu) as [-> ->]. reflexivity.
        -- exfalso. exact (no_space_split_absurd _ _ _ Hse (eq_sym Hu)).
    + assert (Hsp : no_space (s :: text') -> no_space rest).
      { intros H. apply (Hnos (s :: text')). apply ct_plain. exact H. }
      destruct (text_of_code_spec (s :: text') rest [] Ht Hsp) as (ext & msg & _ & Hse & _ & Hu).
      assert (Hct : code_text (s :: text') ext msg).
      { destruct msg as [m|]; rewrite Hu.
        - apply ct_message; [exact Hse|]. intros ->. cbn [app] in Hu. injection Hu as Hu1 _.
          subst s. rewrite beqb_refl in Es. discriminate.
        - apply ct_plain. exact Hse. }
      apply decides_ok with (a := RReplyCode (atoi3 a b c) ext msg).
      2:{ apply Hconcl; [exact Hct|]. intros ->. eauto. }
      intros y Hy. rewrite Hdntv. cbn [bind length Nat.eqb].
      unfold deref. cbn [app nth_error bind]. rewrite Es.
      destruct (text_of_code_spec (s :: text') rest y Ht Hsp) as (ext' & msg' & Hrun & Hse' & _ & Hu').
      replace (s :: (text' ++ NUL :: rest) ++ y) with ((s :: text') ++ NUL :: rest ++ y)
        by (cbn [app]; rewrite <- app_assoc; reflexivity).
      change (s :: text' ++ NUL :: rest) with ((s :: text') ++ NUL :: rest).
      rewrite Hrun. cbn [bind fst snd].
      destruct msg as [m|], msg' as [m'|]; rewrite Hu in Hu'.
      * destruct (split_space_unique _ _ _ _ Hse Hse' Hu') as [-> ->]. reflexivity.
      * exfalso. exact (no_space_split_absurd _ _ _ Hse' (eq_sym Hu')).
      * exfalso. exact (no_space_split_absurd _ _ _ Hse Hu').
      * congruence.
Qed.
