(** Custom replies: the parser accepts exactly the specified codes, and the formatted text is
    read back. *)
From Verif.Base Require Import Bytes BytesFacts.
From Verif.Model Require Import Decoder ReplyCodec ReplyCode.
From Verif.Spec Require Import ReplyGrammar ReplyCodeSpec.
From Coq Require Import ZifyBool ZifyNat ZifyN.
Local Open Scope N_scope.

Lemma digit_not_dot c : is_digit c = true -> beqb c "."%char = false.
Proof. intros H. apply beqb_neq. intros ->. discriminate H. Qed.

Lemma digit_not_space c : is_digit c = true -> c <> " "%char.
Proof. intros H ->. discriminate H. Qed.

Lemma parse_detail_spec s : forall i, (i <= 3)%nat ->
  (parse_detail i s <> None <->
   (1 <= i + length s <= 3)%nat /\ Forall (fun c => is_digit c = true) s).
Proof.
  induction s as [|c s IH]; intros i Hi; cbn [parse_detail length].
  - destruct (Nat.eqb_spec i 0).
    + split; [congruence|]. intros [H _]. lia.
    + split; [|discriminate]. intros _. split; [lia|constructor].
  - destruct (Nat.leb_spec 3 i).
    + split; [congruence|]. intros [H' _]. lia.
    + destruct (is_digit c) eqn:Ec; cbn [negb].
      * rewrite IH by lia. split; intros [H1 H2]; (split; [lia|]); [constructor; auto|].
        inversion H2; auto.
      * split; [congruence|]. intros [_ H2]. inversion H2; congruence.
Qed.

Lemma parse_subject_app subject : forall i rest, (i <= 3)%nat ->
  (1 <= i + length subject <= 3)%nat -> Forall (fun c => is_digit c = true) subject ->
  parse_subject i (subject ++ "."%char :: rest) = Some rest.
Proof.
  induction subject as [|c s IH]; intros i rest Hi Hl Hd; cbn [parse_subject app length] in *.
  - rewrite beqb_refl. destruct (Nat.eqb_spec i 0); [lia|reflexivity].
  - inversion Hd as [|? ? Hc Hs]; subst. rewrite (digit_not_dot c Hc), Hc. cbn [negb].
    destruct (Nat.leb_spec 3 i); [lia|]. apply IH; auto; lia.
Qed.

Lemma parse_subject_inv s : forall i rest, (i <= 3)%nat ->
  parse_subject i s = Some rest -> rest <> [] ->
  exists subject, s = subject ++ "."%char :: rest /\ (1 <= i + length subject <= 3)%nat /\
                  Forall (fun c => is_digit c = true) subject.
Proof.
  induction s as [|c s IH]; intros i rest Hi H Hne; cbn [parse_subject] in H.
  - destruct (Nat.eqb i 0); congruence.
  - destruct (beqb c "."%char) eqn:Ed.
    + apply beqb_eq in Ed. subst c. destruct (Nat.eqb_spec i 0); [discriminate|].
      injection H as <-. exists []. cbn. repeat split; [lia|lia|constructor].
    + destruct (Nat.leb_spec 3 i); [discriminate|].
      destruct (is_digit c) eqn:Ec; cbn [negb] in H; [|discriminate].
      destruct (IH (S i) rest) as (sub & -> & Hl & Hd); auto.
      exists (c :: sub). cbn [length]. repeat split; [lia|lia|constructor; auto].
Qed.

Lemma class_byte k : k = 2 \/ k = 4 \/ k = 5 ->
  let c := byte_of (48 + k) in
  beqb c "."%char = false /\ beqb c "2"%char || beqb c "4"%char || beqb c "5"%char = true /\
  class_digit c = k.
Proof. intros [->|[->| ->]]; vm_compute; auto. Qed.

Lemma parse_class_spec s k rest :
  parse_class s = Some (k, rest) -> rest <> [] ->
  (k = 2 \/ k = 4 \/ k = 5) /\ s = byte_of (48 + k) :: "."%char :: rest.
Proof.
  destruct s as [|c [|d s]]; cbn [parse_class]; [discriminate| |].
  - destruct (beqb c "."%char); [discriminate|].
    destruct (negb (beqb c "2"%char || beqb c "4"%char || beqb c "5"%char)); [discriminate|].
    intros H. injection H as <- <-. congruence.
  - destruct (beqb c "."%char); [discriminate|].
    destruct (beqb c "2"%char) eqn:E2; [|destruct (beqb c "4"%char) eqn:E4; [|destruct (beqb c "5"%char) eqn:E5]];
      cbn [orb negb]; try discriminate;
      (destruct (beqb d "."%char) eqn:Ed; [|discriminate]); apply beqb_eq in Ed; subst d;
      intros H; injection H as <- <-; intros _;
      [apply beqb_eq in E2|apply beqb_eq in E4|apply beqb_eq in E5]; subst c;
      (split; [vm_compute; auto|reflexivity]).
Qed.

Lemma parse_class_app k rest : k = 2 \/ k = 4 \/ k = 5 ->
  parse_class (byte_of (48 + k) :: "."%char :: rest) = Some (k, rest).
Proof.
  intros H. destruct (class_byte k H) as (H1 & H2 & H3). cbn zeta in *.
  cbn [parse_class]. rewrite H1, H2, H3. reflexivity.
Qed.

Lemma extended_code_parse_spec s k :
  extended_code_parse s = Some k <-> (k = 2 \/ k = 4 \/ k = 5) /\ status_code k s.
Proof.
  unfold extended_code_parse. split.
  - destruct (parse_class s) as [[k' [|c1 s1]]|] eqn:E1; try discriminate.
    destruct (parse_subject 0 (c1 :: s1)) as [[|c2 s2]|] eqn:E2; try discriminate.
    destruct (parse_detail 0 (c2 :: s2)) as [r|] eqn:E3; [|discriminate].
    intros H. injection H as <-.
    destruct (parse_class_spec _ _ _ E1) as [Hk ->]; [discriminate|].
    destruct (parse_subject_inv _ 0 _ (Nat.le_0_l 3) E2) as (sub & Hs & Hl & Hd); [discriminate|].
    split; [exact Hk|]. exists sub, (c2 :: s2).
    assert (Hp : parse_detail 0 (c2 :: s2) <> None) by congruence.
    apply (parse_detail_spec _ 0 (Nat.le_0_l 3)) in Hp. destruct Hp as [Hp1 Hp2].
    repeat split; auto; try lia. congruence.
  - intros [Hk (sub & det & [Hl1 Hd1] & [Hl2 Hd2] & ->)].
    rewrite parse_class_app by exact Hk.
    destruct (sub ++ "."%char :: det) as [|c1 s1] eqn:E; [destruct sub; discriminate|].
    rewrite <- E, (parse_subject_app sub 0 det) by (auto; lia).
    destruct det as [|c2 s2]; [cbn in Hl2; lia|].
    destruct (parse_detail 0 (c2 :: s2)) eqn:Ep; [reflexivity|].
    exfalso. apply (proj2 (parse_detail_spec (c2 :: s2) 0 (Nat.le_0_l 3))); auto.
Qed.

Lemma hundreds c : 400 <= c < 600 -> c / 100 = 4 \/ c / 100 = 5.
Proof.
  intros H. assert (4 <= c / 100 < 6).
  { split; [apply N.div_le_lower_bound; lia|apply N.div_lt_upper_bound; lia]. }
  lia.
Qed.

Lemma set_reply_spec r c e m :
  (acceptable c e /\ set_reply r c e m = (true, mk_smtp_reply c e m)) \/
  (~ acceptable c e /\ set_reply r c e m = (false, r)).
Proof.
  unfold set_reply, acceptable.
  destruct (N.leb_spec 400 c), (N.ltb_spec c 600); cbn [andb negb];
    try (right; split; [intros [? _]; lia|reflexivity]).
  destruct e as [e|]; [|left; repeat split; auto; lia].
  destruct (extended_code_parse e) as [k|] eqn:E.
  - apply extended_code_parse_spec in E. destruct E as [Hk Hs].
    destruct (N.eqb_spec k (c / 100)) as [->|Hne].
    + left. repeat split; auto; lia.
    + right. split; [|reflexivity]. intros [_ (sub & det & _ & _ & E1)].
      destruct Hs as (sub' & det' & _ & _ & E2). rewrite E1 in E2. injection E2 as E2 _.
      assert (Hh := hundreds c). destruct Hh as [Hh|Hh]; try lia; rewrite Hh in E2, Hne;
        destruct Hk as [->|[->| ->]]; try congruence; vm_compute in E2; discriminate.
  - right. split; [|reflexivity]. intros [_ Hs].
    assert (Hx : extended_code_parse e = Some (c / 100)).
    { apply extended_code_parse_spec. split; [|exact Hs]. destruct (hundreds c); auto; lia. }
    congruence.
Qed.

(** *** Formatting *)

Lemma split_lines_one m : ~ In LF m -> split_lines m = [m].
Proof.
  induction m as [|c m IH]; intros H; cbn [split_lines]; [reflexivity|].
  destruct (beqb c LF) eqn:E; [apply beqb_eq in E; subst c; destruct H; left; reflexivity|].
  rewrite IH; [reflexivity|]. intros Hi. apply H. right. exact Hi.
Qed.

Lemma format_one_line c e m :
  c <> 0 -> one_line m ->
  format_reply_code (mk_smtp_reply c (Some e) (Some m)) =
  Some (three_digits c ++ " "%char :: e ++ " "%char :: m).
Proof.
  intros Hc (Hne & Hnul & Hlf & Hcr). unfold format_reply_code. cbn [sr_code sr_extended sr_message].
  destruct (N.eqb_spec c 0); [congruence|]. f_equal.
  destruct m as [|c0 m]; [congruence|]. unfold strsplit_lines.
  rewrite (split_lines_one (c0 :: m) Hlf). cbn [map join_crlf]. unfold format_line, strip_cr.
  destruct (beqb (last (c0 :: m) NUL) CR) eqn:E; [apply beqb_eq in E; contradiction|].
  cbn [app]. reflexivity.
Qed.

Lemma digit_byte n : n < 10 ->
  is_digit (byte_of (48 + n)) = true /\ code (byte_of (48 + n)) - 48 = n.
Proof.
  intros H. assert (Hn : In n [0;1;2;3;4;5;6;7;8;9]).
  { destruct n as [|p]; [left; reflexivity|].
    cbn [In]. lia. }
  cbn [In] in Hn. repeat (destruct Hn as [<-|Hn]; [vm_compute; auto|]). destruct Hn.
Qed.

Lemma three_digits_code c : 400 <= c < 600 ->
  exists x y z, three_digits c = [x; y; z] /\ smtp_code x y z c.
Proof.
  intros H. unfold three_digits. do 3 eexists. split; [reflexivity|].
  pose proof (hundreds c H) as Hh.
  assert (Hy : c / 10 mod 10 < 10) by (apply N.mod_lt; discriminate).
  assert (Hz : c mod 10 < 10) by (apply N.mod_lt; discriminate).
  destruct (digit_byte _ Hy) as [Hy1 Hy2]. destruct (digit_byte _ Hz) as [Hz1 Hz2].
  assert (Hx : c / 100 < 10) by lia. destruct (digit_byte _ Hx) as [_ Hx2].
  unfold smtp_code. rewrite Hx2, Hy2, Hz2. repeat split; auto.
  - destruct Hh as [->| ->]; vm_compute; auto.
  - pose proof (N.div_mod c 10 ltac:(discriminate)) as E1.
    pose proof (N.div_mod (c / 10) 10 ltac:(discriminate)) as E2.
    rewrite N.div_div in E2 by discriminate. change (10 * 10) with 100 in E2. lia.
Qed.

Lemma digits_no_space s : Forall (fun c => is_digit c = true) s -> no_space s /\ no_nul s.
Proof.
  intros H. rewrite Forall_forall in H. split.
  - intros Hi. apply H in Hi. discriminate Hi.
  - intros Hi. apply H in Hi. discriminate Hi.
Qed.

Lemma status_code_text k s : k < 10 -> status_code k s -> no_space s /\ no_nul s /\ (length s <= 9)%nat.
Proof.
  intros Hk (sub & det & [Hl1 H1] & [Hl2 H2] & ->).
  destruct (digits_no_space _ H1) as [A1 A2]. destruct (digits_no_space _ H2) as [B1 B2].
  destruct (digit_byte k Hk) as [Hd _].
  assert (Hall : forall b, In b (byte_of (48 + k) :: "."%char :: sub ++ "."%char :: det) ->
                 is_digit b = true \/ b = "."%char).
  { intros b [<-|[<-|Hi]]; auto. apply in_app_or in Hi. rewrite Forall_forall in H1, H2.
    destruct Hi as [Hi|[<-|Hi]]; auto. }
  split; [|split].
  - intros Hi. apply Hall in Hi. destruct Hi as [Hi|Hi]; discriminate.
  - intros Hi. apply Hall in Hi. destruct Hi as [Hi|Hi]; discriminate.
  - cbn [length]. rewrite app_length. cbn [length]. lia.
Qed.

Lemma custom_reply_means c e m t :
  acceptable c (Some e) -> one_line m ->
  format_reply_code (mk_smtp_reply c (Some e) (Some m)) = Some t ->
  means (EReplyCode t) (RReplyCode c e (Some m)).
Proof.
  intros [Hc Hs] Hm. rewrite format_one_line by (auto; lia). intros H.
  assert (t = three_digits c ++ " "%char :: e ++ " "%char :: m) as -> by congruence.
  destruct (three_digits_code c Hc) as (x & y & z & -> & Hcode).
  destruct (status_code_text (c / 100) e) as (He1 & He2 & _); auto.
  { destruct (hundreds c Hc) as [->| ->]; reflexivity. }
  cbn [app]. apply m_code; auto.
  - apply no_nul_cons. split; [discriminate|]. apply no_nul_app. split; [exact He2|].
    apply no_nul_cons. split; [discriminate|]. apply Hm.
  - apply ct_space_message. exact He1.
Qed.
