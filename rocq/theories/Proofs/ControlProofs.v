(** Control and launch protocols: round trips; the controller's answers. *)
From Verif.Base Require Import Bytes BytesFacts.
From Verif.Model Require Import Decoder Encoder Signals Configuration Control.
From Verif.Spec Require Import FrameSpec ControlSpec.
From Verif.Proofs Require Import FramingProofs FieldProofs CommandStream.
From Coq Require Import ZifyBool ZifyNat ZifyN.
Local Open Scope Z_scope.

(** *** Signals *)

Lemma some_nul (y : bytes) : exists s r, y ++ [NUL] = s ++ NUL :: r /\ no_nul s.
Proof.
  destruct (split_nul (y ++ [NUL])) as [H|(s & r & E & H)]; [|eauto].
  exfalso. apply no_nul_app in H as [_ H]. apply no_nul_cons in H. destruct H as [H _]. apply H. reflexivity.
Qed.

Lemma signal_data_plain t y : no_nul t -> signal_data (t ++ y ++ [NUL]) (zlen t) = Ok t.
Proof.
  intros H. destruct (some_nul y) as (s & r & E & Hs). unfold signal_data. rewrite E, app_assoc.
  rewrite cstring_app by (apply no_nul_app; auto). cbn [bind].
  destruct (Z.leb_spec (zlen t) (zlen ((t ++ s) ++ [NUL]))) as [L|L].
  - f_equal. unfold zlen. rewrite Nat2Z.id, <- app_assoc. apply firstn_app_exact.
  - exfalso. rewrite <- app_assoc, zlen_app in L. pose proof (zlen_nonneg (s ++ [NUL])). lia.
Qed.

(** Exactly the data whose only NUL is the last byte get through. *)
Lemma signal_data_decides t y :
  (no_nul (removelast t) /\ signal_data (t ++ y ++ [NUL]) (zlen t) = Ok t) \/
  (~ no_nul (removelast t) /\ signal_data (t ++ y ++ [NUL]) (zlen t) = UB).
Proof.
  destruct (split_nul t) as [H|(s & r & E & Hs)].
  - left. split; [|apply signal_data_plain; exact H].
    destruct t as [|c t] using rev_ind; [exact H|]. rewrite removelast_last. apply no_nul_app in H. apply H.
  - subst t. unfold signal_data. rewrite <- app_assoc. cbn [app]. rewrite cstring_app by exact Hs. cbn [bind].
    destruct r as [|c r].
    + left. rewrite removelast_last. split; [exact Hs|].
      rewrite Z.leb_refl. unfold zlen. rewrite Nat2Z.id, firstn_all. reflexivity.
    + right. split.
      * rewrite removelast_app by discriminate. cbn [removelast]. intros H.
        apply no_nul_app in H as [_ H]. apply no_nul_cons in H as [H _]. congruence.
      * destruct (Z.leb_spec (zlen (s ++ NUL :: c :: r)) (zlen (s ++ [NUL]))) as [L|L]; [|reflexivity].
        exfalso. rewrite !zlen_app in L. unfold zlen in L. cbn [length] in L. lia.
Qed.

(** *** Splitting off the word *)

Lemma split_word_found w r y :
  no_nul w -> w <> [] ->
  split_word (w ++ NUL :: r ++ y) (zlen (w ++ NUL :: r)) = Ok (w, (r ++ y, zlen r)).
Proof.
  intros Hw Hn. unfold split_word.
  rewrite dntv_found; [|exact Hw|rewrite zlen_app; unfold zlen; cbn [length]; lia]. cbn [bind].
  destruct w as [|c w]; [congruence|]. cbn [length Nat.eqb].
  rewrite cstring_app by exact Hw. cbn [bind]. change (S (length w)) with (length (c :: w)).
  rewrite skipn_after. do 3 f_equal. rewrite zlen_app. unfold zlen. cbn [length]. lia.
Qed.

Ltac words := unfold W_SET_CONFIGURATION, W_GET_CONFIGURATION, W_RELOAD, W_GET_STATUS, W_SUCCESS, W_FAILURE,
  W_ERROR, W_CONFIGURATION, W_STATUS, W_LAUNCH.
Ltac no_nul_word := apply no_nulb_spec; reflexivity.

(** The bytes behind a packet as the handler sees them. *)
Lemma behind (w r more : bytes) : (w ++ NUL :: r) ++ more ++ [NUL] = w ++ NUL :: r ++ (more ++ [NUL]).
Proof. rewrite <- app_assoc. reflexivity. Qed.

Lemma check_none y : check_command_length y 0 0 COMPARE_EXACT = Ok tt.
Proof. reflexivity. Qed.

Lemma command_decoded c more : match c with SetConfiguration t => no_nul t | _ => True end ->
  control_command_handler (control_command_payload c ++ more) (zlen (control_command_payload c)) = HOk [c] None.
Proof.
  intros H. unfold control_command_handler, decode_control_command. rewrite <- app_assoc.
  destruct c as [t| | |]; cbn [control_command_payload]; rewrite behind, split_word_found by (no_nul_word || discriminate);
    cbn [bind]; words.
  - cbn [bytes_eqb lit list_ascii_of_string]. rewrite signal_data_plain by exact H. reflexivity.
  - reflexivity.
  - reflexivity.
  - reflexivity.
Qed.

(** What may come behind a packet: nothing yet, or a packet shorter than 2^24 bytes. *)
Definition follows (more : bytes) : Prop := more = [] \/ exists r, more = NUL :: r.

Lemma follows_cstring m more : no_nul m -> follows more -> cstring (m ++ more ++ [NUL]) = Ok m.
Proof.
  intros H [->|(r & ->)]; [apply (cstring_app m [] H)|apply (cstring_app m (r ++ [NUL]) H)].
Qed.

Lemma reply_decoded r more :
  match r with Success => True | Failure m | Error m | Configuration m => no_nul m | Status _ => False end ->
  follows more ->
  control_reply_handler (control_reply_payload r ++ more) (zlen (control_reply_payload r)) = HOk [r] None.
Proof.
  intros H F. unfold control_reply_handler, decode_control_reply, decode_reply. rewrite <- app_assoc.
  destruct r as [|m|m|m|m]; cbn [control_reply_payload]; try contradiction; rewrite behind, split_word_found by (no_nul_word || discriminate);
    cbn [bind]; words; cbn [bytes_eqb lit list_ascii_of_string].
  - reflexivity.
  - rewrite follows_cstring by assumption. reflexivity.
  - rewrite follows_cstring by assumption. reflexivity.
  - rewrite signal_data_plain by exact H. reflexivity.
Qed.

Lemma manager_reply_decoded r more :
  match r with Success => True | Failure m | Error m => no_nul m | _ => False end -> follows more ->
  manager_reply_handler (control_reply_payload r ++ more) (zlen (control_reply_payload r)) = HOk [r] None.
Proof.
  intros H F. unfold manager_reply_handler, decode_reply. rewrite <- app_assoc.
  destruct r as [|m|m|m|m]; cbn [control_reply_payload]; try contradiction; rewrite behind, split_word_found by (no_nul_word || discriminate);
    cbn [bind]; words; cbn [bytes_eqb lit list_ascii_of_string].
  - reflexivity.
  - rewrite follows_cstring by assumption. reflexivity.
  - rewrite follows_cstring by assumption. reflexivity.
Qed.

Lemma launch_decoded line user more :
  no_nul line -> line <> [] -> match user with Some u => no_nul u /\ u <> [] | None => True end -> follows more ->
  launch_handler (launch_payload (Launch line user) ++ more) (zlen (launch_payload (Launch line user))) =
  HOk [Launch line user] None.
Proof.
  intros Hl Hn Hu F. unfold launch_handler, decode_launch_command. cbn [launch_payload]. rewrite <- app_assoc.
  rewrite behind, split_word_found by (no_nul_word || discriminate).
  cbn [bind]. words. cbn [bytes_eqb lit list_ascii_of_string].
  set (u := match user with Some u => u | None => [] end) in *.
  unfold decode_launch. rewrite <- app_assoc. cbn [app].
  rewrite dntv_found; [|exact Hl|rewrite zlen_app; unfold zlen; cbn [length]; lia]. cbn [bind].
  destruct line as [|c line]; [congruence|]. cbn [length Nat.eqb].
  rewrite cstring_app by exact Hl. cbn [bind]. change (S (length line)) with (length (c :: line)).
  rewrite skipn_after. rewrite zlen_app. unfold zlen. cbn [length].
  destruct user as [v|]; subst u.
  - destruct Hu as [Hv Hne]. destruct v as [|d v]; [congruence|]. cbn [length].
    destruct (Z.ltb_spec (Z.of_nat (S (length line))) (Z.of_nat (S (length line)) + Z.of_nat (S (S (length v))) - 1)); [|lia].
    rewrite follows_cstring by assumption. reflexivity.
  - cbn [length]. destruct (Z.ltb_spec (Z.of_nat (S (length line))) (Z.of_nat (S (length line)) + Z.of_nat 1 - 1)); [lia|]. reflexivity.
Qed.

(** *** Streams *)

Section Streams.
  Variable ev : Type.
  Variable handler : bytes -> Z -> hres ev.
  Variable payload : ev -> bytes.

  Lemma frame_follows p rest : zlen p < 16777216 -> exists r, frame p ++ rest = NUL :: r.
  Proof.
    intros H. unfold frame, be32. cbn [app]. eexists. f_equal. unfold byte_of, zlen in *.
    rewrite N.div_small by lia. reflexivity.
  Qed.

  Lemma short_settled (ms : list ev) :
    Forall (fun m => zlen (payload m) < 16777216 /\
                     forall more, follows more -> handler (payload m ++ more) (zlen (payload m)) = HOk [m] None) ms ->
    settled handler (map payload ms) [].
  Proof.
    induction 1 as [|m ms [Hl Hm] Hms IH]; cbn [map settled]; [auto|]. split; [|exact IH].
    intros more x E.
    assert (F : follows more).
    { destruct more as [|c more]; [left; reflexivity|right]. destruct ms as [|n ms]; [discriminate E|].
      inversion Hms as [|? ? [Hl' _] _]; subst. cbn [map concat] in E.
      rewrite <- app_assoc in E. destruct (frame_follows (payload n) (concat (map frame (map payload ms)) ++ []) Hl') as (r & Er).
      rewrite Er in E. injection E as E1 E2. subst c. eauto. }
    rewrite Hm by exact F. pose proof (Hm [] (or_introl eq_refl)) as H0. rewrite app_nil_r in H0. symmetry. exact H0.
  Qed.

  Lemma receive_all (ms : list ev) :
    Forall (fun m => handler (payload m) (zlen (payload m)) = HOk [m] None) ms ->
    receive (fun p => handler p (zlen p)) (map payload ms) = (ms, [], Complete).
  Proof.
    induction 1 as [|m ms Hm _ IH]; cbn [map receive]; [reflexivity|]. rewrite Hm, IH. reflexivity.
  Qed.

  Lemma stream_heard (ms : list ev) chunks :
    settled handler (map payload ms) [] ->
    Forall (fun m => handler (payload m) (zlen (payload m)) = HOk [m] None) ms ->
    Forall (fun m => zlen (payload m) < 2147483648) ms ->
    fits (concat chunks) ->
    concat chunks = concat (map (fun m => pack (payload m)) ms) ->
    heard (feeds handler decoder_new chunks) ms.
  Proof.
    intros Hs Hm Hl Hf E.
    assert (E' : concat chunks = concat (map frame (map payload ms)) ++ []).
    { rewrite E, app_nil_r, map_map. f_equal. apply map_ext_in. intros m I. rewrite Forall_forall in Hl.
      apply pack_frame. specialize (Hl m I). unfold zlen in Hl |- *. lia. }
    pose proof (feeds_settled handler chunks decoder_new [] (map payload ms) []) as H.
    cbn [app] in H.
    assert (Fr : framed (concat chunks) (map payload ms) []).
    { split; [exact E'|]. split; [|left; simpl; lia]. apply Forall_forall. intros p I. apply in_map_iff in I as (m & <- & I).
      rewrite Forall_forall in Hl. apply Hl, I. }
    specialize (H represents_new Fr Hs Hf). rewrite receive_all in H by exact Hm. unfold feeds_ok in H.
    destruct (feeds handler decoder_new chunks) as [[d evs] rs]. cbn [heard].
    destruct H as [-> [(d0 & -> & Hd) Hr]]. split; [reflexivity|]. split; [exact Hr|]. exists d0. split; [reflexivity|].
    unfold end_decode. unfold represents in Hd. destruct (d_state d0); auto.
    - destruct Hd as (X & Y & _). congruence.
    - destruct Hd as (n & _ & _ & X & _). discriminate X.
    - destruct Hd.
  Qed.
End Streams.

(** *** Only the protocol's packets are understood *)

Lemma split_word_decides p :
  (exists w r, p = w ++ NUL :: r /\ no_nul w /\ w <> [] /\
               split_word (p ++ [NUL]) (zlen p) = Ok (w, (r ++ [NUL], zlen r))) \/
  exists e, split_word (p ++ [NUL]) (zlen p) = Fail e.
Proof.
  destruct (split_nul p) as [H|(w & r & -> & H)].
  - right. exists (Some E_MISSING_NULL). unfold split_word. rewrite dntv_missing; auto. discriminate.
  - destruct w as [|c w].
    + right. exists None. unfold split_word. rewrite <- app_assoc. cbn [app].
      rewrite (dntv_found [] r [NUL]); [reflexivity|exact H|unfold zlen; cbn [length]; lia].
    + left. exists (c :: w), r. split; [reflexivity|]. split; [exact H|]. split; [discriminate|].
      pose proof (split_word_found (c :: w) r [NUL] H ltac:(discriminate)) as X. rewrite <- app_assoc. exact X.
Qed.

Lemma check_decides r y :
  (r = [] /\ check_command_length (r ++ y) (zlen r) 0 COMPARE_EXACT = Ok tt) \/
  (r <> [] /\ check_command_length (r ++ y) (zlen r) 0 COMPARE_EXACT = Fail (Some E_LONG_COMMAND_LENGTH)).
Proof.
  destruct r as [|c r]; [left; auto|right]. split; [discriminate|]. apply check_exact_long; [reflexivity|].
  unfold zlen. cbn [length]. lia.
Qed.

Lemma command_only p evs err : control_command_handler p (zlen p) = HOk evs err ->
  exists c, evs = [c] /\ err = None /\ command_packet p c.
Proof.
  unfold control_command_handler, decode_control_command.
  destruct (split_word_decides p) as [(w & r & -> & Hw & Hn & ->)|(e & ->)]; [|discriminate]. cbn [bind].
  destruct (bytes_eqb w W_SET_CONFIGURATION) eqn:E1.
  { apply bytes_eqb_eq in E1 as ->. destruct (signal_data_decides r []) as [[_ X]|[_ X]]; cbn [app] in X; rewrite X; cbn [bind to_hres];
      [|discriminate]. intros H. injection H as <- <-. eexists. split; [reflexivity|]. split; [reflexivity|]. apply packet_set_configuration. }
  destruct (bytes_eqb w W_GET_CONFIGURATION) eqn:E2.
  { apply bytes_eqb_eq in E2 as ->. destruct (check_decides r [NUL]) as [[-> X]|[_ X]]; rewrite X; cbn [bind to_hres]; [|discriminate].
    intros H. injection H as <- <-. eexists. split; [reflexivity|]. split; [reflexivity|]. apply packet_get_configuration. }
  destruct (bytes_eqb w W_RELOAD) eqn:E3.
  { apply bytes_eqb_eq in E3 as ->. destruct (check_decides r [NUL]) as [[-> X]|[_ X]]; rewrite X; cbn [bind to_hres]; [|discriminate].
    intros H. injection H as <- <-. eexists. split; [reflexivity|]. split; [reflexivity|]. apply packet_reload. }
  destruct (bytes_eqb w W_GET_STATUS) eqn:E4; [|discriminate].
  apply bytes_eqb_eq in E4 as ->. destruct (check_decides r [NUL]) as [[-> X]|[_ X]]; rewrite X; cbn [bind to_hres]; [|discriminate].
  intros H. injection H as <- <-. eexists. split; [reflexivity|]. split; [reflexivity|]. apply packet_get_status.
Qed.

(** *** Where the protocol's words are not understood *)

Lemma status_refused t more : follows more ->
  control_reply_handler (control_reply_payload (Status t) ++ more) (zlen (control_reply_payload (Status t))) =
  HFail (Some E_UNEXPECTED_COMMAND).
Proof.
  intros F. unfold control_reply_handler, decode_control_reply, decode_reply. rewrite <- app_assoc.
  cbn [control_reply_payload]. rewrite behind, split_word_found by (no_nul_word || discriminate). reflexivity.
Qed.

Lemma failure_runs_on m rest x : no_nul m -> no_nul x -> x <> [] ->
  control_reply_handler (control_reply_payload (Error m) ++ x ++ NUL :: rest) (zlen (control_reply_payload (Error m))) =
  HOk [Error (m ++ x)] None.
Proof.
  intros Hm Hx Hn. unfold control_reply_handler, decode_control_reply, decode_reply. rewrite <- app_assoc.
  cbn [control_reply_payload]. rewrite behind, split_word_found by (no_nul_word || discriminate).
  cbn [bind]. words. cbn [bytes_eqb lit list_ascii_of_string].
  replace (m ++ (x ++ NUL :: rest) ++ [NUL]) with ((m ++ x) ++ NUL :: rest ++ [NUL]) by (rewrite <- !app_assoc; reflexivity).
  rewrite cstring_app by (apply no_nul_app; auto). reflexivity.
Qed.

(** *** The controller *)

Section Answers.
  Variable b : build.
  Variables evaluate evaluate_custom : bytes -> settings -> settings * bool.
  Variable to_xml : configuration -> bytes.
  Variable reason : bytes.

  Lemma answer_one c r : length (snd (answer b evaluate evaluate_custom to_xml reason c r)) = 1%nat.
  Proof.
    destruct r; cbn [answer]; try reflexivity.
    - destruct (save_custom _ _ _); reflexivity.
    - destruct (reload _ _ _ _). reflexivity.
  Qed.

  Lemma answers_each c rs :
    length (snd (answers b evaluate evaluate_custom to_xml reason c rs)) = length rs /\
    Forall (fun a => length a = 1%nat) (snd (answers b evaluate evaluate_custom to_xml reason c rs)).
  Proof.
    revert c. induction rs as [|r rs IH]; intros c; cbn [answers]; [split; [reflexivity|constructor]|].
    pose proof (answer_one c r) as H. destruct (answer b evaluate evaluate_custom to_xml reason c r) as [c1 a].
    specialize (IH c1). destruct (answers b evaluate evaluate_custom to_xml reason c1 rs) as [c2 l]. cbn [snd] in *.
    cbn [length]. destruct IH as [<- IH]. split; [reflexivity|constructor; auto].
  Qed.

  Lemma find_map_paths (f : bytes -> bool) paths name path :
    find f (map (fun dir => build_filename dir name) paths) = Some path ->
    exists dir, In dir paths /\ path = build_filename dir name /\ f path = true.
  Proof.
    intros H. apply find_some in H as [H1 H2]. apply in_map_iff in H1 as (dir & <- & H1). eauto.
  Qed.

  Lemma answer_truly c r : r <> Reload ->
    forall c' a, answer b evaluate evaluate_custom to_xml reason c r = (c', [a]) -> told_truly c c' r a.
  Proof.
    intros N c' a. destruct r as [t| | |]; cbn [answer]; [|intros H; injection H as <- <-; reflexivity|congruence|intros H; injection H as <- <-; reflexivity].
    destruct (save_custom (c_paths c) (c_files c) t) as [f|] eqn:E; intros H; injection H as <- <-; cbn [told_truly]; [|auto].
    unfold save_custom in E. destruct (find _ _) as [path|] eqn:E1; [|discriminate]. injection E as <-.
    apply find_map_paths in E1 as (dir & I & -> & _). exists dir. split; [exact I|]. cbn [c_files f_set f_content].
    replace (dir ++ lit "/milter-manager.custom.conf") with (build_filename dir CUSTOM_CONFIG_FILE_NAME) by reflexivity.
    rewrite bytes_eqb_refl. reflexivity.
  Qed.
End Answers.
