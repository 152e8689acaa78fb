(** Streams of commands: encoder to decoder. *)
From Verif.Base Require Import Bytes BytesFacts.
From Verif.Model Require Import Decoder Encoder CommandCodec.
From Verif.Spec Require Import FrameSpec CommandGrammar.
From Verif.Proofs Require Import FieldProofs FramingProofs CommandProofs.
From Coq Require Import ZifyBool ZifyNat ZifyN Permutation.
Ltac Zify.zify_post_hook ::= Z.div_mod_to_equations.
Local Open Scope Z_scope.

Lemma pack_frame p : zlen p < 4294967296 -> pack p = frame p.
Proof.
  unfold pack, frame, zlen. intros H. rewrite N.mod_small by lia. reflexivity.
Qed.

Section Handler.
  Variables (pton4 pton6 : bytes -> option bytes).
  Let h := command_handler pton4 pton6.

  Lemma in_nul_tail (more : bytes) : In NUL (more ++ [NUL]).
  Proof. apply in_or_app. right. left. reflexivity. Qed.

  (** A guarded packet: reported exactly as the grammar says, or refused. *)
  Lemma handler_spec p :
    ~ unguarded_command p ->
    (exists c, exact_packet pton4 pton6 p c /\ forall more, h (p ++ more) (zlen p) = HOk [c] None) \/
    ((forall c, ~ exact_packet pton4 pton6 p c) /\
     exists e, forall more, h (p ++ more) (zlen p) = HFail e).
  Proof.
    intros Hug. destruct (command_decides pton4 pton6 p Hug) as (r & Hr & Hdec).
    assert (Hh : forall more, h (p ++ more) (zlen p) =
                   match r with Ok c => HOk [c] None | Fail e => HFail e | UB => HUB end).
    { intros more. unfold h, command_handler. rewrite <- app_assoc, Hr by apply in_nul_tail.
      reflexivity. }
    destruct r as [c|e|]; [left|right|destruct Hdec].
    - exists c. split; [apply Hdec; reflexivity|exact Hh].
    - split; [exact Hdec|]. exists e. exact Hh.
  Qed.

  Lemma handler_self_contained p : ~ unguarded_command p -> self_contained h p.
  Proof.
    intros Hug more.
    assert (He : h p (zlen p) = h (p ++ []) (zlen p)) by (rewrite app_nil_r; reflexivity).
    rewrite He.
    destruct (handler_spec p Hug) as [(c & _ & H)|(_ & e & H)]; rewrite !H; reflexivity.
  Qed.

  Lemma handler_alone p :
    ~ unguarded_command p ->
    (exists c, exact_packet pton4 pton6 p c /\ alone h p = HOk [c] None) \/
    ((forall c, ~ exact_packet pton4 pton6 p c) /\ exists e, alone h p = HFail e).
  Proof.
    intros Hug.
    assert (He : alone h p = h (p ++ []) (zlen p)) by (rewrite app_nil_r; reflexivity).
    rewrite He.
    destruct (handler_spec p Hug) as [(c & H1 & H2)|(H1 & e & H2)].
    - left. exists c. rewrite H2. auto.
    - right. split; [exact H1|]. exists e. apply H2.
  Qed.

  (** A stream of guarded packets: the longest prefix of well-formed packets is reported. *)
  Lemma receive_packets ps :
    Forall (fun p => ~ unguarded_command p) ps ->
    exists good cs rest,
      ps = good ++ rest /\
      Forall2 (exact_packet pton4 pton6) good cs /\
      match rest with
      | [] => receive (alone h) ps = (cs, [], Complete)
      | bad :: _ => (forall c, ~ exact_packet pton4 pton6 bad c) /\
                    exists es, receive (alone h) ps = (cs, es, Refused)
      end.
  Proof.
    induction ps as [|p ps IH]; intros Hall.
    - exists [], [], []. split; [reflexivity|split; [constructor|reflexivity]].
    - inversion Hall as [|? ? Hp Hps Heq]; subst. cbn [receive].
      destruct (handler_alone p Hp) as [(c & Hc & ->)|(Hno & e & ->)].
      + destruct (IH Hps) as (good & cs & rest & -> & Hg & Hr).
        exists (p :: good), (c :: cs), rest. split; [reflexivity|split; [constructor; auto|]].
        destruct rest as [|bad rest'].
        * rewrite Hr. reflexivity.
        * destruct Hr as [Hno (es & Hr)]. split; [exact Hno|]. exists es. rewrite Hr. reflexivity.
      + exists [], [], (p :: ps). split; [reflexivity|split; [constructor|]].
        split; [exact Hno|]. eexists. reflexivity.
  Qed.
End Handler.

(** *** The encoder's packets *)

Lemma bare_name_iff k : bare_name k k <-> forall n, k <> "{"%char :: n ++ ["}"%char].
Proof.
  split.
  - intros H n ->. inversion H as [m Hm|k' H' He]; subst.
    + apply (f_equal (@length ascii)) in Hm. simpl in Hm. rewrite !app_length in Hm.
      simpl in Hm. apply (f_equal (@length ascii)) in H1. simpl in H1.
      rewrite app_length in H1. simpl in H1. lia.
    + exact (H' n eq_refl).
  - apply unbraced.
Qed.

Lemma wire_key_bare k n : k <> [] -> bare_name k n -> bare_name (wire_key k) n.
Proof.
  intros Hne H. destruct k as [|c k]; [congruence|]. cbn [wire_key].
  destruct (beqb c "{") eqn:E; [exact H|]. apply beqb_neq in E.
  destruct k as [|d k]; [exact H|].
  inversion H as [m Hm|k' H' He]; subst; [congruence|].
  change ("{"%char :: (c :: d :: k) ++ ["}"%char]) with ("{"%char :: (c :: d :: k) ++ ["}"%char]).
  constructor.
Qed.

Lemma wire_key_ok k : sendable_string k -> sendable_string (wire_key k).
Proof.
  intros [Hne Hn]. destruct k as [|c k]; [congruence|]. cbn [wire_key].
  destruct (beqb c "{"); [split; auto|]. destruct k as [|d k]; [split; auto|].
  split; [discriminate|]. apply no_nul_cons. split; [discriminate|].
  apply no_nul_app. split; [exact Hn|]. apply no_nul_cons. split; [discriminate|apply no_nul_nil].
Qed.

Section Encoder.
  Variables (ntop4 ntop6 : bytes -> bytes) (pton4 pton6 : bytes -> option bytes).
  Variable sort_keys : list bytes -> list bytes.
  Hypothesis sort_permutes : forall l, Permutation (sort_keys l) l.
  Hypothesis print4 : prints_back ntop4 pton4 4.
  Hypothesis print6 : prints_back ntop6 pton6 16.

  Definition pair_of (t : table) (k : bytes) : bytes * bytes :=
    (wire_key k, match lookup t k with Some v => v | None => [] end).

  Lemma encode_macro_list_pairs t keys :
    Forall (fun k => k <> []) keys ->
    encode_macro_list t keys = concat (map pair_bytes (map (pair_of t) keys)).
  Proof.
    induction keys as [|k keys IH]; intros H; [reflexivity|].
    inversion H as [|? ? Hk Hks]; subst. destruct k as [|c k]; [congruence|].
    cbn [encode_macro_list map concat]. rewrite IH by exact Hks.
    unfold pair_bytes at 2, pair_of at 2. cbn [fst snd].
    rewrite <- app_assoc. cbn [app]. rewrite <- app_assoc. reflexivity.
  Qed.

  (** Tables whose names differ also without braces. *)
  Definition distinct_bare (t : table) : Prop :=
    forall k1 k2 n, In k1 (map fst t) -> In k2 (map fst t) ->
                    bare_name k1 n -> bare_name k2 n -> k1 = k2.

  Definition macro_names_ok (t : table) : Prop :=
    NoDup (map fst t) /\
    Forall (fun kv => sendable_string (fst kv) /\ no_nul (snd kv)) t.

  Lemma bare_name_total k : k <> [] -> exists n, bare_name k n.
  Proof. intros H. exists (normalized_key k). apply normalized_bare, H. Qed.

  Lemma encoded_table t :
    macro_names_ok t -> distinct_bare t ->
    exists kvs t', encode_macros sort_keys t = concat (map pair_bytes kvs) /\
      Forall pair_ok kvs /\ t' = received [] kvs /\
      forall n v, lookup t' n = Some v <-> exists k, bare_name k n /\ lookup t k = Some v.
  Proof.
    intros [Hnd Hok] Hdist. rewrite Forall_forall in Hok.
    set (keys := sort_keys (map fst t)).
    assert (Hperm : Permutation keys (map fst t)) by apply sort_permutes.
    assert (Hin : forall k, In k keys <-> In k (map fst t)).
    { intros k. split; apply Permutation_in; [exact Hperm|symmetry; exact Hperm]. }
    assert (Hknd : NoDup keys) by (apply (Permutation_NoDup (Permutation_sym Hperm)); exact Hnd).
    assert (Hlook : forall k, In k keys -> exists v, lookup t k = Some v /\ sendable_string k /\ no_nul v).
    { intros k Hk. apply Hin, in_map_iff in Hk as ([k' v] & He & Hi). cbn [fst] in He. subst k'.
      exists v. split; [apply lookup_nodup; auto|]. exact (Hok _ Hi). }
    set (kvs := map (pair_of t) keys).
    assert (Hpok : Forall pair_ok kvs).
    { apply Forall_forall. intros kv Hkv. unfold kvs in Hkv.
      apply in_map_iff in Hkv as (k & <- & Hk). destruct (Hlook k Hk) as (v & Hv & Hs & Hvn).
      unfold pair_of. rewrite Hv. destruct (wire_key_ok k Hs) as [H1 H2]. repeat split; auto. }
    exists kvs, (received [] kvs). split; [|split; [exact Hpok|split; [reflexivity|]]].
    { apply encode_macro_list_pairs. apply Forall_forall. intros k Hk.
      destruct (Hlook k Hk) as (v & _ & [Hne _] & _). exact Hne. }
    intros n v. pose proof (received_table_of kvs Hpok) as [_ Ht]. rewrite Ht. clear Ht. split.
    - intros Hl. inversion Hl as [|before wk v' after n' Hb Ha He]; subst.
      assert (Hi : In (wk, v) kvs) by (rewrite <- He; apply in_or_app; right; left; reflexivity).
      unfold kvs in Hi. apply in_map_iff in Hi as (k & Hp & Hk).
      destruct (Hlook k Hk) as (v' & Hv & Hs & _). unfold pair_of in Hp. rewrite Hv in Hp.
      injection Hp as <- <-. exists k. split; [|exact Hv].
      destruct Hs as [Hne _]. destruct (bare_name_total k Hne) as (m & Hm).
      pose proof (wire_key_bare k m Hne Hm) as Hw. rewrite (bare_name_fun _ _ _ Hb Hw). exact Hm.
    - intros (k & Hb & Hv).
      assert (Hk : In k keys).
      { apply Hin. apply lookup_in in Hv. apply in_map_iff. exists (k, v). auto. }
      apply in_split in Hk as (before & after & Hsplit).
      unfold kvs. rewrite Hsplit, map_app. cbn [map].
      destruct (Hlook k) as (v0 & Hv0 & [Hne _] & _).
      { rewrite Hsplit. apply in_or_app. right. left. reflexivity. }
      assert (v0 = v) as -> by congruence.
      unfold pair_of at 2. rewrite Hv0. apply last_some.
      + apply wire_key_bare; auto.
      + intros k' v' Hi Hb'. apply in_map_iff in Hi as (k2 & Hp & Hk2).
        unfold pair_of in Hp. injection Hp as <- _.
        assert (Hk2in : In k2 keys).
        { rewrite Hsplit. apply in_or_app. right. right. exact Hk2. }
        destruct (Hlook k2 Hk2in) as (v2 & _ & [Hne2 _] & _).
        destruct (bare_name_total k2 Hne2) as (m & Hm).
        pose proof (wire_key_bare k2 m Hne2 Hm) as Hw.
        rewrite (bare_name_fun _ _ _ Hw Hb') in Hm.
        assert (k2 = k).
        { apply (Hdist k2 k n); auto; apply Hin; auto.
          rewrite Hsplit. apply in_or_app. right. left. reflexivity. }
        subst k2. rewrite Hsplit in Hknd. apply NoDup_remove_2 in Hknd. apply Hknd.
        apply in_or_app. auto.
  Qed.

  Lemma bare_table t :
    Forall (fun kv => sendable_string (fst kv) /\ bare_name (fst kv) (fst kv) /\ no_nul (snd kv)) t ->
    distinct_bare t.
  Proof.
    intros H k1 k2 n H1 H2 Hb1 Hb2. rewrite Forall_forall in H.
    apply in_map_iff in H1 as ([a1 b1] & <- & H1). apply in_map_iff in H2 as ([a2 b2] & <- & H2).
    cbn [fst] in *. destruct (H _ H1) as (_ & Hx1 & _). destruct (H _ H2) as (_ & Hx2 & _).
    cbn [fst] in *. rewrite (bare_name_fun _ _ _ Hx1 Hb1), (bare_name_fun _ _ _ Hx2 Hb2). reflexivity.
  Qed.

  Lemma payload_packet c :
    sendable c ->
    exists c', exact_packet pton4 pton6 (command_payload ntop4 ntop6 sort_keys c) c' /\
               same_command c c'.
  Proof.
    intros Hs. destruct c; cbn [sendable] in Hs; cbn [command_payload];
      try (eexists; split; [|reflexivity]; cbn [exact_packet]).
    - destruct Hs as (Hv & Ha & Hst). destruct o as [v a s]. apply cp_negotiate; auto.
    - destruct Hs as (Hctx & Hnd & Hall).
      assert (Hmn : macro_names_ok macros).
      { split; [exact Hnd|]. rewrite Forall_forall in *. intros kv Hi.
        destruct (Hall kv Hi) as (H1 & _ & H2). auto. }
      destruct (encoded_table macros Hmn (bare_table _ Hall)) as (kvs & t' & He & Hok & Ht & Hl).
      exists (CDefineMacro context t'). split.
      + exists kvs. rewrite He. auto.
      + split; [reflexivity|]. intros n. destruct (lookup macros n) as [v|] eqn:En.
        * symmetry. apply Hl. exists n. split; [|exact En].
          rewrite Forall_forall in Hall. destruct (Hall _ (lookup_in _ _ _ En)) as (_ & H & _).
          exact H.
        * destruct (lookup t' n) as [v|] eqn:Ev; [|reflexivity].
          apply Hl in Ev as (k & Hb & Hk). rewrite Forall_forall in Hall.
          destruct (Hall _ (lookup_in _ _ _ Hk)) as (_ & H & _). cbn [fst] in H.
          rewrite (bare_name_fun _ _ _ H Hb) in Hk. congruence.
    - destruct Hs as ([Hne Hn] & Ha). apply cp_connect; auto.
      destruct a as [[p1 p2] ip|[p1 p2] ip|path|]; cbn [encode_address sendable_address] in *.
      + destruct (print4 ip Ha) as (H1 & H2 & H3). apply addr_inet; auto.
      + destruct (print6 ip Ha) as (H1 & H2 & H3). rewrite app_assoc.
        apply addr_inet6 with (plain := ntop6 ip); auto.
        * discriminate.
        * apply no_nul_app. split; [|exact H2]. apply no_nulb_spec. reflexivity.
        * apply ipv6_prefixed.
      + destruct Ha as ([H1 H2] & _). apply addr_unix; auto.
      + apply addr_unknown.
    - destruct Hs. apply cp_helo; auto.
    - destruct Hs. apply cp_from; auto.
    - destruct Hs. apply cp_rcpt; auto.
    - apply cp_data.
    - destruct Hs. apply cp_unknown; auto.
    - destruct Hs as ([Hne Hn] & Hv). apply cp_header; auto.
    - apply cp_end_of_header.
    - unfold packed_chunk. rewrite firstn_all2; [apply cp_body|].
      unfold zlen in Hs. unfold MILTER_CHUNK_SIZE. lia.
    - destruct chunk as [b|]; [apply cp_end_of_message_chunk; exact Hs|apply cp_end_of_message].
    - apply cp_abort.
    - apply cp_quit.
  Qed.

  Lemma payload_guarded c :
    sendable c -> ~ unguarded_command (command_payload ntop4 ntop6 sort_keys c).
  Proof.
    intros Hs Hug.
    destruct c; cbn [command_payload] in Hug; unfold append_negotiate in Hug; cbn [app] in Hug;
      try (inversion Hug; fail).
    cbn [sendable] in Hs. destruct Hs as ([Hne Hn] & Ha).
    inversion Hug as [| |h' Hne' Hn' He|h' p1 p2 path rest Hne' Hn' Hp Hl He].
    - destruct (split_nul_unique _ _ _ _ Hn' Hn He) as [_ Hr].
      destruct a as [[p1 p2] ip|[p1 p2] ip|path|]; discriminate.
    - destruct (split_nul_unique _ _ _ _ Hn' Hn He) as [_ Hr].
      destruct a as [[q1 q2] ip|[q1 q2] ip|path'|]; try discriminate.
      cbn [encode_address] in Hr. injection Hr as _ _ Hr.
      destruct Ha as ([H1 H2] & H3).
      destruct (split_nul_unique _ _ _ _ Hp H2 Hr) as [-> _]. lia.
  Qed.

  (** A list of sendable commands travels over any chunking. *)
  Lemma payloads_received cs :
    Forall sendable cs ->
    exists cs', receive (alone (command_handler pton4 pton6))
                  (map (command_payload ntop4 ntop6 sort_keys) cs) = (cs', [], Complete) /\
                Forall2 same_command cs cs'.
  Proof.
    induction cs as [|c cs IH]; intros Hall.
    - exists []. split; [reflexivity|constructor].
    - inversion Hall as [|? ? Hc Hcs Heq]; subst. destruct (IH Hcs) as (cs' & Hr & H2).
      destruct (payload_packet c Hc) as (c' & Hp & Hsame).
      cbn [map receive].
      destruct (handler_alone pton4 pton6 _ (payload_guarded c Hc)) as [(c2 & Hc2 & ->)|(Hno & _)].
      + rewrite Hr. exists (c2 :: cs'). split; [reflexivity|]. constructor; [|exact H2].
        destruct (command_decides pton4 pton6 _ (payload_guarded c Hc)) as (r & _ & Hdec).
        destruct r as [c3|e|]; [|destruct (Hdec _ Hc2)|destruct Hdec].
        apply Hdec in Hc2. apply Hdec in Hp. congruence.
      + destruct (Hno _ Hp).
  Qed.

  Lemma commands_received cs chunks :
    Forall sendable cs ->
    Forall (fun c => zlen (command_payload ntop4 ntop6 sort_keys c) < 2147483648) cs ->
    concat chunks = concat (map (fun c => frame (command_payload ntop4 ntop6 sort_keys c)) cs) ->
    fits (concat chunks) ->
    exists d cs' rs,
      feeds (command_handler pton4 pton6) decoder_new chunks = (Some d, cs', rs) /\
      Forall2 same_command cs cs' /\ Forall (fun r => fst r = true) rs /\
      end_decode d = (true, None).
  Proof.
    intros Hs Hl He Hfit.
    destruct (payloads_received cs Hs) as (cs' & Hr & Hsame).
    set (ps := map (command_payload ntop4 ntop6 sort_keys) cs) in *.
    assert (Hf : framed ([] ++ concat chunks) ps []).
    { cbn [app]. rewrite He. rewrite <- map_map. apply framed_frames.
      apply Forall_forall. intros p Hp. apply in_map_iff in Hp as (c & <- & Hc).
      rewrite Forall_forall in Hl. exact (Hl c Hc). }
    assert (Hself : Forall (self_contained (command_handler pton4 pton6)) ps).
    { apply Forall_forall. intros p Hp. apply in_map_iff in Hp as (c & <- & Hc).
      apply handler_self_contained. apply payload_guarded. rewrite Forall_forall in Hs. auto. }
    pose proof (feeds_spec (command_handler pton4 pton6) chunks decoder_new [] ps []
                  represents_new Hf Hself Hfit) as H.
    rewrite Hr in H. unfold feeds_ok in H.
    destruct (feeds (command_handler pton4 pton6) decoder_new chunks) as [[d' evs] rs].
    destruct H as (-> & (d & -> & Hd) & Hrs).
    exists d, cs', rs. split; [reflexivity|split; [exact Hsame|split; [exact Hrs|]]].
    unfold represents in Hd. unfold end_decode.
    destruct (d_state d); auto; exfalso.
    - destruct Hd as (_ & Hd & _). congruence.
    - destruct Hd as (n & _ & _ & Hd & _). unfold be32 in Hd. discriminate.
    - destruct Hd.
  Qed.

  (** What one encoder object writes: negotiate only as the first command. *)
  Definition is_negotiate (c : command) : bool :=
    match c with CNegotiate _ => true | _ => false end.

  Lemma encode_commands_frames cs : forall buf,
    Forall (fun c => zlen (command_payload ntop4 ntop6 sort_keys c) < 2147483648) cs ->
    (buf = [] /\ Forall (fun c => is_negotiate c = false) (tl cs)) \/
    Forall (fun c => is_negotiate c = false) cs ->
    encode_commands ntop4 ntop6 sort_keys buf cs =
    map (fun c => frame (command_payload ntop4 ntop6 sort_keys c)) cs.
  Proof.
    induction cs as [|c cs IH]; intros buf Hl Hn; [reflexivity|].
    inversion Hl as [|? ? Hc Hcs Heq]; subst. cbn [encode_commands map].
    assert (Hfst : encode_command ntop4 ntop6 sort_keys buf c =
                   frame (command_payload ntop4 ntop6 sort_keys c)).
    { rewrite <- pack_frame by lia. destruct Hn as [[-> _]|Hn].
      - destruct c; reflexivity.
      - inversion Hn as [|? ? Hc' _ Heq]; subst. destruct c; try reflexivity. discriminate. }
    rewrite Hfst. f_equal. apply IH; auto. right.
    destruct Hn as [[_ Hn]|Hn]; [exact Hn|]. inversion Hn; auto.
  Qed.
End Encoder.
