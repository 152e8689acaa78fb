(** What the connection checker makes of the output of netstat. *)
From Verif.Base Require Import Bytes BytesFacts.
From Verif.Model Require Import PostfixTable ConnectionSpec Netstat.
From Verif.Spec Require Import PostfixSpec NetstatSpec.
From Verif.Proofs Require Import PostfixProofs ConnectionSpecProofs.
Import List.
Local Open Scope N_scope.

(** *** Words *)
Definition solid (b : bytes) : Prop := Forall (fun c => is_space c = false) b.
Lemma column_solid b : column b -> b <> [] /\ solid b.
Proof.
  intros [N F]. split; [exact N|]. eapply Forall_impl; [|exact F]. intros c H. unfold is_space.
  apply orb_false_iff. split; [apply N.eqb_neq; destruct H as [H|[H H']]; [rewrite H; discriminate|exact H']|]. apply andb_false_iff.
  destruct H as [H|[H _]]; [left|right]; apply N.leb_gt; lia.
Qed.
Lemma blank_space c : blank c -> is_space c = true.
Proof. intros [->| ->]; reflexivity. Qed.
Lemma gap_spaces b : gap b -> b <> [] /\ Forall (fun c => is_space c = true) b.
Proof. intros [N F]. split; [exact N|]. eapply Forall_impl; [|exact F]. apply blank_space. Qed.
Lemma words_solid b : forall cur rest, solid b -> words_from cur (b ++ rest) = words_from (cur ++ b) rest.
Proof.
  induction b as [|c b IH]; intros cur rest H.
  - rewrite app_nil_r. reflexivity.
  - inversion H; subst. cbn [app words_from].
    match goal with E : is_space c = false |- _ => rewrite E end.
    rewrite IH by assumption. rewrite <- app_assoc. reflexivity.
Qed.
Lemma words_skip g rest : Forall (fun c => is_space c = true) g -> words_from [] (g ++ rest) = words_from [] rest.
Proof. induction 1 as [|c g H F IH]; [reflexivity|]. cbn [app words_from]. rewrite H. exact IH. Qed.
Lemma words_one w g rest : w <> [] -> solid w -> g <> [] -> Forall (fun c => is_space c = true) g ->
  words_from [] (w ++ g ++ rest) = w :: words_from [] rest.
Proof.
  intros Hw Sw Hg Sg. rewrite words_solid by assumption. cbn [app].
  destruct g as [|c g]; [congruence|]. inversion Sg; subst. cbn [app words_from].
  match goal with E : is_space c = true |- _ => rewrite E end.
  destruct w as [|d w]; [congruence|]. rewrite words_skip by assumption. reflexivity.
Qed.
Lemma words_last w : w <> [] -> solid w -> words_from [] w = [w].
Proof.
  intros Hw Sw. rewrite <- (app_nil_r w) at 1. rewrite words_solid by assumption. cbn [app words_from].
  destruct w; [congruence|reflexivity].
Qed.
Lemma words_ended w rest : w <> [] -> solid w ->
  (rest = [] \/ exists c rest', rest = c :: rest' /\ is_space c = true) ->
  exists l, words_from [] (w ++ rest) = w :: l.
Proof.
  intros Hw Sw [->|(c & r & -> & E)].
  - rewrite app_nil_r, words_last by assumption. eauto.
  - exists (words_from [] r). apply (words_one w [c] r); auto; discriminate.
Qed.

(** *** Addresses *)
Lemma pieces_nil b : pieces b <> [].
Proof. destruct b as [|c b]; cbn [pieces]; [discriminate|]. destruct (is_sep c); [discriminate|]. destruct (pieces b); discriminate. Qed.
Lemma pieces_plain p : ~ In ":"%char p -> ~ In "."%char p -> pieces p = [p].
Proof.
  induction p as [|c p IH]; intros H1 H2; [reflexivity|]. cbn [pieces].
  assert (E : is_sep c = false).
  { unfold is_sep. apply orb_false_iff. split; apply beqb_neq; intros ->; [apply H1|apply H2]; left; reflexivity. }
  rewrite E, IH; [reflexivity| |]; intros G; [apply H1|apply H2]; right; exact G.
Qed.
Lemma pieces_app a sep p : is_sep sep = true -> ~ In ":"%char p -> ~ In "."%char p ->
  pieces (a ++ sep :: p) = pieces a ++ [p].
Proof.
  intros E H1 H2. induction a as [|c a IH].
  - cbn [app pieces]. rewrite E, pieces_plain by assumption. reflexivity.
  - cbn [app pieces]. destruct (is_sep c).
    + rewrite IH. reflexivity.
    + rewrite IH. destruct (pieces a) as [|q l] eqn:G; [exfalso; exact (pieces_nil _ G)|]. reflexivity.
Qed.
Lemma drop_empty_keep l p : p <> [] -> drop_empty_end (l ++ [p]) = l ++ [p].
Proof.
  intros H. induction l as [|q l IH].
  - cbn [app drop_empty_end]. destruct p; [congruence|reflexivity].
  - cbn [app drop_empty_end]. rewrite IH. destruct (l ++ [p]) eqn:G; [destruct l; discriminate|reflexivity].
Qed.
Lemma join_cons sep q l : l <> [] -> join sep (q :: l) = q ++ sep ++ join sep l.
Proof. destruct l; [congruence|reflexivity]. Qed.
Lemma join_pieces sep other a : is_sep sep = true -> (forall c, is_sep c = true -> c = sep \/ c = other) ->
  ~ In other a -> join [sep] (pieces a) = a.
Proof.
  intros E D. induction a as [|c a IH]; intros H; [reflexivity|].
  assert (Ha : ~ In other a) by (intros G; apply H; right; exact G). specialize (IH Ha).
  cbn [pieces]. destruct (is_sep c) eqn:Ec.
  - assert (c = sep) by (destruct (D c Ec) as [?| ->]; [assumption|exfalso; apply H; left; reflexivity]). subst.
    rewrite join_cons by apply pieces_nil. rewrite IH. reflexivity.
  - destruct (pieces a) as [|q l] eqn:G; [exfalso; exact (pieces_nil _ G)|].
    destruct l as [|q' l].
    + cbn [join] in *. rewrite IH. reflexivity.
    + rewrite join_cons by discriminate. rewrite join_cons in IH by discriminate.
      rewrite <- app_comm_cons, IH. reflexivity.
Qed.
Lemma seps c : is_sep c = true -> c = ":"%char \/ c = "."%char.
Proof. unfold is_sep. rewrite orb_true_iff, !beqb_eq. tauto. Qed.
Definition protocol_of (six : bool) : bytes := if six then lit "tcp6" else lit "tcp4".
Lemma parse_printed six a b : prints_address six a b ->
  parse_tcp_address (protocol_of six) b = (fst a, Some (snd a)).
Proof.
  intros ((sep & S & ->) & N & P & P1 & P2 & _). unfold parse_tcp_address.
  assert (E : is_sep sep = true) by (destruct S as [->| ->]; reflexivity).
  rewrite pieces_app, drop_empty_keep by assumption.
  rewrite last_last, removelast_last.
  apply f_equal2; [|destruct (pieces (fst a)); reflexivity]. destruct six; cbn [protocol_of].
  - change (bytes_eqb (lit "tcp6") (lit "tcp6")) with true. cbn iota.
    apply (join_pieces ":"%char "."%char); [reflexivity|apply seps|exact N].
  - change (bytes_eqb (lit "tcp4") (lit "tcp6")) with false. cbn iota.
    apply (join_pieces "."%char ":"%char); [reflexivity| |exact N]. intros c H. apply seps in H. tauto.
Qed.

(** *** Lines *)
Definition info_of (r : row) : info :=
  mk_info (protocol_of (rw_six r)) (fst (rw_local r)) (Some (snd (rw_local r)))
    (fst (rw_foreign r)) (Some (snd (rw_foreign r))) (rw_state r).
Lemma lf_space : is_space (byte_of 10) = true. Proof. reflexivity. Qed.
Lemma printed_words r b : prints_row r b ->
  exists protocol recv send local foreign more,
    (if rw_six r then protocol = lit "tcp6" else protocol = lit "tcp" \/ protocol = lit "tcp4") /\
    prints_address (rw_six r) (rw_local r) local /\
    prints_address (rw_six r) (rw_foreign r) foreign /\
    words (b ++ [byte_of 10]) = protocol :: recv :: send :: local :: foreign :: more /\
    nth_error more 0 = rw_state r /\ starts_with_tcp (b ++ [byte_of 10]) = true.
Proof.
  intros (protocol & g1 & g2 & g3 & g4 & recv & send & local & foreign & tail & P & G1 & G2 & G3 & G4 & C1 & C2 & A1 & A2 & T & ->).
  assert (Hp : protocol <> [] /\ solid protocol /\ exists rest, protocol = lit "tcp" ++ rest).
  { destruct (rw_six r); [subst|destruct P; subst]; split; try discriminate; split;
      try (repeat constructor); [exists (lit "6")|exists []|exists (lit "4")]; reflexivity. }
  destruct Hp as (Np & Sp & q & Eq).
  assert (Cl : column local) by apply A1. assert (Cf : column foreign) by apply A2.
  apply column_solid in C1, C2, Cl, Cf. apply gap_spaces in G1, G2, G3, G4.
  destruct C1, C2, Cl, Cf, G1, G2, G3, G4.
  assert (M : exists more, words_from [] (foreign ++ tail ++ [byte_of 10]) = foreign :: more /\ nth_error more 0 = rw_state r).
  { destruct (rw_state r) as [st|]; cbn [prints_state] in T.
    - destruct T as (Cs & g & rest & G & -> & R & _). apply column_solid in Cs. destruct Cs as [Ns Ss].
      apply gap_spaces in G. destruct G as [Ng Sg].
      rewrite <- !app_assoc, words_one by assumption.
      destruct (words_ended st (rest ++ [byte_of 10])) as (l & E); try assumption.
      { right. destruct R as [->|(c & rest' & -> & B)]; cbn [app]; eexists _, _; split; try reflexivity.
        apply blank_space. exact B. }
      rewrite E. eexists. split; reflexivity.
    - exists []. split; [|reflexivity].
      assert (F : Forall (fun c => is_space c = true) (tail ++ [byte_of 10])).
      { apply Forall_app. split; [eapply Forall_impl; [|exact T]; apply blank_space|repeat constructor]. }
      rewrite <- (app_nil_r (tail ++ [byte_of 10])). rewrite words_one; auto. destruct tail; discriminate. }
  destruct M as (more & M & Es).
  exists protocol, recv, send, local, foreign, more. repeat (split; [assumption|]).
  split; [|split; [exact Es|]].
  - unfold words. rewrite <- !app_assoc. rewrite !words_one by assumption. rewrite M. reflexivity.
  - rewrite Eq. reflexivity.
Qed.
Lemma parse_row r b : prints_row r b -> parse_line (b ++ [byte_of 10]) = Parsed (info_of r).
Proof.
  intros H. destruct (printed_words r b H) as (protocol & recv & send & local & foreign & more & P & A1 & A2 & W & S & T).
  unfold parse_line. rewrite T, W. cbn [negb nth_error].
  assert (E : (if bytes_eqb protocol (lit "tcp") then lit "tcp4" else protocol) = protocol_of (rw_six r)).
  { destruct (rw_six r); [subst; reflexivity|destruct P; subst; reflexivity]. }
  rewrite E, (parse_printed _ _ _ A1), (parse_printed _ _ _ A2).
  unfold info_of. rewrite <- S. destruct more; reflexivity.
Qed.
Lemma not_tcp b : (forall b', b <> lit "tcp" ++ b') -> starts_with_tcp (b ++ [byte_of 10]) = false.
Proof.
  intros H. unfold starts_with_tcp. apply bytes_eqb_neq.
  destruct b as [|x [|y [|z b]]]; cbn [app firstn].
  - discriminate.
  - intros G. apply (f_equal (@length ascii)) in G. discriminate.
  - intros G. apply (f_equal (fun l => last l NUL)) in G. discriminate.
  - intros G. apply (H b). change (x :: y :: z :: b) with ([x; y; z] ++ b). rewrite G. reflexivity.
Qed.
Lemma row_line_lf r b : prints_row r b -> ~ In (byte_of 10) b.
Proof.
  assert (Q : forall g, gap g -> ~ In (byte_of 10) g).
  { intros g [_ F] I. rewrite Forall_forall in F. destruct (F _ I); discriminate. }
  assert (C : forall g, column g -> ~ In (byte_of 10) g).
  { intros g [_ F] I. rewrite Forall_forall in F. apply F in I. destruct I as [I|[I _]]; vm_compute in I; discriminate. }
  intros (protocol & g1 & g2 & g3 & g4 & recv & send & local & foreign & tail & P & G1 & G2 & G3 & G4 & C1 & C2 & A1 & A2 & T & ->).
  assert (Cl : column local) by apply A1. assert (Cf : column foreign) by apply A2.
  rewrite !in_app_iff. intros [I|[I|[I|[I|[I|[I|[I|[I|[I|I]]]]]]]]]; try (eapply Q; [|exact I]; eassumption); try (eapply C; [|exact I]; eassumption).
  - destruct (rw_six r); [subst|destruct P; subst]; cbn in I; repeat (destruct I as [I|I]; [discriminate|]); exact I.
  - destruct (rw_state r) as [st|]; cbn [prints_state] in T.
    + destruct T as (Cs & g & rest & G & -> & _ & R). rewrite !in_app_iff in I. destruct I as [I|[I|I]]; [exact (Q _ G I)|exact (C _ Cs I)|exact (R I)].
    + rewrite Forall_forall in T. destruct (T _ I); discriminate.
Qed.

(** *** The database *)
Definition key_of (r : row) : bytes := tcp_address (fst (rw_foreign r)) (Some (snd (rw_foreign r))).
Fixpoint fill (db : database) (rs : list row) : database :=
  match rs with
  | [] => db
  | r :: rs =>
      fill (if rw_six r then mk_database (db_tcp4 db) ((key_of r, info_of r) :: db_tcp6 db)
            else mk_database ((key_of r, info_of r) :: db_tcp4 db) (db_tcp6 db)) rs
  end.
Lemma parse_printed_all rs out : prints rs out -> forall db, parse_netstat_result db out = (fill db rs, true).
Proof.
  unfold parse_netstat_result. induction 1 as [|r rs b rest R P IH|rs b rest L O P IH]; intros db.
  - reflexivity.
  - rewrite physical_line by (apply (row_line_lf r); exact R).
    cbn [parse_lines]. rewrite (parse_row r b R). cbn [info_of in_protocol in_foreign_ip in_foreign_port fill].
    destruct (rw_six r) eqn:E; cbn [protocol_of].
    + change (bytes_eqb (lit "tcp6") (lit "tcp4")) with false. change (bytes_eqb (lit "tcp6") (lit "tcp6")) with true. cbn iota.
      rewrite IH. unfold info_of. rewrite E. reflexivity.
    + change (bytes_eqb (lit "tcp4") (lit "tcp4")) with true. cbn iota.
      rewrite IH. unfold info_of. rewrite E. reflexivity.
  - rewrite physical_line by exact L. cbn [parse_lines]. unfold parse_line. rewrite (not_tcp b O). apply IH.
Qed.

(** Keys are the same for the same peer only. *)
Lemma split_port (a a' p p' : bytes) : ~ In ":"%char p -> ~ In ":"%char p' ->
  a ++ ":"%char :: p = a' ++ ":"%char :: p' -> a = a' /\ p = p'.
Proof.
  intros H H'. revert a'. induction a as [|c a IH]; intros [|c' a'] E; cbn [app] in E.
  - split; congruence.
  - inversion E; subst. exfalso. apply H. rewrite in_app_iff. right. left. reflexivity.
  - inversion E; subst. exfalso. apply H'. rewrite in_app_iff. right. left. reflexivity.
  - inversion E; subst. destruct (IH a') as [-> ->]; [assumption|]. auto.
Qed.
Definition plain_port (r : row) : Prop := ~ In ":"%char (snd (rw_foreign r)).
Lemma key_with six text port r : plain_port r -> ~ In ":"%char port -> rw_six r = six ->
  (key_of r = tcp_address text (Some port) <-> is_with six (text, port) r).
Proof.
  intros H H' S. unfold key_of, tcp_address, is_with. split.
  - intros E. apply split_port in E; [|assumption|assumption]. destruct (rw_foreign r); cbn [fst snd] in *. destruct E; subst. auto.
  - intros [_ E]. rewrite E. reflexivity.
Qed.
Definition family_six (six : bool) : family := if six then Inet6 else Inet4.
Lemma table_fill six db rs : table_of (family_six six) (fill db rs) =
  rev (map (fun r => (key_of r, info_of r)) (filter (fun r => Bool.eqb (rw_six r) six) rs)) ++ table_of (family_six six) db.
Proof.
  revert db. induction rs as [|r rs IH]; intros db; [reflexivity|]. cbn [fill filter].
  rewrite IH. destruct (rw_six r), six; cbn [Bool.eqb family_six table_of db_tcp4 db_tcp6 map rev]; rewrite <- ?app_assoc; reflexivity.
Qed.
Lemma find_app l l' k : find_info (l ++ l') k = match find_info l k with Some i => Some i | None => find_info l' k end.
Proof. induction l as [|[k' i] l IH]; [reflexivity|]. cbn [app find_info]. destruct (bytes_eqb k' k); [reflexivity|exact IH]. Qed.
(** Looking up gives the last connection shown, and nothing if there is none. *)
Lemma find_filled six text port rs : Forall plain_port rs -> ~ In ":"%char port ->
  match find_info (table_of (family_six six) (fill empty_database rs)) (tcp_address text (Some port)) with
  | Some i => exists r, shown rs six (text, port) r /\ i = info_of r
  | None => Forall (fun r => ~ is_with six (text, port) r) rs
  end.
Proof.
  intros F P. rewrite table_fill.
  replace (table_of (family_six six) empty_database) with (@nil (bytes * info)) by (destruct six; reflexivity).
  rewrite app_nil_r. induction F as [|r rs Hr F IH]; [constructor|].
  cbn [filter]. destruct (Bool.eqb (rw_six r) six) eqn:E.
  - apply Bool.eqb_prop in E. cbn [map rev]. rewrite find_app.
    destruct (find_info (rev _) _) as [i|].
    + destruct IH as (r0 & (before & after & -> & W & A) & ->). exists r0. split; [|reflexivity].
      exists (r :: before), after. auto.
    + cbn [find_info]. destruct (bytes_eqb (key_of r) (tcp_address text (Some port))) eqn:K.
      * apply bytes_eqb_eq in K. apply (key_with six) in K; [|assumption..]. exists r. split; [|reflexivity].
        exists [], rs. auto.
      * constructor; [|exact IH]. intros W. apply (key_with six) in W; [|assumption..].
        apply bytes_eqb_neq in K. contradiction.
  - assert (N : ~ is_with six (text, port) r) by (intros [W _]; rewrite W, Bool.eqb_reflx in E; discriminate).
    destruct (find_info (rev _) _) as [i|].
    + destruct IH as (r0 & (before & after & -> & W & A) & ->). exists r0. split; [|reflexivity].
      exists (r :: before), after. auto.
    + constructor; assumption.
Qed.
Lemma shown_unique rs six peer r r' : shown rs six peer r -> shown rs six peer r' -> r = r'.
Proof.
  intros (b & a & -> & W & A) (b' & a' & E & W' & A'). revert b' E.
  induction b as [|x b IH]; intros [|x' b'] E; cbn [app] in E; inversion E; subst.
  - reflexivity.
  - exfalso. rewrite Forall_forall in A. apply (A r'); [|exact W']. rewrite in_app_iff. right. left. reflexivity.
  - exfalso. rewrite Forall_forall in A'. apply (A' r); [|exact W]. rewrite in_app_iff. right. left. reflexivity.
  - eapply IH. eassumption.
Qed.
Lemma shown_none rs six peer r : shown rs six peer r -> ~ Forall (fun r => ~ is_with six peer r) rs.
Proof. intros (b & a & -> & W & _) F. apply Forall_app in F. destruct F as [_ F]. inversion F; subst. contradiction. Qed.
Lemma prints_ports rs out : prints rs out -> Forall plain_port rs.
Proof.
  induction 1 as [|r rs b rest R P IH|]; [constructor| |assumption]. constructor; [|exact IH].
  destruct R as (? & ? & ? & ? & ? & ? & ? & ? & ? & ? & _ & _ & _ & _ & _ & _ & _ & _ & A & _). apply A.
Qed.

(** *** The checker *)
Section Checker.
  Variable netstat : nat -> ran.
  Lemma update_always now s : ck_last_update s = None ->
    update_database netstat now s =
    (mk_checker (ck_found s)
       (Some (match netstat (ck_runs s) with Output out => fst (parse_netstat_result empty_database out) | _ => empty_database end))
       None (ck_lifetime s) (Datatypes.S (ck_runs s)),
     match netstat (ck_runs s) with Output out => snd (parse_netstat_result empty_database out) | Fails => true | CannotRun => false end).
  Proof.
    intros H. unfold update_database, need_database_update. rewrite H.
    replace (match ck_database s with Some _ | _ => true end) with true by (destruct (ck_database s); reflexivity).
    destruct (netstat (ck_runs s)) as [out| |]; [|reflexivity..].
    destruct (parse_netstat_result empty_database out); reflexivity.
  Qed.
  (** Whether a client can be looked for. *)
  Definition sought (s : checker) (c : client) : bool :=
    ck_found s && match cl_family c with OtherFamily => false | _ => negb (cl_port c =? 0) end.
  Lemma info_unsought now s c retry : sought s c = false ->
    connection_info netstat now s c retry = (s, Gives None).
  Proof.
    unfold sought, connection_info. intros H. destruct (ck_found s); [|reflexivity]. cbn [negb].
    destruct (cl_family c); try reflexivity; cbn [andb] in H; destruct (cl_port c =? 0); try reflexivity; discriminate.
  Qed.
  Lemma info_sought now s c retry : sought s c = true -> connection_info netstat now s c retry =
    (let (s, ok) := update_database netstat now s in
     if negb ok then (s, Raised)
     else match lookup s c with
     | Some i => (s, Gives (Some i))
     | None =>
         if retry then
           let (s, ok) := update_database netstat now (purge_cache s) in
           if negb ok then (s, Raised) else (s, Gives (lookup s c))
         else (s, Gives None)
     end).
  Proof.
    unfold sought, connection_info. intros H. destruct (ck_found s); [|discriminate]. cbn [negb].
    destruct (cl_family c); try discriminate; cbn [andb] in H; destruct (cl_port c =? 0); try reflexivity; discriminate.
  Qed.
  Definition same_setup (s s' : checker) : Prop :=
    ck_found s' = ck_found s /\ ck_lifetime s' = ck_lifetime s /\ ck_last_update s' = None.
  Lemma info_runs now s c retry s' r : ck_last_update s = None ->
    connection_info netstat now s c retry = (s', r) ->
    same_setup s s' /\
    (if sought s c then (if retry then ck_runs s' = Datatypes.S (ck_runs s) \/ ck_runs s' = Datatypes.S (Datatypes.S (ck_runs s))
                         else ck_runs s' = Datatypes.S (ck_runs s))
     else ck_runs s' = ck_runs s).
  Proof.
    intros H E. unfold same_setup. destruct (sought s c) eqn:K.
    - rewrite info_sought, (update_always now s H) in E by assumption.
      match type of E with context [negb ?ok] => destruct (negb ok) end.
      + inversion E; subst; cbn [ck_found ck_lifetime ck_last_update ck_runs]. destruct retry; auto.
      + match type of E with context [lookup ?a ?b] => destruct (lookup a b) end.
        * inversion E; subst; cbn [ck_found ck_lifetime ck_last_update ck_runs]. destruct retry; auto.
        * destruct retry.
          -- rewrite update_always in E by reflexivity.
             match type of E with context [negb ?ok] => destruct (negb ok) end;
               inversion E; subst; cbn [purge_cache ck_found ck_lifetime ck_last_update ck_runs]; auto.
          -- inversion E; subst; cbn [ck_found ck_lifetime ck_last_update ck_runs]; auto.
    - rewrite info_unsought in E by assumption. inversion E; subst. auto.
  Qed.
  Lemma uses_setup us : forall s, ck_last_update s = None -> same_setup s (do_uses netstat s us).
  Proof.
    unfold do_uses. induction us as [|u us IH]; intros s H; [repeat split; assumption|]. cbn [fold_left].
    assert (G : same_setup s (do_use netstat s u)).
    { destruct u as [now local c|now c]; cbn [do_use].
      - unfold check, connected. destruct local; cbn [negb]; [|repeat split; assumption].
        destruct (connection_info netstat now s c false) as [s' r] eqn:E. cbn [fst].
        exact (proj1 (info_runs _ _ _ _ _ _ H E)).
      - unfold interface. destruct (connection_info netstat now s c true) as [s' r] eqn:E. cbn [fst].
        exact (proj1 (info_runs _ _ _ _ _ _ H E)). }
    destruct G as (G1 & G2 & G3). destruct (IH _ G3) as (I1 & I2 & I3). unfold same_setup. rewrite I1, I2. auto.
  Qed.
  Lemma uses_reached found lifetime us : let s := do_uses netstat (new_checker found lifetime) us in
    ck_found s = found /\ ck_last_update s = None.
  Proof. destruct (uses_setup us (new_checker found lifetime) eq_refl) as (A & _ & B). split; [exact A|exact B]. Qed.
  (** What one question finds after a run that printed connections. *)
  Lemma lookup_printed s rs out six text port : ck_last_update s = None ->
    netstat (ck_runs s) = Output out -> prints rs out ->
    forall now, snd (update_database netstat now s) = true /\
    match lookup (fst (update_database netstat now s)) (mk_client (family_six six) text port) with
    | Some i => exists r, shown rs six (text, decimal port) r /\ i = info_of r
    | None => Forall (fun r => ~ is_with six (text, decimal port) r) rs
    end.
  Proof.
    intros L E P now. rewrite update_always, E by exact L. rewrite (parse_printed_all rs out P). cbn [fst snd].
    split; [reflexivity|]. unfold lookup. cbn [ck_database cl_family cl_text cl_port].
    apply find_filled; [exact (prints_ports _ _ P)|].
    intros I. destruct (decimal_spec port) as (_ & D & _). rewrite Forall_forall in D. apply D in I.
    destruct I as [_ I]. vm_compute in I. exact (I eq_refl).
  Qed.
End Checker.
