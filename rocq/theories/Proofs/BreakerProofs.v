(** How the breaker reads the configuration of Postfix. *)
From Verif.Base Require Import Bytes BytesFacts.
From Verif.Model Require Import PostfixTable ConnectionSpec Netstat Breaker.
From Verif.Spec Require Import PostfixSpec NetstatSpec BreakerSpec ConnectionSpecSpec.
From Verif.Proofs Require Import PostfixProofs NetstatProofs ConnectionSpecProofs.
Import List.
Local Open Scope N_scope.

(** *** Numbers *)
Lemma digit_true c : digit_char c -> is_digit c = true.
Proof. intros [A B]. unfold is_digit. rewrite andb_true_iff, !N.leb_le. auto. Qed.
Lemma digits_number b : Forall digit_char b ->
  forall acc, digits acc b = fold_left (fun v c => v * 10 + (code c - 48)) b acc.
Proof.
  induction 1 as [|c b H F IH]; intros acc; [reflexivity|]. cbn [digits fold_left].
  rewrite (digit_true c H). apply IH.
Qed.
Lemma to_i_number b : b <> [] -> Forall digit_char b -> to_i b = Z.of_N (ConnectionSpecSpec.number b).
Proof.
  intros N F. destruct b as [|c b]; [congruence|]. inversion F as [|? ? H F']; subst.
  assert (S : is_space c = false).
  { destruct H as [A B]. unfold is_space. apply orb_false_iff. split; [apply N.eqb_neq; lia|].
    apply andb_false_iff. right. apply N.leb_gt. lia. }
  unfold to_i. rewrite (drop_stop _ _ _ S).
  assert (M : beqb c "-" = false) by (apply beqb_neq; intros ->; destruct H as [A B]; vm_compute in A; congruence).
  assert (P : beqb c "+" = false) by (apply beqb_neq; intros ->; destruct H as [A B]; vm_compute in A; congruence).
  rewrite M, P. unfold unsigned. rewrite (digit_true c H), (digits_number (c :: b) F), digits_value_from. f_equal; lia.
Qed.

(** *** The output of postconf *)
Lemma name_word c : name_char c -> is_word c = true.
Proof.
  unfold name_char, is_word, is_digit. intros [H|[H|[H|H]]].
  - replace ((48 <=? code c) && (code c <=? 57)) with true by (symmetry; rewrite andb_true_iff, !N.leb_le; exact H). reflexivity.
  - replace ((65 <=? code c) && (code c <=? 90)) with true by (symmetry; rewrite andb_true_iff, !N.leb_le; exact H).
    rewrite orb_true_r. reflexivity.
  - replace ((97 <=? code c) && (code c <=? 122)) with true by (symmetry; rewrite andb_true_iff, !N.leb_le; exact H).
    rewrite orb_true_r. reflexivity.
  - replace (beqb c "_") with true by (symmetry; apply beqb_eq; apply code_inj; exact H). rewrite orb_true_r. reflexivity.
Qed.
Lemma name_no_lf k : Forall name_char k -> ~ In (byte_of 10) k.
Proof. intros F I. rewrite Forall_forall in F. apply F in I. unfold name_char in I. vm_compute in I. intuition congruence. Qed.
Lemma without_lf_end b : ~ In (byte_of 10) b -> without_lf (b ++ [byte_of 10]) = b.
Proof.
  induction b as [|c b IH]; intros H; [reflexivity|].
  assert (G : ~ In (byte_of 10) b) by (intros I; apply H; right; exact I). specialize (IH G).
  change ((c :: b) ++ [byte_of 10]) with (c :: (b ++ [byte_of 10])).
  cbn [without_lf]. destruct b as [|d b]; [reflexivity|]. cbn [app] in *. rewrite IH. reflexivity.
Qed.
Lemma setting_line k rest : k <> [] -> Forall name_char k ->
  setting (k ++ lit " = " ++ rest) = setting (k ++ lit " = " ++ rest) /\
  take_while is_word (k ++ lit " = " ++ rest) = k /\
  drop_while is_space (drop_while is_word (k ++ lit " = " ++ rest)) = "="%char :: " "%char :: rest.
Proof.
  intros _ F. assert (W : Forall (fun c => is_word c = true) k) by (eapply Forall_impl; [|exact F]; apply name_word).
  split; [reflexivity|]. rewrite take_all, drop_all by exact W. split; [|reflexivity].
  change (lit " = " ++ rest) with (" "%char :: "="%char :: " "%char :: rest). cbn [take_while].
  change (is_word " ") with false. cbn iota. apply app_nil_r.
Qed.
Lemma value_not_space c : 32 < code c -> is_space c = false.
Proof.
  intros H. unfold is_space. apply orb_false_iff. split; [apply N.eqb_neq; lia|]. apply andb_false_iff. right. apply N.leb_gt. lia.
Qed.
Lemma setting_value k v : k <> [] -> Forall name_char k -> value_text v ->
  setting ((k ++ lit " = " ++ v) ++ [byte_of 10]) = Some (k, v).
Proof.
  intros N F [L (c & v' & -> & V)]. rewrite <- !app_assoc.
  destruct (setting_line k ((c :: v') ++ [byte_of 10]) N F) as (_ & T & D).
  unfold setting. rewrite T, D. destruct k as [|x k]; [congruence|].
  change (beqb "=" "=") with true. cbn iota.
  change (" "%char :: (c :: v') ++ [byte_of 10]) with ((" "%char :: c :: v') ++ [byte_of 10]).
  rewrite without_lf_end by (intros [I|I]; [discriminate|exact (L I)]).
  cbn [drop_while]. change (is_space " ") with true. cbn iota. rewrite (value_not_space c V). reflexivity.
Qed.
Lemma setting_empty k : k <> [] -> Forall name_char k ->
  setting ((k ++ lit " = ") ++ [byte_of 10]) = Some (k, lit " ").
Proof.
  intros N F. rewrite <- !app_assoc. destruct (setting_line k [byte_of 10] N F) as (_ & T & D).
  unfold setting. rewrite T, D. destruct k as [|x k]; [congruence|]. reflexivity.
Qed.
Definition assign (f : found) (kv : bytes * bytes) : found :=
  if bytes_eqb (fst kv) (lit "default_process_limit") then mk_found (Some (to_i (snd kv))) (fd_directory f)
  else if bytes_eqb (fst kv) (lit "config_directory") then mk_found (fd_default f) (Some (snd kv))
  else f.
Lemma read_lists kvs out : postconf_lists kvs out ->
  forall f, fold_left read_line (physical out) f = fold_left assign kvs f.
Proof.
  induction 1 as [|k v kvs rest N F V P IH|k kvs rest N F D1 D2 P IH]; intros f.
  - reflexivity.
  - replace (k ++ lit " = " ++ v ++ byte_of 10 :: rest) with ((k ++ lit " = " ++ v) ++ byte_of 10 :: rest) by (rewrite <- !app_assoc; reflexivity).
    rewrite physical_line.
    + cbn [fold_left]. rewrite IH. f_equal. unfold read_line. rewrite (setting_value k v N F V). reflexivity.
    + intros I. rewrite !in_app_iff in I. destruct I as [I|[I|I]]; [exact (name_no_lf k F I)| |exact (proj1 V I)].
      cbn in I. repeat (destruct I as [I|I]; [discriminate|]). exact I.
  - replace (k ++ lit " = " ++ byte_of 10 :: rest) with ((k ++ lit " = ") ++ byte_of 10 :: rest) by (rewrite <- !app_assoc; reflexivity).
    rewrite physical_line.
    + cbn [fold_left]. rewrite IH. f_equal. unfold read_line. rewrite (setting_empty k N F).
      apply bytes_eqb_neq in D1, D2. rewrite D1, D2. reflexivity.
    + intros I. rewrite in_app_iff in I. destruct I as [I|I]; [exact (name_no_lf k F I)|].
      cbn in I. repeat (destruct I as [I|I]; [discriminate|]). exact I.
Qed.
Lemma limit_unchanged kvs : forall f, Forall (fun kv => fst kv <> lit "default_process_limit") kvs ->
  fd_default (fold_left assign kvs f) = fd_default f.
Proof.
  induction kvs as [|kv kvs IH]; intros f F; [reflexivity|]. inversion F as [|? ? H F']; subst. cbn [fold_left].
  rewrite IH by assumption. unfold assign. apply bytes_eqb_neq in H. rewrite H. destruct (bytes_eqb (fst kv) (lit "config_directory")); reflexivity.
Qed.
Lemma directory_unchanged kvs : forall f, Forall (fun kv => fst kv <> lit "config_directory") kvs ->
  fd_directory (fold_left assign kvs f) = fd_directory f.
Proof.
  induction kvs as [|kv kvs IH]; intros f F; [reflexivity|]. inversion F as [|? ? H F']; subst. cbn [fold_left].
  rewrite IH by assumption. unfold assign. apply bytes_eqb_neq in H. rewrite H. destruct (bytes_eqb (fst kv) (lit "default_process_limit")); reflexivity.
Qed.
Lemma read_postconf_spec kvs out d l : postconf_lists kvs out ->
  assigned kvs (lit "config_directory") d -> assigned kvs (lit "default_process_limit") l ->
  read_postconf out = mk_found (Some (to_i l)) (Some d).
Proof.
  intros P (b & a & E & A) (b' & a' & E' & A'). unfold read_postconf. rewrite (read_lists kvs out P).
  assert (D : fd_directory (fold_left assign kvs (mk_found None None)) = Some d).
  { rewrite E, fold_left_app. cbn [fold_left]. rewrite directory_unchanged by exact A. reflexivity. }
  assert (L : fd_default (fold_left assign kvs (mk_found None None)) = Some (to_i l)).
  { rewrite E', fold_left_app. cbn [fold_left]. rewrite limit_unchanged by exact A'. reflexivity. }
  destruct (fold_left assign kvs (mk_found None None)) as [x y]. cbn [fd_directory fd_default] in D, L. congruence.
Qed.

(** *** master.cf *)
Lemma fields_solid w : forall rest, solid w -> space_fields false (w ++ rest) =
  match space_fields false rest with f :: fs => (w ++ f) :: fs | [] => [w] end.
Proof.
  induction w as [|c w IH]; intros rest S.
  - cbn [app]. destruct (space_fields false rest) eqn:E; [|reflexivity].
    destruct rest as [|c rest]; [discriminate|]. cbn [space_fields] in E. destruct (is_space c); [discriminate|].
    destruct (space_fields false rest); discriminate.
  - inversion S as [|? ? H S']; subst. cbn [app space_fields]. rewrite H, IH by assumption.
    destruct (space_fields false rest); reflexivity.
Qed.
Lemma fields_skip g rest : Forall (fun c => is_space c = true) g -> space_fields true (g ++ rest) = space_fields true rest.
Proof. induction 1 as [|c g H F IH]; [reflexivity|]. cbn [app space_fields]. rewrite H. exact IH. Qed.
Lemma fields_start c rest : is_space c = false -> space_fields true (c :: rest) = space_fields false (c :: rest).
Proof. intros H. cbn [space_fields]. rewrite H. reflexivity. Qed.
Lemma fields_one w g rest : solid w -> g <> [] -> Forall (fun c => is_space c = true) g ->
  space_fields false (w ++ g ++ rest) = w :: space_fields true rest.
Proof.
  intros S N F. rewrite fields_solid by assumption. destruct g as [|c g]; [congruence|].
  inversion F as [|? ? H F']; subst. cbn [app space_fields]. rewrite H, fields_skip by assumption.
  rewrite app_nil_r. reflexivity.
Qed.
Lemma fields_next w g rest : w <> [] -> solid w -> g <> [] -> Forall (fun c => is_space c = true) g ->
  space_fields true (w ++ g ++ rest) = w :: space_fields true rest.
Proof.
  intros W S N F. transitivity (space_fields false (w ++ g ++ rest)); [|exact (fields_one w g rest S N F)].
  destruct w as [|c w]; [congruence|]. inversion S; subst. cbn [app]. apply fields_start. assumption.
Qed.
Lemma service_fields s b : prints_service s b ->
  exists f1 f2 f3 f4 f5 more, space_fields false (b ++ [byte_of 10]) = sv_name s :: f1 :: f2 :: f3 :: f4 :: f5 :: sv_maxproc s :: more /\
    starts_with_hash (b ++ [byte_of 10]) = false /\ ~ In (byte_of 10) b.
Proof.
  intros (p & u & c & w & g1 & g2 & g3 & g4 & g5 & g6 & g7 & cmd & C & G & L & H & ->).
  assert (NC : forall x, column x -> ~ In (byte_of 10) x).
  { intros x [_ F] I. rewrite Forall_forall in F. apply F in I. destruct I as [I|[I _]]; vm_compute in I; discriminate. }
  assert (NG : forall x, gap x -> ~ In (byte_of 10) x).
  { intros x [_ F] I. rewrite Forall_forall in F. destruct (F _ I); discriminate. }
  assert (LF : ~ In (byte_of 10) (sv_name s ++ g1 ++ sv_type s ++ g2 ++ p ++ g3 ++ u ++ g4 ++ c ++ g5 ++ w ++ g6 ++ sv_maxproc s ++ g7 ++ cmd)).
  { repeat match goal with F : Forall _ (_ :: _) |- _ => inversion F; subst; clear F end.
    rewrite !in_app_iff. intros I.
    repeat (destruct I as [I|I]; [first [eapply NC; [|exact I]; assumption | eapply NG; [|exact I]; assumption]|]). exact (L I). }
  assert (NH : starts_with_hash ((sv_name s ++ g1 ++ sv_type s ++ g2 ++ p ++ g3 ++ u ++ g4 ++ c ++ g5 ++ w ++ g6 ++ sv_maxproc s ++ g7 ++ cmd) ++ [byte_of 10]) = false).
  { inversion C as [|? ? [N _] _]; subst. destruct (sv_name s) as [|x n]; [congruence|]. cbn [app starts_with_hash].
    apply beqb_neq. intros ->. exact (H n eq_refl). }
  assert (C' : Forall (fun x => x <> [] /\ solid x) [sv_name s; sv_type s; p; u; c; w; sv_maxproc s])
    by (eapply Forall_impl; [|exact C]; intros x; apply column_solid).
  assert (G' : Forall (fun x => x <> [] /\ Forall (fun c => is_space c = true) x) [g1; g2; g3; g4; g5; g6; g7])
    by (eapply Forall_impl; [|exact G]; intros x; apply gap_spaces).
  clear C G.
  repeat match goal with F : Forall _ (_ :: _) |- _ => inversion F; subst; clear F end.
  repeat match goal with F : _ /\ _ |- _ => destruct F end.
  exists (sv_type s), p, u, c, w, (space_fields true (cmd ++ [byte_of 10])). split; [|split; assumption].
  rewrite <- !app_assoc. rewrite fields_one by assumption. rewrite !fields_next by assumption. reflexivity.
Qed.
Lemma master_limit_spec ss content : master_lists ss content ->
  master_limit (physical content) =
  match find (fun s => bytes_eqb (sv_name s) (lit "smtp")) ss with
  | Some s => if bytes_eqb (sv_maxproc s) (lit "-") then None else Some (to_i (sv_maxproc s))
  | None => None
  end.
Proof.
  induction 1 as [|s ss b rest S M IH|ss b rest L M IH|ss rest M IH|ss c b rest B L M IH].
  - reflexivity.
  - destruct (service_fields s b S) as (f1 & f2 & f3 & f4 & f5 & more & E & H & L).
    rewrite physical_line by exact L. cbn [master_limit]. rewrite H, E. cbn [nth_error find].
    destruct (bytes_eqb (sv_name s) (lit "smtp")); [reflexivity|exact IH].
  - rewrite app_comm_cons, physical_line by (intros [I|I]; [discriminate|exact (L I)]). cbn [master_limit app starts_with_hash].
    change (beqb "#" "#") with true. exact IH.
  - change (byte_of 10 :: rest) with ([] ++ byte_of 10 :: rest). rewrite physical_line by (intros []). exact IH.
  - assert (N : c <> byte_of 10 /\ beqb c "#" = false /\ is_space c = true) by (destruct B as [->| ->]; repeat split; discriminate).
    destruct N as (N1 & N2 & N3).
    rewrite app_comm_cons, physical_line by (intros [I|I]; [exact (N1 I)|exact (L I)]). cbn [master_limit app starts_with_hash].
    rewrite N2. cbn [space_fields]. rewrite N3. exact IH.
Qed.
Lemma find_first ss s name : first_named ss name s -> find (fun s => bytes_eqb (sv_name s) name) ss = Some s.
Proof.
  intros (b & a & -> & N & F). induction F as [|x b H F IH]; cbn [app find].
  - rewrite N, bytes_eqb_refl. reflexivity.
  - apply bytes_eqb_neq in H. rewrite H. exact IH.
Qed.
Lemma find_no ss name : Forall (fun s => sv_name s <> name) ss -> find (fun s => bytes_eqb (sv_name s) name) ss = None.
Proof. induction 1 as [|x ss H F IH]; cbn [find]; [reflexivity|]. apply bytes_eqb_neq in H. rewrite H. exact IH. Qed.

(** *** Searching *)
Lemma begins_iff x b : begins x b = true <-> exists t, b = x ++ t.
Proof.
  revert b. induction x as [|c x IH]; intros b; cbn [begins].
  - split; [intros _; exists b; reflexivity|reflexivity].
  - destruct b as [|d b]; [split; [discriminate|intros (t & E); discriminate]|].
    rewrite andb_true_iff, beqb_eq, IH. split.
    + intros [-> (t & ->)]. exists t. reflexivity.
    + intros (t & E). inversion E; subst. eauto.
Qed.
Lemma contains_iff x b : contains x b = true <-> exists u t, b = u ++ x ++ t.
Proof.
  induction b as [|d b IH]; cbn [contains].
  - rewrite orb_false_r, begins_iff. split.
    + intros (t & E). exists [], t. exact E.
    + intros (u & t & E). destruct u; [exists t; exact E|discriminate].
  - rewrite orb_true_iff, begins_iff, IH. split.
    + intros [(t & E)|(u & t & ->)]; [exists [], t; exact E|exists (d :: u), t; reflexivity].
    + intros (u & t & E). destruct u as [|y u]; [left; exists t; exact E|].
      inversion E; subst. right. eauto.
Qed.
