(** Lemmas about the XML of a configuration. *)
From Verif.Base Require Import Bytes BytesFacts.
From Verif.Model Require Import Status Egg Configuration ConfigXml.
From Verif.Model Require ConnectionSpec.
From Verif.Spec Require Import XmlSpec.
Import List.
Local Open Scope N_scope.

(** *** Scanning *)

Definition then_ (l : list event) (r : option (list event)) : option (list event) :=
  match r with Some l' => Some (l ++ l') | None => None end.
Lemma then_nil r : then_ [] r = r. Proof. now destruct r. Qed.
Lemma then_app a b r : then_ (a ++ b) r = then_ a (then_ b r).
Proof. destruct r; cbn; [now rewrite app_assoc|reflexivity]. Qed.

(** The text [s] says [vs], whatever follows. *)
Definition says (s : bytes) (vs : list event) : Prop :=
  forall rest, scan InText (s ++ rest) = then_ vs (scan InText rest).

Lemma says_nil : says [] [].
Proof. intros rest. now rewrite then_nil. Qed.
Lemma says_app a va b vb : says a va -> says b vb -> says (a ++ b) (va ++ vb).
Proof. intros Ha Hb rest. now rewrite <- app_assoc, Ha, Hb, then_app. Qed.
Lemma says_all s vs : says s vs -> scan InText s = Some vs.
Proof. intros H. specialize (H []). rewrite app_nil_r in H. rewrite H. cbn. now rewrite app_nil_r. Qed.

Lemma scan_cons p c s : scan p (c :: s) =
  match scan1 p c with Some (p', l) => then_ l (scan p' s) | None => None end.
Proof. reflexivity. Qed.

Lemma name_char_plain c : name_char c = true -> beqb c ">" = false /\ beqb c "/" = false.
Proof.
  intros H. split; destruct (beqb c _) eqn:E; try reflexivity; apply beqb_eq in E; subst c; discriminate.
Qed.
Lemma scan_name n : forall acc rest, forallb name_char n = true ->
  scan (InTag acc) (n ++ rest) = scan (InTag (acc ++ n)) rest.
Proof.
  induction n as [|c n IH]; intros acc rest H; cbn [forallb app] in *; [now rewrite app_nil_r|].
  apply andb_true_iff in H as [Hc Hn]. rewrite scan_cons. unfold scan1.
  destruct (name_char_plain _ Hc) as [-> _]. rewrite then_nil, IH by exact Hn. now rewrite <- app_assoc.
Qed.
Lemma is_name_chars n : is_name n = true -> forallb name_char n = true /\ exists c l, n = c :: l.
Proof. destruct n; [discriminate|]. cbn. eauto. Qed.
Lemma says_open n : is_name n = true -> says (open_tag n) [Open n].
Proof.
  intros H rest. destruct (is_name_chars _ H) as (Hc & c & l & E). unfold open_tag.
  change (lit "<") with ["<"%char]. change (lit ">") with [">"%char]. rewrite <- !app_assoc. cbn [app].
  rewrite scan_cons. cbn [scan1]. unfold in_text. rewrite beqb_refl, then_nil, scan_name by exact Hc.
  cbn [app]. rewrite scan_cons. unfold scan1. rewrite beqb_refl. subst n.
  cbn [forallb] in Hc. apply andb_true_iff in Hc as [Hc _]. destruct (name_char_plain _ Hc) as [_ ->].
  now rewrite H.
Qed.
Lemma says_close n : is_name n = true -> says (close_tag n) [Close n].
Proof.
  intros H rest. destruct (is_name_chars _ H) as (Hc & _). unfold close_tag.
  change (lit "</") with ["<"%char; "/"%char]. change (lit ">") with [">"%char]. rewrite <- !app_assoc. cbn [app].
  rewrite scan_cons. cbn [scan1]. unfold in_text. rewrite beqb_refl, then_nil.
  rewrite scan_cons. unfold scan1. change (beqb "/" ">") with false. cbv iota. rewrite then_nil. cbn [app].
  rewrite scan_name by exact Hc. cbn [app]. rewrite scan_cons. unfold scan1. rewrite !beqb_refl. now rewrite H.
Qed.

Lemma letters_app a b : letters (a ++ b) = letters a ++ letters b.
Proof. apply map_app. Qed.
(** A byte that stands for itself. *)
Definition literal (c : byte) : Prop :=
  beqb c "<" = false /\ beqb c "&" = false /\ code c <> 13 /\ allowed (code c) = true.
Lemma says_literal c : literal c -> says [c] (letters [c]).
Proof.
  intros (H1 & H2 & H3 & H4) rest. cbn [app]. rewrite scan_cons. cbn [scan1]. unfold in_text.
  rewrite H1, H2, H4. apply N.eqb_neq in H3. now rewrite H3.
Qed.
Lemma says_literals s : Forall literal s -> says s (letters s).
Proof.
  induction 1 as [|c s Hc Hs IH]; [apply says_nil|].
  exact (says_app [c] _ s _ (says_literal c Hc) IH).
Qed.
Lemma says_reference n s : referred n = Some s -> (forall c, In c n -> beqb c ";" = false) ->
  says (lit "&" ++ n ++ lit ";") (letters s).
Proof.
  intros Hr Hn rest. change (lit "&") with ["&"%char]. change (lit ";") with [";"%char].
  rewrite <- !app_assoc. cbn [app]. rewrite scan_cons. cbn [scan1]. unfold in_text.
  change (beqb "&" "<") with false. rewrite beqb_refl. cbv iota. rewrite then_nil.
  assert (G : forall acc, referred (acc ++ n) = Some s ->
            scan (InReference acc) (n ++ ";"%char :: rest) = then_ (letters s) (scan InText rest)).
  { clear Hr. revert Hn. induction n as [|c n IH]; intros Hn acc Hr; cbn [app] in *.
    - rewrite app_nil_r in Hr. rewrite scan_cons. unfold scan1. now rewrite beqb_refl, Hr.
    - rewrite scan_cons. unfold scan1. rewrite Hn by (left; reflexivity). rewrite then_nil, IH.
      + reflexivity.
      + intros d Hd. apply Hn. now right.
      + now rewrite <- app_assoc. }
  exact (G [] Hr).
Qed.

(** The references, by trying all bytes. *)
Definition all_bytes : list byte := map (fun n => ascii_of_nat n) (seq 0 256).
Lemma all_bytes_in c : In c all_bytes.
Proof.
  unfold all_bytes. apply in_map_iff. exists (nat_of_ascii c). split; [apply ascii_nat_embedding|].
  apply in_seq. split; [lia|]. apply nat_ascii_bounded.
Qed.
Lemma by_bytes (P : byte -> bool) : forallb P all_bytes = true -> forall c, P c = true.
Proof. intros H c. rewrite forallb_forall in H. apply H, all_bytes_in. Qed.

Definition plainb (c : byte) : bool := (code c =? 9) || (code c =? 10) || (32 <=? code c).
Lemma plain_cons c s : plain (c :: s) <-> plainb c = true /\ plain s.
Proof.
  unfold plain, plainb. split.
  - intros H. split; [|intros d Hd; apply H; now right].
    destruct (H c) as [E|[E|E]]; [now left|..]; rewrite ?E; try reflexivity.
    apply N.leb_le in E. rewrite E. now rewrite !orb_true_r.
  - intros [H1 H2] d [<-|Hd]; [|auto]. rewrite !orb_true_iff, !N.eqb_eq, N.leb_le in H1. tauto.
Qed.

Definition option_bytes_eqb (a b : option bytes) : bool :=
  match a, b with Some a, Some b => bytes_eqb a b | None, None => true | _, _ => false end.
Definition special_ok (c : byte) : bool :=
  match special c with
  | None => negb (plainb c) ||
            (negb (beqb c "<") && negb (beqb c "&") && negb (code c =? 13) && allowed (code c))
  | Some e =>
      negb (plainb c) ||
      match e with
      | a :: n => beqb a "&" && bytes_eqb (removelast n ++ [";"%char]) n &&
                  forallb (fun d => negb (beqb d ";")) (removelast n) &&
                  option_bytes_eqb (referred (removelast n)) (Some [c])
      | [] => false
      end
  end.
Lemma special_all : forallb special_ok all_bytes = true.
Proof. vm_compute. reflexivity. Qed.
Lemma special_spec c : plainb c = true ->
  match special c with
  | None => literal c
  | Some e => says e (letters [c])
  end.
Proof.
  intros Hp. pose proof (by_bytes _ special_all c) as H. unfold special_ok in H. rewrite Hp in H.
  destruct (special c) as [e|]; cbn [negb orb] in H.
  - destruct e as [|a n]; [discriminate|]. rewrite !andb_true_iff in H. destruct H as (((H1 & H2) & H3) & H4).
    apply beqb_eq in H1. apply bytes_eqb_eq in H2. subst a.
    destruct (referred (removelast n)) as [s|] eqn:Er; [|discriminate]. cbn in H4. apply bytes_eqb_eq in H4.
    subst s. change ("&"%char :: n) with (lit "&" ++ n). rewrite <- H2.
    apply says_reference; [exact Er|]. intros d Hd. rewrite forallb_forall in H3. apply H3 in Hd.
    now apply negb_true_iff in Hd.
  - rewrite !andb_true_iff, !negb_true_iff in H. destruct H as (((H1 & H2) & H3) & H4).
    repeat split; auto. now apply N.eqb_neq.
Qed.
Definition c1_ok (d : byte) : bool :=
  negb (is_c1 d) ||
  match reference (code d) with
  | a :: n => beqb a "&" && bytes_eqb (removelast n ++ [";"%char]) n &&
              forallb (fun d => negb (beqb d ";")) (removelast n) &&
              option_bytes_eqb (referred (removelast n)) (Some [byte_of 194; d])
  | [] => false
  end.
Lemma c1_all : forallb c1_ok all_bytes = true.
Proof. vm_compute. reflexivity. Qed.
Lemma c1_spec d : is_c1 d = true -> says (reference (code d)) (letters [byte_of 194; d]).
Proof.
  intros Hd. pose proof (by_bytes _ c1_all d) as H. unfold c1_ok in H. rewrite Hd in H. cbn [negb orb] in H.
  destruct (reference (code d)) as [|a n]; [discriminate|]. rewrite !andb_true_iff in H.
  destruct H as (((H1 & H2) & H3) & H4). apply beqb_eq in H1. apply bytes_eqb_eq in H2. subst a.
  destruct (referred (removelast n)) as [s|] eqn:Er; [|discriminate]. cbn [option_bytes_eqb] in H4.
  apply bytes_eqb_eq in H4. subst s. change ("&"%char :: n) with (lit "&" ++ n). rewrite <- H2.
  apply says_reference; [exact Er|]. intros c Hc. rewrite forallb_forall in H3. apply H3 in Hc.
  now apply negb_true_iff in Hc.
Qed.

Lemma code_194 c : code c = 194 -> c = byte_of 194.
Proof. unfold code. intros H. rewrite <- (ascii_N_embedding c), H. reflexivity. Qed.

Lemma says_escape s : plain s -> says (escape s) (letters s).
Proof.
  remember (length s) as n eqn:En. assert (Hn : (length s <= n)%nat) by lia. clear En.
  revert s Hn. induction n as [|n IH]; intros s Hn Hp.
  - destruct s; [apply says_nil|cbn in Hn; lia].
  - destruct s as [|c s]; [apply says_nil|]. cbn [length] in Hn.
    apply plain_cons in Hp as [Hc Hs]. pose proof (special_spec c Hc) as Hsp. cbn [escape].
    destruct (special c) as [e|].
    + change (letters (c :: s)) with (letters [c] ++ letters s). apply says_app; [exact Hsp|]. apply IH; [lia|exact Hs].
    + destruct s as [|d s]; [now apply says_literal|].
      destruct ((code c =? 194) && is_c1 d) eqn:E.
      * apply andb_true_iff in E as [E1 E2]. apply N.eqb_eq, code_194 in E1. subst c.
        change (letters (byte_of 194 :: d :: s)) with (letters [byte_of 194; d] ++ letters s).
        apply says_app; [now apply c1_spec|]. apply plain_cons in Hs as [_ Hs]. apply IH; [cbn in Hn; lia|exact Hs].
      * change (letters (c :: d :: s)) with (letters [c] ++ letters (d :: s)).
        change (c :: escape (d :: s)) with ([c] ++ escape (d :: s)).
        apply says_app; [now apply says_literal|]. apply IH; [lia|exact Hs].
Qed.

Lemma says_indent n : says (indented n) (letters (indented n)).
Proof.
  apply says_literals. unfold indented. apply Forall_forall. intros c Hc. apply repeat_spec in Hc. subst c.
  repeat split; discriminate.
Qed.
Lemma says_newline : says newline (letters newline).
Proof. apply says_literals. repeat constructor; discriminate. Qed.

(** The events of an element with a text, of an element with lines in it. *)
Definition leaf (name content : bytes) : list event := Open name :: letters content ++ [Close name].
Definition line (indent : nat) (vs : list event) : list event :=
  letters (indented indent) ++ vs ++ letters newline.
Lemma says_text_element name content indent : is_name name = true -> plain content ->
  says (text_element name content indent) (line indent (leaf name content)).
Proof.
  intros Hn Hp. unfold text_element, line, leaf.
  replace (letters (indented indent) ++ (Open name :: letters content ++ [Close name]) ++ letters newline)
    with (letters (indented indent) ++ [Open name] ++ letters content ++ [Close name] ++ letters newline)
    by (cbn [app]; now rewrite <- app_assoc).
  repeat apply says_app; auto using says_indent, says_open, says_close, says_newline, says_escape.
Qed.
Definition block (name : bytes) (indent : nat) (body : list event) : list event :=
  line indent (Open name :: letters newline ++ body ++ letters (indented indent) ++ [Close name]).
Lemma says_block name indent body vs : is_name name = true -> says body vs ->
  says (indented indent ++ open_tag name ++ newline ++ body ++ indented indent ++ close_tag name ++ newline)
       (block name indent vs).
Proof.
  intros Hn Hb. unfold block, line.
  replace (letters (indented indent) ++
           (Open name :: letters newline ++ vs ++ letters (indented indent) ++ [Close name]) ++ letters newline)
    with (letters (indented indent) ++ [Open name] ++ letters newline ++ vs ++ letters (indented indent) ++
          [Close name] ++ letters newline) by (cbn [app]; now rewrite <- !app_assoc).
  repeat apply says_app; auto using says_indent, says_open, says_close, says_newline.
Qed.
Lemma says_flat_map {A} (f : A -> bytes) (g : A -> list event) (l : list A) :
  Forall (fun a => says (f a) (g a)) l -> says (flat_map f l) (flat_map g l).
Proof. induction 1; cbn [flat_map]; [apply says_nil|now apply says_app]. Qed.

Definition optional_events (name : bytes) (content : option bytes) (indent : nat) : list event :=
  match content with Some c => line indent (leaf name c) | None => [] end.
Lemma says_optional name content indent : is_name name = true -> plain_option content ->
  says (optional_element name content indent) (optional_events name content indent).
Proof.
  intros Hn Hp. destruct content; cbn in *; [now apply says_text_element|apply says_nil].
Qed.

Definition egg_events (e : egg) (i : nat) : list event :=
  block (lit "milter") i
    (line (i + 2) (leaf (lit "name") (e_name e)) ++
     optional_events (lit "description") (e_description e) (i + 2) ++
     line (i + 2) (leaf (lit "enabled") (yes_no (e_enabled e))) ++
     line (i + 2) (leaf (lit "fallback-status") (status_nick (e_fallback_status e))) ++
     line (i + 2) (leaf (lit "evaluation-mode") (yes_no (e_evaluation_mode e))) ++
     optional_events (lit "connection-spec") (e_connection_spec e) (i + 2) ++
     optional_events (lit "command") (e_command e) (i + 2) ++
     optional_events (lit "command-options") (e_command_options e) (i + 2) ++
     match e_conditions e with
     | [] => []
     | l => block (lit "applicable-conditions") (i + 2)
              (flat_map (fun k => line (i + 4) (leaf (lit "applicable-condition") (k_name k))) l)
     end).

Lemma plain_dec s : forallb plainb s = true -> plain s.
Proof.
  induction s as [|c s IH]; [intros _ c []|]. cbn [forallb]. rewrite andb_true_iff. intros [H1 H2].
  apply plain_cons. auto.
Qed.
Lemma plain_yes_no b : plain (yes_no b).
Proof. apply plain_dec. now destruct b. Qed.
Lemma plain_nick s : plain (status_nick s).
Proof. apply plain_dec. now destruct s. Qed.

Lemma says_egg e i : plain_egg e -> says (egg_to_xml e i) (egg_events e i).
Proof.
  intros (H1 & H2 & H3 & H4 & H5 & H6).
  assert (Hc : says (match e_conditions e with
   | [] => []
   | l => indented (i + 2) ++ lit "<applicable-conditions>" ++ newline ++
          flat_map (fun k => text_element (lit "applicable-condition") (k_name k) (i + 4)) l ++
          indented (i + 2) ++ lit "</applicable-conditions>" ++ newline
   end) (match e_conditions e with
     | [] => []
     | l => block (lit "applicable-conditions") (i + 2)
              (flat_map (fun k => line (i + 4) (leaf (lit "applicable-condition") (k_name k))) l)
     end)).
  { destruct (e_conditions e) as [|k l] eqn:E; [apply says_nil|]. rewrite <- E in *. clear E.
    apply (says_block (lit "applicable-conditions")); [reflexivity|]. apply says_flat_map.
    eapply Forall_impl; [|exact H6]. intros k' Hk. now apply says_text_element. }
  unfold egg_to_xml, egg_events.
  match goal with |- says (_ ++ _ ++ _ ++ ?a ++ ?b ++ ?c ++ ?d ++ ?f ++ ?g ++ ?h ++ ?j ++ ?k ++ ?y) _ =>
    replace (indented i ++ lit "<milter>" ++ newline ++ a ++ b ++ c ++ d ++ f ++ g ++ h ++ j ++ k ++ y)
      with (indented i ++ open_tag (lit "milter") ++ newline ++
            (a ++ b ++ c ++ d ++ f ++ g ++ h ++ j ++ k) ++ indented i ++ close_tag (lit "milter") ++ newline)
      by (rewrite <- !app_assoc; reflexivity)
  end.
  apply says_block; [reflexivity|].
  apply says_app; [now apply says_text_element|]. apply says_app; [now apply says_optional|].
  apply says_app; [apply says_text_element; [reflexivity|apply (plain_yes_no (e_enabled e))]|].
  apply says_app; [apply says_text_element; [reflexivity|apply plain_nick]|].
  apply says_app; [apply says_text_element; [reflexivity|apply (plain_yes_no (e_evaluation_mode e))]|].
  apply says_app; [now apply says_optional|]. apply says_app; [now apply says_optional|].
  apply says_app; [now apply says_optional|]. exact Hc.
Qed.

Definition condition_events (i : nat) (k : condition) : list event :=
  block (lit "applicable-condition") (i + 4)
    (line (i + 6) (leaf (lit "name") (k_name k)) ++
     optional_events (lit "description") (k_description k) (i + 6)).
Lemma says_condition i k : plain_condition k -> says (condition_to_xml i k) (condition_events i k).
Proof.
  intros [H1 H2]. unfold condition_to_xml, condition_events.
  match goal with |- says (_ ++ _ ++ _ ++ ?a ++ ?b ++ ?y) _ =>
    replace (indented (i + 4) ++ lit "<applicable-condition>" ++ newline ++ a ++ b ++ y)
      with (indented (i + 4) ++ open_tag (lit "applicable-condition") ++ newline ++
            (a ++ b) ++ indented (i + 4) ++ close_tag (lit "applicable-condition") ++ newline)
      by (rewrite <- !app_assoc; reflexivity)
  end.
  apply says_block; [reflexivity|]. apply says_app; [now apply says_text_element|now apply says_optional].
Qed.

Definition sections_events (modified : option N) (conditions : list condition) (eggs : list egg) : list event :=
  optional_events (lit "last-modified") (option_map ConnectionSpec.decimal modified) 2 ++
  match conditions with
  | [] => []
  | l => block (lit "applicable-conditions") 2 (flat_map (condition_events 0) l)
  end ++
  match eggs with
  | [] => []
  | l => block (lit "milters") 2 (flat_map (fun e => egg_events e 4) l)
  end.
Lemma plain_decimal n : plain (ConnectionSpec.decimal n).
Proof.
  unfold ConnectionSpec.decimal. generalize (S (N.size_nat n)). intros fuel. revert n.
  induction fuel as [|fuel IH]; intros n; cbn [ConnectionSpec.decimal_digits]; [intros c []|].
  assert (D : forall m, m < 10 -> plain [ascii_of_N (48 + m)]).
  { intros m Hm c [<-|[]]. right; right. unfold code. rewrite N_ascii_embedding; lia. }
  destruct (n <? 10) eqn:E; [apply D; now apply N.ltb_lt|].
  intros c Hc. apply in_app_or in Hc as [Hc|Hc]; [now apply IH in Hc|].
  apply (D (n mod 10)); [apply N.mod_lt; discriminate|exact Hc].
Qed.
Lemma says_configuration modified conditions eggs :
  Forall plain_condition conditions -> Forall plain_egg eggs ->
  says (configuration_to_xml modified conditions eggs)
       (block (lit "configuration") 0 (sections_events modified conditions eggs)).
Proof.
  intros Hc He. unfold configuration_to_xml, configuration_to_xml_string, sections_events.
  match goal with |- says (_ ++ _ ++ _ ++ ?a ++ ?b ++ ?c ++ ?y) _ =>
    replace (indented 0 ++ lit "<configuration>" ++ newline ++ a ++ b ++ c ++ y)
      with (indented 0 ++ open_tag (lit "configuration") ++ newline ++
            (a ++ b ++ c) ++ indented 0 ++ close_tag (lit "configuration") ++ newline)
      by (rewrite <- !app_assoc; reflexivity)
  end.
  apply says_block; [reflexivity|]. apply says_app; [|apply says_app].
  - destruct modified; cbn [option_map optional_events]; [apply says_text_element; [reflexivity|apply plain_decimal]|apply says_nil].
  - destruct conditions as [|k l] eqn:E; [apply says_nil|]. rewrite <- E in *.
    apply (says_block (lit "applicable-conditions")); [reflexivity|]. apply says_flat_map.
    eapply Forall_impl; [|exact Hc]. intros k' Hk. now apply says_condition.
  - destruct eggs as [|e l] eqn:E; [apply says_nil|]. rewrite <- E in *.
    apply (says_block (lit "milters")); [reflexivity|]. apply says_flat_map.
    eapply Forall_impl; [|exact He]. intros e' He'. now apply says_egg.
Qed.

(** *** Building the document *)

Lemma build_app a : forall st b,
  build st (a ++ b) = match build st a with Some st' => build st' b | None => None end.
Proof.
  induction a as [|v a IH]; intros st b; [reflexivity|]. cbn [app build].
  destruct (build1 st v); [apply IH|reflexivity].
Qed.
Lemma blank_app a b : blank (a ++ b) = blank a && blank b.
Proof. apply forallb_app. Qed.
Lemma build_letters s : forall f st,
  build (f :: st) (letters s) = Some (mk_frame (fr_name f) (fr_text f ++ s) (fr_kids f) :: st).
Proof.
  induction s as [|c s IH]; intros f st; cbn [letters map build build1].
  - rewrite app_nil_r. now destruct f.
  - change (map (fun c => Text [c]) s) with (letters s). rewrite IH. cbn [fr_name fr_text fr_kids].
    now rewrite <- app_assoc.
Qed.

(** The events add the elements [ks], with only blanks around them. *)
Definition adds (vs : list event) (ks : list xml) : Prop :=
  exists ws, blank ws = true /\ forall f st,
    build (f :: st) vs = Some (mk_frame (fr_name f) (fr_text f ++ ws) (rev ks ++ fr_kids f) :: st).
Lemma adds_nil : adds [] [].
Proof. exists []. split; [reflexivity|]. intros f st. cbn. rewrite app_nil_r. now destruct f. Qed.
Lemma adds_app a ka b kb : adds a ka -> adds b kb -> adds (a ++ b) (ka ++ kb).
Proof.
  intros (wa & Ba & Ha) (wb & Bb & Hb). exists (wa ++ wb). split; [now rewrite blank_app, Ba|].
  intros f st. rewrite build_app, Ha, Hb. cbn [fr_name fr_text fr_kids].
  now rewrite rev_app_distr, <- !app_assoc.
Qed.
Lemma blank_indented n : blank (indented n) = true.
Proof. induction n; [reflexivity|exact IHn]. Qed.
Lemma adds_blank s : blank s = true -> adds (letters s) [].
Proof. intros H. exists s. split; [exact H|]. intros f st. apply build_letters. Qed.
Lemma adds_line i vs ks : adds vs ks -> adds (line i vs) ks.
Proof.
  intros H. unfold line. rewrite <- (app_nil_l ks). apply adds_app; [apply adds_blank, blank_indented|].
  rewrite <- (app_nil_r ks). apply adds_app; [exact H|]. now apply adds_blank.
Qed.
Lemma adds_leaf name content : adds (leaf name content) (said name content).
Proof.
  exists []. split; [reflexivity|]. intros f st. unfold leaf. cbn [build build1].
  rewrite build_app, build_letters. cbn [build build1 fr_name fr_text fr_kids].
  rewrite bytes_eqb_refl. cbn. now rewrite app_nil_r.
Qed.
Lemma adds_block name i vs ks : adds vs ks -> ks <> [] -> adds (block name i vs) [Elem name [] ks].
Proof.
  intros (w & Bw & H) Hk. apply adds_line. exists []. split; [reflexivity|]. intros f st. cbn [build build1].
  rewrite build_app, build_letters. rewrite build_app, H. rewrite build_app, build_letters.
  cbn [build build1 fr_name fr_text fr_kids]. rewrite bytes_eqb_refl, app_nil_r.
  destruct (rev ks) as [|k r] eqn:E.
  - elim Hk. rewrite <- (rev_involutive ks), E. reflexivity.
  - rewrite <- E. cbn [app]. rewrite !blank_app, Bw, blank_indented. cbn [blank newline forallb].
    change (blank newline) with true. cbn [andb]. rewrite rev_involutive. cbn. now rewrite app_nil_r.
Qed.
Lemma adds_optional name content i : adds (optional_events name content i) (maybe name content).
Proof. destruct content; cbn; [apply adds_line, adds_leaf|apply adds_nil]. Qed.
Lemma adds_flat_map {A} (f : A -> list event) (g : A -> list xml) (l : list A) :
  (forall a, adds (f a) (g a)) -> adds (flat_map f l) (flat_map g l).
Proof. intros H. induction l; cbn [flat_map]; [apply adds_nil|now apply adds_app]. Qed.
Lemma adds_group {A} name i (f : A -> list event) (g : A -> list xml) (l : list A) :
  (forall a, adds (f a) (g a)) -> (forall a, g a <> []) ->
  adds (match l with [] => [] | a :: l' => block name i (flat_map f (a :: l')) end) (group name (flat_map g l)).
Proof.
  intros H Hg. destruct l as [|a l]; [apply adds_nil|].
  assert (Hn : flat_map g (a :: l) <> []).
  { cbn [flat_map]. specialize (Hg a). destruct (g a); [contradiction|discriminate]. }
  unfold group. destruct (flat_map g (a :: l)) eqn:E; [contradiction|]. rewrite <- E in *.
  apply adds_block; [now apply adds_flat_map|exact Hn].
Qed.
Lemma adds_egg e i : adds (egg_events e i) [milter_of e].
Proof.
  apply adds_block; [|discriminate].
  apply adds_app; [apply adds_line, adds_leaf|]. apply adds_app; [apply adds_optional|].
  apply adds_app; [apply adds_line, adds_leaf|]. apply adds_app; [apply adds_line, adds_leaf|].
  apply adds_app; [apply adds_line, adds_leaf|]. apply adds_app; [apply adds_optional|].
  apply adds_app; [apply adds_optional|]. apply adds_app; [apply adds_optional|].
  apply (adds_group (lit "applicable-conditions") (i + 2)
           (fun k => line (i + 4) (leaf (lit "applicable-condition") (k_name k)))
           (fun k => said (lit "applicable-condition") (k_name k))); [|discriminate].
  intros k. apply adds_line, adds_leaf.
Qed.
Lemma adds_condition i k : adds (condition_events i k) [condition_of k].
Proof.
  apply adds_block; [|discriminate]. apply adds_app; [apply adds_line, adds_leaf|apply adds_optional].
Qed.
Lemma flat_map_single {A B} (f : A -> B) l : flat_map (fun a => [f a]) l = map f l.
Proof. induction l; cbn; [reflexivity|now rewrite IHl]. Qed.
Lemma adds_sections modified conditions eggs :
  adds (sections_events modified conditions eggs)
       (maybe (lit "last-modified") (option_map ConnectionSpec.decimal modified) ++
        group (lit "applicable-conditions") (map condition_of conditions) ++
        group (lit "milters") (map milter_of eggs)).
Proof.
  unfold sections_events. apply adds_app; [apply adds_optional|]. rewrite <- !flat_map_single. apply adds_app.
  - pose proof (adds_group (lit "applicable-conditions") 2 (condition_events 0) (fun k => [condition_of k])
                  conditions (adds_condition 0) ltac:(discriminate)) as H.
    destruct conditions; exact H.
  - pose proof (adds_group (lit "milters") 2 (fun e => egg_events e 4) (fun e => [milter_of e])
                  eggs (fun e => adds_egg e 4) ltac:(discriminate)) as H.
    destruct eggs; exact H.
Qed.

Lemma read_configuration modified conditions eggs :
  Forall plain_condition conditions -> Forall plain_egg eggs ->
  read (configuration_to_xml modified conditions eggs) = Some (document modified conditions eggs).
Proof.
  intros Hc He. unfold read. rewrite (says_all _ _ (says_configuration modified conditions eggs Hc He)).
  unfold document. pose proof (adds_sections modified conditions eggs) as H.
  destruct (maybe _ _ ++ _) as [|x xs] eqn:E.
  - assert (E2 : sections_events modified conditions eggs = []).
    { unfold sections_events. destruct modified, conditions, eggs; try discriminate E. reflexivity. }
    rewrite E2. vm_compute. reflexivity.
  - rewrite <- E in *. assert (Hn : maybe (lit "last-modified") (option_map ConnectionSpec.decimal modified) ++
        group (lit "applicable-conditions") (map condition_of conditions) ++
        group (lit "milters") (map milter_of eggs) <> []) by (rewrite E; discriminate).
    clear E. destruct (adds_block (lit "configuration") 0 _ _ H Hn) as (w & Bw & Hb). rewrite Hb.
    cbn [fr_kids fr_text rev app]. now rewrite Bw.
Qed.

(** *** Loading *)

Lemma bytes_eqb_sym a b : bytes_eqb a b = bytes_eqb b a.
Proof.
  destruct (bytes_eqb a b) eqn:E, (bytes_eqb b a) eqn:E2; try reflexivity.
  - apply bytes_eqb_eq in E. subst. now rewrite bytes_eqb_refl in E2.
  - apply bytes_eqb_eq in E2. subst. now rewrite bytes_eqb_refl in E.
Qed.

Section Loading.
  Variable valid_spec : bytes -> bool.
  Variable has_setter : section -> bytes -> bool.
  Variable takes : section -> bytes -> bytes -> bool.
  Notation hear := (listen_all valid_spec has_setter takes).

  Definition at_ (l : listener) (states : list lstate) (g : egg_config) (c : loaded) : Prop :=
    li_states l = states /\ length (li_texts l) = length states /\ li_egg l = g /\ li_result l = c /\
    li_failed l = None.
  Lemma hear_app a b l : hear l (a ++ b) = hear (hear l a) b.
  Proof. apply fold_left_app. Qed.
  Lemma hear_letters s : forall l t ts, li_failed l = None -> li_texts l = t :: ts ->
    hear l (letters s) = mk_listener (li_states l) ((t ++ s) :: ts) (li_egg l) (li_result l) None.
  Proof.
    induction s as [|c s IH]; intros l t ts Hf Ht.
    - destruct l. cbn in *. subst. now rewrite app_nil_r.
    - change (hear l (letters (c :: s))) with (hear (listen valid_spec has_setter takes l (Text [c])) (letters s)).
      rewrite (IH _ (t ++ [c]) ts).
      + unfold listen. rewrite Hf. cbn [li_states li_egg li_result]. now rewrite <- app_assoc.
      + unfold listen. now rewrite Hf.
      + unfold listen. now rewrite Hf, Ht.
  Qed.
  Lemma at_letters s l states g c : states <> [] -> at_ l states g c -> at_ (hear l (letters s)) states g c.
  Proof.
    intros Hs (H1 & H2 & H3 & H4 & H5). destruct (li_texts l) as [|t ts] eqn:E.
    - destruct states; [contradiction|discriminate H2].
    - rewrite (hear_letters s l t ts H5 E). unfold at_. cbn. auto.
  Qed.
  Lemma at_line i vs l states g c states' g' c' : states <> [] -> states' <> [] ->
    (forall l, at_ l states g c -> at_ (hear l vs) states' g' c') ->
    at_ l states g c -> at_ (hear l (line i vs)) states' g' c'.
  Proof.
    intros Hs Hs' Hv H. unfold line. rewrite !hear_app. apply at_letters; [exact Hs'|]. apply Hv.
    now apply at_letters.
  Qed.
  Lemma at_leaf name content l s states g c local :
    next_state has_setter s name = Some (LItem local) ->
    at_ l (s :: states) g c ->
    at_ (hear l (leaf name content)) (s :: states) (item local content g) c.
  Proof.
    intros Hn (H1 & H2 & H3 & H4 & H5). unfold leaf.
    change (hear l (Open name :: letters content ++ [Close name]))
      with (hear (listen valid_spec has_setter takes l (Open name)) (letters content ++ [Close name])).
    rewrite hear_app.
    replace (listen valid_spec has_setter takes l (Open name))
      with (mk_listener (LItem local :: s :: states) ([] :: li_texts l) g c None)
      by (unfold listen; rewrite H5, H1; cbn [hd]; now rewrite Hn, H3, H4).
    rewrite (hear_letters content _ [] (li_texts l)); [|reflexivity|reflexivity].
    cbn [listen_all fold_left listen li_states li_texts li_egg li_result li_failed hd tl app].
    now repeat apply conj.
  Qed.
  Lemma at_optional name content i l s states g c local :
    next_state has_setter s name = Some (LItem local) ->
    at_ l (s :: states) g c ->
    at_ (hear l (optional_events name content i)) (s :: states)
        (match content with Some x => item local x g | None => g end) c.
  Proof.
    intros Hn H. destruct content as [x|]; [|exact H]. cbn [optional_events].
    apply (at_line i _ l (s :: states) g c); [discriminate|discriminate| |exact H].
    intros l' H'. now apply at_leaf.
  Qed.
  (** A block: from [s] into [s'] and back. *)
  Lemma at_block name i body l s states g c s' g' c' g2 c2 :
    next_state has_setter s name = Some s' ->
    (forall l, at_ l (s' :: s :: states) (entering s' g) c -> at_ (hear l body) (s' :: s :: states) g' c') ->
    (forall l, at_ l (s' :: s :: states) g' c' ->
               at_ (listen valid_spec has_setter takes l (Close name)) (s :: states) g2 c2) ->
    at_ l (s :: states) g c ->
    at_ (hear l (block name i body)) (s :: states) g2 c2.
  Proof.
    intros Hn Hb Hc H. apply (at_line i _ l (s :: states) g c); [discriminate|discriminate| |exact H].
    clear l H. intros l (H1 & H2 & H3 & H4 & H5).
    change (hear l (Open name :: letters newline ++ body ++ letters (indented i) ++ [Close name]))
      with (hear (listen valid_spec has_setter takes l (Open name))
                 (letters newline ++ body ++ letters (indented i) ++ [Close name])).
    rewrite !hear_app. apply Hc. apply at_letters; [discriminate|]. apply Hb. apply at_letters; [discriminate|].
    unfold listen. rewrite H5, H1. cbn [hd]. rewrite Hn. unfold at_. cbn. now rewrite H2, H3.
  Qed.

  Definition config_of (e : egg) : egg_config :=
    mk_config (Some (e_name e)) (e_description e) (Some (e_enabled e)) (e_connection_spec e) (e_command e)
              (e_command_options e) (Some (status_nick (e_fallback_status e))) (Some (e_evaluation_mode e))
              (match e_conditions e with [] => None | l => Some (map k_name l) end).
  Lemma names_items (l : list condition) i : forall li states g c names, ec_conditions g = Some names ->
    at_ li (LConditions :: states) g c ->
    at_ (hear li (flat_map (fun k => line i (leaf (lit "applicable-condition") (k_name k))) l))
        (LConditions :: states) (put_ec_conditions g (names ++ map k_name l)) c.
  Proof.
    induction l as [|k l IH]; intros li states g c names Hg H.
    - cbn. rewrite app_nil_r. replace (put_ec_conditions g names) with g; [exact H|].
      destruct g. cbn in *. now subst.
    - cbn [flat_map map]. rewrite hear_app.
      assert (H2 : at_ (hear li (line i (leaf (lit "applicable-condition") (k_name k)))) (LConditions :: states)
                      (put_ec_conditions g (names ++ [k_name k])) c).
      { apply (at_line i _ li (LConditions :: states) g c); [discriminate|discriminate| |exact H].
        intros l' H'. pose proof (at_leaf (lit "applicable-condition") (k_name k) l' LConditions states g c
                                    (lit "applicable_condition") eq_refl H') as H2.
        unfold item in H2. rewrite bytes_eqb_refl, Hg in H2. exact H2. }
      pose proof (IH _ states (put_ec_conditions g (names ++ [k_name k])) c (names ++ [k_name k]) eq_refl H2) as H3.
      rewrite <- app_assoc in H3. exact H3.
  Qed.
  Lemma yes_no_true b : bytes_eqb (yes_no b) (lit "true") = b.
  Proof. now destruct b. Qed.
  Lemma at_egg e i l states c c' :
    define_milter valid_spec c (e_name e) (configure valid_spec c (config_of e)) = inl c' ->
    forall g, at_ l (LMilters :: states) g c ->
    at_ (hear l (egg_events e i)) (LMilters :: states) no_config c'.
  Proof.
    intros Hd g H.
    apply (at_block (lit "milter") i _ l LMilters states g c LMilter (config_of e) c no_config c' eq_refl);
      [cbn [entering]| |exact H]; clear l H g.
    - intros l H. rewrite !hear_app. cbn [entering] in H.
      set (st := LMilter :: LMilters :: states) in *.
      assert (I : forall name content l g local, next_state has_setter LMilter name = Some (LItem local) ->
                  at_ l st g c -> at_ (hear l (line (i + 2) (leaf name content))) st (item local content g) c).
      { intros name content l' g local Hn H'. apply (at_line (i + 2) _ l' st g c); [discriminate|discriminate| |exact H'].
        intros l2 H2. now apply at_leaf. }
      assert (O : forall name content l g local, next_state has_setter LMilter name = Some (LItem local) ->
                  at_ l st g c -> at_ (hear l (optional_events name content (i + 2))) st
                                      (match content with Some x => item local x g | None => g end) c).
      { intros name content l' g local Hn H'. now apply at_optional. }
      assert (H1 : at_ (hear l (line (i + 2) (leaf (lit "name") (e_name e)))) st
                (mk_config (Some (e_name e)) None None None None None None None None) c)
        by exact (I (lit "name") (e_name e) l no_config (lit "name") eq_refl H). clear H.
      revert H1. generalize (hear l (line (i + 2) (leaf (lit "name") (e_name e)))). clear l. intros l H.
      assert (H1 : at_ (hear l (optional_events (lit "description") (e_description e) (i + 2))) st
                (mk_config (Some (e_name e)) (e_description e) None None None None None None None) c).
      { pose proof (O (lit "description") (e_description e) l _ (lit "description") eq_refl H) as H1.
        destruct (e_description e); exact H1. }
      clear H. revert H1. generalize (hear l (optional_events (lit "description") (e_description e) (i + 2))).
      clear l. intros l H.
      assert (H1 : at_ (hear l (line (i + 2) (leaf (lit "enabled") (yes_no (e_enabled e))))) st
                (mk_config (Some (e_name e)) (e_description e) (Some (e_enabled e)) None None None None None None) c).
      { pose proof (I (lit "enabled") (yes_no (e_enabled e)) l _ (lit "enabled") eq_refl H) as H1.
        unfold item in H1. rewrite yes_no_true in H1. exact H1. }
      clear H. revert H1. generalize (hear l (line (i + 2) (leaf (lit "enabled") (yes_no (e_enabled e))))).
      clear l. intros l H.
      assert (H1 : at_ (hear l (line (i + 2) (leaf (lit "fallback-status") (status_nick (e_fallback_status e))))) st
                (mk_config (Some (e_name e)) (e_description e) (Some (e_enabled e)) None None None
                           (Some (status_nick (e_fallback_status e))) None None) c)
        by exact (I (lit "fallback-status") (status_nick (e_fallback_status e)) l _ (lit "fallback_status") eq_refl H).
      clear H. revert H1.
      generalize (hear l (line (i + 2) (leaf (lit "fallback-status") (status_nick (e_fallback_status e))))).
      clear l. intros l H.
      assert (H1 : at_ (hear l (line (i + 2) (leaf (lit "evaluation-mode") (yes_no (e_evaluation_mode e))))) st
                (mk_config (Some (e_name e)) (e_description e) (Some (e_enabled e)) None None None
                           (Some (status_nick (e_fallback_status e))) (Some (e_evaluation_mode e)) None) c).
      { pose proof (I (lit "evaluation-mode") (yes_no (e_evaluation_mode e)) l _ (lit "evaluation_mode") eq_refl H) as H1.
        unfold item in H1. rewrite yes_no_true in H1. exact H1. }
      clear H. revert H1.
      generalize (hear l (line (i + 2) (leaf (lit "evaluation-mode") (yes_no (e_evaluation_mode e))))).
      clear l. intros l H.
      assert (H1 : at_ (hear l (optional_events (lit "connection-spec") (e_connection_spec e) (i + 2))) st
                (mk_config (Some (e_name e)) (e_description e) (Some (e_enabled e)) (e_connection_spec e) None None
                           (Some (status_nick (e_fallback_status e))) (Some (e_evaluation_mode e)) None) c).
      { pose proof (O (lit "connection-spec") (e_connection_spec e) l _ (lit "connection_spec") eq_refl H) as H1.
        destruct (e_connection_spec e); exact H1. }
      clear H. revert H1. generalize (hear l (optional_events (lit "connection-spec") (e_connection_spec e) (i + 2))).
      clear l. intros l H.
      assert (H1 : at_ (hear l (optional_events (lit "command") (e_command e) (i + 2))) st
                (mk_config (Some (e_name e)) (e_description e) (Some (e_enabled e)) (e_connection_spec e)
                           (e_command e) None
                           (Some (status_nick (e_fallback_status e))) (Some (e_evaluation_mode e)) None) c).
      { pose proof (O (lit "command") (e_command e) l _ (lit "command") eq_refl H) as H1.
        destruct (e_command e); exact H1. }
      clear H. revert H1. generalize (hear l (optional_events (lit "command") (e_command e) (i + 2))).
      clear l. intros l H.
      assert (H8 : at_ (hear l (optional_events (lit "command-options") (e_command_options e) (i + 2))) st
                (mk_config (Some (e_name e)) (e_description e) (Some (e_enabled e)) (e_connection_spec e)
                           (e_command e) (e_command_options e)
                           (Some (status_nick (e_fallback_status e))) (Some (e_evaluation_mode e)) None) c).
      { pose proof (O (lit "command-options") (e_command_options e) l _ (lit "command_options") eq_refl H) as H1.
        destruct (e_command_options e); exact H1. }
      clear H I O. set (g := mk_config _ _ _ _ _ _ _ _ _) in H8. revert H8.
      generalize (hear l (optional_events (lit "command-options") (e_command_options e) (i + 2))). clear l.
      intros l' H8. unfold config_of. destruct (e_conditions e) as [|k ks]; [exact H8|].
      apply (at_block (lit "applicable-conditions") (i + 2) _ l' LMilter (LMilters :: states) g c LConditions
               (put_ec_conditions g (map k_name (k :: ks))) c (put_ec_conditions g (map k_name (k :: ks))) c eq_refl);
        [| |exact H8].
      + intros l2 H2. exact (names_items (k :: ks) (i + 4) l2 _ (entering LConditions g) c [] eq_refl H2).
      + intros l2 (A & B & C & D & F). unfold listen. rewrite F, A. cbn [hd tl]. unfold at_. cbn.
        repeat apply conj; auto. destruct (li_texts l2); [discriminate B|]. cbn in *. lia.
    - intros l (A & B & C & D & F). unfold listen. rewrite F, A. cbn [hd tl]. rewrite C, D. cbn [ec_name config_of].
      rewrite Hd. unfold at_. cbn.
      repeat apply conj; auto. destruct (li_texts l); [discriminate B|]. cbn in *. lia.
  Qed.

  (** *** One definition *)

  Lemma find_all conditions ks :
    Forall (fun k => find (fun k' => bytes_eqb (k_name k) (k_name k')) conditions = Some k) ks ->
    find_conditions conditions (map k_name ks) = Some ks.
  Proof.
    induction 1 as [|k ks Hk Hks IH]; [reflexivity|]. cbn [map find_conditions]. rewrite IH.
    unfold find_condition. now rewrite Hk.
  Qed.
  Lemma add_all ks : forall e, fold_left (fun e k => add_condition k e) ks e =
    put_conditions (e_conditions e ++ ks) e.
  Proof.
    induction ks as [|k ks IH]; intros e; cbn [fold_left].
    - rewrite app_nil_r. now destruct e.
    - rewrite IH. destruct e. unfold add_condition, put_conditions. cbn. now rewrite <- app_assoc.
  Qed.
  Lemma nick_back s : List.In s [S_ACCEPT; S_REJECT; S_TEMPORARY_FAILURE; S_DISCARD] ->
    fallback_status_of (status_nick s) = Some s.
  Proof. intros [<-|[<-|[<-|[<-|[]]]]]; vm_compute; reflexivity. Qed.
  Lemma define_one c e : carried valid_spec (ld_conditions c) e -> Forall (usable valid_spec) (ld_eggs c) ->
    define_milter valid_spec c (e_name e) (configure valid_spec c (config_of e)) =
    inl (mk_loaded (remove_egg_by_name (ld_eggs c) (e_name e) ++
                    [overlaid (find_egg (ld_eggs c) (e_name e)) e]) (ld_conditions c) (ld_settings c)).
  Proof.
    intros (_ & Hspec & Hcmd & Hfall & Hconds) Hold. unfold define_milter, add_egg.
    set (start := match find_egg (ld_eggs c) (e_name e) with
                  | None => Some (egg_new (e_name e))
                  | Some old => match merge valid_spec (egg_new (e_name e)) old with
                                | (e, true) => Some e
                                | _ => None
                                end
                  end).
    assert (Hs : exists b, start = Some b /\
              configure valid_spec c (config_of e) b = inl (overlaid (find_egg (ld_eggs c) (e_name e)) e)).
    { assert (HC : forall b, configure valid_spec c (config_of e) b =
                inl (mk_egg (e_name b) (or_else (e_description e) (e_description b)) (e_enabled e)
                            (or_else (e_connection_spec e) (e_connection_spec b)) (e_connection_timeout b)
                            (e_writing_timeout b) (e_reading_timeout b) (e_end_of_message_timeout b) (e_user_name b)
                            (or_else (e_command e) (e_command b))
                            (match e_command e with Some _ => e_command_options e | None => e_command_options b end)
                            (e_conditions e) (e_fallback_status e) (e_evaluation_mode e))).
      { intros b. unfold configure, config_of.
        cbn [ec_connection_spec ec_conditions ec_enabled ec_description ec_command ec_command_options
             ec_fallback_status ec_evaluation_mode].
        rewrite nick_back by exact Hfall.
        replace (match match e_conditions e with [] => None | l => Some (map k_name l) end with
                 | Some l => l | None => [] end) with (map k_name (e_conditions e))
          by (destruct (e_conditions e); reflexivity).
        rewrite find_all by exact Hconds.
        destruct b as [bn bd be bs bct bwt brt bet bu bc bo bk bf bm].
        destruct (e_connection_spec e) as [[|x spec]|]; [now destruct Hspec| |].
        - destruct Hspec as [_ Hv]. unfold set_connection_spec. rewrite Hv, add_all.
          destruct (e_command e), (e_command_options e); try contradiction;
            destruct (e_description e); reflexivity.
        - rewrite add_all. destruct (e_command e), (e_command_options e); try contradiction;
            destruct (e_description e); reflexivity. }
      unfold start. destruct (find_egg (ld_eggs c) (e_name e)) as [old|] eqn:E.
      - assert (Hu : usable valid_spec old).
        { unfold find_egg in E. apply find_some in E as [Hin _].
          now apply (proj1 (Forall_forall _ _) Hold). }
        destruct old as [on od oe os oct owt ort oet ou oc oo ok' of om].
        unfold usable in Hu. cbn [e_connection_spec] in Hu. unfold merge.
        cbn [e_connection_spec e_connection_timeout e_writing_timeout e_reading_timeout e_end_of_message_timeout
             e_description e_enabled e_user_name e_command e_command_options e_conditions].
        destruct os as [spec|]; unfold set_connection_spec; [rewrite Hu|]; cbn [negb]; rewrite add_all;
          destruct od, ou, oc; (eexists; split; [reflexivity|]); rewrite HC; reflexivity.
      - eexists. split; [reflexivity|]. rewrite HC. unfold overlaid, brought_back.
        destruct (e_description e), (e_connection_spec e), (e_command e), (e_command_options e);
          try contradiction; reflexivity. }
    destruct Hs as (b & Hb & Hconf). rewrite Hb, Hconf. reflexivity.
  Qed.

  (** *** All definitions *)

  Definition after_one (l : list egg) (e : egg) : list egg :=
    remove_egg_by_name l (e_name e) ++ [overlaid (find_egg l (e_name e)) e].
  Lemma overlaid_usable old e conditions : carried valid_spec conditions e ->
    match old with Some o => usable valid_spec o | None => True end -> usable valid_spec (overlaid old e).
  Proof.
    intros (_ & Hs & _) Ho. unfold usable, overlaid. destruct old as [o|]; cbn [e_connection_spec or_else].
    - destruct (e_connection_spec e); cbn [or_else]; [apply Hs|exact Ho].
    - cbn [brought_back e_connection_spec]. destruct (e_connection_spec e); [apply Hs|exact I].
  Qed.
  Lemma removed_in l n e : List.In e (remove_egg_by_name l n) -> List.In e l.
  Proof.
    induction l as [|x l IH]; [intros []|]. cbn [remove_egg_by_name].
    destruct (bytes_eqb n (e_name x)); [now right|]. intros [<-|H]; [now left|right; auto].
  Qed.
  Lemma at_eggs i es : forall l states g c,
    Forall (carried valid_spec (ld_conditions c)) es -> Forall (usable valid_spec) (ld_eggs c) ->
    at_ l (LMilters :: states) g c ->
    exists g', at_ (hear l (flat_map (fun e => egg_events e i) es)) (LMilters :: states) g'
                   (mk_loaded (fold_left after_one es (ld_eggs c)) (ld_conditions c) (ld_settings c)).
  Proof.
    induction es as [|e es IH]; intros l states g c Hc Hu H.
    - exists g. cbn. destruct c. exact H.
    - pose proof (Forall_inv Hc) as He. pose proof (Forall_inv_tail Hc) as Hes. clear Hc.
      cbn [flat_map fold_left]. rewrite hear_app.
      pose proof (at_egg e i l states c _ (define_one c e He Hu) g H) as H2.
      refine (IH _ states no_config _ _ _ H2); cbn [ld_conditions ld_eggs]; [exact Hes|].
      apply Forall_app. split.
      + apply Forall_forall. intros x Hx. apply removed_in in Hx. now apply (proj1 (Forall_forall _ _) Hu).
      + constructor; [|constructor]. apply (overlaid_usable _ _ (ld_conditions c)); [exact He|].
        destruct (find_egg (ld_eggs c) (e_name e)) as [o|] eqn:E; [|exact I].
        unfold find_egg in E. apply find_some in E as [Hin _]. now apply (proj1 (Forall_forall _ _) Hu).
  Qed.

  Lemma remove_filter l n : NoDup (map e_name l) ->
    remove_egg_by_name l n = filter (fun e => negb (bytes_eqb n (e_name e))) l.
  Proof.
    induction l as [|x l IH]; [reflexivity|]. cbn [map]. intros Hd. inversion Hd as [|? ? Hn Hl]; subst.
    cbn [remove_egg_by_name filter]. destruct (bytes_eqb n (e_name x)) eqn:E; cbn [negb].
    - apply bytes_eqb_eq in E. subst n. clear - Hn. induction l as [|y l IH]; [reflexivity|].
      cbn [filter map] in *. destruct (bytes_eqb (e_name x) (e_name y)) eqn:E; cbn [negb].
      + apply bytes_eqb_eq in E. elim Hn. left. now rewrite E.
      + f_equal. apply IH. intros H. apply Hn. now right.
    - f_equal. now apply IH.
  Qed.
  Lemma find_other l n n' : bytes_eqb n n' = false ->
    find_egg (filter (fun e => negb (bytes_eqb n (e_name e))) l) n' = find_egg l n'.
  Proof.
    intros Hn. induction l as [|x l IH]; [reflexivity|]. unfold find_egg in *. cbn [filter find].
    destruct (bytes_eqb n (e_name x)) eqn:E; cbn [negb find].
    - rewrite IH. apply bytes_eqb_eq in E. rewrite <- E. rewrite bytes_eqb_sym, Hn. reflexivity.
    - now rewrite IH.
  Qed.
  Lemma find_appended l x n' : bytes_eqb n' (e_name x) = false -> find_egg (l ++ [x]) n' = find_egg l n'.
  Proof.
    intros H. unfold find_egg. induction l as [|y l IH]; cbn [app find]; [now rewrite H|].
    destruct (bytes_eqb n' (e_name y)); [reflexivity|exact IH].
  Qed.
  Lemma overlaid_name old e : e_name (overlaid old e) = e_name e.
  Proof. now destruct old. Qed.
  Lemma all_after es : forall l, NoDup (map e_name l) -> NoDup (map e_name es) ->
    fold_left after_one es l =
    filter (fun o => negb (existsb (bytes_eqb (e_name o)) (map e_name es))) l ++
    map (fun e => overlaid (find_egg l (e_name e)) e) es.
  Proof.
    induction es as [|e es IH]; intros l Hl Hes.
    - cbn. rewrite app_nil_r. symmetry. clear. induction l; cbn; [reflexivity|now f_equal].
    - cbn [map] in Hes. inversion Hes as [|? ? Hn Hes']; subst. cbn [fold_left].
      assert (Hne : forall e', List.In e' es -> bytes_eqb (e_name e) (e_name e') = false).
      { intros e' Hin. destruct (bytes_eqb (e_name e) (e_name e')) eqn:E; [|reflexivity].
        apply bytes_eqb_eq in E. elim Hn. rewrite E. now apply in_map. }
      rewrite IH; [| |exact Hes'].
      + unfold after_one. rewrite remove_filter by exact Hl. rewrite filter_app. cbn [filter map].
        rewrite overlaid_name.
        replace (existsb (bytes_eqb (e_name e)) (map e_name es)) with false.
        2: { symmetry. apply not_true_is_false. intros H. apply existsb_exists in H as (x & Hx & E).
             apply bytes_eqb_eq in E. subst x. contradiction. }
        cbn [negb]. rewrite <- app_assoc. cbn [app]. f_equal.
        * clear. induction l as [|x l IH]; [reflexivity|]. cbn [filter existsb].
          rewrite (bytes_eqb_sym (e_name x) (e_name e)).
          destruct (bytes_eqb (e_name e) (e_name x)); cbn [negb orb filter]; [exact IH|].
          destruct (existsb (bytes_eqb (e_name x)) (map e_name es)); cbn [negb]; [exact IH|now f_equal].
        * f_equal. apply map_ext_in. intros e' Hin. specialize (Hne e' Hin).
          rewrite find_appended; [|rewrite overlaid_name, bytes_eqb_sym; exact Hne].
          now rewrite find_other.
      + unfold after_one. rewrite remove_filter by exact Hl. rewrite map_app. cbn [map]. rewrite overlaid_name.
        clear - Hl. induction l as [|x l IH]; cbn [filter map app]; [constructor; [intros []|constructor]|].
        cbn [map] in Hl. inversion Hl as [|? ? Hx Hl']; subst.
        destruct (bytes_eqb (e_name e) (e_name x)) eqn:E; cbn [negb map app]; [now apply IH|].
        constructor; [|now apply IH]. intros H. apply in_app_or in H as [H|[H|[]]].
        * apply in_map_iff in H as (y & Hy & Hin). apply filter_In in Hin as [Hin _].
          apply Hx. rewrite <- Hy. now apply in_map.
        * rewrite H, bytes_eqb_refl in E. discriminate.
  Qed.

  (** *** The way the text is cut does not matter *)

  Lemma hear_failed vs : forall l, li_failed l <> None -> hear l vs = l.
  Proof.
    induction vs as [|v vs IH]; intros l H; [reflexivity|].
    change (hear l (v :: vs)) with (hear (listen valid_spec has_setter takes l v) vs).
    unfold listen. destruct (li_failed l) eqn:E; [|now elim H]. apply IH. now rewrite E.
  Qed.
  Lemma hear_text d l : listen valid_spec has_setter takes l (Text d) = hear l (letters d).
  Proof.
    destruct (li_failed l) eqn:E.
    - rewrite hear_failed by now rewrite E. unfold listen. now rewrite E.
    - destruct (li_texts l) as [|t ts] eqn:T.
      + assert (H : forall d, hear l (letters d) = mk_listener (li_states l) [] (li_egg l) (li_result l) None).
        { clear d. induction d as [|x d IH].
          - destruct l. cbn in *. now subst.
          - change (hear l (letters (x :: d))) with (hear (listen valid_spec has_setter takes l (Text [x])) (letters d)).
            replace (listen valid_spec has_setter takes l (Text [x])) with l; [exact IH|].
            unfold listen. rewrite E, T. destruct l. cbn in *. now subst. }
        rewrite H. unfold listen. now rewrite E, T.
      + rewrite (hear_letters d l t ts E T). unfold listen. now rewrite E, T.
  Qed.
  Lemma hear_spelled vs : forall l, hear l vs = hear l (spelled vs).
  Proof.
    induction vs as [|v vs IH]; intros l; [reflexivity|].
    change (spelled (v :: vs)) with (match v with Text d => letters d | _ => [v] end ++ spelled vs).
    rewrite hear_app, <- IH.
    change (hear l (v :: vs)) with (hear (listen valid_spec has_setter takes l v) vs).
    destruct v as [n|d|n]; [reflexivity| |reflexivity]. now rewrite hear_text.
  Qed.

  Lemma load_definitions c es vs :
    Forall (carried valid_spec (ld_conditions c)) es -> NoDup (map e_name es) ->
    Forall (usable valid_spec) (ld_eggs c) -> NoDup (map e_name (ld_eggs c)) ->
    scan InText (configuration_to_xml None [] es) = Some (spelled vs) ->
    load valid_spec has_setter takes c vs =
    (mk_loaded (filter (fun o => negb (existsb (bytes_eqb (e_name o)) (map e_name es))) (ld_eggs c) ++
                map (fun e => overlaid (find_egg (ld_eggs c) (e_name e)) e) es) (ld_conditions c) (ld_settings c),
     None).
  Proof.
    intros Hc Hd Hu Ho Hv. unfold load. cbv zeta. rewrite hear_spelled.
    assert (Hp : Forall plain_egg es) by (eapply Forall_impl; [|exact Hc]; intros e [H _]; exact H).
    rewrite (says_all _ _ (says_configuration None [] es ltac:(constructor) Hp)) in Hv.
    replace (spelled vs) with (block (lit "configuration") 0 (sections_events None [] es)) by congruence.
    clear Hv vs. rewrite <- all_after by assumption.
    set (c' := mk_loaded (fold_left after_one es (ld_eggs c)) (ld_conditions c) (ld_settings c)).
    assert (H0 : at_ (li_new c) [LRoot] no_config c) by now repeat apply conj.
    assert (P : forall name l s g c g2, at_ l (s :: LConfiguration :: [LRoot]) g c ->
              match s with LMilters => True | _ => False end -> g2 = g ->
              at_ (listen valid_spec has_setter takes l (Close name)) (LConfiguration :: [LRoot]) g2 c).
    { intros name l s g c0 g2 (A & B & C & D & F) Hs ->. unfold listen. rewrite F, A. cbn [hd tl].
      destruct s; try contradiction. unfold at_. cbn.
      repeat apply conj; auto. destruct (li_texts l); [discriminate B|]. cbn in *. lia. }
    assert (Q : forall g, at_ (li_new c) [LRoot] g c ->
              exists g2, at_ (hear (li_new c) (block (lit "configuration") 0 (sections_events None [] es))) [LRoot] g2 c').
    { intros g H.
      assert (R : forall l, at_ l [LConfiguration; LRoot] g c ->
                exists g2, at_ (hear l (sections_events None [] es)) [LConfiguration; LRoot] g2 c').
      { intros l Hl. unfold sections_events. cbn [option_map optional_events app].
        destruct es as [|e es'] eqn:E.
        - exists g. unfold c'. cbn. destruct c. exact Hl.
        - rewrite <- E in *.
          unfold block, line.
          rewrite hear_app. apply (at_letters (indented 2)) in Hl; [|discriminate].
          revert Hl. generalize (hear l (letters (indented 2))). clear l. intros l Hl.
          rewrite hear_app.
          change (hear l (Open (lit "milters") :: letters newline ++
                    flat_map (fun e => egg_events e 4) es ++ letters (indented 2) ++ [Close (lit "milters")]))
            with (hear (listen valid_spec has_setter takes l (Open (lit "milters"))) (letters newline ++
                    flat_map (fun e => egg_events e 4) es ++ letters (indented 2) ++ [Close (lit "milters")])).
          assert (Hm : at_ (listen valid_spec has_setter takes l (Open (lit "milters")))
                          [LMilters; LConfiguration; LRoot] g c).
          { destruct Hl as (A & B & C & D & F). unfold listen. rewrite F, A. cbn [hd].
            change (next_state has_setter LConfiguration (lit "milters")) with (Some LMilters).
            unfold at_. cbn. now rewrite B. }
          revert Hm. generalize (listen valid_spec has_setter takes l (Open (lit "milters"))). clear l Hl.
          intros l Hl. rewrite !hear_app. apply (at_letters newline) in Hl; [|discriminate].
          destruct (at_eggs 4 es _ _ _ _ Hc Hu Hl) as (g2 & H2). exists g2.
          apply at_letters; [discriminate|]. subst c'. rewrite <- E in *.
          apply (P (lit "milters") _ LMilters g2 _ g2); [|exact I|reflexivity].
          apply at_letters; [discriminate|exact H2]. }
      unfold block, line. rewrite hear_app. apply (at_letters (indented 0)) in H; [|discriminate].
      revert H. generalize (hear (li_new c) (letters (indented 0))). intros l Hl. rewrite hear_app.
      change (hear l (Open (lit "configuration") :: letters newline ++
                sections_events None [] es ++ letters (indented 0) ++ [Close (lit "configuration")]))
        with (hear (listen valid_spec has_setter takes l (Open (lit "configuration"))) (letters newline ++
                sections_events None [] es ++ letters (indented 0) ++ [Close (lit "configuration")])).
      assert (Hm : at_ (listen valid_spec has_setter takes l (Open (lit "configuration"))) [LConfiguration; LRoot] g c).
      { destruct Hl as (A & B & C & D & F). unfold listen. rewrite F, A. cbn [hd].
        change (next_state has_setter LRoot (lit "configuration")) with (Some LConfiguration).
        unfold at_. cbn. now rewrite B. }
      revert Hm. generalize (listen valid_spec has_setter takes l (Open (lit "configuration"))). clear l Hl.
      intros l Hl. rewrite !hear_app. apply (at_letters newline) in Hl; [|discriminate].
      destruct (R _ Hl) as (g2 & H2). exists g2. apply at_letters; [discriminate|].
      apply (at_letters (indented 0)) in H2; [|discriminate]. revert H2.
      generalize (hear (hear (hear l (letters newline)) (sections_events None [] es)) (letters (indented 0))).
      clear. intros l (A & B & C & D & F). cbn [hear listen_all fold_left]. unfold listen. rewrite F, A. cbn [hd tl].
      unfold at_. cbn. repeat apply conj; auto. destruct (li_texts l); [discriminate B|]. cbn in *. lia. }
    destruct (Q no_config H0) as (g2 & _ & _ & _ & A & B). now rewrite A, B.
  Qed.

  (** What the manager says of itself, when it has conditions or a file, is not taken. *)
  Lemma load_refused c modified conditions es vs :
    modified <> None \/ conditions <> [] -> Forall plain_condition conditions -> Forall plain_egg es ->
    scan InText (configuration_to_xml modified conditions es) = Some (spelled vs) ->
    load valid_spec has_setter takes c vs = (c, Some UnexpectedElement).
  Proof.
    intros Hm Hp He Hv. unfold load. cbv zeta. rewrite hear_spelled.
    rewrite (says_all _ _ (says_configuration modified conditions es Hp He)) in Hv.
    replace (spelled vs) with (block (lit "configuration") 0 (sections_events modified conditions es)) by congruence.
    clear Hv vs.
    assert (H : exists name rest, (bytes_eqb name (lit "last-modified") || bytes_eqb name (lit "applicable-conditions")) = true /\
              block (lit "configuration") 0 (sections_events modified conditions es) =
              (Open (lit "configuration") :: letters newline ++ letters (indented 2)) ++ Open name :: rest).
    { unfold block, line, sections_events.
      change (letters (indented 0)) with (@nil event). cbn [app].
      destruct modified as [t|]; [|destruct conditions as [|k ks]; [now destruct Hm|]].
      - exists (lit "last-modified"). cbn [option_map optional_events]. unfold line, leaf.
        eexists. split; [reflexivity|]. cbn [app]. f_equal. rewrite <- !app_assoc. reflexivity.
      - exists (lit "applicable-conditions"). cbn [option_map optional_events app]. unfold block at 1, line.
        eexists. split; [reflexivity|]. f_equal. rewrite <- !app_assoc. reflexivity. }
    destruct H as (name & rest & Hn & ->). rewrite hear_app.
    assert (H0 : at_ (hear (li_new c) (Open (lit "configuration") :: letters newline ++ letters (indented 2)))
                    [LConfiguration; LRoot] no_config c).
    { change (hear (li_new c) (Open (lit "configuration") :: letters newline ++ letters (indented 2)))
        with (hear (listen valid_spec has_setter takes (li_new c) (Open (lit "configuration")))
                   (letters newline ++ letters (indented 2))).
      rewrite hear_app. apply at_letters; [discriminate|]. apply at_letters; [discriminate|].
      now repeat apply conj. }
    revert H0. generalize (hear (li_new c) (Open (lit "configuration") :: letters newline ++ letters (indented 2))).
    intros l (A & B & C & D & F).
    change (hear l (Open name :: rest)) with (hear (listen valid_spec has_setter takes l (Open name)) rest).
    replace (listen valid_spec has_setter takes l (Open name)) with (fail l UnexpectedElement).
    - rewrite hear_failed by discriminate. cbn. now rewrite D.
    - unfold listen. rewrite F, A. cbn [hd]. apply orb_true_iff in Hn as [Hn|Hn]; apply bytes_eqb_eq in Hn; subst name; reflexivity.
  Qed.
End Loading.

(** *** What the document tells apart *)

Lemma nick_injective a b : status_nick a = status_nick b -> a = b.
Proof. intros H. destruct a, b; try reflexivity; vm_compute in H; discriminate H. Qed.
Lemma yes_no_injective a b : yes_no a = yes_no b -> a = b.
Proof. intros H. now rewrite <- (yes_no_true a), <- (yes_no_true b), H. Qed.
Lemma names_injective ks ks' :
  flat_map (fun k => said (lit "applicable-condition") (k_name k)) ks =
  flat_map (fun k => said (lit "applicable-condition") (k_name k)) ks' -> map k_name ks = map k_name ks'.
Proof.
  revert ks'. induction ks as [|k ks IH]; intros [|k' ks'] H; try reflexivity; try discriminate H.
  cbn [flat_map said app] in H. cbn [map].
  apply (f_equal (fun l => match l with x :: l => (match x with Elem _ t _ => t end, l) | [] => ([], []) end)) in H.
  cbn in H. f_equal; [exact (f_equal fst H)|exact (IH _ (f_equal snd H))].
Qed.

(** The text of the first element of that name, and the names in the groups. *)
Fixpoint first (name : bytes) (l : list xml) : option (bytes * list xml) :=
  match l with
  | [] => None
  | Elem n t ks :: l => if bytes_eqb n name then Some (t, ks) else first name l
  end.
Definition kids_of (x : xml) : list xml := match x with Elem _ _ ks => ks end.
Lemma first_app n a b : first n (a ++ b) = match first n a with Some x => Some x | None => first n b end.
Proof.
  induction a as [|[m t ks] a IH]; [reflexivity|]. cbn [app first]. destruct (bytes_eqb m n); [reflexivity|exact IH].
Qed.
Lemma first_said n m t : first n (said m t) = if bytes_eqb m n then Some (t, []) else None.
Proof. reflexivity. Qed.
Lemma first_maybe n m o :
  first n (maybe m o) = if bytes_eqb m n then option_map (fun t => (t, [])) o else None.
Proof. destruct o; cbn; destruct (bytes_eqb m n); reflexivity. Qed.
Lemma first_group n m ks :
  first n (group m ks) = if bytes_eqb m n then match ks with [] => None | _ => Some ([], ks) end else None.
Proof. destruct ks; cbn; destruct (bytes_eqb m n); reflexivity. Qed.
Ltac look H :=
  rewrite ?first_app, ?first_said, ?first_maybe, ?first_group in H;
  repeat match type of H with context [bytes_eqb (lit ?a) (lit ?b)] =>
    let v := eval vm_compute in (bytes_eqb (lit a) (lit b)) in
    change (bytes_eqb (lit a) (lit b)) with v in H
  end; cbv iota in H.
Lemma texts_injective (o o' : option bytes) :
  option_map (fun t => (t, @nil xml)) o = option_map (fun t => (t, [])) o' -> o = o'.
Proof.
  intros H. apply (f_equal (option_map fst)) in H. destruct o, o'; cbn in H; congruence.
Qed.
Lemma groups_injective (ks ks' : list xml) :
  match ks with [] => None | _ => Some (@nil byte, ks) end = match ks' with [] => None | _ => Some ([], ks') end ->
  ks = ks'.
Proof. destruct ks, ks'; try discriminate; intros H; [reflexivity|]. now injection H as -> ->. Qed.
Lemma milter_injective e e' : milter_of e = milter_of e' ->
  (e_name e, e_description e, e_enabled e, e_fallback_status e, e_evaluation_mode e,
   e_connection_spec e, e_command e, e_command_options e, map k_name (e_conditions e)) =
  (e_name e', e_description e', e_enabled e', e_fallback_status e', e_evaluation_mode e',
   e_connection_spec e', e_command e', e_command_options e', map k_name (e_conditions e')).
Proof.
  intros H.
  assert (F : forall n, first n (kids_of (milter_of e)) = first n (kids_of (milter_of e'))) by (intros n; now rewrite H).
  clear H. unfold milter_of, kids_of in F.
  pose proof (F (lit "name")) as H1. look H1.
  pose proof (F (lit "description")) as H2. look H2.
  pose proof (F (lit "enabled")) as H3. look H3.
  pose proof (F (lit "fallback-status")) as H4. look H4.
  pose proof (F (lit "evaluation-mode")) as H5. look H5.
  pose proof (F (lit "connection-spec")) as H6. look H6.
  pose proof (F (lit "command")) as H7. look H7.
  pose proof (F (lit "command-options")) as H8. look H8.
  pose proof (F (lit "applicable-conditions")) as H9. look H9. clear F.
  assert (N1 : forall o : option (bytes * list xml), match o with Some x => Some x | None => None end = o)
    by (intros []; reflexivity).
  rewrite !N1 in *.
  apply texts_injective in H2, H6, H7, H8. apply groups_injective in H9. apply names_injective in H9.
  assert (P : forall a b : bytes, Some (a, @nil xml) = Some (b, []) -> a = b)
    by (intros a b E; now apply (f_equal (fun o => match o with Some (x, _) => x | None => [] end)) in E).
  apply P in H1, H3, H4, H5. apply yes_no_injective in H3, H5. apply nick_injective in H4.
  now rewrite H1, H2, H3, H4, H5, H6, H7, H8, H9.
Qed.
Lemma condition_injective k k' : condition_of k = condition_of k' ->
  (k_name k, k_description k) = (k_name k', k_description k').
Proof.
  intros H.
  assert (F : forall n, first n (kids_of (condition_of k)) = first n (kids_of (condition_of k'))) by (intros n; now rewrite H).
  clear H. unfold condition_of, kids_of in F.
  pose proof (F (lit "name")) as H1. look H1.
  pose proof (F (lit "description")) as H2. look H2.
  apply texts_injective in H2. apply (f_equal (fun o => match o with Some (x, _) => x | None => [] end)) in H1.
  now rewrite H1, H2.
Qed.
Lemma map_injective {A B C} (f : A -> B) (g : A -> C) (Hf : forall a a', f a = f a' -> g a = g a') :
  forall l l', map f l = map f l' -> map g l = map g l'.
Proof.
  induction l as [|a l IH]; intros [|a' l'] H; try discriminate H; [reflexivity|]. cbn [map] in *.
  f_equal; [apply Hf|apply IH]; congruence.
Qed.
Lemma document_injective conditions eggs conditions' eggs' :
  document None conditions eggs = document None conditions' eggs' ->
  map (fun k => (k_name k, k_description k)) conditions = map (fun k => (k_name k, k_description k)) conditions' /\
  map (fun e => (e_name e, e_description e, e_enabled e, e_fallback_status e, e_evaluation_mode e,
                 e_connection_spec e, e_command e, e_command_options e, map k_name (e_conditions e))) eggs =
  map (fun e => (e_name e, e_description e, e_enabled e, e_fallback_status e, e_evaluation_mode e,
                 e_connection_spec e, e_command e, e_command_options e, map k_name (e_conditions e))) eggs'.
Proof.
  intros H.
  assert (F : forall n, first n (kids_of (document None conditions eggs)) =
                        first n (kids_of (document None conditions' eggs'))) by (intros n; now rewrite H).
  clear H. unfold document, kids_of in F. cbv zeta in F.
  pose proof (F (lit "applicable-conditions")) as H1. look H1.
  pose proof (F (lit "milters")) as H2. look H2. clear F.
  cbn [option_map] in *.
  assert (N1 : forall o : option (bytes * list xml), match o with Some x => Some x | None => None end = o)
    by (intros []; reflexivity).
  rewrite !N1 in *. apply groups_injective in H1, H2. split.
  - revert H1. apply map_injective. exact condition_injective.
  - revert H2. apply map_injective. exact milter_injective.
Qed.
