(** Filter definitions: what was said holds, merging, the filters of a session. *)
From Verif.Base Require Import Bytes BytesFacts.
From Verif.Model Require Import Status Egg Configuration.
From Verif.Spec Require Import EggSpec.
From Coq Require Import ZifyBool ZifyNat ZifyN.

Section Egg.
  Variable valid : bytes -> bool.

  Section Field.
    Variables (A : Type) (field : egg -> A) (about : egg_op -> option A).
    Hypothesis one : forall e o, field (egg_step valid e o) = match about o with Some v => v | None => field e end.

    Lemma field_told ops e : field (fold_left (egg_step valid) ops e) = told about ops (field e).
    Proof.
      revert e. induction ops as [|o ops IH]; intros e; [reflexivity|]. cbn [fold_left]. rewrite IH, one. unfold told.
      cbn [said]. destruct (said about ops); [reflexivity|]. destruct (about o); reflexivity.
    Qed.

    Lemma field_define n ops : field (define valid n ops) = told about ops (field (egg_new n)).
    Proof. apply field_told. Qed.

    Lemma told_app ops1 ops2 v : told about (ops1 ++ ops2) v = told about ops2 (told about ops1 v).
    Proof.
      unfold told. assert (H : said about (ops1 ++ ops2) = match said about ops2 with Some v => Some v | None => said about ops1 end).
      { induction ops1 as [|o ops1 IH]; cbn [app said]; [destruct (said about ops2); reflexivity|]. rewrite IH.
        destruct (said about ops2); reflexivity. }
      rewrite H. destruct (said about ops2); reflexivity.
    Qed.
  End Field.

  Ltac one := intros e []; cbn [egg_step]; try reflexivity;
    repeat match goal with |- context [match ?x with _ => _ end] => destruct x; try reflexivity end.

  Lemma one_name e o : e_name (egg_step valid e o) = e_name e.
  Proof. revert e o. intros e []; cbn [egg_step]; try reflexivity. destruct v as [s|]; cbn [set_connection_spec]; [destruct (valid s)|]; reflexivity. Qed.
  Lemma one_description e o : e_description (egg_step valid e o) = match about_description o with Some v => v | None => e_description e end.
  Proof. revert e o. intros e []; cbn [egg_step about_description]; try reflexivity. destruct v as [s|]; cbn [set_connection_spec]; [destruct (valid s)|]; reflexivity. Qed.
  Lemma one_enabled e o : e_enabled (egg_step valid e o) = match about_enabled o with Some v => v | None => e_enabled e end.
  Proof. revert e o. intros e []; cbn [egg_step about_enabled]; try reflexivity. destruct v as [s|]; cbn [set_connection_spec]; [destruct (valid s)|]; reflexivity. Qed.
  Lemma one_spec e o : e_connection_spec (egg_step valid e o) = match about_spec valid o with Some v => v | None => e_connection_spec e end.
  Proof. revert e o. intros e []; cbn [egg_step about_spec]; try reflexivity. destruct v as [s|]; cbn [set_connection_spec]; [destruct (valid s)|]; reflexivity. Qed.
  Lemma one_connection_timeout e o : e_connection_timeout (egg_step valid e o) = match about_connection_timeout o with Some v => v | None => e_connection_timeout e end.
  Proof. revert e o. intros e []; cbn [egg_step about_connection_timeout]; try reflexivity. destruct v as [s|]; cbn [set_connection_spec]; [destruct (valid s)|]; reflexivity. Qed.
  Lemma one_writing_timeout e o : e_writing_timeout (egg_step valid e o) = match about_writing_timeout o with Some v => v | None => e_writing_timeout e end.
  Proof. revert e o. intros e []; cbn [egg_step about_writing_timeout]; try reflexivity. destruct v as [s|]; cbn [set_connection_spec]; [destruct (valid s)|]; reflexivity. Qed.
  Lemma one_reading_timeout e o : e_reading_timeout (egg_step valid e o) = match about_reading_timeout o with Some v => v | None => e_reading_timeout e end.
  Proof. revert e o. intros e []; cbn [egg_step about_reading_timeout]; try reflexivity. destruct v as [s|]; cbn [set_connection_spec]; [destruct (valid s)|]; reflexivity. Qed.
  Lemma one_end_of_message_timeout e o : e_end_of_message_timeout (egg_step valid e o) = match about_end_of_message_timeout o with Some v => v | None => e_end_of_message_timeout e end.
  Proof. revert e o. intros e []; cbn [egg_step about_end_of_message_timeout]; try reflexivity. destruct v as [s|]; cbn [set_connection_spec]; [destruct (valid s)|]; reflexivity. Qed.
  Lemma one_user_name e o : e_user_name (egg_step valid e o) = match about_user_name o with Some v => v | None => e_user_name e end.
  Proof. revert e o. intros e []; cbn [egg_step about_user_name]; try reflexivity. destruct v as [s|]; cbn [set_connection_spec]; [destruct (valid s)|]; reflexivity. Qed.
  Lemma one_command e o : e_command (egg_step valid e o) = match about_command o with Some v => v | None => e_command e end.
  Proof. revert e o. intros e []; cbn [egg_step about_command]; try reflexivity. destruct v as [s|]; cbn [set_connection_spec]; [destruct (valid s)|]; reflexivity. Qed.
  Lemma one_command_options e o : e_command_options (egg_step valid e o) = match about_command_options o with Some v => v | None => e_command_options e end.
  Proof. revert e o. intros e []; cbn [egg_step about_command_options]; try reflexivity. destruct v as [s|]; cbn [set_connection_spec]; [destruct (valid s)|]; reflexivity. Qed.
  Lemma one_fallback_status e o : e_fallback_status (egg_step valid e o) = match about_fallback_status o with Some v => v | None => e_fallback_status e end.
  Proof. revert e o. intros e []; cbn [egg_step about_fallback_status]; try reflexivity. destruct v as [s|]; cbn [set_connection_spec]; [destruct (valid s)|]; reflexivity. Qed.
  Lemma one_evaluation_mode e o : e_evaluation_mode (egg_step valid e o) = match about_evaluation_mode o with Some v => v | None => e_evaluation_mode e end.
  Proof. revert e o. intros e []; cbn [egg_step about_evaluation_mode]; try reflexivity. destruct v as [s|]; cbn [set_connection_spec]; [destruct (valid s)|]; reflexivity. Qed.

  Lemma conditions_fold ops e : e_conditions (fold_left (egg_step valid) ops e) = conditions_told ops (e_conditions e).
  Proof.
    revert e. induction ops as [|o ops IH]; intros e; [reflexivity|]. cbn [fold_left]. rewrite IH.
    destruct o; cbn [egg_step conditions_told]; try reflexivity.
    destruct v as [s|]; cbn [set_connection_spec]; [destruct (valid s)|]; reflexivity.
  Qed.

  (** *** A definition holds what was said *)

  Lemma define_name n ops : e_name (define valid n ops) = n.
  Proof.
    unfold define. assert (H : forall ops e, e_name (fold_left (egg_step valid) ops e) = e_name e).
    { clear. induction ops as [|o ops IH]; intros e; [reflexivity|]. cbn [fold_left]. rewrite IH. apply one_name. }
    apply H.
  Qed.

  (** The connection spec of a definition parses. *)
  Lemma define_spec_valid n ops s : e_connection_spec (define valid n ops) = Some s -> valid s = true.
  Proof.
    unfold define. assert (H : forall ops e, (forall s, e_connection_spec e = Some s -> valid s = true) ->
      forall s, e_connection_spec (fold_left (egg_step valid) ops e) = Some s -> valid s = true).
    { clear. induction ops as [|o ops IH]; intros e He; [exact He|]. cbn [fold_left]. apply IH. intros s. rewrite one_spec.
      destruct o as [| |[v|]| | | | | | | | | | |]; cbn [about_spec]; try apply He; [|discriminate].
      destruct (valid v) eqn:E; [|apply He]. intros H. injection H as <-. exact E. }
    apply H. discriminate.
  Qed.

  (** *** Merging *)

  Lemma add_all l e : fold_left (fun e c => add_condition c e) l e = put_conditions (e_conditions e ++ l) e.
  Proof.
    revert e. induction l as [|c l IH]; intros e; cbn [fold_left].
    - rewrite app_nil_r. destruct e; reflexivity.
    - rewrite IH. cbn [add_condition put_conditions e_conditions]. rewrite <- app_assoc. destruct e; reflexivity.
  Qed.

  (** What merging makes of an egg, field by field. *)
  Lemma merge_fields e other : (forall s, e_connection_spec other = Some s -> valid s = true) ->
    merge valid e other =
    (mk_egg (e_name e)
       (match e_description other with Some d => Some d | None => e_description e end)
       (e_enabled other)
       (match e_connection_spec other with Some s => Some s | None => e_connection_spec e end)
       (e_connection_timeout other) (e_writing_timeout other) (e_reading_timeout other) (e_end_of_message_timeout other)
       (match e_user_name other with Some d => Some d | None => e_user_name e end)
       (match e_command other with Some d => Some d | None => e_command e end)
       (match e_command other with Some _ => e_command_options other | None => e_command_options e end)
       (e_conditions other) (e_fallback_status e) (e_evaluation_mode e), true).
  Proof.
    intros V. unfold merge.
    destruct (e_connection_spec other) as [s|] eqn:Es.
    - cbn [set_connection_spec]. rewrite (V s eq_refl). cbn [negb]. rewrite add_all.
      destruct (e_description other), (e_user_name other), (e_command other); reflexivity.
    - cbn [negb]. rewrite add_all. destruct (e_description other), (e_user_name other), (e_command other); reflexivity.
  Qed.

  Lemma conditions_cleared ops a b : In ClearConditions ops -> conditions_told ops a = conditions_told ops b.
  Proof.
    revert a b. induction ops as [|o ops IH]; intros a b H; [destruct H|].
    destruct H as [->|H]; [reflexivity|]. destruct o; cbn [conditions_told]; auto.
  Qed.

  (** *** The filters of a session *)

  Lemma hatch_fits e c h : hatch valid e = (Some c, h) -> filter_for e c.
  Proof.
    unfold hatch. destruct (e_connection_spec e) as [s|] eqn:E; [|discriminate]. intros H. injection H as <- _.
    unfold filter_for. cbn [ch_name ch_connection_spec ch_connection_timeout ch_writing_timeout ch_reading_timeout
      ch_end_of_message_timeout ch_user_name ch_command ch_command_options ch_fallback_status ch_evaluation_mode].
    rewrite E. repeat split; intros; lia.
  Qed.

  Lemma setup_spec eggs :
    Forall2 (fun e ck => filter_for e (fst ck) /\ snd ck = e_conditions e) (filter to_run eggs) (setup_children valid eggs).
  Proof.
    induction eggs as [|e eggs IH]; cbn [filter setup_children]; [constructor|]. unfold to_run at 1.
    destruct (e_enabled e); cbn [andb negb]; [|exact IH].
    destruct (hatch valid e) as [[c|] h] eqn:H.
    - pose proof (hatch_fits _ _ _ H) as F. unfold hatch in H. destruct (e_connection_spec e); [|discriminate].
      constructor; [split; [exact F|reflexivity]|exact IH].
    - unfold hatch in H. destruct (e_connection_spec e); [discriminate|exact IH].
  Qed.
End Egg.

(** *** The list of definitions *)

Lemma remove_absent l name : ~ In name (map e_name l) -> remove_egg_by_name l name = l.
Proof.
  induction l as [|e l IH]; intros H; cbn [remove_egg_by_name]; [reflexivity|].
  destruct (bytes_eqb name (e_name e)) eqn:E.
  - exfalso. apply H. apply bytes_eqb_eq in E as ->. left. reflexivity.
  - f_equal. apply IH. intros I. apply H. right. exact I.
Qed.

Lemma remove_exactly l name : NoDup (map e_name l) ->
  remove_egg_by_name l name = filter (fun e => negb (bytes_eqb name (e_name e))) l.
Proof.
  induction l as [|e l IH]; intros H; cbn [remove_egg_by_name filter]; [reflexivity|]. cbn [map] in H.
  inversion H as [|? ? H1 H2]; subst.
  destruct (bytes_eqb name (e_name e)) eqn:E; cbn [negb].
  - apply bytes_eqb_eq in E as ->. rewrite <- IH by exact H2. symmetry. apply remove_absent, H1.
  - f_equal. apply IH, H2.
Qed.

Lemma remove_keeps_distinct l name : NoDup (map e_name l) -> NoDup (map e_name (remove_egg_by_name l name)).
Proof.
  induction l as [|e l IH]; intros H; cbn [remove_egg_by_name map] in *; [constructor|].
  inversion H as [|? ? H1 H2]; subst. destruct (bytes_eqb name (e_name e)); [exact H2|]. cbn [map]. constructor; [|auto].
  intros I. apply H1. clear -I. induction l as [|x l IH]; [exact I|]. cbn [remove_egg_by_name] in I.
  destruct (bytes_eqb name (e_name x)); cbn [map] in *; [right; exact I|]. destruct I as [I|I]; [left; exact I|right; auto].
Qed.

(** *** Clearing *)

Lemma clear_new b s :
  (s_package_platform s = None -> b_platform b = None) -> (s_package_options s = None -> b_package_options b = None) ->
  clear b s = settings_new b.
Proof.
  intros H1 H2. unfold clear, settings_new.
  destruct (s_package_platform s); [|rewrite H1 by reflexivity]; (destruct (s_package_options s); [|rewrite H2 by reflexivity]); reflexivity.
Qed.

(** *** Saving and loading *)

Lemma find_first (A : Type) (f g : A -> bool) l x :
  find f l = Some x -> g x = true -> (forall y, In y l -> f y = false -> g y = false) ->
  (exists y, find g l = Some y /\ f y = true /\ (y = x \/ g y = true)).
Proof.
  induction l as [|a l IH]; cbn [find]; [discriminate|]. destruct (f a) eqn:Fa.
  - intros H Gx _. injection H as ->. rewrite Gx. exists x. auto.
  - intros H Gx K. rewrite (K a (or_introl eq_refl) Fa). apply IH; auto. intros y I. apply K. right. exact I.
Qed.

Lemma save_then_find paths f t f' :
  save_custom paths f t = Some f' ->
  (forall dir, In dir paths -> f_content f (build_filename dir CUSTOM_CONFIG_FILE_NAME) <> None ->
               f_writable f (build_filename dir CUSTOM_CONFIG_FILE_NAME) = true) ->
  exists path, find_file paths f' CUSTOM_CONFIG_FILE_NAME = Some path /\ f_content f' path = Some t.
Proof.
  unfold save_custom, find_file. intros E K.
  set (l := map (fun dir => build_filename dir CUSTOM_CONFIG_FILE_NAME) paths) in *.
  assert (K' : forall p, In p l -> f_content f p <> None -> f_writable f p = true).
  { intros p I. apply in_map_iff in I as (dir & <- & I). auto. }
  clearbody l. destruct (find (f_writable f) l) as [path|] eqn:F; [|discriminate]. injection E as <-.
  exists path. split; [|cbn [f_set f_content]; rewrite bytes_eqb_refl; reflexivity].
  revert F K'. induction l as [|a l IH]; cbn [find]; [discriminate|]. intros F K'. cbn [f_set f_content].
  destruct (f_writable f a) eqn:W.
  - injection F as ->. rewrite bytes_eqb_refl. reflexivity.
  - destruct (bytes_eqb a path) eqn:E.
    + apply bytes_eqb_eq in E as ->. pose proof (find_some _ _ F) as [_ X]. congruence.
    + destruct (f_content f a) eqn:C.
      * exfalso. rewrite (K' a (or_introl eq_refl)) in W; [discriminate|congruence].
      * apply IH; [exact F|]. intros p I. apply K'. right. exact I.
Qed.
