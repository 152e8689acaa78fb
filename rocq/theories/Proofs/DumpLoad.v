(** What reading the shown configuration does. *)
From Verif.Base Require Import Bytes BytesFacts.
From Verif.Model Require Import Status Egg Configuration ConfigDump.
From Verif.Model Require ConnectionSpec Logger ConfigXml.
From Verif.Spec Require Import RubySpec.
From Verif.Proofs Require Import DumpProofs.
Import List.
Local Open Scope N_scope.

(** ** Getters and setters *)

Definition typed (i : item) (v : value) : Prop :=
  match i with
  | PackagePlatform | PackageOptions | EffectiveUser | EffectiveGroup | LogPath | SyslogFacility | ManagerSpec
  | ManagerGroup | PidFile | CustomDirectory | ControllerSpec | ControllerGroup => exists s, v = of_option s
  | PrivilegeMode | UseSyslog | ManagerOnCreate | ManagerOnClose | Daemon | ControllerOnCreate
  | ControllerOnClose => exists b, v = VBool b
  | LogLevel | ManagerMode | MaintenanceInterval | SuspendTime | MaxConnections | MaxFileDescriptors | NWorkers
  | PacketBufferSize | CheckInterval | ChunkSize | MaxPending | ControllerMode => exists n, v = VInt n
  | Fallback | FallbackAtDisconnect => exists s, v = VStr (ConfigXml.status_nick s)
  | Backend => exists b, v = VStr (backend_nick b)
  | DatabaseType | DatabaseName | DatabaseHost | DatabasePort | DatabasePath | DatabaseUser | DatabasePassword => True
  end.
Lemma nick_status s : status_of_nick (ConfigXml.status_nick s) = Some s.
Proof. destruct s; vm_compute; reflexivity. Qed.
Lemma nick_backend b : backend_of_nick (backend_nick b) = Some b.
Proof. destruct b; vm_compute; reflexivity. Qed.
Lemma get_typed c i : typed i (get c i).
Proof. destruct i; cbn [typed get]; first [exact I | eexists; reflexivity]. Qed.
Lemma get_property c i : get c (property i) = get c i.
Proof. destruct i; reflexivity. Qed.
Lemma property_twice i : property (property i) = property i.
Proof. destruct i; reflexivity. Qed.
Lemma get_rebuild c f a b d i : typed (property i) (f (property i)) -> get (rebuild c f a b d) i = f (property i).
Proof.
  intros T. destruct i; cbn [property] in *; cbn -[ConfigXml.status_nick backend_nick status_of_nick backend_of_nick];
    try reflexivity; destruct T as [x T]; rewrite T; try (destruct x; reflexivity); try reflexivity.
  all: cbn [as_status as_backend]; rewrite ?nick_status, ?nick_backend; reflexivity.
Qed.
Lemma item_beq_eq a b : item_beq a b = true <-> a = b.
Proof.
  split; [|intros ->; destruct b; reflexivity].
  destruct a, b; intros H; try reflexivity; discriminate H.
Qed.
Lemma item_beq_refl a : item_beq a a = true.
Proof. apply item_beq_eq. reflexivity. Qed.
Lemma get_put c i v j : typed (property i) v ->
  get (put c i v) j = if item_beq (property i) (property j) then v else get c j.
Proof.
  intros T. unfold put. rewrite get_rebuild.
  - destruct (item_beq (property i) (property j)); [reflexivity | apply get_property].
  - destruct (item_beq (property i) (property j)) eqn:E; [|apply get_typed].
    apply item_beq_eq in E. rewrite <- E. exact T.
Qed.
Lemma put_definitions c i v : s_eggs (cf (put c i v)) = s_eggs (cf c) /\
  s_conditions (cf (put c i v)) = s_conditions (cf c) /\ cf_stopping (put c i v) = cf_stopping c.
Proof. repeat split. Qed.
Lemma rebuild_same c a b d i : get (rebuild c (get c) a b d) i = get c i.
Proof. rewrite get_rebuild; [apply get_property | apply get_typed]. Qed.

Lemma to_uint_in low high cur n : n <= 4294967295 -> low <= n -> n <= high -> to_uint low high cur (VInt n) = Some (VInt n).
Proof.
  intros A B C. unfold to_uint, uint_max. destruct (N.leb_spec n 4294967295); [|lia].
  destruct (N.leb_spec low n); [|lia]. destruct (N.leb_spec n high); [reflexivity | lia].
Qed.
Lemma to_string_option s : to_string (of_option s) = Some (of_option s).
Proof. destruct s; reflexivity. Qed.
(** All the levels there are. *)
Definition level_ok (level : N) : bool :=
  let s := level_names level in
  if bytes_eqb s [] || bytes_eqb s (lit "default") then level =? 0
  else negb (Logger.starts_signed s) &&
       match Logger.level_given (Some s) 0 with inl l => l =? level | inr _ => false end.
Fixpoint upto (n : nat) (k : N) : bool := match n with O => true | S n => level_ok k && upto n (N.succ k) end.
Lemma upto_spec n : forall k l, upto n k = true -> k <= l -> l < k + N.of_nat n -> level_ok l = true.
Proof.
  induction n as [|n IH]; intros k l H A B; [lia|]. cbn [upto] in H. apply andb_true_iff in H. destruct H as [H K].
  destruct (N.eq_dec k l) as [<-|D]; [exact H|]. apply (IH (N.succ k)); [exact K|lia|lia].
Qed.
Lemma levels_ok : upto 1024 0 = true.
Proof. vm_compute. reflexivity. Qed.
Lemma unsigned s base : Logger.starts_signed s = false -> Logger.level_given (Some s) base = Logger.level_given (Some s) 0.
Proof.
  intros H. unfold Logger.level_given, Logger.level_from_string. rewrite H, !andb_false_r.
  destruct (bytes_eqb s (lit "all")); [reflexivity|]. unfold FileMode.flags_from_string.
  destruct s as [|c s]; [reflexivity|]. cbn [Logger.starts_signed] in H. apply orb_false_iff in H. destruct H as [A B].
  rewrite A, B. reflexivity.
Qed.

Section Reading.
  Variable valid_spec openable : bytes -> bool.
  Notation convert := (ConfigDump.convert valid_spec openable).
  Notation execute := (ConfigDump.execute valid_spec openable).
  Notation run := (ConfigDump.run valid_spec openable).
  Notation load := (ConfigDump.load valid_spec openable).
  Variable c : conf.

  Lemma convert_level d : cf_level c < 1024 -> convert d LogLevel (VStr (level_names (cf_level c))) = Some (VInt (cf_level c)).
  Proof.
    intros L. pose proof (upto_spec 1024 0 (cf_level c) levels_ok ltac:(lia) ltac:(lia)) as H.
    unfold level_ok in H. cbv zeta in H. cbn [ConfigDump.convert].
    destruct (bytes_eqb (level_names (cf_level c)) [] || bytes_eqb (level_names (cf_level c)) (lit "default")).
    - apply N.eqb_eq in H. rewrite H. reflexivity.
    - apply andb_true_iff in H. destruct H as [A B]. apply negb_true_iff in A. rewrite unsigned by exact A.
      destruct (Logger.level_given (Some (level_names (cf_level c))) 0) as [l|]; [|discriminate].
      apply N.eqb_eq in B. subst l. reflexivity.
  Qed.
  Lemma convert_shown d i : sound valid_spec openable c -> convert d i (shown c i) = Some (get c i).
  Proof.
    intros [S1 S2 S3 S4 (S5 & S5') S6 (U1 & U2 & U3 & U4 & U5 & U6 & U7) S8 (S9 & S9')].
    unfold uint in *.
    destruct i; cbn [shown ConfigDump.convert get or_default];
      try (apply to_string_option); try reflexivity;
      try (apply to_uint_in; unfold uint_max; lia).
    - apply convert_level. exact S4.
    - unfold if_given in S3. destruct (cf_log_path c) as [s|]; cbn [of_option]; [rewrite S3|]; reflexivity.
    - cbn [to_bool]. destruct (s_use_syslog (cf c)); reflexivity.
    - unfold if_given in S1. destruct (s_manager_connection_spec (cf c)) as [s|]; cbn [of_option]; [rewrite S1|]; reflexivity.
    - destruct (s_remove_manager_unix_socket_on_create (cf c)); reflexivity.
    - destruct (s_remove_manager_unix_socket_on_close (cf c)); reflexivity.
    - destruct (s_daemon (cf c)); reflexivity.
    - destruct (N.eqb_spec (s_maintenance_interval (cf c)) 0) as [E|E]; [rewrite E; reflexivity|].
      cbn [or_default]. apply to_uint_in; unfold uint_max; lia.
    - unfold choosable in S6. destruct S6 as [-> | [-> | [-> | ->]]]; reflexivity.
    - rewrite nick_status. reflexivity.
    - rewrite nick_backend. reflexivity.
    - unfold if_given in S2. destruct (s_controller_connection_spec (cf c)) as [s|]; cbn [of_option]; [rewrite S2|]; reflexivity.
    - destruct (s_remove_manager_unix_socket_on_create (cf c)); reflexivity.
    - destruct (s_remove_manager_unix_socket_on_close (cf c)); reflexivity.
  Qed.

  Lemma run_app a : forall d b, run d (a ++ b) = (let (e, ok) := run d a in if ok then run e b else (e, false)).
  Proof.
    induction a as [|s a IH]; intros d b; [reflexivity|]. cbn [app ConfigDump.run].
    destruct (execute d s); [apply IH | reflexivity].
  Qed.
  Lemma item_typed i : typed (property i) (get c i).
  Proof. rewrite <- get_property. apply get_typed. Qed.
  Lemma run_items : sound valid_spec openable c -> forall l d, exists e,
    run d (map (item_stmt c) l) = (e, true) /\
    (forall j, get e j = if existsb (fun i => item_beq (property i) (property j)) l then get c j else get d j) /\
    s_eggs (cf e) = s_eggs (cf d) /\ s_conditions (cf e) = s_conditions (cf d) /\ cf_stopping e = cf_stopping d.
  Proof.
    intros S. induction l as [|i l IH]; intros d; [exists d; repeat apply conj; reflexivity|].
    cbn [map ConfigDump.run item_stmt ConfigDump.execute]. unfold ConfigDump.assign.
    destruct (key_parts i) as (_ & _ & _ & _ & ->). rewrite convert_shown by exact S. cbn [option_map].
    destruct (IH (put d i (get c i))) as (e & R & G & E & K & W). exists e. split; [exact R|]. split; [|repeat apply conj; assumption].
    intros j. rewrite G. cbn [existsb]. rewrite get_put by apply item_typed.
    destruct (existsb (fun i => item_beq (property i) (property j)) l); [rewrite orb_true_r; reflexivity|].
    rewrite orb_false_r. destruct (item_beq (property i) (property j)) eqn:Q; [|reflexivity].
    apply item_beq_eq in Q. rewrite <- (get_property c i), Q, get_property. reflexivity.
  Qed.
  Lemma all_items j : existsb (fun i => item_beq (property i) (property j)) (concat sections) = true.
  Proof. destruct j; reflexivity. Qed.

  (** *** Conditions *)

  Lemma find_none l n : ~ In n (map k_name l) -> ConfigXml.find_condition l n = None.
  Proof.
    intros H. induction l as [|k l IH]; [reflexivity|]. cbn [map In] in H. unfold ConfigXml.find_condition. cbn [find].
    destruct (bytes_eqb n (k_name k)) eqn:E; [apply bytes_eqb_eq in E; subst n; exfalso; apply H; left; reflexivity|].
    apply IH. intros I. apply H. right. exact I.
  Qed.
  Lemma remove_none l n : ~ In n (map k_name l) -> remove_condition l n = l.
  Proof.
    intros H. induction l as [|k l IH]; [reflexivity|]. cbn [map In] in H. cbn [remove_condition].
    destruct (bytes_eqb n (k_name k)) eqn:E; [apply bytes_eqb_eq in E; subst n; exfalso; apply H; left; reflexivity|].
    rewrite IH; [reflexivity|]. intros I. apply H. right. exact I.
  Qed.
  Lemma run_conditions l : Forall (fun k => k_data k = None) l -> forall d,
    NoDup (map k_name (s_conditions (cf d) ++ l)) -> exists e,
    run d (map condition_stmt l) = (e, true) /\ (forall j, get e j = get d j) /\
    s_eggs (cf e) = s_eggs (cf d) /\ s_conditions (cf e) = s_conditions (cf d) ++ l /\
    (forall n, In n (cf_stopping e) <-> In n (cf_stopping d) /\ ~ In n (map k_name l)).
  Proof.
    intros F. induction F as [|k l K F IH]; intros d N.
    - exists d. repeat apply conj; try reflexivity; [rewrite app_nil_r; reflexivity|].
      intros n. cbn [map In]. tauto.
    - cbn [map ConfigDump.run condition_stmt ConfigDump.execute]. unfold define_condition. cbv zeta.
      assert (~ In (k_name k) (map k_name (s_conditions (cf d)))) as M.
      { rewrite map_app in N. cbn [map] in N. apply NoDup_remove_2 in N. intros I. apply N. apply in_or_app. left. exact I. }
      rewrite find_none, remove_none by exact M. cbn [assign_all]. unfold condition_assign at 1. rewrite to_string_option.
      change (bytes_eqb (lit "description") (lit "description")) with true. cbv iota. cbn [k_name k_data].
      assert (mk_condition (k_name k) (as_option (of_option (k_description k))) None = k) as ->.
      { destruct k as [n o x]. cbn [k_data] in K. subst x. cbn. destruct o; reflexivity. }
      set (d1 := rebuild d (get d) (s_eggs (cf d)) (s_conditions (cf d) ++ [k])
                         (filter (fun n => negb (bytes_eqb (k_name k) n)) (cf_stopping d))).
      assert (s_conditions (cf d1) = s_conditions (cf d) ++ [k]) as C1 by reflexivity.
      destruct (IH d1) as (e & R & G & E & Q & W).
      { rewrite C1, <- app_assoc. exact N. }
      exists e. repeat apply conj.
      + exact R.
      + intros j. rewrite G. apply rebuild_same.
      + rewrite E. reflexivity.
      + rewrite Q, C1, <- app_assoc. reflexivity.
      + intros n. rewrite W. change (cf_stopping d1) with (filter (fun n => negb (bytes_eqb (k_name k) n)) (cf_stopping d)).
        rewrite filter_In. cbn [map In]. destruct (bytes_eqb (k_name k) n) eqn:B; cbn [negb].
        * apply bytes_eqb_eq in B. split; [intros [[_ X] _]; discriminate | intros [_ X]; exfalso; apply X; left; exact B].
        * apply bytes_eqb_neq in B. tauto.
  Qed.

  (** *** Filters *)

  Lemma find_member l k : NoDup (map k_name l) -> In k l -> ConfigXml.find_condition l (k_name k) = Some k.
  Proof.
    intros N I. induction l as [|x l IH]; [destruct I|]. unfold ConfigXml.find_condition. cbn [find].
    cbn [map] in N. inversion N as [|y m N1 N2 E]. subst. destruct I as [->|I].
    - rewrite bytes_eqb_refl. reflexivity.
    - destruct (bytes_eqb (k_name k) (k_name x)) eqn:B; [|apply IH; assumption].
      apply bytes_eqb_eq in B. exfalso. apply N1. rewrite <- B. apply in_map. exact I.
  Qed.
  Lemma find_members l ks : NoDup (map k_name l) -> incl ks l ->
    ConfigXml.find_conditions l (map k_name ks) = Some ks.
  Proof.
    intros N. induction ks as [|k ks IH]; intros I; [reflexivity|]. cbn [map ConfigXml.find_conditions].
    rewrite find_member by (exact N || (apply I; left; reflexivity)).
    rewrite IH; [reflexivity|]. intros x X. apply I. right. exact X.
  Qed.
  Lemma names_strings ks : names_of (VList (map (fun k => VStr (k_name k)) ks)) = Some (map k_name ks).
  Proof. cbn [names_of]. induction ks as [|k ks IH]; [reflexivity|]. cbn [map fold_right]. rewrite IH. reflexivity. Qed.
  Lemma add_all ks : forall e, fold_left (fun e k => add_condition k e) ks e = put_conditions (e_conditions e ++ ks) e.
  Proof.
    induction ks as [|k ks IH]; intros e; cbn [fold_left].
    - rewrite app_nil_r. destruct e. reflexivity.
    - rewrite IH. unfold add_condition, put_conditions. cbn [e_conditions]. rewrite <- app_assoc. reflexivity.
  Qed.
  Lemma find_egg_none l n : ~ In n (map e_name l) -> find_egg l n = None.
  Proof.
    intros H. unfold find_egg. induction l as [|k l IH]; [reflexivity|]. cbn [map In] in H. cbn [find].
    destruct (bytes_eqb n (e_name k)) eqn:E; [apply bytes_eqb_eq in E; subst n; exfalso; apply H; left; reflexivity|].
    apply IH. intros I. apply H. right. exact I.
  Qed.
  Lemma remove_egg_none l n : ~ In n (map e_name l) -> remove_egg_by_name l n = l.
  Proof.
    intros H. induction l as [|k l IH]; [reflexivity|]. cbn [map In] in H. cbn [remove_egg_by_name].
    destruct (bytes_eqb n (e_name k)) eqn:E; [apply bytes_eqb_eq in E; subst n; exfalso; apply H; left; reflexivity|].
    rewrite IH; [reflexivity|]. intros I. apply H. right. exact I.
  Qed.
  Lemma choosable_read s : choosable s -> ConfigXml.fallback_status_of (ConfigXml.status_nick s) = Some s.
  Proof. intros [-> | [-> | [-> | ->]]]; reflexivity. Qed.
  Lemma egg_read ks e : NoDup (map k_name ks) -> complete valid_spec ks e ->
    assign_all (egg_assign valid_spec ks) (egg_new (e_name e)) (egg_body e) = Some e.
  Proof.
    intros N [(s & S & V) O F (T1 & T2 & T3 & T4) I].
    destruct e as [n d en sp ct wt rt et u cmd co cs fs ev].
    cbn [e_name e_description e_enabled e_connection_spec e_connection_timeout e_writing_timeout e_reading_timeout
         e_end_of_message_timeout e_user_name e_command e_command_options e_conditions e_fallback_status e_evaluation_mode] in *.
    subst sp. destruct co as [o|]; [|contradiction].
    pose proof (find_members ks cs N I) as FM. pose proof (names_strings cs) as NS. pose proof (choosable_read fs F) as CF.
    assert (forall e l, assign_all (egg_assign valid_spec ks) e ((lit "connection_spec", VStr s) :: l) =
                        assign_all (egg_assign valid_spec ks) (put_connection_spec (Some s) e) l) as A1.
    { intros e l. cbn [assign_all]. unfold egg_assign at 1.
      change (bytes_eqb (lit "connection_spec") (lit "connection_spec")) with true. cbv iota.
      unfold set_connection_spec. rewrite V. reflexivity. }
    assert (forall e x l, assign_all (egg_assign valid_spec ks) e ((lit "description", of_option x) :: l) =
                        assign_all (egg_assign valid_spec ks) (set_description x e) l) as A2
      by (intros e [x|] l; reflexivity).
    assert (forall e b l, assign_all (egg_assign valid_spec ks) e ((lit "enabled", VBool b) :: l) =
                        assign_all (egg_assign valid_spec ks) (set_enabled b e) l) as A3
      by (intros e [|] l; reflexivity).
    assert (forall e l, assign_all (egg_assign valid_spec ks) e ((lit "fallback_status", VStr (ConfigXml.status_nick fs)) :: l) =
                        assign_all (egg_assign valid_spec ks) (set_fallback_status fs e) l) as A4.
    { intros e l. cbn [assign_all]. unfold egg_assign at 1.
      change (bytes_eqb (lit "fallback_status") (lit "connection_spec")) with false.
      change (bytes_eqb (lit "fallback_status") (lit "description")) with false.
      change (bytes_eqb (lit "fallback_status") (lit "enabled")) with false.
      change (bytes_eqb (lit "fallback_status") (lit "fallback_status")) with true. cbv iota. rewrite CF. reflexivity. }
    assert (forall e b l, assign_all (egg_assign valid_spec ks) e ((lit "evaluation_mode", VBool b) :: l) =
                        assign_all (egg_assign valid_spec ks) (set_evaluation_mode b e) l) as A5
      by (intros e [|] l; reflexivity).
    assert (forall e l, assign_all (egg_assign valid_spec ks) e
                          ((lit "applicable_conditions", VList (map (fun k => VStr (k_name k)) cs)) :: l) =
                        assign_all (egg_assign valid_spec ks) (put_conditions cs e) l) as A6.
    { intros e l. cbn [assign_all]. unfold egg_assign at 1.
      change (bytes_eqb (lit "applicable_conditions") (lit "connection_spec")) with false.
      change (bytes_eqb (lit "applicable_conditions") (lit "description")) with false.
      change (bytes_eqb (lit "applicable_conditions") (lit "enabled")) with false.
      change (bytes_eqb (lit "applicable_conditions") (lit "fallback_status")) with false.
      change (bytes_eqb (lit "applicable_conditions") (lit "evaluation_mode")) with false.
      change (bytes_eqb (lit "applicable_conditions") (lit "applicable_conditions")) with true. cbv iota.
      rewrite NS, FM. cbn [option_map]. rewrite add_all. reflexivity. }
    assert (forall e x l, assign_all (egg_assign valid_spec ks) e ((lit "command", of_option x) :: l) =
                        assign_all (egg_assign valid_spec ks) (set_command x e) l) as A7
      by (intros e [x|] l; reflexivity).
    assert (forall e x l, assign_all (egg_assign valid_spec ks) e ((lit "command_options", VStr x) :: l) =
                        assign_all (egg_assign valid_spec ks) (set_command_options (Some x) e) l) as A8
      by (intros e x l; reflexivity).
    assert (forall e x l, assign_all (egg_assign valid_spec ks) e ((lit "user_name", of_option x) :: l) =
                        assign_all (egg_assign valid_spec ks) (set_user_name x e) l) as A9
      by (intros e [x|] l; reflexivity).
    assert (forall e x l, (0 <= x)%Z -> assign_all (egg_assign valid_spec ks) e ((lit "connection_timeout", VFloat (Z.to_N x)) :: l) =
                        assign_all (egg_assign valid_spec ks) (set_connection_timeout x e) l) as B1
      by (intros e x l H; rewrite <- (Z2N.id x H) at 2; reflexivity).
    assert (forall e x l, (0 <= x)%Z -> assign_all (egg_assign valid_spec ks) e ((lit "writing_timeout", VFloat (Z.to_N x)) :: l) =
                        assign_all (egg_assign valid_spec ks) (set_writing_timeout x e) l) as B2
      by (intros e x l H; rewrite <- (Z2N.id x H) at 2; reflexivity).
    assert (forall e x l, (0 <= x)%Z -> assign_all (egg_assign valid_spec ks) e ((lit "reading_timeout", VFloat (Z.to_N x)) :: l) =
                        assign_all (egg_assign valid_spec ks) (set_reading_timeout x e) l) as B3
      by (intros e x l H; rewrite <- (Z2N.id x H) at 2; reflexivity).
    assert (forall e x l, (0 <= x)%Z -> assign_all (egg_assign valid_spec ks) e ((lit "end_of_message_timeout", VFloat (Z.to_N x)) :: l) =
                        assign_all (egg_assign valid_spec ks) (set_end_of_message_timeout x e) l) as B4
      by (intros e x l H; rewrite <- (Z2N.id x H) at 2; reflexivity).
    unfold egg_body, egg_values, egg_values_after.
    cbn [e_name e_description e_enabled e_connection_spec e_connection_timeout e_writing_timeout e_reading_timeout
         e_end_of_message_timeout e_user_name e_command e_command_options e_conditions e_fallback_status e_evaluation_mode app].
    change (of_option (Some s)) with (VStr s). change (of_option (Some o)) with (VStr o).
    rewrite A1, A2, A3, A4, A5, A6, A7, A8, A9, B1, B2, B3, B4 by assumption. reflexivity.
  Qed.
  Lemma run_eggs : forall l d, NoDup (map k_name (s_conditions (cf d))) ->
    Forall (complete valid_spec (s_conditions (cf d))) l -> NoDup (map e_name (s_eggs (cf d) ++ l)) -> exists e,
    run d (map egg_stmt l) = (e, true) /\ (forall j, get e j = get d j) /\
    s_eggs (cf e) = s_eggs (cf d) ++ l /\ s_conditions (cf e) = s_conditions (cf d) /\ cf_stopping e = cf_stopping d.
  Proof.
    induction l as [|x l IH]; intros d K F N.
    - exists d. repeat apply conj; try reflexivity. rewrite app_nil_r. reflexivity.
    - cbn [map ConfigDump.run egg_stmt ConfigDump.execute]. unfold define_milter. cbv zeta.
      assert (~ In (e_name x) (map e_name (s_eggs (cf d)))) as M.
      { rewrite map_app in N. cbn [map] in N. apply NoDup_remove_2 in N. intros I. apply N. apply in_or_app. left. exact I. }
      rewrite find_egg_none, remove_egg_none by exact M. rewrite egg_read by (exact K || exact (Forall_inv F)).
      unfold add_egg. set (d1 := rebuild d (get d) (s_eggs (cf d) ++ [x]) (s_conditions (cf d)) (cf_stopping d)).
      destruct (IH d1) as (e & R & G & E & Q & W).
      + exact K.
      + exact (Forall_inv_tail F).
      + change (s_eggs (cf d1)) with (s_eggs (cf d) ++ [x]). rewrite <- app_assoc. exact N.
      + exists e. repeat apply conj.
        * exact R.
        * intros j. rewrite G. apply rebuild_same.
        * rewrite E. change (s_eggs (cf d1)) with (s_eggs (cf d) ++ [x]). rewrite <- app_assoc. reflexivity.
        * rewrite Q. reflexivity.
        * rewrite W. reflexivity.
  Qed.

  Lemma load_program d : sound valid_spec openable c -> sayable valid_spec c ->
    s_conditions (cf d) = [] -> s_eggs (cf d) = [] -> exists e,
    load d (program c) = (e, true) /\ same_settings c e /\ same_definitions c e /\
    (forall k, In k (s_conditions (cf c)) -> ~ In (k_name k) (cf_stopping e)).
  Proof.
    intros S [N1 D N2 C] K E. unfold ConfigDump.load, program.
    set (d0 := put d SyslogFacility (VStr (lit "mail"))). rewrite run_app.
    destruct (run_items S (concat sections) d0) as (d1 & R1 & G1 & E1 & K1 & W1). rewrite R1. cbv beta iota.
    rewrite run_app. change (s_eggs (cf d0)) with (s_eggs (cf d)) in E1.
    change (s_conditions (cf d0)) with (s_conditions (cf d)) in K1. rewrite E in E1. rewrite K in K1.
    destruct (run_conditions (s_conditions (cf c)) D d1) as (d2 & R2 & G2 & E2 & K2 & W2); [rewrite K1; exact N1|].
    rewrite R2. cbv beta iota. rewrite K1 in K2. rewrite E1 in E2. cbn [app] in K2.
    destruct (run_eggs (s_eggs (cf c)) d2) as (d3 & R3 & G3 & E3 & K3 & W3);
      [rewrite K2; exact N1 | rewrite K2; exact C | rewrite E2; exact N2 |].
    rewrite R3. exists d3. split; [reflexivity|]. repeat apply conj.
    - intros i. rewrite G3, G2, G1, all_items. reflexivity.
    - rewrite K3, K2. reflexivity.
    - rewrite E3, E2. reflexivity.
    - intros k I. rewrite W3, W2. intros [_ X]. apply X. apply in_map. exact I.
  Qed.

  (** ** What cannot be read *)

  Lemma run_stops s : (forall d, execute d s = None) -> forall l d, In s l -> snd (run d l) = false.
  Proof.
    intros H. induction l as [|x l IH]; intros d I; [destruct I|]. cbn [ConfigDump.run].
    destruct I as [->|I]; [rewrite H; reflexivity|]. destruct (execute d x); [apply IH; exact I | reflexivity].
  Qed.
  Lemma assign_stops {A} (f : A -> bytes -> value -> option A) n v :
    (forall a, f a n v = None) -> forall l a, In (n, v) l -> assign_all f a l = None.
  Proof.
    intros H. induction l as [|[m w] l IH]; intros a I; [destruct I|]. cbn [assign_all].
    destruct I as [E|I]; [injection E as -> ->; rewrite H; reflexivity|]. destruct (f a m w); [apply IH; exact I | reflexivity].
  Qed.
  Lemma egg_refused e n v : In (n, v) (egg_body e) -> (forall ks a, egg_assign valid_spec ks a n v = None) ->
    forall d, execute d (egg_stmt e) = None.
  Proof.
    intros I H d. cbn [egg_stmt ConfigDump.execute]. unfold define_milter. cbv zeta.
    destruct (match find_egg (s_eggs (cf d)) (e_name e) with
              | Some old => let (x, b) := merge valid_spec (egg_new (e_name e)) old in if b then Some x else None
              | None => Some (egg_new (e_name e))
              end) as [x|]; [|reflexivity].
    rewrite (assign_stops (egg_assign valid_spec (s_conditions (cf d))) n v); [reflexivity | apply H | exact I].
  Qed.
  Lemma load_refused e : In e (s_eggs (cf c)) ->
    e_command_options e = None \/ e_connection_spec e = None \/ ~ choosable (e_fallback_status e) ->
    forall d, snd (load d (program c)) = false.
  Proof.
    intros I B d. unfold ConfigDump.load.
    assert (forall d, snd (run d (program c)) = false) as H.
    { intros d'. assert (In (egg_stmt e) (program c)) as P
        by (unfold program; apply in_or_app; right; apply in_or_app; right; apply in_map; exact I).
      apply (run_stops (egg_stmt e)); [|exact P].
      destruct B as [B|[B|B]].
      - apply (egg_refused e (lit "command_options") VNil); [|reflexivity].
        unfold egg_body. apply in_or_app. right. apply in_or_app. right. right. left. rewrite B. reflexivity.
      - apply (egg_refused e (lit "connection_spec") VNil); [|reflexivity].
        unfold egg_body. apply in_or_app. left. left. rewrite B. reflexivity.
      - apply (egg_refused e (lit "fallback_status") (VStr (ConfigXml.status_nick (e_fallback_status e)))).
        + unfold egg_body. apply in_or_app. left. right. right. right. left. reflexivity.
        + intros ks a. unfold egg_assign.
          change (bytes_eqb (lit "fallback_status") (lit "connection_spec")) with false.
          change (bytes_eqb (lit "fallback_status") (lit "description")) with false.
          change (bytes_eqb (lit "fallback_status") (lit "enabled")) with false.
          change (bytes_eqb (lit "fallback_status") (lit "fallback_status")) with true. cbv iota.
          destruct (e_fallback_status e); try reflexivity; exfalso; apply B; unfold choosable; tauto. }
    specialize (H (put d SyslogFacility (VStr (lit "mail")))).
    destruct (run (put d SyslogFacility (VStr (lit "mail"))) (program c)) as [r b]. cbn [snd] in H. subst b. reflexivity.
  Qed.
  Lemma load_failed d l r : load d l = (r, false) ->
    get r UseSyslog = get d UseSyslog /\ get r SyslogFacility = get d SyslogFacility.
  Proof.
    unfold ConfigDump.load. destruct (run (put d SyslogFacility (VStr (lit "mail"))) l) as [x b].
    destruct b; intros H; injection H as H; [discriminate|]. subst r. split.
    - rewrite get_put by exact (get_typed d SyslogFacility). cbn [property item_beq].
      rewrite get_put by exact (get_typed d UseSyslog). reflexivity.
    - rewrite get_put by exact (get_typed d SyslogFacility). reflexivity.
  Qed.

  Definition defines (s : stmt) : Prop := match s with Assign _ _ _ => False | _ => True end.
  Lemma run_defines l : Forall defines l -> forall d j, get (fst (run d l)) j = get d j.
  Proof.
    intros F. induction F as [|s l D F IH]; intros d j; [reflexivity|]. cbn [ConfigDump.run].
    destruct (execute d s) as [e|] eqn:X; [|reflexivity]. rewrite IH.
    destruct s as [a b v|n body|n body]; [destruct D| |]; cbn [ConfigDump.execute] in X.
    - unfold define_condition in X. destruct (assign_all condition_assign _ body) as [k|]; [|discriminate].
      injection X as <-. apply rebuild_same.
    - unfold define_milter in X.
      destruct (match find_egg (s_eggs (cf d)) n with Some old => _ | None => _ end) as [x|]; [|discriminate].
      destruct (assign_all (egg_assign valid_spec (s_conditions (cf d))) x body) as [y|]; [|discriminate].
      injection X as <-. apply rebuild_same.
  Qed.
  Lemma load_settings d i : sound valid_spec openable c -> i <> UseSyslog -> i <> SyslogFacility ->
    get (fst (load d (program c))) i = get c i.
  Proof.
    intros S A B. unfold ConfigDump.load, program. set (d0 := put d SyslogFacility (VStr (lit "mail"))). rewrite run_app.
    destruct (run_items S (concat sections) d0) as (d1 & R1 & G1 & _). rewrite R1. cbv beta iota.
    assert (Forall defines (map condition_stmt (s_conditions (cf c)) ++ map egg_stmt (s_eggs (cf c)))) as F.
    { apply Forall_app. split; apply Forall_forall; intros s I; apply in_map_iff in I; destruct I as (x & <- & _); exact I. }
    pose proof (run_defines _ F d1 i) as H.
    destruct (run d1 (map condition_stmt (s_conditions (cf c)) ++ map egg_stmt (s_eggs (cf c)))) as [r b]. cbn [fst] in H.
    assert (get r i = get c i) as Q by (rewrite H, G1, all_items; reflexivity).
    destruct b; cbn [fst]; [exact Q|].
    rewrite get_put by exact (get_typed d SyslogFacility).
    destruct (item_beq (property SyslogFacility) (property i)) eqn:E.
    { exfalso. apply B. destruct i; try reflexivity; discriminate E. }
    rewrite get_put by exact (get_typed d UseSyslog).
    destruct (item_beq (property UseSyslog) (property i)) eqn:E2; [|exact Q].
    exfalso. apply A. destruct i; try reflexivity; discriminate E2.
  Qed.
End Reading.
