(** Jobs of Upstart and units of systemd, as they are read. *)
From Verif.Base Require Import Bytes BytesFacts.
From Verif.Model Require Import PostfixTable Detect InitDetect PlatformDetect.
From Verif.Spec Require Import PostfixSpec DetectSpec RcSpec InitSpec PlatformSpec.
From Verif.Proofs Require Import PostfixProofs DetectProofs UnitProofs RcProofs InitProofs.
Import List.

(** *** Jobs *)
Definition read_entry (j : job) (e : job_entry) : job :=
  match e with
  | JComment t => if jb_first j then mk_job true (t :: jb_comment j) (jb_description j) (jb_enabled j) (jb_exec j) else job_over j
  | JStart => job_over (mk_job (jb_first j) (jb_comment j) (jb_description j) true (jb_exec j))
  | JExec r => job_over (mk_job (jb_first j) (jb_comment j) (jb_description j) (jb_enabled j) (Some r))
  | JOther => job_over j
  end.
Lemma prefix_none w b : ~ begins_with w b -> after_prefix w b = None.
Proof. intros N. destruct (after_prefix w b) as [r|] eqn:E; [|reflexivity]. exfalso. apply N. exists r. now apply after_prefix_some. Qed.
Lemma read_line j l e : job_means l e -> job_line j l = read_entry j e.
Proof.
  intros M. unfold job_line. destruct M as [a t b A T B|a A|r|r|l N1 N2 N3].
  - rewrite after_prefix_app. pose proof (tight_open _ T) as O. destruct T as [T _]. rewrite (strip_tight a t b A T O B).
    destruct T as (c & b' & -> & _). reflexivity.
  - rewrite after_prefix_app, (strip_blank _ A). reflexivity.
  - change (after_prefix (lit "# ") (lit "start on " ++ r)) with (@None bytes). cbv iota. rewrite after_prefix_app. reflexivity.
  - change (after_prefix (lit "# ") (lit "exec " ++ r)) with (@None bytes). change (after_prefix (lit "start on ") (lit "exec " ++ r)) with (@None bytes).
    cbv iota. rewrite after_prefix_app. reflexivity.
  - now rewrite !prefix_none.
Qed.
Lemma job_parsed es content : job_lists es content -> parse_job (Some content) = fold_left read_entry es no_job.
Proof.
  intros (ls & last & -> & F & L & F2). unfold parse_job. rewrite (physical_file _ _ F L).
  change [byte_of 10] with [newline]. generalize no_job. revert F2. generalize (map (fun l => l ++ [newline]) ls ++ match last with [] => [] | _ => [last] end).
  intros ps F2. induction F2 as [|p e ps es M F2 IH]; intros j; [reflexivity|]. cbn [fold_left]. rewrite (read_line _ _ _ M). apply IH.
Qed.
Lemma enabled_read es : forall j, jb_enabled (fold_left read_entry es j) = true <-> jb_enabled j = true \/ In JStart es.
Proof.
  induction es as [|e es IH]; intros j; cbn [fold_left In]; [intuition|]. rewrite IH.
  destruct e; cbn [read_entry]; [destruct (jb_first j)| | |]; unfold job_over; cbn [jb_enabled]; intuition congruence.
Qed.
Lemma exec_step j e : jb_exec (read_entry j e) = match e with JExec r => Some r | _ => jb_exec j end.
Proof. destruct e; cbn [read_entry]; [destruct (jb_first j)| | |]; reflexivity. Qed.
Lemma exec_kept es : forall j, ~ (exists r, In (JExec r) es) -> jb_exec (fold_left read_entry es j) = jb_exec j.
Proof.
  induction es as [|e es IH]; intros j H; [reflexivity|]. cbn [fold_left]. rewrite IH.
  - rewrite exec_step. destruct e; try reflexivity. exfalso. apply H. exists r. now left.
  - intros (r & R). apply H. exists r. now right.
Qed.
Lemma exec_read es exec : executed es exec -> jb_exec (fold_left read_entry es no_job) = exec.
Proof.
  intros [[H ->]|(a & r & b & -> & H & ->)]; [now rewrite exec_kept|]. rewrite fold_left_app. cbn [fold_left]. rewrite (exec_kept _ _ H). apply exec_step.
Qed.
(** Behind the first block nothing changes the description. *)
Definition settled (c : list bytes) (d : option bytes) (j : job) : Prop :=
  jb_first j = false /\ jb_comment j = c /\ jb_description j = d /\ d = match c with [] => None | _ => Some (joined (rev c)) end.
Lemma settled_step c d j e : settled c d j -> settled c d (read_entry j e).
Proof.
  intros (F & C & D & E). destruct e; cbn [read_entry]; try rewrite F; unfold job_over, settled; cbn [jb_first jb_comment jb_description];
    rewrite C, D, E; destruct c; auto.
Qed.
Lemma settled_fold es : forall c d j, settled c d j -> settled c d (fold_left read_entry es j).
Proof. induction es as [|e es IH]; intros c d j S; [exact S|]. cbn [fold_left]. now apply IH, settled_step. Qed.
Lemma comments_read ts : forall c n x, fold_left read_entry (map JComment ts) (mk_job true c None n x) = mk_job true (rev ts ++ c) None n x.
Proof.
  induction ts as [|t ts IH]; intros c n x; [reflexivity|]. cbn [map fold_left read_entry jb_first jb_comment jb_description jb_enabled jb_exec].
  rewrite IH. cbn [rev]. now rewrite <- app_assoc.
Qed.
Lemma spoken_joined ts s : spoken ts s -> joined ts = s.
Proof.
  induction 1 as [t|t ts s S IH]; [reflexivity|]. rewrite <- IH. destruct S; reflexivity.
Qed.
Lemma settles ts e : ~ is_comment e ->
  settled (rev ts) (match rev ts with [] => None | _ => Some (joined ts) end) (fold_left read_entry (map JComment ts ++ [e]) no_job).
Proof.
  intros N. rewrite fold_left_app. unfold no_job. rewrite comments_read, app_nil_r. cbn [fold_left].
  assert (G : joined (rev (rev ts)) = joined ts) by now rewrite rev_involutive.
  destruct e as [t| |r|]; [exfalso; apply N; now exists t| | |]; cbn [read_entry]; unfold job_over, settled;
    cbn [jb_first jb_comment jb_description]; (destruct (rev ts); [auto|rewrite <- G; auto]).
Qed.
Lemma description_read es d : described es d -> jb_description (fold_left read_entry es no_job) = d.
Proof.
  intros [ts|e es' N|ts s e es' S N].
  - unfold no_job. now rewrite comments_read.
  - destruct (settled_fold es' _ _ _ (settles [] e N)) as (_ & _ & D & _). exact D.
  - replace (map JComment ts ++ e :: es') with ((map JComment ts ++ [e]) ++ es') by now rewrite <- app_assoc.
    rewrite fold_left_app. destruct (settled_fold es' _ _ _ (settles ts e N)) as (_ & _ & D & _). rewrite D, (spoken_joined _ _ S).
    destruct (rev ts) eqn:R; [|reflexivity]. apply (f_equal (@rev _)) in R. rewrite rev_involutive in R. subst ts. inversion S.
Qed.

(** *** Commands *)
Lemma common_spec runs script c os : starts_by runs script c os -> common_command runs = Some c /\ common_options runs script = os.
Proof.
  intros [A|A B|A B C]; unfold common_command, common_options, systemctl_command, service_command; cbn [List.find];
    rewrite A; cbn [some_else is_some]; try rewrite B; try rewrite C; auto.
Qed.
