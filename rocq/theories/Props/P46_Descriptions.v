(** What filters started by init scripts are said to be: C115. *)
From Verif.Base Require Import Bytes BytesFacts.
From Verif.Model Require Import PostfixTable Detect InitDetect.
From Verif.Model Require RcDetect.
From Verif.Spec Require Import PostfixSpec DetectSpec.
From Verif.Spec Require RcSpec InitSpec InfoSpec BreakerSpec.
From Verif.Proofs Require Import PostfixProofs DetectProofs ShellProofs ScriptProofs RcProofs InitProofs InfoProofs.
From Verif.Props Require P44_RcScripts P45_InitScripts.
Import List.
Import RcDetect(applied, NoMilter, Milter, Raised).
Import RcSpec(first_of).
Import InitSpec(debian_service, redhat_service).
Import InfoSpec(debian_header, redhat_tags, given, commented, header_lines, tag_lines_say, mark_begin, mark_end).
Import P44_RcScripts(files_only).
Import P45_InitScripts(script_path, pick_two, debian, redhat, unassigned, clean_text, bare_text).
Local Open Scope N_scope.

(** Debian: "Description" of the header of the script, with its lines put together; DESC if there is none. *)
Theorem C115_debian : forall sys script env content es o r,
  debian_service (sy_file sys) script env -> sy_file sys (script_path script) = Some content ->
  debian_header content es -> given es (lit "Description") o -> first_of [o; env (lit "DESC")] r ->
  exists d, deb_milter sys script = Milter (script_path script) d /\ df_description d = r.
Proof.
  intros sys script env content es o r S F H G R. destruct (deb_detected sys script env S) as (content' & i & vs & F' & D & V & _).
  change (init_script script) with (script_path script) in F'. rewrite F in F'. injection F' as <-. unfold deb_milter. change (init_script script) with (script_path script).
  rewrite F, D. eexists. split; [reflexivity|]. cbn [df_description]. rewrite V. rewrite <- (pick_two _ _ _ R). f_equal.
  unfold deb_detect in D. rewrite (debian_parsed _ _ H) in D. injection D as <- _. rewrite <- (app_nil_r (rev es)), (lookup_given es _ o [] G). now destruct o.
Qed.
Print Assumptions C115_debian.
(** Red Hat: the last "description:" in the comment at the beginning, with the lines it is continued on. *)
Theorem C115_redhat : forall sys rspamd script env content o,
  redhat_service (sy_file sys) script content env -> redhat_tags content o ->
  exists d, rh_milter sys rspamd script = Milter (script_path script) d /\ df_description d = o.
Proof.
  intros sys rspamd script env content o S T. destruct (rh_detected sys script content env S) as (F & (i & I) & V).
  unfold rh_milter. rewrite F, I. eexists. split; [reflexivity|]. cbn [df_description]. now apply (redhat_described content).
Qed.
Print Assumptions C115_redhat.

(** *** Examples *)
Ltac in' := let H := fresh in intros H; vm_compute in H; intuition discriminate.
Ltac one_lines := repeat (apply Forall_cons; [in'|]); apply Forall_nil.
Ltac keyed := split; [discriminate|repeat (constructor; [unfold InfoSpec.keyword_char; vm_compute; intuition discriminate|]); constructor].
Ltac whites' := repeat (constructor; [unfold white; vm_compute; tauto|]); constructor.
Ltac text front last := split; [split; [eexists _, _; split; [reflexivity|unfold white; in']|exists (lit front), last; split; [reflexivity|split; [unfold white; in'|discriminate]]]|in'].
Definition script : list bytes :=
  [lit "#!/bin/sh"; lit "# signs"; mark_begin; lit "# Provides: dkim "; lit "# Required-Start:"; lit "# Description:  signs"; lit "#   mail, or"; lit "#   checks it "; mark_end;
   lit "# nothing"; lit "DESC=other"].
Definition entries : list (bytes * bytes) :=
  [(lit "Provides", lit "dkim"); (lit "Required-Start", []); (lit "Description", lit "signs mail, or checks it")].
Definition sys : system := debian script [].
Definition env : environment := set nothing_set (lit "DESC") (lit "other").
Lemma is_service : debian_service (sy_file sys) (lit "dkim") env.
Proof.
  exists (file script []). split; [reflexivity|]. split; [|split; [now apply P44_RcScripts.absent_b|]].
  - intros s t r W E O R. change (file script []) with (lit "#!" ++ lit "/bin/sh" ++ newline :: file (tl script) []) in E.
    apply app_inv_head in E. destruct W as [|c s Wc W].
    + rewrite app_nil_l in E. apply app_inv_head in E. split; [intros []|]. destruct R as [->|(r' & ->)].
      * exfalso. apply O. rewrite app_nil_r in E. rewrite <- E. now left.
      * change (newline :: file (tl script) []) with ([] ++ newline :: file (tl script) []) in E.
        apply split_once in E as [<- _]; [apply (unassigned false); reflexivity|intros []|exact O].
    + exfalso. injection E as <- _. vm_compute in Wc. intuition discriminate.
  - exists [None; None; None; None; None; None; None; None; None; None; Some (lit "DESC", [Text (lit "other")]); None]. split.
    + exists script, []. split; [reflexivity|]. split; [one_lines|]. split; [intros []|].
      unfold script. cbn [app]. repeat apply Forall2_cons; try (apply InitSpec.line_other; apply (unassigned false); reflexivity); try apply Forall2_nil.
      apply (InitSpec.line_plain capital [] (lit "DESC") [Text (lit "other")] (lit "other") []);
        [constructor; constructor|discriminate|repeat (constructor; [unfold capital; vm_compute; intuition discriminate|]); constructor
        |apply clean_writes, clean_text; reflexivity|apply bare_text; reflexivity|constructor].
    + exists [None]. split.
      * exists [], []. split; [reflexivity|]. split; [constructor|]. split; [intros []|]. constructor; [|constructor]. apply InitSpec.line_other; apply (unassigned false); reflexivity.
      * cbn [app]. repeat apply runs_idle. apply (runs_assign _ _ _ (lit "other")); [exact (means_text _ (lit "other") [] [] (means_nothing _))|]. apply runs_idle, runs_idle, runs_nothing.
Qed.
Lemma has_header : debian_header (file script []) entries.
Proof.
  exists [lit "# signs"], [lit "# nothing"]. split; [constructor; [intros (r & X); discriminate X|constructor]|]. right.
  exists (lit "#!/bin/sh"), (file (tl script) []). split; [exists [], []; split; [constructor|]; split; [constructor|reflexivity]|]. split; [in'|]. split; [reflexivity|].
  exists [lit "# Provides: dkim "; lit "# Required-Start:"; lit "# Description:  signs"; lit "#   mail, or"; lit "#   checks it "], [lit "DESC=other"], [].
  split; [reflexivity|]. split; [one_lines|]. split; [intros []|]. split; [constructor; [now eexists|constructor]|]. split; [constructor; [now eexists|constructor]|].
  split; [intros (r & X); discriminate X|]. split; [in'|]. split; [in'|]. split; [discriminate|].
  exists [[lit "# Provides: dkim "]; [lit "# Required-Start:"]; [lit "# Description:  signs"; lit "#   mail, or"; lit "#   checks it "]]. split; [reflexivity|].
  constructor; [|constructor; [|constructor; [|constructor]]].
  - apply (InfoSpec.entry_text (lit "Provides") (lit " ") (lit "dkim") (lit " ") [] []); [keyed|whites'|text "dki"%string "m"%char|whites'|constructor].
  - apply (InfoSpec.entry_empty (lit "Required-Start") []); [keyed|constructor].
  - apply (InfoSpec.entry_text (lit "Description") (lit "  ") (lit "signs") [] [lit "#   mail, or"; lit "#   checks it "] [lit "mail, or"; lit "checks it"]);
      [keyed|whites'|text "sign"%string "s"%char|constructor|].
    constructor; [|constructor; [|constructor]].
    + apply (InfoSpec.continued_line (lit "  ") (lit "mail, or") []); [whites'|text "mail, o"%string "r"%char|constructor].
    + apply (InfoSpec.continued_line (lit "  ") (lit "checks it") (lit " ")); [whites'|text "checks i"%string "t"%char|whites'].
Qed.
Example C115_debian_example :
  debian_service (sy_file sys) (lit "dkim") env /\ sy_file sys (script_path (lit "dkim")) = Some (file script []) /\ debian_header (file script []) entries /\
  given entries (lit "Description") (Some (lit "signs mail, or checks it")) /\
  exists d, deb_milter sys (lit "dkim") = Milter (script_path (lit "dkim")) d /\ df_description d = Some (lit "signs mail, or checks it").
Proof.
  split; [exact is_service|]. split; [reflexivity|]. split; [exact has_header|]. split.
  - right. exists (firstn 2 entries), (lit "signs mail, or checks it"), []. split; [reflexivity|]. split; [intros (v & [])|reflexivity].
  - eexists. split; vm_compute; reflexivity.
Qed.

Definition rh_script : list bytes :=
  [lit "#!/bin/sh"; lit "# chkconfig: 345 79 21"; lit "# description: old"; mark_begin; lit "# Provides: gl"; mark_end;
   lit "# description: makes \"; lit "#   senders\ "; lit "#   wait"; lit "# processname: gl"; []].
Definition rh_sys : system := redhat [] rh_script [] [].
Example C115_redhat_example :
  redhat_service (sy_file rh_sys) (lit "milter-greylist") (file rh_script []) nothing_set /\
  redhat_tags (file rh_script []) (Some (lit "makes senderswait")) /\
  exists d, rh_milter rh_sys None (lit "milter-greylist") = Milter (script_path (lit "milter-greylist")) d /\ df_description d = Some (lit "makes senderswait").
Proof.
  split; [|split; [|eexists; split; vm_compute; reflexivity]].
  - split; [reflexivity|]. split; [now apply P44_RcScripts.absent_b|]. exists (repeat None 12). split.
    + exists rh_script, []. split; [reflexivity|]. split; [one_lines|]. split; [intros []|].
      unfold rh_script. cbn [app repeat]. repeat apply Forall2_cons; try (apply InitSpec.line_other; apply (unassigned true); reflexivity). apply Forall2_nil.
    + exists [None]. split; [|cbn [app repeat]; repeat apply runs_idle; apply runs_nothing].
      exists [], []. split; [reflexivity|]. split; [constructor|]. split; [intros []|]. constructor; [|constructor]. apply InitSpec.line_other; apply (unassigned true); reflexivity.
  - apply (InfoSpec.tags_header _ [lit "#!/bin/sh"; lit "# chkconfig: 345 79 21"; lit "# description: old"] [(lit "Provides", lit "gl")]
      [lit "# description: makes \"; lit "#   senders\ "; lit "#   wait"; lit "# processname: gl"] [None; None; Some (lit "old")] [Some (lit "makes senderswait"); None]).
    + exists [lit "# Provides: gl"], [[]], []. split; [reflexivity|]. split; [one_lines|]. split; [intros []|].
      split; [repeat (constructor; [now eexists|]); constructor|]. split; [repeat (constructor; [now eexists|]); constructor|]. split; [intros (r & X); discriminate X|].
      split; [in'|]. split; [in'|]. split; [discriminate|]. exists [[lit "# Provides: gl"]]. split; [reflexivity|]. constructor; [|constructor].
      apply (InfoSpec.entry_text (lit "Provides") (lit " ") (lit "gl") [] [] []); [keyed|whites'|text "g"%string "l"%char|constructor|constructor].
    + intros (v & [X|[]]). discriminate X.
    + exists [[lit "#!/bin/sh"]; [lit "# chkconfig: 345 79 21"]; [lit "# description: old"]]. split; [reflexivity|].
      constructor; [apply InfoSpec.part_other; intros (r & X); discriminate X|]. constructor; [apply InfoSpec.part_other; intros (r & X); discriminate X|].
      constructor; [|constructor]. apply InfoSpec.part_tag. apply (InfoSpec.tag_alone (lit " ") (lit "old") []); [whites'| |constructor].
      split; [eexists _, _; split; [reflexivity|unfold white; in']|]. exists (lit "ol"), "d"%char. split; [reflexivity|]. split; [unfold white; in'|split; discriminate].
    + exists [[lit "# description: makes \"; lit "#   senders\ "; lit "#   wait"]; [lit "# processname: gl"]]. split; [reflexivity|].
      constructor; [|constructor; [apply InfoSpec.part_other; intros (r & X); discriminate X|constructor]]. apply InfoSpec.part_tag.
      apply (InfoSpec.tag_over (lit " ") (lit "makes ") [] [lit "#   senders\ "] [lit "senders"] (lit "#   wait") (lit "wait")); [whites'| |constructor| |].
      * right. eexists _, _. split; [reflexivity|unfold white; in'].
      * constructor; [|constructor]. apply (InfoSpec.part_more (lit "  ") (lit "senders") (lit " ")); [whites'| |whites']. right. eexists _, _. split; [reflexivity|unfold white; in'].
      * apply (InfoSpec.end_text (lit "  ") (lit "wait") []); [whites'| |constructor].
        split; [eexists _, _; split; [reflexivity|unfold white; in']|]. exists (lit "wai"), "t"%char. split; [reflexivity|]. split; [unfold white; in'|split; discriminate].
    + right. exists [None; None; Some (lit "old")], (lit "makes senderswait"), [None]. split; [reflexivity|]. split; [repeat constructor|reflexivity].
Qed.

(** *** What does not hold *)
(** A line that continues the description may begin with a tab behind the number sign; the number sign gets into the text. *)
Definition tab : bytes := [byte_of 9].
Theorem C115_tab_refuted :
  (exists c d, deb_milter (debian [mark_begin; lit "# Description: signs"; lit "#" ++ tab ++ lit "mail"; mark_end; []] []) (lit "dkim") = Milter c d /\
     df_description d = Some (lit "signs #" ++ tab ++ lit "mail")) /\
  (exists c d, rh_milter (redhat [] [lit "# description: signs \"; lit "#" ++ tab ++ lit "mail"; []] [] []) None (lit "milter-greylist") = Milter c d /\
     df_description d = Some (lit "signs #" ++ tab ++ lit "mail")).
Proof. split; do 2 eexists; split; vm_compute; reflexivity. Qed.
Print Assumptions C115_tab_refuted.
(** A script of Red Hat that has a header and no comments for chkconfig has no description. *)
Theorem C115_header_refuted : exists c d,
  rh_milter (redhat [] [mark_begin; lit "# Short-Description: signs"; lit "# Description: signs mail"; mark_end; []] [] []) None (lit "milter-greylist") = Milter c d /\
  df_description d = None.
Proof. do 2 eexists. split; vm_compute; reflexivity. Qed.
Print Assumptions C115_header_refuted.
(** Neither has one of Debian with nothing but a short description. *)
Theorem C115_short_refuted : exists c d,
  deb_milter (debian [mark_begin; lit "# Short-Description: signs mail"; mark_end; []] []) (lit "dkim") = Milter c d /\ df_description d = None.
Proof. do 2 eexists. split; vm_compute; reflexivity. Qed.
Print Assumptions C115_short_refuted.
