(** The comments at the beginning of an init script: the header of the Linux Standard Base (Core, 22.3)
    and the comments chkconfig(8) reads. *)
From Verif.Base Require Import Bytes.
From Verif.Spec Require Import PostfixSpec DetectSpec.
From Verif.Spec Require InitSpec.
Import InitSpec(hashed).
Local Open Scope N_scope.

(** Nothing to strip at either end. *)
Definition trimmed (b : bytes) : Prop :=
  begins_text b /\ exists b' c, b = b' ++ [c] /\ ~ white c /\ c <> byte_of 0.

(** *** An entry of the header: a keyword, and text on its line and on lines that continue it *)
Definition keyword_char (c : byte) : Prop :=
  97 <= N_of_ascii c <= 122 \/ 65 <= N_of_ascii c <= 90 \/ c = "-"%char.
Definition keyword (k : bytes) : Prop := k <> [] /\ Forall keyword_char k.
Definition told (t : bytes) : Prop := trimmed t /\ ~ In ":"%char t.
Inductive continued : bytes -> bytes -> Prop :=
| continued_line w t e : Forall white w -> told t -> Forall white e -> continued (lit "# " ++ w ++ t ++ e) t.
Inductive info_entry : list bytes -> bytes * bytes -> Prop :=
| entry_empty k s : keyword k -> Forall white s -> info_entry [lit "# " ++ k ++ lit ":" ++ s] (k, [])
| entry_text k s v e ls ts : keyword k -> Forall white s -> told v -> Forall white e -> Forall2 continued ls ts ->
    info_entry ((lit "# " ++ k ++ lit ":" ++ s ++ v ++ e) :: ls) (k, v ++ concat (map (fun t => lit " " ++ t) ts)).
(** The lines between the two marks. *)
Definition header_lines (hs : list bytes) (es : list (bytes * bytes)) : Prop :=
  es <> [] /\ exists parts, hs = concat parts /\ Forall2 info_entry parts es.
(** What is given last for a keyword. *)
Definition given (es : list (bytes * bytes)) (k : bytes) (o : option bytes) : Prop :=
  (~ (exists v, In (k, v) es) /\ o = None) \/
  (exists a v b, es = a ++ (k, v) :: b /\ ~ (exists v', In (k, v') b) /\ o = Some v).

Definition mark_begin : bytes := lit "### BEGIN INIT INFO".
Definition mark_end : bytes := lit "### END INIT INFO".
(** The comment at the beginning of a script: lines [pre], the header, lines [post]; then a line that is no comment. *)
Definition commented (content : bytes) (pre : list bytes) (es : list (bytes * bytes)) (post : list bytes) : Prop :=
  exists hs ls last, content = file (pre ++ mark_begin :: hs ++ mark_end :: post ++ ls) last /\
    Forall one_line (pre ++ mark_begin :: hs ++ mark_end :: post ++ ls) /\ one_line last /\
    Forall hashed pre /\ Forall hashed post /\ ~ hashed (hd last ls) /\
    ~ In mark_begin pre /\ ~ In mark_end post /\ header_lines hs es.

(** *** Debian: the line that names the shell is alone, or there is none. *)
Definition shell_line (l : bytes) : Prop :=
  exists s e, Forall white s /\ Forall white e /\ l = lit "#!" ++ s ++ lit "/bin/sh" ++ e.
Definition debian_header (content : bytes) (es : list (bytes * bytes)) : Prop :=
  exists pre post, Forall (fun l => ~ begins_with (lit "#!") l) pre /\
    (commented content pre es post \/
     exists l content', shell_line l /\ one_line l /\ content = l ++ newline :: content' /\ commented content' pre es post).

(** *** Red Hat: "description:", continued by a backslash at the end of a line. *)
Definition trailing (v : bytes) : Prop := v = [] \/ begins_text v.
Inductive description_part : bytes -> bytes -> Prop :=
| part_more w v e : Forall white w -> trailing v -> Forall white e ->
    description_part (lit "# " ++ w ++ v ++ [byte_of 92] ++ e) v.
Inductive description_end : bytes -> bytes -> Prop :=
| end_text w v e : Forall white w -> tight v -> Forall white e -> description_end (lit "# " ++ w ++ v ++ e) v
| end_blank w : Forall white w -> description_end (lit "# " ++ w) [].
Inductive description_tag : list bytes -> bytes -> Prop :=
| tag_alone s v e : Forall white s -> tight v -> Forall white e ->
    description_tag [lit "# description:" ++ s ++ v ++ e] v
| tag_over s v e ls vs l w : Forall white s -> trailing v -> Forall white e ->
    Forall2 description_part ls vs -> description_end l w ->
    description_tag ((lit "# description:" ++ s ++ v ++ [byte_of 92] ++ e) :: ls ++ [l]) (v ++ concat vs ++ w).
Inductive tag_part : list bytes -> option bytes -> Prop :=
| part_other l : ~ begins_with (lit "# description:") l -> tag_part [l] None
| part_tag ls d : description_tag ls d -> tag_part ls (Some d).
(** What these lines give as descriptions, in order. *)
Definition tag_lines_say (ls : list bytes) (es : list (option bytes)) : Prop :=
  exists parts, ls = concat parts /\ Forall2 tag_part parts es.
(** A script without header, or with one that has no keyword "description" of its own. *)
Inductive redhat_tags : bytes -> option bytes -> Prop :=
| tags_plain content hs ls last es o : content = file (hs ++ ls) last -> Forall one_line (hs ++ ls) -> one_line last ->
    Forall hashed hs -> ~ In mark_begin hs -> ~ hashed (hd last ls) -> tag_lines_say hs es -> last_given es o ->
    redhat_tags content o
| tags_header content pre es post a b o : commented content pre es post -> ~ (exists v, In (lit "description", v) es) ->
    tag_lines_say pre a -> tag_lines_say post b -> last_given (a ++ b) o -> redhat_tags content o.
