(** Lemmas about the configuration that is shown and read back. *)
From Verif.Base Require Import Bytes BytesFacts.
From Verif.Model Require Import Status Egg Configuration ConfigDump.
From Verif.Model Require ConnectionSpec Logger ConfigXml.
From Verif.Spec Require Import RubySpec.
From Verif.Proofs Require ConnectionSpecProofs.
Import List.
Local Open Scope N_scope.

(** ** Strings *)

Lemma escaped_read u c next tail : c <> "#"%char ->
  read_string (escaped u c next ++ tail) = consed c (read_string tail).
Proof.
  intros H. destruct u; destruct c as [[] [] [] [] [] [] [] []]; try reflexivity; exfalso; apply H; reflexivity.
Qed.
Definition not_opening (s : bytes) : Prop :=
  match s with d :: _ => d <> "{"%char /\ d <> "$"%char /\ d <> "@"%char | [] => True end.
Lemma escaped_hash u next tail : (opens_code next = false -> not_opening tail) ->
  read_string (escaped u "#" next ++ tail) = consed "#" (read_string tail).
Proof.
  intros H. unfold escaped. cbn [letter_escape code].
  change (letter_escape "#") with (@None byte). cbn iota beta.
  change (beqb "#" "#") with true. cbn [andb].
  destruct (opens_code next) eqn:E; [reflexivity|].
  change ((code "#" <? 32) || (code "#" =? 127)) with false. cbn iota. cbn [app].
  specialize (H eq_refl). destruct tail as [|d t]; [reflexivity|]. cbn [not_opening] in H.
  destruct H as (A & B & C). unfold read_string at 1. fold read_string.
  change (code "#" =? 34) with false. change (code "#" =? 92) with false. change (beqb "#" "#") with true.
  cbn iota. unfold beqb. apply Ascii.eqb_neq in A, B, C. rewrite A, B, C. reflexivity.
Qed.
Lemma escaped_not_opening u c next tail : opens_code (Some c) = false -> not_opening (escaped u c next ++ tail).
Proof.
  intros H. destruct u; destruct c as [[] [] [] [] [] [] [] []]; try discriminate H; cbn;
    try (destruct (opens_code next)); cbn; repeat split; discriminate.
Qed.
Lemma read_escape u s : forall rest, read_string (escape u s ++ quote ++ rest) = Some (s, rest).
Proof.
  induction s as [|c s IH]; intros rest; [reflexivity|]. cbn [escape]. rewrite <- app_assoc.
  destruct (Ascii.eqb c "#") eqn:E.
  - apply Ascii.eqb_eq in E. subst c. rewrite escaped_hash; [rewrite IH; reflexivity|].
    intros H. destruct s as [|d s].
    + cbn. repeat split; discriminate.
    + cbn [escape]. rewrite <- app_assoc. apply escaped_not_opening. exact H.
  - apply Ascii.eqb_neq in E. rewrite escaped_read by exact E. rewrite IH. reflexivity.
Qed.
Lemma quoted_read u s rest : exists q t, quote ++ escape u s ++ quote ++ rest = q :: t /\ code q = 34 /\
  read_string t = Some (s, rest).
Proof. exists (byte_of 34), (escape u s ++ quote ++ rest). split; [reflexivity|]. split; [reflexivity|]. apply read_escape. Qed.

(** ** Numbers *)

Lemma span_all p s r : Forall (fun c => p c = true) s -> match r with d :: _ => p d = false | [] => True end ->
  span p (s ++ r) = (s, r).
Proof.
  intros F R. induction F as [|c s H F IH]; cbn [app].
  - destruct r as [|d r]; [reflexivity|]. cbn [span]. rewrite R. reflexivity.
  - cbn [span]. rewrite H, IH. reflexivity.
Qed.
Lemma number_app b s d : forall acc, digit d = true -> code d - 48 < b ->
  number b acc (s ++ [d]) = option_map (fun n => n * b + (code d - 48)) (number b acc s).
Proof.
  induction s as [|c s IH]; intros acc D L; cbn [app number].
  - rewrite D. destruct (N.ltb_spec (code d - 48) b); [reflexivity | lia].
  - destruct (digit c && (code c - 48 <? b)); [apply IH; assumption | reflexivity].
Qed.
Lemma digit_code n : n < 10 -> digit (ascii_of_N (48 + n)) = true /\ code (ascii_of_N (48 + n)) - 48 = n.
Proof.
  intros H. unfold digit, code. rewrite N_ascii_embedding by lia. split; [|lia].
  apply andb_true_iff. split; apply N.leb_le; lia.
Qed.
Definition leads (s : bytes) : Prop := match s with c :: d => beqb c "0" = true -> d = [] | [] => False end.
Lemma ascii_zero n : n < 10 -> beqb (ascii_of_N (48 + n)) "0" = true -> n = 0.
Proof.
  intros H E. apply Ascii.eqb_eq in E. apply (f_equal N_of_ascii) in E. rewrite N_ascii_embedding in E by lia.
  change (N_of_ascii "0") with 48 in E. lia.
Qed.
Lemma digits_read b (digits : nat -> N -> bytes) :
  (forall n, digits O n = []) ->
  (forall f n, digits (S f) n = if n <? b then [ascii_of_N (48 + n)]
                                else digits f (n / b) ++ [ascii_of_N (48 + n mod b)]) ->
  2 <= b -> b <= 10 ->
  forall fuel n, n < 2 ^ N.of_nat fuel -> 0 < N.of_nat fuel ->
  number b 0 (digits fuel n) = Some n /\ Forall (fun c => digit c = true) (digits fuel n) /\
  leads (digits fuel n) /\ (0 < n -> match digits fuel n with c :: _ => beqb c "0" = false | [] => False end).
Proof.
  intros Z U B B'. induction fuel as [|fuel IH]; intros n L P; [lia|]. rewrite U.
  destruct (N.ltb_spec n b) as [H|H].
  - destruct (digit_code n ltac:(lia)) as [D C]. repeat apply conj.
    + cbn [number]. rewrite D, C. destruct (N.ltb_spec n b); [|lia]. cbn [andb number]. f_equal; lia.
    + apply Forall_cons; [exact D | apply Forall_nil].
    + cbn [leads]. reflexivity.
    + intros Q. destruct (beqb (ascii_of_N (48 + n)) "0") eqn:E; [|reflexivity]. apply ascii_zero in E; lia.
  - assert (N.of_nat (S fuel) = N.succ (N.of_nat fuel)) as S by lia.
    assert (0 < n / b) as Q by (apply N.div_str_pos; lia).
    assert (n / b < 2 ^ N.of_nat fuel) as L'.
    { apply N.div_lt_upper_bound; [lia|]. rewrite S, N.pow_succ_r' in L. nia. }
    assert (0 < N.of_nat fuel) as P'.
    { destruct (N.eq_0_gt_0_cases (N.of_nat fuel)) as [E|E]; [|exact E]. rewrite E in L'. cbn in L'. lia. }
    destruct (IH (n / b) L' P') as (R & F & K & W). specialize (W Q).
    destruct (digit_code (n mod b) ltac:(pose proof (N.mod_lt n b); lia)) as [D C]. repeat apply conj.
    + rewrite number_app; [rewrite R; cbn [option_map]; rewrite C; f_equal; pose proof (N.div_mod n b); lia|exact D|].
      rewrite C. apply N.mod_lt. lia.
    + apply Forall_app. split; [exact F | apply Forall_cons; [exact D | apply Forall_nil]].
    + destruct (digits fuel (n / b)) as [|c d]; [destruct W|]. cbn [app leads]. intros E. congruence.
    + intros _. destruct (digits fuel (n / b)) as [|c d]; [destruct W|]. exact W.
Qed.
Lemma size_bound n : n < 2 ^ N.of_nat (S (N.size_nat n)).
Proof.
  assert (N.of_nat (N.size_nat n) = N.size n) as E.
  { destruct n as [|p]; [reflexivity|]. cbn [N.size_nat N.size].
    induction p as [p IH|p IH|]; cbn [Pos.size_nat Pos.size]; [| |reflexivity];
      rewrite Nat2N.inj_succ, IH; reflexivity. }
  rewrite Nat2N.inj_succ, N.pow_succ_r', E. pose proof (N.size_gt n). lia.
Qed.
Lemma decimal_read n : number 10 0 (ConnectionSpec.decimal n) = Some n /\
  Forall (fun c => digit c = true) (ConnectionSpec.decimal n) /\ leads (ConnectionSpec.decimal n) /\
  (0 < n -> match ConnectionSpec.decimal n with c :: _ => beqb c "0" = false | [] => False end).
Proof.
  apply (digits_read 10 ConnectionSpec.decimal_digits); [reflexivity|reflexivity|lia|lia| |lia]. apply size_bound.
Qed.
Lemma octal_read n : number 8 0 (octal n) = Some n /\ Forall (fun c => digit c = true) (octal n).
Proof.
  destruct (digits_read 8 octal_digits (fun _ => eq_refl) (fun _ _ => eq_refl) ltac:(lia) ltac:(lia)
              (S (N.size_nat n)) n (size_bound n) ltac:(lia)) as (A & B & _). split; assumption.
Qed.
Lemma digit_range c : digit c = true -> 48 <= code c <= 57.
Proof. unfold digit. intros H. apply andb_true_iff in H. destruct H as [A B]. apply N.leb_le in A, B. lia. Qed.

(** A text beginning with a digit is none of the words. *)
Lemma value_digit s c d : s = c :: d -> digit c = true -> read_value s = read_number s.
Proof.
  intros -> D. apply digit_range in D. unfold read_value, lit. cbn [bytes_eqb].
  assert (forall x, (code x <? 48) || (57 <? code x) = true -> beqb c x = false) as K.
  { intros x E. destruct (beqb c x) eqn:Q; [|reflexivity]. apply Ascii.eqb_eq in Q. subst x.
    apply orb_true_iff in E. destruct E as [E|E]; apply N.ltb_lt in E; lia. }
  cbn [list_ascii_of_string bytes_eqb].
  rewrite !K by reflexivity. cbn [andb].
  destruct (N.eqb_spec (code c) 34); [lia | reflexivity].
Qed.
Lemma bytes_nil s : bytes_eqb s [] = match s with [] => true | _ => false end.
Proof. destruct s; reflexivity. Qed.
Lemma value_decimal n : read_value (ConnectionSpec.decimal n) = Some (VInt n).
Proof.
  destruct (decimal_read n) as (R & F & L & P). destruct (ConnectionSpec.decimal n) as [|c d] eqn:E; [destruct L|].
  rewrite (value_digit _ c d eq_refl) by exact (Forall_inv F). unfold read_number.
  replace (c :: d) with ((c :: d) ++ []) by apply app_nil_r. rewrite span_all by (exact F || exact I).
  cbn [bytes_eqb]. destruct (beqb c "0") eqn:Z.
  - cbn [leads] in L. specialize (L Z). subst d. apply Ascii.eqb_eq in Z. subst c.
    destruct n as [|p]; [reflexivity|]. specialize (P ltac:(lia)). discriminate P.
  - rewrite R. reflexivity.
Qed.
Lemma value_float n : read_value (inspect_float n) = Some (VFloat n).
Proof.
  unfold inspect_float.
  destruct (decimal_read n) as (R & F & L & P). destruct (ConnectionSpec.decimal n) as [|c d] eqn:E; [destruct L|].
  rewrite (value_digit ((c :: d) ++ lit ".0") c (d ++ lit ".0") eq_refl) by exact (Forall_inv F). unfold read_number.
  rewrite span_all by (exact F || reflexivity).
  change (bytes_eqb (lit ".0") []) with false. change (bytes_eqb (lit ".0") (lit ".0")) with true. cbn iota.
  destruct (beqb c "0") eqn:Z.
  - cbn [leads] in L. specialize (L Z). subst d. cbn [andb negb bytes_eqb]. rewrite R. reflexivity.
  - cbn [andb]. rewrite R. reflexivity.
Qed.
Lemma value_octal n : read_value (lit "0" ++ octal n) = Some (VInt n).
Proof.
  destruct (octal_read n) as (R & F). change (lit "0" ++ octal n) with ("0"%char :: octal n).
  rewrite (value_digit _ "0"%char (octal n) eq_refl) by reflexivity. unfold read_number.
  replace ("0"%char :: octal n) with (("0"%char :: octal n) ++ []) by apply app_nil_r.
  rewrite span_all; [|apply Forall_cons; [reflexivity | exact F]|exact I].
  cbn [bytes_eqb]. change (beqb "0" "0") with true. cbn iota. rewrite R. reflexivity.
Qed.
Lemma value_string u s : read_value (quote ++ escape u s ++ quote) = Some (VStr s).
Proof.
  destruct (quoted_read u s []) as (q & t & E & Q & R). rewrite app_nil_r in E.
  unfold read_value. change (quote ++ escape u s ++ quote) with (byte_of 34 :: escape u s ++ quote).
  assert (read_string (escape u s ++ quote) = Some (s, [])) as H.
  { pose proof (read_escape u s []) as K. rewrite app_nil_r in K. exact K. }
  unfold lit. cbn [list_ascii_of_string bytes_eqb].
  change (beqb (byte_of 34) "n") with false. change (beqb (byte_of 34) "t") with false.
  change (beqb (byte_of 34) "f") with false. change (beqb (byte_of 34) "[") with false. cbn [andb].
  change (code (byte_of 34) =? 34) with true. cbn iota. rewrite H. reflexivity.
Qed.
Lemma value_inspect v : printable v -> read_value (inspect v) = Some v.
Proof.
  destruct v as [|[]|n|n|s|l]; intros P; try reflexivity; cbn [inspect].
  - apply value_decimal.
  - apply value_float.
  - apply value_string.
  - destruct P.
Qed.
Lemma value_option s : read_value (inspect_option s) = Some (of_option s).
Proof. destruct s as [s|]; [apply value_string | reflexivity]. Qed.
Lemma value_bool b : read_value (inspect_bool b) = Some (VBool b).
Proof. destruct b; reflexivity. Qed.

(** ** Lines *)

Definition one_line (s : bytes) : Prop := Forall (fun c => code c <> 10) s.
Definition joined_lines (l : list bytes) : bytes := flat_map (fun x => x ++ newline) l.

Lemma lines_cons s r : one_line s -> lines (s ++ newline ++ r) = s :: lines r.
Proof.
  intros H. induction H as [|c s N H IH]; [reflexivity|]. cbn [app lines].
  destruct (N.eqb_spec (code c) 10); [contradiction|]. cbn [app] in IH. rewrite IH. reflexivity.
Qed.
Lemma lines_some s : exists l ls, lines s = l :: ls.
Proof.
  induction s as [|c s (l & ls & IH)]; [exists [], []; reflexivity|]. cbn [lines].
  destruct (code c =? 10); [|rewrite IH]; eexists; eexists; reflexivity.
Qed.
Lemma lines_end a : lines (a ++ newline) = lines a ++ [[]].
Proof.
  induction a as [|c a IH]; [reflexivity|]. cbn [app lines]. cbn [app] in IH. rewrite IH.
  destruct (code c =? 10); [reflexivity|]. destruct (lines_some a) as (l & ls & ->). reflexivity.
Qed.
Lemma lines_joined l : Forall one_line l -> lines (joined_lines l) = l ++ [[]].
Proof.
  intros H. induction H as [|x l N H IH]; [reflexivity|]. cbn [joined_lines flat_map].
  rewrite <- app_assoc, lines_cons by exact N. unfold joined_lines in IH. rewrite IH. reflexivity.
Qed.
Lemma all_app {A} (a b : list (option A)) x y : all a = Some x -> all b = Some y -> all (a ++ b) = Some (x ++ y).
Proof.
  revert x. induction a as [|[k|] a IH]; intros x H K; cbn [app all] in *.
  - injection H as <-. exact K.
  - destruct (all a) as [z|]; [|discriminate]. injection H as <-. rewrite (IH z eq_refl K). reflexivity.
  - discriminate.
Qed.
Lemma all_snoc {A} (a : list (option A)) (k : A) :
  all (a ++ [Some k]) = option_map (fun x => x ++ [k]) (all a).
Proof.
  induction a as [|[x|] a IH]; cbn [app all]; [reflexivity| |reflexivity]. rewrite IH. destruct (all a); reflexivity.
Qed.
Lemma assemble_blank l : forall p, assemble p (l ++ [LBlank]) = assemble p l.
Proof.
  induction l as [|x l IH]; intros p; [destruct p; reflexivity|]. cbn [app assemble].
  destruct x; try destruct p; cbn; try rewrite IH; try reflexivity.
  all: try (destruct (bytes_eqb receiver variable); [rewrite IH|]; reflexivity).
  all: try (destruct (definition method name body); [rewrite IH|]; reflexivity).
Qed.
Lemma ruby_end a : ruby (a ++ newline) = ruby a.
Proof.
  unfold ruby. rewrite lines_end, map_app. change (map read_line [[]]) with [Some LBlank]. rewrite all_snoc.
  destruct (all (map read_line (lines a))) as [x|]; [|reflexivity]. cbn [option_map]. apply assemble_blank.
Qed.

(** [t] is made of whole lines that read as [xs]. *)
Definition says (t : bytes) (xs : list line) : Prop :=
  exists l, t = joined_lines l /\ Forall one_line l /\ all (map read_line l) = Some xs.
Lemma says_nil : says [] [].
Proof. exists []. repeat split. apply Forall_nil. Qed.
Lemma says_app a b x y : says a x -> says b y -> says (a ++ b) (x ++ y).
Proof.
  intros (l & -> & F & H) (m & -> & G & K). exists (l ++ m). repeat apply conj.
  - unfold joined_lines. symmetry. apply flat_map_app.
  - apply Forall_app. split; assumption.
  - rewrite map_app. apply all_app; assumption.
Qed.
Lemma says_line l x : one_line l -> read_line l = Some x -> says (l ++ newline) [x].
Proof.
  intros F H. exists [l]. repeat apply conj; [cbn; rewrite app_nil_r; reflexivity|apply Forall_cons; [exact F | apply Forall_nil]|].
  cbn. rewrite H. reflexivity.
Qed.
Lemma says_flat_map {A} (f : A -> bytes) (g : A -> list line) l :
  (forall a, In a l -> says (f a) (g a)) -> says (flat_map f l) (flat_map g l).
Proof.
  intros H. induction l as [|a l IH]; [apply says_nil|]. cbn [flat_map].
  apply says_app; [apply H; left; reflexivity | apply IH; intros b I; apply H; right; exact I].
Qed.
Lemma ruby_says t xs : says t xs -> ruby t = assemble Top xs.
Proof.
  intros (l & -> & F & H). unfold ruby. rewrite lines_joined by exact F. rewrite map_app.
  change (map read_line [[]]) with [Some LBlank]. rewrite all_snoc, H. cbn [option_map]. apply assemble_blank.
Qed.
Lemma says_blank : says newline [LBlank].
Proof. apply (says_line []); [apply Forall_nil | reflexivity]. Qed.

(** *** No newline inside *)

Lemma one_line_app a b : one_line a -> one_line b -> one_line (a ++ b).
Proof. intros A B. apply Forall_app. split; assumption. Qed.
Lemma one_line_lit a : forallb (fun c => negb (code c =? 10)) a = true -> one_line a.
Proof.
  intros H. apply Forall_forall. intros c I. rewrite forallb_forall in H. specialize (H c I).
  apply negb_true_iff in H. apply N.eqb_neq. exact H.
Qed.
Lemma escaped_one_line u c next : one_line (escaped u c next).
Proof.
  destruct u; destruct c as [[] [] [] [] [] [] [] []]; cbn; try (apply one_line_lit; reflexivity);
    destruct (opens_code next); apply one_line_lit; reflexivity.
Qed.
Lemma escape_one_line u s : one_line (escape u s).
Proof. induction s as [|c s IH]; [apply Forall_nil|]. cbn [escape]. apply one_line_app; [apply escaped_one_line | exact IH]. Qed.
Lemma quoted_one_line u s : one_line (quote ++ escape u s ++ quote).
Proof. apply one_line_app; [apply one_line_lit; reflexivity|]. apply one_line_app; [apply escape_one_line | apply one_line_lit; reflexivity]. Qed.
Lemma digits_one_line s : Forall (fun c => digit c = true) s -> one_line s.
Proof. apply Forall_impl. intros c H. apply digit_range in H. lia. Qed.
Lemma decimal_one_line n : one_line (ConnectionSpec.decimal n).
Proof. apply digits_one_line. apply decimal_read. Qed.
Lemma octal_one_line n : one_line (octal n).
Proof. apply digits_one_line. apply octal_read. Qed.
Lemma inspect_one_line v : one_line (inspect v).
Proof.
  destruct v as [|[]|n|n|s|l]; cbn [inspect]; try (apply one_line_lit; reflexivity).
  - apply decimal_one_line.
  - apply one_line_app; [apply decimal_one_line | apply one_line_lit; reflexivity].
  - apply quoted_one_line.
Qed.
Lemma option_one_line s : one_line (inspect_option s).
Proof. destruct s; [apply quoted_one_line | apply one_line_lit; reflexivity]. Qed.
Lemma bool_one_line b : one_line (inspect_bool b).
Proof. destruct b; apply one_line_lit; reflexivity. Qed.
Lemma float_one_line n : one_line (inspect_float n).
Proof. apply (inspect_one_line (VFloat n)). Qed.
Lemma number_one_line z : one_line (line_number z).
Proof.
  destruct z; cbn [line_number]; try apply decimal_one_line.
  apply one_line_app; [apply one_line_lit; reflexivity | apply decimal_one_line].
Qed.

(** *** Reading one line *)

Definition spaces (s : bytes) : Prop := Forall (fun c => (code c =? 32) = true) s.
Lemma spaces_one_line s : spaces s -> one_line s.
Proof. apply Forall_impl. intros c H. apply N.eqb_eq in H. lia. Qed.
Lemma skip_indent i c r : spaces i -> code c <> 32 -> skip_spaces (i ++ c :: r) = c :: r.
Proof.
  intros S N. unfold skip_spaces. rewrite span_all; [reflexivity | exact S | apply N.eqb_neq; exact N].
Qed.
Lemma read_comment i r : spaces i -> read_line (i ++ "#"%char :: r) = Some LBlank.
Proof. intros S. unfold read_line. rewrite skip_indent by (exact S || discriminate). reflexivity. Qed.
Lemma letter_range c : letter c = true -> (97 <= code c <= 122) \/ code c = 95.
Proof.
  unfold letter. intros H. apply orb_true_iff in H. destruct H as [H|H].
  - apply andb_true_iff in H. destruct H as [A B]. apply N.leb_le in A, B. left. lia.
  - apply N.eqb_eq in H. right. exact H.
Qed.
Lemma letter_not c x : letter c = true -> letter x = false -> beqb c x = false.
Proof. intros A B. destruct (beqb c x) eqn:E; [|reflexivity]. apply Ascii.eqb_eq in E. congruence. Qed.
Lemma not_word w r d s : In d (r ++ d :: s) -> ~ In d w -> bytes_eqb (r ++ d :: s) w = false.
Proof. intros A B. apply bytes_eqb_neq. intros E. rewrite E in A. contradiction. Qed.
Lemma after_app p s : after p (p ++ s) = Some s.
Proof.
  induction p as [|c p IH]; [reflexivity|]. cbn [app after]. unfold beqb. rewrite Ascii.eqb_refl. exact IH.
Qed.
Lemma read_rest i r d s (K : Forall (fun c => letter c = true) r) : spaces i -> r <> [] -> letter d = false ->
  read_line (i ++ r ++ d :: s) =
  (if beqb d "." then
     let (attribute, rest) := span letter s in
     match after (lit " = ") rest with
     | Some v => if bytes_eqb v (lit "[") then Some (LOpen r attribute)
                 else option_map (LSet r attribute) (read_value v)
     | None => None
     end
   else if beqb d "(" then
     match s with
     | q :: rest =>
         if code q =? 34 then
           match read_string rest with
           | Some (t, rest) =>
               match after (lit ") do |") rest with
               | Some rest =>
                   let (variable, rest) := span letter rest in
                   if bytes_eqb rest (lit "|") then Some (LDefine r t variable) else None
               | None => None
               end
           | None => None
           end
         else None
     | [] => None
     end
   else None).
Proof.
  intros S N D. destruct r as [|c r]; [contradiction|]. assert (letter c = true) as L by exact (Forall_inv K).
  unfold read_line. change ((c :: r) ++ d :: s) with (c :: r ++ d :: s).
  pose proof (letter_range c L) as R. rewrite skip_indent by (exact S || lia).
  rewrite (letter_not c "#") by (exact L || reflexivity).
  destruct (N.eqb_spec (code c) 34); [lia|].
  change (c :: r ++ d :: s) with ((c :: r) ++ d :: s).
  assert (bytes_eqb ((c :: r) ++ d :: s) (lit "]") = false) as ->.
  { unfold lit. cbn [app list_ascii_of_string bytes_eqb]. rewrite (letter_not c "]") by (exact L || reflexivity).
    reflexivity. }
  rewrite (not_word (lit "end") (c :: r) d s).
  2: apply in_or_app; right; left; reflexivity.
  2: { intros [E|[E|[E|[]]]]; subst d; discriminate D. }
  rewrite span_all by (exact K || exact D). reflexivity.
Qed.
Definition letters (s : bytes) : Prop := Forall (fun c => letter c = true) s.
Lemma letters_lit s : forallb letter s = true -> letters s.
Proof. intros H. apply Forall_forall. rewrite forallb_forall in H. exact H. Qed.
Lemma read_set i r a text v : spaces i -> letters r -> r <> [] -> letters a -> read_value text = Some v ->
  read_line (i ++ (r ++ lit "." ++ a) ++ lit " = " ++ text) = Some (LSet r a v).
Proof.
  intros S R N A V.
  replace (i ++ (r ++ lit "." ++ a) ++ lit " = " ++ text) with (i ++ r ++ "."%char :: a ++ lit " = " ++ text)
    by (rewrite <- (app_assoc r); reflexivity).
  rewrite read_rest by (assumption || reflexivity). change (beqb "." ".") with true. cbn iota.
  rewrite span_all by (exact A || reflexivity). cbv beta iota. rewrite after_app.
  destruct (bytes_eqb text (lit "[")) eqn:E; [|rewrite V; reflexivity].
  apply bytes_eqb_eq in E. subst text. discriminate V.
Qed.
Lemma read_open i r a : spaces i -> letters r -> r <> [] -> letters a ->
  read_line (i ++ r ++ lit "." ++ a ++ lit " = [") = Some (LOpen r a).
Proof.
  intros S R N A.
  change (i ++ r ++ lit "." ++ a ++ lit " = [") with (i ++ r ++ "."%char :: a ++ lit " = " ++ lit "[").
  rewrite read_rest by (assumption || reflexivity). change (beqb "." ".") with true. cbn iota.
  rewrite span_all by (exact A || reflexivity). cbv beta iota. rewrite after_app. reflexivity.
Qed.
Lemma read_define m u n v : letters m -> m <> [] -> letters v ->
  read_line (m ++ lit "(" ++ (quote ++ escape u n ++ quote) ++ lit ") do |" ++ v ++ lit "|") = Some (LDefine m n v).
Proof.
  intros M N V.
  replace (m ++ lit "(" ++ (quote ++ escape u n ++ quote) ++ lit ") do |" ++ v ++ lit "|")
    with ([] ++ m ++ "("%char :: byte_of 34 :: escape u n ++ quote ++ lit ") do |" ++ v ++ lit "|")
    by (rewrite <- !app_assoc; reflexivity).
  rewrite read_rest by (assumption || reflexivity || apply Forall_nil).
  change (beqb "(" ".") with false. change (beqb "(" "(") with true. cbn iota.
  change (code (byte_of 34) =? 34) with true. cbn iota. rewrite read_escape, after_app.
  rewrite span_all by (exact V || reflexivity). reflexivity.
Qed.
Lemma read_element i u s : spaces i -> read_line (i ++ (quote ++ escape u s ++ quote) ++ lit ",") = Some (LElement s).
Proof.
  intros S. unfold read_line.
  replace (i ++ (quote ++ escape u s ++ quote) ++ lit ",") with (i ++ byte_of 34 :: escape u s ++ quote ++ lit ",")
    by (rewrite <- !app_assoc; reflexivity).
  rewrite skip_indent by (exact S || discriminate).
  change (beqb (byte_of 34) "#") with false. change (code (byte_of 34) =? 34) with true. cbn iota.
  rewrite read_escape. reflexivity.
Qed.
Lemma read_close i : spaces i -> read_line (i ++ lit "]") = Some LClose.
Proof.
  intros S. unfold read_line. change (lit "]") with ["]"%char] at 1. rewrite skip_indent by (exact S || discriminate).
  reflexivity.
Qed.

Section Writing.
  Variable c : conf.
  Hypothesis files : forall key file n, In (key, (file, n)) (s_locations (cf c)) -> ~ In (byte_of 10) file.
  Hypothesis base : printable_database (cf_database c).

  Lemma location_says key i : spaces i -> says (dump_location c key i) [LBlank].
  Proof.
    intros S. unfold dump_location.
    destruct (match key with Some k => location c k | None => None end) as [[file n]|] eqn:E.
    - replace (i ++ lit "# " ++ file ++ lit ":" ++ line_number n ++ newline)
        with ((i ++ lit "# " ++ file ++ lit ":" ++ line_number n) ++ newline) by (rewrite <- !app_assoc; reflexivity).
      apply says_line.
      + apply one_line_app; [apply spaces_one_line; exact S|].
        apply one_line_app; [apply one_line_lit; reflexivity|]. apply one_line_app.
        * destruct key as [k|]; [|discriminate]. unfold location in E.
          destruct (find (fun l => bytes_eqb (fst l) k) (s_locations (cf c))) as [[k' p]|] eqn:F; [|discriminate].
          cbn [option_map snd] in E. injection E as E. subst p. apply find_some in F. destruct F as [F _].
          apply files in F. apply Forall_forall. intros x I X. apply F.
          replace (byte_of 10) with x; [exact I|].
          rewrite <- (ascii_N_embedding x). unfold code in X. rewrite X. reflexivity.
        * apply one_line_app; [apply one_line_lit; reflexivity | apply number_one_line].
      + change (lit "# ") with ("#"%char :: lit " "). apply read_comment. exact S.
    - replace (i ++ lit "# default" ++ newline) with ((i ++ lit "# default") ++ newline)
        by (rewrite <- app_assoc; reflexivity).
      apply says_line.
      + apply one_line_app; [apply spaces_one_line; exact S | apply one_line_lit; reflexivity].
      + change (lit "# default") with ("#"%char :: lit " default"). apply read_comment. exact S.
  Qed.
  Lemma letters_one_line s : letters s -> one_line s.
  Proof. apply Forall_impl. intros x H. apply letter_range in H. lia. Qed.
  Lemma item_says r a text v i k : spaces i -> letters r -> r <> [] -> letters a -> read_value text = Some v ->
    one_line text -> says (dump_item c (r ++ lit "." ++ a) text i k) [LBlank; LSet r a v].
  Proof.
    intros S R N A V O. unfold dump_item. apply (says_app _ _ [LBlank] [LSet r a v]); [apply location_says; exact S|].
    replace (i ++ (r ++ lit "." ++ a) ++ lit " = " ++ text ++ newline)
      with ((i ++ (r ++ lit "." ++ a) ++ lit " = " ++ text) ++ newline) by (rewrite <- !app_assoc; reflexivity).
    apply says_line; [|apply read_set; assumption].
    apply one_line_app; [apply spaces_one_line; exact S|]. apply one_line_app.
    - apply one_line_app; [apply letters_one_line; exact R|].
      apply one_line_app; [apply one_line_lit; reflexivity | apply letters_one_line; exact A].
    - apply one_line_app; [apply one_line_lit; reflexivity | exact O].
  Qed.

  Definition key_section (i : item) : bytes := fst (span letter (dump_key i)).
  Definition key_attribute (i : item) : bytes := tl (snd (span letter (dump_key i))).
  Lemma key_parts i : dump_key i = key_section i ++ lit "." ++ key_attribute i /\ letters (key_section i) /\
    key_section i <> [] /\ letters (key_attribute i) /\ setter (key_section i) (key_attribute i) = Some i.
  Proof.
    destruct i; (repeat apply conj; [reflexivity | apply letters_lit; reflexivity | discriminate |
                                     apply letters_lit; reflexivity | vm_compute; reflexivity]).
  Qed.
  (** What is written for an item. *)
  Definition shown (i : item) : value :=
    match i with
    | LogLevel => VStr (level_names (cf_level c))
    | MaintenanceInterval => if s_maintenance_interval (cf c) =? 0 then VNil else get c i
    | _ => get c i
    end.
  Lemma value_shown i : read_value (dump_value c i) = Some (shown i).
  Proof.
    destruct base as (B1 & B2 & B3 & B4 & B5 & B6 & B7).
    destruct i; cbn [dump_value shown get];
      try (apply value_inspect; first [exact I | assumption | destruct (_ : option bytes); exact I]);
      try apply value_string.
    - destruct (s_manager_unix_socket_mode (cf c)) as [|p] eqn:E; [reflexivity | apply value_octal].
    - destruct (s_maintenance_interval (cf c) =? 0); [reflexivity | apply value_inspect; exact I].
    - apply value_octal.
  Qed.
  Lemma value_one_line i : one_line (dump_value c i).
  Proof.
    destruct i; cbn [dump_value]; try apply inspect_one_line; try apply quoted_one_line.
    - destruct (s_manager_unix_socket_mode (cf c)) as [|p];
        [apply one_line_lit; reflexivity | apply one_line_app; [apply one_line_lit; reflexivity | apply octal_one_line]].
    - destruct (s_maintenance_interval (cf c) =? 0); [apply one_line_lit; reflexivity | apply inspect_one_line].
    - apply one_line_app; [apply one_line_lit; reflexivity | apply octal_one_line].
  Qed.
  Definition item_lines (i : item) : list line := [LBlank; LSet (key_section i) (key_attribute i) (shown i)].
  Lemma section_says l : says (dump_section c l) (flat_map item_lines l ++ [LBlank]).
  Proof.
    unfold dump_section. apply says_app; [|apply says_blank]. apply says_flat_map. intros i _.
    destruct (key_parts i) as (E & A & B & C & _). rewrite E at 1.
    apply item_says; [apply Forall_nil | exact A | exact B | exact C | apply value_shown | apply value_one_line].
  Qed.

  Lemma define_says m u n v : letters m -> m <> [] -> letters v ->
    says (m ++ lit "(" ++ (quote ++ escape u n ++ quote) ++ lit ") do |" ++ v ++ lit "|" ++ newline) [LDefine m n v].
  Proof.
    intros M N V.
    replace (m ++ lit "(" ++ (quote ++ escape u n ++ quote) ++ lit ") do |" ++ v ++ lit "|" ++ newline)
      with ((m ++ lit "(" ++ (quote ++ escape u n ++ quote) ++ lit ") do |" ++ v ++ lit "|") ++ newline)
      by (rewrite <- !app_assoc; reflexivity).
    apply says_line; [|apply read_define; assumption].
    apply one_line_app; [apply letters_one_line; exact M|].
    apply one_line_app; [apply one_line_lit; reflexivity|]. apply one_line_app; [apply quoted_one_line|].
    apply one_line_app; [apply one_line_lit; reflexivity|].
    apply one_line_app; [apply letters_one_line; exact V | apply one_line_lit; reflexivity].
  Qed.
  Lemma end_says : says (lit "end" ++ newline) [LEnd].
  Proof. apply says_line; [apply one_line_lit; reflexivity | reflexivity]. Qed.

  Definition condition_lines (k : condition) : list line :=
    [LBlank; LDefine (lit "define_applicable_condition") (k_name k) (lit "condition"); LBlank;
     LSet (lit "condition") (lit "description") (of_option (k_description k)); LEnd].
  Lemma condition_says k : says (dump_condition c k) (condition_lines k).
  Proof.
    unfold dump_condition. cbv zeta.
    apply (says_app _ _ [LBlank] (tl (condition_lines k))); [apply location_says; apply Forall_nil|].
    pose proof (define_says (lit "define_applicable_condition") false (k_name k) (lit "condition")
                  ltac:(apply letters_lit; reflexivity) ltac:(discriminate) ltac:(apply letters_lit; reflexivity)) as D.
    pose proof (item_says (lit "condition") (lit "description") (inspect_option (k_description k))
                  (of_option (k_description k)) (lit "  ")
                  ((lit "applicable_condition[" ++ k_name k ++ lit "]") ++ lit ".description")
                  ltac:(apply Forall_forall; intros x [<-|[<-|[]]]; reflexivity)
                  ltac:(apply letters_lit; reflexivity) ltac:(discriminate) ltac:(apply letters_lit; reflexivity)
                  (value_option _) (option_one_line _)) as I.
    pose proof (says_app _ _ _ _ D (says_app _ _ _ _ I end_says)) as H.
    unfold dump_string. rewrite <- !app_assoc in H. rewrite <- !app_assoc. exact H.
  Qed.

  Definition egg_values (e : egg) : list (bytes * value) :=
    [(lit "connection_spec", of_option (e_connection_spec e));
     (lit "description", of_option (e_description e));
     (lit "enabled", VBool (e_enabled e));
     (lit "fallback_status", VStr (ConfigXml.status_nick (e_fallback_status e)));
     (lit "evaluation_mode", VBool (e_evaluation_mode e))].
  Definition egg_values_after (e : egg) : list (bytes * value) :=
    [(lit "command", of_option (e_command e));
     (lit "command_options", of_option (e_command_options e));
     (lit "user_name", of_option (e_user_name e));
     (lit "connection_timeout", VFloat (Z.to_N (e_connection_timeout e)));
     (lit "writing_timeout", VFloat (Z.to_N (e_writing_timeout e)));
     (lit "reading_timeout", VFloat (Z.to_N (e_reading_timeout e)));
     (lit "end_of_message_timeout", VFloat (Z.to_N (e_end_of_message_timeout e)))].
  Definition milter : bytes := lit "milter".
  Definition value_lines (i : bytes * value) : list line := [LBlank; LSet milter (fst i) (snd i)].
  Definition list_lines (l : list condition) : list line :=
    match l with
    | [] => [LBlank; LSet milter (lit "applicable_conditions") (VList [])]
    | _ => LOpen milter (lit "applicable_conditions") :: flat_map (fun k => [LBlank; LElement (k_name k)]) l ++ [LClose]
    end.
  Definition egg_lines (e : egg) : list line :=
    [LBlank; LDefine (lit "define_milter") (e_name e) milter] ++ flat_map value_lines (egg_values e) ++
    list_lines (e_conditions e) ++ flat_map value_lines (egg_values_after e) ++ [LEnd].

  Lemma two_spaces : spaces (lit "  ").
  Proof. apply Forall_forall. intros x [<-|[<-|[]]]; reflexivity. Qed.
  Lemma four_spaces : spaces (lit "    ").
  Proof. apply Forall_forall. intros x [<-|[<-|[<-|[<-|[]]]]]; reflexivity. Qed.
  Lemma put_says key (l : list (bytes * bytes)) (m : list (bytes * value)) :
    Forall2 (fun i j => fst i = fst j /\ letters (fst i) /\ read_value (snd i) = Some (snd j) /\ one_line (snd i)) l m ->
    says (flat_map (fun i => dump_item c (lit "milter." ++ fst i) (snd i) (lit "  ") (key ++ lit "." ++ fst i)) l)
         (flat_map value_lines m).
  Proof.
    intros H. induction H as [|[a text] [b v] l m (E & L & R & O) H IH]; [apply says_nil|].
    cbn [flat_map fst snd] in *. subst b. apply says_app; [|exact IH].
    apply (item_says milter a text v); [apply two_spaces | apply letters_lit; reflexivity | discriminate | exact L | exact R | exact O].
  Qed.
  Lemma list_says key l :
    says (match l with
          | [] => dump_location c None (lit "  ") ++ lit "  milter.applicable_conditions = []" ++ newline
          | l => lit "  milter.applicable_conditions = [" ++ newline ++
                 flat_map (fun k => dump_location c (Some (key ++ lit ".applicable_condition[" ++ k_name k ++ lit "]"))
                                                  (lit "    ") ++
                                    lit "    " ++ inspect_string (k_name k) ++ lit "," ++ newline) l ++
                 lit "  ]" ++ newline
          end) (list_lines l).
  Proof.
    destruct l as [|k0 l0].
    - apply (says_app _ _ [LBlank] [LSet milter (lit "applicable_conditions") (VList [])]).
      + apply location_says. apply two_spaces.
      + apply says_line; [apply one_line_lit; reflexivity | vm_compute; reflexivity].
    - unfold list_lines. cbv iota. generalize (k0 :: l0). clear k0 l0. intros l.
      assert (says (lit "  milter.applicable_conditions = [" ++ newline ++
         flat_map (fun k => dump_location c (Some (key ++ lit ".applicable_condition[" ++ k_name k ++ lit "]")) (lit "    ") ++
              lit "    " ++ inspect_string (k_name k) ++ lit "," ++ newline) l ++ lit "  ]" ++ newline)
        ([LOpen milter (lit "applicable_conditions")] ++ flat_map (fun k => [LBlank; LElement (k_name k)]) l ++ [LClose])) as H.
      { rewrite (app_assoc (lit "  milter.applicable_conditions = [") newline).
        apply says_app; [apply says_line; [apply one_line_lit; reflexivity | vm_compute; reflexivity]|].
        apply says_app; [|apply says_line; [apply one_line_lit; reflexivity | vm_compute; reflexivity]].
        apply says_flat_map. intros k _. apply (says_app _ _ [LBlank] [LElement (k_name k)]); [apply location_says; apply four_spaces|].
        replace (lit "    " ++ inspect_string (k_name k) ++ lit "," ++ newline)
          with ((lit "    " ++ inspect_string (k_name k) ++ lit ",") ++ newline) by (rewrite <- !app_assoc; reflexivity).
        apply says_line; [|apply read_element; apply four_spaces].
        apply one_line_app; [apply one_line_lit; reflexivity|].
        apply one_line_app; [apply quoted_one_line | apply one_line_lit; reflexivity]. }
      exact H.
  Qed.
  Lemma egg_list_says key e :
    says (match e_conditions e with
          | [] => dump_location c None (lit "  ") ++ lit "  milter.applicable_conditions = []" ++ newline
          | k0 :: l0 => lit "  milter.applicable_conditions = [" ++ newline ++
                 flat_map (fun k => dump_location c (Some (key ++ lit ".applicable_condition[" ++ k_name k ++ lit "]"))
                                                  (lit "    ") ++
                                    lit "    " ++ inspect_string (k_name k) ++ lit "," ++ newline) (k0 :: l0) ++
                 lit "  ]" ++ newline
          end) (list_lines (e_conditions e)).
  Proof. pose proof (list_says key (e_conditions e)) as H. destruct (e_conditions e); exact H. Qed.
  Lemma egg_says e : says (dump_egg c e) (egg_lines e).
  Proof.
    unfold dump_egg. cbv zeta.
    change (egg_lines e) with ([LBlank] ++ [LDefine (lit "define_milter") (e_name e) milter] ++
      flat_map value_lines (egg_values e) ++ list_lines (e_conditions e) ++ flat_map value_lines (egg_values_after e) ++ [LEnd]).
    apply says_app; [apply location_says; apply Forall_nil|].
    pose proof (define_says (lit "define_milter") true (e_name e) milter
                  ltac:(apply letters_lit; reflexivity) ltac:(discriminate) ltac:(apply letters_lit; reflexivity)) as D.
    set (key := lit "milter[" ++ e_name e ++ lit "]").
    assert (forall x y, says x y ->
      says (lit "define_milter(" ++ inspect_string (e_name e) ++ lit ") do |milter|" ++ newline ++ x)
           ([LDefine (lit "define_milter") (e_name e) milter] ++ y)) as Q.
    { intros x y H. pose proof (says_app _ _ _ _ D H) as K. rewrite <- !app_assoc in K. unfold inspect_string.
      rewrite <- !app_assoc. exact K. }
    apply Q. apply says_app; [|apply says_app; [exact (egg_list_says key e)|apply says_app; [|apply end_says]]].
    - apply (put_says key). unfold egg_items, egg_values.
      repeat (apply Forall2_cons; [apply conj; [reflexivity|]; apply conj; [apply letters_lit; reflexivity|];
        cbn [fst snd]; first [exact (conj (value_option _) (option_one_line _)) |
                              exact (conj (value_bool _) (bool_one_line _)) |
                              exact (conj (value_string true _) (quoted_one_line true _))]|]).
      apply Forall2_nil.
    - apply (put_says key). unfold egg_items_after, egg_values_after.
      repeat (apply Forall2_cons; [apply conj; [reflexivity|]; apply conj; [apply letters_lit; reflexivity|];
        cbn [fst snd]; first [exact (conj (value_option _) (option_one_line _)) |
                              exact (conj (value_float _) (float_one_line _))]|]).
      apply Forall2_nil.
  Qed.

  (** ** The whole text *)

  Definition dumped : bytes :=
    flat_map (dump_section c) sections ++
    flat_map (fun k => dump_condition c k ++ newline) (s_conditions (cf c)) ++
    flat_map (fun e => dump_egg c e ++ newline) (s_eggs (cf c)).
  Definition dumped_lines : list line :=
    flat_map (fun l => flat_map item_lines l ++ [LBlank]) sections ++
    flat_map (fun k => condition_lines k ++ [LBlank]) (s_conditions (cf c)) ++
    flat_map (fun e => egg_lines e ++ [LBlank]) (s_eggs (cf c)).
  Lemma dumped_says : says dumped dumped_lines.
  Proof.
    unfold dumped, dumped_lines. apply says_app; [apply says_flat_map; intros l _; apply section_says|].
    apply says_app; apply says_flat_map.
    - intros k _. apply says_app; [apply condition_says | apply says_blank].
    - intros e _. apply says_app; [apply egg_says | apply says_blank].
  Qed.

  Lemma strip_left_solid x s : stripped x = false -> strip_left (x :: s) = x :: s.
  Proof. intros H. cbn [strip_left]. rewrite H. reflexivity. Qed.
  Lemma strip_ends x m z : stripped x = false -> stripped z = false ->
    strip ((x :: m ++ [z]) ++ newline ++ newline) = x :: m ++ [z].
  Proof.
    intros X Z. unfold strip.
    assert (strip_left ((x :: m ++ [z]) ++ newline ++ newline) = (x :: m ++ [z]) ++ newline ++ newline) as ->
      by (apply strip_left_solid; exact X).
    assert (rev ((x :: m ++ [z]) ++ newline ++ newline) = newline ++ newline ++ z :: rev (x :: m)) as ->.
    { rewrite rev_app_distr. change (x :: m ++ [z]) with ((x :: m) ++ [z]). rewrite (rev_app_distr (x :: m)). reflexivity. }
    change (strip_left (newline ++ newline ++ z :: rev (x :: m))) with (strip_left (z :: rev (x :: m))).
    rewrite strip_left_solid by exact Z. change (z :: rev (x :: m)) with ([z] ++ rev (x :: m)).
    rewrite rev_app_distr, rev_involutive. reflexivity.
  Qed.
  (** Text ending in something solid and two newlines. *)
  Definition solid_end (t : bytes) : Prop := exists m z, t = m ++ [z] ++ newline ++ newline /\ stripped z = false.
  Lemma solid_app a b : solid_end b -> solid_end (a ++ b).
  Proof. intros (m & z & -> & Z). exists (a ++ m), z. split; [rewrite app_assoc; reflexivity | exact Z]. Qed.
  Definition solid_last (t : bytes) : Prop := exists m z, t = m ++ [z] /\ stripped z = false.
  Lemma last_app a b : solid_last b -> solid_last (a ++ b).
  Proof. intros (m & z & -> & Z). exists (a ++ m), z. split; [rewrite app_assoc; reflexivity | exact Z]. Qed.
  Lemma digits_last s : Forall (fun x => digit x = true) s -> s <> [] -> solid_last s.
  Proof.
    intros F N. destruct (exists_last N) as (m & z & ->). exists m, z. split; [reflexivity|].
    apply Forall_app in F. destruct F as [_ F]. apply Forall_inv in F. apply digit_range in F.
    unfold stripped. destruct (N.eqb_spec (code z) 0); [lia|]. destruct (N.eqb_spec (code z) 32); [lia|].
    destruct (N.leb_spec (code z) 13); [lia|]. rewrite andb_false_r. reflexivity.
  Qed.
  Lemma inspect_last v : solid_last (inspect v).
  Proof.
    destruct v as [|[]|n|n|s|l]; cbn [inspect].
    - exists (lit "ni"), "l"%char. split; reflexivity.
    - exists (lit "tru"), "e"%char. split; reflexivity.
    - exists (lit "fals"), "e"%char. split; reflexivity.
    - destruct (decimal_read n) as (_ & F & L & _). apply digits_last; [exact F|]. intros E. rewrite E in L. destruct L.
    - apply last_app. exists (lit "."), "0"%char. split; reflexivity.
    - apply last_app. apply last_app. exists [], (byte_of 34). split; reflexivity.
    - exists (lit "[..."), "]"%char. split; reflexivity.
  Qed.
  Lemma flat_map_snoc {A B} (f : A -> list B) l x : flat_map f (l ++ [x]) = flat_map f l ++ f x.
  Proof. rewrite flat_map_app. cbn [flat_map]. rewrite app_nil_r. reflexivity. Qed.
  Lemma dumped_solid : solid_end dumped.
  Proof.
    unfold dumped. destruct (s_eggs (cf c)) as [|e0 l0] eqn:E.
    - cbn [flat_map]. rewrite app_nil_r. destruct (s_conditions (cf c)) as [|k0 l0] eqn:K.
      + cbn [flat_map]. rewrite app_nil_r.
        change sections with ((firstn 5 sections) ++
          [[DatabaseType; DatabaseName; DatabaseHost; DatabasePort; DatabasePath; DatabaseUser] ++ [DatabasePassword]]).
        rewrite flat_map_snoc. apply solid_app. unfold dump_section. rewrite flat_map_snoc, <- app_assoc. apply solid_app.
        unfold dump_item. rewrite <- !app_assoc. do 4 apply solid_app. cbn [dump_value].
        destruct (inspect_last (get c DatabasePassword)) as (m & z & -> & Z). exists m, z.
        split; [rewrite <- app_assoc; reflexivity | exact Z].
      + apply solid_app. destruct (exists_last (l := k0 :: l0) ltac:(discriminate)) as (m & z & ->).
        rewrite flat_map_snoc. apply solid_app. unfold dump_condition. cbv zeta. rewrite <- !app_assoc.
        do 6 apply solid_app. exists (lit "en"), "d"%char. split; reflexivity.
    - apply solid_app. apply solid_app. destruct (exists_last (l := e0 :: l0) ltac:(discriminate)) as (m & z & ->).
      rewrite flat_map_snoc. apply solid_app. unfold dump_egg. cbv zeta. rewrite <- !app_assoc.
      do 8 apply solid_app. exists (lit "en"), "d"%char. split; reflexivity.
  Qed.
  Lemma dumped_start : exists t, dumped = "#"%char :: t.
  Proof.
    unfold dumped, sections. cbn [flat_map]. unfold dump_section at 1. cbn [flat_map]. unfold dump_item at 1, dump_location at 1.
    destruct (location c (dump_key PackagePlatform)) as [[f n]|]; eexists; reflexivity.
  Qed.
  Lemma dump_reads : ruby (dump c) = assemble Top dumped_lines.
  Proof.
    rewrite <- (ruby_says _ _ dumped_says). unfold dump. fold dumped.
    destruct dumped_solid as (m & z & E & Z). destruct dumped_start as (t & B).
    destruct m as [|x m].
    - rewrite E in B. cbn [app] in B. injection B as B _. subst z. rewrite E.
      change ([] ++ ["#"%char] ++ newline ++ newline) with ((lit "#" ++ newline) ++ newline) at 2. rewrite !ruby_end. reflexivity.
    - rewrite E in B. cbn [app] in B. injection B as B _. subst x. rewrite E.
      replace (("#"%char :: m) ++ [z] ++ newline ++ newline) with (("#"%char :: m ++ [z]) ++ newline ++ newline)
        by (cbn [app]; rewrite <- app_assoc; reflexivity).
      rewrite strip_ends by (reflexivity || exact Z). rewrite (app_assoc _ newline newline), !ruby_end. reflexivity.
  Qed.

  (** ** The statements *)

  Definition complete_lines (xs : list line) (p : list stmt) : Prop :=
    forall ys, assemble Top (xs ++ ys) = option_map (app p) (assemble Top ys).
  Lemma complete_nil : complete_lines [] [].
  Proof. intros ys. cbn [app]. destruct (assemble Top ys); reflexivity. Qed.
  Lemma complete_app a b p q : complete_lines a p -> complete_lines b q -> complete_lines (a ++ b) (p ++ q).
  Proof.
    intros A B ys. rewrite <- app_assoc, A, B. destruct (assemble Top ys); [|reflexivity]. cbn [option_map].
    rewrite app_assoc. reflexivity.
  Qed.
  Lemma complete_flat_map {A} (f : A -> list line) (g : A -> list stmt) l :
    (forall a, complete_lines (f a) (g a)) -> complete_lines (flat_map f l) (flat_map g l).
  Proof. intros H. induction l as [|a l IH]; [apply complete_nil|]. apply complete_app; [apply H | exact IH]. Qed.
  Lemma complete_blank : complete_lines [LBlank] [].
  Proof. intros ys. cbn [app assemble]. destruct (assemble Top ys); reflexivity. Qed.

  Definition item_stmt (i : item) : stmt := Assign (key_section i) (key_attribute i) (shown i).
  Definition condition_stmt (k : condition) : stmt :=
    DefineCondition (k_name k) [(lit "description", of_option (k_description k))].
  Definition egg_body (e : egg) : list (bytes * value) :=
    egg_values e ++ [(lit "applicable_conditions", VList (map (fun k => VStr (k_name k)) (e_conditions e)))] ++
    egg_values_after e.
  Definition egg_stmt (e : egg) : stmt := DefineMilter (e_name e) (egg_body e).
  Definition program : list stmt :=
    map item_stmt (concat sections) ++ map condition_stmt (s_conditions (cf c)) ++ map egg_stmt (s_eggs (cf c)).

  Lemma assemble_values m n body l ys :
    assemble (Block m n milter body) (flat_map value_lines l ++ ys) = assemble (Block m n milter (body ++ l)) ys.
  Proof.
    revert body. induction l as [|[a v] l IH]; intros body; [rewrite app_nil_r; reflexivity|].
    cbn [flat_map value_lines app assemble fst snd]. rewrite bytes_eqb_refl, IH, <- app_assoc. reflexivity.
  Qed.
  Lemma assemble_elements m n body a l ys : forall es,
    assemble (InList m n milter body a es) (flat_map (fun k => [LBlank; LElement (k_name k)]) l ++ ys) =
    assemble (InList m n milter body a (es ++ map (fun k => VStr (k_name k)) l)) ys.
  Proof.
    induction l as [|k l IH]; intros es; [rewrite app_nil_r; reflexivity|].
    cbn [flat_map app assemble map]. rewrite IH, <- app_assoc. reflexivity.
  Qed.
  Lemma assemble_list m n body l ys :
    assemble (Block m n milter body) (list_lines l ++ ys) =
    assemble (Block m n milter (body ++ [(lit "applicable_conditions", VList (map (fun k => VStr (k_name k)) l))])) ys.
  Proof.
    destruct l as [|k0 l0]; cbn [list_lines].
    - cbn [app assemble]. rewrite bytes_eqb_refl. reflexivity.
    - generalize (k0 :: l0). clear k0 l0. intros l. cbn [app assemble]. rewrite bytes_eqb_refl, <- app_assoc.
      rewrite assemble_elements. reflexivity.
  Qed.
  Lemma egg_complete e : complete_lines (egg_lines e ++ [LBlank]) [egg_stmt e].
  Proof.
    intros ys. unfold egg_lines. rewrite <- !app_assoc. cbn [app assemble].
    rewrite assemble_values. rewrite assemble_list. rewrite assemble_values. cbn [app assemble].
    change (definition (lit "define_milter") (e_name e) ?b) with (Some (DefineMilter (e_name e) b)). cbv iota.
    rewrite <- !app_assoc. cbn [assemble]. reflexivity.
  Qed.
  Lemma condition_complete k : complete_lines (condition_lines k ++ [LBlank]) [condition_stmt k].
  Proof. intros ys. reflexivity. Qed.
  Lemma items_complete l : complete_lines (flat_map item_lines l ++ [LBlank]) (map item_stmt l).
  Proof.
    rewrite <- (app_nil_r (map item_stmt l)). apply complete_app; [|apply complete_blank].
    induction l as [|i l IH]; [apply complete_nil|]. intros ys. cbn [flat_map item_lines app assemble map].
    rewrite IH. destruct (assemble Top ys); reflexivity.
  Qed.
  Lemma flat_single {A B} (f : A -> B) l : flat_map (fun a => [f a]) l = map f l.
  Proof. induction l as [|a l IH]; [reflexivity|]. cbn [flat_map map app]. rewrite IH. reflexivity. Qed.
  Lemma dump_program : ruby (dump c) = Some program.
  Proof.
    rewrite dump_reads. assert (complete_lines dumped_lines program) as H.
    { unfold dumped_lines, program. apply complete_app; [|apply complete_app].
      - rewrite <- (flat_map_concat_map (map item_stmt) sections) || rewrite concat_map.
        rewrite <- flat_map_concat_map. apply complete_flat_map. apply items_complete.
      - rewrite <- flat_single. apply complete_flat_map. apply condition_complete.
      - rewrite <- flat_single. apply complete_flat_map. apply egg_complete. }
    specialize (H []). rewrite app_nil_r in H. rewrite H. cbn [assemble option_map]. rewrite app_nil_r. reflexivity.
  Qed.
End Writing.
