(** What an XML text without attributes, comments and declarations says (XML 1.0, sections 2.2, 2.4, 2.11,
    3.1, 4.1 and 4.6), byte by byte for texts in UTF-8, and what the XML of a configuration has to say. *)
From Verif.Base Require Import Bytes.
From Verif.Model Require Import Status Egg.
From Verif.Model Require Import ConfigXml.
From Verif.Model Require ConnectionSpec.
Import List.
Local Open Scope N_scope.

(** *** Reading XML *)

(** 2.2: the characters of a document.  Bytes from 128 on belong to characters of more bytes. *)
Definition allowed (n : N) : bool := (n =? 9) || (n =? 10) || (n =? 13) || (32 <=? n).

(** UTF-8 of a character below 2^16. *)
Definition utf8 (n : N) : option bytes :=
  if n <? 128 then Some [byte_of n]
  else if n <? 2048 then Some [byte_of (192 + n / 64); byte_of (128 + n mod 64)]
  else if n <? 65536 then Some [byte_of (224 + n / 4096); byte_of (128 + n / 64 mod 64); byte_of (128 + n mod 64)]
  else None.

Definition hex_value (c : byte) : option N :=
  let n := code c in
  if (48 <=? n) && (n <=? 57) then Some (n - 48)
  else if (97 <=? n) && (n <=? 102) then Some (n - 87)
  else if (65 <=? n) && (n <=? 70) then Some (n - 55)
  else None.
Fixpoint hex_number (acc : N) (s : bytes) : option N :=
  match s with
  | [] => Some acc
  | c :: s => match hex_value c with Some d => hex_number (16 * acc + d) s | None => None end
  end.
(** 4.1 and 4.6: what the reference &name; stands for. *)
Definition referred (name : bytes) : option bytes :=
  if bytes_eqb name (lit "amp") then Some (lit "&")
  else if bytes_eqb name (lit "lt") then Some (lit "<")
  else if bytes_eqb name (lit "gt") then Some (lit ">")
  else if bytes_eqb name (lit "apos") then Some (lit "'")
  else if bytes_eqb name (lit "quot") then Some [byte_of 34]
  else match name with
       | c1 :: c2 :: d :: s =>
           if beqb c1 "#" && beqb c2 "x" then
             match hex_number 0 (d :: s) with
             | Some n => if allowed n then utf8 n else None
             | None => None
             end
           else None
       | _ => None
       end.

Definition name_char (c : byte) : bool :=
  let n := code c in
  ((97 <=? n) && (n <=? 122)) || ((65 <=? n) && (n <=? 90)) || ((48 <=? n) && (n <=? 57)) || beqb c "-" || beqb c "_".
Definition is_name (s : bytes) : bool := match s with [] => false | _ => forallb name_char s end.

(** One byte after the other: in the text, after a carriage return in it (2.11), in a tag, in a
    reference. *)
Inductive place := InText | AfterReturn | InTag (read : bytes) | InReference (read : bytes).
Definition letters (s : bytes) : list event := map (fun c => Text [c]) s.
Definition in_text (c : byte) : option (place * list event) :=
  if beqb c "<" then Some (InTag [], [])
  else if beqb c "&" then Some (InReference [], [])
  else if code c =? 13 then Some (AfterReturn, letters newline)
  else if allowed (code c) then Some (InText, letters [c])
  else None.
Definition scan1 (p : place) (c : byte) : option (place * list event) :=
  match p with
  | InText => in_text c
  | AfterReturn => if code c =? 10 then Some (InText, []) else in_text c
  | InTag read =>
      if beqb c ">" then
        match read with
        | d :: name =>
            if beqb d "/" then (if is_name name then Some (InText, [Close name]) else None)
            else if is_name read then Some (InText, [Open read]) else None
        | [] => None
        end
      else Some (InTag (read ++ [c]), [])
  | InReference read =>
      if beqb c ";" then
        match referred read with Some s => Some (InText, letters s) | None => None end
      else Some (InReference (read ++ [c]), [])
  end.
Fixpoint scan (p : place) (s : bytes) : option (list event) :=
  match s with
  | [] => match p with InText | AfterReturn => Some [] | _ => None end
  | c :: s =>
      match scan1 p c with
      | Some (p', l) => match scan p' s with Some l' => Some (l ++ l') | None => None end
      | None => None
      end
  end.

(** An element: its name, its text if it has no elements in it, the elements in it. *)
Inductive xml := Elem (name text : bytes) (kids : list xml).
Definition blank (s : bytes) : bool := forallb (fun c => (code c =? 32) || (code c =? 9) || (code c =? 10) || (code c =? 13)) s.
(** An element being read: its name, its text so far, its elements so far with the latest first. *)
Record frame := mk_frame { fr_name : bytes; fr_text : bytes; fr_kids : list xml }.
Definition build1 (stack : list frame) (v : event) : option (list frame) :=
  match v, stack with
  | Open n, _ => Some (mk_frame n [] [] :: stack)
  | Text d, f :: stack => Some (mk_frame (fr_name f) (fr_text f ++ d) (fr_kids f) :: stack)
  | Close n, f :: g :: stack =>
      if bytes_eqb n (fr_name f) then
        match fr_kids f with
        | [] => Some (mk_frame (fr_name g) (fr_text g) (Elem n (fr_text f) [] :: fr_kids g) :: stack)
        | kids => if blank (fr_text f)
                  then Some (mk_frame (fr_name g) (fr_text g) (Elem n [] (rev kids) :: fr_kids g) :: stack)
                  else None
        end
      else None
  | _, _ => None
  end.
Fixpoint build (stack : list frame) (vs : list event) : option (list frame) :=
  match vs with
  | [] => Some stack
  | v :: vs => match build1 stack v with Some stack => build stack vs | None => None end
  end.
(** The document a text is, if it is one. *)
Definition read (s : bytes) : option xml :=
  match scan InText s with
  | None => None
  | Some vs =>
      match build [mk_frame [] [] []] vs with
      | Some [f] => match fr_kids f with
                    | [x] => if blank (fr_text f) then Some x else None
                    | _ => None
                    end
      | _ => None
      end
  end.

(** *** What the XML of a configuration says *)

Definition said (name text : bytes) : list xml := [Elem name text []].
Definition maybe (name : bytes) (text : option bytes) : list xml :=
  match text with Some t => said name t | None => [] end.
Definition yes_no (b : bool) : bytes := if b then lit "true" else lit "false".
Definition group (name : bytes) (kids : list xml) : list xml :=
  match kids with [] => [] | _ => [Elem name [] kids] end.

Definition milter_of (e : egg) : xml :=
  Elem (lit "milter") []
    (said (lit "name") (e_name e) ++
     maybe (lit "description") (e_description e) ++
     said (lit "enabled") (yes_no (e_enabled e)) ++
     said (lit "fallback-status") (status_nick (e_fallback_status e)) ++
     said (lit "evaluation-mode") (yes_no (e_evaluation_mode e)) ++
     maybe (lit "connection-spec") (e_connection_spec e) ++
     maybe (lit "command") (e_command e) ++
     maybe (lit "command-options") (e_command_options e) ++
     group (lit "applicable-conditions")
           (flat_map (fun k => said (lit "applicable-condition") (k_name k)) (e_conditions e))).
Definition condition_of (k : condition) : xml :=
  Elem (lit "applicable-condition") []
    (said (lit "name") (k_name k) ++ maybe (lit "description") (k_description k)).
(** A configuration without anything to say has the line break between its tags as text. *)
Definition document (modified : option N) (conditions : list condition) (eggs : list egg) : xml :=
  let kids := maybe (lit "last-modified") (option_map ConnectionSpec.decimal modified) ++
              group (lit "applicable-conditions") (map condition_of conditions) ++
              group (lit "milters") (map milter_of eggs) in
  Elem (lit "configuration") (match kids with [] => newline | _ => [] end) kids.

(** Texts that XML can carry as they are: no control characters but tab and line feed. *)
Definition plain (s : bytes) : Prop := forall c, In c s -> code c = 9 \/ code c = 10 \/ 32 <= code c.
Definition plain_option (s : option bytes) : Prop := match s with Some s => plain s | None => True end.
Definition plain_egg (e : egg) : Prop :=
  plain (e_name e) /\ plain_option (e_description e) /\ plain_option (e_connection_spec e) /\
  plain_option (e_command e) /\ plain_option (e_command_options e) /\
  Forall (fun k => plain (k_name k)) (e_conditions e).
Definition plain_condition (k : condition) : Prop := plain (k_name k) /\ plain_option (k_description k).

(** *** What comes back *)

(** A definition that a custom configuration file can carry. *)
Definition carried (valid_spec : bytes -> bool) (conditions : list condition) (e : egg) : Prop :=
  plain_egg e /\
  match e_connection_spec e with Some s => s <> [] /\ valid_spec s = true | None => True end /\
  match e_command e, e_command_options e with Some _, Some _ | None, None => True | _, _ => False end /\
  List.In (e_fallback_status e) [S_ACCEPT; S_REJECT; S_TEMPORARY_FAILURE; S_DISCARD] /\
  Forall (fun k => find (fun k' => bytes_eqb (k_name k) (k_name k')) conditions = Some k) (e_conditions e).
(** What of a definition comes back: all but the user and the timeouts. *)
Definition brought_back (e : egg) : egg :=
  mk_egg (e_name e) (e_description e) (e_enabled e) (e_connection_spec e) 297 7 7 297 None
         (e_command e) (e_command_options e) (e_conditions e) (e_fallback_status e) (e_evaluation_mode e).

(** A piece of text may come in any number of parts. *)
Definition spelled (vs : list event) : list event :=
  flat_map (fun v => match v with Text d => letters d | _ => [v] end) vs.

(** A definition read over an older one of the same name: the file says what it says, and of the rest the
    older one is kept. *)
Definition or_else {A} (a b : option A) : option A := match a with Some x => Some x | None => b end.
Definition overlaid (old : option egg) (e : egg) : egg :=
  match old with
  | None => brought_back e
  | Some o =>
      mk_egg (e_name e) (or_else (e_description e) (e_description o)) (e_enabled e)
             (or_else (e_connection_spec e) (e_connection_spec o))
             (e_connection_timeout o) (e_writing_timeout o) (e_reading_timeout o) (e_end_of_message_timeout o)
             (e_user_name o)
             (or_else (e_command e) (e_command o))
             (match e_command e, e_command o with
              | Some _, _ => e_command_options e
              | None, Some _ => e_command_options o
              | None, None => None
              end)
             (e_conditions e) (e_fallback_status e) (e_evaluation_mode e)
  end.
Definition usable (valid_spec : bytes -> bool) (e : egg) : Prop :=
  match e_connection_spec e with Some s => valid_spec s = true | None => True end.
