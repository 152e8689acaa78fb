(** C16, C17: header list edits and header changes reported to the MTA. *)
From Coq Require Import Permutation.
From Verif.Base Require Import Bytes BytesFacts.
From Verif.Model Require Import Headers.
From Verif.Spec Require Import HeaderSpec.
From Verif.Proofs Require Import HeaderProofs HeaderReport.
Local Open Scope N_scope.

(** *** C16 *)

Theorem C16_add hs name value r :
  headers_add hs name value = r <-> added name value hs r.
Proof.
  split; [intros <-; apply headers_add_spec|].
  intros H. exact (added_fun _ _ _ _ _ (headers_add_spec hs name value) H).
Qed.
Print Assumptions C16_add.

Theorem C16_append hs name value : headers_append hs name value = hs ++ [mk_header name value].
Proof. reflexivity. Qed.
Print Assumptions C16_append.

Theorem C16_insert hs position name value r :
  position < 4294967296 -> (Z.of_nat (length hs) < 2147483648)%Z ->
  headers_insert hs position name value = r <->
  inserted position (mk_header name value) hs r.
Proof.
  intros Hp Hl. split; [intros <-; apply headers_insert_spec; auto|].
  intros H. exact (inserted_fun _ _ _ _ _ (headers_insert_spec hs position name value Hp Hl) H).
Qed.
Print Assumptions C16_insert.

Theorem C16_change hs name index value r :
  headers_change hs name index (Some value) = (true, r) <-> changed name index value hs r.
Proof. exact (headers_change_spec hs name index value r). Qed.
Print Assumptions C16_change.

Theorem C16_change_to_null_deletes hs name index ok r :
  headers_change hs name index None = (ok, r) <-> deleted name index hs ok r.
Proof. exact (headers_delete_spec hs name index ok r). Qed.
Print Assumptions C16_change_to_null_deletes.

Theorem C16_delete hs name index ok r :
  headers_delete hs name index = (ok, r) <-> deleted name index hs ok r.
Proof. exact (headers_delete_spec hs name index ok r). Qed.
Print Assumptions C16_delete.

Theorem C16_remove hs h ok r :
  headers_remove hs h = (ok, r) <->
  (ok = true /\ exists a b, hs = a ++ h :: b /\ ~ In h a /\ r = a ++ b) \/
  (ok = false /\ ~ In h hs /\ r = hs).
Proof. exact (headers_remove_spec hs h ok r). Qed.
Print Assumptions C16_remove.

Theorem C16_lookup hs name h :
  headers_lookup hs name = Some h <->
  exists a b, hs = a ++ h :: b /\ h_name h = name /\ ~ In name (names a).
Proof. exact (headers_lookup_spec hs name h). Qed.
Print Assumptions C16_lookup.

(** The milter protocol addresses the n-th header of a name whatever its case; the list
    compares exactly, so a header written in another case is not found and one is added. *)
Theorem C16_case_insensitive_refuted :
  exists hs name index value, changed name index value hs [mk_header name (Some value); mk_header (lit "SUBJECT") (Some (lit "old"))]
    /\ hs = [mk_header (lit "SUBJECT") (Some (lit "old"))] /\ index = 1 /\ caseless name (lit "SUBJECT").
Proof.
  exists [mk_header (lit "SUBJECT") (Some (lit "old"))], (lit "Subject"), 1, (lit "new").
  split; [|repeat split]. apply headers_change_spec. reflexivity.
Qed.
Print Assumptions C16_case_insensitive_refuted.

Example C16_example :
  let hs := [mk_header (lit "To") (Some (lit "a")); mk_header (lit "X") (Some (lit "1"));
             mk_header (lit "X") (Some (lit "2"))] in
  headers_change hs (lit "X") 2 (Some (lit "3")) =
    (true, [mk_header (lit "To") (Some (lit "a")); mk_header (lit "X") (Some (lit "1"));
            mk_header (lit "X") (Some (lit "3"))]) /\
  headers_delete hs (lit "X") 1 =
    (true, [mk_header (lit "To") (Some (lit "a")); mk_header (lit "X") (Some (lit "2"))]) /\
  headers_delete hs (lit "X") 0 = (false, hs) /\
  headers_add hs (lit "x") None =
    [mk_header (lit "To") (Some (lit "a")); mk_header (lit "x") None;
     mk_header (lit "X") (Some (lit "1")); mk_header (lit "X") (Some (lit "2"))].
Proof. repeat split; reflexivity. Qed.

(** *** C17 *)

(** When no original header occurs twice and all texts are non-empty the MTA ends up with the
    right headers, in whatever order. *)
Theorem C17_same_headers_partial original final :
  NoDup original -> case_consistent (original ++ final) -> Forall has_text final ->
  Permutation (mta_run original (header_changes original final)) final.
Proof. exact (reported_permutation original final). Qed.
Print Assumptions C17_same_headers_partial.

(** When moreover the filters kept the order of the original headers (see [kept]) the MTA ends
    up with exactly the final list. *)
Theorem C17_exact_partial original final :
  NoDup original -> case_consistent (original ++ final) -> Forall has_text final ->
  kept original original final ->
  mta_run original (header_changes original final) = final.
Proof. exact (reported_exact original final). Qed.
Print Assumptions C17_exact_partial.

(** Deleting two equal headers deletes another header instead. *)
Theorem C17_duplicates_refuted :
  exists original final,
    (exists h1 h2, headers_delete original (h_name h1) 3 = (true, h2) /\
                   headers_delete h2 (h_name h1) 1 = (true, final)) /\
    ~ Permutation (mta_run original (header_changes original final)) final.
Proof.
  exists [mk_header (lit "A") (Some (lit "x")); mk_header (lit "A") (Some (lit "y")); mk_header (lit "A") (Some (lit "x"))],
         [mk_header (lit "A") (Some (lit "y"))].
  split.
  - exists (mk_header (lit "A") None). eexists. split; reflexivity.
  - vm_compute. intros H. apply Permutation_length_1 in H. discriminate.
Qed.
Print Assumptions C17_duplicates_refuted.

(** A header deleted and added again at another place stays where it was. *)
Theorem C17_order_refuted :
  exists original final name value,
    headers_add (snd (headers_delete original name 1)) name value = final /\
    mta_run original (header_changes original final) <> final.
Proof.
  exists [mk_header (lit "A") (Some (lit "1")); mk_header (lit "B") (Some (lit "2"))],
         [mk_header (lit "B") (Some (lit "2")); mk_header (lit "A") (Some (lit "1"))],
         (lit "A"), (Some (lit "1")).
  split; [reflexivity|]. vm_compute. discriminate.
Qed.
Print Assumptions C17_order_refuted.

(** A header whose text a filter empties is deleted at the MTA. *)
Theorem C17_empty_value_refuted :
  exists original final, headers_change original (lit "A") 1 (Some []) = (true, final) /\
    mta_run original (header_changes original final) = [].
Proof.
  exists [mk_header (lit "A") (Some (lit "1"))], [mk_header (lit "A") (Some [])].
  split; reflexivity.
Qed.
Print Assumptions C17_empty_value_refuted.

(** Names differing in case: the MTA changes the wrong header. *)
Theorem C17_case_refuted :
  exists original final, headers_change original (lit "SUBJECT") 1 (Some (lit "3")) = (true, final) /\
    ~ Permutation (mta_run original (header_changes original final)) final.
Proof.
  exists [mk_header (lit "Subject") (Some (lit "1")); mk_header (lit "SUBJECT") (Some (lit "2"))],
         [mk_header (lit "Subject") (Some (lit "1")); mk_header (lit "SUBJECT") (Some (lit "3"))].
  split; [reflexivity|]. vm_compute. intros H.
  apply Permutation_sym in H. apply (Permutation_in (mk_header (lit "Subject") (Some (lit "1")))) in H; [|left; reflexivity].
  cbn in H. repeat (destruct H as [H|H]; [discriminate|]). destruct H.
Qed.
Print Assumptions C17_case_refuted.

Example C17_example :
  let h n v := mk_header (lit n) (Some (lit v)) in
  let original := [h "Received" "1"; h "Received" "2"; h "Subject" "hi"; h "X-Spam" "no"; h "To" "a"]%string in
  let final := [h "X-New" "v"; h "Received" "1"; h "Received" "2"; h "Subject" "[spam] hi"; h "Received" "3"; h "To" "a"]%string in
  NoDup original /\ Forall has_text final /\ kept original original final /\
  header_changes original final =
    [HInsert 0 (lit "X-New") (Some (lit "v")); HChange (lit "Subject") 1 (Some (lit "[spam] hi"));
     HInsert 4 (lit "Received") (Some (lit "3")); HDelete (lit "X-Spam") 1].
Proof.
  cbv zeta. split; [|split; [|split]].
  - repeat constructor; cbn; intuition discriminate.
  - repeat constructor; eexists; eexists; reflexivity.
  - apply kept_insert; [cbn; intuition discriminate|].
    apply kept_keep, kept_keep, kept_change; [cbn; intuition discriminate|].
    apply kept_insert; [cbn; intuition discriminate|].
    apply kept_shrunk, shrunk_drop, shrunk_keep, shrunk_end.
  - vm_compute. reflexivity.
Qed.
