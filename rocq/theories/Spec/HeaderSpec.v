(** What header edits mean, stated by how lists split, and what an MTA does with the header
    requests of a filter. *)
From Verif.Base Require Import Bytes BytesFacts.
From Verif.Model Require Import Headers.

Definition names (hs : list header) : list bytes := map h_name hs.

(** How many headers of [hs] have this very name. *)
Definition occurrences (name : bytes) (hs : list header) : N :=
  N.of_nat (count_occ bytes_eq_dec (names hs) name).

(** [h] is the [index]-th header called [name] (counted from 1): [hs] is [a], [h], [b]. *)
Definition nth_named (name : bytes) (index : N) (hs a : list header) (h : header)
  (b : list header) : Prop :=
  hs = a ++ h :: b /\ h_name h = name /\ index = (occurrences name a + 1)%N.

(** Names that differ at most in the case of ASCII letters. *)
Definition caseless (a b : bytes) : Prop := map lower a = map lower b.

(** A new header goes in front of the first one of its name, or to the end. *)
Inductive added (name : bytes) (value : option bytes) : list header -> list header -> Prop :=
| added_before a h b :
    (forall x, In x a -> ~ caseless (h_name x) name) -> caseless (h_name h) name ->
    added name value (a ++ h :: b) (a ++ mk_header name value :: h :: b)
| added_end a :
    (forall x, In x a -> ~ caseless (h_name x) name) ->
    added name value a (a ++ [mk_header name value]).

(** A new header goes to a position, or to the end when there is no such position. *)
Inductive inserted (position : N) (h : header) : list header -> list header -> Prop :=
| inserted_at a b : N.of_nat (length a) = position -> inserted position h (a ++ b) (a ++ h :: b)
| inserted_end a : (N.of_nat (length a) <= position)%N -> inserted position h a (a ++ [h]).

Inductive changed (name : bytes) (index : N) (value : bytes)
  : list header -> list header -> Prop :=
| changed_found hs a h b : nth_named name index hs a h b ->
    changed name index value hs (a ++ mk_header name (Some value) :: b)
| changed_new hs hs' : (forall a h b, ~ nth_named name index hs a h b) ->
    added name (Some value) hs hs' -> changed name index value hs hs'.

Inductive deleted (name : bytes) (index : N) : list header -> bool -> list header -> Prop :=
| deleted_found hs a h b : nth_named name index hs a h b -> deleted name index hs true (a ++ b)
| deleted_none hs : (forall a h b, ~ nth_named name index hs a h b) ->
    deleted name index hs false hs.

(** *** The MTA *)

(** The [n]-th header (from 0) with this name in any case. *)
Fixpoint mta_edit (edit : header -> list header) (hs : list header) (name : bytes) (n : nat)
  : option (list header) :=
  match hs with
  | [] => None
  | h :: hs' =>
      if caseless_eqb (h_name h) name then
        match n with
        | O => Some (edit h ++ hs')
        | S n' => option_map (cons h) (mta_edit edit hs' name n')
        end
      else option_map (cons h) (mta_edit edit hs' name n)
  end.

Definition mta_delete (hs : list header) (name : bytes) (index : N) : list header :=
  match mta_edit (fun _ => []) hs name (N.to_nat index - 1) with Some hs' => hs' | None => hs end.

(** Header requests as the milter protocol defines them: add appends; insert puts the header
    at a position of the whole list; change replaces the value of the index-th header of that
    name, deletes it when the value is empty, and appends when there is none; delete removes
    it. *)
Definition mta_apply (hs : list header) (r : header_request) : list header :=
  match r with
  | HAdd n v => hs ++ [mk_header n v]
  | HInsert i n v => firstn (N.to_nat i) hs ++ mk_header n v :: skipn (N.to_nat i) hs
  | HChange n i v =>
      match v with
      | None | Some [] => mta_delete hs n i
      | Some (c :: v') =>
          match mta_edit (fun h => [mk_header (h_name h) (Some (c :: v'))]) hs n (N.to_nat i - 1) with
          | Some hs' => hs'
          | None => hs ++ [mk_header n v]
          end
      end
  | HDelete n i => mta_delete hs n i
  end.

Definition mta_run (hs : list header) (rs : list header_request) : list header :=
  fold_left mta_apply rs hs.

(** *** Header lists for which reporting works *)

(** Among the given headers names that differ do so not only in case. *)
Definition case_consistent (hs : list header) : Prop :=
  forall x y, In x hs -> In y hs -> caseless (h_name x) (h_name y) -> h_name x = h_name y.

Definition has_text (h : header) : Prop := exists c v, h_value h = Some (c :: v).

(** The final headers keep the order of the original ones.  [kept all rest final]: what of the
    original headers [all] is still to come is [rest], what of the final headers is still to
    come is [final].  First only values are changed, to new ones, and headers are inserted of
    whose name no original header is still to come; [shrunk dropped all rest final]: from some point on nothing is inserted and headers may be
    dropped, and values of names of which a header was [dropped] do not change any more. *)
Inductive shrunk (all : list header) : list bytes -> list header -> list header -> Prop :=
| shrunk_end dropped : shrunk all dropped [] []
| shrunk_keep dropped h rest final :
    shrunk all dropped rest final -> shrunk all dropped (h :: rest) (h :: final)
| shrunk_change dropped n v v' rest final :
    ~ In (mk_header n v') all -> ~ In n dropped ->
    shrunk all dropped rest final ->
    shrunk all dropped (mk_header n v :: rest) (mk_header n v' :: final)
| shrunk_drop dropped h rest final :
    shrunk all (h_name h :: dropped) rest final -> shrunk all dropped (h :: rest) final.

Inductive kept (all : list header) : list header -> list header -> Prop :=
| kept_keep h rest final : kept all rest final -> kept all (h :: rest) (h :: final)
| kept_change n v v' rest final :
    ~ In (mk_header n v') all -> kept all rest final ->
    kept all (mk_header n v :: rest) (mk_header n v' :: final)
| kept_insert n v rest final :
    ~ In n (names rest) -> kept all rest final -> kept all rest (mk_header n v :: final)
| kept_shrunk rest final : shrunk all [] rest final -> kept all rest final.
