(** C101: the address in an argument of MAIL FROM or RCPT TO, for filters written in Ruby. *)
From Verif.Base Require Import Bytes BytesFacts.
From Verif.Model Require Import EnvelopeAddress.
From Verif.Spec Require Import EnvelopeAddressSpec.
From Verif.Proofs Require Import EnvelopeAddressProofs.
Import List.
Local Open Scope N_scope.

(** The address is what stands in the first angle brackets, else the first word with an "@"
    inside, else the first word, in lower case. *)
Theorem C101_address : forall s a, contains_address s a <-> extract_address s = a.
Proof.
  intros s a. split.
  - intros H. exact (contains_unique s _ _ (extract_address_spec s) H).
  - intros <-. apply extract_address_spec.
Qed.
Print Assumptions C101_address.
Theorem C101_spec : forall s a, contains_address s a -> address_spec s = map lower a.
Proof. intros s a H. apply C101_address in H. unfold address_spec. congruence. Qed.
Print Assumptions C101_spec.
Theorem C101_path_partial : forall pre a post, no_brackets pre -> no_brackets a ->
  address_spec (pre ++ "<"%char :: a ++ ">"%char :: post) = map lower a.
Proof. intros pre a post H1 H2. unfold address_spec. rewrite path_address by assumption. reflexivity. Qed.
Print Assumptions C101_path_partial.
(** Capital letters make no difference. *)
Theorem C101_case : forall s s', map lower s = map lower s' -> address_spec s = address_spec s' /\ domain s = domain s'.
Proof. intros s s' H. apply address_case in H. unfold domain. rewrite H. auto. Qed.
Print Assumptions C101_case.
(** The domain is what stands behind the last "@". *)
Theorem C101_domain : forall s,
  match domain s with
  | Some d => has_domain (address_spec s) d
  | None => forall d, ~ has_domain (address_spec s) d
  end.
Proof. intros s. apply domain_of_spec. Qed.
Print Assumptions C101_domain.
Theorem C101_domain_partial : forall pre l d post,
  no_brackets pre -> no_brackets l -> no_brackets d -> l <> [] -> d <> [] ->
  ~ In "@"%char d -> ~ In (byte_of 10) (l ++ d) ->
  domain (pre ++ "<"%char :: (l ++ "@"%char :: d) ++ ">"%char :: post) = Some (map lower d).
Proof.
  intros pre l d post Hp Hl Hd Nl Nd Hat Hn. unfold domain. rewrite C101_path_partial.
  - rewrite map_app. cbn [map]. change (lower "@"%char) with "@"%char. unfold domain_of.
    assert (L10 : forall b, lower b = byte_of 10 -> b = byte_of 10).
    { intros b E. assert (X : (negb (beqb (lower b) (byte_of 10)) || beqb b (byte_of 10)) = true).
      { apply (every_byte_all (fun b => negb (beqb (lower b) (byte_of 10)) || beqb b (byte_of 10))). vm_compute. reflexivity. }
      rewrite E, beqb_refl in X. apply beqb_eq. exact X. }
    assert (Hex : existsb (fun c => beqb c "010"%char) (map lower l ++ "@"%char :: map lower d) = false).
    { apply Bool.not_true_iff_false. intros X. apply existsb_exists in X. destruct X as (c & Hc & E). apply beqb_eq in E. subst c.
      apply in_app_or in Hc. destruct Hc as [Hc|[Hc|Hc]]; [|discriminate|]; apply in_map_iff in Hc; destruct Hc as (b & Eb & Hb);
        apply L10 in Eb; subst b; apply Hn; apply in_or_app; auto. }
    rewrite Hex. destruct l as [|x l]; [congruence|]. cbn [map app]. apply after_last_at_app.
    + destruct d; [congruence|discriminate].
    + intros X. apply in_map_iff in X. destruct X as (b & Eb & Hb).
      assert (Y : beqb b "@"%char = true) by (rewrite <- lower_at, Eb; reflexivity). apply beqb_eq in Y. subst b. exact (Hat Hb).
  - exact Hp.
  - split; intros X; apply in_app_or in X; destruct X as [X|[X|X]]; try discriminate;
      [exact (proj1 Hl X)|exact (proj1 Hd X)|exact (proj2 Hl X)|exact (proj2 Hd X)].
Qed.
Print Assumptions C101_domain_partial.

Example C101_example :
  map (fun s => (address_spec s, domain s))
    [lit "<User@Example.COM> SIZE=10"; lit "FROM:<>"; lit "user@example.com"; lit " postmaster "; lit "a@b c@d"; lit "<a@b>, <c@d>";
     lit """x y""@z <p@q@r>"] =
  [(lit "user@example.com", Some (lit "example.com")); ([], None); (lit "user@example.com", Some (lit "example.com"));
   (lit "postmaster", None); (lit "a@b", Some (lit "b")); (lit "a@b", Some (lit "b")); (lit "p@q@r", Some (lit "r"))].
Proof. vm_compute. reflexivity. Qed.
Example C101_domain_example :
  no_brackets (lit "FROM:") /\ ~ In "@"%char (lit "Example.COM") /\
  domain (lit "FROM:" ++ "<"%char :: (lit "User" ++ "@"%char :: lit "Example.COM") ++ ">"%char :: lit " SIZE=10") =
  Some (map lower (lit "Example.COM")).
Proof. repeat split; vm_compute; intuition discriminate. Qed.

(** A quoted local part may contain angle brackets (RFC 5321, 4.1.2): then it is not the address
    in the path that is found. *)
Theorem C101_quoted_refuted :
  address_spec (lit "<""a>b""@example.com>") = lit """a" /\ domain (lit "<""a>b""@example.com>") = None /\
  address_spec (lit "<""a<b""@example.com>") = lit "b""@example.com" /\
  address_spec (lit "<""<x@y>""@example.com>") = lit "x@y".
Proof. vm_compute. repeat split. Qed.
Print Assumptions C101_quoted_refuted.
