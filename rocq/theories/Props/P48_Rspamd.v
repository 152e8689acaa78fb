(** Where rspamd listens: C118. *)
From Verif.Base Require Import Bytes BytesFacts.
From Verif.Model Require Import ConnectionSpec RspamdProxy.
From Verif.Spec Require Import ConnectionSpecSpec RspamdSpec.
Import List.
Local Open Scope N_scope.

Lemma entry_has l k v : object l -> has l k v -> entry l k = Some v.
Proof.
  unfold object, has. induction l as [|[k' v'] l IH]; cbn [map fst entry In]; intros D H; [contradiction|].
  inversion D as [|x xs N D']; subst. destruct H as [E|H].
  - injection E as -> ->. now rewrite bytes_eqb_refl.
  - destruct (bytes_eqb k' k) eqn:E; [|now apply IH]. exfalso. apply bytes_eqb_eq in E. subst k'. apply N. apply in_map_iff. now exists (k, v).
Qed.
Lemma entry_lacks l k : lacks l k -> entry l k = None.
Proof.
  induction l as [|[k' v'] l IH]; intros H; [reflexivity|]. cbn [entry]. destruct (bytes_eqb k' k) eqn:E.
  - exfalso. apply bytes_eqb_eq in E. subst k'. apply (H v'). now left.
  - apply IH. intros v I. apply (H v). now right.
Qed.
Lemma filter_is w b : filter_at w b -> is_proxy w = Value true.
Proof. intros (l & p & -> & L & H & P & M & _). unfold is_proxy. rewrite (entry_has _ _ _ L H). cbn [index]. now rewrite (entry_has _ _ _ P M). Qed.
Lemma filter_not w : no_filter w -> is_proxy w = Value false.
Proof.
  intros [l N|l p L H P M]; unfold is_proxy; [now rewrite (entry_lacks _ _ N)|]. rewrite (entry_has _ _ _ L H). cbn [index].
  destruct M as [M|M]; [now rewrite (entry_has _ _ _ P M)|now rewrite (entry_lacks _ _ M)].
Qed.
Lemma first_filter ws w b rest : Forall no_filter ws -> filter_at w b -> detect_proxy (ws ++ w :: rest) = Value w.
Proof.
  intros F W. induction F as [|x ws X F IH]; cbn [app detect_proxy]; [now rewrite (filter_is _ _ W)|]. now rewrite (filter_not _ X).
Qed.
Lemma until_app stop a r : forallb (fun c => negb (stop c)) a = true -> (r = [] \/ exists c r', r = c :: r' /\ stop c = true) -> until stop (a ++ r) = a.
Proof.
  induction a as [|c a IH]; cbn [app until forallb]; intros A R.
  - destruct R as [->|(c & r' & -> & E)]; [reflexivity|]. cbn [until]. now rewrite E.
  - apply andb_true_iff in A as [A1 A2]. apply negb_true_iff in A1. rewrite A1, (IH A2 R). reflexivity.
Qed.
Lemma behind_app stop a c r : forallb (fun c => negb (stop c)) a = true -> stop c = true -> behind stop (a ++ c :: r) = r.
Proof.
  induction a as [|x a IH]; cbn [app behind forallb]; intros A C; [now rewrite C|].
  apply andb_true_iff in A as [A1 A2]. apply negb_true_iff in A1. rewrite A1. now apply IH.
Qed.
Lemma no_colon h : ~ In ":"%char h -> forallb (fun c => negb (colon c)) h = true.
Proof.
  intros N. apply forallb_forall. intros c I. apply negb_true_iff. unfold colon. destruct (Ascii.eqb_spec c ":"); [subst; now elim N|reflexivity].
Qed.
Lemma bound_spec b s : bound b s -> spec_of_bind b = s.
Proof.
  intros [p r S C E|port|h port N C A]; unfold spec_of_bind.
  - change (starts_with (lit "/") (lit "/" ++ p ++ r)) with true. cbv iota. replace (lit "/" ++ p ++ r) with ((lit "/" ++ p) ++ r) by now rewrite app_assoc.
    rewrite until_app; [reflexivity| |].
    + apply forallb_forall. intros c [<-|I]; [reflexivity|]. apply negb_true_iff. unfold ends_path.
      destruct (Ascii.eqb_spec c " "); [exfalso; apply S; rewrite <- e; exact I|]. destruct (Ascii.eqb_spec c ","); [exfalso; apply C; rewrite <- e; exact I|]. reflexivity.
    + destruct E as [->|(c & r' & -> & [->| ->])]; [now left|right; now exists " "%char, r'|right; now exists ","%char, r'].
  - reflexivity.
  - assert (Q : starts_with (lit "/") (h ++ lit ":" ++ port) = false).
    { destruct h as [|c h]; [reflexivity|]. cbn [app]. change (Ascii.eqb "/" c && true = false). destruct (Ascii.eqb_spec "/" c); [|reflexivity]. exfalso. subst c. now apply (N h). }
    rewrite Q. cbv zeta. change (lit ":" ++ port) with (":"%char :: port).
    rewrite (until_app _ _ _ (no_colon _ C)) by (right; now exists ":"%char, port). rewrite (behind_app _ _ _ _ (no_colon _ C)) by reflexivity.
    apply bytes_eqb_neq in A. now rewrite A.
Qed.

(** What rspamadm prints: an object whose workers are [ws]. *)
Definition prints (run : bytes -> N * option json) (path : bytes) (ws : list json) : Prop :=
  exists l, run path = (0, Some (JObject l)) /\ object l /\ has l (lit "worker") (JArray ws).

(** The filter is at the address of the first worker that is one. *)
Theorem C118_found : forall executable run path ws w rest b s,
  executable path = true -> prints run path (ws ++ w :: rest) -> Forall no_filter ws -> filter_at w b -> bound b s ->
  rspamd_detect (Some path) executable run = Value (Some s).
Proof.
  intros executable run path ws w rest b s X (l & R & L & H) F W B. unfold rspamd_detect. rewrite X, R. cbn [N.eqb]. unfold of_config.
  cbn [index]. rewrite (entry_has _ _ _ L H). cbn [nil_or truthy]. rewrite (first_filter _ _ b _ F W).
  destruct W as (wl & p & -> & WL & WH & P & _ & PB). cbn [index]. rewrite (entry_has _ _ _ WL WH). cbn [nil_or index].
  rewrite (entry_has _ _ _ P PB). cbn [nil_or]. now rewrite (bound_spec _ _ B).
Qed.
Print Assumptions C118_found.
(** Nothing is known if rspamadm is missing, fails, or prints no workers. *)
Theorem C118_unknown : forall executable run path,
  path = None \/ (exists p, path = Some p /\ (executable p = false \/ fst (run p) <> 0 \/
    exists l, run p = (0, Some (JObject l)) /\ lacks l (lit "worker"))) ->
  rspamd_detect path executable run = Value None.
Proof.
  intros executable run path [->|(p & -> & H)]; [reflexivity|]. unfold rspamd_detect. destruct H as [->|[H|(l & R & N)]]; [reflexivity| |].
  - destruct (executable p); [|reflexivity]. destruct (run p) as [st out]. cbn [fst] in H. apply N.eqb_neq in H. rewrite H. reflexivity.
  - destruct (executable p); [|reflexivity]. rewrite R. cbn [N.eqb]. unfold of_config. cbn [index]. now rewrite (entry_lacks _ _ N).
Qed.
Print Assumptions C118_unknown.
(** The spec names the address the worker is bound to, as connections to filters understand it. *)
Inductive address_of (resolve4 : bytes -> option bytes) : bytes -> saddr -> Prop :=
| address_path p r : ~ In " "%char p -> ~ In ","%char p -> option_end r -> address_of resolve4 (lit "/" ++ p ++ r) (SUnix (lit "/" ++ p))
| address_any digits ip : Forall digit_char digits -> number digits <= 65535 -> resolve4 (lit "localhost") = Some ip ->
    address_of resolve4 (lit "*:" ++ digits) (SInet (number digits) ip)
| address_host h digits ip : Forall digit_char digits -> number digits <= 65535 -> resolve4 h = Some ip ->
    (forall r, h <> "/"%char :: r) -> (forall r, h <> "["%char :: r) -> ~ In ":"%char h -> h <> lit "*" ->
    address_of resolve4 (h ++ lit ":" ++ digits) (SInet (number digits) ip).
Theorem C118_address : forall pton4 pton6 resolve4 resolve6 b a,
  address_of resolve4 b a -> exists s, bound b s /\ names pton4 pton6 resolve4 resolve6 s a.
Proof.
  intros pton4 pton6 resolve4 resolve6 b a [p r S C E|digits ip D M R|h digits ip D M R N1 N2 C A].
  - exists (lit "unix:/" ++ p). split; [now apply bound_path|]. apply (names_unix _ _ _ _ (lit "/" ++ p)). discriminate.
  - exists (lit "inet:" ++ digits ++ lit "@localhost"). split; [apply bound_any|].
    apply names_inet; [exact D|exact M| |now destruct digits]. apply (host_name _ _ _ (lit "localhost")); [discriminate|exact R].
  - exists (lit "inet:" ++ digits ++ lit "@" ++ h). split; [now apply bound_host|].
    apply names_inet; [exact D|exact M| |now destruct digits]. apply (host_name _ _ _ h); assumption.
Qed.
Print Assumptions C118_address.

(** *** An example *)
Definition proxy (settings : list (bytes * json)) : json := JObject [(lit "rspamd_proxy", JObject settings)].
Definition normal : json := JObject [(lit "normal", JObject [(lit "bind_socket", JString (lit "localhost:11333"))])].
Definition config (ws : json) : bytes -> N * option json := fun _ => (0, Some (JObject [(lit "logging", JNull); (lit "worker", ws)])).
Definition detected (ws : json) : result (option bytes) := rspamd_detect (Some (lit "/usr/bin/rspamadm")) (fun _ => true) (config ws).
Definition at_ (b : bytes) : json := proxy [(lit "milter", JBool true); (lit "bind_socket", JString b)].
Definition three : list json := [normal; proxy [(lit "milter", JBool false); (lit "bind_socket", JString (lit "*:1"))]].
Example C118_example :
  prints (config (JArray (three ++ [at_ (lit "/run/rspamd.sock mode=0660")]))) (lit "/usr/bin/rspamadm") (three ++ at_ (lit "/run/rspamd.sock mode=0660") :: []) /\
  Forall no_filter three /\ filter_at (at_ (lit "/run/rspamd.sock mode=0660")) (lit "/run/rspamd.sock mode=0660") /\
  bound (lit "/run/rspamd.sock mode=0660") (lit "unix:/run/rspamd.sock") /\
  detected (JArray (three ++ [at_ (lit "/run/rspamd.sock mode=0660")])) = Value (Some (lit "unix:/run/rspamd.sock")).
Proof.
  assert (O2 : forall (a b : json), object [(lit "milter", a); (lit "bind_socket", b)]).
  { intros a b. unfold object. cbn [map fst]. repeat constructor; cbn [In]; intuition discriminate. }
  assert (O1 : forall k (a : json), object [(k, a)]) by (intros k a; repeat constructor; intros []).
  split; [|split; [|split; [|split; [|vm_compute; reflexivity]]]].
  - eexists. split; [reflexivity|]. split; [|right; now left]. unfold object. cbn [map fst]. repeat constructor; cbn [In]; intuition discriminate.
  - constructor; [apply other_worker; intros v [X|[]]; discriminate X|]. constructor; [|constructor].
    apply (plain_proxy _ [(lit "milter", JBool false); (lit "bind_socket", JString (lit "*:1"))]); [apply O1|now left|apply O2|left; now left].
  - do 2 eexists. split; [reflexivity|]. split; [apply O1|]. split; [now left|]. split; [apply O2|]. split; [now left|right; now left].
  - apply (bound_path (lit "run/rspamd.sock") (lit " mode=0660")); [intros H; vm_compute in H; intuition discriminate|intros H; vm_compute in H; intuition discriminate|].
    right. exists " "%char, (lit "mode=0660"). split; [reflexivity|now left].
Qed.

(** *** What does not hold *)
(** No worker is a filter: an exception. *)
Theorem C118_none_refuted : ~ (forall ws, Forall no_filter ws -> detected (JArray ws) = Value None) /\ detected (JArray [normal]) = Error.
Proof.
  assert (K : detected (JArray [normal]) = Error) by reflexivity. split; [|exact K]. intros H. rewrite H in K; [discriminate K|].
  constructor; [apply other_worker; intros v [X|[]]; discriminate X|constructor].
Qed.
Print Assumptions C118_none_refuted.
(** A single worker is printed without brackets around it: an exception. *)
Theorem C118_single_refuted : ~ (forall w b s, filter_at w b -> bound b s -> detected w = detected (JArray [w])).
Proof.
  intros H. destruct C118_example as (_ & _ & F & B & _). specialize (H _ _ _ F B). discriminate H.
Qed.
Print Assumptions C118_single_refuted.
(** Several addresses: an exception. *)
Theorem C118_several_refuted : detected (JArray [proxy [(lit "milter", JBool true); (lit "bind_socket", JArray [JString (lit "*:11332")])]]) = Error.
Proof. reflexivity. Qed.
Print Assumptions C118_several_refuted.
Lemma colon_names pton4 pton6 resolve4 resolve6 s a : names pton4 pton6 resolve4 resolve6 s a -> forall x, s <> lit "inet:" ++ ":"%char :: x.
Proof.
  intros [path P|path P|digits host ip D M Hh Z|digits host ip D M Hh Z] x E; try discriminate E.
  apply app_inv_head in E. destruct digits as [|c digits].
  - cbn [app] in E. subst host. inversion Hh.
  - injection E as -> _. inversion D as [|y ys X Y]. unfold digit_char in X. vm_compute in X. destruct X as [_ X]. now apply X.
Qed.
(** An address of IPv6 is cut at its first colon; what comes out names nothing. *)
Theorem C118_ipv6_refuted : forall pton4 pton6 resolve4 resolve6 (t port : bytes), ~ In ":"%char t ->
  exists s, detected (JArray [at_ (lit "[" ++ t ++ lit "::1]:" ++ port)]) = Value (Some s) /\
    s = lit "inet::1]:" ++ port ++ lit "@[" ++ t /\ forall a, ~ names pton4 pton6 resolve4 resolve6 s a.
Proof.
  intros pton4 pton6 resolve4 resolve6 t port N. exists (lit "inet::1]:" ++ port ++ lit "@[" ++ t). split; [|split; [reflexivity|]].
  - assert (D : forall b, detected (JArray [at_ b]) = Value (Some (spec_of_bind b))) by reflexivity. rewrite D. do 2 f_equal.
    apply (bound_spec _ (lit "inet:" ++ (lit ":1]:" ++ port) ++ lit "@" ++ lit "[" ++ t)).
    apply (bound_host (lit "[" ++ t) (lit ":1]:" ++ port)); [discriminate| |destruct t; discriminate]. intros [X|X]; [discriminate X|contradiction].
  - intros a H. now apply (colon_names _ _ _ _ _ _ H (lit "1]:" ++ port ++ lit "@[" ++ t)).
Qed.
Print Assumptions C118_ipv6_refuted.
