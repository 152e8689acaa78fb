(** The workers of rspamd, from the side of who configures it. *)
From Verif.Base Require Import Bytes.
From Verif.Model Require RspamdProxy.
Import RspamdProxy(json, JNull, JBool, JNumber, JString, JArray, JObject).

Definition has (l : list (bytes * json)) (k : bytes) (v : json) : Prop := In (k, v) l.
Definition lacks (l : list (bytes * json)) (k : bytes) : Prop := forall v, ~ In (k, v) l.
(** The keys of an object differ. *)
Definition object (l : list (bytes * json)) : Prop := NoDup (map fst l).
(** A worker that is a filter, at [b]; a worker that is none. *)
Definition filter_at (w : json) (b : bytes) : Prop :=
  exists l p, w = JObject l /\ object l /\ has l (lit "rspamd_proxy") (JObject p) /\ object p /\
    has p (lit "milter") (JBool true) /\ has p (lit "bind_socket") (JString b).
Inductive no_filter : json -> Prop :=
| other_worker l : lacks l (lit "rspamd_proxy") -> no_filter (JObject l)
| plain_proxy l p : object l -> has l (lit "rspamd_proxy") (JObject p) -> object p ->
    has p (lit "milter") (JBool false) \/ lacks p (lit "milter") -> no_filter (JObject l).
(** Where a worker listens: a path, perhaps with options behind it; every address; a host. *)
Definition option_end (r : bytes) : Prop := r = [] \/ exists c r', r = c :: r' /\ (c = " "%char \/ c = ","%char).
Inductive bound : bytes -> bytes -> Prop :=
| bound_path p r : ~ In " "%char p -> ~ In ","%char p -> option_end r -> bound (lit "/" ++ p ++ r) (lit "unix:/" ++ p)
| bound_any port : bound (lit "*:" ++ port) (lit "inet:" ++ port ++ lit "@localhost")
| bound_host h port : (forall r, h <> "/"%char :: r) -> ~ In ":"%char h -> h <> lit "*" ->
    bound (h ++ lit ":" ++ port) (lit "inet:" ++ port ++ lit "@" ++ h).
