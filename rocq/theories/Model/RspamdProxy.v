(** Where rspamd listens as a filter: rspamd-proxy-detector.rb of binding/ruby/lib/milter/manager. *)
From Verif.Base Require Import Bytes.
Local Open Scope N_scope.

(** What JSON.parse returns; the entries of an object have different keys. *)
Inductive json := JNull | JBool (b : bool) | JNumber (n : N) | JString (s : bytes) | JArray (l : list json) | JObject (l : list (bytes * json)).
Inductive result (A : Type) := Value (a : A) | Error.   (* [Error]: an exception *)
Arguments Value {A}. Arguments Error {A}.

Fixpoint entry (l : list (bytes * json)) (k : bytes) : option json :=
  match l with
  | [] => None
  | (k', v) :: l' => if bytes_eqb k' k then Some v else entry l' k
  end.
Definition nil_or (o : option json) : json := match o with Some v => v | None => JNull end.
Fixpoint starts_with (p b : bytes) : bool :=
  match p, b with
  | [], _ => true
  | x :: p', y :: b' => Ascii.eqb x y && starts_with p' b'
  | _, _ => false
  end.
Fixpoint includes (k s : bytes) : bool :=
  starts_with k s || match s with [] => false | _ :: s' => includes k s' end.
(** [v[key]] with a string: of a string, the part if there is one; arrays and numbers raise TypeError,
    nil and booleans NoMethodError. *)
Definition index (v : json) (k : bytes) : result json :=
  match v with
  | JObject l => Value (nil_or (entry l k))
  | JString s => Value (if includes k s then JString k else JNull)
  | _ => Error
  end.
Definition truthy (v : json) : bool := match v with JNull => false | JBool b => b | _ => true end.

(** The block, 24-26; only hashes have [key?]. *)
Definition is_proxy (worker : json) : result bool :=
  match worker with
  | JObject l =>
      match entry l (lit "rspamd_proxy") with
      | None => Value false
      | Some p => match index p (lit "milter") with Value v => Value (truthy v) | Error => Error end
      end
  | _ => Error
  end.
(** [detect]; nil if there is none. *)
Fixpoint detect_proxy (ws : list json) : result json :=
  match ws with
  | [] => Value JNull
  | w :: ws' =>
      match is_proxy w with
      | Value true => Value w
      | Value false => detect_proxy ws'
      | Error => Error
      end
  end.
(** [split(/[ ,]/, 2)[0]] of a text that is not empty, and [split(":", 2)]. *)
Fixpoint until (stop : byte -> bool) (b : bytes) : bytes :=
  match b with [] => [] | c :: b' => if stop c then [] else c :: until stop b' end.
Fixpoint behind (stop : byte -> bool) (b : bytes) : bytes :=
  match b with [] => [] | c :: b' => if stop c then b' else behind stop b' end.
Definition ends_path (c : byte) : bool := Ascii.eqb c " " || Ascii.eqb c ",".
Definition colon (c : byte) : bool := Ascii.eqb c ":".
(** 28-38; nil is written as nothing. *)
Definition spec_of_bind (b : bytes) : bytes :=
  if starts_with (lit "/") b then lit "unix:" ++ until ends_path b
  else
    let host := until colon b in
    let port := behind colon b in
    if bytes_eqb host (lit "*") then lit "inet:" ++ port ++ lit "@localhost" else lit "inet:" ++ port ++ lit "@" ++ host.
(** 22-38 *)
Definition of_config (config : json) : result (option bytes) :=
  match index config (lit "worker") with
  | Error => Error
  | Value workers =>
      if truthy workers then
        match workers with
        | JArray ws =>
            match detect_proxy ws with
            | Error => Error
            | Value w =>
                match index w (lit "rspamd_proxy") with
                | Error => Error
                | Value p =>
                    match index p (lit "bind_socket") with
                    | Value (JString b) => Value (Some (spec_of_bind b))
                    | _ => Error       (* no start_with? *)
                    end
                end
            end
        | _ => Error     (* the entries of a hash are arrays, which have no key?; of an empty one none is found *)
        end
      else Value None
  end.
(** detect, 9-39: [path]: rspamadm; [run]: its status and its output, parsed; [None]: not JSON. *)
Definition rspamd_detect (path : option bytes) (executable : bytes -> bool) (run : bytes -> N * option json) : result (option bytes) :=
  match path with
  | None => Value None
  | Some p =>
      if executable p then
        let (status, output) := run p in
        if N.eqb status 0 then match output with Some config => of_config config | None => Error end
        else of_config (JObject [])
      else Value None
  end.
