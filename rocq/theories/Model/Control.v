(** Model of the control and launch protocols and of the controller's answers:
    milter/manager/milter-manager-{control-command,control-reply,reply,launch-command}-{encoder,decoder}.c
    and milter-manager-controller-context.c. *)
From Verif.Base Require Import Bytes.
From Verif.Model Require Import Decoder Encoder Signals Configuration.
Local Open Scope Z_scope.

(** Commands an operator's tool sends, the answers to them, and what the manager asks its launcher. *)
Inductive control_command := SetConfiguration (text : bytes) | GetConfiguration | Reload | GetStatus.
Inductive control_reply :=
| Success | Failure (message : bytes) | Error (message : bytes) | Configuration (text : bytes) | Status (text : bytes).
Inductive launch_command := Launch (command_line : bytes) (user_name : option bytes).

(** The protocol words: milter-manager-control-protocol.h:27-37, milter-manager-reply-protocol.h,
    milter-manager-launch-protocol.h:27. *)
Definition W_SET_CONFIGURATION := lit "set-configuration".
Definition W_GET_CONFIGURATION := lit "get-configuration".
Definition W_RELOAD := lit "reload".
Definition W_GET_STATUS := lit "get-status".
Definition W_SUCCESS := lit "success".
Definition W_FAILURE := lit "failure".
Definition W_ERROR := lit "error".
Definition W_CONFIGURATION := lit "configuration".
Definition W_STATUS := lit "status".
Definition W_LAUNCH := lit "launch".

(** ** Encoders *)

(** milter-manager-control-command-encoder.c:60-110.  There is no encoder for get-configuration: its
    line here is what a client following the protocol writes. *)
Definition control_command_payload (c : control_command) : bytes :=
  match c with
  | SetConfiguration t => W_SET_CONFIGURATION ++ NUL :: t
  | GetConfiguration => W_GET_CONFIGURATION ++ [NUL]
  | Reload => W_RELOAD ++ [NUL]
  | GetStatus => W_GET_STATUS ++ [NUL]
  end.
Definition encode_control_command (c : control_command) : bytes := pack (control_command_payload c).

(** milter-manager-reply-encoder.c:60-112 and milter-manager-control-reply-encoder.c:60-129. *)
Definition control_reply_payload (r : control_reply) : bytes :=
  match r with
  | Success => W_SUCCESS ++ [NUL]
  | Failure m => W_FAILURE ++ NUL :: m
  | Error m => W_ERROR ++ NUL :: m
  | Configuration t => W_CONFIGURATION ++ NUL :: t
  | Status t => W_STATUS ++ NUL :: t
  end.
Definition encode_control_reply (r : control_reply) : bytes := pack (control_reply_payload r).

(** milter-manager-launch-command-encoder.c:60-80. *)
Definition launch_payload (l : launch_command) : bytes :=
  match l with
  | Launch line user =>
      W_LAUNCH ++ NUL :: line ++ NUL :: match user with Some u => u | None => [] end
  end.
Definition encode_launch (l : launch_command) : bytes := pack (launch_payload l).

(** ** Decoders *)

(** The common head of the four [decode] functions: the word before the first NUL, what follows it and
    its length.  An empty word makes them return FALSE without a GError. *)
Definition split_word (p : ptr) (len : Z) : res (bytes * (ptr * Z)) :=
  let* n := decode_null_terminated_value p len in
  if Nat.eqb n 0 then Fail None
  else let* word := cstring p in
       Ok (word, (skipn (S n) p, len - Z.of_nat n - 1)).

Definition to_hres {ev : Type} (r : res ev) : hres ev :=
  match r with Ok e => HOk [e] None | Fail e => HFail e | UB => HUB end.

(** milter-manager-control-command-decoder.c:144-250. *)
Definition decode_control_command (p : ptr) (len : Z) : res control_command :=
  let* wc := split_word p len in
  let '(word, (content, clen)) := wc in
  if bytes_eqb word W_SET_CONFIGURATION then
    let* t := signal_data content clen in Ok (SetConfiguration t)
  else if bytes_eqb word W_GET_CONFIGURATION then
    let* _ := check_command_length content clen 0 COMPARE_EXACT in Ok GetConfiguration
  else if bytes_eqb word W_RELOAD then
    let* _ := check_command_length content clen 0 COMPARE_EXACT in Ok Reload
  else if bytes_eqb word W_GET_STATUS then
    let* _ := check_command_length content clen 0 COMPARE_EXACT in Ok GetStatus
  else Fail (Some E_UNEXPECTED_COMMAND).
Definition control_command_handler (buf : bytes) (len : Z) : hres control_command :=
  to_hres (decode_control_command (buf ++ [NUL]) len).

(** milter-manager-reply-decoder.c:113-187; UNEXPECTED_REPLY is represented by E_UNEXPECTED_COMMAND. *)
Definition decode_reply (p : ptr) (len : Z) : res control_reply :=
  let* wc := split_word p len in
  let '(word, (content, clen)) := wc in
  if bytes_eqb word W_SUCCESS then
    let* _ := check_command_length content clen 0 COMPARE_EXACT in Ok Success
  else if bytes_eqb word W_FAILURE then let* m := cstring content in Ok (Failure m)
  else if bytes_eqb word W_ERROR then let* m := cstring content in Ok (Error m)
  else Fail (Some E_UNEXPECTED_COMMAND).
Definition manager_reply_handler (buf : bytes) (len : Z) : hres control_reply :=
  to_hres (decode_reply (buf ++ [NUL]) len).

(** milter-manager-control-reply-decoder.c:99-144: the parent's decode first, its error cleared. *)
Definition decode_control_reply (p : ptr) (len : Z) : res control_reply :=
  let* wc := split_word p len in
  match decode_reply p len with
  | Ok r => Ok r
  | UB => UB
  | Fail _ =>
      let '(word, (content, clen)) := wc in
      if bytes_eqb word W_CONFIGURATION then
        let* t := signal_data content clen in Ok (Configuration t)
      else Fail (Some E_UNEXPECTED_COMMAND)
  end.
Definition control_reply_handler (buf : bytes) (len : Z) : hres control_reply :=
  to_hres (decode_control_reply (buf ++ [NUL]) len).

(** milter-manager-launch-command-decoder.c:93-156. *)
Definition decode_launch (p : ptr) (len : Z) : res launch_command :=
  let* n := decode_null_terminated_value p len in
  if Nat.eqb n 0 then Fail None
  else
    let* line := cstring p in
    if Z.of_nat n <? len - 1 then
      let* user := cstring (skipn (S n) p) in Ok (Launch line (Some user))
    else Ok (Launch line None).
Definition decode_launch_command (p : ptr) (len : Z) : res launch_command :=
  let* wc := split_word p len in
  let '(word, (content, clen)) := wc in
  if bytes_eqb word W_LAUNCH then decode_launch content clen else Fail (Some E_UNEXPECTED_COMMAND).
Definition launch_handler (buf : bytes) (len : Z) : hres launch_command :=
  to_hres (decode_launch_command (buf ++ [NUL]) len).

(** ** The controller *)

Section Controller.
  Variable b : build.
  Variable evaluate evaluate_custom : bytes -> settings -> settings * bool.
  (** milter_manager_configuration_to_xml, milter-manager-configuration.c:2167-2250, and the text of a
      save error behind the colon. *)
  Variable to_xml : configuration -> bytes.
  Variable reason : bytes.

  Definition SAVE_ERROR := lit "failed to save custom configuration file: ".

  (** cb_decoder_set_configuration, cb_decoder_get_configuration, cb_decoder_reload,
      cb_decoder_get_status, milter-manager-controller-context.c:93-249: the configuration afterwards
      and the replies handed to the agent.  Whether the packet gets out is the writer's business
      (Writer.v). *)
  Definition answer (c : configuration) (r : control_command) : configuration * list control_reply :=
    match r with
    | SetConfiguration text =>
        match save_custom (c_paths c) (c_files c) text with
        | Some f => (mk_configuration (c_paths c) f (c_settings c), [Success])
        | None => (c, [Error (SAVE_ERROR ++ reason)])
        end
    | GetConfiguration => (c, [Configuration (to_xml c)])
    | Reload => let '(c, _) := reload b evaluate evaluate_custom c in (c, [Success])
    | GetStatus => (c, [Status (lit "FIXME")])
    end.

  (** The commands of a connection one after the other. *)
  Fixpoint answers (c : configuration) (rs : list control_command) : configuration * list (list control_reply) :=
    match rs with
    | [] => (c, [])
    | r :: rs => let '(c, a) := answer c r in
                 let '(c, l) := answers c rs in (c, a :: l)
    end.
End Controller.
