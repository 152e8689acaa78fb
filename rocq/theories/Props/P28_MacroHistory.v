(** C20, for whole sessions: the macros in front of every command of a server context. *)
From Verif.Base Require Import Bytes.
From Verif.Model Require Import Decoder Encoder CommandCodec ReplyCodec Option Macros Client Server.
From Verif.Spec Require Import MacroSpec MacroHistorySpec.
From Verif.Proofs Require Import ServerMacros.
Import List.
Local Open Scope N_scope.

(** Whatever is called on a server context, by its user or by the handlers of its signals, whatever
    the filter sends and however writing goes: the write that holds a command starts with the macros
    of the command's stage, and exactly with those that have been set last, have not been cleared
    since by a reset or an abort, and that the filter asked for when it negotiated (all of them when it
    named none).  Tables given as such have each name once. *)
Theorem C20_history ntop4 ntop6 sort_keys writes stops handlers depth ops later x prefix packet before :
  let t := sv_trace (server_run ntop4 ntop6 sort_keys writes stops handlers depth server_new ops) in
  t = later ++ Sent x prefix packet :: before \/ t = later ++ Lost x prefix packet :: before ->
  (forall c table, In (Server.In (Call (AMacro (ODefine c table)))) before -> NoDup (map fst table)) ->
  match stage_of x with
  | None => prefix = []
  | Some c =>
      (prefix = [] /\ forall n v, ~ due_macro before c n v) \/
      (exists table, table <> [] /\ NoDup (map fst table) /\
         prefix = encode_command ntop4 ntop6 sort_keys [] (CDefineMacro c table) /\
         forall n v, lookup table n = Some v <-> due_macro before c n v)
  end.
Proof.
  intros t E L.
  apply (all_carry_at ntop4 ntop6 sort_keys t
           (proj1 (run_M ntop4 ntop6 sort_keys writes stops handlers depth ops)) later x prefix packet before E).
  intros o Ho. destruct o; try exact I. exact (L _ _ Ho).
Qed.
Print Assumptions C20_history.

(** Two macros are set for MAIL and one for RCPT; the filter asked for one of MAIL and for that of RCPT;
    before the second message everything is reset and MAIL gets another value. *)
Definition toy (b : bytes) : bytes := b.
Definition session : list op :=
  [Call (ANegotiate (mk_option 6 0x1ff 0)); Flushed;
   Receive (RNegotiate (mk_option 6 0 0) (Some [("M"%char, [lit "i"]); ("R"%char, [lit "r"])]));
   Call (AMacro (ODefine "M"%char [(lit "i", lit "1"); (lit "x", lit "y")]));
   Call (AFrom (lit "<a@b>")); Flushed; Receive RContinue;
   Call (AMacro (OSetMany "R"%char [(lit "r", Some (lit "c")); (lit "s", Some (lit "d"))]));
   Call (ARcpt (lit "<c@d>")); Flushed; Receive RContinue;
   Call AAbort; Flushed;
   Call (AMacro (OSet "M"%char (lit "i") (Some (lit "2"))));
   Call (AFrom (lit "<a@b>")); Flushed; Receive RContinue;
   Call (ARcpt (lit "<c@d>")); Flushed].
Example C20_history_example :
  flat_map (fun e => match e with Sent x prefix _ => [(x, prefix)] | _ => [] end)
           (rev (sv_trace (server_run toy toy (fun l => l) (fun _ => Taken) (fun _ => false) (fun _ => None)
                                      5 server_new session)))
  = [(XNegotiate, []);
     (XFrom, pack (lit "DMi" ++ [NUL] ++ lit "1" ++ [NUL]));
     (XRcpt, pack (lit "DRr" ++ [NUL] ++ lit "c" ++ [NUL]));
     (XAbort, []);
     (XFrom, pack (lit "DMi" ++ [NUL] ++ lit "2" ++ [NUL]));
     (XRcpt, [])] /\
  Forall (fun e => match e with
                   | Server.In (Call (AMacro (ODefine c table))) => NoDup (map fst table)
                   | _ => True
                   end)
         (sv_trace (server_run toy toy (fun l => l) (fun _ => Taken) (fun _ => false) (fun _ => None)
                                      5 server_new session)).
Proof.
  split; [vm_compute; reflexivity|].
  match goal with |- Forall ?P ?t => set (Q := P); let t' := eval vm_compute in t in change (Forall Q t') end.
  repeat apply Forall_cons; try exact I; try apply Forall_nil.
  repeat (apply NoDup_cons; [cbn; intros H; repeat destruct H as [H|H]; discriminate || exact H|]). apply NoDup_nil.
Qed.
