(** C105: what the report of a processed message says of it.

    Each theorem is about the history of the context of one filter after any sequence of calls,
    flushes, replies and timeouts, with any outcome of the writes, any answers of the stop handlers
    and handlers that call back into the context, except from the report itself and from the
    signals of edits.  Histories are latest first. *)
From Verif.Base Require Import Bytes.
From Verif.Model Require Import Decoder Encoder CommandCodec ReplyCodec Status Option Headers Macros
                                Client Server.
From Verif.Spec Require Import HeaderSpec ServerSpec MessageReportSpec.
From Verif.Proofs Require Import ExampleOracles HeaderProofs MessageReportProofs.
From Coq Require Import Permutation.
Local Open Scope N_scope.

(** The same headers; those of one name (in any case) latest first; in the order given if no name
    occurs twice. *)
Definition filed_from (given listed : list header) : Prop :=
  Permutation listed given /\
  (forall name, filter (fun h => caseless_eqb (h_name h) name) listed =
                rev (filter (fun h => caseless_eqb (h_name h) name) given)) /\
  (ForallOrdPairs (fun a b => ~ caseless (h_name a) (h_name b)) given -> listed = given).

Lemma filed_filed l : filed_from l (filed l).
Proof.
  split; [apply filed_perm|]. split; [intros name; apply filed_named|apply filed_distinct].
Qed.

Section Report.
  Variables (ntop4 ntop6 : bytes -> bytes).
  Variable sort_keys : list bytes -> list bytes.
  Variable writes : list event -> write_outcome.
  Variable stops : list event -> bool.
  Variable handlers : list event -> option api.
  Variable depth : nat.
  Notation history ops :=
    (sv_trace (server_run ntop4 ntop6 sort_keys writes stops handlers depth server_new ops)).

  Theorem C105_contents ops later m t :
    (forall r t, edits r = true -> handlers (Forward r :: t) = None) ->
    (forall m t, handlers (Processed m :: t) = None) ->
    history ops = later ++ Processed m :: t ->
    let es := episode t in
    mr_from m = sender es /\
    filed_from (flat_map header_given es) (mr_headers m) /\
    mr_body_size m = total es mod 18446744073709551616 /\
    filed_from (flat_map header_added es) (mr_added m) /\
    filed_from (flat_map header_removed es) (mr_removed m) /\
    mr_quarantine m = existsb asks_quarantine es.
  Proof.
    intros Hq Hp E es.
    pose proof (run_reports ntop4 ntop6 sort_keys writes stops handlers Hq Hp depth ops) as H.
    rewrite E in H. apply reports_at in H. injection H as H1 H2 H3 H4 H5 H6.
    rewrite H1, H2, H3, H4, H5, H6. fold es.
    repeat split; auto; try apply filed_perm; try (intros; apply filed_named); try apply filed_distinct.
  Qed.
End Report.
Print Assumptions C105_contents.

Definition plain (ops : list op) : list event :=
  sv_trace (server_run toy_ntop toy_ntop (fun l => l) (fun _ => Taken) (fun _ => false) (fun _ => None) 0
              server_new ops).
Definition all_steps : moption := mk_option 6 511 0.
Definition header_ops (n v : string) : list op :=
  [Call (AHeader (lit n) (lit v)); Flushed; Receive RContinue].
Definition message_ops (headers edits : list op) : list op :=
  [Call (ANegotiate all_steps); Flushed; Receive (RNegotiate all_steps None);
   Call (AFrom (lit "<a@b>")); Flushed; Receive RContinue;
   Call (ARcpt (lit "<c@d>")); Flushed; Receive RContinue]
  ++ headers ++
  [Call (ABody (lit "hello")); Flushed; Receive RContinue; Call (AEndOfMessage (Some (lit "!!"))); Flushed]
  ++ edits ++ [Receive RContinue].
(** The report with which a history ends, and what was before it. *)
Definition last_report (t : list event) : option (message * list event) :=
  match t with Processed m :: t' => Some (m, t') | _ => None end.

Example C105_example :
  exists m t,
    plain (message_ops (header_ops "Subject" "s" ++ header_ops "To" "c")
             [Receive (RAddHeader (lit "X-A") (lit "1")); Receive (RDeleteHeader (lit "To") 1);
              Receive (RQuarantine (lit "why"))]) = Processed m :: t /\
    mr_from m = Some (lit "<a@b>") /\
    mr_headers m = [mk_header (lit "Subject") (Some (lit "s")); mk_header (lit "To") (Some (lit "c"))] /\
    mr_body_size m = 7 /\ mr_added m = [mk_header (lit "X-A") (Some (lit "1"))] /\
    mr_removed m = [mk_header (lit "To") None] /\ mr_quarantine m = true.
Proof. do 2 eexists. split; [vm_compute; reflexivity|]. vm_compute. repeat split. Qed.

(** Two headers of one name are listed the wrong way round. *)
Theorem C105_order_refuted :
  exists m t,
    plain (message_ops (header_ops "Received" "1" ++ header_ops "Subject" "s" ++ header_ops "Received" "2") [])
      = Processed m :: t /\
    flat_map header_given (episode t) =
      [mk_header (lit "Received") (Some (lit "1")); mk_header (lit "Subject") (Some (lit "s"));
       mk_header (lit "Received") (Some (lit "2"))] /\
    mr_headers m =
      [mk_header (lit "Received") (Some (lit "2")); mk_header (lit "Received") (Some (lit "1"));
       mk_header (lit "Subject") (Some (lit "s"))].
Proof. do 2 eexists. split; [vm_compute; reflexivity|]. vm_compute. repeat split. Qed.
Print Assumptions C105_order_refuted.

(** A header given a new value is reported as one added, and one it replaced is not reported as
    removed: the report cannot be told from that of a filter that adds a second header. *)
Theorem C105_changed_refuted :
  exists m t t',
    plain (message_ops (header_ops "Subject" "s") [Receive (RChangeHeader (lit "Subject") 1 (lit "[spam] s"))])
      = Processed m :: t /\
    plain (message_ops (header_ops "Subject" "s") [Receive (RAddHeader (lit "Subject") (lit "[spam] s"))])
      = Processed m :: t' /\
    mr_removed m = [].
Proof. do 3 eexists. split; [vm_compute; reflexivity|]. split; vm_compute; reflexivity. Qed.
Print Assumptions C105_changed_refuted.

(** A new sender, added and deleted recipients and a new body leave no trace in the report. *)
Theorem C105_other_edits_refuted :
  exists m t t',
    plain (message_ops [] [Receive (RChangeFrom (lit "<x@y>") None); Receive (RAddRecipient (lit "<r@s>") None);
                           Receive (RDeleteRecipient (lit "<c@d>")); Receive (RReplaceBody (lit "new"))])
      = Processed m :: t /\
    plain (message_ops [] []) = Processed m :: t'.
Proof. do 3 eexists. split; vm_compute; reflexivity. Qed.
Print Assumptions C105_other_edits_refuted.

(** Handlers that start the next message from within the report lose it: its sender is missing from
    the report that follows. *)
Definition eager (t : list event) : option api :=
  match t with Processed _ :: _ => Some (AFrom (lit "<next@b>")) | _ => None end.
Definition eager_trace : list event :=
  sv_trace (server_run toy_ntop toy_ntop (fun l => l) (fun _ => Taken) (fun _ => false) eager 2 server_new
              (message_ops [] [] ++ [Flushed; Receive RContinue; Call (ARcpt (lit "<c@d>")); Flushed; Receive RAccept])).
Theorem C105_reentrant_refuted :
  exists pre m t m0 t0,
    eager_trace = pre ++ Processed m :: t ++ Processed m0 :: t0 /\
    List.In (In (Call (AFrom (lit "<next@b>")))) t /\ List.In (In (Call (ARcpt (lit "<c@d>")))) t /\
    mr_from m = None.
Proof.
  remember eager_trace as tr eqn:E. vm_compute in E.
  match type of E with
  | tr = ?l =>
      let rec go pre l :=
        lazymatch l with
        | Processed ?m :: ?t =>
            let rec go2 mid l2 :=
              lazymatch l2 with
              | Processed ?m0 :: ?t0 => exists (rev pre), m, (rev mid), m0, t0
              | ?e :: ?l3 => go2 (e :: mid) l3
              end in go2 (@nil event) t
        | ?e :: ?l' => go (e :: pre) l'
        end in go (@nil event) l
  end.
  rewrite E. split; [reflexivity|]. vm_compute. auto 20.
Qed.
Print Assumptions C105_reentrant_refuted.
