(** C105, the binary ladder: what an owner who starts is told about the versions. *)
From Verif Require Import Base LogMathSpec LogTreeModel LogTreeSpec TransMathModel PrefixModel PrefixExamples CodecModel CodecSpec AlgModel AlgSpec HandleModel HandleSpec StoreModel CommitModel MutateModel MutateSpec MutateExamples
  ServerModel ClientModel ClientSpec AnswerSpec3 AnswerProofs9 AnswerExamples4.
Open Scope N_scope.
Local Open Scope list_scope.

(** The answer has one step for every version in the binary ladders of the versions reported, in the order in which the client expects them (client.go:274-275), with the VRF proof of the version; and with the
    commitment to the version exactly if the version was published with one of the entries up to the starting entry. *)
Theorem C105_owner_init_ladder : forall f hs, (forall x, lenN (f x) = hs) -> 0 < hs <= 32 -> forall c vrf Ls, vrfGood hs vrf Ls -> forall sign now t rs l,
  runs (full f) hs c vrf sign Ls t rs -> rs <> [] -> In l Ls -> Forall (fun r => ~ In l (rq_remove r)) rs -> lenN (labelsNow rs l) < 2 ^ 31 -> clockFine c now (latest rs) ->
  forall last start answer, optSize (lenN rs) last ->
  serverOwnerInit (full f) hs c vrf now (serverOf t) {| iq_last := last; iq_label := l; iq_start := start |} = Ok answer ->
  exists ladder, allLadderVersions (ir_versions answer) = Ok ladder /\ Forall2 (stepFor f vrf rs l start) ladder (ir_ladder answer).
Proof. exact init_ladder. Qed.
Print Assumptions C105_owner_init_ladder.

(** So the client's checks on the ladder (client.go:272-290) are met: it has the expected number of steps, and a commitment for each of the versions reported. *)
Theorem C105_owner_init_commitments : forall f hs, (forall x, lenN (f x) = hs) -> 0 < hs <= 32 -> forall c vrf Ls, vrfGood hs vrf Ls -> forall sign now t rs l,
  runs (full f) hs c vrf sign Ls t rs -> rs <> [] -> In l Ls -> Forall (fun r => ~ In l (rq_remove r)) rs -> lenN (labelsNow rs l) < 2 ^ 31 -> clockFine c now (latest rs) ->
  forall last start answer, optSize (lenN rs) last ->
  serverOwnerInit (full f) hs c vrf now (serverOf t) {| iq_last := last; iq_label := l; iq_start := start |} = Ok answer ->
  exists ladder, allLadderVersions (ir_versions answer) = Ok ladder /\ List.length (ir_ladder answer) = List.length ladder /\
    forall i v st, nth_error ladder i = Some v -> nth_error (ir_ladder answer) i = Some st -> In v (ir_versions answer) -> ls_commitment st <> None.
Proof. exact init_commitments. Qed.
Print Assumptions C105_owner_init_commitments.

(** The hypotheses about the history hold as in [C104_example]. *)
Example C105_ladder_example : match serverOwnerInit (full toy32) 32 xc xvrf 3000 (serverOf t3) {| iq_last := None; iq_label := la; iq_start := 1 |} with
  | Ok a => (ir_versions a, allLadderVersions (ir_versions a), map (fun st => match ls_commitment st with Some _ => true | None => false end) (ir_ladder a)) = ([1], Ok [0; 1; 2; 3], [true; true; false; false])
  | _ => False
  end.
Proof. exact ladder_example. Qed.
