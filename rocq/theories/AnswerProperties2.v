(** C105: an honest server lets the owner of a label start monitoring at the entries where this is possible, and only there. *)
From Verif Require Import Base LogMathSpec LogTreeModel LogTreeSpec TransMathModel PrefixModel PrefixExamples CodecModel CodecSpec AlgModel AlgSpec WatchSpec HandleModel HandleSpec StoreModel CommitModel MutateModel MutateSpec MutateExamples
  ServerModel ClientModel ClientSpec AnswerSpec AnswerProofs4 AnswerExamples AnswerExamples2.
Open Scope N_scope.
Local Open Scope list_scope.

(** After any history of mutations that does not remove the label, whatever part of the log the owner has seen: the server answers exactly the requests that name a distinguished entry
    which has not expired; and then the versions in its answer are the greatest versions of the label at that entry and its unexpired ancestors to the left. *)
Theorem C105_owner_init_answered : forall f hs, (forall x, lenN (f x) = hs) -> 0 < hs <= 32 -> forall c vrf Ls, vrfGood hs vrf Ls -> forall sign now t rs l,
  runs (full f) hs c vrf sign Ls t rs -> rs <> [] -> In l Ls -> Forall (fun r => ~ In l (rq_remove r)) rs -> lenN (labelsNow rs l) < 2 ^ 31 -> clockFine c now (latest rs) ->
  forall L last start, describes L rs l -> optSize (lenN rs) last ->
  let ask := serverOwnerInit (full f) hs c vrf now (serverOf t) {| iq_last := last; iq_label := l; iq_start := start |} in
  ((exists answer, ask = Ok answer) <-> distinguished (h_n L) (h_ts L) (pc_rmw c) start /\ unexpired c L start) /\
  forall answer, ask = Ok answer -> exists xs, initialEntries c L start xs /\ (List.length (ir_versions answer) <= List.length xs)%nat /\
    forall i x, nth_error xs i = Some x -> h_g L x = claimed (ir_versions answer) i.
Proof. exact init_answered. Qed.
Print Assumptions C105_owner_init_answered.

(** The hypotheses about the history hold as in [C104_example]. *)
Example C105_example : describes la3 [q1; q2; q3] la /\ optSize (lenN [q1; q2; q3]) (Some 2) /\
  (distinguished (h_n la3) (h_ts la3) (pc_rmw xc) 1 /\ unexpired xc la3 1) /\ ~ distinguished (h_n la3) (h_ts la3) (pc_rmw xc) 0.
Proof. split; [exact la3_describes|]. split; [vm_compute; split; discriminate|]. exact (conj one_distinguished zero_not). Qed.
