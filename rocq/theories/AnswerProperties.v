(** C104: an honest server answers the requests for monitoring that a user can have reason to make, and no others. *)
From Verif Require Import Base LogMathSpec LogTreeModel LogTreeSpec TransMathModel PrefixModel PrefixExamples CodecModel CodecSpec AlgModel AlgSpec HandleModel HandleSpec StoreModel CommitModel MutateModel MutateSpec MutateExamples
  ServerModel ClientModel ClientSpec ClientExamples SteadySpec AnswerSpec AnswerProofs2 AnswerExamples.
Open Scope N_scope.
Local Open Scope list_scope.

(** After any history of mutations that does not remove the label, whatever part of the log the user has seen: the server answers exactly the requests whose pairs are in order and
    say of each version an entry at which a search for it can end. *)
Theorem C104_contact_monitoring_answered : forall f hs, (forall x, lenN (f x) = hs) -> 0 < hs <= 32 -> forall c vrf Ls, vrfGood hs vrf Ls -> forall sign now t rs l,
  runs (full f) hs c vrf sign Ls t rs -> rs <> [] -> In l Ls -> Forall (fun r => ~ In l (rq_remove r)) rs -> lenN (labelsNow rs l) < 2 ^ 31 -> clockFine c now (latest rs) ->
  forall last es, optSize (lenN rs) last ->
  (exists answer, serverContactMonitor (full f) hs c vrf now (serverOf t) {| cq_last := last; cq_label := l; cq_entries := es |} = Ok answer) <-> goodPairs rs l es.
Proof. exact contact_answered. Qed.
Print Assumptions C104_contact_monitoring_answered.

Example C104_example : runs (full toy32) 32 xc xvrf xsign xLs t3 [q1; q2; q3] /\ In la xLs /\ Forall (fun r => ~ In la (rq_remove r)) [q1; q2; q3] /\
  lenN (labelsNow [q1; q2; q3] la) = 3 /\ clockFine xc 3000 (latest [q1; q2; q3]) /\ optSize (lenN [q1; q2; q3]) (Some 2) /\
  goodPairs [q1; q2; q3] la [(1, 1); (2, 2)] /\ ~ goodPairs [q1; q2; q3] la [(1, 2)].
Proof. exact c104_example. Qed.

(** What remains of C100, to the end: all that a client has recorded in a log that grew (visiting maps from the left, and monitoring the label after growth before it searches for it
    again) is answered by the server, at every size of the log. *)
Theorem C100_answered_partial : forall f hs, (forall x, lenN (f x) = hs) -> 0 < hs <= 32 -> forall c vrf Ls, vrfGood hs vrf Ls -> forall sign now t rs l,
  runs (full f) hs c vrf sign Ls t rs -> rs <> [] -> In l Ls -> Forall (fun r => ~ In l (rq_remove r)) rs -> lenN (labelsNow rs l) < 2 ^ 31 -> clockFine c now (latest rs) ->
  forall L n es last, describes L rs l -> recorded true c fromLeft L n es -> optSize (lenN rs) last ->
  exists answer, serverContactMonitor (full f) hs c vrf now (serverOf t) {| cq_last := last; cq_label := l; cq_entries := es |} = Ok answer.
Proof. exact recorded_answered. Qed.
Print Assumptions C100_answered_partial.

Example C100_answered_example : describes la3 [q1; q2; q3] la /\ recorded true xc fromLeft la3 3 [(1, 1); (2, 2)].
Proof. exact (conj la3_describes la3_recorded). Qed.
