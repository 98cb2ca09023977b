(** C106: which requests of the owner of a label for monitoring an honest server answers. *)
From Coq Require Import Sorted.
From Verif Require Import Base LogMathSpec LogTreeModel LogTreeSpec TransMathModel PrefixModel PrefixExamples CodecModel CodecSpec AlgModel AlgSpec WatchSpec HandleModel HandleSpec StoreModel CommitModel MutateModel MutateSpec MutateExamples
  ServerModel ClientModel ClientSpec AnswerSpec AnswerSpec2 AnswerProofs6 AnswerProofs7 AnswerProofs8 AnswerExamples AnswerExamples3.
Open Scope N_scope.
Local Open Scope list_scope.

(** After any history of mutations that does not remove the label, whatever part of the log the owner has seen: the server answers exactly the requests whose pairs are as for contact
    monitoring (C104) and whose starting entry and greatest version can be the state of an owner.  Versions that the owner does not know are no reason for a refusal: it is the owner who
    notices these (C102). *)
Theorem C106_owner_monitoring_answered : forall f hs, (forall x, lenN (f x) = hs) -> 0 < hs <= 32 -> forall c vrf Ls, vrfGood hs vrf Ls -> forall sign now t rs l,
  runs (full f) hs c vrf sign Ls t rs -> rs <> [] -> In l Ls -> Forall (fun r => ~ In l (rq_remove r)) rs -> lenN (labelsNow rs l) < 2 ^ 31 -> clockFine c now (latest rs) ->
  forall last es start greatest, optSize (lenN rs) last ->
  (exists answer, serverOwnerMonitor (full f) hs c vrf now (serverOf t)
     {| oq_last := last; oq_label := l; oq_entries := es; oq_start := start; oq_greatest := greatest |} = Ok answer) <->
  goodPairs rs l es /\ possibleState rs l start greatest.
Proof. exact owner_answered. Qed.
Print Assumptions C106_owner_monitoring_answered.

(** The hypotheses about the history hold as in [C104_example]. *)
Example C106_example : goodPairs [q1; q2; q3] la [(1, 1); (2, 2)] /\ possibleState [q1; q2; q3] la 1 (Some 1) /\ possibleState [q1; q2; q3] la 1 (Some 2) /\
  possibleState [q1; q2; q3] la 2 (Some 2) /\ ~ possibleState [q1; q2; q3] la 1 (Some 0) /\ ~ possibleState [q1; q2; q3] la 1 (Some 3) /\
  ~ possibleState [q1; q2; q3] la 1 None /\ ~ possibleState [q1; q2; q3] la 3 (Some 2).
Proof. exact (conj pairs_good states_example). Qed.

(** What the client of an owner asks (client.go:356-363) is answered, whenever what it knows is right.  (The request is spelled out: a client cannot read the owner's state back from its
    database, C35.) *)
Theorem C106_owner_state_answered : forall f hs, (forall x, lenN (f x) = hs) -> 0 < hs <= 32 -> forall c vrf Ls, vrfGood hs vrf Ls -> forall sign now t rs l,
  runs (full f) hs c vrf sign Ls t rs -> rs <> [] -> In l Ls -> Forall (fun r => ~ In l (rq_remove r)) rs -> lenN (labelsNow rs l) < 2 ^ 31 -> clockFine c now (latest rs) ->
  forall last es o, optSize (lenN rs) last -> goodPairs rs l es -> rightState rs l o ->
  exists answer, serverOwnerMonitor (full f) hs c vrf now (serverOf t)
    {| oq_last := last; oq_label := l; oq_entries := es; oq_start := os_starting o; oq_greatest := ownerGreatest o |} = Ok answer.
Proof. exact owner_state_answered. Qed.
Print Assumptions C106_owner_state_answered.

(** An owner may know fewer versions than there are, but not have a wrong version at their starting entry. *)
Example C106_states : rightState [q1; q2; q3] la {| os_starting := 1; os_verAt := 1; os_upcoming := [] |} /\
  rightState [q1; q2; q3] la {| os_starting := 1; os_verAt := 1; os_upcoming := [2] |} /\ ~ rightState [q1; q2; q3] la {| os_starting := 1; os_verAt := 0; os_upcoming := [] |}.
Proof. exact right_example. Qed.

(** Once the server has let an owner start, it answers them for ever: the owner's state is what the answer to the initialization says (the greatest version at the starting entry), with
    any number [up] of versions that were published since, and the log has grown by any mutations [more]. *)
Theorem C106_started_owner_answered : forall f hs, (forall x, lenN (f x) = hs) -> 0 < hs <= 32 -> forall c vrf Ls, vrfGood hs vrf Ls -> forall sign t rs l now last start answer,
  runs (full f) hs c vrf sign Ls t rs -> rs <> [] -> In l Ls -> clockFine c now (latest rs) -> optSize (lenN rs) last ->
  serverOwnerInit (full f) hs c vrf now (serverOf t) {| iq_last := last; iq_label := l; iq_start := start |} = Ok answer ->
  forall t' more now' last' es up, runs (full f) hs c vrf sign Ls t' (rs ++ more) -> Forall (fun r => ~ In l (rq_remove r)) (rs ++ more) -> lenN (labelsNow (rs ++ more) l) < 2 ^ 31 ->
  clockFine c now' (latest (rs ++ more)) -> optSize (lenN (rs ++ more)) last' -> goodPairs (rs ++ more) l es ->
  let o := {| os_starting := start; os_verAt := claimed (ir_versions answer) 0; os_upcoming := up |} in
  (os_verAt o + Z.of_nat (List.length up) < Z.of_nat (List.length (labelsNow (rs ++ more) l)))%Z ->
  exists answer', serverOwnerMonitor (full f) hs c vrf now' (serverOf t')
    {| oq_last := last'; oq_label := l; oq_entries := es; oq_start := start; oq_greatest := ownerGreatest o |} = Ok answer'.
Proof. exact started_answered. Qed.
Print Assumptions C106_started_owner_answered.

Example C106_started_example : runs (full toy32) 32 xc xvrf xsign xLs t3 [q1; q2; q3] /\ clockFine xc 3000 (latest [q1; q2; q3]) /\
  (exists answer, serverOwnerInit (full toy32) 32 xc xvrf 3000 (serverOf t3) {| iq_last := None; iq_label := la; iq_start := 1 |} = Ok answer /\ claimed (ir_versions answer) 0 = 1%Z) /\
  runs (full toy32) 32 xc xvrf xsign xLs t4 ([q1; q2; q3] ++ [q4]) /\ Forall (fun r => ~ In la (rq_remove r)) ([q1; q2; q3] ++ [q4]) /\ clockFine xc 4000 (latest ([q1; q2; q3] ++ [q4])) /\
  lenN (labelsNow ([q1; q2; q3] ++ [q4]) la) = 4.
Proof. exact started_example. Qed.

(** What an owner has stored stays right when they monitor the log (C58): the next request is answered, too. *)
Theorem C106_state_stays_right : forall S (P : provider S) c L rs l, okTimes L -> AnswerSpec.describes L rs l -> forall finished, exhaustible P finished ->
  forall hist, StronglySorted N.le hist -> (Z.of_nat (List.length hist) < 4294967296)%Z ->
  forall m os s m' s' evs, watches m L -> mo_owner m = Some os -> tracks hist os -> rightState rs l os ->
  run P (ownerMonitor c m) s = (Ok (inr tt, m'), s', evs) -> Forall (trueEvent L) evs ->
  exists os', mo_owner m' = Some os' /\ tracks hist os' /\ rightState rs l os'.
Proof. exact (fun S P => monitored_right P). Qed.
Print Assumptions C106_state_stays_right.

Example C106_stays_example : let os := {| os_starting := 0; os_verAt := 1; os_upcoming := [2] |} in
  let m := {| mo_rightmost := 3000; mo_size := 3; mo_contact := None; mo_owner := Some os |} in
  okTimes la3 /\ AnswerSpec.describes la3 [q1; q2; q3] la /\ watches m la3 /\ tracks [0; 0; 2] os /\ rightState [q1; q2; q3] la os /\
  exists m' s' evs, run (honest la3) (ownerMonitor xc m) 0 = (Ok (inr tt, m'), s', evs) /\ Forall (trueEvent la3) evs /\ mo_owner m' = Some {| os_starting := 1; os_verAt := 1; os_upcoming := [2] |}.
Proof. exact stays_example. Qed.
