(** Concrete cases for AnswerProperties3.v. *)
From Verif Require Import Base LogMathSpec LogTreeModel LogTreeSpec TransMathModel PrefixModel PrefixExamples CodecModel CodecSpec AlgModel AlgSpec WatchSpec HandleModel HandleSpec StoreModel CommitModel MutateModel MutateSpec MutateExamples
  ServerModel ClientModel ClientSpec AnswerSpec AnswerSpec2 AnswerExamples.
Open Scope N_scope.
Local Open Scope list_scope.

(** The versions 0 and 1 of the label were published with entry 0, version 2 with entry 2. *)
Lemma states_example : possibleState [q1; q2; q3] la 1 (Some 1) /\ possibleState [q1; q2; q3] la 1 (Some 2) /\ possibleState [q1; q2; q3] la 2 (Some 2) /\
  ~ possibleState [q1; q2; q3] la 1 (Some 0) /\ ~ possibleState [q1; q2; q3] la 1 (Some 3) /\ ~ possibleState [q1; q2; q3] la 1 None /\ ~ possibleState [q1; q2; q3] la 3 (Some 2).
Proof.
  unfold possibleState. change (lenN [q1; q2; q3]) with 3.
  assert (lenN (labelsNow [q1; q2; q3] la) = 3) as -> by (vm_compute; reflexivity).
  assert (versionsBy [q1; q2; q3] la 1 = 2%nat) as -> by (vm_compute; reflexivity). assert (versionsBy [q1; q2; q3] la 2 = 3%nat) as -> by (vm_compute; reflexivity).
  repeat split; try lia; intros (A & B); lia.
Qed.

Lemma right_example : rightState [q1; q2; q3] la {| os_starting := 1; os_verAt := 1; os_upcoming := [] |} /\
  rightState [q1; q2; q3] la {| os_starting := 1; os_verAt := 1; os_upcoming := [2] |} /\ ~ rightState [q1; q2; q3] la {| os_starting := 1; os_verAt := 0; os_upcoming := [] |}.
Proof. repeat split; try (vm_compute; reflexivity). intros (_ & B & _). vm_compute in B. discriminate B. Qed.

(** One more version of the label. *)
Definition q4 := xreq [la] 4000 [(la, xv x08)] [].
Definition t4 : tree := Eval vm_compute in snd (xdo t3 q4).

Lemma x_runs4 : runs (full toy32) 32 xc xvrf xsign xLs t4 ([q1; q2; q3] ++ [q4]).
Proof. eapply run_mutate; [exact x_runs3|moderately|left; discriminate|]. vm_compute. reflexivity. Qed.

(** The owner starts at entry 1, where the greatest version is 1, before version 3 is published. *)
Lemma started_example : runs (full toy32) 32 xc xvrf xsign xLs t3 [q1; q2; q3] /\ clockFine xc 3000 (latest [q1; q2; q3]) /\
  (exists answer, serverOwnerInit (full toy32) 32 xc xvrf 3000 (serverOf t3) {| iq_last := None; iq_label := la; iq_start := 1 |} = Ok answer /\ claimed (ir_versions answer) 0 = 1%Z) /\
  runs (full toy32) 32 xc xvrf xsign xLs t4 ([q1; q2; q3] ++ [q4]) /\ Forall (fun r => ~ In la (rq_remove r)) ([q1; q2; q3] ++ [q4]) /\ clockFine xc 4000 (latest ([q1; q2; q3] ++ [q4])) /\
  lenN (labelsNow ([q1; q2; q3] ++ [q4]) la) = 4.
Proof.
  split; [exact x_runs3|]. split; [vm_compute; repeat split; discriminate|]. split.
  - destruct (serverOwnerInit (full toy32) 32 xc xvrf 3000 (serverOf t3) {| iq_last := None; iq_label := la; iq_start := 1 |}) as [answer|e|e|] eqn:E.
    + exists answer. split; [reflexivity|]. assert (match serverOwnerInit (full toy32) 32 xc xvrf 3000 (serverOf t3) {| iq_last := None; iq_label := la; iq_start := 1 |} with
        Ok a => claimed (ir_versions a) 0 | _ => 0%Z end = 1%Z) as K by (vm_compute; reflexivity). rewrite E in K. exact K.
    + vm_compute in E. discriminate E.
    + vm_compute in E. discriminate E.
    + vm_compute in E. discriminate E.
  - split; [exact x_runs4|]. split; [repeat constructor; cbn; intuition discriminate|]. split; [vm_compute; repeat split; discriminate|]. vm_compute. reflexivity.
Qed.

(** The owner moves from entry 0 to the distinguished entry 1. *)
Lemma stays_example : let os := {| os_starting := 0; os_verAt := 1; os_upcoming := [2] |} in
  let m := {| mo_rightmost := 3000; mo_size := 3; mo_contact := None; mo_owner := Some os |} in
  okTimes la3 /\ AnswerSpec.describes la3 [q1; q2; q3] la /\ watches m la3 /\ tracks [0; 0; 2] os /\ rightState [q1; q2; q3] la os /\
  exists m' s' evs, run (honest la3) (ownerMonitor xc m) 0 = (Ok (inr tt, m'), s', evs) /\ Forall (trueEvent la3) evs /\ mo_owner m' = Some {| os_starting := 1; os_verAt := 1; os_upcoming := [2] |}.
Proof.
  cbn zeta. split.
  { split; [vm_compute; split; [discriminate|reflexivity]|]. split.
    - intros i j Hij. cbn [la3 h_ts h_n] in *. lia.
    - split; intros i Hi; cbn [la3 h_ts h_n h_g] in *; [unfold two64; lia|]. destruct (i <? 2); lia. }
  split; [exact la3_describes|]. split; [split; reflexivity|]. split; [split; reflexivity|]. split; [repeat split; vm_compute; reflexivity|].
  do 3 eexists. split; [vm_compute; reflexivity|]. split; [|reflexivity].
  repeat (constructor; [first [exact I|intros _; reflexivity]|]). constructor.
Qed.
