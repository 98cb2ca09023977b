(** * Properties of the service operator's updates (C52, C75)

    Terms: [ManagedModel.v] (managed.go and its store), [ServerModel.v] ([setManagerRequest], the manager's check of a request),
    [ManagedSpec.v] ([managedRun]: a sequence of updates; [signedVersions]: the version numbers signed for a label). *)
From Coq Require Import Sorted.
From Verif Require Import Base BaseProofs CodecModel StoreModel ServerModel ManagedModel ManagedSpec ManagedProofs.
Open Scope N_scope.
Local Open Scope list_scope.

(** C52: it is not true that successive updates of a label sign the versions 0, 1, 2, … without gaps: some sequence of updates, all
    successful, signs other numbers. *)
Theorem C52_consecutive_refuted : exists c sign l reqs,
  (forall r, In r reqs -> uq_label r = l) /\
  (forall o, In o (managedRun c sign [] reqs) -> exists q, o = Ok q) /\
  signedVersions l (managedRun c sign [] reqs) <> from 0 (N.to_nat (submitted l reqs)).
Proof. exact c52_refuted. Qed.
Print Assumptions C52_consecutive_refuted.

(** C52, how general the gap is: the second update of every label starts one too high, whatever the updates contain. *)
Theorem C52_second_update_skips : forall c sign r1 r2 q1 q2,
  uq_label r2 = uq_label r1 -> lenN (uq_values r1) < 2 ^ 32 - 1 ->
  managedRun c sign [] [r1; r2] = [Ok q1; Ok q2] ->
  mq_signed q1 = 0 /\ mq_signed q2 = lenN (uq_values r1) + 1.
Proof. exact c52_skips. Qed.
Print Assumptions C52_second_update_skips.

(** C52, partial: no version number is signed twice and they are signed in increasing order, over every sequence of updates of every
    labels that submits fewer than 2^32 - 1 values of this one, whether or not the individual updates succeed.  Missing: the absence of gaps, which
    is false. *)
Theorem C52_increasing_partial : forall c sign l reqs, submitted l reqs < 2 ^ 32 - 1 ->
  StronglySorted N.lt (signedVersions l (managedRun c sign [] reqs)).
Proof. exact c52_partial. Qed.
Print Assumptions C52_increasing_partial.

Example C52_nonvacuous : signedVersions [x10] (managedRun skipConfig (fun _ => Ok [x42]) [] [skipRequest x01; skipRequest x02]) = [0; 2].
Proof. vm_compute. reflexivity. Qed.

(** C75: the manager never refuses, for its signatures, a request prepared by the operator: if what the operator's key signs verifies
    under the leaf public key, then the request is accepted, with the operator's label, values, starting version and greatest
    known version. *)
Theorem C75_manager_accepts : forall c sign (leafVerify : bytes -> bytes -> bool) s req q s' t,
  (forall tbs sg, sign tbs = Ok sg -> leafVerify tbs sg = true) ->
  managedUpdate c sign s req = (Ok q, s') ->
  setManagerRequest c leafVerify t q =
    let* index := serverIndex t (uq_label req) in
    Ok {| up_tree := t; up_last := uq_last req; up_label := uq_label req; up_signed := Some (mq_signed q);
          up_values := mq_values q; up_index := index; up_ver := nextVersion (uq_greatest req) |}.
Proof. exact manager_accepts. Qed.
Print Assumptions C75_manager_accepts.

Example C75_nonvacuous : exists q s', managedUpdate skipConfig (fun _ => Ok [x42]) [] (skipRequest x01) = (Ok q, s') /\ mq_values q <> [].
Proof. eexists _, _. split; [vm_compute; reflexivity|discriminate]. Qed.
