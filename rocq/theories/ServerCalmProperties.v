(** What remains of C50: the server answers every request with a response or an error, except those that advertise an empty tree
    and those about versions of 2^31-1 or more. *)
From Verif Require Import Base LogTreeModel LogTreeSpec CodecModel CodecSpec HandleModel CommitModel MutateModel MutateSpec ServerModel CalmSpec ServerCalmSpec
  ServerCalmProofs2 PrefixExamples MutateExamples ClientSpec ClientExamples.
Open Scope N_scope.
Local Open Scope list_scope.

(** Missing: requests that advertise a tree of size 0, searches for versions of 2^31-1 or more and labels with 2^31 versions or more (the
    server crashes or loops: C50_refuted, C50_size_zero_refuted, C50_great_version_refuted), and databases left by something other
    than mutations. *)
Theorem C50_partial : forall f hs, (forall x, lenN (f x) = hs) -> 0 < hs <= 32 -> forall c vrf sign Ls, vrfGood hs vrf Ls ->
  forall now t rs a, runs (full f) hs c vrf sign Ls t rs ->
  (forall q, ordinary Ls rs (sq_label q) (sq_last q) -> optok smallVersion (sq_version q) -> safe (serverSearch (full f) hs c vrf now (serverWith t a) q)) /\
  (forall q, ordinary Ls rs (cq_label q) (cq_last q) -> safe (serverContactMonitor (full f) hs c vrf now (serverWith t a) q)) /\
  (forall q, ordinary Ls rs (iq_label q) (iq_last q) -> safe (serverOwnerInit (full f) hs c vrf now (serverWith t a) q)) /\
  (forall q, ordinary Ls rs (oq_label q) (oq_last q) -> safe (serverOwnerMonitor (full f) hs c vrf now (serverWith t a) q)) /\
  (forall q, ordinary Ls rs (uq_label q) (uq_last q) -> exists u, setRequest (serverWith t a) q = Ok u /\
    forall sequencer, sequenced (full f) hs c vrf sign Ls (uq_label q) sequencer -> Forall safe (process (full f) hs c vrf now sequencer u)) /\
  (forall q leafVerify, ordinary Ls rs (mq_label q) (mq_last q) -> safe (setManagerRequest c leafVerify (serverWith t a) q) /\
    forall u sequencer, setManagerRequest c leafVerify (serverWith t a) q = Ok u -> sequenced (full f) hs c vrf sign Ls (mq_label q) sequencer ->
      Forall safe (process (full f) hs c vrf now sequencer u)).
Proof. exact c50_partial_all. Qed.
Print Assumptions C50_partial.

(** A log with three entries, and requests about a label with three versions, one of them from a user who has seen two entries. *)
Example C50_partial_example : vrfGood 32 xvrf xLs /\ runs (full toy32) 32 xc xvrf xsign xLs t3 [q1; q2; q3] /\
  ordinary xLs [q1; q2; q3] (sq_label q0) (sq_last q0) /\ ordinary xLs [q1; q2; q3] (sq_label q2to3) (sq_last q2to3) /\
  serverSearch (full toy32) 32 xc xvrf 3000 (serverWith t3 None) q2to3 = Ok r2to3 /\
  sequenced (full toy32) 32 xc xvrf xsign xLs la (Some (durable (t_tx t3), Some 2)).
Proof.
  split; [exact x_vrfGood|]. split; [exact x_runs3|]. split; [split; [cbn; tauto|split; [vm_compute; reflexivity|discriminate]]|].
  split; [split; [cbn; tauto|split; [vm_compute; reflexivity|discriminate]]|]. split; [exact r2to3_served|].
  exists t3, [q1; q2; q3]. split; [exact x_runs3|]. split; [discriminate|]. split; [reflexivity|]. vm_compute. reflexivity.
Qed.
