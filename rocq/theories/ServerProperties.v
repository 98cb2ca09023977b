(** The properties of the server that answers requests. *)
From Verif Require Import Base LogTreeModel LogTreeSpec TransMathModel PrefixModel CodecModel AlgModel HandleModel
  CommitModel MutateModel MutateSpec ServerModel ServerProofs ClientSpec ClientExamples ClientRefutations PrefixExamples MutateExamples.
Open Scope N_scope.
Local Open Scope list_scope.

(** C50 is false: a search by a user who advertises a tree of size 0 crashes the server ... *)
Theorem C50_refuted : exists f hs c vrf sign Ls t rs now req e,
  (forall x, lenN (f x) = hs) /\ vrfGood hs vrf Ls /\ runs (full f) hs c vrf sign Ls t rs /\ In (sq_label req) Ls /\
  serverSearch (full f) hs c vrf now (serverOf t) req = Panic e.
Proof. exact c50_refuted. Qed.
Print Assumptions C50_refuted.

(** ... and so do all monitoring requests to every server with a non-empty tree, whatever the label ... *)
Theorem C50_size_zero_refuted : forall H hs c vrf now t th, sv_head t = Some th -> 0 < th_size th ->
  (forall q idx, serverIndex t (cq_label q) = Ok idx -> cq_last q = Some 0 -> exists e, serverContactMonitor H hs c vrf now t q = Panic e) /\
  (forall q idx, serverIndex t (iq_label q) = Ok idx -> iq_last q = Some 0 -> exists e, serverOwnerInit H hs c vrf now t q = Panic e) /\
  (forall q idx, serverIndex t (oq_label q) = Ok idx -> oq_last q = Some 0 -> exists e, serverOwnerMonitor H hs c vrf now t q = Panic e).
Proof. exact size_zero. Qed.
Print Assumptions C50_size_zero_refuted.

Example C50_size_zero_example : exists th idx, sv_head (serverOf t3) = Some th /\ 0 < th_size th /\ serverIndex (serverOf t3) la = Ok idx /\ idx <> [].
Proof. do 2 eexists. split; [vm_compute; reflexivity|]. split; [vm_compute; reflexivity|]. split; [vm_compute; reflexivity|discriminate]. Qed.

(** ... and a search for a version of 2^31-1 or more never ends (compare C12), on every server, for every label. *)
Theorem C50_great_version_refuted : forall H hs c vrf now t th q idx v,
  sv_head t = Some th -> sq_last q = None \/ (exists k, sq_last q = Some k /\ k <= th_size th) ->
  serverIndex t (sq_label q) = Ok idx -> sq_version q = Some v -> 2 ^ 31 - 1 <= v < 2 ^ 32 ->
  serverSearch H hs c vrf now t q = Fuel.
Proof. exact search_top. Qed.
Print Assumptions C50_great_version_refuted.

Example C50_great_version_example : serverSearch (full toy32) 32 xc xvrf 3000 (serverOf t3) (xsearch None la (Some (2 ^ 31 - 1))) = Fuel.
Proof. vm_compute. reflexivity. Qed.

(** C51 is false: a user who misses versions of a label gets an error ... *)
Theorem C51_refuted : exists f hs c vrf sign Ls t rs now req u,
  (forall x, lenN (f x) = hs) /\ vrfGood hs vrf Ls /\ runs (full f) hs c vrf sign Ls t rs /\ In (uq_label req) Ls /\
  uq_greatest req = Some 0 /\ lenN (labelsNow rs (uq_label req)) = 3 /\ setRequest (serverOf t) req = Ok u /\
  process (full f) hs c vrf now None u = [Fail "label owner state has not been initialized"%string].
Proof. exact c51_refuted. Qed.
Print Assumptions C51_refuted.

(** ... because no request whatsoever gets an update response: whatever the server, the request and the process behind the
    tree, no message is a response. *)
Theorem C51_no_update_response : forall H hs c vrf now sequencer u r, ~ In (Ok r) (process H hs c vrf now sequencer u).
Proof. exact process_never. Qed.
Print Assumptions C51_no_update_response.
