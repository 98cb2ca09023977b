(** The properties of the client. *)
From Verif Require Import Base LogTreeModel LogTreeSpec TransMathModel LaddersModel PrefixModel PrefixSpec CodecModel AlgModel HandleModel
  CommitModel MutateModel MutateSpec ServerModel ClientModel ClientSpec ClientProofs ClientProofs2 ClientExamples ClientRefutations PrefixExamples MutateExamples.
Open Scope N_scope.
Local Open Scope list_scope.

(** C45 is false: a client with the state of a genuine log refuses the honest, correctly signed answer of the same log with
    one more entry. *)
Theorem C45_refuted : exists f hs c vrf vrfVerify sign sigVerify Ls t0 t rs more st es now req resp th,
  (forall x, lenN (f x) = hs) /\ vrfVerifies vrf vrfVerify /\ sigVerifies sign sigVerify /\
  runs (full f) hs c vrf sign Ls t0 rs /\ runs (full f) hs c vrf sign Ls t (rs ++ more) /\
  logOf t0 es /\ t_head t0 = Some (cs_head st) /\ stateFor f (cs_head st) es st /\
  sq_last req = getLast (Some st) /\ serverSearch (full f) hs c vrf now (serverOf t) req = Ok resp /\
  fth_head (sr_head resp) = Some th /\ th_size (cs_head st) < th_size th /\
  forall k visit, clientSearch (full f) hs c now vrfVerify sigVerify sigVerify sigVerify visit k (Some st) req resp
    = Fail "provided tree size is not greater than advertised"%string.
Proof. exact c45_refuted. Qed.
Print Assumptions C45_refuted.

(** In fact none of the five verification functions ever accepts a response that carries a tree head, whatever the state,
    the keys and the response: a client never gets beyond its first state, and (C46) never gets a first state. *)
Theorem C45_C46_no_tree_head_accepted : forall H hs c now vrfVerify sigVerify leafVerify audVerify visit k state,
  (forall req resp k', sq_last req = getLast state ->
    clientSearch H hs c now vrfVerify sigVerify leafVerify audVerify visit k state req resp = Ok k' ->
    exists st, state = Some st /\ fth_head (sr_head resp) = None) /\
  (forall ls req resp k', iq_last req = getLast state ->
    clientOwnerInit H hs c now vrfVerify sigVerify audVerify k state ls req resp = Ok k' ->
    exists st, state = Some st /\ fth_head (ir_head resp) = None) /\
  (forall ls req resp k', cq_last req = getLast state ->
    clientContactMonitor H hs c now sigVerify audVerify k state ls req resp = Ok k' ->
    exists st, state = Some st /\ fth_head (mr_head resp) = None) /\
  (forall ls req resp k', oq_last req = getLast state ->
    clientOwnerMonitor H hs c now sigVerify audVerify k state ls req resp = Ok k' ->
    exists st, state = Some st /\ fth_head (mr_head resp) = None) /\
  (forall sv resp out, ss_state sv = state ->
    streamVerify H hs c now vrfVerify sigVerify leafVerify audVerify k sv resp = Ok out ->
    exists st, state = Some st /\ fth_head (ur_head resp) = None).
Proof. exact no_head_accepted. Qed.
Print Assumptions C45_C46_no_tree_head_accepted.

(** C46 is false: the honest first response crashes a client without state. *)
Theorem C46_refuted : exists f hs c vrf vrfVerify sign sigVerify Ls t rs now req resp,
  (forall x, lenN (f x) = hs) /\ vrfVerifies vrf vrfVerify /\ sigVerifies sign sigVerify /\
  runs (full f) hs c vrf sign Ls t rs /\
  sq_last req = None /\ serverSearch (full f) hs c vrf now (serverOf t) req = Ok resp /\
  forall visit, clientSearch (full f) hs c now vrfVerify sigVerify sigVerify sigVerify visit emptyClient None req resp
    = Panic "nil pointer dereference"%string.
Proof. exact c46_refuted. Qed.
Print Assumptions C46_refuted.

(** C47 is false: an honest answer to a client that knows the current tree head is refused.  The server proves the entries
    against nothing, the client expects a proof that omits what it retains. *)
Theorem C47_refuted : exists f hs c vrf vrfVerify sign sigVerify Ls t rs st es now req resp,
  (forall x, lenN (f x) = hs) /\ vrfVerifies vrf vrfVerify /\ sigVerifies sign sigVerify /\
  runs (full f) hs c vrf sign Ls t rs /\ logOf t es /\ t_head t = Some (cs_head st) /\ stateFor f (cs_head st) es st /\
  sq_last req = getLast (Some st) /\ serverSearch (full f) hs c vrf now (serverOf t) req = Ok resp /\
  forall k visit, clientSearch (full f) hs c now vrfVerify sigVerify sigVerify sigVerify visit k (Some st) req resp = Fail "malformed proof"%string.
Proof. exact c47_refuted. Qed.
Print Assumptions C47_refuted.

(** C48 is false: even an honest response crashes the client ... *)
Theorem C48_refuted : exists f hs c vrf vrfVerify sign sigVerify Ls t rs now req resp,
  (forall x, lenN (f x) = hs) /\ vrfVerifies vrf vrfVerify /\ sigVerifies sign sigVerify /\
  runs (full f) hs c vrf sign Ls t rs /\ serverSearch (full f) hs c vrf now (serverOf t) req = Ok resp /\
  exists e, forall visit, clientSearch (full f) hs c now vrfVerify sigVerify sigVerify sigVerify visit emptyClient None req resp = Panic e.
Proof. exact c48_refuted. Qed.
Print Assumptions C48_refuted.

(** ... and a malformed one crashes any owner of a label without versions: an update response with one version and an empty
    binary ladder. *)
Theorem C48_short_ladder_refuted : forall H hs c now vrfVerify sigVerify leafVerify audVerify k sv resp o val info,
  cl_owner (ss_label sv) = Some o -> ownerGreatest o = None -> pc_mode c <> ThirdPartyManagement ->
  ur_values resp = [val] -> ur_info resp = [info] -> ui_sig info = None -> ur_ladder resp = [] ->
  (exists com, labelCommitment H (ui_opening info) (uq_label (ss_req sv)) 0 {| uv_value := val; uv_sig := None |} = Ok com) ->
  streamVerify H hs c now vrfVerify sigVerify leafVerify audVerify k sv resp = Panic "index out of range"%string.
Proof. exact frontierless. Qed.
Print Assumptions C48_short_ladder_refuted.

Example C48_short_ladder_example : exists sv resp,
  streamVerify (full toy32) 32 xc 3000 xvv xsv xsv xsv emptyClient sv resp = Panic "index out of range"%string.
Proof.
  exists {| ss_state := Some st3; ss_label := {| cl_contact := []; cl_owner := Some {| os_starting := 0; os_verAt := (-1)%Z; os_upcoming := [] |}; cl_versions := [] |};
            ss_req := {| uq_last := Some 3; uq_label := lc; uq_greatest := None; uq_values := [] |} |}.
  exists {| ur_head := {| fth_head := None; fth_auditor := None |}; ur_position := 2; ur_values := [[x05]];
            ur_info := [{| ui_opening := sr_opening r0; ui_sig := None |}]; ur_ladder := []; ur_update := sr_search r0 |}.
  vm_compute. reflexivity.
Qed.

(** C49 is false: the same response is accepted by a client without state for the label, and refused afterwards. *)
Theorem C49_refuted : exists f hs c vrf vrfVerify sign sigVerify Ls t rs st es now req honestResp resp visit k' ls,
  (forall x, lenN (f x) = hs) /\ vrfVerifies vrf vrfVerify /\ sigVerifies sign sigVerify /\
  runs (full f) hs c vrf sign Ls t rs /\ logOf t es /\ t_head t = Some (cs_head st) /\ stateFor f (cs_head st) es st /\ pc_mode c = ContactMonitoring /\
  sq_last req = getLast (Some st) /\ serverSearch (full f) hs c vrf now (serverOf t) req = Ok honestResp /\
  resp = withoutLogProof honestResp /\
  clientSearch (full f) hs c now vrfVerify sigVerify sigVerify sigVerify visit emptyClient (Some st) req resp = Ok k' /\
  getLabelState hs k' (sq_label req) = Ok ls /\ cl_contact ls <> [] /\
  clientSearch (full f) hs c now vrfVerify sigVerify sigVerify sigVerify visit k' (Some st) req resp = Fail "can not add the same version twice"%string.
Proof. exact c49_refuted. Qed.
Print Assumptions C49_refuted.

(** In general, what is retained for a monitored label includes version 0, and while it does no search for the label changes
    what is retained for any label: an accepted search is one that needs no monitoring. *)
Theorem C49_retained_label_blocks_search : forall H hs c now vrfVerify sigVerify leafVerify audVerify visit k state req resp ls k',
  getLabelState hs k (sq_label req) = Ok ls -> (exists e, In e (cl_versions ls) /\ rv_version e = 0) ->
  clientSearch H hs c now vrfVerify sigVerify leafVerify audVerify visit k state req resp = Ok k' ->
  k_labels k' = k_labels k.
Proof. exact search_retained. Qed.
Print Assumptions C49_retained_label_blocks_search.

Theorem C49_version_0_is_retained : forall contact owner versions ls,
  updateRetainedVersions contact owner versions = Ok ls -> contact <> [] -> exists e, In e (cl_versions ls) /\ rv_version e = 0.
Proof. exact retained_zero. Qed.
Print Assumptions C49_version_0_is_retained.

Example C49_example : exists ls e, getLabelState 32 againStore la = Ok ls /\ In e (cl_versions ls) /\ rv_version e = 0.
Proof. do 2 eexists. split; [vm_compute; reflexivity|]. split; [now left|reflexivity]. Qed.

(** C76 is false: without any collision of the hash function (on all inputs hashed, including the commitment to the genuine
    value), with an unforgeable signature and a VRF with unique outputs, a client with the state of a genuine log accepts a
    value for the greatest version that differs from the one the log committed to. *)
Theorem C76_refuted : exists f T hs c vrf vrfVerify sign sigVerify Ls t rs st es now req resp visit k' l ver p,
  (forall x, lenN (f x) = hs) /\ ~ broken f (N.to_nat hs) T /\ vrfGood hs vrf Ls /\ vrfVerifies vrf vrfVerify /\ sigVerifies sign sigVerify /\
  runs (full f) hs c vrf sign Ls t rs /\ logOf t es /\ t_head t = Some (cs_head st) /\ stateFor f (cs_head st) es st /\
  sq_last req = getLast (Some st) /\ sq_label req = l /\ In l Ls /\
  clientSearch (restrict f T) hs c now vrfVerify sigVerify sigVerify sigVerify visit emptyClient (Some st) req resp = Ok k' /\
  sr_version resp = Some ver /\ nth_error (labelsNow rs l) (N.to_nat ver) = Some p /\
  (exists com, labelCommitment (restrict f T) (pv_opening p) l ver (pv_value p) = Ok com) /\
  sr_value resp <> pv_value p.
Proof. exact c76_refuted. Qed.
Print Assumptions C76_refuted.
