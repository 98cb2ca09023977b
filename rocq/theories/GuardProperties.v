(** What monitoring guards against, at the level of the client's API: C86 (owner monitoring), C87 (initialization of the owner), C88
    (contact monitoring).  The log is arbitrary: nothing is assumed of the prefix trees that its entries commit to. *)
From Coq Require Import Sorted.
From Verif Require Import Base LogTreeModel LogTreeSpec TransMathSpec PrefixModel PrefixSpec PrefixExamples CodecModel CodecSpec AlgModel AlgSpec HandleModel MutateExamples ServerModel ClientModel ClientSpec ClientExamples SoundExamples
  WatchSpec GuardSpec GuardProofs4 GuardProofs6 GuardExamples.
Open Scope N_scope.

(** C88.  [es] are the entries of a log, [leaves] their hashes and [trees] the prefix trees they commit to.  The client keeps right VRF
    outputs for the label ([genuineKeys]) and pairs of an entry and the version seen there.  If it accepts a response, and the root it
    computes is the root of this log, then on the way of each pair every entry shows a version at least as great, with the commitments
    that the client keeps; and the pairs kept after it are as they should be; or the hash function is broken on the inputs [T]. *)
Theorem C88_contact_monitor_guards : forall f T hs, (forall x, lenN (f x) = hs) -> 0 < hs ->
  forall c, pc_hs c = N.to_nat hs -> forall vrf now es leaves trees, commitsTo (restrict f T) (N.to_nat hs) es leaves trees -> ordered es ->
  forall state, keptFrom es state ->
  forall ls req resp checked mo result root, NoDup (map fst (cl_contact ls)) -> Forall (fun p => fst p < lenN es) (cl_contact ls) ->
  genuineKeys vrf (cq_label req) ls -> okMonitorResponse c resp ->
  checkContactMonitor (restrict f T) hs c now state ls req resp = Ok (checked, mo) -> v_n checked = lenN es ->
  dpFinish (restrict f T) hs (v_d checked) (v_n checked) (v_nP checked) (v_m checked) = Ok result ->
  logRoot (restrict f T) hs (v_n checked) (pr_subtrees result) = Ok root -> Mth (restrict f T) leaves root ->
  staysShown (lenN es) (timeAt es) (pc_rmw c) vrf (cq_label req) (keeps ls) trees (fun _ => False) (cl_contact ls) /\
  movedUp (lenN es) (timeAt es) (pc_rmw c) (cl_contact ls) (pointsTo mo)
  \/ broken f (N.to_nat hs) T.
Proof.
  exact (fun f T hs Hf Hhs c Hc vrf now es leaves trees Hlog Hord state Hstate ls req resp checked mo result root ND Fo G Or =>
    contactMonitor_guards f T hs Hf Hhs c Hc vrf now es leaves trees Hlog Hord state Hstate (cq_label req) (keeps ls) ls req resp checked mo result root ND Fo eq_refl eq_refl G Or).
Qed.
Print Assumptions C88_contact_monitor_guards.

Example C88_nonvacuous :
  commitsTo (restrict toy32 gtab) 32 es3 (leavesIn es3) trees3 /\ ordered es3 /\ NoDup (map fst (cl_contact mls)) /\ Forall (fun p => fst p < lenN es3) (cl_contact mls) /\
  genuineKeys xvrf (cq_label mcq) mls /\ okMonitorResponse xc mcr /\ ~ broken toy32 32 gtab /\
  exists checked mo result, checkContactMonitor (restrict toy32 gtab) 32 xc 3000 None mls mcq mcr = Ok (checked, mo) /\ v_n checked = lenN es3 /\
    dpFinish (restrict toy32 gtab) 32 (v_d checked) (v_n checked) (v_nP checked) (v_m checked) = Ok result /\
    logRoot (restrict toy32 gtab) 32 (v_n checked) (pr_subtrees result) = Ok root3L /\ Mth (restrict toy32 gtab) (leavesIn es3) root3L /\ mo_contact mo = Some [(2, 2)].
Proof. exact c88_example. Qed.

(** C86, under the assumption [aliasFree] (see C26, C27).  If the owner of a label, who knows its history, accepts a response, then the
    tree of every distinguished entry up to the new starting point shows exactly the owner's history; and the pairs are as for C88, the
    distinguished entries right of the old starting point excepted. *)
Theorem C86_owner_monitor_guards_partial : forall f T hs, (forall x, lenN (f x) = hs) -> 0 < hs ->
  forall c, pc_hs c = N.to_nat hs -> forall vrf now es leaves trees, commitsTo (restrict f T) (N.to_nat hs) es leaves trees -> ordered es ->
  forall state, keptFrom es state ->
  forall ls req resp checked mo result root hist os, NoDup (map fst (cl_contact ls)) -> Forall (fun p => fst p < lenN es) (cl_contact ls) ->
  genuineKeys vrf (oq_label req) ls -> okMonitorResponse c resp -> aliasFree vrf (oq_label req) (keeps ls) (cp_proofs (mr_monitor resp)) ->
  cl_owner ls = Some os -> StronglySorted N.le hist -> (Z.of_nat (List.length hist) < 4294967296)%Z -> tracks hist os ->
  checkOwnerMonitor (restrict f T) hs c now state ls req resp = Ok (checked, mo) -> v_n checked = lenN es ->
  dpFinish (restrict f T) hs (v_d checked) (v_n checked) (v_nP checked) (v_m checked) = Ok result ->
  logRoot (restrict f T) hs (v_n checked) (pr_subtrees result) = Ok root -> Mth (restrict f T) leaves root ->
  (exists os', mo_owner mo = Some os' /\ tracks hist os' /\ os_starting os <= os_starting os' /\
    (os_starting os' = os_starting os \/ distinguished (lenN es) (timeAt es) (pc_rmw c) (os_starting os')) /\
    forall d t, distinguished (lenN es) (timeAt es) (pc_rmw c) d -> os_starting os < d <= os_starting os' -> nth_error trees (N.to_nat d) = Some t ->
      showsGreatest vrf (oq_label req) (keeps ls) t (expected hist d)) /\
  staysShown (lenN es) (timeAt es) (pc_rmw c) vrf (oq_label req) (keeps ls) trees
    (fun z => os_starting os < z /\ distinguished (lenN es) (timeAt es) (pc_rmw c) z) (cl_contact ls) /\
  movedUp (lenN es) (timeAt es) (pc_rmw c) (cl_contact ls) (pointsTo mo)
  \/ broken f (N.to_nat hs) T.
Proof.
  exact (fun f T hs Hf Hhs c Hc vrf now es leaves trees Hlog Hord state Hstate ls req resp checked mo result root hist os ND Fo G Or Al =>
    ownerMonitor_guards f T hs Hf Hhs c Hc vrf now es leaves trees Hlog Hord state Hstate (oq_label req) (keeps ls) ls req resp checked mo result root hist os ND Fo eq_refl eq_refl G Or Al).
Qed.
Print Assumptions C86_owner_monitor_guards_partial.

Example C86_nonvacuous :
  commitsTo (restrict toy32 gtab) 32 es3 (leavesIn es3) trees3 /\ ordered es3 /\ NoDup (map fst (cl_contact ols)) /\ Forall (fun p => fst p < lenN es3) (cl_contact ols) /\
  genuineKeys xvrf (oq_label moq) ols /\ okMonitorResponse xc mor /\ aliasFree xvrf (oq_label moq) (keeps ols) (cp_proofs (mr_monitor mor)) /\
  StronglySorted N.le [0; 0; 2] /\ tracks [0; 0; 2] oos /\ ~ broken toy32 32 gtab /\
  exists checked mo result, checkOwnerMonitor (restrict toy32 gtab) 32 xc 3000 None ols moq mor = Ok (checked, mo) /\ v_n checked = lenN es3 /\
    dpFinish (restrict toy32 gtab) 32 (v_d checked) (v_n checked) (v_nP checked) (v_m checked) = Ok result /\
    logRoot (restrict toy32 gtab) 32 (v_n checked) (pr_subtrees result) = Ok root3L /\ Mth (restrict toy32 gtab) (leavesIn es3) root3L /\
    mo_owner mo = Some {| os_starting := 1; os_verAt := 1%Z; os_upcoming := [2] |}.
Proof. exact c86_example. Qed.

(** C86 without [aliasFree]: the owner accepts a log whose second entry, which is distinguished, already holds the version that the
    owner published in the third, with its leaf shown as evidence that it is absent. *)
Theorem C86_owner_monitor_guards_refuted : exists f T hs c vrf now es leaves trees ls req resp checked mo result root hist os os' d t,
  (forall x, lenN (f x) = hs) /\ 0 < hs /\ pc_hs c = N.to_nat hs /\ commitsTo (restrict f T) (N.to_nat hs) es leaves trees /\ ordered es /\
  NoDup (map fst (cl_contact ls)) /\ Forall (fun p => fst p < lenN es) (cl_contact ls) /\ genuineKeys vrf (oq_label req) ls /\ okMonitorResponse c resp /\
  cl_owner ls = Some os /\ StronglySorted N.le hist /\ tracks hist os /\
  checkOwnerMonitor (restrict f T) hs c now None ls req resp = Ok (checked, mo) /\ v_n checked = lenN es /\
  dpFinish (restrict f T) hs (v_d checked) (v_n checked) (v_nP checked) (v_m checked) = Ok result /\
  logRoot (restrict f T) hs (v_n checked) (pr_subtrees result) = Ok root /\ Mth (restrict f T) leaves root /\
  mo_owner mo = Some os' /\ distinguished (lenN es) (timeAt es) (pc_rmw c) d /\ os_starting os < d <= os_starting os' /\ nth_error trees (N.to_nat d) = Some t /\
  ~ showsGreatest vrf (oq_label req) (keeps ls) t (expected hist d) /\ ~ broken f (N.to_nat hs) T.
Proof. exact c86_refuted. Qed.
Print Assumptions C86_owner_monitor_guards_refuted.

(** C87, under the assumption [aliasFree].  If initialization at a starting entry is accepted, then that entry is distinguished and
    unexpired, the entries looked at are it and its unexpired ancestors to the left, and the tree of each shows the version claimed
    for it as the greatest, with the commitments given in the response. *)
Theorem C87_owner_init_guards_partial : forall f T hs, (forall x, lenN (f x) = hs) -> 0 < hs ->
  forall c, pc_hs c = N.to_nat hs -> forall vrf now es leaves trees, commitsTo (restrict f T) (N.to_nat hs) es leaves trees -> ordered es ->
  forall state, keptFrom es state ->
  forall vrfVerify req resp checked xs mo result root, vrfVerifies vrf vrfVerify ->
  okOwnerInitResponse c resp -> aliasFree vrf (iq_label req) (initClaims resp) (cp_proofs (ir_init resp)) ->
  checkOwnerInit (restrict f T) hs c now vrfVerify state req resp = Ok (checked, xs, mo) -> v_n checked = lenN es ->
  dpFinish (restrict f T) hs (v_d checked) (v_n checked) (v_nP checked) (v_m checked) = Ok result ->
  logRoot (restrict f T) hs (v_n checked) (pr_subtrees result) = Ok root -> Mth (restrict f T) leaves root ->
  (let L := {| h_n := lenN es; h_ts := timeAt es; h_g := fun _ => (-1)%Z |} in
   distinguished (lenN es) (timeAt es) (pc_rmw c) (iq_start req) /\ unexpired c L (iq_start req) /\ initialEntries c L (iq_start req) xs /\
   mo_owner mo = Some {| os_starting := iq_start req; os_verAt := claimed (ir_versions resp) 0; os_upcoming := [] |} /\
   forall i x t, nth_error xs i = Some x -> nth_error trees (N.to_nat x) = Some t ->
     showsGreatest vrf (iq_label req) (initClaims resp) t (claimed (ir_versions resp) i))
  \/ broken f (N.to_nat hs) T.
Proof.
  exact (fun f T hs Hf Hhs c Hc vrf now es leaves trees Hlog Hord state Hstate vrfVerify req resp checked xs mo result root Hv Or Al =>
    ownerInit_guards f T hs Hf Hhs c Hc vrf now es leaves trees Hlog Hord state Hstate (iq_label req) (initClaims resp) vrfVerify req resp checked xs mo result root Hv eq_refl eq_refl Or Al).
Qed.
Print Assumptions C87_owner_init_guards_partial.

Example C87_nonvacuous :
  commitsTo (restrict toy32 gtab) 32 es3 (leavesIn es3) trees3 /\ ordered es3 /\ okOwnerInitResponse xc mir /\ aliasFree xvrf (iq_label miq) (initClaims mir) (cp_proofs (ir_init mir)) /\
  ir_versions mir = [1] /\ ~ broken toy32 32 gtab /\
  exists checked mo result, checkOwnerInit (restrict toy32 gtab) 32 xc 3000 xvv None miq mir = Ok (checked, [1], mo) /\ v_n checked = lenN es3 /\
    dpFinish (restrict toy32 gtab) 32 (v_d checked) (v_n checked) (v_nP checked) (v_m checked) = Ok result /\
    logRoot (restrict toy32 gtab) 32 (v_n checked) (pr_subtrees result) = Ok root3L /\ Mth (restrict toy32 gtab) (leavesIn es3) root3L.
Proof. exact c87_example. Qed.

(** C87 without [aliasFree]: initialization is accepted with greatest version 1 for an entry whose tree holds version 2. *)
Theorem C87_owner_init_guards_refuted : exists f T hs c vrf now es leaves trees vrfVerify req resp checked xs mo result root i x t,
  (forall x, lenN (f x) = hs) /\ 0 < hs /\ pc_hs c = N.to_nat hs /\ commitsTo (restrict f T) (N.to_nat hs) es leaves trees /\ ordered es /\
  vrfVerifies vrf vrfVerify /\ okOwnerInitResponse c resp /\
  checkOwnerInit (restrict f T) hs c now vrfVerify None req resp = Ok (checked, xs, mo) /\ v_n checked = lenN es /\
  dpFinish (restrict f T) hs (v_d checked) (v_n checked) (v_nP checked) (v_m checked) = Ok result /\
  logRoot (restrict f T) hs (v_n checked) (pr_subtrees result) = Ok root /\ Mth (restrict f T) leaves root /\
  nth_error xs i = Some x /\ nth_error trees (N.to_nat x) = Some t /\
  ~ showsGreatest vrf (iq_label req) (initClaims resp) t (claimed (ir_versions resp) i) /\ ~ broken f (N.to_nat hs) T.
Proof. exact c87_refuted. Qed.
Print Assumptions C87_owner_init_guards_refuted.

(** ** The client's operations

    Each of them succeeds only if the checks above do, the signature of a tree head is one of the root computed, and what is stored for
    the label is what the checks returned, filed under the rightmost distinguished entry (contact), the entry up to which the owner has
    monitored (owner) or the entry where ownership starts (initialization); and versions are only kept as they were kept before, or as they were claimed. *)
Theorem C88_client_checks : forall H hs c now sigVerify audVerify k state ls req resp k',
  clientContactMonitor H hs c now sigVerify audVerify k state ls req resp = Ok k' ->
  exists checked mo result root, checkContactMonitor H hs c now state ls req resp = Ok (checked, mo) /\
    dpFinish H hs (v_d checked) (v_n checked) (v_nP checked) (v_m checked) = Ok result /\ logRoot H hs (v_n checked) (pr_subtrees result) = Ok root /\
    signedHead c sigVerify (mr_head resp) (v_n checked) root /\
  exists ls' pos, stores k k' (cq_label req) ls' pos /\ (exists after, execV H hs (rightmostDistinguished c (v_n checked)) checked = Ok (Some pos, after)) /\ (forall y v, In (y, v) (cl_contact ls') <-> pointsTo mo y v) /\ cl_owner ls' = cl_owner ls /\
    forall r, In r (cl_versions ls') -> In r (cl_versions ls).
Proof. exact contact_checks. Qed.
Print Assumptions C88_client_checks.

Theorem C86_client_checks : forall H hs c now sigVerify audVerify k state ls req resp k',
  clientOwnerMonitor H hs c now sigVerify audVerify k state ls req resp = Ok k' ->
  exists checked mo result root, checkOwnerMonitor H hs c now state ls req resp = Ok (checked, mo) /\
    dpFinish H hs (v_d checked) (v_n checked) (v_nP checked) (v_m checked) = Ok result /\ logRoot H hs (v_n checked) (pr_subtrees result) = Ok root /\
    signedHead c sigVerify (mr_head resp) (v_n checked) root /\
  exists ls' o', stores k k' (oq_label req) ls' (os_starting o') /\ mo_owner mo = Some o' /\ (forall y v, In (y, v) (cl_contact ls') <-> pointsTo mo y v) /\ cl_owner ls' = mo_owner mo /\
    forall r, In r (cl_versions ls') -> In r (cl_versions ls).
Proof. exact owner_checks. Qed.
Print Assumptions C86_client_checks.

Theorem C87_client_checks : forall H hs c now vrfVerify sigVerify audVerify vrf k state ls req resp k', vrfVerifies vrf vrfVerify ->
  clientOwnerInit H hs c now vrfVerify sigVerify audVerify k state ls req resp = Ok k' ->
  exists checked xs mo result root, checkOwnerInit H hs c now vrfVerify state req resp = Ok (checked, xs, mo) /\
    dpFinish H hs (v_d checked) (v_n checked) (v_nP checked) (v_m checked) = Ok result /\ logRoot H hs (v_n checked) (pr_subtrees result) = Ok root /\
    signedHead c sigVerify (ir_head resp) (v_n checked) root /\
  exists ls', stores k k' (iq_label req) ls' (iq_start req) /\ cl_contact ls' = cl_contact ls /\ cl_owner ls' = mo_owner mo /\
    (genuineKeys vrf (iq_label req) ls -> genuineKeys vrf (iq_label req) ls') /\ forall w com, keeps ls' w com -> keeps ls w com \/ initClaims resp w com.
Proof. exact init_checks. Qed.
Print Assumptions C87_client_checks.

(** Responses that the client's operations accept (a client with state, whose tree head has not changed, see C45). *)
Example client_checks_nonvacuous :
  (exists k', clientContactMonitor (full toy32) 32 xc 3000 xsv xsv emptyClient (Some st3) mls mcq3 mcr3 = Ok k') /\
  (exists k', clientOwnerMonitor (full toy32) 32 xc 3000 xsv xsv emptyClient (Some st3) ols moq3 mor3 = Ok k') /\
  (exists k', clientOwnerInit (full toy32) 32 xc 3000 xvv xsv xsv emptyClient (Some st3) noLabelState miq3 mir3 = Ok k').
Proof. exact client_checks_example. Qed.
