(** C102: what an auditor adds to monitoring. *)
From Coq Require Import Sorted.
From Verif Require Import Base LogTreeModel LogTreeSpec TransMathSpec PrefixModel PrefixSpec PrefixExamples CodecModel CodecSpec AlgModel AlgSpec HandleModel MutateExamples ServerModel ClientModel ClientSpec ClientExamples
  AuditorModel AuditorSpec AuditorExamples AuditTreeSpec WatchSpec GuardSpec GuardExamples VouchSpec VouchProofs VouchExamples.
Open Scope N_scope.
Local Open Scope list_scope.

(** C102, the log that a signature of the auditor is about.  After any history of updates (with any proofs), commits, failures and restarts, the auditor signs a tree head; [us] are the updates
    its state has seen accepted, none of which removes anything, and the first of which started from the root of the tree with the entries [start].  Then the signed root is that of a log [es]
    with one entry for each update, and the prefix tree of each entry holds exactly [start] and what was added up to this entry, no key twice; or the hash function is broken on the inputs [T]. *)
Theorem C102_signed_log : forall f hs, (forall x, lenN (f x) = hs) -> 0 < hs ->
  forall c sign key us ps a put th a', audited (full f) hs c sign key us ps a -> Commit (full f) hs c sign put a = (Ok th, a') -> (forall s, a_state a = Some s -> as_sig s = None) ->
  exists es leaves root tbs, auditorTreeHeadTBS c (ath_ts th) (lenN us) root = Ok tbs /\ sign tbs = Ok (ath_sig th) /\ ath_size th = lenN us /\
  exists T0, forall T, incl T0 T -> Forall (fun u => au_removed u = [] /\ decoded hs u /\ hashedIn f T hs u) us ->
  forall u rest before start, us = u :: rest -> rootBefore (full f) hs u before -> treeWith f T hs before start ->
  (Mth (restrict f T) leaves root /\ exists trees, logOf (restrict f T) (N.to_nat hs) start us es leaves trees) \/ broken f (N.to_nat hs) T.
Proof. exact signed_log. Qed.
Print Assumptions C102_signed_log.

Example C102_signed_example : auditedX us3 [] b3 /\ (exists th a', adoC (Ok tt) b3 = (Ok th, a')) /\ (forall s, a_state b3 = Some s -> as_sig s = None) /\
  Forall (fun u => au_removed u = [] /\ decoded 32 u /\ hashedIn toy32 vtab 32 u) us3 /\ rootBefore (full toy32) 32 (upOf m1r) (repeat x00 32) /\ treeWith toy32 vtab 32 (repeat x00 32) [] /\ ~ broken toy32 32 vtab.
Proof. exact c102_signed. Qed.

(** C102, contact monitoring of such a log (compare C88).  Not only the entries on the way of a pair show the version seen or a greater one: every later entry does. *)
Theorem C102_contact_monitor : forall f T hs, (forall x, lenN (f x) = hs) -> 0 < hs ->
  forall c, pc_hs c = N.to_nat hs -> forall vrf now start us es leaves trees, logOf (restrict f T) (N.to_nat hs) start us es leaves trees ->
  forall state, keptFrom es state ->
  forall ls req resp checked mo result root, NoDup (map fst (cl_contact ls)) -> Forall (fun p => fst p < lenN es) (cl_contact ls) ->
  genuineKeys vrf (cq_label req) ls -> okMonitorResponse c resp ->
  checkContactMonitor (restrict f T) hs c now state ls req resp = Ok (checked, mo) -> v_n checked = lenN es ->
  dpFinish (restrict f T) hs (v_d checked) (v_n checked) (v_nP checked) (v_m checked) = Ok result ->
  logRoot (restrict f T) hs (v_n checked) (pr_subtrees result) = Ok root -> Mth (restrict f T) leaves root ->
  (forall x v z, In (x, v) (cl_contact ls) -> onWay (lenN es) (timeAt es) (pc_rmw c) x z -> shownFrom vrf (cq_label req) (keeps ls) trees z v)
  \/ broken f (N.to_nat hs) T.
Proof. exact contact_vouched. Qed.
Print Assumptions C102_contact_monitor.

Example C102_contact_example : logOf (restrict toy32 vtab) 32 [] us3 es3n (leavesIn es3n) trees3n /\ okMonitorResponse xc ncr /\
  onWay 3 (timeAt es3n) (pc_rmw xc) 0 1 /\
  exists checked mo result, checkContactMonitor (restrict toy32 vtab) 32 xc 3000 None mls mcq ncr = Ok (checked, mo) /\ v_n checked = lenN es3n /\
    dpFinish (restrict toy32 vtab) 32 (v_d checked) (v_n checked) (v_nP checked) (v_m checked) = Ok result /\
    logRoot (restrict toy32 vtab) 32 (v_n checked) (pr_subtrees result) = Ok root3n /\ Mth (restrict toy32 vtab) (leavesIn es3n) root3n.
Proof. exact c102_contact. Qed.

(** C102, owner monitoring of such a log (compare C86; [aliasFree] as there).  What the owner checks at distinguished entries then holds of all entries: up to a distinguished entry that was looked at,
    no entry holds the version after the last one that the owner had published by then, and no entry at all holds another commitment to one of the owner's versions that were looked up. *)
Theorem C102_owner_monitor : forall f T hs, (forall x, lenN (f x) = hs) -> 0 < hs ->
  forall c, pc_hs c = N.to_nat hs -> forall vrf now start us es leaves trees, logOf (restrict f T) (N.to_nat hs) start us es leaves trees ->
  forall state, keptFrom es state ->
  forall ls req resp checked mo result root hist os, NoDup (map fst (cl_contact ls)) -> Forall (fun p => fst p < lenN es) (cl_contact ls) ->
  genuineKeys vrf (oq_label req) ls -> okMonitorResponse c resp -> aliasFree vrf (oq_label req) (keeps ls) (cp_proofs (mr_monitor resp)) ->
  cl_owner ls = Some os -> StronglySorted N.le hist -> (Z.of_nat (List.length hist) < 4294967296)%Z -> tracks hist os ->
  checkOwnerMonitor (restrict f T) hs c now state ls req resp = Ok (checked, mo) -> v_n checked = lenN es ->
  dpFinish (restrict f T) hs (v_d checked) (v_n checked) (v_nP checked) (v_m checked) = Ok result ->
  logRoot (restrict f T) hs (v_n checked) (pr_subtrees result) = Ok root -> Mth (restrict f T) leaves root ->
  (exists os', mo_owner mo = Some os' /\ os_starting os <= os_starting os' /\
    forall d, distinguished (lenN es) (timeAt es) (pc_rmw c) d -> os_starting os < d <= os_starting os' ->
      settledAt vrf (oq_label req) (keeps ls) trees d (expected hist d))
  \/ broken f (N.to_nat hs) T.
Proof. exact owner_vouched. Qed.
Print Assumptions C102_owner_monitor.

Example C102_owner_example : okMonitorResponse xc nor /\ aliasFree xvrf la (keeps ols) (cp_proofs (mr_monitor nor)) /\ StronglySorted N.le [0; 0; 2] /\ tracks [0; 0; 2] oos /\
  exists checked mo result, checkOwnerMonitor (restrict toy32 vtab) 32 xc 3000 None ols moq nor = Ok (checked, mo) /\ v_n checked = lenN es3n /\
    dpFinish (restrict toy32 vtab) 32 (v_d checked) (v_n checked) (v_nP checked) (v_m checked) = Ok result /\
    logRoot (restrict toy32 vtab) 32 (v_n checked) (pr_subtrees result) = Ok root3n /\ option_map os_starting (mo_owner mo) = Some 1 /\ expected [0; 0; 2] 1 = 1%Z.
Proof. exact c102_owner. Qed.
