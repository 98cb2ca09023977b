(** C98: what someone who monitors a label from time to time, while the log grows, has seen in the end. *)
From Verif Require Import Base LogTreeModel LogTreeSpec TransMathSpec PrefixModel PrefixSpec PrefixExamples CodecModel CodecSpec AlgModel AlgSpec HandleModel MutateExamples ServerModel ClientModel ClientExamples SoundExamples GuardSpec GuardExamples
  TimeSpec TimeProofs TimeExamples.
Open Scope N_scope.
Local Open Scope list_scope.

(** C98.  The log need not be honest: nothing is assumed of the prefix trees its entries commit to.  When it had [n0] entries the user kept [ls], in which no version
    below [v] is looked for; then the user monitored the label, one or more times, and every response was accepted.  For every entry [x] at which a version was seen,
    and with the log as it was at the last time: every entry on the way of [x] shows version [v] or a greater one, with the commitments that the user kept
    at the beginning, although at each time only a part of the way was looked at; and as long as the way has not reached a distinguished entry, [v] or a greater version is
    still looked for on it; or the hash function is broken on the inputs [T]. *)
Theorem C98_monitored_over_time : forall f T hs, (forall x, lenN (f x) = hs) -> 0 < hs ->
  forall c vrf l, pc_hs c = N.to_nat hs -> forall es leaves trees, commitsTo (restrict f T) (N.to_nat hs) es leaves trees -> ordered es ->
  forall n0 ls v, 1 <= n0 <= lenN es -> NoDup (map fst (cl_contact ls)) -> Forall (fun p => fst p < n0) (cl_contact ls) -> genuineKeys vrf l ls ->
  (forall y u, In (y, u) (cl_contact ls) -> v <= u) ->
  forall n ls', monitoredFrom f T hs c l es leaves n0 ls n ls' ->
  (forall x u, In (x, u) (cl_contact ls) ->
    (forall z t, onWay n (timeAt es) (pc_rmw c) x z -> nth_error trees (N.to_nat z) = Some t -> exists v', v <= v' /\ showsVersion vrf l (keeps ls) t v') /\
    (pending n (timeAt es) (pc_rmw c) x -> exists y u', In (y, u') (cl_contact ls') /\ v <= u' /\ (y = x \/ onWay n (timeAt es) (pc_rmw c) x y)))
  \/ broken f (N.to_nat hs) T.
Proof. exact over_time. Qed.
Print Assumptions C98_monitored_over_time.

(** The client's operation is one of these times, if the root that it computes is the root of the log when it had [n] entries; and what is kept is what it stores. *)
Theorem C98_client_step : forall f T hs c now sigVerify audVerify es leaves n k state ls req resp k',
  clientContactMonitor (restrict f T) hs c now sigVerify audVerify k state ls req resp = Ok k' -> keptFrom (upto n es) state -> okMonitorResponse c resp ->
  (forall checked mo result root, checkContactMonitor (restrict f T) hs c now state ls req resp = Ok (checked, mo) ->
    dpFinish (restrict f T) hs (v_d checked) (v_n checked) (v_nP checked) (v_m checked) = Ok result -> logRoot (restrict f T) hs (v_n checked) (pr_subtrees result) = Ok root ->
    v_n checked = n /\ Mth (restrict f T) (upto n leaves) root) ->
  exists ls' pos, monitorsAt f T hs c (cq_label req) es leaves n ls ls' /\ stores k k' (cq_label req) ls' pos.
Proof. exact client_step. Qed.
Print Assumptions C98_client_step.

(** Version 1 was seen at entry 0, and is monitored when the log has two entries and when it has three.  The first time the way leads to entry 1; the second time entry 1
    is distinguished, and nothing is looked for any more. *)
Example C98_example : commitsTo (restrict toy32 gtab) 32 es3 (leavesIn es3) trees3 /\ ordered es3 /\ ~ broken toy32 32 gtab /\ genuineKeys xvrf la w1 /\
  cl_contact w1 = [(0, 1)] /\ monitorsAt toy32 gtab 32 xc la es3 (leavesIn es3) 2 w1 w2 /\ cl_contact w2 = [(1, 1)] /\ monitorsAt toy32 gtab 32 xc la es3 (leavesIn es3) 3 w2 w3 /\
  monitoredFrom toy32 gtab 32 xc la es3 (leavesIn es3) 1 w1 3 w3 /\ onWay 3 (timeAt es3) (pc_rmw xc) 0 1.
Proof.
  split; [exact es3_commits|]. split; [apply ordered3; reflexivity|]. split; [exact gtab_ok|]. split; [apply genuine_kept|]. split; [reflexivity|]. split; [exact step2|]. split; [reflexivity|].
  split; [exact step3|]. split; [exact time_example|exact way01].
Qed.
