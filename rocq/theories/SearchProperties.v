(** Searches end to end: what holds of an honest exchange although C45, C46 and C47 are false. *)
From Verif Require Import Base LogTreeModel LogTreeSpec TransMathModel PrefixModel PrefixExamples CodecModel CodecSpec AlgModel HandleModel HandleSpec StoreModel CommitModel MutateModel MutateSpec MutateExamples
  ServerModel ClientModel ClientSpec ClientExamples SearchProofs3 SearchExamples.
Open Scope N_scope.
Local Open Scope list_scope.

(** C46, in part: whatever mutations a server went through, a client without state that searches for a label gets the value last
    published (or the version it asked for), and every check it makes on the response succeeds: the VRF proofs, the value's commitment, the
    proofs of inclusion, the timestamps, and the signature of the tree head.  The state proven by the response is right.  Missing:
    the client does not survive what follows ([C46_refuted]). *)
Theorem C46_partial : forall f hs, (forall x, lenN (f x) = hs) -> 0 < hs <= 32 ->
  forall c vrf Ls, vrfGood hs vrf Ls -> forall sign sigVerify, sigVerifies sign sigVerify -> forall vrfVerify, vrfVerifies vrf vrfVerify ->
  forall leafVerify now audVerify t rs l version v p,
  runs (full f) hs c vrf sign Ls t rs -> rs <> [] -> In l Ls -> Forall (fun r => ~ In l (rq_remove r)) rs -> lenN (labelsNow rs l) < 2 ^ 31 ->
  nth_error (labelsNow rs l) (N.to_nat v) = Some p -> v < 2 ^ 31 - 1 -> asksFor c rs l None version v ->
  readable c p -> signedByOperator c leafVerify l v (pv_value p) -> clockFine c now (latest rs) ->
  let req := {| sq_last := None; sq_label := l; sq_version := version |} in
  exists resp th checked pos result,
    serverSearch (full f) hs c vrf now (serverOf t) req = Ok resp /\ sr_value resp = pv_value p /\
    sr_version resp = (match version with None => Some v | Some _ => None end) /\
    t_head t = Some th /\ sr_head resp = {| fth_head := Some th; fth_auditor := None |} /\
    checkSearch (full f) hs c now vrfVerify leafVerify None req resp = Ok (checked, v, pos) /\
    checkFinish (full f) hs c sigVerify audVerify checked = Ok result /\ hasSeen f t (lenN rs) (stateWith th result).
Proof. exact c46_partial. Qed.
Print Assumptions C46_partial.

Example C46_example :
  runs (full toy32) 32 xc xvrf xsign xLs t3 [q1; q2; q3] /\ In la xLs /\ Forall (fun r => ~ In la (rq_remove r)) [q1; q2; q3] /\
  lenN (labelsNow [q1; q2; q3] la) = 3 /\ asksFor xc [q1; q2; q3] la None None 2 /\ asksFor xc [q1; q2; q3] la None (Some 1) 1 /\
  (forall v p, nth_error (labelsNow [q1; q2; q3] la) (N.to_nat v) = Some p -> readable xc p /\ signedByOperator xc xsv la v (pv_value p)) /\
  clockFine xc 3000 (latest [q1; q2; q3]).
Proof. exact c46_example. Qed.

(** C45, in part: a client that has seen an earlier part of the log gets the value last published (or the version it asked for),
    and every check it makes on the response before comparing tree sizes succeeds; so would every check after it: the log's root hash,
    computed from what it retains and what it was sent, is the one that is signed.  The state proven by the response is right.
    Missing: the comparison of the sizes is the wrong way round ([C45_refuted]). *)
Theorem C45_partial : forall f hs, (forall x, lenN (f x) = hs) -> 0 < hs <= 32 ->
  forall c vrf Ls, vrfGood hs vrf Ls -> forall sign sigVerify, sigVerifies sign sigVerify -> forall vrfVerify, vrfVerifies vrf vrfVerify ->
  forall leafVerify now t rs l st version v p,
  runs (full f) hs c vrf sign Ls t rs -> rs <> [] -> In l Ls -> Forall (fun r => ~ In l (rq_remove r)) rs -> lenN (labelsNow rs l) < 2 ^ 31 ->
  hasSeen f t (lenN rs) st -> th_size (cs_head st) < lenN rs ->
  nth_error (labelsNow rs l) (N.to_nat v) = Some p -> v < 2 ^ 31 - 1 -> asksFor c rs l (getLast (Some st)) version v ->
  readable c p -> signedByOperator c leafVerify l v (pv_value p) -> clockFine c now (latest rs) ->
  let req := {| sq_last := getLast (Some st); sq_label := l; sq_version := version |} in
  exists resp th checked pos result root tbs,
    serverSearch (full f) hs c vrf now (serverOf t) req = Ok resp /\ sr_value resp = pv_value p /\
    sr_version resp = (match version with None => Some v | Some _ => None end) /\
    t_head t = Some th /\ sr_head resp = {| fth_head := Some th; fth_auditor := None |} /\
    checkSearch (full f) hs c now vrfVerify leafVerify (Some st) req resp = Ok (checked, v, pos) /\
    dpFinish (full f) hs (v_d checked) (lenN rs) None (getLast (Some st)) = Ok result /\
    logRoot (full f) hs (lenN rs) (pr_subtrees result) = Ok root /\ treeHeadTBS c (lenN rs) root = Ok tbs /\ sigVerify tbs (th_sig th) = true /\
    hasSeen f t (lenN rs) (stateWith th result).
Proof. exact c45_partial. Qed.
Print Assumptions C45_partial.

Example C45_example : hasSeen toy32 t3 (lenN [q1; q2; q3]) st2 /\ th_size (cs_head st2) = 2 /\ asksFor xc [q1; q2; q3] la (getLast (Some st2)) None 2.
Proof. exact c45_example. Qed.

(** C47, in part: a client that has seen the whole log gets the value last published (or the version it asked for), and some
    proof of inclusion, put in place of the one the server sends, makes the client accept the response with the right state.  Missing: the
    server sends another proof ([C47_refuted]); and the rest of the search in the contact monitoring mode. *)
Theorem C47_partial : forall f hs, (forall x, lenN (f x) = hs) -> 0 < hs <= 32 ->
  forall c vrf Ls, vrfGood hs vrf Ls -> forall sign sigVerify, sigVerifies sign sigVerify -> forall vrfVerify, vrfVerifies vrf vrfVerify ->
  forall leafVerify now audVerify t rs l st version v p,
  runs (full f) hs c vrf sign Ls t rs -> rs <> [] -> In l Ls -> Forall (fun r => ~ In l (rq_remove r)) rs -> lenN (labelsNow rs l) < 2 ^ 31 ->
  hasSeen f t (lenN rs) st -> th_size (cs_head st) = lenN rs ->
  nth_error (labelsNow rs l) (N.to_nat v) = Some p -> v < 2 ^ 31 - 1 -> asksFor c rs l (getLast (Some st)) version v ->
  readable c p -> signedByOperator c leafVerify l v (pv_value p) -> clockFine c now (latest rs) ->
  let req := {| sq_last := getLast (Some st); sq_label := l; sq_version := version |} in
  exists resp proof st',
    serverSearch (full f) hs c vrf now (serverOf t) req = Ok resp /\ sr_value resp = pv_value p /\
    sr_version resp = (match version with None => Some v | Some _ => None end) /\
    fth_head (sr_head resp) = None /\
    (exists checked pos, checkSearch (full f) hs c now vrfVerify leafVerify (Some st) req (withLogProof resp proof) = Ok (checked, v, pos) /\
       finish (full f) hs c sigVerify audVerify checked = Ok st') /\
    cs_head st' = cs_head st /\ hasSeen f t (lenN rs) st' /\
    (pc_mode c <> ContactMonitoring -> forall visit k,
       clientSearch (full f) hs c now vrfVerify sigVerify leafVerify audVerify visit k (Some st) req (withLogProof resp proof) = putState k st').
Proof. exact c47_partial. Qed.
Print Assumptions C47_partial.

Example C47_example : hasSeen toy32 t3 (lenN [q1; q2; q3]) st3 /\ th_size (cs_head st3) = lenN [q1; q2; q3] /\
  asksFor xc [q1; q2; q3] la (getLast (Some st3)) None 2 /\ asksFor xc [q1; q2; q3] la (getLast (Some st3)) (Some 1) 1.
Proof. exact c47_example. Qed.
