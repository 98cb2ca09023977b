(** C92 and C93: what a client reports when the version it asks for does not exist, and what that report is worth. *)
From Verif Require Import Base LogTreeSpec PrefixModel PrefixSpec CodecModel CodecSpec AlgModel MutateModel MutateSpec ServerModel ClientModel ClientSpec SoundSpec AbsentSpec AbsentProofs2 AbsentProofs4 AbsentExamples PrefixExamples MutateExamples ClientExamples SearchExamples.
Open Scope N_scope.
Local Open Scope list_scope.

(** C92, for a search for a given version and without third-party management: the server answers a request for a version that the label
    does not have, and the client reports to its caller that there is no such version.
    Missing: searches for the most recent version and third-party management, where it is false (below); logs with expired entries. *)
Theorem C92_partial : forall f hs c vrf Ls sign vrfVerify now leafVerify sigVerify audVerify visit t rs l state v k,
  (forall x, lenN (f x) = hs) -> 0 < hs <= 32 -> vrfGood hs vrf Ls -> vrfVerifies vrf vrfVerify ->
  runs (full f) hs c vrf sign Ls t rs -> rs <> [] -> In l Ls -> Forall (fun r => ~ In l (rq_remove r)) rs ->
  lenN (labelsNow rs l) < 2 ^ 31 -> match state with Some st => hasSeen f t (lenN rs) st | None => True end ->
  lenN (labelsNow rs l) <= v -> v < 2 ^ 31 - 1 -> pc_mode c <> ThirdPartyManagement ->
  (forall r, In r rs -> isExpired (pc_maxLife c) (rq_now r) (latest rs) = false) -> clockFine c now (latest rs) ->
  let req := {| sq_last := getLast state; sq_label := l; sq_version := Some v |} in
  exists resp, serverSearch (full f) hs c vrf now (serverOf t) req = Ok resp /\
    clientSearch (full f) hs c now vrfVerify sigVerify leafVerify audVerify visit k state req resp = Fail ErrLabelNotFound.
Proof. exact (fun f hs c vrf Ls sign vv now lv sv av vi t rs l st v k Hf Hhs HV Hvv => c92_partial f hs Hf Hhs c vrf Ls HV sign vv Hvv now lv sv av vi t rs l st v k). Qed.
Print Assumptions C92_partial.

(** A search for the most recent version of a label that was never published is never reported as such by the client, nor is anything returned:
    whatever the client's keys, clock and state, it refuses the server's honest answer with another error. *)
Theorem C92_greatest_refuted : forall f hs c vrf Ls sign t rs req resp now,
  (forall x, lenN (f x) = hs) -> 0 < hs <= 32 -> vrfGood hs vrf Ls ->
  runs (full f) hs c vrf sign Ls t rs -> In (sq_label req) Ls -> labelsNow rs (sq_label req) = [] -> sq_version req = None ->
  serverSearch (full f) hs c vrf now (serverOf t) req = Ok resp ->
  forall now' vrfVerify sigVerify leafVerify audVerify visit k state,
  let r := clientSearch (full f) hs c now' vrfVerify sigVerify leafVerify audVerify visit k state req resp in
  (forall k', r <> Ok k') /\ r <> Fail ErrLabelNotFound.
Proof. exact (fun f hs c vrf Ls sign t rs q r now Hf Hhs HV => c92_absent f hs Hf Hhs c vrf Ls HV sign t rs q r now). Qed.
Print Assumptions C92_greatest_refuted.

(** With third-party management, a request for a version that does not exist is never reported as such either: the server cannot
    produce a signature of the operator over a value that does not exist, and the client asks for one before anything else. *)
Theorem C92_third_party_refuted : forall f hs c vrf Ls sign t rs req resp now v,
  (forall x, lenN (f x) = hs) -> 0 < hs <= 32 -> vrfGood hs vrf Ls ->
  runs (full f) hs c vrf sign Ls t rs -> In (sq_label req) Ls -> sq_version req = Some v -> v < 2 ^ 32 -> lenN (labelsNow rs (sq_label req)) <= v ->
  pc_mode c = ThirdPartyManagement -> serverSearch (full f) hs c vrf now (serverOf t) req = Ok resp ->
  forall now' vrfVerify sigVerify leafVerify audVerify visit k state, (forall tbs, leafVerify tbs [] = false) ->
  let r := clientSearch (full f) hs c now' vrfVerify sigVerify leafVerify audVerify visit k state req resp in
  (forall k', r <> Ok k') /\ r <> Fail ErrLabelNotFound.
Proof. exact (fun f hs c vrf Ls sign t rs q r now v Hf Hhs HV => c92_unsigned f hs Hf Hhs c vrf Ls HV sign t rs q r now v). Qed.
Print Assumptions C92_third_party_refuted.

(** The log of [t3] and version 3 of the label [la], of which versions 0, 1 and 2 exist. *)
Example C92_example : runs (full toy32) 32 xc xvrf xsign xLs t3 [q1; q2; q3] /\ In la xLs /\ Forall (fun r => ~ In la (rq_remove r)) [q1; q2; q3] /\
  lenN (labelsNow [q1; q2; q3] la) = 3 /\ hasSeen toy32 t3 (lenN [q1; q2; q3]) st3 /\ pc_mode xc <> ThirdPartyManagement /\
  (forall r, In r [q1; q2; q3] -> isExpired (pc_maxLife xc) (rq_now r) (latest [q1; q2; q3]) = false) /\ clockFine xc 3000 (latest [q1; q2; q3]).
Proof. exact c92_example. Qed.

(** The log of [t1], in which the label [lc] was never published. *)
Example C92_greatest_example : runs (full toy32) 32 xc xvrf xsign xLs t1 [q1] /\ In (sq_label qNone) xLs /\
  labelsNow [q1] (sq_label qNone) = [] /\ xserve t1 1000 qNone = Ok rNone /\
  xclient (full toy32) 1000 emptyClient None qNone rNone = Fail "incorrect number of binary ladder steps provided"%string.
Proof. exact c92_greatest_example. Qed.

(** C93 is false when the response comes with a new tree head: the client reports that the version does not exist before it has checked
    the signature of the tree head or that it extends the log it knows.  Here the client knows a log with the version it asks for, and the
    report is made whatever keys the signatures are checked with. *)
Theorem C93_refuted : exists f hs c vrf vrfVerify sign sigVerify Ls t rs now st req resp p,
  (forall x, lenN (f x) = hs) /\ vrfVerifies vrf vrfVerify /\ sigVerifies sign sigVerify /\ runs (full f) hs c vrf sign Ls t rs /\
  Forall (fun r => ~ In (sq_label req) (rq_remove r)) rs /\ hasSeen f t (lenN rs) st /\ sq_last req = getLast (Some st) /\
  sq_version req = Some 0 /\ nth_error (labelsNow (firstn (N.to_nat (th_size (cs_head st))) rs) (sq_label req)) 0 = Some p /\
  forall sigVerify' leafVerify audVerify visit k,
  clientSearch (full f) hs c now vrfVerify sigVerify' leafVerify audVerify visit k (Some st) req resp = Fail ErrLabelNotFound.
Proof. exact c93_refuted. Qed.
Print Assumptions C93_refuted.

(** C93 for a response about the tree head that the client already has: if its checks end with the report that the version does not exist
    ([checkSearch] are the checks a search makes before it stores anything; their error is the one returned to the caller), then that log
    does not have the version, or two inputs with the same hash were used.
    Missing: responses with a new tree head (refuted above); responses that show the same search key for two versions, or a leaf of the label
    itself in place of a missing version. *)
Theorem C93_partial : forall f hs c vrf Ls sign vrfVerify leafVerify now t rs l st,
  (forall x, lenN (f x) = hs) -> 0 < hs <= 32 -> pc_hs c = N.to_nat hs -> vrfGood hs vrf Ls -> vrfVerifies vrf vrfVerify ->
  runs (full f) hs c vrf sign Ls t rs -> rs <> [] -> In l Ls -> Forall (fun r => ~ In l (rq_remove r)) rs -> hasSeen f t (lenN rs) st ->
  exists T0, forall T, incl T0 T -> forall req resp v,
  sq_label req = l -> sq_last req = getLast (Some st) -> okSearchRequest req -> okSearchResponse c (sq_version req) resp ->
  noAliases (restrict f T) vrf req resp -> noOwnLeaf vrf req resp -> fth_head (sr_head resp) = None -> searchedVersion req resp = Ok v ->
  checkSearch (restrict f T) hs c now vrfVerify leafVerify (Some st) req resp = Fail ErrLabelNotFound ->
  nth_error (labelsNow (firstn (N.to_nat (th_size (cs_head st))) rs) l) (N.to_nat v) = None \/ broken f (N.to_nat hs) T.
Proof. exact (fun f hs c vrf Ls sign vv lv now t rs l st Hf Hhs Hc HV Hvv => c93_partial f hs Hf Hhs c Hc vrf Ls HV sign vv Hvv lv now t rs l st). Qed.
Print Assumptions C93_partial.

(** The honest answer to a client that knows the log of [t3] and asks for version 3, although a leaf of the label itself is shown. *)
Example C93_example : hasSeen toy32 t3 (lenN [q1; q2; q3]) st3 /\ sq_last qAbs = getLast (Some st3) /\ okSearchRequest qAbs /\ okSearchResponse xc (sq_version qAbs) rAbs /\
  noAliases (restrict toy32 tabAbs) xvrf qAbs rAbs /\ noOwnLeaf xvrf qAbs rAbs /\ fth_head (sr_head rAbs) = None /\ searchedVersion qAbs rAbs = Ok 3 /\
  ~ broken toy32 32 tabAbs /\ (exists p c d, In p (cp_proofs (sr_search rAbs)) /\ In (NonLeaf (kv 2) c d) (p_results p)) /\
  checkSearch (restrict toy32 tabAbs) 32 xc 3000 xvv xsv (Some st3) qAbs rAbs = Fail ErrLabelNotFound.
Proof. exact c93_example. Qed.
