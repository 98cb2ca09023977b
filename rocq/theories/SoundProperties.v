(** Searches: what a client accepts is what the log holds, but for the aliases of C26 and C27. *)
From Verif Require Import Base LogTreeModel LogTreeSpec TransMathModel PrefixModel PrefixSpec PrefixExamples CodecModel CodecSpec AlgModel HandleModel HandleSpec StoreModel CommitModel MutateModel MutateSpec MutateExamples
  ServerModel ClientModel ClientSpec ClientExamples SearchExamples SoundSpec SoundProofs3 SoundProofs4 SoundExamples.
Open Scope N_scope.
Local Open Scope list_scope.

(** C76, in part: the client has seen the genuine log of a server, at some size; someone else answers its search with anything at
    all.  If the answer passes every check of the client, then the value is the one the server published for that version, and if
    the search was for the greatest version, it is the greatest one in the log the client knows -- or two inputs with the same hash
    were found (among those hashed for the log and by the client, [T]).  Missing: the conditions of [noAliases], which the client
    does not check ([C76_refuted]). *)
Theorem C76_partial : forall f hs, (forall x, lenN (f x) = hs) -> 0 < hs <= 32 ->
  forall c vrf Ls, vrfGood hs vrf Ls -> pc_hs c = N.to_nat hs -> forall sign vrfVerify, vrfVerifies vrf vrfVerify ->
  forall now leafVerify sigVerify audVerify t rs l st,
  runs (full f) hs c vrf sign Ls t rs -> rs <> [] -> In l Ls -> Forall (fun r => ~ In l (rq_remove r)) rs ->
  Forall (fun p => size (pc_openSize c) (pv_opening p)) (labelsNow rs l) -> hasSeen f t (lenN rs) st ->
  exists hashed, forall T, incl hashed T -> forall visit k req resp k',
  sq_label req = l -> sq_last req = getLast (Some st) -> okSearchRequest req -> okSearchResponse c (sq_version req) resp ->
  noAliases (restrict f T) vrf req resp ->
  clientSearch (restrict f T) hs c now vrfVerify sigVerify leafVerify audVerify visit k (Some st) req resp = Ok k' ->
  let published := labelsNow (firstn (N.to_nat (th_size (cs_head st))) rs) l in
  (exists v p, searchedVersion req resp = Ok v /\ nth_error published (N.to_nat v) = Some p /\ sr_value resp = pv_value p /\
     (sq_version req = None -> lenN published = v + 1)) \/ broken f (N.to_nat hs) T.
Proof. intros. eapply c76_partial; eauto. Qed.
Print Assumptions C76_partial.

(** An honest answer meets the conditions, although it shows a leaf of the label searched for. *)
Example C76_example : pc_hs xc = N.to_nat 32 /\
  Forall (fun p => size (pc_openSize xc) (pv_opening p)) (labelsNow [q1; q2; q3] la) /\ hasSeen toy32 t3 (lenN [q1; q2; q3]) st3 /\
  sq_last q3to3 = getLast (Some st3) /\ okSearchRequest q3to3 /\ okSearchResponse xc (sq_version q3to3) again /\
  noAliases (restrict toy32 tabAgain) xvrf q3to3 again /\ ~ broken toy32 32 tabAgain /\
  (exists p c d, In p (cp_proofs (sr_search again)) /\ In (NonLeaf (kv 2) c d) (p_results p)) /\
  clientSearch (restrict toy32 tabAgain) 32 xc 3000 xvv xsv xsv xsv xvisit emptyClient (Some st3) q3to3 again = Ok againStore.
Proof. exact c76_example. Qed.

(** The same for every client, with or without state, and every tree head, although C45 and C46 keep clients from accepting new
    tree heads: whatever passes the checks of a search and of the proof of its log entries, and carries the signature of the tree
    head (or relies on the one known), has the value and the greatest version published in the log of that size. *)
Theorem C76_checks_partial : forall f hs, (forall x, lenN (f x) = hs) -> 0 < hs <= 32 ->
  forall c, pc_hs c = N.to_nat hs -> forall vrf Ls, vrfGood hs vrf Ls -> forall sign vrfVerify, vrfVerifies vrf vrfVerify ->
  forall leafVerify now sigVerify t rs l state,
  runs (full f) hs c vrf sign Ls t rs -> rs <> [] -> In l Ls -> Forall (fun r => ~ In l (rq_remove r)) rs ->
  Forall (fun p => size (pc_openSize c) (pv_opening p)) (labelsNow rs l) ->
  match state with Some st => hasSeen f t (lenN rs) st | None => True end -> onlyHeadsOf f c t (lenN rs) sigVerify ->
  exists hashed, forall T, incl hashed T -> forall req resp checked v pos result root,
  sq_label req = l -> sq_last req = getLast state -> okSearchRequest req -> okSearchResponse c (sq_version req) resp ->
  noAliases (restrict f T) vrf req resp ->
  checkSearch (restrict f T) hs c now vrfVerify leafVerify state req resp = Ok (checked, v, pos) ->
  dpFinish (restrict f T) hs (v_d checked) (v_n checked) (v_nP checked) (v_m checked) = Ok result ->
  logRoot (restrict f T) hs (v_n checked) (pr_subtrees result) = Ok root ->
  (match fth_head (sr_head resp) with Some th => exists tbs, treeHeadTBS c (v_n checked) root = Ok tbs /\ sigVerify tbs (th_sig th) = true | None => True end) ->
  let published := labelsNow (firstn (N.to_nat (v_n checked)) rs) l in
  (exists p, nth_error published (N.to_nat v) = Some p /\ sr_value resp = pv_value p /\ (sq_version req = None -> lenN published = v + 1))
  \/ broken f (N.to_nat hs) T.
Proof. exact checks_sound. Qed.
Print Assumptions C76_checks_partial.

Example C76_checks_example : okSearchRequest q0 /\ okSearchResponse xc (sq_version q0) r0 /\ onlyHeadsOf toy32 xc t3 (lenN [q1; q2; q3]) oneHead /\
  noAliases (restrict toy32 tab0) xvrf q0 r0 /\ ~ broken toy32 32 tab0 /\
  exists checked v pos result root th tbs, checkSearch (restrict toy32 tab0) 32 xc 3000 xvv xsv None q0 r0 = Ok (checked, v, pos) /\
    dpFinish (restrict toy32 tab0) 32 (v_d checked) (v_n checked) (v_nP checked) (v_m checked) = Ok result /\
    logRoot (restrict toy32 tab0) 32 (v_n checked) (pr_subtrees result) = Ok root /\
    fth_head (sr_head r0) = Some th /\ treeHeadTBS xc (v_n checked) root = Ok tbs /\ oneHead tbs (th_sig th) = true.
Proof. exact c76_checks_example. Qed.
