(** C45, C47, C76, C92 and C93 for clients whose state was loaded from storage. *)
From Coq Require Import Permutation.
From Verif Require Import Base LogTreeModel LogTreeSpec TransMathModel PrefixModel PrefixSpec PrefixExamples CodecModel CodecSpec AlgModel HandleModel HandleSpec StoreModel CommitModel MutateModel MutateSpec MutateExamples
  ServerModel ClientModel ClientSpec ClientExamples SearchExamples SoundSpec AbsentSpec GuardExamples RestExamples
  ReloadSpec LoadedSpec  LoadedProofs.
Open Scope N_scope.
Local Open Scope list_scope.

(** A state that is proven is one of these, and so is any of them that was saved, in any order of its map, and loaded. *)
Theorem C95_remembers : forall f t n st, n < 2 ^ 64 -> hasSeen f t n st -> remembers f t n st.
Proof. exact seen_remembers. Qed.
Print Assumptions C95_remembers.
Theorem C95_remembers_saved : forall f t n st c order raw st', remembers f t n st -> okClientState c st -> Permutation order (cs_entries st) -> (cs_auditor st = None <-> pc_mode c <> ThirdPartyAuditing) ->
  clientStateMarshal st order = Ok raw -> parseState c raw = Ok st' -> remembers f t n st'.
Proof. exact remembers_saved. Qed.
Print Assumptions C95_remembers_saved.

(** The state of the client [stRest] was loaded: it is not listed as it was proven. *)
Example C95_remembers_example : remembers toy32 t3 (lenN [q1; q2; q3]) stRest /\ ~ hasSeen toy32 t3 (lenN [q1; q2; q3]) stRest.
Proof. exact loaded_example. Qed.

(** C45, in part (see [C45_partial] for what is missing), for states with the contents of a genuine state, in any order. *)
Theorem C45_loaded_partial : forall f hs, (forall x, lenN (f x) = hs) -> 0 < hs <= 32 ->
  forall c vrf Ls, vrfGood hs vrf Ls -> forall sign sigVerify, sigVerifies sign sigVerify -> forall vrfVerify, vrfVerifies vrf vrfVerify ->
  forall leafVerify now t rs l st version v p,
  runs (full f) hs c vrf sign Ls t rs -> rs <> [] -> In l Ls -> Forall (fun r => ~ In l (rq_remove r)) rs -> lenN (labelsNow rs l) < 2 ^ 31 ->
  remembers f t (lenN rs) st -> th_size (cs_head st) < lenN rs ->
  nth_error (labelsNow rs l) (N.to_nat v) = Some p -> v < 2 ^ 31 - 1 -> asksFor c rs l (getLast (Some st)) version v ->
  readable c p -> signedByOperator c leafVerify l v (pv_value p) -> clockFine c now (latest rs) ->
  let req := {| sq_last := getLast (Some st); sq_label := l; sq_version := version |} in
  exists resp th checked pos result root tbs,
    serverSearch (full f) hs c vrf now (serverOf t) req = Ok resp /\ sr_value resp = pv_value p /\
    sr_version resp = (match version with None => Some v | Some _ => None end) /\
    t_head t = Some th /\ sr_head resp = {| fth_head := Some th; fth_auditor := None |} /\
    checkSearch (full f) hs c now vrfVerify leafVerify (Some st) req resp = Ok (checked, v, pos) /\
    dpFinish (full f) hs (v_d checked) (lenN rs) None (getLast (Some st)) = Ok result /\
    logRoot (full f) hs (lenN rs) (pr_subtrees result) = Ok root /\ treeHeadTBS c (lenN rs) root = Ok tbs /\ sigVerify tbs (th_sig th) = true /\
    hasSeen f t (lenN rs) (stateWith th result).
Proof. exact c45_loaded. Qed.
Print Assumptions C45_loaded_partial.

(** C47, in part (see [C47_partial]), for such states. *)
Theorem C47_loaded_partial : forall f hs, (forall x, lenN (f x) = hs) -> 0 < hs <= 32 ->
  forall c vrf Ls, vrfGood hs vrf Ls -> forall sign sigVerify, sigVerifies sign sigVerify -> forall vrfVerify, vrfVerifies vrf vrfVerify ->
  forall leafVerify now audVerify t rs l st version v p,
  runs (full f) hs c vrf sign Ls t rs -> rs <> [] -> In l Ls -> Forall (fun r => ~ In l (rq_remove r)) rs -> lenN (labelsNow rs l) < 2 ^ 31 ->
  remembers f t (lenN rs) st -> th_size (cs_head st) = lenN rs ->
  nth_error (labelsNow rs l) (N.to_nat v) = Some p -> v < 2 ^ 31 - 1 -> asksFor c rs l (getLast (Some st)) version v ->
  readable c p -> signedByOperator c leafVerify l v (pv_value p) -> clockFine c now (latest rs) ->
  let req := {| sq_last := getLast (Some st); sq_label := l; sq_version := version |} in
  exists resp proof st',
    serverSearch (full f) hs c vrf now (serverOf t) req = Ok resp /\ sr_value resp = pv_value p /\
    sr_version resp = (match version with None => Some v | Some _ => None end) /\
    fth_head (sr_head resp) = None /\
    (exists checked pos, checkSearch (full f) hs c now vrfVerify leafVerify (Some st) req (withLogProof resp proof) = Ok (checked, v, pos) /\
       finish (full f) hs c sigVerify audVerify checked = Ok st') /\
    cs_head st' = cs_head st /\ hasSeen f t (lenN rs) st' /\
    (pc_mode c <> ContactMonitoring -> forall visit k,
       clientSearch (full f) hs c now vrfVerify sigVerify leafVerify audVerify visit k (Some st) req (withLogProof resp proof) = putState k st').
Proof. exact c47_loaded. Qed.
Print Assumptions C47_loaded_partial.

(** C76, in part (see [C76_partial]), for such states. *)
Theorem C76_loaded_partial : forall f hs, (forall x, lenN (f x) = hs) -> 0 < hs <= 32 ->
  forall c vrf Ls, vrfGood hs vrf Ls -> pc_hs c = N.to_nat hs -> forall sign vrfVerify, vrfVerifies vrf vrfVerify ->
  forall now leafVerify sigVerify audVerify t rs l st,
  runs (full f) hs c vrf sign Ls t rs -> rs <> [] -> In l Ls -> Forall (fun r => ~ In l (rq_remove r)) rs ->
  Forall (fun p => size (pc_openSize c) (pv_opening p)) (labelsNow rs l) -> remembers f t (lenN rs) st ->
  exists hashed, forall T, incl hashed T -> forall visit k req resp k',
  sq_label req = l -> sq_last req = getLast (Some st) -> okSearchRequest req -> okSearchResponse c (sq_version req) resp ->
  noAliases (restrict f T) vrf req resp ->
  clientSearch (restrict f T) hs c now vrfVerify sigVerify leafVerify audVerify visit k (Some st) req resp = Ok k' ->
  let published := labelsNow (firstn (N.to_nat (th_size (cs_head st))) rs) l in
  (exists v p, searchedVersion req resp = Ok v /\ nth_error published (N.to_nat v) = Some p /\ sr_value resp = pv_value p /\
     (sq_version req = None -> lenN published = v + 1)) \/ broken f (N.to_nat hs) T.
Proof. exact c76_loaded. Qed.
Print Assumptions C76_loaded_partial.

(** C92, in part (see [C92_partial]), for such states. *)
Theorem C92_loaded_partial : forall f hs c vrf Ls sign vrfVerify now leafVerify sigVerify audVerify visit t rs l state v k,
  (forall x, lenN (f x) = hs) -> 0 < hs <= 32 -> vrfGood hs vrf Ls -> vrfVerifies vrf vrfVerify ->
  runs (full f) hs c vrf sign Ls t rs -> rs <> [] -> In l Ls -> Forall (fun r => ~ In l (rq_remove r)) rs ->
  lenN (labelsNow rs l) < 2 ^ 31 -> match state with Some st => remembers f t (lenN rs) st | None => True end ->
  lenN (labelsNow rs l) <= v -> v < 2 ^ 31 - 1 -> pc_mode c <> ThirdPartyManagement ->
  (forall r, In r rs -> isExpired (pc_maxLife c) (rq_now r) (latest rs) = false) -> clockFine c now (latest rs) ->
  let req := {| sq_last := getLast state; sq_label := l; sq_version := Some v |} in
  exists resp, serverSearch (full f) hs c vrf now (serverOf t) req = Ok resp /\
    clientSearch (full f) hs c now vrfVerify sigVerify leafVerify audVerify visit k state req resp = Fail ErrLabelNotFound.
Proof. exact c92_loaded. Qed.
Print Assumptions C92_loaded_partial.

(** C93, in part (see [C93_partial]), for such states. *)
Theorem C93_loaded_partial : forall f hs c vrf Ls sign vrfVerify leafVerify now t rs l st,
  (forall x, lenN (f x) = hs) -> 0 < hs <= 32 -> pc_hs c = N.to_nat hs -> vrfGood hs vrf Ls -> vrfVerifies vrf vrfVerify ->
  runs (full f) hs c vrf sign Ls t rs -> rs <> [] -> In l Ls -> Forall (fun r => ~ In l (rq_remove r)) rs -> remembers f t (lenN rs) st ->
  exists T0, forall T, incl T0 T -> forall req resp v,
  sq_label req = l -> sq_last req = getLast (Some st) -> okSearchRequest req -> okSearchResponse c (sq_version req) resp ->
  noAliases (restrict f T) vrf req resp -> noOwnLeaf vrf req resp -> fth_head (sr_head resp) = None -> searchedVersion req resp = Ok v ->
  checkSearch (restrict f T) hs c now vrfVerify leafVerify (Some st) req resp = Fail ErrLabelNotFound ->
  nth_error (labelsNow (firstn (N.to_nat (th_size (cs_head st))) rs) l) (N.to_nat v) = None \/ broken f (N.to_nat hs) T.
Proof. exact c93_loaded. Qed.
Print Assumptions C93_loaded_partial.

