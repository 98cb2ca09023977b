(** Proofs for LoadedProperties.v: from states as they are proven to states as they are loaded. *)
From Coq Require Import Permutation.
From Verif Require Import Base BaseProofs LogTreeModel LogTreeSpec TransMathModel TransMathProofs2 AuditorProofs PrefixModel PrefixSpec PrefixExamples CodecModel CodecSpec AlgModel HandleModel HandleSpec StoreModel CommitModel MutateModel MutateSpec MutateExamples
  ServerModel ClientModel ClientSpec ClientExamples SearchExamples SoundSpec AbsentSpec GuardExamples RestExamples SearchProperties SoundProperties AbsentProperties
  ReloadSpec ReloadProofs ReloadProofs2 LoadedSpec.
Open Scope N_scope.
Local Open Scope list_scope.

Lemma seen_once f t n st : n < 2 ^ 64 -> hasSeen f t n st -> NoDup (map fst (cs_entries st)).
Proof.
  intros B (es & (_ & _ & _ & front & F & ->) & _ & L & _). rewrite map_map. cbn [fst]. rewrite map_id.
  destruct (c10_frontier (lenN es)) as (l & F' & SF); [lia|]. rewrite F in F'. injection F' as <-. exact (SFront_NoDup _ _ _ SF).
Qed.
Lemma seen_remembers f t n st : n < 2 ^ 64 -> hasSeen f t n st -> remembers f t n st.
Proof. intros B S. exists st. split; [exact S|]. pose proof (seen_once _ _ _ _ B S). repeat split; auto. Qed.
Lemma loaded_example : remembers toy32 t3 (lenN [q1; q2; q3]) stRest /\ ~ hasSeen toy32 t3 (lenN [q1; q2; q3]) stRest.
Proof.
  split.
  - exists st3. split; [exact (proj1 c47_example)|]. split; [exact st3_stRest|]. split; repeat constructor; cbn; intuition discriminate.
  - intros (es & (E & _ & _ & front & F & En) & _). rewrite <- E in F. change (th_size (cs_head stRest)) with 3 in F.
    replace (frontier 3) with (@Ok (list N) [1; 2]) in F by (vm_compute; reflexivity). injection F as <-. apply (f_equal (map fst)) in En. vm_compute in En. discriminate.
Qed.
Lemma remembers_saved f t n st c order raw st' : remembers f t n st -> okClientState c st -> Permutation order (cs_entries st) -> (cs_auditor st = None <-> pc_mode c <> ThirdPartyAuditing) ->
  clientStateMarshal st order = Ok raw -> parseState c raw = Ok st' -> remembers f t n st'.
Proof.
  intros (st0 & S & E) O P M Q R. destruct (saved_same c st order raw O P M Q) as (y & Y & E'). rewrite R in Y. injection Y as <-. exists st0. split; [exact S|].
  destruct E as ((A1 & A2 & A3 & A4) & A5 & A6), E' as ((B1 & B2 & B3 & B4) & B5 & B6). split; [|auto]. split; [congruence|]. split; [congruence|]. split; [congruence|]. intro p. congruence.
Qed.
Lemma same_head s s' : sameStates (Some s) (Some s') -> cs_head s = cs_head s'.
Proof. intros ((E & _) & _). exact E. Qed.

Lemma c76_loaded : forall f hs, (forall x, lenN (f x) = hs) -> 0 < hs <= 32 ->
  forall c vrf Ls, vrfGood hs vrf Ls -> pc_hs c = N.to_nat hs -> forall sign vrfVerify, vrfVerifies vrf vrfVerify ->
  forall now leafVerify sigVerify audVerify t rs l st,
  runs (full f) hs c vrf sign Ls t rs -> rs <> [] -> In l Ls -> Forall (fun r => ~ In l (rq_remove r)) rs ->
  Forall (fun p => size (pc_openSize c) (pv_opening p)) (labelsNow rs l) -> remembers f t (lenN rs) st ->
  exists hashed, forall T, incl hashed T -> forall visit k req resp k',
  sq_label req = l -> sq_last req = getLast (Some st) -> okSearchRequest req -> okSearchResponse c (sq_version req) resp ->
  noAliases (restrict f T) vrf req resp ->
  clientSearch (restrict f T) hs c now vrfVerify sigVerify leafVerify audVerify visit k (Some st) req resp = Ok k' ->
  let published := labelsNow (firstn (N.to_nat (th_size (cs_head st))) rs) l in
  (exists v p, searchedVersion req resp = Ok v /\ nth_error published (N.to_nat v) = Some p /\ sr_value resp = pv_value p /\
     (sq_version req = None -> lenN published = v + 1)) \/ broken f (N.to_nat hs) T.
Proof.
  intros f hs Hf Hhs c vrf Ls HV Hc sign vv Hvv now lv sv av t rs l st R NE I RM Op (st0 & S & E).
  destruct (C76_partial f hs Hf Hhs c vrf Ls HV Hc sign vv Hvv now lv sv av t rs l st0 R NE I RM Op S) as (hashed & K). exists hashed.
  rewrite <- (same_head _ _ E), <- (getLast_same _ _ E). intros T IT visit k req resp k' E1 E2 E3 E4 E5 E6. apply (K T IT visit k req resp k' E1 E2 E3 E4 E5).
  rewrite <- E6. destruct (same_behaviour (restrict f T) hs c now vv sv lv av visit _ _ E) as (_ & _ & B & _). apply B.
Qed.

Lemma c92_loaded : forall f hs c vrf Ls sign vrfVerify now leafVerify sigVerify audVerify visit t rs l state v k,
  (forall x, lenN (f x) = hs) -> 0 < hs <= 32 -> vrfGood hs vrf Ls -> vrfVerifies vrf vrfVerify ->
  runs (full f) hs c vrf sign Ls t rs -> rs <> [] -> In l Ls -> Forall (fun r => ~ In l (rq_remove r)) rs ->
  lenN (labelsNow rs l) < 2 ^ 31 -> match state with Some st => remembers f t (lenN rs) st | None => True end ->
  lenN (labelsNow rs l) <= v -> v < 2 ^ 31 - 1 -> pc_mode c <> ThirdPartyManagement ->
  (forall r, In r rs -> isExpired (pc_maxLife c) (rq_now r) (latest rs) = false) -> clockFine c now (latest rs) ->
  let req := {| sq_last := getLast state; sq_label := l; sq_version := Some v |} in
  exists resp, serverSearch (full f) hs c vrf now (serverOf t) req = Ok resp /\
    clientSearch (full f) hs c now vrfVerify sigVerify leafVerify audVerify visit k state req resp = Fail ErrLabelNotFound.
Proof.
  intros f hs c vrf Ls sign vv now lv sv av visit t rs l state v k Hf Hhs HV Hvv R NE I RM Len S Lv Hv Md Ex Ck req.
  destruct state as [st|]; [|exact (C92_partial f hs c vrf Ls sign vv now lv sv av visit t rs l None v k Hf Hhs HV Hvv R NE I RM Len S Lv Hv Md Ex Ck)].
  destruct S as (st0 & S & E). pose proof (C92_partial f hs c vrf Ls sign vv now lv sv av visit t rs l (Some st0) v k Hf Hhs HV Hvv R NE I RM Len S Lv Hv Md Ex Ck) as (resp & A & B).
  unfold req. rewrite <- (getLast_same _ _ E). exists resp. split; [exact A|]. rewrite <- B. symmetry.
  destruct (same_behaviour (full f) hs c now vv sv lv av visit _ _ E) as (_ & _ & K & _). apply K.
Qed.

Lemma c93_loaded : forall f hs c vrf Ls sign vrfVerify leafVerify now t rs l st,
  (forall x, lenN (f x) = hs) -> 0 < hs <= 32 -> pc_hs c = N.to_nat hs -> vrfGood hs vrf Ls -> vrfVerifies vrf vrfVerify ->
  runs (full f) hs c vrf sign Ls t rs -> rs <> [] -> In l Ls -> Forall (fun r => ~ In l (rq_remove r)) rs -> remembers f t (lenN rs) st ->
  exists T0, forall T, incl T0 T -> forall req resp v,
  sq_label req = l -> sq_last req = getLast (Some st) -> okSearchRequest req -> okSearchResponse c (sq_version req) resp ->
  noAliases (restrict f T) vrf req resp -> noOwnLeaf vrf req resp -> fth_head (sr_head resp) = None -> searchedVersion req resp = Ok v ->
  checkSearch (restrict f T) hs c now vrfVerify leafVerify (Some st) req resp = Fail ErrLabelNotFound ->
  nth_error (labelsNow (firstn (N.to_nat (th_size (cs_head st))) rs) l) (N.to_nat v) = None \/ broken f (N.to_nat hs) T.
Proof.
  intros f hs c vrf Ls sign vv lv now t rs l st Hf Hhs Hc HV Hvv R NE I RM (st0 & S & E).
  destruct (C93_partial f hs c vrf Ls sign vv lv now t rs l st0 Hf Hhs Hc HV Hvv R NE I RM S) as (T0 & K). exists T0.
  rewrite <- (same_head _ _ E), <- (getLast_same _ _ E). intros T IT req resp v E1 E2 E3 E4 E5 E6 E7 E8 E9. apply (K T IT req resp v E1 E2 E3 E4 E5 E6 E7 E8).
  pose proof (checkSearch_follows (restrict f T) hs c now vv lv _ _ req resp (sameStates_sym _ _ E)) as Q. rewrite E9 in Q.
  destruct (checkSearch _ _ _ _ _ _ (Some st0) req resp); cbn in Q; try contradiction. congruence.
Qed.

Lemma c45_loaded : forall f hs, (forall x, lenN (f x) = hs) -> 0 < hs <= 32 ->
  forall c vrf Ls, vrfGood hs vrf Ls -> forall sign sigVerify, sigVerifies sign sigVerify -> forall vrfVerify, vrfVerifies vrf vrfVerify ->
  forall leafVerify now t rs l st version v p,
  runs (full f) hs c vrf sign Ls t rs -> rs <> [] -> In l Ls -> Forall (fun r => ~ In l (rq_remove r)) rs -> lenN (labelsNow rs l) < 2 ^ 31 ->
  remembers f t (lenN rs) st -> th_size (cs_head st) < lenN rs ->
  nth_error (labelsNow rs l) (N.to_nat v) = Some p -> v < 2 ^ 31 - 1 -> asksFor c rs l (getLast (Some st)) version v ->
  readable c p -> signedByOperator c leafVerify l v (pv_value p) -> clockFine c now (latest rs) ->
  let req := {| sq_last := getLast (Some st); sq_label := l; sq_version := version |} in
  exists resp th checked pos result root tbs,
    serverSearch (full f) hs c vrf now (serverOf t) req = Ok resp /\ sr_value resp = pv_value p /\
    sr_version resp = (match version with None => Some v | Some _ => None end) /\
    t_head t = Some th /\ sr_head resp = {| fth_head := Some th; fth_auditor := None |} /\
    checkSearch (full f) hs c now vrfVerify leafVerify (Some st) req resp = Ok (checked, v, pos) /\
    dpFinish (full f) hs (v_d checked) (lenN rs) None (getLast (Some st)) = Ok result /\
    logRoot (full f) hs (lenN rs) (pr_subtrees result) = Ok root /\ treeHeadTBS c (lenN rs) root = Ok tbs /\ sigVerify tbs (th_sig th) = true /\
    hasSeen f t (lenN rs) (stateWith th result).
Proof.
  intros f hs Hf Hhs c vrf Ls HV sign sv Hsv vv Hvv lv now t rs l st version v p R NE I RM Len (st0 & S & E).
  rewrite <- (same_head _ _ E), <- (getLast_same _ _ E). intros Sz Nt Lv Ask Rd Sg Ck req.
  destruct (C45_partial f hs Hf Hhs c vrf Ls HV sign sv Hsv vv Hvv lv now t rs l st0 version v p R NE I RM Len S Sz Nt Lv Ask Rd Sg Ck)
    as (resp & th & checked & pos & result & root & tbs & A1 & A2 & A3 & A4 & A5 & A6 & A7 & A8).
  pose proof (checkSearch_follows (full f) hs c now vv lv _ _ req resp E) as Q. unfold req in Q. rewrite A6 in Q. fold req in Q.
  destruct (checkSearch _ _ _ _ _ _ (Some st) req resp) as [[[checked' v'] pos']| | |] eqn:Cs; cbn in Q; try contradiction. destruct Q as (Al & <- & <-).
  exists resp, th, checked', pos, result, root, tbs. split; [exact A1|]. split; [exact A2|]. split; [exact A3|]. split; [exact A4|]. split; [exact A5|]. split; [exact Cs|]. split; [|exact A8].
  rewrite <- A7. symmetry. apply dpFinish_alike. apply (av_d _ _ Al).
Qed.

Lemma c47_loaded : forall f hs, (forall x, lenN (f x) = hs) -> 0 < hs <= 32 ->
  forall c vrf Ls, vrfGood hs vrf Ls -> forall sign sigVerify, sigVerifies sign sigVerify -> forall vrfVerify, vrfVerifies vrf vrfVerify ->
  forall leafVerify now audVerify t rs l st version v p,
  runs (full f) hs c vrf sign Ls t rs -> rs <> [] -> In l Ls -> Forall (fun r => ~ In l (rq_remove r)) rs -> lenN (labelsNow rs l) < 2 ^ 31 ->
  remembers f t (lenN rs) st -> th_size (cs_head st) = lenN rs ->
  nth_error (labelsNow rs l) (N.to_nat v) = Some p -> v < 2 ^ 31 - 1 -> asksFor c rs l (getLast (Some st)) version v ->
  readable c p -> signedByOperator c leafVerify l v (pv_value p) -> clockFine c now (latest rs) ->
  let req := {| sq_last := getLast (Some st); sq_label := l; sq_version := version |} in
  exists resp proof st',
    serverSearch (full f) hs c vrf now (serverOf t) req = Ok resp /\ sr_value resp = pv_value p /\
    sr_version resp = (match version with None => Some v | Some _ => None end) /\
    fth_head (sr_head resp) = None /\
    (exists checked pos, checkSearch (full f) hs c now vrfVerify leafVerify (Some st) req (withLogProof resp proof) = Ok (checked, v, pos) /\
       finish (full f) hs c sigVerify audVerify checked = Ok st') /\
    cs_head st' = cs_head st /\ hasSeen f t (lenN rs) st' /\
    (pc_mode c <> ContactMonitoring -> forall visit k,
       clientSearch (full f) hs c now vrfVerify sigVerify leafVerify audVerify visit k (Some st) req (withLogProof resp proof) = putState k st').
Proof.
  intros f hs Hf Hhs c vrf Ls HV sign sv Hsv vv Hvv lv now av t rs l st version v p R NE I RM Len (st0 & S & E).
  rewrite <- (same_head _ _ E), <- (getLast_same _ _ E). intros Sz Nt Lv Ask Rd Sg Ck req.
  destruct (C47_partial f hs Hf Hhs c vrf Ls HV sign sv Hsv vv Hvv lv now av t rs l st0 version v p R NE I RM Len S Sz Nt Lv Ask Rd Sg Ck)
    as (resp & proof & st' & A1 & A2 & A3 & A4 & (checked & pos & A5 & A6) & A7 & A8 & A9).
  exists resp, proof, st'. split; [exact A1|]. split; [exact A2|]. split; [exact A3|]. split; [exact A4|]. split; [|split; [exact A7|split; [exact A8|]]].
  - pose proof (checkSearch_follows (full f) hs c now vv lv _ _ req (withLogProof resp proof) E) as Q. unfold req in Q. rewrite A5 in Q. fold req in Q.
    destruct (checkSearch _ _ _ _ _ _ (Some st) req _) as [[[checked' v'] pos']| | |] eqn:Cs; cbn in Q; try contradiction. destruct Q as (Al & <- & <-).
    exists checked', pos. split; [first [exact Cs|reflexivity]|]. pose proof (finish_follows (full f) hs c sv av _ _ Al) as F. rewrite A6 in F. apply follows_eq in F. congruence.
  - intros Md visit k. rewrite <- (A9 Md visit k). symmetry. destruct (same_behaviour (full f) hs c now vv sv lv av visit _ _ E) as (_ & _ & K & _). apply K.
Qed.
