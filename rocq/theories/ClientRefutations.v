(** The witnesses of ClientExamples.v put together for ClientProperties.v and ServerProperties.v. *)
From Verif Require Import Base BaseProofs LogMathSpec LogTreeModel LogTreeSpec TransMathModel LaddersModel PrefixModel PrefixSpec PrefixExamples CodecModel CodecSpec AlgModel AlgSpec
  HandleModel HandleSpec StoreModel CommitModel MutateModel MutateSpec MutateExamples ServerModel ServerProofs ClientModel ClientSpec ClientProofs ClientProofs2 ClientExamples.
Open Scope N_scope.
Local Open Scope list_scope.

Lemma c45_refuted : exists f hs c vrf vrfVerify sign sigVerify Ls t0 t rs more st es now req resp th,
  (forall x, lenN (f x) = hs) /\ vrfVerifies vrf vrfVerify /\ sigVerifies sign sigVerify /\
  runs (full f) hs c vrf sign Ls t0 rs /\ runs (full f) hs c vrf sign Ls t (rs ++ more) /\
  logOf t0 es /\ t_head t0 = Some (cs_head st) /\ stateFor f (cs_head st) es st /\
  sq_last req = getLast (Some st) /\ serverSearch (full f) hs c vrf now (serverOf t) req = Ok resp /\
  fth_head (sr_head resp) = Some th /\ th_size (cs_head st) < th_size th /\
  forall k visit, clientSearch (full f) hs c now vrfVerify sigVerify sigVerify sigVerify visit k (Some st) req resp
    = Fail "provided tree size is not greater than advertised"%string.
Proof.
  exists toy32, 32, xc, xvrf, xvv, xsign, xsv, xLs, t2, t3, [q1; q2], [q3], st2, es2, 3000, q2to3, r2to3, (headIn t3).
  split; [exact toy_len|]. split; [exact x_vrfVerifies|]. split; [exact x_sigVerifies|].
  split; [exact x_runs2|]. split; [exact x_runs3|]. split; [exact es2_log|]. split; [vm_compute; reflexivity|].
  split; [exact st2_genuine|]. split; [reflexivity|]. split; [exact r2to3_served|]. split; [vm_compute; reflexivity|]. split; [vm_compute; reflexivity|].
  intros k visit. vm_compute. reflexivity.
Qed.

Lemma c46_refuted : exists f hs c vrf vrfVerify sign sigVerify Ls t rs now req resp,
  (forall x, lenN (f x) = hs) /\ vrfVerifies vrf vrfVerify /\ sigVerifies sign sigVerify /\
  runs (full f) hs c vrf sign Ls t rs /\
  sq_last req = None /\ serverSearch (full f) hs c vrf now (serverOf t) req = Ok resp /\
  forall visit, clientSearch (full f) hs c now vrfVerify sigVerify sigVerify sigVerify visit emptyClient None req resp
    = Panic "nil pointer dereference"%string.
Proof.
  exists toy32, 32, xc, xvrf, xvv, xsign, xsv, xLs, t3, [q1; q2; q3], 3000, q0, r0.
  split; [exact toy_len|]. split; [exact x_vrfVerifies|]. split; [exact x_sigVerifies|].
  split; [exact x_runs3|]. split; [reflexivity|]. split; [exact r0_served|]. intro visit. vm_compute. reflexivity.
Qed.

Lemma c47_refuted : exists f hs c vrf vrfVerify sign sigVerify Ls t rs st es now req resp,
  (forall x, lenN (f x) = hs) /\ vrfVerifies vrf vrfVerify /\ sigVerifies sign sigVerify /\
  runs (full f) hs c vrf sign Ls t rs /\ logOf t es /\ t_head t = Some (cs_head st) /\ stateFor f (cs_head st) es st /\
  sq_last req = getLast (Some st) /\ serverSearch (full f) hs c vrf now (serverOf t) req = Ok resp /\
  forall k visit, clientSearch (full f) hs c now vrfVerify sigVerify sigVerify sigVerify visit k (Some st) req resp = Fail "malformed proof"%string.
Proof.
  exists toy32, 32, xc, xvrf, xvv, xsign, xsv, xLs, t3, [q1; q2; q3], st3, es3, 3000, q3to3, r3to3.
  split; [exact toy_len|]. split; [exact x_vrfVerifies|]. split; [exact x_sigVerifies|].
  split; [exact x_runs3|]. split; [exact es3_log|]. split; [vm_compute; reflexivity|]. split; [exact st3_genuine|]. split; [reflexivity|].
  split; [exact r3to3_served|]. intros k visit. vm_compute. reflexivity.
Qed.

Lemma c49_refuted : exists f hs c vrf vrfVerify sign sigVerify Ls t rs st es now req honestResp resp visit k' ls,
  (forall x, lenN (f x) = hs) /\ vrfVerifies vrf vrfVerify /\ sigVerifies sign sigVerify /\
  runs (full f) hs c vrf sign Ls t rs /\ logOf t es /\ t_head t = Some (cs_head st) /\ stateFor f (cs_head st) es st /\ pc_mode c = ContactMonitoring /\
  sq_last req = getLast (Some st) /\ serverSearch (full f) hs c vrf now (serverOf t) req = Ok honestResp /\
  resp = withoutLogProof honestResp /\
  clientSearch (full f) hs c now vrfVerify sigVerify sigVerify sigVerify visit emptyClient (Some st) req resp = Ok k' /\
  getLabelState hs k' (sq_label req) = Ok ls /\ cl_contact ls <> [] /\
  clientSearch (full f) hs c now vrfVerify sigVerify sigVerify sigVerify visit k' (Some st) req resp = Fail "can not add the same version twice"%string.
Proof.
  destruct again_stored as (ls & L & C & _).
  exists toy32, 32, xc, xvrf, xvv, xsign, xsv, xLs, t3, [q1; q2; q3], st3, es3, 3000, q3to3, r3to3, again, xvisit, againStore, ls.
  split; [exact toy_len|]. split; [exact x_vrfVerifies|]. split; [exact x_sigVerifies|].
  split; [exact x_runs3|]. split; [exact es3_log|]. split; [vm_compute; reflexivity|]. split; [exact st3_genuine|]. split; [reflexivity|]. split; [reflexivity|].
  split; [exact r3to3_served|]. split; [vm_compute; reflexivity|]. split; [exact again_first|].
  split; [exact L|]. split; [exact C|]. exact again_second.
Qed.

Lemma c76_refuted : exists f T hs c vrf vrfVerify sign sigVerify Ls t rs st es now req resp visit k' l ver p,
  (forall x, lenN (f x) = hs) /\ ~ broken f (N.to_nat hs) T /\ vrfGood hs vrf Ls /\ vrfVerifies vrf vrfVerify /\ sigVerifies sign sigVerify /\
  runs (full f) hs c vrf sign Ls t rs /\ logOf t es /\ t_head t = Some (cs_head st) /\ stateFor f (cs_head st) es st /\
  sq_last req = getLast (Some st) /\ sq_label req = l /\ In l Ls /\
  clientSearch (restrict f T) hs c now vrfVerify sigVerify sigVerify sigVerify visit emptyClient (Some st) req resp = Ok k' /\
  sr_version resp = Some ver /\ nth_error (labelsNow rs l) (N.to_nat ver) = Some p /\
  (exists com, labelCommitment (restrict f T) (pv_opening p) l ver (pv_value p) = Ok com) /\
  sr_value resp <> pv_value p.
Proof.
  destruct (nth_error (labelsNow [q1; q2; q3] la) 2) as [p|] eqn:E; [|vm_compute in E; discriminate].
  exists toy32, tab, 32, xc, xvrf, xvv, xsign, xsv, xLs, t3, [q1; q2; q3], st3, es3, 3000, q3to3, forged, xvisit, forgedStore, la, 2, p.
  split; [exact toy_len|]. split; [exact tab_ok|]. split; [exact x_vrfGood|]. split; [exact x_vrfVerifies|]. split; [exact x_sigVerifies|].
  split; [exact x_runs3|]. split; [exact es3_log|]. split; [vm_compute; reflexivity|]. split; [exact st3_genuine|]. split; [reflexivity|].
  split; [reflexivity|]. split; [cbn; tauto|]. split; [exact forged_result|]. split; [reflexivity|]. split; [exact E|].
  vm_compute in E. injection E as <-. split; [eexists; vm_compute; reflexivity|]. intro X. vm_compute in X. discriminate X.
Qed.

Lemma c48_refuted : exists f hs c vrf vrfVerify sign sigVerify Ls t rs now req resp,
  (forall x, lenN (f x) = hs) /\ vrfVerifies vrf vrfVerify /\ sigVerifies sign sigVerify /\
  runs (full f) hs c vrf sign Ls t rs /\ serverSearch (full f) hs c vrf now (serverOf t) req = Ok resp /\
  exists e, forall visit, clientSearch (full f) hs c now vrfVerify sigVerify sigVerify sigVerify visit emptyClient None req resp = Panic e.
Proof.
  destruct c46_refuted as (f & hs & c & vrf & vv & sign & sv & Ls & t & rs & now & req & resp & A & B & C & D & _ & E & F).
  exists f, hs, c, vrf, vv, sign, sv, Ls, t, rs, now, req, resp. split; [exact A|]. split; [exact B|]. split; [exact C|]. split; [exact D|]. split; [exact E|].
  eexists. exact F.
Qed.

Lemma c50_refuted : exists f hs c vrf sign Ls t rs now req e,
  (forall x, lenN (f x) = hs) /\ vrfGood hs vrf Ls /\ runs (full f) hs c vrf sign Ls t rs /\ In (sq_label req) Ls /\
  serverSearch (full f) hs c vrf now (serverOf t) req = Panic e.
Proof.
  exists toy32, 32, xc, xvrf, xsign, xLs, t3, [q1; q2; q3], 3000, (xsearch (Some 0) la None). eexists.
  split; [exact toy_len|]. split; [exact x_vrfGood|]. split; [exact x_runs3|]. split; [cbn; tauto|]. vm_compute. reflexivity.
Qed.

Lemma c51_refuted : exists f hs c vrf sign Ls t rs now req u,
  (forall x, lenN (f x) = hs) /\ vrfGood hs vrf Ls /\ runs (full f) hs c vrf sign Ls t rs /\ In (uq_label req) Ls /\
  uq_greatest req = Some 0 /\ lenN (labelsNow rs (uq_label req)) = 3 /\ setRequest (serverOf t) req = Ok u /\
  process (full f) hs c vrf now None u = [Fail "label owner state has not been initialized"%string].
Proof.
  destruct (setRequest (serverOf t3) xupdate) as [u| | |] eqn:U; [|vm_compute in U; discriminate..].
  exists toy32, 32, xc, xvrf, xsign, xLs, t3, [q1; q2; q3], 3000, xupdate, u.
  split; [exact toy_len|]. split; [exact x_vrfGood|]. split; [exact x_runs3|]. split; [cbn; tauto|]. split; [reflexivity|]. split; [vm_compute; reflexivity|].
  split; [exact U|]. vm_compute in U. injection U as <-. vm_compute. reflexivity.
Qed.
