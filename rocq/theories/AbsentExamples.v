(** Concrete cases for AbsentProperties.v. *)
From Verif Require Import Base BaseProofs LogTreeModel LogTreeSpec TransMathModel LaddersModel PrefixModel PrefixSpec PrefixExamples CodecModel CodecSpec AlgModel HandleModel HandleSpec StoreModel CommitModel
  MutateModel MutateSpec MutateExamples CodecProofs3 ServerModel ClientModel ClientSpec ClientExamples SearchExamples SoundSpec SoundExamples AbsentSpec.
Open Scope N_scope.
Local Open Scope list_scope.

(** The label [la] has the versions 0, 1 and 2 in the log of [t3]; a client that knows this log asks for version 3. *)
Definition qAbs : searchRequest := xsearch (Some 3) la (Some 3).
Definition rAbs : searchResponse := Eval vm_compute in getOk noResponse (xserve t3 3000 qAbs).
Lemma rAbs_served : xserve t3 3000 qAbs = Ok rAbs.
Proof. vm_compute. reflexivity. Qed.
Definition comAbs : bytes := Eval vm_compute in getOk [] (labelCommitment (full toy32) (sr_opening rAbs) la 3 (sr_value rAbs)).
Definition tabAbs : list bytes := Eval vm_compute in
  dedup (commitInputs (sr_opening rAbs) la 3 (sr_value rAbs) ++
    match cp_proofs (sr_search rAbs) with
    | [p1; p2] => proofInputs [(kv 0, comIn rAbs 0); (kv 1, comIn rAbs 1); (kv 3, comAbs)] p1 ++ proofInputs [(kv 3, comAbs)] p2
    | _ => []
    end).
Lemma tabAbs_ok : ~ broken toy32 32 tabAbs.
Proof. apply notBroken. vm_compute. reflexivity. Qed.
Lemma rAbs_reported : checkSearch (restrict toy32 tabAbs) 32 xc 3000 xvv xsv (Some st3) qAbs rAbs = Fail ErrLabelNotFound.
Proof. vm_compute. reflexivity. Qed.

Lemma abs_claims w com : claims (restrict toy32 tabAbs) qAbs rAbs w com -> (w, com) = (0, comIn rAbs 0) \/ (w, com) = (1, comIn rAbs 1) \/ (w, com) = (3, comAbs).
Proof.
  intros (target & ladder & E1 & E2 & E3). vm_compute in E1. injection E1 as <-. vm_compute in E2. injection E2 as <-. destruct E3 as [[-> E3]|(i & st & E3 & E4 & E5)].
  - vm_compute in E3. injection E3 as <-. right. right. reflexivity.
  - destruct i as [|[|[|[|[|[|i]]]]]]; cbn [nth_error] in E3; try (destruct i; discriminate); injection E3 as <-; vm_compute in E4; injection E4 as <-; vm_compute in E5; try discriminate; injection E5 as <-; auto.
Qed.
Lemma abs_noAliases : noAliases (restrict toy32 tabAbs) xvrf qAbs rAbs.
Proof.
  intros p v c d I1 I2. split; [|discriminate]. intros w com Cl Q. apply abs_claims in Cl.
  vm_compute in I1. destruct I1 as [<-|[<-|[]]]; vm_compute in I2; repeat destruct I2 as [I2|I2]; try discriminate I2; try contradiction;
    injection I2 as <- <- <-; destruct Cl as [Cl|[Cl|Cl]]; injection Cl as -> ->; try reflexivity; exfalso; vm_compute in Q; discriminate Q.
Qed.
Lemma abs_noOwnLeaf : noOwnLeaf xvrf qAbs rAbs.
Proof.
  intros v ladder E1 E2 p k c d I1 I2 w I3 L. vm_compute in E1. injection E1 as <-. vm_compute in E2. injection E2 as <-.
  vm_compute in I1. destruct I1 as [<-|[<-|[]]]; vm_compute in I2; repeat destruct I2 as [I2|I2]; try discriminate I2; try contradiction;
    injection I2 as <- <- <-; cbn [In] in I3; repeat destruct I3 as [<-|I3]; try contradiction; try (exfalso; lia); intro Q; vm_compute in Q; discriminate Q.
Qed.
Lemma abs_ok : okSearchRequest qAbs /\ okSearchResponse xc (sq_version qAbs) rAbs.
Proof.
  split; [split; vm_compute; auto|]. unfold okSearchResponse, okCombinedProof, okPrefixProof. cbn [rAbs sr_head sr_version sr_opening sr_value sr_ladder sr_search qAbs xsearch sq_version].
  oks. intros [x Q]. discriminate Q.
Qed.
(** A leaf of the label itself, that of version 2, is shown. *)
Lemma abs_shows : exists p c d, In p (cp_proofs (sr_search rAbs)) /\ In (NonLeaf (kv 2) c d) (p_results p).
Proof. vm_compute. do 3 eexists. split; [right; left; reflexivity|left; reflexivity]. Qed.

Lemma c93_example : hasSeen toy32 t3 (lenN [q1; q2; q3]) st3 /\ sq_last qAbs = getLast (Some st3) /\ okSearchRequest qAbs /\ okSearchResponse xc (sq_version qAbs) rAbs /\
  noAliases (restrict toy32 tabAbs) xvrf qAbs rAbs /\ noOwnLeaf xvrf qAbs rAbs /\ fth_head (sr_head rAbs) = None /\ searchedVersion qAbs rAbs = Ok 3 /\
  ~ broken toy32 32 tabAbs /\ (exists p c d, In p (cp_proofs (sr_search rAbs)) /\ In (NonLeaf (kv 2) c d) (p_results p)) /\
  checkSearch (restrict toy32 tabAbs) 32 xc 3000 xvv xsv (Some st3) qAbs rAbs = Fail ErrLabelNotFound.
Proof.
  split; [exact (proj1 c47_example)|]. split; [reflexivity|]. split; [exact (proj1 abs_ok)|]. split; [exact (proj2 abs_ok)|]. split; [exact abs_noAliases|].
  split; [exact abs_noOwnLeaf|]. split; [reflexivity|]. split; [reflexivity|]. split; [exact tabAbs_ok|]. split; [exact abs_shows|exact rAbs_reported].
Qed.

(** ** Another log, without the label [la] *)
Definition g1 := xreq [lb] 3000 [(lb, xv x01)] [].
Definition g2 := xreq [lb] 3000 [(lb, xv x02)] [].
Definition g3 := xreq [lb] 3000 [(lb, xv x03)] [].
Definition g4 := xreq [lb] 3100 [(lb, xv x04)] [].
Definition u4 : tree := Eval vm_compute in snd (xdo (snd (xdo (snd (xdo (snd (xdo empty0 g1)) g2)) g3)) g4).
Definition q0to4 : searchRequest := xsearch (Some 3) la (Some 0).
(** Its server's answer to the client that knows the log of [t3]; it is not signed with the key of that log. *)
Definition other4 : searchResponse := Eval vm_compute in getOk noResponse (xserve u4 3100 q0to4).

Lemma other4_reported : forall sigVerify leafVerify audVerify visit k,
  clientSearch (full toy32) 32 xc 3100 xvv sigVerify leafVerify audVerify visit k (Some st3) q0to4 other4 = Fail ErrLabelNotFound.
Proof. intros. vm_compute. reflexivity. Qed.

Definition pub0 : pubVersion := Eval vm_compute in
  hd {| pv_pos := 0; pv_opening := []; pv_value := xv x01 |} (labelsNow [q1; q2; q3] la).
Lemma c93_refuted : exists f hs c vrf vrfVerify sign sigVerify Ls t rs now st req resp p,
  (forall x, lenN (f x) = hs) /\ vrfVerifies vrf vrfVerify /\ sigVerifies sign sigVerify /\ runs (full f) hs c vrf sign Ls t rs /\
  Forall (fun r => ~ In (sq_label req) (rq_remove r)) rs /\ hasSeen f t (lenN rs) st /\ sq_last req = getLast (Some st) /\
  sq_version req = Some 0 /\ nth_error (labelsNow (firstn (N.to_nat (th_size (cs_head st))) rs) (sq_label req)) 0 = Some p /\
  forall sigVerify' leafVerify audVerify visit k,
  clientSearch (full f) hs c now vrfVerify sigVerify' leafVerify audVerify visit k (Some st) req resp = Fail ErrLabelNotFound.
Proof.
  exists toy32, 32, xc, xvrf, xvv, xsign, xsv, xLs, t3, [q1; q2; q3], 3100, st3, q0to4, other4, pub0.
  split; [exact toy_len|]. split; [exact x_vrfVerifies|]. split; [exact x_sigVerifies|]. split; [exact x_runs3|].
  split; [repeat constructor; cbn; intuition discriminate|]. split; [exact (proj1 c47_example)|]. split; [reflexivity|]. split; [reflexivity|].
  split; [|exact other4_reported]. vm_compute. reflexivity.
Qed.

(** ** The conditions of C92 *)
Lemma c92_example : runs (full toy32) 32 xc xvrf xsign xLs t3 [q1; q2; q3] /\ In la xLs /\ Forall (fun r => ~ In la (rq_remove r)) [q1; q2; q3] /\ lenN (labelsNow [q1; q2; q3] la) = 3 /\ hasSeen toy32 t3 (lenN [q1; q2; q3]) st3 /\ pc_mode xc <> ThirdPartyManagement /\ (forall r, In r [q1; q2; q3] -> isExpired (pc_maxLife xc) (rq_now r) (latest [q1; q2; q3]) = false) /\ clockFine xc 3000 (latest [q1; q2; q3]).
Proof.
  split; [exact x_runs3|]. split; [now left|]. split; [repeat constructor; cbn; intuition discriminate|]. split; [vm_compute; reflexivity|]. split; [exact (proj1 c47_example)|].
  split; [discriminate|]. split; [cbn; intros r [<-|[<-|[<-|[]]]]; vm_compute; reflexivity|]. split; [reflexivity|]. split; vm_compute; discriminate.
Qed.

Definition qNone : searchRequest := xsearch None lc None.
Definition rNone : searchResponse := Eval vm_compute in getOk noResponse (xserve t1 1000 qNone).
Lemma c92_greatest_example : runs (full toy32) 32 xc xvrf xsign xLs t1 [q1] /\ In (sq_label qNone) xLs /\
  labelsNow [q1] (sq_label qNone) = [] /\ xserve t1 1000 qNone = Ok rNone /\
  xclient (full toy32) 1000 emptyClient None qNone rNone = Fail "incorrect number of binary ladder steps provided"%string.
Proof. split; [exact x_runs1|]. split; [cbn; auto|]. split; [vm_compute; reflexivity|]. split; vm_compute; reflexivity. Qed.
