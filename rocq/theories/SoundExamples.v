(** A concrete case for SoundProperties.v: the honest answer to a client that knows the tree head (see ClientExamples.v). *)
From Verif Require Import Base BaseProofs LogTreeModel LogTreeSpec TransMathModel LaddersModel PrefixModel PrefixSpec PrefixExamples CodecModel CodecSpec AlgModel HandleModel HandleSpec StoreModel CommitModel
  MutateModel MutateSpec MutateExamples CodecProofs3 ServerModel ClientModel ClientSpec ClientExamples SearchExamples SoundSpec.
Open Scope N_scope.
Local Open Scope list_scope.

Definition againCom : bytes := Eval vm_compute in getOk [] (labelCommitment (full toy32) (sr_opening again) la 2 (xv x05)).
(** The inputs hashed by the client. *)
Definition tabAgain : list bytes := Eval vm_compute in
  dedup (commitInputs (sr_opening again) la 2 (xv x05) ++
    match cp_proofs (sr_search again) with
    | [p1; p2] => proofInputs [(kv 0, comIn again 0); (kv 1, comIn again 1); (kv 3, []); (kv 2, againCom)] p1 ++
                  proofInputs [(kv 3, []); (kv 2, againCom)] p2
    | _ => []
    end ++
    match cs_subtrees st3 with [a; b] => [x01 :: a ++ x00 :: b] | _ => [] end).
Lemma tabAgain_ok : ~ broken toy32 32 tabAgain.
Proof. apply notBroken. vm_compute. reflexivity. Qed.

Lemma again_accepted : xclient (restrict toy32 tabAgain) 3000 emptyClient (Some st3) q3to3 again = Ok againStore.
Proof. vm_compute. reflexivity. Qed.

Lemma again_claims w com : claims (restrict toy32 tabAgain) q3to3 again w com -> (w, com) = (0, comIn again 0) \/ (w, com) = (1, comIn again 1) \/ (w, com) = (2, againCom).
Proof.
  intros (target & ladder & E1 & E2 & E3). vm_compute in E1. injection E1 as <-. vm_compute in E2. injection E2 as <-. destruct E3 as [[-> E3]|(i & st & E3 & E4 & E5)].
  - vm_compute in E3. injection E3 as <-. right. right. reflexivity.
  - destruct i as [|[|[|[|i]]]]; cbn [nth_error] in E3; try (destruct i; discriminate); injection E3 as <-; vm_compute in E4; injection E4 as <-; vm_compute in E5; try discriminate; injection E5 as <-; auto.
Qed.

Lemma again_noAliases : noAliases (restrict toy32 tabAgain) xvrf q3to3 again.
Proof.
  intros p v c d I1 I2. split.
  - intros w com Cl Q. apply again_claims in Cl.
    vm_compute in I1. destruct I1 as [<-|[<-|[]]]; vm_compute in I2; repeat destruct I2 as [I2|I2]; try discriminate I2; try contradiction;
      injection I2 as <- <- <-; destruct Cl as [Cl|[Cl|Cl]]; injection Cl as -> ->; try reflexivity; exfalso; vm_compute in Q; discriminate Q.
  - intros _ w E. vm_compute in E. injection E as <-.
    vm_compute in I1. destruct I1 as [<-|[<-|[]]]; vm_compute in I2; repeat destruct I2 as [I2|I2]; try discriminate I2; try contradiction;
      injection I2 as <- <- <-; intro Q; vm_compute in Q; discriminate Q.
Qed.

(** The proofs do show leaves of the label itself. *)
Lemma again_shows : exists p c d, In p (cp_proofs (sr_search again)) /\ In (NonLeaf (kv 2) c d) (p_results p).
Proof. vm_compute. do 3 eexists. split; [right; left; reflexivity|left; reflexivity]. Qed.

Ltac oks := repeat first [apply Forall_nil | apply Forall_cons | split]; try exact Logic.I; try (vm_compute; reflexivity); try (vm_compute; discriminate); try (cbn [rdepth]; lia).
Lemma again_ok : okSearchRequest q3to3 /\ okSearchResponse xc (sq_version q3to3) again.
Proof.
  split; [split; vm_compute; auto|]. unfold okSearchResponse, okCombinedProof, okPrefixProof. cbn [again sr_head sr_version sr_opening sr_value sr_ladder sr_search q3to3 xsearch sq_version].
  oks. intros [x Q]. discriminate Q.
Qed.

Lemma c76_example : pc_hs xc = N.to_nat 32 /\
  Forall (fun p => size (pc_openSize xc) (pv_opening p)) (labelsNow [q1; q2; q3] la) /\ hasSeen toy32 t3 (lenN [q1; q2; q3]) st3 /\
  sq_last q3to3 = getLast (Some st3) /\ okSearchRequest q3to3 /\ okSearchResponse xc (sq_version q3to3) again /\
  noAliases (restrict toy32 tabAgain) xvrf q3to3 again /\ ~ broken toy32 32 tabAgain /\
  (exists p c d, In p (cp_proofs (sr_search again)) /\ In (NonLeaf (kv 2) c d) (p_results p)) /\
  clientSearch (restrict toy32 tabAgain) 32 xc 3000 xvv xsv xsv xsv xvisit emptyClient (Some st3) q3to3 again = Ok againStore.
Proof.
  split; [reflexivity|]. split; [vm_compute; repeat constructor|]. split; [exact (proj1 c47_example)|]. split; [reflexivity|].
  split; [exact (proj1 again_ok)|]. split; [exact (proj2 again_ok)|]. split; [exact again_noAliases|]. split; [exact tabAgain_ok|]. split; [exact again_shows|exact again_accepted].
Qed.

(** ** The first response of a client without state *)
Definition tab0 : list bytes := Eval vm_compute in
  dedup (tabAgain ++ map (fun e => getOk [] (logEntryMarshal e)) es3 ++ match leavesIn es3 with [a; b; d] => [x00 :: a ++ x00 :: b] | _ => [] end).
Lemma tab0_ok : ~ broken toy32 32 tab0.
Proof. apply notBroken. vm_compute. reflexivity. Qed.
Lemma r0_claims w com : claims (restrict toy32 tab0) q0 r0 w com -> (w, com) = (0, comIn again 0) \/ (w, com) = (1, comIn again 1) \/ (w, com) = (2, againCom).
Proof.
  intros (target & ladder & E1 & E2 & E3). vm_compute in E1. injection E1 as <-. vm_compute in E2. injection E2 as <-. destruct E3 as [[-> E3]|(i & st & E3 & E4 & E5)].
  - vm_compute in E3. injection E3 as <-. right. right. reflexivity.
  - destruct i as [|[|[|[|i]]]]; cbn [nth_error] in E3; try (destruct i; discriminate); injection E3 as <-; vm_compute in E4; injection E4 as <-; vm_compute in E5; try discriminate; injection E5 as <-; auto.
Qed.
Lemma r0_noAliases : noAliases (restrict toy32 tab0) xvrf q0 r0.
Proof.
  intros p v c d I1 I2. split.
  - intros w com Cl Q. apply r0_claims in Cl.
    vm_compute in I1. destruct I1 as [<-|[<-|[]]]; vm_compute in I2; repeat destruct I2 as [I2|I2]; try discriminate I2; try contradiction;
      injection I2 as <- <- <-; destruct Cl as [Cl|[Cl|Cl]]; injection Cl as -> ->; try reflexivity; exfalso; vm_compute in Q; discriminate Q.
  - intros _ w E. vm_compute in E. injection E as <-.
    vm_compute in I1. destruct I1 as [<-|[<-|[]]]; vm_compute in I2; repeat destruct I2 as [I2|I2]; try discriminate I2; try contradiction;
      injection I2 as <- <- <-; intro Q; vm_compute in Q; discriminate Q.
Qed.
Lemma r0_ok : okSearchRequest q0 /\ okSearchResponse xc (sq_version q0) r0.
Proof.
  split; [split; vm_compute; auto|]. unfold okSearchResponse, okCombinedProof, okPrefixProof. cbn [r0 sr_head sr_version sr_opening sr_value sr_ladder sr_search q0 xsearch sq_version].
  oks. intros [x Q]. discriminate Q.
Qed.

Definition root3L : bytes := Eval vm_compute in match leavesIn es3 with [a; b; d] => toy32 (x01 :: pairHash a b ++ x00 :: d) | _ => [] end.
Definition head3TBS : bytes := Eval vm_compute in getOk [] (treeHeadTBS xc 3 root3L).
(** A signature of the head of the log at size 3. *)
Definition oneHead (m s : bytes) : bool := bytes_eqb m head3TBS && bytes_eqb s (th_sig (headIn t3)).
Lemma oneHead_only : onlyHeadsOf toy32 xc t3 (lenN [q1; q2; q3]) oneHead.
Proof.
  intros size root tbs sg U E V. apply andb_true_iff in V. destruct V as [V _]. apply bytes_eqb_eq in V. subst tbs.
  assert (E3 : treeHeadTBS xc 3 root3L = Ok head3TBS) by (vm_compute; reflexivity).
  assert (Oc : okConfig xc) by (unfold okConfig, u64ok; vm_compute; repeat split; reflexivity).
  destruct (treeHeadTBS_inj xc xc size 3 root root3L head3TBS Oc Oc U ltac:(vm_compute; reflexivity) E E3) as (_ & -> & ->).
  split; [vm_compute; split; discriminate|]. exists es3, (leavesIn es3). split; [exact es3_log|]. split; [reflexivity|]. split; [repeat constructor|].
  split; [unfold es3, leavesIn; cbn [map]; repeat constructor|].
  assert (K : forall a b d h, full toy32 (x01 :: pairHash a b ++ x00 :: d) = Some h -> Mth (full toy32) [a; b; d] h).
  { intros a b d h Q. change [a; b; d] with ([a; b] ++ [d]). apply Mth_node with (vl := pairHash a b) (vr := d); [reflexivity|reflexivity| |constructor|exact Q].
    change [a; b] with ([a] ++ [b]). apply Mth_node with (vl := a) (vr := b); [reflexivity|reflexivity|constructor|constructor|reflexivity]. }
  unfold leavesIn, es3. cbn [map]. apply K. vm_compute. reflexivity.
Qed.

Lemma c76_checks_example : okSearchRequest q0 /\ okSearchResponse xc (sq_version q0) r0 /\ onlyHeadsOf toy32 xc t3 (lenN [q1; q2; q3]) oneHead /\
  noAliases (restrict toy32 tab0) xvrf q0 r0 /\ ~ broken toy32 32 tab0 /\
  exists checked v pos result root th tbs, checkSearch (restrict toy32 tab0) 32 xc 3000 xvv xsv None q0 r0 = Ok (checked, v, pos) /\
    dpFinish (restrict toy32 tab0) 32 (v_d checked) (v_n checked) (v_nP checked) (v_m checked) = Ok result /\
    logRoot (restrict toy32 tab0) 32 (v_n checked) (pr_subtrees result) = Ok root /\
    fth_head (sr_head r0) = Some th /\ treeHeadTBS xc (v_n checked) root = Ok tbs /\ oneHead tbs (th_sig th) = true.
Proof.
  split; [exact (proj1 r0_ok)|]. split; [exact (proj2 r0_ok)|]. split; [exact oneHead_only|]. split; [exact r0_noAliases|]. split; [exact tab0_ok|].
  do 7 eexists. split; [vm_compute; reflexivity|]. split; [vm_compute; reflexivity|]. split; [vm_compute; reflexivity|]. split; [vm_compute; reflexivity|]. split; vm_compute; reflexivity.
Qed.
