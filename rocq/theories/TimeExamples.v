(** A concrete case for TimeProperties.v: version 1 was seen in the first entry of the log of MutateExamples.v, when it had one entry.  It is monitored when the log has
    two entries, and again when it has three. *)
From Verif Require Import Base LogTreeModel LogTreeSpec LogMathSpec TransMathModel TransMathSpec PrefixModel PrefixSpec PrefixExamples CodecModel CodecSpec AlgModel AlgSpec HandleModel HandleSpec StoreModel CommitModel
  MutateModel MutateSpec MutateExamples CodecProofs3 ServerModel ClientModel ClientSpec ClientExamples SearchExamples SoundSpec SoundExamples GuardSpec GuardExamples TimeSpec.
Open Scope N_scope.
Local Open Scope list_scope.

Definition knownTo1 := kept [(0, Some (comOf 0)); (1, Some (comOf 1))].
Definition w1 : labelState := {| cl_contact := [(0, 1)]; cl_owner := None; cl_versions := knownTo1 |}.
Definition w2 : labelState := {| cl_contact := [(1, 1)]; cl_owner := None; cl_versions := knownTo1 |}.
Definition w3 : labelState := {| cl_contact := []; cl_owner := None; cl_versions := [] |}.
Definition wq2 : contactRequest := {| cq_last := None; cq_label := la; cq_entries := [(0, 1)] |}.
Definition wr2 : monitorResponse := Eval vm_compute in getOk noMonitor (serverContactMonitor (full toy32) 32 xc xvrf 2000 (serverOf t2) wq2).
Definition wq3 : contactRequest := {| cq_last := None; cq_label := la; cq_entries := [(1, 1)] |}.
Definition wr3 : monitorResponse := Eval vm_compute in getOk noMonitor (serverContactMonitor (full toy32) 32 xc xvrf 3000 (serverOf t3) wq3).
Definition root2L : bytes := Eval vm_compute in match leavesIn es3 with [a; b; _] => pairHash a b | _ => [] end.

Lemma wr2_ok : okMonitorResponse xc wr2.
Proof. unfold okMonitorResponse, okCombinedProof, okPrefixProof. cbn [wr2 mr_head mr_monitor]. oks. Qed.
Lemma wr3_ok : okMonitorResponse xc wr3.
Proof. unfold okMonitorResponse, okCombinedProof, okPrefixProof. cbn [wr3 mr_head mr_monitor]. oks. Qed.

Lemma mth2 : Mth (restrict toy32 gtab) (upto 2 (leavesIn es3)) root2L.
Proof.
  assert (E : exists a b d, leavesIn es3 = [a; b; d] /\ restrict toy32 gtab (x00 :: a ++ x00 :: b) = Some root2L).
  { do 3 eexists. split; vm_compute; reflexivity. }
  destruct E as (a & b & d & -> & Q). change (upto 2 [a; b; d]) with ([a] ++ [b]). apply Mth_node with (vl := a) (vr := b); [reflexivity|reflexivity|constructor|constructor|exact Q].
Qed.

Lemma step2 : monitorsAt toy32 gtab 32 xc la es3 (leavesIn es3) 2 w1 w2.
Proof.
  assert (E : exists checked mo result, checkContactMonitor (restrict toy32 gtab) 32 xc 2000 None w1 wq2 wr2 = Ok (checked, mo) /\ v_n checked = 2 /\
    dpFinish (restrict toy32 gtab) 32 (v_d checked) (v_n checked) (v_nP checked) (v_m checked) = Ok result /\
    logRoot (restrict toy32 gtab) 32 (v_n checked) (pr_subtrees result) = Ok root2L /\ mo_contact mo = Some [(1, 1)]).
  { do 3 eexists. split; [vm_compute; reflexivity|]. split; [reflexivity|]. split; [vm_compute; reflexivity|]. split; vm_compute; reflexivity. }
  destruct E as (checked & mo & result & E1 & E2 & E3 & E4 & E5). exists 2000, None, wq2, wr2, checked, mo, result, root2L.
  split; [reflexivity|]. split; [exact I|]. split; [exact wr2_ok|]. split; [exact E1|]. split; [exact E2|]. split; [exact E3|]. split; [exact E4|]. split; [exact mth2|].
  split; [repeat constructor; intros []|]. split; [|auto]. clear E1 E2 E3 E4. intros y v. unfold pointsTo. rewrite E5. clear E5 result checked mo. cbn [cl_contact w2 In]. split.
  - intros [[= <- <-]|[]]. exists [(1, 1)]. auto.
  - intros (p & [= <-] & G). cbn [mget] in G. destruct (y =? 1) eqn:Ey; [|discriminate]. apply N.eqb_eq in Ey. subst y. injection G as <-. left. reflexivity.
Qed.
Lemma step3 : monitorsAt toy32 gtab 32 xc la es3 (leavesIn es3) 3 w2 w3.
Proof.
  assert (E : exists checked mo result, checkContactMonitor (restrict toy32 gtab) 32 xc 3000 None w2 wq3 wr3 = Ok (checked, mo) /\ v_n checked = 3 /\
    dpFinish (restrict toy32 gtab) 32 (v_d checked) (v_n checked) (v_nP checked) (v_m checked) = Ok result /\
    logRoot (restrict toy32 gtab) 32 (v_n checked) (pr_subtrees result) = Ok root3L /\ match mo_contact mo with Some p => p = [] | None => True end).
  { do 3 eexists. split; [vm_compute; reflexivity|]. split; [reflexivity|]. split; [vm_compute; reflexivity|]. split; vm_compute; auto. }
  destruct E as (checked & mo & result & E1 & E2 & E3 & E4 & E5). exists 3000, None, wq3, wr3, checked, mo, result, root3L.
  split; [reflexivity|]. split; [exact I|]. split; [exact wr3_ok|]. split; [exact E1|]. split; [exact E2|]. split; [exact E3|]. split; [exact E4|]. split; [exact es3_mth|].
  split; [constructor|]. split; [|intros r []]. clear E1 E2 E3 E4. intros y v. unfold pointsTo. cbn [cl_contact w3 In]. split; [intros []|].
  intros (p & Ep & G). rewrite Ep in E5. subst p. discriminate.
Qed.

Lemma time_example : monitoredFrom toy32 gtab 32 xc la es3 (leavesIn es3) 1 w1 3 w3.
Proof.
  apply mf_again with (n := 2) (ls1 := w2); [apply mf_once; [|exact step2]| |exact step3]; split; vm_compute; discriminate.
Qed.
Lemma way01 : onWay 3 (timeAt es3) (pc_rmw xc) 0 1.
Proof.
  split; [exists 0, 3; split; [constructor|split; [reflexivity|lia]]|]. split; [lia|]. intros d D A B. destruct (N.le_gt_cases 1 d) as [|L]; [auto|]. assert (d = 0) by lia. subst d. exfalso.
  unfold distinguished in D. inversion D as [? ? ? ? W E|? ? ? ? ? W L0 D' E|? ? ? ? ? W L0 D' E]; subst.
  - apply AlgProofs.DIn_bound in D'. vm_compute in D'. apply D'. reflexivity.
  - apply AlgProofs.DIn_range in D'; [vm_compute in D'; destruct D' as [D' _]; apply D'; reflexivity|vm_compute; discriminate].
Qed.
