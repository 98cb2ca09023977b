(** Concrete cases for GuardProperties.v: the log of MutateExamples.v with its prefix trees, and a log in which the tree of the second
    entry already holds a version that its owner published only later. *)
From Verif Require Import Base BaseProofs LogTreeModel LogTreeSpec LogMathSpec TransMathModel TransMathSpec TransMathProofs LaddersModel PrefixModel PrefixSpec PrefixExamples CodecModel CodecSpec AlgModel AlgSpec HandleModel HandleSpec StoreModel CommitModel
  MutateModel MutateSpec MutateExamples CodecProofs3 ServerModel ClientModel ClientSpec ClientExamples SearchExamples SoundSpec SoundExamples WatchSpec GuardSpec.
From Coq Require Import Sorted.
Open Scope N_scope.
Local Open Scope list_scope.

(** ** The prefix trees *)
Fixpoint trieFrom (fuel depth : nat) (l : list (bytes * bytes)) : trie :=
  match l, fuel with
  | [], _ => TE
  | [(k, v)], _ => TL k v
  | _, O => TE
  | _, S f => TN (trieFrom f (S depth) (filter (fun e => negb (nth depth (bits (fst e)) false)) l)) (trieFrom f (S depth) (filter (fun e => nth depth (bits (fst e)) false) l))
  end.
Definition held (l : bytes) (v : N) (u : updateValue) : bytes * bytes := (keyOf xvrf l v, getOk [] (labelCommitment (full toy32) (xopening l v) l v u)).
Definition in1 := [held la 0 (xv x01); held la 1 (xv x03); held lb 0 (xv x02)].
Definition in2 := in1 ++ [held lc 0 (xv x04)].
Definition in3 := [held la 0 (xv x01); held la 1 (xv x03); held lc 0 (xv x04); held la 2 (xv x05)].
Definition trees3 : list trie := Eval vm_compute in map (trieFrom 256 0) [in1; in2; in3].

Definition comOf (v : N) : bytes := Eval vm_compute in match v with 0 => comIn again 0 | 1 => comIn again 1 | _ => againCom end.

Definition logInputs (es : list logEntry) : list bytes :=
  map (fun e => getOk [] (logEntryMarshal e)) es ++
  match leavesIn es with [a; b; d] => [x00 :: a ++ x00 :: b; x01 :: pairHash a b ++ x00 :: d] | _ => [] end.
Definition gtab : list bytes := Eval vm_compute in dedup (flat_map (treeInputs toy32 32) trees3 ++ logInputs es3).
Lemma gtab_ok : ~ broken toy32 32 gtab.
Proof. apply notBroken. vm_compute. reflexivity. Qed.

Lemma es3_commits : commitsTo (restrict toy32 gtab) 32 es3 (leavesIn es3) trees3.
Proof.
  split; [unfold es3, leavesIn; cbn [map]; repeat (apply Forall2_cons; [vm_compute; reflexivity|]); apply Forall2_nil|].
  unfold es3, trees3. repeat (apply Forall2_cons; [split; [apply canonb_ok; vm_compute; reflexivity|vm_compute; reflexivity]|]); apply Forall2_nil.
Qed.
Lemma mth3 H a b d ab h : H (x00 :: a ++ x00 :: b) = Some ab -> H (x01 :: ab ++ x00 :: d) = Some h -> Mth H [a; b; d] h.
Proof.
  intros Q1 Q2. change [a; b; d] with ([a; b] ++ [d]). apply Mth_node with (vl := ab) (vr := d); [reflexivity|reflexivity| |constructor|exact Q2].
  change [a; b] with ([a] ++ [b]). apply Mth_node with (vl := a) (vr := b); [reflexivity|reflexivity|constructor|constructor|exact Q1].
Qed.
Lemma es3_mth : Mth (restrict toy32 gtab) (leavesIn es3) root3L.
Proof.
  assert (E : exists a b d, leavesIn es3 = [a; b; d] /\ restrict toy32 gtab (x00 :: a ++ x00 :: b) = Some (pairHash a b) /\
    restrict toy32 gtab (x01 :: pairHash a b ++ x00 :: d) = Some root3L).
  { do 3 eexists. split; [vm_compute; reflexivity|]. split; vm_compute; reflexivity. }
  destruct E as (a & b & d & -> & Q1 & Q2). eapply mth3; [exact Q1|exact Q2].
Qed.

Lemma ordered3 (es : list logEntry) : map le_ts es = [1000; 2000; 3000] -> ordered es.
Proof.
  intros E. destruct es as [|a [|b [|d [|? ?]]]]; try discriminate. injection E as Ea Eb Ed. split; [|split].
  - split; vm_compute; [discriminate|reflexivity].
  - repeat constructor; rewrite ?Ea, ?Eb, ?Ed; reflexivity.
  - intros x y [Le Lt]. change (lenN [a; b; d]) with 3 in Lt. unfold timeAt.
    assert (X : x = 0 \/ x = 1 \/ x = 2) by lia. assert (Y : y = 0 \/ y = 1 \/ y = 2) by lia.
    destruct X as [->|[->| ->]], Y as [->|[->| ->]]; try lia; change (N.to_nat 0) with 0%nat; change (N.to_nat 1) with 1%nat; change (N.to_nat 2) with 2%nat; cbn [nth_error]; rewrite ?Ea, ?Eb, ?Ed; lia.
Qed.

(** ** Contact monitoring: version 1 was seen in the first entry, version 2 in the third *)
Definition noMonitor : monitorResponse := {| mr_head := {| fth_head := None; fth_auditor := None |}; mr_monitor := {| cp_ts := []; cp_proofs := []; cp_roots := []; cp_incl := [] |} |}.
Definition mcq : contactRequest := {| cq_last := None; cq_label := la; cq_entries := [(0, 1); (2, 2)] |}.
Definition mcr : monitorResponse := Eval vm_compute in getOk noMonitor (serverContactMonitor (full toy32) 32 xc xvrf 3000 (serverOf t3) mcq).
Definition kept (vs : list (N * option bytes)) : list retainedVersion := map (fun '(v, c) => {| rv_version := v; rv_vrf := kv v; rv_commitment := c |}) vs.
Definition mls : labelState := {| cl_contact := [(0, 1); (2, 2)]; cl_owner := None; cl_versions := kept [(0, Some (comOf 0)); (1, Some (comOf 1)); (2, Some (comOf 2))] |}.
(** ** Owner monitoring *)
Definition moq : ownerMonitorRequest := {| oq_last := None; oq_label := la; oq_entries := [(2, 2)]; oq_start := 0; oq_greatest := Some 2 |}.
Definition mor : monitorResponse := Eval vm_compute in getOk noMonitor (serverOwnerMonitor (full toy32) 32 xc xvrf 3000 (serverOf t3) moq).
Definition oos : ownerState := {| os_starting := 0; os_verAt := 1%Z; os_upcoming := [2] |}.
Definition ols : labelState := {| cl_contact := [(2, 2)]; cl_owner := Some oos; cl_versions := kept [(0, Some (comOf 0)); (1, Some (comOf 1)); (2, Some (comOf 2)); (3, None)] |}.
(** ** Initialization of the owner *)
Definition miq : ownerInitRequest := {| iq_last := None; iq_label := la; iq_start := 1 |}.
Definition noInit : ownerInitResponse := {| ir_head := {| fth_head := None; fth_auditor := None |}; ir_versions := []; ir_ladder := []; ir_init := {| cp_ts := []; cp_proofs := []; cp_roots := []; cp_incl := [] |} |}.
Definition mir : ownerInitResponse := Eval vm_compute in getOk noInit (serverOwnerInit (full toy32) 32 xc xvrf 3000 (serverOf t3) miq).

Lemma mcr_ok : okMonitorResponse xc mcr.
Proof. unfold okMonitorResponse, okCombinedProof, okPrefixProof. cbn [mcr mr_head mr_monitor]. oks. Qed.
Lemma mor_ok : okMonitorResponse xc mor.
Proof. unfold okMonitorResponse, okCombinedProof, okPrefixProof. cbn [mor mr_head mr_monitor]. oks. Qed.
Lemma mir_ok : okOwnerInitResponse xc mir.
Proof. unfold okOwnerInitResponse, okCombinedProof, okPrefixProof. cbn [mir ir_head ir_versions ir_ladder ir_init]. oks. Qed.
Lemma genuine_kept p o vs : genuineKeys xvrf la {| cl_contact := p; cl_owner := o; cl_versions := kept vs |}.
Proof. unfold genuineKeys, kept. cbn [cl_versions]. apply Forall_map, Forall_forall. intros [v c] _. reflexivity. Qed.

Lemma noLeaf_aliasFree l known proofs : (forall p v c d, In p proofs -> ~ In (NonLeaf v c d) (p_results p)) -> aliasFree xvrf l known proofs.
Proof.
  intros A p Ip. split; [intros v c d w com I; destruct (A p v c d Ip I)|].
  intros t ladder r i w v c d _ _ _ E. destruct (A p v c d Ip (nth_error_In _ _ E)).
Qed.
Ltac noLeaf := apply noLeaf_aliasFree; intros p v c d I1 I2; vm_compute in I1; destruct I1 as [<-|[]]; vm_compute in I2; repeat destruct I2 as [I2|I2]; try discriminate I2; exact I2.
Lemma mor_aliasFree : aliasFree xvrf la (keeps ols) (cp_proofs (mr_monitor mor)).
Proof. noLeaf. Qed.
Lemma mir_aliasFree : aliasFree xvrf la (initClaims mir) (cp_proofs (ir_init mir)).
Proof. noLeaf. Qed.

Lemma c88_example :
  commitsTo (restrict toy32 gtab) 32 es3 (leavesIn es3) trees3 /\ ordered es3 /\ NoDup (map fst (cl_contact mls)) /\ Forall (fun p => fst p < lenN es3) (cl_contact mls) /\
  genuineKeys xvrf (cq_label mcq) mls /\ okMonitorResponse xc mcr /\ ~ broken toy32 32 gtab /\
  exists checked mo result, checkContactMonitor (restrict toy32 gtab) 32 xc 3000 None mls mcq mcr = Ok (checked, mo) /\ v_n checked = lenN es3 /\
    dpFinish (restrict toy32 gtab) 32 (v_d checked) (v_n checked) (v_nP checked) (v_m checked) = Ok result /\
    logRoot (restrict toy32 gtab) 32 (v_n checked) (pr_subtrees result) = Ok root3L /\ Mth (restrict toy32 gtab) (leavesIn es3) root3L /\ mo_contact mo = Some [(2, 2)].
Proof.
  split; [exact es3_commits|]. split; [apply ordered3; reflexivity|]. split; [repeat constructor; cbn [In map fst mls cl_contact]; intuition discriminate|].
  split; [repeat constructor|]. split; [apply genuine_kept|]. split; [exact mcr_ok|]. split; [exact gtab_ok|].
  do 3 eexists. split; [vm_compute; reflexivity|]. split; [reflexivity|]. split; [vm_compute; reflexivity|]. split; [vm_compute; reflexivity|]. split; [exact es3_mth|reflexivity].
Qed.

Lemma c86_example :
  commitsTo (restrict toy32 gtab) 32 es3 (leavesIn es3) trees3 /\ ordered es3 /\ NoDup (map fst (cl_contact ols)) /\ Forall (fun p => fst p < lenN es3) (cl_contact ols) /\
  genuineKeys xvrf (oq_label moq) ols /\ okMonitorResponse xc mor /\ aliasFree xvrf (oq_label moq) (keeps ols) (cp_proofs (mr_monitor mor)) /\
  StronglySorted N.le [0; 0; 2] /\ tracks [0; 0; 2] oos /\ ~ broken toy32 32 gtab /\
  exists checked mo result, checkOwnerMonitor (restrict toy32 gtab) 32 xc 3000 None ols moq mor = Ok (checked, mo) /\ v_n checked = lenN es3 /\
    dpFinish (restrict toy32 gtab) 32 (v_d checked) (v_n checked) (v_nP checked) (v_m checked) = Ok result /\
    logRoot (restrict toy32 gtab) 32 (v_n checked) (pr_subtrees result) = Ok root3L /\ Mth (restrict toy32 gtab) (leavesIn es3) root3L /\
    mo_owner mo = Some {| os_starting := 1; os_verAt := 1%Z; os_upcoming := [2] |}.
Proof.
  split; [exact es3_commits|]. split; [apply ordered3; reflexivity|]. split; [repeat constructor; cbn [In map fst ols cl_contact]; intuition discriminate|].
  split; [repeat constructor|]. split; [apply genuine_kept|]. split; [exact mor_ok|]. split; [exact mor_aliasFree|].
  split; [repeat constructor; discriminate|]. split; [split; reflexivity|]. split; [exact gtab_ok|].
  do 3 eexists. split; [vm_compute; reflexivity|]. split; [reflexivity|]. split; [vm_compute; reflexivity|]. split; [vm_compute; reflexivity|]. split; [exact es3_mth|reflexivity].
Qed.

Lemma c87_example :
  commitsTo (restrict toy32 gtab) 32 es3 (leavesIn es3) trees3 /\ ordered es3 /\ okOwnerInitResponse xc mir /\ aliasFree xvrf (iq_label miq) (initClaims mir) (cp_proofs (ir_init mir)) /\
  ir_versions mir = [1] /\ ~ broken toy32 32 gtab /\
  exists checked mo result, checkOwnerInit (restrict toy32 gtab) 32 xc 3000 xvv None miq mir = Ok (checked, [1], mo) /\ v_n checked = lenN es3 /\
    dpFinish (restrict toy32 gtab) 32 (v_d checked) (v_n checked) (v_nP checked) (v_m checked) = Ok result /\
    logRoot (restrict toy32 gtab) 32 (v_n checked) (pr_subtrees result) = Ok root3L /\ Mth (restrict toy32 gtab) (leavesIn es3) root3L.
Proof.
  split; [exact es3_commits|]. split; [apply ordered3; reflexivity|]. split; [exact mir_ok|]. split; [exact mir_aliasFree|]. split; [reflexivity|]. split; [exact gtab_ok|].
  do 3 eexists. split; [vm_compute; reflexivity|]. split; [reflexivity|]. split; [vm_compute; reflexivity|]. split; [vm_compute; reflexivity|]. exact es3_mth.
Qed.

(** ** A log in which the second entry holds version 2 already, and a proof that shows its leaf as evidence that it is absent (C27) *)
Definition mE := Eval vm_compute in getOk ([], {| p_results := []; p_elements := [] |}, [], []) (mutate (full toy32) 32 (x_prefix (durable (t_tx t3))) 3 [held la 7 (xv x06)] []).
Definition esE : list logEntry := Eval vm_compute in match es3 with [a; b; d] => [a; {| le_ts := 2000; le_root := fst (fst (fst mE)) |}; d] | _ => [] end.
Definition treesE : list trie := Eval vm_compute in match trees3 with [a; b; d] => [a; trieFrom 256 0 (in3 ++ [held la 7 (xv x06)]); d] | _ => [] end.
Definition etab : list bytes := Eval vm_compute in dedup (flat_map (treeInputs toy32 32) treesE ++ logInputs esE).
Lemma etab_ok : ~ broken toy32 32 etab.
Proof. apply notBroken. vm_compute. reflexivity. Qed.
Lemma esE_commits : commitsTo (restrict toy32 etab) 32 esE (leavesIn esE) treesE.
Proof.
  split; [unfold esE, leavesIn; cbn [map]; repeat (apply Forall2_cons; [vm_compute; reflexivity|]); apply Forall2_nil|].
  unfold esE, treesE. repeat (apply Forall2_cons; [split; [apply canonb_ok; vm_compute; reflexivity|vm_compute; reflexivity]|]); apply Forall2_nil.
Qed.
Definition rootE : bytes := Eval vm_compute in match leavesIn esE with [a; b; d] => toy32 (x01 :: pairHash a b ++ x00 :: d) | _ => [] end.
Lemma esE_mth : Mth (restrict toy32 etab) (leavesIn esE) rootE.
Proof.
  assert (E : exists a b d, leavesIn esE = [a; b; d] /\ restrict toy32 etab (x00 :: a ++ x00 :: b) = Some (pairHash a b) /\
    restrict toy32 etab (x01 :: pairHash a b ++ x00 :: d) = Some rootE).
  { do 3 eexists. split; [vm_compute; reflexivity|]. split; vm_compute; reflexivity. }
  destruct E as (a & b & d & -> & Q1 & Q2). eapply mth3; [exact Q1|exact Q2].
Qed.
Definition proofE : pproof := Eval vm_compute in
  match search (full toy32) 32 (snd mE) 4 [kv 0; kv 1; kv 3; kv 2] with
  | Ok (p, _) => {| p_results := match p_results p with [a; b; d; Inc n] => [a; b; d; NonLeaf (kv 2) (comOf 2) n] | _ => [] end; p_elements := p_elements p |}
  | _ => {| p_results := []; p_elements := [] |}
  end.
Definition combinedE (p : combinedProof) : combinedProof := {| cp_ts := cp_ts p; cp_proofs := [proofE]; cp_roots := cp_roots p; cp_incl := cp_incl p |}.
Definition morE : monitorResponse := {| mr_head := mr_head mor; mr_monitor := combinedE (mr_monitor mor) |}.
Definition mirE : ownerInitResponse := {| ir_head := ir_head mir; ir_versions := ir_versions mir; ir_ladder := ir_ladder mir; ir_init := combinedE (ir_init mir) |}.
Lemma morE_ok : okMonitorResponse xc morE.
Proof. unfold okMonitorResponse, okCombinedProof, okPrefixProof. cbn [morE combinedE mor mr_head mr_monitor]. oks. Qed.
Lemma mirE_ok : okOwnerInitResponse xc mirE.
Proof. unfold okOwnerInitResponse, okCombinedProof, okPrefixProof. cbn [mirE combinedE mir ir_head ir_versions ir_ladder ir_init]. oks. Qed.

Lemma esE_shows known t : nth_error treesE 1 = Some t -> ~ showsGreatest xvrf la known t 1.
Proof.
  intros Et (_ & S). destruct (S 1 eq_refl) as (ladder & _ & _ & I2 & S2). specialize (S2 (1 + 1) I2). cbn in Et. injection Et as <-. vm_compute in S2. discriminate S2.
Qed.

Lemma morE_accepted : exists checked mo result, checkOwnerMonitor (restrict toy32 etab) 32 xc 3000 None ols moq morE = Ok (checked, mo) /\ v_n checked = lenN esE /\
    dpFinish (restrict toy32 etab) 32 (v_d checked) (v_n checked) (v_nP checked) (v_m checked) = Ok result /\
    logRoot (restrict toy32 etab) 32 (v_n checked) (pr_subtrees result) = Ok rootE /\
    mo_owner mo = Some {| os_starting := 1; os_verAt := 1%Z; os_upcoming := [2] |}.
Proof. do 3 eexists. split; [vm_compute; reflexivity|]. split; [reflexivity|]. split; [vm_compute; reflexivity|]. split; [vm_compute; reflexivity|]. reflexivity. Qed.
Lemma mirE_accepted : exists checked mo result, checkOwnerInit (restrict toy32 etab) 32 xc 3000 xvv None miq mirE = Ok (checked, [1], mo) /\ v_n checked = lenN esE /\
    dpFinish (restrict toy32 etab) 32 (v_d checked) (v_n checked) (v_nP checked) (v_m checked) = Ok result /\
    logRoot (restrict toy32 etab) 32 (v_n checked) (pr_subtrees result) = Ok rootE.
Proof. do 3 eexists. split; [vm_compute; reflexivity|]. split; [reflexivity|]. split; [vm_compute; reflexivity|]. vm_compute; reflexivity. Qed.

Lemma esE_distinguished : distinguished (lenN esE) (timeAt esE) (pc_rmw xc) 1.
Proof. apply (DI_here _ _ 0 3). vm_compute. discriminate. Qed.

Lemma c86_refuted : exists f T hs c vrf now es leaves trees ls req resp checked mo result root hist os os' d t,
  (forall x, lenN (f x) = hs) /\ 0 < hs /\ pc_hs c = N.to_nat hs /\ commitsTo (restrict f T) (N.to_nat hs) es leaves trees /\ ordered es /\
  NoDup (map fst (cl_contact ls)) /\ Forall (fun p => fst p < lenN es) (cl_contact ls) /\ genuineKeys vrf (oq_label req) ls /\ okMonitorResponse c resp /\
  cl_owner ls = Some os /\ StronglySorted N.le hist /\ tracks hist os /\
  checkOwnerMonitor (restrict f T) hs c now None ls req resp = Ok (checked, mo) /\ v_n checked = lenN es /\
  dpFinish (restrict f T) hs (v_d checked) (v_n checked) (v_nP checked) (v_m checked) = Ok result /\
  logRoot (restrict f T) hs (v_n checked) (pr_subtrees result) = Ok root /\ Mth (restrict f T) leaves root /\
  mo_owner mo = Some os' /\ distinguished (lenN es) (timeAt es) (pc_rmw c) d /\ os_starting os < d <= os_starting os' /\ nth_error trees (N.to_nat d) = Some t /\
  ~ showsGreatest vrf (oq_label req) (keeps ls) t (expected hist d) /\ ~ broken f (N.to_nat hs) T.
Proof.
  destruct morE_accepted as (checked & mo & result & E1 & E2 & E3 & E4 & E5).
  exists toy32, etab, 32, xc, xvrf, 3000, esE, (leavesIn esE), treesE, ols, moq, morE, checked, mo, result, rootE, [0; 0; 2], oos. eexists. exists 1. eexists.
  split; [exact toy_len|]. split; [reflexivity|]. split; [reflexivity|]. split; [exact esE_commits|]. split; [apply ordered3; reflexivity|].
  split; [repeat constructor; cbn [In map fst ols cl_contact]; intuition discriminate|]. split; [repeat constructor|]. split; [apply genuine_kept|]. split; [exact morE_ok|].
  split; [reflexivity|]. split; [repeat constructor; discriminate|]. split; [split; reflexivity|]. split; [exact E1|]. split; [exact E2|]. split; [exact E3|]. split; [exact E4|].
  split; [exact esE_mth|]. split; [exact E5|]. split; [exact esE_distinguished|]. split; [split; [reflexivity|discriminate]|]. split; [reflexivity|].
  split; [apply esE_shows; reflexivity|exact etab_ok].
Qed.

Lemma c87_refuted : exists f T hs c vrf now es leaves trees vrfVerify req resp checked xs mo result root i x t,
  (forall x, lenN (f x) = hs) /\ 0 < hs /\ pc_hs c = N.to_nat hs /\ commitsTo (restrict f T) (N.to_nat hs) es leaves trees /\ ordered es /\
  vrfVerifies vrf vrfVerify /\ okOwnerInitResponse c resp /\
  checkOwnerInit (restrict f T) hs c now vrfVerify None req resp = Ok (checked, xs, mo) /\ v_n checked = lenN es /\
  dpFinish (restrict f T) hs (v_d checked) (v_n checked) (v_nP checked) (v_m checked) = Ok result /\
  logRoot (restrict f T) hs (v_n checked) (pr_subtrees result) = Ok root /\ Mth (restrict f T) leaves root /\
  nth_error xs i = Some x /\ nth_error trees (N.to_nat x) = Some t /\
  ~ showsGreatest vrf (iq_label req) (initClaims resp) t (claimed (ir_versions resp) i) /\ ~ broken f (N.to_nat hs) T.
Proof.
  destruct mirE_accepted as (checked & mo & result & E1 & E2 & E3 & E4).
  exists toy32, etab, 32, xc, xvrf, 3000, esE, (leavesIn esE), treesE, xvv, miq, mirE, checked, [1], mo, result, rootE, 0%nat, 1. eexists.
  split; [exact toy_len|]. split; [reflexivity|]. split; [reflexivity|]. split; [exact esE_commits|]. split; [apply ordered3; reflexivity|].
  split; [exact x_vrfVerifies|]. split; [exact mirE_ok|]. split; [exact E1|]. split; [exact E2|]. split; [exact E3|]. split; [exact E4|].
  split; [exact esE_mth|]. split; [reflexivity|]. split; [reflexivity|]. split; [apply esE_shows; reflexivity|exact etab_ok].
Qed.

(** ** A client that knows the tree head, which has not changed *)
Definition mcq3 : contactRequest := {| cq_last := Some 3; cq_label := la; cq_entries := [(0, 1); (2, 2)] |}.
Definition moq3 : ownerMonitorRequest := {| oq_last := Some 3; oq_label := la; oq_entries := [(2, 2)]; oq_start := 0; oq_greatest := Some 2 |}.
Definition miq3 : ownerInitRequest := {| iq_last := Some 3; iq_label := la; iq_start := 1 |}.
(** The proof without what the client has already (see C47). *)
Definition withoutIncl (p : combinedProof) : combinedProof := {| cp_ts := cp_ts p; cp_proofs := cp_proofs p; cp_roots := cp_roots p; cp_incl := [] |}.
Definition mcr3 : monitorResponse := Eval vm_compute in let r := getOk noMonitor (serverContactMonitor (full toy32) 32 xc xvrf 3000 (serverOf t3) mcq3) in {| mr_head := mr_head r; mr_monitor := withoutIncl (mr_monitor r) |}.
Definition mor3 : monitorResponse := Eval vm_compute in let r := getOk noMonitor (serverOwnerMonitor (full toy32) 32 xc xvrf 3000 (serverOf t3) moq3) in {| mr_head := mr_head r; mr_monitor := withoutIncl (mr_monitor r) |}.
Definition mir3 : ownerInitResponse := Eval vm_compute in let r := getOk noInit (serverOwnerInit (full toy32) 32 xc xvrf 3000 (serverOf t3) miq3) in
  {| ir_head := ir_head r; ir_versions := ir_versions r; ir_ladder := ir_ladder r; ir_init := withoutIncl (ir_init r) |}.
Lemma client_checks_example :
  (exists k', clientContactMonitor (full toy32) 32 xc 3000 xsv xsv emptyClient (Some st3) mls mcq3 mcr3 = Ok k') /\
  (exists k', clientOwnerMonitor (full toy32) 32 xc 3000 xsv xsv emptyClient (Some st3) ols moq3 mor3 = Ok k') /\
  (exists k', clientOwnerInit (full toy32) 32 xc 3000 xvv xsv xsv emptyClient (Some st3) noLabelState miq3 mir3 = Ok k').
Proof. split; [|split]; eexists; vm_compute; reflexivity. Qed.
