(** Concrete cases for VouchProperties.v: three mutations without removals, audited one after the other, and monitoring of the resulting log. *)
From Coq Require Import Sorted.
From Verif Require Import Base BaseProofs LogTreeModel LogTreeSpec TransMathSpec LaddersModel PrefixModel PrefixSpec PrefixExamples CodecModel CodecSpec AlgModel AlgSpec HandleModel StoreModel MutateModel MutateSpec MutateExamples ServerModel ClientModel ClientSpec ClientExamples SoundExamples
  AuditorModel AuditorSpec AuditorProofs3 AuditorExamples AuditTreeSpec WatchSpec GuardSpec GuardExamples VouchSpec.
Open Scope N_scope.
Local Open Scope list_scope.

Definition q3n := xreq [la] 3000 [(la, xv x05)] [].
Definition m3r := Eval vm_compute in mdo (snd m2r) q3n.
Definition b3 := Eval vm_compute in snd (adoP b2 (upOf m3r)).
Definition us3 : list auditorUpdate := Eval vm_compute in [upOf m1r; upOf m2r; upOf m3r].
Definition t3n : tree := Eval vm_compute in snd m3r.
Definition es3n : list logEntry := Eval vm_compute in entriesIn t3n 3.
Definition trees3n : list trie := Eval vm_compute in map (trieFrom 256 0) [in1; in2; in2 ++ [held la 2 (xv x05)]].
Definition vtab : list bytes := Eval vm_compute in dedup (flat_map (treeInputs toy32 32) trees3n ++ logInputs es3n).
Definition root3n : bytes := Eval vm_compute in match leavesIn es3n with [a; b; d] => toy32 (x01 :: pairHash a b ++ x00 :: d) | _ => [] end.

Lemma b3_audited : auditedX us3 [] b3.
Proof.
  assert (A1 : auditedX [upOf m1r] [] b1) by (change [upOf m1r] with ([] ++ [upOf m1r]); eapply au_accept with (a := a0); [apply au_new; reflexivity|okUpd|reflexivity|vm_compute; reflexivity]).
  assert (A2 : auditedX [upOf m1r; upOf m2r] [] b2) by (change [upOf m1r; upOf m2r] with ([upOf m1r] ++ [upOf m2r]); auStep A1).
  change us3 with ([upOf m1r; upOf m2r] ++ [upOf m3r]). auStep A2.
Qed.
Lemma vtab_ok : ~ broken toy32 32 vtab.
Proof. apply notBroken. vm_compute. reflexivity. Qed.
Lemma us3_decoded : Forall (fun u => au_removed u = [] /\ decoded 32 u /\ hashedIn toy32 vtab 32 u) us3.
Proof.
  assert (D : forall u, au_removed u = [] -> Forall (fun h : bytes => List.length h = 32%nat) (p_elements (au_proof u)) ->
    forallb (fun r => match r with NonLeaf v c d => (List.length v =? 32)%nat && (List.length c =? 32)%nat | _ => true end) (p_results (au_proof u)) = true ->
    Forall (fun e : bytes * bytes => List.length (snd e) = 32%nat) (au_added u) -> hashedIn toy32 vtab 32 u -> au_removed u = [] /\ decoded 32 u /\ hashedIn toy32 vtab 32 u).
  { intros u A B C D E. split; [exact A|]. split; [|exact E]. split; [split; [exact B|]|exact D]. intros v c d I. rewrite forallb_forall in C. specialize (C _ I). cbn in C. apply andb_true_iff in C as [C1 C2].
    apply Nat.eqb_eq in C1, C2. split; assumption. }
  unfold us3. repeat (apply Forall_cons; [apply D; [reflexivity|vm_compute; repeat constructor|vm_compute; reflexivity|vm_compute; repeat constructor|vm_compute; reflexivity]|]). apply Forall_nil.
Qed.
Lemma us3_before : rootBefore (full toy32) 32 (upOf m1r) (repeat x00 32) /\ treeWith toy32 vtab 32 (repeat x00 32) [].
Proof. split; [eexists; vm_compute; reflexivity|]. split; [constructor|]. exists TE. split; [exact I|]. split; [reflexivity|]. intro x. reflexivity. Qed.
Lemma es3n_mth : Mth (restrict toy32 vtab) (leavesIn es3n) root3n.
Proof.
  assert (E : exists a b d, leavesIn es3n = [a; b; d] /\ restrict toy32 vtab (x00 :: a ++ x00 :: b) = Some (pairHash a b) /\
    restrict toy32 vtab (x01 :: pairHash a b ++ x00 :: d) = Some root3n).
  { do 3 eexists. split; [vm_compute; reflexivity|]. split; vm_compute; reflexivity. }
  destruct E as (a & b & d & -> & Q1 & Q2). eapply mth3; [exact Q1|exact Q2].
Qed.

(** Whether two lists have the same elements *)
Definition pairEq (x y : bytes * bytes) : bool := bytes_eqb (fst x) (fst y) && bytes_eqb (snd x) (snd y).
Definition inclb (l m : list (bytes * bytes)) : bool := forallb (fun x => existsb (pairEq x) m) l.
Lemma inclb_ok l m : inclb l m = true -> incl l m.
Proof.
  unfold inclb. rewrite forallb_forall. intros A x I. specialize (A x I). apply existsb_exists in A as (y & Iy & E). apply andb_true_iff in E as [E1 E2]. apply bytes_eqb_eq in E1, E2.
  destruct x, y. cbn in E1, E2. subst. exact Iy.
Qed.
Fixpoint nodupb (l : list bytes) : bool := match l with [] => true | x :: r => negb (existsb (bytes_eqb x) r) && nodupb r end.
Lemma nodupb_ok l : nodupb l = true -> NoDup l.
Proof.
  induction l as [|x l IH]; [constructor|]. cbn. intro E. apply andb_true_iff in E as [E1 E2]. constructor; [|auto]. intro I. apply negb_true_iff in E1.
  assert (existsb (bytes_eqb x) l = true); [|congruence]. apply existsb_exists. exists x. split; [exact I|now apply bytes_eqb_eq].
Qed.
Lemma es3n_log : logOf (restrict toy32 vtab) 32 [] us3 es3n (leavesIn es3n) trees3n.
Proof.
  split; [|split; [apply ordered3; reflexivity|split; [reflexivity|split; [apply nodupb_ok; vm_compute; reflexivity|]]]].
  - split; [unfold es3n, leavesIn; cbn [map]; repeat (apply Forall2_cons; [vm_compute; reflexivity|]); apply Forall2_nil|].
    unfold es3n, trees3n. repeat (apply Forall2_cons; [split; [apply canonb_ok; vm_compute; reflexivity|vm_compute; reflexivity]|]); apply Forall2_nil.
  - assert (B : forall t l, inclb (PrefixSpec.contents t) l = true -> inclb l (PrefixSpec.contents t) = true -> forall x, In x (PrefixSpec.contents t) <-> In x l) by (intros t l P Q x; split; apply inclb_ok; assumption).
    intros i t Q. destruct i as [|[|[|i]]]; [| | |destruct i; discriminate]; (cbn [trees3n nth_error] in Q; injection Q as <-; apply B; vm_compute; reflexivity).
Qed.

(** ** Monitoring: version 1 was seen in the first entry, version 2 in the third *)
Definition ncr : monitorResponse := Eval vm_compute in getOk noMonitor (serverContactMonitor (full toy32) 32 xc xvrf 3000 (serverOf t3n) mcq).
Definition nor : monitorResponse := Eval vm_compute in getOk noMonitor (serverOwnerMonitor (full toy32) 32 xc xvrf 3000 (serverOf t3n) moq).
Lemma ncr_ok : okMonitorResponse xc ncr.
Proof. unfold okMonitorResponse, okCombinedProof, okPrefixProof. cbn [ncr mr_head mr_monitor]. oks. Qed.
Lemma nor_ok : okMonitorResponse xc nor.
Proof. unfold okMonitorResponse, okCombinedProof, okPrefixProof. cbn [nor mr_head mr_monitor]. oks. Qed.
Lemma nor_aliasFree : aliasFree xvrf la (keeps ols) (cp_proofs (mr_monitor nor)).
Proof. noLeaf. Qed.

Lemma c102_signed : auditedX us3 [] b3 /\ (exists th a', adoC (Ok tt) b3 = (Ok th, a')) /\ (forall s, a_state b3 = Some s -> as_sig s = None) /\
  Forall (fun u => au_removed u = [] /\ decoded 32 u /\ hashedIn toy32 vtab 32 u) us3 /\ rootBefore (full toy32) 32 (upOf m1r) (repeat x00 32) /\ treeWith toy32 vtab 32 (repeat x00 32) [] /\ ~ broken toy32 32 vtab.
Proof.
  split; [exact b3_audited|]. split; [do 2 eexists; vm_compute; reflexivity|]. split; [intros s E; unfold b3 in E; cbn [a_state] in E; injection E as <-; reflexivity|].
  split; [exact us3_decoded|]. split; [apply us3_before|]. split; [apply us3_before|exact vtab_ok].
Qed.
Lemma c102_contact : logOf (restrict toy32 vtab) 32 [] us3 es3n (leavesIn es3n) trees3n /\ okMonitorResponse xc ncr /\
  onWay 3 (timeAt es3n) (pc_rmw xc) 0 1 /\
  exists checked mo result, checkContactMonitor (restrict toy32 vtab) 32 xc 3000 None mls mcq ncr = Ok (checked, mo) /\ v_n checked = lenN es3n /\
    dpFinish (restrict toy32 vtab) 32 (v_d checked) (v_n checked) (v_nP checked) (v_m checked) = Ok result /\
    logRoot (restrict toy32 vtab) 32 (v_n checked) (pr_subtrees result) = Ok root3n /\ Mth (restrict toy32 vtab) (leavesIn es3n) root3n.
Proof.
  split; [exact es3n_log|]. split; [exact ncr_ok|]. split.
  - split; [exists 0, 3; split; [constructor|]; split; [reflexivity|split; [discriminate|reflexivity]]|]. split; [reflexivity|]. intros d D S Le. 
    destruct (N.eq_dec d 0) as [->|]; [|lia]. exfalso. unfold distinguished in D. inversion D; subst.
    + match goal with Q : DIn _ _ 0 (lsize 3) _ _ _ |- _ => apply AlgProofs.DIn_bound in Q; vm_compute in Q; apply Q; reflexivity end.
    + match goal with Q : DIn _ _ (sroot 0 3 + 1) _ _ _ _ |- _ => apply AlgProofs.DIn_range in Q; [destruct Q as [Q _]; vm_compute in Q; apply Q; reflexivity|vm_compute; discriminate] end.
  - do 3 eexists. split; [vm_compute; reflexivity|]. split; [reflexivity|]. split; [vm_compute; reflexivity|]. split; [vm_compute; reflexivity|exact es3n_mth].
Qed.
Lemma c102_owner : okMonitorResponse xc nor /\ aliasFree xvrf la (keeps ols) (cp_proofs (mr_monitor nor)) /\ StronglySorted N.le [0; 0; 2] /\ tracks [0; 0; 2] oos /\
  exists checked mo result, checkOwnerMonitor (restrict toy32 vtab) 32 xc 3000 None ols moq nor = Ok (checked, mo) /\ v_n checked = lenN es3n /\
    dpFinish (restrict toy32 vtab) 32 (v_d checked) (v_n checked) (v_nP checked) (v_m checked) = Ok result /\
    logRoot (restrict toy32 vtab) 32 (v_n checked) (pr_subtrees result) = Ok root3n /\ option_map os_starting (mo_owner mo) = Some 1 /\ expected [0; 0; 2] 1 = 1%Z.
Proof.
  split; [exact nor_ok|]. split; [exact nor_aliasFree|]. split; [repeat constructor; discriminate|]. split; [split; reflexivity|].
  do 3 eexists. split; [vm_compute; reflexivity|]. split; [reflexivity|]. split; [vm_compute; reflexivity|]. split; [vm_compute; reflexivity|]. split; reflexivity.
Qed.
