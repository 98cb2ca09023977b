(** Proofs for RestProperties.v. *)
From Coq Require Import Sorted.
From Verif Require Import Base BaseProofs LogTreeModel LogTreeSpec PrefixModel PrefixExamples CodecModel CodecSpec AlgModel AlgProofs3 HandleModel StoreModel StoreProofs CommitModel MutateModel MutateSpec MutateExamples ServerModel ClientModel ClientProofs ClientSpec ClientExamples SearchExamples GuardSpec GuardProofs6 GuardExamples RestSpec RestExamples.
Open Scope N_scope.
Local Open Scope list_scope.

Lemma sameStore_refl k : sameStore k k.
Proof. split; reflexivity. Qed.

Lemma sameStore_put k : sameStore k kRest -> sameStore {| k_state := k_state kRest; k_labels := bput (k_labels k) la entryRest |} kRest.
Proof.
  intros [E1 E2]. split; [reflexivity|]. intros l. cbn [k_labels]. unfold bput. cbn [bget]. destruct (bytes_eqb l la) eqn:E; [|apply E2].
  apply bytes_eqb_eq in E. subst l. vm_compute. reflexivity.
Qed.

Lemma sameState_sym x y : sameState x y -> sameState y x.
Proof. intros (A & B & C & D). split; [congruence|]. split; [congruence|]. split; [congruence|]. intro p. now rewrite D. Qed.

Theorem rest_refuted : exists (f : bytes -> bytes) hs c vrf sign Ls t rs now sigVerify audVerify k label st st0 ls req resp, (forall x, lenN (f x) = hs) /\
  runs (full f) hs c vrf sign Ls t rs /\ getState c k = Ok (Some st) /\ hasSeen f t (lenN rs) st0 /\ sameState st st0 /\ th_size (cs_head st) = lenN rs /\
  forall k1, sameStore k1 k -> due c k1 label /\ monitorRequestFor hs c k1 label = Ok (Some st, ls, inl req) /\
    exists k2, clientContactMonitor (full f) hs c now sigVerify audVerify k1 (Some st) ls req resp = Ok k2 /\ sameStore k2 k.
Proof.
  exists toy32, 32, xc, xvrf, xsign, xLs, t3, [q1; q2; q3], 3000, xsv, xsv, kRest, la, stRest, st3, (snd (fst reqRest)), (snd reqRest), respRest.
  split; [intros x; unfold lenN; rewrite toy32_len; reflexivity|]. split; [exact x_runs3|]. split; [vm_compute; reflexivity|].
  split; [exact (proj1 c47_example)|]. split; [exact (sameState_sym _ _ st3_stRest)|].
  split; [vm_compute; reflexivity|].
  intros k1 S. split; [|split; [exact (kRest_request k1 S)|]].
  - destruct kRest_due as (s & cut & raw & pos & E1 & E2 & E3 & E4). exists s, cut, raw, pos. destruct S as [S1 S2].
    split; [rewrite <- E1; unfold getState; rewrite S1; reflexivity|]. split; [exact E2|]. split; [rewrite S2; exact E3|exact E4].
  - eexists. split; [apply kRest_again|]. apply sameStore_put, S.
Qed.

Lemma left_over H hs c now sigVerify audVerify k state ls req resp k' :
  clientContactMonitor H hs c now sigVerify audVerify k state ls req resp = Ok k' ->
  exists checked mo y v, checkContactMonitor H hs c now state ls req resp = Ok (checked, mo) /\ pointsTo mo y v.
Proof.
  unfold clientContactMonitor, checkContactMonitor. intro E. step E. rewrite Q. cbn beta iota zeta delta [bind]. step E. rewrite Q0. cbn beta iota zeta delta [bind].
  step E. destruct x1 as [u v2]. rewrite Q1. cbn beta iota zeta delta [bind]. step E. destruct x1 as [mo v3]. rewrite Q2. cbn beta iota zeta delta [bind].
  step E. destruct x1 as [mo' v4]. rewrite Q3. cbn beta iota zeta delta [bind]. step E. step E. clear E Q4. exists v4, mo'.
  unfold execV in Q3. apply bind_ok in Q3. destruct Q3 as (a & Q3 & Q3'). injection Q3' as -> _.
  destruct (run _ _ (v_d v3)) as [[r s'] l'] eqn:R. cbn [result fst] in Q3. subst r. unfold contactMonitor, withContact in R. cbn [mo_contact] in R.
  apply run_bind_ok in R. destruct R as (ptrs & s1 & l1 & l2 & _ & R & _). cbn in R. injection R as <- _ _. cbn [mo_contact] in Q5.
  destruct ptrs as [|[y v] t]; [discriminate Q5|]. exists y, v. split; [reflexivity|]. eexists. split; [reflexivity|]. cbn. now rewrite N.eqb_refl.
Qed.

Theorem rest_partial : forall H hs c now sigVerify audVerify k state ls req resp k',
  clientContactMonitor H hs c now sigVerify audVerify k state ls req resp = Ok k' ->
  exists checked mo raw pos after, checkContactMonitor H hs c now state ls req resp = Ok (checked, mo) /\
    execV H hs (rightmostDistinguished c (v_n checked)) checked = Ok (Some pos, after) /\
    bget (k_labels k') (cq_label req) = Some (raw, pos) /\
    forall l, l <> cq_label req -> bget (k_labels k') l = bget (k_labels k) l.
Proof.
  intros H hs c now sv av k state ls req resp k' E.
  destruct (contact_checks H hs c now sv av k state ls req resp k' E) as (checked & mo & result & root & C & _ & _ & _ & ls' & pos & (S1 & S2 & S3) & (after & R) & P & O & _).
  destruct (left_over H hs c now sv av k state ls req resp k' E) as (checked' & mo' & y & v & C' & Pt). rewrite C in C'. injection C' as <- <-.
  destruct S2 as (raw & _ & B).
  - intros [N0 _]. apply P in Pt. rewrite N0 in Pt. destruct Pt.
  - exists checked, mo, raw, pos, after. auto.
Qed.
