(** Concrete cases for AgreeProperties.v: searches in the log of VouchExamples.v, at sizes 2 and 3. *)
From Verif Require Import Base BaseProofs LogTreeModel LogTreeSpec TransMathSpec LaddersModel PrefixModel PrefixSpec PrefixExamples CodecModel CodecSpec AlgModel AlgSpec HandleModel StoreModel CommitModel MutateModel MutateSpec MutateExamples ServerModel
  ClientModel ClientSpec ClientExamples SoundSpec SoundExamples AuditorModel AuditorSpec AuditorExamples WatchSpec GuardSpec GuardExamples VouchSpec VouchExamples AgreeSpec.
Open Scope N_scope.
Local Open Scope list_scope.

(** Both users have no state and ask for the greatest version. *)
Definition ra2 : searchResponse := Eval vm_compute in getOk noResponse (xserve (snd m2r) 2000 q0).
Definition ra3 : searchResponse := Eval vm_compute in getOk noResponse (xserve t3n 3000 q0).
Definition atab : list bytes := Eval vm_compute in
  dedup (vtab ++ commitInputs (sr_opening ra2) la 1 (sr_value ra2) ++ commitInputs (sr_opening ra3) la 2 (sr_value ra3)).
Lemma atab_ok : ~ broken toy32 32 atab.
Proof. apply notBroken. vm_compute. reflexivity. Qed.

Lemma atab_log : logOf (restrict toy32 atab) 32 [] us3 es3n (leavesIn es3n) trees3n.
Proof.
  split; [|split; [apply ordered3; reflexivity|split; [reflexivity|split; [apply nodupb_ok; vm_compute; reflexivity|]]]].
  - split; [unfold es3n, leavesIn; cbn [map]; repeat (apply Forall2_cons; [vm_compute; reflexivity|]); apply Forall2_nil|].
    unfold es3n, trees3n. repeat (apply Forall2_cons; [split; [apply canonb_ok; vm_compute; reflexivity|vm_compute; reflexivity]|]); apply Forall2_nil.
  - apply es3n_log.
Qed.
Definition root2n : bytes := Eval vm_compute in match leavesIn es3n with a :: b :: _ => pairHash a b | _ => [] end.
Lemma mth_2 : Mth (restrict toy32 atab) (soFar 2 (leavesIn es3n)) root2n.
Proof.
  assert (E : exists a b, soFar 2 (leavesIn es3n) = [a; b] /\ restrict toy32 atab (x00 :: a ++ x00 :: b) = Some root2n).
  { do 2 eexists. split; [vm_compute; reflexivity|]. vm_compute; reflexivity. }
  destruct E as (a & b & -> & Q). change [a; b] with ([a] ++ [b]). apply Mth_node with (vl := a) (vr := b); [reflexivity|reflexivity|constructor|constructor|exact Q].
Qed.
Lemma mth_3 : Mth (restrict toy32 atab) (soFar 3 (leavesIn es3n)) root3n.
Proof.
  assert (E : exists a b d, soFar 3 (leavesIn es3n) = [a; b; d] /\ restrict toy32 atab (x00 :: a ++ x00 :: b) = Some (pairHash a b) /\
    restrict toy32 atab (x01 :: pairHash a b ++ x00 :: d) = Some root3n).
  { do 3 eexists. split; [vm_compute; reflexivity|]. split; vm_compute; reflexivity. }
  destruct E as (a & b & d & -> & Q1 & Q2). eapply mth3; [exact Q1|exact Q2].
Qed.

Definition com3 : bytes := Eval vm_compute in getOk [] (labelCommitment (full toy32) (sr_opening ra3) la 2 (sr_value ra3)).
Lemma ra3_claims w com : claims (restrict toy32 atab) q0 ra3 w com -> (w, com) = (0, comIn ra3 0) \/ (w, com) = (1, comIn ra3 1) \/ (w, com) = (2, com3).
Proof.
  intros (target & ladder & E1 & E2 & E3). vm_compute in E1. injection E1 as <-. vm_compute in E2. injection E2 as <-. destruct E3 as [[-> E3]|(i & st & E3 & E4 & E5)].
  - vm_compute in E3. injection E3 as <-. right. right. reflexivity.
  - destruct i as [|[|[|[|i]]]]; cbn [nth_error] in E3; try (destruct i; discriminate); injection E3 as <-; vm_compute in E4; injection E4 as <-; vm_compute in E5; try discriminate; injection E5 as <-; auto.
Qed.
Lemma la_keys v w : v < 2 ^ 32 -> w < 2 ^ 32 -> keyOf xvrf la v = keyOf xvrf la w -> v = w.
Proof. intros A B E. destruct x_vrfGood as (_ & _ & K). assert (L : In la xLs) by (vm_compute; auto). exact (proj2 (K la v la w L L A B E)). Qed.
Lemma ra2_leaves : noLaterLeaves (restrict toy32 atab) xvrf q0 ra2.
Proof.
  intros p v c d I1 I2. exfalso. vm_compute in I1. destruct I1 as [<-|[]]. vm_compute in I2. repeat destruct I2 as [I2|I2]; try discriminate I2. contradiction.
Qed.
Lemma ra3_leaf : forall p v c d, In p (cp_proofs (sr_search ra3)) -> In (NonLeaf v c d) (p_results p) -> v = keyOf xvrf la 2 /\ c = com3.
Proof.
  intros p v c d I1 I2. vm_compute in I1. destruct I1 as [<-|[<-|[]]]; vm_compute in I2; repeat destruct I2 as [I2|I2]; try discriminate I2; try contradiction.
  injection I2 as <- <- <-. split; vm_compute; reflexivity.
Qed.
Lemma ra3_leaves : noLaterLeaves (restrict toy32 atab) xvrf q0 ra3.
Proof.
  intros p v c d I1 I2. destruct (ra3_leaf p v c d I1 I2) as [-> ->]. split.
  - intros w com Cl Q. apply ra3_claims in Cl. destruct Cl as [Cl|[Cl|Cl]]; injection Cl as -> ->; try reflexivity; apply la_keys in Q; try discriminate Q; vm_compute; reflexivity.
  - intros _ t w E Lw Lw2 Q. vm_compute in E. injection E as <-. change (sq_label q0) with la in Q. apply la_keys in Q; [subst w; vm_compute in Lw; discriminate|vm_compute; reflexivity|exact Lw2].
Qed.
Lemma ra_ok : okSearchRequest q0 /\ okSearchResponse xc (sq_version q0) ra2 /\ okSearchResponse xc (sq_version q0) ra3.
Proof.
  split; [split; vm_compute; auto|]. unfold okSearchResponse, okCombinedProof, okPrefixProof. cbn [ra2 ra3 sr_head sr_version sr_opening sr_value sr_ladder sr_search q0 xsearch sq_version].
  oks; intros [x Q]; discriminate Q.
Qed.

Lemma c103_users : logOf (restrict toy32 atab) 32 [] us3 es3n (leavesIn es3n) trees3n /\ ~ broken toy32 32 atab /\
  foundIn (restrict toy32 atab) 32 xc 2000 xvv xsv xvrf (soFar 2 es3n) (soFar 2 (leavesIn es3n)) None q0 ra2 /\ searchedVersion q0 ra2 = Ok 1 /\
  foundIn (restrict toy32 atab) 32 xc 3000 xvv xsv xvrf (soFar 3 es3n) (soFar 3 (leavesIn es3n)) None q0 ra3 /\ searchedVersion q0 ra3 = Ok 2.
Proof.
  split; [exact atab_log|]. split; [exact atab_ok|]. split; [|split; [reflexivity|split; [|reflexivity]]].
  - split; [exact I|]. split; [apply ra_ok|]. split; [apply ra_ok|]. split; [exact ra2_leaves|]. do 5 eexists. split; [vm_compute; reflexivity|]. split; [reflexivity|]. split; [vm_compute; reflexivity|]. split; [vm_compute; reflexivity|exact mth_2].
  - split; [exact I|]. split; [apply ra_ok|]. split; [apply ra_ok|]. split; [exact ra3_leaves|]. do 5 eexists. split; [vm_compute; reflexivity|]. split; [reflexivity|]. split; [vm_compute; reflexivity|]. split; [vm_compute; reflexivity|exact mth_3].
Qed.

(** The owner knows versions 0 and 1, which the second entry holds. *)
Lemma c103_owner : settledAt xvrf la (keeps ols) (soFar 3 trees3n) 1 1 /\ exists ladder, searchBinaryLadder 1 1 [] [] = Ok ladder /\ In 1 ladder.
Proof.
  split; [split|].
  - intros y t Ly Q. destruct (N.eq_dec y 0) as [->|]; [|assert (y = 1) as -> by lia]; vm_compute in Q; injection Q as <-; vm_compute; reflexivity.
  - intros v E. assert (v = 1) as -> by lia. eexists. split; [vm_compute; reflexivity|]. split; [vm_compute; auto|].
    assert (K : forall w com, In w [0; 1] -> (exists r, In r (cl_versions ols) /\ rv_version r = w /\ rv_commitment r = Some com) ->
      map (fun t => heldAs xvrf la t w) trees3n = [None; Some com; Some com] \/ map (fun t => heldAs xvrf la t w) trees3n = [Some com; Some com; Some com] ->
      exists com, keeps ols w com /\ forall y t, nth_error (soFar 3 trees3n) (N.to_nat y) = Some t -> (1 <= y -> heldAs xvrf la t w = Some com) /\ (heldAs xvrf la t w = None \/ heldAs xvrf la t w = Some com)).
    { intros w com _ A B. exists com. split; [exact A|]. intros y t Q. change (soFar 3 trees3n) with trees3n in Q. pose proof (map_nth_error (fun t => heldAs xvrf la t w) _ _ Q) as M.
      destruct B as [B|B]; rewrite B in M; (destruct (N.to_nat y) as [|[|[|i]]] eqn:Ey; cbn in M; [| | |destruct i; discriminate]); injection M as <-; split; auto; intro; lia. }
    intros w Iw Lw. destruct (N.eq_dec w 0) as [->|]; [|assert (w = 1) as -> by lia].
    + eapply K; [auto with datatypes|eexists; split; [|split; [|]]|]; [left; reflexivity|reflexivity|reflexivity|right; vm_compute; reflexivity].
    + eapply K; [auto with datatypes|eexists; split; [|split; [|]]|]; [right; left; reflexivity|reflexivity|reflexivity|right; vm_compute; reflexivity].
  - eexists. split; [vm_compute; reflexivity|]. vm_compute. auto.
Qed.
