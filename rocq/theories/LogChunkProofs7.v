(** C08: histories and requests together. *)
From Verif Require Import Base BaseProofs LogMathModel LogMathSpec LogTreeModel LogTreeSpec NodeMathProofs LogMathProofs LogMathProofs2 LogTreeProofs LogTreeProofs3 LogChunkModel LogChunkSpec LogChunkProofs LogChunkProofs4 LogChunkProofs6.

Lemma hasDup_spec l : hasDup l = false -> Sorted.StronglySorted N.le l -> NoDup l.
Proof.
  induction l as [|a l IH]; intros D S0; constructor.
  - intro I. inversion S0 as [|x y S1 F]; subst. destruct l as [|b l]; [destruct I|]. cbn [hasDup] in D. apply orb_false_iff in D as [D _].
    apply N.eqb_neq in D. inversion S1 as [|x y S2 F2]; subst. rewrite Forall_forall in F, F2.
    destruct I as [<-|I]; [congruence|]. specialize (F b (or_introl eq_refl)). specialize (F2 a I). lia.
  - apply IH; [|now inversion S0]. destruct l as [|b l]; [reflexivity|]. cbn [hasDup] in D. now apply orb_false_iff in D as [_ D].
Qed.

Lemma NoDup_hasDup l : NoDup l -> hasDup l = false.
Proof.
  induction 1 as [|a l I N0 IH]; [reflexivity|]. destruct l as [|b l]; [reflexivity|]. cbn [hasDup] in *. rewrite IH.
  destruct (N.eqb_spec a b) as [->|]; [|reflexivity]. exfalso. apply I. now left.
Qed.

Lemma nsort_in l x : In x (nsort l) <-> In x l.
Proof. split; apply Permutation.Permutation_in; [apply nsort_perm|apply Permutation.Permutation_sym, nsort_perm]. Qed.

Lemma Range_le n a len : Range n a len -> a + len <= n.
Proof. induction 1 as [|a len R IH H|a len R IH H]; [lia| |]; pose proof (split_spec len H); lia. Qed.

Section Hash.
Variable f : bytes -> bytes.
Variable hs : N.
Hypothesis Hf : forall x, lenN (f x) = hs.
Hypothesis Hhs : 0 < hs.

Lemma bad_spec n k : n <= two63 -> badAdditional n k = false <-> optSize n k.
Proof.
  intro Hn. destruct k as [k|]; cbn; [|tauto]. rewrite maxTreeSize_two63, !orb_false_iff, N.eqb_neq, !N.ltb_ge. lia.
Qed.
Lemma bad_prev n k : badPrevious n k = badAdditional n k.
Proof. now destruct k. Qed.

Section L.
Variable L : list bytes.
Hypothesis HL : Forall (fun e : bytes => lenN e = hs) L.
Hypothesis HL63 : lenN L <= 2 ^ 63.

Lemma getBatch_args st entries n nP m : storeOk f L (lenN L) st -> n <= lenN L -> 
  (exists proof, getBatch (full f) hs st entries n nP m = Ok proof) \/ (exists msg, getBatch (full f) hs st entries n nP m = Fail msg).
Proof.
  intros St Hn. unfold getBatch. destruct (N.eqb_spec n 0) as [->|Hn0]; [right; eexists; reflexivity|]. cbn [orb].
  change (2 ^ 63) with two63 in HL63. rewrite maxTreeSize_two63. replace (two63 <? n) with false by lia.
  destruct (badAdditional n nP) eqn:B1; [right; eexists; reflexivity|]. rewrite bad_prev.
  destruct (badAdditional n m) eqn:B2; [right; eexists; reflexivity|].
  destruct (existsb (fun x => n <=? x) (nsort entries)) eqn:B3; [right; eexists; reflexivity|].
  destruct (hasDup (nsort entries)) eqn:B4; [right; eexists; reflexivity|].
  apply bad_spec in B1; [|lia]. apply bad_spec in B2; [|lia]. left.
  assert (F : Forall (fun i => i < n) entries).
  { apply Forall_forall. intros i I. apply (proj2 (nsort_in _ _)) in I. destruct (N.ltb_spec i n); [assumption|].
    assert (existsb (fun x => n <=? x) (nsort entries) = true); [|congruence]. apply existsb_exists. exists i. split; [exact I|]. now apply N.leb_le. }
  destruct (getBatch_spec f hs Hf Hhs L HL HL63 (lenN L) st entries n nP m ltac:(lia) St ltac:(lia) F B1 B2) as (cp & proof & _ & _ & E).
  eauto.
Qed.

Lemma getBatch_ok st entries n nP m : storeOk f L (lenN L) st -> 1 <= n <= lenN L -> Forall (fun i => i < n) entries -> NoDup entries -> optSize n nP -> optSize n m ->
  exists cp proof, batchCopath entries n nP m = Ok cp /\ getBatch (full f) hs st entries n nP m = Ok proof /\
    Forall2 (fun x w => forall a len, Range n a len -> nodeId a len = x -> NodeVal (full f) L a len w) cp proof.
Proof.
  intros St Hn F ND B1 B2. change (2 ^ 63) with two63 in HL63.
  destruct (getBatch_spec f hs Hf Hhs L HL HL63 (lenN L) st entries n nP m ltac:(lia) St ltac:(lia) F B1 B2) as (cp & proof & Ec & Fp & E).
  exists cp, proof. split; [exact Ec|]. split; [|exact Fp]. unfold getBatch.
  replace (n =? 0) with false by lia. cbn [orb]. rewrite maxTreeSize_two63. replace (two63 <? n) with false by lia.
  apply bad_spec in B1, B2; try lia. rewrite B1, bad_prev, B2.
  replace (existsb (fun x => n <=? x) (nsort entries)) with false.
  2:{ symmetry. apply not_true_iff_false. rewrite existsb_exists. intros (x & I & X). apply (proj1 (nsort_in _ _)) in I. rewrite Forall_forall in F. specialize (F x I). apply N.leb_le in X. lia. }
  rewrite NoDup_hasDup; [exact E|]. eapply Permutation.Permutation_NoDup; [apply Permutation.Permutation_sym, nsort_perm|exact ND].
Qed.
End L.

Lemma c08_store L : lenN L <= 2 ^ 63 -> Forall (fun e : bytes => lenN e = hs) L ->
  exists fs st,
    foldM (fun s e => let* (fs, st) := treeAppend (full f) hs (snd s) (fst (fst s)) e in Ok (fst (fst s) + 1, fs, st)) L (0, [], [])
      = Ok (lenN L, fs, st) /\
    (L <> [] -> FullValues (full f) L (lenN L) fs) /\ storeOk f L (lenN L) st.
Proof.
  intros H63 HL. change (2 ^ 63) with two63 in H63.
  destruct (appendAll_spec f hs Hf Hhs L HL H63 L 0 [] []) as (fs & st & E & S0 & FV).
  - reflexivity.
  - reflexivity.
  - intros b p B1 B2 F. rewrite full_iff in F. pose proof (pow2_pos b). nia.
  - lia.
  - exists fs, st. split; [exact E|]. split; [|exact S0]. intro Hne. apply FV. destruct L; [congruence|]. unfold lenN. cbn [List.length]. lia.
Qed.

Lemma c08_all L : lenN L <= 2 ^ 63 -> Forall (fun e : bytes => lenN e = hs) L ->
  exists fs st,
    foldM (fun s e => let* (fs, st) := treeAppend (full f) hs (snd s) (fst (fst s)) e in Ok (fst (fst s) + 1, fs, st)) L (0, [], [])
      = Ok (lenN L, fs, st) /\
    (L <> [] -> FullValues (full f) L (lenN L) fs) /\
    (forall entries n nP m, n <= lenN L ->
       (exists proof, getBatch (full f) hs st entries n nP m = Ok proof) \/
       (exists msg, getBatch (full f) hs st entries n nP m = Fail msg)) /\
    (forall entries n nP m, 1 <= n <= lenN L -> Forall (fun i => i < n) entries -> NoDup entries -> optSize n nP -> optSize n m ->
       exists cp proof, batchCopath entries n nP m = Ok cp /\ getBatch (full f) hs st entries n nP m = Ok proof /\
         Forall2 (fun x w => forall a len, Range n a len -> nodeId a len = x -> NodeVal (full f) L a len w) cp proof).
Proof.
  intros H63 HL. destruct (c08_store L H63 HL) as (fs & st & E & FV & S0).
  exists fs, st. split; [exact E|]. split; [exact FV|]. split; intros.
  - eapply getBatch_args; eauto.
  - eapply getBatch_ok; eauto.
Qed.

Lemma c08_verified L entries values n nP m r :
  lenN L <= 2 ^ 63 -> Forall (fun e : bytes => lenN e = hs) L -> 1 <= n <= lenN L ->
  NoDup entries -> Forall2 (fun i w => i < n /\ nth_error L (N.to_nat i) = Some w) entries values -> optSize n nP ->
  match m with Some (k, old) => 1 <= k <= n /\ FullValues (full f) L k old | None => True end ->
  Mth (full f) (firstn (N.to_nat n) L) r ->
  exists fs st proof fs' ad,
    foldM (fun s e => let* (fs, st) := treeAppend (full f) hs (snd s) (fst (fst s)) e in Ok (fst (fst s) + 1, fs, st)) L (0, [], [])
      = Ok (lenN L, fs, st) /\
    getBatch (full f) hs st entries n nP (option_map fst m) = Ok proof /\
    verifyBatch (full f) hs m entries n nP values proof = Ok (fs', ad) /\ logRoot (full f) hs n fs' = Ok r /\
    FullValues (full f) L n fs' /\ match nP with Some k => FullValues (full f) L k ad | None => ad = [] end.
Proof.
  intros H63 HL Hn ND FE OP OM M. destruct (c08_store L H63 HL) as (fs & st & E & FV & S0).
  assert (F : Forall (fun i => i < n) entries) by (clear -FE; induction FE as [|i w es vs [A B] F IH]; constructor; auto).
  assert (Om : optSize n (option_map fst m)) by (destruct m as [[k old]|]; cbn; tauto).
  destruct (getBatch_ok L HL H63 st entries n nP (option_map fst m) S0 Hn F ND OP Om) as (cp & proof & Ec & Eg & Fp).
  set (L' := firstn (N.to_nat n) L) in *.
  assert (El : lenN L' = n) by (unfold L', lenN; rewrite firstn_length_le by (unfold lenN in *; lia); lia).
  assert (NV : forall a len w, a + len <= n -> NodeVal (full f) L a len w -> NodeVal (full f) L' a len w).
  { intros a len w Hl X. unfold NodeVal, L'. now rewrite slice_firstn. }
  destruct (verifyBatch_complete (full f) hs m entries nP values proof L' r cp) as (fs' & ad & E1 & FV1 & E2 & FV2).
  - apply (full_sized f hs Hf).
  - exact Hhs.
  - rewrite El. lia.
  - unfold L'. apply (slice_Forall (P := fun e : bytes => lenN e = hs) L 0 n HL).
  - exact M.
  - destruct m as [[k old]|]; [|exact I]. destruct OM as [Hk (parts & P & F2)]. rewrite El. split; [exact Hk|]. exists parts. split; [exact P|].
    pose proof (Parts_tiles 0 k parts ltac:(lia) P) as T. 
    clear -F2 NV T Hk. assert (G : Forall (fun z => fst z + snd z <= n) parts).
    { apply Forall_forall. intros [b l] Iz. cbn. destruct (tiles_in _ _ _ _ _ T Iz) as (T1 & T2 & T3). lia. }
    clear T. induction F2 as [|z v parts old A F2 IH]; constructor; inversion G; subst; auto.
  - clear -FE. induction FE as [|i w es vs [A B] F IH]; constructor; [|exact IH]. unfold L'.
    rewrite <- (firstn_skipn (N.to_nat n) L) in B. assert (B' : (N.to_nat i < List.length (firstn (N.to_nat n) L ++ skipn (N.to_nat n) L))%nat) by (apply nth_error_Some; congruence).
    destruct (Nat.ltb_spec (N.to_nat i) (List.length (firstn (N.to_nat n) L))) as [Hlt|Hge]; [now rewrite nth_error_app1 in B|].
    rewrite firstn_length in Hge. rewrite firstn_skipn in B'. lia.
  - rewrite El. exact OP.
  - rewrite El. exact Ec.
  - rewrite El. clear -Fp NV. induction Fp as [|x w cp proof A F IH]; constructor; [|exact IH].
    intros a len R E. apply NV; [now apply Range_le|]. now apply A.
  - rewrite El in *. exists fs, st, proof, fs', ad.
    assert (Back : forall k vs, 1 <= k <= n -> FullValues (full f) L' k vs -> FullValues (full f) L k vs).
    { intros k vs Hk (parts & P & F2). exists parts. split; [exact P|].
      pose proof (Parts_tiles 0 k parts ltac:(lia) P) as T.
      assert (G : Forall (fun z => fst z + snd z <= n) parts).
      { apply Forall_forall. intros [b l] Iz. cbn. destruct (tiles_in _ _ _ _ _ T Iz) as (T1 & T2 & T3). lia. }
      clear -F2 G. induction F2 as [|z v parts vs A F2 IH]; constructor; inversion G; subst; auto.
      unfold NodeVal, L' in A. rewrite slice_firstn in A; auto. }
    split; [exact E|]. split; [exact Eg|]. split; [exact E1|]. split; [exact E2|]. split; [apply Back; [lia|exact FV1]|].
    destruct nP as [k|]; [|exact FV2]. apply Back; [exact OP|exact FV2].
Qed.
End Hash.
