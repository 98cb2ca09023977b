From Verif Require Import Base BaseProofs LogMathModel LogMathSpec NodeMathProofs LogMathProofs LogMathProofs2 LogTreeModel LogTreeSpec.
From Coq Require Import Sorted.

(** ** Slices and the Merkle hash relation *)
Lemma slice_len (L : list bytes) a len : a + len <= lenN L -> lenN (slice L a len) = len.
Proof. unfold slice, lenN. intro H. rewrite firstn_length, skipn_length. lia. Qed.

Lemma slice_split (L : list bytes) a len k : k <= len -> slice L a len = slice L a k ++ slice L (a + k) (len - k).
Proof.
  intro H. unfold slice. replace (N.to_nat len) with (N.to_nat k + N.to_nat (len - k))%nat by lia.
  set (q := N.to_nat (len - k)). replace (N.to_nat (a + k)) with (N.to_nat k + N.to_nat a)%nat by lia.
  assert (E : forall i j (M : list bytes), skipn (i + j) M = skipn i (skipn j M)).
  { intros i j. induction j as [|j IH]; intro M; [now rewrite Nat.add_0_r|].
    rewrite <- plus_n_Sm. destruct M; cbn [skipn]; [now rewrite skipn_nil|]. apply IH. }
  rewrite E. clear E. generalize (skipn (N.to_nat a) L) as M. intro M.
  generalize (N.to_nat k) as j. intro j. revert M. induction j as [|j IH]; intro M; [reflexivity|].
  destruct M as [|m M]; [cbn; now rewrite firstn_nil|]. cbn. f_equal. apply IH.
Qed.

Lemma slice_app (L : list bytes) M a len : a + len <= lenN L -> slice (L ++ M) a len = slice L a len.
Proof.
  unfold slice, lenN. intro H. rewrite skipn_app, firstn_app.
  replace (N.to_nat len - Datatypes.length (skipn (N.to_nat a) L))%nat with 0%nat.
  - cbn. now rewrite app_nil_r.
  - rewrite skipn_length. lia.
Qed.

Lemma slice_all (L : list bytes) : slice L 0 (lenN L) = L.
Proof. unfold slice, lenN. cbn. rewrite Nat2N.id. apply firstn_all. Qed.

Lemma slice_one (L : list bytes) i v : nth_error L (N.to_nat i) = Some v -> slice L i 1 = [v].
Proof.
  unfold slice. intro E. change (N.to_nat 1) with 1%nat.
  generalize dependent (N.to_nat i). intro j. revert L. induction j as [|j IH]; intros [|x L]; cbn; try discriminate.
  - now intros [= ->].
  - apply IH.
Qed.

Lemma Forall2_cons_inv {A B} (P : A -> B -> Prop) x l y m : Forall2 P (x :: l) (y :: m) -> P x y /\ Forall2 P l m.
Proof. intro F. inversion F; auto. Qed.

Lemma lenN_app {A} (l r : list A) : lenN (l ++ r) = lenN l + lenN r.
Proof. unfold lenN. rewrite app_length. lia. Qed.

Lemma Forall2_len {A B} (P : A -> B -> Prop) l1 l2 : Forall2 P l1 l2 -> lenN l1 = lenN l2.
Proof. unfold lenN. induction 1; cbn; lia. Qed.

Lemma map_len {A B} (f : A -> B) l : lenN (map f l) = lenN l.
Proof. unfold lenN. now rewrite map_length. Qed.

Section Hash.
Variable H : bytes -> option bytes.
Variable hs : N.

Lemma Mth_nonempty (L : list bytes) v : Mth H L v -> 1 <= lenN L.
Proof. induction 1; [cbn; lia|lia]. Qed.

Lemma Mth_inv (L : list bytes) v : Mth H L v -> (L = [v]) \/
  (1 < lenN L /\ exists l r vl vr, L = l ++ r /\ lenN l = split (lenN L) /\ Mth H l vl /\ Mth H r vr /\
     H (tagged (lenN l) vl ++ tagged (lenN r) vr) = Some v).
Proof. intro M. destruct M; [left; auto|right]. split; auto. exists l, r, vl, vr. auto. Qed.

Lemma Mth_fun (L : list bytes) v w : Mth H L v -> Mth H L w -> v = w.
Proof.
  intro M. revert w. induction M as [v|l r vl vr h Hl Hs Ml IHl Mr IHr E]; intros w M2.
  - apply Mth_inv in M2 as [E|(Hl & _)]; [congruence|]. cbn in Hl. lia.
  - apply Mth_inv in M2 as [E2|(_ & l2 & r2 & vl2 & vr2 & E2 & Hs2 & Ml2 & Mr2 & EH)].
    + rewrite E2 in Hl. cbn in Hl. lia.
    + assert (l = l2 /\ r = r2) as [<- <-].
      { apply app_eq_length_inv in E2; auto. unfold lenN in *. lia. }
      apply IHl in Ml2. apply IHr in Mr2. subst. congruence.
Qed.

Lemma NodeVal_step (L : list bytes) a len v : 1 < len -> a + len <= lenN L ->
  (NodeVal H L a len v <-> exists vl vr, NodeVal H L a (split len) vl /\
     NodeVal H L (a + split len) (len - split len) vr /\
     H (tagged (split len) vl ++ tagged (len - split len) vr) = Some v).
Proof.
  intros Hl HL. pose proof (split_spec len Hl) as Sp. unfold NodeVal.
  pose proof (slice_split L a len (split len) ltac:(lia)) as E.
  pose proof (slice_len L a len HL) as L0.
  pose proof (slice_len L a (split len) ltac:(lia)) as L1.
  pose proof (slice_len L (a + split len) (len - split len) ltac:(lia)) as L2.
  split.
  - intro M. apply Mth_inv in M as [E1|(_ & l & r & vl & vr & E1 & Hs & Ml & Mr & EH)].
    + rewrite E1 in L0. cbn in L0. lia.
    + rewrite L0 in Hs. assert (l = slice L a (split len) /\ r = slice L (a + split len) (len - split len)) as [-> ->].
      { rewrite E in E1. apply app_eq_length_inv in E1 as [<- <-]; auto. unfold lenN in *. lia. }
      exists vl, vr. rewrite L1, L2 in EH. auto.
  - intros (vl & vr & Ml & Mr & EH). rewrite E.
    apply Mth_node with vl vr; auto.
    + rewrite lenN_app. lia.
    + rewrite lenN_app, L1, L2. f_equal. lia.
    + now rewrite L1, L2.
Qed.

Lemma NodeVal_one (L : list bytes) i v : nth_error L (N.to_nat i) = Some v -> NodeVal H L i 1 v.
Proof. intro E. unfold NodeVal. rewrite (slice_one _ _ _ E). constructor. Qed.

Lemma NodeVal_one_inv (L : list bytes) i v : i < lenN L -> NodeVal H L i 1 v -> nth_error L (N.to_nat i) = Some v.
Proof.
  intros Hi M. destruct (nth_error L (N.to_nat i)) as [w|] eqn:E.
  - f_equal. eapply Mth_fun; [|exact M]. now apply NodeVal_one.
  - apply nth_error_None in E. unfold lenN in Hi. lia.
Qed.

Lemma NodeVal_fun (L : list bytes) a len v w : NodeVal H L a len v -> NodeVal H L a len w -> v = w.
Proof. apply Mth_fun. Qed.

(** Every subtree has a value if the whole tree has. *)
Lemma NodeVal_Range (L : list bytes) v : 1 <= lenN L <= two63 -> Mth H L v ->
  forall a len, Range (lenN L) a len -> exists w, NodeVal H L a len w.
Proof.
  intros Hn M a len R. pose proof (fun a len R => covers_Range (lenN L) a len Hn R) as CV.
  induction R as [|a len R IH Hl|a len R IH Hl].
  - exists v. unfold NodeVal. now rewrite slice_all.
  - destruct IH as (w & W). apply NodeVal_step in W as (vl & vr & Vl & Vr & _); eauto.
    destruct (CV _ _ R) as (_ & _ & _ & C4 & _); lia.
  - destruct IH as (w & W). apply NodeVal_step in W as (vl & vr & Vl & Vr & _); eauto.
    destruct (CV _ _ R) as (_ & _ & _ & C4 & _); lia.
Qed.

Hypothesis Hsized : sized H hs.
Hypothesis Hhs : 0 < hs.

Lemma Mth_sized (L : list bytes) v : Forall (fun e : bytes => lenN e = hs) L -> Mth H L v -> lenN v = hs.
Proof.
  intros F M. destruct M; [now inversion F|]. eapply Hsized; eauto.
Qed.

Lemma slice_Forall {P : bytes -> Prop} L a len : Forall P L -> Forall P (slice L a len).
Proof.
  intro F. unfold slice. rewrite Forall_forall in *. intros x Hx. apply F.
  rewrite <- (firstn_skipn (N.to_nat a) L). apply in_or_app. right.
  rewrite <- (firstn_skipn (N.to_nat len) (skipn _ L)). apply in_or_app. auto.
Qed.

Lemma NodeVal_sized (L : list bytes) a len v : Forall (fun e : bytes => lenN e = hs) L -> NodeVal H L a len v -> lenN v = hs.
Proof. intros F. apply Mth_sized. now apply slice_Forall. Qed.

Lemma lenN_nonnil {A} (v : list A) : 0 < lenN v -> v <> [].
Proof. intros Hv ->. cbn in Hv. lia. Qed.

Lemma nodeMarshal_ok leaf v : lenN v = hs -> nodeMarshal leaf v = Ok ((if leaf then x00 else x01) :: v).
Proof. intro E. destruct v; [cbn in E; lia|reflexivity]. Qed.

Lemma treeHash_spec l r vl vr : lenN vl = hs -> lenN vr = hs ->
  treeHash H (l, vl) (r, vr) =
  match H (((if l then x00 else x01) :: vl) ++ ((if r then x00 else x01) :: vr)) with
  | Some h => Ok (false, h) | None => Fail "hash input outside the table" end.
Proof.
  intros El Er. unfold treeHash. cbn [fst snd]. rewrite !nodeMarshal_ok by auto. cbn [bind].
  destruct (H _); reflexivity.
Qed.

Lemma tagged_node a len v : 1 <= len ->
  tagged len v = (if isLeaf (nodeId a len) then x00 else x01) :: v.
Proof.
  clear Hhs. intro Hl. unfold tagged, nodeId. destruct (N.eqb_spec len 1) as [->|Hn].
  - replace (isLeaf (2 * a)) with true; auto. unfold isLeaf. symmetry. apply N.eqb_eq.
    rewrite land_1. lia.
  - replace (isLeaf (2 * (a + split len) - 1)) with false; auto. unfold isLeaf. symmetry. apply N.eqb_neq.
    rewrite land_1. pose proof (split_spec len). lia.
Qed.

(** ** The root from the full subtrees *)

Lemma rollup_app l1 l2 acc : rollup H (l1 ++ l2) acc = bind (rollup H l1 acc) (rollup H l2).
Proof.
  revert acc. induction l1 as [|[x v] l1 IH]; intro acc; cbn [rollup app bind]; auto.
  destruct (treeHash _ _ _); cbn [bind]; auto.
Qed.

(** What the roll-up computes: the hash of the range from the values of its parts. *)
Lemma rollup_spec (L : list bytes) n a len parts fs :
  1 <= n <= two63 -> n = lenN L -> Forall (fun e : bytes => lenN e = hs) L ->
  Range n a len -> Parts a len parts -> Forall2 (fun z v => NodeVal H L (fst z) (snd z) v) parts fs ->
  exists z v t, rev (combine (map nodeOf parts) fs) = (nodeOf z, v) :: t /\
    (forall w, NodeVal H L a len w -> rollup H t (isLeaf (nodeOf z), v) = Ok (isLeaf (nodeId a len), w)) /\
    (forall lf w, rollup H t (isLeaf (nodeOf z), v) = Ok (lf, w) -> lf = isLeaf (nodeId a len) /\ NodeVal H L a len w).
Proof.
  intros Hn En FL R P. revert fs. induction P as [a len Hp|a len rest Hp Hl P IH]; intros fs F.
  - inversion F as [|z v t fs' V F']; subst. inversion F'; subst. cbn [fst snd] in V.
    exists (a, len), v, []. split; [reflexivity|]. cbn [rollup]. split.
    + intros w W. rewrite (NodeVal_fun _ _ _ _ _ W V). auto.
    + intros lf w E. injection E as <- <-. auto.
  - destruct fs as [|y fs]; [inversion F|]. apply Forall2_cons_inv in F as [V F']. cbn [fst snd] in V.
    pose proof (split_spec len Hl) as Sp. pose proof (split_lt2 len Hp Hl) as Sp2.
    destruct (IH (R_right _ _ _ R Hl) _ F') as (z' & v' & t & E & W1 & W2).
    exists z', v', (t ++ [(nodeOf (a, split len), y)]). split.
    + cbn [map combine rev]. rewrite E. reflexivity.
    + pose proof (covers_Range _ _ _ Hn R) as (_ & _ & _ & C3 & _).
      assert (HL : a + len <= lenN L) by lia.
      assert (EL : false = isLeaf (nodeId a len)).
      { symmetry. unfold nodeId. destruct (N.eqb_spec len 1); [lia|].
        unfold isLeaf. apply N.eqb_neq. rewrite land_1. lia. }
      pose proof (NodeVal_sized _ _ _ _ FL V) as Sv. split.
      * intros w W. apply NodeVal_step in W as (vl & vr & Vl & Vr & EH); auto.
        rewrite (NodeVal_fun _ _ _ _ _ Vl V) in EH.
        pose proof (NodeVal_sized _ _ _ _ FL Vr) as Svr.
        rewrite rollup_app, (W1 _ Vr). cbn [bind rollup].
        rewrite treeHash_spec by auto. rewrite nodeOf_pair.
        rewrite (tagged_node a), (tagged_node (a + split len)) in EH by lia. rewrite EH. cbn [bind].
        rewrite <- EL. auto.
      * intros lf w. rewrite rollup_app. destruct (rollup H t (isLeaf (nodeOf z'), v')) as [[lf' vr]| | |]; try discriminate.
        cbn [bind rollup]. destruct (W2 _ _ eq_refl) as [-> Vr].
        pose proof (NodeVal_sized _ _ _ _ FL Vr) as Svr.
        rewrite treeHash_spec by auto. rewrite nodeOf_pair.
        rewrite <- !tagged_node by lia. destruct (H _) as [h|] eqn:EH; cbn [bind]; try discriminate.
        intros [= <- <-]. split; auto. apply NodeVal_step; auto. exists y, vr. auto.
Qed.

Lemma sizes_ok fs : Forall (fun v => lenN v = hs) fs -> existsb (wrongSize hs) fs = false.
Proof.
  induction 1 as [|v fs E F IH]; auto. cbn. unfold wrongSize at 1. rewrite E, N.eqb_refl. auto.
Qed.

Lemma sizes_ok_inv fs : existsb (wrongSize hs) fs = false -> Forall (fun v => lenN v = hs) fs.
Proof.
  induction fs as [|v fs IH]; cbn; [constructor|]. intro E. apply orb_false_iff in E as [E1 E2].
  constructor; auto. unfold wrongSize in E1. apply negb_false_iff, N.eqb_eq in E1. auto.
Qed.

Lemma FullValues_sized (L : list bytes) n fs : Forall (fun e : bytes => lenN e = hs) L -> FullValues H L n fs ->
  Forall (fun v => lenN v = hs) fs.
Proof.
  intros FL (parts & _ & F). induction F as [|z v parts fs V F IH]; constructor; auto. apply (NodeVal_sized L (fst z) (snd z)); auto.
Qed.

Lemma maxTreeSize_two63 : maxTreeSize = two63. Proof. reflexivity. Qed.

Lemma logRoot_spec (L : list bytes) fs : 1 <= lenN L <= two63 -> Forall (fun e : bytes => lenN e = hs) L ->
  FullValues H L (lenN L) fs -> forall w, logRoot H hs (lenN L) fs = Ok w <-> Mth H L w.
Proof.
  intros Hn FL FV w. pose proof (FullValues_sized _ _ _ FL FV) as SZ. destruct FV as (parts & P & F).
  unfold logRoot. rewrite maxTreeSize_two63.
  destruct (N.eqb_spec (lenN L) 0); [lia|]. destruct (N.ltb_spec two63 (lenN L)); [lia|]. cbn [orb].
  destruct (fullSubtrees_root (lenN L) Hn) as (parts' & E & P'). rewrite (Parts_fun _ _ _ _ P' P) in E.
  rewrite E. cbn [bind]. rewrite <- (Forall2_len _ _ _ F), map_len, N.eqb_refl. cbn [negb].
  rewrite sizes_ok by auto.
  destruct (rollup_spec L (lenN L) 0 (lenN L) parts fs) as (z & v & t & ER & W1 & W2); auto using R_root.
  rewrite ER. split.
  - intro E0. destruct (rollup _ _ _) as [[lf u]| | |] eqn:Er; try discriminate. cbn in E0. injection E0 as <-.
    clear Er. destruct (W2 _ _ eq_refl) as [_ Er]. unfold NodeVal in Er. now rewrite slice_all in Er.
  - intro M. rewrite (W1 w); [reflexivity|]. unfold NodeVal. now rewrite slice_all.
Qed.
End Hash.
