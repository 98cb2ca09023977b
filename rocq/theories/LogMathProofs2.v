(** Full subtrees and batch copaths. *)
From Coq Require Import Sorted Permutation.
From Verif Require Import Base BaseProofs LogMathModel NodeMathProofs LogMathSpec LogMathProofs.

Lemma nodeOf_pair a l : nodeOf (a, l) = nodeId a l.
Proof. reflexivity. Qed.

Lemma covers_lt64 n x a len : 1 <= n <= two63 -> covers n x a len -> x < two64 - 1.
Proof. intros Hn (C1 & _). unfold two63, two64 in *. lia. Qed.

(** Level bounds of a range. *)
Lemma covers_size n x a len : 1 <= n <= two63 -> covers n x a len ->
  len <= 2 ^ level x /\ (0 < level x -> 2 ^ (level x - 1) < len) /\
  (hi x + 2 = 2 * (a + len) <-> len = 2 ^ level x).
Proof.
  intros Hn C. pose proof (covers_lt64 _ _ _ _ Hn C) as Hx.
  destruct C as (C1 & C2 & C3 & C4 & C5).
  unfold lo, hi in *. pose proof (pow2_pos (level x)) as Pk.
  destruct (nid_ex63 x Hx) as (k & q & E & Hk & L). rewrite L in *.
  rewrite E in *. rewrite nid_form in *. rewrite pow2_S in *.
  repeat split; try nia.
  intro HL. assert (Ek : k = (k - 1) + 1) by lia. set (j := k - 1) in *. clearbody j. subst k.
  rewrite pow2_S in *. pose proof (pow2_pos j). nia.
Qed.

Lemma pow2_iff n x a len : 1 <= n <= two63 -> covers n x a len -> (pow2 len <-> len = 2 ^ level x).
Proof.
  intros Hn C. destruct (covers_size n x a len Hn C) as (S1 & S2 & S3).
  split; [|intros ->; eexists; eauto].
  intros (j & ->). destruct (N.lt_trichotomy j (level x)) as [H|[->|H]]; auto.
  - exfalso. assert (2 ^ j <= 2 ^ (level x - 1)) by (apply N.pow_le_mono_r; lia). lia.
  - exfalso. assert (2 ^ level x < 2 ^ j) by (apply N.pow_lt_mono_r; lia). lia.
Qed.

Lemma isFullSubtree_hi n x a len : 1 <= n <= two63 -> covers n x a len ->
  isFullSubtree x n = (hi x <=? 2 * n - 2).
Proof.
  intros Hn C. pose proof (covers_lt64 _ _ _ _ Hn C) as Hx. unfold isFullSubtree.
  pose proof (hi_lt64 x Hx) as Hhi. unfold hi in *. pose proof (pow2_pos (level x)).
  pose proof (level_le63 x Hx). pose proof (pow2_lt64 (level x)).
  rewrite (sub64_small n 1), mul64_small by (unfold two63, two64 in *; lia).
  rewrite shl64_small by lia. rewrite N.mul_1_l.
  rewrite add64_small by lia. rewrite sub64_small by lia.
  f_equal. lia.
Qed.

Lemma isFullSubtree_spec n x a len : 1 <= n <= two63 -> covers n x a len ->
  (isFullSubtree x n = true <-> pow2 len).
Proof.
  intros Hn C. rewrite (isFullSubtree_hi n x a len), (pow2_iff n x a len) by auto.
  destruct (covers_size n x a len Hn C) as (S1 & S2 & S3).
  destruct C as (C1 & C2 & C3 & C4 & C5).
  rewrite N.leb_le. rewrite <- S3. split; [|lia].
  intro H. destruct C5 as [C5|C5]; lia.
Qed.

Lemma fullSubtrees_loop_spec fuel n x a len :
  1 <= n <= two63 -> covers n x a len -> level x < N.of_nat fuel ->
  exists parts, fullSubtrees_loop fuel x n = Ok (map nodeOf parts) /\ Parts a len parts.
Proof.
  intro Hn. revert x a len. induction fuel as [|f IH]; intros x a len C Hf; [lia|].
  cbn [fullSubtrees_loop].
  pose proof (isFullSubtree_spec n x a len Hn C) as F.
  destruct (isFullSubtree x n).
  - exists [(a, len)]. split.
    + cbn [map]. rewrite nodeOf_pair. now rewrite <- (covers_nodeId n x a len).
    + constructor. tauto.
  - assert (HL : 1 < len).
    { destruct (N.eq_dec len 1) as [->|]; [|destruct C; lia].
      destruct F as [_ F]. discriminate F. exists 0. reflexivity. }
    destruct (covers_children n x a len Hn C HL)
      as (l & r & El & Er & Hl & Hr & Ll & Lr & Ex & Ps & Hs & Cl & Cr & _).
    rewrite El, Er. cbn [bind].
    destruct (IH r _ _ Cr) as (parts & Ep & P); [lia|].
    rewrite Ep. cbn [bind]. exists ((a, split len) :: parts). split.
    + cbn [map]. rewrite nodeOf_pair. now rewrite <- (covers_nodeId n l _ _ Hn Cl).
    + apply P_more; auto. intro Hp. apply F in Hp. discriminate.
Qed.

Lemma fullSubtrees_covers n x a len :
  1 <= n <= two63 -> covers n x a len ->
  exists parts, fullSubtrees x n = Ok (map nodeOf parts) /\ Parts a len parts.
Proof.
  intros Hn C. apply fullSubtrees_loop_spec; auto.
  pose proof (level_le63 x (covers_lt64 _ _ _ _ Hn C)). cbn. lia.
Qed.

Lemma fullSubtrees_root n : 1 <= n <= two63 ->
  exists parts, fullSubtrees (root n) n = Ok (map nodeOf parts) /\ Parts 0 n parts.
Proof. intro Hn. apply fullSubtrees_covers; auto. now apply covers_root. Qed.

(** *** Consequences of [Parts] *)

Lemma split_spec len : 1 < len -> 1 <= split len /\ split len < len <= 2 * split len.
Proof.
  intro H. unfold split. pose proof (N.log2_spec (len - 1)) as S.
  rewrite N.pow_succ_r' in S. pose proof (pow2_pos (N.log2 (len - 1))). lia.
Qed.

Lemma split_lt2 len : ~ pow2 len -> 1 < len -> len < 2 * split len.
Proof.
  intros Hp H. pose proof (split_spec len H). destruct (N.eq_dec len (2 * split len)) as [E|]; [|lia].
  exfalso. apply Hp. unfold split in E. exists (N.log2 (len - 1) + 1). now rewrite pow2_S.
Qed.

Lemma Parts_tiles a len parts : 1 <= len -> Parts a len parts -> tiles a parts (a + len).
Proof.
  intros H P. induction P as [a len|a len rest Hp Hl P IH].
  - cbn. auto.
  - pose proof (split_spec len Hl). cbn [tiles]. split; [auto|split; [lia|]].
    replace (a + len) with (a + split len + (len - split len)) by lia. apply IH. lia.
Qed.

Lemma Parts_pow2 a len parts : Parts a len parts -> Forall (fun z => pow2 (snd z)) parts.
Proof.
  induction 1 as [a len|a len rest Hp Hl P IH]; constructor; auto.
  cbn [snd]. eexists. reflexivity.
Qed.

Lemma Parts_Range n a len parts : 1 <= n <= two63 -> Range n a len -> Parts a len parts ->
  Forall (fun z => Range n (fst z) (snd z)) parts.
Proof.
  intros Hn R P. induction P as [a len|a len rest Hp Hl P IH].
  - constructor; auto.
  - constructor; [now apply R_left|]. apply IH. now apply R_right.
Qed.

Lemma Parts_head a len parts z rest : 1 <= len -> Parts a len parts -> parts = z :: rest -> snd z <= len.
Proof.
  intros H P E. destruct P as [a len|a len r Hp Hl P]; injection E as <- <-; cbn [snd]; [lia|].
  pose proof (split_spec len Hl). lia.
Qed.

Lemma Parts_decreasing a len parts : 1 <= len -> Parts a len parts -> decreasing parts.
Proof.
  intros H P. induction P as [a len|a len rest Hp Hl P IH]; [exact I|].
  pose proof (split_spec len Hl). pose proof (split_lt2 len Hp Hl).
  destruct rest as [|[a2 l2] rest]; [exact I|].
  cbn [decreasing]. split; [|apply IH; lia].
  assert (l2 <= len - split len); [|lia].
  change l2 with (snd (a2, l2)). eapply Parts_head; eauto. lia.
Qed.

Lemma popcount_double m : popcount (2 * m) = popcount m.
Proof. destruct m; reflexivity. Qed.
Lemma popcount_double1 m : popcount (2 * m + 1) = S (popcount m).
Proof. destruct m; reflexivity. Qed.

Lemma popcount_pow2_add k m : m < 2 ^ k -> popcount (2 ^ k + m) = S (popcount m).
Proof.
  revert m. induction k as [|k IH] using N.peano_ind; intros m H.
  - rewrite N.pow_0_r in *. assert (m = 0) by lia. subst. reflexivity.
  - rewrite N.pow_succ_r' in *.
    assert (Hm : m = 2 * (m / 2) + m mod 2) by (apply N.div_mod; lia).
    assert (m mod 2 < 2) by (apply N.mod_upper_bound; lia).
    set (h := m / 2) in *. set (b := m mod 2) in *.
    assert (b = 0 \/ b = 1) as [Eb|Eb] by lia; rewrite Eb in Hm; rewrite Hm.
    + replace (2 * 2 ^ k + (2 * h + 0)) with (2 * (2 ^ k + h)) by lia.
      rewrite N.add_0_r, !popcount_double. apply IH. lia.
    + replace (2 * 2 ^ k + (2 * h + 1)) with (2 * (2 ^ k + h) + 1) by lia.
      rewrite !popcount_double1. f_equal. apply IH. lia.
Qed.

Lemma popcount_pow2 k : popcount (2 ^ k) = 1%nat.
Proof.
  rewrite <- (N.add_0_r (2 ^ k)). rewrite popcount_pow2_add; [reflexivity|].
  pose proof (pow2_pos k). lia.
Qed.

Lemma Parts_length a len parts : 1 <= len -> Parts a len parts -> List.length parts = popcount len.
Proof.
  intros H P. induction P as [a len (k & ->)|a len rest Hp Hl P IH].
  - now rewrite popcount_pow2.
  - pose proof (split_spec len Hl). pose proof (split_lt2 len Hp Hl). cbn [List.length].
    rewrite IH by lia. replace (popcount len) with (popcount (split len + (len - split len))) by (f_equal; lia).
    unfold split in *. rewrite popcount_pow2_add by lia. reflexivity.
Qed.

Lemma Parts_fun a len p1 p2 : Parts a len p1 -> Parts a len p2 -> p1 = p2.
Proof.
  intro P. revert p2. induction P as [a len Hp|a len rest Hp Hl P IH]; intros p2 P2; inversion P2; subst.
  - reflexivity.
  - contradiction.
  - contradiction.
  - f_equal. auto.
Qed.

(** ** Nodes of a smaller tree that are full are nodes of a larger tree *)

Lemma covers_pow2_mono m n x a len : 1 <= m <= n -> n <= two63 ->
  covers m x a len -> pow2 len -> covers n x a len.
Proof.
  intros Hm Hn C Hp. assert (Hm' : 1 <= m <= two63) by lia.
  apply (pow2_iff m x a len Hm' C) in Hp.
  destruct (covers_size m x a len Hm' C) as (S1 & S2 & S3).
  destruct C as (C1 & C2 & C3 & C4 & C5). unfold covers. repeat split; try lia.
Qed.

(** ** Ranges and intervals of ids *)

Definition inside (x y : N) : Prop := lo x <= y <= hi x.

(** ** Sorted sets *)

Definition sset (l : list N) : Prop := StronglySorted N.lt l.

Lemma sset_inv x l : sset (x :: l) -> sset l /\ Forall (fun y => x < y) l.
Proof. intro H. apply StronglySorted_inv in H. exact H. Qed.

Lemma sset_ext l1 l2 : sset l1 -> sset l2 -> (forall x, In x l1 <-> In x l2) -> l1 = l2.
Proof.
  revert l2. induction l1 as [|x l1 IH]; intros [|y l2] S1 S2 E; auto.
  - exfalso. apply (E y). now left.
  - exfalso. apply (E x). now left.
  - apply sset_inv in S1 as [S1 F1]. apply sset_inv in S2 as [S2 F2].
    rewrite Forall_forall in F1, F2.
    assert (x = y).
    { assert (Hx : In x (y :: l2)) by (apply E; now left).
      assert (Hy : In y (x :: l1)) by (apply E; now left).
      destruct Hx as [->|Hx]; auto. destruct Hy as [->|Hy]; auto.
      apply F2 in Hx. apply F1 in Hy. lia. }
    subst y. f_equal. apply IH; auto. intro z. split; intro Hz.
    + assert (I : In z (x :: l2)) by (apply E; now right). destruct I as [->|I]; auto.
      apply F1 in Hz. lia.
    + assert (I : In z (x :: l1)) by (apply E; now right). destruct I as [->|I]; auto.
      apply F2 in Hz. lia.
Qed.

Lemma sset_filter f l : sset l -> sset (filter f l).
Proof.
  induction l as [|x l IH]; cbn [filter]; auto. intro S. apply sset_inv in S as [S F].
  destruct (f x); auto. constructor; [apply IH; auto|].
  rewrite Forall_forall in *. intros y Hy. apply filter_In in Hy. apply F. tauto.
Qed.

Lemma sset_app l1 l2 : sset l1 -> sset l2 -> (forall x y, In x l1 -> In y l2 -> x < y) -> sset (l1 ++ l2).
Proof.
  induction l1 as [|x l1 IH]; intros S1 S2 H; auto.
  apply sset_inv in S1 as [S1 F]. cbn [app]. constructor.
  - apply IH; auto. intros. apply H; auto. now right.
  - rewrite Forall_forall in *. intros y Hy. apply in_app_or in Hy as [Hy|Hy]; auto.
    apply H; auto. now left.
Qed.

Lemma dedupSort_In l x : In x (dedupSort l) <-> In x l.
Proof.
  unfold dedupSort. rewrite nodup_In. split; apply Permutation_in; [|symmetry]; apply nsort_perm.
Qed.

Lemma dedupSort_sset l : sset (dedupSort l).
Proof.
  unfold dedupSort. pose proof (nsort_sorted l) as S. induction (nsort l) as [|x t IH]; [constructor|].
  apply StronglySorted_inv in S as [S F]. cbn [nodup].
  destruct (in_dec N.eq_dec x t) as [I|I]; [apply IH; auto|].
  constructor; [apply IH; auto|]. rewrite Forall_forall in *. intros y Hy.
  apply nodup_In in Hy. assert (x <> y) by (intros ->; auto). apply F in Hy. lia.
Qed.

Lemma below_In x y l : In y (below x l) <-> In y l /\ y < x.
Proof. unfold below. rewrite filter_In, N.ltb_lt. reflexivity. Qed.
Lemma above_In x y l : In y (above x l) <-> In y l /\ x < y.
Proof. unfold above. rewrite filter_In, N.ltb_lt. reflexivity. Qed.

(** ** Completeness of a set of nodes for a range: the recursion of [evaluate]. *)
Inductive Compl : N -> N -> list N -> Prop :=
| C_stop a len : Compl a len [nodeId a len]
| C_step a len S : 1 < len -> S <> [nodeId a len] ->
    Compl a (split len) (below (nodeId a len) S) ->
    Compl (a + split len) (len - split len) (above (nodeId a len) S) ->
    Compl a len S.

Definition inNodes (a len y : N) : Prop := 2 * a <= y /\ y + 2 <= 2 * (a + len).

Lemma nodeId_in a len : 1 <= len -> inNodes a len (nodeId a len).
Proof.
  intro H. unfold inNodes, nodeId. destruct (N.eqb_spec len 1); [lia|].
  pose proof (split_spec len). lia.
Qed.

Lemma Compl_Parts a len parts : 1 <= len -> Parts a len parts -> Compl a len (map nodeOf parts).
Proof.
  intros H P. induction P as [a len Hp|a len rest Hp Hl P IH].
  - apply C_stop.
  - pose proof (split_spec len Hl) as Sp. pose proof (split_lt2 len Hp Hl) as S2.
    assert (T : tiles (a + split len) rest (a + len)).
    { replace (a + len) with (a + split len + (len - split len)) by lia. apply Parts_tiles; auto. lia. }
    assert (Hx : nodeId a len = 2 * (a + split len) - 1).
    { unfold nodeId. destruct (N.eqb_spec len 1); [lia|auto]. }
    assert (Hr : forall y, In y (map nodeOf rest) -> nodeId a len < y).
    { intros y Hy. apply in_map_iff in Hy as ([b l] & <- & Hz).
      assert (G : forall rest f t, tiles f rest t -> In (b, l) rest -> f <= b /\ 1 <= l).
      { clear. induction rest as [|[a' l'] rest IH]; intros f t; cbn [tiles In]; [tauto|].
        intros (-> & H1 & T) [E|I]; [injection E as -> ->; lia|]. apply IH with (t := t) in T; auto. lia. }
      destruct (G _ _ _ T Hz). rewrite nodeOf_pair.
      destruct (nodeId_in b l); [lia|]. lia. }
    assert (Hhd : nodeId a (split len) < nodeId a len).
    { destruct (nodeId_in a (split len)); [lia|]. lia. }
    assert (Eb : below (nodeId a len) (map nodeOf ((a, split len) :: rest)) = [nodeId a (split len)]).
    { cbn [map]. unfold below. cbn [filter]. rewrite nodeOf_pair.
      destruct (N.ltb_spec (nodeId a (split len)) (nodeId a len)); [|lia]. f_equal.
      rewrite <- (app_nil_r (filter _ _)). clear -Hr.
      induction (map nodeOf rest) as [|y t IH]; [reflexivity|]. cbn [filter].
      destruct (N.ltb_spec y (nodeId a len)).
      - assert (nodeId a len < y) by (apply Hr; now left). lia.
      - apply IH. intros z Hz. apply Hr. now right. }
    assert (Ea : above (nodeId a len) (map nodeOf ((a, split len) :: rest)) = map nodeOf rest).
    { cbn [map]. unfold above. cbn [filter]. rewrite nodeOf_pair.
      destruct (N.ltb_spec (nodeId a len) (nodeId a (split len))); [lia|].
      clear -Hr. induction (map nodeOf rest) as [|y t IH]; [reflexivity|]. cbn [filter].
      destruct (N.ltb_spec (nodeId a len) y).
      - f_equal. apply IH. intros z Hz. apply Hr. now right.
      - assert (nodeId a len < y) by (apply Hr; now left). lia. }
    apply C_step; auto.
    + cbn [map]. intro E. injection E as E _. rewrite nodeOf_pair in E. lia.
    + rewrite Eb. apply C_stop.
    + rewrite Ea. apply IH. lia.
Qed.

Lemma tiles_in f rest t b l : tiles f rest t -> In (b, l) rest -> f <= b /\ 1 <= l /\ b + l <= t.
Proof.
  revert f. induction rest as [|[a' l'] rest IH]; intros f; cbn [tiles In]; [tauto|].
  intros (-> & H1 & T) [E|I].
  - injection E as -> ->. split; [lia|split; [lia|]].
    clear -T. revert b l T. induction rest as [|[a' l'] rest IH]; intros f l; cbn [tiles]; [lia|].
    intros (-> & H1 & T). apply IH in T. lia.
  - apply IH in T; auto. lia.
Qed.

Lemma Parts_inNodes a len parts : 1 <= len -> Parts a len parts ->
  forall y, In y (map nodeOf parts) -> inNodes a len y.
Proof.
  intros H P y Hy. apply Parts_tiles in P; auto. apply in_map_iff in Hy as ([b l] & <- & Hz).
  destruct (tiles_in _ _ _ _ _ P Hz) as (T1 & T2 & T3). rewrite nodeOf_pair.
  destruct (nodeId_in b l); [lia|]. unfold inNodes. lia.
Qed.

Lemma Parts_sset a len parts : 1 <= len -> Parts a len parts -> sset (map nodeOf parts).
Proof.
  intros H P. apply Parts_tiles in P; auto. revert P. generalize (a + len). intro t. revert a.
  induction parts as [|[b l] rest IH]; intros f; cbn [tiles map]; [constructor|].
  intros (-> & H1 & T). constructor; [eapply IH; eauto|]. apply Forall_forall. intros y Hy.
  apply in_map_iff in Hy as ([b' l'] & <- & Hz). destruct (tiles_in _ _ _ _ _ T Hz) as (T1 & T2 & T3).
  rewrite !nodeOf_pair. destruct (nodeId_in f l); [lia|]. destruct (nodeId_in b' l'); [lia|]. lia.
Qed.

(** Main lemma on [batchCopath_rec]. *)
Lemma batchCopath_rec_spec fuel n x a len R inc :
  1 <= n <= two63 -> covers n x a len -> level x < N.of_nat fuel ->
  sset R -> (forall y, In y R -> inNodes a len y) ->
  exists P, batchCopath_rec fuel x n R inc = Ok P /\ sset P /\
    (forall y, In y P -> inNodes a len y) /\
    (forall S, sset S -> (forall y, In y S <-> In y R \/ In y P) -> Compl a len S).
Proof.
  intro Hn. revert x a len R. induction fuel as [|f IH]; intros x a len R C Hf SR HR; [lia|].
  pose proof (covers_nodeId n x a len Hn C) as Ex.
  assert (Hlen : 1 <= len) by (destruct C; tauto).
  cbn [batchCopath_rec]. destruct R as [|r0 R0] eqn:ER.
  - destruct (fullSubtrees_covers n x a len Hn C) as (parts & E & P).
    exists (map nodeOf parts). split; [auto|]. split; [eapply Parts_sset; eauto|].
    split; [apply Parts_inNodes; auto|].
    intros S SS HS. replace S with (map nodeOf parts); [apply Compl_Parts; auto|].
    apply sset_ext; auto; [eapply Parts_sset; eauto|]. intro z. rewrite HS. cbn. tauto.
  - rewrite <- ER in *. destruct (match R0 with [] => r0 =? x | _ :: _ => false end) eqn:Eq.
    + assert (R = [x]).
      { destruct R0 as [|y2 R2]; try discriminate. apply N.eqb_eq in Eq. now subst. }
      clear ER Eq. subst R.
      assert (G : forall S, sset S -> (forall y, In y S <-> In y [x]) -> Compl a len S).
      { intros S SS HS. replace S with [x]; [rewrite Ex; apply C_stop|].
        apply sset_ext; auto. intro z. symmetry. apply HS. }
      destruct (existsb (N.eqb x) inc).
      * exists [x]. split; [auto|]. split; [auto|]. split; [auto|].
        intros S SS HS. apply G; auto. intro y. rewrite HS. tauto.
      * exists []. split; [auto|]. split; [constructor|]. split; [cbn; tauto|].
        intros S SS HS. apply G; auto. intro y. rewrite HS. cbn. tauto.
    + (* some element of R differs from x *)
      assert (Hne : exists y, In y R /\ y <> x).
      { clear -ER Eq SR. subst R. destruct R0 as [|y2 R2]; rename r0 into y.
        - exists y. split; [now left|]. intros ->. rewrite N.eqb_refl in Eq. discriminate.
        - apply sset_inv in SR as [_ F]. rewrite Forall_forall in F.
          assert (y < y2) by (apply F; now left).
          destruct (N.eq_dec y x); [exists y2|exists y]; cbn; split; auto; lia. }
      assert (HL : 1 < len).
      { destruct Hne as (y & Hy & Hyx). apply HR in Hy. unfold inNodes in Hy.
        destruct (N.eq_dec len 1) as [->|]; [|lia]. unfold nodeId in Ex. rewrite N.eqb_refl in Ex. lia. }
      destruct (covers_children n x a len Hn C HL)
        as (l & r & El & Er & Hl & Hr & Ll & Lr & Exx & Ps & Hs & Cl & Cr & _).
      rewrite El. cbn [bind].
      destruct (IH l a (split len) (below x R) Cl) as (Pl & EPl & SPl & HPl & CPl); [lia|now apply sset_filter| |].
      { intros y Hy. apply below_In in Hy as [Hy Hyx]. apply HR in Hy. unfold inNodes in *. lia. }
      destruct (IH r (a + split len) (len - split len) (above x R) Cr) as (Pr & EPr & SPr & HPr & CPr);
        [lia|now apply sset_filter| |].
      { intros y Hy. apply above_In in Hy as [Hy Hyx]. apply HR in Hy. unfold inNodes in *. lia. }
      rewrite EPl, Er. cbn [bind]. rewrite EPr. cbn [bind].
      exists (Pl ++ Pr). split; [auto|]. split; [|split].
      * apply sset_app; auto. intros u v Hu Hv. apply HPl in Hu. apply HPr in Hv. unfold inNodes in *. lia.
      * intros y Hy. apply in_app_or in Hy as [Hy|Hy]; [apply HPl in Hy|apply HPr in Hy];
          unfold inNodes in *; lia.
      * intros S SS HS. rewrite Ex in *. apply C_step; auto.
        -- intros ES. destruct Hne as (y & Hy & Hyx). apply Hyx.
           assert (In y S) by (apply HS; auto). rewrite ES in H. destruct H as [H|[]]; auto.
        -- apply CPl; [now apply sset_filter|]. intro y. rewrite !below_In, HS, in_app_iff. split.
           ++ intros [[Hy|[Hy|Hy]] Hyx]; auto. apply HPr in Hy. unfold inNodes in Hy. lia.
           ++ intros [Hy|Hy]; [tauto|]. split; auto. apply HPl in Hy. unfold inNodes in Hy. lia.
        -- apply CPr; [now apply sset_filter|]. intro y. rewrite !above_In, HS, in_app_iff. split.
           ++ intros [[Hy|[Hy|Hy]] Hyx]; auto. apply HPl in Hy. unfold inNodes in Hy. lia.
           ++ intros [Hy|Hy]; [tauto|]. split; auto. apply HPr in Hy. unfold inNodes in Hy. lia.
Qed.

Lemma tiles_app f p1 m p2 t : tiles f p1 m -> tiles m p2 t -> tiles f (p1 ++ p2) t.
Proof.
  revert f. induction p1 as [|[a l] p1 IH]; intros f; cbn [tiles app]; [intros ->; auto|].
  intros (-> & H & T) T2. auto.
Qed.

Lemma batchCopath_rec_cover fuel n x a len R inc P :
  1 <= n <= two63 -> Range n a len -> x = nodeId a len -> level x < N.of_nat fuel ->
  sset R -> (forall y, In y R -> inNodes a len y) ->
  batchCopath_rec fuel x n R inc = Ok P ->
  exists zs, tiles a zs (a + len) /\ Forall (fun z => Range n (fst z) (snd z)) zs /\
    (forall z, In z zs -> In (nodeOf z) P \/ (In (nodeOf z) R /\ ~ In (nodeOf z) inc)) /\
    (forall p, In p P -> exists z, In z zs /\ nodeOf z = p /\ (pow2 (snd z) \/ In p R)) /\
    (forall z y, In z zs -> In y R -> inNodes (fst z) (snd z) y -> y = nodeOf z) /\
    (forall p, In p P -> In p R -> In p inc).
Proof.
  intro Hn. revert x a len R P. induction fuel as [|f IH]; intros x a len R P HRg Ex Hf SR HR; [lia|].
  pose proof (covers_Range n a len Hn HRg) as C. rewrite <- Ex in C.
  assert (Hlen : 1 <= len) by (destruct C; tauto).
  cbn [batchCopath_rec]. destruct R as [|r0 R0] eqn:ER.
  - destruct (fullSubtrees_covers n x a len Hn C) as (parts & E & HP). rewrite E. intro EP. injection EP as <-.
    exists parts. split; [now apply Parts_tiles|]. split; [eapply Parts_Range; eauto|].
    split; [|split; [|split]].
    + intros z Hz. left. now apply in_map.
    + intros p Hp. apply in_map_iff in Hp as (z & <- & Hz). exists z. split; [auto|]. split; auto.
      left. apply Parts_pow2 in HP. rewrite Forall_forall in HP. auto.
    + intros z y _ [].
    + intros p _ [].
  - rewrite <- ER in *. destruct (match R0 with [] => r0 =? x | _ :: _ => false end) eqn:Eq.
    + assert (R = [x]).
      { destruct R0 as [|y2 R2]; try discriminate. apply N.eqb_eq in Eq. now subst. }
      clear ER Eq. subst R.
      assert (T : tiles a [(a, len)] (a + len)) by (cbn; auto).
      assert (Exp : nodeOf (a, len) = x) by (rewrite nodeOf_pair; auto).
      destruct (existsb (N.eqb x) inc) eqn:Ei; intro EP; injection EP as <-; exists [(a, len)];
        (split; [auto|]); (split; [repeat constructor; auto|]).
      * apply existsb_exists in Ei as (i & Hi & Ei). apply N.eqb_eq in Ei. subst i.
        split; [|split; [|split]].
        -- intros z [<-|[]]. left. rewrite Exp. now left.
        -- intros p [<-|[]]. exists (a, len). cbn. auto.
        -- intros z y [<-|[]] [<-|[]] _. auto.
        -- intros p [<-|[]] _. auto.
      * split; [|split; [|split]].
        -- intros z [<-|[]]. right. rewrite Exp. split; [now left|]. intro Hi.
           enough (existsb (N.eqb x) inc = true) by congruence. apply existsb_exists. exists x.
           split; auto. apply N.eqb_refl.
        -- intros p [].
        -- intros z y [<-|[]] [<-|[]] _. auto.
        -- intros p [].
    + assert (Hne : exists y, In y R /\ y <> x).
      { clear -ER Eq SR. subst R. destruct R0 as [|y2 R2]; rename r0 into y.
        - exists y. split; [now left|]. intros ->. rewrite N.eqb_refl in Eq. discriminate.
        - apply sset_inv in SR as [_ F]. rewrite Forall_forall in F.
          assert (y < y2) by (apply F; now left).
          destruct (N.eq_dec y x); [exists y2|exists y]; cbn; split; auto; lia. }
      assert (HL : 1 < len).
      { destruct Hne as (y & Hy & Hyx). apply HR in Hy. unfold inNodes in Hy.
        destruct (N.eq_dec len 1) as [->|]; [|lia]. unfold nodeId in Ex. rewrite N.eqb_refl in Ex. lia. }
      destruct (covers_children n x a len Hn C HL)
        as (l & r & El & Er & Hl & Hr & Ll & Lr & Exx & Ps & Hs & Cl & Cr & _).
      rewrite El. cbn [bind]. rewrite Er.
      destruct (batchCopath_rec f l n (below x R) inc) as [Pl| | |] eqn:EPl; try discriminate. cbn [bind].
      destruct (batchCopath_rec f r n (above x R) inc) as [Pr| | |] eqn:EPr; try discriminate. cbn [bind].
      intro EP. injection EP as <-.
      apply (IH l a (split len)) in EPl as (zl & Tl & Fl & A1 & A2 & A3 & A4);
        [|now apply R_left|now apply (covers_nodeId n)|lia|now apply sset_filter|].
      2:{ intros y Hy. apply below_In in Hy as [Hy Hyx]. apply HR in Hy. unfold inNodes in *. lia. }
      apply (IH r (a + split len) (len - split len)) in EPr as (zr & Tr & Fr & B1 & B2 & B3 & B4);
        [|now apply R_right|now apply (covers_nodeId n)|lia|now apply sset_filter|].
      2:{ intros y Hy. apply above_In in Hy as [Hy Hyx]. apply HR in Hy. unfold inNodes in *. lia. }
      replace (a + split len + (len - split len)) with (a + len) in Tr by lia.
      exists (zl ++ zr). split; [eapply tiles_app; eauto|]. split; [apply Forall_app; auto|].
      split; [|split; [|split]].
      * intros z Hz. apply in_app_or in Hz as [Hz|Hz].
        -- destruct (A1 z Hz) as [H|[H H']]; [left; apply in_or_app; auto|].
           right. apply below_In in H. tauto.
        -- destruct (B1 z Hz) as [H|[H H']]; [left; apply in_or_app; auto|].
           right. apply above_In in H. tauto.
      * intros p Hp. apply in_app_or in Hp as [Hp|Hp].
        -- destruct (A2 p Hp) as (z & Z1 & Z2 & Z3). exists z. rewrite in_app_iff. rewrite below_In in Z3. tauto.
        -- destruct (B2 p Hp) as (z & Z1 & Z2 & Z3). exists z. rewrite in_app_iff. rewrite above_In in Z3. tauto.
      * intros z y Hz Hy HI. apply in_app_or in Hz as [Hz|Hz].
        -- apply A3; auto. apply below_In. split; auto. destruct z as [b lz].
           destruct (tiles_in _ _ _ _ _ Tl Hz) as (T1 & T2 & T3). unfold inNodes in HI. cbn [fst snd] in HI. lia.
        -- apply B3; auto. apply above_In. split; auto. destruct z as [b lz].
           destruct (tiles_in _ _ _ _ _ Tr Hz) as (T1 & T2 & T3). unfold inNodes in HI. cbn [fst snd] in HI. lia.
      * intros p Hp HpR. apply in_app_or in Hp as [Hp|Hp].
        -- apply A4; auto. apply below_In. split; auto.
           destruct (A2 p Hp) as ([b lz] & Z1 & Z2 & Z3). destruct (tiles_in _ _ _ _ _ Tl Z1) as (T1 & T2 & T3).
           destruct (nodeId_in b lz); [lia|]. rewrite nodeOf_pair in Z2. lia.
        -- apply B4; auto. apply above_In. split; auto.
           destruct (B2 p Hp) as ([b lz] & Z1 & Z2 & Z3). destruct (tiles_in _ _ _ _ _ Tr Z1) as (T1 & T2 & T3).
           destruct (nodeId_in b lz); [lia|]. rewrite nodeOf_pair in Z2. lia.
Qed.

(** ** [batchCopath] *)


Lemma optSubtrees_spec n m : n <= two63 -> optSize n m ->
  exists parts, optSubtrees m = Ok (map nodeOf parts) /\ optParts m parts.
Proof.
  intros Hn H. destruct m as [k|]; cbn in *.
  - destruct (fullSubtrees_root k) as (parts & E & P); [lia|]. exists parts. auto.
  - exists []. auto.
Qed.

(** Maximal perfect subtrees of a smaller tree are subtrees of the larger one. *)
Lemma covers_Range_inv n x a len : 1 <= n <= two63 -> covers n x a len -> Range n a len.
Proof.
  intros Hn C. assert (Hx : x < 2 * n - 1) by (destruct C; auto).
  destruct (Range_ex n x Hn Hx) as (a' & len' & R & E).
  pose proof (covers_Range n a' len' Hn R) as C'. rewrite E in C'.
  destruct (covers_fun _ _ _ _ _ _ C C') as [-> ->]. auto.
Qed.

Lemma Parts_Range_mono m n parts : 1 <= m <= n -> n <= two63 -> Parts 0 m parts ->
  Forall (fun z => Range n (fst z) (snd z) /\ pow2 (snd z)) parts.
Proof.
  intros Hm Hn P. assert (Hm' : 1 <= m <= two63) by lia.
  pose proof (Parts_Range m 0 m parts Hm' (R_root m) P) as F.
  pose proof (Parts_pow2 0 m parts P) as F2.
  rewrite Forall_forall in *. intros z Hz. split; auto.
  assert (Hn' : 1 <= n <= two63) by lia.
  apply (covers_Range_inv n (nodeOf z)); auto.
  apply (covers_pow2_mono m); auto. apply (covers_Range m); auto.
Qed.

Lemma leaf_Range n i : 1 <= n <= two63 -> i < n -> Range n i 1 /\ nodeId i 1 = 2 * i.
Proof.
  intros Hn Hi. split; [|unfold nodeId; now rewrite N.eqb_refl].
  apply (covers_Range_inv n (2 * i)); auto.
  assert (L : level (2 * i) = 0).
  { rewrite <- nid_0. apply level_nid. lia. }
  unfold covers, lo, hi. rewrite L, N.pow_0_r. lia.
Qed.

(** Everything known about the inputs of [batchCopath_rec] *)
Lemma batchCopath_inputs leaves n nP m pP pm :
  1 <= n <= two63 -> Forall (fun i => i < n) leaves -> optSize n nP -> optSize n m ->
  optParts nP pP -> optParts m pm ->
  let req := map (fun i => (i, 1)) leaves ++ pP ++ pm in
  Forall (fun z => Range n (fst z) (snd z) /\ pow2 (snd z)) req /\
  map (mul64 2) leaves ++ map nodeOf pP ++ map nodeOf pm = map nodeOf req.
Proof.
  intros Hn Hl HP Hm EP Em req. split.
  - unfold req. apply Forall_app. split; [|apply Forall_app; split].
    + rewrite Forall_forall in *. intros z Hz. apply in_map_iff in Hz as (i & <- & Hi). cbn [fst snd].
      split; [apply leaf_Range; auto|]. exists 0. reflexivity.
    + destruct nP as [k|]; cbn in *; [|subst; constructor]. apply (Parts_Range_mono k); auto; lia.
    + destruct m as [k|]; cbn in *; [|subst; constructor]. apply (Parts_Range_mono k); auto; lia.
  - unfold req. rewrite !map_app, map_map. f_equal. apply map_ext_in. intros i Hi.
    rewrite Forall_forall in Hl. specialize (Hl i Hi). rewrite nodeOf_pair.
    destruct (leaf_Range n i Hn Hl) as [_ ->]. apply mul64_small. unfold two63, two64 in *. lia.
Qed.

Lemma req_inNodes n req : 1 <= n <= two63 ->
  Forall (fun z => Range n (fst z) (snd z) /\ pow2 (snd z)) req ->
  forall y, In y (dedupSort (map nodeOf req)) -> inNodes 0 n y.
Proof.
  intros Hn F y Hy. rewrite dedupSort_In in Hy. apply in_map_iff in Hy as ([b l] & <- & Hz).
  rewrite Forall_forall in F. destruct (F _ Hz) as [R _]. cbn in R.
  pose proof (covers_Range n b l Hn R) as (C1 & C2 & C3 & C4 & C5).
  rewrite nodeOf_pair. destruct (nodeId_in b l C2). unfold inNodes. lia.
Qed.

Lemma root_level_fuel n : 1 <= n <= two63 -> level (root n) < N.of_nat 66.
Proof.
  intro Hn. pose proof (covers_lt64 _ _ _ _ Hn (covers_root n Hn)) as H.
  pose proof (level_le63 _ H). cbn. lia.
Qed.

Lemma batchCopath_ok leaves n nP m :
  1 <= n <= two63 -> Forall (fun i => i < n) leaves -> optSize n nP -> optSize n m ->
  exists pP pm P, optParts nP pP /\ optParts m pm /\
    batchCopath leaves n nP m = Ok P /\ sset P /\
    (forall S, sset S ->
       (forall y, In y S <-> In y (map nodeOf (map (fun i => (i, 1)) leaves ++ pP ++ pm)) \/ In y P) ->
       Compl 0 n S).
Proof.
  intros Hn Hl HP Hm.
  destruct (optSubtrees_spec n nP) as (pP & EP & OP); [lia|auto|].
  destruct (optSubtrees_spec n m) as (pm & Em & Om); [lia|auto|].
  destruct (batchCopath_inputs leaves n nP m pP pm) as [F E]; auto.
  unfold batchCopath. rewrite EP, Em. cbn [bind]. rewrite E.
  destruct (batchCopath_rec_spec 66 n (root n) 0 n
              (dedupSort (map nodeOf (map (fun i => (i, 1)) leaves ++ pP ++ pm))) (map nodeOf pP))
    as (P & EPP & SP & HPP & CP); auto.
  - now apply covers_root.
  - now apply root_level_fuel.
  - apply dedupSort_sset.
  - now apply (req_inNodes n).
  - exists pP, pm, P. repeat split; auto. intros S SS HS. apply CP; auto.
    intro y. rewrite HS, dedupSort_In. reflexivity.
Qed.

Lemma within_inNodes n z r : 1 <= n <= two63 -> Range n (fst r) (snd r) -> within r z ->
  inNodes (fst z) (snd z) (nodeOf r).
Proof.
  intros Hn R [W1 W2]. pose proof (covers_Range n _ _ Hn R) as (C1 & C2 & _).
  destruct (nodeId_in (fst r) (snd r) C2). unfold inNodes, nodeOf. lia.
Qed.

Lemma batchCopath_cover leaves n nP m :
  1 <= n <= two63 -> Forall (fun i => i < n) leaves -> optSize n nP -> optSize n m ->
  exists pP pm pz zs,
    optParts nP pP /\ optParts m pm /\
    batchCopath leaves n nP m = Ok (map nodeOf pz) /\ sset (map nodeOf pz) /\
    tiles 0 zs n /\ Forall (fun z => Range n (fst z) (snd z)) zs /\
    (forall z, In z zs -> In z pz \/
        (In z (map (fun i => (i, 1)) leaves ++ pm) /\ ~ In z pP)) /\
    (forall z, In z pz -> In z zs /\ pow2 (snd z)) /\
    (forall z r, In z zs -> In r (map (fun i => (i, 1)) leaves ++ pP ++ pm) -> within r z -> r = z) /\
    (forall z, In z pz -> In z (map (fun i => (i, 1)) leaves ++ pm) -> In z pP).
Proof.
  intros Hn Hl HP Hm.
  destruct (batchCopath_ok leaves n nP m) as (pP & pm & P & OP & Om & EP & SP & _); auto.
  destruct (batchCopath_inputs leaves n nP m pP pm) as [F E]; auto.
  set (req := map (fun i => (i, 1)) leaves ++ pP ++ pm) in *.
  assert (EP2 := EP). unfold batchCopath in EP2. assert (HF := root_level_fuel n Hn). revert HF EP2. generalize 66%nat as fuel. intros fuel HF EP2.
  destruct (optSubtrees_spec n nP) as (pP' & EP' & OP'); [lia|auto|].
  destruct (optSubtrees_spec n m) as (pm' & Em' & Om'); [lia|auto|].
  assert (pP' = pP) by (destruct nP; cbn [optParts] in OP, OP'; [eapply Parts_fun; eauto|congruence]).
  assert (pm' = pm) by (destruct m; cbn [optParts] in Om, Om'; [eapply Parts_fun; eauto|congruence]).
  subst pP' pm'. rewrite EP', Em' in EP2. cbn [bind] in EP2. rewrite E in EP2.
  apply (batchCopath_rec_cover fuel n (root n) 0 n) in EP2 as (zs & T & FR & Z1 & Z2 & Z3 & Z4); [|exact Hn|apply R_root|now apply root_nodeId|exact HF| |].
  2: apply dedupSort_sset.
  2: now apply (req_inNodes n).
  rewrite Forall_forall in FR, F.
  assert (INJ : forall z r, In z zs -> In r req -> nodeOf z = nodeOf r -> z = r).
  { intros [z1 z2] [r1 r2] Hz Hr Hn'. rewrite !nodeOf_pair in Hn'.
    destruct (Range_unique n z1 z2 r1 r2) as [-> ->]; auto.
    - apply (FR _ Hz).
    - apply (F _ Hr). }
  assert (EXP : exists pz, P = map nodeOf pz /\ forall z, In z pz -> In z zs /\ pow2 (snd z)).
  { assert (G : forall l, (forall p, In p l -> In p P) -> exists pz, l = map nodeOf pz /\ forall z, In z pz -> In z zs /\ pow2 (snd z)).
    { induction l as [|p l IH]; intro HI; [exists []; cbn; tauto|].
      destruct IH as (pz & -> & Hpz); [intros; apply HI; now right|].
      destruct (Z2 p) as (z & Hz & <- & Hp); [apply HI; now left|].
      exists (z :: pz). split; [reflexivity|]. intros z' [<-|Hz']; auto. split; auto.
      destruct Hp as [Hp|Hp]; auto. rewrite dedupSort_In in Hp. apply in_map_iff in Hp as (r & Er & Hr).
      rewrite (INJ z r) by auto. apply (F r Hr). }
    apply G. auto. }
  destruct EXP as (pz & -> & Hpz).
  assert (INP : forall z, In z zs -> In (nodeOf z) (map nodeOf pz) -> In z pz).
  { intros z Hz Hi. apply in_map_iff in Hi as ([z1 z2] & E' & Hz').
    destruct z as [w1 w2]. rewrite !nodeOf_pair in E'. destruct (Hpz _ Hz') as [Hz'' _].
    destruct (Range_unique n z1 z2 w1 w2) as [-> ->]; auto.
    - apply (FR _ Hz''). - apply (FR _ Hz). }
  exists pP, pm, pz, zs. repeat split; auto.
  - apply Forall_forall. auto.
  - intros z Hz. destruct (Z1 z Hz) as [H|[H H']]; [left; auto|right].
    rewrite dedupSort_In in H. apply in_map_iff in H as (r & Er & Hr).
    assert (z = r) by (symmetry in Er; auto). subst r.
    assert (Hn' : ~ In z pP) by (intro; apply H'; now apply in_map).
    split; auto. unfold req in Hr. rewrite !in_app_iff in *. tauto.
  - apply Hpz; auto.
  - apply Hpz; auto.
  - intros z r Hz Hr W. symmetry. apply INJ; auto. symmetry. apply Z3; auto.
    + rewrite dedupSort_In. now apply in_map.
    + apply (within_inNodes n); auto. apply (F r Hr).
  - intros z Hz Hr.
    assert (Hr' : In z req) by (unfold req; rewrite !in_app_iff in *; tauto).
    assert (Hi : In (nodeOf z) (map nodeOf pP)).
    { apply Z4; [now apply in_map|]. rewrite dedupSort_In. now apply in_map. }
    apply in_map_iff in Hi as (r & Er & Hi).
    assert (z = r); [|subst; auto]. apply INJ; auto.
    + apply Hpz; auto.
    + unfold req. rewrite !in_app_iff. auto.
Qed.

Lemma parent_root n : parent (root n) n = Panic "root node has no parent".
Proof. unfold parent, parentW, root. now rewrite N.eqb_refl. Qed.

Lemma copath_map n d : 1 <= n <= two63 -> forall x, x < 2 * n - 1 ->
  linked n x d (root n) -> Forall (fun y => y < 2 * n - 1) d ->
  exists c, mapM (fun y => sibling y n) (removelast (x :: d)) = Ok c /\
    Forall2 (fun y s => sibling y n = Ok s) (removelast (x :: d)) c.
Proof.
  intro Hn. induction d as [|p d IH]; intros x Hx L F.
  - exists []. cbn. auto.
  - cbn [linked] in L. destruct L as [Lp L]. inversion_clear F as [|? ? Hp F'].
    destruct (IH p Hp L F') as (c & Ec & Fc).
    assert (Hne : x <> root n) by (intros ->; rewrite parent_root in Lp; discriminate).
    destruct (sibling_spec n x Hn Hx Hne) as (s & Es & _).
    exists (s :: c). cbn [removelast] in *. cbn [mapM]. rewrite Es. cbn [bind].
    rewrite Ec. cbn [bind]. split; auto.
Qed.

Lemma copath_spec n x : 1 <= n <= two63 -> x < 2 * n - 1 ->
  exists d c, directPath x n = Ok d /\ copath x n = Ok c /\
    Forall2 (fun y s => sibling y n = Ok s) (removelast (x :: d)) c.
Proof.
  intros Hn Hx. destruct (directPath_spec n x Hn Hx) as (d & Ed & L & F).
  exists d. unfold copath. rewrite Ed. destruct (N.eqb_spec x (root n)) as [E|E].
  - exists []. repeat split; auto. destruct d as [|p d]; [constructor|].
    cbn in L. subst x. rewrite parent_root in L. destruct L; discriminate.
  - cbn [bind]. destruct (copath_map n d Hn x Hx L F) as (c & Ec & Fc). exists c. auto.
Qed.
