From Verif Require Import Base BaseProofs LogMathModel LogMathSpec NodeMathProofs LogMathProofs LogMathProofs2 LogTreeModel LogTreeSpec LogTreeProofs.
From Coq Require Import Sorted.

Lemma pow2_div_even k j : j < k -> N.odd (2 ^ k / 2 ^ j) = false /\ forall r, (2 ^ k + r) / 2 ^ j = 2 ^ (k - j) + r / 2 ^ j.
Proof.
  intro Hj. assert (E : 2 ^ k = 2 ^ (k - j) * 2 ^ j) by (rewrite <- N.pow_add_r; f_equal; lia).
  pose proof (pow2_pos j). split.
  - rewrite E, N.div_mul by lia. replace (k - j) with (N.succ (k - j - 1)) by lia. rewrite N.pow_succ_r'.
    rewrite N.odd_mul. reflexivity.
  - intro r. rewrite E, N.div_add_l by lia. auto.
Qed.

Lemma pow2_odd_even k x : 0 < k -> N.odd (2 ^ k + x) = N.odd x.
Proof.
  intro Hk. replace k with (N.succ (k - 1)) by lia. rewrite N.pow_succ_r', N.odd_add, N.odd_mul.
  cbn [N.odd]. change (N.odd 2) with false. cbn. now destruct (N.odd x).
Qed.

Lemma Parts_bits a len parts : 1 <= len -> Parts a len parts ->
  forall b l, In (b, l) parts <-> exists j, l = 2 ^ j /\ N.odd (len / 2 ^ j) = true /\ b = a + 2 ^ j * (len / 2 ^ j - 1).
Proof.
  intros Hlen P. induction P as [a len (k & ->)|a len rest Hp Hl P IH]; intros b l.
  - cbn [In]. pose proof (pow2_pos k) as Pk. split.
    + intros [E|[]]. injection E as <- <-. exists k. rewrite N.div_same by lia. cbn. repeat split. lia.
    + intros (j & -> & Ho & ->). left. pose proof (pow2_pos j).
      destruct (N.lt_trichotomy j k) as [Hj|[->|Hj]].
      * destruct (pow2_div_even k j Hj) as [E _]. congruence.
      * rewrite N.div_same by lia. f_equal. lia.
      * rewrite N.div_small in Ho by (apply N.pow_lt_mono_r; lia). discriminate.
  - pose proof (split_spec len Hl) as Sp. pose proof (split_lt2 len Hp Hl) as Sp2.
    specialize (IH ltac:(lia)). unfold split in *. set (k := N.log2 (len - 1)) in *.
    set (r := len - 2 ^ k) in *. assert (El : len = 2 ^ k + r) by (unfold r; lia).
    assert (Hk : len / 2 ^ k = 1).
    { symmetry. apply N.div_unique with r; lia. }
    cbn [In]. split.
    + intros [E|I].
      * injection E as <- <-. exists k. rewrite Hk. cbn. repeat split. lia.
      * apply IH in I as (j & -> & Ho & ->). exists j. split; [auto|].
        assert (Hj : j < k).
        { destruct (N.lt_ge_cases j k); auto. rewrite N.div_small in Ho; [discriminate|].
          apply N.lt_le_trans with (2 ^ k); [lia|]. apply N.pow_le_mono_r; lia. }
        rewrite El. destruct (pow2_div_even k j Hj) as [_ ->]. rewrite pow2_odd_even by lia. split; auto.
        replace (2 ^ k) with (2 ^ j * 2 ^ (k - j)) by (rewrite <- N.pow_add_r; f_equal; lia).
        assert (r / 2 ^ j <> 0) by (intro E0; rewrite E0 in Ho; discriminate). nia.
    + intros (j & -> & Ho & ->). destruct (N.lt_trichotomy j k) as [Hj|[->|Hj]].
      * right. apply IH. exists j. rewrite El in *. destruct (pow2_div_even k j Hj) as [_ E]. rewrite E in *.
        rewrite pow2_odd_even in Ho by lia. repeat split; auto.
        replace (2 ^ k) with (2 ^ j * 2 ^ (k - j)) by (rewrite <- N.pow_add_r; f_equal; lia).
        assert (r / 2 ^ j <> 0) by (intro E0; rewrite E0 in Ho; discriminate). nia.
      * left. rewrite Hk. f_equal. lia.
      * rewrite N.div_small in Ho; [discriminate|]. apply N.lt_le_trans with (2 * 2 ^ k); [lia|].
        rewrite <- pow2_S. apply N.pow_le_mono_r; lia.
Qed.

Section Hash.
Variable H : bytes -> option bytes.
Variable hs : N.
Hypothesis Hsized : sized H hs.
Hypothesis Hhs : 0 < hs.

(** [chain] holds, from level [k] up, the values of the perfect subtrees named by the bits of [m]. *)
Fixpoint chainOK (L : list bytes) (k m : N) (chain : list (option bytes)) : Prop :=
  match chain with
  | [] => m = 0
  | c :: t =>
      (if N.odd m then exists v, c = Some v /\ NodeVal H L (2 ^ k * (m - 1)) (2 ^ k) v else c = None) /\
      chainOK L (k + 1) (m / 2) t
  end.

Fixpoint lowParts (k m : N) (fuel : nat) : list (N * N) :=
  match fuel with
  | O => []
  | S f => (if N.odd m then [(2 ^ k * (m - 1), 2 ^ k)] else []) ++ lowParts (k + 1) (m / 2) f
  end.

Lemma chainOK_lowParts L k m chain : chainOK L k m chain ->
  Forall2 (fun z v => NodeVal H L (fst z) (snd z) v) (lowParts k m (List.length chain)) (somes chain).
Proof.
  revert k m. induction chain as [|c t IH]; intros k m; cbn [chainOK lowParts List.length somes]; [constructor|].
  intros [Hc Ht]. destruct (N.odd m).
  - destruct Hc as (v & -> & V). cbn [app]. constructor; auto.
  - subst c. cbn [app]. auto.
Qed.

Lemma lowParts_In k m f z : In z (lowParts k m f) -> exists j, snd z = 2 ^ (k + j) /\
  N.odd (m / 2 ^ j) = true /\ fst z = 2 ^ (k + j) * (m / 2 ^ j - 1).
Proof.
  revert k m. induction f as [|f IH]; intros k m; cbn [lowParts]; [intros []|].
  intro I. apply in_app_or in I as [I|I].
  - destruct (N.odd m) eqn:E; [|destruct I]. destruct I as [<-|[]]. exists 0.
    rewrite N.add_0_r, N.pow_0_r, N.div_1_r. auto.
  - apply IH in I as (j & E1 & E2 & E3). exists (j + 1).
    replace (m / 2 ^ (j + 1)) with (m / 2 / 2 ^ j).
    + replace (k + (j + 1)) with (k + 1 + j) by lia. auto.
    + rewrite pow2_S. pose proof (pow2_pos j). rewrite N.div_div by lia. auto.
Qed.

Lemma lowParts_all k m f j : m < 2 ^ N.of_nat f -> N.odd (m / 2 ^ j) = true ->
  In (2 ^ (k + j) * (m / 2 ^ j - 1), 2 ^ (k + j)) (lowParts k m f).
Proof.
  revert k m j. induction f as [|f IH]; intros k m j Hm Ho.
  - cbn in Hm. assert (m = 0) by lia. subst. pose proof (pow2_pos j). rewrite N.div_0_l in Ho by lia. discriminate.
  - cbn [lowParts]. apply in_or_app. destruct (N.eq_dec j 0) as [->|Hj].
    + left. rewrite N.pow_0_r, N.div_1_r in *. rewrite Ho. rewrite N.add_0_r. now left.
    + right. pose proof (pow2_pos (j - 1)).
      assert (Ed : m / 2 ^ j = m / 2 / 2 ^ (j - 1)).
      { rewrite N.div_div by lia. f_equal. rewrite <- N.pow_succ_r'. f_equal. lia. }
      rewrite Ed. replace (k + j) with (k + 1 + (j - 1)) by lia. apply IH.
      * rewrite Nat2N.inj_succ, N.pow_succ_r' in Hm. apply N.div_lt_upper_bound; lia.
      * now rewrite <- Ed.
Qed.

Lemma lowParts_sset k m f : sset (map snd (lowParts k m f)) /\ Forall (fun z => 2 ^ k <= snd z) (lowParts k m f).
Proof.
  revert k m. induction f as [|f IH]; intros k m; cbn [lowParts]; [repeat constructor|].
  destruct (IH (k + 1) (m / 2)) as [S1 F1].
  assert (F2 : Forall (fun z => 2 ^ k < snd z) (lowParts (k + 1) (m / 2) f)).
  { eapply Forall_impl; [|exact F1]. intros z Hz. rewrite pow2_S in Hz. pose proof (pow2_pos k). lia. }
  destruct (N.odd m); cbn [app map snd].
  - split.
    + constructor; auto. rewrite Forall_map. exact F2.
    + constructor; [cbn; lia|]. eapply Forall_impl; [|exact F2]. cbn beta. intros; lia.
  - split; auto. eapply Forall_impl; [|exact F2]. cbn beta. intros; lia.
Qed.

Lemma decreasing_lt a l rest z : decreasing ((a, l) :: rest) -> In z rest -> snd z < l.
Proof.
  revert a l. induction rest as [|[a2 l2] rest IH]; intros a l D Hz; [destruct Hz|].
  cbn [decreasing] in D. destruct D as [D1 D2]. destruct Hz as [<-|Hz]; [cbn; auto|].
  specialize (IH a2 l2 D2 Hz). lia.
Qed.

Lemma decreasing_sset parts : decreasing parts -> sset (map snd (rev parts)).
Proof.
  induction parts as [|[a l] rest IH]; intro D; [constructor|].
  cbn [rev]. rewrite map_app. cbn [map snd]. apply sset_app.
  - apply IH. destruct rest as [|[a2 l2] rest]; [exact I|]. cbn [decreasing] in D. tauto.
  - repeat constructor.
  - intros x y Hx [<-|[]]. apply in_map_iff in Hx as (z & <- & Hz). apply in_rev in Hz.
    eapply decreasing_lt; eauto.
Qed.

Lemma map_fst_snd (f : N -> N) l : (forall z, In z l -> fst z = f (snd z)) -> l = map (fun s => (f s, s)) (map snd l).
Proof.
  induction l as [|[a b] l IH]; intro E; [reflexivity|]. cbn [map snd]. f_equal.
  - f_equal. apply (E (a, b)). now left.
  - apply IH. intros z Hz. apply E. now right.
Qed.

Lemma Parts_low n parts f : 1 <= n -> Parts 0 n parts -> n < 2 ^ N.of_nat f -> rev parts = lowParts 0 n f.
Proof.
  intros Hn P Hf. pose proof (Parts_bits _ _ _ Hn P) as B.
  rewrite (map_fst_snd (fun s => s * (n / s - 1)) (rev parts)).
  2:{ intros [b l] Hz. apply in_rev in Hz. apply B in Hz as (j & -> & _ & ->). cbn. lia. }
  rewrite (map_fst_snd (fun s => s * (n / s - 1)) (lowParts 0 n f)).
  2:{ intros z Hz. apply lowParts_In in Hz as (j & E1 & _ & E2). rewrite E1, E2. reflexivity. }
  f_equal. apply sset_ext.
  - apply decreasing_sset. eapply Parts_decreasing; eauto.
  - apply lowParts_sset.
  - intro x. rewrite !in_map_iff. split.
    + intros ([b l] & <- & Hz). apply in_rev in Hz. apply B in Hz as (j & -> & Ho & _). cbn [snd].
      exists (2 ^ (0 + j) * (n / 2 ^ j - 1), 2 ^ (0 + j)). split; auto. apply lowParts_all; auto.
    + intros (z & <- & Hz). apply lowParts_In in Hz as (j & -> & Ho & _).
      exists (0 + 2 ^ j * (n / 2 ^ j - 1), 2 ^ j). split; auto. apply -> in_rev. apply B. exists j. auto.
Qed.

Lemma chainOK_full L n chain : 1 <= n -> n <= two63 -> n < 2 ^ lenN chain -> chainOK L 0 n chain ->
  FullValues H L n (rev (somes chain)).
Proof.
  intros Hn Hn2 Hc C. destruct (fullSubtrees_root n) as (parts & _ & P); [lia|].
  exists parts. split; auto. rewrite <- (rev_involutive parts).
  rewrite (Parts_low n parts (List.length chain)) by auto.
  apply chainOK_lowParts in C. clear -C. induction C; cbn; [constructor|]. apply Forall2_app; auto.
Qed.

(** filling the chain *)
Lemma setNth_spec {A} (l : list A) i v : (i < List.length l)%nat ->
  exists l', setNth l i v = Ok l' /\ List.length l' = List.length l /\
    nth_error l' i = Some v /\ forall j, j <> i -> nth_error l' j = nth_error l j.
Proof.
  revert i. induction l as [|a l IH]; intros i Hi; cbn in Hi; [lia|]. destruct i as [|i]; cbn [setNth].
  - eexists. split; [reflexivity|]. split; [reflexivity|]. split; [reflexivity|]. intros [|j] Hj; [lia|reflexivity].
  - destruct (IH i) as (l' & E & E1 & E2 & E3); [lia|]. rewrite E. cbn [bind]. eexists. split; [reflexivity|].
    cbn. split; [lia|]. split; [auto|]. intros [|j] Hj; [reflexivity|]. cbn. apply E3. lia.
Qed.

Lemma fillChain_spec n L parts fs chain :
  1 <= n <= two63 ->
  Forall (fun z => Range n (fst z) (snd z) /\ pow2 (snd z) /\ snd z < 2 ^ lenN chain) parts -> decreasing parts ->
  Forall2 (fun z v => NodeVal H L (fst z) (snd z) v) parts fs ->
  exists chain', fillChain (map nodeOf parts) fs chain = Ok chain' /\ List.length chain' = List.length chain /\
    (forall b j, In (b, 2 ^ j) parts -> exists v, nth_error chain' (N.to_nat j) = Some (Some v) /\ NodeVal H L b (2 ^ j) v) /\
    (forall j, (forall b, ~ In (b, 2 ^ j) parts) -> nth_error chain' (N.to_nat j) = nth_error chain (N.to_nat j)).
Proof.
  intros Hn F D V. revert chain F D. induction V as [|[b l] v parts fs V0 V IH]; intros chain F D; cbn [map fillChain].
  - exists chain. repeat split; auto. intros b j [].
  - inversion F as [|z zs (R & Hp & Hlt) F']; subst. cbn [fst snd] in *.
    pose proof (covers_Range _ _ _ Hn R) as C. rewrite nodeOf_pair.
    apply (pow2_iff n _ _ _ Hn C) in Hp. set (k := level (nodeId b l)) in *.
    assert (Hk : k < lenN chain).
    { rewrite Hp in Hlt. apply N.pow_lt_mono_r_iff in Hlt; lia. }
    destruct (setNth_spec chain (N.to_nat k) (Some v)) as (c1 & E1 & L1 & N1 & N2); [unfold lenN in Hk; lia|].
    rewrite E1. cbn [bind].
    destruct (IH c1) as (c2 & E2 & L2 & A & B).
    { rewrite Forall_forall in *. intros z Hz. destruct (F' z Hz) as (Q1 & Q2 & Q3). unfold lenN in *. rewrite L1. auto. }
    { destruct parts as [|[b2 l2] parts]; [exact I|]. cbn [decreasing] in D. tauto. }
    rewrite E2. exists c2. split; [auto|]. split; [congruence|].
    assert (Hno : forall b', ~ In (b', 2 ^ k) parts).
    { intros b' Hb. apply (decreasing_lt b l) in Hb; auto. cbn in Hb. lia. }
    split.
    + intros b' j [E|I].
      * injection E as <- E. assert (j = k). { apply (N.pow_inj_r 2); lia. } subst j.
        exists v. rewrite B by auto. rewrite N1. rewrite <- Hp. auto.
      * apply A. auto.
    + intros j Hj. rewrite B by (intros b' Hb; apply (Hj b'); now right).
      apply N2. intro E. assert (j = k) by lia. subst j. apply (Hj b). left. now rewrite Hp.
Qed.

Lemma chainOK_nth L n chain k :
  (forall j, j < lenN chain -> exists c, nth_error chain (N.to_nat j) = Some c /\
     if N.odd (n / 2 ^ (k + j)) then exists v, c = Some v /\ NodeVal H L (2 ^ (k + j) * (n / 2 ^ (k + j) - 1)) (2 ^ (k + j)) v
     else c = None) ->
  n < 2 ^ (k + lenN chain) -> chainOK L k (n / 2 ^ k) chain.
Proof.
  revert k. induction chain as [|c t IH]; intros k A B; cbn [chainOK].
  - unfold lenN in B. cbn in B. rewrite N.add_0_r in B. apply N.div_small. auto.
  - split.
    + destruct (A 0) as (c' & E & X); [unfold lenN; cbn; lia|]. cbn in E. injection E as <-.
      rewrite N.add_0_r in X. exact X.
    + pose proof (pow2_pos k). rewrite N.div_div by lia. rewrite (N.mul_comm (2 ^ k) 2).
      rewrite <- pow2_S. apply IH.
      * intros j Hj. destruct (A (j + 1)) as (c' & E & X); [unfold lenN in *; cbn; lia|].
        replace (N.to_nat (j + 1)) with (S (N.to_nat j)) in E by lia. cbn in E.
        exists c'. replace (k + 1 + j) with (k + (j + 1)) by lia. auto.
      * replace (k + 1 + lenN t) with (k + lenN (c :: t)); auto. unfold lenN. cbn [List.length]. lia.
Qed.

Lemma split_pow2 k : split (2 ^ (k + 1)) = 2 ^ k.
Proof.
  unfold split. f_equal. apply N.log2_unique; [lia|]. rewrite N.pow_succ_r', pow2_S.
  pose proof (pow2_pos k). lia.
Qed.

Lemma chainOK_mono L M k m chain : 2 ^ k * m <= lenN L -> chainOK L k m chain -> chainOK (L ++ M) k m chain.
Proof.
  revert k m. induction chain as [|c t IH]; intros k m Hm; cbn [chainOK]; auto.
  intros [A B]. assert (Hm2 : m = 2 * (m / 2) + m mod 2) by (apply N.div_mod; lia).
  assert (m mod 2 < 2) by (apply N.mod_upper_bound; lia). split.
  - destruct (N.odd m) eqn:Eo; auto. destruct A as (v & -> & V). exists v. split; auto.
    unfold NodeVal in *. rewrite slice_app; auto.
    assert (m <> 0) by (intros ->; discriminate). pose proof (pow2_pos k). nia.
  - apply IH; auto. rewrite pow2_S. pose proof (pow2_pos k). nia.
Qed.

Lemma carryLoop_spec (L : list bytes) (e : bytes) chain : total H -> Forall (fun x : bytes => lenN x = hs) (L ++ [e]) ->
  forall k m lf c, chainOK L k m chain -> 2 ^ k * m <= lenN L -> 2 ^ k * (m + 1) = lenN (L ++ [e]) ->
  NodeVal H (L ++ [e]) (2 ^ k * m) (2 ^ k) c -> lf = (k =? 0) -> m + 1 < 2 ^ lenN chain ->
  exists chain', carryLoop H chain lf (lf, c) = Ok chain' /\ List.length chain' = List.length chain /\
    chainOK (L ++ [e]) k (m + 1) chain'.
Proof.
  intros HT FL. induction chain as [|o t IH]; intros k m lf c C Hm Hm1 V Elf Hlen.
  - unfold lenN in Hlen. cbn in Hlen. lia.
  - cbn [chainOK] in C. destruct C as [A B]. cbn [carryLoop].
    assert (Hm2 : m = 2 * (m / 2) + m mod 2) by (apply N.div_mod; lia).
    assert (Hmm : m mod 2 < 2) by (apply N.mod_upper_bound; lia).
    destruct (N.odd m) eqn:Eo.
    + assert (m mod 2 = 1). { rewrite <- N.bit0_mod, N.bit0_odd, Eo. reflexivity. }
      assert (Hq : m = 2 * (m / 2) + 1) by lia.
      destruct A as (v & -> & Vv).
      assert (Vv' : NodeVal H (L ++ [e]) (2 ^ k * (m - 1)) (2 ^ k) v).
      { unfold NodeVal in *. rewrite slice_app; auto.
        clear -Hm Hq. revert Hm. rewrite Hq. generalize (2 ^ k), (m / 2). intros p q Hm. replace (2 * q + 1 - 1) with (2 * q) by lia. replace (p * (2 * q + 1)) with (p * (2 * q) + p) in Hm by ring. exact Hm. }
      destruct (HT (tagged (2 ^ k) v ++ tagged (2 ^ k) c)) as (h & Eh).
      assert (Vh : NodeVal H (L ++ [e]) (2 ^ (k + 1) * (m / 2)) (2 ^ (k + 1)) h).
      { pose proof (pow2_pos k). rewrite pow2_S.
        apply NodeVal_step; [lia| |].
        { rewrite <- Hm1. clear -Hq. revert Hq. generalize (2 ^ k), (m / 2). intros p q ->. ring_simplify. lia. } rewrite <- pow2_S, split_pow2, pow2_S.
        exists v, c. replace (2 * 2 ^ k * (m / 2)) with (2 ^ k * (m - 1))
          by (clear -Hq; revert Hq; generalize (2 ^ k), (m / 2); intros p q ->; replace (2 * q + 1 - 1) with (2 * q) by lia; ring).
        replace (2 ^ k * (m - 1) + 2 ^ k) with (2 ^ k * m)
          by (clear -Hq; revert Hq; generalize (2 ^ k), (m / 2); intros p q ->; replace (2 * q + 1 - 1) with (2 * q) by lia; ring).
        replace (2 * 2 ^ k - 2 ^ k) with (2 ^ k) by lia. auto. }
      rewrite treeHash_spec with (hs := hs); auto.
      2:{ eapply NodeVal_sized; eauto. }
      2:{ eapply NodeVal_sized; eauto. }
      assert (Et : forall x, tagged (2 ^ k) x = (if lf then x00 else x01) :: x).
      { intro x. unfold tagged. subst lf. destruct (N.eqb_spec k 0) as [->|Hk]; [reflexivity|].
        destruct (N.eqb_spec (2 ^ k) 1) as [E|]; auto. exfalso.
        replace k with (N.succ (k - 1)) in E by lia. rewrite N.pow_succ_r' in E. lia. }
      rewrite <- !Et, Eh. cbn [bind].
      destruct (IH (k + 1) (m / 2) false h) as (t' & E & El & C'); auto.
      * rewrite pow2_S. clear -Hm Hq. revert Hm. rewrite Hq at 1. generalize (2 ^ k), (m / 2). intros p q Hm.
        replace (p * (2 * q + 1)) with (2 * p * q + p) in Hm by ring. clear Hq. lia.
      * rewrite <- Hm1, pow2_S. clear -Hq. revert Hq. generalize (2 ^ k), (m / 2). intros p q ->. ring_simplify. lia.
      * symmetry. apply N.eqb_neq. lia.
      * unfold lenN in *. cbn [List.length] in Hlen. rewrite Nat2N.inj_succ, N.pow_succ_r' in Hlen. lia.
      * rewrite E. cbn [bind]. eexists. split; [reflexivity|]. split; [cbn; lia|].
        cbn [chainOK]. rewrite N.add_1_r, N.odd_succ, <- N.negb_odd, Eo. cbn [negb]. split; auto.
        replace (N.succ m / 2) with (m / 2 + 1); auto.
        apply N.div_unique with 0; lia.
    + assert (m mod 2 = 0). { rewrite <- N.bit0_mod, N.bit0_odd, Eo. reflexivity. }
      subst o. cbn [snd]. eexists. split; [reflexivity|]. split; [reflexivity|]. cbn [chainOK].
      rewrite N.add_1_r, N.odd_succ, <- N.negb_odd, Eo. cbn [negb]. split.
      * exists c. split; auto. replace (N.succ m - 1) with m by lia. auto.
      * replace (N.succ m / 2) with (m / 2); [|apply N.div_unique with 1; lia].
        apply chainOK_mono; auto. rewrite pow2_S. pose proof (pow2_pos k). nia.
Qed.

Lemma logAppend_spec (L : list bytes) fs (e : bytes) : total H -> lenN L < two63 -> Forall (fun x : bytes => lenN x = hs) (L ++ [e]) ->
  (lenN L = 0 \/ FullValues H L (lenN L) fs) ->
  exists fs', logAppend H (lenN L) fs e = Ok fs' /\ FullValues H (L ++ [e]) (lenN (L ++ [e])) fs'.
Proof.
  intros HT Hn FL FV. unfold logAppend. destruct (N.eqb_spec (lenN L) 0) as [E0|Hn0].
  - destruct L; [|unfold lenN in E0; cbn in E0; lia]. exists [e]. split; auto. exists [(0, 1)]. split.
    + constructor. exists 0. reflexivity.
    + repeat constructor.
  - destruct FV as [?|(parts & P & F)]; [lia|].
    assert (Hn' : 1 <= lenN L <= two63) by lia. set (n := lenN L) in *.
    destruct (fullSubtrees_root n Hn') as (parts' & E & P'). rewrite (Parts_fun _ _ _ _ P' P) in E.
    rewrite E. cbn [bind].
    set (c0 := repeat (@None bytes) (N.to_nat (level (root n)) + 2)).
    pose proof (covers_root n Hn') as CR. destruct (covers_size _ _ _ _ Hn' CR) as (Z1 & Z2 & _).
    assert (Lc : lenN c0 = level (root n) + 2).
    { unfold c0, lenN. rewrite repeat_length. lia. }
    assert (Hlt : n + 1 < 2 ^ lenN c0).
    { rewrite Lc, N.pow_add_r. change (2 ^ 2) with 4. lia. }
    pose proof (Parts_Range _ _ _ _ Hn' (R_root n) P) as PR. pose proof (Parts_pow2 _ _ _ P) as PP.
    destruct (fillChain_spec n L parts fs c0) as (c1 & E1 & L1 & A & B); auto.
    { rewrite Forall_forall in *. intros z Hz. split; auto. split; auto.
      pose proof (covers_Range _ _ _ Hn' (PR z Hz)) as (_ & _ & _ & ? & _). lia. }
    { eapply Parts_decreasing; eauto. lia. }
    rewrite E1. cbn [bind].
    pose proof (Parts_bits 0 n parts ltac:(lia) P) as BT.
    assert (C1 : chainOK L 0 n c1).
    { pose proof (chainOK_nth L n c1 0) as G. rewrite N.pow_0_r, N.div_1_r in G. apply G.
      - intros j Hj. rewrite N.add_0_l. destruct (N.odd (n / 2 ^ j)) eqn:Eo.
        + destruct (A (0 + 2 ^ j * (n / 2 ^ j - 1)) j) as (v & Ev & V).
          { apply BT. exists j. auto. }
          exists (Some v). split; auto. exists v. auto.
        + exists None. split; auto. rewrite B.
          * unfold c0. unfold lenN in Hj. rewrite L1 in Hj. unfold c0 in Hj. rewrite repeat_length in Hj.
            apply nth_error_repeat. lia.
          * intros b Hb. apply BT in Hb as (j' & Ej & Ho & _). apply N.pow_inj_r in Ej; [|lia]. subst j'. congruence.
      - rewrite N.add_0_l. unfold lenN in *. rewrite L1. lia. }
    destruct (carryLoop_spec L e c1 HT FL 0 n true e) as (c2 & E2 & L2 & C2); auto.
    { rewrite N.pow_0_r. fold n. lia. }
    { rewrite N.pow_0_r, lenN_app. fold n. rewrite N.mul_1_l. reflexivity. }
    { rewrite N.pow_0_r, N.mul_1_l. apply NodeVal_one. unfold n, lenN. rewrite Nat2N.id, nth_error_app2 by lia.
      rewrite Nat.sub_diag. reflexivity. }
    { unfold lenN in *. rewrite L1. lia. }
    rewrite E2. cbn [bind]. eexists. split; [reflexivity|].
    replace (lenN (L ++ [e])) with (n + 1) by (rewrite lenN_app; reflexivity).
    apply chainOK_full; auto; try lia. unfold lenN in *. rewrite L2, L1. lia.
Qed.
End Hash.
