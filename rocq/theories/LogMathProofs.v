(** Proofs about the log tree navigation functions. *)
From Verif Require Import Base BaseProofs LogMathModel NodeMathProofs LogMathSpec.

Definition anc (c x : N) : Prop := lo c <= x <= hi c.

Lemma anc_refl x : anc x x.
Proof. unfold anc, lo, hi. pose proof (pow2_pos (level x)). lia. Qed.

Lemma nested x p r : p < two64 - 1 -> r < two64 - 1 ->
  anc p x -> anc r x -> level p <= level r -> anc r p.
Proof.
  unfold anc. intros Hp Hr.
  destruct (nid_ex63 p Hp) as (k & q & E & Hk & L). subst p.
  destruct (nid_ex63 r Hr) as (j & s & E & Hj & M). subst r.
  rewrite L, M. rewrite ?lo_nid, ?hi_nid by lia. intros A B HL.
  assert (Ej : j = k + (j - k)) by lia. set (d := j - k) in *. clearbody d. subst j.
  rewrite nid_form. clear L M Hp Hr.
  replace (k + d + 1) with (k + 1 + d) in * by lia. rewrite N.pow_add_r in *. rewrite pow2_S in *.
  set (a := 2 ^ k) in *. set (b := 2 ^ d) in *.
  assert (1 <= a) by apply pow2_pos. assert (1 <= b) by apply pow2_pos.
  assert (b * s < q + 1) by nia. assert (q < b * (s + 1)) by nia.
  assert (G1 : b * s <= q) by lia. assert (G2 : q + 1 <= b * (s + 1)) by lia.
  apply (N.mul_le_mono_l _ _ (2 * a)) in G1. apply (N.mul_le_mono_l _ _ (2 * a)) in G2. nia.
Qed.

Lemma anc_same_level x p r : p < two64 - 1 -> r < two64 - 1 ->
  anc p x -> anc r x -> level p = level r -> p = r.
Proof.
  intros Hp Hr A B L. destruct (N.eq_dec p r); auto. exfalso.
  assert (N : anc r p) by (eapply nested; eauto; lia).
  apply inside_spec in N; auto. lia.
Qed.

Lemma anc_trans a b c : a < two64 - 1 -> b < two64 - 1 -> anc a b -> anc b c -> anc a c.
Proof.
  intros Ha Hb A B. destruct (N.eq_dec a b) as [->|Hne]; auto.
  apply inside_spec in A; auto. unfold anc in *. lia.
Qed.

Lemma anc_lt64 a c : a < two64 - 1 -> anc a c -> c < two64 - 1.
Proof. intros H A. pose proof (hi_lt64 a H). unfold anc in A. lia. Qed.

Lemma anc_level a b : a < two64 - 1 -> anc a b -> a <> b -> level b < level a.
Proof.
  intros H A N. pose proof (anc_lt64 _ _ H A). apply inside_spec in A; auto. lia.
Qed.

Lemma right_loop_mid fuel w r y :
  r < two64 - 1 -> right_loop fuel w r = Ok y ->
  forall c, c < two64 - 1 -> anc c y -> level y < level c <= level r -> w <= c.
Proof.
  revert r. induction fuel as [|f IH]; intros r Hr; cbn [right_loop]; [discriminate|].
  destruct (N.leb_spec w r) as [Hw|Hw].
  - destruct (N.eq_dec (level r) 0) as [E|E].
    { destruct (left_leaf r E) as [m ->]. discriminate. }
    destruct (left_spec r) as (l & El & Hl & Hlev & Hllo & Hlhi); [lia|lia|].
    rewrite El. cbn [bind]. intros Ey c Hc A L.
    destruct (N.eq_dec (level c) (level r)) as [Ec|Ec].
    + assert (Al : anc r l) by (unfold anc; pose proof (lo_le l); pose proof (hi_ge r); lia).
      assert (Ay : anc r y); [|rewrite (anc_same_level y c r); auto].
      clear IH Ec A L Hc c.
      assert (G : forall f r, r < two64 - 1 -> right_loop f w r = Ok y -> anc r y).
      { clear. induction f as [|f IH]; intros r Hr; cbn [right_loop]; [discriminate|].
        destruct (N.leb_spec w r); [|intro E; injection E as <-; apply anc_refl].
        destruct (N.eq_dec (level r) 0) as [E|E].
        { destruct (left_leaf r E) as [m ->]. discriminate. }
        destruct (left_spec r) as (l & El & Hl & Hlev & Hllo & Hlhi); [lia|lia|].
        rewrite El. cbn [bind]. intro Ey. apply IH in Ey; [|lia].
        apply anc_trans with l; auto; try lia. unfold anc. pose proof (lo_le l). pose proof (hi_ge r). lia. }
      apply anc_trans with l; auto; try lia. eapply G; eauto. lia.
    + apply (IH l); auto; try lia.
  - intro E. injection E as <-. intros. lia.
Qed.

(** [p] is the closest proper ancestor of [x] that exists in a tree of width [w]. *)
Definition isParent (w p x : N) : Prop :=
  p < w /\ anc p x /\ level x < level p /\
  forall c, c < two64 - 1 -> anc c x -> level x < level c < level p -> w <= c.

Lemma isParent_unique w p p' x : w <= two64 - 1 -> isParent w p x -> isParent w p' x -> p = p'.
Proof.
  intros Hw (A1 & A2 & A3 & A4) (B1 & B2 & B3 & B4).
  destruct (N.lt_trichotomy (level p) (level p')) as [L|[L|L]].
  - specialize (B4 p). lia.
  - apply (anc_same_level x); auto; lia.
  - specialize (A4 p'). lia.
Qed.

Lemma left_isParent w p x : p < w -> w <= two64 - 1 -> left p = Ok x -> isParent w p x.
Proof.
  intros Hp Hw El. destruct (N.eq_dec (level p) 0) as [E|E].
  { destruct (left_leaf p E) as [m Em]. congruence. }
  destruct (left_spec p) as (l & El' & Hl & Hlev & Hllo & Hlhi); [lia|lia|].
  assert (l = x) by congruence. subst l.
  repeat split; auto; try (pose proof (lo_le x); pose proof (hi_ge p)); try lia.
Qed.

Lemma rightStep_leaf x : level x = 0 -> exists m, rightStep x = Panic m.
Proof. intro H. unfold rightStep. rewrite H. cbn. eauto. Qed.

Lemma rightW_isParent w p x : w <= two64 - 1 -> p + 1 < w -> rightW p w = Ok x -> isParent w p x.
Proof.
  intros Hw Hp Er.
  destruct (N.eq_dec (level p) 0) as [E|E].
  { unfold rightW in Er. destruct (rightStep_leaf p E) as [m Em]. rewrite Em in Er. discriminate. }
  destruct (rightW_spec p w) as (r & Er' & H1 & H2 & H3 & H4 & H5 & H6); [lia|lia|lia|].
  assert (r = x) by congruence. subst r.
  repeat split; auto; try (pose proof (lo_le p); pose proof (hi_ge x)); try lia.
  unfold rightW in Er.
  destruct (rightStep_spec p) as (r & Es & Hr & Hlev & Hlo & Hhi); [lia|lia|].
  rewrite Es in Er. cbn [bind] in Er. intros c Hc A L.
  apply (right_loop_mid 66 w r x); auto; [|lia].
  pose proof (hi_lt64 p). assert (r <= hi r) by (unfold hi; pose proof (pow2_pos (level r)); lia). lia.
Qed.

Lemma parent_loop_spec fuel w x c r :
  w <= two64 - 1 -> c < two64 - 1 -> x < w -> r < w -> w <= hi r + 1 -> lo r = 0 ->
  anc c x -> level x < level c -> level c <= level r ->
  (forall c', c' < two64 - 1 -> anc c' x -> level x < level c' < level c -> w <= c') ->
  level r - level c < N.of_nat fuel ->
  exists p, parent_loop fuel w c = Ok p /\ isParent w p x.
Proof.
  intros Hw. revert c. induction fuel as [|f IH]; intros c Hc Hx Hr Hhr Hlr A L1 L2 Hmin Hf; [lia|].
  cbn [parent_loop]. destruct (N.leb_spec w c) as [Hwc|Hwc].
  - assert (Lr : level c <> level r).
    { intro E. assert (c = r); [|lia]. apply (anc_same_level x); auto; [lia|].
      unfold anc. lia. }
    pose proof (level_le63 r).
    destruct (parentStep_spec c) as (P1 & P2 & P3 & P4 & P5); [lia|lia|].
    apply IH; auto; try lia.
    + unfold anc in *. lia.
    + intros c' Hc' A' L'. destruct (N.lt_ge_cases (level c') (level c)).
      * apply Hmin; auto; lia.
      * rewrite (anc_same_level x c' c); auto; lia.
  - exists c. split; auto. repeat split; auto; unfold anc in *; lia.
Qed.

Lemma parentW_spec x w : x < w -> w <= two64 - 1 -> x <> rootW w ->
  exists p, parentW x w = Ok p /\ isParent w p x.
Proof.
  intros Hx Hw Hne. unfold parentW. destruct (N.eqb_spec x (rootW w)); [lia|].
  destruct (rootW_spec w) as (R1 & R2 & R3 & R4); [lia|lia|].
  assert (A : anc (rootW w) x) by (unfold anc; lia).
  assert (L : level x < level (rootW w)) by (apply anc_level; auto; lia).
  pose proof (level_le63 (rootW w)).
  destruct (parentStep_spec x) as (P1 & P2 & P3 & P4 & P5); [lia|lia|].
  apply (parent_loop_spec 66 w x (parentStep x) (rootW w)); auto; try lia.
  unfold anc. pose proof (lo_le x). pose proof (hi_ge x). lia.
Qed.

Lemma isParent_child w p x : w <= two64 - 1 -> x < w -> isParent w p x ->
  (x < p /\ left p = Ok x) \/ (p < x /\ rightW p w = Ok x).
Proof.
  intros Hw Hx (A1 & A2 & A3 & A4).
  assert (Hne : p <> x) by (intros ->; lia).
  destruct (inside_spec p x) as (I1 & I2 & I3 & I4 & I5); [lia|lia|auto|exact A2|].
  destruct (N.lt_ge_cases x p) as [Hlt|Hge].
  - left. split; auto.
    destruct (left_spec p) as (l & El & Hl & Hlev & Hllo & Hlhi); [lia|lia|].
    rewrite El. f_equal. destruct (N.eq_dec l x); auto. exfalso.
    assert (Al : anc l x) by (unfold anc; pose proof (hi_ge x); pose proof (lo_le x); lia).
    assert (L : level x < level l) by (apply anc_level; auto; lia).
    specialize (A4 l). lia.
  - right. split; [lia|].
    destruct (rightW_spec p w) as (r & Er & H1 & H2 & H3 & H4 & H5 & H6); [lia|lia|lia|].
    rewrite Er. f_equal. destruct (N.eq_dec r x); auto. exfalso.
    assert (Al : anc r x) by (unfold anc; pose proof (hi_ge x); pose proof (lo_le x); lia).
    assert (L : level x < level r) by (apply anc_level; auto; lia).
    specialize (A4 r). lia.
Qed.

Lemma left_parent w p x : p < w -> w <= two64 - 1 -> left p = Ok x -> parentW x w = Ok p.
Proof.
  intros Hp Hw El. pose proof (left_isParent w p x Hp Hw El) as I.
  assert (Hx : x < p).
  { destruct I as (A1 & A2 & A3 & A4).
    destruct (left_spec p) as (l & El' & Hl & _); [lia|lia|]. congruence. }
  destruct (parentW_spec x w) as (p' & E & I'); [lia|lia| |].
  - intros ->. destruct (rootW_spec w) as (R1 & R2 & R3 & R4); [lia|lia|].
    destruct I as (A1 & A2 & A3 & A4).
    assert (anc (rootW w) p) by (unfold anc; lia).
    assert (level p < level (rootW w)) by (apply anc_level; [lia|auto|intros Erp; rewrite Erp in *; lia]). lia.
  - rewrite E. f_equal. eapply isParent_unique; eauto.
Qed.

Lemma right_parent w p x : p + 1 < w -> w <= two64 - 1 -> rightW p w = Ok x -> parentW x w = Ok p.
Proof.
  intros Hp Hw El. pose proof (rightW_isParent w p x Hw Hp El) as I.
  assert (Hx : x < w).
  { destruct I as (A1 & A2 & A3 & A4).
    destruct (rightW_spec p w) as (r & Er & H1 & H2 & _); [lia|lia|lia|]. congruence. }
  destruct (parentW_spec x w) as (p' & E & I'); [lia|lia| |].
  - intros ->. destruct (rootW_spec w) as (R1 & R2 & R3 & R4); [lia|lia|].
    destruct I as (A1 & A2 & A3 & A4).
    assert (anc (rootW w) p) by (unfold anc; lia).
    assert (level p < level (rootW w)) by (apply anc_level; [lia|auto|intros Erp; rewrite Erp in *; lia]). lia.
  - rewrite E. f_equal. eapply isParent_unique; eauto.
Qed.

(** ** The log tree: width [2n-1] *)

Definition two63 : N := 9223372036854775808.

Lemma nodeWidth_spec n : 1 <= n <= two63 -> nodeWidth n = 2 * n - 1.
Proof.
  unfold two63. intro H. unfold nodeWidth. destruct (N.eqb_spec n 0); [lia|].
  rewrite sub64_small, mul64_small, add64_small; unfold two64; lia.
Qed.

Lemma nodeWidth_le n : 1 <= n <= two63 -> nodeWidth n <= two64 - 1.
Proof. intro H. rewrite nodeWidth_spec by auto. unfold two63, two64 in *. lia. Qed.

Lemma level_parity x : x < two64 - 1 -> (0 < level x <-> x mod 2 = 1).
Proof.
  intro H. destruct (nid_ex63 x H) as (k & q & E & Hk & L). subst x. rewrite L.
  destruct (N.eq_dec k 0) as [->|Hne].
  - rewrite nid_0. rewrite N.mul_comm, N.mod_mul by lia. lia.
  - rewrite nid_mod2_pos by lia. lia.
Qed.

Lemma lo_even x : x < two64 - 1 -> lo x mod 2 = 0.
Proof.
  intro H. destruct (nid_ex63 x H) as (k & q & E & Hk & L). subst x.
  rewrite lo_nid by lia. rewrite pow2_S. rewrite <- N.mul_assoc, N.mul_comm, N.mod_mul by lia. reflexivity.
Qed.

Lemma hi_even x : x < two64 - 1 -> hi x mod 2 = 0.
Proof.
  intro H. destruct (nid_ex63 x H) as (k & q & E & Hk & L). subst x.
  rewrite hi_nid by lia. rewrite pow2_S. pose proof (pow2_pos k).
  replace (2 * 2 ^ k * (q + 1) - 2) with ((2 ^ k * (q + 1) - 1) * 2) by nia.
  rewrite N.mod_mul by lia. reflexivity.
Qed.

(** [covers n x a len]: node [x] of the log tree of size [n] has exactly the
    leaves [a, a+len) below it. *)
Definition covers (n x a len : N) : Prop :=
  x < 2 * n - 1 /\ 1 <= len /\ lo x = 2 * a /\ a + len <= n /\
  (hi x + 2 = 2 * (a + len) \/ (a + len = n /\ 2 * n <= hi x + 2)).

Lemma covers_fun n x a len a' len' :
  covers n x a len -> covers n x a' len' -> a = a' /\ len = len'.
Proof. unfold covers. lia. Qed.

Lemma log2_mul_pow a k r : 0 < a -> r < 2 ^ k -> N.log2 (a * 2 ^ k + r) = N.log2 a + k.
Proof.
  intros Ha Hr. apply N.log2_unique; [lia|].
  pose proof (N.log2_spec a Ha) as [S1 S2]. rewrite N.pow_add_r.
  replace (N.succ (N.log2 a + k)) with (N.succ (N.log2 a) + k) by lia.
  rewrite N.pow_add_r. pose proof (pow2_pos k). nia.
Qed.

(** A range determines its node. *)
Lemma covers_nodeId n x a len : 1 <= n <= two63 -> covers n x a len -> x = nodeId a len.
Proof.
  intros Hn (C1 & C2 & C3 & C4 & C5).
  assert (Hx : x < two64 - 1) by (unfold two63, two64 in *; lia).
  destruct (nid_ex63 x Hx) as (k & q & E & Hk & L). subst x.
  rewrite lo_nid, hi_nid in * by lia.
  unfold nodeId, split.
  rewrite nid_form in *. pose proof (pow2_pos k) as Pk.
  destruct (N.eq_dec k 0) as [->|Hne].
  - rewrite N.add_0_l, N.pow_1_r, N.pow_0_r in *. assert (len = 1) by lia. subst len. 
    rewrite N.eqb_refl. lia.
  - assert (Ek : k = k - 1 + 1) by lia. set (j := k - 1) in *. clearbody j. subst k.
    rewrite pow2_S in *. rewrite (pow2_S j) in *. pose proof (pow2_pos j).
    assert (Ha : a = 2 * 2 ^ j * q) by lia.
    assert (Hlen : 2 ^ j < len <= 2 * 2 ^ j) by lia.
    destruct (N.eqb_spec len 1); [lia|].
    assert (EL : N.log2 (len - 1) = j).
    { apply N.log2_unique; [lia|]. rewrite N.pow_succ_r'. lia. }
    rewrite EL. lia.
Qed.

Lemma covers_root n : 1 <= n <= two63 -> covers n (root n) 0 n.
Proof.
  intro Hn. unfold root. rewrite nodeWidth_spec by auto.
  destruct (rootW_spec (2 * n - 1)) as (R1 & R2 & R3 & R4); [lia|unfold two63, two64 in *; lia|].
  assert (Hx : rootW (2 * n - 1) < two64 - 1) by (unfold two63, two64 in *; lia).
  pose proof (hi_even _ Hx).
  unfold covers. lia.
Qed.

Lemma covers_leaf_level n x a len : 1 <= n <= two63 -> covers n x a len -> (1 < len <-> 0 < level x).
Proof.
  intros Hn C.
  assert (Hx : x < two64 - 1) by (destruct C; unfold two63, two64 in *; lia).
  pose proof (level_parity x Hx) as P.
  rewrite (covers_nodeId n x a len) in P |- * by auto. unfold nodeId in *.
  destruct (N.eqb_spec len 1); unfold split in *; pose proof (pow2_pos (N.log2 (len - 1))).
  - assert ((2 * a) mod 2 = 0) by (rewrite N.mul_comm; apply N.mod_mul; lia). lia.
  - destruct C as (C1 & C2 & _). split; [|lia]. intros _. apply P.
    set (t := a + _) in *. assert (1 <= t) by lia. lia.
Qed.

(** Children of a node in range coordinates. *)
Lemma covers_children n x a len : 1 <= n <= two63 -> covers n x a len -> 1 < len ->
  exists l r, left x = Ok l /\ right x n = Ok r /\ l < x /\ x < r /\
    level l < level x /\ level r < level x /\ x = 2 * (a + split len) - 1 /\ 1 <= split len /\ split len < len /\
    covers n l a (split len) /\ covers n r (a + split len) (len - split len) /\
    hi l + 2 = 2 * (a + split len).
Proof.
  intros Hn C HL. pose proof (covers_leaf_level n x a len Hn C) as HLV.
  pose proof (covers_nodeId n x a len Hn C) as Ex.
  destruct C as (C1 & C2 & C3 & C4 & C5).
  assert (Hx : x < two64 - 1) by (unfold two63, two64 in *; lia).
  destruct (left_spec x) as (l & El & Hl & Hlev & Hllo & Hlhi); [lia|lia|].
  unfold right. rewrite nodeWidth_spec by auto.
  unfold nodeId in Ex. destruct (N.eqb_spec len 1); [lia|].
  assert (Ps : 1 <= split len) by apply pow2_pos.
  assert (Hs : split len < len).
  { unfold split. pose proof (N.log2_spec (len - 1)). lia. }
  destruct (rightW_spec x (2 * n - 1)) as (r & Er & H1 & H2 & H3 & H4 & H5 & H6);
    [lia|unfold two63, two64 in *; lia|lia|].
  assert (Hr : r < two64 - 1) by (unfold two63, two64 in *; lia).
  pose proof (hi_even r Hr). pose proof (hi_even x Hx). pose proof (hi_ge r).
  exists l, r. unfold covers. repeat split; auto; try lia.
Qed.

Lemma covers_Range n a len : 1 <= n <= two63 -> Range n a len ->
  covers n (nodeId a len) a len.
Proof.
  intros Hn R. induction R as [|a len R IH HL|a len R IH HL].
  - pose proof (covers_root n Hn) as C. rewrite <- (covers_nodeId n _ _ _ Hn C). exact C.
  - destruct (covers_children n _ a len Hn IH HL) as (l & r & _ & _ & _ & _ & _ & _ & _ & _ & _ & Cl & Cr & _).
    rewrite <- (covers_nodeId n _ _ _ Hn Cl). exact Cl.
  - destruct (covers_children n _ a len Hn IH HL) as (l & r & _ & _ & _ & _ & _ & _ & _ & _ & _ & Cl & Cr & _).
    rewrite <- (covers_nodeId n _ _ _ Hn Cr). exact Cr.
Qed.

(** Every node of the tree is a range. *)
Lemma Range_ex n x : 1 <= n <= two63 -> x < 2 * n - 1 ->
  exists a len, Range n a len /\ nodeId a len = x.
Proof.
  intros Hn Hx.
  assert (G : forall len a, Range n a len -> 2 * a <= x <= 2 * (a + len) - 2 ->
              exists a' len', Range n a' len' /\ nodeId a' len' = x).
  { induction len as [len IH] using (well_founded_induction N.lt_wf_0). intros a R HI.
    pose proof (covers_Range n a len Hn R) as C.
    assert (Hlen : 1 <= len) by (destruct C; tauto).
    destruct (N.eq_dec len 1) as [->|Hne].
    - exists a, 1. split; auto. unfold nodeId. rewrite N.eqb_refl. lia.
    - destruct (covers_children n _ a len Hn C) as (l & r & _ & _ & _ & _ & _ & _ & Ex & Ps & Hs & Cl & Cr & _); [lia|].
      destruct (N.lt_trichotomy x (nodeId a len)) as [H|[H|H]].
      + apply (IH (split len)) with a; [lia|apply R_left; auto; lia|lia].
      + exists a, len. auto.
      + apply (IH (len - split len)) with (a + split len); [lia|apply R_right; auto; lia|lia]. }
  apply (G n 0); [constructor|lia].
Qed.

Lemma Range_unique n a len a' len' : 1 <= n <= two63 -> Range n a len -> Range n a' len' ->
  nodeId a len = nodeId a' len' -> a = a' /\ len = len'.
Proof.
  intros Hn R R' E. apply (covers_Range n) in R; auto. apply (covers_Range n) in R'; auto.
  rewrite E in R. eapply covers_fun; eauto.
Qed.

(** *** Theorems in the form used by the property file *)

Lemma nav_children n a len : 1 <= n <= two63 -> Range n a len -> 1 < len ->
  left (nodeId a len) = Ok (nodeId a (split len)) /\
  right (nodeId a len) n = Ok (nodeId (a + split len) (len - split len)) /\
  parent (nodeId a (split len)) n = Ok (nodeId a len) /\
  parent (nodeId (a + split len) (len - split len)) n = Ok (nodeId a len) /\
  sibling (nodeId a (split len)) n = Ok (nodeId (a + split len) (len - split len)) /\
  sibling (nodeId (a + split len) (len - split len)) n = Ok (nodeId a (split len)).
Proof.
  intros Hn R HL. pose proof (covers_Range n a len Hn R) as C.
  destruct (covers_children n _ a len Hn C HL) as (l & r & El & Er & Hl & Hr & _ & _ & Ex & Ps & Hs & Cl & Cr & _).
  apply covers_nodeId in Cl as ->; auto. apply covers_nodeId in Cr as ->; auto.
  assert (Pl : parent (nodeId a (split len)) n = Ok (nodeId a len)).
  { unfold parent. apply left_parent; auto; [|apply nodeWidth_le; auto].
    rewrite nodeWidth_spec by auto. destruct C; lia. }
  assert (Pr : parent (nodeId (a + split len) (len - split len)) n = Ok (nodeId a len)).
  { unfold parent. apply right_parent; auto; [|apply nodeWidth_le; auto].
    rewrite nodeWidth_spec by auto. destruct C as (C1 & _ & _ & C4 & _). lia. }
  repeat split; auto.
  - unfold sibling. rewrite Pl. cbn [bind]. destruct (N.ltb_spec (nodeId a (split len)) (nodeId a len)); auto; lia.
  - unfold sibling. rewrite Pr. cbn [bind].
    destruct (N.ltb_spec (nodeId (a + split len) (len - split len)) (nodeId a len)); auto; lia.
Qed.

Lemma nav_leaf n a len : 1 <= n <= two63 -> Range n a len ->
  (len = 1 <-> isLeaf (nodeId a len) = true).
Proof.
  intros Hn R. pose proof (covers_Range n a len Hn R) as C.
  pose proof (covers_leaf_level n _ a len Hn C) as L.
  assert (Hx : nodeId a len < two64 - 1) by (destruct C; unfold two63, two64 in *; lia).
  rewrite (level_parity _ Hx) in L. unfold isLeaf. rewrite land_1.
  destruct C as (_ & C2 & _). destruct (N.eqb_spec (nodeId a len mod 2) 0); split; intro; try lia.
Qed.

Lemma root_nodeId n : 1 <= n <= two63 -> root n = nodeId 0 n.
Proof. intro Hn. apply covers_nodeId with n; auto. now apply covers_root. Qed.

(** Direct paths. *)
Fixpoint linked (n x : N) (d : list N) (r : N) : Prop :=
  match d with
  | [] => x = r
  | p :: d' => parent x n = Ok p /\ linked n p d' r
  end.

Lemma directPath_loop_spec fuel n x : 1 <= n <= two63 -> x < 2 * n - 1 ->
  level (root n) - level x < N.of_nat fuel ->
  exists d, directPath_loop fuel (root n) x n = Ok d /\ linked n x d (root n) /\
    Forall (fun y => y < 2 * n - 1) d.
Proof.
  intro Hn. revert x. induction fuel as [|f IH]; intros x Hx Hf; [lia|].
  cbn [directPath_loop]. destruct (N.eqb_spec x (root n)) as [->|Hne].
  - exists []. cbn. auto.
  - destruct (parentW_spec x (nodeWidth n)) as (p & Ep & I).
    + rewrite nodeWidth_spec; auto.
    + now apply nodeWidth_le.
    + exact Hne.
    + unfold parent at 1. rewrite Ep. cbn [bind].
      destruct I as (I1 & I2 & I3 & I4). rewrite nodeWidth_spec in I1 by auto.
      pose proof (covers_root n Hn) as (C1 & C2 & C3 & C4 & C5).
      assert (Hr : root n < two64 - 1) by (unfold two63, two64 in *; lia).
      assert (Lp : level p <= level (root n)).
      { destruct (N.eq_dec p (root n)) as [->|Hpr]; [lia|].
        apply N.lt_le_incl. apply anc_level; auto. unfold anc. lia. }
      destruct (IH p) as (d & Ed & Ld & Fd); [lia|lia|].
      rewrite Ed. cbn [bind]. exists (p :: d). cbn [linked]. unfold parent. auto.
Qed.

Lemma directPath_spec n x : 1 <= n <= two63 -> x < 2 * n - 1 ->
  exists d, directPath x n = Ok d /\ linked n x d (root n) /\ Forall (fun y => y < 2 * n - 1) d.
Proof.
  intros Hn Hx. apply directPath_loop_spec; auto.
  pose proof (covers_root n Hn) as (C1 & _). pose proof (level_le63 (root n)).
  unfold two63, two64 in *. lia.
Qed.

Lemma sibling_spec n x : 1 <= n <= two63 -> x < 2 * n - 1 -> x <> root n ->
  exists s, sibling x n = Ok s /\ s < 2 * n - 1 /\ s <> x /\ sibling s n = Ok x /\ parent s n = parent x n.
Proof.
  intros Hn Hx Hne. destruct (parentW_spec x (nodeWidth n)) as (p & Ep & I).
  { rewrite nodeWidth_spec; auto. }
  { now apply nodeWidth_le. }
  { exact Hne. }
  assert (Hp : p < 2 * n - 1) by (destruct I as (I1 & _); rewrite nodeWidth_spec in I1; auto).
  assert (Lp : 0 < level p) by (destruct I as (_ & _ & I3 & _); lia).
  destruct (Range_ex n p Hn Hp) as (a & len & R & E).
  pose proof (covers_Range n a len Hn R) as C.
  assert (HL : 1 < len) by (apply (covers_leaf_level n _ a len Hn C); rewrite E; lia).
  pose proof (nav_children n a len Hn R HL) as (N1 & N2 & N3 & N4 & N5 & N6).
  apply isParent_child in I; [|now apply nodeWidth_le|rewrite nodeWidth_spec; auto].
  assert (Rl := R_left n a len R HL). assert (Rr := R_right n a len R HL).
  pose proof (covers_Range n _ _ Hn Rl) as Cl. pose proof (covers_Range n _ _ Hn Rr) as Cr.
  assert (Hne' : nodeId a (split len) <> nodeId (a + split len) (len - split len)).
  { intro E'. destruct (Range_unique n _ _ _ _ Hn Rl Rr E') as [E1 E2].
    pose proof (pow2_pos (N.log2 (len - 1))). unfold split in *. lia. }
  rewrite E in *. unfold right in N2.
  destruct I as [[I1 I2]|[I1 I2]].
  - assert (x = nodeId a (split len)) by congruence. subst x.
    exists (nodeId (a + split len) (len - split len)). rewrite N3, N4.
    destruct Cr. repeat split; auto.
  - assert (x = nodeId (a + split len) (len - split len)) by congruence. subst x.
    exists (nodeId a (split len)). rewrite N3, N4.
    destruct Cl. repeat split; auto.
Qed.
