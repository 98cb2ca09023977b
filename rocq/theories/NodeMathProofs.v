(** Coordinates for node ids: node [nid k q] is the [q]-th node (from the left)
    of level [k].  All navigation functions of both math packages are computed in
    these coordinates. *)
From Verif Require Import Base BaseProofs LogMathModel.

Definition nid (k q : N) : N := 2 ^ k * (2 * q + 1) - 1.

Lemma pow2_pos k : 1 <= 2 ^ k.
Proof. pose proof (N.pow_nonzero 2 k). lia. Qed.

Lemma pow2_S k : 2 ^ (k + 1) = 2 * 2 ^ k.
Proof. rewrite N.add_1_r, N.pow_succ_r'. reflexivity. Qed.

Lemma nid_succ k q : nid k q + 1 = 2 ^ k * (2 * q + 1).
Proof. unfold nid. pose proof (pow2_pos k). nia. Qed.

Lemma nid_form k q : nid k q = 2 ^ (k + 1) * q + (2 ^ k - 1).
Proof. unfold nid. rewrite pow2_S. pose proof (pow2_pos k). nia. Qed.

Lemma nid_0 q : nid 0 q = 2 * q.
Proof. unfold nid. rewrite N.pow_0_r. lia. Qed.

(** Every number has coordinates. *)
Lemma odd_part : forall p : positive, exists k q, Npos p = 2 ^ k * (2 * q + 1).
Proof.
  induction p as [p IH|p IH|].
  - exists 0, (Npos p). rewrite N.pow_0_r. lia.
  - destruct IH as (k & q & E). exists (k + 1), q. rewrite pow2_S.
    change (N.pos p~0) with (2 * N.pos p). rewrite E. lia.
  - exists 0, 0. reflexivity.
Qed.

Lemma nid_ex x : exists k q, x = nid k q.
Proof.
  assert (Hx : x + 1 <> 0) by lia.
  destruct (x + 1) as [|p] eqn:E; [congruence|].
  destruct (odd_part p) as (k & q & Ep). exists k, q.
  unfold nid. rewrite <- Ep, <- E. lia.
Qed.

Lemma pow2_odd_inj k q k' q' :
  2 ^ k * (2 * q + 1) = 2 ^ k' * (2 * q' + 1) -> k = k' /\ q = q'.
Proof.
  revert k'. induction k as [|k IH] using N.peano_ind; intro k'.
  - destruct k' as [|k'] using N.peano_ind.
    + rewrite N.pow_0_r. lia.
    + rewrite N.pow_0_r, N.pow_succ_r'. intro E. exfalso.
      assert (2 * (2 ^ k' * (2 * q' + 1)) = 2 * q + 1) by nia. lia.
  - destruct k' as [|k'] using N.peano_ind.
    + rewrite N.pow_0_r, N.pow_succ_r'. intro E. exfalso.
      assert (2 * (2 ^ k * (2 * q + 1)) = 2 * q' + 1) by nia. lia.
    + rewrite !N.pow_succ_r'. intro E. destruct (IH k') as [-> ->]; [nia|auto].
Qed.

Lemma nid_inj k q k' q' : nid k q = nid k' q' -> k = k' /\ q = q'.
Proof.
  intro E. apply pow2_odd_inj. rewrite <- !nid_succ. lia.
Qed.

Lemma nid_lt_level k q w : nid k q < 2 ^ w -> k <= w.
Proof.
  unfold nid. intro H. destruct (N.le_gt_cases k w); auto.
  assert (2 ^ (w + 1) <= 2 ^ k) by (apply N.pow_le_mono_r; lia).
  rewrite pow2_S in *. pose proof (pow2_pos w). nia.
Qed.

(** Bit facts. *)
Lemma shiftr_nid_le k q j : j <= k -> N.shiftr (nid k q) j = nid (k - j) q.
Proof.
  intro H. rewrite N.shiftr_div_pow2. symmetry.
  apply N.div_unique with (r := 2 ^ j - 1).
  - pose proof (pow2_pos j). lia.
  - unfold nid. replace k with (j + (k - j)) at 1 by lia. rewrite N.pow_add_r.
    pose proof (pow2_pos j). pose proof (pow2_pos (k - j)).
    set (a := 2 ^ j) in *. set (b := 2 ^ (k - j)) in *. nia.
Qed.

Lemma nid_mod2_pos k q : 0 < k -> nid k q mod 2 = 1.
Proof.
  intro H. destruct k as [|k] using N.peano_ind; [lia|].
  unfold nid. rewrite N.pow_succ_r'. pose proof (pow2_pos k).
  replace (2 * 2 ^ k * (2 * q + 1) - 1) with (1 + (2 ^ k * (2 * q + 1) - 1) * 2) by nia.
  rewrite N.mod_add by lia. reflexivity.
Qed.

Lemma land_1 x : N.land x 1 = x mod 2.
Proof. change 1 with (N.ones 1). now rewrite N.land_ones. Qed.

Lemma level_loop_nid fuel k q j :
  j <= k -> k - j < N.of_nat fuel -> level_loop fuel (nid k q) j = k.
Proof.
  revert j. induction fuel as [|f IH]; intros j Hj Hf; [lia|].
  cbn [level_loop]. rewrite shiftr_nid_le, land_1 by lia.
  destruct (N.eq_dec j k) as [->|Hne].
  - rewrite N.sub_diag, nid_0, N.mul_comm, N.mod_mul by lia. reflexivity.
  - rewrite nid_mod2_pos by lia. cbn [N.eqb Pos.eqb]. apply IH; lia.
Qed.

Lemma level_nid k q : k <= 64 -> level (nid k q) = k.
Proof.
  intro Hk. unfold level, isLeaf. rewrite land_1.
  destruct (N.eq_dec k 0) as [->|Hne].
  - rewrite nid_0, N.mul_comm, N.mod_mul by lia. reflexivity.
  - rewrite nid_mod2_pos by lia. cbn [N.eqb]. apply level_loop_nid; cbn; lia.
Qed.

Lemma testbit_div a n : N.testbit a n = ((a / 2 ^ n) mod 2 =? 1).
Proof. apply N.testbit_eqb. Qed.

(** Setting a clear bit is addition. *)
Lemma lxor_clear y k : N.testbit y k = false -> N.lxor y (2 ^ k) = y + 2 ^ k.
Proof.
  intro H. symmetry. apply N.add_nocarry_lxor.
  apply N.bits_inj. intro i. rewrite N.land_spec, N.bits_0.
  destruct (N.eq_dec i k) as [->|Hne].
  - now rewrite H.
  - rewrite N.pow2_bits_false by auto. apply andb_false_r.
Qed.

Lemma lor_clear y k : N.testbit y k = false -> N.lor y (2 ^ k) = y + 2 ^ k.
Proof.
  intro H. rewrite <- lxor_clear by auto. symmetry.
  apply N.lxor_lor. apply N.bits_inj. intro i. rewrite N.land_spec, N.bits_0.
  destruct (N.eq_dec i k) as [->|Hne].
  - now rewrite H.
  - rewrite N.pow2_bits_false by auto. apply andb_false_r.
Qed.

Lemma lxor_set y k : N.testbit y k = false -> N.lxor (y + 2 ^ k) (2 ^ k) = y.
Proof.
  intro H. rewrite <- lxor_clear by auto. now rewrite N.lxor_assoc, N.lxor_nilpotent, N.lxor_0_r.
Qed.

Lemma testbit_form a k q r : a = 2 ^ k * q + r -> r < 2 ^ k -> N.testbit a k = (q mod 2 =? 1).
Proof.
  intros -> Hr. rewrite testbit_div.
  replace ((2 ^ k * q + r) / 2 ^ k) with q; [reflexivity|].
  apply N.div_unique with (r := r); auto.
Qed.

Lemma shl64_small a k : a * 2 ^ k < two64 -> shl64 a k = a * 2 ^ k.
Proof. intro H. unfold shl64. rewrite N.shiftl_mul_pow2. now apply N.mod_small. Qed.

Lemma pow2_lt64 k : k <= 63 -> 2 ^ k < two64.
Proof. intro H. rewrite two64_eq. apply N.pow_lt_mono_r; lia. Qed.

Lemma left_nid k q : 0 < k -> k <= 64 -> left (nid k q) = Ok (nid (k - 1) (2 * q)).
Proof.
  intros H0 H. unfold left. rewrite level_nid by lia.
  destruct (N.eqb_spec k 0); [lia|]. f_equal.
  rewrite shl64_small by (rewrite N.mul_1_l; apply pow2_lt64; lia). rewrite N.mul_1_l.
  assert (Ek : k = (k - 1) + 1) by lia.
  set (j := k - 1) in *.
  assert (E : nid k q = nid j (2 * q) + 2 ^ j).
  { rewrite Ek, !nid_form, !pow2_S. pose proof (pow2_pos j). nia. }
  rewrite E. apply lxor_set.
  rewrite (testbit_form _ _ (4 * q) (2 ^ j - 1)).
  - replace (4 * q) with ((2 * q) * 2) by lia. rewrite N.mod_mul by lia. reflexivity.
  - rewrite nid_form, pow2_S. nia.
  - pose proof (pow2_pos j). lia.
Qed.

Lemma rightStep_nid k q :
  0 < k -> k <= 63 -> rightStep (nid k q) = Ok (nid (k - 1) (2 * q + 1)).
Proof.
  intros H0 H. unfold rightStep. rewrite level_nid by lia.
  destruct (N.eqb_spec k 0); [lia|]. f_equal.
  assert (Ek : k = (k - 1) + 1) by lia.
  set (j := k - 1) in *.
  assert (P2 : 2 ^ (j + 1) < two64) by (apply pow2_lt64; lia).
  rewrite pow2_S in P2.
  rewrite shl64_small.
  2:{ assert (j <= 62) by lia. assert (2 ^ j <= 2 ^ 62) by (apply N.pow_le_mono_r; lia).
      rewrite two64_eq. change (2 ^ 62) with 4611686018427387904 in *.
      change (2^64) with 18446744073709551616. lia. }
  assert (E3 : 3 * 2 ^ j = N.lxor (2 ^ (j + 1)) (2 ^ j)).
  { rewrite lxor_clear, pow2_S; [lia|]. rewrite N.pow2_bits_false by lia. reflexivity. }
  rewrite E3, <- N.lxor_assoc.
  assert (C1 : N.testbit (nid k q) (j + 1) = false).
  { rewrite (testbit_form _ _ (2 * q) (2 ^ (j + 1) - 1)).
    - replace (2 * q) with (q * 2) by lia. rewrite N.mod_mul by lia. reflexivity.
    - rewrite Ek, nid_form, (pow2_S (j+1)). nia.
    - pose proof (pow2_pos (j+1)). lia. }
  rewrite (lxor_clear _ _ C1).
  assert (E : nid k q + 2 ^ (j + 1) = nid j (2 * q + 1) + 2 ^ j).
  { rewrite Ek, !nid_form, !pow2_S. pose proof (pow2_pos j). nia. }
  rewrite E. apply lxor_set.
  rewrite (testbit_form _ _ (2 * (2 * q + 1)) (2 ^ j - 1)).
  - replace (2 * (2 * q + 1)) with ((2 * q + 1) * 2) by lia. rewrite N.mod_mul by lia. reflexivity.
  - rewrite nid_form, pow2_S. nia.
  - pose proof (pow2_pos j). lia.
Qed.

Lemma parentStep_nid k q :
  k <= 63 -> nid k q < two64 -> parentStep (nid k q) = nid (k + 1) (q / 2).
Proof.
  intros H Hx. unfold parentStep. rewrite level_nid by lia.
  rewrite (shl64_small 1) by (rewrite N.mul_1_l; apply pow2_lt64; lia). rewrite N.mul_1_l.
  assert (C : N.testbit (nid k q) k = false).
  { rewrite (testbit_form _ _ (2 * q) (2 ^ k - 1)).
    - replace (2 * q) with (q * 2) by lia. rewrite N.mod_mul by lia. reflexivity.
    - rewrite nid_form, pow2_S. nia.
    - pose proof (pow2_pos k). lia. }
  rewrite (lor_clear _ _ C).
  assert (Eb : N.land (N.shiftr (nid k q) (k + 1)) 1 = q mod 2).
  { rewrite land_1, N.shiftr_div_pow2. f_equal. symmetry.
    apply N.div_unique with (r := 2 ^ k - 1); [rewrite pow2_S; pose proof (pow2_pos k); lia|].
    apply nid_form. }
  rewrite Eb.
  assert (Hq : q = 2 * (q / 2) + q mod 2) by (apply N.div_mod; lia).
  assert (Hm : q mod 2 < 2) by (apply N.mod_upper_bound; lia).
  set (h := q / 2) in *. set (b := q mod 2) in *.
  assert (Hb : b = 0 \/ b = 1) by lia.
  assert (Es : nid k q + 2 ^ k = nid (k + 1) h + b * 2 ^ (k + 1)).
  { rewrite !nid_form, !pow2_S. pose proof (pow2_pos k). rewrite Hq. nia. }
  destruct Hb as [-> | Hb].
  - unfold shl64. rewrite N.shiftl_0_l, N.mod_0_l by (rewrite two64_eq; discriminate).
    rewrite N.lxor_0_r, Es. lia.
  - rewrite Hb in *.
    assert (Hk : k <= 62).
    { destruct (N.le_gt_cases k 62); auto. assert (k = 63) by lia. subst k.
      exfalso. revert Hx. unfold nid. rewrite Hq.
      change (2 ^ 63) with 9223372036854775808. rewrite two64_eq.
      change (2 ^ 64) with 18446744073709551616. lia. }
    rewrite shl64_small by (rewrite N.mul_1_l; apply pow2_lt64; lia).
    rewrite Es, N.mul_1_l. apply lxor_set.
    rewrite (testbit_form _ _ (2 * h) (2 ^ (k + 1) - 1)).
    + replace (2 * h) with (h * 2) by lia. rewrite N.mod_mul by lia. reflexivity.
    + rewrite nid_form, (pow2_S (k+1)). nia.
    + pose proof (pow2_pos (k + 1)). lia.
Qed.

(** log2 *)
Lemma log2_loop_spec fuel x k :
  0 < x -> k <= N.log2 x + 1 -> N.log2 x + 1 - k < N.of_nat fuel ->
  log2_loop fuel x k = N.log2 x + 1.
Proof.
  intro Hx. revert k. induction fuel as [|f IH]; intros k Hk Hf; [lia|].
  cbn [log2_loop]. rewrite N.shiftr_div_pow2.
  pose proof (N.log2_spec x Hx) as [L1 L2].
  rewrite <- N.add_1_r in L2.
  destruct (N.ltb_spec 0 (x / 2 ^ k)) as [L|L].
  - assert (k <> N.log2 x + 1).
    { intros ->. rewrite N.div_small in L by auto. lia. }
    apply IH; lia.
  - destruct (N.eq_dec k (N.log2 x + 1)); auto. exfalso.
    assert (2 ^ k <= 2 ^ N.log2 x) by (apply N.pow_le_mono_r; lia).
    assert (1 <= x / 2 ^ k).
    { apply N.div_le_lower_bound; [apply N.pow_nonzero; lia|lia]. }
    lia.
Qed.

Lemma log2_lt64 x : x < two64 -> N.log2 x <= 63.
Proof.
  intro H. destruct (N.eq_dec x 0) as [->|Hne]; [cbn; lia|].
  assert (N.log2 x < 64); [|lia]. apply N.log2_lt_pow2; [lia|]. now rewrite <- two64_eq.
Qed.

Lemma log2_spec x : x < two64 -> log2 x = N.log2 x.
Proof.
  intro H. unfold log2. destruct (N.eqb_spec x 0) as [->|Hne]; [reflexivity|].
  pose proof (log2_lt64 x H).
  rewrite log2_loop_spec by (cbn; lia). unfold sub64.
  replace (N.log2 x + 1 + two64 - 1) with (N.log2 x + 1 * two64) by (rewrite two64_eq; lia).
  rewrite N.mod_add by (rewrite two64_eq; discriminate).
  apply N.mod_small. rewrite two64_eq. lia.
Qed.

Lemma sub64_small a b : b <= a -> a < two64 -> sub64 a b = a - b.
Proof.
  intros H1 H2. unfold sub64. replace (a + two64 - b) with (a - b + 1 * two64) by lia.
  rewrite N.mod_add by (rewrite two64_eq; discriminate). apply N.mod_small. lia.
Qed.

Lemma add64_small a b : a + b < two64 -> add64 a b = a + b.
Proof. intro H. unfold add64. now apply N.mod_small. Qed.

Lemma mul64_small a b : a * b < two64 -> mul64 a b = a * b.
Proof. intro H. unfold mul64. now apply N.mod_small. Qed.

Lemma rootW_nid w : 0 < w -> w < two64 -> rootW w = nid (N.log2 w) 0.
Proof.
  intros H0 H. unfold rootW. rewrite log2_spec by auto.
  pose proof (log2_lt64 w H). pose proof (pow2_lt64 (N.log2 w)).
  rewrite shl64_small by (rewrite N.mul_1_l; auto). rewrite N.mul_1_l.
  pose proof (pow2_pos (N.log2 w)).
  rewrite sub64_small by auto. unfold nid. lia.
Qed.

(** ** Intervals *)

(** Least and greatest id below node [x] in the infinite tree. *)
Definition lo (x : N) : N := x + 1 - 2 ^ level x.
Definition hi (x : N) : N := x + 2 ^ level x - 1.

Lemma lo_nid k q : k <= 64 -> lo (nid k q) = 2 ^ (k + 1) * q.
Proof.
  intro H. unfold lo. rewrite level_nid by lia. rewrite nid_form, pow2_S.
  pose proof (pow2_pos k). nia.
Qed.

Lemma hi_nid k q : k <= 64 -> hi (nid k q) = 2 ^ (k + 1) * (q + 1) - 2.
Proof.
  intro H. unfold hi. rewrite level_nid by lia. rewrite nid_form, pow2_S.
  pose proof (pow2_pos k). nia.
Qed.

(** A 64-bit id is at level at most 64, and at level at most 63 unless it is the
    maximal uint64. *)
Lemma nid_ex64 x : x < two64 -> exists k q, x = nid k q /\ k <= 64 /\ level x = k.
Proof.
  intro H. destruct (nid_ex x) as (k & q & ->). exists k, q.
  rewrite two64_eq in H. apply nid_lt_level in H. rewrite level_nid by lia. auto.
Qed.

Lemma nid_ex63 x : x < two64 - 1 -> exists k q, x = nid k q /\ k <= 63 /\ level x = k.
Proof.
  intro H. destruct (nid_ex64 x) as (k & q & E & Hk & L); [lia|]. exists k, q.
  split; [auto|split; [|auto]].
  destruct (N.eq_dec k 64) as [->|]; [|lia].
  exfalso. revert H. rewrite E. unfold nid. rewrite two64_eq. pose proof (pow2_pos 64).
  nia.
Qed.

Lemma level_le63 x : x < two64 - 1 -> level x <= 63.
Proof. intro H. destruct (nid_ex63 x H) as (k & q & E & Hk & L). lia. Qed.

Lemma lo_le x : lo x <= x.
Proof. unfold lo. pose proof (pow2_pos (level x)). lia. Qed.
Lemma hi_ge x : x <= hi x.
Proof. unfold hi. pose proof (pow2_pos (level x)). lia. Qed.

Lemma level_0_iff x : level x = 0 -> lo x = x /\ hi x = x.
Proof. intro H. unfold lo, hi. rewrite H, N.pow_0_r. lia. Qed.

(** Left child. *)
Lemma left_spec x : x < two64 - 1 -> 0 < level x ->
  exists l, left x = Ok l /\ l < x /\ level l = level x - 1 /\ lo l = lo x /\ hi l = x - 1.
Proof.
  intros H HL. destruct (nid_ex63 x H) as (k & q & E & Hk & L). subst x.
  rewrite L in *. exists (nid (k - 1) (2 * q)).
  rewrite left_nid, level_nid, !lo_nid, hi_nid by lia.
  assert (Ek : k = (k - 1) + 1) by lia. set (j := k - 1) in *. rewrite Ek in *.
  rewrite !nid_form, !pow2_S. pose proof (pow2_pos j).
  repeat split; nia.
Qed.

Lemma left_leaf x : level x = 0 -> exists m, left x = Panic m.
Proof. intro H. unfold left. rewrite H. cbn. eauto. Qed.

Lemma rightStep_spec x : x < two64 - 1 -> 0 < level x ->
  exists r, rightStep x = Ok r /\ x < r /\ level r = level x - 1 /\ lo r = x + 1 /\ hi r = hi x.
Proof.
  intros H HL. destruct (nid_ex63 x H) as (k & q & E & Hk & L). subst x.
  rewrite L in *. exists (nid (k - 1) (2 * q + 1)).
  rewrite rightStep_nid, level_nid, !lo_nid, !hi_nid by lia.
  assert (Ek : k = (k - 1) + 1) by lia. set (j := k - 1) in *. rewrite Ek in *.
  rewrite !nid_form, !pow2_S. pose proof (pow2_pos j).
  repeat split; nia.
Qed.

Lemma hi_lt64 x : x < two64 - 1 -> hi x < two64 - 1.
Proof.
  intro H. destruct (nid_ex63 x H) as (k & q & E & Hk & L). subst x.
  rewrite hi_nid by lia. rewrite nid_form in H.
  assert (E64 : two64 = 2 ^ (k + 1) * 2 ^ (63 - k)).
  { rewrite <- N.pow_add_r, two64_eq. f_equal. lia. }
  rewrite E64 in *. rewrite pow2_S in *. pose proof (pow2_pos k). pose proof (pow2_pos (63 - k)).
  set (a := 2 ^ k) in *. set (b := 2 ^ (63 - k)) in *.
  assert (q + 1 <= b) by nia. nia.
Qed.

Lemma right_loop_spec fuel w r :
  r < two64 - 1 -> lo r < w -> level r < N.of_nat fuel ->
  exists y, right_loop fuel w r = Ok y /\ y <= r /\ y < w /\ level y <= level r /\
    lo y = lo r /\ hi y <= hi r /\ (hi r <= hi y \/ w <= hi y + 1).
Proof.
  revert r. induction fuel as [|f IH]; intros r Hr Hlo Hf; [lia|].
  cbn [right_loop]. destruct (N.leb_spec w r) as [Hw|Hw].
  - destruct (N.eq_dec (level r) 0) as [E|E].
    { destruct (level_0_iff r E). lia. }
    destruct (left_spec r) as (l & El & Hl & Hlev & Hllo & Hlhi); [lia|lia|].
    rewrite El. cbn [bind].
    destruct (IH l) as (y & Ey & Hy1 & Hy2 & Hy3 & Hy4 & Hy5 & Hy6); [lia|lia|lia|].
    exists y. rewrite Ey. pose proof (hi_ge r). 
    repeat split; try lia.
  - exists r. pose proof (hi_ge r). repeat split; lia.
Qed.

(** Right child in a tree with [w] nodes. *)
Lemma rightW_spec x w : x + 1 < w -> w <= two64 - 1 -> 0 < level x ->
  exists r, rightW x w = Ok r /\ x < r /\ r < w /\ level r < level x /\
    lo r = x + 1 /\ hi r <= hi x /\ (hi x <= hi r \/ w <= hi r + 1).
Proof.
  intros Hx Hw HL. unfold rightW.
  destruct (rightStep_spec x) as (r & Er & Hr & Hlev & Hlo & Hhi); [lia|lia|].
  rewrite Er. cbn [bind].
  assert (Hr64 : r < two64 - 1).
  { pose proof (hi_lt64 x). pose proof (hi_ge r). rewrite Hhi in *.
    assert (r <= hi x); [|lia]. rewrite <- Hhi. unfold hi. pose proof (pow2_pos (level r)). lia. }
  destruct (right_loop_spec 66 w r) as (y & Ey & Hy1 & Hy2 & Hy3 & Hy4 & Hy5 & Hy6); [lia|lia| |].
  { pose proof (level_le63 r Hr64). cbn. lia. }
  exists y. pose proof (lo_le y). repeat split; try lia; auto.
Qed.

(** Root. *)
Lemma rootW_spec w : 0 < w -> w <= two64 - 1 ->
  rootW w < w /\ lo (rootW w) = 0 /\ w <= hi (rootW w) + 1 /\ level (rootW w) = N.log2 w.
Proof.
  intros H0 H. rewrite rootW_nid by lia.
  pose proof (log2_lt64 w). pose proof (N.log2_spec w) as S.
  rewrite <- N.add_1_r, pow2_S in S.
  rewrite lo_nid, hi_nid, level_nid by lia. unfold nid. rewrite pow2_S.
  pose proof (pow2_pos (N.log2 w)).
  repeat split; lia.
Qed.

(** Laminarity: subtrees are nested or disjoint. *)
Lemma inside_spec x y : x < two64 - 1 -> y < two64 - 1 -> x <> y ->
  lo x <= y <= hi x ->
  level y < level x /\ lo x <= lo y /\ hi y <= hi x /\ (y < x -> hi y < x) /\ (x < y -> x < lo y).
Proof.
  intros Hx Hy Hne HI.
  destruct (nid_ex63 x Hx) as (k & q & E & Hk & L). subst x.
  destruct (nid_ex63 y Hy) as (j & p & E & Hj & M). subst y.
  rewrite L, M. rewrite ?lo_nid, ?hi_nid in * by lia.
  destruct (N.lt_ge_cases j k) as [Hjk|Hjk].
  - assert (Ek : k = j + 1 + (k - j - 1)) by lia.
    set (d := k - j - 1) in *. clearbody d. subst k.
    rewrite ?nid_form in *. rewrite !N.pow_add_r in *. rewrite N.pow_1_r in *.
    set (a := 2 ^ j) in *. set (b := 2 ^ d) in *.
    assert (1 <= a) by apply pow2_pos. assert (1 <= b) by apply pow2_pos.
    assert (G : 2 * b * q <= p <= 2 * b * (q + 1) - 1) by nia.
    repeat split; try nia.
    + intro Hlt. assert (G1 : a * (2 * p + 1) < a * (2 * b * (2 * q + 1))) by nia.
      apply N.mul_lt_mono_pos_l in G1; [|lia].
      assert (G2 : p + 1 <= b * (2 * q + 1)) by lia.
      apply (N.mul_le_mono_l _ _ (a * 2)) in G2. nia.
    + intro Hlt. assert (G1 : a * (2 * b * (2 * q + 1)) < a * (2 * p + 1)) by nia.
      apply N.mul_lt_mono_pos_l in G1; [|lia].
      assert (G2 : b * (2 * q + 1) <= p) by lia.
      apply (N.mul_le_mono_l _ _ (a * 2)) in G2. nia.
  - exfalso.
    assert (Ej : j = k + (j - k)) by lia.
    set (d := j - k) in *. clearbody d. subst j.
    destruct (N.eq_dec d 0) as [->|Hd].
    + rewrite N.add_0_r in *. rewrite !nid_form in *. rewrite pow2_S in *.
      set (a := 2 ^ k) in *. assert (1 <= a) by apply pow2_pos.
      assert (p = q) by nia. subst p. congruence.
    + assert (Ed : d = 1 + (d - 1)) by lia. set (e := d - 1) in *. clearbody e. subst d.
      rewrite !nid_form in *. rewrite ?N.pow_add_r in *. rewrite ?N.pow_1_r in *.
      set (a := 2 ^ k) in *. set (b := 2 ^ e) in *.
      assert (1 <= a) by apply pow2_pos. assert (1 <= b) by apply pow2_pos.
      assert (2 * q < b * (4 * p + 2)) by nia.
      assert (b * (4 * p + 2) < 2 * q + 2) by nia.
      nia.
Qed.

(** Parent. *)
Lemma parentStep_spec x : x < two64 - 1 -> level x <= 62 ->
  level (parentStep x) = level x + 1 /\ lo (parentStep x) <= lo x /\ hi x <= hi (parentStep x) /\
  parentStep x < two64 - 1 /\
  (lo x = lo (parentStep x) /\ hi x + 1 = parentStep x \/
   hi x = hi (parentStep x) /\ lo x = parentStep x + 1).
Proof.
  intros Hx HL. destruct (nid_ex63 x Hx) as (k & q & E & Hk & L). subst x.
  rewrite L in *. rewrite parentStep_nid by lia.
  rewrite level_nid by lia. rewrite !lo_nid, !hi_nid by lia.
  assert (Hq : q = 2 * (q / 2) + q mod 2) by (apply N.div_mod; lia).
  assert (Hm : q mod 2 < 2) by (apply N.mod_upper_bound; lia).
  set (h := q / 2) in *. set (b := q mod 2) in *. clearbody h b.
  assert (B : nid (k + 1) h < two64 - 1).
  { rewrite nid_form in *. rewrite !pow2_S in *.
    assert (E64 : two64 = 4 * 2 ^ k * 2 ^ (62 - k)).
    { change 4 with (2 ^ 2). rewrite <- !N.pow_add_r, two64_eq. f_equal. lia. }
    rewrite E64 in *. pose proof (pow2_pos k). pose proof (pow2_pos (62 - k)).
    set (a := 2 ^ k) in *. set (c := 2 ^ (62 - k)) in *. subst q.
    assert (h < c) by nia. nia. }
  rewrite !pow2_S in *. rewrite nid_form in *. rewrite !pow2_S in *. pose proof (pow2_pos k).
  set (a := 2 ^ k) in *.
  repeat split; try nia.
  assert (b = 0 \/ b = 1) as [-> | ->] by lia.
  - left. nia.
  - right. nia.
Qed.
