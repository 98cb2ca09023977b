(** The group theory behind the verifiable random functions. *)
From Coq Require Import Znumtheory.
From Verif Require Import Base BaseProofs VrfModel VrfSpec.
Open Scope N_scope.

Section Group.
Variable G : group.
Variable cof : N.
Hypothesis L : lawful G cof.
Notation "a +. b" := (pt_add G a b) (at level 50, left associativity).
Notation "n *. a" := (pt_mul G n a) (at level 40, left associativity).
Notation O := (pt_zero G).
Notation B := (pt_base G).
Notation q := (pt_q G).
Notation neg := (pt_neg G).

Lemma add_O a : a +. O = a.
Proof. rewrite (l_comm _ _ L). apply (l_zero _ _ L). Qed.
Lemma neg_r a : a +. neg a = O.
Proof. rewrite (l_comm _ _ L). apply (l_neg _ _ L). Qed.
Lemma cancel a b c : c +. a = c +. b -> a = b.
Proof.
  intro E. rewrite <- (l_zero _ _ L a), <- (l_zero _ _ L b), <- (l_neg _ _ L c), <- !(l_assoc _ _ L), E. reflexivity.
Qed.
Lemma cancel_r a b c : a +. c = b +. c -> a = b.
Proof. rewrite (l_comm _ _ L a), (l_comm _ _ L b). apply cancel. Qed.
Lemma mul_0 a : 0 *. a = O.
Proof. apply (cancel _ _ (0 *. a)). rewrite <- (l_muladd _ _ L), add_O. reflexivity. Qed.
Lemma mul_O n : n *. O = O.
Proof. rewrite <- (mul_0 O). rewrite <- (l_mulmul _ _ L). rewrite N.mul_0_r. reflexivity. Qed.
Lemma mul_add n a b : n *. (a +. b) = n *. a +. n *. b.
Proof.
  induction n as [|n IH] using N.peano_ind; [rewrite !mul_0, (l_zero _ _ L); reflexivity|].
  rewrite <- N.add_1_r, !(l_muladd _ _ L), IH, !(l_mul1 _ _ L). rewrite <- !(l_assoc _ _ L). f_equal. rewrite !(l_assoc _ _ L). f_equal. apply (l_comm _ _ L).
Qed.
Lemma mul_comm m n a : m *. (n *. a) = n *. (m *. a).
Proof. rewrite <- !(l_mulmul _ _ L). f_equal. lia. Qed.
Lemma sub_add a b : (a +. neg b) +. b = a.
Proof. rewrite <- (l_assoc _ _ L), (l_neg _ _ L). apply add_O. Qed.
Lemma neg_mul n a : neg (n *. a) = n *. neg a.
Proof. apply (cancel_r _ _ (n *. a)). rewrite (l_neg _ _ L), <- mul_add, (l_neg _ _ L), mul_O. reflexivity. Qed.

Lemma q_pos : 1 < q.
Proof. apply (l_pos _ _ L). Qed.
Lemma mul_mod (o : N) a m : o *. a = O -> o <> 0 -> m mod o *. a = m *. a.
Proof.
  intros Eo Ho. rewrite (N.div_mod m o) at 2 by exact Ho. rewrite (l_muladd _ _ L), (N.mul_comm o), (l_mulmul _ _ L), Eo, mul_O. symmetry. apply (l_zero _ _ L).
Qed.
Lemma mul_cong (o : N) a m n : o *. a = O -> o <> 0 -> m mod o = n mod o -> m *. a = n *. a.
Proof. intros Eo Ho E. rewrite <- (mul_mod o a m), <- (mul_mod o a n), E by assumption. reflexivity. Qed.
Lemma mul_modB m : m mod q *. B = m *. B.
Proof. apply mul_mod; [apply (l_baseOrder _ _ L)|pose proof q_pos; lia]. Qed.

(** Honest answers. *)
Lemma honest_point x k c s P : q *. P = O -> s mod q = (c * x + k) mod q -> s *. P +. neg (c *. (x *. P)) = k *. P.
Proof.
  intros Eq Es. pose proof q_pos. rewrite (mul_cong q P s _ Eq ltac:(lia) Es). rewrite (l_muladd _ _ L), (l_mulmul _ _ L), (l_comm _ _ L (c *. _)), <- (l_assoc _ _ L), neg_r. apply add_O.
Qed.

Hypothesis PO : primeOrder G cof.
(** Inverses modulo the order. *)
Lemma inverse e : e mod q <> 0 -> exists d, (d * e) mod q = 1.
Proof.
  intro He. pose proof q_pos as Hq. assert (R : rel_prime (Z.of_N e) (Z.of_N q)).
  { apply rel_prime_sym, prime_rel_prime; [apply (l_prime _ _ PO)|]. intros [k Hk]. apply He.
    assert (X : (Z.of_N e mod Z.of_N q = 0)%Z) by (rewrite Hk; apply Z_mod_mult). rewrite <- N2Z.inj_mod in X. lia. }
  apply rel_prime_bezout in R. destruct R as [u v Huv]. exists (Z.to_N (u mod Z.of_N q)).
  assert (Hu : (0 <= u mod Z.of_N q < Z.of_N q)%Z) by (apply Z.mod_pos_bound; lia).
  apply N2Z.inj. rewrite N2Z.inj_mod, N2Z.inj_mul, Z2N.id by lia.
  rewrite Zmult_mod_idemp_l. replace (u * Z.of_N e)%Z with (1 + (- v) * Z.of_N q)%Z by lia.
  rewrite Z_mod_plus_full. rewrite Z.mod_1_l by lia. reflexivity.
Qed.
Lemma mul_eq_O e a : q *. a = O -> e *. a = O -> e mod q <> 0 -> a = O.
Proof.
  intros Eq Ee He. destruct (inverse e He) as [d Hd]. rewrite <- (l_mul1 _ _ L a).
  pose proof q_pos. rewrite (mul_cong q a 1 (d * e)); [|exact Eq|lia|rewrite Hd; apply N.mod_1_l; lia].
  rewrite (l_mulmul _ _ L), Ee. apply mul_O.
Qed.
Lemma base_inj m n : m *. B = n *. B -> m mod q = n mod q.
Proof.
  intro E. pose proof q_pos as Hq. rewrite <- (mul_modB m), <- (mul_modB n) in E.
  assert (A : forall x y, x < q -> y < q -> x *. B = y *. B -> y <= x -> x = y).
  { intros x y Hx Hy Exy Hle. destruct (N.eq_dec (x - y) 0) as [|Hd]; [lia|]. exfalso. apply (l_base _ _ L). apply (mul_eq_O (x - y)).
    - apply (l_baseOrder _ _ L).
    - apply (cancel _ _ (y *. B)). rewrite <- (l_muladd _ _ L), add_O. replace (y + (x - y)) with x by lia. exact Exy.
    - rewrite N.mod_small by lia. exact Hd. }
  pose proof (N.mod_lt m q ltac:(lia)). pose proof (N.mod_lt n q ltac:(lia)).
  destruct (N.le_ge_cases (n mod q) (m mod q)); [|symmetry]; apply A; auto.
Qed.
Lemma cof_mod : cof mod q <> 0.
Proof.
  pose proof q_pos as Hq. intro E. apply (l_cof _ _ PO). apply N.mod_divide in E; [|lia]. destruct E as [k Hk]. exists (Z.of_N k). lia.
Qed.

(** Two answers for the same commitments give the secret key. *)
Lemma two_answers Y H Gamma U V c s c' s' : answers G Y H Gamma U V c s -> answers G Y H Gamma U V c' s' -> c mod q <> c' mod q -> rightPoint G cof Y H Gamma.
Proof.
  intros [A1 A2] [A1' A2'] Hc. pose proof q_pos as Hq. assert (Hcof : cof <> 0) by (intro E; apply cof_mod; rewrite E; apply N.mod_0_l; lia).
  set (n := cof * q). assert (Hn : n <> 0) by (unfold n; lia).
  assert (On : forall a, n *. a = O) by apply (l_order _ _ L).
  set (e := c + (n - c' mod n)). set (f := s + (n - s' mod n)).
  assert (D : forall x y a, (x + (n - y mod n)) *. a +. y *. a = x *. a).
  { intros x y a. rewrite <- (l_muladd _ _ L). apply (mul_cong n); [apply On|exact Hn|]. pose proof (N.mod_lt y n Hn). pose proof (N.div_mod y n Hn).
    replace (x + (n - y mod n) + y) with (x + (y / n + 1) * n) by lia. apply N.mod_add. exact Hn. }
  assert (S : forall W Z P, W +. c *. Z = s *. P -> W +. c' *. Z = s' *. P -> e *. Z = f *. P).
  { intros W Z P E1 E2. apply (cancel _ _ (W +. c' *. Z)). rewrite E2 at 2. rewrite (l_comm _ _ L (s' *. P)). unfold f. rewrite (D s s' P), <- E1.
    rewrite <- (l_assoc _ _ L). f_equal. rewrite (l_comm _ _ L). apply D. }
  assert (He : e mod q <> 0).
  { unfold e. intro E. apply Hc. apply N.mod_divide in E; [|lia]. destruct E as [k Hk]. pose proof (N.div_mod c' n Hn). pose proof (N.mod_lt c' n Hn).
    assert (X : c + (c' / n + 1) * cof * q = c' + k * q).
    { replace ((c' / n + 1) * cof * q) with (n * (c' / n) + n) by (unfold n; ring). clear - Hk H0 H1. lia. }
    rewrite <- (N.mod_add c ((c' / n + 1) * cof) q) by lia. rewrite X. apply N.mod_add. lia. }
  destruct (inverse e He) as [d Hd]. exists (d * f).
  assert (F : forall Z P, e *. Z = f *. P -> cof *. Z = d * f * cof *. P).
  { intros Z P E. rewrite (N.mul_comm (d * f)), (l_mulmul _ _ L cof), (l_mulmul _ _ L d), <- E, <- (l_mulmul _ _ L d).
    rewrite (mul_comm cof).
    assert (X : q *. (cof *. Z) = O) by (rewrite <- (l_mulmul _ _ L), (N.mul_comm q); apply (l_order _ _ L)).
    rewrite (mul_cong q (cof *. Z) (d * e) 1 X ltac:(lia)); [symmetry; apply (l_mul1 _ _ L)|]. rewrite Hd. symmetry. apply N.mod_1_l. lia. }
  split; apply F; [eapply S; eassumption|eapply S; eassumption].
Qed.

(** The right point is unique ... *)
Lemma right_unique Y H Gamma Gamma' : rightPoint G cof Y H Gamma -> rightPoint G cof Y H Gamma' -> cof *. Gamma = cof *. Gamma'.
Proof.
  intros (y & Ey & Eg) (y' & Ey' & Eg'). pose proof q_pos as Hq. rewrite Eg, Eg'. rewrite Ey in Ey'.
  apply base_inj in Ey'. assert (Xy : y mod q = y' mod q).
  { destruct (inverse cof cof_mod) as [d Hd].
    assert (Z : forall z, (z * cof * d) mod q = z mod q).
    { intro z. replace (z * cof * d) with (z * (d * cof)) by lia. rewrite <- N.mul_mod_idemp_r, Hd, N.mul_1_r by lia. reflexivity. }
    rewrite <- (Z y), <- (Z y'). rewrite <- N.mul_mod_idemp_l, Ey', N.mul_mod_idemp_l by lia. reflexivity. }
  rewrite !(l_mulmul _ _ L). apply (mul_cong q); [|lia|exact Xy]. rewrite <- (l_mulmul _ _ L), (N.mul_comm q). apply (l_order _ _ L).
Qed.
(** ... and it can be decided whether a point is the right one. *)
Lemma right_dec Y H Gamma : rightPoint G cof Y H Gamma \/ ~ rightPoint G cof Y H Gamma.
Proof.
  pose proof q_pos as Hq. destruct (l_cyclic _ _ PO Y) as [y0 Ey]. destruct (l_cyclic _ _ PO H) as [h Eh]. destruct (l_cyclic _ _ PO Gamma) as [g Eg].
  destruct (inverse cof cof_mod) as [d Hd].
  assert (Hy : cof *. Y = y0 * d * cof *. B).
  { rewrite Ey. apply (mul_cong q); [apply (l_baseOrder _ _ L)|lia|]. replace (y0 * d * cof) with (y0 * (d * cof)) by lia.
    rewrite <- N.mul_mod_idemp_r, Hd, N.mul_1_r by lia. reflexivity. }
  destruct (N.eq_dec (g mod q) ((y0 * d * h) mod q)) as [E|E].
  - left. exists (y0 * d). split; [exact Hy|]. rewrite (l_mulmul _ _ L (y0 * d)), Eh, <- (l_mulmul _ _ L), Eg. apply (mul_cong q); [apply (l_baseOrder _ _ L)|lia|exact E].
  - right. intros (y & Ey' & Eg'). apply E. apply base_inj. rewrite <- Eg, Eg', (l_mulmul _ _ L y), Eh, <- (l_mulmul _ _ L y).
    rewrite Hy in Ey'. apply base_inj in Ey'. apply (mul_cong q); [apply (l_baseOrder _ _ L)|lia|].
    assert (Z : forall z, (z * cof * d) mod q = z mod q).
    { intro z. replace (z * cof * d) with (z * (d * cof)) by lia. rewrite <- N.mul_mod_idemp_r, Hd, N.mul_1_r by lia. reflexivity. }
    assert (X : y mod q = (y0 * d) mod q).
    { rewrite <- (Z y), <- (Z (y0 * d)). rewrite <- N.mul_mod_idemp_l, <- Ey', N.mul_mod_idemp_l by lia. reflexivity. }
    rewrite <- N.mul_mod_idemp_l, X, N.mul_mod_idemp_l by lia. reflexivity.
Qed.
Lemma sound challenge Y H Gamma U V s : answers G Y H Gamma U V (challenge Y H Gamma U V) s ->
  rightPoint G cof Y H Gamma \/ guessed G challenge Y H Gamma.
Proof.
  intro A. destruct (right_dec Y H Gamma) as [R|R]; [left; exact R|right]. exists U, V, s. split; [exact A|]. intros c' s' A'.
  destruct (N.eq_dec (c' mod q) (challenge Y H Gamma U V mod q)) as [|Hc]; [assumption|]. exfalso. apply R. exact (two_answers _ _ _ _ _ _ _ _ _ A' A Hc).
Qed.

End Group.
