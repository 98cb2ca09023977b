(** Lemmas about Base.v *)
From Verif Require Import Base.
From Coq Require Import Permutation Sorted.

Lemma two64_eq : two64 = 2 ^ 64. Proof. reflexivity. Qed.
Lemma two32_eq : two32 = 2 ^ 32. Proof. reflexivity. Qed.

Lemma b2n_lt b : b2n b < 256.
Proof. destruct b; reflexivity. Qed.

Lemma b2n_n2b n : b2n (n2b n) = n mod 256.
Proof.
  unfold b2n, n2b.
  destruct (Byte.of_N (n mod 256)) eqn:E.
  - apply Byte.to_of_N in E. exact E.
  - apply Byte.of_N_None_iff in E. lia.
Qed.

Lemma n2b_b2n b : n2b (b2n b) = b.
Proof.
  unfold n2b, b2n. rewrite N.mod_small by apply b2n_lt.
  now rewrite Byte.of_to_N.
Qed.

Lemma b2n_inj a b : b2n a = b2n b -> a = b.
Proof. intro H. rewrite <- (n2b_b2n a), <- (n2b_b2n b). now rewrite H. Qed.

Lemma byte_eqb_spec (a b : byte) : Byte.eqb a b = true <-> a = b.
Proof.
  split.
  - apply Byte.byte_dec_bl.
  - intros ->. apply Byte.byte_dec_lb. reflexivity.
Qed.

Lemma bytes_eqb_eq a b : bytes_eqb a b = true <-> a = b.
Proof.
  revert b; induction a as [|x a IH]; destruct b as [|y b]; cbn [bytes_eqb]; try (split; congruence).
  rewrite andb_true_iff, byte_eqb_spec, IH. split.
  - intros [-> ->]; reflexivity.
  - injection 1; auto.
Qed.

Lemma bytes_eqb_refl a : bytes_eqb a a = true.
Proof. now apply bytes_eqb_eq. Qed.

Lemma bytes_eqb_neq a b : bytes_eqb a b = false <-> a <> b.
Proof.
  rewrite <- not_true_iff_false, bytes_eqb_eq. reflexivity.
Qed.

Lemma bytes_eq_dec (a b : bytes) : {a = b} + {a <> b}.
Proof.
  destruct (bytes_eqb a b) eqn:E.
  - left. now apply bytes_eqb_eq.
  - right. now apply bytes_eqb_neq.
Qed.

Lemma bytes_cmp_eq a b : bytes_cmp a b = Eq <-> a = b.
Proof.
  revert b; induction a as [|x a IH]; destruct b as [|y b]; cbn [bytes_cmp]; try (split; congruence).
  destruct (N.compare_spec (b2n x) (b2n y)) as [E|E|E].
  - apply b2n_inj in E as ->. rewrite IH. split; [intros ->; auto | injection 1; auto].
  - split; [congruence|]. injection 1; intros; subst; lia.
  - split; [congruence|]. injection 1; intros; subst; lia.
Qed.

Lemma bytes_cmp_refl a : bytes_cmp a a = Eq.
Proof. now apply bytes_cmp_eq. Qed.

Lemma bytes_cmp_antisym a b : bytes_cmp b a = CompOpp (bytes_cmp a b).
Proof.
  revert b; induction a as [|x a IH]; destruct b as [|y b]; cbn [bytes_cmp]; try reflexivity.
  rewrite (N.compare_antisym (b2n x) (b2n y)).
  destruct (b2n x ?= b2n y); cbn [CompOpp]; auto.
Qed.

Lemma bytes_cmp_lt_trans a b c :
  bytes_cmp a b = Lt -> bytes_cmp b c = Lt -> bytes_cmp a c = Lt.
Proof.
  revert b c; induction a as [|x a IH]; destruct b as [|y b]; destruct c as [|z c];
    cbn [bytes_cmp]; try congruence.
  destruct (N.compare_spec (b2n x) (b2n y)) as [E|E|E];
  destruct (N.compare_spec (b2n y) (b2n z)) as [F|F|F]; try congruence; intros H1 H2.
  - replace (b2n x ?= b2n z) with Eq by (symmetry; apply N.compare_eq_iff; lia). eauto.
  - replace (b2n x ?= b2n z) with Lt by (symmetry; apply N.compare_lt_iff; lia). auto.
  - replace (b2n x ?= b2n z) with Lt by (symmetry; apply N.compare_lt_iff; lia). auto.
  - replace (b2n x ?= b2n z) with Lt by (symmetry; apply N.compare_lt_iff; lia). auto.
Qed.

Lemma be_length k x : List.length (be k x) = k.
Proof. revert x; induction k; cbn [be List.length]; auto. Qed.

Lemma unbe_app l1 l2 : unbe (l1 ++ l2) = unbe l1 * 256 ^ lenN l2 + unbe l2.
Proof.
  unfold unbe, lenN.
  assert (G : forall l acc, fold_left (fun acc b => acc * 256 + b2n b) l acc
              = acc * 256 ^ N.of_nat (List.length l)
                + fold_left (fun acc b => acc * 256 + b2n b) l 0).
  { induction l as [|b l IH]; intro acc.
    - cbn. lia.
    - cbn [fold_left List.length].
      rewrite (IH (acc * 256 + b2n b)), (IH (0 * 256 + b2n b)).
      rewrite Nat2N.inj_succ, N.pow_succ_r'. lia. }
  rewrite fold_left_app, G. reflexivity.
Qed.

Lemma unbe_cons b l : unbe (b :: l) = b2n b * 256 ^ lenN l + unbe l.
Proof. change (b :: l) with ([b] ++ l). rewrite unbe_app. reflexivity. Qed.

Lemma unbe_lt l : unbe l < 256 ^ lenN l.
Proof.
  induction l as [|b l IH]; [reflexivity|].
  rewrite unbe_cons. unfold lenN in *. cbn [List.length].
  rewrite Nat2N.inj_succ, N.pow_succ_r'. pose proof (b2n_lt b). nia.
Qed.

Lemma unbe_be_mod k x : unbe (be k x) = x mod 256 ^ N.of_nat k.
Proof.
  induction k as [|k IH].
  - cbn. now rewrite N.mod_1_r.
  - cbn [be]. rewrite unbe_cons, IH. unfold lenN. rewrite be_length, b2n_n2b.
    rewrite N.shiftr_div_pow2, N.pow_mul_r. change (2 ^ 8) with 256.
    rewrite Nat2N.inj_succ, N.pow_succ_r'.
    set (m := 256 ^ N.of_nat k).
    assert (m <> 0) by (unfold m; apply N.pow_nonzero; lia).
    rewrite (N.mul_comm 256 m), N.mod_mul_r by lia. lia.
Qed.

Lemma unbe_be k x : x < 256 ^ N.of_nat k -> unbe (be k x) = x.
Proof. intro H. rewrite unbe_be_mod. now apply N.mod_small. Qed.

Lemma be_unbe l : be (List.length l) (unbe l) = l.
Proof.
  induction l as [|b l IH]; [reflexivity|].
  cbn [List.length be].
  assert (G : forall k a c, be k (a * 256 ^ N.of_nat k + c) = be k c).
  { clear. induction k as [|k IH]; intros a c; [reflexivity|].
    cbn [be]. f_equal.
    - apply b2n_inj. rewrite !b2n_n2b, !N.shiftr_div_pow2, !N.pow_mul_r.
      change (2 ^ 8) with 256. rewrite Nat2N.inj_succ, N.pow_succ_r'.
      set (m := 256 ^ N.of_nat k).
      assert (m <> 0) by (unfold m; apply N.pow_nonzero; lia).
      replace (a * (256 * m) + c) with (c + (a * 256) * m) by lia.
      rewrite N.div_add by lia. rewrite <- N.add_mod_idemp_r by lia.
      rewrite N.mod_mul by lia. now rewrite N.add_0_r.
    - rewrite Nat2N.inj_succ, N.pow_succ_r'.
      replace (a * (256 * 256 ^ N.of_nat k) + c) with ((a*256) * 256 ^ N.of_nat k + c) by lia.
      apply IH. }
  rewrite unbe_cons. f_equal.
  - apply b2n_inj. rewrite b2n_n2b, N.shiftr_div_pow2, N.pow_mul_r.
    change (2 ^ 8) with 256. fold (lenN l).
    pose proof (unbe_lt l). pose proof (b2n_lt b).
    assert (256 ^ lenN l <> 0) by (apply N.pow_nonzero; lia).
    rewrite N.div_add_l, N.div_small by lia. rewrite N.add_0_r. now apply N.mod_small.
  - unfold lenN. rewrite G. exact IH.
Qed.

Lemma be_inj k x y : x < 256 ^ N.of_nat k -> y < 256 ^ N.of_nat k -> be k x = be k y -> x = y.
Proof. intros Hx Hy E. rewrite <- (unbe_be k x), <- (unbe_be k y); congruence. Qed.

Lemma bind_ok {A B} (x : res A) (f : A -> res B) b :
  bind x f = Ok b <-> exists a, x = Ok a /\ f a = Ok b.
Proof.
  destruct x; cbn [bind]; split; try congruence; eauto.
  - intros (a' & E & ?); congruence.
  - intros (a' & E & ?); congruence.
  - intros (a' & E & ?); congruence.
  - intros (a' & E & ?); congruence.
Qed.

Lemma mget_mput_eq {A} (m : list (N * A)) k v : mget (mput m k v) k = Some v.
Proof. unfold mput; cbn [mget]. now rewrite N.eqb_refl. Qed.

Lemma mget_mput_neq {A} (m : list (N * A)) k k' v : k <> k' -> mget (mput m k v) k' = mget m k'.
Proof. intro H. unfold mput; cbn [mget]. destruct (N.eqb_spec k' k); congruence. Qed.

Lemma mget_In {A} (m : list (N * A)) k v : mget m k = Some v -> In (k, v) m.
Proof.
  induction m as [|[k' v'] m IH]; cbn [mget]; [congruence|].
  destruct (N.eqb_spec k k'); intro H.
  - left. congruence.
  - right. auto.
Qed.

Lemma mget_None {A} (m : list (N * A)) k : mget m k = None <-> ~ In k (map fst m).
Proof.
  induction m as [|[k' v'] m IH]; cbn [mget map fst]; [split; auto|].
  destruct (N.eqb_spec k k') as [->|Hne].
  - split; [congruence|]. intro H. exfalso. apply H. now left.
  - rewrite IH. split; intros H; [intros [E|I]; [congruence|auto] | intro I; apply H; now right].
Qed.

Lemma In_mget {A} (m : list (N * A)) k v :
  NoDup (map fst m) -> In (k, v) m -> mget m k = Some v.
Proof.
  induction m as [|[k' v'] m IH]; cbn [mget map fst In]; [tauto|].
  intros ND [E|I].
  - injection E as -> ->. now rewrite N.eqb_refl.
  - inversion_clear ND as [|? ? Hn ND']. destruct (N.eqb_spec k k') as [->|Hne]; auto.
    exfalso. apply Hn. now apply (in_map fst) in I.
Qed.

(** ** Sorting *)

Lemma ninsert_perm x l : Permutation (ninsert x l) (x :: l).
Proof.
  induction l as [|y t IH]; cbn [ninsert]; [reflexivity|].
  destruct (x <=? y); [reflexivity|]. rewrite IH. apply perm_swap.
Qed.

Lemma nsort_perm l : Permutation (nsort l) l.
Proof.
  induction l as [|x t IH]; cbn [nsort fold_right]; [reflexivity|].
  rewrite ninsert_perm. now constructor.
Qed.

Lemma ninsert_sorted x l : StronglySorted N.le l -> StronglySorted N.le (ninsert x l).
Proof.
  induction l as [|y t IH]; cbn [ninsert]; intro S.
  - repeat constructor.
  - destruct (N.leb_spec x y).
    + constructor; auto. constructor; auto. apply StronglySorted_inv in S as [_ F].
      eapply Forall_impl; [|exact F]. cbn. lia.
    + apply StronglySorted_inv in S as [S F]. constructor; auto.
      apply Forall_forall. intros z Hz. apply (Permutation_in _ (ninsert_perm x t)) in Hz.
      destruct Hz as [<-|Hz]; [lia|]. rewrite Forall_forall in F. auto.
Qed.

Lemma nsort_sorted l : StronglySorted N.le (nsort l).
Proof.
  induction l as [|x t IH]; cbn [nsort fold_right]; [constructor|]. now apply ninsert_sorted.
Qed.

Lemma app_eq_length_inv {A} (a b c d : list A) :
  List.length a = List.length c -> a ++ b = c ++ d -> a = c /\ b = d.
Proof.
  revert c; induction a as [|x a IH]; destruct c as [|y c]; cbn; try discriminate; auto.
  intros L E. injection L as L. injection E as -> E. destruct (IH c L E) as [-> ->]. auto.
Qed.
