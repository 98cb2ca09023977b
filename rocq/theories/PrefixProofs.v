(** Lemmas: bits, sorting, splitting by a bit. *)
From Verif Require Import Base BaseProofs LogTreeSpec PrefixModel PrefixSpec.
From Coq Require Import Sorting.Permutation Sorting.Sorted.

Notation len := (@List.length _).

Lemma bits_len v : List.length (bits v) = (8 * List.length v)%nat.
Proof. induction v as [|b v IH]; [reflexivity|]. change (bits (b :: v)) with (byteBits b ++ bits v).
  rewrite app_length, IH. change (List.length (byteBits b)) with 8%nat. cbn [List.length]. lia. Qed.

Lemma getBit_bits v i : getBit v i = match nth_error (bits v) i with Some b => Ok b | None => Panic "index out of range" end.
Proof.
  revert i. induction v as [|b v IH]; intros i.
  - unfold getBit. destruct (i / 8)%nat; destruct i; reflexivity.
  - change (bits (b :: v)) with (byteBits b ++ bits v).
    destruct (Nat.lt_ge_cases i 8) as [L|L].
    + rewrite nth_error_app1 by (change (List.length (byteBits b)) with 8%nat; lia).
      unfold getBit. rewrite Nat.div_small by lia. rewrite Nat.mod_small by lia.
      do 8 (destruct i as [|i]; [reflexivity|]). lia.
    + rewrite nth_error_app2 by (change (List.length (byteBits b)) with 8%nat; lia).
      change (List.length (byteBits b)) with 8%nat.
      rewrite <- IH. unfold getBit.
      assert (E1 : (i / 8 = S ((i - 8) / 8))%nat).
      { replace i with (i - 8 + 1 * 8)%nat at 1 by lia. rewrite Nat.div_add by lia. lia. }
      assert (E2 : (i mod 8 = (i - 8) mod 8)%nat).
      { replace i with (i - 8 + 1 * 8)%nat at 1 by lia. rewrite Nat.mod_add by lia. reflexivity. }
      rewrite E1, E2. reflexivity.
Qed.

Lemma bits_app a b : bits (a ++ b) = bits a ++ bits b.
Proof. apply flat_map_app. Qed.

Lemma byteBits_inj a b : byteBits a = byteBits b -> a = b.
Proof.
  intros E. apply b2n_inj. unfold byteBits in E. cbn [map] in E. injection E as E7 E6 E5 E4 E3 E2 E1 E0.
  apply N.bits_inj. intro i.
  destruct (N.lt_ge_cases i 8) as [L|L].
  - assert (C : i = 0 \/ i = 1 \/ i = 2 \/ i = 3 \/ i = 4 \/ i = 5 \/ i = 6 \/ i = 7) by lia.
    destruct C as [->|[->|[->|[->|[->|[->|[->| ->]]]]]]]; assumption.
  - assert (B : forall x, b2n x < 2 ^ i).
    { intro x. pose proof (b2n_lt x). assert (2 ^ 8 <= 2 ^ i) by (apply N.pow_le_mono_r; lia).
      change (2 ^ 8) with 256 in H0. lia. }
    assert (Z : forall x, N.testbit (b2n x) i = false).
    { intro x. destruct (N.eq_dec (b2n x) 0) as [e|e]; [rewrite e; apply N.bits_0|].
      apply N.bits_above_log2. apply N.log2_lt_pow2; [lia|apply B]. }
    rewrite !Z. reflexivity.
Qed.

Lemma bits_inj a b : bits a = bits b -> a = b.
Proof.
  revert b. induction a as [|x a IH]; intros [|y b] E; auto.
  - apply (f_equal (@List.length bool)) in E. rewrite !bits_len in E. cbn [List.length] in E. lia.
  - apply (f_equal (@List.length bool)) in E. rewrite !bits_len in E. cbn [List.length] in E. lia.
  - change (byteBits x ++ bits a = byteBits y ++ bits b) in E.
    apply app_eq_length_inv in E; [|reflexivity]. destruct E as [E1 E2].
    apply byteBits_inj in E1. apply IH in E2. congruence.
Qed.

(** Lexicographic order on bits. *)
Fixpoint lexle (a b : list bool) : bool :=
  match a, b with
  | [], _ => true
  | _ :: _, [] => false
  | x :: a', y :: b' => if Bool.eqb x y then lexle a' b' else y
  end.

Fixpoint lexcmp (a b : list bool) : comparison :=
  match a, b with
  | [], [] => Eq
  | [], _ => Lt
  | _, [] => Gt
  | x :: a', y :: b' => if Bool.eqb x y then lexcmp a' b' else if y then Lt else Gt
  end.

Definition allBytes : list byte := map (fun i => n2b (N.of_nat i)) (seq 0 256).

Lemma allBytes_In b : In b allBytes.
Proof.
  unfold allBytes. apply in_map_iff. exists (N.to_nat (b2n b)). rewrite N2Nat.id. split; [apply n2b_b2n|].
  apply in_seq. pose proof (b2n_lt b). lia.
Qed.

Definition cmpEqb (a b : comparison) : bool :=
  match a, b with Eq, Eq | Lt, Lt | Gt, Gt => true | _, _ => false end.

Lemma byteCmp_all : forallb (fun x => forallb (fun y => cmpEqb (N.compare (b2n x) (b2n y)) (lexcmp (byteBits x) (byteBits y))) allBytes) allBytes = true.
Proof. vm_compute. reflexivity. Qed.

Lemma byteCmp x y : N.compare (b2n x) (b2n y) = lexcmp (byteBits x) (byteBits y).
Proof.
  pose proof byteCmp_all as A. rewrite forallb_forall in A. specialize (A x (allBytes_In x)).
  cbv beta in A. rewrite forallb_forall in A. specialize (A y (allBytes_In y)). cbv beta in A.
  destruct (b2n x ?= b2n y), (lexcmp (byteBits x) (byteBits y)); try reflexivity; discriminate A.
Qed.

Lemma lexcmp_app a b c d : List.length a = List.length b ->
  lexcmp (a ++ c) (b ++ d) = match lexcmp a b with Eq => lexcmp c d | x => x end.
Proof.
  revert b. induction a as [|x a IH]; intros [|y b] L; try discriminate L; [reflexivity|].
  cbn [app lexcmp]. destruct (Bool.eqb x y); [apply IH; injection L; auto|]. destruct y; reflexivity.
Qed.

Lemma bytes_cmp_bits a b : bytes_cmp a b = lexcmp (bits a) (bits b).
Proof.
  revert b. induction a as [|x a IH]; intros [|y b]; try reflexivity.
  cbn [bytes_cmp]. change (bits (x :: a)) with (byteBits x ++ bits a). change (bits (y :: b)) with (byteBits y ++ bits b).
  rewrite lexcmp_app by reflexivity. rewrite byteCmp, IH. reflexivity.
Qed.

(** Two keys sharing the first [d] bits, in order: the bits at [d] are in order. *)
Lemma lexcmp_bit p a b x y : lexcmp (p ++ x :: a) (p ++ y :: b) <> Gt -> x = true -> y = true.
Proof.
  rewrite lexcmp_app by reflexivity.
  assert (E : lexcmp p p = Eq). { induction p as [|z p IH]; [reflexivity|]. cbn. destruct z; cbn; auto. }
  rewrite E. intros L ->. destruct y; [reflexivity|]. cbn in L. congruence.
Qed.

(** ** Prefixes *)

Lemma prefixOf_len p l : prefixOf p l -> (List.length p <= List.length l)%nat.
Proof. intros [q ->]. rewrite app_length. lia. Qed.

Lemma prefixOf_nil l : prefixOf [] l.
Proof. exists l. reflexivity. Qed.

Lemma prefixOf_firstn p l : prefixOf p l -> p = firstn (List.length p) l.
Proof. intros [q ->]. rewrite firstn_app, Nat.sub_diag, firstn_all. cbn. rewrite app_nil_r. reflexivity. Qed.

Lemma prefixOf_bit p l : prefixOf p l -> (List.length p < List.length l)%nat ->
  exists b, nth_error l (List.length p) = Some b /\ prefixOf (p ++ [b]) l /\ forall b', prefixOf (p ++ [b']) l -> b' = b.
Proof.
  intros [q ->] L. rewrite app_length in L. destruct q as [|b q]; [cbn in L; lia|].
  exists b. split; [rewrite nth_error_app2, Nat.sub_diag by lia; reflexivity|]. split.
  - exists q. rewrite <- app_assoc. reflexivity.
  - intros b' [q' E]. rewrite <- app_assoc in E. apply app_inv_head in E. injection E. auto.
Qed.

Lemma prefixOf_shorter p b l : prefixOf (p ++ [b]) l -> prefixOf p l.
Proof. intros [q ->]. exists (b :: q). rewrite <- app_assoc. reflexivity. Qed.

Lemma prefixOf_next p b l : prefixOf (p ++ [b]) l -> nth_error l (List.length p) = Some b.
Proof. intros [q ->]. rewrite <- app_assoc. rewrite nth_error_app2, Nat.sub_diag by lia. reflexivity. Qed.

Lemma prefixOf_same_len p q l : prefixOf p l -> prefixOf q l -> List.length p = List.length q -> p = q.
Proof. intros A B E. rewrite (prefixOf_firstn _ _ A), (prefixOf_firstn _ _ B), E. reflexivity. Qed.

(** ** Sorting *)

Section Sort.
Context {A : Type} (key : A -> bytes).

Definition kle (x y : A) : Prop := bytes_cmp (key x) (key y) <> Gt.

Lemma kinsert_perm x l : Permutation (kinsert key x l) (x :: l).
Proof.
  induction l as [|y l IH]; [reflexivity|]. cbn. destruct (bytes_cmp (key x) (key y)); try reflexivity.
  rewrite IH. apply perm_swap.
Qed.

Lemma ksort_perm l : Permutation (ksort key l) l.
Proof. induction l as [|y l IH]; [reflexivity|]. cbn. rewrite kinsert_perm, IH. reflexivity. Qed.

Lemma kle_trans x y z : kle x y -> kle y z -> kle x z.
Proof.
  unfold kle. intros A1 A2.
  destruct (bytes_cmp (key x) (key y)) eqn:E1; try congruence.
  - apply bytes_cmp_eq in E1. rewrite E1. exact A2.
  - destruct (bytes_cmp (key y) (key z)) eqn:E2; try congruence.
    + apply bytes_cmp_eq in E2. rewrite <- E2. congruence.
    + rewrite (bytes_cmp_lt_trans _ _ _ E1 E2). congruence.
Qed.

Lemma kinsert_sorted x l : StronglySorted kle l -> StronglySorted kle (kinsert key x l).
Proof.
  induction 1 as [|y l S IH F]; [repeat constructor|]. cbn.
  destruct (bytes_cmp (key x) (key y)) eqn:E.
  1,2: (constructor; [constructor; assumption|]; constructor; [unfold kle; congruence|];
    rewrite Forall_forall in *; intros z Hz; apply kle_trans with y; [unfold kle; congruence|auto]).
  constructor; [assumption|]. rewrite Forall_forall in *. intros z Hz.
  apply (Permutation_in z (kinsert_perm x l)) in Hz. destruct Hz as [<-|Hz]; [|auto].
  unfold kle. rewrite bytes_cmp_antisym, E. cbn. congruence.
Qed.

Lemma ksort_sorted l : StronglySorted kle (ksort key l).
Proof. induction l as [|x l IH]; [constructor|]. apply kinsert_sorted. exact IH. Qed.

Lemma ksort_In x l : In x (ksort key l) <-> In x l.
Proof. split; apply Permutation_in; [|apply Permutation_sym]; apply ksort_perm. Qed.

End Sort.

Lemma kle_antisym {A} (key : A -> bytes) x y : kle key x y -> kle key y x -> key x = key y.
Proof.
  unfold kle. intros A1 A2. rewrite bytes_cmp_antisym in A2.
  destruct (bytes_cmp (key x) (key y)) eqn:E; cbn in *; try congruence. apply bytes_cmp_eq. exact E.
Qed.

Lemma dupAdjacent_sorted l : StronglySorted (kle (fun x : bytes => x)) l -> dupAdjacent l = false <-> NoDup l.
Proof.
  induction 1 as [|x l S IH F]; [split; [constructor|reflexivity]|].
  destruct l as [|y l].
  - split; [intros _; constructor; [auto|constructor]|reflexivity].
  - cbn [dupAdjacent]. rewrite orb_false_iff, IH, bytes_eqb_neq. split.
    + intros [N D]. constructor; [|exact D]. intros I. apply N.
      inversion F as [|? ? F1 F2]; subst. inversion S as [|? ? S1 S2]; subst.
      destruct I as [->|I]; [reflexivity|].
      rewrite Forall_forall in S2. apply (kle_antisym (fun x : bytes => x)); [exact F1|]. apply S2. exact I.
    + intros D. inversion D; subst. split; [|assumption]. intros ->. apply H1. left. reflexivity.
Qed.

Lemma sorted_map_key {A} (key : A -> bytes) l : StronglySorted (kle key) l -> StronglySorted (kle (fun x => x)) (map key l).
Proof.
  induction 1 as [|x l S IH F]; [constructor|]. cbn. constructor; [exact IH|].
  rewrite Forall_forall in *. intros y I. apply in_map_iff in I. destruct I as [z [<- I]]. apply (F z I).
Qed.

Lemma sorted_filter {A} (R : A -> A -> Prop) g l : StronglySorted R l -> StronglySorted R (filter g l).
Proof.
  induction 1 as [|x l S IH F]; [constructor|]. cbn. destruct (g x); [|exact IH]. constructor; [exact IH|].
  rewrite Forall_forall in *. intros y I. apply filter_In in I. apply F. tauto.
Qed.

(** ** Binary search on a partitioned list *)

Section Split.
Context {A : Type} (key : A -> bytes) (d : nat).

Definition bitOf (a : A) : bool := bitAt (key a) d.

Lemma binSearch_ok l k : forall fuel i j,
  (forall a, In a l -> getBit (key a) d = Ok (bitOf a)) ->
  (forall m a, nth_error l m = Some a -> bitOf a = negb (Nat.ltb m k)) ->
  (i <= k <= j)%nat -> (j <= List.length l)%nat -> (j - i < fuel)%nat ->
  binSearch fuel key l d i j = Ok k.
Proof.
  intro fuel. induction fuel as [|f IH]; intros i j G P B L F; [lia|]. cbn [binSearch].
  destruct (Nat.ltb i j) eqn:E; [apply Nat.ltb_lt in E|apply Nat.ltb_ge in E; f_equal; lia].
  set (h := ((i + j) / 2)%nat). assert (Hh : (i <= h < j)%nat).
  { unfold h. split; [apply Nat.div_le_lower_bound; lia|apply Nat.div_lt_upper_bound; lia]. }
  destruct (nth_error l h) as [a|] eqn:N.
  - rewrite (G a (nth_error_In _ _ N)). cbn [bind]. rewrite (P h a N).
    destruct (Nat.ltb h k) eqn:K; [apply Nat.ltb_lt in K|apply Nat.ltb_ge in K]; cbn [negb];
      apply IH; auto; lia.
  - exfalso. apply nth_error_None in N. lia.
Qed.

(** A list in which elements with the bit clear come first. *)
Lemma partitioned l : (forall x y l1 l2 l3, l = l1 ++ x :: l2 ++ y :: l3 -> bitOf x = true -> bitOf y = true) ->
  exists k, (k <= List.length l)%nat /\ firstn k l = filter (fun a => negb (bitOf a)) l /\
    skipn k l = filter bitOf l /\ forall m a, nth_error l m = Some a -> bitOf a = negb (Nat.ltb m k).
Proof.
  induction l as [|x l IH]; intros P.
  - exists 0%nat. repeat split; auto. intros [|m] a E; discriminate E.
  - destruct (bitOf x) eqn:E.
    + assert (All : forall y, In y l -> bitOf y = true).
      { intros y I. apply in_split in I. destruct I as [l2 [l3 ->]]. apply (P x y [] l2 l3); auto. }
      exists 0%nat. split; [lia|].
      assert (F1 : filter bitOf l = l).
      { clear -All. induction l as [|z l IH]; [reflexivity|]. cbn. rewrite (All z (or_introl eq_refl)), IH; [reflexivity|intros; apply All; right; assumption]. }
      assert (F0 : filter (fun a => negb (bitOf a)) l = []).
      { clear -All. induction l as [|z l IH]; [reflexivity|]. cbn. rewrite (All z (or_introl eq_refl)). cbn. apply IH. intros; apply All; right; assumption. }
      cbn [firstn skipn filter]. rewrite E. cbn [negb]. rewrite F0, F1. repeat split; auto.
      intros m a N. apply nth_error_In in N. destruct N as [<-|N]; [rewrite E|rewrite (All _ N)]; reflexivity.
    + destruct IH as [k [K1 [K2 [K3 K4]]]].
      { intros y z l1 l2 l3 -> . apply (P y z (x :: l1) l2 l3). reflexivity. }
      exists (S k). split; [cbn; lia|]. cbn [firstn skipn filter]. rewrite E. cbn [negb]. rewrite K2, K3.
      repeat split; auto. intros [|m] a N; [injection N as <-; rewrite E; reflexivity|].
      rewrite (K4 m a N). reflexivity.
Qed.

Lemma StronglySorted_mid {B} (R : B -> B -> Prop) l x l1 l2 y l3 :
  StronglySorted R l -> l = l1 ++ x :: l2 ++ y :: l3 -> R x y.
Proof.
  intros S ->. induction l1 as [|z l1 IH]; cbn in S; inversion S as [|? ? S1 F]; subst; [|auto].
  rewrite Forall_forall in F. apply F. apply in_or_app. right. left. reflexivity.
Qed.

Lemma getBit_bitAt k i : (i < 8 * List.length k)%nat -> getBit k i = Ok (bitAt k i).
Proof.
  intros L. rewrite getBit_bits. unfold bitAt. rewrite (nth_error_nth' _ false) by (rewrite bits_len; lia). reflexivity.
Qed.

Lemma splitAt_ok (p : list bool) (l : list A) : List.length p = d ->
  StronglySorted (kle key) l ->
  Forall (fun a => prefixOf p (bits (key a)) /\ (d < 8 * List.length (key a))%nat) l ->
  splitAt key l d = Ok (filter (fun a => negb (bitOf a)) l, filter bitOf l).
Proof.
  intros Lp S F. rewrite Forall_forall in F.
  destruct (partitioned l) as [k [K1 [K2 [K3 K4]]]].
  { intros x y l1 l2 l3 E Bx. pose proof (StronglySorted_mid _ _ _ _ _ _ _ S E) as R.
    assert (Ix : In x l) by (rewrite E; apply in_or_app; right; left; reflexivity).
    assert (Iy : In y l) by (rewrite E; apply in_or_app; right; right; apply in_or_app; right; left; reflexivity).
    destruct (F x Ix) as [[qx Ex] Lx]. destruct (F y Iy) as [[qy Ey] Ly].
    unfold kle in R. rewrite bytes_cmp_bits in R.
    assert (B : forall z q, bits (key z) = p ++ q -> bitOf z = nth 0 q false).
    { intros z q E'. unfold bitOf, bitAt. rewrite E'. rewrite app_nth2 by lia. f_equal. lia. }
    pose proof (bits_len (key x)) as Bl. pose proof (bits_len (key y)) as Bl'.
    rewrite Ex in R, Bl. rewrite Ey in R, Bl'. rewrite app_length in Bl, Bl'.
    destruct qx as [|bx qx]; [cbn in Bl; lia|]. destruct qy as [|by_ qy]; [cbn in Bl'; lia|].
    rewrite (B _ _ Ey). rewrite (B _ _ Ex) in Bx. cbn in *. apply (lexcmp_bit _ _ _ _ _ R Bx). }
  unfold splitAt. rewrite (binSearch_ok l k); [cbn [bind]; rewrite K2, K3; reflexivity| |exact K4|lia|lia|lia].
  intros a I. apply getBit_bitAt. apply F. exact I.
Qed.

End Split.

Lemma prefix_bit_step p k : prefixOf p (bits k) -> (List.length p < 8 * List.length k)%nat ->
  prefixOf (p ++ [bitAt k (List.length p)]) (bits k).
Proof.
  intros P L. destruct (prefixOf_bit p (bits k) P) as [b [N [Q _]]]; [rewrite bits_len; lia|].
  unfold bitAt. rewrite (nth_error_nth _ _ _ N). exact Q.
Qed.

Lemma prefix_bit_inv p b k : prefixOf (p ++ [b]) (bits k) -> bitAt k (List.length p) = b.
Proof. intros P. unfold bitAt. apply nth_error_nth. apply (prefixOf_next _ _ _ P). Qed.
