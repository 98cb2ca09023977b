(** Assembly of C09-C11. *)
From Coq Require Import Sorted.
From Verif Require Import Base BaseProofs LogMathModel TransMathModel NodeMathProofs LogMathProofs TransMathSpec TransMathProofs.

Lemma lt64_le n : n < 2 ^ 64 <-> n <= two64 - 1.
Proof. rewrite <- two64_eq. unfold two64. lia. Qed.

Lemma c09_entries n : 1 <= n < 2 ^ 64 ->
  troot n = sroot 0 n /\
  (forall x, x < n -> exists a len, SRange n a len /\ sroot a len = x) /\
  (forall a len a' len', SRange n a len -> SRange n a' len' ->
     sroot a len = sroot a' len' -> a = a' /\ len = len') /\
  (forall a len, SRange n a len -> 1 <= len /\ a <= sroot a len < a + len /\ a + len <= n).
Proof.
  intros [H1 H2]. apply lt64_le in H2. assert (Hn : 1 <= n <= two64 - 1) by auto.
  split; [|split; [|split]].
  - pose proof (scov_root n Hn) as S. pose proof (scov_sroot n _ _ _ H2 S) as (E & _).
    now rewrite N.sub_0_r in E.
  - intros x Hx. now apply SRange_ex.
  - intros a len a' len' R R' E. eapply SRange_unique; eauto.
  - intros a len R. pose proof (SRange_pos n a len H1 R). pose proof (SRange_scov n a len Hn R) as S.
    pose proof (scov_sroot n _ _ _ H2 S). unfold scov in S. lia.
Qed.

Lemma c09_nav n a len : 1 <= n < 2 ^ 64 -> SRange n a len ->
  let x := sroot a len in
  (isLeaf x = true <-> a = x) /\
  (isLeaf x || (x =? sub64 n 1) = true <-> a + len = x + 1) /\
  (a < x -> tleft x = Ok (sroot a (lsize len)) /\ tparent (sroot a (lsize len)) n = Ok x) /\
  (x + 1 < a + len ->
     tright x n = Ok (sroot (x + 1) (len - lsize len - 1)) /\
     tparent (sroot (x + 1) (len - lsize len - 1)) n = Ok x).
Proof.
  intros [H1 H2] R x. apply lt64_le in H2. assert (Hn : 1 <= n <= two64 - 1) by auto.
  pose proof (SRange_scov n a len Hn R) as S. fold x in S.
  split; [eapply scov_leaf; eauto|]. split; [eapply scov_noright; eauto|]. split.
  - intro Ha. destruct (scov_left n x _ _ H2 S Ha) as (l & E & S' & _).
    pose proof (scov_sroot n _ _ _ H2 S') as (E' & _).
    replace (x - a) with (lsize len) in E' by (unfold x, sroot; lia).
    rewrite <- E'. split; [auto|]. unfold tparent. apply left_parent; auto. apply S.
  - intro Ha. destruct (scov_right n x _ _ H2 S Ha) as (l & E & S' & _).
    pose proof (scov_sroot n _ _ _ H2 S') as (E' & _).
    replace (a + len - (x + 1)) with (len - lsize len - 1) in E' by (unfold x, sroot; lia).
    rewrite <- E'. split; [auto|]. unfold tparent. apply right_parent; auto.
    unfold scov in S. lia.
Qed.

Lemma c09_reaches n t : 1 <= n < 2 ^ 64 -> t < n -> reaches n (troot n) t.
Proof.
  intros [H1 H2] Ht. apply lt64_le in H2. apply (reaches_scov n _ 0 n); auto; [|lia].
  apply scov_root. auto.
Qed.

Lemma c10_frontier n : 1 <= n < 2 ^ 64 -> exists l, frontier n = Ok l /\ SFront 0 n l.
Proof.
  intros [H1 H2]. apply lt64_le in H2. destruct (frontier_spec n) as (l & E & F & _); [auto|].
  eauto.
Qed.

Lemma c10_refuted :
  exists m n old new list e, m <= n /\ frontier m = Ok old /\ frontier n = Ok new /\
    updateViewPath n (Some m) = Ok list /\ In e new /\ ~ In e old /\ ~ In e list.
Proof.
  exists 4, 7, [3], [3; 5; 6], [], 5. split; [discriminate|].
  split; [reflexivity|]. split; [reflexivity|]. split; [reflexivity|].
  split; [cbn; auto|]. split; [intros [H|[]]; discriminate|intros []].
Qed.

Lemma c10_partial n m : 1 <= m <= n -> n < 2 ^ 64 ->
  exists old new list,
    frontier m = Ok old /\ frontier n = Ok new /\ updateViewPath n (Some m) = Ok list /\
    Forall (fun e => m <= e < n) list /\ StronglySorted N.lt list /\
    (list = [] <-> m = n \/ In (m - 1) new) /\
    (m = n \/ list <> [] -> forall e, In e new -> In e old \/ In e list) /\
    (forall e, In e new -> e < m -> In e old).
Proof.
  intros Hm H2. apply lt64_le in H2.
  destruct (frontier_spec m) as (old & Eo & _ & Mo & _); [lia|].
  destruct (frontier_spec n) as (new & En & _ & Mn & _); [lia|].
  assert (Hold : forall e, In e new -> e < m -> In e old).
  { intros e He Hlt. apply Mo. apply Mn in He. split; [auto|]. pose proof (lo_le e). unfold anc in *. lia. }
  destruct (N.eq_dec m n) as [->|Hne].
  - exists old, new, []. split; [auto|]. split; [auto|]. split.
    { unfold updateViewPath. now rewrite N.eqb_refl. }
    split; [constructor|]. split; [constructor|]. split; [split; auto|]. split; [|auto].
    intros _ e He. left. apply Hold; auto. apply Mn in He. lia.
  - destruct (updateView_spec n m) as (v & Ev & F & SS & Hnil & Hanc & Hne'); [lia|auto|].
    exists old, new, v. split; [auto|]. split; [auto|]. split; [auto|]. split; [auto|]. split; [auto|].
    split; [|split; auto].
    + rewrite Hnil, Mn. split; intro H; [right; split; [lia|auto]|]. destruct H as [H|H]; [lia|tauto].
    + intros [H|H] e He; [lia|]. destruct (N.lt_ge_cases e m) as [L|L]; [left; auto|right].
      apply Mn in He as (A & B). apply (proj2 (Hne' H)); auto.
Qed.

Lemma c10_first n :
  updateViewPath n None = frontier n /\ (n <> 0 -> updateViewPath n (Some 0) = frontier n).
Proof.
  split; [reflexivity|]. intro H. unfold updateViewPath. destruct (N.eqb_spec 0 n); [congruence|].
  reflexivity.
Qed.

Lemma c11_right n x : 1 <= n < 2 ^ 64 -> x < n ->
  exists d, rightDirectPath x n = Ok d /\ (forall y, In y d <-> sanc n x y /\ x < y) /\
    StronglySorted N.lt d.
Proof.
  intros [H1 H2] Hx. apply lt64_le in H2.
  destruct (rightDirectPath_spec x n (conj H1 H2) Hx) as (d & E & M & SS).
  exists d. split; [auto|]. split; [|auto]. intro y. rewrite M, sanc_anc by auto. tauto.
Qed.

Lemma c11_left n x : 1 <= n < 2 ^ 64 -> x < n ->
  exists d, leftDirectPath x = Ok d /\ (forall y, In y d <-> sanc n x y /\ y < x) /\
    StronglySorted (fun a b => b < a) d.
Proof.
  intros [H1 H2] Hx. apply lt64_le in H2.
  destruct (leftDirectPath_spec x) as (d & E & M & SS); [lia|].
  exists d. split; [auto|]. split; [|auto]. intro y. rewrite M, sanc_anc by auto.
  split; [|tauto]. intros (A & B). repeat split; auto; try apply A. lia.
Qed.
