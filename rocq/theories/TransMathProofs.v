(** Proofs about the search tree over log entries. *)
From Coq Require Import Sorted.
From Verif Require Import Base BaseProofs LogMathModel TransMathModel NodeMathProofs LogMathProofs TransMathSpec.

(** Entry [x] of a tree of size [n] covers the entries [a, b). *)
Definition scov (n x a b : N) : Prop := x < n /\ a = lo x /\ b = N.min (hi x + 1) n.

Lemma lo_level x : x < two64 - 1 -> lo x + 2 ^ level x = x + 1.
Proof.
  intro H. destruct (nid_ex63 x H) as (k & q & E & Hk & L). subst x.
  rewrite lo_nid by lia. rewrite L. rewrite nid_form, pow2_S. pose proof (pow2_pos k). nia.
Qed.

Lemma scov_sroot n x a b : n <= two64 - 1 -> scov n x a b -> x = sroot a (b - a) /\ a <= x < b /\ lsize (b - a) = x - a.
Proof.
  intros Hn (Hx & -> & ->).
  assert (Hlev : lo x + 2 ^ level x = x + 1).
  { apply lo_level. lia. }
  assert (Hhi : hi x + 1 = x + 2 ^ level x).
  { unfold hi. pose proof (pow2_pos (level x)). lia. }
  assert (El : N.log2 (N.min (hi x + 1) n - lo x) = level x).
  { pose proof (pow2_pos (level x)). apply N.log2_unique; [lia|]. rewrite N.pow_succ_r'. lia. }
  pose proof (lo_le x). pose proof (hi_ge x).
  assert (E2 : lsize (N.min (hi x + 1) n - lo x) = x - lo x).
  { unfold lsize. rewrite El. lia. }
  unfold sroot. rewrite E2. lia.
Qed.

Lemma scov_root n : 1 <= n <= two64 - 1 -> scov n (troot n) 0 n.
Proof.
  intros Hn. unfold troot. destruct (rootW_spec n) as (R1 & R2 & R3 & R4); [lia|lia|].
  unfold scov. lia.
Qed.

Lemma scov_left n x a b : n <= two64 - 1 -> scov n x a b -> a < x ->
  exists l, tleft x = Ok l /\ scov n l a x /\ l < x /\ level l < level x.
Proof.
  intros Hn (Hx & -> & ->) Ha.
  assert (HL : 0 < level x).
  { destruct (N.eq_dec (level x) 0) as [E|]; [|lia]. apply level_0_iff in E. lia. }
  destruct (left_spec x) as (l & E & H1 & H2 & H3 & H4); [lia|auto|].
  exists l. unfold tleft. rewrite E. split; [reflexivity|]. unfold scov. lia.
Qed.

Lemma scov_right n x a b : n <= two64 - 1 -> scov n x a b -> x + 1 < b ->
  exists r, tright x n = Ok r /\ scov n r (x + 1) b /\ x < r /\ level r < level x.
Proof.
  intros Hn (Hx & -> & ->) Ha.
  assert (HL : 0 < level x).
  { destruct (N.eq_dec (level x) 0) as [E|]; [|lia]. apply level_0_iff in E. lia. }
  destruct (rightW_spec x n) as (r & E & H1 & H2 & H3 & H4 & H5 & H6); [lia|lia|auto|].
  exists r. unfold tright. rewrite E. split; [reflexivity|]. unfold scov. lia.
Qed.

Lemma scov_leaf n x a b : n <= two64 - 1 -> scov n x a b -> (isLeaf x = true <-> a = x).
Proof.
  intros Hn (Hx & -> & ->).
  assert (P : isLeaf x = true <-> level x = 0).
  { pose proof (level_parity x ltac:(lia)) as P. unfold isLeaf. rewrite land_1.
    destruct (N.eqb_spec (x mod 2) 0); split; intro; try lia; try discriminate; auto. }
  rewrite P. split; intro H.
  - apply level_0_iff in H. lia.
  - destruct (N.eq_dec (level x) 0) as [|E]; auto.
    assert (2 <= 2 ^ level x) by (change 2 with (2 ^ 1) at 1; apply N.pow_le_mono_r; lia).
    pose proof (lo_level x). lia.
Qed.

Lemma scov_noright n x a b : n <= two64 - 1 -> scov n x a b ->
  (isLeaf x || (x =? sub64 n 1) = true <-> b = x + 1).
Proof.
  intros Hn S. pose proof (scov_leaf n x a b Hn S) as L. destruct S as (Hx & -> & ->).
  rewrite sub64_small by lia. rewrite orb_true_iff, N.eqb_eq, L.
  assert (Hlev : lo x + 2 ^ level x = x + 1).
  { apply lo_level. lia. }
  assert (Hhi : hi x + 1 = x + 2 ^ level x).
  { unfold hi. pose proof (pow2_pos (level x)). lia. }
  pose proof (pow2_pos (level x)). lia.
Qed.

Lemma SRange_scov n a len : 1 <= n <= two64 - 1 -> SRange n a len -> scov n (sroot a len) a (a + len).
Proof.
  intros Hn R. induction R as [|a len R IH HL|a len R IH HL].
  - pose proof (scov_root n Hn) as S. pose proof (scov_sroot n _ _ _ (proj2 Hn) S) as (E & _).
    rewrite N.sub_0_r in E. rewrite <- E. exact S.
  - destruct (scov_left n _ _ _ (proj2 Hn) IH) as (l & E & S & _); [unfold sroot; lia|].
    pose proof (scov_sroot n _ _ _ (proj2 Hn) S) as (E' & _).
    replace (sroot a len - a) with (lsize len) in E' by (unfold sroot; lia).
    rewrite E' in S. unfold sroot in S at 2. exact S.
  - destruct (scov_right n _ _ _ (proj2 Hn) IH) as (l & E & S & _); [unfold sroot; lia|].
    pose proof (scov_sroot n _ _ _ (proj2 Hn) S) as (E' & _).
    replace (a + len - (sroot a len + 1)) with (len - lsize len - 1) in E' by (unfold sroot; lia).
    rewrite E' in S. replace (sroot a len + 1 + (len - lsize len - 1)) with (a + len); [exact S|].
    unfold sroot. lia.
Qed.

Lemma SRange_pos n a len : 1 <= n -> SRange n a len -> 1 <= len.
Proof. intros Hn R. destruct R; lia. Qed.

(** Every entry is the root of a subtree. *)
Lemma SRange_ex n x : 1 <= n <= two64 - 1 -> x < n ->
  exists a len, SRange n a len /\ sroot a len = x.
Proof.
  intros Hn Hx.
  assert (G : forall k a len, (N.to_nat len < k)%nat -> SRange n a len -> a <= x < a + len ->
            exists a' len', SRange n a' len' /\ sroot a' len' = x).
  { induction k as [|k IH]; intros a len Hk R HI; [lia|].
    pose proof (SRange_scov n a len Hn R) as S.
    pose proof (scov_sroot n _ _ _ (proj2 Hn) S) as (E & HI' & E2).
    replace (a + len - a) with len in * by lia.
    destruct (N.lt_trichotomy x (sroot a len)) as [L|[L|L]].
    - apply (IH a (lsize len)); [lia|apply SR_left; auto; lia|lia].
    - eauto.
    - apply (IH (sroot a len + 1) (len - lsize len - 1)); [lia|apply SR_right; auto; lia|].
      unfold sroot in *. lia. }
  apply (G (S (N.to_nat n)) 0 n); [lia|apply SR_root|lia].
Qed.

Lemma SRange_unique n a len a' len' : 1 <= n <= two64 - 1 -> SRange n a len -> SRange n a' len' ->
  sroot a len = sroot a' len' -> a = a' /\ len = len'.
Proof.
  intros Hn R R' E. apply SRange_scov in R; auto. apply SRange_scov in R'; auto.
  rewrite E in R. unfold scov in *. lia.
Qed.

Lemma sanc_anc n x y : 1 <= n <= two64 - 1 -> x < n -> (sanc n x y <-> y < n /\ anc y x).
Proof.
  intros Hn Hx. split.
  - intros (a & len & R & -> & HI). apply SRange_scov in R; auto. unfold scov, anc in *. lia.
  - intros (Hy & HA). destruct (SRange_ex n y Hn Hy) as (a & len & R & E). exists a, len.
    split; [auto|]. split; [auto|]. apply SRange_scov in R; auto. rewrite E in R.
    unfold scov, anc in *. lia.
Qed.

(** Walking down towards an entry. *)
Inductive reaches (n : N) : N -> N -> Prop :=
| r_here x : x < n -> reaches n x x
| r_left x y t : x < n -> t < x -> tleft x = Ok y -> reaches n y t -> reaches n x t
| r_right x y t : x < n -> x < t -> tright x n = Ok y -> reaches n y t -> reaches n x t.

Lemma reaches_scov n x a b t : n <= two64 - 1 -> scov n x a b -> a <= t < b -> reaches n x t.
Proof.
  intro Hn. remember (N.to_nat (level x)) as k eqn:Ek. revert x a b Ek.
  induction k as [k IH] using lt_wf_ind. intros x a b Ek S HI.
  destruct (N.lt_trichotomy t x) as [L|[L|L]].
  - destruct (scov_left n x a b Hn S) as (l & E & S' & H1 & H2); [lia|].
    eapply r_left; eauto; [apply S|]. eapply IH; [|reflexivity|exact S'|]; lia.
  - subst. apply r_here. apply S.
  - destruct (scov_right n x a b Hn S) as (l & E & S' & H1 & H2); [lia|].
    eapply r_right; eauto; [apply S|]. eapply IH; [|reflexivity|exact S'|]; lia.
Qed.

(** ** Descending along the frontier *)

Lemma descend_spec fuel x n : 1 <= n <= two64 - 1 -> x < n -> anc x (n - 1) ->
  level x < N.of_nat fuel ->
  exists l, descend_loop fuel x n = Ok l /\
    (forall y, In y l <-> x < y < n /\ anc y (n - 1)) /\
    StronglySorted N.lt (x :: l) /\ last (x :: l) 0 = n - 1 /\ SFront (lo x) (n - lo x) (x :: l).
Proof.
  intros Hn. revert x. induction fuel as [|f IH]; intros x Hx HA Hf; [lia|].
  cbn [descend_loop]. rewrite sub64_small by lia.
  assert (S0 : scov n x (lo x) n) by (unfold scov, anc in *; lia).
  pose proof (scov_sroot n _ _ _ (proj2 Hn) S0) as (Es & HI & EL).
  destruct (N.eqb_spec x (n - 1)) as [E|E].
  - exists []. split; [auto|]. split; [|split; [|split]].
    + intros y. split; [intros []|lia].
    + repeat constructor.
    + cbn. auto.
    + rewrite Es at 3. apply SF_last. lia.
  - destruct (scov_right n x _ _ (proj2 Hn) S0) as (r & Er & S' & Hr & HL); [lia|].
    rewrite Er. cbn [bind].
    assert (Hlr : lo r = x + 1) by (unfold scov in S'; lia).
    assert (HAr : anc r (n - 1)) by (unfold scov, anc in *; lia).
    destruct (IH r) as (l & E1 & M & SS & La & F); [apply S'|auto|lia|].
    rewrite E1. cbn [bind]. exists (r :: l). split; [reflexivity|]. split; [|split; [|split]].
    + intro y. cbn [In]. rewrite M. split.
      * intros [<-|(A & B)]; [split; [split; [auto|apply S']|auto]|]. split; [lia|auto].
      * intros (A & B). destruct (N.eq_dec r y) as [|Hne]; auto. right.
        assert (HI' : lo r <= y <= hi r) by (unfold scov, anc in *; lia).
        assert (Hr' : r < n) by apply S'.
        destruct (inside_spec r y ltac:(lia) ltac:(lia) Hne HI') as (_ & _ & _ & Q & _).
        split; [|auto]. destruct (N.lt_trichotomy y r) as [C|[C|C]]; try lia.
        specialize (Q C). unfold anc in *. lia.
    + inversion_clear SS as [|? ? SS' FA]. constructor; [constructor; auto|].
      constructor; [lia|]. eapply Forall_impl; [|exact FA]. cbv beta. lia.
    + exact La.
    + rewrite Hlr in F.
      replace (x :: r :: l) with (sroot (lo x) (n - lo x) :: r :: l) by (now rewrite <- Es).
      apply SF_more; [lia|]. rewrite <- Es.
      replace (n - lo x - lsize (n - lo x) - 1) with (n - (x + 1)) by lia. exact F.
Qed.

Lemma frontier_spec n : 1 <= n <= two64 - 1 ->
  exists l, frontier n = Ok l /\ SFront 0 n l /\
    (forall y, In y l <-> y < n /\ anc y (n - 1)) /\ StronglySorted N.lt l /\ last l 0 = n - 1 /\
    hd 0 l = troot n.
Proof.
  intros Hn. unfold frontier. pose proof (scov_root n Hn) as S.
  assert (Hlev : level (troot n) <= 63) by (apply level_le63; destruct S; lia).
  assert (HA : anc (troot n) (n - 1)) by (unfold scov, anc in *; lia).
  destruct (descend_spec 66 (troot n) n Hn) as (l & E & M & SS & La & F); [apply S|auto|lia|].
  rewrite E. cbn [bind]. exists (troot n :: l). split; [reflexivity|].
  assert (Hl0 : lo (troot n) = 0) by (unfold scov in S; lia).
  rewrite Hl0, N.sub_0_r in F. split; [auto|]. split; [|split; [auto|split; [auto|reflexivity]]].
  intro y. cbn [In]. rewrite M. split.
  - intros [<-|(A & B)]; [split; [apply S|auto]|]. split; [lia|auto].
  - intros (A & B). destruct (N.eq_dec (troot n) y) as [|Hne]; auto. right. split; [|auto].
    assert (Hr' : troot n < n) by apply S.
    assert (HI' : lo (troot n) <= y <= hi (troot n)) by (unfold scov, anc in *; lia).
    destruct (inside_spec (troot n) y ltac:(lia) ltac:(lia) Hne HI') as (_ & _ & _ & Q & _).
    destruct (N.lt_trichotomy y (troot n)) as [C|[C|C]]; try lia.
    specialize (Q C). unfold anc in *. lia.
Qed.

(** ** Direct paths *)

Lemma anc_le_level x y z : y < two64 - 1 -> z < two64 - 1 -> anc y x -> anc z x ->
  x < y -> x < z -> level y < level z -> y < z.
Proof.
  intros Hy Hz Ay Az Lx Lz HL.
  assert (HN : anc z y) by (eapply nested; eauto; lia).
  destruct (N.eq_dec z y) as [->|Hne]; [lia|].
  destruct (inside_spec z y Hz Hy Hne HN) as (_ & _ & _ & _ & Q).
  destruct (N.lt_trichotomy y z) as [C|[C|C]]; try lia.
  specialize (Q C). unfold anc in *. lia.
Qed.

Lemma rightDirectPath_loop_spec fuel x y n : 1 <= n <= two64 - 1 -> x < n -> y < n -> anc y x ->
  level (troot n) - level y < N.of_nat fuel ->
  exists d, rightDirectPath_loop fuel (troot n) y x n = Ok d /\
    (forall z, In z d <-> z < n /\ anc z x /\ level y < level z /\ x < z) /\
    StronglySorted N.lt d.
Proof.
  intros Hn Hx. revert y. induction fuel as [|f IH]; intros y Hy HA Hf; [lia|].
  cbn [rightDirectPath_loop].
  pose proof (scov_root n Hn) as S.
  assert (Hroot : forall z, z < n -> anc (troot n) z) by (intros z Hz; unfold scov, anc in *; lia).
  assert (Hrl : forall z, z < n -> level z <= level (troot n)).
  { intros z Hz. destruct (N.eq_dec (troot n) z) as [<-|Hne]; [lia|].
    pose proof (anc_level (troot n) z) as L. destruct S. apply N.lt_le_incl, L; auto; lia. }
  destruct (N.eqb_spec y (troot n)) as [E|E].
  - exists []. split; [auto|]. split; [|constructor]. intro z. split; [intros []|].
    intros (A & B & C & _). specialize (Hrl z A). subst y. lia.
  - destruct (parentW_spec y n Hy (proj2 Hn)) as (p & Ep & (P1 & P2 & P3 & P4)); [exact E|].
    unfold tparent. rewrite Ep. cbn [bind].
    assert (HAp : anc p x) by (apply (anc_trans p y x); auto; lia).
    destruct (IH p P1 HAp) as (d & E1 & M & SS); [specialize (Hrl p P1); lia|].
    rewrite E1. cbn [bind].
    assert (Mz : forall z, z < n /\ anc z x /\ level y < level z /\ x < z <->
                 (z = p /\ x < p) \/ In z d).
    { intro z. rewrite M. split.
      - intros (A & B & C & D). destruct (N.eq_dec z p) as [|Hne]; [left; subst; auto|right].
        split; [auto|]. split; [auto|]. split; [|auto].
        destruct (N.lt_trichotomy (level p) (level z)) as [L|[L|L]]; auto.
        + exfalso. apply Hne. symmetry. apply (anc_same_level x); auto; lia.
        + exfalso. assert (HN : anc z y) by (eapply (nested x); eauto; lia).
          specialize (P4 z ltac:(lia) HN ltac:(lia)). lia.
      - intros [(-> & A)|(A & B & C & D)]; [auto|]. split; [auto|]. split; [auto|]. split; [lia|auto]. }
    destruct (N.ltb_spec x p) as [L|L].
    + exists (p :: d). split; [reflexivity|]. split.
      * intro z. rewrite Mz. cbn [In]. split; [intros [<-|?]; auto|intros [(-> & _)|?]; auto].
      * constructor; auto. apply Forall_forall. intros z Hz. apply M in Hz as (A & B & C & D).
        apply (anc_le_level x); auto; lia.
    + exists d. split; [reflexivity|]. split; auto. intro z. rewrite Mz. split; [auto|].
      intros [(-> & A)|A]; auto. lia.
Qed.

Lemma rightDirectPath_spec x n : 1 <= n <= two64 - 1 -> x < n ->
  exists d, rightDirectPath x n = Ok d /\
    (forall z, In z d <-> z < n /\ anc z x /\ x < z) /\ StronglySorted N.lt d.
Proof.
  intros Hn Hx. unfold rightDirectPath. pose proof (scov_root n Hn) as S.
  assert (Hlev : level (troot n) <= 63) by (apply level_le63; destruct S; lia).
  destruct (rightDirectPath_loop_spec 66 x x n Hn Hx Hx (anc_refl x)) as (d & E & M & SS); [lia|].
  exists d. split; [auto|]. split; auto. intro z. rewrite M. split; [tauto|].
  intros (A & B & C). split; [auto|]. split; [auto|]. split; [|auto]. apply anc_level; auto; lia.
Qed.

Lemma rootW_level_max x z : x < two64 - 1 -> anc z x -> z <= x ->
  level z <= level (troot (x + 1)).
Proof.
  intros Hx HA Hz. unfold troot. destruct (rootW_spec (x + 1)) as (R1 & R2 & R3 & R4); [lia|lia|].
  assert (Hr : anc (rootW (x + 1)) z) by (unfold anc in *; lia).
  destruct (N.eq_dec (rootW (x + 1)) z) as [<-|Hne]; [lia|].
  apply N.lt_le_incl, anc_level; auto. lia.
Qed.

Lemma parentStep_anc y : y < two64 - 1 -> level y <= 62 ->
  parentStep y < two64 - 1 /\ anc (parentStep y) y /\ level (parentStep y) = level y + 1.
Proof.
  intros H HL. destruct (parentStep_spec y H HL) as (A & B & C & D & _).
  pose proof (lo_le y). pose proof (hi_ge y). unfold anc. lia.
Qed.

Lemma leftDirectPath_loop_spec fuel x y : x < two64 - 1 -> y < two64 - 1 -> anc y x ->
  level y <= level (troot (x + 1)) ->
  level (troot (x + 1)) - level y < N.of_nat fuel ->
  exists d, leftDirectPath_loop fuel (troot (x + 1)) y x = Ok d /\
    (forall z, In z d <-> anc z x /\ level y < level z /\ z < x) /\
    StronglySorted (fun a b => b < a) d.
Proof.
  intros Hx. revert y. induction fuel as [|f IH]; intros y Hy HA HL Hf; [lia|].
  cbn [leftDirectPath_loop].
  assert (S : scov (x + 1) (troot (x + 1)) 0 (x + 1)) by (apply scov_root; lia).
  assert (Hra : anc (troot (x + 1)) x) by (unfold scov, anc in *; lia).
  assert (Hr64 : troot (x + 1) < two64 - 1) by (unfold scov in S; lia).
  destruct (N.eqb_spec y (troot (x + 1))) as [E|E].
  - exists []. split; [auto|]. split; [|constructor]. intro z. split; [intros []|].
    intros (A & B & C). pose proof (rootW_level_max x z Hx A ltac:(lia)). subst y. lia.
  - assert (HL' : level y < level (troot (x + 1))).
    { destruct (N.eq_dec (level y) (level (troot (x + 1)))) as [El|]; [|lia].
      exfalso. apply E. apply (anc_same_level x); auto. }
    pose proof (level_le63 _ Hr64).
    destruct (parentStep_anc y Hy) as (A1 & A2 & A3); [lia|].
    set (p := parentStep y) in *.
    assert (HAp : anc p x) by (apply (anc_trans p y x); auto).
    destruct (IH p A1 HAp) as (d & E1 & M & SS); [lia|lia|].
    rewrite E1. cbn [bind].
    assert (Mz : forall z, anc z x /\ level y < level z /\ z < x <-> (z = p /\ p < x) \/ In z d).
    { intro z. rewrite M. split.
      - intros (B & C & D). destruct (N.eq_dec z p) as [|Hne]; [left; subst; auto|right].
        split; [auto|]. split; [|auto]. destruct (N.eq_dec (level z) (level p)) as [El|]; [|lia].
        exfalso. apply Hne. apply (anc_same_level x); auto; lia.
      - intros [(-> & B)|(B & C & D)]; [split; [auto|]; split; [lia|auto]|].
        split; [auto|]. split; [lia|auto]. }
    destruct (N.ltb_spec p x) as [L|L].
    + exists (p :: d). split; [reflexivity|]. split.
      * intro z. rewrite Mz. cbn [In]. split; [intros [<-|?]; auto|intros [(-> & _)|?]; auto].
      * constructor; auto. apply Forall_forall. intros z Hz. apply M in Hz as (B & C & D).
        assert (HN : anc z p) by (eapply (nested x); eauto; lia).
        assert (Hne : z <> p) by (intros ->; lia).
        destruct (inside_spec z p ltac:(lia) A1 Hne HN) as (_ & _ & _ & Q & _).
        destruct (N.lt_trichotomy p z) as [G|[G|G]]; try lia.
        specialize (Q G). unfold anc in *. lia.
    + exists d. split; [reflexivity|]. split; auto. intro z. rewrite Mz. split; [auto|].
      intros [(-> & B)|B]; auto. lia.
Qed.

Lemma leftDirectPath_spec x : x < two64 - 1 ->
  exists d, leftDirectPath x = Ok d /\
    (forall z, In z d <-> anc z x /\ z < x) /\ StronglySorted (fun a b => b < a) d.
Proof.
  intros Hx. unfold leftDirectPath. rewrite add64_small by lia.
  assert (S : scov (x + 1) (troot (x + 1)) 0 (x + 1)) by (apply scov_root; lia).
  assert (Hlev : level (troot (x + 1)) <= 63) by (apply level_le63; destruct S; lia).
  destruct (leftDirectPath_loop_spec 66 x x Hx Hx (anc_refl x)) as (d & E & M & SS);
    [apply rootW_level_max; auto using anc_refl; lia|lia|].
  exists d. split; [auto|]. split; auto. intro z. rewrite M. split; [tauto|].
  intros (A & C). split; [auto|]. split; [|auto]. apply anc_level; auto; lia.
Qed.

(** ** Updating a view *)

Lemma last_In {A} (l : list A) d : l <> [] -> In (last l d) l.
Proof.
  intro H. rewrite (app_removelast_last d H) at 2. apply in_app_iff. right. now left.
Qed.

Lemma last_cons_ne {A} (x : A) l d : l <> [] -> last (x :: l) d = last l d.
Proof. destruct l; [congruence|reflexivity]. Qed.

Lemma SS_last_max l d : StronglySorted N.lt l -> forall z, In z l -> z <= last l d.
Proof.
  induction 1 as [|x l SS IH F]; [intros ? []|]. intros z [<-|Hz].
  - destruct l as [|y l]; [cbn; lia|]. rewrite last_cons_ne by discriminate.
    inversion_clear F. specialize (IH y (or_introl eq_refl)). lia.
  - destruct l as [|y l]; [destruct Hz|]. rewrite last_cons_ne by discriminate. auto.
Qed.

Lemma SS_app l1 l2 : StronglySorted N.lt l1 -> StronglySorted N.lt l2 ->
  (forall a b, In a l1 -> In b l2 -> a < b) -> StronglySorted N.lt (l1 ++ l2).
Proof.
  induction 1 as [|x l SS IH F]; cbn [app]; auto. intros S2 H. constructor.
  - apply IH; auto. intros a b Ha Hb. apply H; cbn [In]; auto.
  - apply Forall_app. split; auto. apply Forall_forall. intros b Hb. apply H; cbn [In]; auto.
Qed.

Lemma updateView_spec n m : 1 <= m < n -> n <= two64 - 1 ->
  exists v, updateViewPath n (Some m) = Ok v /\
    Forall (fun e => m <= e < n) v /\ StronglySorted N.lt v /\
    (v = [] <-> anc (m - 1) (n - 1)) /\
    (forall e, e < n -> anc e (m - 1) -> m <= e -> In e v) /\
    (v <> [] -> last v 0 = n - 1 /\ forall e, m <= e < n -> anc e (n - 1) -> In e v).
Proof.
  intros Hm Hn. unfold updateViewPath.
  destruct (N.eqb_spec m n); [lia|]. destruct (N.eqb_spec m 0); [lia|].
  rewrite sub64_small by lia.
  destruct (rightDirectPath_spec (m - 1) n) as (d & E & M & SS); [lia|lia|].
  rewrite E. cbn [bind].
  destruct (list_eq_dec N.eq_dec d []) as [->|Hd].
  - exists []. split; [reflexivity|]. split; [constructor|]. split; [constructor|].
    split; [|split; [|congruence]].
    + split; auto. intros _.
      assert (S : scov n (troot n) 0 n) by (apply scov_root; lia).
      (* no right ancestor: m-1 lies on the frontier *)
      destruct (SRange_ex n (m - 1)) as (a & len & R & Ea); [lia|lia|].
      pose proof (SRange_scov n a len ltac:(lia) R) as Sc. rewrite Ea in Sc.
      destruct (N.le_gt_cases n (hi (m - 1) + 1)) as [Hh|Hh].
      * pose proof (lo_le (m - 1)). unfold anc. lia.
      * exfalso.
        (* hi+1 is a node just right of the subtree; its parent chain contains a right ancestor *)
        assert (G : forall k a len, (N.to_nat len < k)%nat -> SRange n a len -> a <= m - 1 < a + len ->
                 a + len = n -> False).
        { induction k as [|k IH]; intros a' len' Hk R' HI Htop; [lia|].
          pose proof (SRange_scov n a' len' ltac:(lia) R') as S'.
          pose proof (scov_sroot n _ _ _ Hn S') as (E' & HI' & E2).
          replace (a' + len' - a') with len' in * by lia.
          destruct (N.lt_trichotomy (m - 1) (sroot a' len')) as [L|[L|L]].
          - destruct (M (sroot a' len')) as [_ M']. destruct M'. 
            split; [lia|]. split; [|lia]. unfold scov, anc in *. lia.
          - rewrite <- L in S'. unfold scov in S'. lia.
          - apply (IH (sroot a' len' + 1) (len' - lsize len' - 1)); [lia|apply SR_right; auto; lia| |];
              unfold sroot in *; lia. }
        apply (G (Datatypes.S (N.to_nat n)) 0 n); [lia|apply SR_root|lia|lia].
    + intros e He HA Hme. destruct (M e) as [_ M']. apply M'. split; [auto|]. split; [auto|lia].
  - assert (Hz := last_In d 0 Hd). set (z := last d 0) in *.
    apply M in Hz as (Z1 & Z2 & Z3).
    (* the topmost right ancestor lies on the frontier *)
    assert (ZA : anc z (n - 1)).
    { destruct (N.le_gt_cases n (hi z + 1)) as [Hh|Hh].
      - unfold anc in *. lia.
      - exfalso.
        assert (G : forall k a len, (N.to_nat len < k)%nat -> SRange n a len -> a <= m - 1 < a + len ->
                 a + len = n -> False).
        { induction k as [|k IH]; intros a' len' Hk R' HI Htop; [lia|].
          pose proof (SRange_scov n a' len' ltac:(lia) R') as S'.
          pose proof (scov_sroot n _ _ _ Hn S') as (E' & HI' & E2).
          replace (a' + len' - a') with len' in * by lia.
          destruct (N.lt_trichotomy (m - 1) (sroot a' len')) as [L|[L|L]].
          - assert (Hin : In (sroot a' len') d).
            { apply M. split; [lia|]. split; [|lia]. unfold scov, anc in *. lia. }
            pose proof (SS_last_max d 0 SS _ Hin) as Hle. fold z in Hle.
            assert (HAr : anc (sroot a' len') (m - 1)) by (unfold scov, anc in *; lia).
            destruct (N.eq_dec (sroot a' len') z) as [Ez|Hne].
            + rewrite Ez in S'. unfold scov in S'. lia.
            + assert (Hlz : level (sroot a' len') < level z).
              { destruct (N.lt_trichotomy (level (sroot a' len')) (level z)) as [Q|[Q|Q]]; auto.
                - exfalso. apply Hne. apply (anc_same_level (m - 1)); auto; lia.
                - exfalso.
                  assert (z < sroot a' len') by (apply (anc_le_level (m - 1)); auto; lia). lia. }
              assert (HN : anc z (sroot a' len')) by (apply (nested (m - 1)); auto; lia).
              apply inside_spec in HN; try lia. unfold scov in S'. lia.
          - rewrite <- L in S'.
            assert (Hne : z <> m - 1) by lia.
            assert (HI2 := Z2). unfold anc in HI2.
            destruct (inside_spec z (m - 1) ltac:(lia) ltac:(lia) Hne HI2) as (_ & _ & Q & _).
            unfold scov in S'. lia.
          - apply (IH (sroot a' len' + 1) (len' - lsize len' - 1)); [lia|apply SR_right; auto; lia| |];
              unfold sroot in *; lia. }
        apply (G (S (N.to_nat n)) 0 n); [lia|apply SR_root|lia|lia]. }
    assert (Hlev : level z <= 63) by (apply level_le63; lia).
    destruct (descend_spec 66 z n) as (l & El & Ml & SSl & Lal & _); [lia|lia|auto|lia|].
    assert (Ev : exists d0 ds, d = d0 :: ds) by (destruct d; [congruence|eauto]).
    destruct Ev as (d0 & ds & Ed). rewrite Ed. rewrite <- Ed. rewrite El. cbn [bind].
    exists (d ++ l). split; [reflexivity|]. split; [|split; [|split; [|split]]].
    + apply Forall_app. split; apply Forall_forall; intros e He.
      * apply M in He. lia.
      * apply Ml in He. lia.
    + apply SS_app; auto; [now inversion SSl|]. intros a b Ha Hb.
      pose proof (SS_last_max d 0 SS a Ha). fold z in H. apply Ml in Hb. lia.
    + split; intro H.
      * apply app_eq_nil in H. tauto.
      * exfalso.
        assert (Hne : z <> m - 1) by lia. unfold anc in Z2.
        destruct (inside_spec z (m - 1) ltac:(lia) ltac:(lia) Hne Z2) as (_ & _ & _ & Q & _).
        unfold anc in *. lia.
    + intros e He HA Hme. apply in_app_iff. left. apply M. split; [auto|]. split; [auto|lia].
    + intros _. split.
      * destruct l as [|y l].
        -- rewrite app_nil_r. exact Lal.
        -- rewrite last_cons_ne in Lal by discriminate.
           rewrite <- Lal. clear. induction d as [|x d IH]; [reflexivity|].
           cbn [app]. rewrite last_cons_ne; auto. destruct d; discriminate.
      * intros e He HA. apply in_app_iff.
        destruct (N.le_gt_cases (lo e) (m - 1)) as [Hl|Hl].
        -- left. apply M. split; [lia|]. split; [|lia]. unfold anc in *. lia.
        -- right. apply Ml. split; [|auto]. split; [|lia].
           destruct (N.lt_trichotomy e z) as [C|[C|C]]; auto.
           ++ (* z in the right subtree of e *)
              pose proof (lo_le e). assert (HN : anc e z) by (unfold anc in *; lia).
              assert (Hne : e <> z) by lia.
              destruct (inside_spec e z ltac:(lia) ltac:(lia) Hne HN) as (_ & _ & _ & _ & Q).
              unfold anc in *. lia.
           ++ exfalso. rewrite C in Hl. unfold anc in *. lia.
Qed.
