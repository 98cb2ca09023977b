(** Proofs for TimeProperties.v: what a user who monitors a label as the log grows has seen. *)
From Verif Require Import Base BaseProofs LogMathModel NodeMathProofs LogMathProofs LogTreeModel LogTreeSpec TransMathModel TransMathSpec TransMathProofs TransMathProofs2 LaddersModel PrefixModel PrefixSpec CodecModel CodecSpec AlgModel AlgSpec AlgProofs
  HandleModel ServerModel ClientModel WatchProofs2 GuardSpec GuardProofs2 GuardProofs4 GuardProofs5 GuardProofs6 GuardProperties AuditorProofs SearchProofs SearchProofs2 ClientProofs ClientProofs2 TimeSpec.
Open Scope N_scope.
Local Open Scope list_scope.

(** ** Ancestors, and distinguished entries *)
Lemma dist_up n ts w a len lft r d x : 1 <= n < 2 ^ 64 -> SRange n a len -> DIn ts w a len lft r d -> sanc n d x -> a <= x < a + len -> DIn ts w a len lft r x.
Proof.
  intros Hn R D. revert R. induction D as [a len lft r Hw|a len lft r y Hw Hl D IH|a len lft r y Hw Hl D IH]; intros R A B.
  - destruct (N.lt_trichotomy x (sroot a len)) as [L|[->|L]]; [|now apply DI_here|].
    + exfalso. apply (sanc_left n a len (sroot a len) x); auto; lia.
    + exfalso. apply (sanc_right n a len (sroot a len) x); auto; lia.
  - destruct (nav_len n a len Hn R) as (L1 & L2 & L3). pose proof (DIn_range _ _ _ _ _ _ _ D ltac:(lia)) as Y. destruct (N.lt_trichotomy x (sroot a len)) as [L|[->|L]]; [|now apply DI_here|].
    + apply DI_left; auto. apply IH; [now constructor|exact A|unfold sroot in *; lia].
    + exfalso. apply (sanc_right n a len y x); auto; unfold sroot in *; lia.
  - destruct (nav_len n a len Hn R) as (L1 & L2 & L3). pose proof (DIn_range _ _ _ _ _ _ _ D ltac:(lia)) as Y. destruct (N.lt_trichotomy x (sroot a len)) as [L|[->|L]]; [|now apply DI_here|].
    + exfalso. apply (sanc_left n a len y x); auto; unfold sroot in *; lia.
    + apply DI_right; auto. apply IH; [now constructor|exact A|unfold sroot in *; lia].
Qed.
Lemma distinguished_up n ts w d x : 1 <= n < 2 ^ 64 -> distinguished n ts w d -> sanc n d x -> distinguished n ts w x.
Proof.
  intros Hn D A. unfold distinguished in *. eapply dist_up; eauto; [constructor|]. destruct A as (a & len & R & -> & _). pose proof (nav_lt n a len Hn R). lia.
Qed.
Lemma distinguished_lt n ts w d : 1 <= n -> distinguished n ts w d -> d < n.
Proof. intros Hn D. pose proof (DIn_range _ _ _ _ _ _ _ D Hn). lia. Qed.
Lemma distinguished_ext n ts ts' w d : 1 <= n -> (forall x, x < n -> ts x = ts' x) -> distinguished n ts w d -> distinguished n ts' w d.
Proof. intros Hn E D. unfold distinguished in *. rewrite <- E by lia. eapply DIn_ext; eauto. intros. apply E. lia. Qed.
Lemma sanc_lt n x y : 1 <= n < 2 ^ 64 -> sanc n x y -> x < n /\ y < n.
Proof. intros Hn (a & len & R & -> & B). pose proof (nav_lt n a len Hn R). destruct (nav_len n a len Hn R) as (_ & L & _). lia. Qed.
Lemma sanc_grow n n' x y : 1 <= n <= n' -> n' < 2 ^ 64 -> sanc n x y -> sanc n' x y.
Proof.
  intros A B C. destruct (sanc_lt n x y ltac:(lia) C) as [Lx Ly]. apply sanc_anc in C as [_ C]; [|unfold two64; lia|lia]. apply sanc_anc; [unfold two64; lia|lia|]. split; [lia|exact C].
Qed.
Lemma sanc_shrink n n' x y : 1 <= n <= n' -> n' < 2 ^ 64 -> x < n -> y < n -> sanc n' x y -> sanc n x y.
Proof. intros A B Lx Ly C. apply sanc_anc in C as [_ C]; [|unfold two64; lia|lia]. apply sanc_anc; [unfold two64; lia|lia|]. split; [lia|exact C]. Qed.
Lemma sanc_refl n x : 1 <= n < 2 ^ 64 -> x < n -> sanc n x x.
Proof. intros Hn L. apply sanc_anc; [unfold two64; lia|lia|]. split; [lia|apply anc_refl]. Qed.
Lemma top_dec n y : 1 <= n < 2 ^ 64 -> y < n -> atTop n y \/ exists z, sanc n y z /\ y < z.
Proof.
  intros Hn L. destruct (c11_right n y Hn L) as (p & _ & G & _). destruct p as [|z p]; [left|right; exists z; apply G; now left].
  intros z A. destruct (N.le_gt_cases z y) as [|Lt]; [auto|]. destruct (proj2 (G z) (conj A Lt)).
Qed.
Lemma sanc_dec n x y : 1 <= n < 2 ^ 64 -> x < n -> (sanc n x y /\ x < y) \/ ~ (sanc n x y /\ x < y).
Proof. intros Hn L. destruct (c11_right n x Hn L) as (p & _ & G & _). rewrite <- G. destruct (in_dec N.eq_dec y p); auto. Qed.
Lemma below_dec n (old : list mapEntry) x : 1 <= n < 2 ^ 64 -> Forall (fun p => fst p < n) old ->
  (exists x' v', In (x', v') old /\ sanc n x' x /\ x' < x) \/ (forall x' v', In (x', v') old -> sanc n x' x -> x <= x').
Proof.
  intros Hn F. induction F as [|[a u] t L F IH]; [right; intros ? ? []|]. cbn [fst] in L. destruct (sanc_dec n a x Hn L) as [S|S].
  - left. exists a, u. split; [now left|exact S].
  - destruct IH as [(x' & v' & I & S')|N]; [left; exists x', v'; split; [now right|exact S']|]. right. intros x' v' [E|I] A; [|eapply N; eauto]. injection E as <- <-.
    destruct (N.le_gt_cases x a) as [|Lt]; [auto|]. destruct S. auto.
Qed.
Lemma top_unique n x y z : 1 <= n < 2 ^ 64 -> sanc n x y -> sanc n x z -> x <= y -> x <= z -> atTop n y -> atTop n z -> y = z.
Proof.
  intros Hn A B Ly Lz Ty Tz. destruct (N.lt_trichotomy y z) as [L|[E|L]]; [|exact E|].
  - specialize (Ty z (sanc_up n x y z Hn B ltac:(lia))). lia.
  - specialize (Tz y (sanc_up n x z y Hn A ltac:(lia))). lia.
Qed.

(** What [movedUp] says of the least version. *)
Section Least.
Variables (n : N) (ts : N -> N) (rmw : N) (old : list mapEntry) (new : N -> N -> Prop) (v : N).
Hypothesis Hn : 1 <= n < 2 ^ 64.
Hypothesis Hold : Forall (fun p => fst p < n) old.
Hypothesis Least : forall y u, In (y, u) old -> v <= u.
Hypothesis M : movedUp n ts rmw old new.

Lemma moved_on x u : In (x, u) old -> pending n ts rmw x -> exists y u', new y u' /\ v <= u' /\ (y = x \/ onWay n ts rmw x y) /\ atTop n y.
Proof.
  destruct M as (_ & M2 & M3). intros I P. pose proof (proj1 (Forall_forall _ _) Hold _ I) as Lx. cbn [fst] in Lx.
  destruct (top_dec n x Hn Lx) as [Tx|(z & Sz & Lz)].
  - destruct (below_dec n old x Hn Hold) as [(x' & v' & I' & S' & L')|N]; [|exists x, u; split; [apply M3; auto|]; split; [eauto|auto]].
    assert (P' : pending n ts rmw x').
    { intros d D A B. destruct (N.le_gt_cases d x) as [Ld|Ld].
      - apply (P x); [|apply sanc_refl; auto|lia]. apply (distinguished_up n ts rmw d x Hn D). apply (sanc_up n x' d x Hn S'). lia.
      - specialize (Tx d (sanc_up n x' x d Hn A ltac:(lia))). lia. }
    destruct (M2 x' v' I' P') as (y & v'' & (W1 & W2 & _) & Ty & Lv & New); [intro T; specialize (T x S'); lia|].
    assert (y = x) by (apply (top_unique n x'); auto; lia). subst y. exists x, v''. split; [exact New|]. split; [|auto]. pose proof (Least _ _ I'). lia.
  - destruct (M2 x u I P) as (y & v'' & W & Ty & Lv & New); [intro T; specialize (T z Sz); lia|]. exists y, v''. split; [exact New|]. split; [|auto]. pose proof (Least _ _ I). lia.
Qed.
Lemma least_stays y u : new y u -> v <= u.
Proof. destruct M as (M1 & _). intro N. destruct (M1 y u N) as (_ & _ & x & I & _). eauto. Qed.
Lemma new_lt y u : new y u -> y < n.
Proof.
  destruct M as (M1 & _). intro N. destruct (M1 y u N) as (_ & _ & x & I & [->|(A & _)]); [|apply (sanc_lt n x y Hn A)]. apply (proj1 (Forall_forall _ _) Hold _ I).
Qed.
End Least.

Lemma firstn_forall2 {A B} (R : A -> B -> Prop) k : forall xs ys, Forall2 R xs ys -> Forall2 R (firstn k xs) (firstn k ys).
Proof. induction k as [|k IH]; intros xs ys F; cbn; [constructor|]. destruct F; constructor; auto. Qed.
Lemma upto_len {A} n (xs : list A) : n <= lenN xs -> lenN (upto n xs) = n.
Proof. unfold upto, lenN. intro L. rewrite firstn_length. lia. Qed.
Lemma timeAt_upto n es x : x < n -> timeAt (upto n es) x = timeAt es x.
Proof. intro L. unfold timeAt, upto. rewrite nth_error_firstn_lt by lia. reflexivity. Qed.

Section Time.
Variables (f : bytes -> bytes) (T : list bytes) (hs : N).
Hypothesis Hf : forall x, lenN (f x) = hs.
Hypothesis Hhs : 0 < hs.
Variables (c : pubConfig) (vrf : bytes -> bytes * bytes) (l : bytes).
Hypothesis Hc : pc_hs c = N.to_nat hs.
Variables (es : list logEntry) (leaves : list bytes) (trees : list trie).
Hypothesis Hlog : commitsTo (restrict f T) (N.to_nat hs) es leaves trees.
Hypothesis Hord : ordered es.

Local Notation way n := (onWay n (timeAt es) (pc_rmw c)).
Local Notation waits n := (pending n (timeAt es) (pc_rmw c)).

Lemma upto_commits n : commitsTo (restrict f T) (N.to_nat hs) (upto n es) (upto n leaves) (upto n trees).
Proof. destruct Hlog as [A B]. split; apply firstn_forall2; assumption. Qed.
Lemma upto_ordered n : 1 <= n <= lenN es -> ordered (upto n es).
Proof.
  destruct Hord as (O1 & O2 & O3). intro L. split; [rewrite upto_len by lia; lia|]. split.
  - apply Forall_forall. intros e I. apply (proj1 (Forall_forall _ _) O2). unfold upto in I. rewrite <- (firstn_skipn (N.to_nat n) es). apply in_or_app. now left.
  - rewrite upto_len by lia. intros x y B. rewrite !timeAt_upto by lia. apply O3. lia.
Qed.

Lemma one_step n ls ls' : 1 <= n <= lenN es -> NoDup (map fst (cl_contact ls)) -> Forall (fun p => fst p < n) (cl_contact ls) -> genuineKeys vrf l ls ->
  monitorsAt f T hs c l es leaves n ls ls' ->
  staysShown n (timeAt es) (pc_rmw c) vrf l (keeps ls) trees (fun _ => False) (cl_contact ls) /\
  movedUp n (timeAt es) (pc_rmw c) (cl_contact ls) (fun y v => In (y, v) (cl_contact ls'))
  \/ broken f (N.to_nat hs) T.
Proof.
  intros L ND Fo G (now & state & req & resp & checked & mo & result & root & El & K & Or & E1 & E2 & E3 & E4 & E5 & _ & Pt & _).
  pose proof (upto_len n es ltac:(lia)) as Ln.
  destruct (C88_contact_monitor_guards f T hs Hf Hhs c Hc vrf now (upto n es) (upto n leaves) (upto n trees) (upto_commits n) (upto_ordered n L) state K ls req resp checked mo result root ND)
    as [[S M]|B]; auto; try (rewrite Ln; auto; fail); try (rewrite El; exact G). rewrite El in S.
  left. rewrite Ln in S, M.
  assert (D : forall d, distinguished n (timeAt (upto n es)) (pc_rmw c) d <-> distinguished n (timeAt es) (pc_rmw c) d).
  { intro d. split; apply distinguished_ext; try lia; intros x Lx; rewrite timeAt_upto by lia; reflexivity. }
  assert (W : forall x z, onWay n (timeAt (upto n es)) (pc_rmw c) x z <-> way n x z).
  { intros x z. unfold onWay. split; intros (A & B & C); (split; [exact A|split; [exact B|]]); intros d Q; apply C; apply D; exact Q. }
  assert (P : forall x, pending n (timeAt (upto n es)) (pc_rmw c) x <-> waits n x).
  { intro x. unfold pending. split; intros A d Q; apply A; apply D; exact Q. }
  assert (Hn : 1 <= n < 2 ^ 64) by (destruct Hord as ((? & ?) & _); change (2 ^ 64) with (2 * 2 ^ 63); lia).
  split.
  - intros x v z t I Wz Ne Nt. apply W in Wz as Wz'. apply (S x v z t I Wz' Ne). unfold upto. rewrite nth_error_firstn_lt; [exact Nt|].
    destruct Wz as (A & _). pose proof (sanc_lt n x z Hn A). lia.
  - destruct M as (M1 & M2 & M3). split; [|split].
    + intros y v I. apply Pt in I. destruct (M1 y v I) as (A & B & x & C & Q). split; [now apply P|]. split; [exact B|]. exists x. split; [exact C|]. destruct Q as [Q|Q]; [auto|right; now apply W].
    + intros x v I Px Nx. apply P in Px. destruct (M2 x v I Px Nx) as (y & v' & A & B & C & Q). exists y, v'. split; [now apply W|]. split; [exact B|]. split; [exact C|]. now apply Pt.
    + intros x v I Px Tx N. apply P in Px. apply Pt. apply M3; auto.
Qed.

Lemma keeps_less ls ls' w com : (forall r, In r (cl_versions ls') -> In r (cl_versions ls)) -> keeps ls' w com -> keeps ls w com.
Proof. intros I (r & A & B). exists r. auto. Qed.
Lemma shows_more (k k' : N -> bytes -> Prop) t v : (forall w com, k w com -> k' w com) -> showsVersion vrf l k t v -> showsVersion vrf l k' t v.
Proof. intros I (lad & A & B & C). exists lad. split; [exact A|]. split; [exact B|]. intros w J. destruct (C w J) as (com & D & E). exists com. auto. Qed.

Lemma waits_back n n' x : 1 <= n <= n' -> n' <= lenN es -> waits n' x -> waits n x.
Proof.
  intros L L' P d D A B. apply (P d); [|apply (sanc_grow n); auto; destruct Hord as ((? & ?) & _); change (2 ^ 64) with (2 * 2 ^ 63); lia|exact B].
  apply (distinguished_stays n n'); auto. intros i j Lij. destruct Hord as (_ & _ & O). apply O. lia.
Qed.

Section Over.
Variables (n0 : N) (ls : labelState) (v : N).
Hypothesis L0 : 1 <= n0 <= lenN es.
Hypothesis ND0 : NoDup (map fst (cl_contact ls)).
Hypothesis Fo0 : Forall (fun p => fst p < n0) (cl_contact ls).
Hypothesis G0 : genuineKeys vrf l ls.
Hypothesis Lst : forall y u, In (y, u) (cl_contact ls) -> v <= u.

Definition shownOn n x := forall z t, way n x z -> nth_error trees (N.to_nat z) = Some t -> exists v', v <= v' /\ showsVersion vrf l (keeps ls) t v'.
Definition soFar (ok : N -> Prop) n ls' := n0 <= n <= lenN es /\ NoDup (map fst (cl_contact ls')) /\ Forall (fun p => fst p < n) (cl_contact ls') /\ (forall r, In r (cl_versions ls') -> In r (cl_versions ls)) /\
    (forall y u, In (y, u) (cl_contact ls') -> v <= u) /\
    forall x u, In (x, u) (cl_contact ls) -> ok x /\ (waits n x -> exists y u', In (y, u') (cl_contact ls') /\ v <= u' /\ (y = x \/ way n x y)).

Lemma next n ls1 n' ls' : soFar (fun x => (n = n0 /\ ls1 = ls) \/ shownOn n x) n ls1 -> n <= n' <= lenN es -> monitorsAt f T hs c l es leaves n' ls1 ls' ->
  soFar (shownOn n') n' ls' \/ broken f (N.to_nat hs) T.
Proof.
  intros (Ln & ND & Fo & Ve & Le & IH) L Step.
      assert (G : genuineKeys vrf l ls1) by (unfold genuineKeys in *; rewrite Forall_forall in *; auto).
  assert (Fo' : Forall (fun p => fst p < n') (cl_contact ls1)) by (eapply Forall_impl; [|exact Fo]; cbn; intros; lia).
  destruct (one_step n' ls1 ls' ltac:(lia) ND Fo' G Step) as [[S M]|B]; [|now right]. left.
  assert (Hn : 1 <= n' < 2 ^ 64) by (destruct Hord as ((? & ?) & _); change (2 ^ 64) with (2 * 2 ^ 63); lia).
  destruct Step as (now & state & req & resp & checked & mo & result & root & _ & _ & _ & _ & _ & _ & _ & _ & ND' & _ & Ve').
  split; [lia|]. split; [exact ND'|]. split; [apply Forall_forall; intros [y u] I; exact (new_lt n' _ _ _ _ Hn Fo' M y u I)|].
  split; [auto|]. split; [intros y u I; exact (least_stays n' _ _ _ _ v Le M y u I)|]. intros x u I. destruct (IH x u I) as [IA IB].
  assert (Lx : x < n0) by (exact (proj1 (Forall_forall _ _) Fo0 _ I)). split.
  + intros z t W Nt.
    assert (Old : z < n -> way n x z).
    { intro Lz. destruct W as (A & B & C). split; [apply (sanc_shrink n n'); auto; lia|]. split; [exact B|]. intros d D Q R. apply C; [|apply (sanc_grow n); auto; lia|exact R].
      apply (distinguished_stays n n'); auto; [lia|]. intros i j Lij. destruct Hord as (_ & _ & O). apply O. lia. }
    assert (New : waits n x -> (forall y u', In (y, u') (cl_contact ls1) -> v <= u' -> y = x \/ way n x y -> y < z -> exists v', v <= v' /\ showsVersion vrf l (keeps ls) t v')).
    { intros _ y u' Iy Ly Wy Lyz. destruct W as (A & B & C).
      assert (Ay : sanc n' x y /\ x <= y). { destruct Wy as [->|(Q1 & Q2 & _)]; [split; [apply sanc_refl; auto; lia|lia]|]. split; [apply (sanc_grow n); auto; lia|lia]. }
      assert (Wz : way n' y z).
      { split; [apply (sanc_up n' x y z Hn A); lia|]. split; [exact Lyz|]. intros d D Q R. apply C; [exact D|apply (sanc_trans n' x y d Hn (proj1 Ay) Q)|lia]. }
      destruct (S y u' z t Iy Wz (fun F => F) Nt) as (v' & Lv & Sh). exists v'. split; [lia|]. apply (shows_more (keeps ls1)); [|exact Sh]. intros w com. apply keeps_less. exact Ve. }
    destruct IA as [[-> ->]|IA].
    * destruct W as (A & B & C). destruct (S x u z t I (conj A (conj B C)) (fun F => F) Nt) as (v' & Lv & Sh). pose proof (Lst _ _ I). exists v'. split; [lia|exact Sh].
    * destruct (N.lt_ge_cases z n) as [Lz|Lz]; [apply (IA z t (Old Lz) Nt)|].
      assert (P : waits n x).
      { intros d D Q R. assert (z <= d). { destruct W as (_ & _ & C). apply C; [|apply (sanc_grow n); auto; lia|exact R]. apply (distinguished_stays n n'); auto; [lia|]. intros i j Lij. destruct Hord as (_ & _ & O). apply O. lia. }
        pose proof (distinguished_lt n _ _ d ltac:(lia) D). lia. }
      destruct (IB P) as (y & u' & Iy & Ly & Wy). apply (New P y u' Iy Ly Wy). pose proof (proj1 (Forall_forall _ _) Fo _ Iy) as Q. cbn [fst] in Q. lia.
  + intros P. destruct (IB (waits_back n n' x ltac:(lia) ltac:(lia) P)) as (y & u' & Iy & Ly & Wy).
    assert (Ay : sanc n' x y /\ x <= y). { destruct Wy as [->|(Q1 & Q2 & _)]; [split; [apply sanc_refl; auto; lia|lia]|]. split; [apply (sanc_grow n); auto; lia|lia]. }
    assert (Py : waits n' y) by (intros d D Q R; apply (P d D); [apply (sanc_trans n' x y d Hn (proj1 Ay) Q)|lia]).
    destruct (moved_on n' _ _ _ _ v Hn Fo' Le M y u' Iy Py) as (y' & u'' & Ny & Lv & Wy' & Ty'). exists y', u''. split; [exact Ny|]. split; [exact Lv|].
    destruct Wy' as [->|(Q1 & Q2 & Q3)].
    * destruct (N.eq_dec y x) as [|Ne]; [auto|]. right. split; [apply Ay|]. split; [lia|]. intros d D Q R. exfalso. exact (P d D Q R).
    * right. split; [apply (sanc_trans n' x y y' Hn (proj1 Ay) Q1)|]. split; [lia|]. intros d D Q R. exfalso. exact (P d D Q R).
Qed.

Theorem over_time n ls' : monitoredFrom f T hs c l es leaves n0 ls n ls' ->
  (forall x u, In (x, u) (cl_contact ls) ->
    (forall z t, way n x z -> nth_error trees (N.to_nat z) = Some t -> exists v', v <= v' /\ showsVersion vrf l (keeps ls) t v') /\
    (waits n x -> exists y u', In (y, u') (cl_contact ls') /\ v <= u' /\ (y = x \/ way n x y)))
  \/ broken f (N.to_nat hs) T.
Proof.
  intro Mn. assert (Main : soFar (shownOn n) n ls' \/ broken f (N.to_nat hs) T).
  { induction Mn as [n ls' L Step|n ls1 n' ls' Mn IH L Step].
    - apply (next n0 ls); auto. split; [lia|]. split; [exact ND0|]. split; [exact Fo0|]. split; [auto|]. split; [exact Lst|]. intros x u I. split; [auto|]. intros _. exists x, u. eauto.
    - destruct IH as [IH|B]; [|now right]. apply (next n ls1); auto. destruct IH as (A & B & C & D & E & IH). split; [exact A|]. split; [exact B|]. split; [exact C|]. split; [exact D|]. split; [exact E|].
      intros x u I. destruct (IH x u I). auto. }
  destruct Main as [(_ & _ & _ & _ & _ & Main)|B]; [left; exact Main|now right].
Qed.
End Over.
End Time.

(** ** The client's operation *)
Lemma contactStruct_once m es : contactStruct m = Ok es -> NoDup (map fst es).
Proof.
  destruct m as [p|]; [|discriminate]. cbn [contactStruct]. intro E. injection E as <-.
  assert (ND : NoDup (nsort (nodup N.eq_dec (map fst p)))) by (eapply Permutation.Permutation_NoDup; [symmetry; apply nsort_perm|apply NoDup_nodup]).
  induction ND as [|x xs Nx ND IH]; cbn [flat_map map]; [constructor|]. rewrite map_app.
  assert (Sub : forall y, In y (map fst (flat_map (fun x => match mget p x with Some v => [(x, v)] | None => [] end) xs)) -> In y xs).
  { intros y I. apply in_map_iff in I as ([a b] & <- & I). apply in_flat_map in I as (z & Iz & I). destruct (mget p z); [|destruct I]. destruct I as [I|[]]. injection I as <- _. exact Iz. }
  destruct (mget p x); cbn [map fst app]; [|exact IH]. constructor; [|exact IH]. intro I. apply Nx, Sub, I.
Qed.

Lemma client_step f T hs c now sigVerify audVerify es leaves n k state ls req resp k' :
  clientContactMonitor (restrict f T) hs c now sigVerify audVerify k state ls req resp = Ok k' -> keptFrom (upto n es) state -> okMonitorResponse c resp ->
  (forall checked mo result root, checkContactMonitor (restrict f T) hs c now state ls req resp = Ok (checked, mo) ->
    dpFinish (restrict f T) hs (v_d checked) (v_n checked) (v_nP checked) (v_m checked) = Ok result -> logRoot (restrict f T) hs (v_n checked) (pr_subtrees result) = Ok root ->
    v_n checked = n /\ Mth (restrict f T) (upto n leaves) root) ->
  exists ls' pos, monitorsAt f T hs c (cq_label req) es leaves n ls ls' /\ stores k k' (cq_label req) ls' pos.
Proof.
  intros E K Or R. assert (E0 := E). unfold clientContactMonitor in E.
  apply bind_ok in E as (v & Q & E). apply bind_ok in E as (v1 & Q0 & E). apply bind_ok in E as ([u v2] & Q1 & E). apply bind_ok in E as ([mo v3] & Q2 & E). apply bind_ok in E as ([mo' v4] & Q3 & E).
  apply bind_ok in E as (s & Q4 & E). apply bind_ok in E as (contact & Q5 & E). apply bind_ok in E as (ls' & Q6 & E). apply bind_ok in E as ([[t|] v5] & Q7 & E); [|discriminate].
  assert (C : checkContactMonitor (restrict f T) hs c now state ls req resp = Ok (v4, mo')).
  { unfold checkContactMonitor. rewrite Q. cbn [bind]. rewrite Q0. cbn [bind]. rewrite Q1. cbn [bind]. rewrite Q2. cbn [bind]. rewrite Q3. reflexivity. }
  destruct (finish_checks _ _ _ _ _ _ _ Q4) as (result & root & F1 & F2 & _). destruct (R v4 mo' result root C F1 F2) as [Rn Rm].
  destruct (retained_in _ _ _ _ Q6) as (R1 & R2 & R3). exists ls', t. split; [|eapply putLabelState_stores; exact E].
  exists now, state, req, resp, v4, mo', result, root. split; [reflexivity|]. split; [exact K|]. split; [exact Or|]. split; [exact C|]. split; [exact Rn|]. split; [exact F1|]. split; [exact F2|]. split; [exact Rm|].
  rewrite R1. split; [exact (contactStruct_once _ _ Q5)|]. split; [exact (contactStruct_in _ _ Q5)|].
  intros r I. specialize (R3 r I). change (mget (vVersions v4) (rv_version r) = Some (rv_vrf r, rv_commitment r)) in R3.
  rewrite (execV_versions _ _ _ _ _ _ Q3), (execV_versions _ _ _ _ _ _ Q2), (execV_versions _ _ _ _ _ _ Q1) in R3.
  destruct (addLabelState_exact _ _ _ _ Q0 _ _ _ R3) as [K'|K']; [destruct r; exact K'|]. rewrite (newCVerifier_versions _ _ _ _ _ Q) in K'. discriminate.
Qed.
