(** Proofs for SteadyProperties.v, continued: where searches end. *)
From Coq Require Import Sorted.
From Verif Require Import Base BaseProofs LogMathModel TransMathModel TransMathSpec TransMathProofs TransMathProofs2 LaddersModel CodecModel AlgModel AlgSpec AlgProofs AlgProofs2 AlgProofs3 AlgProofs5 AlgProofs6 GuardProofs5 TimeProofs SteadySpec.
Open Scope N_scope.
Local Open Scope list_scope.

Section Ends.
Variable c : pubConfig.
Variable L : hlog.
Hypothesis HL : okLog L.
Local Notation n := (h_n L).
Local Notation ts := (h_ts L).
Local Notation g := (h_g L).
Variables ver x0 : N.
Hypothesis H0 : firstWith L ver x0.

Let Hn : 1 <= n < 2 ^ 64 := proj1 HL.
Definition good (y : N) : Prop := x0 <= y /\ sanc n x0 y.

Lemma good_in a len : SRange n a len -> a <= x0 < a + len -> (Z.of_N ver <= g (sroot a len))%Z -> good (sroot a len).
Proof.
  intros R B G. split; [|exists a, len; auto]. destruct H0 as (_ & _ & F). destruct (N.le_gt_cases x0 (sroot a len)) as [|Lt]; [auto|]. specialize (F _ Lt). lia.
Qed.
Lemma past y : y < n -> (g y < Z.of_N ver)%Z -> y < x0.
Proof.
  intros Ly G. destruct H0 as (Lx & Gx & _). destruct (N.lt_ge_cases y x0) as [|Le]; [auto|]. pose proof (proj1 (proj2 (proj2 (proj2 HL))) x0 y ltac:(lia)). lia.
Qed.

(** The distinguished entries met so far that contain the version lie to the right of what is still to be searched, and of the entry found. *)
Definition seen (b : N) (term : option N) (D : list N) : Prop :=
  forall d, In d D -> d < n /\ distinguished n ts (pc_rmw c) d /\ expd c L d = false /\ ((Z.of_N ver <= g d)%Z -> b <= d /\ exists t, term = Some t /\ t <= d).
Definition fresh : Prop := expd c L x0 = false.

Lemma seen_after b term D d : seen b term D -> In d D -> ~ fresh -> exists t, term = Some t /\ t <= d.
Proof.
  intros S I F. destruct (S d I) as (Ld & _ & Ed & K). apply K. destruct (Z.le_gt_cases (Z.of_N ver) (g d)) as [|Gt]; [auto|]. exfalso. apply F. unfold fresh. pose proof (past d Ld Gt) as P.
  destruct (expd c L x0) eqn:Ex; [|reflexivity]. rewrite (expd_mono c L HL d x0) in Ed; [discriminate|destruct H0; lia|exact Ex].
Qed.

Lemma finish_good b term exd D s y s' l : ((exd = false \/ fresh) -> forall t, term = Some t -> good t) -> seen b term D ->
  run (honest L) (fixed_finish ver term exd D) s = (Ok y, s', l) -> good y.
Proof.
  intros G S E. unfold fixed_finish in E. destruct term as [t|]; [|discriminate]. destruct (exd && negb (existsb (fun y => y <? t) D)) eqn:B; [discriminate|].
  apply run_bind_ok in E as (u & s1 & l1 & l2 & _ & E & _). cbn in E. injection E as <- _ _. destruct exd; [|apply G; auto].
  apply negb_false_iff, existsb_exists in B as (d & Id & Ld). apply N.ltb_lt in Ld. apply G; [right|reflexivity]. unfold fresh. destruct (expd c L x0) eqn:Ex; [|reflexivity]. exfalso.
  destruct (seen_after _ _ _ d S Id) as (t' & [= <-] & Le); [unfold fresh; congruence|lia].
Qed.

Lemma loop_ends fuel : forall a len term exd left right D s y s' l, SRange n a len -> ((exd = false \/ fresh) -> forall t, term = Some t -> good t) ->
  ((exd = false \/ fresh) -> a <= x0 < a + len \/ (term <> None /\ a + len <= x0)) ->
  seen (a + len) term D -> (forall d, DIn ts (pc_rmw c) a len left right d -> distinguished n ts (pc_rmw c) d) ->
  (forall x, a <= x < a + len -> left <= ts x <= right) -> right < two64 ->
  run (honest L) (fixed_loop c fuel ver n (ts (n - 1)) (sroot a len) term exd left right D) s = (Ok y, s', l) ->
  fresh \/ (forall d, distinguished n ts (pc_rmw c) d -> d < y) -> good y.
Proof.
  induction fuel as [|f IH]; intros a len term exd left right D s y s' l R Gt B S DI TB R64 E Fr; [discriminate|]. cbn [fixed_loop] in E.
  pose proof (nav_lt n a len Hn R) as Lr. destruct (nav_len n a len Hn R) as (L1 & L2 & L3). set (x := sroot a len) in *. assert (Bx : a <= x < a + len) by (unfold x, sroot; lia). pose proof (TB x Bx) as TBx.
  apply run_bind_ok in E as (t & s1 & l1 & l2 & Et & E & _). cbn [getTs run honest pTs] in Et. rewrite (proj2 (N.ltb_lt x n) Lr) in Et. cbn in Et. injection Et as <- <- _.
  assert (GOR : forall exd' D' s0 l0, ((exd' = false \/ fresh) -> x < x0 /\ (exd = false \/ fresh)) -> seen (a + len) term D' ->
    run (honest L) (if noRightChild x n then fixed_finish ver term exd' D' else pbind (lift (tright x n)) (fun x' => fixed_loop c f ver n (ts (n - 1)) x' term exd' (ts x) right D')) s0 = (Ok y, s', l0) -> good y).
  { intros exd' D' s0 l0 Lx S' E'. pose proof (nav_noRight n a len Hn R) as Nr. fold x in Nr. rewrite Nr in E'. clear Nr. destruct (N.eqb_spec len (lsize len + 1)) as [El|Nl]; [eapply finish_good; [|exact S'|exact E']; intros K; apply Gt, Lx, K|].
    pose proof (nav_right n a len Hn R ltac:(lia)) as Nr. fold x in Nr. rewrite Nr in E'. clear Nr. cbn [lift pbind] in E'. eapply IH; [| | | | | | |exact E'|exact Fr].
    - constructor; [exact R|lia].
    - intros K; apply Gt, Lx, K.
    - intro K. destruct (Lx K) as [Lx' K']. unfold x, sroot in *. destruct (B K') as [B'|[T B']]; [left; lia|right; split; [exact T|lia]].
    - replace (x + 1 + (len - lsize len - 1)) with (a + len) by (unfold x, sroot; lia). exact S'.
    - intros d Hd. apply DI. apply DI_right; [pose proof (DIn_bound _ _ _ _ _ _ _ Hd); lia|lia|exact Hd].
    - intros z Hz. split; [apply HL; unfold x, sroot in *; lia|apply TB; unfold x, sroot in *; lia].
    - exact R64. }
  destruct (isExpired (pc_maxLife c) (ts x) (ts (n - 1))) eqn:Ex.
  { eapply GOR; [|exact S|exact E]. intros [K|K]; [discriminate|]. split; [|right; exact K]. destruct (N.lt_ge_cases x x0) as [|Le]; [auto|]. unfold fresh in K. rewrite (expd_mono c L HL x0 x) in K; [discriminate|lia|exact Ex]. }
  set (D' := if isDistinguished (pc_rmw c) left right then D ++ [x] else D) in E.
  assert (ID : forall d, In d D' -> In d D \/ d = x /\ distinguished n ts (pc_rmw c) x).
  { unfold D'. destruct (isDistinguished (pc_rmw c) left right) eqn:Q; [|auto]. intros d I. apply in_app_or in I as [I|[<-|[]]]; [auto|]. right. split; [reflexivity|]. apply DI, DI_here. apply isDist_spec in Q; [exact Q|lia|exact R64]. }
  cbv zeta in E.
  apply run_bind_ok in E as (r & s2 & l3 & l4 & Er & E & _). cbn [getLadder run honest pLadder] in Er. rewrite (proj2 (N.ltb_lt x n) Lr) in Er. cbn in Er. injection Er as <- <- _.
  assert (Sx : forall b term', b <= x -> b <= a + len -> (forall t, term = Some t -> exists t', term' = Some t' /\ t' <= t) -> ((Z.of_N ver <= g x)%Z -> exists t', term' = Some t' /\ t' <= x) -> seen b term' D').
  { intros b term' Bb Bb' K1 K2 d I. destruct (ID d I) as [Id|[-> Dx]].
    - destruct (S d Id) as (A1 & A2 & A3 & A4). split; [exact A1|]. split; [exact A2|]. split; [exact A3|]. intro G. destruct (A4 G) as (P1 & t & P2 & P3). split; [lia|]. destruct (K1 t P2) as (t' & Q1 & Q2). exists t'. split; [exact Q1|lia].
    - split; [exact Lr|]. split; [exact Dx|]. split; [exact Ex|]. intro G. split; [exact Bb|]. apply K2; exact G. }
  unfold cmp3 in E. destruct (Z.compare_spec (g x) (Z.of_N ver)) as [Q|Q|Q].
  - (* the greatest version *)
    assert (Gx : exd = false \/ fresh -> good x).
    { intro K. destruct (B K) as [B'|[_ B']]; [apply good_in; auto; fold x; lia|]. destruct H0 as (_ & _ & F). specialize (F x ltac:(lia)). lia. }
    cbn [Z.eqb Z.compare] in E. destruct exd; cbn [negb] in E; [|cbn in E; injection E as <- _ _; apply Gx; auto].
    destruct (existsb (fun y0 => y0 <=? x) D') eqn:Xb; [|discriminate]. cbn in E. injection E as <- _ _. apply existsb_exists in Xb as (d & Id & Ld). apply N.leb_le in Ld.
    destruct Fr as [Fr|Fr]; [apply Gx; auto|]. destruct (ID d Id) as [Id'|[-> Dx]]; [|specialize (Fr x Dx); lia].
    destruct (S d Id') as (A1 & A2 & A3 & A4). destruct (Z.le_gt_cases (Z.of_N ver) (g d)) as [G|G]; [destruct (A4 G); lia|]. apply Gx. right. unfold fresh. pose proof (past d A1 G) as P.
    destruct (expd c L x0) eqn:E0; [|reflexivity]. rewrite (expd_mono c L HL d x0) in A3; [discriminate|destruct H0; lia|exact E0].
  - (* not there *)
    change ((0 <=? -1)%Z) with false in E. change ((-1 =? -1)%Z) with true in E. cbn [andb] in E. cbv iota in E.
    eapply GOR; [| |exact E].
    + intro K. split; [exact (past x Lr Q)|exact K].
    + intros d I. destruct (ID d I) as [Id|[-> Dx]]; [apply S; exact Id|]. split; [exact Lr|]. split; [exact Dx|]. split; [exact Ex|]. intro; lia.
  - (* greater *)
    set (term' := if (0 <=? 1)%Z && match term with None => true | Some t => x <? t end then Some x else term) in E.
    assert (Gx : exd = false \/ fresh -> good x).
    { intro K. destruct (B K) as [B'|[_ B']]; [apply good_in; auto; fold x; lia|destruct H0 as (_ & _ & F); specialize (F x ltac:(lia)); lia]. }
    assert (T1 : exists t, term' = Some t /\ t <= x).
    { unfold term'. change ((0 <=? 1)%Z) with true. cbn [andb]. destruct term as [t|]; [destruct (N.ltb_spec x t)|]; eexists; (split; [reflexivity|lia]). }
    assert (T2 : forall t, term = Some t -> exists t', term' = Some t' /\ t' <= t).
    { intros t ->. unfold term'. change ((0 <=? 1)%Z) with true. cbn [andb]. destruct (N.ltb_spec x t); eexists; (split; [reflexivity|lia]). }
    assert (T3 : exd = false \/ fresh -> forall t, term' = Some t -> good t).
    { intros K t. unfold term'. destruct (_ && _); [intros [= <-]; apply Gx, K|apply Gt, K]. }
    change ((1 =? -1)%Z) with false in E. change ((1 =? 1)%Z) with true in E. cbv iota in E. pose proof (nav_noLeft n a len Hn R) as Nr. fold x in Nr. rewrite Nr in E. clear Nr.
    destruct (N.eqb_spec (lsize len) 0) as [El|Nl]; [eapply finish_good; [exact T3|apply (Sx x); auto; lia|exact E]|].
    pose proof (nav_left n a len Hn R ltac:(lia)) as Nr. fold x in Nr. rewrite Nr in E. clear Nr. cbn [lift pbind] in E. eapply IH; [| | | | | | |exact E|exact Fr].
    + constructor; [exact R|lia].
    + exact T3.
    + intro K. destruct (Gx K) as [Gx' _]. destruct (B K) as [B'|[_ B']]; [|lia]. unfold x, sroot in *. destruct T1 as (t1 & T1 & _). destruct (N.eq_dec x0 (a + lsize len)); [right; split; [congruence|lia]|left; lia].
    + apply Sx; auto; unfold x, sroot in *; lia.
    + intros d Hd. apply DI. apply DI_left; [pose proof (DIn_bound _ _ _ _ _ _ _ Hd); lia|lia|exact Hd].
    + intros z Hz. split; [apply TB; unfold x, sroot in *; lia|apply HL; unfold x, sroot in *; lia].
    + apply HL. exact Lr.
Qed.

Lemma fixed_ends s y : result (run (honest L) (fixedVersionSearch c ver n) s) = Ok y ->
  fresh \/ (forall d, distinguished n ts (pc_rmw c) d -> d < y) -> good y.
Proof.
  intros E Fr. destruct (run (honest L) (fixedVersionSearch c ver n) s) as [[r s'] l] eqn:Er. cbn in E. subst r. unfold fixedVersionSearch in Er. replace (n =? 0) with false in Er by (symmetry; apply N.eqb_neq; lia).
  rewrite sub1_64 in Er by auto. apply run_bind_ok in Er as (t & s1 & l1 & l2 & Et & E & _). cbn [getTs run honest pTs] in Et. rewrite (proj2 (N.ltb_lt (n - 1) n)) in Et by lia. cbn in Et. injection Et as <- <- _.
  destruct (c09_entries n Hn) as (Er & _). rewrite Er in E. eapply loop_ends; [apply SR_root| | | | | | |exact E|exact Fr].
  - discriminate.
  - left. destruct H0 as (A & _). lia.
  - intros d [].
  - auto.
  - intros z Hz. split; [lia|]. apply HL. lia.
  - apply HL. lia.
Qed.

Lemma front_ends a len f : SFront a len f -> SRange n a len -> forall l1 t l2, f = l1 ++ t :: l2 -> Forall (fun y => y < x0) l1 -> a <= x0 -> x0 <= t -> sanc n x0 t.
Proof.
  intro F. induction F as [a len El|a len rest Hr F IH]; intros R l1 t l2 E Fo A B; destruct (nav_len n a len Hn R) as (L1 & L2 & L3).
  - destruct l1 as [|y l1]; [|destruct l1; discriminate]. injection E as <- _. exists a, len. split; [exact R|]. split; [reflexivity|]. unfold sroot in *. lia.
  - destruct l1 as [|y l1]; [injection E as <- _; exists a, len; split; [exact R|]; split; [reflexivity|]; unfold sroot in *; lia|]. injection E as <- E. inversion Fo; subst.
    eapply IH; [constructor; auto|reflexivity|assumption|lia|exact B].
Qed.

Lemma front_sorted a len f : SFront a len f -> SRange n a len -> StronglySorted N.lt f /\ Forall (fun y => a <= y < a + len) f.
Proof.
  intro F. induction F as [a len El|a len rest Hr F IH]; intro R; destruct (nav_len n a len Hn R) as (L1 & L2 & L3); [split; repeat constructor; unfold sroot; lia|]. destruct IH as [S G]; [constructor; auto|]. split; constructor; auto.
  - eapply Forall_impl; [|exact G]. cbn. unfold sroot. intros; lia.
  - unfold sroot; lia.
  - eapply Forall_impl; [|exact G]. cbn. unfold sroot. intros; lia.
Qed.

Lemma greatest_ends s y : result (run (honest L) (greatestVersionSearch c ver n) s) = Ok y ->
  (forall d, distinguished n ts (pc_rmw c) d -> d < y) -> good y.
Proof.
  intros E Dy. destruct (c20_greatest c L ver s HL) as (pre & path & o & Go & F & Hd & G1 & G2). cbv zeta in G1, G2. rewrite E in G1, G2.
  destruct (Z.eq_dec (g (n - 1)) (Z.of_N ver)) as [Q|Q]; [|destruct (G2 Q) as (m & K & _); discriminate]. destruct (G1 Q) as (p & t & q & -> & [= <-] & Gt & Fp). clear G1 G2 E.
  assert (Ly : x0 <= y).
  { destruct (N.le_gt_cases x0 y) as [|Lt]; [auto|]. destruct H0 as (_ & _ & K). specialize (K y Lt). lia. }
  split; [exact Ly|]. destruct (front_sorted 0 n _ F (SR_root n)) as [S Rg].
  assert (Fl : forall z, In z (pre ++ p) -> z < y).
  { clear - S. rewrite app_assoc in S. revert S. generalize (pre ++ p). intro l. induction l as [|a l IH]; intros S z I; [destruct I|]. cbn [app] in S. inversion S as [|? ? S1 F1]; subst. rewrite Forall_forall in F1.
    destruct I as [<-|I]; [apply F1, in_or_app; right; now left|eauto]. }
  destruct p as [|h p].
  - (* the search ended at its first entry *)
    cbn [app hd_error] in Hd. injection Hd as Hd. destruct o as [d|]; [destruct Go as [Go _]; specialize (Dy d Go); lia|]. subst y. exists 0, n. split; [apply SR_root|]. split; [reflexivity|]. destruct H0 as (A & _). lia.
  - eapply front_ends; [exact F|apply SR_root|rewrite app_assoc; reflexivity| |lia|exact Ly].
    assert (Yn : y < n).
    { rewrite Forall_forall in Rg. specialize (Rg y ltac:(apply in_or_app; right; apply in_or_app; right; now left)). lia. }
    assert (Lh : forall z, In z (h :: p) -> z < x0) by (intros z I; apply past; [pose proof (Fl z ltac:(apply in_or_app; now right)); lia|apply (proj1 (Forall_forall _ _) Fp _ I)]).
    apply Forall_forall. intros z I. apply in_app_or in I as [I|I]; [|auto].
    assert (z < h). { clear - S I. revert S I. induction pre as [|a l IH]; intros S I; [destruct I|]. cbn [app] in S. inversion S as [|? ? S1 F1]; subst. rewrite Forall_forall in F1. destruct I as [<-|I]; [apply F1, in_or_app; right; now left|eauto]. }
    specialize (Lh h ltac:(now left)). lia.
Qed.
End Ends.

Lemma search_ends c L : okLog L -> forall ver x0, firstWith L ver x0 ->
  (forall s x, result (run (honest L) (fixedVersionSearch c ver (h_n L)) s) = Ok x ->
   isExpired (pc_maxLife c) (h_ts L x0) (h_ts L (h_n L - 1)) = false \/ (forall d, distinguished (h_n L) (h_ts L) (pc_rmw c) d -> d < x) -> endsAt L (h_n L) ver x) /\
  (forall s x, result (run (honest L) (greatestVersionSearch c ver (h_n L)) s) = Ok x ->
   (forall d, distinguished (h_n L) (h_ts L) (pc_rmw c) d -> d < x) -> endsAt L (h_n L) ver x).
Proof.
  intros HL ver x0 F. split; intros s x E D.
  - exists x0. split; [exact F|exact (fixed_ends c L HL ver x0 F s x E D)].
  - exists x0. split; [exact F|exact (greatest_ends c L HL ver x0 F s x E D)].
Qed.
