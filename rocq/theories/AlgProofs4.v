(** Facts that hold whatever a provider answers: no panic, termination, owner state, clock bounds. *)
From Coq Require Import Sorted.
From Verif Require Import Base BaseProofs LogMathModel NodeMathProofs LogMathProofs TransMathModel TransMathSpec TransMathProofs TransMathProofs2 LaddersModel LaddersProofs CodecModel AlgModel AlgSpec AlgProofs AlgProofs2 AlgProofs3.

(** ** Weakest precondition over all answers *)

Fixpoint wp {A} (Q : A -> Prop) (p : prog A) : Prop :=
  match p with
  | Ret a => Q a
  | Err _ => True
  | Crash _ | Diverge => False
  | GetTs x k e => (forall t, wp Q (k t)) /\ (forall m, wp Q (e m))
  | GetLadder x v o k e => (forall t, wp Q (k t)) /\ (forall m, wp Q (e m))
  | GetMonitoring x v k e => wp Q k /\ (forall m, wp Q (e m))
  | GetIncl x v k e => wp Q k /\ (forall m, wp Q (e m))
  | StopCond x v k => forall b, wp Q (k b)
  | TrackLadder x o g l k => wp Q k
  end.

Lemma wp_bind {A B} (Q : B -> Prop) (p : prog A) (f : A -> prog B) : wp (fun a => wp Q (f a)) p -> wp Q (pbind p f).
Proof. induction p; cbn; intuition. Qed.

Lemma wp_mono {A} (Q R : A -> Prop) (p : prog A) : (forall a, Q a -> R a) -> wp Q p -> wp R p.
Proof. intro H. induction p; cbn; intuition. Qed.

Lemma wp_catch {A} (Q : A -> Prop) (p : prog A) (h : string -> prog A) : wp Q p -> (forall m, wp Q (h m)) -> wp Q (pcatch p h).
Proof. intros H Hh. induction p; cbn in *; intuition. Qed.

Lemma wp_lift {A} (Q : A -> Prop) (r : res A) a : r = Ok a -> Q a -> wp Q (lift r).
Proof. intros -> H. exact H. Qed.

Lemma wp_getTs (Q : N -> Prop) x : (forall t, Q t) -> wp Q (getTs x).
Proof. intro H. cbn. auto. Qed.
Lemma wp_getLadder (Q : Z -> Prop) x v o : (forall t, Q t) -> wp Q (getLadder x v o).
Proof. intro H. cbn. auto. Qed.

Lemma wp_run {A S} (P : provider S) (Q : A -> Prop) : tame P -> forall (p : prog A) s, wp Q p ->
  match result (run P p s) with Ok a => Q a | Fail _ => True | _ => False end.
Proof.
  intros (T1 & T2 & T3 & T4). induction p as [a|m|m| |x k IHk e IHe|x v o k IHk e IHe|x v k IHk e IHe|x v k IHk e IHe|x v k IHk|x o g l k IHk]; cbn; intros s H; auto.
  - pose proof (T1 s x). destruct (pTs P s x) as [[a|m|m|] s']; cbn in *; try tauto.
    + destruct H as [H _]. specialize (IHk a s' (H a)). destruct (run P (k a) s') as [[? ?] ?]. exact IHk.
    + destruct H as [_ H]. specialize (IHe m s' (H m)). destruct (run P (e m) s') as [[? ?] ?]. exact IHe.
  - pose proof (T2 s x v o). destruct (pLadder P s x v o) as [[a|m|m|] s']; cbn in *; try tauto.
    + destruct H as [H _]. specialize (IHk a s' (H a)). destruct (run P (k a) s') as [[? ?] ?]. exact IHk.
    + destruct H as [_ H]. specialize (IHe m s' (H m)). destruct (run P (e m) s') as [[? ?] ?]. exact IHe.
  - pose proof (T3 s x v). destruct (pMon P s x v) as [[a|m|m|] s']; cbn in *; try tauto.
    + destruct H as [H _]. specialize (IHk s' H). destruct (run P k s') as [[? ?] ?]. exact IHk.
    + destruct H as [_ H]. specialize (IHe m s' (H m)). destruct (run P (e m) s') as [[? ?] ?]. exact IHe.
  - pose proof (T4 s x v). destruct (pIncl P s x v) as [[a|m|m|] s']; cbn in *; try tauto.
    + destruct H as [H _]. specialize (IHk s' H). destruct (run P k s') as [[? ?] ?]. exact IHk.
    + destruct H as [_ H]. specialize (IHe m s' (H m)). destruct (run P (e m) s') as [[? ?] ?]. exact IHe.
  - specialize (IHk (pStop P s x v) s (H _)). destruct (run P (k _) s) as [[? ?] ?]. exact IHk.
  - specialize (IHk (pTrack P s x o g l) H). destruct (run P k _) as [[? ?] ?]. exact IHk.
Qed.

(** ** Binary search *)

Lemma bsearch_loop_ok l target : forall fuel i j, (j - i < fuel)%nat -> (i <= j <= List.length l)%nat ->
  exists k, bsearch_loop fuel l target i j = Ok k /\ (i <= k <= j)%nat.
Proof.
  induction fuel as [|f IH]; intros i j Hf H; [lia|]. cbn [bsearch_loop]. destruct (Nat.ltb_spec i j); [|exists i; split; [reflexivity|lia]].
  assert (Hh : (i <= Nat.div2 (i + j) < j)%nat) by (rewrite Nat.div2_div; split; [apply Nat.div_le_lower_bound; lia|apply Nat.div_lt_upper_bound; lia]).
  destruct (nth_error l (Nat.div2 (i + j))) eqn:E; [|apply nth_error_None in E; lia].
  destruct (n <? target).
  - destruct (IH (S (Nat.div2 (i + j))) j) as (k & Ek & Hk); [lia|lia|]. exists k. split; auto. lia.
  - destruct (IH i (Nat.div2 (i + j))) as (k & Ek & Hk); [lia|lia|]. exists k. split; auto. lia.
Qed.

Lemma bsearch_ok l target : exists k, bsearch l target = Ok k /\ (k <= List.length l)%nat.
Proof. destruct (bsearch_loop_ok l target (S (List.length l)) 0 (List.length l)) as (k & E & H); [lia|lia|]. exists k. split; [exact E|lia]. Qed.

Lemma sorted_nth l : StronglySorted N.le l -> forall i j a b, (i <= j)%nat -> nth_error l i = Some a -> nth_error l j = Some b -> a <= b.
Proof.
  intro H. induction H as [|x l H IH F]; intros i j a b Hij Ea Eb; [destruct i; discriminate|].
  destruct j; [destruct i; [|lia]; cbn in *; injection Ea as <-; injection Eb as <-; lia|].
  destruct i; cbn in *.
  - injection Ea as <-. rewrite Forall_forall in F. apply F. eapply nth_error_In; eauto.
  - apply (IH i j a b); auto. lia.
Qed.

(** On a sorted list the index found separates the smaller elements from the others. *)
Lemma bsearch_loop_spec l target : StronglySorted N.le l -> forall fuel i j, (j - i < fuel)%nat -> (i <= j <= List.length l)%nat ->
  (forall p a, (p < i)%nat -> nth_error l p = Some a -> a < target) ->
  (forall p a, (j <= p)%nat -> nth_error l p = Some a -> target <= a) ->
  exists k, bsearch_loop fuel l target i j = Ok k /\
    (forall p a, (p < k)%nat -> nth_error l p = Some a -> a < target) /\
    (forall p a, (k <= p)%nat -> nth_error l p = Some a -> target <= a).
Proof.
  intro HS. induction fuel as [|f IH]; intros i j Hf H Hlo Hhi; [lia|]. cbn [bsearch_loop]. destruct (Nat.ltb_spec i j).
  2:{ exists i. split; auto. split; auto. intros p a Hp. apply Hhi. lia. }
  assert (Hh : (i <= Nat.div2 (i + j) < j)%nat) by (rewrite Nat.div2_div; split; [apply Nat.div_le_lower_bound; lia|apply Nat.div_lt_upper_bound; lia]).
  destruct (nth_error l (Nat.div2 (i + j))) as [v|] eqn:E; [|apply nth_error_None in E; lia].
  destruct (N.ltb_spec v target).
  - apply IH; [lia|lia| |auto]. intros p a Hp Ea. pose proof (sorted_nth l HS p (Nat.div2 (i + j)) a v ltac:(lia) Ea E). lia.
  - apply IH; [lia|lia|auto|]. intros p a Hp Ea. pose proof (sorted_nth l HS (Nat.div2 (i + j)) p v a ltac:(lia) E Ea). lia.
Qed.

Lemma count_split l : forall k x, (forall p a, (p < k)%nat -> nth_error l p = Some a -> a <= x) ->
  (forall p a, (k <= p)%nat -> nth_error l p = Some a -> x < a) -> (k <= List.length l)%nat ->
  countLe x l = k /\ skipn k l = filter (fun a => x <? a) l.
Proof.
  unfold countLe. induction l as [|y l IH]; intros k x H1 H2 Hk; cbn in Hk.
  - destruct k; [|lia]. auto.
  - destruct k.
    + assert (Hy : x < y) by (apply (H2 O y); auto; lia). cbn [filter]. rewrite (proj2 (N.leb_gt _ _) Hy), (proj2 (N.ltb_lt _ _) Hy).
      destruct (IH O x) as [A B]; [intros; lia|intros p a Hp E; apply (H2 (S p) a); auto; lia|lia|].
      split; auto. cbn [skipn] in *. congruence.
    + assert (Hy : y <= x) by (apply (H1 O y); auto; lia). cbn [filter skipn]. rewrite (proj2 (N.leb_le _ _) Hy), (proj2 (N.ltb_ge _ _) Hy).
      destruct (IH k x) as [A B]; [intros p a Hp E; apply (H1 (S p) a); auto; lia|intros p a Hp E; apply (H2 (S p) a); auto; lia|lia|].
      split; auto. cbn. lia.
Qed.

Lemma bsearch_spec l x : StronglySorted N.le l -> x < two64 - 1 ->
  bsearch l (add64 x 1) = Ok (countLe x l) /\ skipn (countLe x l) l = filter (fun a => x <? a) l.
Proof.
  intros HS Hx. assert (E1 : add64 x 1 = x + 1) by (unfold add64; unfold two64 in *; lia). rewrite E1.
  destruct (bsearch_loop_spec l (x + 1) HS (S (List.length l)) 0 (List.length l)) as (k & E & A & B); [lia|lia|intros; lia| |].
  { intros p a Hp Ea. assert (nth_error l p <> None) by congruence. apply nth_error_Some in H. lia. }
  destruct (bsearch_loop_ok l (x + 1) (S (List.length l)) 0 (List.length l)) as (k' & E' & Hk); [lia|lia|].
  rewrite E in E'. injection E' as <-.
  destruct (count_split l k x) as [C D].
  - intros p a Hp Ea. specialize (A p a Hp Ea). lia.
  - intros p a Hp Ea. specialize (B p a Hp Ea). lia.
  - lia.
  - unfold bsearch. rewrite E, C. auto.
Qed.

(** ** The owner state against the label's history *)

Lemma countLe_app x l1 l2 : countLe x (l1 ++ l2) = (countLe x l1 + countLe x l2)%nat.
Proof. unfold countLe. rewrite filter_app, app_length. auto. Qed.

Lemma countLe_gt s x l : s <= x -> countLe x l = (countLe s l + countLe x (filter (fun a => (s <? a)%N) l))%nat.
Proof.
  intro H. unfold countLe. induction l as [|y l IH]; auto. cbn [filter].
  destruct (N.leb_spec y s), (N.ltb_spec s y); try lia; destruct (N.leb_spec y x); try lia; cbn [List.length filter].
  - lia.
  - rewrite (proj2 (N.leb_le y x)) by auto. cbn. lia.
  - rewrite (proj2 (N.leb_gt y x)) by auto. lia.
Qed.

Lemma filter_sorted (f : N -> bool) l : StronglySorted N.le l -> StronglySorted N.le (filter f l).
Proof.
  intro H. induction H as [|x l H IH F]; [constructor|]. cbn. destruct (f x); auto. constructor; auto.
  rewrite Forall_forall in *. intros y Hy. apply filter_In in Hy. apply F. tauto.
Qed.

Lemma tracks_at hist os x : StronglySorted N.le hist -> tracks hist os -> os_starting os <= x -> x < two64 - 1 ->
  greatestVersionAt os x = Ok (Z.of_nat (countLe x hist) - 1)%Z.
Proof.
  intros HS (T1 & T2) Hx Hx64. unfold greatestVersionAt. rewrite T1.
  destruct (bsearch_spec (filter (fun a => os_starting os <? a) hist) x) as [-> _]; [apply filter_sorted; auto|auto|].
  cbn. f_equal. rewrite T2, (countLe_gt (os_starting os) x hist Hx). lia.
Qed.

Lemma filter_filter_gt s x l : s <= x -> filter (fun a => x <? a) (filter (fun a => s <? a) l) = filter (fun a => x <? a) l.
Proof.
  intro H. induction l as [|y l IH]; auto. cbn [filter]. destruct (N.ltb_spec s y); cbn [filter]; rewrite IH; auto.
  rewrite (proj2 (N.ltb_ge x y)) by lia. auto.
Qed.

Lemma tracks_set hist os x : StronglySorted N.le hist -> tracks hist os -> os_starting os <= x -> x < two64 - 1 ->
  exists os', setStarting os x = Ok os' /\ os_starting os' = x /\ tracks hist os'.
Proof.
  intros HS (T1 & T2) Hx Hx64. unfold setStarting. rewrite T1.
  destruct (bsearch_spec (filter (fun a => os_starting os <? a) hist) x) as [-> E]; [apply filter_sorted; auto|auto|].
  cbn. eexists. split; [reflexivity|]. split; [reflexivity|]. split; cbn.
  - rewrite E. apply filter_filter_gt; auto.
  - rewrite T2, (countLe_gt (os_starting os) x hist Hx). lia.
Qed.

Lemma countLe_filter_le s l : (countLe s l + List.length (filter (fun a => (s <? a)%N) l) = List.length l)%nat.
Proof.
  unfold countLe. induction l as [|y l IH]; auto. cbn [filter]. destruct (N.leb_spec y s), (N.ltb_spec s y); try lia; cbn; lia.
Qed.

Lemma tracks_greatest hist os : tracks hist os -> greatestVersion os = (Z.of_nat (List.length hist) - 1)%Z.
Proof. intros (T1 & T2). unfold greatestVersion. rewrite T1, T2. pose proof (countLe_filter_le (os_starting os) hist). lia. Qed.

Lemma last_filter_gt s l : StronglySorted N.le l -> List.last (filter (fun a => s <? a) l) s = N.max s (List.last l 0).
Proof.
  intro H. induction H as [|x l H IH F]; [cbn; lia|]. cbn [filter].
  assert (EL : List.last (x :: l) 0 = N.max x (List.last l 0)).
  { destruct l as [|y l]; [cbn; lia|]. change (List.last (x :: y :: l) 0) with (List.last (y :: l) 0).
    rewrite Forall_forall in F. assert (In (List.last (y :: l) 0) (y :: l)).
    { clear. revert y. induction l as [|z l IH]; intro y; [left; auto|]. right. apply IH. }
    specialize (F _ H0). lia. }
  rewrite EL. destruct (N.ltb_spec s x).
  - destruct (filter (fun a => s <? a) l) as [|z f] eqn:Ef.
    + cbn. destruct l as [|y l]; [cbn; lia|]. cbn [filter] in Ef. destruct (N.ltb_spec s y); [discriminate|].
      inversion F; subst. lia.
    + change (List.last (x :: z :: f) s) with (List.last (z :: f) s). rewrite IH.
      rewrite Forall_forall in F. assert (x <= z) by (apply F; assert (In z (filter (fun a => s <? a) l)) by (rewrite Ef; left; auto); apply filter_In in H1; tauto).
      assert (s < x) by auto. assert (Hin : In (List.last (z :: f) s) (z :: f)).
      { clear. revert z. induction f as [|u f IH]; intro z; [left; auto|]. right. apply IH. }
      rewrite <- Ef in Hin. apply filter_In in Hin as [Hin _]. rewrite Ef in Hin. rewrite IH in Hin. specialize (F _ Hin). lia.
  - rewrite IH. lia.
Qed.

Lemma tracks_last hist os : StronglySorted N.le hist -> tracks hist os -> lastUpdate os = N.max (os_starting os) (List.last hist 0).
Proof. intros HS (T1 & _). unfold lastUpdate. rewrite T1. apply last_filter_gt; auto. Qed.

Lemma tracks_update hist os pos k : tracks hist os -> os_starting os < pos ->
  tracks (hist ++ repeat pos k) {| os_starting := os_starting os; os_verAt := os_verAt os; os_upcoming := os_upcoming os ++ repeat pos k |}.
Proof.
  intros (T1 & T2) Hp. unfold tracks. cbn. rewrite filter_app, countLe_app, T1, T2.
  assert (A : filter (fun a => os_starting os <? a) (repeat pos k) = repeat pos k).
  { induction k as [|k IH]; auto. cbn. rewrite (proj2 (N.ltb_lt _ _) Hp), IH. auto. }
  assert (B : countLe (os_starting os) (repeat pos k) = O).
  { clear A. unfold countLe. induction k as [|k IH]; auto. cbn. rewrite (proj2 (N.leb_gt _ _) Hp). auto. }
  rewrite A, B. split; auto. lia.
Qed.

Lemma owner_state hist os : StronglySorted N.le hist -> tracks hist os ->
  (forall x, os_starting os <= x < two64 - 1 -> greatestVersionAt os x = Ok (Z.of_nat (countLe x hist) - 1)%Z) /\
  greatestVersion os = (Z.of_nat (List.length hist) - 1)%Z /\
  lastUpdate os = N.max (os_starting os) (List.last hist 0) /\
  (forall x, os_starting os <= x < two64 - 1 -> exists os', setStarting os x = Ok os' /\ os_starting os' = x /\ tracks hist os') /\
  (forall pos k, os_starting os < pos ->
     tracks (hist ++ repeat pos k) {| os_starting := os_starting os; os_verAt := os_verAt os; os_upcoming := os_upcoming os ++ repeat pos k |}).
Proof.
  intros HS HT. split; [intros x [? ?]; apply tracks_at; auto|]. split; [apply tracks_greatest; auto|]. split; [apply tracks_last; auto|].
  split; [intros x [? ?]; apply tracks_set; auto|]. intros. apply tracks_update; auto.
Qed.

(** ** Navigation under every answer *)

Definition ok64 (n : N) := 1 <= n < 2 ^ 64.

Lemma log_fuel n a len : ok64 n -> SRange n a len -> N.log2 len < 64.
Proof.
  intros Hn R. pose proof (nav_len n a len Hn R). apply N.log2_lt_pow2; [lia|]. unfold ok64 in Hn. lia.
Qed.

Section Safe.
Variable c : pubConfig.

(** Right edges: [a + len = n]. *)
Lemma rightmost_loop_safe n (Hn : ok64 n) fuel : forall rm a len, SRange n a len -> a + len = n -> N.log2 len < N.of_nat fuel ->
  wp (fun o => exists a' len', o = Some (sroot a' len') /\ SRange n a' len' /\ a' + len' = n) (rightmost_loop c fuel n rm (sroot a len)).
Proof.
  induction fuel as [|f IH]; intros rm a len R E Hf; [lia|]. cbn [rightmost_loop]. rewrite sub1_64 by auto.
  pose proof (nav_len n a len Hn R) as (L1 & L2 & L3).
  destruct (N.eqb_spec (sroot a len) (n - 1)); [cbn; eauto|].
  apply wp_bind, wp_getTs. intro t. destruct (negb _); [cbn; eauto|].
  assert (Hr : lsize len + 1 < len) by (unfold sroot in *; lia).
  apply wp_bind. eapply wp_lift; [apply (nav_right n a len Hn R Hr)|]. apply IH.
  - constructor; auto.
  - unfold sroot in *. lia.
  - pose proof (rsize_log len Hr). lia.
Qed.

Lemma rightmost_safe n : n < 2 ^ 64 ->
  wp (fun o => forall x, o = Some x -> exists a len, x = sroot a len /\ SRange n a len /\ a + len = n) (rightmostDistinguished c n).
Proof.
  intro H. unfold rightmostDistinguished. destruct (N.eqb_spec n 0); [cbn; discriminate|].
  assert (Hn : ok64 n) by (unfold ok64; lia).
  apply wp_bind, wp_getTs. intro t. destruct (negb _); [cbn; discriminate|].
  destruct (c09_entries n Hn) as (-> & _). eapply wp_mono; [|apply rightmost_loop_safe; auto; [constructor|]].
  - intros o (a & len & -> & R & E) x Hx. injection Hx as <-. eauto.
  - pose proof (log_fuel n 0 n Hn (SR_root n)). lia.
Qed.

Lemma previous_loop_safe n (Hn : ok64 n) fuel : forall r a len, SRange n a len -> N.log2 len < N.of_nat fuel ->
  wp (fun _ => True) (previous_loop c fuel n r (sroot a len)).
Proof.
  induction fuel as [|f IH]; intros rm a len R Hf; [lia|]. cbn [previous_loop].
  rewrite (nav_noRight n a len Hn R). destruct (N.eqb_spec len (lsize len + 1)); [exact I|].
  pose proof (nav_len n a len Hn R) as (L1 & L2 & L3).
  apply wp_bind, wp_getTs. intro t. destruct (negb _); [exact I|].
  assert (Hr : lsize len + 1 < len) by lia.
  apply wp_bind. eapply wp_lift; [apply (nav_right n a len Hn R Hr)|]. apply IH.
  - constructor; auto.
  - pose proof (rsize_log len Hr). lia.
Qed.

(** Every entry but the root has a parent. *)
Lemma nav_parent n a len : ok64 n -> SRange n a len -> sroot a len <> troot n ->
  exists a' len', tparent (sroot a len) n = Ok (sroot a' len') /\ SRange n a' len' /\
    ((a = a' /\ len = lsize len' /\ 0 < lsize len') \/ (a = sroot a' len' + 1 /\ len = len' - lsize len' - 1 /\ lsize len' + 1 < len')).
Proof.
  intros Hn R Hne. destruct (c09_entries n Hn) as (E0 & _). rewrite E0 in Hne.
  inversion R as [|a' len' R' Hl|a' len' R' Hr]; subst.
  - congruence.
  - exists a, len'. destruct (c09_nav n a len' Hn R') as (_ & _ & A & _). destruct A as [_ A]; [unfold sroot; lia|]. auto 7.
  - exists a', len'. destruct (c09_nav n a' len' Hn R') as (_ & _ & _ & A). destruct A as [_ A]; [unfold sroot; lia|]. auto 6.
Qed.

Lemma previous_safe n : n < 2 ^ 64 -> wp (fun _ => True) (previousRightmost c n).
Proof.
  intro H. destruct (N.eq_dec n 0) as [->|Hn0]; [exact I|]. assert (Hn : ok64 n) by (unfold ok64; lia).
  unfold previousRightmost. apply wp_bind. eapply wp_mono; [|apply rightmost_safe; auto].
  intros [x|] Hx; [|exact I]. destruct (Hx x eq_refl) as (a & len & -> & R & E).
  destruct (negb _); [exact I|].
  apply wp_bind. eapply (wp_mono (fun _ => True)).
  2:{ destruct (N.eqb_spec (sroot a len) (troot n)); [exact I|]. destruct (nav_parent n a len Hn R n0) as (a' & len' & -> & _). exact I. }
  intros parent _. apply wp_bind. eapply (wp_mono (fun _ => True)); [|destruct parent; [apply wp_getTs; auto|exact I]].
  intros l _. apply wp_bind, wp_getTs. intro r. destruct (hasLeftChild _ && _) eqn:B; [|exact I].
  apply andb_true_iff in B as [B _]. unfold hasLeftChild in B. rewrite (nav_noLeft n a len Hn R), negb_true_iff, N.eqb_neq in B.
  assert (Hl : 0 < lsize len) by lia. apply wp_bind. eapply wp_lift; [apply (nav_left n a len Hn R Hl)|].
  apply previous_loop_safe; auto; [constructor; auto|]. pose proof (lsize_log len Hl). pose proof (log_fuel n a len Hn R). lia.
Qed.

Lemma getAllTs_safe xs : wp (fun _ => True) (getAllTs xs).
Proof. induction xs as [|x t IH]; [exact I|]. cbn [getAllTs]. apply wp_bind, wp_getTs. auto. Qed.

Lemma updateViewPath_ok n m : n < 2 ^ 64 -> 1 <= n -> (forall m0, m = Some m0 -> m0 <= n) -> exists l, updateViewPath n m = Ok l.
Proof.
  intros H H1 Hm. assert (Hn : ok64 n) by (unfold ok64; lia).
  destruct (c10_frontier n Hn) as (l & El & _). destruct m as [m0|].
  - specialize (Hm m0 eq_refl). destruct (N.eq_dec m0 0) as [->|].
    + destruct (c10_first n) as [_ A]. rewrite A, El by lia. eauto.
    + destruct (c10_partial n m0) as (old & new & l' & _ & _ & E & _); [lia|lia|]. eauto.
  - destruct (c10_first n) as [A _]. rewrite A, El. eauto.
Qed.

Lemma updateView_safe now n m : n < 2 ^ 64 -> wp (fun _ => True) (updateView c now n m).
Proof.
  intro H. unfold updateView. destruct (match m with Some m0 => n <? m0 | None => false end) eqn:E; [exact I|].
  destruct (N.eqb_spec n 0); [exact I|].
  destruct (updateViewPath_ok n m) as (l & El); [lia|lia| |].
  { intros m0 ->. apply N.ltb_ge in E. auto. }
  rewrite El. cbn [lift pbind]. apply wp_bind. eapply wp_mono; [|apply getAllTs_safe]. intros _ _.
  apply wp_bind, wp_getTs. intro t. destruct (_ && _); [exact I|]. destruct (_ && _); exact I.
Qed.

Lemma greatest_loop_safe n ver (Hn : ok64 n) fuel : forall a len terminal, SRange n a len -> a + len = n -> N.log2 len < N.of_nat fuel ->
  wp (fun _ => True) (greatest_loop fuel ver n (sroot a len) terminal).
Proof.
  induction fuel as [|f IH]; intros a len terminal R E Hf; [lia|]. cbn [greatest_loop]. rewrite sub1_64 by auto.
  pose proof (nav_len n a len Hn R) as (L1 & L2 & L3).
  apply wp_bind, wp_getLadder. intro r. destruct (r =? 1)%Z; [exact I|].
  destruct (N.eqb_spec (sroot a len) (n - 1)).
  - cbn [negb]. destruct (_ && _); [exact I|]. destruct (negb _); exact I.
  - cbn [negb]. assert (Hr : lsize len + 1 < len) by (unfold sroot in *; lia).
    apply wp_bind. eapply wp_lift; [apply (nav_right n a len Hn R Hr)|]. apply IH.
    + constructor; auto.
    + unfold sroot in *. lia.
    + pose proof (rsize_log len Hr). lia.
Qed.

Lemma greatest_safe ver n : n < 2 ^ 64 -> wp (fun _ => True) (greatestVersionSearch c ver n).
Proof.
  intro H. unfold greatestVersionSearch. destruct (N.eqb_spec n 0); [exact I|]. assert (Hn : ok64 n) by (unfold ok64; lia).
  apply wp_bind. eapply (wp_mono (fun d => forall o x, d = inr o -> o = Some x -> exists a len, x = sroot a len /\ SRange n a len /\ a + len = n)).
  2:{ apply wp_catch; [|intros; cbn; discriminate]. apply wp_bind. eapply wp_mono; [|apply rightmost_safe; auto].
      intros o Ho o' x E Ex. injection E as <-. auto. }
  intros [u|o] Hd; [exact I|]. destruct (c09_entries n Hn) as (-> & _).
  assert (exists a len, match o with Some x => x | None => sroot 0 n end = sroot a len /\ SRange n a len /\ a + len = n) as (a & len & -> & R & E).
  { destruct o as [x|]; [apply (Hd (Some x) x); auto|]. exists 0, n. split; auto. split; [constructor|lia]. }
  apply greatest_loop_safe; auto. pose proof (log_fuel n a len Hn R). lia.
Qed.

Lemma finish_safe ver t e d : wp (fun _ => True) (fixed_finish ver t e d).
Proof. unfold fixed_finish. destruct t; [|exact I]. destruct (_ && _); [exact I|]. cbn. auto. Qed.

Lemma fixed_loop_safe n ver rm (Hn : ok64 n) fuel : forall a len terminal ex l r d, SRange n a len -> N.log2 len < N.of_nat fuel ->
  wp (fun _ => True) (fixed_loop c fuel ver n rm (sroot a len) terminal ex l r d).
Proof.
  induction fuel as [|f IH]; intros a len terminal ex l r d R Hf; [lia|]. cbn [fixed_loop].
  pose proof (nav_len n a len Hn R) as (L1 & L2 & L3).
  apply wp_bind, wp_getTs. intro t.
  assert (GR : forall term e l' r' d', wp (fun _ => True) (if noRightChild (sroot a len) n then fixed_finish ver term e d' else
     pbind (lift (tright (sroot a len) n)) (fun x' => fixed_loop c f ver n rm x' term e l' r' d'))).
  { intros. rewrite (nav_noRight n a len Hn R). destruct (N.eqb_spec len (lsize len + 1)); [apply finish_safe|].
    assert (Hr : lsize len + 1 < len) by lia. apply wp_bind. eapply wp_lift; [apply (nav_right n a len Hn R Hr)|]. apply IH; [constructor; auto|].
    pose proof (rsize_log len Hr). lia. }
  destruct (isExpired _ _ _); [apply GR|].
  apply wp_bind, wp_getLadder. intro z. destruct (z =? -1)%Z; [apply GR|].
  destruct (z =? 1)%Z.
  - rewrite (nav_noLeft n a len Hn R). destruct (N.eqb_spec (lsize len) 0); [apply finish_safe|].
    assert (Hl : 0 < lsize len) by lia. apply wp_bind. eapply wp_lift; [apply (nav_left n a len Hn R Hl)|]. apply IH; [constructor; auto|].
    pose proof (lsize_log len Hl). lia.
  - destruct (negb ex); [exact I|]. destruct (existsb _ _); exact I.
Qed.

Lemma fixed_safe ver n : n < 2 ^ 64 -> wp (fun _ => True) (fixedVersionSearch c ver n).
Proof.
  intro H. unfold fixedVersionSearch. destruct (N.eqb_spec n 0); [exact I|]. assert (Hn : ok64 n) by (unfold ok64; lia).
  apply wp_bind, wp_getTs. intro t. destruct (c09_entries n Hn) as (-> & _). apply fixed_loop_safe; auto; [constructor|].
  pose proof (log_fuel n 0 n Hn (SR_root n)). lia.
Qed.

(** Descent towards a target that exists. *)
Lemma ancestor_loop_safe n target (Hn : ok64 n) fuel : forall a len l r best, SRange n a len -> a <= target < a + len -> N.log2 len < N.of_nat fuel ->
  wp (fun _ => True) (ancestor_loop c fuel n target (sroot a len) l r best).
Proof.
  induction fuel as [|f IH]; intros a len l r best R Ht Hf; [lia|]. cbn [ancestor_loop].
  destruct (negb _); [exact I|]. destruct (N.eqb_spec (sroot a len) target); [exact I|].
  apply wp_bind, wp_getTs. intro t. destruct (N.ltb_spec target (sroot a len)).
  - assert (Hl : 0 < lsize len) by (unfold sroot in *; lia). apply wp_bind. eapply wp_lift; [apply (nav_left n a len Hn R Hl)|].
    apply IH; [constructor; auto|unfold sroot in *; lia|]. pose proof (lsize_log len Hl). lia.
  - assert (Hr : lsize len + 1 < len) by (unfold sroot in *; lia). apply wp_bind. eapply wp_lift; [apply (nav_right n a len Hn R Hr)|].
    apply IH; [constructor; auto|unfold sroot in *; lia|]. pose proof (rsize_log len Hr). lia.
Qed.

Lemma contact_loop_safe ver xs : forall prev, wp (fun _ => True) (contact_loop ver xs prev).
Proof.
  induction xs as [|y t IH]; intro prev; [exact I|]. cbn [contact_loop]. destruct (mget prev y); [destruct (_ <=? _); exact I|].
  cbn. split; auto.
Qed.

Lemma contactOne_safe m x ver prev : ok64 (mo_size m) -> x < mo_size m -> wp (fun _ => True) (contactMonitorOne c m x ver prev).
Proof.
  intros Hn Hx. unfold contactMonitorOne, distinguishedAncestor. apply wp_bind. eapply (wp_mono (fun _ => True)).
  2:{ destruct (c09_entries _ Hn) as (-> & _). apply ancestor_loop_safe; auto; [constructor|lia|]. pose proof (log_fuel _ 0 _ Hn (SR_root _)). lia. }
  intros stop _. destruct (match stop with Some s => s =? x | None => false end); [exact I|].
  destruct (c11_right (mo_size m) x Hn Hx) as (d & Ed & _). rewrite Ed. cbn [lift pbind].
  apply wp_bind. eapply wp_mono; [|apply contact_loop_safe]. intros [early p] _. destruct early; [exact I|]. destruct stop; exact I.
Qed.

Lemma keysDown_In m x : In x (keysDown m) <-> In x (map fst m).
Proof.
  unfold keysDown. rewrite <- in_rev, <- (nodup_In N.eq_dec (map fst m)).
  split; apply Permutation.Permutation_in; [|symmetry]; apply nsort_perm.
Qed.

Lemma contactAll_safe m ptrs0 xs : ok64 (mo_size m) -> Forall (fun x => x < mo_size m) xs -> forall prev ptrs,
  wp (fun _ => True) (contactAll c m ptrs0 xs prev ptrs).
Proof.
  intros Hn F. induction F as [|x t Hx F IH]; intros prev ptrs; [exact I|]. cbn [contactAll]. apply wp_bind.
  eapply wp_mono; [|apply contactOne_safe; auto]. intros [u p] _. apply IH.
Qed.

Lemma contact_safe m : ok64 (mo_size m) -> (forall ptrs x v, mo_contact m = Some ptrs -> In (x, v) ptrs -> x < mo_size m) ->
  wp (fun _ => True) (contactMonitor c m).
Proof.
  intros Hn H. unfold contactMonitor. destruct (mo_contact m) as [ptrs|]; [|exact I]. apply wp_bind.
  eapply wp_mono; [|apply contactAll_safe; auto; apply Forall_forall; intros x Hx].
  - intros; exact I.
  - apply keysDown_In, in_map_iff in Hx as ((x' & v) & <- & Hi). eapply H; eauto.
Qed.

Lemma init_safe m starting (Hn : ok64 (mo_size m)) fuel : forall a len l r, SRange (mo_size m) a len -> N.log2 len < N.of_nat fuel ->
  wp (fun _ => True) (init_rec c fuel m starting (sroot a len) l r).
Proof.
  induction fuel as [|f IH]; intros a len l r R Hf; [lia|]. cbn [init_rec]. destruct (negb _); [exact I|].
  pose proof (nav_len _ a len Hn R) as (L1 & L2 & L3).
  apply wp_bind, wp_getTs. intro t. destruct (_ <? _).
  - rewrite (nav_noRight _ a len Hn R). destruct (N.eqb_spec len (lsize len + 1)); [exact I|].
    assert (Hr : lsize len + 1 < len) by lia. apply wp_bind. eapply wp_lift; [apply (nav_right _ a len Hn R Hr)|]. apply wp_bind.
    eapply wp_mono; [|apply IH; [constructor; auto|pose proof (rsize_log len Hr); lia]]. intros; exact I.
  - destruct (_ =? _); [destruct (isExpired _ _ _); exact I|]. rewrite (nav_noLeft _ a len Hn R).
    destruct (N.eqb_spec (lsize len) 0); [exact I|]. cbn [orb]. destruct (isExpired _ _ _); [exact I|].
    assert (Hl : 0 < lsize len) by lia. apply wp_bind. eapply wp_lift; [apply (nav_left _ a len Hn R Hl)|].
    apply IH; [constructor; auto|]. pose proof (lsize_log len Hl). lia.
Qed.

Lemma initLadders_safe xs : forall vers, wp (fun _ => True) (initLadders xs vers).
Proof.
  induction xs as [|x t IH]; intros [|v vers]; try exact I; cbn [initLadders]; apply wp_bind, wp_getLadder; intro r; destruct (negb _); try exact I; apply IH.
Qed.

Lemma ownerInit_safe m starting vers : ok64 (mo_size m) -> wp (fun _ => True) (ownerInit c m starting vers).
Proof.
  intro Hn. unfold ownerInit. destruct (mo_owner m); [exact I|]. apply wp_bind. eapply (wp_mono (fun _ => True)).
  2:{ unfold initEntries. destruct (c09_entries _ Hn) as (-> & _). apply init_safe; auto; [constructor|]. pose proof (log_fuel _ 0 _ Hn (SR_root _)). lia. }
  intros xs _. destruct (_ <? _)%nat; [exact I|]. destruct (negb _); [exact I|]. apply wp_bind. eapply wp_mono; [|apply initLadders_safe]. intros; exact I.
Qed.

Lemma expect_safe x v o : wp (fun _ => True) (expectLadder x v o).
Proof. unfold expectLadder. destruct (_ <? _)%Z; apply wp_bind, wp_getLadder; intro r; destruct (negb _); exact I. Qed.

Lemma greatestAt_ok os x : exists z, greatestVersionAt os x = Ok z.
Proof. unfold greatestVersionAt. destruct (bsearch_ok (os_upcoming os) (add64 x 1)) as (k & -> & _). cbn. eauto. Qed.

Lemma setStarting_ok os x : exists os', setStarting os x = Ok os' /\ os_starting os' = x.
Proof. unfold setStarting. destruct (bsearch_ok (os_upcoming os) (add64 x 1)) as (k & -> & _). cbn. eexists. split; [reflexivity|auto]. Qed.

Lemma ownerMonitor_rec_safe n (Hn : ok64 n) fuel : forall os a len l r, SRange n a len -> N.log2 len < N.of_nat fuel ->
  wp (fun os' => os_starting os <= os_starting os' /\ (os_starting os' = os_starting os \/ a <= os_starting os' < a + len))
    (ownerMonitor_rec c fuel n os (sroot a len) l r).
Proof.
  induction fuel as [|f IH]; intros os a len l r R Hf; [lia|]. cbn [ownerMonitor_rec]. destruct (negb _); [cbn; split; auto; lia|].
  pose proof (nav_len n a len Hn R) as (L1 & L2 & L3).
  assert (GR : forall os1 t, os_starting os <= os_starting os1 -> (os_starting os1 = os_starting os \/ a <= os_starting os1 < a + len) ->
     lsize len + 1 < len ->
     wp (fun os' => os_starting os <= os_starting os' /\ (os_starting os' = os_starting os \/ a <= os_starting os' < a + len))
     (pbind (lift (tright (sroot a len) n)) (fun x' => ownerMonitor_rec c f n os1 x' t r))).
  { intros os1 t H1 H2 Hr. apply wp_bind. eapply wp_lift; [apply (nav_right n a len Hn R Hr)|].
    eapply wp_mono; [|apply IH; [constructor; auto|pose proof (rsize_log len Hr); lia]]. cbn beta. intros os' [A B]. unfold sroot in *. lia. }
  destruct (N.leb_spec (sroot a len) (os_starting os)).
  - rewrite (nav_noRight n a len Hn R). destruct (N.eqb_spec len (lsize len + 1)); [cbn; split; auto; lia|].
    apply wp_bind, wp_getTs. intro t. apply GR; auto; lia.
  - apply wp_bind. eapply (wp_mono (fun os' => os_starting os <= os_starting os' /\ (os_starting os' = os_starting os \/ a <= os_starting os' < a + lsize len))).
    2:{ unfold hasLeftChild. rewrite (nav_noLeft n a len Hn R). destruct (N.eqb_spec (lsize len) 0); cbn [negb]; [cbn; split; auto; lia|].
        apply wp_bind, wp_getTs. intro t. assert (Hl : 0 < lsize len) by lia. apply wp_bind. eapply wp_lift; [apply (nav_left n a len Hn R Hl)|].
        apply IH; [constructor; auto|]. pose proof (lsize_log len Hl). lia. }
    intros os1 [A B]. apply wp_bind. destruct (greatestAt_ok os1 (sroot a len)) as (z & Ez). eapply wp_lift; [exact Ez|].
    apply wp_bind. cbn [stopCond wp]. intros [|]; [cbn; split; auto; lia|].
    apply wp_bind. eapply wp_mono; [|apply expect_safe]. intros _ _. apply wp_bind.
    destruct (setStarting_ok os1 (sroot a len)) as (os2 & E2 & S2). eapply wp_lift; [exact E2|].
    assert (os_starting os <= os_starting os2) by lia. assert (a <= os_starting os2 < a + len) by (rewrite S2; unfold sroot in *; lia).
    rewrite (nav_noRight n a len Hn R). destruct (N.eqb_spec len (lsize len + 1)); [cbn; split; auto|].
    apply wp_bind, wp_getTs. intro t. apply GR; auto; lia.
Qed.

Lemma ownerMonitor_safe m : ok64 (mo_size m) ->
  wp (fun '(r, m') => match r with
    | inl _ => m' = m
    | inr _ => exists os os', mo_owner m = Some os /\ mo_owner m' = Some os' /\ os_starting os <= os_starting os' /\
        (os_starting os' = os_starting os \/ os_starting os' < mo_size m) /\
        mo_rightmost m' = mo_rightmost m /\ mo_size m' = mo_size m /\ mo_contact m' = mo_contact m
    end) (ownerMonitor c m).
Proof.
  intro Hn. unfold ownerMonitor. destruct (mo_owner m) as [os|] eqn:Eo; [|reflexivity].
  apply wp_catch; [|reflexivity]. apply wp_bind. destruct (c09_entries _ Hn) as (-> & _).
  eapply wp_mono; [|apply (ownerMonitor_rec_safe _ Hn 66 os 0); [constructor|pose proof (log_fuel _ 0 _ Hn (SR_root _)); lia]].
  intros os' [A B]. cbn. exists os, os'. repeat split; auto. lia.
Qed.

(** Update. *)
Lemma nonDist_loop_safe n target (Hn : ok64 n) fuel : forall a len l r, SRange n a len -> a <= target < a + len -> N.log2 len < N.of_nat fuel ->
  wp (fun o => forall x, o = Some x -> exists a' len', x = sroot a' len' /\ SRange n a' len' /\ a' <= target < a' + len')
    (nonDist_loop c fuel n target (sroot a len) l r).
Proof.
  induction fuel as [|f IH]; intros a len l r R Ht Hf; [lia|]. cbn [nonDist_loop].
  destruct (negb _); [cbn; intros x E; injection E as <-; eauto|]. destruct (N.eqb_spec (sroot a len) target); [cbn; discriminate|].
  apply wp_bind, wp_getTs. intro t. destruct (N.ltb_spec (sroot a len) target).
  - assert (Hr : lsize len + 1 < len) by (unfold sroot in *; lia). apply wp_bind. eapply wp_lift; [apply (nav_right n a len Hn R Hr)|].
    apply IH; [constructor; auto|unfold sroot in *; lia|]. pose proof (rsize_log len Hr). lia.
  - assert (Hl : 0 < lsize len) by (unfold sroot in *; lia). apply wp_bind. eapply wp_lift; [apply (nav_left n a len Hn R Hl)|].
    apply IH; [constructor; auto|unfold sroot in *; lia|]. pose proof (lsize_log len Hl). lia.
Qed.

Lemma nonDist_safe m target : ok64 (mo_size m) -> target < mo_size m ->
  wp (fun o => forall x, o = Some x -> exists a' len', x = sroot a' len' /\ SRange (mo_size m) a' len' /\ a' <= target < a' + len')
    (nonDistinguishedAncestor c m target).
Proof.
  intros Hn Ht. unfold nonDistinguishedAncestor. apply wp_bind, wp_getTs. intro t. destruct (c09_entries _ Hn) as (-> & _).
  apply nonDist_loop_safe; auto; [constructor|lia|]. pose proof (log_fuel _ 0 _ Hn (SR_root _)). lia.
Qed.

Lemma leftUntil_ok n target (Hn : ok64 n) fuel : forall a len, SRange n a len -> a <= target < a + len -> N.log2 len < N.of_nat fuel ->
  exists a' len', leftUntil fuel (sroot a len) target = Ok (sroot a' len') /\ SRange n a' len' /\ a' <= sroot a' len' <= target /\ target < a' + len'.
Proof.
  induction fuel as [|f IH]; intros a len R Ht Hf; [lia|]. cbn [leftUntil].
  pose proof (nav_len n a len Hn R) as (L1 & L2 & L3).
  destruct (N.ltb_spec target (sroot a len)).
  - assert (Hl : 0 < lsize len) by (unfold sroot in *; lia). rewrite (nav_left n a len Hn R Hl). cbn.
    apply IH; [constructor; auto|unfold sroot in *; lia|]. pose proof (lsize_log len Hl). lia.
  - exists a, len. repeat split; auto. unfold sroot. lia. lia.
Qed.

Lemma lsize_same m len : lsize len < m -> m <= len -> lsize m = lsize len.
Proof.
  intros H1 H2. unfold lsize in *. destruct (N.eq_dec len 0) as [->|]; [replace m with 0 by lia; auto|].
  destruct (N.log2_spec len) as [A B]; [lia|]. rewrite (N.log2_unique m (N.log2 len)); auto; lia.
Qed.

(** The subtrees of a smaller log that end at its last entry. *)
Lemma SRange_shrink n : ok64 n -> forall a len, SRange n a len -> forall pos, a + lsize len < pos -> pos <= a + len ->
  SRange pos a (pos - a).
Proof.
  intros Hn a len R. induction R as [|a len R IH Hl|a len R IH Hr]; intros pos H1 H2.
  - rewrite N.sub_0_r. constructor.
  - (* left subtree of [a, len) *)
    pose proof (nav_len n a len Hn R) as (L1 & L2 & L3).
    (* climb: the parent starts at the same entry *)
    assert (G : forall b m, SRange n b m -> forall p, b < p -> p <= b + m -> SRange p b (p - b)).
    { clear - Hn. intros b m R. induction R as [|b m R IH Hl|b m R IH Hr]; intros p H1 H2.
      - rewrite N.sub_0_r. constructor.
      - pose proof (nav_len n b m Hn R). apply IH; lia.
      - pose proof (nav_len n b m Hn R) as (A & B & C). assert (Hp : b < p) by (unfold sroot in *; lia).
        assert (Hp2 : p <= b + m) by (unfold sroot in *; lia).
        specialize (IH p Hp Hp2). assert (EL : lsize (p - b) = lsize m) by (apply lsize_same; unfold sroot in *; lia).
        assert (SRange p (sroot b (p - b) + 1) (p - b - lsize (p - b) - 1)) by (constructor; auto; rewrite EL; unfold sroot in *; lia).
        unfold sroot in *. rewrite EL in H. replace (p - (b + lsize m + 1)) with (p - b - lsize m - 1) by lia. auto. }
    apply (G a (lsize len)); auto; [constructor; auto|lia].
  - pose proof (nav_len n a len Hn R) as (A & B & C).
    assert (Hp2 : pos <= a + len) by (unfold sroot in *; lia). assert (Hp1 : a + lsize len < pos) by (unfold sroot in *; lia).
    specialize (IH pos Hp1 Hp2). assert (EL : lsize (pos - a) = lsize len) by (apply lsize_same; unfold sroot in *; lia).
    assert (SRange pos (sroot a (pos - a) + 1) (pos - a - lsize (pos - a) - 1)) by (constructor; auto; rewrite EL; unfold sroot in *; lia).
    unfold sroot in *. rewrite EL in H. replace (pos - (a + lsize len + 1)) with (pos - a - lsize len - 1) by lia. auto.
Qed.

Lemma previousTree_loop_safe pos lu g (Hp : ok64 pos) fuel : forall a len, SRange pos a len -> a + len = pos -> N.log2 len < N.of_nat fuel ->
  wp (fun _ => True) (previousTree_loop fuel pos lu g (sroot a len)).
Proof.
  induction fuel as [|f IH]; intros a len R E Hf; [lia|]. cbn [previousTree_loop]. apply wp_bind. eapply (wp_mono (fun _ => True)).
  2:{ destruct (_ <=? _); [exact I|apply expect_safe]. }
  intros _ _. rewrite sub1_64 by auto. pose proof (nav_len pos a len Hp R) as (L1 & L2 & L3).
  destruct (N.eqb_spec (sroot a len) (pos - 1)); [exact I|].
  assert (Hr : lsize len + 1 < len) by (unfold sroot in *; lia). apply wp_bind. eapply wp_lift; [apply (nav_right pos a len Hp R Hr)|].
  apply IH; [constructor; auto|unfold sroot in *; lia|]. pose proof (rsize_log len Hr). lia.
Qed.

Lemma search_ladder_ok v : v < 2 ^ 31 - 1 -> exists l, searchBinaryLadder v v [] [] = Ok l.
Proof. intro H. destruct (search_ladder_agree v v [] [] H) as (full & asked & A & _); [intros ? []|intros ? []|]. eauto. Qed.

Lemma toU32_small z : (0 <= z < 2147483647)%Z -> toU32 z < 2 ^ 31 - 1.
Proof. intro H. unfold toU32. rewrite Z.mod_small by lia. change (2 ^ 31 - 1) with 2147483647. lia. Qed.

Lemma verifyPrevious_safe m os pos : ok64 (mo_size m) -> 1 <= pos < mo_size m -> (greatestVersion os < 2147483647)%Z ->
  wp (fun _ => True) (verifyPreviousTree c m os pos).
Proof.
  intros Hn Hp Hg. assert (Hp64 : ok64 pos) by (unfold ok64 in *; lia).
  unfold verifyPreviousTree. destruct (N.eqb_spec pos 0); [lia|]. rewrite sub1_64 by auto.
  apply wp_bind. eapply wp_mono; [|apply nonDist_safe; auto; lia]. intros [x|] Hx; [|exact I].
  destruct (Hx x eq_refl) as (a0 & len0 & -> & R0 & Ht0).
  destruct (leftUntil_ok (mo_size m) (pos - 1) Hn 66 a0 len0 R0 Ht0) as (a & len & El & R & Ha & Ht).
  { pose proof (log_fuel _ a0 len0 Hn R0). lia. }
  rewrite El. cbn [lift pbind].
  assert (Rp : SRange pos a (pos - a)) by (apply (SRange_shrink (mo_size m) Hn a len R pos); unfold sroot in *; lia).
  assert (ES : sroot a len = sroot a (pos - a)) by (unfold sroot in *; rewrite (lsize_same (pos - a) len); lia).
  rewrite ES. apply wp_bind. eapply (wp_mono (fun _ => True)).
  - intros _ _. apply previousTree_loop_safe; auto; [unfold sroot in *; lia|]. pose proof (log_fuel _ a (pos - a) Hp64 Rp). lia.
  - destruct (Z.leb_spec 0 (greatestVersion os)); [|exact I].
    destruct (search_ladder_ok (toU32 (greatestVersion os))) as (l & E); [apply toU32_small; lia|]. rewrite E. cbn [lift pbind].
    apply wp_bind. eapply (wp_mono (fun _ => True)); [intros; exact I|].
    destruct (N.eqb_spec (sroot a (pos - a)) (troot pos)) as [|Hne]; [exact I|].
    destruct (nav_parent pos a (pos - a) Hp64 Rp Hne) as (a' & len' & Ep & _). rewrite Ep. cbn [lift pbind].
    destruct (greatestAt_ok os (sroot a' len')) as (z & ->). exact I.
Qed.

Lemma update_safe m pos versions : ok64 (mo_size m) ->
  (forall os, mo_owner m = Some os -> (greatestVersion os + versions < 2147483647)%Z) ->
  wp (fun _ => True) (update c m pos versions).
Proof.
  intros Hn Hv. unfold update. destruct (mo_owner m) as [os|]; [|exact I]. specialize (Hv os eq_refl).
  destruct (N.leb_spec (mo_size m) pos); [exact I|]. destruct (N.leb_spec pos (lastUpdate os)); [exact I|].
  destruct (Z.ltb_spec versions 1); [exact I|]. destruct (Z.ltb_spec (greatestVersion os + versions) 0); [exact I|]. cbn [orb].
  destruct (_ <=? _)%Z; [exact I|].
  destruct (search_ladder_ok (toU32 (greatestVersion os + versions))) as (l & E); [apply toU32_small; lia|]. rewrite E. cbn [lift pbind].
  apply wp_bind. eapply wp_mono; [|apply verifyPrevious_safe; auto; lia]. intros _ _.
  apply wp_bind. eapply wp_mono; [|apply nonDist_safe; auto]. intros [x|] _.
  - apply wp_bind, wp_bind, wp_getLadder. intro r. destruct (negb _); [exact I|]. cbn. auto.
  - cbn. auto.
Qed.

(** ** Clock bounds *)
Lemma updateView_clock {S} (P : provider S) now n m s s' l : now < two64 ->
  run P (updateView c now n m) s = (Ok tt, s', l) ->
  (forall m0, m = Some m0 -> m0 <= n) /\
  (n = 0 \/ exists ts l0, l = l0 ++ [EvTs (sub64 n 1) (Ok ts)] /\ (ts < two64 -> ts <= now + pc_maxAhead c /\ now <= ts + pc_maxBehind c)).
Proof.
  intros Hnow H. unfold updateView in H.
  destruct (match m with Some m0 => n <? m0 | None => false end) eqn:E; [discriminate|].
  split. { intros m0 ->. apply N.ltb_ge in E. auto. }
  destruct (N.eqb_spec n 0); [auto|]. right.
  apply run_bind_ok in H as (xs & s1 & l1 & l2 & E1 & H & ->). apply run_lift_ok in E1 as (_ & -> & ->).
  apply run_bind_ok in H as ([] & s2 & l3 & l4 & E2 & H & ->).
  apply run_bind_ok in H as (ts & s3 & l5 & l6 & E3 & H & ->).
  apply run_getTs_ok in E3. subst l5.
  destruct ((now <? ts) && _) eqn:B1; [discriminate|]. destruct ((ts <? now) && _) eqn:B2; [discriminate|].
  cbn in H. injection H as <- <-. exists ts, l3. split; [reflexivity|]. intro Hts.
  rewrite andb_false_iff, !N.ltb_ge in *. unfold sub64 in *. unfold two64 in *. split.
  - destruct B1 as [B|B]; [lia|]. destruct (N.le_gt_cases ts now); [lia|]. lia.
  - destruct B2 as [B|B]; [lia|]. destruct (N.le_gt_cases now ts); [lia|]. lia.
Qed.

End Safe.
