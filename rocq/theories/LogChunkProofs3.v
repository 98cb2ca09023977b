(** The right edge of the tree: path and copath of the newest entry. *)
From Verif Require Import Base BaseProofs LogMathModel LogMathSpec NodeMathProofs LogMathProofs LogMathProofs2 LogChunkSpec LogChunkProofs LogChunkProofs2.

Section Edge.
Variable n : N.
Hypothesis Hn : n < two63.

Definition E (k : N) : N := nid k (n / 2 ^ k).

Lemma div_S k : n / 2 ^ (k + 1) = n / 2 ^ k / 2.
Proof. rewrite pow2_S, N.mul_comm. pose proof (pow2_pos k). rewrite N.div_div by lia. reflexivity. Qed.

Lemma edge_lt k : N.testbit n k = (E (k + 1) <? 2 * n + 1).
Proof.
  rewrite testbit_div. unfold E. rewrite div_S. rewrite nid_form, !pow2_S.
  pose proof (pow2_pos k). pose proof (N.div_mod n (2 ^ k) ltac:(lia)) as D. pose proof (N.mod_lt n (2 ^ k) ltac:(lia)) as M.
  set (r := n mod 2 ^ k) in *. set (m := n / 2 ^ k) in *.
  pose proof (N.div_mod m 2 ltac:(lia)) as D2. pose proof (N.mod_lt m 2 ltac:(lia)) as M2.
  set (h := m / 2) in *. set (b := m mod 2) in *. clearbody r m h b. subst n.
  set (P := 2 ^ k) in *. clearbody P. subst m.
  assert (b = 0 \/ b = 1) as [-> | ->] by lia.
  - replace (0 =? 1) with false by lia. symmetry. apply N.ltb_ge. nia.
  - replace (1 =? 1) with true by lia. symmetry. apply N.ltb_lt. nia.
Qed.

Lemma width : nodeWidth (n + 1) = 2 * n + 1.
Proof. rewrite nodeWidth_spec by (unfold two63 in *; lia). lia. Qed.

Lemma E_root k : E k < 2 * n + 1 -> n / 2 ^ k = 0 -> E k = root (n + 1).
Proof.
  intros Hk E0. unfold E in *. rewrite E0 in *. unfold root. rewrite width.
  rewrite rootW_nid by (unfold two63, two64 in *; lia).
  f_equal. symmetry. apply N.log2_unique; [lia|]. unfold nid in Hk. pose proof (pow2_pos k).
  rewrite <- N.add_1_r, pow2_S. 
  assert (n < 2 ^ k).
  { pose proof (N.div_mod n (2 ^ k) ltac:(lia)) as D. pose proof (N.mod_lt n (2 ^ k) ltac:(lia)). rewrite E0 in D. lia. }
  lia.
Qed.

Lemma E_level k : E k < 2 * n + 1 -> k <= 63.
Proof.
  unfold E, nid. intro H. destruct (N.le_gt_cases k 63); auto. exfalso.
  assert (2 ^ 64 <= 2 ^ k) by (apply N.pow_le_mono_r; lia). change (2 ^ 64) with 18446744073709551616 in *. unfold two63 in *. revert H1.
  revert H. generalize (2 ^ k) as P. intros P H H1. generalize dependent (n / P). intros q H. assert (P * 1 <= P * (2 * q + 1)) by (apply N.mul_le_mono_l; lia). lia.
Qed.

(** The next bit from [k] up. *)
Lemma next_bit k : n / 2 ^ k <> 0 -> exists j, k <= j /\ N.testbit n j = true /\ (forall i, k <= i < j -> N.testbit n i = false) /\ j <= 62.
Proof.
  intro H0.
  assert (Hk : k <= 62).
  { destruct (N.le_gt_cases k 62); auto. exfalso. apply H0. apply N.div_small. 
    assert (2 ^ 63 <= 2 ^ k) by (apply N.pow_le_mono_r; lia). unfold two63 in *. change (2 ^ 63) with 9223372036854775808 in *. lia. }
  remember (N.to_nat (62 - k)) as m eqn:Em. revert k H0 Hk Em. induction m as [|m IH]; intros k H0 Hk Em.
  - exists k. split; [lia|]. split; [|split; [lia|lia]]. 
    rewrite testbit_div. assert (k = 62) by lia. subst k.
    assert (n / 2 ^ 62 < 2). { apply N.div_lt_upper_bound; [lia|]. unfold two63 in *. change (2 ^ 62 * 2) with 9223372036854775808. lia. }
    assert (E1 : n / 2 ^ 62 = 1) by lia. rewrite E1. reflexivity.
  - destruct (N.testbit n k) eqn:T.
    + exists k. split; [lia|]. split; [exact T|]. split; [lia|lia].
    + destruct (IH (k + 1)) as (j & J1 & J2 & J3 & J4).
      * rewrite div_S. rewrite testbit_div in T. pose proof (N.div_mod (n / 2 ^ k) 2 ltac:(lia)) as D.
        pose proof (N.mod_lt (n / 2 ^ k) 2 ltac:(lia)). apply N.eqb_neq in T. lia.
      * lia.
      * lia.
      * exists j. split; [lia|]. split; [exact J2|]. split; [|exact J4]. intros i Hi. destruct (N.eq_dec i k) as [->|]; [exact T|].
        apply J3. lia.
Qed.

Lemma E_lt64 k : k <= 63 -> E k < two64 - 1.
Proof.
  intro Hk. unfold E. rewrite nid_form. pose proof (pow2_pos k). pose proof (N.div_mod n (2 ^ k) ltac:(lia)) as D.
  set (q := n / 2 ^ k) in *. rewrite pow2_S.
  assert (E64 : two64 = 2 * 2 ^ k * 2 ^ (63 - k)).
  { rewrite <- pow2_S, <- N.pow_add_r, two64_eq. f_equal. lia. }
  assert (Hq : q < 2 ^ (63 - k)).
  { apply N.div_lt_upper_bound; [lia|]. rewrite <- N.pow_add_r. replace (k + (63 - k)) with 63 by lia. exact Hn. }
  rewrite E64. clearbody q. set (P := 2 ^ k) in *. set (Q := 2 ^ (63 - k)) in *. clearbody P Q.
  assert (2 * P * (q + 1) <= 2 * P * Q) by nia. nia.
Qed.

Lemma E_step k : k <= 62 -> parentStep (E k) = E (k + 1).
Proof. intro Hk. pose proof (E_lt64 k ltac:(lia)). unfold E in *. rewrite parentStep_nid by lia. now rewrite div_S. Qed.

Lemma parent_loop_edge j : N.testbit n j = true -> j <= 62 -> forall m k fuel, m = N.to_nat (j - k) -> k <= j -> (forall i, k <= i < j -> N.testbit n i = false) ->
  (m < fuel)%nat -> parent_loop fuel (2 * n + 1) (E (k + 1)) = Ok (E (j + 1)).
Proof.
  intros T Hj. induction m as [|m IH]; intros k fuel Em Hk Z Hfu; (destruct fuel as [|fuel]; [lia|]); cbn [parent_loop].
  - assert (k = j) by lia. subst k. rewrite edge_lt in T. apply N.ltb_lt in T. replace (2 * n + 1 <=? E (j + 1)) with false by lia. reflexivity.
  - assert (Tk : N.testbit n k = false) by (apply Z; lia). rewrite edge_lt in Tk. apply N.ltb_ge in Tk.
    replace (2 * n + 1 <=? E (k + 1)) with true by lia. rewrite E_step by lia. apply IH; try lia. intros i Hi. apply Z. lia.
Qed.

Lemma parent_edge k j : N.testbit n j = true -> j <= 62 -> k <= j -> (forall i, k <= i < j -> N.testbit n i = false) ->
  parent (E k) (n + 1) = Ok (E (j + 1)).
Proof.
  intros T Hj Hk Z. unfold parent, parentW. rewrite width, rootW_nid by (unfold two63, two64 in *; lia).
  destruct (N.eqb_spec (E k) (nid (N.log2 (2 * n + 1)) 0)) as [E0|_].
  - exfalso. unfold E in E0. apply nid_inj in E0. destruct E0 as [_ E0].
    rewrite testbit_div in T. assert (n / 2 ^ j = 0); [|rewrite H in T; discriminate].
    replace j with (k + (j - k)) by lia. rewrite N.pow_add_r, <- N.div_div; try (pose proof (pow2_pos k); pose proof (pow2_pos (j - k)); lia).
    rewrite E0. apply N.div_0_l. pose proof (pow2_pos (j - k)). lia.
  - rewrite E_step by lia. apply (parent_loop_edge j T Hj (N.to_nat (j - k))); auto. lia.
Qed.

Lemma sibling_edge k j : N.testbit n j = true -> j <= 62 -> k <= j -> (forall i, k <= i < j -> N.testbit n i = false) ->
  sibling (E k) (n + 1) = Ok (nid j (n / 2 ^ j - 1)).
Proof.
  intros T Hj Hk Z. unfold sibling. rewrite (parent_edge k j) by auto. cbn [bind].
  rewrite testbit_div in T. apply N.eqb_eq in T.
  pose proof (N.div_mod (n / 2 ^ j) 2 ltac:(lia)) as D. rewrite T in D.
  assert (Lt : E (j + 1) < E k).
  { unfold E. rewrite !nid_form, div_S. set (h := n / 2 ^ j / 2) in *.
    assert (G : 2 ^ (j - k) * (n / 2 ^ j) <= n / 2 ^ k).
    { replace (n / 2 ^ j) with (n / 2 ^ k / 2 ^ (j - k)).
      - apply N.mul_div_le. pose proof (pow2_pos (j - k)). lia.
      - rewrite N.div_div by (pose proof (pow2_pos k); pose proof (pow2_pos (j - k)); lia). f_equal. rewrite <- N.pow_add_r. f_equal. lia. }
    rewrite !pow2_S. replace (2 ^ j) with (2 ^ k * 2 ^ (j - k)) by (rewrite <- N.pow_add_r; f_equal; lia).
    rewrite D in G. pose proof (pow2_pos k). pose proof (pow2_pos (j - k)). clearbody h.
    set (P := 2 ^ k) in *. set (Q := 2 ^ (j - k)) in *. set (m := n / P) in *. clearbody P Q m.
    assert (P * (Q * (2 * h + 1)) <= P * m) by nia. nia. }
  replace (E k <? E (j + 1)) with false by lia. unfold E. rewrite left_nid' by lia. do 2 f_equal. rewrite div_S. lia.
Qed.

(** Levels above the one-bits of [n] from [k] up. *)
Fixpoint bitsUp (k : N) (m : nat) : list N :=
  match m with O => [] | S m' => (if N.testbit n k then [k + 1] else []) ++ bitsUp (k + 1) m' end.

Lemma bitsUp_skip j : forall d m k, d = N.to_nat (j - k) -> (d < m)%nat -> k <= j -> N.testbit n j = true -> (forall i, k <= i < j -> N.testbit n i = false) ->
  bitsUp k m = (j + 1) :: bitsUp (j + 1) (m - d - 1).
Proof.
  induction d as [|d IH]; intros m k Ed Hm Hk T Z; (destruct m as [|m]; [lia|]); cbn [bitsUp].
  - assert (k = j) by lia. subst k. rewrite T. cbn [app]. do 2 f_equal. lia.
  - rewrite Z by lia. cbn [app]. rewrite (IH m) by (try lia; auto; intros; apply Z; lia). do 2 f_equal. 
Qed.

Lemma bitsUp_none k m : n / 2 ^ k = 0 -> bitsUp k m = [].
Proof.
  revert k. induction m as [|m IH]; intros k E0; cbn [bitsUp]; [reflexivity|].
  rewrite testbit_div, E0. change (0 mod 2 =? 1) with false. cbn [app]. apply IH. rewrite div_S, E0. reflexivity.
Qed.

Lemma linked_edge d : forall k, k <= 64 -> E k < 2 * n + 1 -> linked (n + 1) (E k) d (root (n + 1)) -> 
  d = map E (bitsUp k (N.to_nat (64 - k))) /\
  forall c, Forall2 (fun y s => sibling y (n + 1) = Ok s) (removelast (E k :: d)) c ->
    c = map (fun j => nid (j - 1) (n / 2 ^ (j - 1) - 1)) (bitsUp k (N.to_nat (64 - k))).
Proof.
  induction d as [|p d IH]; intros k Hk64 Hk Lk; cbn [linked] in Lk.
  - assert (E0 : n / 2 ^ k = 0).
    { unfold root in Lk. rewrite width, rootW_nid in Lk by (unfold two63, two64 in *; lia). unfold E in Lk. apply nid_inj in Lk. tauto. }
    rewrite bitsUp_none by auto. split; [reflexivity|]. intros c F. cbn in F. inversion F. reflexivity.
  - destruct Lk as [Pk Lk]. destruct (N.eq_dec (n / 2 ^ k) 0) as [E0|E0].
    { rewrite (E_root k Hk E0), parent_root in Pk. discriminate. }
    destruct (next_bit k E0) as (j & J1 & J2 & J3 & J4). rewrite (parent_edge k j) in Pk by auto.
    assert (p = E (j + 1)) by congruence. subst p.
    destruct (IH (j + 1)) as [Ed Ec]; [lia| |exact Lk|].
    { rewrite edge_lt in J2. apply N.ltb_lt in J2. exact J2. }
    rewrite (bitsUp_skip j (N.to_nat (j - k))) by (auto; lia).
    replace (N.to_nat (64 - k) - N.to_nat (j - k) - 1)%nat with (N.to_nat (64 - (j + 1))) by lia.
    cbn [map]. split; [now rewrite Ed at 1|].
    intros c F. change (removelast (E k :: E (j + 1) :: d)) with (E k :: removelast (E (j + 1) :: d)) in F.
    inversion F as [|y s ys ss S1 S2]; subst. rewrite (sibling_edge k j) in S1 by auto. f_equal.
    + replace (j + 1 - 1) with j by lia. congruence.
    + now apply Ec.
Qed.

Lemma edge_0 : E 0 = 2 * n.
Proof. unfold E. rewrite N.pow_0_r, N.div_1_r. apply nid_0. Qed.

Lemma directPath_edge : directPath (2 * n) (n + 1) = Ok (map E (bitsUp 0 64)).
Proof.
  destruct (directPath_spec (n + 1) (2 * n)) as (d & Ed & Ld & _); [unfold two63 in *; lia|lia|]. rewrite Ed. f_equal.
  rewrite <- edge_0 in Ld. apply linked_edge in Ld; [apply Ld|lia|]. rewrite edge_0. lia.
Qed.

Lemma copath_edge : copath (2 * n) (n + 1) = Ok (map (fun j => nid (j - 1) (n / 2 ^ (j - 1) - 1)) (bitsUp 0 64)).
Proof.
  destruct (directPath_spec (n + 1) (2 * n)) as (d & Ed & Ld & _); [unfold two63 in *; lia|lia|].
  destruct (copath_spec (n + 1) (2 * n)) as (d' & c & Ed' & Ec & F); [unfold two63 in *; lia|lia|].
  rewrite Ec. f_equal. assert (d' = d) by congruence. subst d'.
  rewrite <- edge_0 in Ld, F. apply linked_edge in Ld; [|lia|rewrite edge_0; lia]. now apply Ld.
Qed.

Lemma bitsUp_In x m : forall k, In x (bitsUp k m) <-> exists j, x = j + 1 /\ k <= j < k + N.of_nat m /\ N.testbit n j = true.
Proof.
  induction m as [|m IH]; intro k; cbn [bitsUp].
  - split; [intros []|]. intros (j & _ & Hj & _). lia.
  - rewrite in_app_iff, IH. split.
    + intros [I|(j & -> & Hj & T)].
      * destruct (N.testbit n k) eqn:T; [|destruct I]. destruct I as [<-|[]]. exists k. split; [reflexivity|]. split; [lia|exact T].
      * exists j. split; [reflexivity|]. split; [lia|exact T].
    + intros (j & -> & Hj & T). destruct (N.eq_dec j k) as [->|]; [left; rewrite T; now left|]. right. exists j. split; [reflexivity|]. split; [lia|exact T].
Qed.

(** Rows of chunks whose bottom node on the edge has just become full. *)
Definition fullLv (k : N) : bool := (n / 2 ^ k + 1) * 2 ^ k =? n + 1.

Lemma full_edge k : E k < 2 * n + 1 -> isFullSubtree (E k) (n + 1) = fullLv k.
Proof.
  intro Hk. pose proof (E_level k Hk) as H63. pose proof (E_lt64 k H63) as H64.
  unfold isFullSubtree, fullLv. pose proof (hi_lt64 _ H64) as HH. unfold hi in HH.
  unfold E in *. rewrite level_nid in * by lia.
  rewrite shl64_small by (rewrite N.mul_1_l; apply pow2_lt64; lia). rewrite N.mul_1_l.
  pose proof (pow2_pos k) as P. rewrite add64_small by lia. rewrite sub64_small by lia.
  rewrite sub64_small by (unfold two63, two64 in *; lia). rewrite mul64_small by (unfold two63, two64 in *; lia).
  rewrite nid_form, pow2_S. pose proof (N.div_mod n (2 ^ k) ltac:(lia)) as D. pose proof (N.mod_lt n (2 ^ k) ltac:(lia)) as M.
  set (q := n / 2 ^ k) in *. set (r := n mod 2 ^ k) in *. clearbody q r. set (Q := 2 ^ k) in *. clearbody Q.
  destruct (N.eqb_spec ((q + 1) * Q) (n + 1)) as [E1|E1].
  - apply N.leb_le. nia.
  - apply N.leb_gt. assert (r + 1 <> Q) by (intro; apply E1; nia). nia.
Qed.

Lemma fullLv_mod k : fullLv k = ((n + 1) mod 2 ^ k =? 0).
Proof.
  unfold fullLv. pose proof (pow2_pos k) as P. pose proof (N.div_mod n (2 ^ k) ltac:(lia)) as D. pose proof (N.mod_lt n (2 ^ k) ltac:(lia)) as M.
  set (q := n / 2 ^ k) in *. set (r := n mod 2 ^ k) in *. destruct (N.eq_dec (r + 1) (2 ^ k)) as [E1|E1].
  - rewrite <- (N.mod_unique (n + 1) (2 ^ k) (q + 1) 0) by lia. apply N.eqb_eq. lia.
  - rewrite <- (N.mod_unique (n + 1) (2 ^ k) q (r + 1)) by lia. replace (r + 1 =? 0) with false by lia. apply N.eqb_neq. nia.
Qed.

Lemma fullLv_down k k' : fullLv k = true -> k' <= k -> fullLv k' = true.
Proof.
  rewrite !fullLv_mod. intros F Hk. apply N.eqb_eq in F. apply N.eqb_eq. pose proof (pow2_pos k). pose proof (pow2_pos k').
  apply N.mod_divide in F; [|lia]. apply N.mod_divide; [lia|]. eapply N.divide_trans; [|exact F].
  exists (2 ^ (k - k')). rewrite <- N.pow_add_r. f_equal. lia.
Qed.

Lemma fullLv_bit k : 0 < k -> fullLv k = true -> N.testbit n (k - 1) = true.
Proof.
  unfold fullLv. intros Hk F. apply N.eqb_eq in F. rewrite testbit_div. apply N.eqb_eq.
  pose proof (pow2_pos (k - 1)) as P. replace k with (k - 1 + 1) in F by lia. rewrite div_S, pow2_S in F.
  pose proof (N.div_mod n (2 ^ (k - 1)) ltac:(lia)) as D. pose proof (N.mod_lt n (2 ^ (k - 1)) ltac:(lia)) as M.
  set (q := n / 2 ^ (k - 1)) in *. set (r := n mod 2 ^ (k - 1)) in *.
  pose proof (N.div_mod q 2 ltac:(lia)) as D2. pose proof (N.mod_lt q 2 ltac:(lia)) as M2.
  set (h := q / 2) in *. set (b := q mod 2) in *. clearbody q r h b. set (Q := 2 ^ (k - 1)) in *. clearbody Q.
  assert (b = 0 \/ b = 1) as [-> | ->] by lia; [|reflexivity]. nia.
Qed.

Fixpoint rowsF (b : N) (m : nat) : list N := match m with O => [] | S m' => b :: rowsF (b + 4) m' end.

Lemma fullLv_64 : fullLv 64 = false.
Proof. unfold fullLv. rewrite N.div_small by (unfold two63 in *; change (2 ^ 64) with 18446744073709551616; lia). apply N.eqb_neq. change (2 ^ 64) with 18446744073709551616. unfold two63 in *. lia. Qed.

Fixpoint upTo (k : N) (m : nat) : list N := match m with O => [] | S m' => (k + 1) :: upTo (k + 1) m' end.

Lemma bitsUp_filter P : (forall k, P (k + 1) = true -> N.testbit n k = true) -> forall m k, filter P (bitsUp k m) = filter P (upTo k m).
Proof.
  intro HP. induction m as [|m IH]; intro k; cbn [bitsUp upTo]; [reflexivity|].
  destruct (N.testbit n k) eqn:T.
  - cbn [app filter]. now rewrite IH.
  - cbn [app filter]. destruct (P (k + 1)) eqn:F; [apply HP in F; congruence|]. apply IH.
Qed.

Lemma filter_filter {A} (P Q : A -> bool) l : filter (fun x => P x && Q x) l = filter P (filter Q l).
Proof. induction l as [|a l IH]; [reflexivity|]. cbn [filter]. destruct (Q a); cbn [filter]; destruct (P a); cbn [andb]; now rewrite IH. Qed.

Lemma filter_map {A B} (g : A -> B) P l : filter P (map g l) = map g (filter (fun x => P (g x)) l).
Proof. induction l as [|a l IH]; [reflexivity|]. cbn [map filter]. destruct (P (g a)); cbn [map]; now rewrite IH. Qed.

Lemma path_edge : filter (fun x => isFullSubtree x (n + 1) && (level x mod 4 =? 0)) (map E (bitsUp 0 64)) = map E (filter fullLv (rowsF 4 15)).
Proof.
  rewrite filter_map. f_equal.
  rewrite (filter_ext_in _ (fun k => fullLv k && (k mod 4 =? 0))).
  2:{ intros k I. apply bitsUp_In in I as (j & -> & Hj & T). rewrite edge_lt in T. apply N.ltb_lt in T. rewrite full_edge by exact T.
      unfold E. rewrite level_nid by lia. reflexivity. }
  rewrite bitsUp_filter.
  - rewrite filter_filter. change (filter (fun k => k mod 4 =? 0) (upTo 0 64)) with (rowsF 4 15 ++ [64]).
    rewrite filter_app. cbn [filter app]. rewrite fullLv_64. now rewrite app_nil_r.
  - intros k F. apply andb_prop in F as [F _]. apply fullLv_bit in F; [|lia]. now replace (k + 1 - 1) with k in F by lia.
Qed.
End Edge.
