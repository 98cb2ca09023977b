(** Proofs about mutations: the prefix tree. *)
From Coq Require Import Permutation Sorted.
From Verif Require Import Base BaseProofs LogMathModel LogMathSpec LogTreeModel LogTreeSpec LogTreeProofs3 LogChunkModel PrefixModel PrefixSpec PrefixProofs PrefixBuildProofs PrefixHistProofs
  CodecModel CodecSpec CodecProofs CodecProofs2
  TransMathSpec AlgModel AlgSpec HandleModel HandleSpec StoreModel StoreProofs CommitModel MutateModel MutateSpec MutateProofs MutateProofs2.
Open Scope N_scope.
Local Open Scope list_scope.

Lemma NoDup_app_intro {A} (a b : list A) : NoDup a -> NoDup b -> (forall z, In z a -> In z b -> False) -> NoDup (a ++ b).
Proof.
  induction 1 as [|x a Nx ND IH]; intros Hb D; cbn; [exact Hb|]. constructor.
  - rewrite in_app_iff. intros [I|I]; [contradiction|]. apply (D x); [now left|exact I].
  - apply IH; [exact Hb|]. intros z I. apply D. now right.
Qed.

Section Prefix.
Variable f : bytes -> bytes.
Variable hs : N.
Hypothesis Hf : forall x, lenN (f x) = hs.
Variable vrf : bytes -> bytes * bytes.
Variable Ls : list bytes.
Hypothesis HV : vrfGood hs vrf Ls.
Variable opening : bytes -> N -> bytes.
Variable n : N.
Variable order : list bytes.
Variable add : list labelValue.
Variable remove : list bytes.
Variable cur : labels.
Hypothesis HO : listsLabels order add remove.
Hypothesis HLs : forall l, In l order -> In l Ls.
Hypothesis Hcount : forall l, In l order -> lenN (cur l) < 2 ^ 32 /\ lenN (publish opening n add remove cur l) < 2 ^ 32.

Local Notation keyOf := (keyOf vrf).
Local Notation comOf := (comOf f).
Local Notation addedFor := (addedFor f vrf opening n add remove cur).
Local Notation removedFor := (removedFor vrf remove cur).

Lemma pairsFor_In l ps : forall v k c, In (k, c) (pairsFor f vrf l v ps) <-> exists i p, nth_error ps i = Some p /\ k = keyOf l (v + N.of_nat i) /\ c = comOf l (v + N.of_nat i) p.
Proof.
  induction ps as [|p ps IH]; intros v k c; cbn [pairsFor In].
  - split; [tauto|]. intros (i & p & A & _). destruct i; discriminate.
  - rewrite IH. split.
    + intros [[= <- <-]|(i & q & A & B & C)].
      * exists 0%nat, p. rewrite N.add_0_r. auto.
      * exists (S i), q. rewrite Nat2N.inj_succ. replace (v + N.succ (N.of_nat i)) with (v + 1 + N.of_nat i) by lia. auto.
    + intros (i & q & A & B & C). destruct i as [|i].
      * cbn in A. injection A as <-. rewrite N.add_0_r in *. left. congruence.
      * right. exists i, q. rewrite Nat2N.inj_succ in *. replace (v + N.succ (N.of_nat i)) with (v + 1 + N.of_nat i) in * by lia. auto.
Qed.

Lemma keysFrom_In l j : forall v k, In k (keysFrom vrf l v j) <-> exists i, (i < j)%nat /\ k = keyOf l (v + N.of_nat i).
Proof.
  induction j as [|j IH]; intros v k; cbn [keysFrom In].
  - split; [tauto|]. intros (i & A & _). lia.
  - rewrite IH. split.
    + intros [<-|(i & A & B)]; [exists 0%nat; rewrite N.add_0_r; split; [lia|reflexivity]|].
      exists (S i). rewrite Nat2N.inj_succ. replace (v + N.succ (N.of_nat i)) with (v + 1 + N.of_nat i) by lia. split; [lia|exact B].
    + intros (i & A & B). destruct i as [|i]; [left; rewrite N.add_0_r in B; auto|right].
      exists i. rewrite Nat2N.inj_succ in B. replace (v + N.succ (N.of_nat i)) with (v + 1 + N.of_nat i) in B by lia. split; [lia|exact B].
Qed.

Lemma pairs_keys l ps : forall v, map fst (pairsFor f vrf l v ps) = keysFrom vrf l v (List.length ps).
Proof. induction ps; intro v; cbn; f_equal; auto. Qed.

Definition newFor (l : bytes) : list pubVersion := nextVersions opening n l (lenN (kept remove cur l)) (valuesFor add l).

Lemma publish_eq l : publish opening n add remove cur l = kept remove cur l ++ newFor l.
Proof. reflexivity. Qed.

Lemma kept_len l : In l order -> lenN (kept remove cur l) + lenN (newFor l) < 2 ^ 32.
Proof. intro I. destruct (Hcount l I) as [_ B]. rewrite publish_eq in B. unfold lenN in *. rewrite app_length in B. lia. Qed.

Lemma keysFrom_NoDup l : In l Ls -> forall j v, v + N.of_nat j <= 2 ^ 32 -> NoDup (keysFrom vrf l v j).
Proof.
  intros Hl. induction j as [|j IH]; intros v Hv; cbn [keysFrom]; constructor.
  - intro I. apply keysFrom_In in I. destruct I as (i & A & B). destruct HV as (_ & _ & Inj).
    apply Inj in B; [|exact Hl|exact Hl|lia|lia]. lia.
  - apply IH. lia.
Qed.

Lemma flat_map_NoDup {A B} (g : A -> list B) (l : list A) : NoDup l -> (forall x, In x l -> NoDup (g x)) ->
  (forall x y z, In x l -> In y l -> In z (g x) -> In z (g y) -> x = y) -> NoDup (flat_map g l).
Proof.
  induction 1 as [|x l Nx ND IH]; intros H1 H2; cbn; [constructor|]. apply NoDup_app_intro.
  - apply H1. now left.
  - apply IH; [intros; apply H1; now right|]. intros a b z Ia Ib. apply H2; now right.
  - intros z I1 I2. apply in_flat_map in I2. destruct I2 as (y & Iy & Iz). apply Nx. rewrite (H2 x y z); auto; [now left|now right].
Qed.

Lemma added_In k c : In (k, c) (flat_map addedFor order) <-> exists l i p, In l order /\ nth_error (newFor l) i = Some p /\
  k = keyOf l (lenN (kept remove cur l) + N.of_nat i) /\ c = comOf l (lenN (kept remove cur l) + N.of_nat i) p.
Proof.
  rewrite in_flat_map. split.
  - intros (l & I & J). apply pairsFor_In in J. destruct J as (i & p & J). eauto 6.
  - intros (l & i & p & I & J). exists l. split; [exact I|]. apply pairsFor_In. eauto.
Qed.

Lemma removed_In k : In k (flat_map removedFor order) <-> exists l i, In l order /\ In l remove /\ (i < List.length (cur l))%nat /\ k = keyOf l (N.of_nat i).
Proof.
  rewrite in_flat_map. split.
  - intros (l & I & J). unfold MutateProofs2.removedFor in J. destruct (existsb (bytes_eqb l) remove) eqn:E; [|contradiction].
    apply keysFrom_In in J. destruct J as (i & A & B). apply existsb_bytes in E. eauto 6.
  - intros (l & i & I & R & A & B). exists l. split; [exact I|]. unfold MutateProofs2.removedFor. rewrite (proj2 (existsb_bytes _ _) R).
    apply keysFrom_In. eauto.
Qed.

Lemma key_eq l v l' v' : In l Ls -> In l' Ls -> v < 2 ^ 32 -> v' < 2 ^ 32 -> keyOf l v = keyOf l' v' -> l = l' /\ v = v'.
Proof. destruct HV as (_ & _ & Inj). apply Inj. Qed.

Lemma added_NoDup : NoDup (map fst (flat_map addedFor order)).
Proof.
  assert (E : map fst (flat_map addedFor order) = flat_map (fun l => map fst (addedFor l)) order).
  { clear. induction order as [|l o IH]; cbn [flat_map map]; [reflexivity|]. rewrite map_app. f_equal. exact IH. }
  rewrite E. destruct HO as [ND _]. apply flat_map_NoDup; [exact ND| |].
  - intros l I. unfold MutateProofs2.addedFor. rewrite pairs_keys. apply keysFrom_NoDup; [auto|]. pose proof (kept_len l I). unfold newFor, lenN in *. lia.
  - intros l l' k I I' J J'. unfold MutateProofs2.addedFor in *. rewrite pairs_keys in *. apply keysFrom_In in J, J'. destruct J as (i & A & B), J' as (i' & A' & B').
    pose proof (kept_len l I). pose proof (kept_len l' I'). unfold newFor in *. rewrite B in B'. apply key_eq in B'; auto; unfold lenN in *; [tauto|lia|lia].
Qed.

Lemma removed_NoDup : NoDup (flat_map removedFor order).
Proof.
  destruct HO as [ND _]. apply flat_map_NoDup; [exact ND| |].
  - intros l I. unfold MutateProofs2.removedFor. destruct (existsb _ _); [|constructor]. apply keysFrom_NoDup; [auto|]. destruct (Hcount l I) as [A _]. unfold lenN in A. lia.
  - intros l l' k I I' J J'. unfold MutateProofs2.removedFor in *. destruct (existsb (bytes_eqb l) remove); [|contradiction]. destruct (existsb (bytes_eqb l') remove); [|contradiction].
    apply keysFrom_In in J, J'. destruct J as (i & A & B), J' as (i' & A' & B').
    destruct (Hcount l I) as [C _], (Hcount l' I') as [C' _]. rewrite B in B'. apply key_eq in B'; auto; unfold lenN in *; [tauto|lia|lia].
Qed.

(** The additions and removals in the order given to the prefix tree. *)
Let padd := ksort fst (flat_map addedFor order).
Let prem := ksort (fun x : bytes => x) (flat_map removedFor order).

Lemma padd_In e : In e padd <-> In e (flat_map addedFor order). Proof. apply ksort_In. Qed.
Lemma prem_In k : In k prem <-> In k (flat_map removedFor order). Proof. apply ksort_In. Qed.
Lemma padd_NoDup : NoDup (map fst padd).
Proof. eapply Permutation_NoDup; [|exact added_NoDup]. apply Permutation_map, Permutation_sym, ksort_perm. Qed.
Lemma prem_NoDup : NoDup prem.
Proof. eapply Permutation_NoDup; [|exact removed_NoDup]. apply Permutation_sym, ksort_perm. Qed.

Lemma not_mentioned l : ~ In l order -> kept remove cur l = cur l /\ newFor l = [].
Proof.
  intro Nl. destruct HO as [_ HO']. assert (valuesFor add l = []).
  { unfold valuesFor. destruct (filter (fun p => bytes_eqb (fst p) l) add) as [|p t] eqn:E; [reflexivity|]. exfalso. apply Nl, HO'. left.
    assert (I : In p (p :: t)) by now left. rewrite <- E in I. apply filter_In in I. destruct I as [I J]. apply bytes_eqb_eq in J. subst l. now apply in_map. }
  split.
  - unfold kept. destruct (existsb (bytes_eqb l) remove) eqn:E; [|reflexivity]. exfalso. apply Nl, HO'. right. now apply existsb_bytes.
  - unfold newFor. rewrite H. reflexivity.
Qed.

Lemma map_after m : mapFor f vrf Ls m cur -> mapFor f vrf Ls (PrefixSpec.update m padd prem) (publish opening n add remove cur).
Proof.
  intros Hm l v Hl Hv. rewrite publish_eq. unfold PrefixSpec.update.
  assert (Dec : In l order \/ ~ In l order) by (destruct (in_dec bytes_eq_dec l order); auto).
  assert (AS : assoc padd (keyOf l v) = if v <? lenN (kept remove cur l) then None else option_map (comOf l v) (nth_error (newFor l) (N.to_nat (v - lenN (kept remove cur l))))).
  { destruct (assoc padd (keyOf l v)) as [c0|] eqn:A.
    - apply (assoc_In _ _ _ padd_NoDup) in A. apply padd_In in A. apply added_In in A. destruct A as (l' & i & p & I & P & K & C).
      pose proof (kept_len l' I). assert (i < List.length (newFor l'))%nat by (apply nth_error_Some; congruence).
      apply key_eq in K; [|exact Hl|auto|exact Hv|unfold lenN in *; lia]. destruct K as [<- ->].
      rewrite (proj2 (N.ltb_ge _ _)) by lia. replace (N.to_nat (lenN (kept remove cur l) + N.of_nat i - lenN (kept remove cur l))) with i by lia. rewrite P. cbn. congruence.
    - apply assoc_None in A. destruct (N.ltb_spec v (lenN (kept remove cur l))) as [B|B]; [reflexivity|].
      destruct (nth_error (newFor l) (N.to_nat (v - lenN (kept remove cur l)))) as [p|] eqn:P; [|reflexivity]. exfalso. apply A.
      apply in_map_iff. exists (keyOf l v, comOf l v p). split; [reflexivity|]. apply padd_In. apply added_In.
      exists l, (N.to_nat (v - lenN (kept remove cur l))), p. split.
      + destruct Dec as [I|Nl]; [exact I|]. apply not_mentioned in Nl. destruct Nl as [_ Q]. rewrite Q in P. destruct (N.to_nat (v - lenN (kept remove cur l))); discriminate.
      + split; [exact P|]. replace (lenN (kept remove cur l) + N.of_nat (N.to_nat (v - lenN (kept remove cur l)))) with v by lia. auto. }
  assert (RS : existsb (bytes_eqb (keyOf l v)) prem = true <-> In l remove /\ v < lenN (cur l)).
  { rewrite existsb_bytes, prem_In, removed_In. destruct HO as [_ HO']. split.
    - intros (l' & i & I & R & A & K). destruct (Hcount l' I) as [C _]. apply key_eq in K; [|exact Hl|auto|exact Hv|unfold lenN in *; lia]. destruct K as [<- ->]. split; [exact R|unfold lenN; lia].
    - intros [R A]. exists l, (N.to_nat v). split; [apply HO'; now right|]. split; [exact R|]. split; [unfold lenN in A; lia|]. now rewrite N2Nat.id. }
  rewrite AS. unfold kept in *. destruct (existsb (bytes_eqb l) remove) eqn:E.
  - apply existsb_bytes in E. rewrite (proj2 (N.ltb_ge _ _)) by (unfold lenN; cbn; lia). change (lenN (@nil pubVersion)) with 0. cbn [app]. rewrite N.sub_0_r.
    destruct (nth_error (newFor l) (N.to_nat v)) as [p|] eqn:P; cbn [option_map]; [reflexivity|].
    destruct (existsb (bytes_eqb (keyOf l v)) prem) eqn:B; [reflexivity|]. rewrite Hm by assumption.
    destruct (N.lt_ge_cases v (lenN (cur l))) as [D|D]; [|rewrite (proj2 (nth_error_None (cur l) _)) by (unfold lenN in D; lia); reflexivity].
    pose proof (proj2 RS (conj E D)) as X. discriminate X.
  - assert (B : existsb (bytes_eqb (keyOf l v)) prem = false).
    { destruct (existsb (bytes_eqb (keyOf l v)) prem) eqn:B; [|reflexivity]. destruct (proj1 RS eq_refl) as [R _]. apply existsb_bytes in R. congruence. }
    rewrite B. destruct (N.ltb_spec v (lenN (cur l))) as [D|D].
    + rewrite nth_error_app1 by (unfold lenN in D; lia). apply Hm; assumption.
    + rewrite nth_error_app2 by (unfold lenN in D; lia). replace (N.to_nat v - List.length (cur l))%nat with (N.to_nat (v - lenN (cur l))) by (unfold lenN; lia).
      destruct (nth_error (newFor l) (N.to_nat (v - lenN (cur l)))) as [p|]; cbn [option_map]; [reflexivity|].
      rewrite Hm by assumption. rewrite (proj2 (nth_error_None (cur l) _)) by (unfold lenN in D; lia). reflexivity.
Qed.

Lemma commitment_len o l v u b : labelCommitment (full f) o l v u = Ok b -> List.length b = N.to_nat hs.
Proof.
  unfold labelCommitment. destruct (commitmentValue l v u) as [cv|?|?|]; cbn [bind]; try discriminate. unfold Commit, hmac, hash, full. cbn [bind]. intros [= <-].
  match goal with |- List.length (f ?x) = _ => specialize (Hf x) end. unfold lenN in Hf. lia.
Qed.

Lemma admissible_now m : mapFor f vrf Ls m cur ->
  (forall l i p, In l order -> nth_error (newFor l) i = Some p -> exists b, labelCommitment (full f) (pv_opening p) l (lenN (kept remove cur l) + N.of_nat i) (pv_value p) = Ok b) ->
  admissible (N.to_nat hs) m padd prem.
Proof.
  intros Hm Hc. destruct HV as (_ & Sz & _). destruct HO as [_ HO']. repeat split.
  - apply Forall_forall. intros [k c0] I. apply padd_In, added_In in I. destruct I as (l & i & p & I & P & -> & ->).
    pose proof (kept_len l I). assert (i < List.length (newFor l))%nat by (apply nth_error_Some; congruence). cbn [fst snd]. split.
    + apply Sz; [auto|unfold lenN in *; lia].
    + destruct (Hc l i p I P) as [b Eb]. unfold MutateSpec.comOf. rewrite Eb. eapply commitment_len. exact Eb.
  - apply Forall_forall. intros k I. apply prem_In, removed_In in I. destruct I as (l & i & I & R & A & ->). destruct (Hcount l I) as [C _]. apply Sz; [auto|unfold lenN in C; lia].
  - exact padd_NoDup.
  - exact prem_NoDup.
  - intros k I Nk. apply in_map_iff in I. destruct I as ([k' c0] & E & I). cbn in E. subst k'. apply padd_In, added_In in I. destruct I as (l & i & p & I & P & -> & _).
    pose proof (kept_len l I). assert (i < List.length (newFor l))%nat by (apply nth_error_Some; congruence).
    rewrite Hm in Nk; [|auto|unfold lenN in *; lia]. destruct (nth_error (cur l) _) as [q|] eqn:Q; [|contradiction].
    assert (B : (N.to_nat (lenN (kept remove cur l) + N.of_nat i) < List.length (cur l))%nat) by (apply nth_error_Some; congruence).
    apply prem_In, removed_In. exists l, (N.to_nat (lenN (kept remove cur l) + N.of_nat i)). split; [exact I|]. split; [|split; [exact B|now rewrite N2Nat.id]].
    unfold kept in B. destruct (existsb (bytes_eqb l) remove) eqn:E; [now apply existsb_bytes|]. unfold lenN in B. lia.
  - intros k I. apply prem_In, removed_In in I. destruct I as (l & i & I & R & A & ->). destruct (Hcount l I) as [C _].
    rewrite Hm; [|auto|unfold lenN in C; lia]. rewrite Nat2N.id. destruct (nth_error (cur l) i) eqn:Q; [discriminate|]. apply nth_error_None in Q. lia.
Qed.

Lemma effective_batch : effective cur add remove -> padd <> [] \/ prem <> [].
Proof.
  destruct HO as [_ HO']. intros [A|(l & R & C)].
  - left. assert (Ea : exists l x t, add = (l, x) :: t) by (destruct add as [|[l x] t]; [contradiction|eauto]). destruct Ea as (l & x & t & Ea). intro Q.
    assert (I : In l order) by (apply HO'; left; rewrite Ea; now left).
    assert (NV : newFor l <> []).
    { unfold newFor, valuesFor. rewrite Ea. cbn [filter fst]. rewrite bytes_eqb_refl. discriminate. }
    destruct (newFor l) as [|p ps] eqn:En; [contradiction|].
    assert (J : In (keyOf l (lenN (kept remove cur l) + 0), comOf l (lenN (kept remove cur l) + 0) p) padd).
    { apply padd_In, added_In. exists l, 0%nat, p. rewrite En. auto. }
    rewrite Q in J. exact J.
  - right. intro Q. assert (J : In (keyOf l 0) prem).
    { apply prem_In, removed_In. exists l, 0%nat. split; [apply HO'; now right|]. split; [exact R|]. split; [|reflexivity]. destruct (cur l); [contradiction|cbn; lia]. }
    rewrite Q in J. exact J.
Qed.

(** The number of changes to the prefix tree. *)
Lemma of_nat_le a b : (a <= b)%nat -> N.of_nat a <= N.of_nat b.
Proof. lia. Qed.
Lemma filter_split {A} (p : A -> bool) l : (List.length (filter p l) + List.length (filter (fun x => negb (p x)) l) = List.length l)%nat.
Proof. induction l as [|x l IH]; cbn; [reflexivity|]. destruct (p x); cbn; lia. Qed.

Lemma grouped_le (o : list bytes) : NoDup o -> forall adds : list labelValue,
  (List.length (flat_map (fun l => filter (fun p => bytes_eqb (fst p) l) adds) o) <= List.length adds)%nat.
Proof.
  induction 1 as [|l o Nl ND IH]; intro adds; cbn [flat_map]; [cbn; lia|]. rewrite app_length.
  eapply Nat.le_trans; [|apply Nat.eq_le_incl, (filter_split (fun p => bytes_eqb (fst p) l) adds)]. apply Nat.add_le_mono_l.
  eapply Nat.le_trans; [|apply (IH (filter (fun x => negb (bytes_eqb (fst x) l)) adds))]. apply Nat.eq_le_incl. f_equal.
  clear -Nl. induction o as [|l' o IH]; [reflexivity|]. cbn [flat_map]. rewrite IH by (intro; apply Nl; now right). f_equal.
  assert (Hn : l' <> l) by (intros ->; apply Nl; now left). clear -Hn. induction adds as [|p t IH]; [reflexivity|]. cbn [filter].
  destruct (bytes_eqb (fst p) l') eqn:E.
  - apply bytes_eqb_eq in E. rewrite (proj2 (bytes_eqb_neq (fst p) l)) by congruence. cbn [negb filter]. rewrite (proj2 (bytes_eqb_eq (fst p) l')) by exact E. now rewrite IH.
  - destruct (bytes_eqb (fst p) l); cbn [negb filter]; [exact IH|]. now rewrite E, IH.
Qed.

Lemma flat_map_len {A B C} (g : A -> list B) (h : A -> list C) l : (forall x, List.length (g x) = List.length (h x)) -> List.length (flat_map g l) = List.length (flat_map h l).
Proof. intro E. induction l as [|x l IH]; cbn; [reflexivity|]. rewrite !app_length. now rewrite E, IH. Qed.

Lemma batch_size : lenN padd + lenN prem <= lenN add + lenN (flat_map (fun l => if existsb (bytes_eqb l) remove then cur l else []) order).
Proof.
  unfold lenN, padd, prem. rewrite (Permutation_length (ksort_perm fst _)), (Permutation_length (ksort_perm _ _)).
  rewrite (flat_map_len removedFor (fun l => if existsb (bytes_eqb l) remove then cur l else [])).
  2: { intro l. unfold MutateProofs2.removedFor. destruct (existsb _ _); [|reflexivity]. clear. generalize 0. induction (cur l); intro v; cbn; auto. }
  apply N.add_le_mono_r, of_nat_le.
  destruct HO as [ND _]. etransitivity; [|apply (grouped_le order ND add)]. apply Nat.eq_le_incl, flat_map_len. intro l.
  unfold MutateProofs2.addedFor. rewrite <- (map_length fst), pairs_keys. unfold valuesFor.
  assert (KL : forall j v, List.length (keysFrom vrf l v j) = j) by (clear; induction j; intro v; cbn; auto). rewrite KL, next_len, map_length. reflexivity.
Qed.

End Prefix.
