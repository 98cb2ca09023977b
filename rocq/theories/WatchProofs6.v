(** Root comparison of prefix proofs; accepted responses are used up. *)
From Verif Require Import Base BaseProofs PrefixModel CodecModel AlgModel HandleModel.

Lemma verify_iff H hs entries p root : Verify H hs entries p root = Ok tt <-> Evaluate H hs entries p = Ok root.
Proof.
  unfold Verify. destruct (Evaluate H hs entries p) as [cand|e|e|]; cbn; try (split; discriminate).
  destruct (bytes_eqb root cand) eqn:E; [apply bytes_eqb_eq in E; subst; split; congruence|]. apply bytes_eqb_neq in E. split; [discriminate|congruence].
Qed.

Lemma filter_perm {A} (f : A -> bool) l l' : Permutation.Permutation l l' -> Permutation.Permutation (filter f l) (filter f l').
Proof.
  induction 1; cbn; auto.
  - destruct (f x); auto.
  - destruct (f x), (f y); try reflexivity. apply Permutation.perm_swap.
  - eapply Permutation.perm_trans; eauto.
Qed.

Lemma finish_used H hs d n nP m out : dpFinish H hs d n nP m = Ok out ->
  r_ts (d_handle d) = [] /\ r_proofs (d_handle d) = [] /\
  List.length (r_roots (d_handle d)) = List.length (filter (fun x => negb (mhas (d_roots d) x)) (filter (fun x => negb (mhas (d_retained d) x)) (map fst (d_ts d)))).
Proof.
  unfold dpFinish, inspectedLeaves, rRoots. cbn [hRoots receivedHandle]. unfold rRoots.
  set (leaves := nsort _). set (empty := filter _ leaves).
  destruct (Nat.eqb_spec (List.length empty) (List.length (r_roots (d_handle d)))) as [E|]; cbn [negb]; [|discriminate].
  rewrite <- E, Nat.eqb_refl. cbn [negb]. intro X.
  match type of X with context [mapM ?f leaves] => destruct (mapM f leaves) as [values|e|e|] end; cbn in X; try discriminate X.
  destruct (r_ts (d_handle d)); [|discriminate X]. destruct (r_proofs (d_handle d)); [|discriminate X]. split; [reflexivity|]. split; [reflexivity|].
  unfold empty, leaves. apply Permutation.Permutation_length, filter_perm, nsort_perm.
Qed.
