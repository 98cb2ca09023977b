(** Proofs for AuditTreeProperties.v. *)
From Verif Require Import Base BaseProofs LogTreeSpec PrefixModel PrefixSpec PrefixProofs PrefixUpdateProofs PrefixMutateProofs2 PrefixVerifyProofs4 CodecModel HandleModel AuditorModel AuditorSpec AuditorProofs AuditorProofs2 AuditorProofs3 AuditorProofs4 AuditTreeSpec.
Open Scope N_scope.
Local Open Scope list_scope.

Lemma follows_first H hs b us L : follows H hs b us L -> forall u rest, us = u :: rest -> exists after, EvaluateBeforeAfter H (N.to_nat hs) (au_added u) (au_removed u) (au_proof u) = Ok (b, after).
Proof.
  induction 1 as [|us L u0 old new Fo IH E Eo Et]; intros u rest Q; [discriminate|]. destruct us as [|u1 us].
  - cbn in Q. injection Q as <- <-. inversion Fo as [E0 E1|? ? ? ? ? ? ? ? ? E0 E1]; [|destruct us; discriminate E0]. subst L. cbn in Eo. subst old. eauto.
  - cbn in Q. injection Q as <- Q. eauto.
Qed.

Lemma last_snoc {A} (l : list A) x d : List.last (l ++ [x]) d = x.
Proof. induction l as [|a l IH]; [reflexivity|]. cbn. destruct (l ++ [x]) eqn:E; [destruct l; discriminate|exact IH]. Qed.

Lemma NoDup_app_disj {A} (l m : list A) : NoDup l -> NoDup m -> (forall x, In x l -> ~ In x m) -> NoDup (l ++ m).
Proof.
  induction l as [|a l IH]; intros Nl Nm D; [exact Nm|]. inversion Nl; subst. cbn. constructor; [|apply IH; auto; intros x I; apply D; now right].
  intro I. apply in_app_or in I as [I|I]; [auto|]. apply (D a); auto. now left.
Qed.

Section Tree.
Variable f : bytes -> bytes.
Variable hs : N.
Hypothesis Hf : forall x, lenN (f x) = hs.
Variable T : list bytes.

Lemma follows_tree b us L start : follows (full f) hs b us L -> Forall (fun u => au_removed u = [] /\ decoded hs u /\ hashedIn f T hs u) us -> treeWith f T hs b start ->
  treeWith f T hs (le_root (List.last L {| le_ts := 0; le_root := b |})) (start ++ flat_map au_added us) \/ broken f (N.to_nat hs) T.
Proof.
  intros Fo. induction Fo as [|us L u old new Fo IH E Eo Et]; intros Fa St; [left; cbn; rewrite app_nil_r; exact St|].
  apply Forall_app in Fa as [Fa Fu]. inversion Fu as [|? ? (Nr & (W & LA) & Hi) _]; subst. destruct (IH Fa St) as [(ND & t & C & Et' & Ct)|B]; [|auto].
  rewrite Nr in *. unfold hashedIn in Hi. rewrite Nr, E in Hi. clear IH E.
  assert (Hs : forall x, List.length (f x) = N.to_nat hs) by (intro x; specialize (Hf x); unfold lenN in Hf; lia).
  destruct (additions_tree f (N.to_nat hs) T (au_added u) (au_proof u) t _ new Hs C Hi W LA Et') as [(t' & C' & Ct' & Eh & Na & Nn)|B]; [|auto]. left.
  rewrite last_snoc. cbn [le_root]. rewrite flat_map_app. cbn [flat_map]. rewrite app_nil_r, app_assoc. split.
  - rewrite map_app. apply NoDup_app_disj; [exact ND|exact Na|]. intros k I J. specialize (Nn k J). apply in_map_iff in I as ([k' v] & <- & I). apply Ct in I. apply (NoDup_assoc_In _ t [] k' v C) in I. cbn [fst] in Nn. congruence.
  - exists t'. split; [exact C'|]. split; [exact Eh|]. intro x. rewrite Ct', Ct. split; intro I.
    + apply in_or_app. tauto.
    + apply in_app_or in I. tauto.
Qed.
End Tree.

Lemma audited_tree f hs : (forall x, lenN (f x) = hs) -> 0 < hs ->
  forall c sign key us ps a s, audited (full f) hs c sign key us ps a -> a_state a = Some s ->
  forall T, Forall (fun u => au_removed u = [] /\ decoded hs u /\ hashedIn f T hs u) us ->
  forall u rest before start, us = u :: rest -> rootBefore (full f) hs u before -> treeWith f T hs before start ->
  treeWith f T hs (as_prefix s) (start ++ flat_map au_added us) \/ broken f (N.to_nat hs) T.
Proof.
  intros Hf Hhs c sign key us ps a s A Ea T Fa u rest before start Q (after & Eb) St.
  destruct (c54 f hs Hf Hhs c sign key us ps a A) as (b & L & Fo & Su & _). rewrite Ea in Su. destruct Su as (_ & (e & El & _ & Ep) & _).
  destruct (follows_first _ _ _ _ _ Fo u rest Q) as (after' & Eb'). rewrite Eb in Eb'. injection Eb' as -> _.
  destruct (follows_tree f hs Hf T b us L start Fo Fa St) as [G|B]; [|auto]. left. rewrite Ep.
  replace (le_root e) with (le_root (List.last L {| le_ts := 0; le_root := b |})); [exact G|]. f_equal.
  clear - El. revert El. generalize {| le_ts := 0; le_root := b |}. induction L as [|x L IH]; intros d El; [discriminate|]. cbn in El |- *. destruct L as [|y L]; [cbn in El; injection El as ->; reflexivity|]. apply IH. exact El.
Qed.
