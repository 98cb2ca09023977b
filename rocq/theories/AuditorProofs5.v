(** Proofs about the auditor: the updates of an honest server. *)
From Coq Require Import Permutation Sorted.
From Verif Require Import Base BaseProofs LogMathSpec LogMathProofs LogTreeModel LogTreeSpec LogTreeProofs LogTreeProofs3 PrefixModel PrefixSpec PrefixProofs PrefixBuildProofs
  PrefixVerifyProofs3 PrefixStoreProofs PrefixMutateProofs2 PrefixHistProofs CodecModel TransMathSpec AlgModel AlgSpec HandleModel HandleSpec StoreModel MutateModel MutateSpec MutateProofs MutateProofs2
  MutateProofs3 MutateProofs4 MutateProofs5 AuditorModel AuditorSpec AuditorProofs AuditorProofs2 AuditorProofs3 AuditorProofs4.
Open Scope N_scope.

Lemma tsearch_rincl t k : forall bs d, rincl (fst (tsearch t k bs d)) = true -> snd (tsearch t k bs d) <> None.
Proof.
  induction t as [|k' c|l IHl r IHr]; intros bs d; cbn [tsearch].
  - discriminate.
  - destruct (bytes_eqb k k'); cbn; [congruence|discriminate].
  - destruct bs as [|b bs]; [discriminate|]. destruct b; [apply IHr|apply IHl].
Qed.

Lemma telems_sized H hs t : (forall x y, H x = Some y -> List.length y = hs) -> forall ks d es, telems H hs t ks d = Some es -> Forall (fun e : bytes => List.length e = hs) es.
Proof.
  intro Hs. assert (N0 : forall t d es, telems H hs t [] d = Some es -> Forall (fun e : bytes => List.length e = hs) es).
  { intros t' d es E. assert (Q : match thash H hs t' with Some h => Some [h] | None => None end = Some es) by (destruct t'; exact E).
    destruct (thash H hs t') as [h|] eqn:T; [|discriminate]. injection Q as <-. constructor; [|constructor]. eapply (thash_len H); [exact Hs|intros; exact Logic.I|exact T]. }
  induction t as [|k' c|l IHl r IHr]; intros ks d es E.
  - destruct ks; [eapply N0; exact E|]. cbn [telems] in E. injection E as <-. constructor.
  - destruct ks; [eapply N0; exact E|]. cbn [telems] in E. injection E as <-. constructor.
  - destruct ks as [|k ks]; [eapply N0; exact E|]. cbn [telems] in E.
    destruct (telems H hs l _ _) as [a|] eqn:Ea; [|discriminate]. destruct (telems H hs r _ _) as [b|] eqn:Eb; [|discriminate]. injection E as <-.
    apply Forall_app. eauto.
Qed.

Lemma sortedEntries_ksort (l : list (bytes * bytes)) : NoDup (map fst l) -> sortedEntries (ksort fst l) = true.
Proof.
  intro ND. assert (ND' : NoDup (map fst (ksort fst l))) by (eapply Permutation_NoDup; [apply Permutation_map, Permutation_sym, ksort_perm|exact ND]).
  pose proof (ksort_sorted fst l) as S. revert S ND'. generalize (ksort fst l). clear. intro l. induction l as [|e l IH]; intros S ND; [reflexivity|].
  destruct l as [|e' l]; [reflexivity|]. inversion S as [|? ? S' F]; subst. inversion ND as [|? ? N1 N2]; subst. specialize (IH S' N2). cbn [sortedEntries].
  apply Forall_inv in F. unfold kle in F. destruct (bytes_cmp (fst e) (fst e')) eqn:C; [|exact IH|congruence]. exfalso. apply N1. left. symmetry. now apply bytes_cmp_eq.
Qed.

Lemma grouped_eq (o : list bytes) : NoDup o -> forall adds : list labelValue, (forall p, In p adds -> In (fst p) o) ->
  List.length (flat_map (fun l => filter (fun p => bytes_eqb (fst p) l) adds) o) = List.length adds.
Proof.
  induction 1 as [|l o Nl ND IH]; intros adds Ho; cbn [flat_map].
  - destruct adds as [|p t]; [reflexivity|]. exfalso. exact (Ho p (or_introl eq_refl)).
  - rewrite app_length. etransitivity; [|apply (filter_split (fun p => bytes_eqb (fst p) l) adds)]. f_equal.
    etransitivity; [|apply (IH (filter (fun x => negb (bytes_eqb (fst x) l)) adds))].
    + f_equal. clear -Nl. induction o as [|l' o IH]; [reflexivity|]. cbn [flat_map]. rewrite IH by (intro; apply Nl; now right). f_equal.
      assert (Hn : l' <> l) by (intros ->; apply Nl; now left). clear -Hn. induction adds as [|p t IH]; [reflexivity|]. cbn [filter].
      destruct (bytes_eqb (fst p) l') eqn:E.
      * apply bytes_eqb_eq in E. rewrite (proj2 (bytes_eqb_neq (fst p) l)) by congruence. cbn [negb filter]. rewrite (proj2 (bytes_eqb_eq (fst p) l')) by exact E. now rewrite IH.
      * destruct (bytes_eqb (fst p) l); cbn [negb filter]; [exact IH|]. now rewrite E, IH.
    + intros p I. apply filter_In in I. destruct I as [I N0]. apply negb_true_iff in N0. apply bytes_eqb_neq in N0. destruct (Ho p I) as [Q|Q]; [congruence|exact Q].
Qed.

Lemma addedFor_len f vrf opening n order add remove cur : listsLabels order add remove ->
  List.length (flat_map (addedFor f vrf opening n add remove cur) order) = List.length add.
Proof.
  intros [ND HO]. rewrite <- (grouped_eq order ND add).
  - apply flat_map_len. intro l. unfold addedFor. erewrite <- map_length, pairs_keys. unfold valuesFor.
    assert (KL : forall j v, List.length (keysFrom vrf l v j) = j) by (clear; induction j; intro v; cbn; auto). rewrite KL, next_len, map_length. reflexivity.
  - intros p I. apply HO. left. now apply in_map.
Qed.

Lemma calm_cases {A} (x : res A) : calm x -> (exists a, x = Ok a) \/ exists m, x = Fail m.
Proof. destruct x; cbn; eauto; contradiction. Qed.
Lemma mapM_calm {A B} (g : A -> res B) l : (forall a, In a l -> calm (g a)) -> calm (mapM g l).
Proof.
  induction l as [|a l IH]; intro Hg; [exact Logic.I|]. cbn [mapM]. apply calm_bind'; [apply Hg; now left|]. intro b. apply calm_bind'; [apply IH; intros; apply Hg; now right|intros; exact Logic.I].
Qed.

Section Hist.
Variable f : bytes -> bytes.
Variable hs : nat.
Hypothesis Hf : forall x, List.length (f x) = hs.
Hypothesis Hsmall : (hs <= 32)%nat.

(** What an update without removals looks like. *)
Lemma hist_update s past m h add root proof coms s' : hist f hs s (past ++ [(m, h)]) ->
  lenN past + 1 < two64 -> add <> [] -> lenN add < two32 ->
  mutate (full f) hs s (lenN past) add [] = Ok (root, proof, coms, s') ->
  NoDup (map fst add) ->
  EvaluateBeforeAfter (full f) hs add [] proof = Ok (h, root) /\ List.length (p_results proof) = List.length add /\
  Forall (fun r => rincl r = false) (p_results proof) /\ Forall (fun e : bytes => List.length e = hs) (p_elements proof).
Proof.
  intros Hh L NE Sz M ND. split.
  { replace (@nil (bytes * bytes)) with (combine (@nil bytes) coms) by reflexivity.
    refine (hist_audit f hs Hf Hsmall s past m h add [] root proof coms s' Hh L (or_introl NE) _ M _ (or_introl eq_refl)); [cbn; rewrite N.add_0_r; exact Sz|now rewrite app_nil_r]. }
  destruct (hist_last f hs Hf Hsmall _ _ _ _ Hh) as [Fr [t [A [[C Tm] Th]]]].
  destruct (admissible_dec hs (assoc (PrefixSpec.contents t)) add []) as [Ad|Ad].
  2:{ destruct (mutate_fail (full f) hs (full_sz f hs Hf) (full_tot f) Hsmall s (lenN past) t add [] A (or_introl NE) Ad) as [msg E]. congruence. }
  destruct (mutate_ok (full f) hs (full_sz f hs Hf) (full_tot f) Hsmall s (lenN past) t add [] A Fr L (or_introl NE) ltac:(cbn; rewrite N.add_0_r; exact Sz) Ad)
    as [h' [es [coms' [s2 [t' [E [Te [Mc [At' [Fr' [Th' [Nc [Up Mono]]]]]]]]]]]]].
  rewrite M in E. injection E as -> -> -> ->. destruct Ad as [A1 [A2 [A3 [A4 [A5 A6]]]]]. unfold PrefixMutateProofs2.honest. cbn [p_results p_elements]. rewrite app_nil_r.
  split; [now rewrite !map_length|]. split.
  - apply Forall_forall. intros r Ir. apply in_map_iff in Ir. destruct Ir as (k & <- & Ik). destruct (rincl _) eqn:R; [|reflexivity]. exfalso.
    apply tsearch_rincl in R. rewrite (tsearch_lookup0 hs) in R; [exact (A5 k Ik R)|exact C|].
    apply in_map_iff in Ik. destruct Ik as (e & <- & Ie). rewrite Forall_forall in A1. apply A1. exact Ie.
  - apply (telems_sized (full f) hs t) with (ks := map fst add ++ []) (d := 0%nat); [apply (full_sz f hs Hf)|exact Te].
Qed.

End Hist.

Section Tracked.
Variable f : bytes -> bytes.
Variable hs : N.
Hypothesis Hf : forall x, lenN (f x) = hs.
Hypothesis Hhs : 0 < hs <= 32.
Variable c : pubConfig.
Variable vrf : bytes -> bytes * bytes.
Variable Ls : list bytes.
Hypothesis HV : vrfGood hs vrf Ls.
Variable sign asign : bytes -> res bytes.
Variable valid : bytes -> bytes -> Prop.
Hypothesis Hsign : forall tbs sig, sign tbs = Ok sig -> valid tbs sig.
Variable key : bytes.

Notation H := (full f).
Notation tracked := (tracked H hs c vrf sign asign key Ls).
Notation follows := (AuditorSpec.follows H hs).
Notation inv := (AuditorProofs3.inv f hs c).
Notation treeOf := (treeOf f hs vrf Ls c valid).
Notation zeros := (repeat Byte.x00 (N.to_nat hs)).
Let Hf' : forall x, List.length (f x) = N.to_nat hs.
Proof. intro x. specialize (Hf x). unfold lenN in Hf. lia. Qed.

Definition rootOf (E : list epoch) : bytes := le_root (List.last (entriesOf E) {| le_ts := 0; le_root := zeros |}).

Lemma update_sound t E r u t' : treeOf t E -> moderate Ls (lenN E) (current E) r -> rq_add r <> [] -> rq_remove r = [] ->
  doMutate f hs c vrf sign r t = (Ok u, t') ->
  (forall e, nth_error (entriesOf E) (List.length E - 1) = Some e -> le_ts e <= rq_now r) /\
  exists root, treeOf t' (E ++ [{| ep_entry := {| le_ts := rq_now r; le_root := root |}; ep_labels := publishes (lenN E) (current E) r |}]) /\
    okUpdate hs u /\ au_ts u = rq_now r /\ au_removed u = [] /\ sortedEntries (au_added u) = true /\
    EvaluateBeforeAfter H (N.to_nat hs) (au_added u) (au_removed u) (au_proof u) = Ok (rootOf E, root) /\
    List.length (p_results (au_proof u)) = List.length (au_added u) /\ Forall (fun r => rincl r = false) (p_results (au_proof u)) /\
    List.length (au_added u) = List.length (rq_add r).
Proof.
  intros T (HO & HLs & Hnow & Hsize & Hc & Hb) NE ER R. unfold doMutate, Mutate in R. rewrite (head_size f hs Hhs c vrf Ls valid t E T) in R. destruct T as (HD & _).
  destruct (mutateM (full f) hs c vrf sign (rq_opening r) (rq_order r) (rq_now r) (lenN E) (rq_add r) (rq_remove r) (pending (t_tx t))) as [[[au' th]| | |] s'] eqn:RM; try discriminate.
  injection R as <- <-. assert (Heff : effective (current E) (rq_add r) (rq_remove r)) by (now left).
  destruct (step_sound f hs Hf Hhs c vrf Ls HV sign valid Hsign (rq_opening r) _ _ HD _ _ Hnow _ _ HO HLs Hsize Hc Hb Heff _ _ _ RM)
    as (A & B & root & D & S1 & S2 & S3 & S4 & S5 & coms & st & Mu & S6).
  destruct (prefix_now f hs Hf Hhs vrf Ls sign valid Hsign (rq_opening r) _ _ HD _ _ Hnow (rq_add r) (rq_remove r) HLs Hsize Hc Hb Heff) as (past & m & h & Hh & Lp & Hm & Hv).
  assert (Pr : ksort (fun x : bytes => x) (flat_map (removedFor vrf (rq_remove r) (current E)) (rq_order r)) = []).
  { rewrite ER. replace (flat_map _ _) with (@nil bytes); [reflexivity|]. clear. induction (rq_order r) as [|l o IH]; [reflexivity|]. cbn [flat_map]. rewrite <- IH. reflexivity. }
  rewrite Pr in Mu, S6. cbn [combine] in S6.
  set (padd := ksort fst (flat_map (addedFor f vrf (rq_opening r) (lenN E) (rq_add r) (rq_remove r) (current E)) (rq_order r))) in *.
  assert (Cn : forall l, In l (rq_order r) -> lenN (current E l) < 2 ^ 32 /\ lenN (publish (rq_opening r) (lenN E) (rq_add r) (rq_remove r) (current E) l) < 2 ^ 32).
  { intros l I. split; [|apply Hc; exact I]. destruct (ds_positions _ _ _ _ _ _ HD l (HLs l I)) as (_ & _ & Q). exact Q. }
  pose proof (added_NoDup f hs Hf vrf Ls HV (rq_opening r) (lenN E) (rq_order r) (rq_add r) (rq_remove r) (current E) HO HLs Cn) as ND.
  assert (ND' : NoDup (map fst padd)) by (eapply Permutation_NoDup; [apply Permutation_map, Permutation_sym, ksort_perm|exact ND]).
  assert (NEp : padd <> []).
  { destruct (effective_batch f hs Hf vrf Ls (rq_opening r) (lenN E) (rq_order r) (rq_add r) (rq_remove r) (current E) HO HLs Cn Heff) as [Q|Q]; [exact Q|]. fold padd in Q. congruence. }
  assert (BS : lenN padd < two32).
  { unfold two32. pose proof (batch_size f vrf (rq_opening r) (lenN E) (rq_order r) (rq_add r) (rq_remove r) (current E) HO) as Q. fold padd in Q. lia. }
  rewrite <- Lp in Mu at 1.
  assert (L64 : lenN past + 1 < two64) by (rewrite Lp; unfold two64; change (2 ^ 64) with 18446744073709551616; change (2 ^ 63) with 9223372036854775808 in Hsize; lia).
  destruct (hist_update f (N.to_nat hs) Hf' ltac:(lia) (x_prefix (pending (t_tx t))) past m h padd root (au_proof au') coms st Hh L64 NEp BS Mu ND') as (U1 & U2 & U3 & U4).
  assert (Eh : h = rootOf E).
  { unfold rootOf. destruct (list_eq_dec_nil E) as [E0|NE'].
    - rewrite E0 in *. assert (past = []) by (destruct past; [reflexivity|discriminate]). subst past. cbn in Hh. cbn [entriesOf map List.last le_root].
      inversion Hh as [|? ? ? ? ? ? ? ? ? ? ? ? ? ? ? Q1 Q2]; [reflexivity|]. exfalso. apply (f_equal (@List.length _)) in Q2. rewrite !app_length in Q2. cbn in Q2. lia.
    - destruct (exists_last NE') as (E' & ep & ->). rewrite entriesOf_app, last_last.
      destruct (Hv (List.length E') ep) as (m' & A' & _); [rewrite nth_error_app2, Nat.sub_diag by lia; reflexivity|].
      unfold lenN in Lp. rewrite app_length in Lp. cbn in Lp. rewrite nth_error_app2 in A' by lia. replace (S (List.length E') - List.length past)%nat with 0%nat in A' by lia.
      cbn in A'. injection A' as _ <-. reflexivity. }
  subst h. split; [exact A|]. exists root. split.
  { unfold MutateSpec.treeOf. cbn [t_tx t_head pending durable]. split; [exact D|]. split; [reflexivity|]. split; [exact S1|]. split; [|split; [exact S2|exact S3]].
    intro Q. apply app_eq_nil in Q. destruct Q; discriminate. }
  rewrite S4, S5, S6. split; [split; [rewrite S4; exact Hnow|exact U4]|]. split; [reflexivity|]. split; [reflexivity|].
  split; [apply sortedEntries_ksort; exact ND|]. split; [exact U1|]. split; [exact U2|]. split; [exact U3|].
  unfold padd. rewrite (Permutation_length (ksort_perm fst _)). apply addedFor_len. exact HO.
Qed.

Lemma follows_fun b b' us L : follows b us L -> forall L', follows b' us L' -> L = L'.
Proof.
  induction 1 as [|us L u old new Fo IH E1 E2 E3]; intros L' F'.
  - inversion F' as [|us' L0 u' o' n' F0 Q1 Q2 Q3 Q4]; [reflexivity|]. destruct us'; discriminate.
  - inversion F' as [Q|us' L0 u' o' n' F0 Q1 Q2 Q3 Q4]; [destruct us; discriminate|]. apply app_inj_tail in Q4. destruct Q4 as [-> ->]. rewrite (IH _ F0). rewrite E1 in Q1. injection Q1 as _ <-. reflexivity.
Qed.

Definition inStep (t : tree) (rs : list request) (a : auditor) : Prop :=
  exists E us, treeOf t E /\ map ep_labels E = labelsAfter 0 noLabels rs /\ map le_ts (entriesOf E) = map rq_now rs /\
    inv us (a_state a) /\ follows zeros us (entriesOf E).

Lemma last_entry E : E <> [] -> exists e, nth_error (entriesOf E) (List.length E - 1) = Some e /\ forall d, List.last (entriesOf E) d = e.
Proof.
  intro NE. destruct (exists_last NE) as (E' & ep & ->). exists (ep_entry ep). rewrite entriesOf_app. split; [|intro d; apply last_last].
  rewrite app_length. cbn. replace (List.length E' + 1 - 1)%nat with (List.length E') by lia. unfold entriesOf. rewrite nth_error_app2; rewrite map_length; [|lia]. now rewrite Nat.sub_diag.
Qed.

Lemma step_accepts t rs a r u t' : inStep t rs a -> moderate Ls (lenN rs) (labelsNow rs) r -> rq_add r <> [] -> rq_remove r = [] ->
  doMutate f hs c vrf sign r t = (Ok u, t') -> exists a', Process H hs c a u = (Ok tt, a') /\ inStep t' (rs ++ [r]) a' /\ exists s, a_state a' = Some s /\ as_sig s = None.
Proof.
  intros (E & us & T & Q1 & Q2 & I & Fo) Hm NE ER Rm. destruct (labelsNow_last _ _ Q1) as [A B]. rewrite A, B in *.
  destruct (update_sound _ _ _ _ _ T Hm NE ER Rm) as (Late & root & T' & Ou & U1 & U2 & U3 & U4 & U5 & U6 & _).
  pose proof (follows_len f hs _ _ _ Fo) as EL. assert (ELn : lenN us = lenN E) by (unfold lenN, entriesOf in *; rewrite map_length in EL; lia).
  assert (Hl : lenN us + 1 < 2 ^ 63) by (destruct Hm as (_ & _ & _ & Q & _); rewrite ELn; exact Q).
  assert (Ac : accepts f hs c us (a_state a) u root).
  { destruct (a_state a) as [s|] eqn:Es.
    - pose proof I as (_ & _ & b & L & Nu & Fo' & (_ & (e & G1 & G2 & G3) & _) & _). pose proof (follows_fun _ _ _ _ Fo _ Fo') as EqL. subst L.
      assert (NEe : E <> []) by (intros ->; destruct us; [congruence|discriminate EL]).
      destruct (last_entry E NEe) as (e' & N1 & N2).
      destruct (last_some f hs Hf (proj1 Hhs) sign key _ e {| le_ts := 0; le_root := zeros |} G1) as [G4 _]. rewrite N2 in G4. subst e'.
      constructor.
      + cbn. rewrite U1, G2. apply Late. exact N1.
      + exact U3.
      + rewrite U2. reflexivity.
      + rewrite U2. cbn. rewrite U5. lia.
      + intros e0 r0 Ir Tr. exfalso. apply in_combine_r in Ir. rewrite (proj1 (Forall_forall _ _) U6 _ Ir) in Tr. discriminate.
      + intros r0 Ir. exfalso. rewrite <- U5, skipn_all in Ir. destruct Ir.
      + left. exact U2.
      + exists (rootOf E). split; [exact U4|]. unfold rootOf. rewrite N2. symmetry. exact G3.
    - constructor.
      + exact Logic.I.
      + exact U3.
      + rewrite U2. reflexivity.
      + rewrite U2. cbn. rewrite U5. lia.
      + intros e0 r0 Ir Tr. exfalso. apply in_combine_r in Ir. rewrite (proj1 (Forall_forall _ _) U6 _ Ir) in Tr. discriminate.
      + intros r0 Ir. exfalso. rewrite <- U5, skipn_all in Ir. destruct Ir.
      + left. exact U2.
      + exists (rootOf E). split; [exact U4|exact Logic.I]. }
  destruct (process_spec f hs Hf (proj1 Hhs) c sign key us (a_state a) u I Hl Ou) as (P1 & _). destruct (P1 _ Ac) as (s' & Ep & I' & Sg & _).
  unfold Process. rewrite Ep. eexists. split; [reflexivity|]. split; [|cbn; eauto].
  exists (E ++ [{| ep_entry := {| le_ts := rq_now r; le_root := root |}; ep_labels := publishes (lenN E) (current E) r |}]), (us ++ [u]).
  split; [exact T'|]. split; [rewrite map_app, (labelsAfter_app hs Hhs), Q1; cbn [map ep_labels]; rewrite N.add_0_l, B; unfold labelsNow in A; rewrite A; reflexivity|].
  split; [unfold entriesOf in *; rewrite !map_app, Q2; reflexivity|]. split; [exact I'|].
  rewrite entriesOf_app. cbn [ep_entry]. rewrite <- U1. econstructor; [exact Fo|exact U4|reflexivity|].
  rewrite U1. destruct (list_eq_dec_nil E) as [->|NEe]; [cbn; lia|]. destruct (last_entry E NEe) as (e' & N1 & N2). rewrite N2. apply Late. exact N1.
Qed.

Lemma tracked_inStep t rs a : tracked t rs a -> inStep t rs a.
Proof.
  induction 1 as [t a E1 E2|t rs a r u t' a' T IH Hm NE ER Rm Pr|t rs a t' T IH Ho|t rs a r m t1 t' T IH Rm Ho|t rs a put x a' T IH Cm].
  - exists [], []. split; [apply (new_tree f hs c vrf Ls valid); exact E1|]. split; [reflexivity|]. split; [reflexivity|]. split; [|constructor].
    unfold NewAuditor in E2. destruct (negb _); [discriminate|]. destruct (negb _); [discriminate|]. injection E2 as <-. cbn. split; [constructor|]. split; reflexivity.
  - destruct (step_accepts _ _ _ _ _ _ IH Hm NE ER Rm) as (a2 & P2 & I2 & _). rewrite Pr in P2. injection P2 as <-. exact I2.
  - destruct IH as (E & us & T1 & Q1 & Q2 & I & Fo). apply (reopen_same f hs Hf Hhs c vrf Ls sign valid Hsign _ _ _ T1) in Ho. subst t'. exists E, us. auto.
  - destruct IH as (E & us & T1 & Q1 & Q2 & I & Fo). destruct (failed_durable f hs c vrf sign r t m t1 Rm) as [Q _]. rewrite Q in Ho. apply (reopen_same f hs Hf Hhs c vrf Ls sign valid Hsign _ _ _ T1) in Ho. subst t'. exists E, us. auto.
  - destruct IH as (E & us & T1 & Q1 & Q2 & I & Fo). exists E, us. split; [exact T1|]. split; [exact Q1|]. split; [exact Q2|]. split; [|exact Fo].
    apply commit_cases in Cm. destruct Cm as [[_ [E2|(s & sg & E2 & E3)]]|(s & sg & raw & E2 & _ & E3 & _)].
    + rewrite E2. exact I.
    + rewrite E3. rewrite E2 in I. now apply inv_sig.
    + rewrite E3. rewrite E2 in I. now apply inv_sig.
Qed.

Lemma c71_accepts t rs a r u t' : tracked t rs a -> moderate Ls (lenN rs) (labelsNow rs) r -> rq_add r <> [] -> rq_remove r = [] ->
  Mutate H hs c vrf sign (rq_opening r) (rq_order r) (rq_now r) t (rq_add r) (rq_remove r) = (Ok u, t') ->
  exists a' s, Process H hs c a u = (Ok tt, a') /\ a_state a' = Some s /\ as_sig s = None /\ as_size s = lenN rs + 1 /\ as_ts s = rq_now r.
Proof.
  intros T Hm NE ER Rm. destruct (step_accepts _ _ _ _ _ _ (tracked_inStep _ _ _ T) Hm NE ER Rm) as (a' & P & (E & us & T' & Q1 & Q2 & I & Fo) & s & Es & Sg).
  exists a', s. split; [exact P|]. split; [exact Es|]. split; [exact Sg|]. rewrite Es in I. destruct I as (_ & _ & b & L & Nu & Fo' & (E1 & (e & G1 & G2 & G3) & _) & _).
  pose proof (follows_fun _ _ _ _ Fo _ Fo') as EqL. subst L. split.
  - rewrite E1. unfold lenN. rewrite <- (map_length le_ts (entriesOf E)), Q2, map_length, app_length. cbn. lia.
  - rewrite G2. clear - G1 Q2. revert Q2 G1. generalize (entriesOf E). intros L Q G. destruct (exists_last (l := L)) as (L' & e' & ->); [intros ->; destruct rs; discriminate|].
    rewrite map_app in Q, G. cbn [map] in Q, G. rewrite last_last in G. injection G as ->. rewrite map_app in Q. cbn [map] in Q. apply app_inj_tail in Q. tauto.
Qed.

Lemma leaves_fun (L : list logEntry) l1 l2 : Forall2 (fun e h => logEntryHash H e = Ok h) L l1 -> Forall2 (fun e h => logEntryHash H e = Ok h) L l2 -> l1 = l2.
Proof.
  intro F. revert l2. induction F as [|e h L l E F IH]; intros l2 F2; inversion F2; subst; [reflexivity|]. f_equal; [congruence|auto].
Qed.

Lemma c71_same t rs a put th a' : tracked t rs a -> AuditorModel.Commit H hs c asign put a = (Ok th, a') -> (forall s, a_state a = Some s -> as_sig s = None) ->
  exists head root tbs tbs', t_head t = Some head /\ th_size head = lenN rs /\ ath_size th = lenN rs /\
    treeHeadTBS c (lenN rs) root = Ok tbs /\ valid tbs (th_sig head) /\
    auditorTreeHeadTBS c (ath_ts th) (lenN rs) root = Ok tbs' /\ asign tbs' = Ok (ath_sig th).
Proof.
  intros T Cm Hs. apply tracked_inStep in T. destruct T as (E & us & T & Q1 & Q2 & I & Fo). destruct (labelsNow_last _ _ Q1) as [_ B].
  pose proof (follows_len f hs _ _ _ Fo) as EL. assert (ELn : lenN us = lenN E) by (unfold lenN, entriesOf in *; rewrite map_length in EL; lia).
  pose proof (c54_core f hs Hf (proj1 Hhs) c asign key us a put th a' I Cm Hs) as (b & L & leaves & root & tbs & F1 & F2 & F3 & F4 & F5 & F6 & _).
  pose proof (follows_fun _ _ _ _ Fo _ F1) as EqL. subst L.
  destruct T as (HD & Hd & Hh). destruct (t_head t) as [head|].
  - destruct Hh as (S1 & S2 & (leaves' & root' & tbs' & G1 & G2 & G3 & G4) & _). rewrite (leaves_fun _ _ _ G1 F2) in G2. rewrite (Mth_fun _ _ _ _ G2 F3) in G3.
    exists head, root, tbs', tbs. rewrite B. rewrite ELn in *. auto 8.
  - destruct Hh as [-> _]. exfalso. unfold AuditorModel.Commit in Cm. destruct (a_state a) as [s|] eqn:Es; [|discriminate].
    destruct I as (_ & _ & b' & L & Nu & _). destruct us; [congruence|discriminate EL].
Qed.

(** ** Large updates *)
Lemma c74_large t rs r u t' : runs H hs c vrf sign Ls t rs -> moderate Ls (lenN rs) (labelsNow rs) r -> rq_remove r = [] ->
  Mutate H hs c vrf sign (rq_opening r) (rq_order r) (rq_now r) t (rq_add r) (rq_remove r) = (Ok u, t') -> 255 < lenN (rq_add r) ->
  exists m, auditorUpdateMarshal u = Fail m.
Proof.
  intros R Hm ER Rm Hl. destruct (run_describes f hs Hf Hhs c vrf Ls HV sign valid Hsign t rs R) as (E & T & Q1 & _). destruct (labelsNow_last _ _ Q1) as [A B]. rewrite A, B in Hm.
  assert (NE : rq_add r <> []) by (intro Q; rewrite Q in Hl; cbn in Hl; lia).
  destruct (update_sound _ _ _ _ _ T Hm NE ER Rm) as (_ & root & _ & _ & _ & _ & _ & _ & U5 & _ & U7).
  assert (EP : prefixProofMarshal (au_proof u) = Fail "list is too long to marshal"%string).
  { unfold prefixProofMarshal, writeSlice at 1. change (maxS 1) with 255. rewrite (proj2 (N.ltb_lt _ _)); [reflexivity|]. unfold lenN in *. rewrite U5, U7. exact Hl. }
  unfold auditorUpdateMarshal. rewrite EP. unfold writeSlice at 1. destruct (_ <? _); cbn [bind]; [eauto|].
  destruct (calm_cases (mapM prefixEntryMarshal (au_added u))) as [[x ->]|[m ->]]; [apply mapM_calm; intros; exact Logic.I| |cbn [bind]; eauto].
  cbn [bind]. unfold writeSlice at 1. destruct (_ <? _); cbn [bind]; [eauto|].
  destruct (calm_cases (mapM prefixEntryMarshal (au_removed u))) as [[y ->]|[m ->]]; [apply mapM_calm; intros; exact Logic.I| |cbn [bind]; eauto].
  cbn [bind]. eauto.
Qed.

Lemma c74_small t rs r u t' : runs H hs c vrf sign Ls t rs -> moderate Ls (lenN rs) (labelsNow rs) r -> rq_add r <> [] -> rq_remove r = [] ->
  Mutate H hs c vrf sign (rq_opening r) (rq_order r) (rq_now r) t (rq_add r) (rq_remove r) = (Ok u, t') -> lenN (rq_add r) <= 255 ->
  lenN (p_elements (au_proof u)) < 65536 ->
  exists raw, auditorUpdateMarshal u = Ok raw.
Proof.
  intros R Hm NE ER Rm Hl He. destruct (run_describes f hs Hf Hhs c vrf Ls HV sign valid Hsign t rs R) as (E & T & Q1 & _). destruct (labelsNow_last _ _ Q1) as [A B]. rewrite A, B in Hm.
  destruct (update_sound _ _ _ _ _ T Hm NE ER Rm) as (_ & root & _ & _ & _ & U2 & _ & _ & U5 & _ & U7).
  assert (W : forall X (w : X -> put) k l, lenN l <= maxS k -> (forall x, exists b, w x = Ok b) -> exists b, writeSlice k w l = Ok b).
  { intros X w k l L0 Hw. unfold writeSlice. rewrite (proj2 (N.ltb_ge _ _)) by exact L0.
    assert (M : exists b, mapM w l = Ok b). { clear -Hw. induction l as [|x l [b IH]]; [eexists; reflexivity|]. destruct (Hw x) as [y Ey]. cbn [mapM]. rewrite Ey. cbn [bind]. rewrite IH. eexists; reflexivity. }
    destruct M as [b ->]. eexists. reflexivity. }
  assert (EL : lenN (p_results (au_proof u)) = lenN (rq_add r) /\ lenN (au_added u) = lenN (rq_add r)) by (unfold lenN; rewrite U5, U7; auto).
  unfold auditorUpdateMarshal, prefixProofMarshal. rewrite U2.
  destruct (W _ prefixEntryMarshal 2%nat (au_added u)) as [b1 ->]; [change (maxS 2) with 65535; lia|intro; eexists; reflexivity|]. cbn [bind].
  destruct (W _ prefixEntryMarshal 2%nat []) as [b2 ->]; [change (maxS 2) with 65535; cbn; lia|intro; eexists; reflexivity|]. cbn [bind].
  destruct (W _ resultMarshal 1%nat (p_results (au_proof u))) as [b3 ->]; [change (maxS 1) with 255; lia|intros []; eexists; reflexivity|]. cbn [bind].
  destruct (W _ (fun e : bytes => Ok e) 2%nat (p_elements (au_proof u))) as [b4 ->]; [change (maxS 2) with 65535; lia|intro; eexists; reflexivity|]. cbn [bind].
  eexists. reflexivity.
Qed.

End Tracked.

(** ** Restarting *)
Section Restart.
Variable f : bytes -> bytes.
Variable hs : N.
Hypothesis Hf : forall x, lenN (f x) = hs.
Hypothesis Hhs : 0 < hs.
Variable c : pubConfig.
Variable sign : bytes -> res bytes.
Variable key : bytes.
Notation audited := (audited (full f) hs c sign key).

Lemma audited_config us ps a : audited us ps a -> (pc_mode c =? ThirdPartyAuditing) = true /\ bytes_eqb (pc_auditorKey c) key = true.
Proof.
  induction 1 as [a E|us ps a u a' A IH Ou Hl E|us ps a u r a' A IH E Nr|us ps a put r a' A IH E Es|us ps a put r a' A IH E Es|us ps a a' A IH E]; auto.
  unfold NewAuditor in E. destruct (pc_mode c =? ThirdPartyAuditing); [|discriminate]. destruct (bytes_eqb (pc_auditorKey c) key); [|discriminate]. auto.
Qed.

Lemma c70_restart us ps a : audited us ps a -> exists a', NewAuditor hs c key (a_stored a) = Ok a' /\ a_stored a' = a_stored a /\
  exists b L, AuditorSpec.follows (full f) hs b ps L /\ match a_state a' with None => ps = [] | Some s => summarizes (full f) s L end.
Proof.
  intro A. destruct (audited_config _ _ _ A) as [C1 C2].
  assert (Er : exists a', NewAuditor hs c key (a_stored a) = Ok a' /\ a_stored a' = a_stored a).
  { destruct (audited_inv f hs Hf Hhs c sign key _ _ _ A) as [_ S]. unfold NewAuditor. rewrite C1, C2. cbn [negb]. destruct (a_stored a) as [raw|]; [|eauto].
    destruct S as (s & -> & _). cbn [bind]. eauto. }
  destruct Er as (a' & Er & Es). exists a'. split; [exact Er|]. split; [exact Es|].
  pose proof (au_restart _ _ _ _ _ _ _ _ _ A Er) as A'. destruct (c54 f hs Hf Hhs c sign key _ _ _ A') as (b & L & F & S & _). eauto.
Qed.

End Restart.

Lemma c74_large_any : forall f hs, (forall x, lenN (f x) = hs) -> 0 < hs <= 32 -> forall c vrf Ls, vrfGood hs vrf Ls -> forall sign t rs r u t',
  runs (full f) hs c vrf sign Ls t rs -> moderate Ls (lenN rs) (labelsNow rs) r -> rq_remove r = [] ->
  Mutate (full f) hs c vrf sign (rq_opening r) (rq_order r) (rq_now r) t (rq_add r) (rq_remove r) = (Ok u, t') ->
  255 < lenN (rq_add r) -> exists m, auditorUpdateMarshal u = Fail m.
Proof.
  intros f hs Hf Hhs c vrf Ls HV sign. exact (c74_large f hs Hf Hhs c vrf Ls HV sign sign (fun _ _ => True) (fun _ _ _ => Logic.I) []).
Qed.
Lemma c74_small_any : forall f hs, (forall x, lenN (f x) = hs) -> 0 < hs <= 32 -> forall c vrf Ls, vrfGood hs vrf Ls -> forall sign t rs r u t',
  runs (full f) hs c vrf sign Ls t rs -> moderate Ls (lenN rs) (labelsNow rs) r -> rq_add r <> [] -> rq_remove r = [] ->
  Mutate (full f) hs c vrf sign (rq_opening r) (rq_order r) (rq_now r) t (rq_add r) (rq_remove r) = (Ok u, t') ->
  lenN (rq_add r) <= 255 -> lenN (p_elements (au_proof u)) < 65536 -> exists raw, auditorUpdateMarshal u = Ok raw.
Proof.
  intros f hs Hf Hhs c vrf Ls HV sign. exact (c74_small f hs Hf Hhs c vrf Ls HV sign sign (fun _ _ => True) (fun _ _ _ => Logic.I) []).
Qed.
Lemma c69_fresh : forall f hs, (forall x, lenN (f x) = hs) -> 0 < hs ->
  forall c sign key us ps a put th a', audited (full f) hs c sign key us ps a ->
  Commit (full f) hs c sign put a = (Ok th, a') -> (forall s, a_state a = Some s -> as_sig s = None) ->
  a_stored a' <> None /\ NewAuditor hs c key (a_stored a') = (let* _ := NewAuditor hs c key None in Ok a').
Proof.
  intros f hs Hf Hhs c sign key us ps a put th a' A E S. destruct (c54_signed f hs Hf Hhs c sign key us ps a put th a' A E S) as (b & L & lv & root & tbs & _ & _ & _ & _ & _ & _ & Q). exact Q.
Qed.
Lemma c73_own : forall f hs, (forall x, lenN (f x) = hs) -> 0 < hs ->
  forall c sign key us ps a raw, audited (full f) hs c sign key us ps a -> a_stored a = Some raw ->
  exists s, newAuditorState (N.to_nat hs) raw = Ok (s, []).
Proof.
  intros f hs Hf Hhs c sign key us ps a raw A E. destruct (c70_restart f hs Hf Hhs c sign key us ps a A) as (a' & N0 & _). rewrite E in N0.
  unfold NewAuditor in N0. destruct (negb _); [discriminate|]. destruct (negb _); [discriminate|].
  destruct (newAuditorState (N.to_nat hs) raw) as [[s rest]| | |]; cbn [bind] in N0; try discriminate. destruct rest; [|discriminate]. exists s. reflexivity.
Qed.
