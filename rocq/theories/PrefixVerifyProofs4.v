(** Lemmas: an audit of additions that ends with a result was not shown the leaf of a key being added. *)
From Verif Require Import Base BaseProofs LogTreeSpec PrefixModel PrefixSpec PrefixProofs PrefixUpdateProofs
  PrefixCodecProofs PrefixStoreProofs PrefixTileProofs PrefixBuildProofs PrefixMutateProofs PrefixMutateProofs2 PrefixVerifyProofs PrefixVerifyProofs2 PrefixVerifyProofs3.
From Coq Require Import Sorting.Permutation Sorting.Sorted.
Local Open Scope list_scope.

(** A key whose leaf is in the tree cannot be added. *)
Lemma present_not_added H hs f : forall p n add e c dd n', (List.length p <= 8 * hs)%nat -> addOK hs p add -> In e add ->
  term n (skipn (List.length p) (bits (fst e))) (List.length p) = Some (Leaf (fst e) c, dd) -> addRemove H hs f n add [] (List.length p) = Ok n' -> False.
Proof.
  induction f as [|f IH]; intros p n add e c dd n' Lp Aok Ie T E; [discriminate|]. rewrite addRemove_S in E.
  pose proof Aok as [As [Ad Af]]. rewrite Forall_forall in Af. destruct (Af e Ie) as (Le & _ & _).
  assert (Ls : forall b, List.length (p ++ [b]) = S (List.length p)) by (intro; rewrite app_length; cbn; lia).
  assert (Par : forall l r dd, (List.length p < 8 * hs)%nat -> term (if bitAt (fst e) (List.length p) then r else l) (skipn (S (List.length p)) (bits (fst e))) (S (List.length p)) = Some (Leaf (fst e) c, dd) ->
    parentStep H hs f l r add [] (List.length p) = Ok n' -> False).
  { clear dd T. intros l r dd L Tb Ep. unfold parentStep in Ep. rewrite (splitAt_ok fst (List.length p) p add eq_refl As) in Ep.
    2:{ rewrite Forall_forall. intros x I. destruct (Af x I) as [Ex [_ P]]. split; [exact P|lia]. }
    cbn [bind] in Ep. rewrite (splitAt_ok (fun x : bytes => x) (List.length p) p [] eq_refl) in Ep by constructor. cbn [bind filter] in Ep.
    apply bind_ok in Ep as (l' & El & Ep). apply bind_ok in Ep as (r' & Er & _).
    destruct (bitAt (fst e) (List.length p)) eqn:Eb.
    - apply (IH (p ++ [true]) r (filter (bitOf fst (List.length p)) add) e c dd r').
      + rewrite Ls. lia.
      + apply (addOK_child H hs (XH H hs) (XH_hash H hs) p add true); auto.
      + apply (In_filter_entry add _ true). auto.
      + rewrite Ls. exact Tb.
      + rewrite Ls. exact Er.
    - apply (IH (p ++ [false]) l (filter (fun x => negb (bitOf fst (List.length p) x)) add) e c dd l').
      + rewrite Ls. lia.
      + apply (addOK_child H hs (XH H hs) (XH_hash H hs) p add false); auto.
      + apply (In_filter_entry add _ false). auto.
      + rewrite Ls. exact Tb.
      + rewrite Ls. exact El. }
  destruct add as [|e0 add]; [destruct Ie|]. destruct n as [|v c'|l r h id|h i]; cbn [term] in T; try discriminate.
  - injection T as -> -> <-. cbn [existsb] in E. apply bind_ok in E as (b & Eb & E).
    assert (Ld : (List.length p < 8 * List.length (fst e))%nat).
    { rewrite getBit_bits in Eb. destruct (nth_error (bits (fst e)) (List.length p)) eqn:Q; [|discriminate Eb].
      assert (nth_error (bits (fst e)) (List.length p) <> None) as N by congruence. apply nth_error_Some in N. rewrite bits_len in N. exact N. }
    rewrite getBit_bitAt in Eb by exact Ld. injection Eb as <-. rewrite Le in Ld.
    destruct (bitAt (fst e) (List.length p)) eqn:Eb; (eapply Par; [exact Ld| |exact E]; reflexivity).
  - destruct (Nat.eq_dec (List.length p) (8 * hs)) as [Q|Q].
    + rewrite skipn_all2 in T by (rewrite bits_len; lia). discriminate.
    + assert (Ld : (List.length p < 8 * List.length (fst e))%nat) by lia. rewrite skipn_bit in T by exact Ld. eapply Par; [lia|exact T|exact E].
Qed.

Lemma cacheHashes_term H hs n : forall n1 bs d v c dd, cacheHashes H hs n = Ok n1 -> term n bs d = Some (Leaf v c, dd) -> term n1 bs d = Some (Leaf v c, dd).
Proof.
  induction n as [|v0 c0|l IHl r IHr [h|] id|h i]; intros n1 bs d v c dd E T; cbn [cacheHashes] in E; try (injection E as <-; exact T).
  apply bind_ok in E as (l' & El & E). apply bind_ok in E as (r' & Er & E). apply bind_ok in E as (h & _ & E). injection E as <-.
  cbn [term] in *. destruct bs as [|b bs]; [discriminate|]. destruct b; eauto.
Qed.

(** A result that shows the leaf of its own key can be replaced by one that shows nothing, unless the leaf is now in the tree. *)
Lemma skeleton_same hs (e : entry) c k f : List.length (fst e) = hs -> forall n d n1, addToSkeleton f n e (NonLeaf (fst e) c k) d = Ok n1 ->
  (exists dd, term n1 (skipn d (bits (fst e))) d = Some (Leaf (fst e) c, dd)) \/ addToSkeleton f n e (NonPar k) d = Ok n1.
Proof.
  intro Le. induction f as [|f IH]; intros n d n1 E; [discriminate|]. cbn [addToSkeleton] in E |- *. cbn [rdepth rincl] in E |- *.
  assert (Par : forall l rt h id, (let* b := getBit (fst e) d in
        if b then let* rt' := addToSkeleton f rt e (NonLeaf (fst e) c k) (S d) in Ok (Parent l rt' h id)
        else let* l' := addToSkeleton f l e (NonLeaf (fst e) c k) (S d) in Ok (Parent l' rt h id)) = Ok n1 ->
    (exists dd, term n1 (skipn d (bits (fst e))) d = Some (Leaf (fst e) c, dd)) \/
    (let* b := getBit (fst e) d in
        if b then let* rt' := addToSkeleton f rt e (NonPar k) (S d) in Ok (Parent l rt' h id)
        else let* l' := addToSkeleton f l e (NonPar k) (S d) in Ok (Parent l' rt h id)) = Ok n1).
  { clear E. intros l rt h id E. apply bind_ok in E as (b & Eb & E).
    assert (Ld : (d < 8 * List.length (fst e))%nat).
    { rewrite getBit_bits in Eb. destruct (nth_error (bits (fst e)) d) eqn:Q; [|discriminate Eb].
      assert (nth_error (bits (fst e)) d <> None) as N by congruence. apply nth_error_Some in N. rewrite bits_len in N. exact N. }
    rewrite getBit_bitAt in Eb by exact Ld. injection Eb as <-. rewrite getBit_bitAt by exact Ld. rewrite skipn_bit by exact Ld. cbn [bind].
    destruct (bitAt (fst e) d); apply bind_ok in E as (m & Em & E); injection E as <-; (destruct (IH _ _ _ Em) as [[dd T]|S]; [left; exists dd; exact T|right; rewrite S; reflexivity]). }
  destruct n as [|v c'|l rt h id|h i].
  - right. exact E.
  - right. exact E.
  - apply Par. exact E.
  - destruct (Nat.ltb k d); [discriminate|]. destruct (Nat.eqb d k); [injection E as <-; left; exists d; reflexivity|]. apply Par. exact E.
Qed.

Definition norm (er : entry * presult) : presult :=
  match snd er with NonLeaf v c d => if bytes_eqb v (fst (fst er)) then NonPar d else snd er | r => r end.

Lemma fold_norm hs f : forall ers n n', foldM (fun n (er : entry * presult) => addToSkeleton f n (fst er) (snd er) 0) ers n = Ok n' ->
  (forall er, In er ers -> List.length (fst (fst er)) = hs) ->
  (forall er, In er ers -> forall c dd, term n' (bits (fst (fst er))) 0 <> Some (Leaf (fst (fst er)) c, dd)) ->
  (forall bs x dd, term n bs 0 = Some (x, dd) -> notExt x -> term n' bs 0 = Some (x, dd)) /\
  foldM (fun n (er : entry * presult) => addToSkeleton f n (fst er) (snd er) 0) (map (fun er => (fst er, norm er)) ers) n = Ok n' /\
  (forall er, In er ers -> rincl (snd er) = false).
Proof.
  induction ers as [|[e r] ers IH]; intros n n' E Ll Nt; cbn [foldM map] in *; [injection E as <-; split; [auto|]; split; [reflexivity|intros ? []]|].
  apply bind_ok in E as (n1 & E1 & E). cbn [fst snd] in E1. pose proof (Ll _ (or_introl eq_refl)) as Le. cbn [fst] in Le.
  destruct (IH n1 n' E) as (K & F & I); [intros; apply Ll; now right|intros er J; apply Nt; now right|]. specialize (Nt _ (or_introl eq_refl)). cbn [fst] in Nt.
  destruct (addToSkeleton_sound hs e r Le f n 0%nat n1 E1) as [[x [Tx Gx]] [_ [P1 _]]]. cbn [skipn] in Tx.
  assert (Rf : rincl r = false).
  { destruct (rincl r) eqn:Rr; [exfalso|reflexivity]. destruct Gx as [->|[[Ix Rx]|[_ Rx]]]; [| |discriminate].
    - destruct r as [d| |]; try discriminate. apply (Nt (snd e) (rdepth (Inc d))), K; [exact Tx|exact Logic.I].
    - apply in_map_iff in Ix as (y & <- & _). symmetry in Rx. apply bytes_eqb_eq in Rx. rewrite <- Rx in Tx. apply (Nt (snd y) (rdepth r)), K; [exact Tx|exact Logic.I]. }
  split; [intros bs y dd T N; apply K; auto|]. split; [|intros er [<-|J]; [exact Rf|auto]].
  cbn [fst snd]. assert (En : addToSkeleton f n e (norm (e, r)) 0 = Ok n1).
  { unfold norm. cbn [fst snd]. destruct r as [d|v c d|d]; [exact E1| |exact E1]. destruct (bytes_eqb v (fst e)) eqn:Q; [|exact E1]. apply bytes_eqb_eq in Q. subst v.
    destruct (skeleton_same hs e c d f Le n 0%nat n1 E1) as [[dd T]|S]; [|exact S]. exfalso. cbn [skipn] in T. apply (Nt c dd), K; [exact T|exact Logic.I]. }
  rewrite En. exact F.
Qed.

Lemma evaluate_results hs entries p rs n : evaluate hs entries p = Ok n -> List.length rs = List.length (p_results p) ->
  (forall n0, foldM (fun n er => addToSkeleton (depthFuel hs) n (fst er) (snd er) 0) (combine entries (p_results p)) (External [] noId) = Ok n0 ->
    foldM (fun n er => addToSkeleton (depthFuel hs) n (fst er) (snd er) 0) (combine entries rs) (External [] noId) = Ok n0) ->
  evaluate hs entries {| p_results := rs; p_elements := p_elements p |} = Ok n.
Proof.
  unfold evaluate. cbn zeta. cbn [p_results p_elements]. intros E L F. rewrite L.
  repeat match type of E with (if ?b then _ else _) = _ => destruct b; [discriminate E|] end.
  apply bind_ok in E as (n0 & E0 & E). rewrite (F n0 E0). exact E.
Qed.

Lemma combine_norm {A B C} (g : A * B -> C) (l : list A) : forall m, combine l (map g (combine l m)) = map (fun er => (fst er, g er)) (combine l m).
Proof. induction l as [|a l IH]; intros [|b m]; cbn; [reflexivity..|]. rewrite IH. reflexivity. Qed.

(** A proof with which an audit of additions succeeds can be replaced by one in which no result shows the leaf of its own key. *)
Lemma additions_norm H hs add p h h' : EvaluateBeforeAfter H hs add [] p = Ok (h, h') -> wfProof hs p ->
  Forall (fun e : bytes * bytes => List.length (snd e) = hs) add ->
  exists p', EvaluateBeforeAfter H hs add [] p' = Ok (h, h') /\ wfProof hs p' /\ noAlias add (p_results p') /\ forall r, In r (p_results p') -> rincl r = false.
Proof.
  intros E W LA. pose proof E as E'. unfold EvaluateBeforeAfter in E. rewrite app_nil_r in E.
  apply bind_ok in E as (n & En & E). apply bind_ok in E as (h0 & Eh & E). apply bind_ok in E as (n1 & Ec & E). apply bind_ok in E as (n2 & Ea & E). apply bind_ok in E as (h1 & Eh1 & E). injection E as -> ->.
  destruct (evaluate_inv _ _ _ _ En) as (F & ND & L & n0 & E0 & E1).
  set (ers := combine add (p_results p)) in *.
  assert (Aok : addOK hs [] (ksort fst add)).
  { split; [apply ksort_sorted|]. split; [eapply Permutation_NoDup; [apply Permutation_map; symmetry; apply ksort_perm|exact ND]|]. rewrite Forall_forall in *. intros e I. apply ksort_In in I. split; [auto|]. split; [auto|apply prefixOf_nil]. }
  assert (Ne : forall er, In er ers -> forall c dd, term n0 (bits (fst (fst er))) 0 <> Some (Leaf (fst (fst er)) c, dd)).
  { intros [e r] I c dd Q. cbn [fst] in Q. apply (fillInCopath_term _ _ _ _ _ _ _ _ E1) in Q; [|exact Logic.I]. apply (cacheHashes_term _ _ _ _ _ _ _ _ _ Ec) in Q.
    eapply (present_not_added H hs _ [] n1 (ksort fst add) e c dd n2); [cbn; lia|exact Aok|apply ksort_In; eapply in_combine_l; exact I|exact Q|exact Ea]. }
  destruct (fold_norm hs (depthFuel hs) ers _ n0 E0) as (_ & Fn & Ni); [|exact Ne|].
  { intros [e r] I. rewrite Forall_forall in F. apply F. eapply in_combine_l; exact I. }
  set (p' := {| p_results := map norm ers; p_elements := p_elements p |}).
  assert (En' : evaluate hs add p' = Ok n).
  { apply evaluate_results; [exact En| |].
    - rewrite map_length. unfold ers. rewrite combine_length. lia.
    - intros m Em. fold ers in Em. rewrite E0 in Em. injection Em as <-. unfold ers at 1. rewrite combine_norm. exact Fn. }
  assert (In' : forall r, In r (map norm ers) -> rincl r = false).
  { intros r I. apply in_map_iff in I as ([e r0] & <- & I). specialize (Ni _ I). cbn [snd] in Ni. unfold norm. cbn [fst snd]. destruct r0; try exact Ni. destruct (bytes_eqb _ _); [reflexivity|exact Ni]. }
  exists p'. split; [|split; [|split; [|exact In']]].
  - unfold EvaluateBeforeAfter in E' |- *. rewrite app_nil_r in E' |- *. rewrite En in E'. rewrite En'. exact E'.
  - destruct W as [W1 W2]. split; [exact W1|]. cbn [p' p_results]. intros v c d I. apply in_map_iff in I as ([e r0] & Q & I). unfold norm in Q. cbn [fst snd] in Q. apply in_combine_r in I.
    destruct r0; try discriminate. destruct (bytes_eqb _ _); [discriminate|]. injection Q as -> -> ->. exact (W2 _ _ _ I).
  - split.
    + cbn [p' p_results]. intros e v c d I. unfold ers in I. rewrite combine_norm in I. apply in_map_iff in I as ([e' r0] & Q & _). unfold norm in Q. cbn [fst snd] in Q. injection Q as -> Q.
      destruct r0; try discriminate. destruct (bytes_eqb _ _) eqn:B; [discriminate|]. injection Q as -> -> ->. apply bytes_eqb_neq in B. exact B.
    + intros v c d e r _ I R. apply in_combine_r in I. rewrite (In' r I) in R. discriminate.
Qed.

(** An audit of additions that succeeds *)
Lemma additions_sound f hs T add p t t' h h' : (forall x, List.length (f x) = hs) -> Canon hs [] t -> Canon hs [] t' ->
  EvaluateBeforeAfter (restrict f T) hs add [] p = Ok (h, h') -> wfProof hs p ->
  Forall (fun e : bytes * bytes => List.length (snd e) = hs) add ->
  thash (restrict f T) hs t = Some h ->
  (forall x, In x (contents t') <-> In x add \/ In x (contents t)) ->
  (thash (restrict f T) hs t' = Some h' /\ forall k, In k (map fst add) -> assoc (contents t) k = None) \/ broken f hs T.
Proof.
  intros Hs C C' E W LA Et Ct. destruct (additions_norm _ hs add p h h' E W LA) as (p' & E' & W' & NA & NI). exact (audit_sound f hs T add p' t t' h h' Hs C C' E' W' NA NI LA Et Ct).
Qed.

(** The tree after the additions exists. *)
Lemma additions_tree f hs T add p t h h' : (forall x, List.length (f x) = hs) -> Canon hs [] t ->
  EvaluateBeforeAfter (restrict f T) hs add [] p = Ok (h, h') -> wfProof hs p ->
  Forall (fun e : bytes * bytes => List.length (snd e) = hs) add ->
  thash (restrict f T) hs t = Some h ->
  (exists t', Canon hs [] t' /\ (forall x, In x (contents t') <-> In x add \/ In x (contents t)) /\ thash (restrict f T) hs t' = Some h' /\
    NoDup (map fst add) /\ forall k, In k (map fst add) -> assoc (contents t) k = None) \/ broken f hs T.
Proof.
  intros Hs C E W0 LA Et. destruct (additions_norm _ hs add p h h' E W0 LA) as (p' & E' & W & NA & NI). clear E W0 p. rename p' into p, E' into E.
  unfold EvaluateBeforeAfter in E. rewrite app_nil_r in E.
  apply bind_ok in E as (n & En & E). apply bind_ok in E as (h0 & Eh & E). apply bind_ok in E as (n1 & Ec & E). apply bind_ok in E as (n2 & Ea & E). apply bind_ok in E as (h1 & Eh1 & E). injection E as -> ->.
  destruct (evaluate_inv _ _ _ _ En) as [F [ND [L _]]].
  destruct (evaluate_terms _ _ _ _ En W NA) as [Xl [Lv [Hi G]]].
  destruct (evaluate_match f hs T add p n t h Hs C En W NA Eh Et) as [[R V]|B]; [|auto].
  assert (None_ : forall k, In k (map fst add) -> assoc (contents t) k = None).
  { intros k I. apply in_map_iff in I. destruct I as [e [<- I]]. destruct (In_combine_l add (p_results p) L e I) as [r J].
    rewrite (V e r J). rewrite NI; [reflexivity|]. eapply in_combine_r; eauto. }
  left. set (H := restrict f T) in *. cbn [map] in Ea. change (ksort (fun x : bytes => x) []) with (@nil bytes) in Ea.
  assert (Kin : forall k, In k (map fst (ksort fst add) ++ []) <-> In k (map fst add)).
  { intro k. rewrite app_nil_r, !in_map_iff. setoid_rewrite ksort_In. reflexivity. }
  destruct (addRemove_ok H hs (XP H hs (fun _ => True)) (XP_hash H hs (fun _ => True)) (depthFuel hs) [] t n1 (ksort fst add) []) as [[n' [E' [t2 [Rt [C2 Ct2]]]]]|[msg [E' N]]].
  - unfold depthFuel. cbn. lia.
  - cbn. lia.
  - exact C.
  - eapply cacheHashes_Rep; eauto. apply XP_hash.
  - split; [apply ksort_sorted|]. split; [eapply Permutation_NoDup; [apply Permutation_map; apply Permutation_sym; apply ksort_perm|exact ND]|].
    rewrite Forall_forall in *. intros e I. apply ksort_In in I. split; [auto|]. split; [auto|apply prefixOf_nil].
  - split; constructor.
  - intros k I. apply Kin in I. apply (cacheHashes_resolved H hs n n1 _ Ec). apply in_map_iff in I. destruct I as [e [<- I]]. destruct (In_combine_l add (p_results p) L e I) as [r J].
    destruct (G e r J) as [x [Tx Gx]]. eapply term_resolved; [exact Tx|eapply goodTerm_notExt; exact Gx].
  - apply (cacheHashes_hasIds H hs n n1 _ _ Ec). apply (hasIds_mono _ _ _ _ Hi). intros k I _. apply Kin. exact I.
  - intros x e I J Eq. exfalso. apply ksort_In in J. specialize (None_ (fst e) (in_map fst _ _ J)). destruct x as [k c]. cbn [fst] in Eq. subst k.
    rewrite (proj2 (NoDup_assoc_In hs t [] _ c C) I) in None_. discriminate.
  - right. reflexivity.
  - change (@List.length bool []) with 0%nat in E'. rewrite Ea in E'. injection E' as <-. exists t2. split; [exact C2|]. split; [|split; [|split; [exact ND|exact None_]]].
    + intro x. rewrite Ct2. unfold newContents. rewrite ksort_In. cbn. tauto.
    + rewrite (Rep_hash H hs _ (XP_hash H hs _) _ _ _ Rt) in Eh1. destruct (thash H hs t2); [injection Eh1 as ->; reflexivity|discriminate].
  - change (@List.length bool []) with 0%nat in E'. rewrite Ea in E'. discriminate.
Qed.
