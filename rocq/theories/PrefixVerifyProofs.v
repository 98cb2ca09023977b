(** Lemmas: evaluation of honest and of arbitrary prefix proofs. *)
From Verif Require Import Base BaseProofs LogTreeSpec PrefixModel PrefixSpec PrefixProofs PrefixUpdateProofs
  PrefixCodecProofs PrefixStoreProofs PrefixTileProofs PrefixBuildProofs PrefixMutateProofs PrefixMutateProofs2.
From Coq Require Import Sorting.Permutation Sorting.Sorted.

(** ** Honest proofs *)

(** The tree rebuilt by the verifier from the results for the keys [K], before copath nodes
    are filled in. *)
Fixpoint skel (t : trie) (K : list bytes) (d : nat) : node :=
  match K with
  | [] => External [] noId
  | _ => match t with
         | TE => Empty
         | TL k c => Leaf k c
         | TN l r => Parent (skel l (filter (fun k => negb (bitAt k d)) K) (S d))
                            (skel r (filter (fun k => bitAt k d) K) (S d)) None None
         end
  end.

Lemma tsearch_depth t : forall k bs d, (d <= rdepth (fst (tsearch t k bs d)))%nat.
Proof.
  induction t as [|k' c|l IHl r IHr]; intros k bs d; cbn [tsearch].
  - cbn. lia.
  - destruct (bytes_eqb k k'); cbn; lia.
  - destruct bs as [|b bs]; [cbn; lia|]. destruct b; [pose proof (IHr k bs (S d))|pose proof (IHl k bs (S d))]; lia.
Qed.

Definition comOK (o : option bytes) (c : bytes) : Prop := forall x, o = Some x -> c = x.

Lemma copathAll_ext P t : forall ks ks' d, (forall k, In k ks <-> In k ks') -> copathAll P t ks d -> copathAll P t ks' d.
Proof.
  assert (NE : forall (ks ks' : list bytes) k r, (forall k, In k ks <-> In k ks') -> ks = k :: r -> exists k' r', ks' = k' :: r').
  { intros ks ks' k r E ->. destruct ks' as [|k' r']; [|eauto]. exfalso. apply (E k). left. reflexivity. }
  induction t as [|k c|l IHl r IHr]; intros ks ks' d E;
    (destruct ks as [|k1 r1]; [destruct ks' as [|k2 r2]; [auto|exfalso; apply (E k2); left; reflexivity]|]);
    (destruct (NE _ _ _ _ E eq_refl) as [k2 [r2 ->]]); cbn [copathAll]; auto.
  intros [A B]. split; [eapply IHl; [|exact A]|eapply IHr; [|exact B]]; intro k; rewrite !filter_In, E; reflexivity.
Qed.

Lemma copathAll_True t : forall K d, copathAll (fun _ => True) t K d.
Proof. induction t as [|a b|l IHl r IHr]; intros [|k K] d; cbn; auto. Qed.

Lemma addToSkeleton_skel hs t : forall f p K (e : entry), Canon hs p t -> (f + List.length p = 8 * hs + 1)%nat -> (List.length p <= 8 * hs)%nat ->
  List.length (fst e) = hs ->
  comOK (snd (tsearch t (fst e) (skipn (List.length p) (bits (fst e))) (List.length p))) (snd e) ->
  addToSkeleton f (skel t K (List.length p)) e (fst (tsearch t (fst e) (skipn (List.length p) (bits (fst e))) (List.length p))) (List.length p)
    = Ok (skel t (fst e :: K) (List.length p)).
Proof.
  induction t as [|k c|l IHl r IHr]; intros f p K e C Hf Lp Le CO; (destruct f as [|f]; [lia|]).
  - destruct K as [|k1 K]; cbn [skel addToSkeleton tsearch fst rdepth rincl].
    + rewrite Nat.ltb_irrefl, Nat.eqb_refl. reflexivity.
    + rewrite Nat.eqb_refl. reflexivity.
  - cbn [tsearch] in *. destruct (bytes_eqb (fst e) k) eqn:E.
    + cbn [snd] in CO. specialize (CO c eq_refl). apply bytes_eqb_eq in E.
      destruct K as [|k1 K]; cbn [skel addToSkeleton fst rdepth rincl].
      * rewrite Nat.ltb_irrefl, Nat.eqb_refl. cbn [terminalNode]. congruence.
      * rewrite Nat.eqb_refl. subst k. rewrite bytes_eqb_refl. reflexivity.
    + destruct K as [|k1 K]; cbn [skel addToSkeleton fst rdepth rincl].
      * rewrite Nat.ltb_irrefl, Nat.eqb_refl. reflexivity.
      * rewrite Nat.eqb_refl, E. reflexivity.
  - pose proof (Canon_TN_depth _ _ _ _ C) as L. pose proof C as [Cl [Cr _]].
    rewrite skipn_bit in * by lia. set (d := List.length p) in *.
    assert (Ls : forall b, List.length (p ++ [b]) = S d) by (intro; rewrite app_length; unfold d; cbn; lia).
    cbn [tsearch] in *.
    specialize (IHl f (p ++ [false])). specialize (IHr f (p ++ [true])). rewrite Ls in IHl, IHr.
    assert (Par : forall K, (let* b := getBit (fst e) d in
        if b then let* rt' := addToSkeleton f (skel r (filter (fun k => bitAt k d) K) (S d)) e
             (fst (tsearch (if bitAt (fst e) d then r else l) (fst e) (skipn (S d) (bits (fst e))) (S d))) (S d)
           in Ok (Parent (skel l (filter (fun k => negb (bitAt k d)) K) (S d)) rt' None None)
        else let* l' := addToSkeleton f (skel l (filter (fun k => negb (bitAt k d)) K) (S d)) e
             (fst (tsearch (if bitAt (fst e) d then r else l) (fst e) (skipn (S d) (bits (fst e))) (S d))) (S d)
           in Ok (Parent l' (skel r (filter (fun k => bitAt k d) K) (S d)) None None))
       = Ok (skel (TN l r) (fst e :: K) d)).
    { intro K'. rewrite getBit_bitAt by lia. cbn [bind]. cbn [skel filter].
      destruct (bitAt (fst e) d) eqn:B; cbn [negb].
      - rewrite (IHr _ e Cr ltac:(lia) ltac:(lia) Le CO). reflexivity.
      - rewrite (IHl _ e Cl ltac:(lia) ltac:(lia) Le CO). reflexivity. }
    destruct K as [|k1 K].
    + cbn [skel addToSkeleton].
      pose proof (tsearch_depth (if bitAt (fst e) d then r else l) (fst e) (skipn (S d) (bits (fst e))) (S d)) as Dp.
      set (res := fst (tsearch _ _ _ _)) in *.
      replace (Nat.ltb (rdepth res) d) with false by (symmetry; apply Nat.ltb_ge; lia).
      replace (Nat.eqb d (rdepth res)) with false by (symmetry; apply Nat.eqb_neq; lia).
      pose proof (Par []) as P. cbn [filter skel] in P.
      assert (Sk : forall t, skel t [] (S d) = External [] noId) by (intros []; reflexivity).
      rewrite !Sk in P. exact P.
    + cbn [skel addToSkeleton]. exact (Par (k1 :: K)).
Qed.

Lemma foldM_skel hs t : Canon hs [] t -> forall es K,
  Forall (fun e : entry => List.length (fst e) = hs /\ comOK (assoc (contents t) (fst e)) (snd e)) es ->
  foldM (fun n er => addToSkeleton (depthFuel hs) n (fst er) (snd er) 0)
    (combine es (map (fun k => fst (tsearch t k (bits k) 0)) (map fst es))) (skel t K 0) = Ok (skel t (rev (map fst es) ++ K) 0).
Proof.
  intros C. induction es as [|e es IH]; intros K F; [reflexivity|]. inversion F as [|? ? [F1 F2] F3]; subst.
  cbn [map combine foldM fst snd rev].
  pose proof (addToSkeleton_skel (List.length (fst e)) t (depthFuel (List.length (fst e))) [] K e C) as A. cbn [List.length skipn] in A.
  rewrite A; [|unfold depthFuel; lia|lia|reflexivity|].
  - cbn [bind]. rewrite IH by exact F3. rewrite <- app_assoc. reflexivity.
  - rewrite (tsearch_lookup0 (List.length (fst e))); auto.
Qed.

Definition XP (H : bytes -> option bytes) (hs : nat) (P : trie -> Prop) : list bool -> bytes -> tileId -> trie -> Prop :=
  fun _ h _ t => thash H hs t = Some h /\ P t.
Definition XH (H : bytes -> option bytes) (hs : nat) := XP H hs (fun _ => True).

Lemma XP_hash H hs P p h i t : XP H hs P p h i t -> thash H hs t = Some h.
Proof. intros [E _]. exact E. Qed.
Definition XH_hash H hs p h i t : XH H hs p h i t -> thash H hs t = Some h := XP_hash H hs (fun _ => True) p h i t.

Lemma fillInCopath_skel H hs P t : forall p K es rest, telems H hs t K (List.length p) = Some es -> copathAll P t K (List.length p) ->
  exists n, fillInCopath (skel t K (List.length p)) (es ++ rest) = Ok (n, rest) /\ Rep H hs (XP H hs P) p n t.
Proof.
  induction t as [|k c|l IHl r IHr]; intros p K es rest E CA.
  - destruct K as [|k1 K]; cbn [telems skel fillInCopath copathAll] in *.
    + destruct (thash H hs TE) as [h|] eqn:T; [|discriminate E]. injection E as <-. exists (External h noId). split; [reflexivity|]. constructor. split; [exact T|exact CA].
    + injection E as <-. exists Empty. split; [reflexivity|constructor].
  - destruct K as [|k1 K]; cbn [telems skel fillInCopath copathAll] in *.
    + destruct (thash H hs (TL k c)) as [h|] eqn:T; [|discriminate E]. injection E as <-. exists (External h noId). split; [reflexivity|]. constructor. split; [exact T|exact CA].
    + injection E as <-. exists (Leaf k c). split; [reflexivity|constructor].
  - destruct K as [|k1 K]; cbn [telems skel fillInCopath copathAll] in *.
    + destruct (thash H hs (TN l r)) as [h|] eqn:T; [|discriminate E]. injection E as <-. exists (External h noId). split; [reflexivity|]. constructor. split; [exact T|exact CA].
    + assert (Ls : forall b, List.length (p ++ [b]) = S (List.length p)) by (intro; rewrite app_length; cbn; lia).
      destruct (telems H hs l _ _) as [a|] eqn:Ea; [|discriminate E].
      destruct (telems H hs r _ _) as [b|] eqn:Eb; [|discriminate E]. injection E as <-.
      rewrite <- (Ls false) in Ea. rewrite <- (Ls true) in Eb.
      destruct CA as [CA1 CA2]. rewrite <- (Ls false) in CA1. rewrite <- (Ls true) in CA2.
      destruct (IHl _ _ _ (b ++ rest) Ea CA1) as [n1 [F1 R1]]. destruct (IHr _ _ _ rest Eb CA2) as [n2 [F2 R2]].
      rewrite Ls in F1, F2. rewrite <- app_assoc, F1. cbn [bind]. rewrite F2. cbn [bind].
      exists (Parent n1 n2 None None). split; [reflexivity|]. constructor; auto; intros; discriminate.
Qed.

(** What [evaluate] returns on an honest proof: a tree representing [t]. *)
Lemma evaluate_honest H hs P t entries es : Canon hs [] t ->
  Forall (fun e : bytes * bytes => List.length (fst e) = hs /\ (snd e = [] \/ List.length (snd e) = hs) /\ comOK (assoc (contents t) (fst e)) (snd e)) entries ->
  NoDup (map fst entries) -> telems H hs t (map fst entries) 0 = Some es -> copathAll P t (map fst entries) 0 ->
  exists n, evaluate hs entries (honest t (map fst entries) es) = Ok n /\
     fillInCopath (skel t (rev (map fst entries)) 0) es = Ok (n, []) /\ Rep H hs (XP H hs P) [] n t.
Proof.
  intros C F ND T CA. unfold evaluate. cbn zeta.
  assert (B0 : forall g, (forall e, In e entries -> g e = false) -> existsb g (ksort (@fst bytes bytes) entries) = false).
  { intros g G. apply existsb_false. intros e I. apply ksort_In in I. auto. }
  rewrite Forall_forall in F.
  rewrite B0 by (intros e I; apply badLen_ok; apply F; exact I).
  rewrite B0.
  2:{ intros [a b] I. destruct (F _ I) as [_ [[E|E] _]]; cbn in *; [subst b; reflexivity|].
      destruct b as [|x b]; [reflexivity|]. apply badLen_ok. exact E. }
  replace (dupAdjacent (map fst (ksort fst entries))) with false.
  2:{ symmetry. apply dupAdjacent_sorted; [apply sorted_map_key, ksort_sorted|].
      eapply Permutation_NoDup; [|exact ND]. apply Permutation_map, Permutation_sym, ksort_perm. }
  cbn [p_results p_elements honest]. rewrite !map_length, Nat.eqb_refl. cbn [negb].
  pose proof (foldM_skel hs t C entries []) as FM. rewrite app_nil_r in FM.
  assert (S0 : skel t [] 0 = External [] noId) by (destruct t; reflexivity). rewrite S0 in FM.
  rewrite FM.
  2:{ rewrite Forall_forall. intros e I. destruct (F e I) as [A [_ B]]. auto. }
  cbn [bind].
  assert (T' : telems H hs t (rev (map fst entries)) 0 = Some es).
  { rewrite <- T. apply telems_ext. intro k. symmetry. apply in_rev. }
  assert (CA' : copathAll P t (rev (map fst entries)) 0).
  { apply (copathAll_ext P t (map fst entries)); [intro k; apply in_rev|exact CA]. }
  destruct (fillInCopath_skel H hs P t [] (rev (map fst entries)) es [] T' CA') as [n [Fi R]]. rewrite app_nil_r in Fi. cbn [List.length] in Fi.
  rewrite Fi. cbn [bind]. exists n. auto.
Qed.

Lemma Evaluate_honest H hs t entries es h : Canon hs [] t ->
  Forall (fun e : bytes * bytes => List.length (fst e) = hs /\ (snd e = [] \/ List.length (snd e) = hs) /\ comOK (assoc (contents t) (fst e)) (snd e)) entries ->
  NoDup (map fst entries) -> telems H hs t (map fst entries) 0 = Some es -> thash H hs t = Some h ->
  Evaluate H hs entries (honest t (map fst entries) es) = Ok h.
Proof.
  intros C F ND T E. destruct (evaluate_honest H hs (fun _ => True) t entries es C F ND T (copathAll_True t _ _)) as [n [En [_ R]]].
  unfold Evaluate. rewrite En. cbn [bind]. rewrite (Rep_hash H hs (XH H hs) (XH_hash H hs) _ _ _ R), E. reflexivity.
Qed.

(** ** Before and after *)

(** All cached hashes are right, nothing else changes. *)
Lemma cacheHashes_Rep H hs (X : list bool -> bytes -> tileId -> trie -> Prop) n : forall p t n', (forall p h i t, X p h i t -> thash H hs t = Some h) ->
  Rep H hs X p n t -> cacheHashes H hs n = Ok n' -> Rep H hs X p n' t.
Proof.
  induction n as [|v c|l IHl r IHr h id|h i]; intros p t n' HX R E; try (injection E as <-; exact R).
  destruct h as [h|]; [injection E as <-; exact R|]. cbn [cacheHashes] in E.
  apply bind_ok in E. destruct E as [l' [El E]]. apply bind_ok in E. destruct E as [r' [Er E]].
  apply bind_ok in E. destruct E as [h [Eh E]]. injection E as <-.
  inversion R as [| |? ? ? ? ? tl tr Rl Rr Hh Hi|]; subst.
  assert (R' : Rep H hs X p (Parent l' r' None id) (TN tl tr)) by (constructor; eauto; discriminate).
  constructor; eauto. intros hh Q. injection Q as ->.
  rewrite (Rep_hash H hs X HX _ _ _ R') in Eh. destruct (thash H hs (TN tl tr)); [|discriminate Eh]. cbn in Eh. congruence.
Qed.

Lemma cacheHashes_resolved H hs n : forall n' bs, cacheHashes H hs n = Ok n' -> resolved n bs -> resolved n' bs.
Proof.
  induction n as [|v c|l IHl r IHr h id|h i]; intros n' bs E R; try (injection E as <-; exact R).
  destruct h as [h|]; [injection E as <-; exact R|]. cbn [cacheHashes] in E.
  apply bind_ok in E. destruct E as [l' [El E]]. apply bind_ok in E. destruct E as [r' [Er E]].
  apply bind_ok in E. destruct E as [h [Eh E]]. injection E as <-. destruct bs as [|b bs]; [exact R|]. cbn [resolved] in *. destruct b; eauto.
Qed.

Lemma cacheHashes_hasIds H hs n : forall n' p K, cacheHashes H hs n = Ok n' -> hasIds n p K -> hasIds n' p K.
Proof.
  induction n as [|v c|l IHl r IHr h id|h i]; intros n' p K E R; try (injection E as <-; exact R).
  destruct h as [h|]; [injection E as <-; exact R|]. cbn [cacheHashes] in E.
  apply bind_ok in E. destruct E as [l' [El E]]. apply bind_ok in E. destruct E as [r' [Er E]].
  apply bind_ok in E. destruct E as [h [Eh E]]. injection E as <-. destruct R as [R1 [R2 R3]]. split; [exact R1|]. split; eauto.
Qed.

Lemma cacheHashes_ok H hs n h : nodeHash H hs n = Ok h -> exists n', cacheHashes H hs n = Ok n' /\ nodeHash H hs n' = Ok h.
Proof.
  revert h. induction n as [|v c|l IHl r IHr [hh|] id|hh i]; intros h E; cbn [cacheHashes]; eauto.
  cbn [nodeHash] in E. apply bind_ok in E. destruct E as [a [Ea E]]. apply bind_ok in E. destruct E as [b [Eb E]].
  destruct (IHl a Ea) as [l' [El Hl]]. destruct (IHr b Eb) as [r' [Er Hr]]. rewrite El. cbn [bind]. rewrite Er. cbn [bind].
  cbn [nodeHash]. rewrite Hl. cbn [bind]. rewrite Hr. cbn [bind]. rewrite E. cbn [bind]. eexists. split; reflexivity.
Qed.

(** Filling in copath nodes *)
Definition sameRes (n n' : node) : Prop := forall bs, resolved n bs -> resolved n' bs.

Lemma fillInCopath_resolved n : forall es n' rest bs, fillInCopath n es = Ok (n', rest) -> resolved n bs -> resolved n' bs.
Proof.
  induction n as [|v c|l IHl r IHr h id|h i]; intros es n' rest bs E R; cbn [fillInCopath] in E; try (injection E as <- <-; exact R).
  - apply bind_ok in E. destruct E as [[l' es1] [El E]]. apply bind_ok in E. destruct E as [[r' es2] [Er E]]. injection E as <- <-.
    destruct bs as [|b bs]; [exact R|]. cbn [resolved] in *. destruct b; eauto.
  - destruct R.
Qed.

Lemma fillInCopath_hasIds n : forall es n' rest p K, fillInCopath n es = Ok (n', rest) -> hasIds n p K -> hasIds n' p K.
Proof.
  induction n as [|v c|l IHl r IHr h id|h i]; intros es n' rest p K E R; cbn [fillInCopath] in E; try (injection E as <- <-; exact R).
  - apply bind_ok in E. destruct E as [[l' es1] [El E]]. apply bind_ok in E. destruct E as [[r' es2] [Er E]]. injection E as <- <-.
    destruct R as [R1 [R2 R3]]. split; [exact R1|]. split; eauto.
  - destruct es as [|x es]; [discriminate E|]. injection E as <- <-. exact R.
Qed.

Lemma skel_resolved hs t : forall p K k, Canon hs p t -> (List.length k = hs) -> In k K -> resolved (skel t K (List.length p)) (skipn (List.length p) (bits k)).
Proof.
  induction t as [|k' c|l IHl r IHr]; intros p K k C Lk I; (destruct K as [|k1 K]; [destruct I|]); cbn [skel]; try exact Logic.I.
  pose proof (Canon_TN_depth _ _ _ _ C) as L. destruct C as [Cl [Cr _]].
  rewrite skipn_bit by lia. cbn [resolved].
  assert (Ls : forall b, List.length (p ++ [b]) = S (List.length p)) by (intro; rewrite app_length; cbn; lia).
  destruct (bitAt k (List.length p)) eqn:B.
  - rewrite <- (Ls true). apply IHr; auto. apply filter_In. auto.
  - rewrite <- (Ls false). apply IHl; auto. apply filter_In. rewrite B. auto.
Qed.

Lemma skel_hasIds hs t : forall p K, Canon hs p t -> Forall (fun k : bytes => List.length k = hs /\ prefixOf p (bits k)) K ->
  hasIds (skel t K (List.length p)) p K.
Proof.
  induction t as [|k' c|l IHl r IHr]; intros p K C F; (destruct K as [|k1 K]; [exact Logic.I|]); cbn [skel]; try exact Logic.I.
  pose proof (Canon_TN_depth _ _ _ _ C) as L. destruct C as [Cl [Cr _]].
  assert (Ls : forall b, List.length (p ++ [b]) = S (List.length p)) by (intro; rewrite app_length; cbn; lia).
  remember (k1 :: K) as K0 eqn:EK.
  cbn [hasIds]. split; [|split].
  - intros _. exists k1. split; [subst; left; reflexivity|]. subst. inversion F as [|? ? [F1 F2] _]; subst. exact F2.
  - rewrite <- (Ls false). apply (hasIds_mono _ _ (filter (fun k => negb (bitAt k (List.length p))) K0)).
    + apply IHl; auto. rewrite Forall_forall in *. intros k I. apply filter_In in I. destruct I as [I B]. destruct (F k I) as [F1 F2].
      split; [exact F1|]. pose proof (prefix_bit_step p k F2 ltac:(lia)) as P. destruct (bitAt k (List.length p)); [discriminate B|exact P].
    + intros k I _. apply filter_In in I. apply I.
  - rewrite <- (Ls true). apply (hasIds_mono _ _ (filter (fun k => bitAt k (List.length p)) K0)).
    + apply IHr; auto. rewrite Forall_forall in *. intros k I. apply filter_In in I. destruct I as [I B]. destruct (F k I) as [F1 F2].
      split; [exact F1|]. pose proof (prefix_bit_step p k F2 ltac:(lia)) as P. destruct (bitAt k (List.length p)); [exact P|discriminate B].
    + intros k I _. apply filter_In in I. apply I.
Qed.
