(** Lemmas: soundness of evaluation and of audits; absence of panics. *)
From Verif Require Import Base BaseProofs LogTreeSpec PrefixModel PrefixSpec PrefixProofs PrefixUpdateProofs
  PrefixCodecProofs PrefixStoreProofs PrefixTileProofs PrefixBuildProofs PrefixMutateProofs PrefixMutateProofs2 PrefixVerifyProofs PrefixVerifyProofs2.
From Coq Require Import Sorting.Permutation Sorting.Sorted.

Lemma evaluate_inv hs entries p n : evaluate hs entries p = Ok n ->
  Forall (fun e : entry => List.length (fst e) = hs) entries /\ NoDup (map fst entries) /\
  List.length entries = List.length (p_results p) /\
  exists n0, foldM (fun n er => addToSkeleton (depthFuel hs) n (fst er) (snd er) 0) (combine entries (p_results p)) (External [] noId) = Ok n0 /\
    fillInCopath n0 (p_elements p) = Ok (n, []).
Proof.
  unfold evaluate. cbn zeta. intros E.
  match type of E with (if ?b then _ else _) = _ => destruct b eqn:B1; [discriminate E|] end.
  match type of E with (if ?b then _ else _) = _ => destruct b eqn:B2; [discriminate E|] end.
  match type of E with (if ?b then _ else _) = _ => destruct b eqn:B3; [discriminate E|] end.
  match type of E with (if ?b then _ else _) = _ => destruct b eqn:B4; [discriminate E|] end.
  split; [|split; [|split]].
  - rewrite Forall_forall. intros e I. assert (I' : In e (ksort fst entries)) by (apply ksort_In; exact I).
    destruct (Nat.eq_dec (List.length (fst e)) hs) as [|N]; [assumption|]. exfalso.
    apply not_true_iff_false in B1. apply B1.
    apply existsb_exists. exists e. split; [exact I'|]. unfold badLen. apply negb_true_iff. apply Nat.eqb_neq. exact N.
  - apply dupAdjacent_sorted in B3; [|apply sorted_map_key, ksort_sorted].
    eapply Permutation_NoDup; [apply Permutation_map; apply ksort_perm|exact B3].
  - apply negb_false_iff, Nat.eqb_eq in B4. exact B4.
  - apply bind_ok in E. destruct E as [n0 [E0 E]]. apply bind_ok in E. destruct E as [[n' rest] [E1 E]].
    destruct rest; [|discriminate E]. injection E as <-. exists n0. auto.
Qed.

Lemma foldM_leaves hs (Q : bytes * bytes -> Prop) f : forall ers n n', (forall e r, In (e, r) ers -> List.length (fst e) = hs) ->
  (forall e r, In (e, r) ers -> rincl r = true -> Q e) -> (forall e v c d, In (e, NonLeaf v c d) ers -> Q (v, c)) ->
  foldM (fun n er => addToSkeleton f n (fst er) (snd er) 0) ers n = Ok n' ->
  Forall Q (leaves n) -> Forall Q (leaves n').
Proof.
  induction ers as [|[e r] ers IH]; intros n n' L A B E F; cbn [foldM] in E; [injection E as <-; exact F|].
  apply bind_ok in E. destruct E as [n1 [E1 E]]. cbn [fst snd] in E1. eapply IH; [| | |exact E|].
  - intros; eapply L; right; eauto.
  - intros e' r' I'. apply A. right. exact I'.
  - intros e' v c d I'. apply (B e' v c d). right. exact I'.
  - destruct (addToSkeleton_sound hs e r (L e r (or_introl eq_refl)) f n 0%nat n1 E1) as [_ [L1 _]].
    rewrite Forall_forall in *. intros x I. destruct (L1 x I) as [I'|I']; [auto|].
    destruct r as [d|v c d|d]; cbn in I'; try discriminate I'; injection I' as I1 I2; destruct x as [a b]; cbn in I1, I2; subst a b.
    + destruct e as [a b]. apply (A _ _ (or_introl eq_refl) eq_refl).
    + apply (B e v c d). left. reflexivity.
Qed.

Lemma In_combine_l {A B} (l : list A) (m : list B) : List.length l = List.length m -> forall x, In x l -> exists y, In (x, y) (combine l m).
Proof.
  revert m. induction l as [|a l IH]; intros [|b m] L x I; cbn in *; try contradiction; try discriminate L.
  destruct I as [->|I]; [exists b; left; reflexivity|]. destruct (IH m (eq_add_S _ _ L) x I) as [y Y]. exists y. right. exact Y.
Qed.

Lemma term_resolved n : forall bs d x dd, term n bs d = Some (x, dd) -> notExt x -> resolved n bs.
Proof.
  induction n as [|v c|l IHl r IHr h id|h i]; intros bs d x dd T N; cbn in *; auto.
  - destruct bs as [|b bs]; [discriminate T|]. destruct b; eauto.
  - injection T as <- <-. exact N.
Qed.

Lemma goodTerm_notExt e r x : goodTerm e r x -> notExt x.
Proof. intros [[_ ->]|[_ [->|[v [c [-> _]]]]]]; exact I. Qed.

(** The tree rebuilt from a proof, for arbitrary proofs *)
Lemma evaluate_weak hs entries p n : evaluate hs entries p = Ok n -> wfProof hs p -> agreeing entries (p_results p) ->
  extLen hs n /\ Forall (fun l => List.length (fst l) = hs) (leaves n) /\ hasIds n [] (map fst entries) /\
  forall e r, In (e, r) (combine entries (p_results p)) -> exists x, term n (bits (fst e)) 0 = Some (x, rdepth r) /\ weakTerm e r x.
Proof.
  intros E [W1 W2] NA. destruct (evaluate_inv _ _ _ _ E) as [F [ND [L [n0 [E0 E1]]]]].
  assert (Ic : forall e r, In (e, r) (combine entries (p_results p)) -> In e entries /\ In r (p_results p)).
  { intros e r I. split; [eapply in_combine_l|eapply in_combine_r]; eauto. }
  destruct (foldM_sound hs entries (fun e => exists r, In (e, r) (combine entries (p_results p)) /\ rincl r = true) F ND (depthFuel hs) (combine entries (p_results p)) (External [] noId) n0) as [G [_ [Pl Hi]]].
  - intros e r I. destruct (Ic e r I) as [I1 I2]. split; [exact I1|]. split; [eauto|]. intros v c d ->. intros e' [r' [I' R']]. apply (NA v c d e' r' I2 I' R').
  - exact E0.
  - intros x [].
  - exact Logic.I.
  - destruct (fillInCopath_len hs n0 _ _ _ E1 Pl W1) as [Xl [_ Lv]].
    split; [exact Xl|]. split; [|split].
    + rewrite Lv. eapply (foldM_leaves hs (fun l => List.length (fst l) = hs)); [| | |exact E0|constructor].
      * rewrite Forall_forall in F. intros e r I. apply F. apply (Ic e r I).
      * rewrite Forall_forall in F. intros e r I _. apply F. apply (Ic e r I).
      * intros e v c d I. apply (W2 v c d). apply (Ic e _ I).
    + apply (fillInCopath_hasIds _ _ _ _ _ _ E1). specialize (Hi [] Logic.I). rewrite app_nil_r in Hi. rewrite map_map in Hi.
      apply (hasIds_mono _ _ _ _ Hi). intros k I _. apply in_map_iff in I. destruct I as [[e r] [<- I]]. cbn. apply in_map. apply (Ic e r I).
    + intros e r I. destruct (G e r I) as [x [Tx Gx]]. exists x. split; [|exact Gx].
      eapply fillInCopath_term; [exact E1|exact Tx|eapply weakTerm_notExt; exact Gx].
Qed.

Lemma evaluate_terms hs entries p n : evaluate hs entries p = Ok n -> wfProof hs p -> noAlias entries (p_results p) ->
  extLen hs n /\ Forall (fun l => List.length (fst l) = hs) (leaves n) /\ hasIds n [] (map fst entries) /\
  forall e r, In (e, r) (combine entries (p_results p)) -> exists x, term n (bits (fst e)) 0 = Some (x, rdepth r) /\ goodTerm e r x.
Proof.
  intros E W [N1 N2]. destruct (evaluate_weak _ _ _ _ E W N2) as [A [B [C G]]]. split; [exact A|]. split; [exact B|]. split; [exact C|].
  intros e r I. destruct (G e r I) as [x [Tx Wx]]. exists x. split; [exact Tx|]. apply (weakTerm_good _ _ _ Wx).
  intros v c d ->. exact (N1 _ _ _ _ I).
Qed.

Lemma evaluate_match_weak f hs T entries p n t h : (forall x, List.length (f x) = hs) -> Canon hs [] t ->
  evaluate hs entries p = Ok n -> wfProof hs p -> agreeing entries (p_results p) ->
  nodeHash (restrict f T) hs n = Ok h -> thash (restrict f T) hs t = Some h ->
  (Rep (restrict f T) hs (XH (restrict f T) hs) [] n t /\
   forall e r, In (e, r) (combine entries (p_results p)) -> (forall v c d, r = NonLeaf v c d -> v <> fst e) ->
     assoc (contents t) (fst e) = if rincl r then Some (snd e) else None)
  \/ broken f hs T.
Proof.
  intros Hs C E W NA En Et. destruct (evaluate_weak _ _ _ _ E W NA) as [Xl [Lv [_ G]]].
  destruct (match_tree f hs T Hs n t [] [] h Xl Lv C En Et) as [R|B]; [|auto]. left. split; [exact R|].
  intros e r I N. destruct (G e r I) as [x [Tx Wx]]. pose proof (weakTerm_good _ _ _ Wx N) as Gx.
  assert (Le : List.length (fst e) = hs).
  { destruct (evaluate_inv _ _ _ _ E) as [F _]. rewrite Forall_forall in F. apply F. eapply in_combine_l; eauto. }
  rewrite <- (tsearch_lookup0 hs t (fst e) C Le).
  pose proof (Rep_term _ _ _ n [] t (fst e) x (rdepth r) R C Le Tx (goodTerm_notExt _ _ _ Gx)) as Q. cbn [skipn List.length] in Q. rewrite Q.
  destruct Gx as [[-> ->]|[-> [->|[v [c [-> Nv]]]]]].
  - rewrite bytes_eqb_refl. reflexivity.
  - reflexivity.
  - destruct (bytes_eqb (fst e) v) eqn:Eq; [apply bytes_eqb_eq in Eq; congruence|reflexivity].
Qed.

Lemma evaluate_match f hs T entries p n t h : (forall x, List.length (f x) = hs) -> Canon hs [] t ->
  evaluate hs entries p = Ok n -> wfProof hs p -> noAlias entries (p_results p) ->
  nodeHash (restrict f T) hs n = Ok h -> thash (restrict f T) hs t = Some h ->
  (Rep (restrict f T) hs (XH (restrict f T) hs) [] n t /\
   forall e r, In (e, r) (combine entries (p_results p)) -> assoc (contents t) (fst e) = if rincl r then Some (snd e) else None)
  \/ broken f hs T.
Proof.
  intros Hs C E W NA En Et. destruct (evaluate_match_weak f hs T entries p n t h Hs C E W (proj2 NA) En Et) as [[R V]|B]; [|auto].
  left. split; [exact R|]. intros e r I. apply (V e r I). intros v c d ->. exact (proj1 NA _ _ _ _ I).
Qed.

Lemma thash_restrict f hs T t h : thash (restrict f T) hs t = Some h -> thash (full f) hs t = Some h.
Proof.
  revert h. induction t as [|k c|l IHl r IHr]; intros h E; cbn in *; [exact E| |].
  - unfold restrict in E. destruct (existsb _ T); [exact E|discriminate E].
  - destruct (thash (restrict f T) hs l) as [a|]; [|discriminate E]. destruct (thash (restrict f T) hs r) as [b|]; [|discriminate E].
    rewrite (IHl a eq_refl), (IHr b eq_refl). unfold restrict in E. destruct (existsb _ T); [exact E|discriminate E].
Qed.

(** An audit of additions that succeeds *)
Lemma audit_sound f hs T add p t t' h h' : (forall x, List.length (f x) = hs) -> Canon hs [] t -> Canon hs [] t' ->
  EvaluateBeforeAfter (restrict f T) hs add [] p = Ok (h, h') -> wfProof hs p -> noAlias add (p_results p) ->
  (forall r, In r (p_results p) -> rincl r = false) ->
  Forall (fun e : bytes * bytes => List.length (snd e) = hs) add ->
  thash (restrict f T) hs t = Some h ->
  (forall x, In x (contents t') <-> In x add \/ In x (contents t)) ->
  (thash (restrict f T) hs t' = Some h' /\ forall k, In k (map fst add) -> assoc (contents t) k = None) \/ broken f hs T.
Proof.
  intros Hs C C' E W NA NI LA Et Ct. unfold EvaluateBeforeAfter in E. rewrite app_nil_r in E.
  apply bind_ok in E. destruct E as [n [En E]]. apply bind_ok in E. destruct E as [h0 [Eh E]].
  apply bind_ok in E. destruct E as [n1 [Ec E]]. apply bind_ok in E. destruct E as [n2 [Ea E]].
  apply bind_ok in E. destruct E as [h1 [Eh1 E]]. injection E as -> ->.
  destruct (evaluate_inv _ _ _ _ En) as [F [ND [L _]]].
  destruct (evaluate_terms _ _ _ _ En W NA) as [Xl [Lv [Hi G]]].
  destruct (evaluate_match f hs T add p n t h Hs C En W NA Eh Et) as [[R V]|B]; [|auto].
  assert (None_ : forall k, In k (map fst add) -> assoc (contents t) k = None).
  { intros k I. apply in_map_iff in I. destruct I as [e [<- I]]. destruct (In_combine_l add (p_results p) L e I) as [r J].
    rewrite (V e r J). rewrite NI; [reflexivity|]. eapply in_combine_r; eauto. }
  left. split; [|exact None_].
  destruct (addRemove_after (restrict f T) hs (fun _ => True) t t' n n1 add [] h' C C' R Ec) as [[n' [E2 Hh]]|[m [E2 _]]].
  - rewrite Forall_forall in *. intros e I. split; auto.
  - constructor.
  - exact ND.
  - intros k I. rewrite app_nil_r in I. apply in_map_iff in I. destruct I as [e [<- I]]. destruct (In_combine_l add (p_results p) L e I) as [r J].
    destruct (G e r J) as [x [Tx Gx]]. eapply term_resolved; [exact Tx|eapply goodTerm_notExt; exact Gx].
  - rewrite app_nil_r. exact Hi.
  - intros k I N. exfalso. apply N. apply None_. exact I.
  - intro x. rewrite Ct. unfold newContents. cbn. tauto.
  - left. reflexivity.
  - apply Hh. rewrite <- Eh1. f_equal. cbn [map] in Ea.
    assert (Q : Ok n2 = Ok n') by (rewrite <- Ea, <- E2; reflexivity). injection Q as ->. reflexivity.
  - exfalso. cbn [map] in Ea. rewrite <- Ea in E2 || (assert (Q : Ok n2 = Fail m) by (rewrite <- Ea, <- E2; reflexivity)). discriminate.
Qed.

(** ** Absence of panics *)

Definition calm {A} (r : res A) : Prop := match r with Ok _ | Fail _ => True | _ => False end.

Lemma calm_bind {A B} (x : res A) (f : A -> res B) : calm x -> (forall a, x = Ok a -> calm (f a)) -> calm (bind x f).
Proof. destruct x; cbn; auto. Qed.

Lemma nodeHash_calm H hs n : calm (nodeHash H hs n).
Proof.
  induction n as [|v c|l IHl r IHr [h|] id|h i]; cbn; auto.
  - unfold hash. destruct (H _); exact I.
  - apply calm_bind; [exact IHl|]. intros a _. apply calm_bind; [exact IHr|]. intros b _. unfold hash. destruct (H _); exact I.
Qed.

Lemma cacheHashes_calm H hs n : calm (cacheHashes H hs n).
Proof.
  induction n as [|v c|l IHl r IHr [h|] id|h i]; cbn [cacheHashes]; try exact I.
  apply calm_bind; [exact IHl|]. intros a _. apply calm_bind; [exact IHr|]. intros b _. apply calm_bind; [apply nodeHash_calm|]. intros; exact I.
Qed.

Lemma fillInCopath_calm n : forall es, calm (fillInCopath n es).
Proof.
  induction n as [|v c|l IHl r IHr h id|h i]; intros es; cbn [fillInCopath]; try exact I.
  - apply calm_bind; [apply IHl|]. intros [l' es1] _. apply calm_bind; [apply IHr|]. intros [r' es2] _. exact I.
  - destruct es; exact I.
Qed.

(** Parents are above the last bit, and leaves are on their path. *)
Fixpoint shallow (hs : nat) (n : node) (d : nat) : Prop :=
  match n with
  | Parent l r _ _ => (d < 8 * hs)%nat /\ shallow hs l (S d) /\ shallow hs r (S d)
  | _ => True
  end.
Fixpoint onPath (hs : nat) (n : node) (p : list bool) : Prop :=
  match n with
  | Leaf v _ => List.length v = hs /\ prefixOf p (bits v)
  | Parent l r _ _ => onPath hs l (p ++ [false]) /\ onPath hs r (p ++ [true])
  | _ => True
  end.

Lemma addToSkeleton_calm hs (e : entry) r : List.length (fst e) = hs -> (rdepth r <= 8 * hs)%nat ->
  forall f n d, (f + d = 8 * hs + 1)%nat -> (d <= 8 * hs)%nat -> shallow hs n d ->
  calm (addToSkeleton f n e r d) /\ forall n', addToSkeleton f n e r d = Ok n' -> shallow hs n' d.
Proof.
  intros Le Lr. induction f as [|f IH]; intros n d Hf Ld Sh; [lia|]. cbn [addToSkeleton].
  assert (Par : forall l rt h id, (d < 8 * hs)%nat -> shallow hs l (S d) -> shallow hs rt (S d) ->
    let x := (let* b := getBit (fst e) d in
        if b then let* rt' := addToSkeleton f rt e r (S d) in Ok (Parent l rt' h id)
        else let* l' := addToSkeleton f l e r (S d) in Ok (Parent l' rt h id)) in
    calm x /\ forall n', x = Ok n' -> shallow hs n' d).
  { intros l rt h id L S1 S2 x. unfold x. rewrite getBit_bitAt by lia. cbn [bind].
    destruct (bitAt (fst e) d).
    - destruct (IH rt (S d)) as [A B]; [lia|lia|exact S2|]. split; [apply calm_bind; [exact A|intros; exact I]|].
      intros n' E. apply bind_ok in E. destruct E as [m [Em E]]. injection E as <-. cbn. auto.
    - destruct (IH l (S d)) as [A B]; [lia|lia|exact S1|]. split; [apply calm_bind; [exact A|intros; exact I]|].
      intros n' E. apply bind_ok in E. destruct E as [m [Em E]]. injection E as <-. cbn. auto. }
  destruct n as [|v c|l rt h id|h i].
  - destruct (negb (Nat.eqb (rdepth r) d) || rincl r); (split; [exact I|]); intros n' E; [discriminate E|injection E as <-; exact I].
  - destruct (negb (Nat.eqb (rdepth r) d) || negb (Bool.eqb (rincl r) (bytes_eqb (fst e) v))); (split; [exact I|]); intros n' E; [discriminate E|injection E as <-; exact I].
  - destruct Sh as [L [S1 S2]]. apply Par; auto.
  - destruct (Nat.ltb (rdepth r) d) eqn:Q; [split; [exact I|intros n' E; discriminate E]|]. apply Nat.ltb_ge in Q.
    destruct (Nat.eqb d (rdepth r)) eqn:Q2.
    + split; [exact I|]. intros n' E. injection E as <-. destruct r; exact I.
    + apply Nat.eqb_neq in Q2. apply Par; [lia|exact I|exact I].
Qed.

Lemma foldM_calm hs : forall ers n, (forall e r, In (e, r) ers -> List.length (fst e) = hs /\ (rdepth r <= 8 * hs)%nat) -> shallow hs n 0 ->
  let x := foldM (fun n er => addToSkeleton (depthFuel hs) n (fst er) (snd er) 0) ers n in
  calm x /\ forall n', x = Ok n' -> shallow hs n' 0.
Proof.
  induction ers as [|[e r] ers IH]; intros n A Sh x; unfold x; cbn [foldM fst snd].
  - split; [exact I|]. intros n' E. injection E as <-. exact Sh.
  - destruct (A e r (or_introl eq_refl)) as [L1 L2].
    destruct (addToSkeleton_calm hs e r L1 L2 (depthFuel hs) n 0%nat) as [B D]; [unfold depthFuel; lia|lia|exact Sh|].
    split.
    + apply calm_bind; [exact B|]. intros n1 E1. apply IH; [intros; apply A; right; assumption|auto].
    + intros n' E. apply bind_ok in E. destruct E as [n1 [E1 E]]. apply (IH n1); [intros; apply A; right; assumption|auto|exact E].
Qed.

Lemma evaluate_calm hs entries p : (forall r, In r (p_results p) -> (rdepth r <= 8 * hs)%nat) ->
  calm (evaluate hs entries p) /\ forall n, evaluate hs entries p = Ok n -> shallow hs n 0.
Proof.
  intros Dr. split.
  - unfold evaluate. cbn zeta.
    match goal with |- calm (if ?b then _ else _) => destruct b eqn:B1; [exact I|] end.
    match goal with |- calm (if ?b then _ else _) => destruct b eqn:B2; [exact I|] end.
    match goal with |- calm (if ?b then _ else _) => destruct b eqn:B3; [exact I|] end.
    match goal with |- calm (if ?b then _ else _) => destruct b eqn:B4; [exact I|] end.
    apply calm_bind.
    + apply foldM_calm; [|exact I]. intros e r J. split; [|apply Dr; eapply in_combine_r; eauto].
      assert (J' : In e (ksort fst entries)) by (apply ksort_In; eapply in_combine_l; eauto).
      destruct (Nat.eq_dec (List.length (fst e)) hs) as [|N]; [assumption|]. exfalso.
      apply not_true_iff_false in B1. apply B1. apply existsb_exists. exists e. split; [exact J'|]. unfold badLen. apply negb_true_iff. apply Nat.eqb_neq. exact N.
    + intros n0 _. apply calm_bind; [apply fillInCopath_calm|]. intros [n' rest] _. destruct rest; exact I.
  - intros n E. destruct (evaluate_inv _ _ _ _ E) as [F [_ [_ [n0 [E0 E1]]]]].
    destruct (foldM_calm hs (combine entries (p_results p)) (External [] noId)) as [_ B]; [|exact I|].
    + intros e r J. rewrite Forall_forall in F. split; [apply F; eapply in_combine_l; eauto|apply Dr; eapply in_combine_r; eauto].
    + specialize (B n0 E0). clear - B E1. revert E1 B. generalize (p_elements p) (@nil bytes) 0%nat. revert n.
      induction n0 as [|v c|l IHl r IHr h id|h i]; intros n es rest d E B; cbn [fillInCopath] in E; try (injection E as <- <-; exact I).
      * apply bind_ok in E. destruct E as [[l' es1] [El E]]. apply bind_ok in E. destruct E as [[r' es2] [Er E]]. injection E as <- <-.
        destruct B as [L [B1 B2]]. cbn. eauto.
      * destruct es; [discriminate E|]. injection E as <- <-. exact I.
Qed.

Lemma onPath_fill hs n : forall es n' rest p, fillInCopath n es = Ok (n', rest) -> onPath hs n p -> onPath hs n' p.
Proof.
  induction n as [|v c|l IHl r IHr h id|h i]; intros es n' rest p E B; cbn [fillInCopath] in E; try (injection E as <- <-; exact B).
  - apply bind_ok in E. destruct E as [[l' es1] [El E]]. apply bind_ok in E. destruct E as [[r' es2] [Er E]]. injection E as <- <-.
    destruct B as [B1 B2]. cbn. eauto.
  - destruct es; [discriminate E|]. injection E as <- <-. exact I.
Qed.

Lemma cacheHashes_shape H hs n : forall n', cacheHashes H hs n = Ok n' ->
  (forall p, onPath hs n p -> onPath hs n' p) /\ (forall d, shallow hs n d -> shallow hs n' d) /\ leaves n' = leaves n.
Proof.
  induction n as [|v c|l IHl r IHr [h|] id|h i]; intros n' E; cbn [cacheHashes] in E; try (injection E as <-; auto; fail).
  apply bind_ok in E. destruct E as [l' [El E]]. apply bind_ok in E. destruct E as [r' [Er E]]. apply bind_ok in E. destruct E as [h [Eh E]]. injection E as <-.
  destruct (IHl _ El) as [A1 [A2 A3]]. destruct (IHr _ Er) as [B1 [B2 B3]]. split; [|split].
  - intros p [P1 P2]. cbn. auto.
  - intros d [D1 [D2 D3]]. cbn. auto.
  - cbn. rewrite A3, B3. reflexivity.
Qed.

Lemma addToSkeleton_onPath hs (e : entry) r : List.length (fst e) = hs -> (rdepth r <= 8 * hs)%nat ->
  (forall v c d, r = NonLeaf v c d -> List.length v = hs) -> leafOnPath e r ->
  forall f n n' p, addToSkeleton f n e r (List.length p) = Ok n' -> prefixOf p (bits (fst e)) -> onPath hs n p -> onPath hs n' p.
Proof.
  intros Le Lr Lv LP. induction f as [|f IH]; intros n n' p E Pp B; [discriminate E|]. cbn [addToSkeleton] in E.
  assert (Ls : forall b, List.length (p ++ [b]) = S (List.length p)) by (intro; rewrite app_length; cbn; lia).
  assert (Par : forall l rt h id, onPath hs l (p ++ [false]) -> onPath hs rt (p ++ [true]) ->
     (let* b := getBit (fst e) (List.length p) in
        if b then let* rt' := addToSkeleton f rt e r (S (List.length p)) in Ok (Parent l rt' h id)
        else let* l' := addToSkeleton f l e r (S (List.length p)) in Ok (Parent l' rt h id)) = Ok n' -> onPath hs n' p).
  { intros l rt h id B1 B2 Q. apply bind_ok in Q. destruct Q as [b [Eb Q]].
    assert (Ld : (List.length p < 8 * List.length (fst e))%nat).
    { rewrite getBit_bits in Eb. destruct (nth_error (bits (fst e)) (List.length p)) eqn:Z; [|discriminate Eb].
      assert (Y : nth_error (bits (fst e)) (List.length p) <> None) by congruence. apply nth_error_Some in Y. rewrite bits_len in Y. exact Y. }
    rewrite getBit_bitAt in Eb by exact Ld. injection Eb as Eb.
    pose proof (prefix_bit_step p (fst e) Pp Ld) as Ps. rewrite Eb in Ps.
    destruct b; apply bind_ok in Q; destruct Q as [m [Em Q]]; injection Q as <-; cbn; (split; [|]); auto.
    - rewrite <- (Ls true) in Em. eapply IH; eauto.
    - rewrite <- (Ls false) in Em. eapply IH; eauto. }
  destruct n as [|v c|l rt h id|h i].
  - destruct (negb (Nat.eqb (rdepth r) (List.length p)) || rincl r); [discriminate E|]. injection E as <-. exact I.
  - destruct (negb (Nat.eqb (rdepth r) (List.length p)) || negb (Bool.eqb (rincl r) (bytes_eqb (fst e) v))); [discriminate E|]. injection E as <-. exact B.
  - destruct B as [B1 B2]. eapply Par; eauto.
  - destruct (Nat.ltb (rdepth r) (List.length p)); [discriminate E|]. destruct (Nat.eqb (List.length p) (rdepth r)) eqn:Q.
    + injection E as <-. apply Nat.eqb_eq in Q. destruct r as [d|v c d|d]; cbn in *; auto. split; [eapply Lv; reflexivity|].
      subst d. rewrite (prefixOf_firstn _ _ Pp). exact LP.
    + apply (Par (External [] noId) (External [] noId) None None I I E).
Qed.

Lemma evaluate_onPath hs entries p n : wfProof hs p -> (forall r, In r (p_results p) -> (rdepth r <= 8 * hs)%nat) ->
  (forall e r, In (e, r) (combine entries (p_results p)) -> leafOnPath e r) ->
  evaluate hs entries p = Ok n -> onPath hs n [].
Proof.
  intros [_ W] Dr LP E. destruct (evaluate_inv _ _ _ _ E) as [F [_ [_ [n0 [E0 E1]]]]].
  apply (onPath_fill hs n0 _ _ _ _ E1). rewrite Forall_forall in F.
  assert (A : forall e r, In (e, r) (combine entries (p_results p)) -> List.length (fst e) = hs /\ (rdepth r <= 8 * hs)%nat /\
     (forall v c d, r = NonLeaf v c d -> List.length v = hs) /\ leafOnPath e r).
  { intros e r J. split; [apply F; eapply in_combine_l; eauto|]. split; [apply Dr; eapply in_combine_r; eauto|]. split; [|auto].
    intros v c d ->. apply (W v c d). eapply in_combine_r; eauto. }
  assert (B : onPath hs (External [] noId) []) by exact I. revert E0 A B. generalize (External [] noId). clear.
  induction (combine entries (p_results p)) as [|[e r] ers IH]; intros n E A B; cbn [foldM fst snd] in E; [injection E as <-; exact B|].
  apply bind_ok in E. destruct E as [n1 [E1 E]]. apply (IH n1); auto; [intros; apply A; right; assumption|].
  destruct (A e r (or_introl eq_refl)) as [A1 [A2 [A3 A4]]]. apply (addToSkeleton_onPath hs e r A1 A2 A3 A4 (depthFuel hs) n n1 []); auto. apply prefixOf_nil.
Qed.

(** [addRemove] does not panic. *)
Lemma addRemove_calm H hs f : forall p n add rem, (f + List.length p = 8 * hs + 1)%nat -> (List.length p <= 8 * hs)%nat ->
  shallow hs n (List.length p) -> onPath hs n p -> addOK hs p add -> remOK hs p rem ->
  (forall k, In k (map fst add ++ rem) -> resolved n (skipn (List.length p) (bits k))) ->
  hasIds n p (map fst add ++ rem) ->
  (forall x e, In x (leaves n) -> In e add -> fst x = fst e -> In (fst x) rem) ->
  calm (addRemove H hs f n add rem (List.length p)).
Proof.
  induction f as [|f IH]; intros p n add rem Hf Lp Sh Op Aok Rok Res Ids New; [lia|].
  rewrite addRemove_S.
  assert (Ls : forall b, List.length (p ++ [b]) = S (List.length p)) by (intro; rewrite app_length; cbn; lia).
  assert (Par : forall l r add rem, (List.length p < 8 * hs)%nat -> shallow hs l (S (List.length p)) -> shallow hs r (S (List.length p)) ->
     onPath hs l (p ++ [false]) -> onPath hs r (p ++ [true]) -> addOK hs p add -> remOK hs p rem ->
     (forall k, In k (map fst add ++ rem) -> resolved (if bitAt k (List.length p) then r else l) (skipn (S (List.length p)) (bits k))) ->
     hasIds l (p ++ [false]) (map fst add ++ rem) -> hasIds r (p ++ [true]) (map fst add ++ rem) ->
     (forall x e, In x (leaves l ++ leaves r) -> In e add -> fst x = fst e -> In (fst x) rem) ->
     calm (parentStep H hs f l r add rem (List.length p))).
  { clear n add rem Sh Op Aok Rok Res Ids New. intros l r add rem L S1 S2 O1 O2 Aok Rok Res I1 I2 New. unfold parentStep.
    pose proof Aok as [As [Ad Af]]. pose proof Rok as [Rs Rf].
    rewrite (splitAt_ok fst (List.length p) p add eq_refl As).
    2:{ rewrite Forall_forall in *. intros e I. destruct (Af e I) as [E [_ P]]. split; [exact P|lia]. }
    cbn [bind]. rewrite (splitAt_ok (fun x => x) (List.length p) p rem eq_refl Rs).
    2:{ rewrite Forall_forall in *. intros e I. destruct (Rf e I) as [E P]. split; [exact P|lia]. }
    cbn [bind].
    assert (Ch : forall (b : bool) n, shallow hs n (S (List.length p)) -> onPath hs n (p ++ [b]) -> hasIds n (p ++ [b]) (map fst add ++ rem) ->
       (forall x, In x (leaves n) -> In x (leaves l ++ leaves r)) -> (n = if b then r else l) ->
       calm (addRemove H hs f n (filter (fun e => if b then bitOf fst (List.length p) e else negb (bitOf fst (List.length p) e)) add)
               (filter (fun e => if b then bitOf (fun x => x) (List.length p) e else negb (bitOf (fun x => x) (List.length p) e)) rem) (S (List.length p)))).
    { intros b n Sn On In_ Lvn En. rewrite <- (Ls b). apply IH.
      - rewrite Ls. lia.
      - rewrite Ls. lia.
      - rewrite Ls. exact Sn.
      - exact On.
      - apply (addOK_child H hs (XH H hs) (XH_hash H hs)); auto.
      - apply (remOK_child H hs (XH H hs) (XH_hash H hs)); auto.
      - intros k I. apply In_keys_filter in I. destruct I as [I Eb]. rewrite Ls. specialize (Res k I). rewrite Eb in Res. rewrite En. exact Res.
      - apply (hasIds_mono _ _ _ _ In_). intros k I P. apply In_keys_filter. split; [exact I|]. apply (prefix_bit_inv _ _ _ P).
      - intros x e Ix Ie E. apply In_filter_entry in Ie. apply In_filter_key. destruct Ie as [Ie Eb].
        split; [apply (New x e); auto|rewrite E; exact Eb]. }
    apply calm_bind; [apply (Ch false l); auto; intros; apply in_or_app; auto|]. intros l' _.
    apply calm_bind; [apply (Ch true r); auto; intros; apply in_or_app; auto|]. intros r' _. exact I. }
  assert (Emp : calm (emptyStep H hs f add (List.length p))).
  { destruct add as [|e1 [|e2 rest]]; cbn [emptyStep]; try exact I.
    pose proof (addOK_depth H hs (XH H hs) (XH_hash H hs) _ _ _ _ Aok) as L. apply Par; auto; try exact I.
    - split; constructor.
    - intros k _. destruct (bitAt k (List.length p)); exact I. }
  assert (Main : map fst add ++ rem <> [] -> calm
      match n with
      | Empty => emptyStep H hs f add (List.length p)
      | Leaf v c =>
          if existsb (bytes_eqb v) rem then emptyStep H hs f add (List.length p)
          else match add with
               | [] => Ok n
               | _ =>
                   let* b := getBit v (List.length p) in
                   if b then parentStep H hs f Empty (Leaf v c) add [] (List.length p) else parentStep H hs f (Leaf v c) Empty add [] (List.length p)
               end
      | Parent l r _ _ => parentStep H hs f l r add rem (List.length p)
      | External _ _ => Panic "unexpected node type found"
      end).
  { intros NE. destruct n as [|v c|l r h id|h i].
    - exact Emp.
    - destruct (existsb (bytes_eqb v) rem) eqn:Ex; [exact Emp|].
      assert (Nv : ~ In v rem).
      { intro I. apply not_true_iff_false in Ex. apply Ex. apply existsb_exists. exists v. split; [exact I|apply bytes_eqb_refl]. }
      destruct add as [|e add]; [exact I|]. destruct Op as [Lv Pv].
      assert (Ne : v <> fst e).
      { intros E. apply Nv. apply (New (v, c) e); [left; reflexivity|left; reflexivity|exact E]. }
      pose proof (leaf_add_depth H hs (XH H hs) (XH_hash H hs) p v e add Lv Pv Aok Ne) as L.
      rewrite getBit_bitAt by (rewrite Lv; exact L). cbn [bind].
      pose proof (prefix_bit_step p v Pv) as Pb. rewrite Lv in Pb. specialize (Pb L).
      assert (Rok0 : remOK hs p []) by (split; constructor).
      assert (New0 : forall x e0, In x [(v, c)] -> In e0 (e :: add) -> fst x = fst e0 -> In (fst x) []).
      { intros x e0 [<-|[]] I0 E0. apply Nv. apply (New (v, c) e0); [left; reflexivity|exact I0|exact E0]. }
      destruct (bitAt v (List.length p)); apply Par; auto; try exact I; try (split; assumption);
        intros k _; destruct (bitAt k (List.length p)); exact I.
    - destruct Sh as [L [S1 S2]]. destruct Op as [O1 O2]. destruct Ids as [_ [I1 I2]]. apply Par; auto.
      intros k I. specialize (Res k I). rewrite skipn_bit in Res.
      + cbn [resolved] in Res. destruct (bitAt k (List.length p)); exact Res.
      + assert (Lk : List.length k = hs); [|rewrite Lk; exact L].
        apply in_app_or in I. destruct Aok as [_ [_ F]]. destruct Rok as [_ F']. rewrite Forall_forall in F, F'.
        destruct I as [I|I]; [apply in_map_iff in I; destruct I as [e [<- I]]; apply (F e I)|apply (F' k I)].
    - exfalso. destruct (map fst add ++ rem) as [|k K]; [congruence|]. apply (Res k (or_introl eq_refl)). }
  destruct add as [|e add]; [destruct rem as [|k rem]|].
  - destruct n as [|v c|l r h id|h i]; try exact I.
    apply calm_bind; [apply nodeHash_calm|]. intros hp _. destruct id as [i|]; [exact I|].
    exfalso. destruct Ids as [A _]. destruct (A eq_refl) as [k [[] _]].
  - apply Main. cbn. congruence.
  - apply Main. cbn. congruence.
Qed.

Lemma NoDup_combine {A B C} (g : A -> C) (l : list A) (m : list B) x y y' : NoDup (map g l) ->
  In (x, y) (combine l m) -> In (x, y') (combine l m) -> y = y'.
Proof.
  revert m. induction l as [|a l IH]; intros [|b m] N I J; cbn in *; try contradiction.
  inversion N as [|? ? N1 N2]; subst. destruct I as [I|I], J as [J|J].
  - congruence.
  - injection I as -> ->. exfalso. apply N1. apply in_map. eapply in_combine_l; eauto.
  - injection J as -> ->. exfalso. apply N1. apply in_map. eapply in_combine_l; eauto.
  - eauto.
Qed.

Lemma NoDup_app_l {A} (a b : list A) : NoDup (a ++ b) -> NoDup a.
Proof.
  induction a as [|x a IH]; intros N; [constructor|]. inversion N as [|? ? N1 N2]; subst.
  constructor; [intro I; apply N1; apply in_or_app; auto|auto].
Qed.

Lemma onPath_leaf hs n : forall p x, onPath hs n p -> In x (leaves n) -> prefixOf p (bits (fst x)).
Proof.
  induction n as [|v c|l IHl r IHr h i|h i]; intros p x O I; cbn in *; try contradiction.
  - destruct I as [<-|[]]. apply O.
  - destruct O as [O1 O2]. apply in_app_iff in I. destruct I as [I|I]; eapply prefixOf_shorter; eauto.
Qed.

Lemma onPath_term hs n : forall p x d, onPath hs n p -> In x (leaves n) ->
  exists dd, term n (skipn (List.length p) (bits (fst x))) d = Some (Leaf (fst x) (snd x), dd).
Proof.
  induction n as [|v c|l IHl r IHr h i|h i]; intros p x d O I; cbn in *; try contradiction.
  - destruct I as [<-|[]]. eauto.
  - destruct O as [O1 O2].
    assert (S : forall b, prefixOf (p ++ [b]) (bits (fst x)) -> skipn (List.length p) (bits (fst x)) = b :: skipn (List.length (p ++ [b])) (bits (fst x))).
    { intros b [q ->]. rewrite (skipn_app (List.length (p ++ [b]))), (skipn_all (p ++ [b])), Nat.sub_diag.
      rewrite <- app_assoc, (skipn_app (List.length p)), (skipn_all p), Nat.sub_diag. reflexivity. }
    apply in_app_iff in I. destruct I as [I|I].
    + rewrite (S false) by (eapply onPath_leaf; eauto). apply (IHl _ _ _ O1 I).
    + rewrite (S true) by (eapply onPath_leaf; eauto). apply (IHr _ _ _ O2 I).
Qed.

Lemma audit_calm H hs add rem p : wfProof hs p -> (forall r, In r (p_results p) -> (rdepth r <= 8 * hs)%nat) ->
  noAlias (add ++ rem) (p_results p) ->
  (forall e r, In (e, r) (combine (add ++ rem) (p_results p)) -> leafOnPath e r /\ (In e add -> rincl r = false)) ->
  Forall (fun e : bytes * bytes => List.length (snd e) = hs) add ->
  calm (EvaluateBeforeAfter H hs add rem p).
Proof.
  intros W Dr NA LP LA. unfold EvaluateBeforeAfter. destruct (evaluate_calm hs (add ++ rem) p Dr) as [C1 C2].
  apply calm_bind; [exact C1|]. intros n En. apply calm_bind; [apply nodeHash_calm|]. intros h _.
  apply calm_bind; [apply cacheHashes_calm|]. intros n1 Ec.
  apply calm_bind; [|intros n2 _; apply calm_bind; [apply nodeHash_calm|intros; exact I]].
  destruct (evaluate_inv _ _ _ _ En) as [F [ND [L [n0 [E0 E1]]]]].
  destruct (evaluate_terms _ _ _ _ En W NA) as [Xl [Lv [Hi G]]].
  destruct (cacheHashes_shape H hs n n1 Ec) as [S1 [S2 S3]].
  assert (Kin : forall k, In k (map fst (ksort fst add) ++ ksort (fun x => x) (map fst rem)) <-> In k (map fst (add ++ rem))).
  { intro k. rewrite map_app, !in_app_iff. rewrite ksort_In. rewrite (in_map_iff _ (ksort fst add)), (in_map_iff _ add). setoid_rewrite ksort_In. reflexivity. }
  assert (NDa : NoDup (map fst add)).
  { rewrite map_app in ND. apply NoDup_app_l in ND. exact ND. }
  rewrite Forall_forall in F, LA.
  apply (addRemove_calm H hs (depthFuel hs) [] n1).
  - unfold depthFuel. cbn. lia.
  - cbn. lia.
  - apply S2. apply C2. exact En.
  - apply S1. eapply evaluate_onPath; eauto. intros e r J. apply LP. exact J.
  - split; [apply ksort_sorted|]. split.
    + eapply Permutation_NoDup; [apply Permutation_map; apply Permutation_sym; apply ksort_perm|exact NDa].
    + rewrite Forall_forall. intros e I. apply ksort_In in I. split; [apply F; apply in_or_app; auto|]. split; [auto|apply prefixOf_nil].
  - split; [apply ksort_sorted|]. rewrite Forall_forall. intros k I. apply ksort_In in I. split; [|apply prefixOf_nil].
    apply in_map_iff in I. destruct I as [e [<- I]]. apply F. apply in_or_app. auto.
  - intros k I. apply Kin in I. apply (cacheHashes_resolved H hs n n1 _ Ec). cbn [skipn List.length].
    apply in_map_iff in I. destruct I as [e [<- I]]. destruct (In_combine_l (add ++ rem) (p_results p) L e I) as [r J].
    destruct (G e r J) as [x [Tx Gx]]. eapply term_resolved; [exact Tx|eapply goodTerm_notExt; exact Gx].
  - apply (cacheHashes_hasIds H hs n n1 _ _ Ec). apply (hasIds_mono _ _ _ _ Hi). intros k I _. apply Kin. exact I.
  - rewrite S3. intros x e Ix Ie Eq. exfalso. apply ksort_In in Ie.
    destruct (In_combine_l (add ++ rem) (p_results p) L e (in_or_app _ _ _ (or_introl Ie))) as [r J].
    destruct (LP e r J) as [_ Z]. specialize (Z Ie). destruct (G e r J) as [y [Ty [[Gy _]|[_ Gy]]]]; [congruence|].
    destruct (onPath_term hs n [] x 0%nat) as [dd Tx]; [eapply evaluate_onPath; eauto; intros e' r' J'; apply LP; exact J'|exact Ix|].
    cbn [skipn List.length] in Tx. rewrite Eq, Ty in Tx. injection Tx as -> _.
    destruct Gy as [D|[v [c [D N]]]]; [discriminate D|]. injection D as D1 D2. congruence.
Qed.
