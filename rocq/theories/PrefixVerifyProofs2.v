(** Lemmas: before/after evaluation; soundness against arbitrary proofs. *)
From Verif Require Import Base BaseProofs LogTreeSpec PrefixModel PrefixSpec PrefixProofs PrefixUpdateProofs
  PrefixCodecProofs PrefixStoreProofs PrefixTileProofs PrefixBuildProofs PrefixMutateProofs PrefixMutateProofs2 PrefixVerifyProofs.
From Coq Require Import Sorting.Permutation Sorting.Sorted.

(** ** The second half of before/after evaluation, given the tree rebuilt from the proof *)

Lemma addRemove_after H hs P t t' n n1 add rem h' :
  Canon hs [] t -> Canon hs [] t' -> Rep H hs (XP H hs P) [] n t -> cacheHashes H hs n = Ok n1 ->
  Forall (fun e : bytes * bytes => List.length (fst e) = hs /\ List.length (snd e) = hs) add ->
  Forall (fun k : bytes => List.length k = hs) rem -> NoDup (map fst add) ->
  (forall k, In k (map fst add ++ rem) -> resolved n (bits k)) ->
  hasIds n [] (map fst add ++ rem) ->
  (forall k, In k (map fst add) -> assoc (contents t) k <> None -> In k rem) ->
  (forall x, In x (contents t') <-> newContents add rem (contents t) x) ->
  rem = [] \/ (forall u, P u -> exists a b, u = TN a b) ->
  let n2 := addRemove H hs (depthFuel hs) n1 (ksort fst add) (ksort (fun x => x) rem) 0 in
  (exists n', n2 = Ok n' /\ (nodeHash H hs n' = Ok h' <-> thash H hs t' = Some h')) \/ (exists m, n2 = Fail m /\ ~ total H).
Proof.
  intros C C' R Ec A1 A2 A3 Rs Hi New Ct B n2.
  assert (Kin : forall k, In k (map fst (ksort fst add) ++ ksort (fun x => x) rem) <-> In k (map fst add ++ rem)).
  { intro k. rewrite !in_app_iff, !in_map_iff. setoid_rewrite ksort_In. reflexivity. }
  destruct (addRemove_ok H hs (XP H hs P) (XP_hash H hs P) (depthFuel hs) [] t n1 (ksort fst add) (ksort (fun x => x) rem)) as [[n' [E' [t2 [Rt [C2 Ct2]]]]]|[msg [E' N]]].
  - unfold depthFuel. cbn. lia.
  - cbn. lia.
  - exact C.
  - eapply cacheHashes_Rep; eauto. apply XP_hash.
  - split; [apply ksort_sorted|]. split.
    + eapply Permutation_NoDup; [apply Permutation_map; apply Permutation_sym; apply ksort_perm|exact A3].
    + rewrite Forall_forall in *. intros e I. apply ksort_In in I. destruct (A1 e I) as [B1 B2].
      split; [exact B1|]. split; [exact B2|apply prefixOf_nil].
  - split; [apply ksort_sorted|]. rewrite Forall_forall in *. intros e I. apply ksort_In in I. split; [auto|apply prefixOf_nil].
  - intros k I. apply Kin in I. apply (cacheHashes_resolved H hs n n1 _ Ec). apply Rs. exact I.
  - apply (cacheHashes_hasIds H hs n n1 _ _ Ec). apply (hasIds_mono _ _ _ _ Hi). intros k I _. apply Kin. exact I.
  - intros x e I J Eq. apply ksort_In in J. apply ksort_In. apply New; [rewrite Eq; apply in_map; exact J|].
    destruct x as [k c]. cbn. rewrite (proj2 (NoDup_assoc_In hs t [] k c C) I). discriminate.
  - destruct B as [->|B]; [right; reflexivity|left]. intros p h i u [_ Pu]. auto.
  - left. exists n'. split; [exact E'|].
    assert (t2 = t') as ->.
    { apply (Canon_unique hs t2 [] t' C2 C'). intro x. rewrite Ct2, Ct. unfold newContents. rewrite !ksort_In. reflexivity. }
    rewrite (Rep_hash H hs (XP H hs P) (XP_hash H hs P) _ _ _ Rt). destruct (thash H hs t'); cbn; split; congruence.
  - right. exists msg. split; [exact E'|exact N].
Qed.

(** Honest proof *)
Lemma beforeAfter_honest H hs (P : trie -> Prop) t t' add rem es h h' : total H -> Canon hs [] t -> Canon hs [] t' ->
  Forall (fun e : bytes * bytes => List.length (fst e) = hs /\ List.length (snd e) = hs) add ->
  Forall (fun e : bytes * bytes => List.length (fst e) = hs /\ List.length (snd e) = hs /\ In e (contents t)) rem ->
  NoDup (map fst (add ++ rem)) -> (forall k, In k (map fst add) -> assoc (contents t) k = None) ->
  (forall x, In x (contents t') <-> newContents add (map fst rem) (contents t) x) ->
  telems H hs t (map fst (add ++ rem)) 0 = Some es -> thash H hs t = Some h -> thash H hs t' = Some h' ->
  rem = [] \/ (forall u, P u -> exists a b, u = TN a b) -> copathAll P t (map fst (add ++ rem)) 0 ->
  EvaluateBeforeAfter H hs add rem (honest t (map fst (add ++ rem)) es) = Ok (h, h').
Proof.
  intros Htot C C' A1 A2 ND New Ct T Eh Eh' B CA.
  assert (FE : Forall (fun e : bytes * bytes => List.length (fst e) = hs /\ (snd e = [] \/ List.length (snd e) = hs) /\ comOK (assoc (contents t) (fst e)) (snd e)) (add ++ rem)).
  { rewrite Forall_forall in *. intros e I. apply in_app_or in I. destruct I as [I|I].
    - destruct (A1 e I) as [B1 B2]. split; [exact B1|]. split; [right; exact B2|]. intros x Q. rewrite New in Q by (apply in_map; exact I). discriminate Q.
    - destruct (A2 e I) as [B1 [B2 B3]]. split; [exact B1|]. split; [right; exact B2|]. intros x Q.
      destruct e as [k c]. apply (NoDup_assoc_In hs t [] _ _ C) in B3. cbn in *. congruence. }
  destruct (evaluate_honest H hs P t (add ++ rem) es C FE ND T CA) as [n [En [Fi R]]].
  unfold EvaluateBeforeAfter. change entry with (bytes * bytes)%type in *. rewrite En. cbn [bind].
  assert (Hn : nodeHash H hs n = Ok h) by (rewrite (Rep_hash H hs (XP H hs P) (XP_hash H hs P) _ _ _ R), Eh; reflexivity).
  rewrite Hn. cbn [bind].
  destruct (cacheHashes_ok H hs n h Hn) as [n1 [Ec _]]. rewrite Ec. cbn [bind].
  assert (KL : forall k, In k (map fst (add ++ rem)) -> List.length k = hs).
  { intros k I. rewrite Forall_forall in FE. apply in_map_iff in I. destruct I as [e [<- I]]. apply FE. exact I. }
  destruct (addRemove_after H hs P t t' n n1 add (map fst rem) h' C C' R Ec A1)
    as [[n' [E2 Hh]]|[m [_ N]]].
  - rewrite Forall_forall in *. intros k I. apply in_map_iff in I. destruct I as [e [<- I]]. apply A2. exact I.
  - rewrite map_app in ND. clear - ND. revert ND. generalize (map fst rem) as b. induction (map fst add) as [|x a IH]; intros b ND; [constructor|].
    inversion ND as [|? ? N1 N2]; subst. constructor; [intro I; apply N1; apply in_or_app; auto|]. eapply IH; eauto.
  - intros k I. rewrite <- map_app in I. apply (fillInCopath_resolved _ _ _ _ _ Fi).
    apply (skel_resolved hs t [] _ k C); [apply KL; exact I|apply in_rev in I; exact I].
  - apply (fillInCopath_hasIds _ _ _ _ _ _ Fi). apply (hasIds_mono _ _ (rev (map fst (add ++ rem)))).
    + apply (skel_hasIds hs t []); auto. rewrite Forall_forall. intros k I. apply in_rev in I. split; [auto|apply prefixOf_nil].
    + intros k I _. apply in_rev in I. rewrite map_app in I. exact I.
  - intros k I N. exfalso. apply N. apply New. exact I.
  - exact Ct.
  - destruct B as [->|B]; [left; reflexivity|right; exact B].
  - rewrite E2. cbn [bind]. rewrite (proj2 Hh Eh'). reflexivity.
  - exfalso. apply N. exact Htot.
Qed.

(** ** Arbitrary proofs: the structure of the rebuilt tree *)

(** The node where the search along [bs] ends. *)
Fixpoint term (n : node) (bs : list bool) (d : nat) : option (node * nat) :=
  match n with
  | Parent l r _ _ => match bs with [] => None | b :: bs' => term (if b then r else l) bs' (S d) end
  | _ => Some (n, d)
  end.

Fixpoint leaves (n : node) : list (bytes * bytes) :=
  match n with
  | Leaf v c => [(v, c)]
  | Parent l r _ _ => leaves l ++ leaves r
  | _ => []
  end.

(** No cached hashes or ids, copath nodes of the right size *)
Fixpoint plain (n : node) : Prop :=
  match n with
  | Parent l r h id => h = None /\ id = None /\ plain l /\ plain r
  | _ => True
  end.

Definition okTerm (keys : list bytes) (entries : list entry) (e : entry) (r : presult) (x : node) : Prop :=
  match x with
  | Empty => rincl r = false
  | Leaf v c => if rincl r then v = fst e else (v = fst e -> r = NonLeaf v c (rdepth r))
  | _ => False
  end.

Lemma addToSkeleton_sound hs (e : entry) r : List.length (fst e) = hs ->
  forall f n d n', addToSkeleton f n e r d = Ok n' ->
  (exists x, term n' (skipn d (bits (fst e))) d = Some (x, rdepth r) /\
     ((x = terminalNode e r) \/ (In x (map (fun l => Leaf (fst l) (snd l)) (leaves n)) /\ rincl r = match x with Leaf v _ => bytes_eqb (fst e) v | _ => false end)
      \/ (x = Empty /\ rincl r = false))) /\
  (forall x, In x (leaves n') -> In x (leaves n) \/ Leaf (fst x) (snd x) = terminalNode e r) /\
  (forall bs x dd, term n bs d = Some (x, dd) -> notExt x -> term n' bs d = Some (x, dd)) /\
  (plain n -> plain n') /\
  (forall p K, List.length p = d -> prefixOf p (bits (fst e)) -> hasIds n p K -> hasIds n' p (fst e :: K)).
Proof.
  intros Le. induction f as [|f IH]; intros n d n' E; [discriminate E|]. cbn [addToSkeleton] in E.
  assert (Par : forall l rt h id n', (let* b := getBit (fst e) d in
        if b then let* rt' := addToSkeleton f rt e r (S d) in Ok (Parent l rt' h id)
        else let* l' := addToSkeleton f l e r (S d) in Ok (Parent l' rt h id)) = Ok n' ->
    (exists x, term n' (skipn d (bits (fst e))) d = Some (x, rdepth r) /\
     ((x = terminalNode e r) \/ (In x (map (fun l => Leaf (fst l) (snd l)) (leaves (Parent l rt h id))) /\ rincl r = match x with Leaf v _ => bytes_eqb (fst e) v | _ => false end)
      \/ (x = Empty /\ rincl r = false))) /\
    (forall x, In x (leaves n') -> In x (leaves (Parent l rt h id)) \/ Leaf (fst x) (snd x) = terminalNode e r) /\
    (forall bs x dd, term (Parent l rt h id) bs d = Some (x, dd) -> notExt x -> term n' bs d = Some (x, dd)) /\
    (plain (Parent l rt h id) -> plain n') /\
    (forall p K, List.length p = d -> prefixOf p (bits (fst e)) -> 
        hasIds l (p ++ [false]) K -> hasIds rt (p ++ [true]) K -> hasIds n' p (fst e :: K))).
  { clear E n n'. intros l rt h id n' E. apply bind_ok in E. destruct E as [b [Eb E]].
    assert (Ld : (d < 8 * List.length (fst e))%nat).
    { rewrite getBit_bits in Eb. destruct (nth_error (bits (fst e)) d) eqn:Q; [|discriminate Eb].
      assert (nth_error (bits (fst e)) d <> None) by congruence. apply nth_error_Some in H. rewrite bits_len in H. exact H. }
    rewrite getBit_bitAt in Eb by exact Ld. injection Eb as Eb.
    rewrite skipn_bit by exact Ld. rewrite Eb.
    destruct b; apply bind_ok in E; destruct E as [m [Em E]]; injection E as <-; destruct (IH _ _ _ Em) as [[x [Tx Gx]] [Lv [Pr [Pl Hi]]]].
    - split; [|split; [|split; [|split]]].
      + exists x. cbn [term leaves]. split; [exact Tx|]. destruct Gx as [G|[[G1 G2]|G]]; auto. right. left. split; [|exact G2].
        rewrite map_app. apply in_or_app. auto.
      + intros y I. cbn [leaves] in *. apply in_app_or in I. destruct I as [I|I]; [left; apply in_or_app; auto|].
        destruct (Lv y I); [left; apply in_or_app; auto|auto].
      + intros bs y dd Ty Ny. cbn [term] in *. destruct bs as [|b bs]; [discriminate Ty|]. destruct b; auto.
      + cbn [plain]. intros [A [B [D F]]]. auto.
      + intros p K Lp Pp Hl Hr. cbn [hasIds]. split; [|split].
        * intros _. exists (fst e). split; [left; reflexivity|exact Pp].
        * apply (hasIds_mono _ _ _ _ Hl). intros; right; assumption.
        * apply Hi; auto; [rewrite app_length; cbn; lia|]. pose proof (prefix_bit_step p (fst e) Pp) as Q. rewrite Lp, Eb in Q. apply Q. exact Ld.
    - split; [|split; [|split; [|split]]].
      + exists x. cbn [term leaves]. split; [exact Tx|]. destruct Gx as [G|[[G1 G2]|G]]; auto. right. left. split; [|exact G2].
        rewrite map_app. apply in_or_app. auto.
      + intros y I. cbn [leaves] in *. apply in_app_or in I. destruct I as [I|I]; [|left; apply in_or_app; auto].
        destruct (Lv y I); [left; apply in_or_app; auto|auto].
      + intros bs y dd Ty Ny. cbn [term] in *. destruct bs as [|b bs]; [discriminate Ty|]. destruct b; auto.
      + cbn [plain]. intros [A [B [D F]]]. auto.
      + intros p K Lp Pp Hl Hr. cbn [hasIds]. split; [|split].
        * intros _. exists (fst e). split; [left; reflexivity|exact Pp].
        * apply Hi; auto; [rewrite app_length; cbn; lia|]. pose proof (prefix_bit_step p (fst e) Pp) as Q. rewrite Lp, Eb in Q. apply Q. exact Ld.
        * apply (hasIds_mono _ _ _ _ Hr). intros; right; assumption. }
  destruct n as [|v c|l rt h id|h i].
  - destruct (negb (Nat.eqb (rdepth r) d) || rincl r) eqn:Q; [discriminate E|]. injection E as <-.
    apply orb_false_iff in Q. destruct Q as [Q1 Q2]. apply negb_false_iff, Nat.eqb_eq in Q1.
    split; [exists Empty; cbn; rewrite Q1; auto|]. split; [intros x []|]. split; [auto|]. split; [auto|]. intros; exact I.
  - destruct (negb (Nat.eqb (rdepth r) d) || negb (Bool.eqb (rincl r) (bytes_eqb (fst e) v))) eqn:Q; [discriminate E|]. injection E as <-.
    apply orb_false_iff in Q. destruct Q as [Q1 Q2]. apply negb_false_iff, Nat.eqb_eq in Q1. apply negb_false_iff, Bool.eqb_prop in Q2.
    split; [exists (Leaf v c); cbn; rewrite Q1; split; [reflexivity|]; right; left; auto|].
    split; [auto|]. split; [auto|]. split; [auto|]. intros; exact I.
  - destruct (Par _ _ _ _ _ E) as [G1 [G2 [G3 [G4 G5]]]]. split; [exact G1|]. split; [exact G2|]. split; [exact G3|]. split; [exact G4|].
    intros p K Lp Pp [_ [Hl Hr]]. auto.
  - destruct (Nat.ltb (rdepth r) d); [discriminate E|]. destruct (Nat.eqb d (rdepth r)) eqn:Q.
    + injection E as <-. apply Nat.eqb_eq in Q. subst d. split; [exists (terminalNode e r); split; [destruct r; reflexivity|auto]|].
      split; [intros x I; right; destruct r; cbn in *; try contradiction; destruct I as [<-|[]]; reflexivity|].
      split; [intros bs x dd T N; cbn in T; injection T as <- <-; destruct N|]. split; [destruct r; exact (fun _ => I)|]. intros; destruct r; exact I.
    + destruct (Par _ _ _ _ _ E) as [G1 [G2 [G3 [G4 G5]]]].
      split; [destruct G1 as [x [Tx [G|[[G _]|G]]]]; [eauto|destruct G|eauto]|].
      split; [intros x I; destruct (G2 x I) as [[]|]; auto|].
      split; [intros bs x dd T N; cbn in T; injection T as <- <-; destruct N|].
      split; [intros _; apply G4; cbn; auto|]. intros p K Lp Pp _. apply G5; auto; exact I.
Qed.

Definition goodTerm (e : entry) (r : presult) (x : node) : Prop :=
  (rincl r = true /\ x = Leaf (fst e) (snd e)) \/
  (rincl r = false /\ (x = Empty \/ exists v c, x = Leaf v c /\ v <> fst e)).

(** The same, but the leaf shown may be that of the key itself. *)
Definition weakTerm (e : entry) (r : presult) (x : node) : Prop :=
  goodTerm e r x \/ exists c d, r = NonLeaf (fst e) c d /\ x = Leaf (fst e) c.

Lemma weakTerm_good e r x : weakTerm e r x -> (forall v c d, r = NonLeaf v c d -> v <> fst e) -> goodTerm e r x.
Proof. intros [G|[c [d [E _]]]] N; [exact G|]. destruct (N _ _ _ E). reflexivity. Qed.

Lemma weakTerm_notExt e r x : weakTerm e r x -> notExt x.
Proof. intros [[[_ ->]|[_ [->|[v [c [-> _]]]]]]|[c [d [_ ->]]]]; exact I. Qed.

Lemma NoDup_fst_eq {A B} (l : list (A * B)) x y : NoDup (map fst l) -> In x l -> In y l -> fst x = fst y -> x = y.
Proof.
  induction l as [|z l IH]; cbn; intros N I J E; [destruct I|]. inversion N as [|? ? N1 N2]; subst.
  destruct I as [->|I], J as [->|J]; auto.
  - exfalso. apply N1. rewrite E. apply in_map. exact J.
  - exfalso. apply N1. rewrite <- E. apply in_map. exact I.
Qed.

Lemma foldM_sound hs (entries : list entry) (incl_ : entry -> Prop) : Forall (fun e : entry => List.length (fst e) = hs) entries -> NoDup (map fst entries) ->
  forall f ers n n', (forall e r, In (e, r) ers -> In e entries /\ (rincl r = true -> incl_ e) /\
     (forall v c d, r = NonLeaf v c d -> forall e', incl_ e' -> fst e' = v -> snd e' = c)) ->
  foldM (fun n er => addToSkeleton f n (fst er) (snd er) 0) ers n = Ok n' ->
  (forall x, In x (leaves n) -> In x entries \/ forall e', incl_ e' -> fst e' = fst x -> snd e' = snd x) -> plain n ->
  (forall e r, In (e, r) ers -> exists x, term n' (bits (fst e)) 0 = Some (x, rdepth r) /\ weakTerm e r x) /\
  (forall bs x dd, term n bs 0 = Some (x, dd) -> notExt x -> term n' bs 0 = Some (x, dd)) /\
  plain n' /\ (forall K, hasIds n [] K -> hasIds n' [] (map fst (map fst ers) ++ K)).
Proof.
  intros F ND f. induction ers as [|[e r] ers IH]; intros n n' I0 E Lv Pl; cbn [foldM] in E.
  - injection E as <-. split; [intros ? ? []|]. split; [auto|]. split; [exact Pl|]. auto.
  - apply bind_ok in E. destruct E as [n1 [E1 E]]. cbn [fst snd] in E1.
    destruct (I0 e r (or_introl eq_refl)) as [Ie [Inc_ NA]]. rewrite Forall_forall in F.
    destruct (addToSkeleton_sound hs e r (F e Ie) f n 0%nat n1 E1) as [[x [Tx Gx]] [L1 [P1 [Pl1 H1]]]]. cbn [skipn] in Tx.
    assert (Same : forall y, In y entries -> fst y = fst e -> y = e).
    { intros y Iy Ey. apply (NoDup_fst_eq entries); auto. }
    assert (G : weakTerm e r x).
    { destruct Gx as [->|[[Ix Rx]|[-> Rx]]].
      - destruct r as [d|v c d|d]; cbn.
        + left. left. auto.
        + destruct (bytes_eq_dec v (fst e)) as [->|N]; [right; exists c, d; auto|].
          left. right. split; [reflexivity|]. right. exists v, c. auto.
        + left. right. auto.
      - left. apply in_map_iff in Ix. destruct Ix as [y [<- Iy]]. destruct (bytes_eqb (fst e) (fst y)) eqn:Q.
        + left. split; [exact Rx|]. apply bytes_eqb_eq in Q. destruct (Lv y Iy) as [Z|Z].
          * rewrite (Same y Z) by congruence. reflexivity.
          * rewrite Q, (Z e (Inc_ Rx) Q). reflexivity.
        + right. split; [exact Rx|]. right. exists (fst y), (snd y). split; [reflexivity|]. apply bytes_eqb_neq in Q. congruence.
      - left. right. auto. }
    assert (Nx : notExt x) by (eapply weakTerm_notExt; exact G).
    destruct (IH n1 n') as [A [B [D Hi]]].
    + intros e' r' I'. apply I0. right. exact I'.
    + exact E.
    + intros y Iy. destruct (L1 y Iy) as [Z|Z]; [auto|]. destruct r as [d|v c d|d]; cbn in Z; try discriminate Z.
      * injection Z as Z1 Z2. left. destruct y as [a b], e as [a' b']. cbn in *. subst. exact Ie.
      * injection Z as Z1 Z2. right. rewrite Z1, Z2. apply (NA v c d eq_refl).
    + auto.
    + split; [|split; [|split]].
      * intros e' r' [I'|I']; [injection I' as <- <-; exists x; split; [apply B; auto|exact G]|apply A; exact I'].
      * intros bs y dd T N. apply B; auto.
      * exact D.
      * intros K HK. cbn [map fst app]. apply (hasIds_mono _ _ (map fst (map fst ers) ++ fst e :: K)).
        -- apply Hi. apply H1; auto. apply prefixOf_nil.
        -- intros k I _. rewrite in_app_iff in *. cbn [In] in *. rewrite in_app_iff. tauto.
Qed.

Lemma fillInCopath_term n : forall es n' rest bs d x dd, fillInCopath n es = Ok (n', rest) -> term n bs d = Some (x, dd) -> notExt x -> term n' bs d = Some (x, dd).
Proof.
  induction n as [|v c|l IHl r IHr h id|h i]; intros es n' rest bs d x dd E T N; cbn [fillInCopath] in E; try (injection E as <- <-; exact T).
  - apply bind_ok in E. destruct E as [[l' es1] [El E]]. apply bind_ok in E. destruct E as [[r' es2] [Er E]]. injection E as <- <-.
    destruct bs as [|b bs]; [exact T|]. cbn [term] in *. destruct b; eauto.
  - cbn in T. injection T as <- <-. destruct N.
Qed.

(** Copath nodes of the rebuilt tree have the right size. *)
Fixpoint extLen (hs : nat) (n : node) : Prop :=
  match n with
  | Parent l r h id => h = None /\ id = None /\ extLen hs l /\ extLen hs r
  | External h _ => List.length h = hs
  | _ => True
  end.

Lemma fillInCopath_len hs n : forall es n' rest, fillInCopath n es = Ok (n', rest) -> plain n -> Forall (fun h : bytes => List.length h = hs) es ->
  extLen hs n' /\ Forall (fun h : bytes => List.length h = hs) rest /\ leaves n' = leaves n.
Proof.
  induction n as [|v c|l IHl r IHr h id|h i]; intros es n' rest E P F; cbn [fillInCopath] in E; try (injection E as <- <-; cbn; auto; fail).
  - apply bind_ok in E. destruct E as [[l' es1] [El E]]. apply bind_ok in E. destruct E as [[r' es2] [Er E]]. injection E as <- <-.
    destruct P as [-> [-> [Pl Pr]]]. destruct (IHl _ _ _ El Pl F) as [A1 [A2 A3]]. destruct (IHr _ _ _ Er Pr A2) as [B1 [B2 B3]].
    cbn. rewrite A3, B3. auto.
  - destruct es as [|x es]; [discriminate E|]. injection E as <- <-. inversion F; subst. cbn. auto.
Qed.

(** ** Matching the rebuilt tree with the real one *)

Section Sound.
Variable f : bytes -> bytes.
Variable hs : nat.
Variable T : list bytes.
Hypothesis Hsz : forall x, List.length (f x) = hs.
Let H := restrict f T.

Lemma H_In x h : H x = Some h -> In x T /\ h = f x.
Proof.
  unfold H, restrict. intros E. destruct (existsb (bytes_eqb x) T) eqn:Q; [|discriminate E]. apply existsb_key in Q. injection E as <-. auto.
Qed.

Lemma hash_inj x y h : H x = Some h -> H y = Some h -> x = y \/ broken f hs T.
Proof.
  intros A B. destruct (H_In _ _ A) as [A1 ->]. destruct (H_In _ _ B) as [B1 E].
  destruct (bytes_eq_dec x y) as [|N]; [auto|]. right. left. exists x, y. auto.
Qed.

Lemma hash_zero x : H x = Some (repeat x00 hs) -> broken f hs T.
Proof. intros A. destruct (H_In _ _ A) as [A1 E]. right. exists x. auto. Qed.

Lemma nodeHash_len' n h : extLen hs n -> nodeHash H hs n = Ok h -> List.length h = hs.
Proof.
  destruct n as [|v c|l r hh id|hh i]; cbn; intros P E.
  - injection E as <-. apply repeat_length.
  - unfold hash in E. destruct (H (x02 :: v ++ c)) eqn:Q; [|discriminate E]. injection E as <-. apply H_In in Q. destruct Q as [_ ->]. apply Hsz.
  - destruct P as [-> _]. apply bind_ok in E. destruct E as [a [Ea E]]. apply bind_ok in E. destruct E as [b [Eb E]].
    unfold hash in E. destruct (H (x03 :: a ++ b)) eqn:Q; [|discriminate E]. injection E as <-. apply H_In in Q. destruct Q as [_ ->]. apply Hsz.
  - injection E as <-. exact P.
Qed.

Lemma thash_len' t h : thash H hs t = Some h -> List.length h = hs.
Proof.
  destruct t as [|k c|l r]; cbn; intros E.
  - injection E as <-. apply repeat_length.
  - apply H_In in E. destruct E as [_ ->]. apply Hsz.
  - destruct (thash H hs l); [|discriminate E]. destruct (thash H hs r); [|discriminate E]. apply H_In in E. destruct E as [_ ->]. apply Hsz.
Qed.

Lemma match_tree n : forall t p p' h, extLen hs n -> Forall (fun l => List.length (fst l) = hs) (leaves n) -> Canon hs p' t ->
  nodeHash H hs n = Ok h -> thash H hs t = Some h -> Rep H hs (XH H hs) p n t \/ broken f hs T.
Proof.
  induction n as [|v c|l IHl r IHr hh id|hh i]; intros t p p' h P W C En Et.
  - injection En as <-. destruct t as [|k c|tl tr]; cbn in Et.
    + left. constructor.
    + right. eapply hash_zero. exact Et.
    + destruct (thash H hs tl); [|discriminate Et]. destruct (thash H hs tr); [|discriminate Et]. right. eapply hash_zero. exact Et.
  - cbn in En. unfold hash in En. destruct (H (x02 :: v ++ c)) as [h0|] eqn:Q; [|discriminate En]. injection En as ->.
    destruct t as [|k c'|tl tr]; cbn in Et.
    + injection Et as <-. right. eapply hash_zero. exact Q.
    + destruct (hash_inj _ _ _ Q Et) as [E|B]; [|auto]. left. injection E as E.
      cbn in W, C. apply Forall_inv in W. cbn in W. destruct C as [C1 _].
      apply app_eq_length_inv in E; [|congruence]. destruct E as [-> ->]. constructor.
    + destruct (thash H hs tl); [|discriminate Et]. destruct (thash H hs tr); [|discriminate Et].
      destruct (hash_inj _ _ _ Q Et) as [E|B]; [discriminate E|auto].
  - cbn [extLen] in P. destruct P as [-> [-> [Pl Pr]]]. cbn [nodeHash] in En.
    apply bind_ok in En. destruct En as [a [Ea En]]. apply bind_ok in En. destruct En as [b [Eb En]].
    unfold hash in En. destruct (H (x03 :: a ++ b)) as [h0|] eqn:Q; [|discriminate En]. injection En as ->.
    destruct t as [|k c'|tl tr]; cbn in Et.
    + injection Et as <-. right. eapply hash_zero. exact Q.
    + destruct (hash_inj _ _ _ Q Et) as [E|B]; [discriminate E|auto].
    + destruct (thash H hs tl) as [a'|] eqn:Ta; [|discriminate Et]. destruct (thash H hs tr) as [b'|] eqn:Tb; [|discriminate Et].
      destruct (hash_inj _ _ _ Q Et) as [E|B]; [|auto]. injection E as E.
      apply app_eq_length_inv in E; [|rewrite (nodeHash_len' l a Pl Ea), (thash_len' tl a' Ta); reflexivity]. destruct E as [-> ->].
      cbn [leaves] in W. apply Forall_app in W. destruct W as [Wl Wr]. destruct C as [Cl [Cr _]].
      destruct (IHl tl (p ++ [false]) _ a' Pl Wl Cl Ea Ta) as [Rl|B]; [|auto].
      destruct (IHr tr (p ++ [true]) _ b' Pr Wr Cr Eb Tb) as [Rr|B]; [|auto].
      left. constructor; auto; intros; discriminate.
  - injection En as <-. left. constructor. split; [exact Et|exact I].
Qed.

End Sound.

Lemma Rep_term H hs X n : forall p t k x dd, (Rep H hs X p n t) -> Canon hs p t -> List.length k = hs ->
  term n (skipn (List.length p) (bits k)) (List.length p) = Some (x, dd) -> notExt x ->
  tsearch t k (skipn (List.length p) (bits k)) (List.length p) =
    match x with
    | Leaf v c => if bytes_eqb k v then (Inc dd, Some c) else (NonLeaf v c dd, None)
    | _ => (NonPar dd, None)
    end.
Proof.
  induction n as [|v c|l IHl r IHr hh id|hh i]; intros p t k x dd R C Lk E N.
  - inversion R; subst. cbn in E. injection E as <- <-. reflexivity.
  - inversion R; subst. cbn in E. injection E as <- <-. reflexivity.
  - inversion R as [| |? ? ? ? ? tl tr Rl Rr _ _|]; subst. pose proof (Canon_TN_depth _ _ _ _ C) as L. destruct C as [Cl [Cr _]].
    rewrite skipn_bit in * by lia. cbn [term tsearch] in *.
    assert (Ls : forall b, List.length (p ++ [b]) = S (List.length p)) by (intro; rewrite app_length; cbn; lia).
    destruct (bitAt k (List.length p)).
    + rewrite <- (Ls true) in *. eapply IHr; eauto.
    + rewrite <- (Ls false) in *. eapply IHl; eauto.
  - cbn in E. injection E as <- <-. destruct N.
Qed.
