(** Lemmas: a mutation writes tiles from which the new version, and all old ones, can be read. *)
From Verif Require Import Base BaseProofs LogTreeSpec PrefixModel PrefixSpec PrefixProofs PrefixUpdateProofs
  PrefixCodecProofs PrefixStoreProofs PrefixTileProofs PrefixBuildProofs.
From Coq Require Import Sorting.Permutation Sorting.Sorted.

(** ** The size of the tree held in memory *)

Lemma splitAt_len {A} (key : A -> bytes) l d a b : splitAt key l d = Ok (a, b) -> (List.length a + List.length b = List.length l)%nat.
Proof.
  unfold splitAt. intros E. apply bind_ok in E. destruct E as [k [_ E]].
  assert (F : forall x y z w : list A, Ok (x, y) = Ok (z, w) -> x = z /\ y = w) by (intros; split; congruence).
  apply F in E. destruct E as [<- <-]. rewrite <- app_length, firstn_skipn. reflexivity.
Qed.

Lemma simplify_count l r : (nodeCount (simplify l r) <= 1 + nodeCount l + nodeCount r)%nat.
Proof.
  unfold simplify. destruct (isLeafN l && isEmptyN r); [lia|]. destruct (isEmptyN l && isLeafN r); [lia|].
  destruct (isEmptyN l && isEmptyN r); cbn; lia.
Qed.

Lemma count_arith (f A R a b c e x y z : nat) : (a + b = A -> c + e = R -> 1 <= A + R -> x <= 2 * f * (a + c) + 1 ->
  y <= 2 * f * (b + e) + 1 -> z <= 1 + x + y -> z <= 2 * S f * (A + R) + 1)%nat.
Proof. intros <- <- L X Y Z. nia. Qed.

Lemma addRemove_count H hs f : forall n add rem d n', addRemove H hs f n add rem d = Ok n' ->
  (nodeCount n' <= 2 * f * (List.length add + List.length rem) + 1)%nat.
Proof.
    induction f as [|f IH]; intros n add rem d n' E; [discriminate E|]. rewrite addRemove_S in E.
    assert (PS : forall l r add rem, (1 <= List.length add + List.length rem)%nat -> parentStep H hs f l r add rem d = Ok n' ->
       (nodeCount n' <= 2 * S f * (List.length add + List.length rem) + 1)%nat).
    { clear E. intros l r add' rem' L E. unfold parentStep in E.
      apply bind_ok in E. destruct E as [[la ra] [E1 E]]. apply bind_ok in E. destruct E as [[lr rr] [E2 E]].
      apply bind_ok in E. destruct E as [l' [El E]]. apply bind_ok in E. destruct E as [r' [Er E]]. injection E as <-.
      apply splitAt_len in E1. apply splitAt_len in E2. apply IH in El. apply IH in Er.
      pose proof (simplify_count l' r'). exact (count_arith _ _ _ _ _ _ _ _ _ _ E1 E2 L El Er H0). }
    assert (ES : forall add, emptyStep H hs f add d = Ok n' -> (nodeCount n' <= 2 * S f * List.length add + 1)%nat).
    { clear E add rem. intros add E. destruct add as [|e1 [|e2 add]]; cbn [emptyStep] in E.
      - injection E as <-. cbn. lia.
      - injection E as <-. cbn. lia.
      - apply PS in E; [|cbn; lia]. cbn [List.length] in *. lia. }
    assert (NE : (1 <= List.length add + List.length rem)%nat -> match n with
       | Empty => emptyStep H hs f add d
       | Leaf v c => if existsb (bytes_eqb v) rem then emptyStep H hs f add d
          else match add with [] => Ok n | _ => let* b := getBit v d in if b then parentStep H hs f Empty (Leaf v c) add [] d else parentStep H hs f (Leaf v c) Empty add [] d end
       | Parent l r _ _ => parentStep H hs f l r add rem d
       | External _ _ => Panic "unexpected node type found" end = Ok n' -> (nodeCount n' <= 2 * S f * (List.length add + List.length rem) + 1)%nat).
    { clear E. intros L E. destruct n as [|v c|l r h id|h i].
      - apply ES in E. nia.
      - destruct (existsb (bytes_eqb v) rem); [apply ES in E; nia|].
        destruct add as [|e add]; [injection E as <-; cbn; lia|]. apply bind_ok in E. destruct E as [b [_ E]].
        destruct b; (apply PS in E; [cbn [List.length] in *; nia|cbn; lia]).
      - apply PS in E; auto.
      - discriminate E. }
    destruct add as [|e add]; [destruct rem as [|k rem]|]; try (apply NE; [cbn; lia|exact E]).
    destruct n as [|v c|l r h id|h i]; try (injection E as <-; cbn; lia).
    apply bind_ok in E. destruct E as [hp [_ E]]. destruct id; [|discriminate E]. injection E as <-. cbn. lia.
Qed.

Lemma addRemove_notExt H hs f n add rem d n' : (1 <= List.length add + List.length rem)%nat ->
  addRemove H hs f n add rem d = Ok n' -> notExt n'.
Proof.
  assert (SM : forall l r, notExt (simplify l r)).
  { intros l r. unfold simplify. destruct l, r; cbn; exact I. }
  destruct f as [|f]; [discriminate|]. rewrite addRemove_S. intros L E.
  assert (PS : forall l r add rem, parentStep H hs f l r add rem d = Ok n' -> notExt n').
  { clear E. intros l r add' rem' E. unfold parentStep in E.
    apply bind_ok in E. destruct E as [[la ra] [E1 E]]. apply bind_ok in E. destruct E as [[lr rr] [E2 E]].
    apply bind_ok in E. destruct E as [l' [El E]]. apply bind_ok in E. destruct E as [r' [Er E]]. injection E as <-. apply SM. }
  assert (ES : forall add, emptyStep H hs f add d = Ok n' -> notExt n').
  { clear E L add rem. intros add E. destruct add as [|e1 [|e2 add]]; cbn [emptyStep] in E; try (injection E as <-; exact I).
    apply PS in E. exact E. }
  assert (NE : match n with
     | Empty => emptyStep H hs f add d
     | Leaf v c => if existsb (bytes_eqb v) rem then emptyStep H hs f add d
        else match add with [] => Ok n | _ => let* b := getBit v d in if b then parentStep H hs f Empty (Leaf v c) add [] d else parentStep H hs f (Leaf v c) Empty add [] d end
     | Parent l r _ _ => parentStep H hs f l r add rem d
     | External _ _ => Panic "unexpected node type found" end = Ok n' -> notExt n').
  { clear E. intros E. destruct n as [|v c|l r h id|h i].
    - eauto.
    - destruct (existsb (bytes_eqb v) rem); [eauto|].
      destruct add as [|e add]; [injection E as <-; exact I|]. apply bind_ok in E. destruct E as [b [_ E]].
      destruct b; eauto.
    - eauto.
    - discriminate E. }
  destruct add as [|e add]; [destruct rem as [|k rem]|]; try (apply NE; exact E). cbn in L. lia.
Qed.

(** ** Writing tiles *)

Lemma idEqb_eq a b : idEqb a b = true <-> a = b.
Proof. destruct a, b. unfold idEqb. cbn. rewrite andb_true_iff, !N.eqb_eq. split; [intros [-> ->]; reflexivity|intros E; injection E; auto]. Qed.

Lemma storeTiles_ok H hs (tiles : list (tileId * nat * node)) : forall s,
  (forall id d n, In (id, d, n) tiles -> exists raw, tileMarshal H hs d n = Ok raw) ->
  NoDup (map (fun t => fst (fst t)) tiles) ->
  exists s', foldM (fun s '(id, d, r) => let* raw := tileMarshal H hs d r in Ok ((id, raw) :: s)) tiles s = Ok s' /\
    (forall id d n, In (id, d, n) tiles -> exists raw, tileMarshal H hs d n = Ok raw /\ sget s' id = Some raw) /\
    (forall id, ~ In id (map (fun t => fst (fst t)) tiles) -> sget s' id = sget s id).
Proof.
  induction tiles as [|[[id d] n] tiles IH]; intros s M ND.
  - exists s. split; [reflexivity|]. split; [intros ? ? ? []|reflexivity].
  - destruct (M id d n (or_introl eq_refl)) as [raw R]. cbn [map] in ND. inversion ND as [|? ? N1 N2]; subst. cbn [fst] in N1.
    destruct (IH ((id, raw) :: s)) as [s' [E [A B]]]; [intros; eapply M; right; eassumption|exact N2|].
    exists s'. split; [cbn [foldM]; rewrite R; cbn [bind]; exact E|]. split.
    + intros id' d' n' [F|I].
      * injection F as <- <- <-. exists raw. split; [exact R|]. rewrite (B id N1). cbn [sget].
        replace (idEqb id id) with true by (symmetry; apply idEqb_eq; reflexivity). reflexivity.
      * apply (A id' d' n' I).
    + intros id' NI. cbn [map fst In] in NI. rewrite B by tauto. cbn [sget].
      destruct (idEqb id' id) eqn:Q; [apply idEqb_eq in Q; subst; tauto|reflexivity].
Qed.

Lemma nth_error_ext' {A} : forall a b : list A, (forall k, nth_error a k = nth_error b k) -> a = b.
Proof.
  induction a as [|x a IH]; intros [|y b] E; auto.
  - specialize (E 0%nat). discriminate E.
  - specialize (E 0%nat). discriminate E.
  - pose proof (E 0%nat) as E0. injection E0 as <-. f_equal. apply IH. intro k. apply (E (S k)).
Qed.

Section Mutate.
Variable H : bytes -> option bytes.
Variable hs : nat.
Hypothesis Hsized : forall x h, H x = Some h -> List.length h = hs.
Hypothesis Htot : total H.
Hypothesis Hsmall : (hs <= 32)%nat.

Lemma nodeMarshal_total n : forall d, exists b, nodeMarshal H hs d n = Ok b.
Proof.
  induction n as [|v c|l IHl r IHr h id|h i]; intros d; cbn [nodeMarshal]; eauto.
  destruct (IHl (S d)) as [a Ea]. destruct (IHr (S d)) as [b Eb]. rewrite Ea, Eb. cbn [bind].
  destruct (storeIntermediate d); cbn [bind]; eauto.
  destruct (nodeHash_total H hs Htot (Parent l r h id)) as [x ->]. cbn [bind]. eauto.
Qed.

Lemma Cut_wf Pm d m n : Cut H hs Pm d m n -> (forall i d m, Pm i d m -> fst i < two64 /\ snd i < two64) -> wfNode hs m -> wfNode hs n.
Proof.
  intros C B. induction C as [d m _|d l r l' r' h id _ IHl _ IHr|d l r h id hp i E P]; intros W; auto.
  - destruct W as [W1 [W2 W3]]. split; [auto|]. split; [auto|]. exact W3.
  - cbn. split; [|apply (B _ _ _ P)]. apply (nodeHash_len H hs Hsized _ _ W E).
Qed.

Definition Qs (s : store) (m : node) (d : nat) : Prop :=
  exists p t, List.length p = d /\ Canon hs p t /\ Sees H hs s t p m.

Lemma Qs_child s : forall p m x d, Qs s m d -> getAt m p = Some x -> Qs s x (d + List.length p).
Proof.
  induction p as [|b p IH]; intros m x d A G.
  - cbn. rewrite Nat.add_0_r. destruct m; injection G as <-; exact A.
  - destruct m as [|v c|l r h id|h i]; try discriminate G. cbn [getAt] in G. cbn [List.length]. rewrite Nat.add_succ_r, <- Nat.add_succ_l.
    apply (IH (if b then r else l)); [|exact G]. destruct A as [q [t [L [C S]]]].
    destruct t as [|k c|tl tr]; try discriminate S. apply Sees_parent in S. destruct S as [Sl [Sr _]]. destruct C as [Cl [Cr _]].
    exists (q ++ [b]), (if b then tr else tl). split; [rewrite app_length; cbn; lia|]. destruct b; auto.
Qed.

Section Phase2.
Variable s s' : store.
Variable v : N.
Variable tiles : list (tileId * nat * node).
Variable O : list (node * nat).
Hypothesis Hv : v < two64.
Hypothesis HO : N.of_nat (List.length O) < two64.
Hypothesis Hpar : forall k m d, nth_error O (S k) = Some (m, d) -> isPar m.
Hypothesis Htiles : forall k m d, nth_error O k = Some (m, d) ->
  exists n, nth_error tiles k = Some ((v, N.of_nat k), d, n) /\ Cut H hs (origPm v O) d m n /\ (isPar m -> isPar n) /\ Qs s m d.
Hypothesis Hfetch : forall k d n, nth_error tiles k = Some ((v, N.of_nat k), d, n) ->
  fetch hs s' (v, N.of_nat k) = Ok (d, norm H hs d (v, N.of_nat k) n) /\ N.of_nat k < two64.
Hypothesis Hmono : forall i x, fetch hs s i = Ok x -> fetch hs s' i = Ok x.

Lemma skipn_app_l {A} (d : nat) (p q : list A) : (d <= List.length p)%nat -> skipn d (p ++ q) = skipn d p ++ q.
Proof. intros L. rewrite skipn_app. replace (d - List.length p)%nat with 0%nat by lia. reflexivity. Qed.

Lemma getAt_app n : forall q r, getAt n (q ++ r) = match getAt n q with Some m => getAt m r | None => None end.
Proof.
  induction n as [|x c|l IHl rr IHr h id|h i]; intros [|b q] r; try reflexivity. cbn [app getAt]. destruct b; auto.
Qed.

Lemma tile_sees t : forall p m n k d N q,
  nth_error tiles k = Some ((v, N.of_nat k), d, N) -> getAt N q = Some n ->
  List.length p = (d + List.length q)%nat -> skipn d p = q -> Canon hs p t -> Sees H hs s t p m ->
  Cut H hs (origPm v O) (List.length p) m n -> Sees H hs s' t p (norm H hs (List.length p) (v, N.of_nat k) n).
Proof.
  induction t as [|kk c|tl IHl tr IHr]; intros p m n k d N q T G L Sk C S Cu.
  - cbn in S. subst m. inversion Cu; subst. reflexivity.
  - cbn in S. subst m. inversion Cu; subst. reflexivity.
  - pose proof C as [Cl [Cr _]].
    assert (Hh : forall hh, nodeHash H hs m = Ok hh -> thash H hs (TN tl tr) = Some hh).
    { intros hh E. destruct (total_thash H hs (TN tl tr) Htot) as [h0 E0]. rewrite (Sees_hash H hs Htot s _ _ _ _ S E0) in E. congruence. }
    assert (Ls : forall b, List.length (p ++ [b]) = Datatypes.S (List.length p)) by (intro; rewrite app_length; cbn; lia).
    (* a parent node in tile [k] *)
    assert (InTile : forall l r h id l' r' k d N q, m = Parent l r h id -> Cut H hs (origPm v O) (Datatypes.S (List.length p)) l l' ->
       Cut H hs (origPm v O) (Datatypes.S (List.length p)) r r' ->
       nth_error tiles k = Some ((v, N.of_nat k), d, N) -> getAt N q = Some (Parent l' r' h id) ->
       List.length p = (d + List.length q)%nat -> skipn d p = q ->
       Sees H hs s' tl (p ++ [false]) (norm H hs (Datatypes.S (List.length p)) (v, N.of_nat k) l') /\
       Sees H hs s' tr (p ++ [true]) (norm H hs (Datatypes.S (List.length p)) (v, N.of_nat k) r') /\
       (forall hh, (if storeIntermediate (List.length p) then okOpt (nodeHash H hs (Parent l' r' h id)) else None) = Some hh ->
          thash H hs (TN tl tr) = Some hh) /\
       Loc H hs s' tl tr p (v, N.of_nat k)).
    { clear n k d N q T G L Sk Cu. intros l r h id l' r' k d N q -> Cul Cur T G L Sk.
      apply Sees_parent in S. destruct S as [Sl [Sr [S3 S4]]].
      assert (Sl' : Sees H hs s' tl (p ++ [false]) (norm H hs (Datatypes.S (List.length p)) (v, N.of_nat k) l')).
      { rewrite <- (Ls false). apply (IHl (p ++ [false]) l l' k d N (q ++ [false])); auto.
        - rewrite getAt_app, G. destruct l'; reflexivity.
        - rewrite !app_length. cbn. lia.
        - rewrite skipn_app_l by lia. rewrite Sk. reflexivity.
        - rewrite Ls. exact Cul. }
      assert (Sr' : Sees H hs s' tr (p ++ [true]) (norm H hs (Datatypes.S (List.length p)) (v, N.of_nat k) r')).
      { rewrite <- (Ls true). apply (IHr (p ++ [true]) r r' k d N (q ++ [true])); auto.
        - rewrite getAt_app, G. destruct r'; reflexivity.
        - rewrite !app_length. cbn. lia.
        - rewrite skipn_app_l by lia. rewrite Sk. reflexivity.
        - rewrite Ls. exact Cur. }
      assert (Hc : forall hh, (if storeIntermediate (List.length p) then okOpt (nodeHash H hs (Parent l' r' h id)) else None) = Some hh ->
          thash H hs (TN tl tr) = Some hh).
      { intros hh E. apply Hh. rewrite <- (Cut_hash H hs (origPm v O) (List.length p) _ (Parent l' r' h id)) by (apply Cut_par; auto).
        destruct (storeIntermediate _); [|discriminate E]. destruct (nodeHash H hs (Parent l' r' h id)); try discriminate E. cbn in E. congruence. }
      split; [exact Sl'|]. split; [exact Sr'|]. split; [exact Hc|].
      destruct (Hfetch k d N T) as [F B].
      exists d, (norm H hs d (v, N.of_nat k) N), (norm H hs (Datatypes.S (List.length p)) (v, N.of_nat k) l'),
        (norm H hs (Datatypes.S (List.length p)) (v, N.of_nat k) r'),
        (if storeIntermediate (List.length p) then okOpt (nodeHash H hs (Parent l' r' h id)) else None).
      split; [exact F|]. split; [lia|]. split.
      { rewrite Sk, (norm_getAt H hs N q d _ _ G). rewrite <- L. reflexivity. }
      split; [exact Hv|]. split; [exact B|]. split; [apply norm_allIds|]. split; [apply norm_allIds|]. split; [exact Hc|]. auto. }
    destruct m as [|x c|l r h id|h i]; try contradiction.
    + inversion Cu as [? ? NP|? ? ? l' r' ? ? Cul Cur|? ? ? ? ? hp i E P]; subst.
      * exfalso. eapply NP. reflexivity.
      * destruct (InTile l r h id l' r' k d N (skipn d p) eq_refl Cul Cur T G L eq_refl) as [A1 [A2 [A3 A4]]].
        cbn [norm]. apply Sees_parent. split; [exact A1|]. split; [exact A2|]. split; [exact A3|].
        intros i Ei. injection Ei as <-. exact A4.
      * cbn [norm]. apply Sees_ext. split; [apply Hh; exact E|].
        destruct P as [k' [Nk' ->]]. destruct (Htiles _ _ _ Nk') as [N' [Nt [Cu' [Pa _]]]].
        specialize (Pa Logic.I). destruct N' as [|? ?|l' r' h' id'|? ?]; try contradiction.
        inversion Cu' as [? ? NP|? ? ? ? ? ? ? Cul Cur|]; subst; [exfalso; eapply NP; reflexivity|].
        apply (InTile l r h' id' l' r' k' (List.length p) (Parent l' r' h' id') [] eq_refl Cul Cur Nt eq_refl); [cbn; lia|apply skipn_all2; lia].
    + inversion Cu; subst. cbn [norm]. apply (Sees_mono H hs s s' Hmono). exact S.
Qed.

End Phase2.

Definition fresh (s : store) (ver : N) : Prop := forall id, sget s id <> None -> fst id <= ver.

Lemma storeNew s ver t root : fresh s ver -> ver + 1 < two64 -> Canon hs [] t -> Sees H hs s t [] root -> notExt root ->
  N.of_nat (nodeCount root) < two64 ->
  exists tiles s', splitIntoTiles H hs (ver + 1) root = Ok tiles /\
    foldM (fun s '(id, d, r) => let* raw := tileMarshal H hs d r in Ok ((id, raw) :: s)) tiles s = Ok s' /\
    Holds H hs s' (ver + 1) t /\ fresh s' (ver + 1) /\ (forall id raw, sget s id = Some raw -> sget s' id = Some raw).
Proof.
  intros Fr Hv C S NE Cnt.
  destruct (splitIntoTiles_ok H hs ltac:(lia) Htot (Qs s) (Qs_child s) (ver + 1) root Cnt) as [tiles [O [E1 [E2 [E3 [E4 [E5 E6]]]]]]].
  { exists [], t. auto. }
  set (v := ver + 1) in *.
  assert (ByIdx : forall id d n, In (id, d, n) tiles -> exists k m, nth_error O k = Some (m, d) /\ nth_error tiles k = Some ((v, N.of_nat k), d, n) /\
      id = (v, N.of_nat k) /\ Cut H hs (origPm v O) d m n /\ (isPar m -> isPar n) /\ Qs s m d).
  { intros id d n I. apply In_nth_error in I. destruct I as [k Nk].
    destruct (nth_error O k) as [[m d']|] eqn:Ok'.
    2:{ apply nth_error_None in Ok'. assert (nth_error tiles k <> None) by congruence. apply nth_error_Some in H0. lia. }
    destruct (E6 k m d' Ok') as [n' [Nt [Cu [Pa Qm]]]]. rewrite Nk in Nt. injection Nt as -> -> ->.
    exists k, m. repeat (split; [assumption || reflexivity|]). exact Qm. }
  assert (PmB : forall i d m, origPm v O i d m -> fst i < two64 /\ snd i < two64).
  { intros i d m [k [Nk ->]]. cbn. split; [exact Hv|]. assert (nth_error O k <> None) by congruence. apply nth_error_Some in H0. lia. }
  assert (Wf : forall id d n, In (id, d, n) tiles -> wfNode hs n /\ (d <= 255)%nat).
  { intros id d n I. destruct (ByIdx _ _ _ I) as [k [m [Nk [Nt [_ [Cu [_ [p [tm [Lp [Cm Sm]]]]]]]]]]]. split.
    - apply (Cut_wf _ _ _ _ Cu PmB). apply (Sees_wf H hs Hsized s tm p m Cm Sm).
    - destruct k as [|k].
      + rewrite E4 in Nk. injection Nk as <- <-. lia.
      + pose proof (E5 k m d Nk) as Pm. destruct m; try contradiction. destruct tm as [|? ?|tl tr]; try discriminate Sm.
        apply Canon_TN_depth in Cm. lia. }
  assert (IdsE : map (fun t => fst (fst t)) tiles = map (fun k => (v, N.of_nat k)) (seq 0 (List.length tiles))).
  { apply nth_error_ext'. intro k. rewrite !nth_error_map. destruct (Nat.lt_ge_cases k (List.length tiles)) as [L|L].
    - rewrite (nth_error_nth' (seq 0 (List.length tiles)) 0%nat) by (rewrite seq_length; exact L). rewrite seq_nth by exact L.
      destruct (nth_error O k) as [[m d]|] eqn:Nk; [|apply nth_error_None in Nk; lia].
      destruct (E6 k m d Nk) as [n [Nt _]]. rewrite Nt. reflexivity.
    - rewrite (proj2 (nth_error_None tiles k)) by lia. rewrite (proj2 (nth_error_None (seq 0 (List.length tiles)) k)); [reflexivity|rewrite seq_length; lia]. }
  destruct (storeTiles_ok H hs tiles s) as [s' [F [A B]]].
  { intros id d n I. destruct (Wf _ _ _ I) as [_ L]. unfold tileMarshal.
    replace (Nat.ltb 255 d) with false by (symmetry; apply Nat.ltb_ge; lia).
    destruct (nodeMarshal_total n d) as [b ->]. cbn [bind]. eauto. }
  { rewrite IdsE. apply FinFun.Injective_map_NoDup; [|apply seq_NoDup]. intros a b E. injection E as E. lia. }
  assert (New : forall id, In id (map (fun t => fst (fst t)) tiles) -> fst id = v).
  { intros id I. rewrite IdsE in I. apply in_map_iff in I. destruct I as [k [<- _]]. reflexivity. }
  assert (Sm : forall id raw, sget s id = Some raw -> sget s' id = Some raw).
  { intros id raw G. rewrite B; [exact G|]. intro I. apply New in I. assert (fst id <= ver) by (apply Fr; congruence). unfold v in I. lia. }
  assert (Fm : forall i x, fetch hs s i = Ok x -> fetch hs s' i = Ok x).
  { intros i x E. unfold fetch in *. apply bind_ok in E. destruct E as [raw [G E]].
    destruct (sget s i) as [raw'|] eqn:Gs; [|discriminate G]. rewrite (Sm _ _ Gs), G. exact E. }
  exists tiles, s'. split; [exact E1|]. split; [exact F|].
  assert (Hf : forall k d n, nth_error tiles k = Some ((v, N.of_nat k), d, n) ->
     fetch hs s' (v, N.of_nat k) = Ok (d, norm H hs d (v, N.of_nat k) n) /\ N.of_nat k < two64).
  { intros k d n Nt. pose proof (nth_error_In _ _ Nt) as I. destruct (A _ _ _ I) as [raw [M G]]. destruct (Wf _ _ _ I) as [W _].
    split.
    - unfold fetch. rewrite G. cbn [of_opt bind]. apply (tile_roundtrip H hs Hsized _ _ _ _ W M).
    - assert (nth_error tiles k <> None) by congruence. apply nth_error_Some in H0. lia. }
  split; [|split; [|exact Sm]].
  - destruct (E6 0%nat root 0%nat E4) as [n [Nt [Cu [Pa _]]]].
    exists (norm H hs 0 (v, 0) n). split; [apply (proj1 (Hf 0%nat 0%nat n Nt))|]. split.
    + apply (tile_sees s s' v tiles O Hv ltac:(lia) E5 E6 Hf Fm t [] root n 0%nat 0%nat n []); auto. destruct n; reflexivity.
    + split; [|apply norm_allIds]. destruct root as [|x c|l r h id|h i]; try contradiction; inversion Cu; subst; try exact I. exfalso. apply Pa. exact I.
  - intros id G. destruct (in_dec (fun a b => ltac:(destruct (idEqb a b) eqn:E; [left; apply idEqb_eq; exact E|right; intro X; apply idEqb_eq in X; congruence]) : {a = b} + {a <> b}) id (map (fun t => fst (fst t)) tiles)) as [I|NI].
    + apply New in I. rewrite I. unfold v. lia.
    + rewrite B in G by exact NI. apply Fr in G. unfold v. lia.
Qed.

End Mutate.
