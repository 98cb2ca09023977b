(** Proofs about the auditor: sizes of prefix tree roots, the list of recently inserted VRF outputs. *)
From Coq Require Import Sorted.
From Verif Require Import Base BaseProofs PrefixModel PrefixSpec LogTreeSpec CodecModel AuditorModel AuditorSpec.
Open Scope N_scope.

(** ** The roots an update leads to have the hash size *)

Section Sizes.
Variable f : bytes -> bytes.
Variable hs : nat.
Hypothesis Hf : forall x, List.length (f x) = hs.

Fixpoint noCache (n : node) : Prop :=
  match n with
  | Parent l r h _ => h = None /\ noCache l /\ noCache r
  | _ => True
  end.
Fixpoint sizedNode (n : node) : Prop :=
  match n with
  | Empty | Leaf _ _ => True
  | Parent l r h _ => sizedNode l /\ sizedNode r /\ match h with Some x => List.length x = hs | None => True end
  | External h _ => List.length h = hs
  end.

Lemma hash_full x : hash (full f) x = Ok (f x).
Proof. reflexivity. Qed.

Lemma nodeHash_sized n h : sizedNode n -> nodeHash (full f) hs n = Ok h -> List.length h = hs.
Proof.
  destruct n as [|v c|l r [x|] id|x id]; cbn [sizedNode nodeHash]; intros S E.
  - injection E as <-. apply repeat_length.
  - rewrite hash_full in E. injection E as <-. apply Hf.
  - injection E as <-. tauto.
  - destruct (nodeHash (full f) hs l); try discriminate. cbn [bind] in E. destruct (nodeHash (full f) hs r); try discriminate. cbn [bind] in E.
    rewrite hash_full in E. injection E as <-. apply Hf.
  - injection E as <-. exact S.
Qed.

Lemma skeleton_noCache fuel : forall n e r d n', noCache n -> addToSkeleton fuel n e r d = Ok n' -> noCache n'.
Proof.
  induction fuel as [|fuel IH]; intros n e r d n' C E; [discriminate|]. cbn [addToSkeleton] in E. destruct n as [|v c|l rt h id|x id].
  - destruct (_ || _); [discriminate|]. injection E as <-. exact I.
  - destruct (_ || _); [discriminate|]. injection E as <-. exact I.
  - cbn [noCache] in C. destruct C as (-> & Cl & Cr). destruct (getBit (fst e) d) as [b| | |]; try discriminate. cbn [bind] in E. destruct b.
    + destruct (addToSkeleton fuel rt e r (S d)) as [rt'| | |] eqn:Er; try discriminate. cbn [bind] in E. injection E as <-. cbn. eauto.
    + destruct (addToSkeleton fuel l e r (S d)) as [l'| | |] eqn:El; try discriminate. cbn [bind] in E. injection E as <-. cbn. eauto.
  - destruct (Nat.ltb _ _); [discriminate|]. destruct (Nat.eqb _ _); [injection E as <-; destruct r; exact I|].
    destruct (getBit (fst e) d) as [b| | |]; try discriminate. cbn [bind] in E. destruct b.
    + destruct (addToSkeleton fuel (External [] noId) e r (S d)) as [rt'| | |] eqn:Er; try discriminate. cbn [bind] in E. injection E as <-.
      cbn. split; [reflexivity|]. split; [exact I|]. eapply IH; [|exact Er]. exact I.
    + destruct (addToSkeleton fuel (External [] noId) e r (S d)) as [l'| | |] eqn:El; try discriminate. cbn [bind] in E. injection E as <-.
      cbn. split; [reflexivity|]. split; [|exact I]. eapply IH; [|exact El]. exact I.
Qed.

Lemma fill_sized : forall n es n' rest, noCache n -> Forall (fun e : bytes => List.length e = hs) es -> fillInCopath n es = Ok (n', rest) ->
  sizedNode n' /\ Forall (fun e : bytes => List.length e = hs) rest.
Proof.
  induction n as [|v c|l IHl r IHr h id|x id]; intros es n' rest C F E; cbn [fillInCopath] in E.
  - injection E as <- <-. auto.
  - injection E as <- <-. auto.
  - cbn [noCache] in C. destruct C as (-> & Cl & Cr). destruct (fillInCopath l es) as [[l' es1]| | |] eqn:El; try discriminate. cbn [bind] in E.
    destruct (fillInCopath r es1) as [[r' es2]| | |] eqn:Er; try discriminate. cbn [bind] in E. injection E as <- <-.
    destruct (IHl _ _ _ Cl F El) as [Sl F1]. destruct (IHr _ _ _ Cr F1 Er) as [Sr F2]. cbn. auto.
  - destruct es as [|e t]; [discriminate|]. injection E as <- <-. inversion F; subst. auto.
Qed.

Lemma foldM_inv {A B} (P : B -> Prop) (g : B -> A -> res B) : (forall b a b', P b -> g b a = Ok b' -> P b') ->
  forall l b b', P b -> foldM g l b = Ok b' -> P b'.
Proof.
  intro Hg. induction l as [|a l IH]; intros b b' Hb E; cbn [foldM] in E; [injection E as <-; exact Hb|].
  destruct (g b a) as [b1| | |] eqn:G; try discriminate. cbn [bind] in E. eapply IH; [|exact E]. eapply Hg; eauto.
Qed.

Lemma evaluate_sized entries p n : Forall (fun e : bytes => List.length e = hs) (p_elements p) -> evaluate hs entries p = Ok n -> sizedNode n.
Proof.
  intros F E. unfold evaluate in E. destruct (existsb _ _); [discriminate|]. destruct (existsb _ _); [discriminate|].
  destruct (dupAdjacent _); [discriminate|]. destruct (negb _); [discriminate|].
  destruct (foldM _ _ _) as [root| | |] eqn:R; try discriminate. cbn [bind] in E.
  destruct (fillInCopath root (p_elements p)) as [[root' rest]| | |] eqn:Fi; try discriminate. cbn [bind] in E.
  destruct rest; [|discriminate]. injection E as <-. eapply fill_sized; [|exact F|exact Fi].
  refine (foldM_inv noCache _ _ _ _ _ _ R); [|exact I]. intros b a b' Hb G. eapply skeleton_noCache; eauto.
Qed.

Lemma cacheHashes_sized : forall n n', sizedNode n -> cacheHashes (full f) hs n = Ok n' -> sizedNode n'.
Proof.
  induction n as [|v c|l IHl r IHr h id|x id]; intros n' S E; cbn [cacheHashes] in E; try (injection E as <-; exact S).
  destruct h as [x|]; [injection E as <-; exact S|]. cbn [sizedNode] in S. destruct S as (Sl & Sr & _).
  destruct (cacheHashes (full f) hs l) as [l'| | |] eqn:El; try discriminate. cbn [bind] in E.
  destruct (cacheHashes (full f) hs r) as [r'| | |] eqn:Er; try discriminate. cbn [bind] in E.
  destruct (nodeHash (full f) hs (Parent l' r' None id)) as [h| | |] eqn:Eh; try discriminate. cbn [bind] in E. injection E as <-.
  specialize (IHl _ Sl eq_refl). specialize (IHr _ Sr eq_refl). cbn [sizedNode]. split; [exact IHl|]. split; [exact IHr|].
  eapply nodeHash_sized; [|exact Eh]. cbn. auto.
Qed.

Lemma simplify_sized l r : sizedNode l -> sizedNode r -> sizedNode (simplify l r).
Proof. intros Sl Sr. unfold simplify. destruct (_ && _); [exact Sl|]. destruct (_ && _); [exact Sr|]. destruct (_ && _); cbn; auto. Qed.

Lemma addRemove_sized fuel : forall n add rem d n', sizedNode n -> addRemove (full f) hs fuel n add rem d = Ok n' -> sizedNode n'.
Proof.
  induction fuel as [|fuel IH]; intros n add rem d n' S E; [discriminate|]. cbn [addRemove] in E.
  assert (P : forall l r add rem n', sizedNode l -> sizedNode r ->
    (let* (la, ra) := splitAt fst add d in let* (lr, rr) := splitAt (fun x => x) rem d in
     let* l' := addRemove (full f) hs fuel l la lr (Datatypes.S d) in let* r' := addRemove (full f) hs fuel r ra rr (Datatypes.S d) in Ok (simplify l' r')) = Ok n' -> sizedNode n').
  { clear E S. intros l r add0 rem0 m Sl Sr E. destruct (splitAt fst add0 d) as [[la ra]| | |]; try discriminate. cbn [bind] in E.
    destruct (splitAt (fun x => x) rem0 d) as [[lr rr]| | |]; try discriminate. cbn [bind] in E.
    destruct (addRemove _ _ _ l _ _ _) as [l'| | |] eqn:El; try discriminate. cbn [bind] in E.
    destruct (addRemove _ _ _ r _ _ _) as [r'| | |] eqn:Er; try discriminate. cbn [bind] in E. injection E as <-.
    apply simplify_sized; eauto. }
  assert (Q : forall add n', match add with [] => Ok Empty | [e] => Ok (Leaf (fst e) (snd e)) | _ =>
     (let* (la, ra) := splitAt fst add d in let* (lr, rr) := splitAt (fun x => x) [] d in
     let* l' := addRemove (full f) hs fuel Empty la lr (Datatypes.S d) in let* r' := addRemove (full f) hs fuel Empty ra rr (Datatypes.S d) in Ok (simplify l' r')) end = Ok n' -> sizedNode n').
  { clear E. intros [|e [|e' t]] m E; [injection E as <-; exact I|injection E as <-; exact I|]. eapply (P Empty Empty); [exact I|exact I|exact E]. }
  assert (R : forall add rem n', (match n with
          | Empty => match add with [] => Ok Empty | [e] => Ok (Leaf (fst e) (snd e)) | _ =>
     (let* (la, ra) := splitAt fst add d in let* (lr, rr) := splitAt (fun x => x) [] d in
     let* l' := addRemove (full f) hs fuel Empty la lr (Datatypes.S d) in let* r' := addRemove (full f) hs fuel Empty ra rr (Datatypes.S d) in Ok (simplify l' r')) end
          | Leaf v c =>
              if existsb (bytes_eqb v) rem then match add with [] => Ok Empty | [e] => Ok (Leaf (fst e) (snd e)) | _ =>
     (let* (la, ra) := splitAt fst add d in let* (lr, rr) := splitAt (fun x => x) [] d in
     let* l' := addRemove (full f) hs fuel Empty la lr (Datatypes.S d) in let* r' := addRemove (full f) hs fuel Empty ra rr (Datatypes.S d) in Ok (simplify l' r')) end
              else match add with
                   | [] => Ok n
                   | _ =>
                       let* b := getBit v d in
                       if b then (let* (la, ra) := splitAt fst add d in let* (lr, rr) := splitAt (fun x => x) [] d in
     let* l' := addRemove (full f) hs fuel Empty la lr (Datatypes.S d) in let* r' := addRemove (full f) hs fuel (Leaf v c) ra rr (Datatypes.S d) in Ok (simplify l' r'))
                       else (let* (la, ra) := splitAt fst add d in let* (lr, rr) := splitAt (fun x => x) [] d in
     let* l' := addRemove (full f) hs fuel (Leaf v c) la lr (Datatypes.S d) in let* r' := addRemove (full f) hs fuel Empty ra rr (Datatypes.S d) in Ok (simplify l' r'))
                   end
          | Parent l r _ _ => (let* (la, ra) := splitAt fst add d in let* (lr, rr) := splitAt (fun x => x) rem d in
     let* l' := addRemove (full f) hs fuel l la lr (Datatypes.S d) in let* r' := addRemove (full f) hs fuel r ra rr (Datatypes.S d) in Ok (simplify l' r'))
          | External _ _ => Panic "unexpected node type found"
          end) = Ok n' -> sizedNode n').
  { clear E. intros add0 rem0 m E. destruct n as [|v c|l r h id|x id].
    - eapply Q; exact E.
    - destruct (existsb _ _); [eapply Q; exact E|]. destruct add0 as [|e t]; [injection E as <-; exact I|].
      destruct (getBit v d) as [b| | |]; try discriminate. cbn [bind] in E. destruct b; eapply P in E; auto; exact I.
    - cbn [sizedNode] in S. eapply P; [| |exact E]; tauto.
    - discriminate. }
  destruct add as [|a0 add]; [destruct rem as [|r0 rem]|]; [|exact (R _ _ _ E)|exact (R _ _ _ E)].
  destruct n as [|v c|l r h id|x id]; try (injection E as <-; exact S).
  destruct (nodeHash (full f) hs (Parent l r h id)) as [hp| | |] eqn:Eh; try discriminate. cbn [bind] in E.
  destruct id as [i|]; [|discriminate]. injection E as <-. cbn. eapply nodeHash_sized; [exact S|exact Eh].
Qed.

Lemma beforeAfter_sized add rem p before after : Forall (fun e : bytes => List.length e = hs) (p_elements p) ->
  EvaluateBeforeAfter (full f) hs add rem p = Ok (before, after) -> List.length before = hs /\ List.length after = hs.
Proof.
  intros F E. unfold EvaluateBeforeAfter in E. destruct (evaluate hs (add ++ rem) p) as [root| | |] eqn:Ev; try discriminate. cbn [bind] in E.
  apply (evaluate_sized _ _ _ F) in Ev. destruct (nodeHash (full f) hs root) as [b| | |] eqn:Eb; try discriminate. cbn [bind] in E.
  destruct (cacheHashes (full f) hs root) as [root1| | |] eqn:Ec; try discriminate. cbn [bind] in E.
  destruct (addRemove _ _ _ _ _ _ _) as [root2| | |] eqn:Ea; try discriminate. cbn [bind] in E.
  destruct (nodeHash (full f) hs root2) as [a| | |] eqn:Eh; try discriminate. cbn [bind] in E. injection E as <- <-.
  split; [eapply nodeHash_sized; eauto|]. eapply nodeHash_sized; [|exact Eh]. eapply addRemove_sized; [|exact Ea]. eapply cacheHashes_sized; eauto.
Qed.

(** The keys of an evaluated update have the hash size. *)
Lemma beforeAfter_keys add rem p r : EvaluateBeforeAfter (full f) hs add rem p = Ok r -> Forall (fun e : bytes * bytes => List.length (fst e) = hs) (add ++ rem).
Proof.
  intro E. unfold EvaluateBeforeAfter, evaluate in E.
  destruct (existsb (fun e => badLen hs (fst e)) (ksort fst (add ++ rem))) eqn:Ex; [discriminate|]. apply Forall_forall. intros e Ie.
  destruct (Nat.eqb (List.length (fst e)) hs) eqn:Q; [now apply Nat.eqb_eq|].
  assert (existsb (fun e => badLen hs (fst e)) (ksort fst (add ++ rem)) = true); [|congruence].
  apply existsb_exists. exists e. split; [|unfold badLen; rewrite Q; reflexivity].
  assert (K : forall (l : list entry), In e l -> In e (ksort fst l)).
  { assert (J : forall x (l : list entry), In e (kinsert fst x l) <-> e = x \/ In e l).
    { intros x. induction l as [|y t IH]; cbn; [intuition|]. destruct (bytes_cmp _ _); cbn; rewrite ?IH; intuition. }
    induction l as [|y t IH]; [intros []|]. intros [<-|Hy]; cbn; apply J; [now left|right; auto]. }
  apply K. exact Ie.
Qed.
End Sizes.

(** ** Recently inserted VRF outputs *)

Definition before (a b : N * bytes) : Prop := bytes_cmp (snd a) (snd b) = Lt.
Definition sortedIns (l : list (N * bytes)) : Prop := StronglySorted before l.

Lemma before_trans a b c : before a b -> before b c -> before a c.
Proof. unfold before. apply bytes_cmp_lt_trans. Qed.
Lemma cmp_gt_lt a b : bytes_cmp a b = Gt -> bytes_cmp b a = Lt.
Proof. intro E. rewrite bytes_cmp_antisym, E. reflexivity. Qed.
Lemma cmp_lt_neq a b : bytes_cmp a b = Lt -> a <> b.
Proof. intros E ->. rewrite bytes_cmp_refl in E. discriminate. Qed.

Lemma sorted_nth l : sortedIns l -> forall i j a b, (i < j)%nat -> nth_error l i = Some a -> nth_error l j = Some b -> before a b.
Proof.
  induction 1 as [|x l S IH F]; intros i j a b Hij Ea Eb; [destruct i; discriminate|].
  destruct j as [|j]; [lia|]. cbn in Eb. destruct i as [|i]; cbn in Ea.
  - injection Ea as <-. apply nth_error_In in Eb. exact (proj1 (Forall_forall _ _) F _ Eb).
  - eapply IH; [|exact Ea|exact Eb]. lia.
Qed.

Lemma search_spec l target : sortedIns l -> forall fuel i j, (j <= List.length l)%nat -> (i <= j)%nat -> (j - i < fuel)%nat ->
  (forall k e, (k < i)%nat -> nth_error l k = Some e -> bytes_cmp (snd e) target = Lt) ->
  (forall k e, (j <= k)%nat -> nth_error l k = Some e -> bytes_cmp (snd e) target <> Lt) ->
  exists k, searchInserted fuel l target i j = Ok k /\
    (forall x e, (x < k)%nat -> nth_error l x = Some e -> bytes_cmp (snd e) target = Lt) /\
    (forall x e, (k <= x)%nat -> nth_error l x = Some e -> bytes_cmp (snd e) target <> Lt).
Proof.
  intro S. induction fuel as [|fuel IH]; intros i j Hj Hij Hf Lo Hi; [lia|]. cbn [searchInserted].
  destruct (Nat.ltb_spec i j) as [Q|Q]; [|exists i; split; [reflexivity|]; split; [exact Lo|]; intros x e Hx; apply Hi; lia].
  assert (Hd : (i <= Nat.div2 (i + j) < j)%nat).
  { pose proof (Nat.div2_double i). pose proof (Nat.div2_double j). rewrite !Nat.div2_div in *. split; [apply Nat.div_le_lower_bound; lia|apply Nat.div_lt_upper_bound; lia]. }
  set (h := Nat.div2 (i + j)) in *. destruct (nth_error l h) as [e|] eqn:Eh; [|apply nth_error_None in Eh; lia].
  destruct (bytes_cmp (snd e) target) eqn:C.
  - apply IH; try lia; [exact Lo|]. intros x e' Hx Ee. destruct (Nat.eq_dec x h) as [->|Nx]; [congruence|].
    pose proof (sorted_nth l S h x e e' ltac:(lia) Eh Ee) as B. unfold before in B. apply bytes_cmp_eq in C. rewrite C in B. intro X. pose proof (bytes_cmp_lt_trans _ _ _ B X) as Y. rewrite bytes_cmp_refl in Y. discriminate.
  - apply IH; try lia; [|exact Hi]. intros x e' Hx Ee. destruct (Nat.eq_dec x h) as [->|Nx]; [congruence|].
    pose proof (sorted_nth l S x h e' e ltac:(lia) Ee Eh) as B. exact (bytes_cmp_lt_trans _ _ _ B C).
  - apply IH; try lia; [exact Lo|]. intros x e' Hx Ee. destruct (Nat.eq_dec x h) as [->|Nx]; [congruence|].
    pose proof (sorted_nth l S h x e e' ltac:(lia) Eh Ee) as B. unfold before in B. apply cmp_gt_lt in C. intro X.
    pose proof (bytes_cmp_lt_trans _ _ _ (bytes_cmp_lt_trans _ _ _ C B) X) as Y. rewrite bytes_cmp_refl in Y. discriminate.
Qed.

Lemma addedSince_spec s x v : sortedIns (as_inserted s) ->
  exists b, addedSince (Some s) x v = Ok b /\ (b = true <-> exists p, In (p, v) (as_inserted s) /\ x < p).
Proof.
  intro S. unfold addedSince. set (l := as_inserted s) in *.
  destruct (search_spec l v S (Datatypes.S (List.length l)) 0 (List.length l)) as (k & -> & Lo & Hi); try lia.
  { intros k e Hk Ek. assert (k < List.length l)%nat by (apply nth_error_Some; congruence). lia. }
  cbn [bind].
  assert (U : forall p, In (p, v) l -> nth_error l k = Some (p, v)).
  { intros p Ip. apply In_nth_error in Ip. destruct Ip as (j & Ej).
    destruct (Nat.lt_trichotomy j k) as [Q|[->|Q]]; [|exact Ej|].
    - specialize (Lo _ _ Q Ej). cbn in Lo. rewrite bytes_cmp_refl in Lo. discriminate.
    - destruct (nth_error l k) as [e|] eqn:Ek.
      + pose proof (sorted_nth l S k j _ _ Q Ek Ej) as B. specialize (Hi k e (Nat.le_refl k) Ek). contradiction.
      + apply nth_error_None in Ek. assert (j < List.length l)%nat by (apply nth_error_Some; congruence). lia. }
  destruct (nth_error l k) as [[p w]|] eqn:Ek.
  - cbn [snd fst]. destruct (bytes_cmp w v) eqn:C.
    + apply bytes_cmp_eq in C. subst w. eexists. split; [reflexivity|]. rewrite N.ltb_lt. split.
      * intro Q. exists p. split; [|exact Q]. eapply nth_error_In; exact Ek.
      * intros (p' & Ip & Q). apply U in Ip. congruence.
    + exists false. split; [reflexivity|]. split; [discriminate|]. intros (p' & Ip & Q). apply U in Ip. injection Ip as -> ->. rewrite bytes_cmp_refl in C. discriminate.
    + exists false. split; [reflexivity|]. split; [discriminate|]. intros (p' & Ip & Q). apply U in Ip. injection Ip as -> ->. rewrite bytes_cmp_refl in C. discriminate.
  - exists false. split; [reflexivity|]. split; [discriminate|]. intros (p' & Ip & Q). apply U in Ip. discriminate.
Qed.

Lemma merge_nil added r : mergeInserted [] added r = filter (keep r) added.
Proof. destruct added; reflexivity. Qed.

Lemma merge_cons e ex added r : mergeInserted (e :: ex) added r =
  match added with
  | [] => filter (keep r) (e :: ex)
  | a :: added' =>
      if negb (keep r e) then mergeInserted ex added r else
      if negb (keep r a) then mergeInserted (e :: ex) added' r else
      match bytes_cmp (snd e) (snd a) with
      | Lt => e :: mergeInserted ex added r
      | Eq => a :: mergeInserted ex added' r
      | Gt => a :: mergeInserted (e :: ex) added' r
      end
  end.
Proof. destruct added; reflexivity. Qed.

Lemma filter_sortedIns p l : sortedIns l -> sortedIns (filter p l).
Proof.
  induction 1 as [|x l S IH F]; cbn; [constructor|]. destruct (p x); [|exact IH]. constructor; [exact IH|].
  apply Forall_forall. intros y Iy. apply filter_In in Iy. exact (proj1 (Forall_forall _ _) F _ (proj1 Iy)).
Qed.

(** The merged list is sorted, and holds the new outputs and, unless replaced, the old ones, as far as they are after [r]. *)
Lemma merge_spec r : forall ex ad, sortedIns ex -> sortedIns ad ->
  sortedIns (mergeInserted ex ad r) /\
  forall p k, In (p, k) (mergeInserted ex ad r) <->
    keep r (p, k) = true /\ (In (p, k) ad \/ In (p, k) ex /\ forall q, In (q, k) ad -> keep r (q, k) = false).
Proof.
  induction ex as [|e ex IHe]; intros ad Se Sa.
  - rewrite merge_nil. split; [now apply filter_sortedIns|]. intros p k. rewrite filter_In. split; [tauto|]. intros [A [B|[[] _]]]; auto.
  - revert Sa. induction ad as [|a ad IHa]; intro Sa.
    + rewrite merge_cons. split; [now apply filter_sortedIns|]. intros p k. rewrite filter_In. split; [intros [A B]; split; [exact B|right; split; [exact A|intros q []]]|].
      intros [A [[]|[B _]]]; auto.
    + rewrite merge_cons. inversion Se as [|? ? Se' Fe]; subst. inversion Sa as [|? ? Sa' Fa]; subst.
      assert (Hn : forall p k, In (p, k) ex -> bytes_cmp (snd e) k = Lt) by (intros p k I; exact (proj1 (Forall_forall _ _) Fe _ I)).
      assert (Hm : forall p k, In (p, k) ad -> bytes_cmp (snd a) k = Lt) by (intros p k I; exact (proj1 (Forall_forall _ _) Fa _ I)).
      destruct (keep r e) eqn:Ke; cbn [negb].
      2:{ destruct (IHe (a :: ad) Se' Sa) as [A B]. split; [exact A|]. intros p k. rewrite B. split.
          - intros [K [I|[I Q]]]; split; auto; right; split; auto; now right.
          - intros [K [I|[[->|I] Q]]]; split; auto; congruence. }
      destruct (keep r a) eqn:Ka; cbn [negb].
      2:{ destruct (IHa Sa') as [A B]. split; [exact A|]. intros p k. rewrite B. split.
          - intros [K [I|[I Q]]]; split; auto; [left; now right|right; split; [exact I|]]. intros q [->|Iq]; auto.
          - intros [K [[->|I]|[I Q]]]; split; auto; [congruence|]. right. split; [exact I|]. intros q Iq. apply Q. now right. }
      destruct (bytes_cmp (snd e) (snd a)) eqn:C.
      * destruct (IHe ad Se' Sa') as [A B]. apply bytes_cmp_eq in C. split.
        { constructor; [exact A|]. apply Forall_forall. intros [p k] I. apply B in I. destruct I as [_ [I|[I _]]]; unfold before; cbn [snd]; [eauto|rewrite <- C; eauto]. }
        intros p k. cbn [In]. rewrite B. split.
        { intros [->|[K [I|[I Q]]]]; [split; auto| |].
          - split; [exact K|left; now right].
          - split; [exact K|]. right. split; [now right|]. intros q [->|Iq]; [|auto]. cbn in C. apply Hn in I. rewrite C in I. rewrite bytes_cmp_refl in I. discriminate. }
        { intros [K [[->|I]|[[->|I] Q]]]; [now left| | |].
          - right. auto.
          - exfalso. destruct a as [pa ka]. cbn in C. subst ka. assert (keep r (pa, k) = false) by (apply Q; now left). congruence.
          - right. split; [exact K|]. right. split; [exact I|]. intros q Iq. apply Q. now right. }
      * destruct (IHe (a :: ad) Se' Sa) as [A B]. split.
        { constructor; [exact A|]. apply Forall_forall. intros [p k] I. apply B in I. destruct I as [_ [[->|I]|[I _]]]; unfold before; cbn [snd].
          - exact C.
          - apply Hm in I. exact (bytes_cmp_lt_trans _ _ _ C I).
          - eauto. }
        intros p k. cbn [In]. rewrite B. split.
        { intros [->|[K [I|[I Q]]]].
          - split; [exact Ke|]. right. split; [now left|]. cbn in C. intros q [->|Iq]; [cbn in C; rewrite bytes_cmp_refl in C; discriminate|].
            apply Hm in Iq. pose proof (bytes_cmp_lt_trans _ _ _ C Iq) as X. rewrite bytes_cmp_refl in X. discriminate.
          - auto.
          - split; [exact K|]. right. split; [now right|exact Q]. }
        { intros [K [I|[[->|I] Q]]]; [right; auto|now left|right; split; auto]. }
      * destruct (IHa Sa') as [A B]. apply cmp_gt_lt in C. split.
        { constructor; [exact A|]. apply Forall_forall. intros [p k] I. apply B in I. destruct I as [_ [I|[[->|I] _]]]; unfold before; cbn [snd].
          - eauto.
          - exact C.
          - apply Hn in I. exact (bytes_cmp_lt_trans _ _ _ C I). }
        intros p k. cbn [In]. rewrite B. split.
        { intros [->|[K [I|[I Q]]]].
          - split; [exact Ka|]. left. now left.
          - split; [exact K|left; now right].
          - split; [exact K|]. right. split; [exact I|]. intros q [->|Iq]; [|auto]. cbn in C. destruct I as [->|I]; [cbn in C; rewrite bytes_cmp_refl in C; discriminate|].
            apply Hn in I. pose proof (bytes_cmp_lt_trans _ _ _ C I) as X. rewrite bytes_cmp_refl in X. discriminate. }
        { intros [K [[->|I]|[I Q]]]; [now left|right; split; auto|]. right. split; [exact K|]. right. split; [exact I|]. intros q Iq. apply Q. now right. }
Qed.

(** The check of lists of entries. *)
Lemma sortedEntries_ins n l : sortedEntries l = true -> sortedIns (map (fun a => (n, fst a)) l).
Proof.
  induction l as [|e [|e' t] IH]; intro S; cbn [map].
  - constructor.
  - constructor; constructor.
  - cbn [sortedEntries] in S. destruct (bytes_cmp (fst e) (fst e')) eqn:C; try discriminate. specialize (IH S). cbn [map] in IH.
    constructor; [exact IH|]. constructor; [exact C|]. inversion IH as [|? ? S' F]; subst. eapply Forall_impl; [|exact F]. intros x Hx. eapply before_trans; [|exact Hx]. exact C.
Qed.
