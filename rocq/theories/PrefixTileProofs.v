(** Lemmas: splitting a tree into tiles. *)
From Verif Require Import Base BaseProofs LogTreeSpec PrefixModel PrefixSpec PrefixProofs PrefixUpdateProofs PrefixCodecProofs PrefixStoreProofs.

Lemma nodeCount_pos n : (1 <= nodeCount n)%nat.
Proof. destruct n; cbn; lia. Qed.

Definition esize (ej : list (node * nat)) : nat := list_sum (map (fun e => nodeCount (fst e)) ej).

Lemma list_sum_cons a l : list_sum (a :: l) = (a + list_sum l)%nat.
Proof. reflexivity. Qed.

Lemma esize_len ej : (List.length ej <= esize ej)%nat.
Proof.
  unfold esize. induction ej as [|e ej IHe]; [cbn; lia|]. cbn [map List.length]. rewrite list_sum_cons.
  pose proof (nodeCount_pos (fst e)). lia.
Qed.

Section Tiles.
Variable H : bytes -> option bytes.
Variable hs : nat.
Hypothesis Hsmall : (hs <= 199)%nat.
Hypothesis Htot : total H.
(** A property of nodes at a depth, inherited by subtrees. *)
Variable Q : node -> nat -> Prop.
Hypothesis HQ : forall p m x d, Q m d -> getAt m p = Some x -> Q x (d + List.length p).

Lemma nodeHash_total n : exists h, nodeHash H hs n = Ok h.
Proof.
  induction n as [|v c|l [a Ea] r [b Eb] h id|h i]; cbn [nodeHash]; unfold hash; eauto.
  - destruct (Htot (x02 :: v ++ c)) as [h ->]. cbn. eauto.
  - destruct h as [h|]; eauto. rewrite Ea, Eb. cbn [bind]. destruct (Htot (x03 :: a ++ b)) as [h ->]. cbn. eauto.
Qed.

(** [Cut Pm d m n]: [n] is [m] (at depth [d]) with some parent nodes replaced by external nodes,
    whose ids satisfy [Pm]. *)
Inductive Cut (Pm : tileId -> nat -> node -> Prop) : nat -> node -> node -> Prop :=
| Cut_leaf d m : (forall l r h id, m <> Parent l r h id) -> Cut Pm d m m
| Cut_par d l r l' r' h id : Cut Pm (S d) l l' -> Cut Pm (S d) r r' -> Cut Pm d (Parent l r h id) (Parent l' r' h id)
| Cut_ext d l r h id hp i : nodeHash H hs (Parent l r h id) = Ok hp -> Pm i d (Parent l r h id) ->
    Cut Pm d (Parent l r h id) (External hp i).

Lemma Cut_refl Pm m : forall d, Cut Pm d m m.
Proof. induction m; intros d; try (apply Cut_leaf; congruence). apply Cut_par; auto. Qed.

Lemma Cut_mono (P R : tileId -> nat -> node -> Prop) d m n :
  (forall i d m, P i d m -> R i d m) -> Cut P d m n -> Cut R d m n.
Proof. intros I C. induction C; [apply Cut_leaf; auto|apply Cut_par; auto|apply Cut_ext; auto]. Qed.

Lemma Cut_hash Pm d m n : Cut Pm d m n -> nodeHash H hs n = nodeHash H hs m.
Proof.
  induction 1 as [d m _|d l r l' r' h id _ IHl _ IHr|d l r h id hp i E _]; [reflexivity| |cbn; rewrite <- E; reflexivity].
  cbn [nodeHash]. rewrite IHl, IHr. reflexivity.
Qed.

Lemma Cut_set Pm p : forall d m n x y,
  Cut Pm d m n -> getAt m p = Some x -> getAt n p = Some x -> Cut Pm (d + List.length p) x y -> Cut Pm d m (setAt n p y).
Proof.
  induction p as [|b p IH]; intros d m n x y C Gm Gn Cx.
  - cbn [List.length] in Cx. rewrite Nat.add_0_r in Cx. destruct m; injection Gm as <-; destruct n; exact Cx.
  - cbn [List.length] in Cx. rewrite Nat.add_succ_r in Cx.
    destruct C as [d m N|d l r l' r' h id Cl Cr|d l r h id hp i _ _]; [|cbn [getAt] in *|discriminate Gn].
    + destruct m; try discriminate Gm. exfalso. eapply N; reflexivity.
    + cbn [setAt]. destruct b; apply Cut_par; auto; [apply (IH (S d) r r' x y)|apply (IH (S d) l l' x y)]; auto.
Qed.

Definition incomparable (p q : list bool) : Prop := ~ prefixOf p q /\ ~ prefixOf q p.

Lemma prefixOf_refl (p : list bool) : prefixOf p p.
Proof. exists []. rewrite app_nil_r. reflexivity. Qed.
Lemma prefixOf_cons b (p q : list bool) : prefixOf p q -> prefixOf (b :: p) (b :: q).
Proof. intros [z ->]. exists z. reflexivity. Qed.

Lemma getAt_set_other p : forall n q y, incomparable p q -> getAt (setAt n p y) q = getAt n q.
Proof.
  induction p as [|b p IH]; intros n q y [I1 I2].
  - exfalso. apply I1. apply prefixOf_nil.
  - destruct q as [|c q]; [exfalso; apply I2; apply prefixOf_nil|].
    destruct n as [|v k|l r h id|h i]; cbn [setAt]; try (destruct b; reflexivity).
    destruct b, c; cbn [getAt]; try reflexivity; apply IH; split; intros P; [apply I1|apply I2|apply I1|apply I2]; apply prefixOf_cons; exact P.
Qed.

Lemma getAt_app p : forall n q, getAt n (p ++ q) = match getAt n p with Some m => getAt m q | None => None end.
Proof.
  induction p as [|b p IH]; intros n q; [destruct n; reflexivity|]. cbn [app getAt].
  destruct n; try reflexivity. apply IH.
Qed.

(** Total number of nodes below the queue. *)
Definition qsize (root : node) (queue : list (list bool)) : nat :=
  list_sum (map (fun p => match getAt root p with Some m => nodeCount m | None => 0%nat end) queue).

Definition antichain (queue : list (list bool)) : Prop := ForallOrdPairs incomparable queue.

Lemma incomparable_sym p q : incomparable p q -> incomparable q p.
Proof. unfold incomparable. tauto. Qed.

Lemma prefixOf_app_l (p q l : list bool) : prefixOf (p ++ q) l -> prefixOf p l.
Proof. intros [z ->]. exists (q ++ z). rewrite app_assoc. reflexivity. Qed.

Lemma prefixOf_snoc (p q : list bool) b : prefixOf q (p ++ [b]) -> prefixOf q p \/ q = p ++ [b].
Proof.
  intros [z E]. destruct (rev z) as [|c z'] eqn:R.
  - right. apply (f_equal (@rev bool)) in R. rewrite rev_involutive in R. subst z. rewrite app_nil_r in E. auto.
  - left. apply (f_equal (@rev bool)) in R. rewrite rev_involutive in R. cbn in R. subst z.
    rewrite app_assoc in E. apply app_inj_tail in E. destruct E as [-> _]. exists (rev z'). reflexivity.
Qed.

Lemma incomparable_child p q b : incomparable q p -> incomparable q (p ++ [b]).
Proof.
  intros [I1 I2]. split; intros P.
  - apply prefixOf_snoc in P. destruct P as [P| ->]; [auto|]. apply I2. exists [b]. reflexivity.
  - apply prefixOf_app_l in P. auto.
Qed.

Lemma incomparable_siblings p : incomparable (p ++ [false]) (p ++ [true]).
Proof.
  split; intros [z E]; rewrite <- app_assoc in E; apply app_inv_head in E; discriminate E.
Qed.

Lemma FOP_app {A} (R : A -> A -> Prop) a b :
  ForallOrdPairs R a -> ForallOrdPairs R b -> (forall x y, In x a -> In y b -> R x y) -> ForallOrdPairs R (a ++ b).
Proof.
  intros Fa Fb C. induction Fa as [|x a Fx Fa IH]; [exact Fb|]. cbn. constructor.
  - rewrite Forall_forall in *. intros y I. apply in_app_or in I. destruct I; [auto|apply C; [left; reflexivity|assumption]].
  - apply IH. intros y z I J. apply C; [right; exact I|exact J].
Qed.

Lemma antichain_expand p q : antichain (p :: q) -> antichain (q ++ [p ++ [false]; p ++ [true]]).
Proof.
  intros A. inversion A as [|? ? F A']; subst. rewrite Forall_forall in F. apply FOP_app; auto.
  - constructor; [|constructor; [constructor|constructor]]. constructor; [apply incomparable_siblings|constructor].
  - intros x y I J. specialize (F x I). apply incomparable_sym in F.
    destruct J as [<-|[<-|[]]]; apply incomparable_child; exact F.
Qed.



Definition ejPm (ver ctrOffset : N) (ej : list (node * nat)) (i : tileId) (d : nat) (m : node) : Prop :=
  exists k, nth_error ej k = Some (m, d) /\ i = (ver, ctrOffset + N.of_nat k + 1).

Definition isPar (n : node) : Prop := match n with Parent _ _ _ _ => True | _ => False end.

Lemma makeTileLoop_ok ver ctrOffset depth root0 : forall fuel queue w root ej,
  antichain queue ->
  Forall (fun p => getAt root p = getAt root0 p /\ exists m, getAt root0 p = Some m) queue ->
  Cut (ejPm ver ctrOffset ej) depth root0 root ->
  Forall (fun e => isPar (fst e)) ej ->
  (qsize root0 queue <= fuel)%nat ->
  ctrOffset + N.of_nat (esize ej + qsize root0 queue) < two64 ->
  Forall (fun p => p <> []) queue ->
  Q root0 depth -> Forall (fun e => Q (fst e) (snd e)) ej ->
  exists root' ej', makeTileLoop H hs fuel ver ctrOffset depth queue w root ej = Ok (root', ej') /\
    Cut (ejPm ver ctrOffset ej') depth root0 root' /\ Forall (fun e => isPar (fst e)) ej' /\
    (esize ej' <= esize ej + qsize root0 queue)%nat /\ (isPar root -> isPar root') /\ Forall (fun e => Q (fst e) (snd e)) ej'.
Proof.
  induction fuel as [|f IH]; intros queue w root ej A U C P F B NE Q0 Qe.
  - destruct queue as [|p q]; [cbn [makeTileLoop]; exists root, ej; repeat split; auto; lia|exfalso].
    inversion U as [|? ? [_ [m E]] _]; subst. unfold qsize in F. cbn in F. rewrite E in F. pose proof (nodeCount_pos m). lia.
  - destruct queue as [|p q]; [cbn [makeTileLoop]; exists root, ej; repeat split; auto; lia|].
    inversion U as [|? ? [E0 [m E]] U']; subst. inversion NE as [|? ? NEp NEq]; subst. inversion A as [|? ? Ap Aq]; subst.
    assert (Qs : qsize root0 (p :: q) = (nodeCount m + qsize root0 q)%nat) by (unfold qsize; cbn; rewrite E; reflexivity).
    rewrite Qs in *. pose proof (nodeCount_pos m) as Pm.
    cbn [makeTileLoop]. rewrite E0, E.
    assert (Skip : exists root' ej', makeTileLoop H hs f ver ctrOffset depth q w root ej = Ok (root', ej') /\
      Cut (ejPm ver ctrOffset ej') depth root0 root' /\ Forall (fun e => isPar (fst e)) ej' /\
      (esize ej' <= esize ej + (nodeCount m + qsize root0 q))%nat /\ (isPar root -> isPar root') /\ Forall (fun e => Q (fst e) (snd e)) ej').
    { destruct (IH q w root ej) as [r' [e' [R1 [R2 [R3 [R4 [R5 R6]]]]]]]; auto; try lia.
      exists r', e'. repeat split; auto. lia. }
    destruct m as [|v c|l r h id|h i]; try exact Skip. clear Skip.
    match goal with |- context [if ?cnd then _ else _] => destruct cnd end.
    + assert (Gl : getAt root0 (p ++ [false]) = Some l) by (rewrite getAt_app, E; destruct l; reflexivity).
      assert (Gr : getAt root0 (p ++ [true]) = Some r) by (rewrite getAt_app, E; destruct r; reflexivity).
      assert (Q2 : qsize root0 (q ++ [p ++ [false]; p ++ [true]]) = (qsize root0 q + nodeCount l + nodeCount r)%nat).
      { unfold qsize. rewrite map_app, list_sum_app. cbn [map]. rewrite Gl, Gr, !list_sum_cons. change (list_sum []) with 0%nat. lia. }
      cbn [nodeCount] in *.
      match goal with |- context [makeTileLoop H hs f ver ctrOffset depth _ ?ww root ej] =>
        destruct (IH (q ++ [p ++ [false]; p ++ [true]]) ww root ej) as [r' [e' [R1 [R2 [R3 [R4 [R5 R6]]]]]]] end; auto.
      * apply antichain_expand. exact A.
      * apply Forall_app. split; [exact U'|].
        constructor; [|constructor; [|constructor]]; split; eauto.
        -- rewrite !getAt_app, E0. reflexivity.
        -- rewrite !getAt_app, E0. reflexivity.
      * rewrite Q2. lia.
      * rewrite Q2. lia.
      * apply Forall_app. split; [exact NEq|]. constructor; [|constructor; [|constructor]]; destruct p; discriminate.
      * exists r', e'. repeat split; auto. lia.
    + destruct (nodeHash_total (Parent l r h id)) as [hp Ehp]. rewrite Ehp. cbn [bind].
      set (ej' := ej ++ [(Parent l r h id, (depth + List.length p)%nat)]).
      assert (ES : esize ej' = (esize ej + nodeCount (Parent l r h id))%nat).
      { unfold ej', esize. rewrite map_app, list_sum_app. cbn. lia. }
      assert (LE : (List.length ej <= esize ej)%nat).
      { apply esize_len. }
      assert (LJ : lenN ej' = N.of_nat (List.length ej) + 1).
      { unfold ej', lenN. rewrite app_length. cbn. lia. }
      rewrite LJ. unfold w64. rewrite N.mod_small by lia.
      destruct (IH q w (setAt root p (External hp (ver, ctrOffset + (N.of_nat (List.length ej) + 1)))) ej') as [r' [e' [R1 [R2 [R3 [R4 [R5 R6]]]]]]].
      * exact Aq.
      * rewrite Forall_forall in *. intros x Ix. destruct (U' x Ix) as [U1 U2]. split; [|exact U2].
        rewrite getAt_set_other; [exact U1|]. apply Ap. exact Ix.
      * eapply Cut_set; [eapply Cut_mono; [|exact C]|exact E|rewrite E0; exact E|].
        -- intros i d m [k [K1 K2]]. exists k. split; [|exact K2]. unfold ej'. rewrite nth_error_app1; [exact K1|].
           apply nth_error_Some. congruence.
        -- apply Cut_ext; [exact Ehp|]. exists (List.length ej). split.
           ++ unfold ej'. rewrite nth_error_app2, Nat.sub_diag by lia. reflexivity.
           ++ f_equal. lia.
      * unfold ej'. apply Forall_app. split; [exact P|]. constructor; [exact I|constructor].
      * lia.
      * rewrite ES. lia.
      * exact NEq.
      * exact Q0.
      * unfold ej'. apply Forall_app. split; [exact Qe|]. constructor; [|constructor]. exact (HQ p _ _ _ Q0 E).
      * exists r', e'. split; [exact R1|]. split; [exact R2|]. split; [exact R3|]. split; [lia|]. split; [|exact R6].
        intros IP. apply R5. destruct p as [|b p]; [congruence|]. destruct root; try contradiction. destruct b; exact I.
Qed.

Lemma makeTile_ok ver ctrOffset root depth : ctrOffset + N.of_nat (nodeCount root) < two64 -> Q root depth ->
  exists root' ej, makeTile H hs ver ctrOffset root depth = Ok (root', ej) /\
    Cut (ejPm ver ctrOffset ej) depth root root' /\ Forall (fun e => isPar (fst e)) ej /\
    (esize ej < nodeCount root)%nat /\ (isPar root -> isPar root') /\ Forall (fun e => Q (fst e) (snd e)) ej.
Proof.
  intros B Q0. unfold makeTile. remember (nodeCount root) as f eqn:Ef. cbn [makeTileLoop].
  assert (G0 : getAt root [] = Some root) by (destruct root; reflexivity). rewrite G0.
  pose proof (nodeCount_pos root) as P.
  assert (Skip : (forall l r h id, root <> Parent l r h id) -> exists root' ej, makeTileLoop H hs f ver ctrOffset depth [] (weight hs root) root [] = Ok (root', ej) /\
    Cut (ejPm ver ctrOffset ej) depth root root' /\ Forall (fun e => isPar (fst e)) ej /\
    (esize ej < f)%nat /\ (isPar root -> isPar root') /\ Forall (fun e => Q (fst e) (snd e)) ej).
  { intros NP. exists root, []. destruct f; cbn; repeat split; auto; try lia; apply Cut_refl. }
  destruct root as [|v c|l r h id|h i]; try (apply Skip; congruence). clear Skip.
  assert (W : (weight hs (Parent l r h id) - weight hs (Parent l r h id) + 1 + weight hs l + weight hs r +
      (if storeIntermediate (depth + List.length (@nil bool)) then hs else 0) <= 1000)%nat).
  { assert (forall n, (weight hs n <= 1 + 2 * 199)%nat) by (intro n; destruct n; cbn [weight]; lia).
    pose proof (H0 l). pose proof (H0 r). destruct (storeIntermediate _); lia. }
  replace (N.of_nat _ <=? maxTileWeight) with true by (symmetry; apply N.leb_le; unfold maxTileWeight; lia).
  match goal with |- context [makeTileLoop H hs f ver ctrOffset depth _ ?ww ?rt []] =>
    destruct (makeTileLoop_ok ver ctrOffset depth rt f [[false]; [true]] ww rt []) as [r' [e' [R1 [R2 [R3 [R4 [R5 R6]]]]]]] end.
  - apply (antichain_expand [] []). constructor; constructor.
  - constructor; [|constructor; [|constructor]]; split; try reflexivity; cbn; eexists; [destruct l|destruct r]; reflexivity.
  - apply Cut_refl.
  - constructor.
  - subst f. unfold qsize. cbn. destruct l, r; cbn; lia.
  - subst f. unfold qsize. cbn in *. destruct l, r; cbn in *; lia.
  - repeat constructor; discriminate.
  - exact Q0.
  - constructor.
  - exists r', e'. split; [exact R1|]. split; [exact R2|]. split; [exact R3|]. split; [|split; [exact R5|exact R6]].
    subst f. unfold qsize in R4. cbn in *. destruct l, r; cbn in *; lia.
Qed.

(** ** All tiles *)

(** [O]: for every tile, the node (and depth) it was made from. *)
Definition origPm (ver : N) (O : list (node * nat)) (i : tileId) (d : nat) (m : node) : Prop :=
  exists k, nth_error O k = Some (m, d) /\ i = (ver, N.of_nat k).

Lemma splitLoop_ok ver : forall f queue out dn,
  List.length dn = List.length out -> (esize queue <= f)%nat ->
  lenN out + N.of_nat (esize queue) < two64 -> Forall (fun e => Q (fst e) (snd e)) queue ->
  exists outF O ex, splitLoop H hs f ver queue out = Ok outF /\ O = dn ++ queue ++ ex /\ List.length outF = List.length O /\
    (exists new, outF = out ++ new) /\ (List.length O <= List.length out + esize queue)%nat /\
    Forall (fun e => isPar (fst e)) ex /\
    forall k m d, nth_error O k = Some (m, d) -> (List.length dn <= k)%nat ->
      exists n, nth_error outF k = Some ((ver, N.of_nat k), d, n) /\ Cut (origPm ver O) d m n /\ (isPar m -> isPar n) /\ Q m d.
Proof.
  induction f as [|f IH]; intros queue out dn Ld F B QQ.
  - destruct queue as [|[nd d] q]; [|exfalso; unfold esize in F; cbn in F; pose proof (nodeCount_pos nd); lia].
    exists out, dn, []. cbn [splitLoop app]. rewrite app_nil_r. repeat split; auto; try lia.
    + exists []. rewrite app_nil_r. reflexivity.
    + intros k m d N L. assert (k < List.length dn)%nat by (apply nth_error_Some; congruence). lia.
  - destruct queue as [|[nd d] q].
    + exists out, dn, []. cbn [splitLoop app]. rewrite app_nil_r. repeat split; auto; try lia.
      * exists []. rewrite app_nil_r. reflexivity.
      * intros k m d N L. assert (k < List.length dn)%nat by (apply nth_error_Some; congruence). lia.
    + cbn [splitLoop]. inversion QQ as [|? ? Qn Qq]; subst. cbn [fst snd] in Qn.
      assert (ES : esize ((nd, d) :: q) = (nodeCount nd + esize q)%nat) by reflexivity. rewrite ES in *.
      assert (LQ : (List.length q <= esize q)%nat).
      { apply esize_len. }
      destruct (makeTile_ok ver (lenN out + lenN q) nd d) as [nd' [ej [M1 [M2 [M3 [M4 [M5 M6]]]]]]].
      { unfold lenN in *. lia. }
      { exact Qn. }
      rewrite M1. cbn [bind].
      assert (EA : esize (q ++ ej) = (esize q + esize ej)%nat) by (unfold esize; rewrite map_app, list_sum_app; reflexivity).
      destruct (IH (q ++ ej) (out ++ [((ver, lenN out), d, nd')]) (dn ++ [(nd, d)])) as [outF [O [ex [R1 [R2 [R3 [R4 [R5 [R6 R7]]]]]]]]].
      * rewrite !app_length. cbn. lia.
      * lia.
      * unfold lenN in *. rewrite app_length. cbn [List.length]. lia.
      * apply Forall_app. auto.
      * exists outF, O, (ej ++ ex). split; [exact R1|]. split; [rewrite R2, <- !app_assoc; reflexivity|]. split; [exact R3|].
        split. { destruct R4 as [new ->]. exists ([((ver, lenN out), d, nd')] ++ new). rewrite app_assoc. reflexivity. }
        split. { rewrite app_length in R5. cbn [List.length] in R5. lia. }
        split. { apply Forall_app. auto. }
        intros k m dd N L. destruct (Nat.eq_dec k (List.length dn)) as [->|Nk].
        -- rewrite R2, <- !app_assoc in N. rewrite nth_error_app2, Nat.sub_diag in N by lia. injection N as <- <-.
           exists nd'. split; [|split; [|split; [exact M5|exact Qn]]].
           ++ destruct R4 as [new ->]. rewrite <- app_assoc, Ld, nth_error_app2, Nat.sub_diag by lia. reflexivity.
           ++ eapply Cut_mono; [|exact M2]. intros i d0 m0 [j [J1 J2]]. exists (List.length dn + 1 + List.length q + j)%nat. split.
              ** rewrite R2. rewrite nth_error_app2 by (rewrite app_length; cbn; lia). rewrite app_length. cbn [List.length].
                 rewrite <- app_assoc. rewrite nth_error_app2 by lia.
                 replace (List.length dn + 1 + List.length q + j - (List.length dn + 1) - List.length q)%nat with j by lia.
                 rewrite nth_error_app1; [exact J1|]. apply nth_error_Some. congruence.
              ** rewrite J2. f_equal. unfold lenN. lia.
        -- apply R7; [exact N|]. rewrite app_length. cbn. lia.
Qed.

Lemma splitIntoTiles_ok ver root : N.of_nat (nodeCount root) < two64 -> Q root 0%nat ->
  exists tiles O, splitIntoTiles H hs ver root = Ok tiles /\ List.length tiles = List.length O /\ (List.length O <= nodeCount root)%nat /\
    nth_error O 0 = Some (root, 0%nat) /\ (forall k m d, nth_error O (S k) = Some (m, d) -> isPar m) /\
    forall k m d, nth_error O k = Some (m, d) ->
      exists n, nth_error tiles k = Some ((ver, N.of_nat k), d, n) /\ Cut (origPm ver O) d m n /\ (isPar m -> isPar n) /\ Q m d.
Proof.
  intros B Q0. unfold splitIntoTiles.
  assert (ES : esize [(root, 0%nat)] = nodeCount root) by (unfold esize; cbn; lia).
  destruct (splitLoop_ok ver (S (nodeCount root)) [(root, 0%nat)] [] []) as [tiles [O [ex [R1 [R2 [R3 [R4 [R5 [R6 R7]]]]]]]]].
  - reflexivity.
  - rewrite ES. lia.
  - rewrite ES. unfold lenN. cbn. lia.
  - constructor; [exact Q0|constructor].
  - exists tiles, O. split; [exact R1|]. split; [exact R3|]. split; [rewrite ES in R5; cbn in R5; exact R5|].
    split; [rewrite R2; reflexivity|]. split.
    + intros k m d N. rewrite R2 in N. cbn in N. rewrite Forall_forall in R6. apply nth_error_In in N. apply (R6 _ N).
    + intros k m d N. apply R7; [exact N|cbn; lia].
Qed.

End Tiles.
