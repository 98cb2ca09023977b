(** Lemmas: the trie stored in the database under a version; loading paths. *)
From Verif Require Import Base BaseProofs LogTreeSpec PrefixModel PrefixSpec PrefixProofs PrefixUpdateProofs PrefixCodecProofs.

Section Store.
Variable H : bytes -> option bytes.
Variable hs : nat.
Hypothesis Hsized : forall x h, H x = Some h -> List.length h = hs.
Hypothesis Htot : total H.

(** [Sees s t p n]: the node [n] at path [p], with its external nodes read from the store [s],
    represents the trie [t]. *)
Fixpoint Sees (s : store) (t : trie) (p : list bool) (n : node) : Prop :=
  match t with
  | TE => n = Empty
  | TL v c => n = Leaf v c
  | TN tl tr =>
      let loc i := exists td root l r h,
        fetch hs s i = Ok (td, root) /\ (td <= List.length p)%nat /\
        getAt root (skipn td p) = Some (Parent l r h (Some i)) /\
        fst i < two64 /\ snd i < two64 /\ allIds l /\ allIds r /\
        (forall hh, h = Some hh -> thash H hs (TN tl tr) = Some hh) /\
        Sees s tl (p ++ [false]) l /\ Sees s tr (p ++ [true]) r in
      match n with
      | Parent l r h id =>
          Sees s tl (p ++ [false]) l /\ Sees s tr (p ++ [true]) r /\
          (forall hh, h = Some hh -> thash H hs (TN tl tr) = Some hh) /\ (forall i, id = Some i -> loc i)
      | External hh i => thash H hs (TN tl tr) = Some hh /\ loc i
      | _ => False
      end
  end.

(** The tile [i] holds, at path [p], a parent node for [TN tl tr]. *)
Definition Loc (s : store) (tl tr : trie) (p : list bool) (i : tileId) : Prop :=
  exists td root l r h,
    fetch hs s i = Ok (td, root) /\ (td <= List.length p)%nat /\
    getAt root (skipn td p) = Some (Parent l r h (Some i)) /\
    fst i < two64 /\ snd i < two64 /\ allIds l /\ allIds r /\
    (forall hh, h = Some hh -> thash H hs (TN tl tr) = Some hh) /\
    Sees s tl (p ++ [false]) l /\ Sees s tr (p ++ [true]) r.

Lemma Sees_parent s tl tr p l r h id : Sees s (TN tl tr) p (Parent l r h id) <->
  Sees s tl (p ++ [false]) l /\ Sees s tr (p ++ [true]) r /\
  (forall hh, h = Some hh -> thash H hs (TN tl tr) = Some hh) /\ (forall i, id = Some i -> Loc s tl tr p i).
Proof. reflexivity. Qed.

Lemma Sees_ext s tl tr p h i : Sees s (TN tl tr) p (External h i) <->
  thash H hs (TN tl tr) = Some h /\ Loc s tl tr p i.
Proof. reflexivity. Qed.

Opaque thash.

Definition X (s : store) (p : list bool) (h : bytes) (i : tileId) (t : trie) : Prop :=
  Sees s t p (External h i).

Lemma X_hash s p h i t : X s p h i t -> thash H hs t = Some h.
Proof. unfold X. destruct t; [discriminate|discriminate|]. rewrite Sees_ext. tauto. Qed.

Lemma X_TN s : XTN (X s).
Proof. intros p h i t. unfold X. destruct t; [discriminate|discriminate|]. eauto. Qed.

Lemma Sees_Rep s t : forall p n, Sees s t p n <-> Rep H hs (X s) p n t.
Proof.
  induction t as [|k c|tl IHl tr IHr]; intros p n.
  - split; [intros ->; constructor|]. intros R. inversion R as [| | |? ? ? ? HX0]; subst; [reflexivity|]. apply X_TN in HX0. destruct HX0 as [a [b E]]. discriminate E.
  - split; [intros ->; constructor|]. intros R. inversion R as [| | |? ? ? ? HX0]; subst; [reflexivity|]. apply X_TN in HX0. destruct HX0 as [a [b E]]. discriminate E.
  - split.
    + intros S. destruct n as [|v c|l r h id|h i]; try contradiction.
      * apply Sees_parent in S. destruct S as [Sl [Sr [Hh Hi]]]. constructor; [apply IHl; exact Sl|apply IHr; exact Sr|exact Hh|].
        intros i hh E E'. unfold X. apply Sees_ext. split; [exact E'|]. apply Hi. exact E.
      * constructor. exact S.
    + intros R. inversion R as [| |? l r h id ? ? Rl Rr Hh Hi|]; subst; [|assumption].
      apply Sees_parent. split; [apply IHl; exact Rl|]. split; [apply IHr; exact Rr|]. split; [exact Hh|].
      intros i E. destruct (total_thash H hs (TN tl tr) Htot) as [hh Eh].
      specialize (Hi i hh E Eh). apply Sees_ext in Hi. apply Hi.
Qed.

Lemma thash_len t h : (forall p, Canon hs p t -> True) -> thash H hs t = Some h -> List.length h = hs.
Proof.
  intros _ E. Transparent thash. destruct t as [|k c|l r]; cbn in E.
  - injection E as <-. apply repeat_length.
  - eapply Hsized; eauto.
  - destruct (thash H hs l); [|discriminate E]. destruct (thash H hs r); [|discriminate E]. eapply Hsized; eauto.
  Opaque thash.
Qed.

Lemma Sees_wf s t : forall p n, Canon hs p t -> Sees s t p n -> wfNode hs n.
Proof.
  induction t as [|k c|tl IHl tr IHr]; intros p n C S.
  - rewrite S. exact I.
  - rewrite S. cbn in C. cbn. tauto.
  - destruct C as [Cl [Cr _]]. destruct n as [|v c|l r h id|h i]; try contradiction.
    + apply Sees_parent in S. destruct S as [Sl [Sr [Hh Hi]]]. split; [eapply IHl; eauto|]. split; [eapply IHr; eauto|]. split.
      * intros hh E. apply (thash_len (TN tl tr)); auto.
      * intros i E. destruct (Hi i E) as [td [root [l' [r' [h' [_ [_ [_ [B1 [B2 _]]]]]]]]]]. auto.
    + apply Sees_ext in S. destruct S as [Eh [td [root [l' [r' [h' [_ [_ [_ [B1 [B2 _]]]]]]]]]]].
      split; [apply (thash_len (TN tl tr)); auto|auto].
Qed.

Lemma Sees_mono s s' : (forall i x, fetch hs s i = Ok x -> fetch hs s' i = Ok x) ->
  forall t p n, Sees s t p n -> Sees s' t p n.
Proof.
  intros M. induction t as [|k c|tl IHl tr IHr]; intros p n S; auto.
  assert (LM : forall i, Loc s tl tr p i -> Loc s' tl tr p i).
  { intros i [td [root [l [r [h [F [L [G [B1 [B2 [A1 [A2 [Hh [Sl Sr]]]]]]]]]]]]]].
    exists td, root, l, r, h. repeat (split; [solve [auto]|]). auto. }
  destruct n as [|v c|l r h id|h i]; try contradiction.
  - apply Sees_parent in S. destruct S as [Sl [Sr [Hh Hi]]]. apply Sees_parent. split; [auto|]. split; [auto|]. split; [exact Hh|]. intros i E. apply LM. exact (Hi i E).
  - apply Sees_ext in S. apply Sees_ext. destruct S as [S1 S2]. split; [exact S1|]. apply LM. exact S2.
Qed.

Lemma Sees_hash s t p n h : Sees s t p n -> thash H hs t = Some h -> nodeHash H hs n = Ok h.
Proof.
  intros S E. apply Sees_Rep in S. rewrite (Rep_hash H hs (X s) (X_hash s) _ _ _ S). rewrite E. reflexivity.
Qed.

(** ** Walking and loading *)

Lemma walk_getAt key p : prefixOf p (bits key) -> forall k td root m, (td + k = List.length p)%nat ->
  getAt root (skipn td p) = Some m -> walk k key td root = Ok m.
Proof.
  intros P. induction k as [|k IH]; intros td root m E G.
  - rewrite skipn_all2 in G by lia. cbn in G. destruct root; injection G as <-; reflexivity.
  - assert (L : (td < List.length p)%nat) by lia. rewrite (skipn_nth p td false L) in G.
    cbn [walk]. destruct root as [|v c|l r h id|h i]; try discriminate G.
    pose proof (prefixOf_len _ _ P) as PL. rewrite bits_len in PL.
    rewrite getBit_bitAt by lia. cbn [bind].
    assert (B : bitAt key td = nth td p false).
    { destruct P as [q Q]. unfold bitAt. rewrite Q, app_nth1 by lia. reflexivity. }
    rewrite B. cbn [getAt] in G. apply IH; [lia|]. destruct (nth td p false); exact G.
Qed.

Definition notExt (n : node) : Prop := match n with External _ _ => False | _ => True end.

Lemma resolved_notExt n bs : resolved n bs -> notExt n.
Proof. destruct n; cbn; auto. Qed.

Lemma loadPath_ok s key : List.length key = hs ->
  forall t p n fuel, Canon hs p t -> Sees s t p n -> allIds n -> prefixOf p (bits key) ->
  (2 * (8 * hs - List.length p) + 2 <= fuel)%nat ->
  exists n', loadPath hs fuel s key n (List.length p) = Ok n' /\ Sees s t p n' /\ allIds n' /\
    resolved n' (skipn (List.length p) (bits key)) /\ (forall bs, resolved n bs -> resolved n' bs).
Proof.
  intros Lk. induction t as [|k c|tl IHl tr IHr]; intros p n fuel C Sn A P F.
  - cbn in Sn. subst n. destruct fuel as [|f]; [lia|]. exists Empty. repeat split; auto.
  - cbn in Sn. subst n. destruct fuel as [|f]; [lia|]. exists (Leaf k c). repeat split; auto.
  - pose proof (Canon_TN_depth _ _ _ _ C) as L. pose proof C as [Cl [Cr _]].
    assert (PN : forall l r h id f, Sees s (TN tl tr) p (Parent l r h id) -> allIds (Parent l r h id) ->
       (2 * (8 * hs - List.length p) + 1 <= f)%nat ->
       exists n', loadPath hs f s key (Parent l r h id) (List.length p) = Ok n' /\ Sees s (TN tl tr) p n' /\ allIds n' /\
        resolved n' (skipn (List.length p) (bits key)) /\ (forall bs, resolved (Parent l r h id) bs -> resolved n' bs)).
    { intros l r h id f Sp [A0 [A1 A2]] Ff. destruct f as [|f]; [lia|]. cbn [loadPath].
      rewrite getBit_bitAt by (rewrite Lk; lia). cbn [bind].
      apply Sees_parent in Sp. destruct Sp as [Sl [Sr [Hh Hi]]].
      pose proof (prefix_bit_step p key P) as Pb. rewrite Lk in Pb. specialize (Pb L).
      rewrite (skipn_bit key (List.length p)) by (rewrite Lk; lia).
      assert (Ls : forall b, List.length (p ++ [b]) = S (List.length p)) by (intro; rewrite app_length; cbn; lia).
      destruct (bitAt key (List.length p)) eqn:E.
      - destruct (IHr (p ++ [true]) r f Cr Sr A2 Pb) as [r' [E' [S' [A' [R' M']]]]]; [rewrite Ls; lia|].
        rewrite Ls in E', R'. rewrite E'. cbn [bind]. exists (Parent l r' h id). split; [reflexivity|].
        split; [apply Sees_parent; auto|]. split; [cbn; auto|]. split; [cbn [resolved]; exact R'|].
        intros [|b bs] Rb; cbn [resolved] in *; [exact Rb|]. destruct b; auto.
      - destruct (IHl (p ++ [false]) l f Cl Sl A1 Pb) as [l' [E' [S' [A' [R' M']]]]]; [rewrite Ls; lia|].
        rewrite Ls in E', R'. rewrite E'. cbn [bind]. exists (Parent l' r h id). split; [reflexivity|].
        split; [apply Sees_parent; auto|]. split; [cbn; auto|]. split; [cbn [resolved]; exact R'|].
        intros [|b bs] Rb; cbn [resolved] in *; [exact Rb|]. destruct b; auto. }
    destruct n as [|v c|l r h id|h i]; try contradiction.
    + apply PN; auto. lia.
    + apply Sees_ext in Sn. destruct Sn as [Eh Lc].
      pose proof Lc as [td [root [l [r [h' [F0 [L0 [G [B1 [B2 [A1 [A2 [Hh [Sl Sr]]]]]]]]]]]]]].
      destruct fuel as [|f]; [lia|]. cbn [loadPath]. rewrite F0. cbn [bind].
      rewrite (walk_getAt key p P (List.length p - td) td root _ ltac:(lia) G). cbn [bind].
      destruct (PN l r h' (Some i) f) as [n' [E' [S' [A' [R' M']]]]]; [|cbn; repeat split; auto; discriminate|lia|].
      * apply Sees_parent. split; [exact Sl|]. split; [exact Sr|]. split; [exact Hh|]. intros i' E. injection E as <-. exact Lc.
      * exists n'. split; [exact E'|]. split; [exact S'|]. split; [exact A'|]. split; [exact R'|]. intros bs [].
Qed.

(** The trie stored as version [ver]. *)
Definition Holds (s : store) (ver : N) (t : trie) : Prop :=
  exists root, fetch hs s (ver, 0) = Ok (0%nat, root) /\ Sees s t [] root /\ notExt root /\ allIds root.

Lemma foldM_load s t keys : Canon hs [] t -> Forall (fun k : bytes => List.length k = hs) keys ->
  forall n, Sees s t [] n -> allIds n ->
  exists n', foldM (fun n key => loadPath hs (loadFuel hs) s key n 0) keys n = Ok n' /\ Sees s t [] n' /\ allIds n' /\
    (forall k, In k keys -> resolved n' (bits k)) /\ (forall bs, resolved n bs -> resolved n' bs).
Proof.
  intros C. induction keys as [|k keys IH]; intros F n S A; cbn [foldM].
  - exists n. repeat split; auto. intros k [].
  - inversion F as [|? ? Lk F']; subst.
    destruct (loadPath_ok s k Lk t [] n (loadFuel hs) C S A (prefixOf_nil _)) as [n1 [E1 [S1 [A1 [R1 M1]]]]].
    { unfold loadFuel. cbn [List.length]. lia. }
    change (List.length (@nil bool)) with 0%nat in E1. rewrite E1. cbn [bind].
    destruct (IH F' n1 S1 A1) as [n2 [E2 [S2 [A2 [R2 M2]]]]].
    exists n2. split; [exact E2|]. split; [exact S2|]. split; [exact A2|]. split.
    + intros k' [<-|I]; [apply M2; exact R1|apply R2; exact I].
    + intros bs R. apply M2. apply M1. exact R.
Qed.

Lemma loadTree_ok s ver t keys : Canon hs [] t -> Holds s ver t -> keys <> [] -> Forall (fun k : bytes => List.length k = hs) keys ->
  exists n, loadTree hs s ver keys = Ok n /\ Sees s t [] n /\ allIds n /\ forall k, In k keys -> resolved n (bits k).
Proof.
  intros C [root [F0 [S [NE A]]]] N F. destruct keys as [|k keys]; [congruence|].
  inversion F as [|? ? Lk F']; subst. unfold loadTree. cbn [foldM].
  destruct (loadPath_ok s k Lk t [] root (loadFuel hs - 1) C S A (prefixOf_nil _)) as [n1 [E1 [S1 [A1 [R1 M1]]]]].
  { unfold loadFuel. cbn [List.length]. lia. }
  assert (E : loadPath hs (loadFuel hs) s k (External [] (ver, 0)) 0 = Ok n1).
  { replace (loadFuel hs) with (Datatypes.S (loadFuel hs - 1)) by (unfold loadFuel; lia).
    cbn [loadPath]. rewrite F0. cbn [bind]. change (0 - 0)%nat with 0%nat. cbn [walk bind].
    change (List.length (@nil bool)) with 0%nat in E1.
    destruct root; try contradiction; exact E1. }
  rewrite E. cbn [bind]. destruct (foldM_load s t keys C F' n1 S1 A1) as [n2 [E2 [S2 [A2 [R2 M2]]]]].
  exists n2. split; [exact E2|]. split; [exact S2|]. split; [exact A2|].
  intros k' [<-|I]; [apply M2; exact R1|apply R2; exact I].
Qed.

Lemma allIds_hasIds n : forall p K, allIds n -> hasIds n p K.
Proof. induction n as [|v c|l IHl r IHr h id|h i]; intros p K A; cbn in *; auto. destruct A as [A1 [A2 A3]]. repeat split; auto. congruence. Qed.

End Store.
