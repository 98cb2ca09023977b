From Verif Require Import Base BaseProofs LogMathModel LogMathSpec NodeMathProofs LogMathProofs LogMathProofs2 LogTreeModel LogTreeSpec LogTreeProofs.
From Coq Require Import Sorted.

(** Nodes visited by the recursion of [evaluate]. *)
Inductive Vis : N -> N -> list N -> N -> Prop :=
| V_here a len Q : Vis a len Q (nodeId a len)
| V_left a len Q y : 1 < len -> Q <> [nodeId a len] ->
    Vis a (split len) (below (nodeId a len) Q) y -> Vis a len Q y
| V_right a len Q y : 1 < len -> Q <> [nodeId a len] ->
    Vis (a + split len) (len - split len) (above (nodeId a len) Q) y -> Vis a len Q y.

Lemma Compl_nonempty a len Q : Compl a len Q -> Q <> [].
Proof.
  induction 1 as [|a len Q Hl Hne C1 IH1 C2 IH2]; [discriminate|]. intros ->. apply IH1. reflexivity.
Qed.

(** [Q]: a set of nodes that contains the copath and all required nodes except possibly
    those the copath was asked to include. *)
Lemma batchCopath_vis fuel n x a len R inc :
  1 <= n <= two63 -> covers n x a len -> level x < N.of_nat fuel ->
  sset R -> (forall y, In y R -> inNodes a len y) ->
  exists P, batchCopath_rec fuel x n R inc = Ok P /\ sset P /\
    (forall y, In y P -> inNodes a len y) /\
    (forall Q, sset Q -> (forall y, In y Q -> In y R \/ In y P) -> (forall y, In y P -> In y Q) ->
       (forall y, In y R -> ~ In y inc -> In y Q) ->
       Compl a len Q /\ forall y, In y R -> Vis a len Q y).
Proof.
  intro Hn. revert x a len R. induction fuel as [|f IH]; intros x a len R C Hf SR HR; [lia|].
  pose proof (covers_nodeId n x a len Hn C) as Ex.
  assert (Hlen : 1 <= len) by (destruct C; tauto).
  cbn [batchCopath_rec]. destruct R as [|r0 R0] eqn:ER.
  - destruct (fullSubtrees_covers n x a len Hn C) as (parts & E & P).
    exists (map nodeOf parts). split; [auto|]. split; [eapply Parts_sset; eauto|].
    split; [apply Parts_inNodes; auto|].
    intros Q SS H1 H2 H3. split; [|intros y []].
    replace Q with (map nodeOf parts); [apply Compl_Parts; auto|].
    apply sset_ext; auto; [eapply Parts_sset; eauto|]. intro z. split; auto. intro Hz. destruct (H1 z Hz) as [[]|]; auto.
  - rewrite <- ER in *. destruct (match R0 with [] => r0 =? x | _ :: _ => false end) eqn:Eq.
    + assert (R = [x]).
      { destruct R0 as [|y2 R2]; try discriminate. apply N.eqb_eq in Eq. now subst. }
      clear ER Eq. subst R.
      assert (G : forall Q, sset Q -> (forall y, In y Q <-> In y [x]) -> Compl a len Q /\ forall y, In y [x] -> Vis a len Q y).
      { intros Q SS HS. replace Q with [x].
        - rewrite Ex. split; [apply C_stop|]. intros y [<-|[]]. apply V_here.
        - apply sset_ext; auto. intro z. symmetry. apply HS. }
      destruct (existsb (N.eqb x) inc) eqn:Ei.
      * exists [x]. split; [auto|]. split; [auto|]. split; [auto|].
        intros Q SS H1 H2 H3. apply G; auto. intro y. split; auto. intro Hy. destruct (H1 y Hy); auto.
      * exists []. split; [auto|]. split; [constructor|]. split; [cbn; tauto|].
        intros Q SS H1 H2 H3. apply G; auto. intro y. split.
        -- intro Hy. destruct (H1 y Hy) as [|[]]; auto.
        -- intro Hy. apply H3; auto. destruct Hy as [<-|[]]. intro Hi.
           enough (existsb (N.eqb x) inc = true) by congruence. apply existsb_exists. exists x.
           split; auto. apply N.eqb_refl.
    + assert (Hne : exists y, In y R /\ y <> x).
      { clear -ER Eq SR. subst R. destruct R0 as [|y2 R2]; rename r0 into y.
        - exists y. split; [now left|]. intros ->. rewrite N.eqb_refl in Eq. discriminate.
        - apply sset_inv in SR as [_ F]. rewrite Forall_forall in F.
          assert (y < y2) by (apply F; now left).
          destruct (N.eq_dec y x); [exists y2|exists y]; cbn; split; auto; lia. }
      assert (HL : 1 < len).
      { destruct Hne as (y & Hy & Hyx). apply HR in Hy. unfold inNodes in Hy.
        destruct (N.eq_dec len 1) as [->|]; [|lia]. unfold nodeId in Ex. rewrite N.eqb_refl in Ex. lia. }
      destruct (covers_children n x a len Hn C HL)
        as (l & r & El & Er & Hl & Hr & Ll & Lr & Exx & Ps & Hs & Cl & Cr & _).
      rewrite El. cbn [bind].
      destruct (IH l a (split len) (below x R) Cl) as (Pl & EPl & SPl & HPl & CPl); [lia|now apply sset_filter| |].
      { intros y Hy. apply below_In in Hy as [Hy Hyx]. apply HR in Hy. unfold inNodes in *. lia. }
      destruct (IH r (a + split len) (len - split len) (above x R) Cr) as (Pr & EPr & SPr & HPr & CPr);
        [lia|now apply sset_filter| |].
      { intros y Hy. apply above_In in Hy as [Hy Hyx]. apply HR in Hy. unfold inNodes in *. lia. }
      rewrite EPl, Er. cbn [bind]. rewrite EPr. cbn [bind].
      exists (Pl ++ Pr). split; [auto|]. split; [|split].
      * apply sset_app; auto. intros u v Hu Hv. apply HPl in Hu. apply HPr in Hv. unfold inNodes in *. lia.
      * intros y Hy. apply in_app_or in Hy as [Hy|Hy]; [apply HPl in Hy|apply HPr in Hy];
          unfold inNodes in *; lia.
      * intros Q SS H1 H2 H3.
        destruct (CPl (below x Q)) as [CL VL]; [now apply sset_filter| | | |].
        { intros y Hy. rewrite below_In in *. destruct Hy as [Hy Hyx]. destruct (H1 y Hy) as [|HP]; auto.
          right. apply in_app_or in HP as [|HP]; auto. apply HPr in HP. unfold inNodes in HP. lia. }
        { intros y Hy. apply below_In. split; [apply H2, in_or_app; auto|]. apply HPl in Hy. unfold inNodes in Hy. lia. }
        { intros y Hy Hni. rewrite below_In in *. split; [apply H3|]; tauto. }
        destruct (CPr (above x Q)) as [CR VR]; [now apply sset_filter| | | |].
        { intros y Hy. rewrite above_In in *. destruct Hy as [Hy Hyx]. destruct (H1 y Hy) as [|HP]; auto.
          right. apply in_app_or in HP as [HP|]; auto. apply HPl in HP. unfold inNodes in HP. lia. }
        { intros y Hy. apply above_In. split; [apply H2, in_or_app; auto|]. apply HPr in Hy. unfold inNodes in Hy. lia. }
        { intros y Hy Hni. rewrite above_In in *. split; [apply H3|]; tauto. }
        assert (HQ : Q <> [x]).
        { intros ->. apply Compl_nonempty in CL. unfold below in CL. cbn [filter] in CL.
          rewrite N.ltb_irrefl in CL. congruence. }
        rewrite Ex in *. split; [apply C_step; auto|]. intros y Hy.
        destruct (N.lt_trichotomy y (nodeId a len)) as [H|[->|H]].
        -- apply V_left; auto. apply VL. apply below_In. auto.
        -- apply V_here.
        -- apply V_right; auto. apply VR. apply above_In. auto.
Qed.

Lemma tagged_inj s1 v1 w1 s2 v2 w2 : lenN v1 = lenN v2 ->
  tagged s1 v1 ++ tagged s2 w1 = tagged s1 v2 ++ tagged s2 w2 -> v1 = v2 /\ w1 = w2.
Proof.
  intros El E. unfold tagged in E. cbn [app] in E. injection E as E.
  apply app_eq_length_inv in E as [-> E]; [|unfold lenN in El; lia]. injection E as ->. auto.
Qed.

Section Hash.
Variable H : bytes -> option bytes.
Variable hs : N.
Hypothesis Hsized : sized H hs.
Hypothesis Hhs : 0 < hs.
Variable n : N.
Hypothesis Hn : 1 <= n <= two63.

Definition nodesMap := list (N * bytes).
Definition has (m : nodesMap) (y : N) : Prop := exists v, mget m y = Some v.
Definition sizedMap (m : nodesMap) : Prop := forall y v, mget m y = Some v -> lenN v = hs.
Definition ext (m m' : nodesMap) : Prop := forall y v, mget m y = Some v -> mget m' y = Some v.
Definition perfect (Q : list N) : Prop := forall y, In y Q -> exists b l, Range n b l /\ nodeId b l = y /\ pow2 l.

Lemma ext_refl m : ext m m. Proof. intros y v; auto. Qed.
Lemma ext_trans a b c : ext a b -> ext b c -> ext a c. Proof. intros A B y v E. auto. Qed.
Lemma ext_has m m' y : ext m m' -> has m y -> has m' y. Proof. intros A (v & E). exists v. auto. Qed.

Lemma has_In m y : has m y <-> In y (map fst m).
Proof.
  unfold has. destruct (mget m y) as [v|] eqn:E.
  - split; [|intros; eauto]. intros _. apply mget_In in E. apply (in_map fst) in E. exact E.
  - split; [intros (v & Hv); discriminate|]. intro I. apply mget_None in E. contradiction.
Qed.

Lemma addToMap_cases m x v : sizedMap m ->
  (exists m', addToMap hs m x v = Ok m' /\ ext m m' /\ sizedMap m' /\ mget m' x = Some v /\ lenN v = hs /\
     (forall y, has m' y <-> y = x \/ has m y) /\ (forall y w, mget m' y = Some w -> mget m y = Some w \/ (y = x /\ w = v))) \/
  (exists msg, addToMap hs m x v = Fail msg).
Proof.
  intro SM. unfold addToMap. destruct (wrongSize hs v) eqn:W; [right; eauto|].
  unfold wrongSize in W. apply negb_false_iff, N.eqb_eq in W.
  destruct (mget m x) as [e|] eqn:E.
  - destruct (bytes_eqb v e) eqn:EB; [|right; eauto]. apply bytes_eqb_eq in EB. subst e. left.
    exists m. split; [auto|]. split; [apply ext_refl|]. split; [auto|]. split; [auto|]. split; [auto|].
    split; [|auto]. intro y. split; auto. intros [->|]; auto. exists v. auto.
  - left. exists (mput m x v). split; [auto|].
    assert (G : forall y w, mget (mput m x v) y = Some w -> mget m y = Some w \/ y = x /\ w = v).
    { intros y w. destruct (N.eq_dec x y) as [->|Hne].
      - rewrite mget_mput_eq. intros [= <-]. auto.
      - rewrite mget_mput_neq by auto. auto. }
    split; [|split; [|split; [|split; [|split]]]]; auto.
    + intros y w Ew. destruct (N.eq_dec x y) as [->|Hne]; [congruence|]. now rewrite mget_mput_neq.
    + intros y w Ew. apply G in Ew as [Ew|[_ ->]]; eauto.
    + apply mget_mput_eq.
    + intro y. unfold has. split.
      * intros (w & Ew). apply G in Ew as [Ew|[-> _]]; eauto.
      * intros [->|(w & Ew)]; [exists v; apply mget_mput_eq|]. destruct (N.eq_dec x y) as [->|Hne]; [congruence|].
        exists w. now rewrite mget_mput_neq.
Qed.

Lemma addAll_cases l : forall m, sizedMap m ->
  (exists m', addAll hs m l = Ok m' /\ ext m m' /\ sizedMap m' /\
     (forall x v, In (x, v) l -> mget m' x = Some v /\ lenN v = hs) /\
     (forall y, has m' y <-> In y (map fst l) \/ has m y) /\
     (forall y w, mget m' y = Some w -> mget m y = Some w \/ In (y, w) l)) \/
  (exists msg, addAll hs m l = Fail msg).
Proof.
  unfold addAll. induction l as [|[x v] l IH]; intros m SM; cbn [foldM].
  - left. exists m. split; [auto|]. split; [apply ext_refl|]. split; [auto|]. split; [intros x v []|].
    split; [cbn; tauto|auto].
  - cbn [fst snd]. destruct (addToMap_cases m x v SM) as [(m1 & E & X1 & S1 & G1 & L1 & K1 & B1)|(msg & E)];
      rewrite E; cbn [bind]; [|right; eauto].
    destruct (IH m1 S1) as [(m2 & E2 & X2 & S2 & G2 & K2 & B2)|(msg & E2)]; [left|right; eauto].
    exists m2. split; [auto|]. split; [eapply ext_trans; eauto|]. split; [auto|]. split; [|split].
    + intros x' v' [Ei|I]; [|auto]. injection Ei as <- <-. auto.
    + intro y. rewrite K2, K1. cbn [map fst In]. split; intros; intuition auto.
    + intros y w Ew. apply B2 in Ew as [Ew|]; [|right; right; auto].
      apply B1 in Ew as [|[-> ->]]; auto. right. now left.
Qed.

(** Completed evaluation. *)
Inductive Done (m : nodesMap) : N -> N -> list N -> Prop :=
| D_stop a len : has m (nodeId a len) -> Done m a len [nodeId a len]
| D_step a len Q : 1 < len -> Q <> [nodeId a len] ->
    Done m a (split len) (below (nodeId a len) Q) ->
    Done m (a + split len) (len - split len) (above (nodeId a len) Q) ->
    (pow2 len -> exists vl vr v, mget m (nodeId a (split len)) = Some vl /\
       mget m (nodeId (a + split len) (len - split len)) = Some vr /\ mget m (nodeId a len) = Some v /\
       H (tagged (split len) vl ++ tagged (len - split len) vr) = Some v) ->
    Done m a len Q.

Lemma Done_ext m m' a len Q : ext m m' -> Done m a len Q -> Done m' a len Q.
Proof.
  intros X D. induction D as [a len K|a len Q Hl Hne D1 IH1 D2 IH2 K].
  - apply D_stop. eapply ext_has; eauto.
  - apply D_step; auto. intro Hp. destruct (K Hp) as (vl & vr & v & E1 & E2 & E3 & E4).
    exists vl, vr, v. auto.
Qed.

Lemma Done_has m a len Q : Done m a len Q -> pow2 len -> has m (nodeId a len).
Proof.
  intros D Hp. destruct D as [a len K|a len Q Hl Hne D1 D2 K]; auto.
  destruct (K Hp) as (vl & vr & v & E1 & E2 & E3 & E4). exists v. auto.
Qed.

Lemma pow2_split len : pow2 (split len).
Proof. eexists. reflexivity. Qed.

Lemma pow2_half len : 1 < len -> pow2 len -> len - split len = split len.
Proof.
  intros Hl (k & ->). assert (k <> 0) by (intros ->; cbn in Hl; lia).
  assert (E : split (2 ^ k) = 2 ^ (k - 1)).
  { unfold split. f_equal. apply N.log2_unique; [lia|].
    replace (N.succ (k - 1)) with k by lia. pose proof (pow2_pos (k - 1)).
    assert (2 ^ (k - 1) < 2 ^ k) by (apply N.pow_lt_mono_r; lia). lia. }
  rewrite E. replace k with (N.succ (k - 1)) at 1 by lia. rewrite N.pow_succ_r'. lia.
Qed.

Lemma evaluate_cases a len Q : Compl a len Q -> forall fuel x m, covers n x a len -> level x < N.of_nat fuel ->
  (forall y, In y Q -> has m y) -> sizedMap m ->
  (exists m', evaluate H hs fuel x n m Q = Ok m' /\ ext m m' /\ sizedMap m' /\ Done m' a len Q) \/
  (exists msg, evaluate H hs fuel x n m Q = Fail msg).
Proof.
  induction 1 as [a len|a len Q Hl Hne C1 IH1 C2 IH2]; intros fuel x m C Hf K SM;
    pose proof (covers_nodeId n x a len Hn C) as Ex; (destruct fuel as [|f]; [lia|]); cbn [evaluate].
  - left. exists m. rewrite <- Ex, N.eqb_refl. split; [auto|]. split; [apply ext_refl|]. split; [auto|].
    rewrite Ex. apply D_stop. apply K. now left.
  - replace (match Q with [y] => y =? x | _ => false end) with false.
    2:{ destruct Q as [|y [|]]; auto. symmetry. apply N.eqb_neq. congruence. }
    destruct (covers_children n x a len Hn C Hl)
      as (l & r & El & Er & Hxl & Hxr & Ll & Lr & Exx & Ps & Hs & Cl & Cr & _).
    rewrite El, Er. cbn [bind].
    pose proof (covers_nodeId n l _ _ Hn Cl) as Exl. pose proof (covers_nodeId n r _ _ Hn Cr) as Exr.
    rewrite <- Ex in IH1, IH2.
    destruct (IH1 f l m Cl) as [(m1 & E1 & X1 & S1 & D1)|(msg & E1)]; [lia| |auto| |].
    { intros y Hy. apply below_In in Hy as [Hy _]. auto. }
    2:{ rewrite E1. cbn [bind]. right. eauto. }
    rewrite E1. cbn [bind].
    destruct (IH2 f r m1 Cr) as [(m2 & E2 & X2 & S2 & D2)|(msg & E2)]; [lia| |auto| |].
    { intros y Hy. apply above_In in Hy as [Hy _]. eapply ext_has; eauto. }
    2:{ rewrite E2. cbn [bind]. right. eauto. }
    rewrite E2. cbn [bind]. apply (Done_ext m1 m2) in D1; auto.
    pose proof (isFullSubtree_spec n x a len Hn C) as FS.
    destruct (isFullSubtree x n).
    + assert (Hp : pow2 len) by tauto. clear FS.
      assert (K1 : has m2 l). { rewrite Exl. eapply Done_has; eauto. apply pow2_split. }
      assert (K2 : has m2 r). { rewrite Exr. eapply Done_has; eauto. rewrite pow2_half by auto. apply pow2_split. }
      destruct K1 as (vl & Kl), K2 as (vr & Kr). unfold nodeAt. rewrite Kl, Kr. cbn [bind].
      rewrite (treeHash_spec H hs) by eauto.
      destruct (H _) as [h|] eqn:EH; cbn [bind]; [|right; eauto]. cbn [snd].
      rewrite Exl, Exr in EH. rewrite <- !tagged_node in EH by lia.
      destruct (addToMap_cases m2 x h S2) as [(m3 & E3 & X3 & S3 & G3 & _)|(msg & E3)]; [left|right; eauto].
      exists m3. split; [auto|]. split; [eauto using ext_trans|]. split; [auto|].
      apply D_step; auto.
      * rewrite <- Ex. apply (Done_ext m2 m3); auto.
      * rewrite <- Ex. apply (Done_ext m2 m3); auto.
      * intros _. exists vl, vr, h. rewrite <- Exl, <- Exr, <- Ex. auto.
    + left. exists m2. split; [auto|]. split; [eauto using ext_trans|]. split; [auto|].
      apply D_step; auto; try (rewrite <- Ex; auto). intro Hp. apply FS in Hp. discriminate.
Qed.

Lemma Vis_has m a len Q : Done m a len Q -> Range n a len -> forall y b l, Vis a len Q y ->
  nodeId b l = y -> Range n b l -> pow2 l -> has m y.
Proof.
  intros D. induction D as [a len K|a len Q Hl Hne D1 IH1 D2 IH2 K]; intros R y b l V Ey R2 Hp.
  - inversion V as [| |]; subst; auto; congruence.
  - inversion V as [| a0 l0 Q0 y0 _ _ V' | a0 l0 Q0 y0 _ _ V']; subst.
    + destruct (Range_unique n b l a len) as [-> ->]; auto.
      destruct (K Hp) as (vl & vr & v & E1 & E2 & E3 & E4). exists v. auto.
    + eapply IH1; eauto using R_left.
    + eapply IH2; eauto using R_right.
Qed.

Lemma Parts_Vis a len Q parts : Compl a len Q -> Range n a len -> perfect Q -> Parts a len parts ->
  forall z, In z parts -> Vis a len Q (nodeOf z).
Proof.
  intros C R PQ P. revert Q C PQ. induction P as [a len Hp|a len rest Hp Hl P IH]; intros Q C PQ z Hz.
  - destruct Hz as [<-|[]]. apply V_here.
  - inversion C as [|a0 l0 Q0 _ Hne C1 C2]; subst.
    + exfalso. destruct (PQ (nodeId a len)) as (b & l & R2 & E & Hp2); [now left|].
      destruct (Range_unique n b l a len) as [-> ->]; auto.
    + destruct Hz as [<-|Hz].
      * apply V_left; auto. rewrite nodeOf_pair. apply V_here.
      * apply V_right; auto. apply IH; auto using R_right.
        intros y Hy. apply above_In in Hy as [Hy _]. auto.
Qed.

(** *** Soundness *)

(** The value the verifier's map gives to a range. *)
Inductive Val (m : nodesMap) : N -> N -> bytes -> Prop :=
| Val_pow a len v : pow2 len -> mget m (nodeId a len) = Some v -> Val m a len v
| Val_node a len vl vr v : ~ pow2 len -> 1 < len -> Val m a (split len) vl ->
    Val m (a + split len) (len - split len) vr ->
    H (tagged (split len) vl ++ tagged (len - split len) vr) = Some v -> Val m a len v.

Lemma Val_sized m a len v : sizedMap m -> Val m a len v -> lenN v = hs.
Proof. intros SM V. destruct V; eauto. Qed.

Lemma evaluate_sound L m a len Q : collisionFree H -> lenN L = n -> Forall (fun e : bytes => lenN e = hs) L ->
  sizedMap m -> Done m a len Q -> perfect Q -> Range n a len ->
  forall w, Val m a len w -> NodeVal H L a len w ->
  forall y b l, Vis a len Q y -> nodeId b l = y -> Range n b l -> pow2 l ->
  exists v, mget m y = Some v /\ NodeVal H L b l v.
Proof.
  intros CF EL FL SM D. induction D as [a len K|a len Q Hl Hne D1 IH1 D2 IH2 K]; intros PQ R w W NV y b l V Ey R2 Hp.
  - assert (y = nodeId a len) by (inversion V; subst; auto; congruence). subst y.
    destruct (Range_unique n b l a len) as [-> ->]; auto.
    inversion W as [a0 l0 v0 _ G|]; subst; [|contradiction]. exists w. auto.
  - assert (HL : a + len <= lenN L).
    { pose proof (covers_Range n _ _ Hn R) as (_ & _ & _ & ? & _). lia. }
    pose proof (split_spec len Hl) as Sp.
    assert (G : exists vl vr, Val m a (split len) vl /\ Val m (a + split len) (len - split len) vr /\
        NodeVal H L a (split len) vl /\ NodeVal H L (a + split len) (len - split len) vr).
    { apply NodeVal_step in NV as (ul & ur & Nl & Nr & EU); auto.
      assert (exists vl vr, Val m a (split len) vl /\ Val m (a + split len) (len - split len) vr /\
                H (tagged (split len) vl ++ tagged (len - split len) vr) = Some w) as (vl & vr & Vl & Vr & EV).
      { inversion W as [a0 l0 v0 Hp2 G|a0 l0 vl vr v0 Hnp _ Vl Vr EV]; subst.
        - destruct (K Hp2) as (vl & vr & v & E1 & E2 & E3 & E4). exists vl, vr.
          assert (v = w) by congruence. subst v. split; [apply Val_pow; auto using pow2_split|].
          split; auto. apply Val_pow; auto. rewrite pow2_half by auto. apply pow2_split.
        - exists vl, vr. auto. }
      pose proof (CF _ _ _ EU EV) as E. apply tagged_inj in E as [-> ->]; [exists vl, vr; auto|].
      rewrite (NodeVal_sized H hs Hsized L _ _ _ FL Nl). symmetry. eapply Val_sized; eauto. }
    destruct G as (vl & vr & Vl & Vr & Nl & Nr).
    inversion V as [| a0 l0 Q0 y0 _ _ V' | a0 l0 Q0 y0 _ _ V']; subst y.
    + destruct (Range_unique n b l a len) as [-> ->]; auto.
      inversion W as [a1 l1 v1 _ G|]; subst; [|contradiction]. exists w. auto.
    + subst. eapply IH1; eauto using R_left. intros y Hy. apply below_In in Hy as [Hy _]. auto.
    + subst. eapply IH2; eauto using R_right. intros y Hy. apply above_In in Hy as [Hy _]. auto.
Qed.

(** The roll-up of [logRoot], on the verifier's map. *)
Lemma rollup_Val m a len parts fs :
  sizedMap m -> Range n a len -> Parts a len parts -> Forall2 (fun z v => mget m (nodeOf z) = Some v) parts fs ->
  exists z v t, rev (combine (map nodeOf parts) fs) = (nodeOf z, v) :: t /\
    (forall lf w, rollup H t (isLeaf (nodeOf z), v) = Ok (lf, w) -> lf = isLeaf (nodeId a len) /\ Val m a len w) /\
    (forall s, rollup H t (isLeaf (nodeOf z), v) <> Panic s) /\ rollup H t (isLeaf (nodeOf z), v) <> Fuel.
Proof.
  intros SM R P. revert fs. induction P as [a len Hp|a len rest Hp Hl P IH]; intros fs F.
  - inversion F as [|z v t fs' V F']; subst. inversion F'; subst.
    exists (a, len), v, []. split; [reflexivity|]. cbn [rollup]. split; [|split; discriminate].
    intros lf w E. injection E as <- <-. split; [auto|]. apply Val_pow; auto.
  - destruct fs as [|y fs]; [inversion F|]. apply Forall2_cons_inv in F as [V F']. rewrite nodeOf_pair in V.
    pose proof (split_spec len Hl) as Sp.
    destruct (IH (R_right _ _ _ R Hl) _ F') as (z' & v' & t & E & W & W2 & W3).
    exists z', v', (t ++ [(nodeOf (a, split len), y)]). split.
    + cbn [map combine rev]. rewrite E. reflexivity.
    + rewrite rollup_app. destruct (rollup H t (isLeaf (nodeOf z'), v')) as [[lf' vr]| | |]; cbn [bind];
        [|split; [discriminate|split; discriminate]|exfalso; eapply W2; reflexivity|exfalso; now apply W3].
      destruct (W _ _ eq_refl) as [-> Vr].
      cbn [bind rollup]. rewrite (treeHash_spec H hs) by (eauto; eapply Val_sized; eauto). rewrite nodeOf_pair.
      rewrite <- !tagged_node by lia. destruct (H _) as [h|] eqn:EH; cbn [bind]; [|split; [discriminate|split; discriminate]].
      split; [|split; discriminate].
      intros lf w [= <- <-]. split.
      * symmetry. unfold nodeId. destruct (N.eqb_spec len 1); [lia|].
        unfold isLeaf. apply N.eqb_neq. rewrite land_1. lia.
      * apply Val_node with y vr; auto. apply Val_pow; auto. apply pow2_split.
Qed.

(** *** Completeness *)
Definition truthful (L : list bytes) (m : nodesMap) : Prop :=
  forall b l v, Range n b l -> mget m (nodeId b l) = Some v -> NodeVal H L b l v.

Lemma addToMap_true L m b l v : Forall (fun e : bytes => lenN e = hs) L -> truthful L m ->
  Range n b l -> NodeVal H L b l v ->
  exists m', addToMap hs m (nodeId b l) v = Ok m' /\ truthful L m' /\ ext m m' /\ mget m' (nodeId b l) = Some v.
Proof.
  intros FL T R V. unfold addToMap, wrongSize. rewrite (NodeVal_sized H hs Hsized L _ _ _ FL V), N.eqb_refl. cbn [negb].
  destruct (mget m (nodeId b l)) as [e|] eqn:E.
  - pose proof (NodeVal_fun _ _ _ _ _ _ (T _ _ _ R E) V) as Ev. subst e. rewrite bytes_eqb_refl. exists m.
    split; [auto|]. split; [auto|]. split; [apply ext_refl|auto].
  - exists (mput m (nodeId b l) v). split; [auto|]. split; [|split].
    + intros b' l' v' R'. destruct (N.eq_dec (nodeId b l) (nodeId b' l')) as [E'|Hne].
      * rewrite <- E', mget_mput_eq. intros [= <-]. destruct (Range_unique n b l b' l') as [<- <-]; auto.
      * rewrite mget_mput_neq by auto. auto.
    + intros y w Ew. destruct (N.eq_dec (nodeId b l) y) as [<-|Hne]; [congruence|]. now rewrite mget_mput_neq.
    + apply mget_mput_eq.
Qed.

Lemma addAll_true L l : Forall (fun e : bytes => lenN e = hs) L -> forall m, truthful L m ->
  Forall (fun p => exists b k, Range n b k /\ nodeId b k = fst p /\ NodeVal H L b k (snd p)) l ->
  exists m', addAll hs m l = Ok m' /\ truthful L m' /\ ext m m'.
Proof.
  intros FL. unfold addAll. induction l as [|[x v] l IH]; intros m T F; cbn [foldM].
  - exists m. split; [auto|]. split; [auto|]. apply ext_refl.
  - inversion F as [|p ps (b & k & R & Ex & V) F']; subst. cbn [fst snd] in *. subst x.
    destruct (addToMap_true L m b k v FL T R V) as (m1 & E1 & T1 & X1 & _). rewrite E1. cbn [bind].
    destruct (IH m1 T1 F') as (m2 & E2 & T2 & X2). exists m2. split; [auto|]. split; [auto|]. eapply ext_trans; eauto.
Qed.

Lemma evaluate_true L a len Q : lenN L = n -> Forall (fun e : bytes => lenN e = hs) L ->
  (forall a len, Range n a len -> exists w, NodeVal H L a len w) ->
  Compl a len Q -> forall fuel x m, covers n x a len -> Range n a len -> level x < N.of_nat fuel ->
  (forall y, In y Q -> has m y) -> truthful L m ->
  exists m', evaluate H hs fuel x n m Q = Ok m' /\ ext m m' /\ truthful L m' /\ (pow2 len -> has m' x).
Proof.
  intros EL FL AV CQ. induction CQ as [a len|a len Q Hl Hne C1 IH1 C2 IH2]; intros fuel x m C R Hf K T;
    pose proof (covers_nodeId n x a len Hn C) as Ex; (destruct fuel as [|f]; [lia|]); cbn [evaluate].
  - exists m. rewrite <- Ex, N.eqb_refl. split; [auto|]. split; [apply ext_refl|]. split; [auto|].
    intros _. rewrite Ex. apply K. now left.
  - replace (match Q with [y] => y =? x | _ => false end) with false.
    2:{ destruct Q as [|y [|]]; auto. symmetry. apply N.eqb_neq. congruence. }
    destruct (covers_children n x a len Hn C Hl)
      as (l & r & El & Er & Hxl & Hxr & Ll & Lr & Exx & Ps & Hs & Cl & Cr & _).
    rewrite El, Er. cbn [bind].
    pose proof (covers_nodeId n l _ _ Hn Cl) as Exl. pose proof (covers_nodeId n r _ _ Hn Cr) as Exr.
    rewrite <- Ex in IH1, IH2.
    assert (Rl : Range n a (split len)) by (now apply R_left).
    assert (Rr : Range n (a + split len) (len - split len)) by (now apply R_right).
    destruct (IH1 f l m Cl Rl) as (m1 & E1 & X1 & T1 & K1); [lia| |auto|].
    { intros y Hy. apply below_In in Hy as [Hy _]. auto. }
    rewrite E1. cbn [bind].
    destruct (IH2 f r m1 Cr Rr) as (m2 & E2 & X2 & T2 & K2); [lia| |auto|].
    { intros y Hy. apply above_In in Hy as [Hy _]. eapply ext_has; eauto. }
    rewrite E2. cbn [bind].
    pose proof (isFullSubtree_spec n x a len Hn C) as FS.
    destruct (isFullSubtree x n).
    + assert (Hp : pow2 len) by tauto. clear FS.
      destruct (ext_has _ _ _ X2 (K1 (pow2_split len))) as (vl & Kl).
      destruct K2 as (vr & Kr). { rewrite pow2_half by auto. apply pow2_split. }
      unfold nodeAt. rewrite Kl, Kr. cbn [bind]. rewrite Exl in Kl. rewrite Exr in Kr.
      pose proof (T2 _ _ _ Rl Kl) as Vl. pose proof (T2 _ _ _ Rr Kr) as Vr.
      rewrite (treeHash_spec H hs) by (eauto; eapply (NodeVal_sized H hs); eauto).
      destruct (AV _ _ R) as (w & W). assert (W2 := W).
      pose proof (covers_Range n _ _ Hn R) as (_ & _ & _ & HL & _).
      apply NodeVal_step in W2 as (ul & ur & Ul & Ur & EU); [|auto|lia].
      rewrite (NodeVal_fun _ _ _ _ _ _ Ul Vl), (NodeVal_fun _ _ _ _ _ _ Ur Vr) in EU.
      rewrite Exl, Exr. rewrite <- !tagged_node by lia. rewrite EU. cbn [bind snd].
      destruct (addToMap_true L m2 a len w FL T2 R W) as (m3 & E3 & T3 & X3 & G3).
      rewrite Ex. exists m3. split; [auto|]. split; [eauto using ext_trans|]. split; [auto|]. intros _. exists w. auto.
    + exists m2. split; [auto|]. split; [eauto using ext_trans|]. split; [auto|].
      intro Hp. apply FS in Hp. discriminate.
Qed.
End Hash.
