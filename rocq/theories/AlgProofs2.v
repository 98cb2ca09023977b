(** PreviousRightmost. *)
From Verif Require Import Base BaseProofs LogMathModel NodeMathProofs LogMathProofs TransMathModel TransMathSpec TransMathProofs TransMathProofs2 LaddersModel CodecModel AlgModel AlgSpec AlgProofs.

Lemma SFront_ex a len : 1 <= len -> exists q, SFront a len q.
Proof.
  assert (forall k b m, (N.to_nat m <= k)%nat -> 1 <= m -> exists q, SFront b m q) as G.
  { induction k as [|k IH]; intros b m Hk Hm; [lia|]. pose proof (lsize_lt m Hm). destruct (N.eq_dec m (lsize m + 1)).
    - exists [sroot b m]. constructor; auto.
    - destruct (IH (sroot b m + 1) (m - lsize m - 1)) as [q Hq]; [lia|lia|]. exists (sroot b m :: q). constructor; auto. lia. }
  intro H. apply (G (N.to_nat len)); lia.
Qed.

Lemma SFront_fun a len l : SFront a len l -> forall l', SFront a len l' -> l = l'.
Proof. intro H. induction H; intros l' H'; inversion H'; subst; auto; try lia. f_equal. auto. Qed.

Lemma SFront_prev a len l : SFront a len l -> 2 <= len ->
  exists l', SFront a (len - 1) l' /\ forall x, In x l -> x = a + len - 1 \/ In x l'.
Proof.
  intro H. induction H as [a len E|a len rest Hr H IH]; intro H2.
  - destruct (SFront_ex a (len - 1)) as [l' Hl']; [lia|]. exists l'. split; auto. intros x [<-|[]]. left. unfold sroot. lia.
  - assert (EL : lsize (len - 1) = lsize len).
    { unfold lsize in *. destruct (N.log2_spec len) as [A B]; [lia|]. rewrite (N.log2_unique (len - 1) (N.log2 len)); auto; lia. }
    assert (ES : sroot a (len - 1) = sroot a len) by (unfold sroot; rewrite EL; auto).
    destruct (N.eq_dec (len - lsize len - 1) 1) as [E1|E1].
    + exists [sroot a len]. split.
      * rewrite <- ES. constructor. rewrite EL. lia.
      * intros x [<-|Hx]; [right; left; auto|]. left.
        assert (In x [sroot (sroot a len + 1) 1]).
        { rewrite E1 in H. assert (F : SFront (sroot a len + 1) 1 [sroot (sroot a len + 1) 1]) by (constructor; reflexivity).
          rewrite <- (SFront_fun _ _ _ H _ F). auto. }
        destruct H0 as [<-|[]]. unfold sroot at 1. change (lsize 1) with 0. unfold sroot in *. lia.
    + destruct IH as (l' & F & I); [lia|]. exists (sroot a len :: l'). split.
      * rewrite <- ES. constructor; [rewrite EL; lia|]. rewrite ES, EL.
        replace (len - 1 - lsize len - 1) with (len - lsize len - 1 - 1) by lia. auto.
      * intros x [<-|Hx]; [right; left; auto|]. destruct (I x Hx) as [->|Hi]; [|right; right; auto].
        left. unfold sroot. lia.
Qed.

(** If the last entry of a subtree is distinguished: where its own subtree is, what its left bound is. *)
Lemma last_dist n ts w a len l R y : DIn ts w a len l R y -> 1 <= len -> y = a + len - 1 ->
  exists a' len' l', sroot a' len' = y /\ a' + len' = a + len /\ len' = lsize len' + 1 /\ l' + w <= R /\
    (SRange n a len -> SRange n a' len') /\
    (forall z, DIn ts w a len l R z -> z < a' \/ DIn ts w a' len' l' R z) /\
    (forall z, DIn ts w a' len' l' R z -> DIn ts w a len l R z) /\
    ((a' = a /\ len' = len /\ l' = l) \/
     exists ap lenp, (SRange n a len -> SRange n ap lenp) /\ a' = sroot ap lenp + 1 /\ len' = lenp - lsize lenp - 1 /\
       lsize lenp + 1 < lenp /\ l' = ts (sroot ap lenp) /\ DIn ts w a len l R (sroot ap lenp)) /\
    (forall q, 0 < lsize len' -> SFront a' (lsize len') q -> exists pre, SFront a (len - 1) (pre ++ q)).
Proof.
  intro H. induction H as [a len l r Hb|a len l r y Hb Hl H IH|a len l r y Hb Hr H IH]; intros H1 E.
  - exists a, len, l. pose proof (lsize_lt len H1). repeat split; auto.
    + unfold sroot in E. lia.
    + intros q Hq F. exists []. cbn [app]. replace (len - 1) with (lsize len) by (unfold sroot in E; lia). auto.
  - exfalso. pose proof (lsize_lt len H1). apply DIn_range in H; lia.
  - pose proof (lsize_lt len H1) as HL. destruct IH as (a' & len' & l' & A1 & A2 & A3 & A4 & A5 & A6 & A6' & A7 & A8); [lia|unfold sroot in *; lia|].
    assert (Hge : sroot a len + 1 <= a').
    { destruct A7 as [(-> & _)|(ap & lenp & _ & -> & _ & _ & _ & D)]; [lia|]. apply DIn_range in D; lia. }
    exists a', len', l'. split; auto. split; [unfold sroot in *; lia|]. split; auto. split; auto.
    split; [intro R0; apply A5; constructor; auto|]. split; [|split; [|split]].
    + intros z Hz. inversion Hz; subst.
      * left. lia.
      * match goal with D : DIn _ _ _ _ _ _ z |- _ => apply DIn_range in D end; unfold sroot in *; lia.
      * auto.
    + intros z Hz. apply DI_right; auto.
    + right. destruct A7 as [(-> & -> & ->)|(ap & lenp & B1 & B2 & B3 & B4 & B5 & D)].
      * exists a, len. repeat split; auto. constructor; auto.
      * exists ap, lenp. repeat split; auto.
        -- intro R0. apply B1. constructor; auto.
        -- apply DI_right; auto.
    + intros q Hq F. destruct (A8 q Hq F) as [pre Hp].
      assert (EL : lsize (len - 1) = lsize len).
      { unfold lsize in *. destruct (N.log2_spec len) as [A B]; [lia|]. rewrite (N.log2_unique (len - 1) (N.log2 len)); auto; lia. }
      assert (ES : sroot a (len - 1) = sroot a len) by (unfold sroot; rewrite EL; auto).
      assert (2 <= len - lsize len - 1).
      { assert (1 <= len') by lia. unfold sroot in *. lia. }
      exists (sroot a len :: pre). cbn [app]. rewrite <- ES. constructor; [rewrite EL; lia|]. rewrite ES, EL.
      replace (len - 1 - lsize len - 1) with (len - lsize len - 1 - 1) by lia. auto.
Qed.

Section Honest.
Variable c : pubConfig.
Variable L : hlog.
Hypothesis HL : okLog L.
Let n := h_n L.
Let ts := h_ts L.
Let w := pc_rmw c.

Lemma previous_loop_spec fuel : forall a len l s (Q : event -> Prop),
  SRange n a len -> a + len = n - 1 -> l + w <= ts (n - 1) -> N.log2 len < N.of_nat fuel ->
  (forall x, x < n -> (exists p q, SFront a len (p ++ x :: q)) -> Q (EvTs x (Ok (ts x)))) ->
  exists y, runs (honest L) (previous_loop c fuel n (ts (n - 1)) (sroot a len)) s (Ok (Some y)) s Q /\
    greatestOf (DIn ts w a len l (ts (n - 1))) (Some y).
Proof.
  assert (Hn : 1 <= n < 2 ^ 64) by apply HL.
  induction fuel as [|f IH]; intros a len l s Q R E Hl Hf HQ; [lia|].
  destruct (nav_len n a len Hn R) as (L1 & L2 & L3).
  cbn [previous_loop]. rewrite (nav_noRight n a len Hn R).
  destruct (N.eqb_spec len (lsize len + 1)) as [E1|E1].
  - exists (sroot a len). split; [apply runs_ret|]. split; [constructor; auto|]. intros y Hy. apply DIn_range in Hy; auto. unfold sroot. lia.
  - assert (Hr : lsize len + 1 < len) by lia.
    assert (Hx : sroot a len < n - 1) by (unfold sroot in *; lia).
    assert (Hts : ts (sroot a len) <= ts (n - 1)) by (apply HL; fold n; lia).
    assert (Ht64 : ts (n - 1) < two64) by (apply HL; fold n; lia).
    assert (Hq : Q (EvTs (sroot a len) (Ok (ts (sroot a len))))).
    { apply HQ; [lia|]. destruct (SFront_ex (sroot a len + 1) (len - lsize len - 1)) as [q Hq]; [lia|].
      exists [], q. constructor; auto. }
    assert (T0 : runs (honest L) (getTs (sroot a len)) s (Ok (ts (sroot a len))) s Q) by (apply runs_getTs; auto; fold n; lia).
    destruct (isDistinguished (pc_rmw c) (ts (sroot a len)) (ts (n - 1))) eqn:ED.
    + pose proof (nav_right n a len Hn R Hr) as ER. pose proof ED as ED'. apply isDist_spec in ED'; auto.
      destruct (IH (sroot a len + 1) (len - lsize len - 1) (ts (sroot a len)) s Q) as (y & Ry & Gy); auto.
      * constructor; auto.
      * unfold sroot in *. lia.
      * pose proof (rsize_log len Hr). lia.
      * intros x Hx' (p & q & F). apply HQ; auto. exists (sroot a len :: p), q. constructor; auto.
      * exists y. split.
        -- eapply runs_bind; [exact T0|]. rewrite ED. cbn [negb]. eapply runs_bind; [apply runs_lift, ER|]. exact Ry.
        -- destruct Gy as [G1 G2]. split; [apply DI_right; auto|]. intros z Hz.
           assert (sroot a len + 1 <= y) by (apply DIn_range in G1; lia).
           inversion Hz; subst.
           ++ lia.
           ++ match goal with H : DIn _ _ _ _ _ _ z |- _ => apply DIn_range in H; [unfold sroot in *; lia|lia] end.
           ++ apply G2. auto.
    + exists (sroot a len). split.
      * eapply runs_bind; [exact T0|]. rewrite ED. cbn [negb]. apply runs_ret.
      * apply isDist_false in ED; auto. split; [constructor; auto|]. intros z Hz. inversion Hz; subst.
        -- lia.
        -- match goal with H : DIn _ _ _ _ _ _ z |- _ => apply DIn_range in H; [unfold sroot in *; lia|lia] end.
        -- match goal with H : DIn _ _ _ _ _ _ z |- _ => apply DIn_bound in H; fold w in ED; lia end.
Qed.

Lemma previousRightmost_spec s (Q : event -> Prop) :
  (forall x, x < n -> x = n - 1 \/ (2 <= n /\ exists p q, SFront 0 (n - 1) (p ++ x :: q)) -> Q (EvTs x (Ok (ts x)))) ->
  exists o, runs (honest L) (previousRightmost c n) s (Ok o) s Q /\
    greatestOf (fun y => distinguished n ts w y /\ y < n - 1) o.
Proof.
  assert (Hn : 1 <= n < 2 ^ 64) by apply HL. intro HQ.
  assert (HQ1 : forall x, x < n -> x = n - 1 \/ (exists p q, SFront 0 n (p ++ x :: q)) -> Q (EvTs x (Ok (ts x)))).
  { intros x Hx [->|(p & q & F)]; [apply HQ; auto|]. destruct (N.eq_dec x (n - 1)) as [->|Ne]; [apply HQ; auto|].
    apply HQ; auto. right. assert (2 <= n) by lia. split; auto. destruct (SFront_prev _ _ _ F) as (l' & F' & I); auto.
    destruct (I x) as [->|Hi]; [apply in_or_app; right; left; auto|lia|]. apply in_split in Hi as (p' & q' & ->). eauto. }
  destruct (rightmost_spec c L HL s Q HQ1) as (o & Ro & Go). fold n ts w in Ro, Go.
  unfold previousRightmost. destruct o as [r|].
  2:{ exists None. split; [eapply runs_bind; [exact Ro|apply runs_ret]|]. intros y (Hy & _). apply (Go y Hy). }
  destruct Go as [G1 G2].
  assert (Hrn : r < n) by (apply DIn_range in G1; lia).
  rewrite sub1_64 by auto.
  destruct (N.eqb_spec r (n - 1)) as [Er|Er].
  2:{ exists (Some r). split.
      - eapply runs_bind; [exact Ro|]. cbn. rewrite (proj2 (N.eqb_neq _ _) Er). cbn. apply runs_ret.
      - split; [split; auto; lia|]. intros y (Hy & _). auto. }
  subst r. destruct (last_dist n ts w 0 n 0 (ts (n - 1)) (n - 1) G1) as (a' & len' & l' & A1 & A2 & A3 & A4 & A5 & A6 & A6' & A7 & A8); [lia|lia|].
  specialize (A5 (SR_root n)).
  assert (Ht64 : forall x, x < n -> ts x < two64) by (intros; apply HL; fold n; lia).
  assert (Tn : forall s, runs (honest L) (getTs (n - 1)) s (Ok (ts (n - 1))) s Q) by (intros; apply runs_getTs; [fold n; lia|apply HQ; [lia|auto]]).
  destruct (c09_entries n Hn) as (ER & _).
  set (parent := if N.eq_dec (n - 1) (troot n) then None else Some (a' - 1)).
  assert (HP : runs (honest L) (if n - 1 =? troot n then Ret None else pbind (lift (tparent (n - 1) n)) (fun t => Ret (Some t))) s (Ok parent) s Q /\
    runs (honest L) (match parent with Some p => getTs p | None => Ret 0 end) s (Ok l') s Q /\
    match parent with Some p => DIn ts w 0 n 0 (ts (n - 1)) p /\ a' = p + 1 /\ ts p = l' | None => a' = 0 /\ l' = 0 end).
  { unfold parent. destruct (N.eq_dec (n - 1) (troot n)) as [Et|Et].
    - rewrite (proj2 (N.eqb_eq _ _) Et).
      destruct (c09_entries n Hn) as (_ & _ & U & _).
      destruct (U a' len' 0 n A5 (SR_root n)) as [-> ->]; [congruence|].
      assert (l' = 0). { destruct A7 as [(_ & _ & ->)|(ap & lenp & _ & B2 & _)]; auto. unfold sroot in B2. lia. }
      subst l'. repeat split; auto; apply runs_ret.
    - rewrite (proj2 (N.eqb_neq _ _) Et).
      destruct A7 as [(-> & -> & ->)|(ap & lenp & B1 & B2 & B3 & B4 & B5 & D)].
      { exfalso. apply Et. rewrite ER. auto. }
      specialize (B1 (SR_root n)). destruct (c09_nav n ap lenp Hn B1) as (_ & _ & _ & NV).
      destruct NV as [_ NV]; [unfold sroot; lia|]. rewrite <- B2, <- B3, A1 in NV.
      replace (a' - 1) with (sroot ap lenp) by lia.
      assert (Hp : sroot ap lenp < n - 1). { apply DIn_range in D; [|lia]. unfold sroot in *. lia. }
      repeat split; auto.
      + eapply runs_bind; [apply runs_lift, NV|]. apply runs_ret.
      + subst l'. apply runs_getTs; [fold n; lia|].
        apply HQ1; [lia|]. right. (* ancestors of the last entry are on the frontier *)
        clear - D Hn B2 B3 A2 A1 Hp B4 B1 HL.
        assert (G : forall a len, SRange n a len -> a + len = n -> sroot ap lenp >= a -> exists p q, SFront a len (p ++ sroot ap lenp :: q)).
        { intros a len. remember (N.to_nat len) as k. assert (Hk : (N.to_nat len <= k)%nat) by lia. clear Heqk. revert a len Hk.
          induction k as [|k IH]; intros a len Hk R E Ha.
          - pose proof (nav_len n a len Hn R). lia.
          - pose proof (nav_len n a len Hn R) as (L1 & L2 & L3).
            destruct (N.eq_dec (sroot ap lenp) (sroot a len)) as [Es|Es].
            + rewrite Es. exists [].
              destruct (N.eq_dec len (lsize len + 1)); [exists []; constructor; auto|].
              destruct (SFront_ex (sroot a len + 1) (len - lsize len - 1)) as [q Hq]; [lia|]. exists q. constructor; auto. lia.
            + destruct (N.le_gt_cases (sroot a len + 1) (sroot ap lenp)) as [Hg|Hg].
              * destruct (IH (sroot a len + 1) (len - lsize len - 1)) as (p & q & F); try (unfold sroot in *; lia).
                -- constructor; auto. unfold sroot in *. lia.
                -- exists (sroot a len :: p), q. constructor; auto. unfold sroot in *. lia.
              * exfalso.
                assert (Hn' : 1 <= n <= two64 - 1) by (destruct Hn; split; auto; apply lt64_le; auto).
                pose proof (SRange_scov n _ _ Hn' B1) as (_ & S1 & S1'). pose proof (SRange_scov n _ _ Hn' R) as (_ & S2 & S2').
                assert (Hpn : ap + lenp = n) by (unfold sroot in *; lia).
                assert (A1' : anc (sroot ap lenp) (sroot a len)) by (unfold anc; unfold sroot in *; lia).
                assert (A2' : anc (sroot a len) (sroot ap lenp)) by (unfold anc; unfold sroot in *; lia).
                apply Es. destruct (N.eq_dec (sroot ap lenp) (sroot a len)) as [|Nq]; auto.
                pose proof (nav_lt n a len Hn R). pose proof (nav_lt n ap lenp Hn B1).
                pose proof (anc_level (sroot ap lenp) (sroot a len) ltac:(lia) A1' Nq). pose proof (anc_level (sroot a len) (sroot ap lenp) ltac:(lia) A2' ltac:(auto)). lia. }
        apply (G 0 n (SR_root n)); lia. }
  destruct HP as (HP1 & HP2 & HP3).
  pose proof (nav_len n a' len' Hn A5) as (L1 & L2 & L3).
  assert (Hll : l' <= ts (n - 1)).
  { destruct parent as [p|]; [|lia]. destruct HP3 as (_ & Ha' & <-). apply HL. fold n. lia. }
  assert (ED : isDistinguished (pc_rmw c) l' (ts (n - 1)) = true) by (apply isDist_spec; auto; apply Ht64; lia).
  assert (NL : noLeftChild (n - 1) = (lsize len' =? 0)) by (rewrite <- A1; apply (nav_noLeft n a' len' Hn A5)).
  assert (NX : runs (honest L) (if hasLeftChild (n - 1) && isDistinguished (pc_rmw c) l' (ts (n - 1))
      then pbind (lift (tleft (n - 1))) (fun out => previous_loop c 66 n (ts (n - 1)) out) else Ret parent) s
      (Ok (if N.eq_dec (lsize len') 0 then parent else None)) s Q \/ 0 < lsize len').
  { destruct (N.eq_dec (lsize len') 0) as [E0|E0]; [|right; lia]. left. unfold hasLeftChild. rewrite NL, E0. cbn. apply runs_ret. }
  destruct (N.eq_dec (lsize len') 0) as [E0|E0].
  - destruct NX as [NX|NX]; [|lia]. exists parent. split.
    + eapply runs_bind; [exact Ro|]. cbn beta iota. rewrite N.eqb_refl. cbn [negb].
      eapply runs_bind; [exact HP1|]. eapply runs_bind; [exact HP2|]. eapply runs_bind; [apply Tn|]. exact NX.
    + assert (a' = n - 1) by lia. destruct parent as [p|]; cbn.
      * destruct HP3 as (D & E' & _). split; [split; auto; lia|]. intros y (Hy & Hy'). lia.
      * destruct HP3 as (Ea & _). intros y (Hy & Hy'). lia.
  - assert (Hls : 0 < lsize len') by lia. clear NX.
    destruct (previous_loop_spec 66 a' (lsize len') l' s Q) as (y & Ry & Gy1 & Gy2).
    + constructor; auto.
    + lia.
    + auto.
    + pose proof (lsize_log len' Hls). assert (N.log2 n < 64) by (apply N.log2_lt_pow2; lia).
      assert (N.log2 len' <= N.log2 n) by (apply N.log2_le_mono; lia). lia.
    + intros x Hx (p & q & F). apply HQ; auto. right. split; [lia|]. destruct (A8 _ Hls F) as [pre Hp].
      exists (pre ++ p), q. rewrite <- app_assoc. auto.
    + exists (Some y). split.
      * eapply runs_bind; [exact Ro|]. cbn beta iota. rewrite N.eqb_refl. cbn [negb].
        eapply runs_bind; [exact HP1|]. eapply runs_bind; [exact HP2|]. eapply runs_bind; [apply Tn|].
        unfold hasLeftChild. rewrite NL, ED. rewrite (proj2 (N.eqb_neq _ _) E0). cbn [negb andb].
        eapply runs_bind; [apply runs_lift; rewrite <- A1; apply (nav_left n a' len' Hn A5 Hls)|]. exact Ry.
      * assert (Hy : y < n - 1) by (apply DIn_range in Gy1; lia).
        split.
        -- split; auto. apply A6'. apply DI_left; auto. rewrite A1. auto.
        -- intros z (Hz & Hz'). destruct (A6 z Hz) as [Hlt|Hd].
           ++ apply DIn_range in Gy1; lia.
           ++ inversion Hd; subst.
              ** lia.
              ** apply Gy2. rewrite A1 in *. auto.
              ** lia.
Qed.

End Honest.
